(** Proofs about Tls.v. *)
From Coq Require Import ZArith List Bool Lia Arith.
From Coq Require Import Init.Byte.
From Verif Require Import Base Tls.
Import ListNotations.
Open Scope Z_scope.

(** What the caller asked for: the context's own mode if one was given, else
    [cert_reqs]. *)
Definition wanted (b : base) : vmode := if b_custom b then x_mode (b_ctx b) else b_reqs b.

(** The peer passed what was asked. *)
Definition passed (b : base) (p : peer) : Prop :=
  p_answers p = true
  /\ (wanted b <> CERT_NONE -> exists c, p_cert p = Some c /\ p_chain p = true)
  /\ (x_check (b_ctx b) = true -> p_name p = true).

(** Same configuration; only the context's mode may have been set. *)
Definition same_conf (b b' : base) : Prop :=
  b_custom b' = b_custom b /\ b_reqs b' = b_reqs b
  /\ x_proto (b_ctx b') = x_proto (b_ctx b) /\ x_check (b_ctx b') = x_check (b_ctx b)
  /\ b_ca b' = b_ca b /\ b_cert b' = b_cert b /\ b_ciphers b' = b_ciphers b
  /\ (b_custom b = true -> b_ctx b' = b_ctx b).

Lemma same_refl : forall b, same_conf b b.
Proof. intros b. repeat split; auto. Qed.

Lemma same_trans : forall a b c, same_conf a b -> same_conf b c -> same_conf a c.
Proof.
  intros a b c (A1 & A2 & A3 & A4 & A5 & A6 & A7 & A8) (B1 & B2 & B3 & B4 & B5 & B6 & B7 & B8).
  unfold same_conf. repeat split; try congruence.
  intros H. rewrite B8 by congruence. auto.
Qed.

Lemma same_wanted : forall a b, same_conf a b -> wanted b = wanted a.
Proof.
  intros a b (A1 & A2 & A3 & A4 & A5 & A6 & A7 & A8). unfold wanted. rewrite A1, A2.
  destruct (b_custom a); [rewrite A8 by reflexivity|]; reflexivity.
Qed.

Lemma same_passed : forall a b p, same_conf a b -> passed b p -> passed a p.
Proof.
  intros a b p S (H1 & H2 & H3). split; [exact H1|]. rewrite (same_wanted _ _ S) in H2.
  split; [exact H2|]. destruct S as (_ & _ & _ & S & _). rewrite S in H3. exact H3.
Qed.

Lemma wrap_same : forall server named loads b b' k,
  wrap server named loads b = (b', k) -> same_conf b b'.
Proof.
  intros server named loads b b' k H. unfold wrap in H.
  destruct b as [[pr m ch] cu rq ca ce ci]; cbn in H |- *.
  destruct cu; [|destruct rq, ch; cbn in H].
  all: repeat match type of H with
       | context [if ?c then _ else _] => destruct c; cbn in H
       | context [match ?c with _ => _ end] => destruct c; cbn in H
       end; inversion H; subst; unfold same_conf; cbn; repeat split; auto; discriminate.
Qed.

(** Where wrapping works, the context has the mode asked for. *)
Lemma wrap_mode : forall server named loads b b',
  wrap server named loads b = (b', None) -> x_mode (b_ctx b') = wanted b.
Proof.
  intros server named loads b b' H. unfold wrap in H.
  destruct b as [[pr m ch] cu rq ca ce ci]; unfold wanted; cbn in H |- *.
  destruct cu; [|destruct rq, ch; cbn in H].
  all: repeat match type of H with
       | context [if ?c then _ else _] => destruct c; cbn in H
       | context [match ?c with _ => _ end] => destruct c; cbn in H
       end; inversion H; subst; reflexivity.
Qed.

Lemma handshake_passed : forall b p, handshake (b_ctx b) false p = true ->
  x_mode (b_ctx b) = wanted b -> passed b p.
Proof.
  intros b p H E. unfold handshake in H. apply andb_prop in H as [H H3].
  apply andb_prop in H as [H1 H2]. split; [exact H1|]. rewrite <- E. split.
  - intros N. destruct (x_mode (b_ctx b)); [congruence| |];
      (destruct (p_cert p) as [c|]; [exists c; auto|discriminate]).
  - intros C. rewrite C in H3. exact H3.
Qed.

(** * Histories of a client *)

Record inv (b0 : base) (s : sock) : Prop := mkinv {
  i_conf : same_conf b0 (s_base s);
  i_handle : forall n, s_handle s = Some n ->
    (n < s_next s)%nat /\ ~ In n (s_closed s)
    /\ exists p, peer_of n (s_peers s) = Some p /\ passed b0 p;
  i_wire : forall n bs, In (n, bs) (s_wire s) ->
    exists p, peer_of n (s_peers s) = Some p /\ passed b0 p;
  i_peers : forall n p, In (n, p) (s_peers s) -> (n < s_next s)%nat;
  i_closed : forall n, In n (s_closed s) -> (n < s_next s)%nat;
  i_once : NoDup (s_closed s);
  i_all : forall n, (n < s_next s)%nat -> In n (s_closed s) \/ s_handle s = Some n }.

Lemma inv_new : forall b, inv b (new_sock b).
Proof.
  intros b. constructor; cbn; try (intros; contradiction); try discriminate.
  - apply same_refl.
  - constructor.
  - intros. lia.
Qed.

Lemma peer_of_in : forall n l p, peer_of n l = Some p -> In (n, p) l.
Proof.
  intros n. induction l as [|[m q] l IH]; cbn; intros p H; [discriminate|].
  destruct (Nat.eqb m n) eqn:E; [|auto]. apply Nat.eqb_eq in E. inversion H; subst. auto.
Qed.

(** A socket that did not connect. *)
Lemma inv_lost : forall b0 s b, inv b0 s -> s_handle s = None -> same_conf b0 b ->
  inv b0 (mksock b (s_handle s) (s_valid s) (S (s_next s)) (s_next s :: s_closed s)
            (s_wire s) (s_peers s)).
Proof.
  intros b0 s b I Hh Hb. destruct I. constructor; cbn.
  - exact Hb.
  - rewrite Hh. discriminate.
  - assumption.
  - intros n p H. apply i_peers0 in H. lia.
  - intros n [<-|H]; [lia|]. apply i_closed0 in H. lia.
  - constructor; [|assumption]. intros H. apply i_closed0 in H. lia.
  - intros n H. destruct (Nat.eq_dec n (s_next s)); [left; left; auto|].
    destruct (i_all0 n) as [H1|H1]; [lia|auto|]. auto.
Qed.

Lemma connect_inv : forall named l b0 s, inv b0 s -> s_handle s = None ->
  forall r s', connect named l s = (r, s') ->
  inv b0 s' /\ s_valid s' = s_valid s /\ s_wire s' = s_wire s
  /\ match r with
     | Ok _ => exists n p, s_handle s' = Some n /\ peer_of n (s_peers s') = Some p
         /\ x_mode (b_ctx (s_base s')) = wanted b0
     | Raise _ => s_handle s' = None
     | Diverge => False
     end.
Proof.
  intros named. induction l as [|a l IH]; intros b0 s I Hh r s' H; cbn [connect] in H.
  - inversion H; subst. auto.
  - destruct (negb (a_socket a)); [inversion H; subst; auto|].
    destruct (wrap false named (a_loads a) (s_base s)) as [b [k|]] eqn:W.
    + inversion H; subst. pose proof (wrap_same _ _ _ _ _ _ W) as S.
      pose proof (same_trans _ _ _ (i_conf _ _ I) S) as S'.
      split; [apply inv_lost; assumption|]. cbn. auto.
    + pose proof (wrap_same _ _ _ _ _ _ W) as S.
      pose proof (same_trans _ _ _ (i_conf _ _ I) S) as S'.
      assert (L : inv b0 (mksock b (s_handle s) (s_valid s) (Datatypes.S (s_next s))
                 (s_next s :: s_closed s) (s_wire s) (s_peers s)))
        by (apply inv_lost; assumption).
      destruct (a_peer a) as [p|]; [|exact (IH _ _ L Hh _ _ H)].
      destruct (handshake (b_ctx b) false p) eqn:Hs; [|exact (IH _ _ L Hh _ _ H)].
      inversion H; subst r s'; clear H. cbn.
      assert (P : passed b0 p).
      { apply (same_passed _ b); [exact S'|]. apply handshake_passed; [exact Hs|].
        rewrite (wrap_mode _ _ _ _ _ W). symmetry. apply same_wanted. exact S. }
      split; [|split; [reflexivity|split; [reflexivity|]]].
      * destruct I. constructor; cbn.
        -- exact S'.
        -- intros n E. inversion E; subst n. split; [lia|]. split.
           { intros Hc. apply i_closed0 in Hc. lia. }
           rewrite Nat.eqb_refl. eauto.
        -- intros n bs Hw. destruct (i_wire0 _ _ Hw) as (q & Hq & Pq).
           destruct (Nat.eqb (s_next s) n) eqn:E; [|eauto].
           apply Nat.eqb_eq in E. subst n. apply peer_of_in, i_peers0 in Hq. lia.
        -- intros n q [E|Hq]; [inversion E; lia|]. apply i_peers0 in Hq. lia.
        -- intros n Hc. apply i_closed0 in Hc. lia.
        -- assumption.
        -- intros n Hn. destruct (Nat.eq_dec n (s_next s)) as [->|D]; [auto|].
           destruct (i_all0 n) as [H1|H1]; [lia|auto|congruence].
      * exists (s_next s), p. rewrite Nat.eqb_refl. repeat split.
        rewrite (wrap_mode _ _ _ _ _ W). apply same_wanted. exact (i_conf _ _ I).
Qed.

Lemma inv_valid : forall b0 s v, inv b0 s ->
  inv b0 (mksock (s_base s) (s_handle s) v (s_next s) (s_closed s) (s_wire s) (s_peers s)).
Proof. intros b0 s v I. destruct I. constructor; assumption. Qed.

Lemma open_inv : forall cb host addrs b0 s r s', inv b0 s ->
  tls_open cb host addrs s = (r, s') -> inv b0 s' /\ s_wire s' = s_wire s.
Proof.
  intros cb host addrs b0 s r s' I H. unfold tls_open in H.
  destruct (s_handle s) eqn:Hh; [inversion H; subst; auto|].
  destruct addrs as [l|]; [|inversion H; subst; auto].
  destruct (connect _ l s) as [[u|e|] s1] eqn:C;
    destruct (connect_inv _ _ _ _ I Hh _ _ C) as (I1 & _ & W1 & R);
    try (inversion H; subst; auto; fail).
  destruct (verifies _); [|inversion H; subst; auto].
  destruct (cb _ _); inversion H; subst; auto. split; [apply inv_valid; assumption|exact W1].
Qed.

Lemma step_inv : forall cb host o b0 s r s', inv b0 s -> step cb host o s = (r, s') -> inv b0 s'.
Proof.
  intros cb host o b0 s r s' I H. destruct o; cbn [step] in H.
  - eapply open_inv; eassumption.
  - unfold tls_close in H. destruct (s_handle s) as [n|] eqn:Hh; inversion H; subst; [|exact I].
    destruct I. destruct (i_handle0 n Hh) as (Hn & Hc & p & Hp & P). constructor; cbn; auto.
    + discriminate.
    + intros m [<-|Hm]; auto.
    + constructor; assumption.
    + intros m Hm. destruct (i_all0 m Hm) as [A|A]; [auto|]. left. left. congruence.
  - unfold tls_write in H. destruct (s_handle s) as [n|] eqn:Hh; inversion H; subst; [|exact I].
    destruct I. destruct (i_handle0 n Hh) as (Hn & Hc & p & Hp & P). constructor; cbn; auto.
    + intros m E. inversion E; subst m. eauto.
    + intros m b Hm. apply in_app_or in Hm as [Hm|[Hm|[]]]; [eauto|]. inversion Hm; subst. eauto.
    + intros m Hm. rewrite <- Hh. auto.
Qed.

Lemma history_inv : forall cb host l b0 s, inv b0 s -> inv b0 (snd (history cb host l s)).
Proof.
  intros cb host. induction l as [|o r IH]; intros b0 s I; cbn [history]; [exact I|].
  destruct (step cb host o s) as [x s1] eqn:E.
  pose proof (IH _ _ (step_inv _ _ _ _ _ _ _ I E)) as I2.
  destruct (history cb host r s1) as [xs s2]. exact I2.
Qed.
