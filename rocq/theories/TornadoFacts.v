(** Facts about the Tornado lock and transport. *)
From Coq Require Import ZArith List Bool Lia ZifyBool ZifyNat.
From Coq Require Import Init.Byte.
From Verif Require Import Base Bytes BytesFacts Tornado.
Import ListNotations.
Open Scope Z_scope.

(** [r] users have left; the next one, if any, is inside or about to be. *)
Record linv (s : lsys) (r : nat) : Prop := {
  li_le : (r <= created (the_lock s))%nat;
  li_waiters : waiters (the_lock s) = seq r (created (the_lock s) - r);
  li_resolved : forall f, resolved (the_lock s) f = (f <? r)%nat;
  li_left : forall i, (i < r)%nat -> phases s i = Left;
  li_head : (r < created (the_lock s))%nat ->
            phases s r = Inside \/ ((0 < r)%nat /\ phases s r = Waiting (r - 1));
  li_wait : forall i, (r < i < created (the_lock s))%nat -> phases s i = Waiting (i - 1);
  li_out : forall i, (created (the_lock s) <= i)%nat -> phases s i = Absent }.

Lemma lstart_inv : linv lstart 0.
Proof. constructor; cbn; intros; try lia; reflexivity. Qed.

Lemma upd_eq {A} (f : nat -> A) i a : upd f i a i = a.
Proof. unfold upd. rewrite Nat.eqb_refl. reflexivity. Qed.
Lemma upd_neq {A} (f : nat -> A) i j a : j <> i -> upd f i a j = f j.
Proof. intros H. unfold upd. apply Nat.eqb_neq in H. rewrite H. reflexivity. Qed.

Lemma last_seq n : forall a, last_opt (seq a (S n)) = Some (a + n)%nat.
Proof.
  induction n as [|n IH]; intros a; [cbn; f_equal; lia|].
  change (seq a (S (S n))) with (a :: seq (S a) (S n)).
  change (last_opt (a :: seq (S a) (S n))) with (last_opt (seq (S a) (S n))).
  rewrite IH. f_equal. lia.
Qed.

Lemma lstep_inv s r e s' : linv s r -> lstep s e = Some s' ->
  linv s' r \/ linv s' (S r).
Proof.
  intros I E. destruct I as [Hle Hw Hr Hl Hh Hwt Ho]. destruct s as [[ws rs n] ph].
  cbn [the_lock waiters resolved created phases] in *. destruct e as [|i|i]; cbn [lstep] in E.
  - left. unfold acquire, acquired in E. cbn [the_lock waiters resolved created phases] in E.
    injection E as <-. rewrite Hw, seq_length.
    destruct (Nat.eq_dec n r) as [->|Hn].
    + replace (r - r)%nat with O by lia. cbn [seq app Nat.ltb Nat.leb].
      constructor; cbn [the_lock waiters resolved created phases]; intros; try lia.
      * replace (S r - r)%nat with 1%nat by lia. reflexivity.
      * apply Hr.
      * rewrite upd_neq by lia. apply Hl. assumption.
      * left. apply upd_eq.
      * rewrite upd_neq by lia. apply Ho. lia.
    + replace (0 <? n - r)%nat with true by lia.
      destruct (n - r)%nat as [|m] eqn:Em; [lia|]. rewrite last_seq.
      constructor; cbn [the_lock waiters resolved created phases]; intros; try lia.
      * replace (S n - r)%nat with (S m + 1)%nat by lia. rewrite seq_app.
        cbn [seq]. do 3 f_equal. lia.
      * apply Hr.
      * rewrite upd_neq by lia. apply Hl. assumption.
      * rewrite upd_neq by lia. apply Hh. lia.
      * destruct (Nat.eq_dec i n) as [->|Hi].
        -- rewrite upd_eq. f_equal. lia.
        -- rewrite upd_neq by lia. apply Hwt. lia.
      * rewrite upd_neq by lia. apply Ho. lia.
  - left. cbn [the_lock phases] in E. destruct (ph i) eqn:Ei; try discriminate.
    cbn [resolved] in E. rewrite Hr in E. destruct (blocker <? r)%nat eqn:Eb; [|discriminate].
    injection E as <-.
    assert (i = r).
    { destruct (lt_eq_lt_dec i r) as [[H|H]|H]; [rewrite (Hl i H) in Ei; discriminate|exact H|].
      destruct (le_lt_dec n i) as [Hn|Hn]; [rewrite (Ho i Hn) in Ei; discriminate|].
      rewrite (Hwt i ltac:(lia)) in Ei. injection Ei as <-. lia. }
    subst i.
    constructor; cbn [the_lock waiters resolved created phases]; intros; auto.
    * rewrite upd_neq by lia. auto.
    * left. apply upd_eq.
    * rewrite upd_neq by lia. auto.
    * destruct (Nat.eq_dec i r) as [->|Hi].
      -- rewrite (Ho r ltac:(lia)) in Ei. discriminate.
      -- rewrite upd_neq by lia. auto.
  - right. cbn [the_lock phases] in E. destruct (ph i) eqn:Ei; try discriminate.
    assert (i = r /\ (r < n)%nat).
    { destruct (le_lt_dec n i) as [Hn|Hn]; [rewrite (Ho i Hn) in Ei; discriminate|].
      destruct (lt_eq_lt_dec i r) as [[H|H]|H]; [rewrite (Hl i H) in Ei; discriminate|lia|].
      rewrite (Hwt i ltac:(lia)) in Ei. discriminate. }
    destruct H as [-> Hn]. unfold release in E. cbn [waiters resolved created] in E.
    rewrite Hw in E. destruct (n - r)%nat as [|m] eqn:Em; [lia|]. cbn [seq] in E.
    injection E as <-.
    constructor; cbn [the_lock waiters resolved created phases]; intros; try lia.
    * f_equal. lia.
    * destruct (Nat.eq_dec f r) as [->|Hf]; [rewrite upd_eq; lia|].
      rewrite upd_neq by lia. rewrite Hr. lia.
    * destruct (Nat.eq_dec i r) as [->|Hi]; [apply upd_eq|]. rewrite upd_neq by lia.
      apply Hl. lia.
    * right. split; [lia|]. rewrite upd_neq by lia. rewrite (Hwt (S r)) by lia. f_equal.
    * rewrite upd_neq by lia. apply Hwt. lia.
    * rewrite upd_neq by lia. apply Ho. lia.
Qed.

Lemma lrun_inv es : forall s r s', linv s r -> lrun es s = Some s' -> exists r', linv s' r'.
Proof.
  induction es as [|e es IH]; intros s r s' I E; cbn [lrun] in E.
  - injection E as <-. eauto.
  - destruct (lstep s e) as [s1|] eqn:E1; [|discriminate].
    destruct (lstep_inv _ _ _ _ I E1) as [I1|I1]; eapply IH; eassumption.
Qed.

Lemma linv_inside s r i : linv s r -> phases s i = Inside ->
  i = r /\ (r < created (the_lock s))%nat.
Proof.
  intros I Ei. destruct I as [Hle Hw Hr Hl Hh Hwt Ho].
  destruct (le_lt_dec (created (the_lock s)) i) as [Hn|Hn];
    [rewrite (Ho i Hn) in Ei; discriminate|].
  destruct (lt_eq_lt_dec i r) as [[H|H]|H]; [rewrite (Hl i H) in Ei; discriminate|lia|].
  rewrite (Hwt i ltac:(lia)) in Ei. discriminate.
Qed.

(** * Frames *)

Definition frame_bytes (f : list byte) : list byte :=
  be_bytes 4 (Z.of_nat (length f)) ++ f.

(** What follows the last whole frame. *)
Definition incomplete (tail : list byte) : Prop :=
  (length tail < 4)%nat
  \/ unpack_signed 4 (firstn 4 tail) < 0
  \/ Z.of_nat (length tail) - 4 < unpack_signed 4 (firstn 4 tail).

(** With [r] users gone: their answers are the first [r] frames, and the stream
    holds the remaining ones, perhaps without the header of the next. *)
Definition rinv (frames : list (list byte)) (tail : list byte) (s : rsys) (r : nat) : Prop :=
  linv (users s) r
  /\ (forall i, (i < r)%nat -> exists f, nth_error frames i = Some f
        /\ answer s i = Some (Ok f))
  /\ (forall i, (r <= i)%nat -> answer s i = None)
  /\ (forall i, (r < i)%nat -> header s i = None)
  /\ match header s r with
     | None => rest s = concat (map frame_bytes (skipn r frames)) ++ tail
     | Some n => phases (users s) r = Inside
         /\ match nth_error frames r with
            | Some f => n = Z.of_nat (length f)
                /\ rest s = f ++ concat (map frame_bytes (skipn (S r) frames)) ++ tail
            | None => n < 0 \/ Z.of_nat (length (rest s)) < n
            end
     end.

Lemma skipn_nth {A} (l : list A) r x : nth_error l r = Some x ->
  skipn r l = x :: skipn (S r) l.
Proof.
  revert r. induction l as [|y l IH]; intros [|r] H; try discriminate.
  - cbn in H. injection H as ->. reflexivity.
  - cbn in H. rewrite (skipn_cons r y l). apply IH, H.
Qed.

Lemma firstn_app_exact {A} n (a b : list A) : length a = n -> firstn n (a ++ b) = a.
Proof.
  intros <-. rewrite firstn_app, Nat.sub_diag, firstn_all, firstn_O, app_nil_r. reflexivity.
Qed.
Lemma skipn_app_exact {A} n (a b : list A) : length a = n -> skipn n (a ++ b) = b.
Proof. intros <-. rewrite skipn_app, Nat.sub_diag, skipn_all. reflexivity. Qed.

Lemma unpack_be z : 0 <= z < 2 ^ 31 -> unpack_signed 4 (be_bytes 4 z) = z.
Proof. intros H. apply unpack_pack; [lia|]. unfold in_signed. change (8 * Z.of_nat 4 - 1) with 31. lia. Qed.

Lemma be4_len z : length (be_bytes 4 z) = 4%nat.
Proof. unfold be_bytes. rewrite rev_length. reflexivity. Qed.

Lemma lstep_same_left s r e s' : linv s r -> lstep s e = Some s' ->
  (forall i, e <> Release i) -> linv s' r
  /\ (phases s r = Inside -> phases s' r = Inside).
Proof.
  intros I E He. destruct (lstep_inv _ _ _ _ I E) as [I'|I'].
  - split; [exact I'|]. intros H. destruct (linv_inside _ _ _ I H) as [_ Hc].
    destruct e as [|i|i]; [| |exfalso; apply (He i); reflexivity]; cbn [lstep] in E.
    + unfold acquire in E. injection E as <-. cbn [phases]. rewrite upd_neq by lia. exact H.
    + destruct (phases s i) eqn:Ei; try discriminate.
      destruct (resolved (the_lock s) blocker); [|discriminate]. injection E as <-.
      cbn [phases]. rewrite upd_neq; [exact H|]. intros ->. congruence.
  - exfalso. pose proof (li_left _ _ I' r ltac:(lia)) as HL.
    destruct e as [|i|i]; [| |exfalso; apply (He i); reflexivity]; cbn [lstep] in E.
    + unfold acquire in E. injection E as <-. cbn [phases] in HL.
      destruct (Nat.eq_dec r (created (the_lock s))) as [->|Hn].
      * rewrite upd_eq in HL. destruct (if acquired _ then _ else _); discriminate.
      * rewrite upd_neq in HL by exact Hn.
        destruct (li_head _ _ I ltac:(pose proof (li_le _ _ I); lia)) as [H|[_ H]]; congruence.
    + destruct (phases s i) eqn:Ei; try discriminate.
      destruct (resolved (the_lock s) blocker); [|discriminate]. injection E as <-.
      cbn [phases] in HL. destruct (Nat.eq_dec r i) as [->|Hn]; [rewrite upd_eq in HL; discriminate|].
      rewrite upd_neq in HL by exact Hn.
      destruct (le_lt_dec (created (the_lock s)) r) as [Hc|Hc].
      * rewrite (li_out _ _ I r Hc) in HL. discriminate.
      * destruct (li_head _ _ I Hc) as [H|[_ H]]; congruence.
Qed.

Lemma lstep_release s r i s' : linv s r -> lstep s (Release i) = Some s' ->
  i = r /\ linv s' (S r).
Proof.
  intros I E. assert (Hi : phases s i = Inside).
  { cbn [lstep] in E. destruct (phases s i); try discriminate. reflexivity. }
  destruct (linv_inside _ _ _ I Hi) as [-> _]. split; [reflexivity|].
  destruct (lstep_inv _ _ _ _ I E) as [I'|I']; [|exact I'].
  exfalso. cbn [lstep] in E. rewrite Hi in E.
  destruct (release (the_lock s)) as [l| |] eqn:El; try discriminate. injection E as <-.
  pose proof (li_waiters _ _ I') as W. cbn [the_lock] in W. unfold release in El.
  pose proof (li_waiters _ _ I) as W0. rewrite W0 in El.
  destruct (created (the_lock s) - r)%nat as [|m] eqn:Em; [discriminate|].
  cbn [seq] in El. injection El as <-. cbn [waiters created] in W.
  rewrite Em in W. apply (f_equal (@length nat)) in W. rewrite !seq_length in W. lia.
Qed.

Definition no_error (e : rev_) : bool :=
  match e with StreamError _ => false | _ => true end.

Lemma some_inj {A} (a b : A) : Some a = Some b -> a = b.
Proof. congruence. Qed.

Lemma rstep_inv frames tail s r e s' : incomplete tail ->
  (forall f, In f frames -> Z.of_nat (length f) < 2 ^ 31) ->
  rinv frames tail s r -> rstep s e = Some s' -> no_error e = true ->
  exists r', rinv frames tail s' r'.
Proof.
  intros Ht Hf (I & A1 & A2 & H1 & H2) E He.
  destruct e as [|i|i|i|i]; cbn [rstep] in E; try discriminate He.
  - destruct (lstep (users s) Acquire) as [u|] eqn:Eu; [|discriminate]. injection E as <-.
    destruct (lstep_same_left _ _ _ _ I Eu ltac:(discriminate)) as [I' Hp].
    exists r. unfold rinv. cbn [users rest header answer].
    split; [exact I'|]. split; [exact A1|]. split; [exact A2|]. split; [exact H1|].
    destruct (header s r); [|exact H2]. destruct H2 as [P H2]. split; [auto|exact H2].
  - destruct (lstep (users s) (Resume i)) as [u|] eqn:Eu; [|discriminate]. injection E as <-.
    destruct (lstep_same_left _ _ _ _ I Eu ltac:(discriminate)) as [I' Hp].
    exists r. unfold rinv. cbn [users rest header answer].
    split; [exact I'|]. split; [exact A1|]. split; [exact A2|]. split; [exact H1|].
    destruct (header s r); [|exact H2]. destruct H2 as [P H2]. split; [auto|exact H2].
  - destruct (header s i) eqn:Eh; [discriminate|]. unfold inside in E.
    destruct (phases (users s) i) eqn:Ep; try discriminate.
    destruct (4 <=? length (rest s))%nat eqn:EL; [|discriminate].
    apply some_inj in E. subst s'.
    destruct (linv_inside _ _ _ I Ep) as [-> _]. rewrite Eh in H2.
    exists r. unfold rinv. cbn [users rest header answer].
    split; [exact I|]. split; [exact A1|]. split; [exact A2|].
    split; [intros j Hj; rewrite upd_neq by lia; auto|].
    rewrite upd_eq. split; [exact Ep|].
    destruct (nth_error frames r) as [f|] eqn:En.
    + rewrite (skipn_nth _ _ _ En) in H2. cbn [map concat] in H2.
      unfold frame_bytes at 1 in H2. rewrite <- !app_assoc in H2. rewrite H2.
      rewrite firstn_app_exact, skipn_app_exact by apply be4_len.
      rewrite unpack_be; [split; reflexivity|].
      specialize (Hf f (nth_error_In _ _ En)). lia.
    + apply nth_error_None in En. rewrite skipn_all2 in H2 by lia.
      cbn [map concat app] in H2. rewrite H2 in *.
      rewrite skipn_length. unfold incomplete in Ht. lia.
  - destruct (header s i) as [n|] eqn:Eh; [|discriminate]. unfold inside in E.
    destruct (phases (users s) i) eqn:Ep; try discriminate.
    destruct (linv_inside _ _ _ I Ep) as [-> _]. rewrite Eh in H2. destruct H2 as [_ H2].
    cbn [andb] in E. destruct (0 <=? n) eqn:E0; [|discriminate]. cbn [andb] in E.
    destruct (n <=? Z.of_nat (length (rest s))) eqn:En; [|discriminate].
    destruct (nth_error frames r) as [f|] eqn:Ef; [|lia]. destruct H2 as [-> H2].
    destruct (lstep (users s) (Release r)) as [u|] eqn:Eu; [|discriminate]. injection E as <-.
    destruct (lstep_release _ _ _ _ I Eu) as [_ I'].
    rewrite Nat2Z.id. exists (S r). unfold rinv. cbn [users rest header answer].
    split; [exact I'|]. split; [|split; [|split]].
    + intros j Hj. destruct (Nat.eq_dec j r) as [->|Hn].
      * exists f. split; [exact Ef|]. rewrite upd_eq, H2, firstn_app_exact by reflexivity.
        reflexivity.
      * rewrite upd_neq by lia. apply A1. lia.
    + intros j Hj. rewrite upd_neq by lia. apply A2. lia.
    + intros j Hj. apply H1. lia.
    + rewrite (H1 (S r)) by lia. rewrite H2, skipn_app_exact by reflexivity. reflexivity.
Qed.

Lemma rrun_inv frames tail es : forall s r s', incomplete tail ->
  (forall f, In f frames -> Z.of_nat (length f) < 2 ^ 31) ->
  rinv frames tail s r -> rrun es s = Some s' -> forallb no_error es = true ->
  exists r', rinv frames tail s' r'.
Proof.
  induction es as [|e es IH]; intros s r s' Ht Hf I E He; cbn [rrun forallb] in *.
  - injection E as <-. eauto.
  - apply andb_prop in He. destruct He as [He1 He2].
    destruct (rstep s e) as [s1|] eqn:E1; [|discriminate].
    destruct (rstep_inv _ _ _ _ _ _ Ht Hf I E1 He1) as [r1 I1].
    eapply IH; eassumption.
Qed.

Lemma rstart_inv frames tail :
  rinv frames tail (rstart (concat (map frame_bytes frames) ++ tail)) 0.
Proof.
  unfold rinv, rstart. cbn [users rest header answer skipn].
  split; [apply lstart_inv|]. split; [intros i Hi; lia|]. repeat split; reflexivity.
Qed.

(** Every run of the readers is a run of the lock. *)
Lemma rstep_lock s e s' : rstep s e = Some s' ->
  exists es, lrun es (users s) = Some (users s').
Proof.
  intros E.
  assert (one : forall l u, lstep (users s) l = Some u -> exists es, lrun es (users s) = Some u).
  { intros l u H. exists [l]. cbn [lrun]. rewrite H. reflexivity. }
  destruct e as [|i|i|i|i]; cbn [rstep] in E.
  - destruct (lstep (users s) Acquire) eqn:Eu; [|discriminate]. injection E as <-. eauto.
  - destruct (lstep (users s) (Resume i)) eqn:Eu; [|discriminate]. injection E as <-. eauto.
  - destruct (header s i); [discriminate|]. destruct (_ && _); [|discriminate].
    injection E as <-. exists []. reflexivity.
  - destruct (header s i); [|discriminate]. destruct (_ && _ && _); [|discriminate].
    destruct (lstep (users s) (Release i)) eqn:Eu; [|discriminate]. injection E as <-. eauto.
  - destruct (inside s i); [|discriminate].
    destruct (lstep (users s) (Release i)) eqn:Eu; [|discriminate]. injection E as <-. eauto.
Qed.

Lemma rrun_linv es : forall s r s', linv (users s) r -> rrun es s = Some s' ->
  exists r', linv (users s') r'.
Proof.
  induction es as [|e es IH]; intros s r s' I E; cbn [rrun] in E.
  - injection E as <-. eauto.
  - destruct (rstep s e) as [s1|] eqn:E1; [|discriminate].
    destruct (rstep_lock _ _ _ E1) as [ls El].
    destruct (lrun_inv _ _ _ _ I El) as [r1 I1]. eapply IH; eassumption.
Qed.
