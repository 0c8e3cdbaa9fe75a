(** C81: the time-out of a TSocket. *)
From Coq Require Import ZArith List Bool Lia.
From Coq Require Import ZifyBool ZifyNat ZifyN.
From Verif Require Import Timeout.
Import ListNotations.
Open Scope Z_scope.

(** [isOpen]: True exactly with a handle on which there is something, nothing yet,
    or where peeking is refused; then nothing has changed.  Otherwise the handle is
    closed. *)
Theorem C81_is_open p s :
  (fst (is_open p s) = true <-> t_handle s <> None /\ (p = PByte \/ p = PBlock \/ p = PFlags))
  /\ (fst (is_open p s) = true -> snd (is_open p s) = s)
  /\ (fst (is_open p s) = false -> t_handle (snd (is_open p s)) = None
                                  /\ t_own (snd (is_open p s)) = t_own s).
Proof.
  destruct s as [w [t|]], p; cbn; intuition congruence.
Qed.

(** What each operation does to the handle: [open] connects only without one, with
    the time-out set before; [close] leaves none; [setTimeout] reaches an existing
    one; none but [setTimeout] changes what was set. *)
Theorem C81_ops s :
  t_handle (do_op TClose s) = None
  /\ (forall b, t_handle s <> None -> do_op (TOpen b) s = s)
  /\ (forall b, t_handle s = None ->
       t_handle (do_op (TOpen b) s) = if b then Some (t_own s) else None)
  /\ (forall t, t_own (do_op (TSet t) s) = t
       /\ (t_handle s <> None -> t_handle (do_op (TSet t) s) = Some t)
       /\ (t_handle s = None -> t_handle (do_op (TSet t) s) = None))
  /\ (forall o, (forall t, o <> TSet t) -> t_own (do_op o s) = t_own s).
Proof.
  destruct s as [w h]. split; [reflexivity|]. split; [|split; [|split]].
  - intros b H. destruct h; [reflexivity|]. exfalso. apply H. reflexivity.
  - cbn. intros b ->. destruct b; reflexivity.
  - intros t. split; [reflexivity|]. cbn. split; [|intros ->; reflexivity].
    destruct h; [reflexivity|]. intros H. exfalso. apply H. reflexivity.
  - intros o H. destruct o as [t|b| |t|p]; cbn.
    + exfalso. exact (H t eq_refl).
    + destruct h, b; reflexivity.
    + reflexivity.
    + reflexivity.
    + unfold is_open. cbn. destruct h; [|reflexivity]. destruct (alive p); reflexivity.
Qed.

(** The argument of the last [setTimeout]. *)
Definition last_set (l : list op) (t0 : tmo) : tmo :=
  fold_left (fun t o => match o with TSet t' => t' | _ => t end) l t0.

(** Without [setHandle], a socket that is open always has the time-out last asked
    for, before or after opening, whatever [isOpen] was called in between. *)
Theorem C81_kept l t : (forall h, ~ In (THandle h) l) ->
  t_handle (do_ops l ts_init) = Some t -> t = last_set l None.
Proof.
  assert (G : forall l s, (forall h, ~ In (THandle h) l) ->
    (forall t, t_handle s = Some t -> t = t_own s) ->
    t_own (do_ops l s) = last_set l (t_own s)
    /\ forall t, t_handle (do_ops l s) = Some t -> t = last_set l (t_own s)).
  { clear. intros l. induction l as [|o l IH]; intros s Hn Hs; [split; [reflexivity|exact Hs]|].
    unfold do_ops, last_set in *. cbn [fold_left].
    assert (E : match o with TSet t' => t' | _ => t_own s end = t_own (do_op o s)
                /\ forall t, t_handle (do_op o s) = Some t -> t = t_own (do_op o s)).
    { destruct s as [w h]. destruct o as [t|b| |h'|p]; cbn [do_op t_own t_handle with_handle] in *.
      - split; [reflexivity|]. destruct h; [intros u U; injection U as <-; reflexivity|discriminate].
      - destruct h as [t|]; [split; [reflexivity|exact Hs]|].
        destruct b; cbn [t_own t_handle]; (split; [reflexivity|]);
          [intros u U; injection U as <-; reflexivity|discriminate].
      - split; [reflexivity|discriminate].
      - exfalso. exact (Hn h' (or_introl eq_refl)).
      - unfold is_open. cbn [t_handle]. destruct h as [t|]; [|split; [reflexivity|discriminate]].
        destruct (alive p); cbn; (split; [reflexivity|]); [exact Hs|discriminate]. }
    destruct E as [E1 E2]. rewrite E1. apply IH; [intros h X; exact (Hn h (or_intror X))|exact E2]. }
  intros Hn H. destruct (G l ts_init Hn) as [_ G2]; [discriminate|]. exact (G2 t H).
Qed.

Example C81_kept_ex :
  t_handle (do_ops [TSet (Some 5); TOpen false; TOpen true; TIsOpen PBlock; TSet (Some 7);
                    TIsOpen PByte; TOpen true] ts_init) = Some (Some 7).
Proof. reflexivity. Qed.

(** Data that comes within the time-out is read, and later than that never. *)
Theorem C81_read s t a eof : t_handle s = Some (Some t) -> 0 < t ->
  read (Some a) eof s = (if a <=? t then if eof then REof else RData else RTimedOut)
  /\ read None eof s = RTimedOut.
Proof.
  intros H Ht. unfold read. rewrite H. destruct (Z.eqb_spec t 0); [lia|]. split; reflexivity.
Qed.

(** Without a time-out a read waits; on a non-blocking socket what is not there at
    once is an error that is not a time-out; without a handle it is AttributeError. *)
Theorem C81_read_other s a eof :
  (t_handle s = Some None ->
     read (Some a) eof s = (if eof then REof else RData) /\ read None eof s = RForever)
  /\ (t_handle s = Some (Some 0) ->
     read (Some a) eof s = (if a <=? 0 then if eof then REof else RData else RUnknown)
     /\ read None eof s = RUnknown)
  /\ (t_handle s = None -> read (Some a) eof s = RAttributeError
                          /\ read None eof s = RAttributeError).
Proof.
  unfold read. repeat split; match goal with H : t_handle s = _ |- _ => rewrite H end; reflexivity.
Qed.

(** [setHandle] does not apply the time-out (defect): what was set before is
    without effect until [setTimeout] is called again or the socket reopened. *)
Theorem C81_handle_lost l t0 t l2 : (forall u, ~ In (TSet u) l2) -> (forall u, ~ In (THandle u) l2) ->
  ~ In TClose l2 -> (forall p, In (TIsOpen p) l2 -> alive p = true) ->
  t_handle (do_ops (l ++ TSet t :: THandle t0 :: l2) ts_init) = Some t0.
Proof.
  intros H1 H2 H3 H4. unfold do_ops. rewrite fold_left_app. cbn [fold_left].
  generalize (fold_left (fun s o => do_op o s) l ts_init). intros s.
  cbn [do_op t_own t_handle with_handle].
  match goal with |- t_handle (fold_left _ l2 ?x) = _ =>
    assert (E : t_handle x = Some t0) by reflexivity; generalize dependent x end.
  induction l2 as [|o l2 IH]; intros x E; [exact E|]. cbn [fold_left]. apply IH.
  - intros u X. exact (H1 u (or_intror X)).
  - intros u X. exact (H2 u (or_intror X)).
  - intros X. exact (H3 (or_intror X)).
  - intros p X. exact (H4 p (or_intror X)).
  - destruct o as [u|b| |u|p]; cbn [do_op].
    + exfalso. exact (H1 u (or_introl eq_refl)).
    + rewrite E. exact E.
    + exfalso. exact (H3 (or_introl eq_refl)).
    + exfalso. exact (H2 u (or_introl eq_refl)).
    + unfold is_open. rewrite E, (H4 p (or_introl eq_refl)). reflexivity.
Qed.

Example C81_handle_ex :
  read None false (do_ops [TSet (Some 5000); THandle None] ts_init) = RForever
  /\ read None false (do_ops [THandle None; TSet (Some 5000)] ts_init) = RTimedOut.
Proof. split; reflexivity. Qed.

(** [isOpen] in threads.  One thread running alone does what [is_open] says. *)
Theorem C81_alone p s t : t_handle s = Some t ->
  exists l, threads l [CStart] s = Some ([COver (fst (is_open p s))], snd (is_open p s)).
Proof.
  intros H. destruct s as [w h]. cbn [t_handle] in H. subst h.
  destruct (alive p) eqn:E.
  - exists [(0%nat, p); (0%nat, p); (0%nat, p); (0%nat, p)].
    unfold is_open. cbn. rewrite E. reflexivity.
  - exists [(0%nat, p); (0%nat, p); (0%nat, p); (0%nat, p); (0%nat, p)].
    unfold is_open. cbn. rewrite E. cbn. reflexivity.
Qed.

(** The answer is decided by what the peek found, not by what comes later. *)
Theorem C81_answer p1 p2 p3 p4 s t : t_handle s = Some t ->
  threads [(0, p1); (0, p2); (0, p3); (0, p4)]%nat [CStart] s
  = Some ([if alive p3 then COver true else CShut], s).
Proof.
  intros H. destruct s as [w h]. cbn [t_handle] in H. subst h. reflexivity.
Qed.

(** Whatever the threads do, in any number and order, the handle ends up closed,
    with its own time-out, or non-blocking; and closed only if a peek found the
    connection gone. *)
Definition remembers (t : tmo) (c : pc) : Prop :=
  match c with
  | CGot u | CPeek u | CBack u _ => u = t \/ u = Some 0
  | _ => True
  end.
Lemma set_pc_Forall P i c cs : Forall P cs -> P c -> Forall P (set_pc i c cs).
Proof.
  intros H Hc. revert i. induction H; intros [|i]; cbn [set_pc]; constructor; auto.
Qed.

Definition doomed (c : pc) : Prop :=
  match c with CBack _ p => alive p = false | CShut | COver false | CFail => True | _ => False end.

Lemma step_keeps t p c s c' s1 : thread_step p c s = Some (c', s1) -> remembers t c ->
  t_handle s = None \/ t_handle s = Some t \/ t_handle s = Some (Some 0) ->
  remembers t c' /\ t_own s1 = t_own s
  /\ (t_handle s1 = None \/ t_handle s1 = Some t \/ t_handle s1 = Some (Some 0)).
Proof.
  intros E R H. destruct s as [w h]. cbn [t_handle t_own] in *.
  destruct c as [|u|u|u q| |b|]; cbn [thread_step t_handle with_handle t_own] in E; try discriminate E;
    destruct h as [x|]; injection E as <- <-; cbn in *; repeat split; auto.
  - destruct H as [H|[H|H]]; try discriminate H; injection H as ->; auto.
  - destruct (alive q); exact I.
  - destruct R as [-> | ->]; auto.
Qed.

Lemma step_alive p c s c' s1 : thread_step p c s = Some (c', s1) -> alive p = true ->
  t_handle s <> None -> ~ doomed c -> t_handle s1 <> None /\ ~ doomed c'.
Proof.
  intros E Hp Hs Hd. destruct s as [w h]. cbn [t_handle] in *.
  destruct c as [|u|u|u q| |b|]; cbn [thread_step t_handle with_handle t_own] in E; try discriminate E;
    destruct h as [x|]; try congruence; injection E as <- <-; cbn in *;
    (split; [try discriminate; try tauto|try (rewrite Hp; discriminate); try tauto]).
  destruct (alive q); cbn; [tauto|]. exfalso. apply Hd. reflexivity.
Qed.

Theorem C81_threads l n s t cs s' : t_handle s = Some t ->
  threads l (repeat CStart n) s = Some (cs, s') ->
  t_own s' = t_own s
  /\ (t_handle s' = None \/ t_handle s' = Some t \/ t_handle s' = Some (Some 0))
  /\ ((forall i p, In (i, p) l -> alive p = true) ->
      t_handle s' <> None /\ Forall (fun c => c <> COver false /\ c <> CFail) cs).
Proof.
  intros Ht H.
  assert (R : forall (P : pc -> Prop), P CStart -> Forall P (repeat CStart n))
    by (intros P HP; apply Forall_forall; intros c Hc; apply repeat_spec in Hc; subst c; exact HP).
  assert (A : t_own s' = t_own s
    /\ (t_handle s' = None \/ t_handle s' = Some t \/ t_handle s' = Some (Some 0))).
  { pose proof (R (remembers t) I) as H0. 
    assert (H2 : t_handle s = None \/ t_handle s = Some t \/ t_handle s = Some (Some 0)) by auto.
    clear R Ht. revert s H H0 H2. generalize (repeat CStart n).
    induction l as [|[i p] l IH]; intros c0 s H H0 H2; cbn [threads] in H.
    - injection H as <- <-. auto.
    - destruct (nth_error c0 i) as [c|] eqn:Ec; [|discriminate H].
      destruct (thread_step p c s) as [[c' s1]|] eqn:Es; [|discriminate H].
      assert (Rc : remembers t c)
        by (rewrite Forall_forall in H0; apply H0; eapply nth_error_In; exact Ec).
      destruct (step_keeps t p c s c' s1 Es Rc H2) as (K1 & <- & K3).
      eapply IH; [exact H|apply set_pc_Forall; assumption|exact K3]. }
  destruct A as [A1 A2]. split; [exact A1|]. split; [exact A2|]. intros Hp.
  assert (B : t_handle s' <> None /\ Forall (fun c => ~ doomed c) cs).
  { pose proof (R (fun c => ~ doomed c) (fun X => X)) as H0.
    assert (H2 : t_handle s <> None) by congruence.
    clear R Ht A1 A2. revert s H H0 H2. generalize (repeat CStart n).
    induction l as [|[i p] l IH]; intros c0 s H H0 H2; cbn [threads] in H.
    - injection H as <- <-. auto.
    - destruct (nth_error c0 i) as [c|] eqn:Ec; [|discriminate H].
      destruct (thread_step p c s) as [[c' s1]|] eqn:Es; [|discriminate H].
      assert (Rc : ~ doomed c)
        by (rewrite Forall_forall in H0; apply H0; eapply nth_error_In; exact Ec).
      destruct (step_alive p c s c' s1 Es (Hp i p (or_introl eq_refl)) H2 Rc) as (K1 & K2).
      eapply (IH (fun j q X => Hp j q (or_intror X))); [exact H|apply set_pc_Forall; assumption|exact K1]. }
  destruct B as [B1 B2]. split; [exact B1|]. eapply Forall_impl; [|exact B2].
  intros c Hc. split; intros ->; apply Hc; exact I.
Qed.

(** Calls that do not overlap (say, under a lock) do no harm: none fails, and
    between them the handle is closed or has its own time-out. *)
Definition busy (c : pc) : bool :=
  match c with CStart | COver _ | CFail => false | _ => true end.
Fixpoint one_at_a_time (l : list (nat * peek)) (cs : list pc) (s : tsock) : Prop :=
  (length (filter busy cs) <= 1)%nat
  /\ match l with
     | [] => True
     | (i, p) :: r =>
         match nth_error cs i with
         | Some c =>
             match thread_step p c s with
             | Some (c', s') => one_at_a_time r (set_pc i c' cs) s'
             | None => True
             end
         | None => True
         end
     end.

Lemma one_busy cs : (length (filter busy cs) <= 1)%nat -> forall i j a b,
  nth_error cs i = Some a -> nth_error cs j = Some b -> busy a = true -> busy b = true -> i = j.
Proof.
  assert (Z : forall cs i a, nth_error cs i = Some a -> busy a = true ->
              (1 <= length (filter busy cs))%nat).
  { clear. intros cs. induction cs as [|c cs IH]; intros [|i] a H B; try discriminate H.
    - injection H as ->. cbn. rewrite B. cbn. lia.
    - cbn in *. specialize (IH i a H B). destruct (busy c); cbn; lia. }
  induction cs as [|c cs IH]; intros L [|i] [|j] a b Hi Hj A B; try discriminate; cbn in *.
  - reflexivity.
  - injection Hi as ->. rewrite A in L. cbn in L. specialize (Z cs j b Hj B). lia.
  - injection Hj as ->. rewrite B in L. cbn in L. specialize (Z cs i a Hi A). lia.
  - f_equal. apply (IH ltac:(destruct (busy c); cbn in L; lia) i j a b Hi Hj A B).
Qed.

Lemma nth_set_pc i c cs : forall j,
  nth_error (set_pc i c cs) j
  = if Nat.eqb i j then match nth_error cs j with Some _ => Some c | None => None end
    else nth_error cs j.
Proof.
  revert i. induction cs as [|x cs IH]; intros [|i] [|j]; cbn; try reflexivity.
  - destruct (Nat.eqb i j); reflexivity.
  - apply IH.
Qed.

Definition fits (t : tmo) (s : tsock) (c : pc) : Prop :=
  match c with
  | CStart | COver _ => True
  | CGot u => u = t /\ t_handle s = Some t
  | CPeek u | CBack u _ => u = t /\ t_handle s <> None
  | CShut => t_handle s = Some t
  | CFail => False
  end.

Theorem C81_exclusive l n s t cs s' : t_handle s = Some t ->
  one_at_a_time l (repeat CStart n) s ->
  threads l (repeat CStart n) s = Some (cs, s') ->
  ~ In CFail cs
  /\ (Forall (fun c => busy c = false) cs -> t_handle s' = None \/ t_handle s' = Some t).
Proof.
  intros Ht.
  assert (H1 : forall i c, nth_error (repeat CStart n) i = Some c -> fits t s c).
  { intros i c H. apply nth_error_In, repeat_spec in H. subst c. exact I. }
  assert (H2 : (forall i c, nth_error (repeat CStart n) i = Some c -> busy c = false) ->
               t_handle s = None \/ t_handle s = Some t) by auto.
  clear Ht. revert s H1 H2. generalize (repeat CStart n).
  induction l as [|[i p] l IH]; intros ds s H1 H2 HO H.
  - cbn in H. injection H as -> ->. split.
    + intros X. apply In_nth_error in X. destruct X as [j X]. exact (H1 j _ X).
    + intros F. apply H2. intros j c X. rewrite Forall_forall in F. apply F, (nth_error_In _ _ X).
  - cbn [threads one_at_a_time] in *. destruct HO as [L HO].
    destruct (nth_error ds i) as [c|] eqn:Ec; [|discriminate H].
    destruct (thread_step p c s) as [[c' s1]|] eqn:Es; [|discriminate H].
    assert (L' : (length (filter busy (set_pc i c' ds)) <= 1)%nat) by (destruct l; apply HO).
    assert (Hi : nth_error (set_pc i c' ds) i = Some c')
      by (rewrite nth_set_pc, Nat.eqb_refl, Ec; reflexivity).
    assert (Hj : forall j, j <> i -> nth_error (set_pc i c' ds) j = nth_error ds j)
      by (intros j N; rewrite nth_set_pc; destruct (Nat.eqb_spec i j); [subst; contradiction|reflexivity]).
    assert (Q : busy c = true \/ busy c' = true -> forall j d, j <> i -> nth_error ds j = Some d ->
                busy d = false).
    { intros [B|B] j d N D; destruct (busy d) eqn:Bd; try reflexivity; exfalso; apply N.
      - exact (one_busy ds L j i d c D Ec Bd B).
      - rewrite <- (Hj j N) in D. exact (one_busy _ L' j i d c' D Hi Bd B). }
    pose proof (H1 i c Ec) as F.
    assert (K : fits t s1 c' /\ (busy c' = false -> busy c = true -> t_handle s1 = None \/ t_handle s1 = Some t)
                /\ (busy c = false -> s1 = s)
                /\ (busy c = false -> busy c' = false -> t_handle s1 = None)).
    { destruct s as [w h].
      destruct c as [|u|u|u q| |b|]; cbn [thread_step t_handle with_handle t_own] in *;
        try discriminate Es; try contradiction.
      - destruct h as [u|]; injection Es as <- <-.
        + assert (E : Some u = None \/ Some u = Some t).
          { apply H2. intros j d D. destruct (Nat.eq_dec j i) as [->|N].
            - rewrite Ec in D. injection D as <-. reflexivity.
            - exact (Q (or_intror eq_refl) j d N D). }
          destruct E as [E|E]; [discriminate E|]. injection E as ->.
          cbn. repeat split; auto; discriminate.
        + cbn. repeat split; auto.
      - destruct F as [-> F]. cbn in F. subst h. injection Es as <- <-. cbn. repeat split; discriminate.
      - destruct F as [-> F]. cbn in F. destruct h; [|contradiction]. injection Es as <- <-.
        cbn. repeat split; discriminate.
      - destruct F as [-> F]. cbn in F. destruct h; [|contradiction]. injection Es as <- <-.
        destruct (alive q); cbn; repeat split; auto; discriminate.
      - injection Es as <- <-. cbn. repeat split; auto; discriminate. }
    destruct K as (K1 & K2 & K3 & K4).
    apply (IH (set_pc i c' ds) s1).
    + intros j d D. destruct (Nat.eq_dec j i) as [->|N].
      * rewrite Hi in D. injection D as <-. exact K1.
      * rewrite (Hj j N) in D. pose proof (H1 j d D) as G. destruct (busy c) eqn:B.
        -- pose proof (Q (or_introl eq_refl) j d N D) as Bd. destruct d; try discriminate Bd; exact G.
        -- rewrite (K3 eq_refl). exact G.
    + intros A. pose proof (A i c' Hi) as B'. destruct (busy c) eqn:B; [exact (K2 B' eq_refl)|].
      left. exact (K4 eq_refl B').
    + exact HO.
    + exact H.
Qed.
Example C81_exclusive_ex :
  let l := [(0, PBlock); (0, PBlock); (0, PBlock); (0, PBlock); (1, PEof); (1, PEof); (1, PEof)]%nat in
  let s := mkts (Some 5) (Some (Some 5)) in
  one_at_a_time l [CStart; CStart] s
  /\ threads l [CStart; CStart] s
     = Some ([COver true; CBack (Some 5) PEof], mkts (Some 5) (Some (Some 0))).
Proof. cbn. repeat split; lia. Qed.

(** Two threads at once can leave an open socket non-blocking for good (defect):
    both report an open connection, and every later read that would have to wait
    fails at once, whatever the time-out asked for. *)
Theorem C81_nonblocking_refuted t : exists l s',
  threads l [CStart; CStart] (do_ops [TSet t; TOpen true] ts_init)
    = Some ([COver true; COver true], s')
  /\ t_own s' = t
  /\ forall l2, (forall o, In o l2 -> exists p, o = TIsOpen p /\ alive p = true) ->
     read (Some 1) false (do_ops l2 s') = RUnknown.
Proof.
  exists [(0, PBlock); (0, PBlock); (1, PBlock); (0, PBlock); (0, PBlock); (1, PBlock); (1, PBlock);
          (1, PBlock)]%nat, (mkts t (Some (Some 0))).
  split; [reflexivity|]. split; [reflexivity|]. intros l2 H.
  assert (E : do_ops l2 (mkts t (Some (Some 0))) = mkts t (Some (Some 0))).
  { induction l2 as [|o l2 IH]; [reflexivity|]. unfold do_ops in *. cbn [fold_left].
    destruct (H o (or_introl eq_refl)) as (p & -> & Hp). cbn [do_op]. unfold is_open. cbn [t_handle].
    rewrite Hp. apply IH. intros o X. apply H. right. exact X. }
  rewrite E. reflexivity.
Qed.

(** Two can also make one of them fail with AttributeError (defect), and a read in
    the middle of another thread's [isOpen] fails as if the connection were broken
    (defect). *)
Theorem C81_attribute_refuted t : exists l s',
  threads l [CStart; CStart] (mkts t (Some t)) = Some ([COver false; CFail], s').
Proof.
  exists [(1, PEof); (0, PEof); (0, PEof); (0, PEof); (0, PEof); (0, PEof); (1, PEof)]%nat, (mkts t None).
  reflexivity.
Qed.

(** Wherever a thread is between its test for None and the end of the [finally],
    a handle closed by another makes it fail, whatever it has found (defect). *)
Theorem C81_closed_fails p c s : t_handle s = None ->
  (exists t, c = CGot t \/ c = CPeek t \/ exists q, c = CBack t q) ->
  thread_step p c s = Some (CFail, s).
Proof.
  intros H (t & [-> | [-> | [q ->]]]); cbn; rewrite H; reflexivity.
Qed.
Example C81_closed_ex t : exists s',
  threads [(1, PByte); (1, PByte); (1, PByte); (0, PEof); (0, PEof); (0, PEof); (0, PEof); (0, PEof);
           (1, PByte)]%nat [CStart; CStart] (mkts t (Some t)) = Some ([COver false; CFail], s').
Proof. exists (mkts t None). reflexivity. Qed.

Theorem C81_read_during_refuted t : exists l c s',
  threads l [CStart] (mkts t (Some t)) = Some ([c], s') /\ read (Some 1) false s' = RUnknown
  /\ exists l2, threads l2 [c] s' = Some ([COver true], mkts t (Some t)).
Proof.
  exists [(0, PBlock); (0, PBlock)]%nat, (CPeek t), (mkts t (Some (Some 0))).
  split; [reflexivity|]. split; [reflexivity|]. exists [(0, PBlock); (0, PBlock)]%nat. reflexivity.
Qed.

(** Axioms used. *)
Print Assumptions C81_is_open.
Print Assumptions C81_ops.
Print Assumptions C81_kept.
Print Assumptions C81_read.
Print Assumptions C81_read_other.
Print Assumptions C81_handle_lost.
Print Assumptions C81_alone.
Print Assumptions C81_answer.
Print Assumptions C81_threads.
Print Assumptions C81_exclusive.
Print Assumptions C81_nonblocking_refuted.
Print Assumptions C81_attribute_refuted.
Print Assumptions C81_closed_fails.
Print Assumptions C81_read_during_refuted.
