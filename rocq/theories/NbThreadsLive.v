(** Facts about NbThreads.v: what blocks, what spins, the queue and the pool. *)
From Coq Require Import ZArith List Bool Lia.
From Coq Require Import ZifyBool ZifyNat ZifyN.
From Verif Require Import Nonblocking NbThreads NbThreadsFacts.
Import ListNotations.
Open Scope Z_scope.

(** * A worker holding the lock the main thread wants, the pipe full *)

Definition stuck (K : nat) (s : nb) : Prop :=
  exists fd l rem reg i c,
    m_pos s = MScan (fd :: l) rem reg /\ nth_error (m_workers s) i = Some (WWake fd)
    /\ get fd (m_clients s) = Some c /\ (K <= m_pipe s)%nat.

Lemma lock_held fd i ws : nth_error ws i = Some (WWake fd) -> lock_free fd ws = false.
Proof.
  intros H. apply nth_error_In in H. destruct (lock_free fd ws) eqn:E; [|cbn; reflexivity].
  unfold lock_free in E. rewrite forallb_forall in E. specialize (E _ H). cbn in E.
  rewrite Z.eqb_refl in E. discriminate.
Qed.

Lemma nth_set_other i j w : forall l, i <> j ->
  nth_error (set_worker i w l) j = nth_error l j.
Proof.
  revert j. induction i as [|i IH]; intros [|j] [|x l] H; cbn; try reflexivity.
  - congruence.
  - apply IH. congruence.
Qed.

Lemma nth_set_same i w : forall l x, nth_error l i = Some x ->
  nth_error (set_worker i w l) i = Some w.
Proof. induction i as [|i IH]; intros [|y l] x H; cbn in *; try discriminate; eauto. Qed.

Definition blocked_event (e : event) : bool :=
  match e with Main _ | Polled _ | StopWake | Serve | Close => true | _ => false end.

Lemma stuck_step K e s s' : stuck K s -> step K e s = Some s' ->
  stuck K s' /\ blocked_event e = false /\ m_pos s' = m_pos s.
Proof.
  intros (fd & l & rem & reg & i & c & Ep & Ew & Eg & Hk) H.
  pose proof (lock_held fd i _ Ew) as Hl.
  destruct e as [a|es|j o| | | | |n]; cbn [step blocked_event] in *.
  - unfold main_step in H. rewrite Ep, Eg, Hl in H. discriminate.
  - rewrite Ep in H. discriminate.
  - destruct (work_pos K j o s s' H) as (E1 & _ & _ & Hp).
    split; [|split; [reflexivity|exact E1]].
    assert (Hij : j <> i).
    { intros ->. unfold work_step in H. rewrite Ew in H.
      destruct (Nat.ltb_spec (m_pipe s) K); [lia|discriminate]. }
    exists fd, l, rem, reg, i. unfold work_step in H.
    destruct (nth_error (m_workers s) j) as [[|f|f| |]|] eqn:Ej; try discriminate.
    + destruct (m_tasks s) as [|[f|] r]; try discriminate; injection H as <-;
        exists c; cbn [m_pos m_workers m_clients m_pipe]; rewrite nth_set_other by exact Hij; auto.
    + destruct o; try (injection H as <-; exists c;
        cbn [with_workers m_pos m_workers m_clients m_pipe];
        rewrite nth_set_other by exact Hij; auto; fail);
      (destruct (lock_free f (m_workers s)) eqn:Elf; [|discriminate]);
      (assert (Hf : f <> fd) by congruence);
      destruct (get f (m_clients s)) as [[[] n rem']|]; injection H as <-; exists c;
        cbn [with_workers with_clients m_pos m_workers m_clients m_pipe];
        rewrite nth_set_other by exact Hij; rewrite ?get_put;
        try (destruct (Z.eqb_spec f fd); [congruence|]); auto.
    + destruct (Nat.ltb_spec (m_pipe s) K); [lia|discriminate].
    + destruct (Nat.ltb_spec (m_pipe s) K); [lia|discriminate].
  - injection H as <-. split; [|split; reflexivity]. exists fd, l, rem, reg, i, c. auto.
  - destruct (m_stoppers s); [discriminate|].
    destruct (Nat.ltb_spec (m_pipe s) K); [lia|discriminate].
  - rewrite Ep in H. discriminate.
  - rewrite Ep in H. discriminate.
  - injection H as <-. destruct (m_prepared s); (split; [|split; reflexivity]);
      exists fd, l, rem, reg, i, c; auto.
Qed.

Lemma stuck_run K l : forall s s', stuck K s -> run K l s = Some s' ->
  m_pos s' = m_pos s /\ forallb (fun e => negb (blocked_event e)) l = true.
Proof.
  induction l as [|e l IH]; intros s s' Hs H; cbn [run] in H.
  - injection H as <-. auto.
  - destruct (step K e s) as [s1|] eqn:E; [|discriminate].
    destruct (stuck_step K e s s1 Hs E) as (Hs1 & Hb & Hp).
    destruct (IH s1 s' Hs1 H) as [H1 H2]. split; [congruence|].
    cbn [forallb]. rewrite Hb, H2. reflexivity.
Qed.

Lemma run_cons K e l s s1 s2 : step K e s = Some s1 -> run K l s1 = Some s2 ->
  run K (e :: l) s = Some s2.
Proof. intros E E2. cbn [run]. rewrite E. exact E2. Qed.

(** The state between two requests of one connection, [r] more messages in it,
    [p] bytes in the pipe. *)
Definition between (n r p : nat) (h : list Z) (t : list Z) : nb :=
  mknb (MServe []) false true (S n) [(7, mkq WAIT_PROCESS r false)] [Req 7]
    (WIdle :: repeat WIdle n) p 0 h t.

Lemma lock_free_idle fd n : lock_free fd (repeat WIdle n) = true.
Proof.
  unfold lock_free. apply forallb_forall. intros w Hw. apply repeat_spec in Hw. subst. reflexivity.
Qed.

Definition a_round : list event :=
  [Work 0 HOneway; Work 0 HOneway; Work 0 HOneway; Main None; Main None; Main None;
   Main None; Main None].

Lemma a_round_run K n r p h t : (p < K)%nat ->
  run K a_round (between n (S r) p h t) = Some (between n r (S p) (h ++ [7]) (t ++ [7])).
Proof.
  intros Hp. unfold a_round, between.
  assert (Hl : forallb (fun w => match w with WWake f => negb (f =? 7) | _ => true end)
                 (repeat WIdle n) = true) by exact (lock_free_idle 7 n).
  apply Nat.ltb_lt in Hp. revert Hl. generalize (repeat WIdle n). intros W Hl.
  cbn -[Nat.ltb]. rewrite Hl. cbn -[Nat.ltb]. rewrite Hp. cbn -[Nat.ltb]. rewrite Hl.
  cbn -[Nat.ltb]. reflexivity.
Qed.

Fixpoint rounds (k : nat) : list event :=
  match k with O => [] | S k => a_round ++ rounds k end.

Lemma rounds_run K n k : forall r p h t, (p + k <= K)%nat -> exists h' t',
  run K (rounds k) (between n (k + r) p h t) = Some (between n r (p + k) h' t').
Proof.
  induction k as [|k IH]; intros r p h t H; cbn [rounds].
  - exists h, t. cbn [run plus]. rewrite Nat.add_0_r. reflexivity.
  - rewrite run_app. cbn [plus]. rewrite a_round_run by lia.
    destruct (IH r (S p) (h ++ [7]) (t ++ [7])) as (h' & t' & E); [lia|].
    exists h', t'. rewrite E. do 2 f_equal. lia.
Qed.

Definition opening (k : nat) : list event :=
  [Serve; Main None; Main None; Main None; Polled [EAccept]; Main (Some 7); Main None;
   Main None; Main None; Main None; Polled [ERead 7 (RMsgs k false)]; Main None].

Lemma opening_end K n k W :
  run K [Main None; Polled [ERead 7 (RMsgs k false)]; Main None]
    (mknb (MScan [] [] [(7, false)]) false true (S n) [(7, mkq WAIT_LEN 0 false)] []
       (WIdle :: W) 0 0 [] [])
  = Some (mknb (MServe []) false true (S n) [(7, mkq WAIT_PROCESS k false)] [Req 7]
            (WIdle :: W) 0 0 [7] []).
Proof. reflexivity. Qed.

Lemma opening_run K n k : run K (opening k) (nb_init (S n)) = Some (between n k 0 [7] []).
Proof.
  assert (Hm : map (forget 7) (repeat WIdle n) = repeat WIdle n)
    by (induction n as [|n IH]; cbn [repeat map forget]; congruence).
  assert (Hl : forallb (fun w => match w with WWake f => negb (f =? 7) | _ => true end)
                 (repeat WIdle n) = true) by exact (lock_free_idle 7 n).
  unfold opening, nb_init, between.
  do 2 (eapply run_cons; [cbn; reflexivity|]).
  revert Hm Hl. generalize (repeat WIdle n). intros W Hm Hl.
  do 3 (eapply run_cons; [cbn; reflexivity|]).
  eapply run_cons; [cbn; rewrite Hm; reflexivity|].
  do 2 (eapply run_cons; [cbn; reflexivity|]).
  eapply run_cons; [cbn; rewrite Hl; reflexivity|].
  exact (opening_end K n k W).
Qed.

(** A client with one more one-way request than the pipe holds. *)
Lemma reach_stuck K n : exists l s, run K l (nb_init (S n)) = Some s /\ stuck K s
  /\ forall e, In e l -> e <> StopSet.
Proof.
  destruct (rounds_run K n K 0 0 [7] []) as (h & t & E); [lia|].
  rewrite Nat.add_0_r, Nat.add_0_l in E.
  assert (Hl : forallb (fun w => match w with WWake f => negb (f =? 7) | _ => true end)
                 (repeat WIdle n) = true) by exact (lock_free_idle 7 n).
  exists (opening K ++ rounds K ++ [Work 0 HOneway; Work 0 HOneway; Main None; Main None]).
  eexists. split; [|split].
  - rewrite run_app, opening_run, run_app, E. unfold between.
    eapply run_cons; [cbn; reflexivity|].
    eapply run_cons; [cbn; rewrite Hl; reflexivity|].
    do 2 (eapply run_cons; [cbn; reflexivity|]). reflexivity.
  - exists 7, [], [], [], 0%nat. eexists. cbn [m_pos m_workers m_clients m_pipe nth_error get].
    repeat (split; [reflexivity|]). apply le_n.
  - intros e He ->. apply in_app_or in He as [He|He].
    + cbn in He. repeat (destruct He as [He|He]; [discriminate|]). contradiction.
    + apply in_app_or in He as [He|He].
      * clear -He. revert He. generalize K. intros k. induction k as [|k IH]; cbn [rounds]; [intros []|].
        intros He. apply in_app_or in He as [He|He]; [|auto].
        cbn in He. repeat (destruct He as [He|He]; [discriminate|]). contradiction.
      * cbn in He. repeat (destruct He as [He|He]; [discriminate|]). contradiction.
Qed.

(** * Nothing else blocks *)

Lemma lock_owner fd ws : lock_free fd ws = false -> exists i, nth_error ws i = Some (WWake fd).
Proof.
  induction ws as [|w ws IH]; cbn [lock_free forallb]; [discriminate|].
  intros H. apply andb_false_iff in H as [H|H].
  - exists O. destruct w as [|f|f| |]; try discriminate H. apply negb_false_iff in H.
    apply Z.eqb_eq in H. subst. reflexivity.
  - destruct (IH H) as [i E]. exists (S i). exact E.
Qed.

Lemma main_moves K s : nb_inv s -> m_pos s <> MOut -> (forall reg, m_pos s <> MPoll reg) ->
  (exists s', step K (Main None) s = Some s')
  \/ (exists fd l rem reg i, m_pos s = MScan (fd :: l) rem reg
        /\ nth_error (m_workers s) i = Some (WWake fd)
        /\ ((m_pipe s < K)%nat -> forall o, exists s', step K (Work i o) s = Some s')).
Proof.
  intros [_ _ Hp] H1 H2. cbn [step]. unfold main_step, work_step.
  destruct (m_pos s) as [| | |[|fd l] rem reg|reg|[|e l]|] eqn:Ep; try congruence;
    try (left; eexists; reflexivity).
  - left. destruct rem; eexists; reflexivity.
  - destruct (get fd (m_clients s)); [|left; eexists; reflexivity].
    destruct (lock_free fd (m_workers s)) eqn:El; [left; eexists; reflexivity|].
    right. destruct (lock_owner _ _ El) as [i Ei]. exists fd, l, rem, reg, i.
    split; [reflexivity|]. split; [exact Ei|]. intros Hk o. rewrite Ei.
    apply Nat.ltb_lt in Hk. rewrite Hk. eexists; reflexivity.
  - left. destruct e; destruct (serve_entry None _ s); eexists; reflexivity.
  - contradiction.
Qed.

(** * Spinning *)

Definition spins (s : nb) : Prop :=
  exists fd c, get fd (m_clients s) = Some c /\ q_readable c = true /\ q_rem c = true
    /\ q_received c = O
    /\ match m_pos s with
       | MScan todo rem _ => In fd todo \/ In fd rem
       | MPoll _ | MDead => False
       | MServe l => forallb (fun e => match e with ERem _ => true | _ => false end) l = true
       | _ => True
       end.

Lemma get_keys {A} fd (c : A) l : get fd l = Some c -> In fd (map fst l).
Proof. intros H. apply get_In in H. apply (in_map fst) in H. exact H. Qed.

Lemma spin_step K e s s' : nb_inv s -> spins s -> step K e s = Some s' ->
  spins s' /\ polls [e] = []
  /\ forall k c, get k (m_clients s) = Some c -> q_writeable c = true ->
     get k (m_clients s') = Some c.
Proof.
  intros [Hk Hb Hp] (fd & c & E & Hr & Hm & H0 & Hpos) H.
  destruct e as [a|es|i o| | | | |n]; cbn [step] in H.
  - unfold main_step in H.
    destruct (m_pos s) as [| | |[|f l] rem reg|reg|[|e l]|] eqn:Ep; try discriminate H;
      try contradiction.
    + injection H as <-. split; [exists fd, c; repeat (split; [assumption|]); first [exact I|exact Hpos]|]. auto.
    + injection H as <-. split; [|auto]. exists fd, c. repeat (split; [assumption|]).
      cbn [at_pos m_pos]. destruct (m_stop s); [exact I|]. left. eapply get_keys; eauto.
    + destruct rem as [|r0 rem].
      { destruct Hpos as [[]|[]]. }
      injection H as <-. split; [|auto]. exists fd, c. repeat (split; [assumption|]).
      cbn [at_pos m_pos]. change (forallb (fun e => match e with ERem _ => true | _ => false end)
        (map ERem (r0 :: rem)) = true).
      apply forallb_forall. intros e He. apply in_map_iff in He as (k & <- & _). reflexivity.
    + destruct (get f (m_clients s)) as [c0|] eqn:Ef.
      2:{ injection H as <-. split; [|auto]. exists fd, c. repeat (split; [assumption|]).
          cbn [at_pos m_pos]. destruct Hpos as [[->|Hpos]|Hpos]; auto. congruence. }
      destruct (lock_free _ _); [|discriminate]. injection H as <-.
      split.
      * exists fd, c. cbn [at_pos m_pos m_clients].
        destruct (q_closed c0) eqn:Ec; cbn [with_clients m_clients].
        -- assert (Hne : fd <> f).
           { intros ->. rewrite E in Ef. injection Ef as <-.
             destruct c as [[] ? ?]; cbn in Hr, Ec; discriminate. }
           rewrite get_del. destruct (Z.eqb_spec fd f); [congruence|].
           repeat (split; [assumption|]). destruct Hpos as [[->|Hpos]|Hpos]; auto; [congruence|].
           right. destruct (_ && _); [apply in_or_app; left|]; assumption.
        -- repeat (split; [assumption|]). destruct Hpos as [[->|Hpos]|Hpos]; auto.
           ++ rewrite E in Ef. injection Ef as <-. rewrite Hr, Hm. right. apply in_or_app.
              right. left. reflexivity.
           ++ right. destruct (_ && _); [apply in_or_app; left|]; assumption.
      * split; [reflexivity|]. intros k c1 E1 Hw. cbn [at_pos m_clients].
        destruct (q_closed c0) eqn:Ec; cbn [with_clients m_clients]; [|exact E1].
        rewrite get_del. destruct (Z.eqb_spec k f) as [->|]; [|exact E1].
        rewrite Ef in E1. injection E1 as ->.
        destruct c1 as [[] ? ?]; cbn in Hw, Ec; discriminate.
    + injection H as <-. split; [|auto]. exists fd, c. repeat (split; [assumption|]). first [exact I|exact Hpos].
    + cbn [forallb] in Hpos. apply andb_prop in Hpos as [He Hpos].
      destruct e as [| |f r|f|f w|f]; try discriminate He.
      cbn [serve_entry] in H. destruct Hp as [_ Hp].
      inversion Hp as [|? ? Hf _]; subst. destruct Hf as (c0 & E0 & Hr0). rewrite E0 in H. injection H as <-.
      destruct (q_received c0) as [|n0] eqn:En.
      * split; [|auto]. exists fd, c. repeat (split; [assumption|]). first [exact I|exact Hpos].
      * assert (Hne : f <> fd) by congruence.
        split; [|split; [reflexivity|]].
        -- exists fd, c. cbn [at_pos hand m_pos m_clients]. rewrite get_put.
           destruct (Z.eqb_spec f fd); [congruence|]. auto 7.
        -- intros k c1 E1 Hw. cbn [at_pos hand m_clients]. rewrite get_put.
           destruct (Z.eqb_spec f k) as [->|]; [|exact E1]. rewrite E0 in E1. injection E1 as ->.
           destruct c1 as [[] ? ?]; cbn in Hw, Hr0; discriminate.
  - destruct (m_pos s); try discriminate; contradiction.
  - destruct (work_pos K i o s s' H) as (E1 & _). unfold work_step in H.
    assert (Hsame : m_clients s' = m_clients s \/ exists f n0 r0 c1,
      get f (m_clients s) = Some (mkq WAIT_PROCESS n0 r0)
      /\ m_clients s' = put f c1 (m_clients s)).
    { destruct (nth_error (m_workers s) i) as [[|f|f| |]|]; try discriminate.
      - destruct (m_tasks s) as [|[f|] r]; try discriminate; injection H as <-; left; reflexivity.
      - destruct o; try (injection H as <-; left; reflexivity);
          (destruct (lock_free _ _); [|discriminate]);
          destruct (get f (m_clients s)) as [[[] n0 r0]|] eqn:Ef; injection H as <-;
          try (left; reflexivity);
          right; exists f, n0, r0; eexists; (split; [exact Ef|reflexivity]).
      - destruct (_ <? _)%nat; [|discriminate]. injection H as <-. left; reflexivity.
      - destruct (_ <? _)%nat; [|discriminate]. injection H as <-. left; reflexivity. }
    destruct Hsame as [Es|(f & n0 & r0 & c1 & Ef & Es)].
    + split; [|split; [reflexivity|intros k c1; rewrite Es; auto]].
      exists fd, c. rewrite Es, E1. auto 7.
    + split; [|split; [reflexivity|]].
      * exists fd, c. rewrite Es, E1, get_put. destruct (Z.eqb_spec f fd) as [->|].
        { rewrite E in Ef. injection Ef as ->. discriminate Hr. }
        auto 7.
      * intros k c2 E2 Hw. rewrite Es, get_put. destruct (Z.eqb_spec f k) as [->|]; [|exact E2].
        rewrite E2 in Ef. injection Ef as ->. discriminate Hw.
  - injection H as <-. split; [|auto]. exists fd, c. repeat (split; [assumption|]). first [exact I|exact Hpos].
  - destruct (m_stoppers s); [discriminate|]. destruct (_ <? _)%nat; [|discriminate].
    injection H as <-. split; [|auto]. exists fd, c. repeat (split; [assumption|]). first [exact I|exact Hpos].
  - destruct (m_pos s) eqn:Ep; try discriminate. injection H as <-. split; [|auto].
    exists fd, c. repeat (split; [assumption|]). first [exact I|exact Hpos].
  - destruct (m_pos s) eqn:Ep; try discriminate. injection H as <-. split; [|auto].
    exists fd, c. repeat (split; [assumption|]). first [exact I|exact Hpos].
  - injection H as <-. destruct (m_prepared s); (split; [|auto]); exists fd, c; repeat (split; [assumption|]); first [exact I|exact Hpos].
Qed.

Lemma spin_run K l : forall s s', nb_inv s -> spins s -> run K l s = Some s' ->
  polls l = [] /\ spins s'
  /\ forall k c, get k (m_clients s) = Some c -> q_writeable c = true ->
     get k (m_clients s') = Some c.
Proof.
  induction l as [|e l IH]; intros s s' Hi Hs H; cbn [run] in H.
  - injection H as <-. auto.
  - destruct (step K e s) as [s1|] eqn:E; [|discriminate].
    destruct (spin_step K e s s1 Hi Hs E) as (Hs1 & Hp & Hw).
    destruct (IH s1 s' (nb_step K e s s1 Hi E) Hs1 H) as (H1 & H2 & H3).
    split; [|split; [exact H2|eauto]].
    change (e :: l) with ([e] ++ l). unfold polls in *. rewrite flat_map_app, Hp, H1. reflexivity.
Qed.

(** * The queue *)

Definition reqs (l : list task) : list Z :=
  flat_map (fun t => match t with Req fd => [fd] | Quit => [] end) l.

Lemma reqs_app l1 l2 : reqs (l1 ++ l2) = reqs l1 ++ reqs l2.
Proof. apply flat_map_app. Qed.
Lemma reqs_quit n : reqs (repeat Quit n) = [].
Proof. induction n as [|n IH]; [reflexivity|exact IH]. Qed.

Lemma fifo_step K e s s' : m_taken s ++ reqs (m_tasks s) = m_handed s ->
  step K e s = Some s' -> m_taken s' ++ reqs (m_tasks s') = m_handed s'.
Proof.
  intros Hf H.
  assert (Hh : forall fd n r, m_taken (hand fd n r s) ++ reqs (m_tasks (hand fd n r s))
                 = m_handed (hand fd n r s)).
  { intros fd n r. cbn [hand m_taken m_tasks m_handed]. rewrite reqs_app, app_assoc, Hf. reflexivity. }
  destruct e as [a|es|i o| | | | |n]; cbn [step] in H.
  - unfold main_step in H.
    destruct (m_pos s) as [| | |[|f l] rem reg|reg|[|e l]|]; try discriminate H.
    + injection H as <-. exact Hf.
    + injection H as <-. exact Hf.
    + destruct rem; injection H as <-; exact Hf.
    + destruct (get f (m_clients s)) as [c|]; [|injection H as <-; exact Hf].
      destruct (lock_free _ _); [|discriminate]. injection H as <-.
      destruct (q_closed c); exact Hf.
    + injection H as <-. exact Hf.
    + destruct (match e with EAccept => _ | _ => true end); [|discriminate].
      destruct (serve_entry a e s) as [s1|] eqn:E; injection H as <-; [|exact Hf].
      cbn [at_pos m_taken m_tasks m_handed]. unfold serve_entry in E.
      destruct e as [| |fd r|fd|fd w|fd];
        try (destruct (get fd (m_clients s)) as [c|]; [|discriminate]);
        try (destruct (_ && _); [|discriminate]); try (destruct (q_writeable c); [|discriminate]);
        injection E as <-.
      * exact Hf.
      * destruct a; exact Hf.
      * destruct r; [apply Hh|exact Hf|exact Hf].
      * destruct (q_received c); [exact Hf|apply Hh].
      * exact Hf.
      * exact Hf.
  - destruct (m_pos s); try discriminate. destruct (reported _ _ _); [|discriminate].
    injection H as <-. exact Hf.
  - unfold work_step in H. destruct (nth_error (m_workers s) i) as [[|f|f| |]|]; try discriminate.
    + destruct (m_tasks s) as [|[f|] r] eqn:Et; try discriminate; injection H as <-;
        cbn [m_taken m_tasks m_handed]; [|exact Hf].
      rewrite <- app_assoc. exact Hf.
    + destruct o; try (injection H as <-; exact Hf);
        (destruct (lock_free _ _); [|discriminate]);
        destruct (get f (m_clients s)) as [[[] n0 r0]|]; injection H as <-; exact Hf.
    + destruct (_ <? _)%nat; [|discriminate]. injection H as <-. exact Hf.
    + destruct (_ <? _)%nat; [|discriminate]. injection H as <-. exact Hf.
  - injection H as <-. exact Hf.
  - destruct (m_stoppers s); [discriminate|]. destruct (_ <? _)%nat; [|discriminate].
    injection H as <-. exact Hf.
  - destruct (m_pos s); try discriminate. injection H as <-. exact Hf.
  - destruct (m_pos s); try discriminate. injection H as <-. cbn [m_taken m_tasks m_handed].
    rewrite reqs_app, reqs_quit, app_nil_r. exact Hf.
  - injection H as <-. destruct (m_prepared s); exact Hf.
Qed.

(** * The pool *)

Definition is_alive (w : worker) : bool := match w with WEnd => false | _ => true end.
Definition is_quit (t : task) : bool := match t with Quit => true | _ => false end.
Definition pool (s : nb) : nat := if m_prepared s then m_threads s else 0%nat.

Lemma count_map {A B} (g : A -> B) f f' l : (forall x, f (g x) = f' x) ->
  count f (map g l) = count f' l.
Proof.
  intros H. unfold count. induction l as [|x l IH]; cbn [map filter]; [reflexivity|].
  rewrite H. destruct (f' x); cbn [length]; congruence.
Qed.

Definition calm (K : nat) (s : nb) (e : event) : Prop :=
  match e with Work _ HDie => False | Close => m_prepared s = true | _ => True end.

(** Workers wanted by [close] and not yet gone, and those of the pool. *)
Lemma pool_step K e s s' : nb_inv s -> calm K s e ->
  count is_alive (m_workers s) = (count is_quit (m_tasks s) + pool s)%nat ->
  step K e s = Some s' ->
  count is_alive (m_workers s') = (count is_quit (m_tasks s') + pool s')%nat.
Proof.
  unfold pool. intros Hi Hc Hn H. destruct e as [a|es|i o| | | | |n]; cbn [step calm] in *.
  - unfold main_step in H.
    destruct (m_pos s) as [| | |[|f l] rem reg|reg|[|e l]|]; try discriminate H.
    + injection H as <-. cbn [m_workers m_tasks m_prepared m_threads].
      rewrite count_app. destruct (m_prepared s); [|rewrite count_repeat]; cbn [is_alive count filter length]; lia.
    + injection H as <-. exact Hn.
    + destruct rem; injection H as <-; exact Hn.
    + destruct (get f (m_clients s)) as [c|]; [|injection H as <-; exact Hn].
      destruct (lock_free _ _); [|discriminate]. injection H as <-.
      destruct (q_closed c); exact Hn.
    + injection H as <-. exact Hn.
    + destruct (match e with EAccept => _ | _ => true end); [|discriminate].
      destruct (serve_entry a e s) as [s1|] eqn:E; injection H as <-; [|exact Hn].
      assert (Hh : forall fd n r, count is_quit (m_tasks (hand fd n r s)) = count is_quit (m_tasks s)).
      { intros fd n r. cbn [hand m_tasks]. rewrite count_app. cbn. lia. }
      cbn [at_pos m_workers m_tasks m_prepared m_threads]. unfold serve_entry in E.
      destruct e as [| |fd r|fd|fd w|fd];
        try (destruct (get fd (m_clients s)) as [c|]; [|discriminate]);
        try (destruct (_ && _); [|discriminate]); try (destruct (q_writeable c); [|discriminate]);
        injection E as <-.
      * exact Hn.
      * destruct a as [fd|]; [|exact Hn].
        cbn [with_workers with_clients m_workers m_tasks m_prepared m_threads].
        rewrite (count_map (forget fd) is_alive is_alive); [exact Hn|].
        intros [|f|f| |]; cbn; try reflexivity. destruct (f =? fd); reflexivity.
      * destruct r; [rewrite Hh|..]; exact Hn.
      * destruct (q_received c); [|rewrite Hh]; exact Hn.
      * exact Hn.
      * exact Hn.
  - destruct (m_pos s); try discriminate. destruct (reported _ _ _); [|discriminate].
    injection H as <-. exact Hn.
  - unfold work_step in H.
    destruct (nth_error (m_workers s) i) as [[|f|f| |]|] eqn:Ew; try discriminate.
    + destruct (m_tasks s) as [|[f|] r] eqn:Et; try discriminate; injection H as <-;
        cbn [m_workers m_tasks m_prepared m_threads].
      * pose proof (count_set is_alive i (WRun f) _ _ Ew) as Hs. cbn [is_alive] in Hs.
        unfold count at 2 in Hn. cbn [filter is_quit] in Hn. fold (count is_quit r) in Hn. lia.
      * pose proof (count_set is_alive i WEnd _ _ Ew) as Hs. cbn [is_alive] in Hs.
        unfold count at 2 in Hn. cbn [filter is_quit length] in Hn. fold (count is_quit r) in Hn. lia.
    + assert (Eg : exists n0 r0, get f (m_clients s) = Some (mkq WAIT_PROCESS n0 r0)).
      { destruct Hi as [_ Hb _]. specialize (Hb f). unfold busy in Hb.
        assert (1 <= count (is_run f) (m_workers s))%nat.
        { pose proof (count_set (is_run f) i WIdle _ _ Ew) as Hs. cbn [is_run] in Hs.
          rewrite Z.eqb_refl in Hs. lia. }
        destruct (get f (m_clients s)) as [[[] n0 r0]|]; cbn [processing] in Hb; try lia. eauto. }
      destruct Eg as (n0 & r0 & Eg). rewrite Eg in H.
      pose proof (count_set is_alive i (WWake f) _ _ Ew) as Hs. cbn [is_alive] in Hs.
      destruct o; try contradiction; (destruct (lock_free _ _); [|discriminate]); injection H as <-;
        cbn [with_workers with_clients m_workers m_tasks m_prepared m_threads]; lia.
    + destruct (_ <? _)%nat; [|discriminate]. injection H as <-.
      pose proof (count_set is_alive i WIdle _ _ Ew) as Hs. cbn [is_alive] in Hs.
      cbn [with_pipe with_workers with_clients m_workers m_tasks m_prepared m_threads]; lia.
    + destruct (_ <? _)%nat; [|discriminate]. injection H as <-.
      pose proof (count_set is_alive i WIdle _ _ Ew) as Hs. cbn [is_alive] in Hs.
      cbn [with_pipe with_workers with_clients m_workers m_tasks m_prepared m_threads]; lia.
  - injection H as <-. exact Hn.
  - destruct (m_stoppers s); [discriminate|]. destruct (_ <? _)%nat; [|discriminate].
    injection H as <-. exact Hn.
  - destruct (m_pos s); try discriminate. injection H as <-. exact Hn.
  - destruct (m_pos s); try discriminate. injection H as <-.
    cbn [m_workers m_tasks m_prepared m_threads]. rewrite Hc in Hn.
    rewrite count_app, count_repeat. cbn [is_quit]. lia.
  - injection H as <-. destruct (m_prepared s) eqn:Epr; [rewrite Epr|]; [exact Hn|].
    cbn [m_workers m_tasks m_prepared m_threads]. exact Hn.
Qed.

(** * No worker left for the requests *)

Lemma set_alive i w l x : nth_error l i = Some x -> is_alive x = true ->
  (count is_alive (set_worker i w l) + 1 = count is_alive l + (if is_alive w then 1 else 0))%nat.
Proof. intros E Hx. pose proof (count_set is_alive i w l x E) as H. rewrite Hx in H. exact H. Qed.

(** In front of the requests there are enough marks to end every worker there is
    or will be. *)
Definition doomed (s : nb) : Prop :=
  exists q rest, m_tasks s = repeat Quit q ++ rest
  /\ (count is_alive (m_workers s) + (if m_prepared s then 0 else m_threads s) <= q)%nat.

Lemma doomed_set i x y s : nth_error (m_workers s) i = Some x -> is_alive x = true ->
  (count is_alive (set_worker i y (m_workers s)) <= count is_alive (m_workers s))%nat.
Proof. intros E Hx. pose proof (set_alive i y _ x E Hx). destruct (is_alive y); lia. Qed.

Lemma doomed_step K e s s' : doomed s -> e <> Close -> (forall n, e <> SetThreads n) ->
  step K e s = Some s' -> doomed s' /\ m_taken s' = m_taken s.
Proof.
  intros (q & rest & Et & Hq) Hc Ht H.
  assert (Hh : forall fd n r, doomed (hand fd n r s) /\ m_taken (hand fd n r s) = m_taken s).
  { intros fd n r. split; [|cbn; reflexivity]. exists q, (rest ++ [Req fd]).
    cbn [hand m_tasks m_workers m_prepared m_threads]. rewrite Et, <- app_assoc. auto. }
  destruct e as [a|es|i o| | | | |n]; cbn [step] in *; try congruence.
  - unfold main_step in H.
    destruct (m_pos s) as [| | |[|f l] rem reg|reg|[|e l]|]; try discriminate H.
    + injection H as <-. split; [|cbn; reflexivity]. exists q, rest. split; [exact Et|].
      cbn [m_workers m_prepared m_threads]. rewrite count_app.
      destruct (m_prepared s); [|rewrite count_repeat]; cbn [is_alive count filter length]; lia.
    + injection H as <-. split; [exists q, rest; auto|reflexivity].
    + destruct rem; injection H as <-; (split; [exists q, rest; auto|reflexivity]).
    + destruct (get f (m_clients s)) as [c|];
        [|injection H as <-; split; [exists q, rest; auto|reflexivity]].
      destruct (lock_free _ _); [|discriminate]. injection H as <-.
      destruct (q_closed c); (split; [exists q, rest; auto|reflexivity]).
    + injection H as <-. split; [exists q, rest; auto|reflexivity].
    + destruct (match e with EAccept => _ | _ => true end); [|discriminate].
      destruct (serve_entry a e s) as [s1|] eqn:E; injection H as <-;
        [|split; [exists q, rest; auto|reflexivity]].
      cut (doomed s1 /\ m_taken s1 = m_taken s); [intros X; exact X|]. unfold serve_entry in E.
      destruct e as [| |fd r|fd|fd w|fd];
        try (destruct (get fd (m_clients s)) as [c|]; [|discriminate]);
        try (destruct (_ && _); [|discriminate]); try (destruct (q_writeable c); [|discriminate]);
        injection E as <-.
      * split; [exists q, rest; auto|reflexivity].
      * destruct a as [fd|]; (split; [|cbn; reflexivity]); [|exists q, rest; auto].
        exists q, rest. split; [exact Et|].
        cbn [with_workers with_clients m_workers m_tasks m_prepared m_threads].
        rewrite (count_map (forget fd) is_alive is_alive); [exact Hq|].
        intros [|f|f| |]; cbn; try reflexivity. destruct (f =? fd); reflexivity.
      * destruct r; [apply Hh|..]; (split; [exists q, rest; auto|reflexivity]).
      * destruct (q_received c); [|apply Hh]. split; [exists q, rest; auto|reflexivity].
      * split; [exists q, rest; auto|reflexivity].
      * split; [exists q, rest; auto|reflexivity].
  - destruct (m_pos s); try discriminate. destruct (reported _ _ _); [|discriminate].
    injection H as <-. split; [exists q, rest; auto|reflexivity].
  - unfold work_step in H.
    destruct (nth_error (m_workers s) i) as [[|f|f| |]|] eqn:Ew; try discriminate.
    + pose proof (set_alive i WEnd _ _ Ew eq_refl) as Hs. cbn [is_alive] in Hs.
      destruct q as [|q]; [lia|]. cbn [repeat app] in Et. rewrite Et in H. injection H as <-.
      split; [|cbn; reflexivity]. exists q, rest. split; [reflexivity|].
      cbn [m_workers m_tasks m_prepared m_threads]. lia.
    + assert (Hx : forall y l, doomed (with_workers (set_worker i y (m_workers s)) (with_clients l s))).
      { intros y l. exists q, rest. split; [exact Et|].
        cbn [with_workers with_clients m_workers m_tasks m_prepared m_threads].
        pose proof (doomed_set i (WRun f) y s Ew eq_refl). lia. }
      assert (Hx' : forall y, doomed (with_workers (set_worker i y (m_workers s)) s)).
      { intros y. exact (Hx y (m_clients s)). }
      destruct o; try (injection H as <-; split; [apply Hx'|reflexivity]);
        (destruct (lock_free _ _); [|discriminate]);
        destruct (get f (m_clients s)) as [[[] n0 r0]|]; injection H as <-;
        (split; [first [apply Hx|apply Hx']|reflexivity]).
    + destruct (_ <? _)%nat; [|discriminate]. injection H as <-. split; [|cbn; reflexivity].
      exists q, rest. split; [exact Et|].
      cbn [with_pipe with_workers m_workers m_tasks m_prepared m_threads].
      pose proof (doomed_set i (WWake f) WIdle s Ew eq_refl). lia.
    + destruct (_ <? _)%nat; [|discriminate]. injection H as <-. split; [|cbn; reflexivity].
      exists q, rest. split; [exact Et|].
      cbn [with_pipe with_workers m_workers m_tasks m_prepared m_threads].
      pose proof (doomed_set i WFree WIdle s Ew eq_refl). lia.
  - injection H as <-. split; [exists q, rest; auto|reflexivity].
  - destruct (m_stoppers s); [discriminate|]. destruct (_ <? _)%nat; [|discriminate].
    injection H as <-. split; [exists q, rest; auto|reflexivity].
  - destruct (m_pos s); try discriminate. injection H as <-.
    split; [exists q, rest; auto|reflexivity].
Qed.

Lemma doomed_run K l : forall s s', doomed s -> ~ In Close l -> (forall n, ~ In (SetThreads n) l) ->
  run K l s = Some s' -> m_taken s' = m_taken s.
Proof.
  induction l as [|e l IH]; intros s s' Hd Hc Ht H; cbn [run] in H.
  - injection H as <-. reflexivity.
  - destruct (step K e s) as [s1|] eqn:E; [|discriminate].
    destruct (doomed_step K e s s1 Hd) as [Hd1 E1]; [| |exact E|].
    + intros ->. apply Hc. left. reflexivity.
    + intros n ->. apply (Ht n). left. reflexivity.
    + rewrite <- E1. apply (IH s1 s' Hd1); [|intros n|exact H].
      * intros X. apply Hc. right. exact X.
      * intros X. apply (Ht n). right. exact X.
Qed.
