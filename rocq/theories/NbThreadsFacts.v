(** Facts about NbThreads.v. *)
From Coq Require Import Permutation.
From Coq Require Import ZArith List Bool Lia.
From Coq Require Import ZifyBool ZifyNat ZifyN.
From Verif Require Import Nonblocking NbThreads.
Import ListNotations.
Open Scope Z_scope.

Lemma run_app K l1 : forall l2 s,
  run K (l1 ++ l2) s = match run K l1 s with Some s' => run K l2 s' | None => None end.
Proof.
  induction l1 as [|e l1 IH]; intros l2 s; cbn [app run]; [reflexivity|].
  destruct (step K e s); [apply IH|reflexivity].
Qed.

(** A property of states kept by every event holds at the end of executions. *)
Lemma run_inv K (I : nb -> Prop) :
  (forall e s s', I s -> step K e s = Some s' -> I s') ->
  forall l s s', I s -> run K l s = Some s' -> I s'.
Proof.
  intros Hs l. induction l as [|e l IH]; intros s s' Hi Hr; cbn [run] in Hr.
  - injection Hr as <-. exact Hi.
  - destruct (step K e s) as [s1|] eqn:E; [|discriminate]. eapply IH; [|exact Hr]. eauto.
Qed.

(** * Association lists *)

Lemma get_put {A} fd (c : A) l k : get k (put fd c l) = if fd =? k then Some c else get k l.
Proof.
  induction l as [|[k' x] l IH]; cbn [put get]; [destruct (fd =? k); reflexivity|].
  destruct (Z.eqb_spec k' fd) as [->|Hn]; cbn [get]; [destruct (fd =? k); reflexivity|].
  rewrite IH. destruct (Z.eqb_spec k' k) as [->|]; [|reflexivity].
  destruct (Z.eqb_spec fd k); congruence.
Qed.

Lemma get_del {A} fd (l : list (Z * A)) k :
  get k (del fd l) = if k =? fd then None else get k l.
Proof.
  induction l as [|[k' x] l IH]; cbn [del filter fst get]; [destruct (k =? fd); reflexivity|].
  fold (del fd l). destruct (Z.eqb_spec k' fd) as [->|Hn]; cbn [negb get]; rewrite IH.
  - destruct (Z.eqb_spec k fd), (Z.eqb_spec fd k); congruence.
  - destruct (Z.eqb_spec k' k) as [->|]; [|reflexivity].
    destruct (Z.eqb_spec k fd); [congruence|reflexivity].
Qed.

Lemma get_In {A} k (c : A) l : get k l = Some c -> In (k, c) l.
Proof.
  induction l as [|[k' x] l IH]; cbn [get]; [discriminate|].
  destruct (Z.eqb_spec k' k) as [->|]; intros H; [injection H as ->; left; reflexivity|].
  right; auto.
Qed.

Lemma get_app {A} k (l1 l2 : list (Z * A)) :
  get k (l1 ++ l2) = match get k l1 with Some c => Some c | None => get k l2 end.
Proof.
  induction l1 as [|[k' x] l1 IH]; cbn [app get]; [reflexivity|].
  destruct (k' =? k); auto.
Qed.

Lemma put_keys {A} fd (c : A) l : forall k, In k (map fst (put fd c l)) ->
  k = fd \/ In k (map fst l).
Proof.
  induction l as [|[k' x] l IH]; cbn [put map fst]; intros k H.
  - destruct H as [<-|[]]. auto.
  - destruct (Z.eqb_spec k' fd) as [->|]; cbn [map fst] in *.
    + destruct H as [<-|H]; auto. right. right. exact H.
    + destruct H as [<-|H]; [right; left; reflexivity|].
      destruct (IH k H); auto. right. right. assumption.
Qed.

Lemma put_NoDup {A} fd (c : A) l : NoDup (map fst l) -> NoDup (map fst (put fd c l)).
Proof.
  induction l as [|[k' x] l IH]; intros H; cbn [put map fst] in *.
  - constructor; [intros []|constructor].
  - inversion H as [|? ? Hn Hl]; subst.
    destruct (Z.eqb_spec k' fd) as [->|]; cbn [map fst]; constructor; auto.
    intros Hi. destruct (put_keys _ _ _ _ Hi); [congruence|contradiction].
Qed.

Lemma del_NoDup {A} fd (l : list (Z * A)) : NoDup (map fst l) -> NoDup (map fst (del fd l)).
Proof.
  induction l as [|[k' x] l IH]; intros H; cbn [del filter map fst] in *; [constructor|].
  fold (del fd l). inversion H as [|? ? Hn Hl]; subst.
  destruct (negb (k' =? fd)); cbn [map fst]; [|auto]. constructor; auto.
  intros Hi. apply Hn. apply in_map_iff in Hi as ([k y] & <- & Hi).
  apply filter_In in Hi as [Hi _]. apply (in_map fst) in Hi. exact Hi.
Qed.

Lemma distinct_NoDup l : distinct l = true -> NoDup l.
Proof.
  induction l as [|x l IH]; cbn [distinct]; intros H; [constructor|].
  apply andb_prop in H as [H1 H2]. constructor; auto. intros Hi.
  apply negb_true_iff in H1. assert (existsb (Z.eqb x) l = true); [|congruence].
  apply existsb_exists. exists x. split; [exact Hi|apply Z.eqb_refl].
Qed.

(** * Stopping *)

(** Inside an iteration that started before the stop, somebody is still to wake
    the main thread, or the byte is there. *)
Definition stop_inv (s : nb) : Prop :=
  match m_pos s with
  | MScan _ _ _ | MPoll _ => m_stop s = true -> (0 < m_stoppers s + m_pipe s)%nat
  | _ => True
  end.

Lemma main_pos a s s' : main_step a s = Some s' ->
  m_stop s' = m_stop s /\ m_stoppers s' = m_stoppers s.
Proof.
  unfold main_step. destruct (m_pos s) as [| | |[|fd l] rem reg|reg|[|e l]|]; intros H;
    try discriminate H.
  - injection H as <-. split; reflexivity.
  - injection H as <-. split; reflexivity.
  - destruct rem; injection H as <-; split; reflexivity.
  - destruct (get fd (m_clients s)) as [c|]; [|injection H as <-; split; reflexivity].
    destruct (lock_free _ _); [|discriminate]. injection H as <-.
    destruct (q_closed c); split; reflexivity.
  - injection H as <-. split; reflexivity.
  - destruct (match e with EAccept => _ | _ => true end); [|discriminate].
    destruct (serve_entry a e s) as [s1|] eqn:E; injection H as <-; [|split; reflexivity].
    unfold serve_entry in E.
    destruct e as [| |fd r|fd|fd w|fd];
      try (destruct (get fd (m_clients s)) as [c|]; [|discriminate]);
      try (destruct (_ && _); [|discriminate]); try (destruct (q_writeable c); [|discriminate]);
      injection E as <-.
    + split; reflexivity.
    + destruct a; split; reflexivity.
    + destruct r; split; reflexivity.
    + destruct (q_received c); split; reflexivity.
    + split; reflexivity.
    + split; reflexivity.
Qed.

Lemma work_pos K i o s s' : work_step K i o s = Some s' ->
  m_pos s' = m_pos s /\ m_stop s' = m_stop s /\ m_stoppers s' = m_stoppers s
  /\ (m_pipe s <= m_pipe s')%nat.
Proof.
  unfold work_step. destruct (nth_error (m_workers s) i) as [[|fd|fd| |]|]; try discriminate.
  - destruct (m_tasks s) as [|[fd|] r]; try discriminate; intros H; injection H as <-;
      cbn; repeat split; lia.
  - destruct o; try (intros H; injection H as <-; cbn; repeat split; lia);
      (destruct (lock_free _ _); [|discriminate]);
      destruct (get fd (m_clients s)) as [[[] n rem]|]; intros H; injection H as <-;
      cbn; repeat split; lia.
  - destruct (Nat.ltb_spec (m_pipe s) K); [|discriminate]. intros H'; injection H' as <-.
    cbn. repeat split; lia.
  - destruct (Nat.ltb_spec (m_pipe s) K); [|discriminate]. intros H'; injection H' as <-.
    cbn. repeat split; lia.
Qed.

Lemma stop_step K e s s' : stop_inv s -> step K e s = Some s' -> stop_inv s'.
Proof.
  unfold stop_inv. intros Hi H. destruct e as [a|es|i o| | | | |n]; cbn [step] in H.
  - pose proof (main_pos a s s' H) as [E1 E2]. rewrite E1, E2.
    unfold main_step in H. destruct (m_pos s) as [| | |[|fd l] rem reg|reg|[|e l]|] eqn:Ep;
      try discriminate H.
    + injection H as <-. exact I.
    + injection H as <-. cbn [at_pos m_pos]. destruct (m_stop s); [exact I|]. discriminate.
    + destruct rem; injection H as <-; cbn [at_pos m_pos]; [|exact I]. exact Hi.
    + destruct (get fd (m_clients s)) as [c|]; [|injection H as <-; exact Hi].
      destruct (lock_free _ _); [|discriminate]. injection H as <-. cbn [at_pos m_pos].
      destruct (q_closed c); exact Hi.
    + injection H as <-. exact I.
    + destruct (match e with EAccept => _ | _ => true end); [|discriminate].
      destruct (serve_entry a e s); injection H as <-; exact I.
  - destruct (m_pos s); try discriminate. destruct (reported _ _ _); [|discriminate].
    injection H as <-. exact I.
  - destruct (work_pos K i o s s' H) as (-> & -> & -> & Hp).
    destruct (m_pos s); auto; intros Hs; specialize (Hi Hs); lia.
  - injection H as <-. cbn. destruct (m_pos s); auto; intros; lia.
  - destruct (m_stoppers s) as [|n]; [discriminate|].
    destruct (_ <? _)%nat; [|discriminate]. injection H as <-. cbn.
    destruct (m_pos s); auto; intros; lia.
  - destruct (m_pos s); try discriminate. injection H as <-. exact I.
  - destruct (m_pos s); try discriminate. injection H as <-. exact I.
  - injection H as <-. destruct (m_prepared s); cbn; exact Hi.
Qed.

(** Once stopped, the main thread's own steps are bounded. *)
Definition mleft (p : mpos) : nat :=
  match p with
  | MOut | MDead | MPoll _ => 0
  | MStart => 2
  | MCheck => 1
  | MScan l rem _ => length l + length l + length rem + 3
  | MServe l => length l + 2
  end.
Definition may_poll (p : mpos) : nat :=
  match p with MScan _ _ _ | MPoll _ => 1 | _ => 0 end.
Definition mains (l : list event) : nat :=
  length (filter (fun e => match e with Main _ => true | _ => false end) l).
Definition polls (l : list event) : list (list entry) :=
  flat_map (fun e => match e with Polled es => [es] | _ => [] end) l.

Lemma main_left a s s' : m_stop s = true -> main_step a s = Some s' ->
  (S (mleft (m_pos s')) <= mleft (m_pos s) /\ may_poll (m_pos s') <= may_poll (m_pos s))%nat.
Proof.
  intros Hs H. unfold main_step in H.
  destruct (m_pos s) as [| | |[|fd l] rem reg|reg|[|e l]|] eqn:Ep; try discriminate H.
  - injection H as <-. cbn. lia.
  - injection H as <-. rewrite Hs. cbn. lia.
  - destruct rem; injection H as <-; cbn [at_pos m_pos mleft may_poll length];
      rewrite ?map_length; cbn [length]; lia.
  - destruct (get fd (m_clients s)) as [c|]; [|injection H as <-; cbn; lia].
    destruct (lock_free _ _); [|discriminate]. injection H as <-.
    cbn [at_pos m_pos mleft may_poll].
    destruct (q_readable c && _); rewrite ?app_length; cbn [length]; lia.
  - injection H as <-. cbn. lia.
  - destruct (match e with EAccept => _ | _ => true end); [|discriminate].
    destruct (serve_entry a e s); injection H as <-; cbn; lia.
Qed.

Lemma stopped K l : forall s s', m_stop s = true -> ~ In Serve l -> run K l s = Some s' ->
  m_stop s' = true
  /\ (length (polls l) + may_poll (m_pos s') <= may_poll (m_pos s))%nat
  /\ (mains l + mleft (m_pos s')
      <= mleft (m_pos s) + length (concat (polls l)) + 2 * length (polls l))%nat.
Proof.
  induction l as [|e l IH]; intros s s' Hs Hn Hr; cbn [run] in Hr.
  - injection Hr as <-. cbn. auto with arith.
  - destruct (step K e s) as [s1|] eqn:E; [|discriminate].
    assert (Hn' : ~ In Serve l) by (intros X; apply Hn; right; exact X).
    assert (Hs1 : m_stop s1 = true
      /\ (length (polls [e]) + may_poll (m_pos s1) <= may_poll (m_pos s))%nat
      /\ (mains [e] + mleft (m_pos s1) <= mleft (m_pos s) + length (concat (polls [e]))
            + 2 * length (polls [e]))%nat).
    { destruct e as [a|es|i o| | | | |n]; cbn [step] in E.
      - pose proof (main_pos a s s1 E) as [E1 _]. rewrite E1.
        pose proof (main_left a s s1 Hs E). cbn. split; [exact Hs|lia].
      - destruct (m_pos s) eqn:Ep; try discriminate. destruct (reported _ _ _); [|discriminate].
        injection E as <-. unfold polls, mains.
        cbn [at_pos m_pos m_stop may_poll mleft flat_map app concat filter].
        rewrite app_nil_r. cbn [length]. repeat split; [exact Hs|lia|lia].
      - destruct (work_pos K i o s s1 E) as (-> & -> & _). cbn. split; [exact Hs|lia].
      - injection E as <-. cbn. split; [reflexivity|lia].
      - destruct (m_stoppers s); [discriminate|]. destruct (_ <? _)%nat; [|discriminate].
        injection E as <-. cbn. split; [exact Hs|lia].
      - exfalso. apply Hn. left. reflexivity.
      - destruct (m_pos s); try discriminate. injection E as <-. cbn. split; [exact Hs|lia].
      - injection E as <-. destruct (m_prepared s); cbn; (split; [exact Hs|lia]). }
    destruct Hs1 as (Hs1 & H1 & H2). destruct (IH s1 s' Hs1 Hn' Hr) as (I0 & I1 & I2).
    split; [exact I0|]. change (e :: l) with ([e] ++ l).
    unfold polls, mains in *. rewrite flat_map_app, filter_app, concat_app, !app_length.
    lia.
Qed.

(** Until somebody sets the flag, [serve] goes on. *)
Lemma unstopped K l : forall s s', m_stop s = false -> m_pos s <> MOut -> ~ In StopSet l ->
  run K l s = Some s' -> m_stop s' = false /\ m_pos s' <> MOut.
Proof.
  induction l as [|e l IH]; intros s s' Hs Hp Hn Hr; cbn [run] in Hr.
  - injection Hr as <-. auto.
  - destruct (step K e s) as [s1|] eqn:E; [|discriminate].
    assert (Hn' : ~ In StopSet l) by (intros X; apply Hn; right; exact X).
    assert (m_stop s1 = false /\ m_pos s1 <> MOut) as [Hs1 Hp1].
    { destruct e as [a|es|i o| | | | |n]; cbn [step] in E.
      - pose proof (main_pos a s s1 E) as [E1 _]. rewrite E1. split; [exact Hs|].
        unfold main_step in E. destruct (m_pos s) as [| | |[|fd l'] rem reg|reg|[|e l']|];
          try discriminate E.
        + injection E as <-. discriminate.
        + injection E as <-. rewrite Hs. discriminate.
        + destruct rem; injection E as <-; discriminate.
        + destruct (get fd (m_clients s)); [|injection E as <-; discriminate].
          destruct (lock_free _ _); [|discriminate]. injection E as <-. discriminate.
        + injection E as <-. discriminate.
        + destruct (match e with EAccept => _ | _ => true end); [|discriminate].
          destruct (serve_entry a e s); injection E as <-; discriminate.
      - destruct (m_pos s) eqn:Ep; try discriminate. destruct (reported _ _ _); [|discriminate].
        injection E as <-. split; [exact Hs|discriminate].
      - destruct (work_pos K i o s s1 E) as (-> & -> & _). auto.
      - exfalso. apply Hn. left. reflexivity.
      - destruct (m_stoppers s); [discriminate|]. destruct (_ <? _)%nat; [|discriminate].
        injection E as <-. auto.
      - destruct (m_pos s); try discriminate. congruence.
      - destruct (m_pos s); try discriminate. congruence.
      - injection E as <-. destruct (m_prepared s); auto. }
    eapply IH; eauto.
Qed.

(** * Requests and workers *)

Definition is_req (fd : Z) (t : task) : bool :=
  match t with Req f => f =? fd | Quit => false end.
Definition is_run (fd : Z) (w : worker) : bool :=
  match w with WRun f => f =? fd | _ => false end.
Definition count {A} (f : A -> bool) (l : list A) : nat := length (filter f l).

(** Requests of the connection waiting or with a worker. *)
Definition busy (fd : Z) (s : nb) : nat :=
  (count (is_req fd) (m_tasks s) + count (is_run fd) (m_workers s))%nat.

Definition processing (c : option qconn) : nat :=
  match c with Some (mkq WAIT_PROCESS _ _) => 1 | _ => 0 end.

Definition q_active (w : bool) (c : qconn) : bool :=
  if w then q_writeable c else q_readable c.

Definition entry_ok (l : list (Z * qconn)) (e : entry) : Prop :=
  match e with
  | EWake | EAccept => True
  | ERead fd _ => exists c, get fd l = Some c /\ q_readable c = true /\ q_received c = O
  | ERem fd => exists c, get fd l = Some c /\ q_readable c = true
  | EWrite fd _ => exists c, get fd l = Some c /\ q_writeable c = true
  | EErr fd => exists c w, get fd l = Some c /\ q_active w c = true
  end.

Definition pos_ok (p : mpos) (l : list (Z * qconn)) : Prop :=
  match p with
  | MOut | MStart | MCheck => True
  | MScan todo rem reg =>
      NoDup (todo ++ map fst reg) /\ NoDup (todo ++ rem)
      /\ (forall fd w, get fd reg = Some w -> exists c, get fd l = Some c
            /\ q_active w c = true /\ (w = false -> In fd rem \/ q_received c = O))
      /\ (forall fd, In fd rem -> exists c, get fd l = Some c /\ q_readable c = true)
  | MPoll reg =>
      forall fd w, get fd reg = Some w -> exists c, get fd l = Some c
            /\ q_active w c = true /\ (w = false -> q_received c = O)
  | MServe es => NoDup (flat_map fd_of es) /\ Forall (entry_ok l) es
  | MDead => False
  end.

Record nb_inv (s : nb) : Prop := {
  i_keys : NoDup (map fst (m_clients s));
  i_busy : forall fd, (busy fd s <= processing (get fd (m_clients s)))%nat;
  i_pos : pos_ok (m_pos s) (m_clients s) }.

(** [l'] has every active connection of [l] as it was, but perhaps [fd]. *)
Definition same_but (fd : option Z) (l l' : list (Z * qconn)) : Prop :=
  forall k c w, get k l = Some c -> q_active w c = true -> fd <> Some k ->
  get k l' = Some c.

Lemma entry_ok_same fd l l' e : same_but fd l l' ->
  (forall k, In k (fd_of e) -> fd <> Some k) -> entry_ok l e -> entry_ok l' e.
Proof.
  intros Hs Hn. destruct e as [| |k r|k|k w|k]; cbn [entry_ok fd_of] in *; auto.
  - intros (c & E & H1 & H2). exists c. split; auto.
    apply (Hs k c false); auto. apply Hn. left. reflexivity.
  - intros (c & E & H1). exists c. split; auto.
    apply (Hs k c false); auto. apply Hn. left. reflexivity.
  - intros (c & E & H1). exists c. split; auto.
    apply (Hs k c true); auto. apply Hn. left. reflexivity.
  - intros (c & w & E & H1). exists c, w. split; auto.
    apply (Hs k c w); auto. apply Hn. left. reflexivity.
Qed.

Lemma pos_ok_same p l l' : same_but None l l' -> pos_ok p l -> pos_ok p l'.
Proof.
  intros Hs. destruct p as [| | |todo rem reg|reg|es|]; cbn [pos_ok]; auto.
  - intros (H1 & H2 & H3 & H4). split; [exact H1|]. split; [exact H2|]. split.
    + intros fd w Hw. destruct (H3 fd w Hw) as (c & E & Ha & Hr). exists c.
      split; auto. apply (Hs fd c w); auto. discriminate.
    + intros fd Hf. destruct (H4 fd Hf) as (c & E & Ha). exists c.
      split; auto. apply (Hs fd c false); auto. discriminate.
  - intros H fd w Hw. destruct (H fd w Hw) as (c & E & Ha & Hr). exists c.
    split; auto. apply (Hs fd c w); auto. discriminate.
  - intros [H1 H2]. split; [exact H1|]. eapply Forall_impl; [|exact H2].
    intros e. apply (entry_ok_same None); auto. discriminate.
Qed.

(** Replacing a connection that is not active. *)
Lemma same_but_put fd c l : (forall c0, get fd l = Some c0 -> forall w, q_active w c0 = false) ->
  same_but None l (put fd c l).
Proof.
  intros H k c0 w E Ha _. rewrite get_put. destruct (Z.eqb_spec fd k) as [->|]; [|exact E].
  rewrite (H c0 E w) in Ha. discriminate.
Qed.

Lemma same_but_put1 fd c l : same_but (Some fd) l (put fd c l).
Proof.
  intros k c0 w E Ha Hn. rewrite get_put. destruct (Z.eqb_spec fd k) as [->|]; [|exact E].
  congruence.
Qed.

Lemma same_but_del fd l : (forall c0, get fd l = Some c0 -> forall w, q_active w c0 = false) ->
  same_but None l (del fd l).
Proof.
  intros H k c0 w E Ha _. rewrite get_del. destruct (Z.eqb_spec k fd) as [->|]; [|exact E].
  rewrite (H c0 E w) in Ha. discriminate.
Qed.

Lemma same_but_refl o l : same_but o l l.
Proof. intros k c w E _ _. exact E. Qed.

Lemma count_set f i w : forall l x, nth_error l i = Some x ->
  (count f (set_worker i w l) + (if f x then 1 else 0) = count f l + (if f w then 1 else 0))%nat.
Proof.
  unfold count. induction i as [|i IH]; intros [|y l] x H; try discriminate; cbn in H.
  - injection H as ->. cbn [set_worker filter]. destruct (f w), (f x); cbn [length]; lia.
  - cbn [set_worker filter]. pose proof (IH l x H). destruct (f y); cbn [length]; lia.
Qed.

Lemma count_app {A} (f : A -> bool) l1 l2 : count f (l1 ++ l2) = (count f l1 + count f l2)%nat.
Proof. unfold count. rewrite filter_app, app_length. reflexivity. Qed.

Lemma count_repeat {A} (f : A -> bool) x n : count f (repeat x n) = if f x then n else O.
Proof.
  unfold count. induction n as [|n IH]; cbn [repeat filter]; [destruct (f x); reflexivity|].
  destruct (f x); cbn [length]; congruence.
Qed.

Lemma active_idle w c : q_active w c = true -> processing (Some c) = O.
Proof. destruct c as [[] n r], w; cbn; try discriminate; reflexivity. Qed.

Lemma closed_idle c : q_closed c = true -> forall w, q_active w c = false.
Proof. destruct c as [[] n r]; cbn; try discriminate. intros _ []; reflexivity. Qed.

Lemma NoDup_turn (fd : Z) l r : NoDup ((fd :: l) ++ r) -> NoDup (l ++ r ++ [fd]).
Proof.
  intros H. rewrite app_assoc.
  apply (Permutation_NoDup (l := fd :: l ++ r)); [|exact H].
  apply Permutation_cons_append.
Qed.

Lemma NoDup_tl {A} (x : A) l : NoDup (x :: l) -> NoDup l.
Proof. intros H. inversion H; assumption. Qed.

Lemma get_None {A} fd (l : list (Z * A)) : ~ In fd (map fst l) -> get fd l = None.
Proof.
  intros H. destruct (get fd l) as [c|] eqn:E; [|reflexivity]. exfalso. apply H.
  apply get_In in E. apply (in_map fst) in E. exact E.
Qed.

Lemma get_one {A} fd (x : A) k : get k [(fd, x)] = if fd =? k then Some x else None.
Proof. cbn [get]. reflexivity. Qed.

Lemma count_forget k fd l : count (is_run k) (map (forget fd) l) = count (is_run k) l.
Proof.
  unfold count. induction l as [|w l IH]; cbn [map filter]; [reflexivity|].
  assert (E : is_run k (forget fd w) = is_run k w)
    by (destruct w as [|f|f| |]; cbn [forget is_run]; try reflexivity; destruct (f =? fd); reflexivity).
  rewrite E. destruct (is_run k w); cbn [length]; congruence.
Qed.

(** One entry. *)
Lemma entry_step a e l s : nb_inv s -> m_pos s = MServe (e :: l) ->
  match e, a with EAccept, Some fd => unused fd (m_clients s) | _, _ => true end = true ->
  exists s1, serve_entry a e s = Some s1 /\ nb_inv (at_pos (MServe l) s1).
Proof.
  intros [Hk Hb Hp] Ep Hu. rewrite Ep in Hp. cbn [pos_ok flat_map] in Hp.
  destruct Hp as [Hnd Hall]. inversion Hall as [|? ? He Hl]; subst.
  assert (Hrest : forall fd c, (forall w, get fd (m_clients s) = Some w -> True) ->
    fd_of e = [fd] -> Forall (entry_ok (put fd c (m_clients s))) l).
  { intros fd c _ Hf. rewrite Hf in Hnd. cbn [app] in Hnd. inversion Hnd as [|? ? Hn _]; subst.
    rewrite Forall_forall in *. intros e' He'.
    apply (entry_ok_same (Some fd) (m_clients s)); [apply same_but_put1| |auto].
    intros k Hk' X. injection X as <-. apply Hn. apply in_flat_map. eauto. }
  assert (Hnd' : NoDup (flat_map fd_of l)).
  { destruct (fd_of e) as [|fd [|fd2 r]] eqn:Ef; cbn [app] in Hnd.
    - exact Hnd.
    - apply NoDup_tl in Hnd. exact Hnd.
    - destruct e; discriminate Ef. }
  assert (Hbusy0 : forall fd c w, get fd (m_clients s) = Some c -> q_active w c = true ->
            busy fd s = O).
  { intros fd c w E Ha. specialize (Hb fd). rewrite E, (active_idle w c Ha) in Hb. lia. }
  assert (Hput : forall fd c c0 w, fd_of e = [fd] -> get fd (m_clients s) = Some c0 ->
      q_active w c0 = true ->
      nb_inv (at_pos (MServe l) (with_clients (put fd c (m_clients s)) s))).
  { intros fd c c0 w Hf E Ha. split.
    - apply put_NoDup. exact Hk.
    - intros k. change (busy k _) with (busy k s). cbn [at_pos with_clients m_clients].
      rewrite get_put. destruct (Z.eqb_spec fd k) as [->|]; [|apply Hb].
      rewrite (Hbusy0 k c0 w E Ha). lia.
    - split; [exact Hnd'|]. apply (Hrest fd c); auto. }
  assert (Hhand : forall fd n rem c0 w, fd_of e = [fd] -> get fd (m_clients s) = Some c0 ->
      q_active w c0 = true -> nb_inv (at_pos (MServe l) (hand fd n rem s))).
  { intros fd n rem c0 w Hf E Ha. split.
    - apply put_NoDup. exact Hk.
    - intros k. unfold busy. cbn [at_pos hand m_clients m_tasks m_workers].
      rewrite get_put, count_app. pose proof (Hb k) as Hbk. unfold busy in Hbk.
      unfold count at 2. cbn [filter is_req].
      destruct (Z.eqb_spec fd k) as [->|]; cbn [length]; [|lia].
      pose proof (Hbusy0 k c0 w E Ha) as H0. unfold busy in H0. cbn [processing]. lia.
    - split; [exact Hnd'|]. apply (Hrest fd); auto. }
  destruct e as [| |fd r|fd|fd w|fd]; cbn [entry_ok serve_entry fd_of] in *.
  - eexists. split; [reflexivity|]. split; [exact Hk|exact Hb|]. split; assumption.
  - eexists. split; [reflexivity|]. destruct a as [fd|]; [|split; [exact Hk|exact Hb|split; assumption]].
    unfold unused in Hu.
    assert (Hina : forall c0, get fd (m_clients s) = Some c0 -> forall w, q_active w c0 = false).
    { intros c0 E. rewrite E in Hu. apply closed_idle. exact Hu. }
    split.
    + apply put_NoDup. exact Hk.
    + intros k.
      assert (Eb : busy k (at_pos (MServe l) (with_workers (map (forget fd) (m_workers s))
                     (with_clients (put fd (mkq WAIT_LEN 0 false) (m_clients s)) s))) = busy k s).
      { unfold busy. cbn [at_pos with_workers with_clients m_tasks m_workers].
        rewrite count_forget. reflexivity. }
      rewrite Eb. cbn [at_pos with_workers with_clients m_clients].
      rewrite get_put. destruct (Z.eqb_spec fd k) as [->|]; [|apply Hb].
      specialize (Hb k). destruct (get k (m_clients s)) as [c0|] eqn:E; cbn [processing] in *; [|lia].
      destruct c0 as [[] n0 r0]; cbn in Hu, Hb; try discriminate. lia.
    + split; [exact Hnd|]. eapply Forall_impl; [|exact Hl]. intros e'.
      apply (entry_ok_same None); [apply same_but_put; exact Hina|discriminate].
  - destruct He as (c & E & Hr & H0). rewrite E, Hr, H0. cbn [andb Nat.eqb].
    eexists. split; [reflexivity|]. destruct r as [n more|b|].
    + apply (Hhand fd n more c false); auto.
    + apply (Hput fd _ c false); auto.
    + apply (Hput fd _ c false); auto.
  - destruct He as (c & E & Hr). rewrite E. eexists. split; [reflexivity|].
    destruct (q_received c) as [|n].
    + split; [exact Hk|exact Hb|]. split; assumption.
    + apply (Hhand fd n (q_rem c) c false); auto.
  - destruct He as (c & E & Hr). rewrite E, Hr. eexists. split; [reflexivity|].
    apply (Hput fd _ c true); auto.
  - destruct He as (c & w & E & Hr). rewrite E. eexists. split; [reflexivity|].
    apply (Hput fd _ c w); auto.
Qed.

Lemma nb_main a s s' : nb_inv s -> main_step a s = Some s' -> nb_inv s'.
Proof.
  intros Hi H. pose proof Hi as [Hk Hb Hp]. unfold main_step in H.
  destruct (m_pos s) as [| | |[|fd l] rem reg|reg|[|e l]|] eqn:Ep; try discriminate H.
  - injection H as <-. split; [exact Hk| |exact I]. intros k. specialize (Hb k).
    unfold busy in *. cbn [m_tasks m_workers m_clients]. rewrite count_app.
    destruct (m_prepared s); [|rewrite count_repeat]; cbn [is_run count filter length]; lia.
  - injection H as <-. split; [exact Hk|exact Hb|]. cbn [at_pos m_pos m_clients].
    destruct (m_stop s); [exact I|]. cbn [pos_ok map].
    rewrite app_nil_r. split; [exact Hk|]. split; [exact Hk|].
    split; [intros k w X; discriminate X|intros k []].
  - destruct Hp as (H1 & H2 & H3 & H4). cbn [app] in H2. destruct rem as [|r0 rem].
    + injection H as <-. split; [exact Hk|exact Hb|]. cbn [at_pos m_pos m_clients pos_ok].
      intros k w Hw. destruct (H3 k w Hw) as (c & E & Ha & Hr). exists c.
      split; [exact E|]. split; [exact Ha|]. intros X. destruct (Hr X) as [[]|X']. exact X'.
    + injection H as <-. split; [exact Hk|exact Hb|]. cbn [at_pos m_pos m_clients pos_ok].
      assert (Hf : forall q, flat_map fd_of (map ERem q) = q).
      { induction q as [|x q IH]; cbn [map flat_map fd_of app]; congruence. }
      split; [change (NoDup (flat_map fd_of (map ERem (r0 :: rem)))); rewrite Hf; exact H2|].
      change (Forall (entry_ok (m_clients s)) (map ERem (r0 :: rem))).
      rewrite Forall_forall. intros e He. apply in_map_iff in He as (k & <- & Hin).
      exact (H4 k Hin).
  - destruct Hp as (H1 & H2 & H3 & H4).
    destruct (get fd (m_clients s)) as [c|] eqn:E.
    2:{ injection H as <-. split; [exact Hk|exact Hb|]. cbn [at_pos m_pos m_clients pos_ok].
        split; [exact (NoDup_tl _ _ H1)|]. split; [exact (NoDup_tl _ _ H2)|]. split; assumption. }
    destruct (lock_free _ _); [|discriminate]. injection H as <-.
    set (left := q_readable c && (q_rem c || negb (Nat.eqb (q_received c) 0))).
    set (rem' := if left then rem ++ [fd] else rem).
    set (active := q_readable c || q_writeable c).
    set (reg' := if active then reg ++ [(fd, q_writeable c)] else reg).
    assert (Hpos : pos_ok (MScan l rem' reg') (m_clients s)).
    { cbn [pos_ok]. split.
      { unfold reg'. destruct active; [|exact (NoDup_tl _ _ H1)].
        rewrite map_app. cbn [map fst]. apply NoDup_turn. exact H1. }
      split.
      { unfold rem'. destruct left; [|exact (NoDup_tl _ _ H2)]. apply NoDup_turn. exact H2. }
      assert (Hsub : forall k, In k rem -> In k rem')
        by (intros k Hin; unfold rem'; destruct left; [apply in_or_app; left|]; exact Hin).
      split.
      - intros k w Hw. unfold reg' in Hw.
        assert (Hold : get k reg = Some w -> exists c0, get k (m_clients s) = Some c0
          /\ q_active w c0 = true /\ (w = false -> In k rem' \/ q_received c0 = O)).
        { intros X. destruct (H3 k w X) as (c0 & E0 & Ha & Hr). exists c0.
          split; [exact E0|]. split; [exact Ha|]. intros Y. destruct (Hr Y); auto. }
        destruct active eqn:Eact; [|auto].
        rewrite get_app in Hw. destruct (get k reg) as [w0|] eqn:Ek.
        { injection Hw as ->. auto. }
        cbn [get] in Hw. destruct (Z.eqb_spec fd k) as [<-|]; [|discriminate].
        injection Hw as <-. exists c. split; [exact E|].
        unfold active in Eact. destruct (q_writeable c) eqn:Ew; cbn [q_active].
        + split; [exact Ew|discriminate].
        + rewrite orb_false_r in Eact. split; [exact Eact|]. intros _.
          unfold rem', left. rewrite Eact. cbn [andb].
          destruct (q_received c) as [|n]; [right; reflexivity|left].
          rewrite orb_true_r. apply in_or_app. right. left. reflexivity.
      - intros k Hin. unfold rem' in Hin. destruct left eqn:El; [|auto].
        apply in_app_or in Hin as [Hin|[<-|[]]]; [auto|]. exists c. split; [exact E|].
        unfold left in El. apply andb_prop in El as [El _]. exact El. }
    destruct (q_closed c) eqn:Ec.
    + assert (Hina : forall c0, get fd (m_clients s) = Some c0 -> forall w, q_active w c0 = false).
      { intros c0 E0. rewrite E in E0. injection E0 as <-. apply closed_idle. exact Ec. }
      split.
      * apply del_NoDup. exact Hk.
      * intros k. change (busy k _) with (busy k s). cbn [at_pos with_clients m_clients].
        rewrite get_del. specialize (Hb k). destruct (Z.eqb_spec k fd) as [->|]; [|exact Hb].
        rewrite E in Hb. destruct c as [[] n0 r0]; cbn in Ec, Hb |- *; try discriminate. exact Hb.
      * cbn [at_pos with_clients m_pos m_clients].
        apply (pos_ok_same _ (m_clients s)); [|exact Hpos]. apply same_but_del. exact Hina.
    + split; [exact Hk|exact Hb|exact Hpos].
  - injection H as <-. split; [exact Hk|exact Hb|exact I].
  - destruct (match e with EAccept => _ | _ => true end) eqn:Hu; [|discriminate].
    destruct (entry_step a e l s Hi Ep Hu) as (s1 & E1 & Hi1). rewrite E1 in H.
    injection H as <-. exact Hi1.
Qed.

Lemma nb_work K i o s s' : nb_inv s -> work_step K i o s = Some s' -> nb_inv s'.
Proof.
  intros [Hk Hb Hp] H. unfold work_step in H.
  assert (Hidle : forall w, nth_error (m_workers s) i = Some w ->
    (forall k, is_run k w = false) ->
    nb_inv (with_pipe (S (m_pipe s)) (with_workers (set_worker i WIdle (m_workers s)) s))).
  { intros w Ew Hw. split; [exact Hk| |exact Hp]. intros k. specialize (Hb k). unfold busy in *.
    cbn [with_workers with_pipe m_tasks m_workers m_clients].
    pose proof (count_set (is_run k) i WIdle _ _ Ew) as Hc. rewrite Hw in Hc. cbn [is_run] in Hc.
    lia. }
  destruct (nth_error (m_workers s) i) as [[|fd|fd| |]|] eqn:Ew; try discriminate.
  - destruct (m_tasks s) as [|[fd|] r] eqn:Et; try discriminate; injection H as <-;
      (split; [exact Hk| |exact Hp]); intros k; specialize (Hb k); unfold busy in *;
      rewrite Et in Hb; cbn [m_tasks m_workers m_clients].
    + pose proof (count_set (is_run k) i (WRun fd) _ _ Ew) as Hc. cbn [is_run] in Hc.
      unfold count at 1 in Hb. cbn [filter is_req] in Hb. fold (count (is_req k) r) in Hb.
      unfold count in *. destruct (fd =? k); cbn [length] in Hb; lia.
    + pose proof (count_set (is_run k) i WEnd _ _ Ew) as Hc. cbn [is_run] in Hc.
      unfold count in *. cbn [filter is_req] in Hb. lia.
  - assert (Hend : nb_inv (with_workers (set_worker i WEnd (m_workers s)) s)).
    { split; [exact Hk| |exact Hp]. intros k. specialize (Hb k). unfold busy in *.
      cbn [with_workers m_tasks m_workers m_clients].
      pose proof (count_set (is_run k) i WEnd _ _ Ew) as Hc. cbn [is_run] in Hc.
      destruct (fd =? k); lia. }
    assert (Hready : forall n rem, get fd (m_clients s) = Some (mkq WAIT_PROCESS n rem) ->
      nb_inv (with_workers (set_worker i (WWake fd) (m_workers s))
               (with_clients (put fd (mkq (ready_status o) n rem) (m_clients s)) s))).
    { intros n rem E. split.
      - apply put_NoDup. exact Hk.
      - intros k. specialize (Hb k). unfold busy in *.
        cbn [with_workers with_clients m_tasks m_workers m_clients]. rewrite get_put.
        pose proof (count_set (is_run k) i (WWake fd) _ _ Ew) as Hc. cbn [is_run] in Hc.
        destruct (Z.eqb_spec fd k) as [->|]; [|lia]. rewrite E in Hb. cbn [processing] in Hb. lia.
      - cbn [with_workers with_clients m_pos m_clients].
        apply (pos_ok_same _ (m_clients s)); [|exact Hp]. apply same_but_put.
        intros c0 E0. rewrite E in E0. injection E0 as <-. intros []; reflexivity. }
    destruct o; try (injection H as <-; exact Hend);
      (destruct (lock_free _ _); [|discriminate]);
      destruct (get fd (m_clients s)) as [[[] n rem]|] eqn:E; injection H as <-;
      try exact Hend; apply Hready; reflexivity.
  - destruct (_ <? _)%nat; [|discriminate]. injection H as <-. eapply Hidle; eauto.
  - destruct (_ <? _)%nat; [|discriminate]. injection H as <-. eapply Hidle; eauto.
Qed.

Lemma nb_step K e s s' : nb_inv s -> step K e s = Some s' -> nb_inv s'.
Proof.
  intros Hi H. destruct e as [a|es|i o| | | | |n]; cbn [step] in H.
  - eapply nb_main; eauto.
  - destruct (m_pos s) as [| | | |reg| |] eqn:Ep; try discriminate.
    destruct (reported reg (m_pipe s) es) eqn:Er; [|discriminate]. injection H as <-.
    destruct Hi as [Hk Hb Hp]. rewrite Ep in Hp. cbn [pos_ok] in Hp.
    split; [exact Hk|exact Hb|]. cbn [at_pos m_pos m_clients pos_ok].
    unfold reported in Er. apply andb_prop in Er as [Er Hall]. apply andb_prop in Er as [_ Hd].
    split; [apply distinct_NoDup; exact Hd|].
    rewrite forallb_forall in Hall. rewrite Forall_forall. intros e He.
    specialize (Hall e He). destruct e as [| |fd r|fd|fd w|fd]; cbn [entry_ok]; auto.
    + destruct (get fd reg) as [[]|] eqn:Eg; try discriminate.
      destruct (Hp fd false Eg) as (c & E & Ha & Hr). exists c. auto.
    + discriminate.
    + destruct (get fd reg) as [[]|] eqn:Eg; try discriminate.
      destruct (Hp fd true Eg) as (c & E & Ha & Hr). exists c. auto.
    + destruct (get fd reg) as [w|] eqn:Eg; try discriminate.
      destruct (Hp fd w Eg) as (c & E & Ha & Hr). exists c, w. auto.
  - eapply nb_work; eauto.
  - injection H as <-. destruct Hi as [Hk Hb Hp]. split; assumption.
  - destruct (m_stoppers s); [discriminate|]. destruct (_ <? _)%nat; [|discriminate].
    injection H as <-. destruct Hi as [Hk Hb Hp]. split; assumption.
  - destruct (m_pos s); try discriminate. injection H as <-.
    destruct Hi as [Hk Hb Hp]. split; [assumption|assumption|exact I].
  - destruct (m_pos s); try discriminate. injection H as <-.
    destruct Hi as [Hk Hb Hp]. split; [assumption| |exact I].
    intros k. specialize (Hb k). unfold busy in *. cbn [m_tasks m_workers m_clients].
    rewrite count_app, count_repeat. cbn [is_req]. lia.
  - injection H as <-. destruct (m_prepared s); [exact Hi|].
    destruct Hi as [Hk Hb Hp]. split; assumption.
Qed.

Lemma nb_start n : nb_inv (nb_init n).
Proof. split; [constructor|intros; cbn; lia|exact I]. Qed.
