(** C79: TNonblockingServer as threads: the main loop, the workers, the wake-up
    socket, stop and close, under every interleaving. *)
From Coq Require Import ZArith List Bool Lia.
From Coq Require Import ZifyBool ZifyNat ZifyN.
From Verif Require Import Nonblocking NbThreads NbThreadsFacts NbThreadsLive.
Import ListNotations.
Open Scope Z_scope.

(** In whatever order the threads run, and whatever [poll], the sockets and the
    handlers do: [handle] never fails (no KeyError, no failed assertion), every
    descriptor has one connection, and of every connection at most one request
    is in the queue or with a worker, and only while the connection waits for
    it; so [ready]'s assertion holds whenever it is tested, and the answers of a
    connection are in the order of its requests. *)
Theorem C79_safe K n l s : run K l (nb_init n) = Some s ->
  m_pos s <> MDead
  /\ NoDup (map fst (m_clients s))
  /\ (forall i j fd, nth_error (m_workers s) i = Some (WRun fd) ->
        nth_error (m_workers s) j = Some (WRun fd) -> i = j)
  /\ (forall i fd, nth_error (m_workers s) i = Some (WRun fd) -> ~ In (Req fd) (m_tasks s))
  /\ (forall fd t1 t2, m_tasks s = t1 ++ Req fd :: t2 -> ~ In (Req fd) (t1 ++ t2))
  /\ (forall fd, In (WRun fd) (m_workers s) \/ In (Req fd) (m_tasks s) ->
        exists k r, get fd (m_clients s) = Some (mkq WAIT_PROCESS k r)).
Proof.
  intros H. destruct (run_inv K nb_inv (nb_step K) l _ _ (nb_start n) H) as [Hk Hb Hp].
  assert (Hone : forall fd, (busy fd s <= 1)%nat).
  { intros fd. specialize (Hb fd). destruct (get fd (m_clients s)) as [[[] ? ?]|];
      cbn [processing] in Hb; lia. }
  assert (Hrun : forall i fd, nth_error (m_workers s) i = Some (WRun fd) ->
            (1 <= count (is_run fd) (m_workers s))%nat).
  { intros i fd E. pose proof (count_set (is_run fd) i WIdle _ _ E) as X. cbn [is_run] in X.
    rewrite Z.eqb_refl in X. lia. }
  assert (Hreq : forall fd t1 t2, m_tasks s = t1 ++ Req fd :: t2 ->
            (count (is_req fd) (m_tasks s) = 1 + count (is_req fd) (t1 ++ t2))%nat).
  { intros fd t1 t2 ->. rewrite !count_app. unfold count at 2. cbn [filter is_req].
    rewrite Z.eqb_refl. cbn [length]. unfold count. lia. }
  assert (Hin : forall fd t, In (Req fd) t -> (1 <= count (is_req fd) t)%nat).
  { intros fd t Hi. unfold count. destruct (filter (is_req fd) t) eqn:E; [|cbn [length]; lia].
    exfalso. assert (X : In (Req fd) (filter (is_req fd) t)).
    { apply filter_In. split; [exact Hi|]. cbn [is_req]. apply Z.eqb_refl. }
    rewrite E in X. exact X. }
  split; [intros X; rewrite X in Hp; exact Hp|]. split; [exact Hk|]. split; [|split; [|split]].
  - intros i j fd E1 E2. destruct (Nat.eq_dec i j) as [|Hne]; [assumption|exfalso].
    pose proof (count_set (is_run fd) i WIdle _ _ E1) as X. cbn [is_run] in X.
    rewrite Z.eqb_refl in X.
    assert (E2' : nth_error (set_worker i WIdle (m_workers s)) j = Some (WRun fd))
      by (rewrite nth_set_other by exact Hne; exact E2).
    pose proof (count_set (is_run fd) j WIdle _ _ E2') as Y. cbn [is_run] in Y.
    rewrite Z.eqb_refl in Y. specialize (Hone fd). unfold busy in Hone. lia.
  - intros i fd E Hi. specialize (Hrun i fd E). specialize (Hin fd _ Hi).
    specialize (Hone fd). unfold busy in Hone. lia.
  - intros fd t1 t2 E Hi. specialize (Hreq fd t1 t2 E). specialize (Hin fd _ Hi).
    specialize (Hone fd). unfold busy in Hone. lia.
  - intros fd Ho. assert (1 <= busy fd s)%nat as H1.
    { unfold busy. destruct Ho as [Ho|Ho].
      - apply In_nth_error in Ho as [i E]. specialize (Hrun i fd E). lia.
      - specialize (Hin fd _ Ho). lia. }
    specialize (Hb fd). destruct (get fd (m_clients s)) as [[[] k r]|]; cbn [processing] in Hb;
      try lia. eauto.
Qed.

(** Requests are taken by workers in the order they were handed over, each once. *)
Theorem C79_fifo K n l s : run K l (nb_init n) = Some s ->
  m_taken s ++ flat_map (fun t => match t with Req fd => [fd] | Quit => [] end) (m_tasks s)
  = m_handed s.
Proof.
  exact (run_inv K (fun s => m_taken s ++ reqs (m_tasks s) = m_handed s)
           (fifo_step K) l (nb_init n) s eq_refl).
Qed.

(** [stop], called while [serve] runs (after its first statement), is noticed:
    [poll] is left at most once more, the main thread takes boundedly many more
    steps, and while it waits in [poll] the byte that ends the wait is in the
    socket pair or about to be put there by a call of [stop]. *)
Theorem C79_stop K n l s s1 : run K l (nb_init n) = Some s -> step K StopSet s = Some s1 ->
  exists B, forall l2 s2, ~ In Serve l2 -> run K l2 s1 = Some s2 ->
    m_stop s2 = true
    /\ (length (polls l2) <= 1)%nat
    /\ (mains l2 <= B + length (concat (polls l2)))%nat
    /\ ((0 < K)%nat -> forall reg, m_pos s2 = MPoll reg ->
          (exists s3, step K (Polled [EWake]) s2 = Some s3)
          \/ (exists s3, step K StopWake s2 = Some s3)).
Proof.
  intros H Hs. exists (mleft (m_pos s1) + 2)%nat. intros l2 s2 Hn H2.
  assert (Hst : m_stop s1 = true) by (cbn [step] in Hs; injection Hs as <-; reflexivity).
  destruct (stopped K l2 s1 s2 Hst Hn H2) as (H3 & H4 & H5).
  assert (Hm : (may_poll (m_pos s1) <= 1)%nat) by (destruct (m_pos s1); cbn [may_poll]; lia).
  split; [exact H3|]. split; [lia|]. split; [lia|].
  intros HK reg Ep.
  assert (Hi : stop_inv s2).
  { apply (run_inv K stop_inv (stop_step K) l2 s1 s2); [|exact H2].
    apply (stop_step K StopSet s s1); [|exact Hs].
    apply (run_inv K stop_inv (stop_step K) l (nb_init n) s I H). }
  unfold stop_inv in Hi. rewrite Ep in Hi. specialize (Hi H3).
  destruct (m_pipe s2) as [|p] eqn:Epi.
  - right. cbn [step]. destruct (m_stoppers s2); [lia|]. rewrite Epi.
    assert (E : (0 <? K)%nat = true) by (apply Nat.ltb_lt; exact HK). rewrite E. eauto.
  - left. cbn [step]. rewrite Ep, Epi. cbn. eauto.
Qed.

(** A call of [stop] that ends before [serve] has run its first statement is
    lost (defect): [serve] goes on until there is another one. *)
Theorem C79_stop_before_lost K s s1 l s2 : step K Serve s = Some s1 -> ~ In StopSet l ->
  run K l s1 = Some s2 -> m_pos s2 <> MOut /\ m_stop s2 = false.
Proof.
  intros H Hn H2. cbn [step] in H. destruct (m_pos s); try discriminate. injection H as <-.
  eapply unstopped in H2; [destruct H2; auto|reflexivity|discriminate|exact Hn].
Qed.

Example C79_stop_before_ex :
  option_map (fun s => (m_pos s, m_stop s)) (run 5 [StopSet; StopWake] (nb_init 1))
    = Some (MOut, true)
  /\ option_map (fun s => (m_pos s, m_stop s))
       (run 5 [StopSet; StopWake; Serve; Main None; Main None; Main None; Polled [EWake];
               Main None; Main None; Main None; Main None] (nb_init 1))
    = Some (MPoll [], false).
Proof. split; lazy; reflexivity. Qed.

(** The main thread, inside [serve], can take a step or is in [poll]; or the
    connection it looks at is locked by a worker in [wake_up], who can take a
    step if the socket pair has room. *)
Theorem C79_moves K n l s : run K l (nb_init n) = Some s -> m_pos s <> MOut ->
  (exists reg, m_pos s = MPoll reg)
  \/ (exists s', step K (Main None) s = Some s')
  \/ (exists fd todo rem reg i, m_pos s = MScan (fd :: todo) rem reg
        /\ nth_error (m_workers s) i = Some (WWake fd)
        /\ ((m_pipe s < K)%nat -> forall o, exists s', step K (Work i o) s = Some s')).
Proof.
  intros H Hp. pose proof (run_inv K nb_inv (nb_step K) l _ _ (nb_start n) H) as Hi.
  assert (D : (exists reg, m_pos s = MPoll reg) \/ forall reg, m_pos s <> MPoll reg)
    by (destruct (m_pos s); (left; eexists; reflexivity) || (right; discriminate)).
  destruct D as [D|D]; [left; exact D|right]. apply main_moves; assumption.
Qed.

(** When it has no room there is a deadlock (defect), which one client can
    bring about whatever the size of the socket pair and the number of threads:
    the worker sends into the full socket pair with the lock held that the only
    reader of the socket pair waits for.  From then on the main thread never
    moves, no call of [stop] returns, and [serve] does not. *)
Theorem C79_deadlock_refuted K n : exists l s,
  run K l (nb_init (S n)) = Some s /\ ~ In StopSet l
  /\ m_pos s <> MOut /\ (forall reg, m_pos s <> MPoll reg)
  /\ forall l' s', run K l' s = Some s' ->
       m_pos s' = m_pos s
       /\ (forall a, ~ In (Main a) l') /\ (forall es, ~ In (Polled es) l') /\ ~ In StopWake l'.
Proof.
  destruct (reach_stuck K n) as (l & s & H & Hs & Hn). exists l, s. split; [exact H|].
  split; [intros X; exact (Hn _ X eq_refl)|].
  assert (Hp : exists a b c, m_pos s = MScan a b c).
  { destruct Hs as (fd & l0 & rem & reg & i & c & E & _). eauto. }
  destruct Hp as (a & b & c & Ep). rewrite Ep. split; [discriminate|]. split; [discriminate|].
  intros l' s' H'. destruct (stuck_run K l' s s' Hs H') as [H1 H2]. rewrite forallb_forall in H2.
  split; [congruence|]. split; [|split]; [intros a' X|intros es X|intros X];
    specialize (H2 _ X); discriminate.
Qed.

(** Deadlocks are exactly that: no thread ever gets out of it. *)
Theorem C79_deadlock_forever K s fd todo rem reg i c :
  m_pos s = MScan (fd :: todo) rem reg -> nth_error (m_workers s) i = Some (WWake fd) ->
  get fd (m_clients s) = Some c -> (K <= m_pipe s)%nat ->
  forall l s', run K l s = Some s' ->
    m_pos s' = m_pos s /\ (forall a, ~ In (Main a) l) /\ ~ In StopWake l.
Proof.
  intros E1 E2 E3 E4 l s' H.
  assert (Hs : stuck K s) by (exists fd, todo, rem, reg, i, c; auto).
  destruct (stuck_run K l s s' Hs H) as [H1 H2]. rewrite forallb_forall in H2.
  split; [exact H1|]. split; [intros a X|intros X]; specialize (H2 _ X); discriminate.
Qed.

(** The whole server stops serving (defect) once a [recv] has filled the buffer
    with the end of a message (C25): [poll] is never called again, so that
    nobody is accepted or read from, and answers of other connections that are
    ready stay unsent. *)
Theorem C79_spin_starves K n l s fd r : run K l (nb_init n) = Some s -> m_pos s = MCheck ->
  get fd (m_clients s) = Some r -> q_status r = WAIT_LEN \/ q_status r = WAIT_MESSAGE ->
  q_rem r = true -> q_received r = O ->
  forall l2 s2, run K l2 s = Some s2 ->
    (forall es, ~ In (Polled es) l2)
    /\ forall k c, get k (m_clients s) = Some c -> q_status c = SEND_ANSWER ->
       get k (m_clients s2) = Some c.
Proof.
  intros H Ep E Hr Hm H0 l2 s2 H2.
  pose proof (run_inv K nb_inv (nb_step K) l _ _ (nb_start n) H) as Hi.
  assert (Hs : spins s).
  { exists fd, r. split; [exact E|]. split; [|split; [exact Hm|split; [exact H0|rewrite Ep; exact I]]].
    unfold q_readable. destruct Hr as [-> | ->]; reflexivity. }
  destruct (spin_run K l2 s s2 Hi Hs H2) as (Hp & _ & Hw). split.
  - intros es X. assert (Y : In es (polls l2)).
    { unfold polls. apply in_flat_map. eexists. split; [exact X|]. left. reflexivity. }
    rewrite Hp in Y. exact Y.
  - intros k c Ek Es. apply Hw; [exact Ek|]. unfold q_writeable. rewrite Es. reflexivity.
Qed.

(** Two clients; the second request of 7 ends where the buffer ends, and the
    answer for 8 is never sent. *)
Definition ex_spin : list event :=
  [Serve; Main None; Main None; Main None; Polled [EAccept]; Main (Some 7); Main None;
   Main None; Main None; Main None; Polled [EAccept; ERead 7 (RMsgs 0 true)]; Main (Some 8);
   Main None; Main None;
   Work 0 HAnswer; Work 0 HAnswer; Work 0 HAnswer;
   Main None; Main None; Main None; Main None;
   Polled [EWake; ERead 8 (RMsgs 0 false); EWrite 7 WAll]; Main None; Main None; Main None;
   Work 1 HAnswer; Work 1 HAnswer; Work 1 HAnswer; Main None].
Example C79_spin_ex :
  option_map (fun s => (m_pos s, get 7 (m_clients s), get 8 (m_clients s)))
    (run 100 ex_spin (nb_init 2))
  = Some (MCheck, Some (mkq WAIT_LEN 0 true), Some (mkq SEND_ANSWER 0 false)).
Proof. lazy. reflexivity. Qed.

(** Unless a handler ends its thread or [close] is called on a server that is
    not prepared, the workers that are alive are those of the pool, and one for
    each mark of [close] still in the queue. *)
Theorem C79_pool K n l s : run K l (nb_init n) = Some s ->
  (forall i, ~ In (Work i HDie) l) ->
  (forall l1 l2 s1, l = l1 ++ Close :: l2 -> run K l1 (nb_init n) = Some s1 ->
     m_prepared s1 = true) ->
  length (filter (fun w => match w with WEnd => false | _ => true end) (m_workers s))
  = (length (filter (fun t => match t with Quit => true | _ => false end) (m_tasks s))
     + if m_prepared s then m_threads s else 0)%nat.
Proof.
  intros H Hd Hc.
  assert (G : forall l2 l1 s1, l = l1 ++ l2 -> run K l1 (nb_init n) = Some s1 ->
    nb_inv s1 /\ count is_alive (m_workers s1) = (count is_quit (m_tasks s1) + pool s1)%nat ->
    forall s2, run K l2 s1 = Some s2 ->
    count is_alive (m_workers s2) = (count is_quit (m_tasks s2) + pool s2)%nat).
  { induction l2 as [|e l2 IH]; intros l1 s1 El H1 [Hi Hn] s2 H2; cbn [run] in H2.
    - injection H2 as <-. exact Hn.
    - destruct (step K e s1) as [s3|] eqn:E; [|discriminate].
      apply (IH (l1 ++ [e]) s3); [rewrite <- app_assoc; exact El| | |exact H2].
      + rewrite run_app, H1. cbn [run]. rewrite E. reflexivity.
      + split; [eapply nb_step; eauto|]. apply (pool_step K e s1 s3 Hi); [|exact Hn|exact E].
        destruct e as [a|es|i o| | | | |m]; cbn [calm]; auto.
        * destruct o; auto. apply (Hd i). rewrite El. apply in_or_app. right. left. reflexivity.
        * eapply Hc; eauto. }
  apply (G l [] (nb_init n)); auto. split; [apply nb_start|reflexivity].
Qed.

(** [close] on a server that has not been prepared (defect): the marks it leaves
    end the workers started later, and no request is ever worked on. *)
Theorem C79_close_first_lost K n l s : run K (Close :: l) (nb_init n) = Some s ->
  ~ In Close l -> (forall m, ~ In (SetThreads m) l) -> m_taken s = [].
Proof.
  intros H Hc Ht. cbn [run step] in H. cbn [nb_init m_pos] in H.
  refine (doomed_run K l _ s _ Hc Ht H).
  exists n, []. cbn. rewrite app_nil_r. split; [reflexivity|lia].
Qed.

Example C79_close_first_ex :
  option_map (fun s => (m_handed s, m_workers s))
    (run 5 [Close; Serve; Main None; Work 0 HAnswer; Work 1 HAnswer; Main None; Main None;
         Polled [EAccept]; Main (Some 7); Main None; Main None; Main None; Main None;
         Polled [ERead 7 (RMsgs 0 false)]; Main None] (nb_init 2))
  = Some ([7], [WEnd; WEnd]).
Proof. lazy. reflexivity. Qed.

(** A handler raising SystemExit or another BaseException that is no Exception
    ends its worker for good (defect); after the last one, no request is worked
    on. *)
Theorem C79_exit_lost K s l s' : m_prepared s = true ->
  (forall w, In w (m_workers s) -> w = WEnd) ->
  ~ In Close l -> (forall m, ~ In (SetThreads m) l) -> run K l s = Some s' ->
  m_taken s' = m_taken s.
Proof.
  intros Hp Hw Hc Ht H. apply (doomed_run K l s s'); auto.
  exists O, (m_tasks s). split; [reflexivity|]. rewrite Hp.
  assert (E : count is_alive (m_workers s) = O); [|lia].
  unfold count. destruct (filter is_alive (m_workers s)) as [|w r] eqn:E; [reflexivity|].
  exfalso. assert (X : In w (filter is_alive (m_workers s))) by (rewrite E; left; reflexivity).
  apply filter_In in X as [X Y]. rewrite (Hw w X) in Y. discriminate.
Qed.

Example C79_exit_ex :
  option_map (fun s => (m_workers s, get 7 (m_clients s)))
    (run 5 [Serve; Main None; Main None; Main None;
         Polled [EAccept]; Main (Some 7); Main None; Main None; Main None; Main None;
         Polled [ERead 7 (RMsgs 0 false)]; Main None; Work 0 HDie; Work 0 HDie] (nb_init 1))
  = Some ([WEnd], Some (mkq WAIT_PROCESS 0 false)).
Proof. lazy. reflexivity. Qed.

(** The wake-up socket does not keep the loop busy: once at most 1024 bytes were
    in it and it was served, [poll] does not report it before a worker or [stop]
    writes to it again. *)
Lemma pipe_empty_step K e s s' : m_pipe s = O -> step K e s = Some s' ->
  e <> StopWake -> (forall i o, e <> Work i o) ->
  m_pipe s' = O /\ forall es, e = Polled es -> ~ In EWake es.
Proof.
  intros Hp H Hw Hk. destruct e as [a|es|i o| | | | |n]; cbn [step] in H.
  - split; [|intros es E; discriminate E]. unfold main_step in H.
    destruct (m_pos s) as [| | |l rem reg| |l|]; try discriminate H;
      [injection H as <-; exact Hp|injection H as <-; exact Hp| |].
    + destruct l as [|fd l]; [destruct rem; injection H as <-; exact Hp|].
      destruct (get fd (m_clients s)); [|injection H as <-; exact Hp].
      destruct (lock_free fd (m_workers s)); [|discriminate H].
      injection H as <-. destruct (q_closed q); exact Hp.
    + destruct l as [|e l]; [injection H as <-; exact Hp|].
      destruct (match e, a with EAccept, Some fd => _ | _, _ => _ end); [|discriminate H].
      destruct (serve_entry a e s) as [s1|] eqn:E; injection H as <-; [|exact Hp].
      cbn [at_pos m_pipe]. unfold serve_entry in E.
      destruct e as [| |fd r|fd|fd w|fd];
        [injection E as <-; cbn [with_pipe m_pipe]; rewrite Hp; reflexivity
        |injection E as <-; destruct a; exact Hp|..];
        destruct (get fd (m_clients s)); try discriminate E;
        repeat (match type of E with (if ?b then _ else _) = _ => destruct b; [|discriminate E] end);
        injection E as <-; try exact Hp.
      * destruct r; exact Hp.
      * destruct (q_received q); exact Hp.
  - destruct (m_pos s); try discriminate H. destruct (reported reg (m_pipe s) es) eqn:R; [|discriminate H].
    injection H as <-. split; [exact Hp|]. intros es' E He. injection E as <-.
    unfold reported in R. apply andb_prop in R as [_ R].
    rewrite forallb_forall in R. specialize (R _ He). cbn in R. rewrite Hp in R. discriminate R.
  - exfalso. exact (Hk i o eq_refl).
  - injection H as <-. split; [exact Hp|intros es E; discriminate E].
  - exfalso. exact (Hw eq_refl).
  - destruct (m_pos s); try discriminate H. injection H as <-.
    split; [exact Hp|intros es E; discriminate E].
  - destruct (m_pos s); try discriminate H. injection H as <-.
    split; [exact Hp|intros es E; discriminate E].
  - injection H as <-. destruct (m_prepared s); (split; [exact Hp|intros es E; discriminate E]).
Qed.

Theorem C79_quiet K s r a l s2 : m_pos s = MServe (EWake :: r) -> (m_pipe s <= 1024)%nat ->
  run K (Main a :: l) s = Some s2 -> ~ In StopWake l -> (forall i o, ~ In (Work i o) l) ->
  forall es, In (Polled es) l -> ~ In EWake es.
Proof.
  intros Hp Hc H Hw Hk. cbn [run step] in H. unfold main_step in H. rewrite Hp in H.
  cbn [serve_entry] in H.
  match type of H with run K l ?x = _ => assert (H0 : m_pipe x = O) by (cbn [at_pos with_pipe m_pipe]; lia);
    generalize dependent x end.
  clear Hp Hc s r a. induction l as [|e l IH]; intros s H H0; [intros es []|].
  cbn [run] in H. destruct (step K e s) as [s1|] eqn:E; [|discriminate H].
  destruct (pipe_empty_step K e s s1 H0 E) as [H1 H2].
  - intros ->. apply Hw. left. reflexivity.
  - intros i o ->. exact (Hk i o (or_introl eq_refl)).
  - intros es [->|Hi]; [apply H2; reflexivity|].
    apply (IH (fun X => Hw (or_intror X)) (fun i o X => Hk i o (or_intror X)) s1 H H1 es Hi).
Qed.

(** It can be reported again at once when more was in it, and when a worker
    finishes. *)
Example C79_quiet_ex :
  option_map (fun s => (m_pos s, m_pipe s, m_stop s))
    (run 2000 [Serve; Main None; Main None; Main None; StopSet; StopWake; StopSet; StopWake;
            Polled [EWake]; Main None] (nb_init 1))
  = Some (MServe [], O, true)
  /\ run 2000 [Serve; Main None; Main None; Main None; Polled [EWake]] (nb_init 1) = None
  /\ option_map m_stop (run 5 [] (nb_init 1)) = Some false.
Proof. repeat split; lazy; reflexivity. Qed.

(** A connection that failed, in reading, in writing or in [poll], is out of
    [clients] before the next wait, unless its descriptor was given to a new
    one. *)
Definition fails_at (fd : Z) (e : entry) : Prop :=
  e = ERead fd RGone \/ e = EWrite fd WGone \/ e = EErr fd.

Definition leaving (fd : Z) (s : nb) : Prop :=
  get fd (m_clients s) = None
  \/ (exists c, get fd (m_clients s) = Some c /\ q_status c = CLOSED)
     /\ match m_pos s with
        | MScan l _ _ => In fd l
        | MPoll _ => False
        | MServe l => ~ In (ERem fd) l
        | _ => True
        end.

Lemma leaving_step K fd e s s' : leaving fd s -> step K e s = Some s' ->
  e <> Main (Some fd) -> leaving fd s'.
Proof.
  intros Hl H Hn. destruct e as [a|es|i o| | | | |n]; cbn [step] in H.
  - unfold main_step in H. unfold leaving in *.
    destruct (m_pos s) as [| | |l rem reg| |l|] eqn:Ep; try discriminate H.
    + injection H as <-. cbn [m_clients m_pos]. tauto.
    + injection H as <-. cbn [at_pos m_clients m_pos]. destruct Hl as [Hl|[[c [Hl Hc]] _]]; [auto|].
      right. split; [eauto|]. destruct (m_stop s); [exact I|]. apply get_keys in Hl. exact Hl.
    + destruct l as [|k l].
      * destruct Hl as [Hl|[_ []]]. destruct rem; injection H as <-; left; exact Hl.
      * destruct (get k (m_clients s)) as [c|] eqn:Ek.
        -- destruct (lock_free k (m_workers s)); [|discriminate H]. injection H as <-.
           cbn [at_pos m_clients m_pos].
           assert (G : m_clients (if q_closed c then with_clients (del k (m_clients s)) s else s)
                       = if q_closed c then del k (m_clients s) else m_clients s)
             by (destruct (q_closed c); reflexivity).
           rewrite G. destruct Hl as [Hl|[[c0 [Hl Hc]] Hi]].
           ++ left. destruct (q_closed c); [|exact Hl]. rewrite get_del.
              destruct (fd =? k); auto.
           ++ destruct (Z.eqb_spec fd k) as [->|Hk].
              ** left. rewrite Hl in Ek. injection Ek as ->. unfold q_closed. rewrite Hc.
                 rewrite get_del, Z.eqb_refl. reflexivity.
              ** right. split.
                 { exists c0. split; [|exact Hc]. destruct (q_closed c); [|exact Hl].
                   rewrite get_del. destruct (Z.eqb_spec fd k); [contradiction|exact Hl]. }
                 destruct Hi as [Hi|Hi]; [congruence|exact Hi].
        -- injection H as <-. cbn [at_pos m_clients m_pos].
           destruct Hl as [Hl|[[c0 [Hl Hc]] Hi]]; [auto|]. right. split; [eauto|].
           destruct Hi as [Hi|Hi]; [congruence|exact Hi].
    + destruct l as [|e l]; [injection H as <-; cbn [at_pos m_clients m_pos]; tauto|].
      destruct (match e, a with EAccept, Some k => _ | _, _ => _ end) eqn:Eg; [|discriminate H].
      assert (Hc2 : forall c2 k, get k (m_clients s) <> None -> q_status c2 = CLOSED \/ k <> fd ->
        get fd (put k c2 (m_clients s)) = None
        \/ (exists c, get fd (put k c2 (m_clients s)) = Some c /\ q_status c = CLOSED)
           /\ ~ In (ERem fd) l).
      { intros c2 k Hk Hcl. rewrite get_put. destruct (Z.eqb_spec k fd) as [->|].
        - destruct Hl as [Hl|[_ Hl]]; [congruence|]. right. split; [|intros X; apply Hl; right; exact X].
          exists c2. split; [reflexivity|]. tauto.
        - destruct Hl as [Hl|[Hl Hl2]]; [auto|]. right. split; [exact Hl|].
          intros X; apply Hl2; right; exact X. }
      assert (Hsame : get fd (m_clients s) = None
        \/ (exists c, get fd (m_clients s) = Some c /\ q_status c = CLOSED) /\ ~ In (ERem fd) l).
      { destruct Hl as [Hl|[Hl Hl2]]; [auto|]. right. split; [exact Hl|].
        intros X; apply Hl2; right; exact X. }
      destruct (serve_entry a e s) as [s1|] eqn:E; injection H as <-.
      2: { cbn [at_pos m_clients m_pos]. tauto. }
      cbn [at_pos m_clients m_pos]. unfold serve_entry in E.
      destruct e as [| |k r|k|k w|k].
      * injection E as <-. exact Hsame.
      * injection E as <-. destruct a as [k|]; [|exact Hsame].
        cbn [with_workers with_clients m_clients]. rewrite get_put.
        destruct (Z.eqb_spec k fd) as [->|]; [congruence|exact Hsame].
      * destruct (get k (m_clients s)) as [c|] eqn:Ek; [|discriminate E].
        destruct (q_readable c && _) eqn:Er; [|discriminate E].
        assert (k <> fd).
        { intros ->. destruct Hl as [Hl|[[c0 [Hl Hc]] _]]; [congruence|].
          rewrite Hl in Ek. injection Ek as ->. unfold q_readable in Er. rewrite Hc in Er.
          discriminate Er. }
        injection E as <-. destruct r; (apply Hc2; [rewrite Ek; discriminate|auto]).
      * destruct (get k (m_clients s)) as [c|] eqn:Ek; [|discriminate E]. injection E as <-.
        destruct (q_received c); [exact Hsame|]. apply Hc2; [rewrite Ek; discriminate|].
        right. intros ->. destruct Hl as [Hl|[_ Hl]]; [congruence|].
        apply Hl. left. reflexivity.
      * destruct (get k (m_clients s)) as [c|] eqn:Ek; [|discriminate E].
        destruct (q_writeable c) eqn:Er; [|discriminate E].
        assert (k <> fd).
        { intros ->. destruct Hl as [Hl|[[c0 [Hl Hc]] _]]; [congruence|].
          rewrite Hl in Ek. injection Ek as ->. unfold q_writeable in Er. rewrite Hc in Er.
          discriminate Er. }
        injection E as <-. apply Hc2; [rewrite Ek; discriminate|auto].
      * destruct (get k (m_clients s)) as [c|] eqn:Ek; [|discriminate E].
        injection E as <-. apply Hc2; [rewrite Ek; discriminate|left; reflexivity].
  - unfold leaving in *. destruct (m_pos s) eqn:Ep; try discriminate H.
    destruct (reported reg (m_pipe s) es); [|discriminate H]. injection H as <-.
    cbn [at_pos m_clients m_pos]. tauto.
  - unfold work_step in H. destruct (nth_error (m_workers s) i) as [[|k|k| |]|]; try discriminate H.
    + destruct (m_tasks s) as [|[k|] r]; [discriminate H|injection H as <-; exact Hl..].
    + assert (W : forall o', match o' with HDie => Some (with_workers (set_worker i WEnd (m_workers s)) s)
        | _ => if lock_free k (m_workers s) then
            match get k (m_clients s) with
            | Some (mkq WAIT_PROCESS n rem) =>
                Some (with_workers (set_worker i (WWake k) (m_workers s))
                        (with_clients (put k (mkq (ready_status o') n rem) (m_clients s)) s))
            | _ => Some (with_workers (set_worker i WEnd (m_workers s)) s)
            end else None end = Some s' -> leaving fd s').
      { intros o' E.
        assert (B : Some (with_workers (set_worker i WEnd (m_workers s)) s) = Some s' -> leaving fd s')
          by (intros X; injection X as <-; exact Hl).
        assert (G : (if lock_free k (m_workers s) then
            match get k (m_clients s) with
            | Some (mkq WAIT_PROCESS n rem) =>
                Some (with_workers (set_worker i (WWake k) (m_workers s))
                        (with_clients (put k (mkq (ready_status o') n rem) (m_clients s)) s))
            | _ => Some (with_workers (set_worker i WEnd (m_workers s)) s)
            end else None) = Some s' -> leaving fd s').
        { clear E. intros E. destruct (lock_free k (m_workers s)); [|discriminate E].
          destruct (get k (m_clients s)) as [[st n rem]|] eqn:Ek; [|auto].
          destruct st; auto. injection E as <-. unfold leaving in *.
          cbn [with_workers with_clients m_clients m_pos]. rewrite get_put.
          destruct (Z.eqb_spec k fd) as [->|]; [|exact Hl].
          destruct Hl as [Hl|[[c0 [Hl Hc]] _]]; [congruence|].
          rewrite Hl in Ek. injection Ek as ->. discriminate Hc. }
        destruct o'; auto. }
      exact (W o H).
    + destruct (m_pipe s <? K)%nat; [|discriminate H]. injection H as <-. exact Hl.
    + destruct (m_pipe s <? K)%nat; [|discriminate H]. injection H as <-. exact Hl.
  - injection H as <-. exact Hl.
  - destruct (m_stoppers s); [discriminate H|]. destruct (m_pipe s <? K)%nat; [|discriminate H].
    injection H as <-. exact Hl.
  - unfold leaving in *. destruct (m_pos s) eqn:Ep; try discriminate H. injection H as <-. cbn [m_clients m_pos]. tauto.
  - unfold leaving in *. destruct (m_pos s) eqn:Ep; try discriminate H. injection H as <-. cbn [m_clients m_pos]. tauto.
  - injection H as <-. destruct (m_prepared s); exact Hl.
Qed.

Lemma leaving_run K fd l : forall s s2 reg, leaving fd s -> run K l s = Some s2 ->
  ~ In (Main (Some fd)) l -> m_pos s2 = MPoll reg -> get fd (m_clients s2) = None.
Proof.
  induction l as [|e' l IH]; intros s1 s2 reg L H Hn H2; cbn [run] in H.
  - injection H as ->. destruct L as [L|[_ L]]; [exact L|]. rewrite H2 in L. destruct L.
  - destruct (step K e' s1) as [s3|] eqn:E; [|discriminate H].
    apply (IH s3 s2 reg); [|exact H|intros X; apply Hn; right; exact X|exact H2].
    eapply leaving_step; [exact L|exact E|]. intros ->. apply Hn. left. reflexivity.
Qed.

Theorem C79_gone K s fd e r a l s2 reg : m_pos s = MServe (e :: r) -> fails_at fd e ->
  (forall k, ~ In (ERem k) r) ->
  run K (Main a :: l) s = Some s2 -> ~ In (Main (Some fd)) l -> m_pos s2 = MPoll reg ->
  get fd (m_clients s2) = None.
Proof.
  intros Hp He Hr H Hn H2. cbn [run] in H.
  destruct (step K (Main a) s) as [s1|] eqn:E; [|discriminate H].
  assert (L : leaving fd s1).
  { cbn [step] in E. unfold main_step in E. rewrite Hp in E.
    assert (G : match e, a with EAccept, Some k => unused k (m_clients s) | _, _ => true end = true)
      by (destruct He as [->|[->| ->]]; reflexivity).
    rewrite G in E.
    assert (D : serve_entry a e s = None \/ exists c, q_status c = CLOSED
              /\ serve_entry a e s = Some (with_clients (put fd c (m_clients s)) s)).
    { destruct He as [->|[->| ->]]; cbn [serve_entry];
        (destruct (get fd (m_clients s)) as [c|]; [|left; reflexivity]).
      - destruct (q_readable c && _); [|left; reflexivity]. right. eexists. split; [|reflexivity]. reflexivity.
      - destruct (q_writeable c); [|left; reflexivity]. right. eexists. split; [|reflexivity]. reflexivity.
      - right. eexists. split; [|reflexivity]. reflexivity. }
    destruct D as [D|[c [Hc D]]].
    - exfalso. rewrite D in E. injection E as <-.
      assert (X : forall l s', run K l (at_pos MDead s) = Some s' -> m_pos s' = MDead).
      { intros l0 s' X. refine (run_inv K (fun s => m_pos s = MDead) _ l0 (at_pos MDead s) s' eq_refl X).
        clear. intros e s s' Hd X. destruct e as [a|es|i o| | | | |n]; cbn [step] in X.
        - unfold main_step in X. rewrite Hd in X. discriminate X.
        - rewrite Hd in X. discriminate X.
        - unfold work_step in X. destruct (nth_error (m_workers s) i) as [[|k|k| |]|]; try discriminate X.
          + destruct (m_tasks s) as [|[k|] r]; [discriminate X|injection X as <-; exact Hd..].
          + destruct o; try (injection X as <-; exact Hd);
              (destruct (lock_free k (m_workers s)); [|discriminate X];
               destruct (get k (m_clients s)) as [[[] n rem]|]; injection X as <-; exact Hd).
          + destruct (m_pipe s <? K)%nat; [|discriminate X]. injection X as <-. exact Hd.
          + destruct (m_pipe s <? K)%nat; [|discriminate X]. injection X as <-. exact Hd.
        - injection X as <-. exact Hd.
        - destruct (m_stoppers s); [discriminate X|]. destruct (m_pipe s <? K)%nat; [|discriminate X].
          injection X as <-. exact Hd.
        - rewrite Hd in X. discriminate X.
        - rewrite Hd in X. discriminate X.
        - injection X as <-. destruct (m_prepared s); exact Hd. }
      apply X in H. congruence.
    - rewrite D in E. injection E as <-. unfold leaving. right.
      cbn [at_pos with_clients m_clients m_pos]. split; [|apply Hr].
      exists c. split; [|exact Hc]. rewrite get_put, Z.eqb_refl. reflexivity. }
  exact (leaving_run K fd l s1 s2 reg L H Hn H2).
Qed.

Example C79_gone_ex :
  option_map (fun s => (m_pos s, m_clients s))
    (run 5 [Serve; Main None; Main None; Main None; Polled [EAccept]; Main (Some 7); Main None;
            Main None; Main None; Main None; Polled [ERead 7 (RMsgs 0 false)]; Main None;
            Work 0 HAnswer; Work 0 HAnswer; Work 0 HAnswer; Main None; Main None; Main None; Main None;
            Polled [EWrite 7 WGone]; Main None; Main None; Main None; Main None; Main None] (nb_init 1))
  = Some (MPoll [], []).
Proof. lazy. reflexivity. Qed.

(** So is one whose handler failed. *)
Theorem C79_failed K s fd i c l s2 reg : m_pos s = MCheck ->
  nth_error (m_workers s) i = Some (WRun fd) -> get fd (m_clients s) = Some c ->
  q_status c = WAIT_PROCESS ->
  run K (Work i HFail :: l) s = Some s2 -> ~ In (Main (Some fd)) l -> m_pos s2 = MPoll reg ->
  get fd (m_clients s2) = None.
Proof.
  intros Hp Hw Hg Hc H Hn H2. cbn [run step] in H. unfold work_step in H. rewrite Hw, Hg in H.
  destruct (lock_free fd (m_workers s)); [|discriminate H]. destruct c as [st n rem].
  cbn [q_status] in Hc. subst st.
  match type of H with run K l ?x = _ => assert (L : leaving fd x) end.
  { right. cbn [with_workers with_clients m_clients m_pos]. rewrite Hp. split; [|exact I].
    eexists. split; [rewrite get_put, Z.eqb_refl; reflexivity|reflexivity]. }
  exact (leaving_run K fd l _ s2 reg L H Hn H2).
Qed.

Example C79_failed_ex :
  option_map (fun s => (m_pos s, m_clients s))
    (run 5 [Serve; Main None; Main None; Main None; Polled [EAccept]; Main (Some 7); Main None;
            Main None; Main None; Main None; Polled [ERead 7 (RMsgs 0 false)]; Main None;
            Main None; Work 0 HFail; Work 0 HFail; Work 0 HFail; Main None; Main None; Main None] (nb_init 1))
  = Some (MPoll [], []).
Proof. lazy. reflexivity. Qed.

(** [stop] and [close] on a serving server: two requests answered, all workers
    gone. *)
Definition ex_orderly : list event :=
  [Serve; Main None; Main None; Main None; Polled [EAccept]; Main (Some 7); Main None;
   Main None; Main None; Main None; Polled [ERead 7 (RMsgs 1 false)]; Main None;
   Work 1 HAnswer; Work 1 HAnswer; Main None; Work 1 HAnswer;
   Main None; Main None; Main None; Polled [EWake; EWrite 7 WPart]; Main None; Main None; Main None;
   Main None; Main None; Main None; Polled [EWrite 7 WAll]; Main None; Main None; Main None;
   Main None; Main None; Main None; Main None; StopSet; Work 0 HAnswer; StopWake;
   Main None; Close; Work 0 HAnswer; Work 0 HAnswer; Work 0 HAnswer; Work 1 HAnswer].
Example C79_orderly_ex :
  option_map (fun s => (m_pos s, m_workers s, m_tasks s, m_taken s))
    (run 5 ex_orderly (nb_init 2))
  = Some (MOut, [WEnd; WEnd], [], [7; 7]).
Proof. lazy. reflexivity. Qed.

(** Axioms used. *)
Print Assumptions C79_safe.
Print Assumptions C79_fifo.
Print Assumptions C79_stop.
Print Assumptions C79_stop_before_lost.
Print Assumptions C79_moves.
Print Assumptions C79_deadlock_refuted.
Print Assumptions C79_deadlock_forever.
Print Assumptions C79_spin_starves.
Print Assumptions C79_pool.
Print Assumptions C79_close_first_lost.
Print Assumptions C79_exit_lost.
Print Assumptions C79_quiet.
Print Assumptions C79_gone.
Print Assumptions C79_failed.
