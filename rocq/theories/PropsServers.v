(** C44: a bad connection does not stop the server. *)
From Coq Require Import ZArith List Bool Lia.
From Verif Require Import Base Servers.
Import ListNotations.

(** A connection whose transports and protocols can be made and closed, and
    whose service ends with exception [k] after [n] calls. *)
Definition ends_with (c : conn) (n : nat) (k : kind) : Prop :=
  c = mkconn None None None None n (Some k) None None.

(** What must have happened to it. *)
Definition served (hdr : bool) (n : nat) (k : kind) : list act :=
  repeat Processed n
  ++ (if match k with KTransport => true | _ => false end then [] else [Logged k])
  ++ CloseIn :: (if hdr then [] else [CloseOut]).

Lemma serve_ends hdr c n k : ends_with c n k -> k <> KBase ->
  serve_conn hdr c = (served hdr n k, Done tt).
Proof.
  intros -> Hk. unfold serve_conn, served, process_loop. cbn.
  destruct k; try (exfalso; apply Hk; reflexivity); destruct hdr; cbn;
    rewrite <- ?app_assoc; reflexivity.
Qed.

(** ** Simple server: any sequence of connections, each ending in any exception
    except a BaseException. *)
Definition conns (cs : list (nat * kind)) : list accept :=
  map (fun nk => AcConn (mkconn None None None None (fst nk) (Some (snd nk)) None None)) cs.

Theorem C44_simple : forall hdr cs, (forall n k, In (n, k) cs -> k <> KBase) ->
  simple_serve hdr (conns cs) = (map (fun nk => served hdr (fst nk) (snd nk)) cs, Accepting).
Proof.
  intros hdr cs H. induction cs as [|[n k] cs IH]; [reflexivity|].
  cbn [conns map simple_serve fst snd].
  rewrite (serve_ends hdr _ n k eq_refl (H n k (or_introl eq_refl))).
  fold (conns cs). rewrite IH; [reflexivity|]. intros n' k' Hi. apply (H n' k'). right. exact Hi.
Qed.

(** ** Threaded server: the accept loop survives every Exception, from accept,
    from starting a thread, or from anything in a connection; and a connection
    with working transports is closed whatever ended it. *)
Theorem C44_threaded_loop : forall hdr start es i,
  (forall k, In (AcRaise k) es -> k <> KBase) ->
  (forall j, start j <> Some KBase) ->
  snd (threaded_serve hdr start i es) = Accepting.
Proof.
  intros hdr start es. induction es as [|e es IH]; intros i H1 H2; [reflexivity|].
  assert (IH' : forall j, snd (threaded_serve hdr start j es) = Accepting).
  { intros j. apply IH; [|exact H2]. intros k Hk. apply H1. right. exact Hk. }
  destruct e as [|k|c]; cbn [threaded_serve].
  - apply IH'.
  - destruct k; try apply IH'. exfalso. apply (H1 KBase); [left; reflexivity|reflexivity].
  - specialize (IH' (S i)). specialize (H2 i).
    destruct (threaded_serve hdr start (S i) es) as [ls s]. cbn [snd] in IH'.
    destruct (start i) as [[]|]; try exact IH'. contradiction.
Qed.

Theorem C44_threaded_closes : forall hdr cs i, (forall n k, In (n, k) cs -> k <> KBase) ->
  threaded_serve hdr (fun _ => None) i (conns cs)
  = (map (fun nk => Some (served hdr (fst nk) (snd nk), Done tt)) cs, Accepting).
Proof.
  intros hdr cs. induction cs as [|[n k] cs IH]; intros i H; [reflexivity|].
  cbn [conns map threaded_serve fst snd].
  rewrite (serve_ends hdr _ n k eq_refl (H n k (or_introl eq_refl))).
  fold (conns cs). rewrite IH; [reflexivity|]. intros n' k' Hi. apply (H n' k'). right. exact Hi.
Qed.

(** ** Thread pool: whatever the order in which workers take and finish
    connections, and whatever Exception any call raises, no worker is lost and
    the loop goes on. *)
Definition no_base (c : conn) : Prop :=
  c_itrans c <> Some KBase /\ c_iprot c <> Some KBase /\ c_otrans c <> Some KBase
  /\ c_oprot c <> Some KBase /\ c_end c <> Some KBase /\ c_iclose c <> Some KBase
  /\ c_oclose c <> Some KBase.

Lemma serve_no_base hdr c l : no_base c -> serve_conn hdr c <> (l, Exc KBase).
Proof.
  intros (H1 & H2 & H3 & H4 & H5 & H6 & H7).
  destruct c as [a b c d n e f g]; cbn in *. unfold serve_conn, process_loop. cbn.
  destruct a as [[]|]; cbn; try congruence. destruct b as [[]|]; cbn; try congruence.
  destruct hdr; cbn.
  - destruct e as [[]|]; cbn; try congruence; destruct f as [[]|]; cbn; congruence.
  - destruct c as [[]|]; cbn; try congruence. destruct d as [[]|]; cbn; try congruence.
    destruct e as [[]|]; cbn; try congruence; destruct f as [[]|]; cbn; try congruence;
      destruct g as [[]|]; cbn; congruence.
Qed.

Definition pool_ok (n : nat) (p : pool) : Prop :=
  loop p = Accepting /\ Forall no_base (queue p)
  /\ forall w, (w < n)%nat -> match threads p w with
                              | Idle => True | Serving c => no_base c | Gone => False
                              end.

Theorem C44_pool_survives : forall hdr n es p,
  (forall e, In e es -> match e with
     | PAccept (AcRaise k) => k <> KBase
     | PAccept (AcConn c) => no_base c
     | _ => True
     end) ->
  pool_run hdr es (pool_start n) = Some p ->
  loop p = Accepting /\ forall w, (w < n)%nat -> threads p w <> Gone.
Proof.
  intros hdr n es p H E.
  assert (K : forall es p0, pool_ok n p0 ->
    (forall e, In e es -> match e with
     | PAccept (AcRaise k) => k <> KBase
     | PAccept (AcConn c) => no_base c
     | _ => True
     end) -> forall p1, pool_run hdr es p0 = Some p1 -> pool_ok n p1).
  { clear. induction es as [|e es IH]; intros p0 Hp He p1 E; cbn [pool_run] in E.
    - congruence.
    - destruct (pool_step hdr p0 e) as [p2|] eqn:E2; [|discriminate].
      apply (IH p2); [|intros e' Hi; apply He; right; exact Hi|exact E].
      specialize (He e (or_introl eq_refl)). destruct Hp as (P1 & P2 & P3).
      destruct e as [a|w|w]; cbn [pool_step] in E2.
      + rewrite P1 in E2. injection E2 as <-. destruct a as [|k|c].
        * repeat split; assumption.
        * destruct k; try (repeat split; assumption). contradiction.
        * split; [reflexivity|]. split; [|exact P3]. cbn [queue].
          apply Forall_app. split; [exact P2|]. constructor; [exact He|constructor].
      + destruct (threads p0 w) eqn:Ew; try discriminate.
        destruct (queue p0) as [|c q] eqn:Eq; [discriminate|]. injection E2 as <-.
        inversion P2; subst. split; [exact P1|]. split; [assumption|].
        intros v Hv. cbn [threads]. unfold setw. destruct (Nat.eqb v w); [assumption|].
        apply P3, Hv.
      + destruct (threads p0 w) as [|c|] eqn:Ew; try discriminate.
        destruct (serve_conn hdr c) as [l [a|k|]] eqn:Es; try discriminate.
        * injection E2 as <-. split; [exact P1|]. split; [exact P2|].
          intros v Hv. cbn [threads]. unfold setw. destruct (Nat.eqb v w); [exact I|].
          apply P3, Hv.
        * assert (Hk : (w < n)%nat -> k <> KBase).
          { intros Hw ->. specialize (P3 w Hw). rewrite Ew in P3.
            apply (serve_no_base hdr c l P3 Es). }
          assert (P : forall x, (x = Idle \/ (x = Gone /\ k = KBase)) ->
            pool_ok n (mkpool (queue p0) (setw (threads p0) w x) (loop p0)
                         ((c, (l, Exc k)) :: done p0))).
          { intros x Hx. split; [exact P1|]. split; [exact P2|].
            intros v Hv. cbn [threads]. unfold setw.
            destruct (Nat.eqb_spec v w) as [->|]; [|apply P3, Hv].
            destruct Hx as [->|[-> Hb]]; [exact I|]. apply (Hk Hv Hb). }
          destruct k; injection E2 as <-; apply P; auto. }
  destruct (K es (pool_start n)) with (p1 := p) as (P1 & _ & P3); try assumption.
  - repeat split; [constructor|]. intros w Hw. cbn [threads pool_start].
    apply Nat.ltb_lt in Hw. rewrite Hw. exact I.
  - split; [exact P1|]. intros w Hw Eg. specialize (P3 w Hw). rewrite Eg in P3. exact P3.
Qed.

(** Every connection a worker finished was served by [serve_conn], so it was
    closed. *)
Theorem C44_pool_closes : forall hdr n es p c x,
  pool_run hdr es (pool_start n) = Some p -> In (c, x) (done p) ->
  forall m k, ends_with c m k -> k <> KBase -> x = (served hdr m k, Done tt).
Proof.
  intros hdr n es p c x E Hin m k Hc Hk. rewrite <- (serve_ends hdr c m k Hc Hk).
  assert (K : forall es p0, (forall c x, In (c, x) (done p0) -> x = serve_conn hdr c) ->
    forall p1, pool_run hdr es p0 = Some p1 ->
    forall c x, In (c, x) (done p1) -> x = serve_conn hdr c).
  { clear. induction es as [|e es IH]; intros p0 Hp p1 E c x; cbn [pool_run] in E.
    - injection E as <-. apply Hp.
    - destruct (pool_step hdr p0 e) as [p2|] eqn:E2; [|discriminate].
      apply (IH p2); [|exact E]. clear IH E c x. destruct e as [a|w|w]; cbn [pool_step] in E2.
      + destruct (loop p0); try discriminate. injection E2 as <-.
        destruct a as [|[]|]; exact Hp.
      + destruct (threads p0 w); try discriminate. destruct (queue p0); [discriminate|].
        injection E2 as <-. exact Hp.
      + destruct (threads p0 w) as [|c|]; try discriminate.
        destruct (serve_conn hdr c) as [l [a|k|]] eqn:Es; try discriminate.
        * injection E2 as <-. intros c' x' [E|Hi]; [|apply Hp, Hi]. congruence.
        * destruct k; injection E2 as <-; intros c' x' [E|Hi]; try (apply Hp, Hi); congruence. }
  apply (K es (pool_start n)) with (p1 := p); try assumption. intros ? ? [].
Qed.

(** ** Forking server. *)
Definition fork_logs (hdr : bool) (nk : nat * kind) : fork_result :=
  mkfork [CloseIn; CloseOut]
    (Some (served hdr (fst nk) (snd nk),
           Exited match snd nk with KTransport => 0%nat | _ => 1%nat end)).

Theorem C44_forking : forall hdr cs i, (forall n k, In (n, k) cs -> k <> KBase) ->
  forking_serve hdr (fun _ => None) (fun _ => None) i (conns cs)
  = (map (fork_logs hdr) cs, Accepting).
Proof.
  intros hdr cs. induction cs as [|[n k] cs IH]; intros i H; [reflexivity|].
  cbn [conns map forking_serve fst snd]. fold (conns cs).
  assert (E : child_run hdr (mkconn None None None None n (Some k) None None)
    = (served hdr n k, Exited match k with KTransport => 0%nat | _ => 1%nat end)).
  { unfold child_run, child_body, process_loop, served. cbn.
    specialize (H n k (or_introl eq_refl)).
    destruct k; try congruence; destruct hdr; cbn; rewrite <- ?app_assoc; reflexivity. }
  rewrite E. cbn. rewrite IH; [reflexivity|]. intros n' k' Hi. apply (H n' k'). right. exact Hi.
Qed.

(** The child closes both transports and exits with its code although closing
    raises IOError, which is logged; so does the parent, which goes on. *)
Theorem C44_forking_close : forall hdr c k i,
  c_itrans c = None -> c_iprot c = None -> c_otrans c = None -> c_oprot c = None ->
  c_end c = Some k -> k <> KBase ->
  (c_iclose c = None \/ c_iclose c = Some KIO) -> (c_oclose c = None \/ c_oclose c = Some KIO) ->
  let log o := match o with Some x => [Logged x] | None => [] end in
  forking_serve hdr (fun _ => None) (fun _ => None) i [AcConn c]
  = ([mkfork (CloseIn :: log (c_iclose c) ++ CloseOut :: log (c_oclose c))
        (Some (repeat Processed (c_calls c)
               ++ match k with KTransport => [] | _ => [Logged k] end
               ++ CloseIn :: log (c_iclose c)
               ++ (if hdr then [] else CloseOut :: log (c_oclose c)),
               Exited match k with KTransport => 0%nat | _ => 1%nat end))], Accepting).
Proof.
  intros hdr [a b d e n x f g] k i. cbn. intros -> -> -> -> -> Hk Hf Hg. unfold process_loop. cbn.
  destruct Hf as [-> | ->], Hg as [-> | ->], k; try congruence; destruct hdr; cbn;
    rewrite <- ?app_assoc, ?app_nil_r; reflexivity.
Qed.

(** The parent survives every Exception but those of accept. *)
Theorem C44_forking_parent : forall hdr fork collect es i,
  (forall c, In (AcConn c) es -> c_itrans c <> Some KBase /\ c_otrans c <> Some KBase
     /\ c_iclose c <> Some KBase /\ c_oclose c <> Some KBase) ->
  (forall k, ~ In (AcRaise k) es) ->
  (forall j, fork j <> Some KBase) -> (forall j, collect j <> Some KBase) ->
  snd (forking_serve hdr fork collect i es) = Accepting.
Proof.
  intros hdr fork collect es. induction es as [|e es IH]; intros i H1 H2 H3 H4; [reflexivity|].
  assert (IH' : forall j, snd (forking_serve hdr fork collect j es) = Accepting).
  { intros j. apply IH; try assumption; [intros c Hc; apply H1; right; exact Hc|].
    intros k Hk. apply (H2 k). right. exact Hk. }
  destruct e as [|k|c]; cbn [forking_serve].
  - apply IH'.
  - exfalso. apply (H2 k). left. reflexivity.
  - specialize (IH' (S i)). specialize (H3 i). specialize (H4 i).
    destruct (H1 c (or_introl eq_refl)) as (A1 & A2 & A3 & A4).
    destruct (forking_serve hdr fork collect (S i) es) as [ls s]. cbn [snd] in IH'.
    destruct c as [a b c d n e f g]; cbn in *. unfold parent_body, try_close. cbn.
    destruct (fork i) as [[]|]; cbn; try congruence;
    destruct (collect i) as [[]|]; cbn; try congruence;
    destruct a as [[]|]; cbn; try congruence;
    destruct c as [[]|]; cbn; try congruence;
    destruct f as [[]|]; cbn; try congruence;
    destruct g as [[]|]; cbn; try congruence.
Qed.

(** ** Process pool: each worker process's loop survives every Exception. *)
Theorem C44_process_pool : forall es,
  (forall k, In (AcRaise k) es -> k <> KBase) ->
  (forall c, In (AcConn c) es -> no_base c /\ c_end c <> None) ->
  snd (procpool_serve es) = Accepting.
Proof.
  intros es. induction es as [|e es IH]; intros H1 H2; [reflexivity|].
  assert (IH' : snd (procpool_serve es) = Accepting).
  { apply IH; [intros k Hk; apply H1|intros c Hc; apply H2]; right; assumption. }
  destruct e as [|k|c]; cbn [procpool_serve].
  - exact IH'.
  - destruct k; try exact IH'. exfalso. apply (H1 KBase); [left; reflexivity|reflexivity].
  - destruct (H2 c (or_introl eq_refl)) as [(A1 & A2 & A3 & A4 & A5 & A6 & A7) A8].
    destruct (procpool_serve es) as [ls s]. cbn [snd] in IH'. subst s.
    destruct c as [a b c d n e f g]; cbn in *. unfold procpool_conn, process_loop. cbn.
    destruct a as [[]|]; cbn; try congruence; destruct c as [[]|]; cbn; try congruence;
    destruct b as [[]|]; cbn; try congruence; destruct d as [[]|]; cbn; try congruence;
    destruct e as [[]|]; cbn; try congruence; destruct f as [[]|]; cbn; try congruence;
    destruct g as [[]|]; cbn; congruence.
Qed.

(** ** Where containment fails *)

(** The simple server stops at the first connection whose service raises a
    BaseException (SystemExit from a handler), without closing it; whose
    transports cannot be made; or whose input transport fails to close, in which
    case the output transport stays open.  It and the forking server also stop
    when accept raises. *)
Theorem C44_simple_dies_refuted :
  (forall hdr c n r, ends_with c n KBase ->
     simple_serve hdr (AcConn c :: r) = ([repeat Processed n], Dead KBase))
  /\ (forall hdr c k r, c_itrans c = Some k ->
     simple_serve hdr (AcConn c :: r) = ([[]], Dead k))
  /\ (forall n k k' r, k <> KBase ->
     exists l, simple_serve false
       (AcConn (mkconn None None None None n (Some k) (Some k') None) :: r) = ([l], Dead k')
       /\ ~ In CloseOut l)
  /\ (forall hdr k r, simple_serve hdr (AcRaise k :: r) = ([], Dead k))
  /\ (forall hdr fork collect i k r,
        forking_serve hdr fork collect i (AcRaise k :: r) = ([], Dead k)).
Proof.
  split; [|split; [|split; [|split; reflexivity]]].
  - intros hdr c n r ->. cbn [simple_serve]. unfold serve_conn, process_loop.
    destruct hdr; cbn; rewrite app_nil_r; reflexivity.
  - intros hdr c k r E. cbn [simple_serve]. unfold serve_conn. rewrite E. reflexivity.
  - intros n k k' r Hk. exists (repeat Processed n
      ++ (if match k with KTransport => true | _ => false end then [] else [Logged k])
      ++ [CloseIn]). split.
    + cbn [simple_serve]. unfold serve_conn, process_loop. cbn.
      destruct k; try congruence; cbn; rewrite <- ?app_assoc; reflexivity.
    + intros H. apply in_app_or in H. destruct H as [H|H].
      * apply repeat_spec in H. discriminate.
      * destruct k; cbn in H; intuition discriminate.
Qed.

(** In the threaded and pool servers a connection whose protocol object cannot be
    made is never closed. *)
Theorem C44_not_closed_refuted : exists c, c_itrans c = None
  /\ threaded_serve false (fun _ => None) 0 [AcConn c] = ([Some ([], Exc KExn)], Accepting)
  /\ exists p, pool_run false [PAccept (AcConn c); PTake 0; PFinish 0] (pool_start 1) = Some p
       /\ done p = [(c, ([], Exc KExn))].
Proof.
  exists (mkconn None (Some KExn) None None 0 (Some KTransport) None None).
  split; [reflexivity|]. split; [reflexivity|]. eexists. split; reflexivity.
Qed.

(** A forked child whose set-up raises, or whose transport fails to close with
    anything but IOError, does not exit: it returns to the accept loop as a
    second server. *)
Theorem C44_child_accepts_refuted :
  (forall hdr c k, c_itrans c = Some k -> k <> KBase -> snd (child_run hdr c) = ChildAccepts)
  /\ (forall hdr n k k', k <> KBase -> k' = KTransport \/ k' = KExn ->
      snd (child_run hdr (mkconn None None None None n (Some k) (Some k') None))
      = ChildAccepts).
Proof.
  split.
  - intros hdr c k E Hk. unfold child_run, child_body. rewrite E. cbn.
    destruct k; try reflexivity. congruence.
  - intros hdr n k k' Hk Hk'. unfold child_run, child_body, process_loop. cbn.
    destruct Hk' as [-> | ->]; destruct hdr, k; try congruence; reflexivity.
Qed.

(** * Non-trivial case: an aborted connection, a handler bug, an I/O error. *)
Example C44_ex :
  simple_serve false (AcNone :: conns [(2, KTransport); (0, KExn); (1, KIO)]%nat)
  = ([[Processed; Processed; CloseIn; CloseOut];
      [Logged KExn; CloseIn; CloseOut];
      [Processed; Logged KIO; CloseIn; CloseOut]], Accepting).
Proof. reflexivity. Qed.

Example C44_ex_pool :
  match pool_run true
     [PAccept (AcConn (mkconn None None None None 3 (Some KExn) None None));
      PAccept (AcRaise KIO);
      PAccept (AcConn (mkconn (Some KExn) None None None 0 None None None));
      PTake 1; PTake 0; PFinish 0; PFinish 1] (pool_start 2) with
  | Some p => length (done p) = 2%nat /\ threads p 0 = Idle /\ threads p 1 = Idle
              /\ queue p = []
  | None => False
  end.
Proof. vm_compute. repeat split. Qed.

(** Axioms used. *)
Print Assumptions C44_simple.
Print Assumptions C44_threaded_loop.
Print Assumptions C44_threaded_closes.
Print Assumptions C44_pool_survives.
Print Assumptions C44_pool_closes.
Print Assumptions C44_forking.
Print Assumptions C44_forking_close.
Print Assumptions C44_forking_parent.
Print Assumptions C44_process_pool.
Print Assumptions C44_simple_dies_refuted.
Print Assumptions C44_not_closed_refuted.
Print Assumptions C44_child_accepts_refuted.
