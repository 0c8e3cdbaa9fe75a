(** C24 to C27 and C50: the non-blocking server. *)
From Coq Require Import String.
From Coq Require Import ZArith List Bool Lia.
From Coq Require Import Init.Byte.
From Coq Require Import ZifyBool ZifyNat ZifyN.
From Verif Require Import Base Bytes BytesFacts Utf8 Proto Spec Laws StructFacts Binary
  BinaryLaws SpecBinary Compact CompactLaws SpecCompact InstFacts CodecFacts FrameFacts Examples
  MsgLaws Rpc RpcFacts RpcSys PropsRpc
  Transport TransportFacts Nonblocking NonblockFacts NonblockRuns.
Import ListNotations.
Open Scope Z_scope.
Open Scope list_scope.

(** A server after some history of events, for either way of waiting. *)
Definition reached (poll : bool) (evs : list nevent) (s : nserver) : Prop :=
  Forall accepts_ok evs /\ exists r, nrun poll evs empty_server = (r, s).

(** * C24 *)

(** Whatever the history (any number of connections, any sizes and results of
    the receives, any order of events): split what was received on a connection
    into frames in the only possible way; the requests handed to workers,
    followed by those still queued, are these frames in order. *)
Theorem C24_exactly_once : forall poll evs s fd c ps rest,
  reached poll evs s -> In (fd, c) (clients s) ->
  n_got c = concat (map (fun p => be_bytes 4 (Z.of_nat (length p)) ++ p) ps) ++ rest ->
  Forall (fun p => Z.of_nat (length p) < 2 ^ 31) ps ->
  (Z.of_nat (length rest) < 4 \/ unpack_signed 4 (firstn 4 rest) < 0
   \/ Z.of_nat (length rest) < 4 + unpack_signed 4 (firstn 4 rest)) ->
  map payload (n_handed c) ++ map payload (n_received c) = ps.
Proof.
  intros poll evs s fd c ps rest [He [r E]] Hi Hg Hps Hr.
  destruct (run_inv _ _ _ _ _ _ He E Hi) as (_ & _ & [H1 H2 H3 H4 H5 H6 H7]).
  rewrite <- map_app.
  destruct (stream_unique (map payload (n_handed c ++ n_received c)) ps (n_rbuf c) rest) as [H _].
  - apply small_payloads. apply (proj1 H2).
  - exact Hps.
  - exact H3.
  - destruct Hr as [H|H]; [left; lia|right; exact H].
  - rewrite <- H1, Hg. reflexivity.
  - exact H.
Qed.

(** There always is such a splitting. *)
Theorem C24_splits : forall got, exists ps rest,
  got = concat (map (fun p => be_bytes 4 (Z.of_nat (length p)) ++ p) ps) ++ rest
  /\ Forall (fun p => Z.of_nat (length p) < 2 ^ 31) ps
  /\ (Z.of_nat (length rest) < 4 \/ unpack_signed 4 (firstn 4 rest) < 0
      \/ Z.of_nat (length rest) < 4 + unpack_signed 4 (firstn 4 rest)).
Proof.
  intros got. destruct (decompose (length got) got (Nat.le_refl _)) as (ps & rest & E & H1 & H2).
  exists ps, rest. split; [exact E|]. split; [exact H1|].
  destruct H2 as [H|H]; [left; lia|right; exact H].
Qed.

(** Two histories that delivered the same bytes on a connection gave the workers
    the same requests, up to what is still queued. *)
Theorem C24_chunking : forall poll poll' evs evs' s s' fd fd' c c',
  reached poll evs s -> In (fd, c) (clients s) ->
  reached poll' evs' s' -> In (fd', c') (clients s') ->
  n_got c = n_got c' ->
  map payload (n_handed c) ++ map payload (n_received c)
  = map payload (n_handed c') ++ map payload (n_received c').
Proof.
  intros poll poll' evs evs' s s' fd fd' c c' H Hi H' Hi' E.
  destruct (C24_splits (n_got c)) as (ps & rest & E1 & H1 & H2).
  rewrite (C24_exactly_once _ _ _ _ _ _ _ H Hi E1 H1 H2). rewrite E in E1. symmetry.
  exact (C24_exactly_once _ _ _ _ _ _ _ H' Hi' E1 H1 H2).
Qed.

(** A receive shorter than the buffer is taken whole, and unless it is the end
    of the stream or there is a negative length the connection stays open. *)
Theorem C24_receive : forall poll evs s fd c b rs,
  reached poll evs s -> In (fd, c) (clients s) ->
  n_readable c = true -> n_open c = true -> n_received c = [] ->
  b <> [] -> Z.of_nat (length b) < 8192 ->
  exists c', n_read (RData b :: rs) c = (Ok tt, c')
    /\ n_got c' = n_got c ++ b
    /\ (n_open c' = false -> (4 <= length (n_rbuf c'))%nat
                             /\ unpack_signed 4 (firstn 4 (n_rbuf c')) < 0).
Proof.
  intros poll evs s fd c b rs [He [r E]] Hi Hr Ho Hv Hb Hl.
  destruct (run_inv _ _ _ _ _ _ He E Hi) as (_ & _ & Hc).
  pose proof (n_read_got b rs c Hr Ho Hv Hl) as Hg.
  assert (Er : n_read (RData b :: rs) c = recv_loop true (RData b :: rs) c).
  { unfold n_read. rewrite Hv. unfold n_readable in Hr. destruct (n_status c); try discriminate; reflexivity. }
  rewrite Er in Hg. rewrite Er. clear Er.
  destruct (round_ok c b (settled_reading _ _ (ci_reading _ Hc)))
    as (ps & r' & st & rd & Es & Hps & Hnr & Efr & Hsd & Hst).
  assert (Em : n_received (after (n_add b c) st rd ps r') = msgs ps r').
  { unfold after. cbn [n_received n_add]. rewrite Hv. reflexivity. }
  cbn [recv_loop] in *. rewrite Ho in *.
  assert (Eb : true && (Z.of_nat (length b) =? 0) = false) by (destruct b; [congruence|reflexivity]).
  rewrite Eb in *. rewrite Efr in * by (cbn [n_add n_rbuf]; lia).
  assert (El : (Z.of_nat (length b) <? BUF_SIZE) = true) by (unfold BUF_SIZE; lia). rewrite El in *.
  assert (G : n_open (after (n_add b c) st rd ps r') = false -> bad r').
  { unfold after. cbn [n_open n_add]. rewrite Ho. rewrite <- is_bad_spec.
    destruct (is_bad r'); [reflexivity|discriminate]. }
  destruct (n_received (after (n_add b c) st rd ps r')); eexists; (split; [reflexivity|]);
    (split; [exact Hg|]); exact G.
Qed.

(** The receive size must be less than the buffer: when a receive fills the
    buffer, no frame is complete yet and nothing more is there at the moment,
    the connection is closed. *)
Theorem C24_full_buffer : forall poll evs s fd c b,
  reached poll evs s -> In (fd, c) (clients s) ->
  n_readable c = true -> n_open c = true -> n_received c = [] ->
  Z.of_nat (length b) = 8192 ->
  Z.of_nat (length (n_rbuf c ++ b)) < 4 + unpack_signed 4 (firstn 4 (n_rbuf c ++ b)) ->
  exists c', n_read [RData b] c = (Ok tt, c')
    /\ n_open c' = false /\ n_status c' = CLOSED /\ n_handed c' = n_handed c /\ n_received c' = [].
Proof.
  intros poll evs s fd c b [He [r E]] Hi Hr Ho Hv Hb Hl.
  destruct (run_inv _ _ _ _ _ _ He E Hi) as (_ & _ & Hc).
  assert (Er : n_read [RData b] c = recv_loop true [RData b] c).
  { unfold n_read. rewrite Hv. unfold n_readable in Hr. destruct (n_status c); try discriminate; reflexivity. }
  rewrite Er. destruct (round_ok c b (settled_reading _ _ (ci_reading _ Hc)))
    as (ps & r' & st & rd & Es & Hps & Hnr & Efr & Hsd & Hst).
  assert (ps = [] /\ r' = n_rbuf c ++ b) as [-> ->].
  { apply (stream_unique ps [] r' (n_rbuf c ++ b) Hps (Forall_nil _) Hnr);
      [right; right; exact Hl|]. rewrite <- Es. reflexivity. }
  cbn [recv_loop]. rewrite Ho.
  assert (Eb : true && (Z.of_nat (length b) =? 0) = false) by (rewrite Hb; reflexivity).
  rewrite Eb. rewrite Efr by (cbn [n_add n_rbuf]; lia).
  assert (El : (Z.of_nat (length b) <? BUF_SIZE) = false) by (unfold BUF_SIZE; lia). rewrite El.
  set (c3 := after (n_add b c) st rd [] (n_rbuf c ++ b)).
  assert (V3 : n_received c3 = []) by (unfold c3, after; cbn [n_received n_add msgs]; rewrite Hv; reflexivity).
  rewrite V3. exists (n_close c3).
  split; [destruct (n_open c3); reflexivity|]. repeat split. exact V3.
Qed.

(** So the quantifier cannot be extended to all receive sizes: a well-formed
    frame of 10000 bytes whose first 8192 bytes come in one receive is lost. *)
Theorem C24_full_buffer_refuted : exists poll evs s fd c b rest p,
  reached poll evs s /\ In (fd, c) (clients s) /\ n_readable c = true /\ n_open c = true
  /\ frame p = b ++ rest /\ rest <> []
  /\ exists c', n_read [RData b] c = (Ok tt, c') /\ n_status c' = CLOSED.
Proof.
  set (p := repeat x61 (Z.to_nat 10000)).
  assert (Lp : length p = Z.to_nat 10000) by apply repeat_length.
  assert (Hs : small p) by (unfold small; rewrite Lp; lia).
  assert (Lf : length (frame p) = Z.to_nat 10004) by (rewrite frame_length, Lp; lia).
  exists true, [Handle (accept_kernel 5)], (mksrv [(5, new_conn)] []), 5, new_conn,
    (firstn (Z.to_nat 8192) (frame p)), (skipn (Z.to_nat 8192) (frame p)), p.
  assert (Hre : reached true [Handle (accept_kernel 5)] (mksrv [(5, new_conn)] [])).
  { split; [|exists (Ok tt); reflexivity]. constructor; [|constructor].
    intros fd [H|[]]. assert (fd = 5) by congruence. lia. }
  split; [exact Hre|]. split; [left; reflexivity|]. split; [reflexivity|]. split; [reflexivity|].
  split; [symmetry; apply firstn_skipn|]. split.
  { intros H. apply (f_equal (@length byte)) in H. rewrite skipn_length, Lf in H. cbn [length] in H. lia. }
  destruct (C24_full_buffer true _ _ 5 new_conn (firstn (Z.to_nat 8192) (frame p)) Hre
    (or_introl eq_refl) eq_refl eq_refl eq_refl) as (c' & E & _ & Hst & _).
  - rewrite firstn_length, Lf. lia.
  - cbn [new_conn n_rbuf app].
    assert (Hh : head (firstn (Z.to_nat 8192) (frame p)) = 10000).
    { pose proof (head_frame p [] Hs) as H. rewrite app_nil_r, Lp in H.
      rewrite <- (firstn_skipn (Z.to_nat 8192) (frame p)) in H.
      rewrite head_app in H by (rewrite firstn_length, Lf; lia). rewrite H. lia. }
    unfold head in Hh. rewrite Hh, firstn_length, Lf. lia.
  - exists c'. auto.
Qed.

(** Two requests and the beginning of a third, in three receives that cut
    through a length and a payload; the second is handed over once the first
    is answered. *)
Example C24_ex : exists s c,
  reached true
    [Handle (accept_kernel 5); Handle (read_kernel 5 [x00; x00]);
     Handle (read_kernel 5 [x00; x02; x61]);
     Handle (read_kernel 5 [x62; x00; x00; x00; x01; x63; x00; x00; x00; x09; x64]);
     Done 5 (Some [x6f; x6b]); Handle (write_kernel 5 3); Handle (write_kernel 5 100);
     Handle idle_kernel] s
  /\ clients s = [(5, c)]
  /\ map payload (n_handed c) = [[x61; x62]; [x63]] /\ n_received c = []
  /\ n_rbuf c = [x00; x00; x00; x09; x64] /\ n_sent c = [x00; x00; x00; x02; x6f; x6b]
  /\ n_status c = WAIT_PROCESS.
Proof.
  eexists. eexists. split.
  - split; [|eexists; vm_compute; reflexivity].
    repeat constructor; cbn; intros fd H; repeat destruct H as [H|H]; try contradiction; try congruence.
    assert (fd = 5) by congruence. lia.
  - vm_compute. repeat split.
Qed.

(** * C25 *)

(** A request queued behind an answered one is handed to a worker by the next
    [handle]. *)
Theorem C25_next_request : forall poll evs s k s' fd c m r,
  reached poll evs s -> In (fd, c) (clients s) ->
  n_readable c = true -> n_open c = true -> n_received c = m :: r ->
  handle poll k s = (Ok tt, s') ->
  exists c', In (fd, c') (clients s') /\ n_status c' = WAIT_PROCESS
    /\ n_handed c' = n_handed c ++ [m] /\ n_received c' = r.
Proof.
  intros poll evs s k s' fd c m r [He [o E]] Hi Hr Ho Hv Eh.
  assert (Hn : NoDup (map fst (clients s))) by apply (run_inv _ _ _ _ _ _ He E Hi).
  assert (Hp : forall fd c, In (fd, c) (clients s) -> 0 <= fd).
  { intros f x H. apply (run_inv _ _ _ _ _ _ He E H). }
  pose proof (handle_hands poll k s s' fd c m r Hn Hp (In_find _ _ _ Hn Hi) Hr Ho Hv Eh) as H.
  eexists. split; [apply find_In; exact H|]. repeat split.
Qed.

(** With receives shorter than the buffer, and no negative lengths, the server
    does go back to reading: when no readable connection has a request queued,
    input for one of them is received. *)
Theorem C25_reads_again : forall poll evs s k fd c b rs l,
  reached poll evs s -> Forall short_ok evs ->
  (forall fd c, In (fd, c) (clients s) ->
     (length (n_rbuf c) < 4)%nat \/ 0 <= unpack_signed 4 (firstn 4 (n_rbuf c))) ->
  (forall fd c, In (fd, c) (clients s) -> n_readable c = true -> n_received c = []) ->
  In (fd, c) (clients s) -> n_readable c = true ->
  k_read k = RClient fd :: l -> existsb (touches fd) l = false ->
  k_recv k fd = RData b :: rs -> Z.of_nat (length b) < 8192 ->
  exists c', In (fd, c') (clients (snd (handle poll k s))) /\ n_got c' = n_got c ++ b.
Proof.
  intros poll evs s k fd c b rs l [He [o E]] Hsh Hbad Hq Hi Hr Hk Ht Hrecv Hb.
  assert (Hn : NoDup (map fst (clients s))) by apply (run_inv _ _ _ _ _ _ He E Hi).
  destruct (handle_reads poll k s fd c b rs l Hn) as (c' & Ef & Hg); try assumption.
  - intros f x H. apply (run_inv _ _ _ _ _ _ He E H).
  - intros f x H. unfold left_over.
    rewrite (run_calm _ _ _ _ _ _ He Hsh E H). cbn [orb].
    destruct (n_readable x) eqn:Ex; [|reflexivity]. rewrite (Hq f x H Ex). reflexivity.
  - intros f x H Ha. destruct (n_open x) eqn:Eo; [reflexivity|]. exfalso.
    destruct (run_marked _ _ _ _ _ _ He E H Eo) as [Hc|[H1 H2]].
    + unfold active, n_readable, n_writeable in Ha. rewrite Hc in Ha. discriminate.
    + unfold head in H2. destruct (Hbad f x H); lia.
  - apply In_find; assumption.
  - exists c'. split; [apply find_In; exact Ef|exact Hg].
Qed.

(** An answered request leaves the connection waiting for input (or closed). *)
Theorem C25_answered : forall r c, n_status c = SEND_ANSWER ->
  exists c', n_write r c = (Ok tt, c')
    /\ ((n_wbuf c' = [] /\ n_status c' = WAIT_LEN)
        \/ (n_status c' = SEND_ANSWER /\ exists k, r = Sent k /\ (k < length (n_wbuf c))%nat
            /\ length (n_wbuf c') = (length (n_wbuf c) - k)%nat)
        \/ n_status c' = CLOSED).
Proof.
  intros r c Es. unfold n_write. rewrite Es.
  destruct (n_open c); [|eexists; split; [reflexivity|]; right; right; reflexivity].
  destruct r as [k|]; [|eexists; split; [reflexivity|]; right; right; reflexivity].
  eexists. split; [reflexivity|].
  destruct (Nat.eqb_spec (Nat.min k (length (n_wbuf c))) (length (n_wbuf c))) as [En|En].
  - left. split; reflexivity.
  - right. left. split; [reflexivity|]. exists k. split; [reflexivity|]. split; [lia|].
    cbn [set_out n_wbuf]. rewrite skipn_length. lia.
Qed.

(** The defect.  Once a connection is waiting for input with [remaining] set
    and nothing queued, nothing is ever received, sent or accepted again, on
    any connection, whatever the kernel reports. *)
Theorem C25_stuck_forever : forall poll evs s evs' fd c,
  reached poll evs s -> In (fd, c) (clients s) ->
  n_readable c = true -> n_open c = true -> n_remaining c = true -> n_received c = [] ->
  forall fd' c', In (fd', c') (clients (snd (nrun poll evs' s))) ->
  exists c0, In (fd', c0) (clients s) /\ n_got c' = n_got c0 /\ n_sent c' = n_sent c0.
Proof.
  intros poll evs s evs' fd c [He [o E]] Hi Hr Ho Hrem Hv.
  assert (Hn : NoDup (map fst (clients s))) by apply (run_inv _ _ _ _ _ _ He E Hi).
  apply (stuck_run poll evs' s Hn). exists fd, c. auto.
Qed.

(** And that state is reached by any client that sends a request of exactly
    8192 bytes with its length, received at once, and takes the answer. *)
Theorem C25_progress_fails : forall poll p answer,
  Z.of_nat (length p) = 8188 -> answer <> [] -> Z.of_nat (length answer) < 2 ^ 31 ->
  exists evs s c, reached poll evs s /\ clients s = [(5, c)]
    /\ n_got c = frame p /\ map payload (n_handed c) = [p] /\ n_sent c = frame answer
    /\ n_status c = WAIT_LEN
    /\ forall evs' fd' c', In (fd', c') (clients (snd (nrun poll evs' s))) ->
       fd' = 5 /\ n_got c' = n_got c /\ n_sent c' = n_sent c.
Proof.
  intros poll p answer Hp Ha Hsm.
  destruct (full_frame_stuck poll p answer ltac:(lia) Ha Hsm)
    as (s & E & Hst & c & Hc & Hh & Hs & Hg & Hw).
  exists (full_frame_events p answer), s, c.
  assert (Hre : reached poll (full_frame_events p answer) s).
  { split; [|exists (Ok tt); exact E].
    repeat constructor; cbn; intros fd H; repeat destruct H as [H|H]; try contradiction; try congruence.
    assert (fd = 5) by congruence. lia. }
  split; [exact Hre|]. split; [exact Hc|].
  destruct Hst as (fd & c0 & Hi & H1 & H2 & H3 & H4). pose proof Hi as Hi'.
  rewrite Hc in Hi'. destruct Hi' as [Hi'|[]]. assert (fd = 5) by congruence.
  assert (c0 = c) by congruence. subst fd c0.
  split; [exact Hg|]. split; [exact Hh|]. split; [exact Hs|]. split; [exact Hw|].
  intros evs' fd' c' H.
  destruct (C25_stuck_forever _ _ _ evs' 5 c Hre Hi H1 H2 H3 H4 fd' c' H) as (c0 & H0 & Hg0 & Hs0).
  rewrite Hc in H0. destruct H0 as [H0|[]]. assert (fd' = 5) by congruence.
  assert (c0 = c) by congruence. subst c0. auto.
Qed.

Example C25_ex : exists s c m,
  reached false
    [Handle (accept_kernel 5);
     Handle (read_kernel 5 [x00; x00; x00; x01; x61; x00; x00; x00; x01; x62]);
     Done 5 (Some [x6f]); Handle (write_kernel 5 100)] s
  /\ clients s = [(5, c)] /\ n_readable c = true /\ n_open c = true /\ n_received c = [m]
  /\ exists s' c', handle false idle_kernel s = (Ok tt, s') /\ clients s' = [(5, c')]
    /\ map payload (n_handed c') = [[x61]; [x62]]
    /\ exists s2, nrun false [Done 5 (Some []); Handle (read_kernel 5 [x00])] s' = (Ok tt, s2)
      /\ exists c2, clients s2 = [(5, c2)] /\ n_rbuf c2 = [x00] /\ n_status c2 = WAIT_LEN.
Proof.
  eexists. eexists. eexists. split.
  - split; [|eexists; vm_compute; reflexivity].
    repeat constructor; cbn; intros fd H; repeat destruct H as [H|H]; try contradiction; try congruence.
    assert (fd = 5) by congruence. lia.
  - split; [vm_compute; reflexivity|]. split; [reflexivity|]. split; [reflexivity|].
    split; [reflexivity|]. eexists. eexists. split; [vm_compute; reflexivity|].
    split; [reflexivity|]. split; [reflexivity|]. eexists. split; [vm_compute; reflexivity|].
    eexists. split; [reflexivity|]. split; reflexivity.
Qed.

(** * C26 *)

(** A connection marked as closed is not processed again: whatever happens
    afterwards, as long as its descriptor is not given to a new connection, it
    is out of the table or in it unchanged. *)
Theorem C26_stays_closed : forall poll evs s evs' fd c c',
  reached poll evs s -> In (fd, c) (clients s) -> n_status c = CLOSED ->
  Forall accepts_ok evs' ->
  Forall (fun e => match e with
                   | Handle k => ~ In (RListen (Some fd)) (k_read k)
                   | Done _ _ => True
                   end) evs' ->
  In (fd, c') (clients (snd (nrun poll evs' s))) -> c' = c.
Proof.
  intros poll evs s evs' fd c c' [He [o E]] Hi Hc He' Ha Hi'.
  assert (Hs : all conn_inv s).
  { split; [apply (run_inv _ _ _ _ _ _ He E Hi)|]. intros f x H.
    split; apply (run_inv _ _ _ _ _ _ He E H). }
  assert (Hs' : all conn_inv (snd (nrun poll evs' s))).
  { clear -Hs He'. revert s Hs. induction He' as [|e evs' H1 He' IH]; intros s Hs; [exact Hs|].
    cbn [nrun]. unfold bind. pose proof (inv_step poll e s H1 Hs) as H2.
    destruct (nstep poll e s) as [[[]|x|] s1]; cbn [snd] in *; auto. }
  destruct (closed_run poll fd c evs' ltac:(unfold n_closed; rewrite Hc; reflexivity) s Hs He')
    as [H|H].
  - eapply Forall_impl; [|exact Ha]. intros [k|]; cbn; auto.
  - right. apply In_find; [apply (proj1 Hs)|exact Hi].
  - apply (In_find _ _ _ (proj1 Hs')) in Hi'. congruence.
  - apply (In_find _ _ _ (proj1 Hs')) in Hi'. congruence.
Qed.

(** It is out of the table after the next [handle] whose scan goes through. *)
Theorem C26_removed : forall poll evs s k fd c,
  reached poll evs s -> In (fd, c) (clients s) -> n_status c = CLOSED ->
  ~ In (RListen (Some fd)) (k_read k) -> fst (handle poll k s) = Ok tt ->
  forall c', ~ In (fd, c') (clients (snd (handle poll k s))).
Proof.
  intros poll evs s k fd c [He [o E]] Hi Hc Hk Hok c' Hi'.
  assert (Hn : NoDup (map fst (clients s))) by apply (run_inv _ _ _ _ _ _ He E Hi).
  destruct (handle_gone poll k s fd c Hn Hk (In_find _ _ _ Hn Hi)
    ltac:(unfold n_closed; rewrite Hc; reflexivity) Hok c' Hi').
Qed.

(** Every connection the server closed is marked as closed, unless a negative
    length followed a complete frame. *)
Theorem C26_marked : forall poll evs s fd c,
  reached poll evs s -> In (fd, c) (clients s) -> n_open c = false ->
  n_status c = CLOSED
  \/ ((4 <= length (n_rbuf c))%nat /\ unpack_signed 4 (firstn 4 (n_rbuf c)) < 0).
Proof.
  intros poll evs s fd c [He [o E]] Hi Ho. exact (run_marked _ _ _ _ _ _ He E Hi Ho).
Qed.

(** The defect, waiting with poll: complete frames and a negative length in one
    receive leave a closed connection in WAIT_PROCESS, and an exception leaves
    [handle], which ends the server for all connections. *)
Theorem C26_bad_length_poll : forall evs s k fd c b rs l ps r,
  reached true evs s -> Forall short_ok evs ->
  (forall fd c, In (fd, c) (clients s) -> n_readable c = true -> n_received c = []) ->
  (forall fd c, In (fd, c) (clients s) -> n_readable c || n_writeable c = true -> n_open c = true) ->
  In (fd, c) (clients s) -> n_readable c = true ->
  k_read k = RClient fd :: l -> k_recv k fd = RData b :: rs -> b <> [] ->
  n_rbuf c ++ b = concat (map (fun p => be_bytes 4 (Z.of_nat (length p)) ++ p) ps) ++ r ->
  Forall (fun p => Z.of_nat (length p) < 2 ^ 31) ps -> ps <> [] ->
  (4 <= length r)%nat -> unpack_signed 4 (firstn 4 r) < 0 ->
  exists s' c', handle true k s = (Raise EValueError, s')
    /\ In (fd, c') (clients s') /\ n_open c' = false /\ n_status c' = WAIT_PROCESS.
Proof.
  intros evs s k fd c b rs l ps r [He [o E]] Hsh Hq Hop Hi Hr Hk Hrecv Hb Es Hps Hne Hl4 Hneg.
  assert (Hn : NoDup (map fst (clients s))) by apply (run_inv _ _ _ _ _ _ He E Hi).
  destruct (bad_after_frame_poll k s fd c b rs l ps r Hn) as (s' & c' & E' & Ef & Ho & Hst);
    try assumption.
  - intros f x H. apply (run_inv _ _ _ _ _ _ He E H).
  - intros f x H. unfold left_over.
    rewrite (run_calm _ _ _ _ _ _ He Hsh E H). cbn [orb].
    destruct (n_readable x) eqn:Ex; [|reflexivity]. rewrite (Hq f x H Ex). reflexivity.
  - apply In_find; assumption.
  - apply (run_inv _ _ _ _ _ _ He E Hi).
  - split; assumption.
  - exists s', c'. split; [exact E'|]. split; [apply find_In; exact Ef|]. auto.
Qed.

(** Waiting with select: a worker is given the first frame although the
    connection is closed. *)
Theorem C26_bad_length_select : forall evs s k fd c b rs p ps r,
  reached false evs s -> Forall short_ok evs ->
  (forall fd c, In (fd, c) (clients s) -> n_readable c = true -> n_received c = []) ->
  (forall fd c, In (fd, c) (clients s) -> n_readable c || n_writeable c = true -> n_open c = true) ->
  In (fd, c) (clients s) -> n_readable c = true ->
  k_read k = [RClient fd] -> k_write k = [] -> k_err k = [] ->
  k_recv k fd = RData b :: rs -> b <> [] ->
  n_rbuf c ++ b = concat (map (fun p => be_bytes 4 (Z.of_nat (length p)) ++ p) (p :: ps)) ++ r ->
  Forall (fun p => Z.of_nat (length p) < 2 ^ 31) (p :: ps) ->
  (4 <= length r)%nat -> unpack_signed 4 (firstn 4 r) < 0 ->
  exists s' c' m, handle false k s = (Ok tt, s')
    /\ In (fd, c') (clients s') /\ n_open c' = false
    /\ n_handed c' = n_handed c ++ [m] /\ payload m = p.
Proof.
  intros evs s k fd c b rs p ps r [He [o E]] Hsh Hq Hop Hi Hr Hk Hkw Hke Hrecv Hb Es Hps Hl4 Hneg.
  assert (Hn : NoDup (map fst (clients s))) by apply (run_inv _ _ _ _ _ _ He E Hi).
  destruct (bad_after_frame_select k s fd c b rs ps r p Hn)
    as (s' & c' & m & E' & Ef & Ho & Hst & Hh & Hm); try assumption.
  - intros f x H. apply (run_inv _ _ _ _ _ _ He E H).
  - intros f x H. unfold left_over.
    rewrite (run_calm _ _ _ _ _ _ He Hsh E H). cbn [orb].
    destruct (n_readable x) eqn:Ex; [|reflexivity]. rewrite (Hq f x H Ex). reflexivity.
  - apply In_find; assumption.
  - apply (run_inv _ _ _ _ _ _ He E Hi).
  - split; assumption.
  - exists s', c', m. split; [exact E'|]. split; [apply find_In; exact Ef|]. auto.
Qed.

(** So the property fails: the server closed the connection and then gave its
    request to a worker. *)
Theorem C26_closed_refuted : exists evs s c,
  reached false evs s /\ In (5, c) (clients s) /\ n_open c = false /\ n_status c = WAIT_PROCESS
  /\ map payload (n_handed c) = [[x61]]
  /\ fst (nrun false [Done 5 (Some [x6f]); Handle idle_kernel] s) = Raise EValueError.
Proof.
  eexists [Handle (accept_kernel 5);
     Handle (read_kernel 5 [x00; x00; x00; x01; x61; xff; xff; xff; xff])]. eexists. eexists.
  split.
  - split; [|eexists; vm_compute; reflexivity].
    repeat constructor; cbn; intros fd H; repeat destruct H as [H|H]; try contradiction; try congruence.
    assert (fd = 5) by congruence. lia.
  - split; [left; reflexivity|]. repeat split.
Qed.

Theorem C26_server_ends_refuted : exists evs,
  Forall accepts_ok evs /\ fst (nrun true evs empty_server) = Raise EValueError.
Proof.
  exists [Handle (accept_kernel 5); Handle (accept_kernel 6);
     Handle (read_kernel 5 [x00; x00; x00; x01; x61; xff; xff; xff; xff])].
  split; [|vm_compute; reflexivity].
  repeat constructor; cbn; intros fd H; repeat destruct H as [H|H]; try contradiction; try congruence;
    inversion H; lia.
Qed.

Example C26_ex : exists s c,
  reached true [Handle (accept_kernel 5); Handle (read_kernel 5 [xff; xff; xff; xff])] s
  /\ clients s = [(5, c)] /\ n_status c = CLOSED /\ n_handed c = []
  /\ exists s', handle true idle_kernel s = (Ok tt, s') /\ clients s' = [].
Proof.
  eexists. eexists. split.
  - split; [|eexists; vm_compute; reflexivity].
    repeat constructor; cbn; intros fd H; repeat destruct H as [H|H]; try contradiction; try congruence.
    assert (fd = 5) by congruence. lia.
  - split; [reflexivity|]. split; [reflexivity|]. split; [reflexivity|].
    eexists. split; vm_compute; reflexivity.
Qed.

(** * C27 *)

(** What the worker reads is the frame and then exactly what had been received
    after it when it was queued. *)
Theorem C27_worker_sees : forall poll evs s fd c before m after,
  reached poll evs s -> In (fd, c) (clients s) ->
  n_handed c = before ++ m :: after ->
  exists extra later,
    worker_input m = payload m ++ extra
    /\ n_got c = concat (map (fun p => be_bytes 4 (Z.of_nat (length p)) ++ p) (map payload before))
         ++ (be_bytes 4 (Z.of_nat (length (payload m))) ++ payload m) ++ extra ++ later.
Proof.
  intros poll evs s fd c before m aft [He [o E]] Hi Hh.
  destruct (run_inv _ _ _ _ _ _ He E Hi) as (_ & _ & Hc).
  destruct (ci_msgs _ Hc) as [H1 H2].
  destruct (H2 before m (aft ++ n_received c)) as [later Hl].
  { rewrite Hh, <- app_assoc. reflexivity. }
  assert (Hm : msg_ok m).
  { rewrite Forall_forall in H1. apply H1. rewrite Hh. apply in_or_app. left.
    apply in_or_app. right. left. reflexivity. }
  destruct Hm as (p & extra & -> & Hp). destruct (payload_msg p extra) as [P1 P2].
  exists extra, later. rewrite P2, P1. split; [reflexivity|].
  rewrite Hl. cbn [g_buffer]. rewrite <- app_assoc. reflexivity.
Qed.

(** Isolation when nothing was received after the frame. *)
Theorem C27_isolated : forall poll evs s fd c before m,
  reached poll evs s -> In (fd, c) (clients s) ->
  n_handed c = before ++ [m] ->
  n_got c = concat (map (fun p => be_bytes 4 (Z.of_nat (length p)) ++ p)
                      (map payload (n_handed c))) ->
  worker_input m = payload m.
Proof.
  intros poll evs s fd c before m Hre Hi Hh Hg.
  destruct (C27_worker_sees _ _ _ _ _ _ _ _ Hre Hi Hh) as (extra & later & Hw & E).
  rewrite Hw. rewrite E, Hh, !map_app, concat_app in Hg. apply app_inv_head in Hg.
  cbn [map concat] in Hg. apply app_inv_head in Hg.
  apply app_eq_nil in Hg as [-> _]. apply app_nil_r.
Qed.

(** What a processor does with a request that is complete does not depend on
    what follows it, so only malformed requests can tell. *)
Theorem C27_complete_binary : forall cf SL CL env H
    (handler : list Z -> list (option value) -> H -> hres * H)
    ms m args type seqid extra h h' r F,
  b_limits cf SL CL -> strict_ok cf -> 14 <= SL ->
  schema_ok env -> schema_closed env = true ->
  lookup (m_name m) ms = Some m -> m_oneway m = false -> method_ok env m ->
  name_ok SL (m_name m) -> mtype_ok type -> seq_ok seqid ->
  sendable env SL CL (m_args m) args ->
  handler (m_name m) (received env (m_args m) args) h = (r, h') ->
  handler_ok env SL CL m r -> (forall t, r <> HTransport t) ->
  let req := b_msg (strictWrite cf) (m_name m) type seqid env (m_args m)
               (VStruct (m_args m) args) in
  let run input := process (binary cf) env handler F ms
      (mkss (mkst tt input [] 0) (mkst tt [] [] 0) [] h) in
  (length req <= F)%nat ->
  fst (run (req ++ extra)) = fst (run req)
  /\ s_sent (snd (run (req ++ extra))) = s_sent (snd (run req))
  /\ s_h (snd (run (req ++ extra))) = s_h (snd (run req)).
Proof.
  intros cf SL CL env H handler ms m args type seqid extra h h' r F
    HL Hs HSL He Hc Hl Ho Hm Hn Ht Hq Ha Hr Hh Htr req run HF.
  set (L := binary_mlaws cf SL CL HL Hs).
  assert (G : forall tail : list byte, exists (e : schema) (n : nat) (v : value), reply_for env m r = Some (reply_type m r, e, n, v)
    /\ run (req ++ tail) = (Ok tt, mkss (mkst tt tail [] 0) (mkst tt [] [] 0)
         ([] ++ [b_msg (strictWrite cf) (m_name m) (reply_type m r) seqid e n v]) h')).
  { intros tail.
    destruct (process_request L env He Hc handler ms m type args seqid tail [] [] [] tt tt
      [] h h' r F HSL I I Hl Hn Ht Hq Ha Hr Ho Hm Hh Htr) as (e & n & v & Er & s' & Ep & Hl').
    { unfold L. rewrite b_msg_eq. exact HF. }
    clear -Er Ep Hl' L run. subst L. rewrite b_msg_eq in Ep. fold req in Ep.
    destruct Hl' as ([] & [] & -> & _ & _). rewrite b_msg_eq in Ep.
    exists e, n, v. split; [exact Er|exact Ep]. }
  destruct (G extra) as (e1 & n1 & v1 & R1 & E1). destruct (G []) as (e2 & n2 & v2 & R2 & E2).
  rewrite app_nil_r in E2. rewrite E1, E2. cbn [fst snd s_sent s_h].
  split; [reflexivity|]. split; [|reflexivity]. rewrite R1 in R2.
  assert (e1 = e2) by congruence. assert (n1 = n2) by congruence. assert (v1 = v2) by congruence.
  subst. reflexivity.
Qed.

(** The defect: a request whose last byte is missing is refused on its own, but
    is carried out when another frame came with it, with the first byte of that
    frame's length in place of the missing one. *)
Definition cut (l : list byte) : list byte := firstn (length l - 1) l.

Theorem C27_isolation_refuted : exists evs s c m rest,
  reached true evs s /\ In (5, c) (clients s) /\ n_handed c = m :: rest
  /\ payload m = cut (b_msg true (lit "add") CALL 7 rpc_env 0 (VStruct 0 [Some (VInt 1); Some (VInt 2)]))
  /\ let run input := process (binary bdefault) rpc_env rpc_handler 200 rpc_ms
       (mkss (mkst tt input [] 0) (mkst tt [] [] 0) [] 0) in
     fst (run (payload m)) = Raise EEOFError /\ s_h (snd (run (payload m))) = 0
     /\ fst (run (worker_input m)) = Ok tt
     /\ s_sent (snd (run (worker_input m)))
        = [b_msg true (lit "add") REPLY 7 rpc_env 1 (VStruct 1 [Some (VInt 3); None])].
Proof.
  eexists [Handle (accept_kernel 5);
     Handle (read_kernel 5 (frame (cut (b_msg true (lit "add") CALL 7 rpc_env 0
               (VStruct 0 [Some (VInt 1); Some (VInt 2)]))) ++ frame [x61]))].
  eexists. eexists. eexists. eexists.
  split.
  - split; [|eexists; vm_compute; reflexivity].
    repeat constructor; cbn; intros fd H; repeat destruct H as [H|H]; try contradiction; try congruence;
      inversion H; lia.
  - split; [left; reflexivity|]. split; [reflexivity|]. split; [vm_compute; reflexivity|].
    split; [|split; [|split]]; vm_compute; reflexivity.
Qed.

Example C27_ex : exists s c m,
  reached true [Handle (accept_kernel 5); Handle (read_kernel 5 [x00; x00; x00; x01; x61])] s
  /\ In (5, c) (clients s) /\ n_handed c = [] ++ [m] /\ worker_input m = [x61] /\ payload m = [x61].
Proof.
  eexists. eexists. eexists. split.
  - split; [|eexists; vm_compute; reflexivity].
    repeat constructor; cbn; intros fd H; repeat destruct H as [H|H]; try contradiction; try congruence;
      inversion H; lia.
  - split; [left; reflexivity|]. repeat split.
Qed.

(** * C50 *)

(** What was sent on a connection is a prefix of the framed answers, in order,
    however the kernel cuts the sends. *)
Theorem C50_sent : forall poll evs s fd c,
  reached poll evs s -> In (fd, c) (clients s) ->
  n_sent c ++ n_wbuf c
  = concat (map (fun p => be_bytes 4 (Z.of_nat (length p)) ++ p) (n_answers c)).
Proof.
  intros poll evs s fd c [He [o E]] Hi.
  destruct (run_inv _ _ _ _ _ _ He E Hi) as (_ & _ & Hc). exact (ci_sent _ Hc).
Qed.

(** All of them, when the connection is waiting for input or for a worker. *)
Theorem C50_all_sent : forall poll evs s fd c,
  reached poll evs s -> In (fd, c) (clients s) ->
  n_status c = WAIT_PROCESS \/ n_readable c = true ->
  n_sent c = concat (map (fun p => be_bytes 4 (Z.of_nat (length p)) ++ p) (n_answers c)).
Proof.
  intros poll evs s fd c Hre Hi Hst. pose proof (C50_sent _ _ _ _ _ Hre Hi) as H.
  destruct Hre as [He [o E]]. destruct (run_inv _ _ _ _ _ _ He E Hi) as (_ & _ & Hc).
  rewrite (ci_wbuf _ Hc Hst), app_nil_r in H. exact H.
Qed.

Example C50_ex : exists s c,
  reached true
    [Handle (accept_kernel 5); Handle (read_kernel 5 [x00; x00; x00; x01; x61]);
     Done 5 (Some [x6f; x6b]); Handle (write_kernel 5 3); Handle (write_kernel 5 2)] s
  /\ clients s = [(5, c)] /\ n_answers c = [[x6f; x6b]]
  /\ n_sent c = [x00; x00; x00; x02; x6f] /\ n_wbuf c = [x6b].
Proof.
  eexists. eexists. split.
  - split; [|eexists; vm_compute; reflexivity].
    repeat constructor; cbn; intros fd H; repeat destruct H as [H|H]; try contradiction; try congruence;
      inversion H; lia.
  - repeat split.
Qed.

(** Axioms used. *)
Print Assumptions C24_exactly_once.
Print Assumptions C24_splits.
Print Assumptions C24_chunking.
Print Assumptions C24_receive.
Print Assumptions C24_full_buffer.
Print Assumptions C24_full_buffer_refuted.
Print Assumptions C25_next_request.
Print Assumptions C25_reads_again.
Print Assumptions C25_answered.
Print Assumptions C25_stuck_forever.
Print Assumptions C25_progress_fails.
Print Assumptions C26_stays_closed.
Print Assumptions C26_removed.
Print Assumptions C26_marked.
Print Assumptions C26_bad_length_poll.
Print Assumptions C26_bad_length_select.
Print Assumptions C26_closed_refuted.
Print Assumptions C26_server_ends_refuted.
Print Assumptions C27_worker_sees.
Print Assumptions C27_isolated.
Print Assumptions C27_complete_binary.
Print Assumptions C27_isolation_refuted.
Print Assumptions C50_sent.
Print Assumptions C50_all_sent.
