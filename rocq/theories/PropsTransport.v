(** Properties of the transports: C16-C20, C48, C49. *)
From Coq Require Import ZArith List Bool Lia ZifyBool ZifyNat.
From Coq Require Import Init.Byte.
From Verif Require Import Base Bytes BytesFacts Transport TransportFacts SaslFacts.
Import ListNotations.
Open Scope Z_scope.

(** * C16: readAll *)

(** On a stream arriving in arbitrary pieces, with either way of reporting the
    end. *)
Theorem C16_enough : forall data plan raises n, 0 <= n <= Z.of_nat (length data) ->
  exists s', readAll_t source_read n (mksource data plan raises)
             = (Ok (firstn (Z.to_nat n) data), s')
             /\ src_data s' = skipn (Z.to_nat n) data.
Proof.
  intros data plan raises n H.
  exact (readAll_enough source source_rel source_read (mksource data plan raises) data n
           source_stream eq_refl H).
Qed.

Theorem C16_short : forall data plan raises n, Z.of_nat (length data) < n ->
  exists e s', readAll_t source_read n (mksource data plan raises) = (Raise e, s')
               /\ (e = EEOFError \/ e = ETransport TT_END_OF_FILE) /\ src_data s' = [].
Proof.
  intros data plan raises n H.
  exact (readAll_short source source_rel source_read (mksource data plan raises) data n
           source_stream eq_refl H).
Qed.

Theorem C16_nothing : forall T (read : Z -> SM T (list byte)) n t, n <= 0 ->
  readAll_t read n t = (Ok [], t).
Proof. exact readAll_nothing. Qed.

(** The same for any transport whose read is a stream in the sense of
    TransportFacts, in particular for towers of wrappers. *)
Theorem C16_any_stream : forall T (R : T -> list byte -> Prop) read t c n,
  stream R read -> R t c -> exact_read R c n (readAll_t read n t).
Proof. exact readAll_exact. Qed.

(** On a memory buffer this is what the protocol models use. *)
Theorem C16_memory : forall X n (s : st X), readAll n s = readAll_t mem_read n s.
Proof. exact readAll_summary. Qed.

Definition bytes5 : list byte := [x01; x02; x03; x04; x05].

Example C16_ex_enough :
  readAll_t source_read 4 (mksource bytes5 [1%nat; 2%nat; 9%nat] true)
  = (Ok [x01; x02; x03; x04], mksource [x05] [] true).
Proof. vm_compute. reflexivity. Qed.

Example C16_ex_short :
  fst (readAll_t source_read 6 (mksource bytes5 [1%nat; 2%nat] false)) = Raise EEOFError.
Proof. vm_compute. reflexivity. Qed.

(** * C17: TBufferedTransport *)

(** Any history of reads of positive sizes, writes and flushes, with any
    pattern of failing underlying writes and flushes: reads deliver the bytes
    of the connection, and the underlying writes are exactly what was written
    between flushes. *)
Theorem C17_history : forall size ops data plan raises wfail ffail,
  Forall (fun z => 0 < z) (read_sizes ops) ->
  let s0 := mkwrap (mkconn (mksource data plan raises) [] wfail ffail) [] [] in
  let (results, s') := run_ops (buffered conn_transport size) ops s0 in
  delivers data (read_sizes ops) results
  /\ cn_log (w_trans s') = flushed [] ops.
Proof.
  intros size ops data plan raises wfail ffail H s0.
  destruct (buffered_history size ops data plan raises wfail ffail [] [] H) as [D E].
  subst s0. destruct (run_ops _ _ _) as [rs s']. exact (conj D E).
Qed.

(** Over any stream the buffered transport is a stream of the same bytes,
    those in the read buffer first. *)
Theorem C17_stream : forall T (U : transport T) R, stream R (t_read U) ->
  forall size, stream (buffered_rel R) (buffered_read U size).
Proof. intros T U R H size. exact (buffered_stream U R H size). Qed.

(** The refill used by the C reader: what was handed back plus new bytes, at
    least as many as required, nothing lost. *)
Theorem C17_refill : forall T (U : transport T) R, stream R (t_read U) ->
  forall size t rb wb c p req, R t c -> Z.of_nat (length p) < req -> 0 < size ->
  match buffered_refill U size p req (mkwrap t rb wb) with
  | (Ok r, s') => exists c', R (w_trans s') c' /\ p ++ c = r ++ c' /\ w_rbuf s' = r
                             /\ w_wbuf s' = wb /\ req <= Z.of_nat (length r)
  | (Raise e, _) => Z.of_nat (length (p ++ c)) < req /\ eof_exn e
  | (Diverge, _) => False
  end.
Proof. intros T U R H. exact (buffered_refill_ok U R H). Qed.

(** A read of size zero throws away what is in the read buffer: here four of
    five bytes of the connection are gone. *)
Theorem C17_read_zero_refuted : exists size data,
  let s0 := mkwrap (mkconn (mksource data [4%nat; 1%nat] false) [] [] []) [] [] in
  fst (run_ops (buffered conn_transport size) [ORead 1; ORead 0; ORead 5] s0)
  = [Ok [x01]; Ok []; Ok [x05]] /\ data = bytes5.
Proof. exists 4096, bytes5. vm_compute. split; reflexivity. Qed.

Example C17_ex :
  let s0 := mkwrap (mkconn (mksource bytes5 [3%nat; 1%nat] true) []
                           [None; Some (ETransport TT_UNKNOWN)] []) [] [] in
  let (rs, s') := run_ops (buffered conn_transport 4)
    [OWrite [x0a]; ORead 2; OWrite [x0b]; OFlush; ORead 2; OWrite [x0c]; OFlush;
     OWrite [x0d]; OFlush; ORead 9; ORead 9; ORead 9] s0 in
  rs = [Ok [x01; x02]; Ok [x03]; Ok [x04]; Ok [x05]; Raise (ETransport TT_END_OF_FILE)]
  /\ cn_log (w_trans s') = [[x0a; x0b]; [x0c]; [x0d]].
Proof. vm_compute. split; reflexivity. Qed.

(** * C18: TFramedTransport *)

(** Any history over a connection carrying whole non-empty frames and then
    possibly part of one; [incomplete r]: the end has less than a header, or
    a header announcing more bytes than there are. *)
Theorem C18_history : forall ops payloads rest plan raises wfail ffail,
  Forall (fun z => 0 < z) (read_sizes ops) ->
  Forall frame_ok payloads -> incomplete rest ->
  Forall (fun p => Z.of_nat (length p) < 2 ^ 31) (flushed [] ops) ->
  let data := concat (map frame payloads) ++ rest in
  let s0 := mkwrap (mkconn (mksource data plan raises) [] wfail ffail) [] [] in
  let (results, s') := run_ops (framed conn_transport) ops s0 in
  delivers (concat payloads) (read_sizes ops) results
  /\ cn_log (w_trans s') = map frame (flushed [] ops).
Proof.
  intros ops ps r plan raises wfail ffail H1 H2 H3 H4 data s0.
  destruct (framed_history ops ps r plan raises wfail ffail [] [] H1 H2 H3 H4) as [D E].
  subst s0 data. destruct (run_ops _ _ _) as [rs s']. exact (conj D E).
Qed.

(** Writer to reader: what one side writes and flushes, however chunked on
    the way, is the stream the other side reads. *)
Theorem C18_round_trip : forall ops wplan wfail0 data sizes plan raises,
  Forall (fun z => 0 < z) (read_sizes ops) -> Forall (fun z => 0 < z) sizes ->
  Forall frame_ok (flushed [] ops) ->
  cn_log (w_trans (snd (run_ops (framed conn_transport) ops
    (mkwrap (mkconn (mksource [] wplan false) [] wfail0 []) [] [])))) = data ->
  delivers (concat (flushed [] ops)) sizes
    (fst (run_reads (framed_read conn_transport) sizes
       (mkwrap (mkconn (mksource (concat data) plan raises) [] [] []) [] []))).
Proof.
  intros ops wplan wfail0 data sizes plan raises H1 H2 H3 E.
  assert (H4 : Forall (fun p => Z.of_nat (length p) < 2 ^ 31) (flushed [] ops)).
  { eapply Forall_impl; [|exact H3]. intros p [_ L]. exact L. }
  destruct (framed_history ops [] [] wplan false wfail0 [] [] [] H1 ltac:(constructor)
    incomplete_nil H4) as [_ K].
  cbn [map concat app] in K. rewrite K in E. subst data.
  apply (run_reads_delivers _ (framed_rel conn_rel) _
    (framed_stream conn_transport conn_rel conn_stream)); [|exact H2].
  exists (flushed [] ops), []. rewrite app_nil_r. repeat split; auto.
  apply incomplete_nil.
Qed.

Theorem C18_stream : forall T (U : transport T) R, stream R (t_read U) ->
  stream (framed_rel R) (framed_read U).
Proof. intros T U R H. exact (framed_stream U R H). Qed.

(** Towers: framed over buffered over any stream, buffered over framed. *)
Theorem C18_over_buffered : forall T (U : transport T) R size, stream R (t_read U) ->
  stream (framed_rel (buffered_rel R)) (framed_read (buffered U size)).
Proof.
  intros T U R size H. exact (framed_stream (buffered U size) _ (buffered_stream U R H size)).
Qed.
Theorem C18_under_buffered : forall T (U : transport T) R size, stream R (t_read U) ->
  stream (buffered_rel (framed_rel R)) (buffered_read (framed U) size).
Proof.
  intros T U R size H. exact (buffered_stream (framed U) _ (framed_stream U R H) size).
Qed.

(** The refill used by the C reader takes whole frames until it has enough. *)
Theorem C18_refill : forall T (U : transport T) R, stream R (t_read U) ->
  forall fuel t rb wb payloads rest p req,
  R t (concat (map frame payloads) ++ rest) -> Forall frame_ok payloads ->
  incomplete rest -> (Z.to_nat req < fuel + length p)%nat -> (0 < fuel)%nat ->
  match framed_refill_loop U fuel p req (mkwrap t rb wb) with
  | (Ok q, s') => exists used left, payloads = used ++ left /\ q = p ++ concat used
      /\ R (w_trans s') (concat (map frame left) ++ rest) /\ req <= Z.of_nat (length q)
      /\ w_wbuf s' = wb
  | (Raise e, _) => Z.of_nat (length (p ++ concat payloads)) < req /\ eof_exn e
  | (Diverge, _) => False
  end.
Proof.
  intros T U R H fuel t rb wb ps r p req H1 H2 H3 H4 H5.
  pose proof (framed_refill_loop_ok U R H fuel t rb wb ps r p req H1 H2 H3 H4) as K.
  destruct (framed_refill_loop U fuel p req _) as [[q|e|] s']; try exact K. lia.
Qed.

(** A payload too long for the length word is refused and dropped. *)
Theorem C18_too_big : forall T (U : transport T) s,
  2 ^ 31 <= Z.of_nat (length (w_wbuf s)) ->
  framed_flush U s = (Raise EStructError, mkwrap (w_trans s) (w_rbuf s) []).
Proof. intros T U. exact (framed_flush_big U). Qed.

(** An empty frame makes readAll report end of file although a frame with
    data follows. *)
Theorem C18_empty_frame_refuted : exists payloads,
  concat payloads = [x07] /\
  let s0 := mkwrap (mkconn (mksource (concat (map frame payloads)) [] false) [] [] []) [] [] in
  fst (readAll_t (framed_read conn_transport) 1 s0) = Raise EEOFError.
Proof. exists [[]; [x07]]. split; [reflexivity|]. vm_compute. reflexivity. Qed.

(** A negative length word is taken as an empty frame. *)
Theorem C18_negative_length_refuted : exists rest, unpack_signed 4 (firstn 4 rest) < 0 /\
  let s0 := mkwrap (mkconn (mksource rest [] false) [] [] []) [] [] in
  fst (readFrame conn_transport s0) = Ok tt.
Proof. exists [xff; xff; xff; xff; x01]. vm_compute. split; reflexivity. Qed.

Example C18_ex :
  let data := concat (map frame [[x01; x02]; [x03]; [x04; x05; x06]]) ++ [x00; x00; x00; x09; x01] in
  let s0 := mkwrap (mkconn (mksource data [1%nat; 2%nat; 1%nat; 3%nat; 1%nat] false) [] [] []) [] [] in
  let (rs, s') := run_ops (framed conn_transport)
    [OWrite [x0a]; ORead 9; OWrite [x0b]; OFlush; ORead 1; ORead 2; ORead 2; ORead 2] s0 in
  rs = [Ok [x01; x02]; Ok [x03]; Ok [x04; x05]; Ok [x06]; Raise EEOFError]
  /\ cn_log (w_trans s') = [[x00; x00; x00; x02; x0a; x0b]].
Proof. vm_compute. split; reflexivity. Qed.

Example C18_ex_hyps : Forall frame_ok [[x01; x02]; [x03]]
  /\ incomplete [x00; x00; x00; x09; x01].
Proof.
  split; [repeat constructor; try discriminate|]. right. vm_compute. reflexivity.
Qed.

(** * C19: failed flush *)

Theorem C19_buffered : forall T (U : transport T) s,
  w_wbuf (snd (buffered_flush U s)) = [].
Proof. intros T U. exact (buffered_no_residue U). Qed.

Theorem C19_framed : forall T (U : transport T) s,
  w_wbuf (snd (framed_flush U s)) = [].
Proof. intros T U. exact (framed_no_residue U). Qed.

(** After a failure the next flush sends only what was written since; for
    whole histories this is the log equation of C17_history and C18_history,
    where failures are arbitrary. *)
Theorem C19_next_buffered : forall T (U : transport T) s e t1 ws,
  t_write U (w_wbuf s) (w_trans s) = (Raise e, t1) ->
  buffered_flush U s = (Raise e, mkwrap t1 (w_rbuf s) []) /\
  (mapM_ w_write ws ;;; buffered_flush U) (snd (buffered_flush U s))
  = match (t_write U (concat ws) ;;; t_flush U) t1 with
    | (r, t') => (r, mkwrap t' (w_rbuf s) [])
    end.
Proof.
  intros T U s e t1 ws H.
  assert (E : buffered_flush U s = (Raise e, mkwrap t1 (w_rbuf s) [])).
  { rewrite buffered_flush_eq. unfold bind. rewrite H. reflexivity. }
  split; [exact E|]. rewrite E. cbn [snd]. unfold bind at 1.
  rewrite writes_accumulate. cbn [w_trans w_rbuf w_wbuf app].
  rewrite buffered_flush_eq. reflexivity.
Qed.

Example C19_ex :
  let s0 := mkwrap (mkconn (mksource [] [] true) [] [Some (ETransport TT_UNKNOWN)] [])
                   [] [x01] in
  fst (buffered_flush conn_transport s0) = Raise (ETransport TT_UNKNOWN)
  /\ cn_log (w_trans (snd ((w_write [x02] ;;; buffered_flush conn_transport)
       (snd (buffered_flush conn_transport s0))))) = [[x01]; [x02]].
Proof. vm_compute. split; reflexivity. Qed.

(** The SASL transport sends the failed data again, in front of the new. *)
Theorem C19_sasl_refuted : exists ops s0,
  let V := mktransport (wrap conn) (fun _ => ret []) w_write
             (sasl_flush conn_transport (fun b => Ok b)) in
  flushed [] ops = [[x01]; [x02]] /\ w_wbuf s0 = [] /\
  cn_log (w_trans (snd (run_ops V ops s0))) = [frame [x01]; frame [x01; x02]].
Proof.
  exists [OWrite [x01]; OFlush; OWrite [x02]; OFlush],
    (mkwrap (mkconn (mksource [] [] true) [] [Some (ETransport TT_UNKNOWN)] []) [] []).
  vm_compute. repeat split.
Qed.

(** * C20: TSocket.write *)

Theorem C20_write : forall buff s, s_open s = true ->
  match sock_write buff s with
  | (Ok _, s') => s_taken s' = s_taken s ++ buff
  | (Raise e, s') => exists p q, buff = p ++ q /\ q <> [] /\ s_taken s' = s_taken s ++ p
      /\ (e = ETransport TT_END_OF_FILE \/ e = ETransport TT_UNKNOWN)
  | (Diverge, _) => False
  end.
Proof. exact sock_write_ok. Qed.

(** If the kernel always takes something, everything is sent. *)
Theorem C20_complete : forall buff taken plan,
  Forall (fun r => exists k, r = Sent (S k)) plan ->
  exists s', sock_write buff (mksock true taken plan) = (Ok tt, s')
             /\ s_taken s' = taken ++ buff.
Proof. exact sock_write_complete. Qed.

(** A send that takes nothing is an error, at whatever point it comes. *)
Theorem C20_zero : forall buff taken plan rest,
  Forall (fun r => exists k, r = Sent (S k)) plan -> (length (sent_total plan) < length buff)%nat ->
  exists p q s', sock_write buff (mksock true taken (plan ++ Sent 0 :: rest))
    = (Raise (ETransport TT_END_OF_FILE), s')
    /\ buff = p ++ q /\ length p = length (sent_total plan) /\ s_taken s' = taken ++ p.
Proof. exact sock_write_zero. Qed.

Theorem C20_closed : forall buff s, s_open s = false ->
  sock_write buff s = (Raise (ETransport TT_NOT_OPEN), s).
Proof. intros buff s H. unfold sock_write. rewrite H. reflexivity. Qed.

Example C20_ex : sock_write bytes5 (mksock true [] [Sent 2; Sent 1; Sent 7])
  = (Ok tt, mksock true bytes5 []).
Proof. vm_compute. reflexivity. Qed.
Example C20_ex_fail : sock_write bytes5 (mksock true [] [Sent 2; Sent 1; SendError])
  = (Raise (ETransport TT_UNKNOWN), mksock true [x01; x02; x03] []).
Proof. vm_compute. reflexivity. Qed.

(** * C48: TSocket.open *)

(** When every socket can be created and set up: the first address that
    accepts is used, its socket is the only new one left open. *)
Theorem C48_first : forall failing later live next,
  Forall (fun a => a = ConnectFails) failing ->
  let sock := (next + length failing)%nat in
  sock_open (Some (failing ++ Connects :: later)) (mkopener None live next)
  = (Ok tt, mkopener (Some sock) (sock :: live) (S sock)).
Proof.
  intros failing later live next H. exact (open_loop_first failing later (mkopener None live next) H).
Qed.

(** When none accepts, NOT_OPEN and nothing new is left open. *)
Theorem C48_none : forall addrs live next,
  Forall (fun a => a = ConnectFails) addrs ->
  sock_open (Some addrs) (mkopener None live next)
  = (Raise (ETransport TT_NOT_OPEN), mkopener None live (next + length addrs)).
Proof.
  intros addrs live next H. exact (open_loop_none addrs (mkopener None live next) H).
Qed.

Theorem C48_unresolved : forall live next,
  sock_open None (mkopener None live next)
  = (Raise (ETransport TT_NOT_OPEN), mkopener None live next).
Proof. reflexivity. Qed.

Theorem C48_already_open : forall addrs h live next,
  sock_open addrs (mkopener (Some h) live next)
  = (Raise (ETransport TT_ALREADY_OPEN), mkopener (Some h) live next).
Proof. reflexivity. Qed.

(** If no socket can be made for one address (for example no IPv6 support),
    the addresses after it are not tried. *)
Theorem C48_create_refuted : exists addrs,
  In Connects addrs /\
  sock_open (Some addrs) (mkopener None [] 0) = (Raise EOSError, mkopener None [] 0).
Proof. exists [CreateFails; Connects]. split; [right; left; reflexivity|reflexivity]. Qed.

(** If setting an option fails the socket just created is never closed. *)
Theorem C48_option_refuted : exists addrs,
  sock_open (Some addrs) (mkopener None [] 0) = (Raise EOSError, mkopener None [0%nat] 1).
Proof. exists [OptionFails; Connects]. reflexivity. Qed.

(** Opening and closing again leaves nothing open. *)
Theorem C48_open_close : forall addrs live next,
  (forall k, In k live -> (k < next)%nat) ->
  ~ In OptionFails addrs ->
  exists r n h, snd (sock_open (Some addrs) (mkopener None live next)) = mkopener h r n
  /\ snd (sock_close (mkopener h r n)) = mkopener None live n.
Proof. exact open_close. Qed.

(** isOpen: true as long as the peer has not closed, and then nothing changes;
    false means the socket has been closed, so that open may be called again. *)
Theorem C48_isOpen : forall p h live next,
  match p with
  | PeekEof | PeekError =>
      exists live', sock_isOpen p (mkopener (Some h) live next)
                    = (Ok false, mkopener None live' next)
      /\ ~ In h live' /\ (forall k, k <> h -> (In k live' <-> In k live))
  | _ => sock_isOpen p (mkopener (Some h) live next) = (Ok true, mkopener (Some h) live next)
  end
  /\ sock_isOpen p (mkopener None live next) = (Ok false, mkopener None live next).
Proof.
  intros p h live next. split; [|reflexivity].
  assert (K : exists live', sock_isOpen PeekEof (mkopener (Some h) live next)
                = (Ok false, mkopener None live' next)
      /\ ~ In h live' /\ (forall k, k <> h -> (In k live' <-> In k live))).
  { eexists. split; [reflexivity|]. split.
    - intros H. apply filter_In in H. rewrite Nat.eqb_refl in H. destruct H as [_ H]. discriminate H.
    - intros k N. rewrite filter_In. split; [intros [H _]; exact H|]. intros H. split; [exact H|].
      apply Bool.negb_true_iff, Nat.eqb_neq, N. }
  destruct p; try reflexivity; exact K.
Qed.
Example C48_isOpen_ex : sock_isOpen PeekEof (mkopener (Some 4%nat) [3%nat; 4%nat] 5)
  = (Ok false, mkopener None [3%nat] 5).
Proof. reflexivity. Qed.

Example C48_ex : sock_open (Some [ConnectFails; ConnectFails; Connects; Connects])
  (mkopener None [] 0) = (Ok tt, mkopener (Some 2%nat) [2%nat] 3).
Proof. reflexivity. Qed.

(** * C49: SASL transport *)

(** Opening succeeds only after the server sent COMPLETE (preceded by OK
    messages only) and the SASL library says it is complete. *)
Theorem C49_open_sound : forall T (U : transport T) R G
    (process : option (list byte) -> SM G (option (list byte))) complete,
  stream R (t_read U) ->
  (forall b t c, R t c -> R (snd (t_write U b t)) c) ->
  (forall t c, R t c -> R (snd (t_flush U t)) c) ->
  forall fuel mech t g c t' g', R t c ->
  sasl_open U process complete fuel mech (t, g) = (Ok tt, (t', g')) ->
  complete g' = true /\ exists challenges final c',
    c = concat (map (sasl_msg 2) challenges) ++ sasl_msg 5 final ++ c' /\ R t' c'.
Proof. exact sasl_open_sound. Qed.

(** A server that sends challenges the library answers, then COMPLETE: open
    succeeds having sent the mechanism, the initial response and one answer
    per challenge, and consumed exactly the server's messages. *)
Theorem C49_open_complete : forall G
    (process : option (list byte) -> SM G (option (list byte))) complete
    mech r0 g g0 chs rs g1 fin g2 plan eof c',
  process None g = (Ok r0, g0) ->
  answers process g0 chs rs g1 ->
  (if negb (Z.of_nat (length fin) =? 0) then exists r, process (Some fin) g1 = (Ok r, g2)
   else g2 = g1) ->
  complete g2 = true ->
  short mech -> short (or_empty r0) -> Forall short chs -> short fin ->
  Forall (fun r => short (or_empty r)) rs ->
  let d := concat (map (sasl_msg 2) chs) ++ sasl_msg 5 fin ++ c' in
  exists s, sasl_open conn_transport process complete (S (length chs)) mech
              (mkconn (mksource d plan eof) [] [] [], g)
  = (Ok tt, (mkconn s (sasl_msg 1 mech :: sasl_msg 2 (or_empty r0)
                       :: map (fun r => sasl_msg 2 (or_empty r)) rs) [] [], g2))
  /\ src_data s = c'.
Proof. exact sasl_open_complete. Qed.

(** Any other status is refused; the negotiation ends with the stream. *)
Theorem C49_bad_status : forall T (U : transport T) R, stream R (t_read U) ->
  forall G (process : option (list byte) -> SM G (option (list byte))) complete
    f t g st b c,
  R t (sasl_msg st b ++ c) -> 0 <= st < 256 -> Z.of_nat (length b) < 2 ^ 32 ->
  st <> 2 -> st <> 5 ->
  fst (sasl_loop U process complete (S f) (t, g)) = Raise (ETransport TT_NOT_OPEN).
Proof. intros T U R H G process complete. exact (sasl_bad_status U R H process complete). Qed.

Theorem C49_terminates : forall T (U : transport T) R, stream R (t_read U) ->
  forall G (process : option (list byte) -> SM G (option (list byte))) complete,
  (forall b t c, R t c -> R (snd (t_write U b t)) c) ->
  (forall t c, R t c -> R (snd (t_flush U t)) c) ->
  (forall x g, fst (process x g) <> Diverge) ->
  (forall b t, fst (t_write U b t) <> Diverge) ->
  (forall t, fst (t_flush U t) <> Diverge) ->
  forall fuel t g c, R t c -> (length c < fuel)%nat ->
  fst (sasl_loop U process complete fuel (t, g)) <> Diverge.
Proof. intros T U R H G process complete. exact (sasl_loop_term U R H process complete). Qed.

(** After negotiation reads deliver the decoded payloads as one stream. *)
Theorem C49_stream : forall T (U : transport T) R, stream R (t_read U) ->
  forall unwrap, stream (sasl_rel R unwrap) (sasl_read U unwrap).
Proof. intros T U R H unwrap. exact (sasl_stream U R H unwrap). Qed.

Theorem C49_round_trip : forall wrapf unwrap payloads sizes plan raises,
  (forall p, In p payloads -> exists e, wrapf p = Ok e /\ unwrap e = Ok p
     /\ Z.of_nat (length e) < 2 ^ 31) ->
  Forall (fun p => p <> []) payloads -> Forall (fun z => 0 < z) sizes ->
  let V := mktransport (wrap conn) (sasl_read conn_transport unwrap) w_write
             (sasl_flush conn_transport wrapf) in
  let sent := cn_log (w_trans (snd (run_ops V
                (flat_map (fun p => [OWrite p; OFlush]) payloads)
                (mkwrap (mkconn (mksource [] [] false) [] [] []) [] [])))) in
  delivers (concat payloads) sizes
    (fst (run_reads (t_read V) sizes
       (mkwrap (mkconn (mksource (concat sent) plan raises) [] [] []) [] []))).
Proof. exact sasl_round_trip. Qed.

(** A toy mechanism: answers every challenge with one byte, complete after
    two answers. *)
Example C49_ex :
  let process := fun (x : option (list byte)) (g : Z) => (Ok (Some [x41]), g + 1) in
  exists s g', sasl_open conn_transport process (fun g => g =? 3) 5 [x50]
    (mkconn (mksource (sasl_msg 2 [x01; x02] ++ sasl_msg 5 [x03] ++ [x09]) [2%nat; 1%nat] true)
            [] [] [], 0) = (Ok tt, (s, g'))
  /\ cn_log s = [sasl_msg 1 [x50]; sasl_msg 2 [x41]; sasl_msg 2 [x41]]
  /\ src_data (cn_src s) = [x09] /\ g' = 3.
Proof. eexists. eexists. vm_compute. repeat split. Qed.


(** Axioms used. *)
Print Assumptions C16_enough.
Print Assumptions C16_short.
Print Assumptions C16_nothing.
Print Assumptions C16_any_stream.
Print Assumptions C16_memory.
Print Assumptions C17_history.
Print Assumptions C17_stream.
Print Assumptions C17_refill.
Print Assumptions C17_read_zero_refuted.
Print Assumptions C18_history.
Print Assumptions C18_round_trip.
Print Assumptions C18_stream.
Print Assumptions C18_over_buffered.
Print Assumptions C18_under_buffered.
Print Assumptions C18_refill.
Print Assumptions C18_too_big.
Print Assumptions C18_empty_frame_refuted.
Print Assumptions C18_negative_length_refuted.
Print Assumptions C19_buffered.
Print Assumptions C19_framed.
Print Assumptions C19_next_buffered.
Print Assumptions C19_sasl_refuted.
Print Assumptions C20_write.
Print Assumptions C20_complete.
Print Assumptions C20_zero.
Print Assumptions C20_closed.
Print Assumptions C48_first.
Print Assumptions C48_none.
Print Assumptions C48_unresolved.
Print Assumptions C48_already_open.
Print Assumptions C48_create_refuted.
Print Assumptions C48_option_refuted.
Print Assumptions C48_open_close.
Print Assumptions C48_isOpen.
Print Assumptions C49_open_sound.
Print Assumptions C49_open_complete.
Print Assumptions C49_bad_status.
Print Assumptions C49_terminates.
Print Assumptions C49_stream.
Print Assumptions C49_round_trip.
