(** C67: the C decoder of the accelerated protocols reading from transports
    (ExtTransport.v). *)
From Coq Require Import ZArith List Bool Lia ZifyBool ZifyNat.
From Coq Require Import Init.Byte.
From Verif Require Import Base Bytes Utf8 Proto Spec RoundTrip StructFacts PostFacts
  Binary SpecBinary BinaryLaws Compact SpecCompact CompactLaws InstFacts
  Dynamic SpecDynamic Ext ExtFacts ExtRead SpecExt
  ExtReadGen ExtReadBinary ExtReadCompact ExtReadFacts Transport TransportFacts Zlib ZlibFacts
  Examples PropsExt PropsExtRead ExtTransport ExtTransportFacts.
From Verif Require Header.
Import ListNotations.
Open Scope Z_scope.

(** * Which transports hand over their bytes in order

    [delivers C R]: with [R t c], [c] being the bytes still to come, a read of
    the decoder gets the bytes it asks for from the front of [c] and leaves the
    rest, or [c] is too short and it raises an end of file. *)

(** A TBufferedTransport over any stream: what is in its buffer and then what
    the stream gives, whatever the sizes of the pieces. *)
Theorem C67_buffered : forall T (U : transport T) R size, stream R (t_read U) -> 0 < size ->
  delivers (creadable_buffered U size)
    (fun w c => exists c', R (w_trans w) c' /\ c = w_rbuf w ++ c').
Proof. intros T U R size H Hs. exact (buffered_delivers U R H size Hs). Qed.

(** A TFramedTransport: what is in its buffer and then the frames [ps], empty
    ones too. *)
Theorem C67_framed : forall T (U : transport T) R fuel, stream R (t_read U) ->
  delivers (creadable_framed U fuel)
    (fun w c => exists ps r, R (w_trans w) (concat (map frame ps) ++ r)
      /\ Forall (fun p => Z.of_nat (length p) < 2 ^ 31) ps /\ incomplete r
      /\ (length ps < fuel)%nat /\ c = w_rbuf w ++ concat ps).
Proof. intros T U R fuel H. exact (framed_delivers U R H fuel). Qed.

(** A TSaslClientTransport: the same, each frame unwrapped. *)
Theorem C67_sasl : forall T (U : transport T) R unwrap fuel, stream R (t_read U) ->
  delivers (creadable_sasl U unwrap fuel)
    (fun w c => exists es ps r, R (w_trans w) (concat (map frame es) ++ r)
      /\ Forall2 (fun e p => Z.of_nat (length e) < 2 ^ 31 /\ unwrap e = Ok p) es ps
      /\ incomplete r /\ (length es < fuel)%nat /\ c = w_rbuf w ++ concat ps).
Proof. intros T U R unwrap fuel H. exact (sasl_delivers U R H unwrap fuel). Qed.

(** A THeaderTransport whose peer sends unframed messages, over a transport that
    raises at its end. *)
Theorem C67_header_unframed : forall T (U : transport T) R decompress allowed fuel,
  stream R (t_read U) ->
  (forall t sz, R t [] -> 0 < sz ->
     exists e t', t_read U sz t = (Raise e, t') /\ eof_exn e /\ R t' []) ->
  delivers (creadable_header U decompress allowed fuel)
    (fun h c => Header.is_unframed (Header.h_client h) = true
      /\ exists c', R (Header.h_trans h) c' /\ c = Header.h_rbuf h ++ c'
                    /\ (length c' + 1 < fuel)%nat).
Proof. intros T U R d a fuel H HE. exact (header_delivers U d a R H HE fuel). Qed.

(** Whatever the transport, conforming or not: the decoder never gets fewer or
    more bytes than it asked for, and asks for no negative number of them. *)
Theorem C67_exact : forall T (C : creadable T) len t b t',
  c_readBytes C len t = (Ok b, t') -> 0 <= len /\ Z.of_nat (length b) = len.
Proof.
  intros T C len t b t' H. unfold c_readBytes in H.
  destruct (len <? 0) eqn:E0; [discriminate H|]. split; [lia|].
  destruct (len <=? Z.of_nat (length (c_buf C t))) eqn:E1.
  - injection H as <- _. rewrite firstn_length. lia.
  - destruct (c_refill C (c_buf C t) len (c_setbuf C [] t)) as [[q|e|] t1]; try discriminate H.
    destruct (len <=? Z.of_nat (length (c_buf C t1))) eqn:E2; [|discriminate H].
    injection H as <- _. rewrite firstn_length. lia.
Qed.

(** * Over such a transport the decoder does what it does over memory *)

(** The same value, leaving the same bytes; or the same exception, where the
    transport's end of file stands for the EOFError of a memory buffer. *)
Definition as_memory {T} (R : T -> list byte -> Prop) (mem : outcome (value * list byte))
    (r : outcome value * T) : Prop :=
  match mem, r with
  | Ok (v, rest), (Ok v', t') => v' = v /\ R t' rest
  | Raise e, (Raise e', _) => e' = e \/ e = EEOFError /\ eof_exn e'
  | _, _ => False
  end.

Theorem C67_binary : forall T (C : creadable T) R, delivers C R ->
  forall big sl cl env n fuel t c, R t c -> (length c < fuel)%nat ->
  as_memory R (fast_deserialize (dbinary big sl cl) tt env n c)
    (fast_read (tbinary C big sl cl) tt env fuel n t).
Proof.
  intros T C R HC big sl cl env n fuel t c HR Hf.
  apply (fast_read_ok T unit R (dbinary big sl cl) (tbinary C big sl cl));
    [|exact HR|exact Hf|apply C55_binary_terminates].
  apply binary_sim; [intros _; exact HC|apply delivers_is_within, HC].
Qed.

Theorem C67_compact : forall T (C : creadable T) R, delivers C R ->
  forall big sl cl env n fuel t c, R t c -> (length c < fuel)%nat ->
  as_memory R (fast_deserialize (dcompact big sl cl) crd_init env n c)
    (fast_read (tcompact C big sl cl) crd_init env fuel n t).
Proof.
  intros T C R HC big sl cl env n fuel t c HR Hf.
  apply (fast_read_ok T crd R (dcompact big sl cl) (tcompact C big sl cl)); [|exact HR|exact Hf|].
  - apply compact_sim; [intros _; exact HC|apply delivers_is_within, HC].
  - intros E. pose proof (C55_compact_total big sl cl env n c) as H. rewrite E in H. exact H.
Qed.

(** A struct whose bytes are all in the buffer of the transport, whatever the
    transport: the rest of the buffer is left and nothing else touched. *)
Theorem C67_within : forall T (C : creadable T) t0,
  (forall b t, c_buf C (c_setbuf C b t) = b) ->
  (forall a b, c_setbuf C b (c_setbuf C a t0) = c_setbuf C b t0) ->
  forall big sl cl env n buf v rest fuel, (length buf < fuel)%nat ->
  (fast_deserialize (dbinary big sl cl) tt env n buf = Ok (v, rest) ->
   fast_read (tbinary C big sl cl) tt env fuel n (c_setbuf C buf t0) = (Ok v, c_setbuf C rest t0))
  /\ (fast_deserialize (dcompact big sl cl) crd_init env n buf = Ok (v, rest) ->
   fast_read (tcompact C big sl cl) crd_init env fuel n (c_setbuf C buf t0)
   = (Ok v, c_setbuf C rest t0)).
Proof.
  intros T C t0 H1 H2 big sl cl env n buf v rest fuel Hf.
  pose proof (buffer_within T C H1 t0 H2) as HW. split; intros E.
  - destruct (fast_read_within T unit _ _ (tbinary C big sl cl) tt env n fuel
      (c_setbuf C buf t0) buf v rest (binary_sim C _ False (fun x => match x with end) HW big sl cl)
      eq_refl Hf E) as (t' & A & B).
    rewrite A. f_equal. exact B.
  - destruct (fast_read_within T crd _ _ (tcompact C big sl cl) crd_init env n fuel
      (c_setbuf C buf t0) buf v rest (compact_sim C _ False (fun x => match x with end) HW big sl cl)
      eq_refl Hf E) as (t' & A & B).
    rewrite A. f_equal. exact B.
Qed.

(** * Objects sent one after the other *)

Section Sequence.
Variables (sl cl : option Z) (SL CL : Z) (env : schema).

(** Objects of the schema, within the limits of the reader. *)
Definition sendable (o : nat * value) : Prop :=
  wf env SL CL (TStruct (fst o)) (snd o) = true /\ (sdepth (snd o) <= 64)%nat.

Definition sent_binary (o : nat * value) : list byte := sb_value env (TStruct (fst o)) (snd o).
Definition sent_compact (o : nat * value) : list byte := sc_value env (TStruct (fst o)) (snd o).
Definition seen (o : nat * value) : value := with_defaults env (TStruct (fst o)) (snd o).
End Sequence.

Theorem C67_sequence_binary : forall T (C : creadable T) R, delivers C R ->
  forall big sl cl SL CL env, x_limits sl cl SL CL -> table_schema env -> schema_closed env = true ->
  forall objs, Forall (sendable SL CL env) objs ->
  forall rest fuel t, R t (concat (map (sent_binary env) objs) ++ rest) ->
  (length (concat (map (sent_binary env) objs) ++ rest) < fuel)%nat ->
  exists t', fast_reads (tbinary C big sl cl) tt env fuel (map fst objs) t
             = (Ok (map (seen env) objs), t') /\ R t' rest.
Proof.
  intros T C R HC big sl cl SL CL env Hl He Hc objs HF rest fuel.
  induction HF as [|[n v] objs [Hwf Hd] HF IH]; intros t HR Hfu.
  - exists t. split; [reflexivity|exact HR].
  - cbn [map concat fst snd] in *. rewrite <- app_assoc in HR, Hfu.
    pose proof (C67_binary T C R HC big sl cl env n fuel t _ HR Hfu) as H.
    assert (E : fast_deserialize (dbinary big sl cl) tt env n
      (sent_binary env (n, v) ++ concat (map (sent_binary env) objs) ++ rest)
      = Ok (seen env (n, v), concat (map (sent_binary env) objs) ++ rest)).
    { destruct (C54_binary_round_trip big big sl cl SL CL env n v
        (concat (map (sent_binary env) objs) ++ rest) Hl He Hc Hwf Hd) as (bs & E1 & E2).
      destruct Hl as (H1 & H2 & _).
      destruct (C33_binary big bdefault SL CL env n v He H1 H2 Hwf) as [_ E3].
      rewrite E1 in E3. destruct (Nat.leb_spec (sdepth v) 64); [|lia].
      injection E3 as ->. exact E2. }
    rewrite E in H. cbn [fast_reads]. unfold bind.
    destruct (fast_read (tbinary C big sl cl) tt env fuel n t) as [[v'|e|] t1]; cbn in H; try contradiction.
    destruct H as [-> HR1].
    destruct (IH t1 HR1) as (t' & -> & HR').
    { rewrite app_length in Hfu. lia. }
    exists t'. split; [reflexivity|exact HR'].
Qed.

Theorem C67_sequence_compact : forall T (C : creadable T) R, delivers C R ->
  forall big sl cl SL CL env, x_limits sl cl SL CL -> table_schema env -> schema_closed env = true ->
  forall objs, Forall (sendable SL CL env) objs ->
  forall rest fuel t, R t (concat (map (sent_compact env) objs) ++ rest) ->
  (length (concat (map (sent_compact env) objs) ++ rest) < fuel)%nat ->
  exists t', fast_reads (tcompact C big sl cl) crd_init env fuel (map fst objs) t
             = (Ok (map (seen env) objs), t') /\ R t' rest.
Proof.
  intros T C R HC big sl cl SL CL env Hl He Hc objs HF rest fuel.
  induction HF as [|[n v] objs [Hwf Hd] HF IH]; intros t HR Hfu.
  - exists t. split; [reflexivity|exact HR].
  - cbn [map concat fst snd] in *. rewrite <- app_assoc in HR, Hfu.
    pose proof (C67_compact T C R HC big sl cl env n fuel t _ HR Hfu) as H.
    assert (E : fast_deserialize (dcompact big sl cl) crd_init env n
      (sent_compact env (n, v) ++ concat (map (sent_compact env) objs) ++ rest)
      = Ok (seen env (n, v), concat (map (sent_compact env) objs) ++ rest)).
    { destruct (C54_compact_round_trip big big sl cl SL CL env n v
        (concat (map (sent_compact env) objs) ++ rest) Hl He Hc Hwf Hd) as (bs & E1 & E2).
      destruct Hl as (H1 & H2 & _).
      destruct (C33_compact big cdefault SL CL env n v He H1 H2 Hwf) as [_ E3].
      rewrite E1 in E3. destruct (Nat.leb_spec (sdepth v) 64); [|lia].
      injection E3 as ->. exact E2. }
    rewrite E in H. cbn [fast_reads]. unfold bind.
    destruct (fast_read (tcompact C big sl cl) crd_init env fuel n t) as [[v'|e|] t1]; cbn in H; try contradiction.
    destruct H as [-> HR1].
    destruct (IH t1 HR1) as (t' & -> & HR').
    { rewrite app_length in Hfu. lia. }
    exists t'. split; [reflexivity|exact HR'].
Qed.

(** * Where the two readers part: empty frames

    The Python reader takes an empty frame for the end of the file; the decoder
    goes on to the next (C67_framed has no condition on empty frames). *)
Theorem C67_empty_frame : forall T (U : transport T) R t wb rest sz, stream R (t_read U) ->
  R t (frame [] ++ rest) -> 0 < sz ->
  fst (readAll_t (framed_read U) sz (mkwrap t [] wb)) = Raise EEOFError.
Proof.
  intros T U R t wb rest sz HS HR Hsz.
  destruct (readFrame_ok U R HS t [] wb [] rest HR ltac:(cbn; lia)) as (t' & HF & _).
  assert (N : forall k (w : wrap T), 0 < k -> w_rbuf w = [] -> rbuf_read k w = (Ok (A := list byte) [], w)).
  { intros k [t1 rb1 wb1] Hk Hb. cbn [w_rbuf] in Hb. subst rb1. unfold rbuf_read, bytesio_read.
    cbn [w_rbuf]. replace (k <? 0) with false by lia. rewrite firstn_nil, skipn_nil. reflexivity. }
  assert (E : framed_read U (sz - 0) (mkwrap t [] wb) = (Ok [], mkwrap t' [] wb)).
  { unfold framed_read, bind. rewrite N by (try reflexivity; lia).
    cbn [length]. change (Z.of_nat 0 =? 0) with true. cbn [negb]. rewrite HF.
    apply N; [lia|reflexivity]. }
  unfold readAll_t. cbn [readAll_loop]. replace (0 <? sz) with true by lia.
  unfold bind. rewrite E. reflexivity.
Qed.

(** * TZlibTransport loses data (defect) *)

(** Over a stream with a codec as in C51: what the refill returns is right, but
    what was decompressed beyond that is gone from the stream. *)
Theorem C67_zlib : forall T D C (U : transport T) decompress tail compress cflush max
    (d0 : D) (c0 : C) inflate valid Sd Sc R,
  codec decompress tail compress cflush d0 c0 inflate valid Sd Sc ->
  stream R (t_read U) ->
  (forall t sz, R t [] -> 0 < sz ->
     exists e t', t_read U sz t = (Raise e, t') /\ eof_exn e /\ R t' []) ->
  forall rfuel fuel z l p req, z_rel (C := C) max inflate valid Sd R rfuel z l ->
  Z.of_nat (length p) < req -> (Z.to_nat req < fuel)%nat ->
  match z_refill U decompress tail max fuel rfuel p req z with
  | (Ok q, z') => exists lost l', p ++ l = q ++ lost ++ l'
                    /\ z_rel max inflate valid Sd R rfuel z' (q ++ l')
                    /\ z_rbuf z' = q /\ req <= Z.of_nat (length q)
  | (Raise e, _) => Z.of_nat (length (p ++ l)) < req /\ eof_exn e
  | (Diverge, _) => False
  end.
Proof.
  intros T D C U decompress tail compress cflush max d0 c0 inflate valid Sd Sc R HC HS HE
    rfuel fuel z l p req.
  exact (z_refill_ok U decompress tail max compress cflush d0 c0 inflate valid Sd Sc HC R HS HE
    rfuel fuel z l p req).
Qed.

(** How much: of a piece that decompresses to more than 4096 bytes, all that
    follows the first 4096, for any small request. *)
Theorem C67_zlib_lost : forall T D C (U : transport T) decompress tail max fuel rfuel
    (z z1 : zt T D C) p req,
  z_rbuf z = [] -> readComp U decompress tail max 4096 z = (Ok true, z1) ->
  4096 < Z.of_nat (length (z_rbuf z1)) -> req < 4096 ->
  let kept := p ++ firstn (Z.to_nat 4096) (z_rbuf z1) in
  z_refill U decompress tail max fuel (S rfuel) p req z = (Ok kept, z_setbuf kept z1).
Proof.
  intros T D C U decompress tail max fuel rfuel z z1 p req Hb HR Hl Hr kept.
  unfold z_refill. replace (req <? 4096) with true by lia. unfold bind at 1. unfold bind at 1.
  assert (E : z_read U decompress tail max (S rfuel) 4096 z
    = (Ok (firstn (Z.to_nat 4096) (z_rbuf z1)), z_setbuf (skipn (Z.to_nat 4096) (z_rbuf z1)) z1)).
  { unfold z_read, bind, zrbuf_read at 1. rewrite Hb. unfold bytesio_read.
    change (4096 <? 0) with false. rewrite firstn_nil, skipn_nil. cbn [length].
    change (0 <? Z.of_nat 0) with false. cbn iota. cbn [comp_loop]. unfold bind at 1.
    replace (mkzt (z_trans z) [] (z_wbuf z) (z_dec z) (z_comp z) (z_count z)
      (z_in z) (z_in_comp z) (z_out z) (z_out_comp z)) with z
      by (destruct z; cbn in Hb; subst; reflexivity).
    rewrite HR. unfold ret, zrbuf_read, bytesio_read. change (4096 <? 0) with false. reflexivity. }
  rewrite E. unfold ret at 1. fold kept. unfold bind.
  assert (L : (Z.of_nat (length kept) <? req) = false).
  { unfold kept. rewrite app_length, firstn_length. lia. }
  destruct fuel; cbn [z_refill_loop]; rewrite L; reflexivity.
Qed.

(** * THeaderTransport loses data (defect) *)

(** With a framed peer: the rest of the frame the refill has to read is gone. *)
Theorem C67_header_lost : forall T (U : transport T) decompress allowed fuel (h h1 : Header.hdr T) p req,
  Header.is_unframed (Header.h_client h) = false -> Header.h_rbuf h = [] ->
  Z.of_nat (length p) < req ->
  Header.readFrame U decompress allowed (req - Z.of_nat (length p)) h = (Ok tt, h1) ->
  req - Z.of_nat (length p) <= Z.of_nat (length (Header.h_rbuf h1)) ->
  let kept := p ++ firstn (Z.to_nat (req - Z.of_nat (length p))) (Header.h_rbuf h1) in
  Header.refill U decompress allowed (S (S fuel)) p req h = (Ok kept, Header.with_rbuf h1 kept)
  /\ Z.of_nat (length kept) = req.
Proof.
  intros T U decompress allowed fuel h h1 p req Hc Hb Hp HR Hl kept.
  assert (L : Z.of_nat (length kept) = req).
  { unfold kept. rewrite app_length, firstn_length. lia. }
  split; [|exact L]. unfold Header.refill, bind at 1. cbn [Header.refill_loop].
  replace (Z.of_nat (length p) <? req) with true by lia.
  assert (E : Header.read U decompress allowed (req - Z.of_nat (length p)) h
    = (Ok (firstn (Z.to_nat (req - Z.of_nat (length p))) (Header.h_rbuf h1)),
       Header.with_rbuf h1 (skipn (Z.to_nat (req - Z.of_nat (length p))) (Header.h_rbuf h1)))).
  { unfold Header.read, bind at 1, Header.hrbuf_read at 1. rewrite Hb. unfold bytesio_read.
    replace (req - Z.of_nat (length p) <? 0) with false by lia. rewrite firstn_nil, skipn_nil.
    cbn [length]. replace (req - Z.of_nat (length p) - Z.of_nat 0) with (req - Z.of_nat (length p)) by lia.
    replace (req - Z.of_nat (length p) =? 0) with false by lia.
    replace (Header.with_rbuf h []) with h
      by (destruct h; cbn [Header.h_rbuf] in Hb; rewrite Hb; reflexivity).
    unfold bind. rewrite Hc, HR. unfold Header.hrbuf_read, bytesio_read.
    replace (req - Z.of_nat (length p) <? 0) with false by lia. reflexivity. }
  unfold bind. rewrite E. fold kept.
  replace (Z.of_nat (length kept) <? req) with false by lia. reflexivity.
Qed.

(** With an unframed peer over a transport that says the end of the file by
    returning nothing (a TMemoryBuffer, a TFileObjectTransport): the refill never
    returns, where readAll raises EOFError. *)
Theorem C67_header_spin_fails : forall T (U : transport T) decompress allowed (h : Header.hdr T) p req,
  Header.is_unframed (Header.h_client h) = true -> Header.h_rbuf h = [] ->
  Z.of_nat (length p) < req ->
  (forall sz, t_read U sz (Header.h_trans h) = (Ok [], Header.h_trans h)) ->
  (forall fuel, fst (Header.refill U decompress allowed fuel p req h) = Diverge)
  /\ fst (readAll_t (Header.read U decompress allowed) req h) = Raise EEOFError.
Proof.
  intros T U decompress allowed h p req Hc Hb Hp HR.
  assert (E : forall k, 0 < k -> Header.read U decompress allowed k h = (Ok [], h)).
  { intros k Hk. unfold Header.read, bind at 1, Header.hrbuf_read at 1. rewrite Hb. unfold bytesio_read.
    replace (k <? 0) with false by lia. rewrite firstn_nil, skipn_nil. cbn [length].
    replace (k - Z.of_nat 0) with k by lia. replace (k =? 0) with false by lia.
    replace (Header.with_rbuf h []) with h
      by (destruct h; cbn [Header.h_rbuf] in Hb; rewrite Hb; reflexivity).
    unfold bind. rewrite Hc. unfold Header.on_h. rewrite HR. cbn [app].
    destruct h; reflexivity. }
  split.
  - intros fuel. unfold Header.refill, bind.

    assert (K : Header.refill_loop U decompress allowed fuel p req h = (Diverge, h)).
    { induction fuel as [|f IH]; [reflexivity|]. cbn [Header.refill_loop].
      replace (Z.of_nat (length p) <? req) with true by lia. unfold bind.
      rewrite E by lia. rewrite app_nil_r. exact IH. }
    rewrite K. reflexivity.
  - unfold readAll_t. cbn [readAll_loop]. replace (0 <? req) with true by lia.
    unfold bind. rewrite E by lia. reflexivity.
Qed.

(** * Concrete cases *)

Definition xt_env : schema := [[mkfield 1 TI32 true None; mkfield 2 TBinary false None]].
Definition xt (n : Z) (b : list byte) : value := VStruct 0 [Some (VInt n); Some (VBin b)].
Definition xt_src : transport source := mktransport source source_read (fun _ => ret tt) (ret tt).

(** Two objects over a socket that gives 1, 2, 3, 1, ... bytes, through a buffer
    of 4; the rest stays in the buffer and the socket. *)
Definition xt_objs : list (nat * value) := [(0%nat, xt 7 [x61; x62]); (0%nat, xt (-1) [])].
Example C67_sendable : Forall (sendable 100 100 xt_env) xt_objs
  /\ x_limits None None 100 100 /\ table_schema xt_env /\ schema_closed xt_env = true.
Proof.
  split; [|split; [|split; [|reflexivity]]].
  - repeat constructor; cbn; lia.
  - repeat split; cbn; lia.
  - intros [|[|n]] ds E; cbn in E; try discriminate; injection E as <-.
    split; [repeat constructor|]. intros d Hd. cbn in Hd.
    repeat (destruct Hd as [<-|Hd]; [cbn; lia|]). destruct Hd.
Qed.
Example C67_buffered_ex :
  let bytes := concat (map (sent_binary xt_env) xt_objs) in
  let w := mkwrap (mksource (skipn 2 bytes ++ [xee; xff]) [1; 2; 3; 1; 2; 3; 1]%nat true) (firstn 2 bytes) [] in
  bufrel source_rel w (bytes ++ [xee; xff])
  /\ let r := fast_reads (tbinary (creadable_buffered xt_src 4) false None None) tt xt_env 60 [0; 0]%nat w in
     fst r = Ok [xt 7 [x61; x62]; xt (-1) []]
     /\ w_rbuf (snd r) ++ src_data (w_trans (snd r)) = [xee; xff].
Proof.
  split.
  - eexists. split; reflexivity.
  - vm_compute. split; reflexivity.
Qed.

(** Frames that end in the middle of a field, and an empty one. *)
Example C67_framed_ex :
  let bytes := concat (map (sent_compact xt_env) xt_objs) in
  let frames := [firstn 1 bytes; []; skipn 1 (firstn 4 bytes); skipn 4 bytes ++ [x15]] in
  let w := mkwrap (mksource (concat (map frame frames) ++ [x00; x00]) [3; 3; 3; 1]%nat true) [] [] in
  frmrel source_rel 5 w (bytes ++ [x15])
  /\ let r := fast_reads (tcompact (creadable_framed xt_src 5) false None None) crd_init xt_env 60 [0; 0; 0]%nat w in
     fst r = Raise (ETransport TT_END_OF_FILE)
     /\ let r2 := fast_reads (tcompact (creadable_framed xt_src 5) false None None) crd_init xt_env 60 [0; 0]%nat w in
     fst r2 = Ok [xt 7 [x61; x62]; xt (-1) []] /\ w_rbuf (snd r2) = [x15].
Proof.
  split.
  - eexists _, [x00; x00]. split; [reflexivity|]. split; [repeat constructor|].
    split; [left; cbn; lia|]. split; [cbn; lia|]. vm_compute. reflexivity.
  - vm_compute. repeat split; reflexivity.
Qed.

(** Wrapped frames: here wrapping reverses the bytes. *)
Example C67_sasl_ex :
  let bytes := concat (map (sent_compact xt_env) xt_objs) in
  let es := [rev (firstn 3 bytes); rev (skipn 3 bytes)] in
  let w := mkwrap (mksource (concat (map frame es)) [] true) [] [] in
  saslrel source_rel (fun e => Ok (rev e)) 3 w bytes
  /\ fst (fast_reads (tcompact (creadable_sasl xt_src (fun e => Ok (rev e)) 3) false None None)
            crd_init xt_env 60 [0; 0]%nat w) = Ok [xt 7 [x61; x62]; xt (-1) []].
Proof.
  split; [|vm_compute; reflexivity].
  eexists _, [_; _], []. split; [rewrite app_nil_r; reflexivity|].
  split; [repeat constructor|]. split; [apply incomplete_nil|]. split; [cbn; lia|].
  vm_compute. reflexivity.
Qed.

(** The loss over TZlibTransport.  The toy decompressor has three words: 01 gives
    [za] and [zb], two objects in 4096 + 19 bytes, 02 gives [zc]; anything else is
    itself.  Of the objects sent the second is never seen, and the third comes
    in its place. *)
Definition za : value := xt 1 (repeat x41 (Z.to_nat 4081)).
Definition zb : value := xt 2 [x62; x62; x62; x62].
Definition zc : value := xt 3 [x63].
Definition zword (b : byte) : list byte :=
  match b with
  | x01 => sent_binary xt_env (0%nat, za) ++ sent_binary xt_env (0%nat, zb)
  | x02 => sent_binary xt_env (0%nat, zc)
  | b => [b]
  end.
Definition zdec (b : list byte) (m : Z) : SM unit (list byte) := ret (flat_map zword b).
Definition z0 : zt source unit unit := z_init tt tt (mksource [x01; x02] [1]%nat true).

Theorem C67_zlib_refuted : exists (z : zt source unit unit) a b c, b <> c
  /\ flat_map zword (src_data (z_trans z))
     = sent_binary xt_env (0%nat, a) ++ sent_binary xt_env (0%nat, b) ++ sent_binary xt_env (0%nat, c)
  /\ fst (fast_reads (tbinary (creadable_zlib xt_src zdec (fun _ => []) 1000000 4100 10) false None None)
            tt xt_env 5000 [0; 0]%nat z) = Ok [a; c].
Proof.
  exists z0, za, zb, zc. split; [discriminate|]. split; vm_compute; reflexivity.
Qed.
Example C67_zlib_lost_ex :
  readComp xt_src zdec (fun _ => []) 1000000 4096 z0
  = (Ok true, snd (readComp xt_src zdec (fun _ => []) 1000000 4096 z0))
  /\ Z.of_nat (length (z_rbuf (snd (readComp xt_src zdec (fun _ => []) 1000000 4096 z0)))) = 4115.
Proof. split; vm_compute; reflexivity. Qed.

(** The loss over THeaderTransport: an object sent in two frames of the header
    format, cut in the middle of a field id, and the next frames.  Python's
    read gives all the bytes; the decoder takes the beginning of each frame and
    makes an object that was not sent. *)
Definition hframe (payload : list byte) : list byte :=
  frame ([x0f; xff; x00; x00; x00; x00; x00; x00; x00; x01; x00; x00; x00; x00] ++ payload).
Definition hno (d : list byte) (m : Z) : option (list byte * list byte) := None.
Definition hwire : list byte :=
  hframe [x01; x00; x00; x00; x07; x00]                     (* 01 = 7, stop *)
  ++ hframe [x00; x00; x00; x63; x00] ++ hframe [x00].
Definition hfresh (wire : list byte) : Header.hdr source :=
  Header.hdr_init (mksource wire [] true) Header.SP_BINARY.
(** The first frame has been read: i32, id 00.. *)
Definition hbegun : Header.hdr source := Header.with_rbuf (hfresh hwire) [x08; x00].

Theorem C67_header_refuted : exists h body next,
  fst (readAll_t (Header.read xt_src hno [Header.CT_HEADERS]) (Z.of_nat (length (body ++ next))) h)
  = Ok (body ++ next)
  /\ fast_deserialize (dbinary false None None) tt [[mkfield 1 TI32 false None]] 0 (body ++ next)
     = Ok (VStruct 0 [Some (VInt 7)], next)
  /\ fst (fast_read (tbinary (creadable_header xt_src hno [Header.CT_HEADERS] 9) false None None) tt
            [[mkfield 1 TI32 false None]] 50 0 h) = Ok (VStruct 0 [Some (VInt 99)]).
Proof.
  exists hbegun, [x08; x00; x01; x00; x00; x00; x07; x00], [x00; x00; x00; x63; x00; x00].
  vm_compute. repeat split; reflexivity.
Qed.

(** An unframed peer over a socket, the first word already read. *)
Example C67_header_unframed_ex :
  let bytes := concat (map (sent_binary xt_env) xt_objs) in
  let h := Header.with_client (Header.with_rbuf (hfresh (skipn 3 bytes)) (firstn 3 bytes))
             Header.CT_UNFRAMED_BINARY in
  hrel source_rel 60 h bytes
  /\ fst (fast_reads (tbinary (creadable_header xt_src hno [] 60) false None None) tt xt_env 60
            [0; 0]%nat h) = Ok [xt 7 [x61; x62]; xt (-1) []].
Proof.
  split; [|vm_compute; reflexivity]. split; [reflexivity|].
  eexists. split; [reflexivity|]. split; [reflexivity|]. vm_compute. lia.
Qed.
Example C67_header_spin_ex : forall fuel,
  fst (Header.refill xt_src hno [] fuel [x08] 2
    (Header.with_client (Header.hdr_init (mksource [] [] false) 0) Header.CT_UNFRAMED_BINARY)) = Diverge.
Proof. apply C67_header_spin_fails; reflexivity. Qed.
Example C67_within_ex :
  let bytes := concat (map (sent_binary xt_env) xt_objs) in
  fast_read (tbinary (creadable_zlib xt_src zdec (fun _ => []) 10 9 9) false None None) tt xt_env 60 0
    (z_setbuf bytes z0)
  = (Ok (xt 7 [x61; x62]), z_setbuf (sent_binary xt_env (0%nat, xt (-1) [])) z0).
Proof.
  intros bytes.
  refine (proj1 (C67_within _ (creadable_zlib xt_src zdec (fun _ => []) 10 9 9) z0
    (fun _ _ => eq_refl) (fun _ _ => eq_refl) false None None xt_env 0 bytes
    (xt 7 [x61; x62]) (sent_binary xt_env (0%nat, xt (-1) [])) 60 _) _).
  - vm_compute. lia.
  - vm_compute. reflexivity.
Qed.
Example C67_empty_frame_ex :
  fst (readAll_t (framed_read xt_src) 1
    (mkwrap (mksource (frame [] ++ frame [x01]) [] true) [] [])) = Raise EEOFError.
Proof. reflexivity. Qed.

(** Axioms used. *)
Print Assumptions C67_buffered.
Print Assumptions C67_framed.
Print Assumptions C67_sasl.
Print Assumptions C67_header_unframed.
Print Assumptions C67_exact.
Print Assumptions C67_binary.
Print Assumptions C67_compact.
Print Assumptions C67_within.
Print Assumptions C67_sequence_binary.
Print Assumptions C67_sequence_compact.
Print Assumptions C67_empty_frame.
Print Assumptions C67_zlib.
Print Assumptions C67_zlib_lost.
Print Assumptions C67_header_lost.
Print Assumptions C67_header_spin_fails.
Print Assumptions C67_zlib_refuted.
Print Assumptions C67_header_refuted.
