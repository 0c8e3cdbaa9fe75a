(** C78: calls whose ends use accelerated protocols. *)
From Coq Require Import String.
From Coq Require Import ZArith List Bool Lia.
From Coq Require Import Init.Byte.
From Coq Require Import ZifyBool ZifyNat ZifyN.
From Verif Require Import Base Bytes Utf8 Proto Spec Laws StructFacts Binary BinaryLaws
  SpecBinary Compact CompactLaws SpecCompact InstFacts CodecFacts Dynamic DynamicFacts
  DynamicRead SpecDynamic Ext ExtFacts ExtRead SpecExt ExtReadFacts MsgLaws Rpc RpcFacts RpcSys
  Examples PropsExt PropsRpc RpcFast RpcFastFacts RpcFastLost.
Import ListNotations.
Open Scope Z_scope.
Open Scope list_scope.

(** * Any mixture of accelerated and plain ends *)

(** Client, input of the server and output of the server may each be plain
    ([None]) or accelerated, on machines of either byte order: every history of
    calls gives what C31 says of plain ends. *)
Theorem C78_calls_binary : forall cf SL CL env H
    (handler : list Z -> list (option value) -> H -> hres * H) ms l h ac ai ao,
  b_limits cf SL CL -> strict_ok cf -> 14 <= SL ->
  table_schema env -> schema_closed env = true -> service_ok env SL ms ->
  (forall m args, In (m, args) l -> In m ms /\ sendable env SL CL (m_args m) args) ->
  good_history env handler SL CL l h ->
  let idle h := (mkcs (mkst tt [] [] 0) [],
                 mkss (mkst tt [] [] 0) (mkst tt [] [] 0) [] h) in
  acalls (binary cf) env (binary_codec cf ac) (binary_codec cf ai) (binary_codec cf ao)
    handler ms l (idle h)
  = (fst (reference env handler l h), idle (snd (reference env handler l h))).
Proof.
  intros cf SL CL env H handler ms l h ac ai ao HL Hs HSL Ht Hc Hms Hall Hg idle.
  destruct (acalls_ok (binary_mlaws cf SL CL HL Hs) env (id16_table _ Ht) Hc
    (binary_codec cf ac) (binary_codec cf ai) (binary_codec cf ao)
    ltac:(apply binary_codec_ok; assumption) ltac:(apply binary_codec_ok; assumption)
    ltac:(apply binary_codec_ok; assumption) handler ms Hms HSL l h
    (idle h) Hall Hg) as (y' & E & ([] & [] & [] & -> & _)).
  { exists tt, tt, tt. repeat split. }
  exact E.
Qed.

Theorem C78_calls_compact : forall cf SL CL env H
    (handler : list Z -> list (option value) -> H -> hres * H) ms l h ac ai ao,
  c_limits cf SL CL -> 14 <= SL ->
  table_schema env -> schema_closed env = true -> service_ok env SL ms ->
  (forall m args, In (m, args) l -> In m ms /\ sendable env SL CL (m_args m) args) ->
  good_history env handler SL CL l h ->
  let idle xc xi xo h := (mkcs (mkst xc [] [] 0) [],
                          mkss (mkst xi [] [] 0) (mkst xo [] [] 0) [] h) in
  exists xc xi xo,
  acalls (compact cf) env (compact_codec cf ac) (compact_codec cf ai) (compact_codec cf ao)
    handler ms l (idle c_init c_init c_init h)
  = (fst (reference env handler l h), idle xc xi xo (snd (reference env handler l h))).
Proof.
  intros cf SL CL env H handler ms l h ac ai ao HL HSL Ht Hc Hms Hall Hg idle.
  destruct (acalls_ok (compact_mlaws cf SL CL HL) env (id16_table _ Ht) Hc
    (compact_codec cf ac) (compact_codec cf ai) (compact_codec cf ao)
    ltac:(apply compact_codec_ok; assumption) ltac:(apply compact_codec_ok; assumption)
    ltac:(apply compact_codec_ok; assumption) handler ms Hms HSL l h
    (idle c_init c_init c_init h) Hall Hg) as (y' & E & (xc & xi & xo & -> & _)).
  { exists c_init, c_init, c_init. repeat split. }
  exists xc, xi, xo. exact E.
Qed.

(** A method that the server does not have is answered as by the plain server,
    whatever its codecs: no struct of the service is involved. *)
Theorem C78_unknown : forall X (P : proto X) env H
    (handler : list Z -> list (option value) -> H -> hres * H) Ki Ko F ms s
    name type seqid si,
  readMessageBegin P (s_in s) = (Ok (name, type, seqid), si) -> lookup name ms = None ->
  aprocess P env Ki Ko handler F ms s = process P env handler F ms s.
Proof.
  intros X P env H handler Ki Ko F ms s name type seqid si E El.
  unfold aprocess, process, bind, on_in. rewrite E. unfold adispatch, dispatch.
  rewrite El. reflexivity.
Qed.

(** A server without acceleration, and a client without, are those of Rpc.v. *)
Theorem C78_plain : forall X (P : proto X) env H
    (handler : list Z -> list (option value) -> H -> hres * H) F ms m args s c,
  aprocess P env (plain P) (plain P) handler F ms s = process P env handler F ms s
  /\ asend P env (plain P) m args c = send P env m args c
  /\ arecv P env (plain P) F m c = recv P env F m c.
Proof.
  intros. split; [|split; reflexivity].
  unfold aprocess, process, bind. destruct (on_in _ s) as [[[[name type] seqid]|e|] s1]; auto.
  unfold adispatch, dispatch. destruct (lookup name ms) as [m0|]; [|reflexivity].
  unfold aprocess_function, process_function, bind. cbn [plain k_read].
  destruct (on_in _ s1) as [[v|e|] s2]; auto.
  destruct (on_in _ s2) as [[[]|e|] s3]; auto.
  destruct (call_handler _ _ _ s3) as [[[]|e|] s4]; auto;
    destruct (m_oneway m0); auto;
    destruct (reply_for env m0 _) as [[[[mt e] n] w]|]; auto;
    destruct (mt =? EXCEPTION); reflexivity.
Qed.

(** A transport error of the handler ends the processor, and nothing is
    written. *)
Theorem C78_transport_binary : forall cf SL CL env H
    (handler : list Z -> list (option value) -> H -> hres * H) ms m args type seqid
    tail io so sent h h' t F ai Ko,
  b_limits cf SL CL -> strict_ok cf -> table_schema env -> schema_closed env = true ->
  lookup (m_name m) ms = Some m -> name_ok SL (m_name m) -> mtype_ok type ->
  seq_ok seqid -> sendable env SL CL (m_args m) args ->
  handler (m_name m) (received env (m_args m) args) h = (HTransport t, h') ->
  let req := b_msg (strictWrite cf) (m_name m) type seqid env (m_args m)
               (VStruct (m_args m) args) in
  (length req <= F)%nat ->
  aprocess (binary cf) env (binary_codec cf ai) Ko handler F ms
    (mkss (mkst tt (req ++ tail) io 0) so sent h)
  = (Raise (ETransport t), mkss (mkst tt tail io 0) so sent h').
Proof.
  intros cf SL CL env H handler ms m args type seqid tail io so sent h h' t F ai Ko
    HL Hs Ht Hc Hl Hn Hty Hq Ha Hr req HF.
  set (L := binary_mlaws cf SL CL HL Hs).
  destruct (aprocess_start L env (binary_codec cf ai) Ko
    ltac:(apply binary_codec_ok; assumption) handler ms m type args seqid tail io so tt
    sent h h' _ F I Hl Hn Hty Hq Ha Hr) as ([] & E & _).
  { unfold L. rewrite b_msg_eq. exact HF. }
  unfold L in E. rewrite b_msg_eq in E. exact E.
Qed.

Theorem C78_transport_compact : forall cf SL CL env H
    (handler : list Z -> list (option value) -> H -> hres * H) ms m args type seqid
    tail x io so sent h h' t F ai Ko,
  c_limits cf SL CL -> c_ready x -> table_schema env -> schema_closed env = true ->
  lookup (m_name m) ms = Some m -> name_ok SL (m_name m) -> mtype_ok type ->
  seq_ok seqid -> sendable env SL CL (m_args m) args ->
  handler (m_name m) (received env (m_args m) args) h = (HTransport t, h') ->
  let req := c_msg (m_name m) type seqid env (m_args m) (VStruct (m_args m) args) in
  (length req <= F)%nat ->
  exists x', aprocess (compact cf) env (compact_codec cf ai) Ko handler F ms
    (mkss (mkst x (req ++ tail) io 0) so sent h)
  = (Raise (ETransport t), mkss (mkst x' tail io 0) so sent h') /\ c_ready x'.
Proof.
  intros cf SL CL env H handler ms m args type seqid tail x io so sent h h' t F ai Ko
    HL Hx Ht Hc Hl Hn Hty Hq Ha Hr req HF.
  set (L := compact_mlaws cf SL CL HL).
  destruct (aprocess_start L env (compact_codec cf ai) Ko
    ltac:(apply compact_codec_ok; assumption) handler ms m type args seqid tail io so x
    sent h h' _ F Hx Hl Hn Hty Hq Ha Hr) as (x' & E & Hx').
  { unfold L. rewrite c_msg_eq. exact HF. }
  exists x'. split; [|exact Hx'].
  unfold L in E. rewrite c_msg_eq in E. exact E.
Qed.

Example C78_unknown_ex :
  let s := mkss (mkst tt (b_msg true (lit "sub") CALL 7 rpc_env 0
                            (VStruct 0 [Some (VInt 5); None])) [] 0)
                (mkst tt [] [] 0) [] 3 in
  fst (readMessageBegin (binary bdefault) (s_in s)) = Ok (lit "sub", CALL, 7)
  /\ lookup (lit "sub") rpc_ms = None
  /\ let r := aprocess (binary bdefault) rpc_env (binary_codec bdefault (Some false))
                (binary_codec bdefault (Some true)) rpc_handler 100 rpc_ms s in
     fst r = Ok tt /\ inp (s_in (snd r)) = []
     /\ s_sent (snd r)
        = [b_msg true (lit "sub") EXCEPTION 7 app_env 0
             (app_exn TA_UNKNOWN_METHOD (Some (lit "Unknown function sub")))].
Proof. vm_compute. repeat split. Qed.

(** * Arguments declared without ids *)

(** The accelerated client sends none of them: what goes out is a message whose
    struct is empty, and no error is raised (defect). *)
Theorem C78_args_not_sent_binary : forall cf SL CL env big m d ds args i sent,
  b_limits cf SL CL -> strict_ok cf -> name_ok SL (m_name m) ->
  nth_error env (m_args m) = Some (d :: ds) -> f_id d < 0 ->
  validate (d :: ds) args = true ->
  asend (binary cf) env (binary_codec cf (Some big)) m args (mkcs (mkst tt i [] 0) sent)
  = (Ok tt, mkcs (mkst tt i [] 0)
       (sent ++ [sb_message (strictWrite cf) (m_name m)
                   (if m_oneway m then ONEWAY else CALL) 0 ++ [x00]])).
Proof.
  intros cf SL CL env big m d ds args i sent HL Hs Hn E Hd Hv. unfold asend.
  set (ty := if m_oneway m then ONEWAY else CALL).
  assert (Ht : mtype_ok ty)
    by (unfold ty, mtype_ok, ONEWAY, CALL; destruct (m_oneway m); lia).
  destruct (mw_begin (binary_mlaws cf SL CL HL Hs) (m_name m) ty 0 tt i [] 0 I Hn Ht eq_refl)
    as ([] & E1 & _).
  unfold bind, on_cl. cbn [cl cl_sent]. rewrite E1. cbn [cl cl_sent binary_codec fast k_write].
  destruct (C33_negative_id big env (m_args m) d ds args E Hd Hv) as [-> _]. reflexivity.
Qed.

Theorem C78_args_not_sent_compact : forall cf SL CL env big m d ds args x i sent,
  c_limits cf SL CL -> c_ready x -> name_ok SL (m_name m) ->
  nth_error env (m_args m) = Some (d :: ds) -> f_id d < 0 ->
  validate (d :: ds) args = true ->
  exists x',
  asend (compact cf) env (compact_codec cf (Some big)) m args (mkcs (mkst x i [] 0) sent)
  = (Ok tt, mkcs (mkst x' i [] 0)
       (sent ++ [sc_message (m_name m) (if m_oneway m then ONEWAY else CALL) 0 ++ [x00]]))
  /\ c_ready x'.
Proof.
  intros cf SL CL env big m d ds args x i sent HL Hx Hn E Hd Hv. unfold asend.
  set (ty := if m_oneway m then ONEWAY else CALL).
  assert (Ht : mtype_ok ty)
    by (unfold ty, mtype_ok, ONEWAY, CALL; destruct (m_oneway m); lia).
  set (L := compact_mlaws cf SL CL HL).
  destruct (mw_begin L (m_name m) ty 0 x i [] 0 Hx Hn Ht eq_refl) as (x1 & E1 & H1).
  destruct (mw_end L x1 i (([] ++ ml_hdr L (m_name m) ty 0) ++ [x00]) 0 H1)
    as (x3 & E3 & H3).
  exists x3. split; [|exact H3]. cbn [L compact_mlaws ml_hdr ml_end] in E1, E3.
  unfold bind, on_cl. cbn [cl cl_sent]. rewrite E1.
  cbn [cl cl_sent compact_codec fast k_write].
  destruct (C33_negative_id big env (m_args m) d ds args E Hd Hv) as [_ ->].
  cbn [px inp out depth cl cl_sent]. rewrite E3. cbn [cl cl_sent].
  unfold cl_flush. cbn [cl cl_sent px inp out depth]. rewrite app_nil_r. reflexivity.
Qed.

(** The accelerated server ignores them: whatever a plain client sends, the
    handler is called with the defaults (defect).  [shallow]: the decoder can
    skip each of them (within 63 levels). *)
Lemma areply_keeps {X H} P K name mt seqid e n v (s : sstate X H) :
  s_h (snd (areply P K name mt seqid e n v s)) = s_h s
  /\ s_in (snd (areply P K name mt seqid e n v s)) = s_in s.
Proof.
  unfold areply, bind, on_out, flush_out.
  destruct (writeMessageBegin _ _ _ _ _) as [[[]|e1|] s1]; cbn [snd s_in s_h s_out]; auto.
  destruct (k_write _ _ _ _ _) as [[[]|e1|] s2]; cbn [snd s_in s_h s_out]; auto.
  destruct (writeMessageEnd _ _) as [[[]|e1|] s3]; cbn [snd s_in s_h s_out]; auto.
Qed.

Lemma handled_keeps {X H} (P : proto X) env Ki Ko
    (handler : list Z -> list (option value) -> H -> hres * H) F m seqid s v i x so sent h :
  k_read Ki env F (m_args m) s = (Ok v, mkst x i so 0) ->
  (exists x', readMessageEnd P (mkst x i so 0) = (Ok tt, mkst x' i so 0)) ->
  forall o, exists x' r,
    aprocess_function P env Ki Ko handler F m seqid (mkss s o sent h) = r
    /\ s_in (snd r) = mkst x' i so 0
    /\ s_h (snd r) = snd (handler (m_name m) (attrs v) h).
Proof.
  intros Er (x' & Ee) o. exists x'. eexists. split; [reflexivity|].
  unfold aprocess_function, bind, on_in. cbn [s_in s_out s_sent s_h].
  rewrite Er. cbn [s_in s_out s_sent s_h]. rewrite Ee. unfold call_handler.
  cbn [s_in s_out s_sent s_h].
  destruct (handler _ _ _) as [r h']. cbn [snd].
  destruct r; try (split; reflexivity);
    (destruct (m_oneway m); [split; reflexivity|]);
    (destruct (reply_for env m _) as [[[[mt e] n] w]|]; [|split; reflexivity]);
    match goal with |- context [areply ?a ?b ?c ?d ?e ?f ?g ?h ?s] =>
      destruct (areply_keeps a b c d e f g h s) as [-> ->] end; split; reflexivity.
Qed.

Theorem C78_args_ignored_binary : forall cf SL CL env H
    (handler : list Z -> list (option value) -> H -> hres * H) big Ko ms m d ds
    args type seqid tail io so sent h F,
  b_limits cf SL CL -> strict_ok cf -> schema_ok env ->
  lookup (m_name m) ms = Some m -> name_ok SL (m_name m) -> mtype_ok type ->
  seq_ok seqid ->
  nth_error env (m_args m) = Some (d :: ds) -> f_id d < 0 ->
  sendable env SL CL (m_args m) args -> shallow args = true ->
  let s' := snd (aprocess (binary cf) env (binary_codec cf (Some big)) Ko handler F ms
    (mkss (mkst tt (b_msg (strictWrite cf) (m_name m) type seqid env (m_args m)
                      (VStruct (m_args m) args) ++ tail) io 0) so sent h)) in
  s_in s' = mkst tt tail io 0
  /\ s_h s' = snd (handler (m_name m) (map f_def (d :: ds)) h).
Proof.
  intros cf SL CL env H handler big Ko ms m d ds args type seqid tail io so sent h F
    HL Hs He Hl Hn Ht Hq E Hd [Hwf _] Hsh s'.
  set (L := binary_mlaws cf SL CL HL Hs).
  destruct (mr_begin L (m_name m) type seqid
     (ml_body L env (m_args m) (VStruct (m_args m) args) ++ tail) tt io 0
     I Hn Ht Hq (mt_body L _ _ _ _)) as ([] & i1 & E1 & H1).
  cbn [L binary_mlaws ml_hdr ml_body ml_rB] in E1, H1. subst i1.
  assert (Es : s' = snd (aprocess_function (binary cf) env (binary_codec cf (Some big)) Ko
    handler F m seqid (mkss (mkst tt (sb_value env (TStruct (m_args m))
      (VStruct (m_args m) args) ++ tail) io 0) so sent h))).
  { unfold s', aprocess, b_msg. rewrite <- app_assoc. unfold bind, on_in.
    cbn [s_in s_out s_sent s_h]. rewrite E1. unfold adispatch. rewrite Hl. reflexivity. }
  destruct (handled_keeps (binary cf) env (binary_codec cf (Some big)) Ko handler F m seqid
    _ _ _ _ _ sent h
    (fast_read_same (cbinary big) tt _ _ _ _ _ _ _ tt io 0 F
      (lost_binary big _ _ SL CL env (m_args m) d ds args tail (x_of_b _ _ _ HL) He E Hd Hwf Hsh))
    (ex_intro _ tt eq_refl) so) as ([] & r & Er & Ri & Rh).
  rewrite Es, Er.
  split; [exact Ri|exact Rh].
Qed.

Theorem C78_args_ignored_compact : forall cf SL CL env H
    (handler : list Z -> list (option value) -> H -> hres * H) big Ko ms m d ds
    args type seqid tail x io so sent h F,
  c_limits cf SL CL -> c_ready x -> schema_ok env ->
  lookup (m_name m) ms = Some m -> name_ok SL (m_name m) -> mtype_ok type ->
  seq_ok seqid ->
  nth_error env (m_args m) = Some (d :: ds) -> f_id d < 0 ->
  sendable env SL CL (m_args m) args -> shallow args = true ->
  let s' := snd (aprocess (compact cf) env (compact_codec cf (Some big)) Ko handler F ms
    (mkss (mkst x (c_msg (m_name m) type seqid env (m_args m)
                      (VStruct (m_args m) args) ++ tail) io 0) so sent h)) in
  inp (s_in s') = tail
  /\ s_h s' = snd (handler (m_name m) (map f_def (d :: ds)) h).
Proof.
  intros cf SL CL env H handler big Ko ms m d ds args type seqid tail x io so sent h F
    HL Hx He Hl Hn Ht Hq E Hd [Hwf _] Hsh s'.
  set (L := compact_mlaws cf SL CL HL).
  destruct (mr_begin L (m_name m) type seqid
     (ml_body L env (m_args m) (VStruct (m_args m) args) ++ tail) x io 0
     Hx Hn Ht Hq (mt_body L _ _ _ _)) as (x1 & i1 & E1 & H1).
  cbn [L compact_mlaws ml_hdr ml_body ml_rB] in E1, H1. destruct H1 as [-> H1].
  assert (Es : s' = snd (aprocess_function (compact cf) env (compact_codec cf (Some big)) Ko
    handler F m seqid (mkss (mkst x1 (sc_value env (TStruct (m_args m))
      (VStruct (m_args m) args) ++ tail) io 0) so sent h))).
  { unfold s', aprocess, c_msg. rewrite <- app_assoc. unfold bind, on_in.
    cbn [s_in s_out s_sent s_h]. rewrite E1. unfold adispatch. rewrite Hl. reflexivity. }
  destruct (mr_end L tail x1 tail io 0 (conj eq_refl H1)) as (x2 & E2 & _).
  destruct (handled_keeps (compact cf) env (compact_codec cf (Some big)) Ko handler F m seqid
    _ _ _ _ _ sent h
    (fast_read_same (ccompact big) [] _ _ _ _ _ _ _ x1 io 0 F
      (lost_compact big _ _ SL CL env (m_args m) d ds args tail (x_of_c _ _ _ HL) He E Hd Hwf Hsh))
    (ex_intro _ x2 E2) so) as (x3 & r & Er & Ri & Rh).
  rewrite Es, Er.
  split; [rewrite Ri; reflexivity|exact Rh].
Qed.

(** * A request whose arguments the encoder refuses *)

(** Nothing of the arguments is written, but the header of the message was: it
    stays in the buffer, and goes out in front of the next request (defect). *)
Theorem C78_failed_binary : forall cf SL CL env big m args i sent e s',
  b_limits cf SL CL -> strict_ok cf -> name_ok SL (m_name m) ->
  asend (binary cf) env (binary_codec cf (Some big)) m args (mkcs (mkst tt i [] 0) sent)
  = (Raise e, s') ->
  let junk := sb_message (strictWrite cf) (m_name m)
                (if m_oneway m then ONEWAY else CALL) 0 in
  s' = mkcs (mkst tt i junk 0) sent
  /\ forall a m2 args2, table_schema env -> schema_closed env = true ->
     name_ok SL (m_name m2) -> sendable env SL CL (m_args m2) args2 ->
     asend (binary cf) env (binary_codec cf a) m2 args2 s'
     = (Ok tt, mkcs (mkst tt i [] 0)
          (sent ++ [junk ++ b_msg (strictWrite cf) (m_name m2)
                      (if m_oneway m2 then ONEWAY else CALL) 0 env (m_args m2)
                      (VStruct (m_args m2) args2)])).
Proof.
  intros cf SL CL env big m args i sent e s' HL Hs Hn Hf junk.
  set (L := binary_mlaws cf SL CL HL Hs).
  assert (Hs' : s' = mkcs (mkst tt i junk 0) sent).
  { unfold junk. set (ty := if m_oneway m then ONEWAY else CALL) in *.
    assert (Ht : mtype_ok ty)
      by (unfold ty, mtype_ok, ONEWAY, CALL; destruct (m_oneway m); lia).
    destruct (mw_begin L (m_name m) ty 0 tt i [] 0 I Hn Ht eq_refl) as ([] & E1 & _).
    unfold asend in Hf. fold ty in Hf. unfold bind, on_cl in Hf. cbn [cl cl_sent] in Hf.
    rewrite E1 in Hf. cbn [cl cl_sent binary_codec fast k_write] in Hf.
    destruct (fast_serialize _ _ _ _ _); [discriminate| |discriminate].
    injection Hf as <- <-. reflexivity. }
  split; [exact Hs'|]. subst s'. intros a m2 args2 Ht Hc Hn2 [Hwf Hd].
  destruct (asend_ok L env (binary_codec cf a)
    ltac:(apply binary_codec_ok; assumption) m2 args2 tt i junk sent I Hn2 Hwf Hd)
    as ([] & E & _). unfold L in E. rewrite b_msg_eq in E. exact E.
Qed.

(** Compact: the object accepts no request any more, for ever (defect). *)
Theorem C78_failed_compact : forall cf SL CL env big m args x i o sent e s',
  c_limits cf SL CL -> c_ready x -> name_ok SL (m_name m) ->
  asend (compact cf) env (compact_codec cf (Some big)) m args (mkcs (mkst x i o 0) sent)
  = (Raise e, s') ->
  out (cl s') = o ++ sc_message (m_name m) (if m_oneway m then ONEWAY else CALL) 0
  /\ cl_sent s' = sent
  /\ forall a m2 args2,
     asend (compact cf) env (compact_codec cf a) m2 args2 s' = (Raise EAssertion, s').
Proof.
  intros cf SL CL env big m args x i o sent e s' HL Hx Hn Hf.
  set (L := compact_mlaws cf SL CL HL).
  set (ty := if m_oneway m then ONEWAY else CALL) in *.
  assert (Ht : mtype_ok ty)
    by (unfold ty, mtype_ok, ONEWAY, CALL; destruct (m_oneway m); lia).
  destruct (mw_begin L (m_name m) ty 0 x i o 0 Hx Hn Ht eq_refl) as (x1 & E1 & H1).
  unfold asend in Hf. fold ty in Hf. unfold bind, on_cl in Hf. cbn [cl cl_sent] in Hf.
  rewrite E1 in Hf. cbn [cl cl_sent compact_codec fast k_write] in Hf.
  destruct (fast_serialize _ _ _ _ _) as [b|e'|].
  - exfalso. cbn [px inp out depth cl cl_sent] in Hf.
    match type of Hf with context [writeMessageEnd _ (mkst _ _ ?oo _)] =>
      destruct (mw_end L x1 i oo 0 H1) as (x3 & E3 & _) end.
    rewrite E3 in Hf. discriminate.
  - injection Hf as <- <-. cbn [cl cl_sent out]. split; [reflexivity|]. split; [reflexivity|].
    intros a m2 args2. unfold asend, bind, on_cl. cbn [cl cl_sent].
    change (writeMessageBegin (compact cf)) with c_writeMessageBegin.
    unfold c_writeMessageBegin, assert_state, bind, get_px, assert_. cbn [px].
    destruct H1 as (-> & _). reflexivity.
  - discriminate.
Qed.

(** * Witnesses *)

(** [note(string s, i32 n = 10)] without ids: fields -1 and -2, in the order
    of their ids. *)
Definition un_env : schema :=
  [ [ mkfield (-2) TI32 false (Some (VInt 10)); mkfield (-1) TI32 false None ]; [] ].
Definition un_note : method := mkmethod (lit "note") true 0 1 None [].
Definition un_handler (name : list Z) (args : list (option value)) (h : list (list (option value)))
  : hres * list (list (option value)) := (HReturn None, h ++ [args]).
Definition un_sys : sys (X := unit) (H := list (list (option value))) :=
  (mkcs (mkst tt [] [] 0) [], mkss (mkst tt [] [] 0) (mkst tt [] [] 0) [] []).

(** Two plain ends deliver the call; with either end accelerated the handler
    sees the defaults only. *)
Theorem C78_unnumbered_refuted : exists env m args,
  schema_ok env /\ sendable env 100 100 (m_args m) args
  /\ let seen ac ai := s_h (snd (snd (acalls (binary bdefault) env (binary_codec bdefault ac)
         (binary_codec bdefault ai) (binary_codec bdefault ai) un_handler [m] [(m, args)]
         un_sys))) in
     seen None None = [args]
     /\ forall big, seen (Some big) None = [[Some (VInt 10); None]]
               /\ seen None (Some big) = [[Some (VInt 10); None]].
Proof.
  exists un_env, un_note, [Some (VInt 3); Some (VInt 4)].
  split; [apply schema_okb_ok; reflexivity|]. split; [split; [reflexivity|cbn; lia]|].
  split; [vm_compute; reflexivity|]. intros []; split; vm_compute; reflexivity.
Qed.

Example C78_unnumbered_hyps_ex :
  nth_error un_env (m_args un_note)
    = Some [mkfield (-2) TI32 false (Some (VInt 10)); mkfield (-1) TI32 false None]
  /\ validate [mkfield (-2) TI32 false (Some (VInt 10)); mkfield (-1) TI32 false None]
       [Some (VInt 3); Some (VInt 4)] = true
  /\ shallow [Some (VInt 3); Some (VInt 4)] = true
  /\ lookup (m_name un_note) [un_note] = Some un_note.
Proof. repeat split. Qed.

Example C78_calls_ex : table_schema rpc_env
  /\ fst (acalls (binary bdefault) rpc_env (binary_codec bdefault (Some false))
        (binary_codec bdefault None) (binary_codec bdefault (Some true)) rpc_handler rpc_ms
        [(rpc_add, [Some (VInt 3); None]); (rpc_add, [Some (VInt (-1)); Some (VInt 2)])]
        (b_sys 0))
     = [Ok (CReturn (Some (VInt 13))); Ok (CThrow (VStruct 2 [Some (VStr (lit "neg"))]))]
  /\ fst (acalls (compact cdefault) rpc_env (compact_codec cdefault (Some false))
        (compact_codec cdefault None) (compact_codec cdefault (Some true)) rpc_handler rpc_ms
        [(rpc_add, [Some (VInt 3); None]); (rpc_add, [Some (VInt (-1)); Some (VInt 2)])]
        (c_sys 0))
     = [Ok (CReturn (Some (VInt 13))); Ok (CThrow (VStruct 2 [Some (VStr (lit "neg"))]))].
Proof.
  split; [|split; vm_compute; reflexivity].
  intros [|[|[|[|[|n]]]]] ds E; cbn in E; try discriminate; injection E as <-;
    (split; [repeat constructor|]); intros d Hd; cbn in Hd;
    repeat (destruct Hd as [<-|Hd]; [cbn; lia|]); destruct Hd.
Qed.

(** add(2^31, 1) is refused by the encoder, in both protocols. *)
Example C78_failed_ex :
  match asend (binary bdefault) rpc_env (binary_codec bdefault (Some false)) rpc_add
      [Some (VInt 2147483648); Some (VInt 1)] (mkcs (mkst tt [] [] 0) []),
    asend (compact cdefault) rpc_env (compact_codec cdefault (Some false)) rpc_add
      [Some (VInt 2147483648); Some (VInt 1)] (mkcs (mkst c_init [] [] 0) []) with
  | (Raise _, _), (Raise _, _) => True
  | _, _ => False
  end.
Proof. vm_compute. exact I. Qed.

(** Axioms used. *)
Print Assumptions C78_calls_binary.
Print Assumptions C78_calls_compact.
Print Assumptions C78_unknown.
Print Assumptions C78_plain.
Print Assumptions C78_transport_binary.
Print Assumptions C78_transport_compact.
Print Assumptions C78_args_not_sent_binary.
Print Assumptions C78_args_not_sent_compact.
Print Assumptions C78_args_ignored_binary.
Print Assumptions C78_args_ignored_compact.
Print Assumptions C78_failed_binary.
Print Assumptions C78_failed_compact.
Print Assumptions C78_unnumbered_refuted.
