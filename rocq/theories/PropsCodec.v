(** C06, C07, C08, C42, C43, C45, C47: single values, message headers, required
    fields. *)
From Coq Require Import ZArith List Bool Lia ZifyBool.
From Coq Require Import Init.Byte.
From Verif Require Import Base Bytes BytesFacts Utf8 Utf8Facts Proto Spec Laws StructFacts
  Binary BinaryLaws SpecBinary Compact CompactFacts CompactLaws SpecCompact WireFacts
  InstFacts CodecFacts PostFacts SafeInst Examples.
Import ListNotations.
Open Scope Z_scope.

(** * C06 *)

(** The integer types and their width in bits. *)
Inductive int_width : ty -> Z -> Prop :=
| W8 : int_width TByte 8
| W16 : int_width TI16 16
| W32 : int_width TI32 32
| W64 : int_width TI64 64.

Definition int_fits (w z : Z) : Prop := - 2 ^ (w - 1) <= z < 2 ^ (w - 1).

(** Out of range: an exception, and nothing was handed to the transport. *)
Theorem C06_binary_out_of_range : forall cf t w z s, int_width t w -> ~ int_fits w z ->
  write_base (binary cf) t (VInt z) s = (Raise EStructError, s).
Proof.
  intros cf t w z s Hw Hz. destruct Hw; cbn [write_base];
    [apply (b_write_bad 1)|apply (b_write_bad 2)|apply (b_write_bad 4)
    |apply (b_write_bad 8)]; exact Hz.
Qed.

Theorem C06_binary_in_range : forall cf t w z s, int_width t w -> int_fits w z ->
  write_base (binary cf) t (VInt z) s
  = (Ok tt, mkst tt (inp s) (out s ++ sb_value [] t (VInt z)) (depth s)).
Proof.
  intros cf t w z [[] i o d] Hw Hz.
  destruct Hw; cbn [write_base sb_value inp out depth].
  - rewrite <- be1_int8. apply (b_write_good 1 z (mkst tt i o d) Hz).
  - rewrite <- be2. apply (b_write_good 2 z (mkst tt i o d) Hz).
  - rewrite <- be4. apply (b_write_good 4 z (mkst tt i o d) Hz).
  - rewrite <- be8. apply (b_write_good 8 z (mkst tt i o d) Hz).
Qed.

Theorem C06_compact_out_of_range : forall cf t w z s, int_width t w -> ~ int_fits w z ->
  exists e, write_base (compact cf) t (VInt z) s = (Raise e, s).
Proof.
  intros cf t w z s Hw Hz.
  assert (A : forall A (m : MC A), (exists e, m s = (Raise e, s)) ->
    exists e, writer m s = (Raise e, s)).
  { intros A m [e He]. unfold writer, assert_state, bind, get_px, assert_.
    destruct (existsb _ _); [exists e; exact He|eexists; reflexivity]. }
  destruct Hw; cbn [write_base]; apply A; eexists.
  - unfold c_writeByte_, bind. rewrite pack_signed_bad by exact Hz. reflexivity.
  - apply (c_write_bad 16), Hz.
  - apply (c_write_bad 32), Hz.
  - apply (c_write_bad 64), Hz.
Qed.

Theorem C06_compact_in_range : forall cf t w z s, int_width t w -> int_fits w z ->
  state (px s) = VALUE_WRITE \/ state (px s) = CONTAINER_WRITE ->
  write_base (compact cf) t (VInt z) s
  = (Ok tt, mkst (px s) (inp s) (out s ++ sc_value [] t (VInt z)) (depth s)).
Proof.
  intros cf t w z s Hw Hz Hs.
  destruct Hw; cbn [write_base sc_value compact writeByte writeI16 writeI32 writeI64];
    unfold c_writeByte, c_writeI16, c_writeI32, c_writeI64; rewrite writer_eq by exact Hs.
  - unfold c_writeByte_, bind. rewrite pack_signed_ok by exact Hz. reflexivity.
  - apply (c_write_good 16 z s ltac:(lia) Hz).
  - apply (c_write_good 32 z s ltac:(lia) Hz).
  - apply (c_write_good 64 z s ltac:(lia) Hz).
Qed.

(** Whole structs: what serialises at all has every integer, at every nesting
    level, within its declared width. *)
Theorem C06_binary_struct : forall cf env n v bs,
  serialize (binary cf) tt env n v = Ok bs ->
  fits env writable_base (TStruct n) v = true.
Proof. exact binary_fits. Qed.

Theorem C06_compact_struct : forall cf x env n v bs,
  serialize (compact cf) x env n v = Ok bs ->
  fits env writable_base (TStruct n) v = true.
Proof. exact compact_fits. Qed.

Example C06_ex : ~ int_fits 16 32768 /\ int_fits 16 32767
  /\ fits ex_env writable_base (TStruct 0)
       (VStruct 0 [Some (VInt 2147483648); None; None]) = false
  /\ serialize (binary bdefault) tt ex_env 0
       (VStruct 0 [Some (VInt 2147483648); None; None]) = Raise EStructError
  /\ serialize (compact cdefault) c_init ex_env 0
       (VStruct 0 [Some (VInt 2147483648); None; None])
     = Raise (EProtocol TP_INVALID_DATA)
  /\ (exists bs, serialize (binary bdefault) tt ex_env 0 ex_tree = Ok bs).
Proof.
  unfold int_fits. repeat split; try lia; try (vm_compute; reflexivity).
  eexists. vm_compute. reflexivity.
Qed.

(** * C07 *)

Theorem C07_binary_header_written : forall cf SL name type seqid s,
  SL <= 2147483647 -> base_ok SL TString (VStr name) = true ->
  (if strictWrite cf then 0 <= type <= 255 else -128 <= type <= 127) ->
  between (-2147483648) 2147483647 seqid = true ->
  b_writeMessageBegin cf name type seqid s
  = (Ok tt, mkst (px s) (inp s) (out s ++ sb_message (strictWrite cf) name type seqid)
                 (depth s)).
Proof. exact b_writeMessage_ok. Qed.

Theorem C07_binary_strict_header_read : forall cf SL CL name type seqid tail o d,
  b_limits cf SL CL -> base_ok SL TString (VStr name) = true ->
  0 <= type <= 255 -> between (-2147483648) 2147483647 seqid = true ->
  b_readMessageBegin cf (mkst tt (sb_message true name type seqid ++ tail) o d)
  = (Ok (name, type, seqid), mkst tt tail o d).
Proof. exact b_readMessage_strict. Qed.

Theorem C07_binary_old_header_read : forall cf SL CL name type seqid tail o d,
  b_limits cf SL CL -> base_ok SL TString (VStr name) = true ->
  -128 <= type <= 127 -> between (-2147483648) 2147483647 seqid = true ->
  strictRead cf = false ->
  b_readMessageBegin cf (mkst tt (sb_message false name type seqid ++ tail) o d)
  = (Ok (name, type, seqid), mkst tt tail o d).
Proof. exact b_readMessage_old. Qed.

(** A strict reader refuses whatever starts with a non-negative word, which is
    what every old-format header does. *)
Theorem C07_binary_strict_refuses_old : forall cf b0 b1 b2 b3 tail o d,
  strictRead cf = true -> b2z b0 < 128 ->
  b_readMessageBegin cf (mkst tt (b0 :: b1 :: b2 :: b3 :: tail) o d)
  = (Raise (EProtocol TP_BAD_VERSION), mkst tt tail o d).
Proof. exact b_old_refused. Qed.

Theorem C07_binary_bad_version : forall cf b0 b1 b2 b3 tail o d,
  128 <= b2z b0 -> ~ (b0 = x80 /\ b1 = x01) ->
  b_readMessageBegin cf (mkst tt (b0 :: b1 :: b2 :: b3 :: tail) o d)
  = (Raise (EProtocol TP_BAD_VERSION), mkst tt tail o d).
Proof. exact b_version_refused. Qed.

Example C07_ex : sb_message true [112; 105] CALL 258
  = [x80; x01; x00; x01;  x00; x00; x00; x02; x70; x69;  x00; x00; x01; x02]
  /\ sb_message false [112] REPLY (-1)
  = [x00; x00; x00; x01; x70; x02; xff; xff; xff; xff]
  /\ b_readMessageBegin (mkbconf true true None None)
       (mkst tt (sb_message false [112] REPLY (-1)) [] 0)
     = (Raise (EProtocol TP_BAD_VERSION), mkst tt [x70; x02; xff; xff; xff; xff] [] 0)
  /\ base_ok 10 TString (VStr [112; 105]) = true.
Proof. repeat split; vm_compute; reflexivity. Qed.

(** * C08 *)

Theorem C08_compact_header_written : forall name type seqid x i o d SL,
  state x = CLEAR -> SL <= 2147483647 -> base_ok SL TString (VStr name) = true ->
  0 <= type <= 7 -> between (-2147483648) 2147483647 seqid = true ->
  c_writeMessageBegin name type seqid (mkst x i o d)
  = (Ok tt, mkst (set_state VALUE_WRITE x) i (o ++ sc_message name type seqid) d).
Proof. exact c_writeMessage_ok. Qed.

Theorem C08_compact_header_read : forall cf SL CL name type seqid x tail o d,
  state x = CLEAR -> c_limits cf SL CL -> base_ok SL TString (VStr name) = true ->
  0 <= type <= 7 -> between (-2147483648) 2147483647 seqid = true ->
  c_readMessageBegin cf (mkst x (sc_message name type seqid ++ tail) o d)
  = (Ok (name, type, seqid), mkst x tail o d).
Proof. exact c_readMessage_ok. Qed.

Theorem C08_compact_bad_id : forall cf b0 tail x o d, state x = CLEAR -> b0 <> x82 ->
  c_readMessageBegin cf (mkst x (b0 :: tail) o d)
  = (Raise (EProtocol TP_BAD_VERSION), mkst x tail o d).
Proof. exact c_id_refused. Qed.

Theorem C08_compact_bad_version : forall cf b1 tail x o d, state x = CLEAR ->
  b2z b1 mod 32 <> 1 ->
  c_readMessageBegin cf (mkst x (x82 :: b1 :: tail) o d)
  = (Raise (EProtocol TP_BAD_VERSION), mkst x tail o d).
Proof. exact c_version_refused. Qed.

Example C08_ex : sc_message [112; 105] EXCEPTION (-2)
  = [x82; x61; xfe; xff; xff; xff; x0f; x02; x70; x69] /\ b2z x62 mod 32 <> 1.
Proof. split; vm_compute; [reflexivity|discriminate]. Qed.

(** * C42 *)

(** Zigzag is a bijection from the signed [w]-bit numbers to the unsigned ones,
    and the code computes it and its inverse. *)
Theorem C42_zigzag : forall w, 1 <= w ->
  (forall z, int_fits w z ->
     exists u, 0 <= u < 2 ^ w /\ (forall s : unit, makeZigZag z w s = (Ok u, s))
               /\ fromZigZag u = z)
  /\ (forall u, 0 <= u < 2 ^ w ->
     exists z, int_fits w z /\ (forall s : unit, makeZigZag z w s = (Ok u, s)))
  /\ (forall z, ~ int_fits w z ->
     forall s : unit, makeZigZag z w s = (Raise (EProtocol TP_INVALID_DATA), s)).
Proof.
  intros w Hw. split; [|split].
  - intros z Hz. exists (zigzag z). split; [apply zigzag_range; assumption|].
    split; [intros s; apply makeZigZag_ok; assumption|apply fromZigZag_zigzag].
  - intros u Hu. exists (fromZigZag u). split; [apply fromZigZag_range; assumption|].
    intros s. rewrite makeZigZag_ok; [|assumption|apply fromZigZag_range; assumption].
    rewrite fromZigZag_inv by lia. reflexivity.
  - intros z Hz s. apply makeZigZag_bad, Hz.
Qed.

(** Varints: any natural number is written, in as few 7-bit groups as possible,
    at most ten for 64 bits; reading gives it back. *)
Theorem C42_varint_written : forall X n (s : st X), 0 <= n ->
  exists bs, writeVarint n s = (Ok tt, mkst (px s) (inp s) (out s ++ bs) (depth s))
    /\ n < 128 ^ Z.of_nat (length bs)
    /\ ((1 < length bs)%nat -> 128 ^ (Z.of_nat (length bs) - 1) <= n)
    /\ (1 <= length bs)%nat.
Proof. exact writeVarint_any. Qed.

Theorem C42_varint_round_trip : forall X n (s : st X), 0 <= n < 2 ^ 70 ->
  exists bs, writeVarint n s = (Ok tt, mkst (px s) (inp s) (out s ++ bs) (depth s))
    /\ (length bs <= 10)%nat
    /\ forall (x : X) tail o d,
         readVarint (mkst x (bs ++ tail) o d) = (Ok n, mkst x tail o d).
Proof.
  intros X n s Hn. exists (varint n). split; [apply writeVarint_ok, Hn|].
  split; [apply (uleb_length_min 10 n Hn ltac:(lia))|].
  intros x tail o d. apply readVarint_ok, Hn.
Qed.

Theorem C42_varint_negative : forall X n (s : st X), n < 0 ->
  writeVarint n s = (Raise EAssertion, s).
Proof. exact writeVarint_neg. Qed.

Theorem C42_varint_too_long : forall X bs (x : X) tail o d, length bs = 10%nat ->
  Forall (fun b => 128 <= b2z b) bs ->
  readVarint (mkst x (bs ++ tail) o d)
  = (Raise (EProtocol TP_INVALID_DATA), mkst x tail o d).
Proof. exact (fun X bs x tail o d => readVarint_long X 10 bs 0 0 x tail o d). Qed.

Example C42_ex : zigzag (-3) = 5
  /\ writeVarint 300 (mkst tt [] [] 0) = (Ok tt, mkst tt [] [xac; x02] 0)
  /\ readVarint (mkst tt (repeat x80 9 ++ [x01; x07]) [] 0) = (Ok (2 ^ 63), mkst tt [x07] [] 0)
  /\ Forall (fun b => 128 <= b2z b) (repeat x80 10).
Proof.
  repeat split; try (vm_compute; reflexivity).
  repeat constructor; vm_compute; discriminate.
Qed.

(** * C43 *)

(** Every value the binary reader returns has base values in range (and, for
    strings, within the limits), at every nesting level. *)
Theorem C43_binary_in_range : forall cf env n buf v rest,
  deserialize (binary cf) tt env n buf = Ok (v, rest) ->
  decoded env (fun t v => base_ok (b_slim cf) t v = true) (fun k => k <= b_clim cf)
    (TStruct n) v.
Proof. exact binary_decoded. Qed.

(** For compact only 70 bits are guaranteed ... *)
Theorem C43_compact_70_bits_partial : forall cf x env n buf v rest,
  deserialize (compact cf) x env n buf = Ok (v, rest) ->
  decoded env (fun t v => c_base_ok (c_slim cf) t v = true) (fun k => k <= c_clim cf)
    (TStruct n) v.
Proof. exact compact_decoded. Qed.

(** ... and the declared width is not: an i32 field can come back as 2^40, and
    such an object cannot be written back. *)
Theorem C43_compact_refuted : exists buf z,
  deserialize (compact cdefault) c_init [[mkfield 1 TI32 false None]] 0 buf
  = Ok (VStruct 0 [Some (VInt z)], []) /\ ~ int_fits 32 z
  /\ serialize (compact cdefault) c_init [[mkfield 1 TI32 false None]] 0
       (VStruct 0 [Some (VInt z)]) = Raise (EProtocol TP_INVALID_DATA).
Proof.
  exists [x15; x80; x80; x80; x80; x80; x40; x00], (2 ^ 40).
  split; [vm_compute; reflexivity|]. split; [unfold int_fits; lia|].
  vm_compute. reflexivity.
Qed.

Example C43_ex : exists v, deserialize (binary bdefault) tt ex_env 0
  (sb_value ex_env (TStruct 0) ex_tree) = Ok (v, []) /\ v <> VStruct 0 [].
Proof. eexists. split; [vm_compute; reflexivity|discriminate]. Qed.

(** * C45 *)

(** A struct somewhere inside [v], or [v] itself, has an unset required
    attribute. *)
Inductive lacks (env : schema) : value -> Prop :=
| L_here m fs ds i d : nth_error env m = Some ds -> nth_error ds i = Some d ->
    f_req d = true -> nth_error fs i = Some None -> lacks env (VStruct m fs)
| L_field m fs ds i d x : nth_error env m = Some ds -> nth_error ds i = Some d ->
    nth_error fs i = Some (Some x) -> lacks env x -> lacks env (VStruct m fs)
| L_list l x : In x l -> lacks env x -> lacks env (VList l)
| L_set l x : In x l -> lacks env x -> lacks env (VSet l)
| L_key l k x : In (k, x) l -> lacks env k -> lacks env (VMap l)
| L_val l k x : In (k, x) l -> lacks env x -> lacks env (VMap l).

Lemma lacks_fits env v : lacks env v -> forall t, fits env writable_base t v = false.
Proof.
  induction 1 as [m fs ds i d Hm Hd Hr Hf|m fs ds i d x Hm Hd Hf _ IH|l x Hx _ IH
    |l x Hx _ IH|l k x Hx _ IH|l k x Hx _ IH]; intros t; destruct t; try reflexivity;
    cbn [fits].
  - rewrite Hm. clear Hm. revert fs ds Hd Hf.
    induction i as [|i IHi]; intros [|f fs] [|d0 ds] Hd Hf;
      try discriminate Hd; try discriminate Hf; cbn [nth_error] in *.
    + assert (f = None) by congruence. assert (d0 = d) by congruence. subst.
      rewrite Hr. reflexivity.
    + rewrite (IHi fs ds Hd Hf). apply andb_false_r.
  - rewrite Hm. clear Hm. revert fs ds Hd Hf.
    induction i as [|i IHi]; intros [|f fs] [|d0 ds] Hd Hf;
      try discriminate Hd; try discriminate Hf; cbn [nth_error] in *.
    + assert (f = Some x) by congruence. subst f. rewrite IH. reflexivity.
    + rewrite (IHi fs ds Hd Hf). apply andb_false_r.
  - apply not_true_is_false. rewrite forallb_forall. intros H.
    specialize (H x Hx). rewrite IH in H. discriminate.
  - apply not_true_is_false. rewrite forallb_forall. intros H.
    specialize (H x Hx). rewrite IH in H. discriminate.
  - apply not_true_is_false. rewrite forallb_forall. intros H.
    specialize (H (k, x) Hx). cbn beta iota in H. rewrite IH in H. discriminate.
  - apply not_true_is_false. rewrite forallb_forall. intros H.
    specialize (H (k, x) Hx). cbn beta iota in H. rewrite IH, andb_false_r in H. discriminate.
Qed.

(** Such an object is never written. *)
Theorem C45_binary_required : forall cf env n v bs, lacks env v ->
  serialize (binary cf) tt env n v <> Ok bs.
Proof.
  intros cf env n v bs H E. apply binary_fits in E.
  rewrite (lacks_fits env v H) in E. discriminate.
Qed.
Theorem C45_compact_required : forall cf x env n v bs, lacks env v ->
  serialize (compact cf) x env n v <> Ok bs.
Proof.
  intros cf x env n v bs H E. apply compact_fits in E.
  rewrite (lacks_fits env v H) in E. discriminate.
Qed.

(** The object whose own required attribute is unset writes nothing at all. *)
Theorem C45_write_refused : forall X (P : proto X) env n m fs ds i d s,
  nth_error env m = Some ds -> nth_error ds i = Some d -> f_req d = true ->
  nth_error fs i = Some None -> (length fs = length ds) ->
  write_struct P env n (VStruct m fs) s = (Raise (EProtocol TP_UNKNOWN), s).
Proof.
  intros X P env n m fs ds i d s Hm Hd Hr Hf Hl. unfold write_struct.
  cbn [write_value]. rewrite Hm.
  replace (validate ds fs) with false; [reflexivity|]. symmetry. clear Hm.
  revert fs ds Hl Hd Hf. induction i as [|i IH]; intros [|f fs] [|d0 ds] Hl Hd Hf;
    try discriminate Hd; try discriminate Hf; cbn [nth_error] in *.
  - assert (f = None) by congruence. assert (d0 = d) by congruence. subst.
    cbn [validate]. rewrite Hr. reflexivity.
  - cbn [validate]. cbn [length] in Hl.
    rewrite (IH fs ds) by (assumption || lia). destruct f; [reflexivity|].
    apply andb_false_r.
Qed.

(** Reading does not enforce it: the empty struct is accepted and yields an
    object that cannot be written. *)
Theorem C45_read_refuted : exists v,
  deserialize (binary bdefault) tt ex_env 0 [x00] = Ok (v, [])
  /\ lacks ex_env v
  /\ deserialize (compact cdefault) c_init ex_env 0 [x00] = Ok (v, [])
  /\ serialize (binary bdefault) tt ex_env 0 v = Raise (EProtocol TP_UNKNOWN).
Proof.
  exists (VStruct 0 [None; None; None]).
  split; [vm_compute; reflexivity|]. split; [|split; vm_compute; reflexivity].
  eapply L_here with (i := O); reflexivity.
Qed.

Example C45_ex :
  lacks ex_env
    (VStruct 0 [Some (VInt 1); Some (VList [VStruct 0 [None; None; None]]); None])
  /\ serialize (compact cdefault) c_init ex_env 0
    (VStruct 0 [Some (VInt 1); Some (VList [VStruct 0 [None; None; None]]); None])
     = Raise (EProtocol TP_UNKNOWN).
Proof.
  split; [|vm_compute; reflexivity].
  eapply L_field with (i := 1%nat); try reflexivity.
  eapply L_list; [left; reflexivity|].
  eapply L_here with (i := O); reflexivity.
Qed.

(** * C47 *)

Theorem C47_encode_decode : forall s b, utf8_encode s = Some b -> utf8_decode b = Some s.
Proof. exact utf8_decode_encode. Qed.
Theorem C47_decode_encode : forall b s, utf8_decode b = Some s -> utf8_encode s = Some b.
Proof. exact utf8_encode_decode. Qed.
(** What can be encoded: strings of scalar values, U+0000..U+D7FF and
    U+E000..U+10FFFF. *)
Theorem C47_encodable : forall s, (exists b, utf8_encode s = Some b)
  <-> Forall (fun c => 0 <= c < 55296 \/ 57344 <= c <= 1114111) s.
Proof.
  intros s. rewrite utf8_encode_scalar. split; apply Forall_impl; intros c;
    unfold scalar; lia.
Qed.
(** Hence nothing decodes to a surrogate or beyond U+10FFFF, and no string has
    two decodable forms (overlong forms are refused). *)
Theorem C47_decoded_scalar : forall b s, utf8_decode b = Some s ->
  Forall (fun c => 0 <= c < 55296 \/ 57344 <= c <= 1114111) s.
Proof.
  intros b s H. apply C47_encodable. exists b. apply utf8_encode_decode, H.
Qed.
Theorem C47_unique : forall b b' s, utf8_decode b = Some s -> utf8_decode b' = Some s ->
  b = b'.
Proof.
  intros b b' s H H'. apply utf8_encode_decode in H, H'. congruence.
Qed.

Example C47_ex : utf8_encode [104; 233; 8364; 128512]
  = Some [x68; xc3; xa9; xe2; x82; xac; xf0; x9f; x98; x80]
  /\ utf8_decode [xc0; x80] = None /\ utf8_decode [xed; xa0; x80] = None
  /\ utf8_decode [xf4; x90; x80; x80] = None /\ utf8_decode [xe0; x80; x80] = None.
Proof. repeat split; vm_compute; reflexivity. Qed.

Print Assumptions C06_binary_out_of_range.
Print Assumptions C06_binary_in_range.
Print Assumptions C06_compact_out_of_range.
Print Assumptions C06_compact_in_range.
Print Assumptions C06_binary_struct.
Print Assumptions C06_compact_struct.
Print Assumptions C07_binary_header_written.
Print Assumptions C07_binary_strict_header_read.
Print Assumptions C07_binary_old_header_read.
Print Assumptions C07_binary_strict_refuses_old.
Print Assumptions C07_binary_bad_version.
Print Assumptions C08_compact_header_written.
Print Assumptions C08_compact_header_read.
Print Assumptions C08_compact_bad_id.
Print Assumptions C08_compact_bad_version.
Print Assumptions C42_zigzag.
Print Assumptions C42_varint_written.
Print Assumptions C42_varint_round_trip.
Print Assumptions C42_varint_negative.
Print Assumptions C42_varint_too_long.
Print Assumptions C43_binary_in_range.
Print Assumptions C43_compact_70_bits_partial.
Print Assumptions C43_compact_refuted.
Print Assumptions C45_binary_required.
Print Assumptions C45_compact_required.
Print Assumptions C45_write_refused.
Print Assumptions C45_read_refuted.
Print Assumptions C47_encode_decode.
Print Assumptions C47_decode_encode.
Print Assumptions C47_encodable.
Print Assumptions C47_decoded_scalar.
Print Assumptions C47_unique.
