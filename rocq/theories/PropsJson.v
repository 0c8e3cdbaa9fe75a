(** C03, C09, C10, C34, C35, C36: the JSON protocol. *)
From Coq Require Import ZArith List Bool Lia.
From Coq Require Import Init.Byte.
From Verif Require Import Base Bytes BytesFacts Utf8 Utf8Facts Proto Spec Laws StructFacts
  BinaryLaws JsonText JsonTextFacts Json JsonLaws SpecJson JsonFacts JsonStr JsonSafe
  Examples.
Import ListNotations.
Open Scope Z_scope.

(** * C03 *)

Theorem C03_json_round_trip : forall lW lR SL CL env n v tail,
  schema_ok env -> schema_closed env = true -> j_limits lR SL CL ->
  wfd finite env SL CL (TStruct n) v = true -> (sdepth v <= 64)%nat ->
  exists bs, serialize (json lW) j_init env n v = Ok bs
    /\ deserialize (json lR) j_init env n (bs ++ tail)
       = Ok (with_defaults env (TStruct n) v, tail).
Proof. exact json_round_trip. Qed.

Theorem C03_json_round_trip_equal : forall lW lR SL CL env n v tail,
  schema_ok env -> schema_closed env = true -> j_limits lR SL CL ->
  wfd finite env SL CL (TStruct n) v = true -> (sdepth v <= 64)%nat ->
  no_missing_default env (TStruct n) v = true ->
  exists bs, serialize (json lW) j_init env n v = Ok bs
    /\ deserialize (json lR) j_init env n (bs ++ tail) = Ok (v, tail).
Proof.
  exact (fun lW lR SL CL env n v tail H1 H2 H3 H4 H5 H6 =>
    eq_rect _ (fun w => exists bs, serialize (json lW) j_init env n v = Ok bs
      /\ deserialize (json lR) j_init env n (bs ++ tail) = Ok (w, tail))
      (json_round_trip lW lR SL CL env n v tail H1 H2 H3 H4 H5) _
      (with_defaults_id env v (TStruct n) SL CL H4 H6)).
Qed.

(** The document written is the one the layout prescribes. *)
Theorem C03_json_document : forall limit SL CL env n v, schema_ok env ->
  CL <= 9223372036854775807 ->
  wfd finite env SL CL (TStruct n) v = true -> (sdepth v <= 64)%nat ->
  serialize (json limit) j_init env n v = Ok (sj_value env false (TStruct n) v).
Proof. exact json_serialize. Qed.

(** Writing leaves the protocol object ready for the next struct. *)
Theorem C03_json_write_reusable : forall limit SL CL env n v d x i o, schema_ok env ->
  CL <= 9223372036854775807 ->
  wfd finite env SL CL (TStruct n) v = true -> 0 <= d -> d + Z.of_nat (sdepth v) <= 64 ->
  stack x = [CBase] ->
  exists x', write_struct (json limit) env n v (mkst x i o d)
    = (Ok tt, mkst x' i (o ++ sj_value env false (TStruct n) v) d)
    /\ stack x' = [CBase].
Proof. exact json_write. Qed.

(** So does reading: two structs one after the other. *)
Theorem C03_json_read_reusable :
  forall limit SL CL envW envR R n m v tail x o d F, j_limits limit SL CL ->
  schema_ok envW -> schema_ok envR -> compat_env envW envR R -> R n m = true ->
  wfd finite envW SL CL (TStruct n) v = true -> 0 <= d -> d + Z.of_nat (sdepth v) <= 64 ->
  drop_ok envW envR (fun _ => true) SKIP_DEPTH (TStruct n) (TStruct m) v = true ->
  (length (sj_value envW false (TStruct n) v) <= F)%nat -> x = j_init ->
  read_struct (json limit) envR DFUEL F m
    (mkst x (sj_value envW false (TStruct n) v ++ tail) o d)
  = (Ok (proj envW envR (TStruct n) (TStruct m) v), mkst j_init tail o d).
Proof. exact json_read. Qed.

Example C03_ex : j_limits None 100 100
  /\ wfd finite ex_env 100 100 (TStruct 1) ex_all = true
  /\ sj_value ex_env false (TStruct 0)
       (VStruct 0 [Some (VInt 258); Some (VList []); Some (VBool true)])
     (* {"1":{"i32":258},"2":{"lst":["rec",0]},"3":{"tf":1}} *)
     = map z2b [123; 34; 49; 34; 58; 123; 34; 105; 51; 50; 34; 58; 50; 53; 56; 125; 44;
         34; 50; 34; 58; 123; 34; 108; 115; 116; 34; 58; 91; 34; 114; 101; 99; 34; 44;
         48; 93; 125; 44; 34; 51; 34; 58; 123; 34; 116; 102; 34; 58; 49; 125; 125].
Proof. split; [apply no_limits; lia|]. split; reflexivity. Qed.

(** The restriction to finite doubles is needed: infinity as the value of a field
    is written without quotes and cannot be read. *)
Theorem C03_json_infinity_refuted : exists env v,
  schema_ok env /\ schema_closed env = true /\ wf env 100 100 (TStruct 0) v = true
  /\ exists bs, serialize (json None) j_init env 0 v = Ok bs
     /\ forall w r, deserialize (json None) j_init env 0 bs <> Ok (w, r).
Proof.
  exists [[mkfield 1 TDouble false None]],
    (VStruct 0 [Some (VDouble 9218868437227405312)]).
  split; [apply schema_okb_ok; reflexivity|]. split; [reflexivity|].
  split; [reflexivity|].
  exists (map z2b [123; 34; 49; 34; 58; 123; 34; 100; 98; 108; 34; 58; 105; 110; 102;
                   125; 125]).
  split; [vm_compute; reflexivity|]. intros w r H. vm_compute in H. discriminate.
Qed.

(** * C09 *)

Theorem C09_json_schema_evolution : forall limit SL CL envW envR R n m v tail,
  j_limits limit SL CL ->
  schema_ok envW -> schema_ok envR -> compat_env envW envR R -> R n m = true ->
  wfd finite envW SL CL (TStruct n) v = true -> (sdepth v <= 64)%nat ->
  drop_ok envW envR (fun _ => true) SKIP_DEPTH (TStruct n) (TStruct m) v = true ->
  deserialize (json limit) j_init envR m (sj_value envW false (TStruct n) v ++ tail)
  = Ok (proj envW envR (TStruct n) (TStruct m) v, tail).
Proof. exact json_deserialize. Qed.

Example C09_json_ex : compat_env ex_env ex_old ex_rel /\ ex_rel 1 1 = true
  /\ drop_ok ex_env ex_old (fun _ => true) SKIP_DEPTH (TStruct 1) (TStruct 1) ex_all
     = true.
Proof. exact (conj ex_compat (conj eq_refl eq_refl)). Qed.

(** * C10 *)

(** From any position [c] in a document; a number must be followed by a
    character that ends it. *)
Theorem C10_json_skip_exact : forall limit SL CL env t v tail c x i o d F,
  j_limits limit SL CL ->
  schema_ok env -> wfd finite env SL CL t v = true -> (vdepth v <= 64)%nat ->
  (length (sep c ++ sj_value env (esc (j_nxt c)) t v) <= F)%nat ->
  j_okT tail \/ (exists n, t = TStruct n) ->
  stack x = c -> ahead x <> Some [] ->
  (forall b b' r, ahead x <> Some (b :: b' :: r)) ->
  pending x i = sep c ++ sj_value env (esc (j_nxt c)) t v ++ tail ->
  exists x' i', skip (json limit) F SKIP_DEPTH (code t) (mkst x i o d)
    = (Ok tt, mkst x' i' o d)
    /\ stack x' = j_nxt c /\ pending x' i' = tail.
Proof. exact json_skip. Qed.

Example C10_json_ex : wfd finite ex_env 100 100 (TStruct 1) ex_all = true
  /\ (vdepth ex_all <= 64)%nat /\ j_okT [x2c]
  /\ sep [CList false; CBase] = [x2c].
Proof.
  split; [reflexivity|]. split; [vm_compute; lia|]. split; [|reflexivity].
  exists x2c, []. split; reflexivity.
Qed.

(** * C35 *)

Theorem C35_string_round_trip : forall limit s b c x x2 i o d tail o2 d2,
  utf8_encode s = Some b -> lim_ok limit (2 * Z.of_nat (length b)) ->
  stack x = c -> stack x2 = c -> ahead x2 = None ->
  exists x' x2' bs,
    writeJSONString s (mkst x i o d) = (Ok tt, mkst x' i (o ++ bs) d)
    /\ stack x' = j_nxt c
    /\ readJSONString limit false (mkst x2 (bs ++ tail) o2 d2)
       = (Ok s, mkst x2' tail o2 d2)
    /\ stack x2' = j_nxt c /\ ahead x2' = None.
Proof.
  intros limit s b c x x2 i o d tail o2 d2 Hb Hl Hs Hs2 Ha2.
  destruct (write_string_text s b c x i o d Hb Hs) as (x' & t & _ & E & Hx').
  destruct (string_round_trip limit s b c x x2 i o d tail (sep c ++ t ++ tail) o2 d2
    Hb Hl Hs Hs2 Ha2) as (x1 & x2' & bs & E1 & H1 & H2).
  rewrite E in E1. injection E1 as E1 E2. apply app_inv_head in E2.
  destruct (H2 ltac:(rewrite <- E2, <- app_assoc; reflexivity)) as (H3 & H4 & H5).
  exists x', x2', bs. subst bs. split; [exact E|]. split; [exact Hx'|].
  split; [rewrite <- app_assoc; exact H3|]. auto.
Qed.

(** The text written, for a string without raw control characters, is a JSON
    string denoting [s] (RFC 8259). *)
Theorem C35_string_text_valid : forall s b c x i o d,
  utf8_encode s = Some b -> stack x = c ->
  forallb (fun c => negb (raw_control c)) s = true ->
  exists x' u t, json_string u s /\ utf8_encode u = Some t
    /\ writeJSONString s (mkst x i o d) = (Ok tt, mkst x' i (o ++ sep c ++ t) d).
Proof.
  intros s b c x i o d Hb Hs Hr.
  destruct (write_string_text s b c x i o d Hb Hs) as (x' & t & Ht & E & _).
  exists x', (34 :: escape s ++ [34]), t. split; [|auto].
  exists (escape s). split; [|reflexivity].
  apply escape_json_chars; [|exact Hr].
  apply utf8_encode_scalar. exists b. exact Hb.
Qed.

(** With one it is not a JSON string at all (defect). *)
Theorem C35_control_text_fails : forall s b c ch x i o d,
  utf8_encode s = Some b -> stack x = c -> In ch s -> raw_control ch = true ->
  exists x' u t, utf8_encode u = Some t
    /\ writeJSONString s (mkst x i o d) = (Ok tt, mkst x' i (o ++ sep c ++ t) d)
    /\ forall s', ~ json_string u s'.
Proof.
  intros s b c ch x i o d Hb Hs Hin Hr.
  destruct (write_string_text s b c x i o d Hb Hs) as (x' & t & Ht & E & _).
  exists x', (34 :: escape s ++ [34]), t. split; [exact Ht|]. split; [exact E|].
  intros s'. exact (raw_control_not_json ch s s' Hin Hr).
Qed.

(** The reader takes every JSON string, with any choice of escapes. *)
Theorem C35_reader_complete : forall limit u s b c x tail o d,
  json_string u s -> utf8_encode u = Some b -> lim_ok limit (Z.of_nat (length b)) ->
  stack x = c -> ahead x = None ->
  exists x', readJSONString limit false (mkst x (sep c ++ b ++ tail) o d)
    = (Ok s, mkst x' tail o d) /\ stack x' = j_nxt c /\ ahead x' = None.
Proof.
  intros limit u s b c x tail o d (w & Hw & ->) Hb Hl Hs Ha.
  destruct (json_chars_encodes 32 w s Hw) as [bw Hbw].
  assert (E : utf8_encode ([34] ++ w ++ [34]) = Some (quoted bw)).
  { apply (utf8_encode_app [34] _ [x22] (bw ++ [x22])); [reflexivity|]. apply utf8_encode_app; [exact Hbw|reflexivity]. }
  cbn [app] in E. rewrite Hb in E. apply some_inj in E. subst b.
  apply (read_json_string limit 32 w s bw c x _ tail o d Hw Hbw); auto.
  unfold lim_ok in *. destruct limit; [|exact I].
  unfold quoted in Hl. cbn [length] in Hl. rewrite app_length in Hl. lia.
Qed.

(** A string with quotes, a line feed, a letter and an emoji; the same one with other
    escapes. *)
Example C35_ex : let s := [34; 10; 233; 128512] in
  utf8_encode s = Some (map z2b [34; 10; 195; 169; 240; 159; 152; 128])
  /\ forallb (fun c => negb (raw_control c)) s = true
  /\ json_string [34; 92;34; 92;110; 233; 128512; 34] s
  /\ json_string [34; 92;117;48;48;50;50; 92;110; 92;117;48;48;69;57;
                  92;117;100;56;51;100; 92;117;100;101;48;48; 34] s
  /\ raw_control 1 = true.
Proof.
  split; [reflexivity|]. split; [reflexivity|]. split; [|split; [|reflexivity]].
  - exists [92;34; 92;110; 233; 128512]. split; [|reflexivity].
    apply (jcs_cons _ [92; 34]); [apply jc_esc; cbn; tauto|].
    apply (jcs_cons _ [92; 110]); [apply jc_esc; cbn; tauto|].
    apply (jcs_cons _ [233]); [apply jc_raw; [lia|lia|lia|reflexivity]|].
    apply (jcs_cons _ [128512]); [apply jc_raw; [lia|lia|lia|reflexivity]|].
    apply jcs_nil.
  - exists [92;117;48;48;50;50; 92;110; 92;117;48;48;69;57;
            92;117;100;56;51;100; 92;117;100;101;48;48]. split; [|reflexivity].
    apply (jcs_cons _ [92;117;48;48;50;50]); [apply jc_u; reflexivity|].
    apply (jcs_cons _ [92; 110]); [apply jc_esc; cbn; tauto|].
    apply (jcs_cons _ [92;117;48;48;69;57]); [apply jc_u; reflexivity|].
    apply (jcs_cons _ [92;117;100;56;51;100; 92;117;100;101;48;48]).
    + exact (jc_pair 32 100 56 51 100 100 101 48 48 55357 56832 eq_refl eq_refl
               ltac:(lia) ltac:(lia)).
    + apply jcs_nil.
Qed.

(** * C36 *)

Theorem C36_base64_round_trip : forall limit b c x x2 i o d tail o2 d2,
  lim_ok limit (2 * Z.of_nat (length b)) -> lim_ok limit 40 ->
  stack x = c -> stack x2 = c -> ahead x2 = None ->
  exists x' x2' bs,
    writeJSONBase64 b (mkst x i o d) = (Ok tt, mkst x' i (o ++ bs) d)
    /\ stack x' = j_nxt c
    /\ readJSONBase64 limit (mkst x2 (bs ++ tail) o2 d2) = (Ok b, mkst x2' tail o2 d2)
    /\ stack x2' = j_nxt c /\ ahead x2' = None.
Proof.
  intros limit b c x x2 i o d tail o2 d2 Hl Hl' Hs Hs2 Ha2.
  destruct (WJ_base64 c b x i o d Hs) as (x' & E & Hx').
  destruct (read_base64_text limit (b64encode b) b c x2 tail o2 d2) as (x2' & E2 & H1 & H2).
  - apply b64encode_plain.
  - apply pad_encode.
  - rewrite b64encode_length. unfold lim_ok in *. destruct limit; [|exact I].
    Z.to_euclidean_division_equations; lia.
  - exact Hs2.
  - exact Ha2.
  - exists x', x2', (sep c ++ quoted (map z2b (b64encode b))).
    split; [exact E|]. split; [exact Hx'|]. rewrite <- app_assoc. auto.
Qed.

(** With the padding removed. *)
Theorem C36_base64_unpadded : forall limit b c x tail o d,
  lim_ok limit (2 * Z.of_nat (length b)) -> lim_ok limit 40 ->
  stack x = c -> ahead x = None ->
  exists x', readJSONBase64 limit
      (mkst x (sep c ++ quoted (map z2b (unpad (b64encode b))) ++ tail) o d)
    = (Ok b, mkst x' tail o d) /\ stack x' = j_nxt c /\ ahead x' = None.
Proof.
  intros limit b c x tail o d Hl Hl' Hs Ha. apply read_base64_text; auto.
  - apply unpad_plain, b64encode_plain.
  - apply pad_unpad.
  - pose proof (unpad_length (b64encode b)). pose proof (b64encode_length b) as L.
    unfold lim_ok in *. destruct limit; [|exact I].
    Z.to_euclidean_division_equations; lia.
Qed.

Theorem C36_uuid_round_trip : forall limit u c x x2 i o d tail o2 d2,
  length u = 16%nat -> lim_ok limit 72 ->
  stack x = c -> stack x2 = c -> ahead x2 = None ->
  exists x' x2' bs,
    j_writeUuid u (mkst x i o d) = (Ok tt, mkst x' i (o ++ bs) d)
    /\ stack x' = j_nxt c
    /\ j_readUuid limit (mkst x2 (bs ++ tail) o2 d2) = (Ok u, mkst x2' tail o2 d2)
    /\ stack x2' = j_nxt c /\ ahead x2' = None.
Proof.
  intros limit u c x x2 i o d tail o2 d2 Hu Hl Hs Hs2 Ha2.
  destruct (C35_string_round_trip limit (uuid_text u) (map z2b (uuid_text u)) c x x2 i o d
    tail o2 d2) as (x' & x2' & bs & E1 & H1 & E2 & H2); auto.
  - apply utf8_encode_ascii. pose proof (uuid_text_plain u) as P.
    rewrite forallb_forall in *. intros ch Hc. specialize (P ch Hc).
    unfold plain_char in P. lia.
  - rewrite map_length, uuid_text_length by exact Hu. exact Hl.
  - exists x', x2', bs. split; [exact E1|]. split; [exact H1|].
    split; [|exact H2]. unfold j_readUuid, bind. rewrite E2, (py_uuid_text u Hu).
    reflexivity.
Qed.

(** The test vectors of RFC 4648 section 10, and a UUID. *)
Example C36_ex :
  b64encode [x66] = [90; 103; 61; 61]
  /\ b64encode [x66; x6f] = [90; 109; 56; 61]
  /\ b64encode [x66; x6f; x6f] = [90; 109; 57; 118]
  /\ b64encode [x66; x6f; x6f; x62] = [90; 109; 57; 118; 89; 103; 61; 61]
  /\ b64encode [xfb; xef; xff] = [43; 43; 47; 47]
  /\ unpad (b64encode [x66]) = [90; 103]
  /\ uuid_text ex_uuid = [48;49;48;50;48;51;48;52;45;48;53;48;54;45;48;55;48;56;45;
       48;57;48;97;45;48;98;48;99;48;100;48;101;48;102;49;48].
Proof. repeat split; reflexivity. Qed.

(** * C34 *)

(** With a length limit reading a document cut short raises. *)
Theorem C34_json_truncated_limit : forall lW l SL CL env n v p q,
  schema_ok env -> schema_closed env = true -> j_limits (Some l) SL CL ->
  wfd finite env SL CL (TStruct n) v = true -> (sdepth v <= 64)%nat ->
  serialize (json lW) j_init env n v = Ok (p ++ q) -> q <> [] ->
  exists e, deserialize (json (Some l)) j_init env n p = Raise e.
Proof.
  intros lW l SL CL env n v p q H1 H2 H3 H4 H5 E Hq.
  destruct (json_round_trip lW (Some l) SL CL env n v [] H1 H2 H3 H4 H5) as (bs & E1 & E2).
  assert (bs = p ++ q) by congruence. subst bs. rewrite app_nil_r in E2.
  destruct (json_deserialize_prefix (Some l) env n p q _ E2 Hq) as [H|[H _]];
    [exact H|discriminate].
Qed.

(** Without one it never succeeds; it raises or runs for ever. *)
Theorem C34_json_truncated : forall lW SL CL env n v p q,
  schema_ok env -> schema_closed env = true -> CL <= 9223372036854775807 ->
  wfd finite env SL CL (TStruct n) v = true -> (sdepth v <= 64)%nat ->
  serialize (json lW) j_init env n v = Ok (p ++ q) -> q <> [] ->
  (exists e, deserialize (json None) j_init env n p = Raise e)
  \/ deserialize (json None) j_init env n p = Diverge.
Proof.
  intros lW SL CL env n v p q H1 H2 H3 H4 H5 E Hq.
  destruct (json_round_trip lW None SL CL env n v [] H1 H2 (no_limits SL CL H3) H4 H5)
    as (bs & E1 & E2).
  assert (bs = p ++ q) by congruence. subst bs. rewrite app_nil_r in E2.
  destruct (json_deserialize_prefix None env n p q _ E2 Hq) as [H|[_ H]]; auto.
Qed.

(** Any input, not just documents that were written: what was read to its end
    cannot be cut. *)
Theorem C34_json_no_prefix : forall limit env n p q v,
  deserialize (json limit) j_init env n (p ++ q) = Ok (v, []) -> q <> [] ->
  (exists e, deserialize (json limit) j_init env n p = Raise e)
  \/ (limit = None /\ deserialize (json limit) j_init env n p = Diverge).
Proof. exact json_deserialize_prefix. Qed.

(** With a limit reading and skipping end on every input. *)
Theorem C34_json_read_terminates : forall l env n buf,
  deserialize (json (Some l)) j_init env n buf <> Diverge.
Proof. exact json_deserialize_terminates. Qed.
Theorem C34_json_skip_terminates : forall l k t x i o d, exists r s',
  r <> Diverge /\ forall F, (j_ahead x + length i < F)%nat ->
    skip (json (Some l)) F k t (mkst x i o d) = (r, s').
Proof. exact json_skip_terminates. Qed.

(** The defect: an integer in any position [c] of any document, when the input
    ends before, inside or right after its digits.  The reader runs for ever,
    or raises SIZE_LIMIT when there is a limit. *)
Theorem C34_integer_at_end_fails : forall limit digits c x i o d,
  forallb numeric digits = true -> stack x = c -> ahead x = None ->
  i = sep c ++ (if esc (j_nxt c) then [x22] else []) ++ digits ->
  exists s', readJSONInteger limit (mkst x i o d)
    = (match limit with
       | None => Diverge
       | Some _ => Raise (ETransport TT_SIZE_LIMIT)
       end, s').
Proof.
  intros limit digits c x i o d Hd Hs Ha ->. apply (integer_cut limit digits c); [exact Hd|].
  split; [exact Hs|]. rewrite Ha. reflexivity.
Qed.

(** For whole documents: every schema, every field id, every integer type, every
    beginning of the number: {"<id>":{"<type>":<digits> *)
Theorem C34_document_cut_fails : forall limit env n ds id t digits,
  nth_error env n = Some ds -> -32768 <= id <= 32767 -> int_ty t = true ->
  forallb numeric digits = true -> lim_ok limit 40 ->
  deserialize (json limit) j_init env n
    (x7b :: sj_num true (int_text id) ++ x3a :: x7b :: sj_string (sj_type t) ++ x3a
     :: digits)
  = match limit with
    | None => Diverge
    | Some _ => Raise (ETransport TT_SIZE_LIMIT)
    end.
Proof. exact struct_cut. Qed.

(** The same as a statement about a document that was written. *)
Theorem C34_truncated_refuted : exists env v p q,
  schema_ok env /\ schema_closed env = true
  /\ wfd finite env 100 100 (TStruct 0) v = true /\ (sdepth v <= 64)%nat /\ q <> []
  /\ serialize (json None) j_init env 0 v = Ok (p ++ q)
  /\ deserialize (json None) j_init env 0 p = Diverge
  /\ deserialize (json (Some 40)) j_init env 0 p = Raise (ETransport TT_SIZE_LIMIT).
Proof.
  exists [[mkfield 1 TI32 false None]], (VStruct 0 [Some (VInt 258)]).
  exists (x7b :: sj_num true (int_text 1) ++ x3a :: x7b :: sj_string (sj_type TI32) ++ x3a
          :: [x32; x35]), [x38; x7d; x7d].
  split; [apply schema_okb_ok; reflexivity|]. split; [reflexivity|].
  split; [reflexivity|]. split; [vm_compute; lia|]. split; [discriminate|].
  split; [vm_compute; reflexivity|]. split.
  - apply (struct_cut None [[mkfield 1 TI32 false None]] 0 _ 1 TI32 [x32; x35] eq_refl);
      try reflexivity; lia.
  - apply (struct_cut (Some 40) [[mkfield 1 TI32 false None]] 0 _ 1 TI32 [x32; x35] eq_refl);
      try reflexivity; try lia. cbn. lia.
Qed.

(** Axioms used. *)
Print Assumptions C03_json_round_trip.
Print Assumptions C03_json_round_trip_equal.
Print Assumptions C03_json_document.
Print Assumptions C03_json_write_reusable.
Print Assumptions C03_json_read_reusable.
Print Assumptions C03_json_infinity_refuted.
Print Assumptions C09_json_schema_evolution.
Print Assumptions C10_json_skip_exact.
Print Assumptions C35_string_round_trip.
Print Assumptions C35_string_text_valid.
Print Assumptions C35_control_text_fails.
Print Assumptions C35_reader_complete.
Print Assumptions C36_base64_round_trip.
Print Assumptions C36_base64_unpadded.
Print Assumptions C36_uuid_round_trip.
Print Assumptions C34_json_truncated_limit.
Print Assumptions C34_json_truncated.
Print Assumptions C34_json_no_prefix.
Print Assumptions C34_json_read_terminates.
Print Assumptions C34_json_skip_terminates.
Print Assumptions C34_integer_at_end_fails.
Print Assumptions C34_document_cut_fails.
Print Assumptions C34_truncated_refuted.
