(** Further statements of C28, C30, C33, C35, C36 and C57, each about a branch the
    theorems stated elsewhere do not reach. *)
From Coq Require Import String.
From Coq Require Import ZArith List Bool Lia.
From Coq Require Import Init.Byte.
From Coq Require Import ZifyBool ZifyNat ZifyN.
From Verif Require Import Base Bytes BytesFacts Utf8 Proto Spec Laws StructFacts Binary
  BinaryLaws SpecBinary Compact CompactLaws SpecCompact InstFacts JsonText JsonTextFacts
  DblNearest Json SimpleJson Ext Examples MsgLaws Rpc RpcFacts PropsRpc.
Import ListNotations.
Open Scope Z_scope.
Open Scope list_scope.

(** * C28: which processor a name finds, and the header of a reply *)

(** Registering a service again replaces its processor and touches no other. *)
Theorem C28_last_registration : forall svcs svc ms other,
  find_service svc (svcs ++ [(svc, ms)]) = Some ms
  /\ (other <> svc -> find_service other (svcs ++ [(svc, ms)]) = find_service other svcs).
Proof.
  intros svcs svc ms other. unfold find_service. rewrite rev_app_distr.
  cbn [rev app find fst snd]. split.
  - unfold name_eqb at 1. destruct (list_eq_dec Z.eq_dec svc svc); [reflexivity|congruence].
  - intros Hn. unfold name_eqb at 1. destruct (list_eq_dec Z.eq_dec other svc); [congruence|reflexivity].
Qed.

(** Through TMultiplexedProtocol a reply or an exception has the plain header. *)
Theorem C28_reply_unprefixed_binary : forall cf SL CL svc name type seqid i o d,
  b_limits cf SL CL -> strict_ok cf -> name_ok SL name -> seq_ok seqid ->
  type = REPLY \/ type = EXCEPTION ->
  writeMessageBegin (mux_protocol svc (binary cf)) name type seqid (mkst tt i o d)
  = (Ok tt, mkst tt i (o ++ sb_message (strictWrite cf) name type seqid) d).
Proof.
  intros cf SL CL svc name type seqid i o d HL Hs Hn Hq Ht.
  assert (E : writeMessageBegin (mux_protocol svc (binary cf)) name type seqid
    = writeMessageBegin (binary cf) name type seqid)
    by (destruct Ht as [-> | ->]; reflexivity).
  rewrite E.
  destruct (mw_begin (binary_mlaws cf SL CL HL Hs) name type seqid tt i o d Logic.I Hn)
    as ([] & E' & _); [destruct Ht as [-> | ->]; unfold mtype_ok, REPLY, EXCEPTION; lia
                      |exact Hq|].
  exact E'.
Qed.

Theorem C28_reply_unprefixed_compact : forall cf SL CL svc name type seqid x i o d,
  c_limits cf SL CL -> c_ready x -> name_ok SL name -> seq_ok seqid ->
  type = REPLY \/ type = EXCEPTION ->
  exists x', writeMessageBegin (mux_protocol svc (compact cf)) name type seqid (mkst x i o d)
  = (Ok tt, mkst x' i (o ++ sc_message name type seqid) d).
Proof.
  intros cf SL CL svc name type seqid x i o d HL Hx Hn Hq Ht.
  assert (E : writeMessageBegin (mux_protocol svc (compact cf)) name type seqid
    = writeMessageBegin (compact cf) name type seqid)
    by (destruct Ht as [-> | ->]; reflexivity).
  rewrite E.
  destruct (mw_begin (compact_mlaws cf SL CL HL) name type seqid x i o d Hx Hn)
    as (x' & E' & _); [destruct Ht as [-> | ->]; unfold mtype_ok, REPLY, EXCEPTION; lia
                      |exact Hq|].
  exists x'. exact E'.
Qed.

(** * C30: a reply with several fields set *)

(** A result struct with its success field set is a return, whatever else it holds. *)
Theorem C30_success_wins_binary : forall cf SL CL env m name seqid t v fs i o sent F,
  b_limits cf SL CL -> strict_ok cf ->
  schema_ok env -> schema_closed env = true -> name_ok SL name -> seq_ok seqid ->
  m_ret m = Some t ->
  sendable env SL CL (m_result m) (Some v :: fs) ->
  no_missing_default env (TStruct (m_result m)) (VStruct (m_result m) (Some v :: fs)) = true ->
  (length (sb_value env (TStruct (m_result m)) (VStruct (m_result m) (Some v :: fs))) <= F)%nat ->
  recv (binary cf) env F m
    (mkcs (mkst tt (b_msg (strictWrite cf) name REPLY seqid env (m_result m)
                      (VStruct (m_result m) (Some v :: fs)) ++ i) o 0) sent)
  = (Ok (CReturn (Some v)), mkcs (mkst tt i o 0) sent).
Proof.
  intros cf SL CL env m name seqid t v fs i o sent F HL Hs He Hc Hn Hq Hm (Hwf & Hd) Hnd HF.
  rewrite <- (b_msg_eq cf SL CL HL Hs).
  destruct (recv_reply (binary_mlaws cf SL CL HL Hs) env m name seqid env (m_result m)
    (VStruct (m_result m) (Some v :: fs)) REPLY i tt o sent F Logic.I Hn) as ([] & E & _);
    [unfold mtype_ok, REPLY; lia | exact Hq | exact He | exact Hc | exact Hwf | exact Hd
    | exact HF | split; reflexivity |].
  rewrite (with_defaults_id env _ _ SL CL Hwf Hnd) in E.
  unfold result_of in E. rewrite Hm in E. exact E.
Qed.

(** * C33: booleans given for integers *)

(** The C encoder takes True and False for 1 and 0 in every integer field. *)
Theorem C33_bool_as_int : forall X (J : cimpl X) t b s,
  In t [TByte; TI16; TI32; TI64] ->
  encode_base J t (VBool b) s = encode_base J t (VInt (if b then 1 else 0)) s.
Proof. intros X J t b s [<-|[<-|[<-|[<-|[]]]]]; destruct b; reflexivity. Qed.

(** * C35: lenient escapes *)

(** Four characters after [\u] that [int(s, 16)] takes although they are not four
    hexadecimal digits (defect): A written with spaces, a sign, a prefix or an
    underscore. *)
Theorem C35_lenient_escape_refuted : exists quads s,
  length quads = 5%nat /\ s = [65]
  /\ Forall (fun q => existsb (fun c => match hex_digit c with None => true | _ => false end) q
                      = true
      /\ readJSONString None false
           (mkst j_init (map z2b (34 :: 92 :: 117 :: q ++ [34])) [] 0)
         = (Ok s, mkst j_init [] [] 0)) quads.
Proof.
  exists [[52;49;32;32]; [32;32;52;49]; [43;48;52;49]; [48;120;52;49]; [52;95;49;32]], [65].
  split; [reflexivity|]. split; [reflexivity|].
  repeat (apply Forall_cons; [split; vm_compute; reflexivity|]). apply Forall_nil.
Qed.

(** * C36: which texts are UUIDs *)

Definition lower (c : Z) : Z := if (65 <=? c) && (c <=? 70) then c + 32 else c.

Lemma hex_digit_char c d : hex_digit c = Some d -> 0 <= d < 16 /\ hex_char d = lower c.
Proof.
  unfold hex_digit, is_digit, lower, hex_char. intros H.
  destruct ((48 <=? c) && (c <=? 57)) eqn:E1.
  { injection H as <-. destruct (c - 48 <? 10) eqn:?; destruct ((65 <=? c) && (c <=? 70)) eqn:?; lia. }
  destruct ((97 <=? c) && (c <=? 102)) eqn:E2.
  { injection H as <-. destruct (c - 87 <? 10) eqn:?; destruct ((65 <=? c) && (c <=? 70)) eqn:?; lia. }
  destruct ((65 <=? c) && (c <=? 70)) eqn:E3; [|discriminate].
  injection H as <-. destruct (c - 55 <? 10) eqn:?; lia.
Qed.

Lemma hex_bytes_exact n : forall l u, (length l <= n)%nat -> hex_bytes l = Some u ->
  hex_text u = map lower l /\ length l = (2 * length u)%nat.
Proof.
  induction n as [|n IH]; intros [|a [|b r]] u Hl H; cbn [hex_bytes] in H; try discriminate;
    try (injection H as <-; split; reflexivity); cbn [length] in Hl; try lia.
  destruct (hex_digit a) as [x|] eqn:Ea; [|discriminate].
  destruct (hex_digit b) as [y|] eqn:Eb; [|discriminate].
  destruct (hex_bytes r) as [t|] eqn:Er; [|discriminate]. injection H as <-.
  destruct (IH r t ltac:(lia) Er) as [E L].
  apply hex_digit_char in Ea as [Hx Ea]. apply hex_digit_char in Eb as [Hy Eb].
  unfold hex_text in *. cbn [flat_map map app length]. rewrite E.
  rewrite b2z_z2b, (Z.mod_small (x * 16 + y) 256) by lia.
  replace ((x * 16 + y) / 16) with x by (rewrite Z.div_add_l, (Z.div_small y) by lia; lia).
  replace ((x * 16 + y) mod 16) with y by (rewrite Z.add_comm, Z.mod_add, Z.mod_small; lia).
  rewrite Ea, Eb. split; [reflexivity|lia].
Qed.

(** A text accepted as a UUID is, hyphens dropped and letters in lower case, the 32
    digits of exactly that 16-byte value: no shorter, no longer. *)
Theorem C36_uuid_exact : forall l u, py_uuid l = Some u ->
  length u = 16%nat
  /\ map lower (filter (fun c => negb (c =? 45)) l) = hex_text u.
Proof.
  intros l u H. unfold py_uuid in H.
  destruct (Nat.eqb_spec (length (filter (fun c => negb (c =? 45)) l)) 32) as [E|_];
    [|discriminate]. destruct (hex_bytes_exact 32 _ u (Nat.eq_le_incl _ _ E) H) as [E1 E2].
  split; [lia|symmetry; exact E1].
Qed.

Example C36_uuid_exact_ex :
  py_uuid (lit "00112233-4455-6677-8899-AAbbCCddEEff")
  = Some (map z2b [0;17;34;51;68;85;102;119;136;153;170;187;204;221;238;255])
  /\ py_uuid (lit "00112233-4455-6677-8899-AAbbCCddEEff00") = None
  /\ py_uuid (lit "00112233-4455-6677-8899-AAbbCCddEE") = None.
Proof. repeat split; vm_compute; reflexivity. Qed.

(** * C57: TSimpleJSONProtocol and integer ranges *)

Definition int_bits (t : ty) : option Z :=
  match t with
  | TByte => Some 8 | TI16 => Some 16 | TI32 => Some 32 | TI64 => Some 64 | _ => None
  end.

(** An integer too large for its type is refused before anything is written; one
    that fits is written (quoted or not as the position requires). *)
Theorem C57_integer_limits : forall dtext names env t b z s, int_bits t = Some b ->
  (- 2 ^ (b - 1) <= z < 2 ^ (b - 1) ->
     ss_write dtext names env t (VInt z) s = writeJSONNumber (int_text z) s)
  /\ (~ (- 2 ^ (b - 1) <= z < 2 ^ (b - 1)) ->
     ss_write dtext names env t (VInt z) s = (Raise (EProtocol TP_INVALID_DATA), s)).
Proof.
  intros dtext names env t b z s Hb.
  assert (E : ss_write dtext names env t (VInt z)
    = (checkIntegerLimits z b ;;; writeJSONNumber (int_text z)))
    by (destruct t; try discriminate Hb; injection Hb as <-; reflexivity).
  rewrite E. unfold checkIntegerLimits, bind. set (p := 2 ^ (b - 1)).
  split; intros H.
  - replace ((z <? - p) || (p - 1 <? z)) with false by lia. reflexivity.
  - replace ((z <? - p) || (p - 1 <? z)) with true by lia. reflexivity.
Qed.

Example C57_integer_limits_ex :
  ss_write (fun _ => []) (fun _ _ => []) [] TByte (VInt (-128)) (mkst j_init [] [] 0)
  = (Ok tt, mkst j_init [] (map z2b (lit "-128")) 0)
  /\ ss_write (fun _ => []) (fun _ _ => []) [] TByte (VInt 128) (mkst j_init [] [] 0)
     = (Raise (EProtocol TP_INVALID_DATA), mkst j_init [] [] 0).
Proof. split; vm_compute; reflexivity. Qed.

(** * C03: the double made of a decimal number *)

(** [float(text)] rounds the number [n/d] in the text to a double [a] such that no
    double is nearer, and of two equally near ones takes the even one.  [dval a] is the
    value of [a] times [2^1074], an integer for every double. *)
Theorem C03_nearest_double : forall n d b, 0 < n -> 0 < d ->
  let a := dbl_round n d in a < DBL_INF -> 0 <= b < DBL_INF ->
  Z.abs (n * 2 ^ 1074 - d * dval a) <= Z.abs (n * 2 ^ 1074 - d * dval b)
  /\ (Z.abs (n * 2 ^ 1074 - d * dval a) = Z.abs (n * 2 ^ 1074 - d * dval b) ->
      b = a \/ Z.even a = true).
Proof. intros n d b Hn Hd a Ha [Hb _]. exact (dbl_round_nearest n d b Hn Hd Ha Hb). Qed.

(** [dval] on a few doubles: the least one, one, two, and [2^53 + 2]; and the two ties
    [2^53 + 1] (down) and [2^53 + 3] (up). *)
Example C03_nearest_double_ex :
  dval 1 = 1 /\ dval 4607182418800017408 = 2 ^ 1074 /\ dval 4611686018427387904 = 2 ^ 1075
  /\ dval (dbl_round 9007199254740994 1) = 9007199254740994 * 2 ^ 1074
  /\ dbl_round 9007199254740993 1 = dbl_round 9007199254740992 1
  /\ dbl_round 9007199254740995 1 = dbl_round 9007199254740996 1.
Proof. repeat split; vm_compute; reflexivity. Qed.

(** Axioms used. *)
Print Assumptions C28_last_registration.
Print Assumptions C28_reply_unprefixed_binary.
Print Assumptions C28_reply_unprefixed_compact.
Print Assumptions C30_success_wins_binary.
Print Assumptions C33_bool_as_int.
Print Assumptions C35_lenient_escape_refuted.
Print Assumptions C36_uuid_exact.
Print Assumptions C57_integer_limits.
Print Assumptions C03_nearest_double.
