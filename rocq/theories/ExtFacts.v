(** Facts about the C encoder: it writes the published wire formats. *)
From Coq Require Import ZArith List Bool Lia ZifyBool ZifyNat Sorted.
From Coq Require Import Init.Byte.
From Verif Require Import Base Bytes BytesFacts Utf8 Proto Spec Laws RoundTrip
  Dynamic SpecDynamic DynamicFacts Binary BinaryLaws SpecBinary
  Compact CompactFacts CompactLaws SpecCompact WireFacts Ext.
Import ListNotations.
Open Scope Z_scope.

(** * Machine integers *)

Lemma le_bytes_mod n z : le_bytes n (z mod 256 ^ Z.of_nat n) = le_bytes n z.
Proof.
  rewrite <- le_val_le_bytes.
  pose proof (le_bytes_le_val (le_bytes n z)) as K. rewrite le_bytes_length in K. exact K.
Qed.

Lemma le_uN n z : le_bytes n (uN n z) = le_bytes n z.
Proof. unfold uN. rewrite pow2_256. apply le_bytes_mod. Qed.

Lemma be_uN n z : be_bytes n (uN n z) = be_bytes n z.
Proof. unfold be_bytes. rewrite le_uN. reflexivity. Qed.

Lemma in_memory_hton big n z : in_memory big n (hton big n z) = be_bytes n z.
Proof.
  unfold in_memory, hton. destruct big; rewrite ?be_uN, ?le_uN; [reflexivity|].
  pose proof (le_bytes_le_val (rev (le_bytes n z))) as K.
  rewrite rev_length, le_bytes_length in K. exact K.
Qed.

Lemma in_memory_htonll big z : in_memory big 8 (htonll big z) = be_bytes 8 z.
Proof.
  unfold in_memory, htonll, in_memory. destruct big; rewrite ?be_uN, ?le_uN.
  - rewrite be_val_be_bytes. pose proof (be_uN 8 z) as K. unfold uN in K.
    rewrite pow2_256 in K. exact K.
  - unfold be_val. pose proof (le_bytes_le_val (rev (le_bytes 8 z))) as K.
    rewrite rev_length, le_bytes_length in K. exact K.
Qed.

Lemma in_memory_htolell big z : in_memory big 8 (htolell big z) = le_bytes 8 z.
Proof.
  unfold in_memory, htolell, in_memory. destruct big; rewrite ?be_uN, ?le_uN.
  - unfold be_bytes. pose proof (le_bytes_le_val (rev (le_bytes 8 z))) as K.
    rewrite rev_length, le_bytes_length in K. rewrite K. apply rev_involutive.
  - rewrite le_val_le_bytes. apply le_bytes_mod.
Qed.

Lemma in_memory_1 big z : in_memory big 1 z = [z2b z].
Proof.
  unfold in_memory. destruct big; rewrite ?be_uN, ?le_uN; [apply be_bytes_1|reflexivity].
Qed.

Lemma uN_sN n z : (0 < n)%nat -> uN n (sN n z) = uN n z.
Proof.
  intros Hn. unfold sN, to_signed, uN.
  destruct (_ <? _); [apply Z.mod_mod; apply Z.pow_nonzero; lia|].
  rewrite <- Zminus_mod_idemp_r, Z_mod_same_full, Z.sub_0_r. apply Z.mod_mod.
  apply Z.pow_nonzero; lia.
Qed.

Lemma sN_id n z : (0 < n)%nat -> in_signed n z -> sN n z = z.
Proof.
  intros Hn H. unfold sN, uN. rewrite pow2_256. apply to_signed_mod; assumption.
Qed.

Lemma le_sN n z : (0 < n)%nat -> le_bytes n (sN n z) = le_bytes n z.
Proof. intros. rewrite <- (le_uN n (sN n z)), uN_sN, le_uN by assumption. reflexivity. Qed.

Lemma be_sN n z : (0 < n)%nat -> be_bytes n (sN n z) = be_bytes n z.
Proof. intros. unfold be_bytes. rewrite le_sN by assumption. reflexivity. Qed.

Lemma z2b_uN1 z : z2b (uN 1 z) = z2b z.
Proof. apply z2b_mod. Qed.

Lemma wbyte_run X z (s : st X) :
  wbyte z s = (Ok tt, mkst (px s) (inp s) (out s ++ [z2b z]) (depth s)).
Proof. unfold wbyte, twrite. rewrite z2b_uN1. reflexivity. Qed.

Lemma s32_id z : 0 <= z <= 2147483647 -> sN 4 z = z.
Proof.
  intros H. apply sN_id; [lia|]. unfold in_signed.
  change (2 ^ (8 * Z.of_nat 4 - 1)) with 2147483648. lia.
Qed.

(** * Pieces shared by both formats *)

Section Shared.
Context {X : Type}.
Variable I : cimpl X.

Lemma check32_ok len (s : st X) : 0 <= len <= 2147483647 ->
  check_ssize_t_32 len s = (Ok tt, s).
Proof.
  intros H. unfold check_ssize_t_32.
  rewrite (proj2 (Z.leb_le _ _)), (proj2 (Z.leb_le _ _)) by lia. reflexivity.
Qed.

Lemma as_int64_ok z (s : st X) :
  -9223372036854775808 <= z <= 9223372036854775807 -> as_int64 (VInt z) s = (Ok z, s).
Proof.
  intros H. unfold as_int64.
  rewrite (proj2 (Z.leb_le _ _)), (proj2 (Z.leb_le _ _)) by lia. reflexivity.
Qed.

Lemma parse_ok n lo hi z (s : st X) : (0 < n)%nat -> in_signed n z ->
  lo <= z <= hi -> -9223372036854775808 <= z <= 9223372036854775807 ->
  parse_pyint n lo hi (VInt z) s = (Ok z, s).
Proof.
  intros Hn H1 H2 H3. unfold parse_pyint, bind. rewrite as_int64_ok by assumption.
  rewrite (proj2 (Z.leb_le _ _)), (proj2 (Z.leb_le _ _)) by lia.
  rewrite sN_id by assumption. reflexivity.
Qed.

Variable env : schema.

(** The field loop without the table. *)
Fixpoint encode_direct (fs : list (option value)) (ds : list fielddef) : M X unit :=
  match fs, ds with
  | Some v :: fs', d :: ds' =>
      c_writeField I v (code (f_ty d)) (f_id d) (encodeValue I env (f_ty d) v) ;;;
      encode_direct fs' ds'
  | None :: fs', _ :: ds' => encode_direct fs' ds'
  | _, _ => ret tt
  end.

Definition slot (f : option value) : option (value * (ty -> M X unit)) :=
  match f with
  | Some x => Some (x, fun t' => encodeValue I env t' x)
  | None => None
  end.

Lemma encode_none k ws r s :
  encode_fields I ws (repeat None k ++ r) s = encode_fields I ws r s.
Proof. induction k; [reflexivity|]. cbn [repeat app encode_fields]. exact IHk. Qed.

Lemma encode_entries : forall ds fs pre pos s, length fs = length ds ->
  encode_fields I (pre ++ map slot fs) (spec_entries pos (length pre) ds) s
  = encode_direct fs ds s.
Proof.
  induction ds as [|d ds IH]; intros fs pre pos s Hl.
  - destruct fs; [reflexivity|discriminate Hl].
  - destruct fs as [|f fs]; [discriminate Hl|]. injection Hl as Hl.
    cbn [spec_entries]. rewrite encode_none. cbn [encode_fields].
    rewrite nth_error_app2, Nat.sub_diag by lia. cbn [map nth_error].
    assert (E : pre ++ slot f :: map slot fs = (pre ++ [slot f]) ++ map slot fs).
    { rewrite <- app_assoc. reflexivity. }
    rewrite E.
    assert (L : S (length pre) = length (pre ++ [slot f])).
    { rewrite app_length. cbn [length]. lia. }
    rewrite L. destruct f as [x|]; cbn [slot encode_direct]; [|apply IH; assumption].
    unfold bind. destruct (c_writeField I x _ _ _ s) as [[a|e|] s']; try reflexivity.
    apply IH. assumption.
Qed.

Lemma encode_table ds fs s : sorted_ids ds -> length fs = length ds ->
  encode_fields I (map slot fs) (thrift_spec ds) s = encode_direct fs ds s.
Proof.
  intros Hs Hl. rewrite (spec_is_entries ds Hs).
  apply (encode_entries ds fs [] 0 s Hl).
Qed.

Lemma guard_run A (m : M X A) x i o d r x' i' o' d' : d + 1 <= 64 ->
  m (mkst x i o (d + 1)) = (r, mkst x' i' o' d') ->
  recursion_guard m (mkst x i o d) = (r, mkst x' i' o' (d' - 1)).
Proof.
  intros H E. unfold recursion_guard. cbn [depth px inp out].
  assert (G : (d + 1 >? 64) = false) by lia. rewrite G.
  unfold try_finally. rewrite E. reflexivity.
Qed.
End Shared.

(** The body of [wfd] at a struct. *)
Lemma wf_fields_length env SL CL fs : forall ds,
  (fix go (fs : list (option value)) (ds : list fielddef) :=
                match fs, ds with
                | [], [] => true
                | f :: fs', d :: ds' =>
                    match f with
                    | None => negb (f_req d)
                    | Some x => wf env SL CL (f_ty d) x
                    end && go fs' ds'
                | _, _ => false
                end) fs ds = true -> length fs = length ds.
Proof.
  induction fs as [|f fs IH]; intros [|d ds] H; try discriminate H; [reflexivity|].
  cbn [length]. f_equal. apply IH. apply andb_prop in H. apply H.
Qed.

Lemma fold_max_le {A} (g : A -> nat) l k :
  (fold_right (fun x a => Nat.max (g x) a) O l <= k)%nat ->
  Forall (fun x => (g x <= k)%nat) l.
Proof.
  induction l as [|x l IH]; cbn [fold_right]; intros H; constructor; [lia|].
  apply IH. lia.
Qed.

Lemma map_depth k y (l : list (value * value)) : In (k, y) l ->
  (Nat.max (sdepth k) (sdepth y)
   <= fold_right (fun kv a => match kv with
                     | (k, x) => Nat.max (Nat.max (sdepth k) (sdepth x)) a
                     end) O l)%nat.
Proof.
  induction l as [|[k' y'] l IH]; intros H; [contradiction|]. cbn [fold_right].
  destruct H as [H|H]; [injection H as -> ->; lia|specialize (IH H); lia].
Qed.

(** * Binary *)

Section Bin.
Variable big : bool.
Variables (env : schema) (SL CL : Z).
Hypothesis HSL : SL <= 2147483647.
Hypothesis HCL : CL <= 2147483647.
Hypothesis Henv : table_schema env.
Let B := cbinary big.

Lemma eb_i16 z s : eb_writeI16 big z s
  = (Ok tt, mkst (px s) (inp s) (out s ++ int16 z) (depth s)).
Proof. unfold eb_writeI16, twrite. rewrite in_memory_hton, be2. reflexivity. Qed.
Lemma eb_i32 z s : eb_writeI32 big z s
  = (Ok tt, mkst (px s) (inp s) (out s ++ int32 z) (depth s)).
Proof. unfold eb_writeI32, twrite. rewrite in_memory_hton, be4. reflexivity. Qed.
Lemma eb_i64 z s : eb_writeI64 big z s
  = (Ok tt, mkst (px s) (inp s) (out s ++ int64 z) (depth s)).
Proof. unfold eb_writeI64, twrite. rewrite in_memory_htonll, be8. reflexivity. Qed.

Lemma eb_str b s : Z.of_nat (length b) <= 2147483647 ->
  (check_ssize_t_32 (Z.of_nat (length b)) ;;;
   c_writeString B b (sN 4 (Z.of_nat (length b)))) s
  = (Ok tt, mkst (px s) (inp s) (out s ++ sb_binary b) (depth s)).
Proof.
  intros H. unfold bind. rewrite check32_ok by lia. cbn [B c_writeString cbinary].
  unfold eb_writeString, bind. rewrite s32_id, eb_i32 by lia. unfold twrite.
  cbn [px inp out depth]. rewrite Nat2Z.id, firstn_all, <- app_assoc. reflexivity.
Qed.

Lemma eb_base t v s : base_ty t = true -> base_ok SL t v = true ->
  encode_base B t v s
  = (Ok tt, mkst (px s) (inp s) (out s ++ sb_value env t v) (depth s)).
Proof.
  destruct s as [x i o d]. intros Hb Hok.
  destruct t; try discriminate Hb; destruct v; try discriminate Hok;
    cbn [base_okd] in Hok; unfold between, len_le in Hok; cbn [encode_base sb_value].
  - cbn [truth]. cbn [B c_writeBool cbinary]. unfold eb_writeBool. rewrite wbyte_run.
    destruct b; reflexivity.
  - unfold bind. rewrite parse_ok by (unfold in_signed; cbn; lia).
    cbn [B c_writeI8 cbinary]. unfold eb_writeI8, twrite. rewrite in_memory_1. reflexivity.
  - unfold bind. rewrite parse_ok by (unfold in_signed; cbn; lia). apply eb_i16.
  - unfold bind. rewrite parse_ok by (unfold in_signed; cbn; lia). apply eb_i32.
  - unfold bind. rewrite as_int64_ok by lia. apply eb_i64.
  - cbn [B c_writeDouble cbinary]. unfold eb_writeDouble. rewrite eb_i64.
    rewrite <- !be8, be_sN by lia. reflexivity.
  - unfold sb_string. destruct (utf8_encode s) as [b|]; [|discriminate Hok].
    apply eb_str. lia.
  - apply eb_str. lia.
  - rewrite Hok. cbn [B c_writeUuid cbinary]. unfold eb_writeUuid, twrite.
    rewrite firstn_all2 by lia. reflexivity.
Qed.

(** Shape of a step that appends [bs]. *)
Definition appends {X} (m : M X unit) (d : Z) (bs : list byte) : Prop :=
  forall x i o, m (mkst x i o d) = (Ok tt, mkst x i (o ++ bs) d).

Lemma appends_bind {X} (m k : M X unit) d a b :
  appends m d a -> appends k d b -> appends (m ;;; k) d (a ++ b).
Proof. intros H1 H2 x i o. unfold bind. rewrite H1, H2, app_assoc. reflexivity. Qed.

Lemma appends_nil {X} d : appends (@ret (st X) unit tt) d [].
Proof. intros x i o. unfold ret. rewrite app_nil_r. reflexivity. Qed.

Lemma appends_eq {X} (m : M X unit) d a b : appends m d a -> a = b -> appends m d b.
Proof. intros H <-. exact H. Qed.

Lemma mapM_appends {X A} (f : A -> M X unit) (g : A -> list byte) d l :
  Forall (fun a => appends (f a) d (g a)) l ->
  appends (mapM_ f l) d (concat (map g l)).
Proof.
  induction 1 as [|a l Ha _ IH]; cbn [mapM_ map concat]; [apply appends_nil|].
  apply appends_bind; assumption.
Qed.

Lemma wbyte_appends {X} z d : appends (@wbyte X z) d [z2b z].
Proof. intros x i o. apply wbyte_run. Qed.

Lemma check_appends {X} len d : 0 <= len <= 2147483647 ->
  appends (@check_ssize_t_32 X len) d [].
Proof. intros H x i o. rewrite check32_ok by assumption. rewrite app_nil_r. reflexivity. Qed.

Lemma int8_code t : int8 (sb_type t) = [z2b (code t)].
Proof. destruct t; reflexivity. Qed.

Lemma eb_list_head et n d : 0 <= n <= 2147483647 ->
  appends (c_writeListBegin B (code et) (sN 4 n)) d (int8 (sb_type et) ++ int32 n).
Proof.
  intros H. rewrite s32_id by assumption. cbn [B c_writeListBegin cbinary].
  rewrite int8_code. apply appends_bind; [apply wbyte_appends|].
  intros x i o. apply eb_i32.
Qed.

Lemma eb_map_head kt vt n d : 0 <= n <= 2147483647 ->
  appends (c_writeMapBegin B (code kt) (code vt) (sN 4 n)) d
    (int8 (sb_type kt) ++ int8 (sb_type vt) ++ int32 n).
Proof.
  intros H. rewrite s32_id by assumption. cbn [B c_writeMapBegin cbinary].
  rewrite !int8_code.
  apply appends_bind; [apply wbyte_appends|].
  apply appends_bind; [apply wbyte_appends|].
  intros x i o. apply eb_i32.
Qed.

Lemma id_range d ds n : nth_error env n = Some ds -> In d ds -> 0 <= f_id d <= 32767.
Proof. intros E H. apply (proj2 (Henv n ds E)). exact H. Qed.

Lemma eb_value v : forall t d, wf env SL CL t v = true ->
  d + Z.of_nat (sdepth v) <= 64 ->
  appends (encodeValue B env t v) d (sb_value env t v).
Proof.
  induction v using value_rect'; intros t d Hwf Hd.
  1-6: destruct t; try discriminate Hwf;
       intros x i o; cbn [encodeValue];
       rewrite eb_base by (reflexivity || exact Hwf); reflexivity.
  - destruct t; try discriminate Hwf. cbn [wfd] in Hwf.
    apply andb_prop in Hwf as [Hl Hwf]. unfold len_le in Hl.
    cbn [encodeValue sb_value].
    change (?a ++ ?b ++ ?c) with ([] ++ (a ++ (b ++ c))).
    apply appends_bind; [apply check_appends; lia|].
    rewrite app_assoc. apply appends_bind; [apply eb_list_head; lia|].
    apply mapM_appends. cbn [sdepth] in Hd.
    rewrite Forall_forall in *. intros y Hy. rewrite forallb_forall in Hwf.
    apply H; [assumption|apply Hwf; assumption|].
    pose proof (fold_max_le sdepth l _ (Nat.le_refl _)) as F.
    rewrite Forall_forall in F. specialize (F y Hy). lia.
  - destruct t; try discriminate Hwf. cbn [wfd] in Hwf.
    apply andb_prop in Hwf as [Hwf Hf]. apply andb_prop in Hwf as [Hwf _].
    apply andb_prop in Hwf as [Hl _]. unfold len_le in Hl.
    cbn [encodeValue sb_value].
    change (?a ++ ?b ++ ?c) with ([] ++ (a ++ (b ++ c))).
    apply appends_bind; [apply check_appends; lia|].
    rewrite app_assoc. apply appends_bind; [apply eb_list_head; lia|].
    apply mapM_appends. cbn [sdepth] in Hd.
    rewrite Forall_forall in *. intros y Hy. rewrite forallb_forall in Hf.
    apply H; [assumption|apply Hf; assumption|].
    pose proof (fold_max_le sdepth l _ (Nat.le_refl _)) as F.
    rewrite Forall_forall in F. specialize (F y Hy). lia.
  - destruct t; try discriminate Hwf. cbn [wfd] in Hwf.
    apply andb_prop in Hwf as [Hwf Hf]. apply andb_prop in Hwf as [Hwf _].
    apply andb_prop in Hwf as [Hl _]. unfold len_le in Hl.
    cbn [encodeValue sb_value].
    change (?a ++ ?b ++ ?c ++ ?e) with ([] ++ (a ++ b ++ c ++ e)).
    apply appends_bind; [apply check_appends; lia|].
    match goal with |- appends _ _ (?a ++ ?b ++ ?c ++ ?e) =>
      replace (a ++ b ++ c ++ e) with ((a ++ b ++ c) ++ e)
        by (rewrite <- !app_assoc; reflexivity) end.
    apply appends_bind; [apply eb_map_head; lia|].
    apply mapM_appends. cbn [sdepth] in Hd.
    rewrite Forall_forall in *. intros [k y] Hy. rewrite forallb_forall in Hf.
    pose proof (map_depth k y l Hy) as F.
    specialize (Hf _ Hy). cbn beta iota in Hf. apply andb_prop in Hf as [Hk Hx].
    specialize (H _ Hy) as [IHk IHx]. cbn [fst snd] in *.
    assert (D : d + Z.of_nat (Nat.max (sdepth k) (sdepth y)) <= 64).
    { lia. }
    apply appends_bind; [apply IHk|apply IHx]; (assumption || lia).
  - destruct t as [| | | | | | | | | | | |m]; try discriminate Hwf. cbn [wfd] in Hwf.
    apply andb_prop in Hwf as [Hn Hwf]. apply Nat.eqb_eq in Hn. subst m.
    cbn [encodeValue sb_value]. rewrite Nat.eqb_refl. cbn [negb].
    destruct (nth_error env n) as [ds|] eqn:E; [|discriminate Hwf].
    pose proof (wf_fields_length env SL CL fs ds Hwf) as Hl.
    assert (Hs : sorted_ids ds).
    { destruct (Henv n ds E) as [S1 S2]. split; [exact S1|]. intros y Hy.
      specialize (S2 y Hy). lia. }
    assert (Hid : forall y, In y ds -> 0 <= f_id y <= 32767).
    { intros y Hy. eapply id_range; eassumption. }
    intros x i o. cbn [sdepth] in Hd.
    match type of Hd with _ + Z.of_nat (S ?m) <= _ =>
      assert (Hd' : d + 1 + Z.of_nat m <= 64) by lia end.
    match goal with |- recursion_guard ?mm _ = (_, mkst _ _ (_ ++ ?bb) _) =>
      assert (A : appends mm (d + 1) bb) end.
    2:{ rewrite (guard_run _ _ _ _ _ d _ _ _ _ _ ltac:(lia) (A x i o)).
        replace (d + 1 - 1) with d by lia. reflexivity. }
    unfold struct_scope. cbn [B c_writeStructBegin c_writeStructEnd cbinary].
    intros x0 i0 o0. unfold bind at 1. unfold ret at 1. unfold try_finally.
    match goal with |- (let (_, _) := ?mm (mkst _ _ _ _) in _) = (_, mkst _ _ (_ ++ ?bb) _) =>
      assert (A : appends mm (d + 1) bb) end.
    2:{ rewrite A. reflexivity. }
    assert (T : forall s,
      encode_fields (cbinary big) (map (slot (cbinary big) env) fs) (thrift_spec ds) s
      = encode_direct (cbinary big) env fs ds s).
    { intros s. apply encode_table; assumption. }
    intros x1 i1 o1. unfold bind. fold (slot (cbinary big) env).
    change (map _ fs) with (map (slot (cbinary big) env) fs). rewrite T.
    clear T x i o x0 i0 o0 E Hs Hd.
    revert ds Hwf Hl Hid o1. induction H as [|f fs Hf _ IH]; intros ds Hwf Hl Hid o1.
    + destruct ds; [|discriminate Hl]. cbn [encode_direct]. unfold ret.
      cbv beta iota. apply wbyte_run.
    + destruct ds as [|e ds]; [discriminate Hl|]. injection Hl as Hl.
      apply andb_prop in Hwf as [Hv Hwf].
      assert (Hid' : forall y, In y ds -> 0 <= f_id y <= 32767).
      { intros y Hy. apply Hid. right. exact Hy. }
      destruct f as [v|]; cbn [encode_direct].
      * cbn [fold_right] in Hd'.
        assert (W : appends (c_writeField (cbinary big) v (code (f_ty e)) (f_id e)
                       (encodeValue (cbinary big) env (f_ty e) v)) (d + 1)
          (int8 (sb_type (f_ty e)) ++ int16 (f_id e) ++ sb_value env (f_ty e) v)).
        { cbn [c_writeField cbinary]. unfold eb_writeField. rewrite int8_code.
          apply appends_bind; [apply wbyte_appends|].
          specialize (Hid e (or_introl eq_refl)).
          rewrite sN_id by (unfold in_signed; cbn; lia).
          apply appends_bind; [intros x i o; apply eb_i16|].
          apply Hf; [exact Hv|lia]. }
        unfold bind. rewrite W.
        specialize (IH ltac:(lia) ds Hwf Hl Hid'
          (o1 ++ int8 (sb_type (f_ty e)) ++ int16 (f_id e) ++ sb_value env (f_ty e) v)).
        unfold bind in IH. rewrite IH. rewrite <- !app_assoc. reflexivity.
      * cbn [fold_right] in Hd'. apply IH; assumption.
Qed.
End Bin.

(** * Compact *)

Lemma land_mask w n : 0 <= w -> 0 <= n < 2 ^ w ->
  Z.land n (Z.land (Z.ones w) (Z.lnot 127)) = 128 * (n / 128).
Proof.
  intros Hw Hn. rewrite Z.land_assoc, Z.land_ones, Z.mod_small by assumption.
  apply land_lnot127.
Qed.

Lemma cvarint_loop_ok w k : forall fuel n d, 0 <= w -> 0 <= n < 2 ^ w ->
  n < 128 ^ Z.of_nat k -> (k <= fuel)%nat -> (0 < k)%nat ->
  appends (cvarint_loop fuel (Z.land (Z.ones w) (Z.lnot 127)) n) d (uleb k n).
Proof.
  induction k as [|k IH]; intros fuel n d Hw Hn Hk Hf H0; [lia|].
  destruct fuel as [|fuel]; [lia|]. cbn [cvarint_loop uleb].
  rewrite land_mask by assumption.
  destruct (Z.ltb_spec n 128) as [Hs|Hs].
  - rewrite Z.div_small by lia. cbv iota beta. change (128 * 0 =? 0) with true. cbv iota.
    apply wbyte_appends.
  - assert (Hq : 1 <= n / 128) by (apply Z.div_le_lower_bound; lia).
    assert (E : (128 * (n / 128) =? 0) = false) by lia. rewrite E.
    change (?a :: ?b) with ([a] ++ b).
    apply appends_bind.
    + rewrite land127, lor_128 by (pose proof (Z.mod_pos_bound n 128); lia).
      rewrite Z.mod_mod by lia. apply wbyte_appends.
    + rewrite shiftr_div by lia. change (2 ^ 7) with 128.
      assert (Hk' : n / 128 < 128 ^ Z.of_nat k).
      { apply Z.div_lt_upper_bound; [lia|].
        replace (128 * 128 ^ Z.of_nat k) with (128 ^ Z.of_nat (S k)); [exact Hk|].
        rewrite Nat2Z.inj_succ, Z.pow_succ_r by lia. reflexivity. }
      destruct k as [|k].
      { change (128 ^ Z.of_nat 0) with 1 in Hk'. lia. }
      apply IH; try lia.
Qed.

Lemma writeVarint32_ok z d : 0 <= z < 2 ^ 32 -> appends (writeVarint32 z) d (varint z).
Proof.
  intros H. unfold writeVarint32, varint.
  replace (uN 4 z) with z by (unfold uN; symmetry; apply Z.mod_small; exact H).
  assert (P : z < 128 ^ Z.of_nat 10).
  { apply Z.lt_le_trans with (2 ^ 32); [apply H|]. vm_compute. discriminate. }
  apply (cvarint_loop_ok 32 10 64 z d); (exact H || exact P || lia).
Qed.

Lemma writeVarint64_ok z d : 0 <= z < 2 ^ 64 -> appends (writeVarint64 z) d (varint z).
Proof.
  intros H. unfold writeVarint64, varint.
  replace (uN 8 z) with z by (unfold uN; symmetry; apply Z.mod_small; exact H).
  assert (P : z < 128 ^ Z.of_nat 10).
  { apply Z.lt_le_trans with (2 ^ 64); [apply H|]. vm_compute. discriminate. }
  apply (cvarint_loop_ok 64 10 64 z d); (exact H || exact P || lia).
Qed.

Lemma uN_lnot n z : (0 < n)%nat -> uN n (Z.lnot (sN n z)) = uN n (Z.lnot z).
Proof.
  intros Hn. unfold Z.lnot, Z.pred.
  assert (P : forall y, uN n (- y + -1) = uN n (- uN n y + -1)).
  { intros y. unfold uN. set (m := 2 ^ (8 * Z.of_nat n)).
    replace (- y + -1) with (-1 - y) by lia.
    replace (- (y mod m) + -1) with (-1 - y mod m) by lia.
    rewrite Zminus_mod_idemp_r. reflexivity. }
  rewrite P, uN_sN, <- P by assumption. reflexivity.
Qed.

Lemma zigzag_gen n w z : (0 < n)%nat -> w = 8 * Z.of_nat n ->
  - 2 ^ (w - 1) <= z < 2 ^ (w - 1) ->
  uN n (Z.lxor (Z.shiftr z (w - 1)) (sN n (Z.shiftl z 1))) = zigzag z.
Proof.
  intros Hn Ew Hz.
  assert (P : 2 ^ w = 2 * 2 ^ (w - 1)).
  { rewrite <- Z.pow_succ_r by lia. f_equal. lia. }
  rewrite Z.shiftr_div_pow2, Z.shiftl_mul_pow2 by lia. change (2 ^ 1) with 2.
  unfold zigzag. destruct (Z.leb_spec 0 z).
  - rewrite Z.div_small, Z.lxor_0_l, uN_sN by (assumption || lia). unfold uN.
    rewrite <- Ew, Z.mod_small by lia. lia.
  - assert (D : z / 2 ^ (w - 1) = -1).
    { symmetry. apply (Z.div_unique z (2 ^ (w - 1)) (-1) (z + 2 ^ (w - 1))); lia. }
    rewrite D, Z.lxor_m1_l, uN_lnot by assumption. unfold uN, Z.lnot, Z.pred.
    rewrite <- Ew, Z.mod_small by lia. lia.
Qed.

Lemma toZigZag_ok z : -2147483648 <= z <= 2147483647 -> toZigZag z = zigzag z.
Proof.
  intros H. apply (zigzag_gen 4 32 z); [lia|reflexivity|].
  change (2 ^ (32 - 1)) with 2147483648. lia.
Qed.
Lemma toZigZag64_ok z : -9223372036854775808 <= z <= 9223372036854775807 ->
  toZigZag64 z = zigzag z.
Proof.
  intros H. apply (zigzag_gen 8 64 z); [lia|reflexivity|].
  change (2 ^ (64 - 1)) with 9223372036854775808. lia.
Qed.

Lemma zigzag_pos z b : - b <= z < b -> 0 <= zigzag z < 2 * b.
Proof. unfold zigzag. intros. destruct (0 <=? z) eqn:E; lia. Qed.

Lemma ctype_code t : toCompactType (code t) = sc_type t.
Proof. destruct t; reflexivity. Qed.

Lemma sc_type_range t : 0 <= sc_type t < 16.
Proof. destruct t; cbn; lia. Qed.

Lemma lor4 a b : 0 <= b < 16 -> Z.lor (Z.shiftl a 4) b = 16 * a + b.
Proof.
  intros H. rewrite Z.lor_comm, lor_add by (change (2 ^ 4) with 16; lia).
  change (2 ^ 4) with 16. lia.
Qed.

Section Cpt.
Variable big : bool.
Variables (env : schema) (SL CL : Z).
Hypothesis HSL : SL <= 2147483647.
Hypothesis HCL : CL <= 2147483647.
Hypothesis Henv : table_schema env.
Let C := ccompact big.

Lemma ec_i32 z d : -2147483648 <= z <= 2147483647 ->
  appends (ec_writeI32 z) d (varint (zigzag z)).
Proof.
  intros H. unfold ec_writeI32. rewrite toZigZag_ok by assumption.
  apply writeVarint32_ok. pose proof (zigzag_pos z 2147483648). lia.
Qed.
Lemma ec_i64 z d : -9223372036854775808 <= z <= 9223372036854775807 ->
  appends (ec_writeI64 z) d (varint (zigzag z)).
Proof.
  intros H. unfold ec_writeI64. rewrite toZigZag64_ok by assumption.
  apply writeVarint64_ok. pose proof (zigzag_pos z 9223372036854775808). lia.
Qed.

Lemma ec_str b d : Z.of_nat (length b) <= 2147483647 ->
  appends (check_ssize_t_32 (Z.of_nat (length b)) ;;;
           c_writeString C b (sN 4 (Z.of_nat (length b)))) d (sc_binary b).
Proof.
  intros H. change (sc_binary b) with ([] ++ sc_binary b).
  apply appends_bind; [apply check_appends; lia|].
  rewrite s32_id by lia. apply appends_bind; [apply writeVarint32_ok; lia|].
  intros x i o. rewrite Nat2Z.id, firstn_all. reflexivity.
Qed.

Lemma bind_ret_run {X A} (m : M X A) (k : A -> M X unit) a d bs :
  (forall s, m s = (Ok a, s)) -> appends (k a) d bs -> appends (bind m k) d bs.
Proof. intros H K x i o. unfold bind. rewrite H. apply K. Qed.

Lemma ec_base t v d : base_ty t = true -> base_ok SL t v = true ->
  appends (encode_base C t v) d (sc_value env t v).
Proof.
  intros Hb Hok.
  destruct t; try discriminate Hb; destruct v; try discriminate Hok;
    cbn [base_okd] in Hok; unfold between, len_le in Hok; cbn [encode_base sc_value].
  - destruct b; apply wbyte_appends.
  - apply bind_ret_run with z;
      [intros; apply parse_ok; unfold in_signed; cbn; lia|].
    intros x i o. cbn [C c_writeI8 ccompact]. unfold ec_writeI8, twrite.
    rewrite in_memory_1. reflexivity.
  - apply bind_ret_run with z;
      [intros; apply parse_ok; unfold in_signed; cbn; lia|].
    apply ec_i32. lia.
  - apply bind_ret_run with z;
      [intros; apply parse_ok; unfold in_signed; cbn; lia|].
    apply ec_i32. lia.
  - apply bind_ret_run with z; [intros; apply as_int64_ok; lia|].
    apply ec_i64. lia.
  - intros x i o. cbn [C c_writeDouble ccompact]. unfold ec_writeDouble, twrite.
    rewrite in_memory_htolell, le_sN, le8 by lia. reflexivity.
  - unfold sc_string. destruct (utf8_encode s) as [b|]; [|discriminate Hok].
    apply ec_str. lia.
  - apply ec_str. lia.
  - rewrite Hok. intros x i o. cbn [C c_writeUuid ccompact]. unfold ec_writeUuid, twrite.
    rewrite firstn_all2 by lia. reflexivity.
Qed.

Lemma ec_list_head et n d : 0 <= n <= 2147483647 ->
  appends (c_writeListBegin C (code et) (sN 4 n)) d (sc_list (sc_type et) n).
Proof.
  intros H. rewrite s32_id by assumption. cbn [C c_writeListBegin ccompact].
  unfold ec_writeListBegin, sc_list. rewrite ctype_code.
  pose proof (sc_type_range et). destruct (n <=? 14) eqn:E.
  - rewrite lor4 by assumption. apply wbyte_appends.
  - change (?a :: ?b) with ([a] ++ b). apply appends_bind.
    + change 240 with (Z.shiftl 15 4) at 1. rewrite lor4 by assumption. apply wbyte_appends.
    + apply writeVarint32_ok. lia.
Qed.

Lemma ec_map_head kt vt n d : 0 <= n <= 2147483647 ->
  appends (c_writeMapBegin C (code kt) (code vt) (sN 4 n)) d
    (sc_map (sc_type kt) (sc_type vt) n).
Proof.
  intros H. rewrite s32_id by assumption. cbn [C c_writeMapBegin ccompact].
  unfold ec_writeMapBegin, sc_map. rewrite !ctype_code.
  pose proof (sc_type_range vt). destruct (n =? 0).
  - apply wbyte_appends.
  - apply appends_bind; [apply writeVarint32_ok; lia|].
    rewrite lor4 by assumption. apply wbyte_appends.
Qed.

Lemma field_head tag tc x i o d : 0 <= tag <= 32767 -> 0 <= tc < 16 ->
  doWriteFieldBegin tag tc (mkst x i o d)
  = (Ok tt, mkst (tag :: tl x) i (o ++ sc_field (hd 0 x) tag tc) d).
Proof.
  intros Ht Hc. unfold doWriteFieldBegin, bind at 1, get_px. cbn [px].
  unfold sc_field. set (prev := hd 0 x).
  assert (E : (1 <=? tag - prev) = (0 <? tag - prev)) by lia. rewrite E.
  destruct ((0 <? tag - prev) && (tag - prev <=? 15)).
  - unfold bind. rewrite lor4 by assumption. rewrite wbyte_run. reflexivity.
  - unfold bind. rewrite wbyte_run. cbn [px inp out depth].
    rewrite sN_id by (unfold in_signed; cbn; lia).
    rewrite (ec_i32 tag d) by lia. unfold set_px. cbn [px inp out depth].
    rewrite <- app_assoc. reflexivity.
Qed.

Lemma ec_value v : forall t d, wf env SL CL t v = true ->
  d + Z.of_nat (sdepth v) <= 64 ->
  appends (encodeValue C env t v) d (sc_value env t v).
Proof.
  induction v using value_rect'; intros t d Hwf Hd.
  1-6: destruct t; try discriminate Hwf; cbn [encodeValue];
       apply ec_base; (reflexivity || exact Hwf).
  - destruct t; try discriminate Hwf. cbn [wfd] in Hwf.
    apply andb_prop in Hwf as [Hl Hwf]. unfold len_le in Hl.
    cbn [encodeValue sc_value].
    change (?a ++ ?b) with ([] ++ (a ++ b)).
    apply appends_bind; [apply check_appends; lia|].
    apply appends_bind; [apply ec_list_head; lia|].
    apply mapM_appends. cbn [sdepth] in Hd.
    rewrite Forall_forall in *. intros y Hy. rewrite forallb_forall in Hwf.
    apply H; [assumption|apply Hwf; assumption|].
    pose proof (fold_max_le sdepth l _ (Nat.le_refl _)) as F.
    rewrite Forall_forall in F. specialize (F y Hy). lia.
  - destruct t; try discriminate Hwf. cbn [wfd] in Hwf.
    apply andb_prop in Hwf as [Hwf Hf]. apply andb_prop in Hwf as [Hwf _].
    apply andb_prop in Hwf as [Hl _]. unfold len_le in Hl.
    cbn [encodeValue sc_value].
    change (?a ++ ?b) with ([] ++ (a ++ b)).
    apply appends_bind; [apply check_appends; lia|].
    apply appends_bind; [apply ec_list_head; lia|].
    apply mapM_appends. cbn [sdepth] in Hd.
    rewrite Forall_forall in *. intros y Hy. rewrite forallb_forall in Hf.
    apply H; [assumption|apply Hf; assumption|].
    pose proof (fold_max_le sdepth l _ (Nat.le_refl _)) as F.
    rewrite Forall_forall in F. specialize (F y Hy). lia.
  - destruct t; try discriminate Hwf. cbn [wfd] in Hwf.
    apply andb_prop in Hwf as [Hwf Hf]. apply andb_prop in Hwf as [Hwf _].
    apply andb_prop in Hwf as [Hl _]. unfold len_le in Hl.
    cbn [encodeValue sc_value].
    change (?a ++ ?b) with ([] ++ (a ++ b)).
    apply appends_bind; [apply check_appends; lia|].
    apply appends_bind; [apply ec_map_head; lia|].
    apply mapM_appends. cbn [sdepth] in Hd.
    rewrite Forall_forall in *. intros [k y] Hy. rewrite forallb_forall in Hf.
    pose proof (map_depth k y l Hy) as F.
    specialize (Hf _ Hy). cbn beta iota in Hf. apply andb_prop in Hf as [Hk Hx].
    specialize (H _ Hy) as [IHk IHx]. cbn [fst snd] in *.
    assert (D : d + Z.of_nat (Nat.max (sdepth k) (sdepth y)) <= 64).
    { lia. }
    apply appends_bind; [apply IHk|apply IHx]; (assumption || lia).
  - destruct t as [| | | | | | | | | | | |m]; try discriminate Hwf. cbn [wfd] in Hwf.
    apply andb_prop in Hwf as [Hn Hwf]. apply Nat.eqb_eq in Hn. subst m.
    cbn [encodeValue sc_value]. rewrite Nat.eqb_refl. cbn [negb].
    destruct (nth_error env n) as [ds|] eqn:E; [|discriminate Hwf].
    pose proof (wf_fields_length env SL CL fs ds Hwf) as Hl.
    assert (Hs : sorted_ids ds).
    { destruct (Henv n ds E) as [S1 S2]. split; [exact S1|]. intros y Hy.
      specialize (S2 y Hy). lia. }
    assert (Hid : forall y, In y ds -> 0 <= f_id y <= 32767).
    { intros y Hy. apply (proj2 (Henv n ds E)). exact Hy. }
    intros x i o. cbn [sdepth] in Hd.
    match type of Hd with _ + Z.of_nat (S ?m) <= _ =>
      assert (Hd' : d + 1 + Z.of_nat m <= 64) by lia end.
    match goal with |- recursion_guard ?mm _ = (_, mkst _ _ (_ ++ ?bb) _) =>
      assert (A : appends mm (d + 1) bb) end.
    2:{ rewrite (guard_run _ _ _ _ _ d _ _ _ _ _ ltac:(lia) (A x i o)).
        replace (d + 1 - 1) with d by lia. reflexivity. }
    unfold struct_scope. cbn [C c_writeStructBegin c_writeStructEnd ccompact].
    intros x0 i0 o0. unfold ec_writeStructBegin, bind at 1 2, get_px, set_px.
    cbn [px inp out depth]. unfold try_finally.
    match goal with |- (let (_, _) := ?mm (mkst (_ :: ?r) ?i ?o ?d) in _)
                       = (_, mkst _ _ (_ ++ ?bb) _) =>
      assert (A : exists p, mm (mkst (0 :: r) i o d) = (Ok tt, mkst (p :: r) i (o ++ bb) d)) end.
    2:{ destruct A as (p & A). rewrite A. reflexivity. }
    assert (T : forall s,
      encode_fields C (map (slot C env) fs) (thrift_spec ds) s
      = encode_direct C env fs ds s).
    { intros s. apply encode_table; assumption. }
    unfold bind. change (map _ fs) with (map (slot C env) fs). rewrite T.
    clear T x i o E Hs Hd. generalize 0. intros prev.
    revert ds Hwf Hl Hid o0 prev.
    induction H as [|f fs Hf _ IH]; intros ds Hwf Hl Hid o1 prev.
    + destruct ds; [|discriminate Hl]. cbn [encode_direct]. unfold ret.
      cbv beta iota. exists prev. apply wbyte_run.
    + destruct ds as [|e ds]; [discriminate Hl|]. injection Hl as Hl.
      apply andb_prop in Hwf as [Hv Hwf].
      assert (Hid' : forall y, In y ds -> 0 <= f_id y <= 32767).
      { intros y Hy. apply Hid. right. exact Hy. }
      destruct f as [v|]; cbn [encode_direct].
      * cbn [fold_right] in Hd'.
        specialize (Hid e (or_introl eq_refl)).
        set (hd := match f_ty e, v with
                   | TBool, VBool b => sc_field prev (f_id e) (if b then 1 else 2)
                   | t', _ => sc_field prev (f_id e) (sc_type t') ++ sc_value env t' v
                   end).
        assert (W : c_writeField C v (code (f_ty e)) (f_id e)
                       (encodeValue C env (f_ty e) v) (mkst (prev :: x0) i0 o1 (d + 1))
                    = (Ok tt, mkst (f_id e :: x0) i0 (o1 ++ hd) (d + 1))).
        { cbn [C c_writeField ccompact]. unfold ec_writeField.
          assert (D : (exists b, f_ty e = TBool /\ v = VBool b)
                      \/ ((code (f_ty e) =? T_BOOL) = false
                          /\ hd = sc_field prev (f_id e) (sc_type (f_ty e))
                                  ++ sc_value env (f_ty e) v)).
          { unfold hd. destruct (f_ty e); try (right; split; reflexivity).
            destruct v; try discriminate Hv. left. eauto. }
          destruct D as [(b & Et & ->)|(D & Eh)].
          - unfold hd. rewrite Et. cbn [code truth]. change (T_BOOL =? T_BOOL) with true.
            cbv iota. apply field_head; [assumption|destruct b; lia].
          - rewrite D, Eh. unfold bind. rewrite ctype_code.
            rewrite field_head by (assumption || apply sc_type_range).
            rewrite (Hf (f_ty e) (d + 1) Hv ltac:(lia)).
            rewrite <- app_assoc. reflexivity. }
        unfold bind. rewrite W.
        destruct (IH ltac:(lia) ds Hwf Hl Hid' (o1 ++ hd) (f_id e)) as (p & IHp).
        exists p. unfold bind in IHp. rewrite IHp. unfold hd.
        rewrite <- !app_assoc. reflexivity.
      * cbn [fold_right] in Hd'. apply IH; assumption.
Qed.
End Cpt.

(** * Objects nested too deep *)

Section Deep.
Context {X : Type}.
Variable I : cimpl X.
Variables (env : schema) (SL CL : Z).

(** Succeeds from every state at depth [d]; stops at the depth limit. *)
Definition passes (m : M X unit) (d : Z) : Prop :=
  forall x i o, exists x' i' o', m (mkst x i o d) = (Ok tt, mkst x' i' o' d).
Definition stops {A} (m : M X A) (d : Z) : Prop :=
  forall x i o, exists s', m (mkst x i o d) = (Raise (EProtocol TP_DEPTH_LIMIT), s').

Hypothesis HCL : CL <= 2147483647.
Hypothesis Henv : table_schema env.
Hypothesis Hval : forall v t d, wf env SL CL t v = true ->
  d + Z.of_nat (sdepth v) <= 64 -> passes (encodeValue I env t v) d.
Hypothesis Hlist : forall et n d, 0 <= n <= 2147483647 ->
  passes (c_writeListBegin I (code et) (sN 4 n)) d.
Hypothesis Hmap : forall kt vt n d, 0 <= n <= 2147483647 ->
  passes (c_writeMapBegin I (code kt) (code vt) (sN 4 n)) d.
Hypothesis Hbeg : forall d, passes (c_writeStructBegin I) d.
Hypothesis Hfield : forall v t id m d, wf env SL CL t v = true -> 0 <= id <= 32767 ->
  passes m d -> passes (c_writeField I v (code t) id m) d.
Hypothesis Hfield_s : forall v t id m d, t <> TBool -> 0 <= id <= 32767 ->
  stops m d -> stops (c_writeField I v (code t) id m) d.

Lemma passes_stops (m k : M X unit) d : passes m d -> stops k d -> stops (m ;;; k) d.
Proof.
  intros H1 H2 x i o. unfold bind. destruct (H1 x i o) as (x' & i' & o' & ->). apply H2.
Qed.

Lemma stops_bind {A} (m : M X A) (k : A -> M X unit) d : stops m d -> stops (bind m k) d.
Proof. intros H x i o. unfold bind. destruct (H x i o) as (s' & ->). eauto. Qed.

Lemma check_passes len d : 0 <= len <= 2147483647 -> passes (check_ssize_t_32 len) d.
Proof. intros H x i o. rewrite check32_ok by assumption. eauto. Qed.

Lemma mapM_stops {A} (f : A -> M X unit) (p : A -> bool) d l :
  Forall (fun a => if p a then stops (f a) d else passes (f a) d) l ->
  existsb p l = true -> stops (mapM_ f l) d.
Proof.
  induction 1 as [|a l Ha _ IH]; cbn [existsb mapM_]; intros E; [discriminate E|].
  destruct (p a); [apply stops_bind; exact Ha|]. apply passes_stops; [exact Ha|].
  apply IH. exact E.
Qed.

Lemma deep_elem {A} (g : A -> nat) l k :
  (k < fold_right (fun x a => Nat.max (g x) a) O l)%nat ->
  existsb (fun a => (k <? g a)%nat) l = true.
Proof.
  induction l as [|x l IH]; cbn [fold_right existsb]; intros H; [lia|].
  destruct (Nat.ltb_spec k (g x)); [reflexivity|]. apply IH. lia.
Qed.

Definition pair_depth (kv : value * value) : nat :=
  Nat.max (sdepth (fst kv)) (sdepth (snd kv)).

Lemma fold_pairs l :
  fold_right (fun kv a => match kv with
     | (k, x) => Nat.max (Nat.max (sdepth k) (sdepth x)) a end) O l
  = fold_right (fun x a => Nat.max (pair_depth x) a) O l.
Proof. induction l as [|[k x] l IH]; [reflexivity|]. cbn [fold_right]. rewrite IH. reflexivity. Qed.

Lemma encode_deep v : forall t d, wf env SL CL t v = true -> 0 <= d <= 64 ->
  64 < d + Z.of_nat (sdepth v) -> stops (encodeValue I env t v) d.
Proof.
  induction v using value_rect'; intros t d Hwf Hd0 Hd.
  1-6: cbn [sdepth] in Hd; lia.
  - destruct t; try discriminate Hwf. cbn [wfd] in Hwf.
    apply andb_prop in Hwf as [Hl Hwf]. unfold len_le in Hl. cbn [encodeValue].
    apply passes_stops; [apply check_passes; lia|].
    apply passes_stops; [apply Hlist; lia|]. cbn [sdepth] in Hd.
    apply mapM_stops with (p := fun v => (Z.to_nat (64 - d) <? sdepth v)%nat).
    + rewrite Forall_forall in *. intros y Hy. rewrite forallb_forall in Hwf.
      destruct (Nat.ltb_spec (Z.to_nat (64 - d)) (sdepth y)).
      * apply H; [assumption|apply Hwf; assumption|lia|lia].
      * apply Hval; [apply Hwf; assumption|lia].
    + apply deep_elem. lia.
  - destruct t; try discriminate Hwf. cbn [wfd] in Hwf.
    apply andb_prop in Hwf as [Hwf Hf]. apply andb_prop in Hwf as [Hwf _].
    apply andb_prop in Hwf as [Hl _]. unfold len_le in Hl. cbn [encodeValue].
    apply passes_stops; [apply check_passes; lia|].
    apply passes_stops; [apply Hlist; lia|]. cbn [sdepth] in Hd.
    apply mapM_stops with (p := fun v => (Z.to_nat (64 - d) <? sdepth v)%nat).
    + rewrite Forall_forall in *. intros y Hy. rewrite forallb_forall in Hf.
      destruct (Nat.ltb_spec (Z.to_nat (64 - d)) (sdepth y)).
      * apply H; [assumption|apply Hf; assumption|lia|lia].
      * apply Hval; [apply Hf; assumption|lia].
    + apply deep_elem. lia.
  - destruct t; try discriminate Hwf. cbn [wfd] in Hwf.
    apply andb_prop in Hwf as [Hwf Hf]. apply andb_prop in Hwf as [Hwf _].
    apply andb_prop in Hwf as [Hl _]. unfold len_le in Hl. cbn [encodeValue].
    apply passes_stops; [apply check_passes; lia|].
    apply passes_stops; [apply Hmap; lia|]. cbn [sdepth] in Hd. rewrite fold_pairs in Hd.
    apply mapM_stops with (p := fun kv => (Z.to_nat (64 - d) <? pair_depth kv)%nat).
    + rewrite Forall_forall in *. intros [k y] Hy. rewrite forallb_forall in Hf.
      specialize (Hf _ Hy). cbn beta iota in Hf. apply andb_prop in Hf as [Hk Hx].
      specialize (H _ Hy) as [IHk IHx]. unfold pair_depth. cbn [fst snd] in *.
      destruct (Nat.ltb_spec (Z.to_nat (64 - d)) (sdepth k)).
      { assert (E : (Z.to_nat (64 - d) <? Nat.max (sdepth k) (sdepth y))%nat = true) by lia.
        rewrite E. apply stops_bind. apply IHk; (assumption || lia). }
      destruct (Nat.ltb_spec (Z.to_nat (64 - d)) (sdepth y)).
      { assert (E : (Z.to_nat (64 - d) <? Nat.max (sdepth k) (sdepth y))%nat = true) by lia.
        rewrite E. apply passes_stops; [apply Hval; (assumption || lia)|].
        apply IHx; (assumption || lia). }
      assert (E : (Z.to_nat (64 - d) <? Nat.max (sdepth k) (sdepth y))%nat = false) by lia.
      rewrite E. intros x i o. unfold bind.
      destruct (Hval k t1 d Hk ltac:(lia) x i o) as (x' & i' & o' & ->).
      apply Hval; (assumption || lia).
    + apply deep_elem. lia.
  - destruct t as [| | | | | | | | | | | |m]; try discriminate Hwf. cbn [wfd] in Hwf.
    apply andb_prop in Hwf as [Hn Hwf]. apply Nat.eqb_eq in Hn. subst m.
    cbn [encodeValue]. rewrite Nat.eqb_refl. cbn [negb].
    destruct (nth_error env n) as [ds|] eqn:E; [|discriminate Hwf].
    pose proof (wf_fields_length env SL CL fs ds Hwf) as Hl.
    assert (Hs : sorted_ids ds).
    { destruct (Henv n ds E) as [S1 S2]. split; [exact S1|]. intros y Hy.
      specialize (S2 y Hy). lia. }
    assert (Hid : forall y, In y ds -> 0 <= f_id y <= 32767).
    { intros y Hy. apply (proj2 (Henv n ds E)). exact Hy. }
    intros x i o. unfold recursion_guard. cbn [depth px inp out].
    destruct (Z.gtb_spec (d + 1) 64); [eauto|].
    cbn [sdepth] in Hd.
    match type of Hd with _ < _ + Z.of_nat (S ?m) =>
      assert (Hd' : 64 < d + 1 + Z.of_nat m) by lia end.
    unfold try_finally at 1.
    match goal with |- exists s', (let (_, _) := ?mm _ in _) = _ =>
      assert (A : stops mm (d + 1)) end.
    2:{ destruct (A x i o) as (s' & ->). eauto. }
    unfold struct_scope. apply passes_stops; [apply Hbeg|].
    intros x0 i0 o0. unfold try_finally.
    match goal with |- exists s', (let (_, _) := ?mm _ in _) = _ =>
      assert (A : stops mm (d + 1)) end.
    2:{ destruct (A x0 i0 o0) as (s' & ->). eauto. }
    apply stops_bind. intros x1 i1 o1.
    change (map _ fs) with (map (slot I env) fs).
    rewrite (encode_table I env ds fs _ Hs Hl).
    clear x i o x0 i0 o0 E Hs Hd. assert (Hd1 : 0 <= d + 1 <= 64) by lia.
    revert ds Hwf Hl Hid x1 i1 o1.
    induction H as [|f fs Hf _ IH]; intros ds Hwf Hl Hid x1 i1 o1.
    + cbn [fold_right] in Hd'. lia.
    + destruct ds as [|e ds]; [discriminate Hl|]. injection Hl as Hl.
      apply andb_prop in Hwf as [Hv Hwf].
      assert (Hid' : forall y, In y ds -> 0 <= f_id y <= 32767).
      { intros y Hy. apply Hid. right. exact Hy. }
      destruct f as [v|]; cbn [encode_direct]; cbn [fold_right] in Hd'.
      * specialize (Hid e (or_introl eq_refl)).
        destruct (Nat.ltb_spec (Z.to_nat (64 - (d + 1))) (sdepth v)).
        -- apply stops_bind. apply Hfield_s; [|assumption|apply Hf; (assumption || lia)].
           intros Et. rewrite Et in Hv. destruct v; discriminate Hv || (cbn [sdepth] in *; lia).
        -- apply passes_stops.
           ++ apply Hfield; [assumption|assumption|]. apply Hval; [assumption|lia].
           ++ intros x2 i2 o2. apply IH; (assumption || lia).
      * apply IH; assumption.
Qed.
End Deep.

Lemma appends_passes {X} (m : M X unit) d bs : appends m d bs -> passes m d.
Proof. intros H x i o. rewrite H. eauto. Qed.

Lemma passes_bind {X} (m k : M X unit) d : passes m d -> passes k d -> passes (m ;;; k) d.
Proof.
  intros H1 H2 x i o. unfold bind. destruct (H1 x i o) as (x' & i' & o' & ->). apply H2.
Qed.

Lemma eb_deep big env SL CL n v : SL <= 2147483647 -> CL <= 2147483647 ->
  table_schema env -> wf env SL CL (TStruct n) v = true -> (64 < sdepth v)%nat ->
  encode_impl (cbinary big) tt env n v = Raise (EProtocol TP_DEPTH_LIMIT).
Proof.
  intros H1 H2 He Hwf Hd. unfold encode_impl.
  destruct (encode_deep (cbinary big) env SL CL H2 He) with (v := v) (t := TStruct n)
    (d := 0) (x := tt) (i := @nil byte) (o := @nil byte) as (s' & ->); try assumption; try lia.
  - intros v0 t d Hw0 Hd0. eapply appends_passes.
    exact (eb_value big env SL CL H1 H2 He v0 t d Hw0 Hd0).
  - intros. eapply appends_passes. apply eb_list_head; assumption.
  - intros. eapply appends_passes. apply eb_map_head; assumption.
  - intros d0 x i o. do 3 eexists. reflexivity.
  - intros. cbn [c_writeField cbinary]. unfold eb_writeField.
    apply passes_bind; [eapply appends_passes; apply wbyte_appends|].
    apply passes_bind; [eapply appends_passes; intros ???; apply eb_i16|]. assumption.
  - intros. cbn [c_writeField cbinary]. unfold eb_writeField.
    apply passes_stops; [eapply appends_passes; apply wbyte_appends|].
    apply passes_stops; [eapply appends_passes; intros ???; apply eb_i16|]. assumption.
  - reflexivity.
Qed.

Lemma ec_deep big env SL CL n v : SL <= 2147483647 -> CL <= 2147483647 ->
  table_schema env -> wf env SL CL (TStruct n) v = true -> (64 < sdepth v)%nat ->
  encode_impl (ccompact big) [] env n v = Raise (EProtocol TP_DEPTH_LIMIT).
Proof.
  intros H1 H2 He Hwf Hd. unfold encode_impl.
  assert (F : forall id t d, 0 <= id <= 32767 ->
    passes (doWriteFieldBegin id (toCompactType (code t))) d).
  { intros id t d Hi x i o. rewrite ctype_code.
    rewrite field_head by (assumption || apply sc_type_range). eauto. }
  destruct (encode_deep (ccompact big) env SL CL H2 He) with (v := v) (t := TStruct n)
    (d := 0) (x := @nil Z) (i := @nil byte) (o := @nil byte) as (s' & ->);
    try assumption; try lia.
  - intros v0 t d Hw0 Hd0. eapply appends_passes.
    exact (ec_value big env SL CL H1 H2 He v0 t d Hw0 Hd0).
  - intros. eapply appends_passes. apply ec_list_head; assumption.
  - intros. eapply appends_passes. apply ec_map_head; assumption.
  - intros d0 x i o. do 3 eexists. reflexivity.
  - intros. cbn [c_writeField ccompact]. unfold ec_writeField.
    destruct (code t =? T_BOOL).
    + intros x i o. rewrite field_head by (assumption || destruct (truth v0); lia). eauto.
    + apply passes_bind; [apply F; assumption|assumption].
  - intros v0 t id m d0 Ht Hi Hm. cbn [c_writeField ccompact]. unfold ec_writeField.
    assert (E : (code t =? T_BOOL) = false) by (destruct t; reflexivity || contradiction).
    rewrite E. apply passes_stops; [apply F; assumption|assumption].
  - reflexivity.
Qed.
