(** The safety lemmas applied to the binary and compact protocols. *)
From Coq Require Import ZArith List Bool Lia ZifyBool ZifyNat.
From Coq Require Import Init.Byte.
From Verif Require Import Base Bytes BytesFacts Utf8 Utf8Facts Proto Spec Laws RoundTrip
  StructFacts Binary BinaryLaws SpecBinary Compact CompactFacts CompactLaws SpecCompact
  WireFacts InstFacts CodecFacts Closure FrameFacts TermFacts SafetyFacts PostFacts
  DeepFacts.
Import ListNotations.
Open Scope Z_scope.

(** * What the readers return *)

(** The largest size accepted: the configured limit, if any, and what the size
    field can hold. *)
Definition size_bound (limit : option Z) (m : Z) : Z :=
  match limit with Some l => Z.min l m | None => m end.

Lemma check_length_post X limit n m : n <= m ->
  post (fun _ : unit => 0 <= n <= size_bound limit m) (@check_length X limit n).
Proof.
  intros Hm s a s'. unfold check_length.
  destruct (n <? 0) eqn:E; [discriminate|].
  destruct limit as [l|]; unfold size_bound.
  - destruct (n >? l) eqn:F; [discriminate|]. intros _. lia.
  - intros _. lia.
Qed.

Lemma readAll_post X n : 0 <= n ->
  post (fun l => Z.of_nat (length l) = n) (@readAll X n).
Proof. intros H s l s' E. eapply readAll_len; eassumption. Qed.

Lemma b_int_post n : (0 < n)%nat ->
  post (in_signed n) (buff <- @readAll unit (Z.of_nat n) ;; ret (unpack_signed n buff)).
Proof. intros H s z s' E. eapply b_readInt_range; eassumption. Qed.

Lemma b_readByte_post : post (fun z => -128 <= z <= 127) b_readByte.
Proof.
  eapply post_mono; [|exact (b_int_post 1 ltac:(lia))].
  unfold in_signed. intros a H. change (2 ^ (8 * Z.of_nat 1 - 1)) with 128 in H. lia.
Qed.
Lemma b_readI16_post : post (fun z => -32768 <= z <= 32767) b_readI16.
Proof.
  eapply post_mono; [|exact (b_int_post 2 ltac:(lia))].
  unfold in_signed. intros a H. change (2 ^ (8 * Z.of_nat 2 - 1)) with 32768 in H. lia.
Qed.
Lemma b_readI32_post : post (fun z => -2147483648 <= z <= 2147483647) b_readI32.
Proof.
  eapply post_mono; [|exact (b_int_post 4 ltac:(lia))].
  unfold in_signed. intros a H. change (2 ^ (8 * Z.of_nat 4 - 1)) with 2147483648 in H. lia.
Qed.
Lemma b_readI64_post :
  post (fun z => -9223372036854775808 <= z <= 9223372036854775807) b_readI64.
Proof.
  eapply post_mono; [|exact (b_int_post 8 ltac:(lia))].
  unfold in_signed. intros a H.
  change (2 ^ (8 * Z.of_nat 8 - 1)) with 9223372036854775808 in H. lia.
Qed.

Definition b_slim (cf : bconf) : Z := size_bound (string_length_limit cf) 2147483647.
Definition b_clim (cf : bconf) : Z := size_bound (container_length_limit cf) 2147483647.

Lemma b_readBinary_post cf :
  post (fun b => Z.of_nat (length b) <= b_slim cf) (b_readBinary cf).
Proof.
  unfold b_readBinary. eapply post_bind; [apply b_readI32_post|]. cbn beta. intros n Hn.
  eapply post_bind; [apply (check_length_post _ _ n 2147483647); lia|].
  cbn beta. intros _ H. eapply post_mono; [|apply readAll_post; lia].
  cbn beta. intros l Hl. unfold b_slim. lia.
Qed.

Lemma decode_post X SL b : Z.of_nat (length b) <= SL ->
  post (fun s => base_ok SL TString (VStr s) = true) (@decode_utf8 (st X) b).
Proof.
  intros Hb s a s'. unfold decode_utf8.
  destruct (utf8_decode b) as [c|] eqn:E; [|discriminate]. unfold ret. intros H.
  assert (a = c) by congruence. subst a. cbn [base_okd].
  rewrite (utf8_encode_decode _ _ E). unfold len_le. lia.
Qed.

Lemma betw lo hi z : lo <= z <= hi -> between lo hi z = true.
Proof. unfold between. lia. Qed.

Lemma b_base_post cf t : base_ty t = true ->
  post (fun v => base_ok (b_slim cf) t v = true) (read_base (binary cf) t).
Proof.
  intros Ht. destruct t; try discriminate Ht; cbn [read_base binary readBool readByte
    readI16 readI32 readI64 readDouble readString readBinary readUuid].
  - apply post_then. intros b. apply post_ret. reflexivity.
  - eapply post_bind; [apply b_readByte_post|]. intros z Hz. apply post_ret, betw, Hz.
  - eapply post_bind; [apply b_readI16_post|]. intros z Hz. apply post_ret, betw, Hz.
  - eapply post_bind; [apply b_readI32_post|]. intros z Hz. apply post_ret, betw, Hz.
  - eapply post_bind; [apply b_readI64_post|]. intros z Hz. apply post_ret, betw, Hz.
  - eapply post_bind with (P := fun z => 0 <= z <= 18446744073709551615).
    + unfold b_readDouble. eapply post_bind; [apply readAll_post; lia|].
      cbn beta. intros l Hl. apply post_ret. pose proof (be_val_range l) as H.
      rewrite Hl in H. change (256 ^ 8) with 18446744073709551616 in H. lia.
    + intros z Hz. apply post_ret, betw, Hz.
  - eapply post_bind with (P := fun s => base_ok (b_slim cf) TString (VStr s) = true).
    + unfold b_readString. eapply post_bind; [apply b_readBinary_post|].
      intros b Hb. apply decode_post, Hb.
    + intros s Hs. apply post_ret, Hs.
  - eapply post_bind; [apply b_readBinary_post|]. intros b Hb. apply post_ret. cbn beta in Hb.
    cbn [base_okd]. unfold len_le. lia.
  - eapply post_bind; [apply (readAll_post unit 16); lia|]. cbn beta.
    intros b Hb. apply post_ret. cbn [base_okd]. lia.
Qed.

Lemma b_list_post cf : post (fun p => 0 <= snd p /\ snd p <= b_clim cf)
  (b_readListBegin cf).
Proof.
  unfold b_readListBegin. apply post_then. intros t.
  eapply post_bind; [apply b_readI32_post|]. cbn beta. intros n Hn.
  eapply post_bind; [apply (check_length_post _ _ n 2147483647); lia|].
  cbn beta. intros _ H. apply post_ret. cbn [snd]. unfold b_clim. lia.
Qed.

Lemma b_map_post cf : post (fun p => 0 <= snd p /\ snd p <= b_clim cf)
  (b_readMapBegin cf).
Proof.
  unfold b_readMapBegin. apply post_then. intros t. apply post_then. intros t'.
  eapply post_bind; [apply b_readI32_post|]. cbn beta. intros n Hn.
  eapply post_bind; [apply (check_length_post _ _ n 2147483647); lia|].
  cbn beta. intros _ H. apply post_ret. cbn [snd]. unfold b_clim. lia.
Qed.

Lemma binary_decoded cf env n buf v rest :
  deserialize (binary cf) tt env n buf = Ok (v, rest) ->
  decoded env (fun t v => base_ok (b_slim cf) t v = true) (fun k => k <= b_clim cf)
    (TStruct n) v.
Proof.
  unfold deserialize.
  destruct (read_struct (binary cf) env DFUEL (S (length buf)) n (mkst tt buf [] 0))
    as [[a|e|] s'] eqn:E; try discriminate.
  intros H. assert (a = v) by congruence. subst a.
  eapply (read_struct_post (binary cf) env _ (fun k => k <= b_clim cf)); [| | | |exact E].
  - apply b_base_post.
  - apply b_list_post.
  - apply b_list_post.
  - apply b_map_post.
Qed.

(** ** Compact *)

(** Integers that reach a caller: a byte is a byte, the others have up to 70
    bits. *)
Definition c_base_ok (SL : Z) (t : ty) (v : value) : bool :=
  match t, v with
  | TI16, VInt z | TI32, VInt z | TI64, VInt z => between (- 2 ^ 69) (2 ^ 69 - 1) z
  | _, _ => base_ok SL t v
  end.

Definition c_slim (cf : cconf) : Z := size_bound (c_string_length_limit cf) (2 ^ 70 - 1).
Definition c_clim (cf : cconf) : Z := size_bound (c_container_length_limit cf) (2 ^ 70 - 1).

Lemma readVarint_post X : post (fun n => 0 <= n < 2 ^ 70) (@readVarint X).
Proof. intros s v s' E. eapply readVarint_range, E. Qed.

Lemma c_size_post : post (fun n => 0 <= n <= 2 ^ 70 - 1) c_readSize.
Proof.
  unfold c_readSize. eapply post_bind; [apply readVarint_post|]. cbn beta. intros n Hn.
  destruct (n <? 0); [apply post_raise|apply post_ret; lia].
Qed.

Lemma c_zigzag_post : post (fun z => - 2 ^ 69 <= z <= 2 ^ 69 - 1) c_readZigZag.
Proof.
  unfold c_readZigZag. eapply post_bind; [apply readVarint_post|]. cbn beta.
  intros n Hn. apply post_ret. pose proof (fromZigZag_range 70 n ltac:(lia) Hn) as H.
  unfold in_bits in H. change (70 - 1) with 69 in H. lia.
Qed.

Lemma c_binary_post cf :
  post (fun b => Z.of_nat (length b) <= c_slim cf) (c_readBinary_ cf).
Proof.
  unfold c_readBinary_. eapply post_bind; [apply c_size_post|]. cbn beta. intros n Hn.
  eapply post_bind; [apply (check_length_post _ _ n (2 ^ 70 - 1)); lia|].
  cbn beta. intros _ H. eapply post_mono; [|apply readAll_post; lia].
  cbn beta. intros l Hl. unfold c_slim. lia.
Qed.

Lemma c_byte_post : post (fun z => -128 <= z <= 127) c_readByte_.
Proof.
  unfold c_readByte_. eapply post_bind; [apply (readAll_post cst 1); lia|]. cbn beta.
  intros l Hl. apply post_ret.
  pose proof (unpack_signed_range 1 l ltac:(lia) ltac:(lia)) as H.
  unfold in_signed in H. change (2 ^ (8 * Z.of_nat 1 - 1)) with 128 in H. lia.
Qed.

Lemma reader_post A (Q : A -> Prop) (m : MC A) : post Q m -> post Q (reader m).
Proof. intros H. apply post_seq, H. Qed.

Lemma c_base_post cf t : base_ty t = true ->
  post (fun v => c_base_ok (c_slim cf) t v = true) (read_base (compact cf) t).
Proof.
  intros Ht. destruct t; try discriminate Ht; cbn [read_base compact readBool readByte
    readI16 readI32 readI64 readDouble readString readBinary readUuid].
  - apply post_then. intros b. apply post_ret. reflexivity.
  - eapply post_bind; [apply reader_post, c_byte_post|]. intros z Hz. apply post_ret, betw, Hz.
  - eapply post_bind; [apply reader_post, c_zigzag_post|]. intros z Hz. apply post_ret, betw, Hz.
  - eapply post_bind; [apply reader_post, c_zigzag_post|]. intros z Hz. apply post_ret, betw, Hz.
  - eapply post_bind; [apply reader_post, c_zigzag_post|]. intros z Hz. apply post_ret, betw, Hz.
  - eapply post_bind with (P := fun z => 0 <= z <= 18446744073709551615).
    + unfold c_readDouble. apply reader_post.
      eapply post_bind; [apply readAll_post; lia|].
      cbn beta. intros l Hl. apply post_ret.
      pose proof (le_val_range l) as H.
      rewrite Hl in H. change (256 ^ 8) with 18446744073709551616 in H. lia.
    + intros z Hz. apply post_ret, betw, Hz.
  - eapply post_bind with (P := fun s => base_ok (c_slim cf) TString (VStr s) = true).
    + unfold c_readString. eapply post_bind; [apply reader_post, c_binary_post|].
      intros b Hb. apply decode_post, Hb.
    + intros s Hs. apply post_ret, Hs.
  - eapply post_bind; [apply reader_post, c_binary_post|]. intros b Hb. apply post_ret. cbn beta in Hb.
    cbn [base_okd c_base_ok]. unfold len_le. lia.
  - eapply post_bind; [apply reader_post, (readAll_post cst 16); lia|]. cbn beta.
    intros b Hb. apply post_ret. cbn [base_okd c_base_ok]. lia.
Qed.

Lemma c_list_post cf : post (fun p => 0 <= snd p /\ snd p <= c_clim cf)
  (c_readCollectionBegin cf).
Proof.
  unfold c_readCollectionBegin. apply post_seq.
  eapply post_bind with (P := fun z => 0 <= z <= 255).
  { unfold c_readUByte. eapply post_bind; [apply (readAll_post cst 1); lia|]. cbn beta.
    intros l Hl. apply post_ret. unfold unpack_unsigned.
    pose proof (be_val_range l) as H. rewrite Hl in H. change (256 ^ 1) with 256 in H.
    lia. }
  intros st Hst. cbv zeta. apply post_then. intros t.
  assert (Hs : 0 <= Z.shiftr st 4 <= 15).
  { rewrite Z.shiftr_div_pow2 by lia. change (2 ^ 4) with 16.
    pose proof (Z.div_le_mono st 255 16 ltac:(lia) ltac:(lia)) as H.
    change (255 / 16) with 15 in H.
    pose proof (Z.div_pos st 16 ltac:(lia) ltac:(lia)). lia. }
  eapply post_bind with (P := fun n => 0 <= n <= 2 ^ 70 - 1).
  { destruct (Z.shiftr st 4 =? 15); [apply c_size_post|apply post_ret; lia]. }
  intros n Hn.
  eapply post_bind; [apply (check_length_post _ _ n (2 ^ 70 - 1)); lia|].
  cbn beta. intros _ H. apply post_seq, post_seq, post_ret. cbn [snd]. unfold c_clim. lia.
Qed.

Lemma c_map_post cf : post (fun p => 0 <= snd p /\ snd p <= c_clim cf)
  (c_readMapBegin cf).
Proof.
  unfold c_readMapBegin. apply post_seq.
  eapply post_bind; [apply c_size_post|]. cbn beta. intros n Hn.
  eapply post_bind; [apply (check_length_post _ _ n (2 ^ 70 - 1)); lia|].
  cbn beta. intros _ H. apply post_then. intros t. apply post_then. intros t1.
  apply post_then. intros t2. apply post_seq, post_seq, post_ret.
  cbn [snd]. unfold c_clim. lia.
Qed.

Lemma compact_decoded cf x env n buf v rest :
  deserialize (compact cf) x env n buf = Ok (v, rest) ->
  decoded env (fun t v => c_base_ok (c_slim cf) t v = true) (fun k => k <= c_clim cf)
    (TStruct n) v.
Proof.
  unfold deserialize.
  destruct (read_struct (compact cf) env DFUEL (S (length buf)) n (mkst x buf [] 0))
    as [[a|e|] s'] eqn:E; try discriminate.
  intros H. assert (a = v) by congruence. subst a.
  eapply (read_struct_post (compact cf) env _ (fun k => k <= c_clim cf)); [| | | |exact E].
  - apply c_base_post.
  - apply c_list_post.
  - apply c_list_post.
  - apply c_map_post.
Qed.

(** * What the writers accept *)

(** A value of the right kind, an integer of the declared width, a string that
    has a UTF-8 form. *)
Definition writable_base (t : ty) (v : value) : bool :=
  match t, v with
  | TBool, VBool _ | TDouble, VDouble _ | TBinary, VBin _ | TUuid, VUuid _ => true
  | TByte, VInt z => between (-128) 127 z
  | TI16, VInt z => between (-32768) 32767 z
  | TI32, VInt z => between (-2147483648) 2147483647 z
  | TI64, VInt z => between (-9223372036854775808) 9223372036854775807 z
  | TString, VStr s => match utf8_encode s with Some _ => true | None => false end
  | _, _ => false
  end.

Lemma b_int_accept n z : post (fun _ : unit => in_signed n z)
  (buff <- @pack_signed (st unit) n z ;; twrite buff).
Proof.
  intros s a s' E.
  assert (D : in_signed n z \/ ~ in_signed n z) by (unfold in_signed; lia).
  destruct D as [D|D]; [exact D|]. rewrite b_write_bad in E by assumption. discriminate.
Qed.

Lemma encode_accept X A c (k : list byte -> M X A) :
  post (fun _ : A => match utf8_encode c with Some _ => true | None => false end = true)
    (b <- encode_utf8 c ;; k b).
Proof.
  intros s a s'. unfold bind, encode_utf8.
  destruct (utf8_encode c); [reflexivity|discriminate].
Qed.

Lemma b_accept cf t v : post (fun _ : unit => writable_base t v = true)
  (write_base (binary cf) t v).
Proof.
  destruct t, v; cbn [write_base]; try apply post_raise;
    try (intros s a s' _; reflexivity).
  - eapply post_mono; [|apply (b_int_accept 1)]. cbn beta; intros u H. apply betw.
    unfold in_signed in H. change (2 ^ (8 * Z.of_nat 1 - 1)) with 128 in H. lia.
  - eapply post_mono; [|apply (b_int_accept 2)]. cbn beta; intros u H. apply betw.
    unfold in_signed in H. change (2 ^ (8 * Z.of_nat 2 - 1)) with 32768 in H. lia.
  - eapply post_mono; [|apply (b_int_accept 4)]. cbn beta; intros u H. apply betw.
    unfold in_signed in H. change (2 ^ (8 * Z.of_nat 4 - 1)) with 2147483648 in H. lia.
  - eapply post_mono; [|apply (b_int_accept 8)]. cbn beta; intros u H. apply betw.
    unfold in_signed in H. change (2 ^ (8 * Z.of_nat 8 - 1)) with 9223372036854775808 in H.
    lia.
  - apply encode_accept.
Qed.

Lemma c_int_accept bits z : post (fun _ : unit => in_bits bits z)
  (writer (n <- makeZigZag z bits ;; writeVarint n)).
Proof.
  apply post_seq. intros s a s' E.
  assert (D : in_bits bits z \/ ~ in_bits bits z) by (unfold in_bits; lia).
  destruct D as [D|D]; [exact D|]. rewrite c_write_bad in E by assumption. discriminate.
Qed.

Lemma c_accept cf t v : post (fun _ : unit => writable_base t v = true)
  (write_base (compact cf) t v).
Proof.
  destruct t, v; cbn [write_base]; try apply post_raise;
    try (intros s a s' _; reflexivity).
  - apply post_seq. intros s a s' E. apply betw.
    assert (D : in_signed 1 z \/ ~ in_signed 1 z) by (unfold in_signed; lia).
    destruct D as [D|D].
    + unfold in_signed in D. change (2 ^ (8 * Z.of_nat 1 - 1)) with 128 in D. lia.
    + unfold c_writeByte_, bind in E. rewrite pack_signed_bad in E by assumption.
      discriminate.
  - eapply post_mono; [|apply (c_int_accept 16)]. cbn beta; intros u H. apply betw.
    unfold in_bits in H. change (2 ^ (16 - 1)) with 32768 in H. lia.
  - eapply post_mono; [|apply (c_int_accept 32)]. cbn beta; intros u H. apply betw.
    unfold in_bits in H. change (2 ^ (32 - 1)) with 2147483648 in H. lia.
  - eapply post_mono; [|apply (c_int_accept 64)]. cbn beta; intros u H. apply betw.
    unfold in_bits in H. change (2 ^ (64 - 1)) with 9223372036854775808 in H. lia.
  - apply encode_accept.
Qed.

Lemma serialize_fits X (P : proto X) x env n v bs :
  (forall t v, post (fun _ : unit => writable_base t v = true) (write_base P t v)) ->
  serialize P x env n v = Ok bs -> fits env writable_base (TStruct n) v = true.
Proof.
  intros HP. unfold serialize, write_struct.
  destruct (write_value P env (TStruct n) v (mkst x [] [] 0)) as [[a|e|] s'] eqn:E;
    try discriminate. intros _.
  exact (write_value_post P env writable_base HP v (TStruct n) _ _ _ E).
Qed.

Lemma binary_fits cf env n v bs : serialize (binary cf) tt env n v = Ok bs ->
  fits env writable_base (TStruct n) v = true.
Proof. apply serialize_fits, b_accept. Qed.

Lemma compact_fits cf x env n v bs : serialize (compact cf) x env n v = Ok bs ->
  fits env writable_base (TStruct n) v = true.
Proof. apply serialize_fits, c_accept. Qed.

(** * Too deep *)

Lemma serialize_deep_b cf SL CL env n v : schema_ok env ->
  SL <= 2147483647 -> CL <= 2147483647 ->
  wf env SL CL (TStruct n) v = true -> (64 < sdepth v)%nat ->
  serialize (binary cf) tt env n v = Raise (EProtocol TP_DEPTH_LIMIT).
Proof.
  intros Hok H1 H2 Hwf Hd. unfold serialize, write_struct.
  rewrite (write_value_same _ _ env v (binary_same_writers cf bdefault)).
  destruct (write_deep (binary_laws bdefault SL CL (bdefault_limits _ _ H1 H2)) env Hok v 0
    (TStruct n) tt ltac:(lia) I Hwf ltac:(lia) tt [] [] I) as (s' & ->).
  reflexivity.
Qed.

Lemma serialize_deep_c cf SL CL env n v : schema_ok env ->
  SL <= 2147483647 -> CL <= 2147483647 ->
  wf env SL CL (TStruct n) v = true -> (64 < sdepth v)%nat ->
  serialize (compact cf) c_init env n v = Raise (EProtocol TP_DEPTH_LIMIT).
Proof.
  intros Hok H1 H2 Hwf Hd. unfold serialize, write_struct.
  rewrite (write_value_same _ _ env v (compact_same_writers cf cdefault)).
  destruct (write_deep (compact_laws cdefault SL CL (cdefault_limits _ _ H1 H2)) env Hok v 0
    (TStruct n) (c_top c_init) ltac:(lia) I Hwf ltac:(lia) c_init [] []
    (ready_wrep c_init ltac:(repeat split))) as (s' & ->).
  reflexivity.
Qed.

Lemma deserialize_deep_b cf SL CL env n v tail : schema_ok env ->
  schema_closed env = true -> b_limits cf SL CL ->
  wf env SL CL (TStruct n) v = true -> (64 < sdepth v)%nat ->
  deserialize (binary cf) tt env n (sb_value env (TStruct n) v ++ tail)
  = Raise (EProtocol TP_DEPTH_LIMIT).
Proof.
  intros Hok Hcl Hl Hwf Hd. unfold deserialize.
  set (F := S (length (sb_value env (TStruct n) v ++ tail))).
  assert (HF : (length (sb_value env (TStruct n) v) <= F)%nat)
    by (unfold F; rewrite app_length; lia).
  clearbody F. rewrite <- (enc_binary_spec cf SL CL Hl) in *.
  pose proof (wf_struct_in _ _ _ _ _ Hwf) as Hn.
  destruct (read_deep (binary_laws cf SL CL Hl) env Hok Hcl F v 0 (TStruct n) tt DFUEL
    ltac:(lia) ltac:(cbn [closed_ty]; lia) I Hwf ltac:(lia) ltac:(unfold DFUEL; lia) HF
    tail tt _ [] eq_refl) as (s' & E).
  rewrite read_ty_struct in E. rewrite E. reflexivity.
Qed.

Lemma deserialize_deep_c cf SL CL env n v tail : schema_ok env ->
  schema_closed env = true -> c_limits cf SL CL ->
  wf env SL CL (TStruct n) v = true -> (64 < sdepth v)%nat ->
  deserialize (compact cf) c_init env n (sc_value env (TStruct n) v ++ tail)
  = Raise (EProtocol TP_DEPTH_LIMIT).
Proof.
  intros Hok Hcl Hl Hwf Hd. unfold deserialize.
  set (F := S (length (sc_value env (TStruct n) v ++ tail))).
  assert (HF : (length (sc_value env (TStruct n) v) <= F)%nat)
    by (unfold F; rewrite app_length; lia).
  clearbody F.
  rewrite <- (enc_compact_spec cf SL CL Hl env v (TStruct n) (c_top c_init) I) in *.
  pose proof (wf_struct_in _ _ _ _ _ Hwf) as Hn.
  destruct (read_deep (compact_laws cf SL CL Hl) env Hok Hcl F v 0 (TStruct n)
    (c_top c_init) DFUEL
    ltac:(lia) ltac:(cbn [closed_ty]; lia) I Hwf ltac:(lia) ltac:(unfold DFUEL; lia) HF
    tail c_init _ [] (ready_rrep c_init _ ltac:(repeat split))) as (s' & E).
  rewrite read_ty_struct in E. rewrite E. reflexivity.
Qed.

(** * Lengths above the limits *)

Lemma check_length_big X limit l n (s : st X) : limit = Some l -> l < n -> 0 <= n ->
  check_length limit n s = (Raise (ETransport TT_SIZE_LIMIT), s).
Proof.
  intros -> H H0. unfold check_length.
  destruct (n <? 0) eqn:E; [lia|]. destruct (n >? l) eqn:F; [reflexivity|lia].
Qed.

Lemma check_length_neg X limit n (s : st X) : n < 0 ->
  check_length limit n s = (Raise (ETransport TT_NEGATIVE_SIZE), s).
Proof. intros H. unfold check_length. destruct (n <? 0) eqn:E; [reflexivity|lia]. Qed.

Lemma b_readBinary_big cf l n tail o d : string_length_limit cf = Some l -> l < n ->
  0 <= n <= 2147483647 ->
  b_readBinary cf (mkst tt (int32 n ++ tail) o d)
  = (Raise (ETransport TT_SIZE_LIMIT), mkst tt tail o d).
Proof.
  intros Hl H Hn. unfold b_readBinary.
  rewrite (bind_ok _ _ _ _ _ (b_readI32_ok n tail o d ltac:(lia))).
  unfold bind. rewrite (check_length_big _ _ l) by (assumption || lia). reflexivity.
Qed.

Lemma b_readBinary_neg cf n tail o d : -2147483648 <= n < 0 ->
  b_readBinary cf (mkst tt (int32 n ++ tail) o d)
  = (Raise (ETransport TT_NEGATIVE_SIZE), mkst tt tail o d).
Proof.
  intros Hn. unfold b_readBinary.
  rewrite (bind_ok _ _ _ _ _ (b_readI32_ok n tail o d ltac:(lia))).
  unfold bind. rewrite check_length_neg by lia. reflexivity.
Qed.

Lemma b_readByte_any b tail o d :
  b_readByte (mkst tt (b :: tail) o d) = (Ok (to_signed 1 (b2z b)), mkst tt tail o d).
Proof.
  unfold b_readByte, bind. rewrite readAll_1. unfold ret, unpack_signed.
  rewrite be_val_1. reflexivity.
Qed.

Lemma b_list_big cf l b n tail o d : container_length_limit cf = Some l -> l < n ->
  0 <= n <= 2147483647 ->
  b_readListBegin cf (mkst tt (b :: int32 n ++ tail) o d)
  = (Raise (ETransport TT_SIZE_LIMIT), mkst tt tail o d).
Proof.
  intros Hl H Hn. unfold b_readListBegin.
  rewrite (bind_ok _ _ _ _ _ (b_readByte_any b _ o d)).
  rewrite (bind_ok _ _ _ _ _ (b_readI32_ok n tail o d ltac:(lia))).
  unfold bind. rewrite (check_length_big _ _ l) by (assumption || lia). reflexivity.
Qed.

Lemma b_list_neg cf b n tail o d : -2147483648 <= n < 0 ->
  b_readListBegin cf (mkst tt (b :: int32 n ++ tail) o d)
  = (Raise (ETransport TT_NEGATIVE_SIZE), mkst tt tail o d).
Proof.
  intros Hn. unfold b_readListBegin.
  rewrite (bind_ok _ _ _ _ _ (b_readByte_any b _ o d)).
  rewrite (bind_ok _ _ _ _ _ (b_readI32_ok n tail o d ltac:(lia))).
  unfold bind. rewrite check_length_neg by lia. reflexivity.
Qed.

Lemma b_map_big cf l b1 b2 n tail o d : container_length_limit cf = Some l -> l < n ->
  0 <= n <= 2147483647 ->
  b_readMapBegin cf (mkst tt (b1 :: b2 :: int32 n ++ tail) o d)
  = (Raise (ETransport TT_SIZE_LIMIT), mkst tt tail o d).
Proof.
  intros Hl H Hn. unfold b_readMapBegin.
  rewrite (bind_ok _ _ _ _ _ (b_readByte_any b1 _ o d)).
  rewrite (bind_ok _ _ _ _ _ (b_readByte_any b2 _ o d)).
  rewrite (bind_ok _ _ _ _ _ (b_readI32_ok n tail o d ltac:(lia))).
  unfold bind. rewrite (check_length_big _ _ l) by (assumption || lia). reflexivity.
Qed.

Lemma b_map_neg cf b1 b2 n tail o d : -2147483648 <= n < 0 ->
  b_readMapBegin cf (mkst tt (b1 :: b2 :: int32 n ++ tail) o d)
  = (Raise (ETransport TT_NEGATIVE_SIZE), mkst tt tail o d).
Proof.
  intros Hn. unfold b_readMapBegin.
  rewrite (bind_ok _ _ _ _ _ (b_readByte_any b1 _ o d)).
  rewrite (bind_ok _ _ _ _ _ (b_readByte_any b2 _ o d)).
  rewrite (bind_ok _ _ _ _ _ (b_readI32_ok n tail o d ltac:(lia))).
  unfold bind. rewrite check_length_neg by lia. reflexivity.
Qed.

Lemma c_readSize_ok n x tail o d : 0 <= n < 2 ^ 70 ->
  c_readSize (mkst x (varint n ++ tail) o d) = (Ok n, mkst x tail o d).
Proof.
  intros H. unfold c_readSize.
  rewrite (bind_ok _ _ _ _ _ (uleb_any_read cst n x tail o d ltac:(lia))).
  destruct (n <? 0) eqn:E; [lia|reflexivity].
Qed.

Lemma reader_eq A (m : MC A) (s : st cst) :
  state (px s) = VALUE_READ \/ state (px s) = CONTAINER_READ -> reader m s = m s.
Proof.
  intros H. unfold reader, assert_state, bind, get_px.
  destruct H as [-> | ->]; reflexivity.
Qed.

Lemma c_readBinary_big cf l n x tail o d : c_string_length_limit cf = Some l -> l < n ->
  0 <= n < 2 ^ 70 -> state x = VALUE_READ \/ state x = CONTAINER_READ ->
  c_readBinary cf (mkst x (varint n ++ tail) o d)
  = (Raise (ETransport TT_SIZE_LIMIT), mkst x tail o d).
Proof.
  intros Hl H Hn Hx. unfold c_readBinary. rewrite reader_eq by exact Hx.
  unfold c_readBinary_.
  rewrite (bind_ok _ _ _ _ _ (c_readSize_ok n x tail o d Hn)).
  unfold bind. rewrite (check_length_big _ _ l) by (assumption || lia). reflexivity.
Qed.

Lemma c_map_big cf l n x tail o d : c_container_length_limit cf = Some l -> l < n ->
  0 <= n < 2 ^ 70 -> state x = VALUE_READ \/ state x = CONTAINER_READ ->
  c_readMapBegin cf (mkst x (varint n ++ tail) o d)
  = (Raise (ETransport TT_SIZE_LIMIT), mkst x tail o d).
Proof.
  intros Hl H Hn Hx. unfold c_readMapBegin.
  match goal with |- (assert_state _ ;;; ?m) ?s = _ =>
    change ((reader m) s = (Raise (ETransport TT_SIZE_LIMIT), mkst x tail o d)) end.
  rewrite reader_eq by exact Hx.
  rewrite (bind_ok _ _ _ _ _ (c_readSize_ok n x tail o d Hn)).
  unfold bind. rewrite (check_length_big _ _ l) by (assumption || lia). reflexivity.
Qed.

Lemma c_readUByte_ok b x tail o d :
  c_readUByte (mkst x (b :: tail) o d) = (Ok (b2z b), mkst x tail o d).
Proof.
  unfold c_readUByte, bind. rewrite readAll_1. unfold ret, unpack_unsigned.
  rewrite be_val_1. reflexivity.
Qed.

(** Long form of the header: type in the low half of the first byte. *)
Lemma c_list_big cf l t n x tail o d : c_container_length_limit cf = Some l -> l < n ->
  0 <= n < 2 ^ 70 -> state x = VALUE_READ \/ state x = CONTAINER_READ ->
  c_readCollectionBegin cf (mkst x (z2b (240 + sc_type t) :: varint n ++ tail) o d)
  = (Raise (ETransport TT_SIZE_LIMIT), mkst x tail o d).
Proof.
  intros Hl H Hn Hx. unfold c_readCollectionBegin.
  assert (Hm : b2z (z2b (240 + sc_type t)) mod 16 = sc_type t)
    by (destruct t; vm_compute; reflexivity).
  match goal with |- (assert_state _ ;;; ?m) ?s = _ =>
    change ((reader m) s = (Raise (ETransport TT_SIZE_LIMIT), mkst x tail o d)) end.
  rewrite reader_eq by exact Hx.
  rewrite (bind_ok _ _ _ _ _ (c_readUByte_ok _ x _ o d)). cbv zeta.
  rewrite (bind_ok _ _ _ _ _ (getTType_ok _ t _ Hm)).
  replace (Z.shiftr (b2z (z2b (240 + sc_type t))) 4 =? 15) with true
    by (destruct t; reflexivity).
  rewrite (bind_ok _ _ _ _ _ (c_readSize_ok n x tail o d Hn)).
  unfold bind. rewrite (check_length_big _ _ l) by (assumption || lia). reflexivity.
Qed.
