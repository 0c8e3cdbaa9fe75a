(** Proofs about THeaderTransport. *)
From Coq Require Import ZArith List Bool Lia.
From Coq Require Import Init.Byte.
From Coq Require Import ZifyBool ZifyNat ZifyN.
From Verif Require Import Base Bytes BytesFacts Transport TransportFacts Compact SpecCompact
  CompactFacts Header SpecHeader.
Import ListNotations.
Open Scope Z_scope.
Open Scope list_scope.

(** * The first words *)

Lemma word_hi a b c d :
  unpack_signed 4 [a; b; c; d] / 65536 = to_signed 2 (256 * b2z a + b2z b).
Proof.
  unfold unpack_signed, to_signed, be_val. cbn [rev app le_val].
  change (2 ^ (8 * Z.of_nat 4 - 1)) with 2147483648.
  change (2 ^ (8 * Z.of_nat 4)) with 4294967296.
  change (2 ^ (8 * Z.of_nat 2 - 1)) with 32768.
  change (2 ^ (8 * Z.of_nat 2)) with 65536.
  pose proof (b2z_range a). pose proof (b2z_range b). pose proof (b2z_range c).
  pose proof (b2z_range d).
  match goal with |- (if ?x then _ else _) / _ = if ?y then _ else _ =>
    destruct x eqn:E; destruct y eqn:F; lia end.
Qed.

Lemma land_mask n : Z.land n B_VERSION_MASK = 65536 * (n / 65536).
Proof.
  unfold B_VERSION_MASK. change (-65536) with (Z.lnot (Z.ones 16)).
  rewrite <- Z.ldiff_land, Z.ldiff_ones_r by lia.
  rewrite Z.shiftl_mul_pow2, Z.shiftr_div_pow2 by lia. change (2 ^ 16) with 65536. lia.
Qed.

Lemma list4 {A} (l : list A) : length l = 4%nat -> exists a b c d, l = [a; b; c; d].
Proof.
  destruct l as [|a [|b [|c [|d [|e l]]]]]; try discriminate. intros _. exists a, b, c, d.
  reflexivity.
Qed.

Lemma b2z_is b z : b2z b = z -> b = z2b z.
Proof. intros <-. symmetry. apply z2b_b2z. Qed.

Lemma binary_word_iff w : length w = 4%nat -> binary_word w = true <-> binary_start w.
Proof.
  intros H. apply list4 in H. destruct H as (a & b & c & d & ->). unfold binary_word.
  rewrite land_mask, word_hi. unfold B_VERSION_1, to_signed.
  change (2 ^ (8 * Z.of_nat 2 - 1)) with 32768.
  change (2 ^ (8 * Z.of_nat 2)) with 65536.
  pose proof (b2z_range a). pose proof (b2z_range b). split.
  - intros E. exists [c; d]. assert (b2z a = 128 /\ b2z b = 1) as [A B].
    { destruct (256 * b2z a + b2z b <? 32768) eqn:F; lia. }
    apply b2z_is in A, B. subst. reflexivity.
  - intros (r & E). injection E as -> -> _. reflexivity.
Qed.

Lemma land31 n : Z.land n 31 = n mod 32.
Proof. apply (land_ones 5). lia. Qed.

Lemma compact_word_iff w : length w = 4%nat -> compact_word w = true <-> compact_start w.
Proof.
  intros H. apply list4 in H. destruct H as (a & b & c & d & ->). unfold compact_word, byte_at.
  cbn [nth]. unfold C_PROTOCOL_ID, C_VERSION, C_VERSION_MASK. rewrite land31. split.
  - intros E. exists b, [c; d]. assert (A : b2z a = 130) by lia. apply b2z_is in A. subst a.
    split; [reflexivity|]. lia.
  - intros (b' & r & E & Hb). injection E as -> <- _. cbn [b2z].
    change (b2z x82) with 130. lia.
Qed.

Lemma header_word_iff w : length w = 4%nat ->
  (Z.shiftr (unpack_signed 4 w) 16 =? HEADER_MAGIC) = true <-> header_start w.
Proof.
  intros H. apply list4 in H. destruct H as (a & b & c & d & ->).
  rewrite Z.shiftr_div_pow2 by lia. change (2 ^ 16) with 65536. rewrite word_hi.
  unfold HEADER_MAGIC, to_signed. change (2 ^ (8 * Z.of_nat 2 - 1)) with 32768.
  change (2 ^ (8 * Z.of_nat 2)) with 65536.
  pose proof (b2z_range a). pose proof (b2z_range b). split.
  - intros E. exists [c; d]. assert (b2z a = 15 /\ b2z b = 255) as [A B].
    { destruct (256 * b2z a + b2z b <? 32768) eqn:F; lia. }
    apply b2z_is in A, B. subst. reflexivity.
  - intros (r & E). injection E as -> -> _. reflexivity.
Qed.

(** A length below 2^31 is no message start. *)
Lemma size_word n : 0 <= n < 2 ^ 31 ->
  binary_word (be_bytes 4 n) = false /\ compact_word (be_bytes 4 n) = false
  /\ unpack_signed 4 (be_bytes 4 n) = n.
Proof.
  intros H. assert (E : unpack_signed 4 (be_bytes 4 n) = n).
  { apply unpack_pack; [lia|]. unfold in_signed.
    change (2 ^ (8 * Z.of_nat 4 - 1)) with (2 ^ 31). lia. }
  split; [|split; [|exact E]].
  - unfold binary_word. rewrite E, land_mask. unfold B_VERSION_1. lia.
  - unfold compact_word, byte_at. cbn [be_bytes rev le_bytes app nth].
    rewrite b2z_z2b. change (2 ^ 31) with 2147483648 in H. unfold C_PROTOCOL_ID. lia.
Qed.

(** * Writing *)

Lemma mapM_out {A} (f : A -> M unit unit) (g : A -> list byte) l s :
  (forall a s, In a l -> f a s = (Ok tt, mkst (px s) (inp s) (out s ++ g a) (depth s))) ->
  mapM_ f l s = (Ok tt, mkst (px s) (inp s) (out s ++ flat_map g l) (depth s)).
Proof.
  revert s. induction l as [|a l IH]; intros s H.
  - cbn. rewrite app_nil_r. destruct s; reflexivity.
  - cbn [mapM_ flat_map]. unfold bind. rewrite H by (left; reflexivity).
    fold (mapM_ f). rewrite IH by (intros; apply H; right; assumption).
    cbn. rewrite <- app_assoc. reflexivity.
Qed.

Lemma writeString_ok v s : Z.of_nat (length v) < 2 ^ 63 ->
  writeString v s = (Ok tt, mkst (px s) (inp s) (out s ++ sh_string v) (depth s)).
Proof.
  intros H. unfold writeString, bind.
  rewrite writeVarint_ok by (change (128 ^ 10) with (2 ^ 70); lia).
  unfold twrite. cbn. unfold sh_string. rewrite <- app_assoc. reflexivity.
Qed.

(** All strings short enough to be lengths. *)
Definition small (hs : headers) : Prop :=
  Z.of_nat (length hs) < 2 ^ 63 /\
  forall kv, In kv hs -> Z.of_nat (length (fst kv)) < 2 ^ 63 /\ Z.of_nat (length (snd kv)) < 2 ^ 63.

Lemma flat_map_length {A} (g : A -> list byte) a l : In a l ->
  (length (g a) <= length (flat_map g l))%nat.
Proof.
  induction l as [|b l IH]; [intros []|]. cbn. rewrite app_length. intros [->|H]; [lia|].
  specialize (IH H). lia.
Qed.

Lemma flat_map_count {A} (g : A -> list byte) l : (forall a, In a l -> (1 <= length (g a))%nat) ->
  (length l <= length (flat_map g l))%nat.
Proof.
  induction l as [|b l IH]; intros H; [cbn; lia|]. cbn. rewrite app_length.
  pose proof (H b (or_introl eq_refl)). specialize (IH (fun a Ha => H a (or_intror Ha))). lia.
Qed.

Lemma sh_string_length v : (length v < length (sh_string v))%nat.
Proof. unfold sh_string. rewrite app_length. pose proof (varint_pos (Z.of_nat (length v))). lia. Qed.

Lemma section_small proto ids hs : Z.of_nat (length (sh_section proto ids hs)) < 2 ^ 63 ->
  small hs /\ Z.of_nat (length ids) < 2 ^ 63.
Proof.
  unfold sh_section. rewrite !app_length. intros H. split; [split|].
  - destruct hs as [|kv hs]; [cbn; lia|]. cbn [sh_info] in H. rewrite !app_length in H.
    pose proof (flat_map_count sh_pair (kv :: hs)) as K.
    assert (K' : (length (kv :: hs) <= length (flat_map sh_pair (kv :: hs)))%nat).
    { apply K. intros a _. unfold sh_pair. rewrite app_length.
      pose proof (sh_string_length (fst a)). lia. }
    lia.
  - intros kv Hi. pose proof (flat_map_length sh_pair kv hs Hi) as K. unfold sh_pair in K at 1.
    rewrite app_length in K. pose proof (sh_string_length (fst kv)).
    pose proof (sh_string_length (snd kv)). destruct hs as [|kv' hs]; [destruct Hi|].
    cbn [sh_info] in H. rewrite !app_length in H. lia.
  - pose proof (flat_map_count varint ids (fun a _ => varint_pos a)). lia.
Qed.

Lemma header_section_ok proto ids hs s : 0 <= proto < 128 ^ 10 ->
  (forall i, In i ids -> 0 <= i < 128 ^ 10) ->
  Z.of_nat (length (sh_section proto ids hs)) < 2 ^ 63 ->
  header_section proto ids hs s
  = (Ok tt, mkst (px s) (inp s) (out s ++ sh_section proto ids hs) (depth s)).
Proof.
  intros Hp Hi Hs. destruct (section_small _ _ _ Hs) as [[Sm1 Sm2] Hids].
  unfold header_section, bind.
  rewrite writeVarint_ok by exact Hp.
  rewrite writeVarint_ok by (change (128 ^ 10) with (2 ^ 70); lia).
  rewrite (mapM_out writeVarint varint) by (intros; apply writeVarint_ok; apply Hi; assumption).
  destruct hs as [|kv hs].
  - cbn [px inp out depth]. unfold sh_section, ret. cbn [sh_info]. rewrite app_nil_r, !app_assoc. reflexivity.
  - unfold KEY_VALUE. rewrite writeVarint_ok by (change (128 ^ 10) with (2 ^ 70); lia).
    rewrite writeVarint_ok by (change (128 ^ 10) with (2 ^ 70); lia).
    rewrite (mapM_out _ sh_pair).
    + cbn [px inp out depth]. unfold sh_section. cbn [sh_info]. rewrite !app_assoc. reflexivity.
    + intros a s' Ha. destruct (Sm2 a Ha). rewrite writeString_ok by assumption.
      rewrite writeString_ok by assumption. cbn [px inp out depth]. unfold sh_pair.
      rewrite app_assoc. reflexivity.
Qed.

Lemma pad_eq n : repeat x00 (Z.to_nat ((4 - Z.of_nat n mod 4) mod 4)) = sh_pad n.
Proof.
  unfold sh_pad. assert (H : (n mod 4 < 4)%nat) by (apply Nat.mod_upper_bound; lia).
  replace (Z.of_nat n mod 4) with (Z.of_nat (n mod 4)) by lia.
  destruct (n mod 4)%nat as [|[|[|[|k]]]]; [reflexivity..|lia].
Qed.

Lemma padded_length l : (length (padded l) mod 4 = 0)%nat /\ (length l <= length (padded l) < length l + 4)%nat.
Proof.
  unfold padded. rewrite app_length. unfold sh_pad.
  assert (H : (length l mod 4 < 4)%nat) by (apply Nat.mod_upper_bound; lia).
  destruct (length l mod 4)%nat as [|[|[|[|k]]]] eqn:E; cbn [length]; lia.
Qed.

(** * Transforms *)

(** What is to be expected of zlib: data that stays below the limit comes back
    complete.  (With exactly the limit the decompressor may stop before the end
    of the stream.) *)
Definition zlib_ok (compress : list byte -> list byte)
    (decompress : list byte -> Z -> option (list byte * list byte)) : Prop :=
  forall p m, Z.of_nat (length p) < m -> decompress (compress p) m = Some (p, []).

Lemma iter_swap {A} n (f : A -> A) x : Nat.iter n f (f x) = f (Nat.iter n f x).
Proof. induction n as [|n IH]; [reflexivity|]. exact (f_equal f IH). Qed.

Section Facts.
Context {T : Type}.
Variable U : transport T.
Variable compress : list byte -> list byte.
Variable decompress : list byte -> Z -> option (list byte * list byte).
Variable allowed : list Z.

Lemma write_transforms_ok S n p (s : S) :
  write_transforms compress (repeat ZLIB n) p s = (Ok (Nat.iter n compress p), s).
Proof.
  revert p. induction n as [|n IH]; intros p; [reflexivity|].
  cbn [repeat write_transforms]. change (ZLIB =? ZLIB) with true. cbv iota.
  rewrite IH, iter_swap. reflexivity.
Qed.

Lemma apply_all_ok S m n p (s : S) : zlib_ok compress decompress ->
  (forall k, (k < n)%nat -> Z.of_nat (length (Nat.iter k compress p)) < m) ->
  apply_all decompress m (repeat ZLIB n) (Nat.iter n compress p) s = (Ok p, s).
Proof.
  intros HZ. revert p. induction n as [|n IH]; intros p H; [reflexivity|].
  cbn [repeat apply_all]. unfold bind, apply_read_transform.
  change (ZLIB =? ZLIB) with true. cbv iota. cbn [Nat.iter nat_rect].
  change (compress (nat_rect (fun _ => list byte) p (fun _ => compress) n))
    with (compress (Nat.iter n compress p)).
  rewrite HZ by (apply H; lia). cbn [ret]. apply IH. intros k Hk. apply H. lia.
Qed.

Lemma rev_repeat {A} (x : A) n : rev (repeat x n) = repeat x n.
Proof.
  induction n as [|n IH]; [reflexivity|]. cbn. rewrite IH. clear IH.
  induction n as [|n IH]; [reflexivity|]. cbn. rewrite IH. reflexivity.
Qed.

(** * flush *)

Lemma body_length flags seq proto ids hs p :
  Z.of_nat (length (sh_body flags seq proto ids hs p))
  = 10 + Z.of_nat (length (padded (sh_section proto ids hs))) + Z.of_nat (length p).
Proof. clear compress decompress.
  unfold sh_body. rewrite !app_length, !be_bytes_length. cbn [length]. lia.
Qed.

Lemma header_bytes_ok (h : hdr T) : 0 <= h_proto h < 128 ^ 10 ->
  (forall i, In i (h_wtransforms h) -> 0 <= i < 128 ^ 10) ->
  Z.of_nat (length (sh_section (h_proto h) (h_wtransforms h) (h_wheaders h))) < 2 ^ 63 ->
  header_bytes h = Ok (padded (sh_section (h_proto h) (h_wtransforms h) (h_wheaders h))).
Proof.
  intros Hp Hi Hs. unfold header_bytes. rewrite header_section_ok by assumption.
  cbn [out app]. rewrite pad_eq. reflexivity.
Qed.

(** What a flush in header format needs. *)
Record sendable (h : hdr T) (n : nat) : Prop := {
  se_client : h_client h = CT_HEADERS;
  se_tr : h_wtransforms h = repeat ZLIB n;
  se_proto : 0 <= h_proto h < 2 ^ 70;
  se_flags : 0 <= h_flags h < 2 ^ 16;
  se_seq : - 2 ^ 31 <= h_seq h < 2 ^ 31;
  se_fit : Z.of_nat (length (padded (sh_section (h_proto h) (h_wtransforms h) (h_wheaders h))))
           < 4 * 2 ^ 16;
  se_size : 10 + Z.of_nat (length (padded (sh_section (h_proto h) (h_wtransforms h)
              (h_wheaders h)))) + Z.of_nat (length (Nat.iter n compress (h_wbuf h))) <= h_max h;
  se_max : h_max h < HARD_MAX_FRAME_SIZE }.

Definition frame_of (h : hdr T) (n : nat) : list byte :=
  sh_frame (h_flags h) (h_seq h) (h_proto h) (h_wtransforms h) (h_wheaders h)
    (Nat.iter n compress (h_wbuf h)).

Lemma header_frame_ok h n h0 : sendable h n ->
  h0 = with_wbuf h [] ->
  header_frame compress (h_wbuf h) h0 = (Ok (frame_of h n), with_wheaders h0 []).
Proof. clear decompress.
  intros S ->. destruct S. set (h0 := with_wbuf h []).
  assert (E : header_bytes h0
    = Ok (padded (sh_section (h_proto h) (h_wtransforms h) (h_wheaders h)))).
  { apply (header_bytes_ok h0).
    - change (128 ^ 10) with (2 ^ 70). exact se_proto0.
    - intros i Hi. cbn in Hi. rewrite se_tr0 in Hi. apply repeat_spec in Hi. subst i.
      unfold ZLIB. lia.
    - pose proof (padded_length (sh_section (h_proto h) (h_wtransforms h) (h_wheaders h))) as K.
      unfold h0. cbn [h_proto h_wtransforms h_wheaders with_wbuf]. lia. }
  set (hb := padded _) in *.
  unfold header_frame, bind at 1. unfold bind at 1.
  change (h_wtransforms h0) with (h_wtransforms h). rewrite se_tr0 at 1.
  rewrite write_transforms_ok. unfold bind at 1. unfold lift at 1. rewrite E.
  set (z := Nat.iter n compress (h_wbuf h)) in *.
  unfold HARD_MAX_FRAME_SIZE in se_max0.
  change (h_flags h0) with (h_flags h). change (h_seq h0) with (h_seq h).
  unfold bind.
  rewrite pack_signed_ok
    by (unfold in_signed; change (2 ^ (8 * Z.of_nat 4 - 1)) with 2147483648; lia).
  rewrite pack_unsigned_ok by (unfold HEADER_MAGIC; cbn; lia).
  rewrite pack_unsigned_ok by (change (256 ^ Z.of_nat 2) with (2 ^ 16); lia).
  rewrite pack_signed_ok by (unfold in_signed; change (8 * Z.of_nat 4 - 1) with 31; lia).
  rewrite pack_unsigned_ok by (change (256 ^ Z.of_nat 2) with (2 ^ 16); lia).
  unfold ret, frame_of, sh_frame. rewrite body_length. fold hb. fold z. unfold sh_body. fold hb.
  change (be_bytes 2 HEADER_MAGIC) with [x0f; xff]. reflexivity.
Qed.

Lemma flush_ok h n : sendable h n ->
  flush U compress h
  = (on_h (t_write U (frame_of h n)) ;;; on_h (t_flush U))%monad
      (with_wheaders (with_wbuf h []) []).
Proof. clear decompress.
  intros S. unfold flush. unfold bind at 1. unfold bind at 1. unfold bind at 1.
  rewrite (se_client _ _ S). change (CT_HEADERS =? CT_HEADERS) with true. cbv iota.
  rewrite (header_frame_ok h n _ S eq_refl).
  assert (K : (Z.of_nat (length (frame_of h n)) - 4 >? h_max h) = false).
  { unfold frame_of, sh_frame. rewrite app_length, be_bytes_length, Nat2Z.inj_add, body_length.
    pose proof (se_size _ _ S). lia. }
  rewrite K. reflexivity.
Qed.

(** * Parsing *)

Lemma unpack_be2 n : 0 <= n < 2 ^ 16 -> unpack_unsigned (be_bytes 2 n) = n.
Proof.
  intros H. unfold unpack_unsigned. rewrite be_val_be_bytes. apply Z.mod_small.
  change (256 ^ Z.of_nat 2) with (2 ^ 16). lia.
Qed.

Lemma tread_exact (X : Type) a b n (x : X) o d : length a = n ->
  tread n (mkst x (a ++ b) o d) = (Ok a, mkst x b o d).
Proof.
  intros H. unfold tread. cbn [inp px out depth].
  rewrite firstn_exact, skipn_exact by exact H. reflexivity.
Qed.

Lemma read_word_ok n f a b (h : hdr T) o d : length a = n ->
  read_word n f (mkst h (a ++ b) o d) = (Ok (f a), mkst h b o d).
Proof.
  intros H. unfold read_word, bind. rewrite tread_exact by exact H.
  rewrite H, Nat.eqb_refl. reflexivity.
Qed.

Lemma readString_ok v tail (h : hdr T) o d : Z.of_nat (length v) < 2 ^ 63 ->
  readString (mkst h (sh_string v ++ tail) o d) = (Ok v, mkst h tail o d).
Proof.
  intros H. unfold readString, bind, sh_string. rewrite <- app_assoc.
  rewrite readVarint_ok by (change (128 ^ 10) with (2 ^ 70); lia).
  replace (Z.of_nat (length v) <? 0) with false by lia.
  replace (2 ^ 63 <=? Z.of_nat (length v)) with false by lia.
  unfold mem_read, bytesio_read. cbn [inp px out depth].
  replace (Z.of_nat (length v) <? 0) with false by lia.
  rewrite Nat2Z.id, firstn_exact, skipn_exact by reflexivity. reflexivity.
Qed.

Lemma read_pair_ok kv tail acc (h : hdr T) o d : Z.of_nat (length (fst kv)) < 2 ^ 63 ->
  Z.of_nat (length (snd kv)) < 2 ^ 63 ->
  read_pair acc (mkst h (sh_pair kv ++ tail) o d)
  = (Ok (hset (fst kv) (snd kv) acc), mkst h tail o d).
Proof.
  intros H1 H2. unfold read_pair, bind, sh_pair. rewrite <- app_assoc.
  rewrite readString_ok by exact H1. rewrite readString_ok by exact H2. reflexivity.
Qed.

Lemma repeatM_ok {A B} (f : A -> M (hdr T) A) (g : B -> list byte) (k : A -> B -> A) l :
  forall fuel acc tail (h : hdr T) o d, (length l <= fuel)%nat ->
  (forall b acc tail, In b l -> f acc (mkst h (g b ++ tail) o d) = (Ok (k acc b), mkst h tail o d)) ->
  repeatM fuel (Z.of_nat (length l)) f acc (mkst h (flat_map g l ++ tail) o d)
  = (Ok (fold_left k l acc), mkst h tail o d).
Proof.
  induction l as [|b l IH]; intros fuel acc tail h o d HF H.
  - destruct fuel; reflexivity.
  - cbn [length] in *. destruct fuel as [|fuel]; [lia|]. cbn [repeatM].
    replace (Z.of_nat (S (length l)) <=? 0) with false by lia. unfold bind.
    cbn [flat_map]. rewrite <- app_assoc. rewrite H by (left; reflexivity).
    replace (Z.of_nat (S (length l)) - 1) with (Z.of_nat (length l)) by lia.
    cbn [fold_left]. apply IH; [lia|]. intros. apply H. right. assumption.
Qed.

Lemma hset_fresh k v l : ~ In k (map fst l) -> hset k v l = l ++ [(k, v)].
Proof.
  induction l as [|[k' v'] l IH]; intros H; [reflexivity|]. cbn in *.
  destruct (bytes_eqb_spec k' k) as [->|N]; [tauto|]. rewrite IH by tauto. reflexivity.
Qed.

Lemma hset_all l : forall acc, NoDup (map fst (acc ++ l)) ->
  fold_left (fun a kv => hset (fst kv) (snd kv) a) l acc = acc ++ l.
Proof.
  induction l as [|[k v] l IH]; intros acc H; [cbn; rewrite app_nil_r; reflexivity|].
  cbn [fold_left fst snd]. rewrite map_app in H. cbn in H. pose proof (NoDup_remove_2 _ _ _ H) as N.
  rewrite hset_fresh by (intros K; apply N; apply in_or_app; left; exact K).
  rewrite IH; rewrite <- app_assoc; [reflexivity|]. rewrite map_app. exact H.
Qed.

Lemma fold_snoc n : forall acc,
  fold_left (fun a (i : Z) => a ++ [i]) (repeat ZLIB n) acc = acc ++ repeat ZLIB n.
Proof.
  induction n as [|n IH]; intros acc; [cbn; rewrite app_nil_r; reflexivity|].
  cbn [repeat fold_left]. rewrite IH, <- app_assoc. reflexivity.
Qed.

Lemma info_pad fuel total stop acc k p (h : hdr T) o d : (0 < fuel)%nat ->
  total - Z.of_nat (length (sh_pad k ++ p)) = stop - Z.of_nat (length (sh_pad k)) ->
  exists rest, info_loop fuel total stop acc (mkst h (sh_pad k ++ p) o d)
    = (Ok acc, mkst h rest o d).
Proof.
  intros HF HE. destruct fuel as [|f]; [lia|]. cbn [info_loop]. unfold bind at 1, tell at 1.
  cbn [inp]. rewrite HE. destruct (sh_pad k) as [|b r] eqn:E.
  - cbn [length]. replace (stop - Z.of_nat 0 <? stop) with false by lia. eexists. reflexivity.
  - assert (b = x00) as ->.
    { unfold sh_pad in E. destruct (k mod 4)%nat as [|[|[|q]]]; congruence. }
    cbn [length]. replace (stop - Z.of_nat (S (length r)) <? stop) with true by lia.
    unfold bind. change ((x00 :: r) ++ p) with (varint 0 ++ (r ++ p)).
    rewrite readVarint_ok by lia. change (0 =? KEY_VALUE) with false. cbv iota.
    eexists. reflexivity.
Qed.

Lemma info_ok fuel total stop hs k p (h : hdr T) o d : (1 < fuel)%nat ->
  small hs -> NoDup (map fst hs) -> (length hs <= Z.to_nat total)%nat ->
  total - Z.of_nat (length p) = stop -> 0 <= total ->
  Z.of_nat (length (sh_info hs ++ sh_pad k ++ p)) <= total ->
  exists rest, info_loop fuel total stop [] (mkst h (sh_info hs ++ sh_pad k ++ p) o d)
    = (Ok hs, mkst h rest o d).
Proof.
  intros HF [Sm1 Sm2] HN HL HE Ht Hle. destruct hs as [|kv hs].
  - cbn [sh_info app]. apply info_pad; [lia|]. rewrite app_length in *. cbn in *. lia.
  - destruct fuel as [|f]; [lia|]. cbn [info_loop]. unfold bind at 1, tell at 1.
    cbn [inp]. cbn [sh_info] in *. rewrite <- !app_assoc in *. rewrite !app_length in *.
    pose proof (varint_pos 1).
    match goal with |- context [?a <? stop] => replace (a <? stop) with true by lia end.
    unfold bind. rewrite readVarint_ok by lia. change (1 =? KEY_VALUE) with true. cbv iota.
cbv beta.     rewrite readVarint_ok by (change (128 ^ 10) with (2 ^ 70); lia).
    rewrite (repeatM_ok read_pair sh_pair (fun a kv => hset (fst kv) (snd kv) a) (kv :: hs)).
    + rewrite hset_all by exact HN. cbn [app]. apply info_pad; [lia|].
      rewrite app_length. lia.
    + lia.
    + intros b acc tail Hb. destruct (Sm2 b Hb). apply read_pair_ok; assumption.
Qed.

Lemma parse_ok flags seq proto n hs p (h : hdr T) : 0 <= flags < 2 ^ 16 ->
  - 2 ^ 31 <= seq < 2 ^ 31 -> 0 <= proto < 2 ^ 70 -> NoDup (map fst hs) ->
  Z.of_nat (length (padded (sh_section proto (repeat ZLIB n) hs))) < 4 * 2 ^ 16 ->
  zlib_ok compress decompress ->
  (forall k, (k < n)%nat -> Z.of_nat (length (Nat.iter k compress p)) < h_maxdec h) ->
  let frame := sh_body flags seq proto (repeat ZLIB n) hs (Nat.iter n compress p) in
  exists s, parse_header decompress frame (mkst h frame [] 0) = (Ok p, s)
    /\ px s = with_rheaders (with_proto (with_seq (with_flags h flags) seq) proto) hs.
Proof.
  intros Hf Hq Hp HN Hfit HZ HD frame.
  pose proof (body_length flags seq proto (repeat ZLIB n) hs (Nat.iter n compress p)) as HL.
  fold frame in HL. unfold parse_header. set (total := Z.of_nat (length frame)) in *.
  assert (Hsec : Z.of_nat (length (sh_section proto (repeat ZLIB n) hs)) < 2 ^ 63).
  { pose proof (padded_length (sh_section proto (repeat ZLIB n) hs)). lia. }
  destruct (section_small _ _ _ Hsec) as [Sm Hids].
  pose proof (padded_length (sh_section proto (repeat ZLIB n) hs)) as [PM PL].
  set (hb := padded (sh_section proto (repeat ZLIB n) hs)) in *.
  set (z := Nat.iter n compress p) in *.
  unfold bind at 1.
  assert (EF : frame = [x0f; xff] ++ be_bytes 2 flags ++ be_bytes 4 seq
    ++ be_bytes 2 (Z.of_nat (length hb) / 4) ++ hb ++ z) by reflexivity.
  pose proof (f_equal (fun f => mkst h f [] 0) EF) as E0. cbv beta in E0. rewrite E0. clear E0.
  rewrite tread_exact by reflexivity.
  unfold bind at 1. rewrite read_word_ok by apply be_bytes_length.
  rewrite unpack_be2 by lia. unfold bind at 1, upd at 1. cbn [px inp out depth].
  unfold bind at 1. rewrite read_word_ok by apply be_bytes_length.
  rewrite unpack_pack by (unfold in_signed; change (8 * Z.of_nat 4 - 1) with 31; lia).
  unfold bind at 1, upd at 1. cbn [px inp out depth].
  unfold bind at 1. rewrite read_word_ok by apply be_bytes_length.
  rewrite unpack_be2 by lia. unfold bind at 1, tell at 1. cbn [inp]. rewrite app_length, Nat2Z.inj_add.
  replace (total - (Z.of_nat (length hb) + Z.of_nat (length z))
    + Z.of_nat (length hb) / 4 * 4) with (10 + Z.of_nat (length hb)) by lia.
  replace (total <? 10 + Z.of_nat (length hb)) with false by lia.
  assert (EH : hb ++ z = varint proto ++ varint (Z.of_nat (length (repeat ZLIB n)))
    ++ flat_map varint (repeat ZLIB n)
    ++ sh_info hs ++ sh_pad (length (sh_section proto (repeat ZLIB n) hs)) ++ z).
  { unfold hb, padded, sh_section. rewrite <- !app_assoc. reflexivity. }
  rewrite EH.
  unfold bind at 1. rewrite readVarint_ok by (change (128 ^ 10) with (2 ^ 70); lia).
  unfold bind at 1, upd at 1. cbn [px inp out depth].
  unfold bind at 1. rewrite readVarint_ok by (change (128 ^ 10) with (2 ^ 70); lia).
  assert (Hlen : length (hb ++ z) = (length hb + length z)%nat) by apply app_length.
  rewrite EH, !app_length in Hlen.
  pose proof (flat_map_count varint (repeat ZLIB n) (fun a _ => varint_pos a)) as HC.
  unfold bind at 1.
  rewrite (repeatM_ok read_transform varint (fun a i => a ++ [i]) (repeat ZLIB n)).
  2:{ lia. }
  2:{ intros b acc tail Hb. apply repeat_spec in Hb. subst b. unfold read_transform, bind.
      rewrite readVarint_ok by (unfold ZLIB; lia). reflexivity. }
  rewrite fold_snoc. cbn [app].
  unfold bind at 1.
  match goal with |- context [info_loop ?f ?t ?st [] (mkst ?hh _ _ _)] =>
    destruct (info_ok f t st hs (length (sh_section proto (repeat ZLIB n) hs)) z hh [] 0)
      as (rest & ->) end.
  { lia. }
  { exact Sm. }
  { exact HN. }
  { destruct hs as [|kv hs]; [cbn; lia|]. cbn [sh_info] in Hlen. rewrite !app_length in Hlen.
    pose proof (flat_map_count sh_pair (kv :: hs)) as K.
    assert (K' : (length (kv :: hs) <= length (flat_map sh_pair (kv :: hs)))%nat).
    { apply K. intros a _. unfold sh_pair. rewrite app_length.
      pose proof (sh_string_length (fst a)). lia. }
    lia. }
  { lia. }
  { lia. }
  { rewrite !app_length. lia. }
  unfold bind at 1, upd at 1. cbn [px inp out depth].
  unfold bind at 1, get_px at 1. cbn [px].
  rewrite rev_repeat.
  replace (skipn (Z.to_nat (10 + Z.of_nat (length hb))) frame) with z.
  - eexists. split; [apply apply_all_ok; [exact HZ|exact HD]|reflexivity].
  - rewrite EF. rewrite !app_assoc. rewrite skipn_exact; [reflexivity|].
    rewrite !app_length, !be_bytes_length. cbn [length]. lia.
Qed.

End Facts.
