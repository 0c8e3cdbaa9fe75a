(** Reading frames with THeaderTransport: every outcome. *)
From Coq Require Import ZArith List Bool Lia.
From Coq Require Import Init.Byte.
From Coq Require Import ZifyBool ZifyNat ZifyN.
From Verif Require Import Base Bytes BytesFacts Transport TransportFacts Compact SpecCompact
  CompactFacts Header SpecHeader HeaderFacts.
Import ListNotations.
Open Scope Z_scope.
Open Scope list_scope.

(** * Steps of the parser *)

(** The attributes the parser leaves alone. *)
Definition core {T} (h h' : hdr T) : Prop :=
  h_trans h' = h_trans h /\ h_client h' = h_client h /\ h_rbuf h' = h_rbuf h
  /\ h_wbuf h' = h_wbuf h /\ h_wheaders h' = h_wheaders h
  /\ h_wtransforms h' = h_wtransforms h /\ h_max h' = h_max h /\ h_maxdec h' = h_maxdec h.

Lemma core_refl {T} (h : hdr T) : core h h.
Proof. repeat split. Qed.
Lemma core_trans {T} (a b c : hdr T) : core a b -> core b c -> core a c.
Proof. unfold core. intros. intuition congruence. Qed.

(** [m] ends, eats at least [k] bytes when it succeeds and keeps the core. *)
Definition eats {T A} (k : nat) (m : M (hdr T) A) : Prop :=
  forall s, match m s with
            | (Ok _, s') => (length (inp s') + k <= length (inp s))%nat /\ core (px s) (px s')
            | (Raise _, s') => core (px s) (px s')
            | (Diverge, _) => False
            end.

Section Read.
Context {T : Type}.

Lemma eats_weak A k k' (m : M (hdr T) A) : eats k m -> (k' <= k)%nat -> eats k' m.
Proof.
  intros H L s. specialize (H s). destruct (m s) as [[a| |] s']; auto. intuition lia.
Qed.
Lemma eats_ret A (a : A) : @eats T A 0 (ret a).
Proof. intros s. cbn. split; [lia|apply core_refl]. Qed.
Lemma eats_raise A k e : @eats T A k (raise e).
Proof. intros s. apply core_refl. Qed.
Lemma eats_bind A B j k (m : M (hdr T) A) (f : A -> M (hdr T) B) :
  eats j m -> (forall a, eats k (f a)) -> eats (j + k) (bind m f).
Proof.
  intros Hm Hf s. unfold bind. specialize (Hm s). destruct (m s) as [[a|e|] s']; auto.
  destruct Hm as [L C]. specialize (Hf a s'). destruct (f a s') as [[b|e|] s'']; auto.
  - destruct Hf. split; [lia|eapply core_trans; eassumption].
  - eapply core_trans; eassumption.
Qed.
Lemma eats_bind0 A B k (m : M (hdr T) A) (f : A -> M (hdr T) B) :
  eats 0 m -> (forall a, eats k (f a)) -> eats k (bind m f).
Proof. apply (eats_bind A B 0 k). Qed.
Lemma eats_case A k (b : bool) (m m' : M (hdr T) A) : eats k m -> eats k m' ->
  eats k (if b then m else m').
Proof. destruct b; auto. Qed.

Lemma eats_readAll n : @eats T _ (Z.to_nat n) (readAll n).
Proof.
  intros s. unfold readAll. destruct (n <=? 0) eqn:E.
  - split; [lia|apply core_refl].
  - destruct (n <=? Z.of_nat (length (inp s))) eqn:F.
    + cbn [inp px]. rewrite skipn_length. split; [lia|apply core_refl].
    + apply core_refl.
Qed.

Lemma eats_varint : @eats T Z 1 readVarint.
Proof.
  unfold readVarint. generalize 10%nat, 0 at 1, 0 at 1. induction n as [|n IH]; intros r sh.
  - apply eats_raise.
  - cbn [readVarint_loop]. apply (eats_bind _ _ 1 0); [apply (eats_readAll 1)|]. intros x.
    apply eats_case; [apply eats_ret|]. apply (eats_weak _ 1); [apply IH|lia].
Qed.

Lemma eats_tread n : @eats T _ 0 (tread n).
Proof. intros s. cbn. rewrite skipn_length. split; [lia|apply core_refl]. Qed.
Lemma eats_word n f : @eats T Z 0 (read_word n f).
Proof.
  unfold read_word. apply eats_bind0; [apply eats_tread|]. intros b.
  apply eats_case; [apply eats_ret|apply eats_raise].
Qed.
Lemma eats_upd f : (forall h : hdr T, core h (f h)) -> eats 0 (upd f).
Proof. intros H s. cbn. split; [lia|apply H]. Qed.
Lemma eats_tell n : @eats T Z 0 (tell n).
Proof. intros s. cbn. split; [lia|apply core_refl]. Qed.
Lemma eats_mem n : @eats T _ 0 (mem_read n).
Proof.
  intros s. unfold mem_read, bytesio_read. destruct (n <? 0).
  - cbn. split; [lia|apply core_refl].
  - cbn [inp px]. rewrite skipn_length. split; [lia|apply core_refl].
Qed.
Lemma eats_string : @eats T _ 1 readString.
Proof.
  unfold readString. apply (eats_bind _ _ 1 0); [apply eats_varint|]. intros n.
  apply eats_case; [apply eats_raise|]. apply eats_case; [apply eats_raise|apply eats_mem].
Qed.
Lemma eats_pair acc : @eats T _ 1 (read_pair acc).
Proof.
  unfold read_pair. apply (eats_bind _ _ 1 0); [apply eats_string|]. intros k.
  apply (eats_bind _ _ 0 0); [apply (eats_weak _ 1); [apply eats_string|lia]|]. intros v.
  apply eats_ret.
Qed.
Lemma eats_transform acc : @eats T _ 1 (read_transform acc).
Proof.
  unfold read_transform. apply (eats_bind _ _ 1 0); [apply eats_varint|]. intros i.
  apply eats_case; [apply eats_ret|apply eats_raise].
Qed.

Lemma repeat_ends A (f : A -> M (hdr T) A) : (forall a, eats 1 (f a)) ->
  forall fuel n acc s, (length (inp s) < fuel)%nat ->
  match repeatM fuel n f acc s with
  | (Ok _, s') => (length (inp s') <= length (inp s))%nat /\ core (px s) (px s')
  | (Raise _, s') => core (px s) (px s')
  | (Diverge, _) => False
  end.
Proof.
  intros Hf. induction fuel as [|k IH]; intros n acc s HL; [lia|].
  cbn [repeatM]. destruct (n <=? 0); [cbn; split; [lia|apply core_refl]|].
  unfold bind. specialize (Hf acc s). destruct (f acc s) as [[a|e|] s']; auto.
  destruct Hf as [L C]. specialize (IH (n - 1) a s' ltac:(lia)).
  destruct (repeatM k (n - 1) f a s') as [[b|e|] s'']; auto.
  - destruct IH. split; [lia|eapply core_trans; eassumption].
  - eapply core_trans; eassumption.
Qed.

Lemma info_ends total stop : forall fuel acc (s : st (hdr T)), (length (inp s) < fuel)%nat ->
  (length (inp s) <= Z.to_nat total)%nat ->
  match info_loop fuel total stop acc s with
  | (Ok _, s') => core (px s) (px s')
  | (Raise _, s') => core (px s) (px s')
  | (Diverge, _) => False
  end.
Proof.
  induction fuel as [|k IH]; intros acc s HF HT; [lia|].
  cbn [info_loop]. unfold bind at 1, tell at 1. destruct (_ <? stop); [|apply core_refl].
  unfold bind at 1. pose proof (eats_varint s) as V.
  destruct (readVarint s) as [[ty|e|] s1]; auto. destruct V as [L1 C1].
  destruct (ty =? KEY_VALUE); [|exact C1].
  unfold bind at 1. pose proof (eats_varint s1) as V.
  destruct (readVarint s1) as [[cnt|e|] s2]; auto; [|eapply core_trans; eassumption].
  destruct V as [L2 C2]. pose proof (core_trans _ _ _ C1 C2) as C3.
  unfold bind. pose proof (repeat_ends _ read_pair eats_pair (S (Z.to_nat total)) cnt acc s2
    ltac:(lia)) as V.
  destruct (repeatM _ cnt read_pair acc s2) as [[hs|e|] s3]; auto;
    [|eapply core_trans; eassumption].
  destruct V as [L4 C4]. pose proof (core_trans _ _ _ C3 C4) as C5.
  specialize (IH hs s3 ltac:(lia) ltac:(lia)).
  destruct (info_loop k total stop hs s3) as [[r|e|] s4]; auto;
    eapply core_trans; eassumption.
Qed.

Variable decompress : list byte -> Z -> option (list byte * list byte).

Lemma apply_all_ends S m ids : forall p (s : S),
  match apply_all decompress m ids p s with
  | (Ok _, s') => s' = s
  | (Raise _, s') => s' = s
  | (Diverge, _) => False
  end.
Proof.
  induction ids as [|i ids IH]; intros p s; [reflexivity|].
  cbn [apply_all]. unfold bind, apply_read_transform. destruct (i =? ZLIB); [|apply IH].
  destruct (decompress p m) as [[q [|b t]]|]; cbn; auto; apply IH.
Qed.

(** zlib does not produce more than it is asked for. *)
Definition zlib_bounded : Prop := forall d m p t, 0 < m ->
  decompress d m = Some (p, t) -> Z.of_nat (length p) <= m.

Lemma apply_all_bound S m ids p (s s' : S) r : zlib_bounded -> 0 < m ->
  Forall (fun i => i = ZLIB) ids -> ids <> [] ->
  apply_all decompress m ids p s = (Ok r, s') -> Z.of_nat (length r) <= m.
Proof.
  intros HZ Hm HF. revert p. induction HF as [|i ids Hi HF IH]; intros p Hne E; [congruence|].
  subst i. cbn [apply_all] in E. unfold bind, apply_read_transform in E.
  change (ZLIB =? ZLIB) with true in E. cbv iota in E.
  destruct (decompress p m) as [[q [|b t]]|] eqn:D; try discriminate E.
  cbn [ret] in E. destruct ids as [|j ids].
  - cbn in E. injection E as <- _. exact (HZ p m q [] Hm D).
  - apply (IH q); [discriminate|exact E].
Qed.

Lemma parse_ends frame (h : hdr T) :
  match parse_header decompress frame (mkst h frame [] 0) with
  | (Ok _, s') => core h (px s')
  | (Raise _, s') => core h (px s')
  | (Diverge, _) => False
  end.
Proof.
  unfold parse_header. set (total := Z.of_nat (length frame)).
  assert (HT : (length (inp (mkst h frame [] 0)) <= Z.to_nat total)%nat) by (cbn; lia).
  set (s0 := mkst h frame [] 0) in *. change h with (px s0).
  clearbody s0.
  (* steps that only eat *)
  assert (B : forall A B (m : M (hdr T) A) (f : A -> M (hdr T) B) k s,
    eats k m -> (length (inp s) <= Z.to_nat total)%nat ->
    (forall a s', (length (inp s') <= Z.to_nat total)%nat -> core (px s) (px s') ->
       match f a s' with
       | (Ok _, s'') => core (px s) (px s'')
       | (Raise _, s'') => core (px s) (px s'')
       | (Diverge, _) => False
       end) ->
    match bind m f s with
    | (Ok _, s'') => core (px s) (px s'')
    | (Raise _, s'') => core (px s) (px s'')
    | (Diverge, _) => False
    end).
  { intros A B m f k s He Hs Hf. unfold bind. specialize (He s).
    destruct (m s) as [[a|e|] s']; auto. destruct He as [L C]. apply Hf; [lia|exact C]. }
  assert (W : forall A (m : M (hdr T) A) s s', core (px s) (px s') ->
    match m s' with
    | (Ok _, s'') => core (px s') (px s'')
    | (Raise _, s'') => core (px s') (px s'')
    | (Diverge, _) => False
    end ->
    match m s' with
    | (Ok _, s'') => core (px s) (px s'')
    | (Raise _, s'') => core (px s) (px s'')
    | (Diverge, _) => False
    end).
  { intros A m s s' C H. destruct (m s') as [[a|e|] s'']; auto; eapply core_trans; eassumption. }
  eapply B; [apply (eats_tread 2)|exact HT|]. intros _ s1 H1 C1.
  apply W; [exact C1|]. eapply B; [apply eats_word|exact H1|]. intros fl s2 H2 C2.
  apply W; [exact C2|]. eapply B; [apply (eats_upd _ (fun h => ltac:(repeat split)))|exact H2|].
  intros _ s3 H3 C3.
  apply W; [exact C3|]. eapply B; [apply eats_word|exact H3|]. intros sq s4 H4 C4.
  apply W; [exact C4|]. eapply B; [apply (eats_upd _ (fun h => ltac:(repeat split)))|exact H4|].
  intros _ s5 H5 C5.
  apply W; [exact C5|]. eapply B; [apply eats_word|exact H5|]. intros wd s6 H6 C6.
  apply W; [exact C6|]. eapply B; [apply eats_tell|exact H6|]. intros pos s7 H7 C7.
  apply W; [exact C7|]. destruct (total <? pos + wd * 4); [apply core_refl|].
  eapply B; [apply eats_varint|exact H7|]. intros pr s8 H8 C8.
  apply W; [exact C8|]. eapply B; [apply (eats_upd _ (fun h => ltac:(repeat split)))|exact H8|].
  intros _ s9 H9 C9.
  apply W; [exact C9|]. eapply B; [apply eats_varint|exact H9|]. intros cnt s10 H10 C10.
  apply W; [exact C10|].
  unfold bind at 1. pose proof (repeat_ends _ read_transform eats_transform (S (Z.to_nat total))
    cnt [] s10 ltac:(lia)) as V.
  destruct (repeatM _ cnt read_transform [] s10) as [[trs|e|] s11]; auto.
  destruct V as [L11 C11].
  unfold bind at 1. pose proof (info_ends total (pos + wd * 4) (S (Z.to_nat total)) [] s11
    ltac:(lia) ltac:(lia)) as V.
  destruct (info_loop _ total _ [] s11) as [[hs|e|] s12]; auto;
    [|eapply core_trans; eassumption].
  pose proof (core_trans _ _ _ C11 V) as C12.
  unfold bind at 1, upd at 1. unfold bind at 1, get_px at 1. cbn [px].
  match goal with |- context [apply_all decompress ?m ?l ?p ?s] =>
    pose proof (apply_all_ends _ m l p s) as VA;
    destruct (apply_all decompress m l p s) as [[r|e|] s13]; auto; subst s13 end; exact C12.
Qed.

Lemma bind_inv S A B (m : SM S A) (f : A -> SM S B) s b s2 :
  bind m f s = (Ok b, s2) -> exists a s1, m s = (Ok a, s1) /\ f a s1 = (Ok b, s2).
Proof. unfold bind. destruct (m s) as [[a|e|] s1]; try discriminate. eauto. Qed.

Lemma repeat_zlib fuel : forall count acc (s s' : st (hdr T)) ids,
  repeatM fuel count read_transform acc s = (Ok ids, s') ->
  Forall (fun i => i = ZLIB) acc -> Forall (fun i => i = ZLIB) ids.
Proof.
  induction fuel as [|k IH]; intros count acc s s' ids E H; cbn [repeatM] in E;
    (destruct (count <=? 0); [injection E as <- _; exact H|]); [discriminate E|].
  apply bind_inv in E. destruct E as (a & s1 & E1 & E2). apply (IH _ _ _ _ _ E2).
  unfold read_transform in E1. apply bind_inv in E1. destruct E1 as (i & s3 & _ & E1).
  destruct (i =? ZLIB) eqn:Z; [|discriminate E1]. injection E1 as <- _.
  apply Forall_app. split; [exact H|]. repeat constructor. lia.
Qed.

(** A parsed frame's payload is the end of the frame with the transforms undone. *)
Lemma parse_out frame (h : hdr T) p s' :
  parse_header decompress frame (mkst h frame [] 0) = (Ok p, s') ->
  exists ids k s, Forall (fun i => i = ZLIB) ids
    /\ apply_all decompress (h_maxdec h) ids (skipn k frame) s = (Ok p, s').
Proof.
  intros E. pose proof (parse_ends frame h) as C. rewrite E in C. unfold parse_header in E.
  do 6 (apply bind_inv in E; destruct E as (? & ? & _ & E)).
  apply bind_inv in E; destruct E as (pos & ? & _ & E).
  destruct (_ <? _); [discriminate E|].
  do 3 (apply bind_inv in E; destruct E as (? & ? & _ & E)).
  apply bind_inv in E; destruct E as (trs & ? & Et & E).
  do 2 (apply bind_inv in E; destruct E as (? & ? & _ & E)).
  unfold bind, get_px in E.
  match type of E with apply_all _ ?m ?l ?q ?s = _ =>
    pose proof (apply_all_ends _ m l q s) as VA; rewrite E in VA end. subst s'.
  destruct C as (_ & _ & _ & _ & _ & _ & _ & C). rewrite C in E.
  do 3 eexists. split; [|exact E]. apply Forall_rev. eapply repeat_zlib; [exact Et|constructor].
Qed.

(** * Frames *)
Variable U : transport T.
Variable allowed : list Z.
Variable R : T -> list byte -> Prop.
Hypothesis HS : stream R (t_read U).

Lemma word_neg w : length w = 4%nat -> 0 <= unpack_signed 4 w ->
  binary_word w = false /\ compact_word w = false.
Proof.
  intros HL H. split.
  - unfold binary_word. rewrite land_mask. unfold B_VERSION_1. lia.
  - apply list4 in HL. destruct HL as (a & b & c & d & ->). unfold compact_word, byte_at.
    cbn [nth]. pose proof (word_hi a b c d) as E. unfold to_signed in E.
    change (2 ^ (8 * Z.of_nat 2 - 1)) with 32768 in E.
    change (2 ^ (8 * Z.of_nat 2)) with 65536 in E. unfold C_PROTOCOL_ID.
    pose proof (b2z_range a). pose proof (b2z_range b).
    destruct (256 * b2z a + b2z b <? 32768) eqn:F; lia.
Qed.

(** The first word, on a stream with at least four bytes. *)
Lemma first_word t w c : R t (w ++ c) -> length w = 4%nat ->
  exists t', readAll_t (t_read U) 4 t = (Ok w, t') /\ R t' c.
Proof.
  intros HR HL. destruct (readAll_enough T R (t_read U) t _ 4 HS HR) as (t1 & E & HR1).
  { rewrite app_length. lia. }
  change (Z.to_nat 4) with 4%nat in *. rewrite firstn_exact in E by exact HL.
  rewrite skipn_exact in HR1 by exact HL. exists t1. auto.
Qed.

Lemma whole_frame t f c n : R t (f ++ c) -> Z.of_nat (length f) = n ->
  exists t', readAll_t (t_read U) n t = (Ok f, t') /\ R t' c.
Proof.
  intros HR HL. destruct (readAll_enough T R (t_read U) t _ n HS HR) as (t1 & E & HR1).
  { rewrite app_length. lia. }
  rewrite firstn_exact in E by lia. rewrite skipn_exact in HR1 by lia. exists t1. auto.
Qed.

Lemma frame_start (l : list byte) : (4 <= length l)%nat ->
  exists w r, l = w ++ r /\ length w = 4%nat.
Proof. clear decompress.
  intros H. exists (firstn 4 l), (skipn 4 l). rewrite firstn_skipn. split; [reflexivity|].
  rewrite firstn_length. lia.
Qed.


Lemma binary_start_app w r : length w = 4%nat -> binary_start (w ++ r) <-> binary_start w.
Proof.
  intros H. apply list4 in H. destruct H as (a & b & c & d & ->). split.
  - intros (x & E). injection E as -> -> _. eexists. reflexivity.
  - intros (x & E). injection E as -> -> _. eexists. reflexivity.
Qed.
Lemma compact_start_app w r : length w = 4%nat -> compact_start (w ++ r) <-> compact_start w.
Proof.
  intros H. apply list4 in H. destruct H as (a & b & c & d & ->). split.
  - intros (y & x & E & K). injection E as -> -> _. exists y, [c; d]. auto.
  - intros (y & x & E & K). injection E as -> -> _. exists y. eexists. cbn. auto.
Qed.
Lemma header_start_app w r : length w = 4%nat -> header_start (w ++ r) <-> header_start w.
Proof.
  intros H. apply list4 in H. destruct H as (a & b & c & d & ->). split.
  - intros (x & E). injection E as -> -> _. eexists. reflexivity.
  - intros (x & E). injection E as -> -> _. eexists. reflexivity.
Qed.

(** What kind of client sent these bytes, by the published formats: a frame is a
    length and that many bytes, at least four. *)
Inductive client_of (c : list byte) : Z -> Prop :=
| CUnframedBinary : (4 <= length c)%nat -> binary_start c -> client_of c CT_UNFRAMED_BINARY
| CUnframedCompact : (4 <= length c)%nat -> compact_start c -> client_of c CT_UNFRAMED_COMPACT
| CHeaders f r : c = frame f ++ r -> (4 <= length f)%nat -> Z.of_nat (length f) < 2 ^ 31 ->
    header_start f -> client_of c CT_HEADERS
| CFramedBinary f r : c = frame f ++ r -> (4 <= length f)%nat -> Z.of_nat (length f) < 2 ^ 31 ->
    binary_start f -> client_of c CT_FRAMED_BINARY
| CFramedCompact f r : c = frame f ++ r -> (4 <= length f)%nat -> Z.of_nat (length f) < 2 ^ 31 ->
    compact_start f -> client_of c CT_FRAMED_COMPACT.

Definition allow (k : Z) : bool := existsb (Z.eqb k) allowed.

Lemma allow_in k : allow k = true <-> In k allowed.
Proof. clear decompress.
  unfold allow. rewrite existsb_exists. split.
  - intros (x & H & E). replace k with x by lia. exact H.
  - intros H. exists k. split; [exact H|lia].
Qed.

(** An unframed message. *)
Lemma readFrame_unframed req h w c k : R (h_trans h) (w ++ c) -> length w = 4%nat ->
  (binary_start w /\ k = CT_UNFRAMED_BINARY) \/ (compact_start w /\ k = CT_UNFRAMED_COMPACT) ->
  exists t', R t' c /\
  readFrame U decompress allowed req h = unframed U allowed k req w (with_trans h t').
Proof.
  intros HR HL Hk. destruct (first_word _ _ _ HR HL) as (t' & E & HR'). exists t'.
  split; [exact HR'|]. unfold readFrame. unfold bind at 1. unfold on_h at 1. rewrite E.
  destruct Hk as [[Hb ->]|[Hc ->]].
  - apply binary_word_iff in Hb; [|exact HL]. rewrite Hb. reflexivity.
  - pose proof Hc as Hc'. apply compact_word_iff in Hc'; [|exact HL]. rewrite Hc'.
    replace (binary_word w) with false; [reflexivity|].
    destruct (binary_word w) eqn:B; [|reflexivity].
    apply binary_word_iff in B; [|exact HL]. destruct B as (r & ->).
    destruct Hc as (y & x & K & _). discriminate K.
Qed.

(** The framed branch of readFrame, once the frame has been read. *)
Definition framed_kind (f : list byte) : SM (hdr T) unit :=
  let second_word := firstn 4 f in
  if Z.shiftr (unpack_signed 4 second_word) 16 =? HEADER_MAGIC then
    (set_client_type allowed CT_HEADERS ;;;
     fun h => match parse_header decompress f (mkst h f [] 0) with
              | (Ok payload, s) => (Ok tt, with_rbuf (px s) payload)
              | (Raise e, s) => (Raise e, px s)
              | (Diverge, s) => (Diverge, px s)
              end)%monad
  else if binary_word second_word then
    (set_client_type allowed CT_FRAMED_BINARY ;;; fun h => (Ok tt, with_rbuf h f))%monad
  else if compact_word second_word then
    (set_client_type allowed CT_FRAMED_COMPACT ;;; fun h => (Ok tt, with_rbuf h f))%monad
  else raise (ETransport TT_INVALID_CLIENT_TYPE).

Lemma readFrame_framed req h f c : R (h_trans h) (TransportFacts.frame f ++ c) ->
  Z.of_nat (length f) < 2 ^ 31 -> Z.of_nat (length f) <= h_max h ->
  exists t', R t' c /\
  readFrame U decompress allowed req h
  = if (length f <? 4)%nat then (Raise EStructError, with_trans h t')
    else framed_kind f (with_trans h t').
Proof.
  intros HR Hf Hm. unfold TransportFacts.frame in HR. rewrite <- app_assoc in HR.
  destruct (first_word _ _ _ HR (be_bytes_length 4 _)) as (t1 & E1 & HR1).
  destruct (size_word (Z.of_nat (length f)) ltac:(lia)) as (B & C & S).
  destruct (whole_frame _ _ _ _ HR1 eq_refl) as (t2 & E2 & HR2).
  exists t2. split; [exact HR2|]. unfold readFrame. unfold bind at 1. unfold on_h at 1.
  rewrite E1, B, C, S. unfold bind at 1. cbn [h_max with_trans].
  replace (Z.of_nat (length f) >? h_max h) with false by lia.
  unfold bind at 1. unfold on_h at 1. cbn [h_trans with_trans]. rewrite E2.
  rewrite firstn_length. destruct (length f <? 4)%nat eqn:L.
  - replace (Nat.min 4 (length f) =? 4)%nat with false by lia. reflexivity.
  - replace (Nat.min 4 (length f) =? 4)%nat with true by lia. reflexivity.
Qed.

Lemma readFrame_big req h n c : R (h_trans h) (be_bytes 4 n ++ c) ->
  0 <= h_max h < n -> n < 2 ^ 31 ->
  exists t', R t' c /\
  readFrame U decompress allowed req h = (Raise (ETransport TT_SIZE_LIMIT), with_trans h t').
Proof.
  intros HR Hm Hn. destruct (first_word _ _ _ HR (be_bytes_length 4 _)) as (t1 & E1 & HR1).
  destruct (size_word n ltac:(lia)) as (B & C & S).
  exists t1. split; [exact HR1|]. unfold readFrame. unfold bind at 1. unfold on_h at 1.
  rewrite E1, B, C, S. unfold bind at 1. cbn [h_max with_trans].
  replace (n >? h_max h) with true by lia. reflexivity.
Qed.

(** A negative length that is no message. *)
Lemma readFrame_negative req h w c : R (h_trans h) (w ++ c) -> length w = 4%nat ->
  unpack_signed 4 w < 0 -> 0 <= h_max h -> ~ binary_start w -> ~ compact_start w ->
  exists t', R t' c /\
  readFrame U decompress allowed req h = (Raise EStructError, with_trans h t').
Proof.
  intros HR HL Hn Hm NB NC. destruct (first_word _ _ _ HR HL) as (t1 & E1 & HR1).
  exists t1. split; [exact HR1|]. unfold readFrame. unfold bind at 1. unfold on_h at 1.
  rewrite E1. replace (binary_word w) with false.
  2:{ destruct (binary_word w) eqn:B; [|reflexivity]. apply binary_word_iff in B; [|exact HL].
      contradiction. }
  replace (compact_word w) with false.
  2:{ destruct (compact_word w) eqn:B; [|reflexivity]. apply compact_word_iff in B; [|exact HL].
      contradiction. }
  unfold bind at 1. cbn [h_max with_trans].
  replace (unpack_signed 4 w >? h_max h) with false by lia.
  unfold bind at 1. unfold on_h at 1. rewrite readAll_nothing by lia. reflexivity.
Qed.

(** Fewer bytes than promised. *)
Lemma readFrame_short req h c : R (h_trans h) c -> 0 <= h_max h ->
  (length c < 4)%nat \/
  (exists w r, c = w ++ r /\ length w = 4%nat /\ Z.of_nat (length r) < unpack_signed 4 w <= h_max h) ->
  exists e t', eof_exn e /\ R t' [] /\
  readFrame U decompress allowed req h = (Raise e, with_trans h t').
Proof.
  intros HR Hm [HL|(w & r & -> & HL & Hr)].
  - destruct (readAll_short T R (t_read U) (h_trans h) c 4 HS HR ltac:(lia)) as (e & t' & E & He & HR').
    exists e, t'. split; [exact He|]. split; [exact HR'|]. unfold readFrame. unfold bind at 1.
    unfold on_h at 1. rewrite E. reflexivity.
  - destruct (first_word _ _ _ HR HL) as (t1 & E1 & HR1).
    destruct (word_neg w HL ltac:(lia)) as [B C].
    destruct (readAll_short T R (t_read U) t1 r (unpack_signed 4 w) HS HR1 ltac:(lia))
      as (e & t' & E & He & HR').
    exists e, t'. split; [exact He|]. split; [exact HR'|]. unfold readFrame. unfold bind at 1.
    unfold on_h at 1. rewrite E1, B, C. unfold bind at 1. cbn [h_max with_trans].
    replace (unpack_signed 4 w >? h_max h) with false by lia.
    unfold bind at 1. unfold on_h at 1. cbn [h_trans with_trans]. rewrite E. reflexivity.
Qed.

(** Every stream falls into one of these cases. *)
Inductive shape (max : Z) (c : list byte) : Prop :=
| ShUnframed w r k : c = w ++ r -> length w = 4%nat ->
    (binary_start w /\ k = CT_UNFRAMED_BINARY) \/ (compact_start w /\ k = CT_UNFRAMED_COMPACT) ->
    shape max c
| ShFramed f r : c = TransportFacts.frame f ++ r -> Z.of_nat (length f) <= max ->
    Z.of_nat (length f) < 2 ^ 31 -> shape max c
| ShBig n r : c = be_bytes 4 n ++ r -> max < n -> n < 2 ^ 31 -> shape max c
| ShNegative w r : c = w ++ r -> length w = 4%nat -> unpack_signed 4 w < 0 ->
    ~ binary_start w -> ~ compact_start w -> shape max c
| ShShort : (length c < 4)%nat \/
    (exists w r, c = w ++ r /\ length w = 4%nat /\ Z.of_nat (length r) < unpack_signed 4 w <= max) ->
    shape max c.

Lemma word_be w : length w = 4%nat -> 0 <= unpack_signed 4 w -> w = be_bytes 4 (unpack_signed 4 w).
Proof. clear decompress.
  intros HL H. pose proof (be_bytes_be_val w) as E. rewrite HL in E.
  unfold unpack_signed, to_signed in *. destruct (be_val w <? 2 ^ (8 * Z.of_nat 4 - 1)) eqn:F.
  - symmetry. exact E.
  - pose proof (be_val_range w) as K. rewrite HL in K.
    change (2 ^ (8 * Z.of_nat 4)) with 4294967296 in H.
    change (256 ^ Z.of_nat 4) with 4294967296 in K. lia.
Qed.

Lemma shapes max c : 0 <= max -> shape max c.
Proof. clear decompress.
  intros Hm. destruct (Nat.lt_ge_cases (length c) 4) as [L|L]; [apply ShShort; auto|].
  destruct (frame_start c L) as (w & r & -> & HL).
  destruct (binary_word w) eqn:B.
  { apply binary_word_iff in B; [|exact HL]. eapply (ShUnframed _ _ w r); eauto. }
  destruct (compact_word w) eqn:C.
  { apply compact_word_iff in C; [|exact HL]. eapply (ShUnframed _ _ w r); eauto. }
  destruct (Z_lt_ge_dec (unpack_signed 4 w) 0) as [N|N].
  { apply (ShNegative _ _ w r); auto; intros K.
    - apply binary_word_iff in K; [congruence|exact HL].
    - apply compact_word_iff in K; [congruence|exact HL]. }
  pose proof (word_be w HL ltac:(lia)) as E.
  pose proof (unpack_signed_range 4 w ltac:(lia) HL) as Rg. unfold in_signed in Rg.
  change (2 ^ (8 * Z.of_nat 4 - 1)) with (2 ^ 31) in Rg.
  destruct (Z_lt_ge_dec max (unpack_signed 4 w)) as [G|G].
  { apply (ShBig _ _ (unpack_signed 4 w) r); [rewrite <- E; reflexivity|lia|lia]. }
  destruct (Z_lt_ge_dec (Z.of_nat (length r)) (unpack_signed 4 w)) as [S|S].
  { apply ShShort. right. exists w, r. repeat split; auto. lia. }
  apply (ShFramed _ _ (firstn (Z.to_nat (unpack_signed 4 w)) r)
           (skipn (Z.to_nat (unpack_signed 4 w)) r)).
  - unfold TransportFacts.frame. rewrite firstn_length.
    replace (Z.of_nat (Nat.min (Z.to_nat (unpack_signed 4 w)) (length r)))
      with (unpack_signed 4 w) by lia.
    rewrite <- E, <- app_assoc, firstn_skipn. reflexivity.
  - rewrite firstn_length. lia.
  - rewrite firstn_length. lia.
Qed.
End Read.
