(** C21 and C22: THeaderTransport. *)
From Coq Require Import String.
From Coq Require Import ZArith List Bool Lia.
From Coq Require Import Init.Byte.
From Coq Require Import ZifyBool ZifyNat ZifyN.
From Verif Require Import Base Bytes BytesFacts Transport TransportFacts Compact SpecCompact
  CompactFacts Header SpecHeader HeaderFacts HeaderRead.
Import ListNotations.
Open Scope Z_scope.
Open Scope list_scope.

(** * C21 *)

(** The bytes written are the published frame, in one write and a flush, for any
    state that can be sent (see [sendable]): the header fits 65535 words, flags,
    sequence id and protocol id are in range, and the frame is not too large. *)
Theorem C21_wire : forall T (U : transport T) compress h n, sendable compress h n ->
  let f := sh_frame (h_flags h) (h_seq h) (h_proto h) (h_wtransforms h) (h_wheaders h)
             (Nat.iter n compress (h_wbuf h)) in
  let p := (t_write U f ;;; t_flush U)%monad (h_trans h) in
  flush U compress h = (fst p, with_trans (with_wheaders (with_wbuf h []) []) (snd p)).
Proof.
  intros T U compress h n S f p. rewrite (flush_ok U compress h n S). unfold p, f, bind, on_h.
  cbn [h_trans with_wheaders with_wbuf]. unfold frame_of.
  destruct (t_write U _ (h_trans h)) as [[[]|e|] t]; cbn [h_trans with_trans]; [|reflexivity..].
  destruct (t_flush U t) as [r t']. reflexivity.
Qed.

(** A published frame is read back, from any stream, whatever follows it. *)
Theorem C21_read : forall T (U : transport T) R compress decompress allowed req h
    flags seq proto n hs p c,
  stream R (t_read U) -> zlib_ok compress decompress -> In CT_HEADERS allowed ->
  0 <= flags < 2 ^ 16 -> - 2 ^ 31 <= seq < 2 ^ 31 -> 0 <= proto < 2 ^ 70 ->
  NoDup (map fst hs) ->
  Z.of_nat (length (padded (sh_section proto (repeat ZLIB n) hs))) < 4 * 2 ^ 16 ->
  let b := sh_body flags seq proto (repeat ZLIB n) hs (Nat.iter n compress p) in
  Z.of_nat (length b) <= h_max h < HARD_MAX_FRAME_SIZE ->
  (forall k, (k < n)%nat -> Z.of_nat (length (Nat.iter k compress p)) < h_maxdec h) ->
  R (h_trans h) (sh_frame flags seq proto (repeat ZLIB n) hs (Nat.iter n compress p) ++ c) ->
  exists t h', readFrame U decompress allowed req h = (Ok tt, h') /\ h_trans h' = t /\ R t c
    /\ h_rbuf h' = p /\ h_rheaders h' = hs /\ h_flags h' = flags /\ h_seq h' = seq
    /\ h_proto h' = proto /\ h_client h' = CT_HEADERS
    /\ h_wbuf h' = h_wbuf h /\ h_wheaders h' = h_wheaders h
    /\ h_wtransforms h' = h_wtransforms h /\ h_max h' = h_max h /\ h_maxdec h' = h_maxdec h.
Proof.
  intros T U R compress decompress allowed req h flags seq proto n hs p c HS HZ HA Hf Hq Hp HN
    Hfit b Hb HD HR.
  unfold HARD_MAX_FRAME_SIZE in Hb.
  change (sh_frame flags seq proto (repeat ZLIB n) hs (Nat.iter n compress p))
    with (frame b) in HR.
  destruct (readFrame_framed decompress U allowed R HS req h b c HR ltac:(lia) ltac:(lia))
    as (t & HRt & E).
  assert (L : (10 <= length b)%nat).
  { unfold b. pose proof (body_length flags seq proto (repeat ZLIB n) hs
      (Nat.iter n compress p)). lia. }
  replace (length b <? 4)%nat with false in E by lia.
  exists t. unfold framed_kind in E.
  replace (Z.shiftr (unpack_signed 4 (firstn 4 b)) 16 =? HEADER_MAGIC) with true in E.
  2:{ symmetry. apply header_word_iff; [rewrite firstn_length; lia|].
      unfold b, sh_body. cbn [app firstn]. eexists. reflexivity. }
  unfold bind, set_client_type in E.
  pose proof (proj2 (allow_in allowed CT_HEADERS) HA) as AL. unfold allow in AL.
  rewrite AL in E.
  destruct (parse_ok compress decompress flags seq proto n hs p
    (with_client (with_trans h t) CT_HEADERS) Hf Hq Hp HN Hfit HZ HD) as (s & Es & Ep).
  fold b in Es. rewrite Es in E. rewrite Ep in E. cbv iota in E.
  eexists. split; [exact E|]. cbn. repeat split. exact HRt.
Qed.

(** A conversation.  The sender has its protocol id and transforms, and for each
    message sets flags, sequence id and any headers, writes the payload in
    pieces and flushes, on a transport that collects the bytes. *)
Record hmsg := mkhmsg {
  m_flags : Z; m_seq : Z; m_headers : headers; m_pieces : list (list byte) }.

Definition collect : transport (list byte) :=
  mktransport _ (fun _ => ret []) (fun b t => (Ok tt, t ++ b)) (ret tt).

Definition send_one (compress : list byte -> list byte) (m : hmsg) : SM (hdr (list byte)) unit :=
  ((fun h => (Ok tt, with_seq (with_flags h (m_flags m)) (m_seq m))) ;;;
   mapM_ (fun kv => set_header (fst kv) (snd kv)) (m_headers m) ;;;
   mapM_ write (m_pieces m) ;;;
   flush collect compress)%monad.

(** The dictionary after setting headers one after the other: the last value of
    every key. *)
Definition dict_of (l : headers) (k : list byte) : option (list byte) :=
  fold_left (fun o kv => if bytes_eqb (fst kv) k then Some (snd kv) else o) l None.
Definition looked_up (l : headers) (k : list byte) : option (list byte) :=
  match find (fun kv => bytes_eqb (fst kv) k) l with Some kv => Some (snd kv) | None => None end.

Definition built (l : headers) : headers :=
  fold_left (fun a kv => hset (fst kv) (snd kv) a) l [].

Lemma bytes_eqb_refl a : bytes_eqb a a = true.
Proof. destruct (bytes_eqb_spec a a); [reflexivity|congruence]. Qed.

Lemma looked_hset k v l x : looked_up (hset k v l) x
  = if bytes_eqb k x then Some v else looked_up l x.
Proof.
  unfold looked_up. induction l as [|[k' v'] l IH].
  - cbn. destruct (bytes_eqb k x); reflexivity.
  - cbn [hset]. destruct (bytes_eqb_spec k' k) as [->|N].
    + cbn. destruct (bytes_eqb k x); reflexivity.
    + cbn [find fst snd]. destruct (bytes_eqb_spec k' x) as [->|N'].
      * destruct (bytes_eqb_spec k x) as [->|_]; [congruence|reflexivity].
      * exact IH.
Qed.

Lemma built_dict l k : looked_up (built l) k = dict_of l k.
Proof.
  unfold built, dict_of.
  enough (G : forall acc o, looked_up acc k = o ->
    looked_up (fold_left (fun a kv => hset (fst kv) (snd kv) a) l acc) k
    = fold_left (fun o kv => if bytes_eqb (fst kv) k then Some (snd kv) else o) l o)
    by (apply G; reflexivity).
  induction l as [|kv l IH]; intros acc o E; [exact E|]. cbn [fold_left]. apply IH.
  rewrite looked_hset, E. reflexivity.
Qed.

Lemma hset_keys k v l x : In x (map fst (hset k v l)) -> x = k \/ In x (map fst l).
Proof.
  induction l as [|[k' v'] l IH]; [intros [<-|[]]; auto|]. cbn [hset].
  destruct (bytes_eqb k' k); cbn; intros [<-|H]; auto. destruct (IH H); auto.
Qed.

Lemma hset_nodup k v l : NoDup (map fst l) -> NoDup (map fst (hset k v l)).
Proof.
  induction l as [|[k' v'] l IH]; intros H; [repeat constructor; intros []|]. cbn [hset].
  cbn in H. inversion H; subst. destruct (bytes_eqb_spec k' k) as [->|N]; [exact H|].
  cbn. constructor; [|apply IH; assumption]. intros Hi. apply hset_keys in Hi.
  destruct Hi; [congruence|contradiction].
Qed.

Lemma built_nodup l : NoDup (map fst (built l)).
Proof.
  unfold built. enough (G : forall acc, NoDup (map fst acc) ->
    NoDup (map fst (fold_left (fun a kv => hset (fst kv) (snd kv) a) l acc)))
    by (apply G; constructor).
  induction l as [|kv l IH]; intros acc H; [exact H|]. cbn. apply IH, hset_nodup, H.
Qed.

(** What a message needs to go through: as in [C21_wire] and [C21_read]. *)
Record fits (compress : list byte -> list byte) (proto : Z) (n : nat) (smax rmax rdec : Z)
    (m : hmsg) : Prop := {
  ft_flags : 0 <= m_flags m < 2 ^ 16;
  ft_seq : - 2 ^ 31 <= m_seq m < 2 ^ 31;
  ft_len : Z.of_nat (length (padded (sh_section proto (repeat ZLIB n) (built (m_headers m)))))
           < 4 * 2 ^ 16;
  ft_size : Z.of_nat (length (sh_body (m_flags m) (m_seq m) proto (repeat ZLIB n)
              (built (m_headers m)) (Nat.iter n compress (concat (m_pieces m)))))
            <= Z.min smax rmax;
  ft_dec : forall k, (k < n)%nat ->
             Z.of_nat (length (Nat.iter k compress (concat (m_pieces m)))) < rdec }.

Definition wire (compress : list byte -> list byte) (proto : Z) (n : nat) (m : hmsg) : list byte :=
  sh_frame (m_flags m) (m_seq m) proto (repeat ZLIB n) (built (m_headers m))
    (Nat.iter n compress (concat (m_pieces m))).

Lemma set_headers_ok l : forall (h : hdr (list byte)),
  mapM_ (fun kv => set_header (fst kv) (snd kv)) l h
  = (Ok tt, with_wheaders h (fold_left (fun a kv => hset (fst kv) (snd kv) a) l (h_wheaders h))).
Proof.
  induction l as [|kv l IH]; intros h; [destruct h; reflexivity|].
  cbn [mapM_ fold_left]. unfold bind, set_header at 1. fold (mapM_ (S := hdr (list byte))
    (fun kv => set_header (fst kv) (snd kv))). rewrite IH. reflexivity.
Qed.

Lemma writes_ok l : forall (h : hdr (list byte)),
  mapM_ write l h = (Ok tt, with_wbuf h (h_wbuf h ++ concat l)).
Proof.
  induction l as [|b l IH]; intros h; [cbn; rewrite app_nil_r; destruct h; reflexivity|].
  cbn [mapM_ concat]. unfold bind, write at 1. fold (mapM_ (S := hdr (list byte)) write).
  rewrite IH. cbn. rewrite <- app_assoc. reflexivity.
Qed.

Lemma send_one_ok compress proto n smax rmax rdec m h :
  fits compress proto n smax rmax rdec m -> 0 <= proto < 2 ^ 70 ->
  smax < HARD_MAX_FRAME_SIZE ->
  h_client h = CT_HEADERS -> h_wbuf h = [] -> h_wheaders h = [] ->
  h_wtransforms h = repeat ZLIB n -> h_proto h = proto -> h_max h = smax ->
  exists h', send_one compress m h = (Ok tt, h')
    /\ h_trans h' = h_trans h ++ wire compress proto n m
    /\ h_client h' = CT_HEADERS /\ h_wbuf h' = [] /\ h_wheaders h' = []
    /\ h_wtransforms h' = repeat ZLIB n /\ h_proto h' = proto /\ h_max h' = smax.
Proof.
  intros F Hp Hmax E1 E2 E3 E4 E5 E6. destruct F. unfold send_one. unfold bind at 1.
  unfold bind at 1. rewrite set_headers_ok. unfold bind at 1. rewrite writes_ok.
  set (h1 := with_wbuf _ _).
  assert (S : sendable compress h1 n).
  { pose proof (body_length (m_flags m) (m_seq m) proto (repeat ZLIB n) (built (m_headers m))
      (Nat.iter n compress (concat (m_pieces m)))) as BL.
    split; unfold h1; cbn [h_client h_wtransforms h_proto h_flags h_seq h_wheaders h_wbuf h_max
      with_wbuf with_wheaders with_seq with_flags]; rewrite ?E1, ?E2, ?E3, ?E4, ?E5, ?E6;
      fold (built (m_headers m)); auto; cbn [app]; lia. }
  pose proof (C21_wire _ collect compress h1 n S) as W. cbv zeta in W. rewrite W. clear W.
  eexists. split; [reflexivity|]. unfold h1, wire. cbn. rewrite E2, E3, E4, E5.
  fold (built (m_headers m)). cbn [app]. auto 10.
Qed.

Definition send_all compress ms : SM (hdr (list byte)) unit := mapM_ (send_one compress) ms.

(** The receiver takes [k] frames, and what it then has to hand out each time. *)
Fixpoint receive {T} (U : transport T) decompress allowed (k : nat) (h : hdr T)
  : list (list byte * headers * Z * Z * Z) * hdr T :=
  match k with
  | O => ([], h)
  | S k' =>
      match readFrame U decompress allowed 0 h with
      | (Ok _, h') =>
          let (l, h'') := receive U decompress allowed k' h' in
          ((h_rbuf h', h_rheaders h', h_flags h', h_seq h', h_proto h') :: l, h'')
      | (_, h') => ([], h')
      end
  end.

Theorem C21_round_trip : forall compress decompress proto n smax rmax rdec ms h
    T (U : transport T) R allowed (r : hdr T) t0 rest,
  zlib_ok compress decompress -> 0 <= proto < 2 ^ 70 ->
  smax < HARD_MAX_FRAME_SIZE -> rmax < HARD_MAX_FRAME_SIZE ->
  Forall (fits compress proto n smax rmax rdec) ms ->
  (* the sender *)
  h = mkhdr [] CT_HEADERS [] [] [] [] (repeat ZLIB n) 0 0 proto smax smax ->
  (* the receiver: any history, any stream delivering what was sent *)
  stream R (t_read U) -> In CT_HEADERS allowed -> h_max r = rmax -> h_maxdec r = rdec ->
  h_trans r = t0 -> R t0 (h_trans (snd (send_all compress ms h)) ++ rest) ->
  fst (send_all compress ms h) = Ok tt
  /\ exists r', receive U decompress allowed (length ms) r
       = (map (fun m => (concat (m_pieces m), built (m_headers m), m_flags m, m_seq m, proto)) ms,
          r')
     /\ R (h_trans r') rest.
Proof.
  intros compress decompress proto n smax rmax rdec ms h T U R allowed r t0 rest HZ Hp Hs Hr
    HF Eh HS HA E1 E2 E3 HR.
  assert (Snd : forall ms h, Forall (fits compress proto n smax rmax rdec) ms ->
    h_client h = CT_HEADERS -> h_wbuf h = [] -> h_wheaders h = [] ->
    h_wtransforms h = repeat ZLIB n -> h_proto h = proto -> h_max h = smax ->
    fst (send_all compress ms h) = Ok tt
    /\ h_trans (snd (send_all compress ms h))
       = h_trans h ++ concat (map (wire compress proto n) ms)).
  { clear - Hp Hs. induction ms as [|m ms IH]; intros h HF A B C D E G.
    - cbn. rewrite app_nil_r. auto.
    - inversion HF; subst. unfold send_all. cbn [mapM_].
      fold (mapM_ (send_one compress)). fold (send_all compress ms). unfold bind.
      destruct (send_one_ok compress (h_proto h) n (h_max h) rmax rdec m h) as
        (h' & Es & H1' & K1 & K2 & K3 & K4 & K5 & K6); auto.
      rewrite Es. destruct (IH h') as [I1 I2]; auto; try congruence.
      split; [exact I1|]. rewrite I2, H1', <- app_assoc. reflexivity. }
  destruct (Snd ms h HF) as [S1 S2]; try (subst h; reflexivity).
  split; [exact S1|]. rewrite S2 in HR. subst h. cbn [h_trans app] in HR. subst t0.
  clear S1 S2 Snd. revert r E1 E2 HR. induction HF as [|m ms Fm HF IH]; intros r E1 E2 HR.
  - exists r. split; [reflexivity|exact HR].
  - cbn [map concat length receive] in *. rewrite <- app_assoc in HR. destruct Fm.
    destruct (C21_read T U R compress decompress allowed 0 r (m_flags m) (m_seq m) proto n
      (built (m_headers m)) (concat (m_pieces m))
      (concat (map (wire compress proto n) ms) ++ rest))
      as (t & h' & Er & Et & HR' & B1 & B2 & B3 & B4 & B5 & B6 & B7 & B8 & B9 & B10 & B11);
      auto; try lia.
    { apply built_nodup. }
    { intros k Hk. rewrite E2. apply ft_dec0. exact Hk. }
    rewrite Er. subst t. destruct (IH h') as (r' & Ir & HRr); try congruence.
    rewrite Ir, B1, B2, B3, B4, B5. exists r'. split; [reflexivity|exact HRr].
Qed.

(** The headers received are, as a dictionary, the last values set. *)
Theorem C21_headers : forall l k,
  looked_up (built l) k = dict_of l k /\ NoDup (map fst (built l)).
Proof. intros l k. split; [apply built_dict|apply built_nodup]. Qed.

(** After a frame, reads hand out its payload piece by piece. *)
Theorem C21_payload : forall T (U : transport T) decompress allowed h p q n,
  h_rbuf h = p ++ q -> Z.of_nat (length p) = n ->
  read U decompress allowed n h = (Ok p, with_rbuf h q).
Proof.
  intros T U decompress allowed h p q n Hp <-. unfold read, bind, hrbuf_read, bytesio_read.
  replace (Z.of_nat (length p) <? 0) with false by lia. rewrite Nat2Z.id, Hp.
  rewrite firstn_exact, skipn_exact by reflexivity.
  replace (Z.of_nat (length p) - Z.of_nat (length p) =? 0) with true by lia. reflexivity.
Qed.

(** Headers that do not fit: the flush raises, nothing is written, and the
    payload and headers are gone. *)
Theorem C21_too_long : forall T (U : transport T) compress h n,
  h_client h = CT_HEADERS -> h_wtransforms h = repeat ZLIB n ->
  0 <= h_proto h < 2 ^ 70 -> 0 <= h_flags h < 2 ^ 16 -> - 2 ^ 31 <= h_seq h < 2 ^ 31 ->
  4 * 2 ^ 16 <= Z.of_nat (length (padded (sh_section (h_proto h) (h_wtransforms h)
                                            (h_wheaders h)))) < 2 ^ 30 ->
  flush U compress h = (Raise EStructError, with_wheaders (with_wbuf h []) []).
Proof.
  intros T U compress h n E1 E2 Hp Hf Hq HL. unfold flush. unfold bind at 1. unfold bind at 1.
  unfold bind at 1. rewrite E1. change (CT_HEADERS =? CT_HEADERS) with true. cbv iota.
  set (h0 := with_wbuf h []).
  assert (E : header_bytes h0
    = Ok (padded (sh_section (h_proto h) (h_wtransforms h) (h_wheaders h)))).
  { apply (header_bytes_ok h0).
    - change (128 ^ 10) with (2 ^ 70). exact Hp.
    - intros i Hi. cbn in Hi. rewrite E2 in Hi. apply repeat_spec in Hi. subst i.
      unfold ZLIB. lia.
    - pose proof (padded_length (sh_section (h_proto h) (h_wtransforms h) (h_wheaders h))) as K.
      unfold h0. cbn [h_proto h_wtransforms h_wheaders with_wbuf]. lia. }
  set (hb := padded _) in *.
  unfold header_frame, bind at 1. unfold bind at 1.
  change (h_wtransforms h0) with (h_wtransforms h). rewrite E2 at 1.
  rewrite write_transforms_ok. unfold bind at 1. unfold lift at 1. rewrite E.
  change (h_flags h0) with (h_flags h). change (h_seq h0) with (h_seq h).
  unfold bind.
  unfold pack_signed at 1.
  destruct (_ && _); [|reflexivity]. unfold ret at 1.
  rewrite pack_unsigned_ok by (unfold HEADER_MAGIC; cbn; lia).
  rewrite pack_unsigned_ok by (change (256 ^ Z.of_nat 2) with (2 ^ 16); lia).
  rewrite pack_signed_ok by (unfold in_signed; change (8 * Z.of_nat 4 - 1) with 31; lia).
  unfold pack_unsigned. change (2 ^ (8 * Z.of_nat 2)) with (2 ^ 16).
  replace ((0 <=? Z.of_nat (length hb) / 4) && (Z.of_nat (length hb) / 4 <? 2 ^ 16))
    with false by lia. reflexivity.
Qed.

(** * C22 *)

(** A frame longer than the maximum is refused with SIZE_LIMIT when its length
    has been read and nothing more: the stream still has the body, and the
    transport is otherwise as it was. *)
Theorem C22_too_large : forall T (U : transport T) R decompress allowed req h n c,
  stream R (t_read U) -> R (h_trans h) (be_bytes 4 n ++ c) ->
  0 <= h_max h < n -> n < 2 ^ 31 ->
  exists t, readFrame U decompress allowed req h
    = (Raise (ETransport TT_SIZE_LIMIT), with_trans h t) /\ R t c.
Proof.
  intros T U R decompress allowed req h n c HS HR Hm Hn.
  destruct (readFrame_big decompress U allowed R HS req h n c HR Hm Hn) as (t & A & B).
  exists t. auto.
Qed.

(** Data of a client type not on the list is refused, and nothing but the
    position in the stream changes.  (A frame that is too large is refused for
    its size first.) *)
Theorem C22_refused : forall T (U : transport T) R decompress allowed req h c k,
  stream R (t_read U) -> R (h_trans h) c -> client_of c k -> ~ In k allowed ->
  (forall f r, c = frame f ++ r -> Z.of_nat (length f) < 2 ^ 31 ->
     Z.of_nat (length f) <= h_max h) ->
  exists t, readFrame U decompress allowed req h
    = (Raise (ETransport TT_INVALID_CLIENT_TYPE), with_trans h t).
Proof.
  intros T U R decompress allowed req h c k HS HR Hk HA Hmax.
  assert (NA : allow allowed k = false).
  { destruct (allow allowed k) eqn:E; [|reflexivity]. apply allow_in in E. contradiction. }
  unfold allow in NA.
  assert (UF : (4 <= length c)%nat ->
    (binary_start c /\ k = CT_UNFRAMED_BINARY) \/ (compact_start c /\ k = CT_UNFRAMED_COMPACT) ->
    exists t, readFrame U decompress allowed req h
      = (Raise (ETransport TT_INVALID_CLIENT_TYPE), with_trans h t)).
  { intros HL Hs. destruct (frame_start c HL) as (w & r & -> & Hw).
    rewrite binary_start_app, compact_start_app in Hs by exact Hw.
    destruct (readFrame_unframed decompress U allowed R HS req h w r k HR Hw Hs) as (t & _ & ->).
    exists t. unfold unframed, bind, set_client_type. rewrite NA. reflexivity. }
  assert (FR : forall f r, c = frame f ++ r -> (4 <= length f)%nat -> Z.of_nat (length f) < 2 ^ 31 ->
    (header_start f /\ k = CT_HEADERS) \/ (binary_start f /\ k = CT_FRAMED_BINARY)
      \/ (compact_start f /\ k = CT_FRAMED_COMPACT) ->
    exists t, readFrame U decompress allowed req h
      = (Raise (ETransport TT_INVALID_CLIENT_TYPE), with_trans h t)).
  { intros f r -> HL Hlt Hs.
    destruct (readFrame_framed decompress U allowed R HS req h f r HR Hlt (Hmax f r eq_refl Hlt))
      as (t & _ & ->).
    replace (length f <? 4)%nat with false by lia. exists t. unfold framed_kind.
    destruct (frame_start f HL) as (w & r' & -> & Hw). rewrite firstn_exact by exact Hw.
    rewrite header_start_app, binary_start_app, compact_start_app in Hs by exact Hw.
    destruct (Z.shiftr (unpack_signed 4 w) 16 =? HEADER_MAGIC) eqn:EH.
    { apply header_word_iff in EH; [|exact Hw]. destruct EH as (x & Ex).
      destruct Hs as [[_ ->]|[[(y & K) _]|[(y & z & K & _) _]]]; [|congruence..].
      unfold bind, set_client_type. rewrite NA. reflexivity. }
    destruct (binary_word w) eqn:EB.
    { apply binary_word_iff in EB; [|exact Hw]. destruct EB as (x & Ex).
      destruct Hs as [[(y & K) _]|[[_ ->]|[(y & z & K & _) _]]]; [congruence| |congruence].
      unfold bind, set_client_type. rewrite NA. reflexivity. }
    destruct (compact_word w) eqn:EC; [|reflexivity].
    apply compact_word_iff in EC; [|exact Hw]. destruct EC as (x & x' & Ex & _).
    destruct Hs as [[(y & K) _]|[[(y & K) _]|[_ ->]]]; [congruence..|].
    unfold bind, set_client_type. rewrite NA. reflexivity. }
  destruct Hk as [HL Hs|HL Hs|f r E HL Hlt Hs|f r E HL Hlt Hs|f r E HL Hlt Hs]; eauto 6.
Qed.

(** When a frame is accepted its client type is what the bytes say and is on the
    list, and a framed message is no longer than the maximum. *)
Theorem C22_accepted : forall T (U : transport T) R decompress allowed req h h' c,
  stream R (t_read U) -> R (h_trans h) c -> 0 <= h_max h ->
  readFrame U decompress allowed req h = (Ok tt, h') ->
  client_of c (h_client h') /\ In (h_client h') allowed
  /\ (h_client h' = CT_UNFRAMED_BINARY \/ h_client h' = CT_UNFRAMED_COMPACT
      \/ exists f r, c = frame f ++ r /\ Z.of_nat (length f) <= h_max h /\ R (h_trans h') r).
Proof.
  intros T U R decompress allowed req h h' c HS HR Hm E.
  destruct (shapes (h_max h) c Hm) as [w r k -> Hw Hk|f r -> Hle Hlt|n r -> Hn Hlt
    |w r -> Hw Hn NB NC|Hsh].
  - destruct (readFrame_unframed decompress U allowed R HS req h w r k HR Hw Hk) as (t & HRt & Er).
    rewrite Er in E. unfold unframed, bind, set_client_type in E.
    destruct (existsb (Z.eqb k) allowed) eqn:A; [|discriminate E].
    assert (C : h_client h' = k).
    { destruct (req - 4 >? 0).
      - unfold on_h in E. destruct (t_read U (req - 4) _) as [[l|e|] t2]; try discriminate E.
        injection E as <-. reflexivity.
      - injection E as <-. reflexivity. }
    rewrite C. split; [|split; [apply allow_in; exact A|]].
    + destruct Hk as [[Hb ->]|[Hc ->]]; [apply CUnframedBinary|apply CUnframedCompact];
        try (rewrite app_length; lia).
      * apply binary_start_app; assumption.
      * apply compact_start_app; assumption.
    + destruct Hk as [[_ ->]|[_ ->]]; auto.
  - destruct (readFrame_framed decompress U allowed R HS req h f r HR Hlt Hle) as (t & HRt & Er).
    rewrite Er in E. destruct (length f <? 4)%nat eqn:L; [discriminate E|].
    destruct (frame_start f ltac:(lia)) as (w & r' & Ef & Hw).
    unfold framed_kind in E. cbv zeta in E.
    assert (F4 : firstn 4 f = w) by (rewrite Ef; apply firstn_exact; exact Hw).
    rewrite !F4 in E.
    destruct (Z.shiftr (unpack_signed 4 w) 16 =? HEADER_MAGIC) eqn:EH.
    { apply header_word_iff in EH; [|exact Hw]. unfold bind, set_client_type in E.
      destruct (existsb (Z.eqb CT_HEADERS) allowed) eqn:A; [|discriminate E].
      pose proof (parse_ends decompress f (with_client (with_trans h t) CT_HEADERS)) as PE.
      destruct (parse_header decompress f _) as [[p|e|] s]; try discriminate E.
      injection E as <-. destruct PE as (P1 & P2 & _). cbn in P1, P2. cbn. rewrite P1, P2.
      split; [apply (CHeaders _ f r); auto; [lia|rewrite Ef; apply header_start_app; assumption]|].
      split; [apply allow_in; exact A|]. right; right. exists f, r. auto. }
    destruct (binary_word w) eqn:EB.
    { apply binary_word_iff in EB; [|exact Hw]. unfold bind, set_client_type in E.
      destruct (existsb (Z.eqb CT_FRAMED_BINARY) allowed) eqn:A; [|discriminate E].
      injection E as <-. cbn.
      split; [apply (CFramedBinary _ f r); auto; [lia|rewrite Ef; apply binary_start_app; assumption]|].
      split; [apply allow_in; exact A|]. right; right. exists f, r. auto. }
    destruct (compact_word w) eqn:EC; [|discriminate E].
    apply compact_word_iff in EC; [|exact Hw]. unfold bind, set_client_type in E.
    destruct (existsb (Z.eqb CT_FRAMED_COMPACT) allowed) eqn:A; [|discriminate E].
    injection E as <-. cbn.
    split; [apply (CFramedCompact _ f r); auto; [lia|rewrite Ef; apply compact_start_app; assumption]|].
    split; [apply allow_in; exact A|]. right; right. exists f, r. auto.
  - destruct (readFrame_big decompress U allowed R HS req h n r HR ltac:(lia) Hlt) as (t & _ & Er).
    congruence.
  - destruct (readFrame_negative decompress U allowed R HS req h w r HR Hw Hn Hm NB NC)
      as (t & _ & Er). congruence.
  - destruct (readFrame_short decompress U allowed R HS req h c HR Hm Hsh) as (e & t & _ & _ & Er).
    congruence.
Qed.

(** An allowed framed client of one of the older kinds is accepted, and its
    message handed out as it is. *)
Theorem C22_framed_ok : forall T (U : transport T) R decompress allowed req h f c k,
  stream R (t_read U) -> R (h_trans h) (frame f ++ c) ->
  4 <= Z.of_nat (length f) <= h_max h -> h_max h < HARD_MAX_FRAME_SIZE ->
  (binary_start f /\ k = CT_FRAMED_BINARY) \/ (compact_start f /\ k = CT_FRAMED_COMPACT) ->
  In k allowed ->
  exists t, readFrame U decompress allowed req h
    = (Ok tt, with_rbuf (with_client (with_trans h t) k) f) /\ R t c.
Proof.
  intros T U R decompress allowed req h f c k HS HR Hf Hm Hk HA. unfold HARD_MAX_FRAME_SIZE in Hm.
  destruct (readFrame_framed decompress U allowed R HS req h f c HR ltac:(lia) ltac:(lia))
    as (t & HRt & ->).
  exists t. split; [|exact HRt]. replace (length f <? 4)%nat with false by lia.
  unfold framed_kind. destruct (frame_start f ltac:(lia)) as (w & r' & Ef & Hw).
  assert (F4 : firstn 4 f = w) by (rewrite Ef; apply firstn_exact; exact Hw).
  cbv zeta. rewrite !F4.
  rewrite Ef, binary_start_app, compact_start_app in Hk by exact Hw.
  apply allow_in in HA. unfold allow in HA.
  destruct (Z.shiftr (unpack_signed 4 w) 16 =? HEADER_MAGIC) eqn:EH.
  { apply header_word_iff in EH; [|exact Hw]. destruct EH as (x & Ex).
    destruct Hk as [[(y & K) _]|[(y & z & K & _) _]]; congruence. }
  destruct (binary_word w) eqn:EB.
  { apply binary_word_iff in EB; [|exact Hw]. destruct EB as (x & Ex).
    destruct Hk as [[_ ->]|[(y & z & K & _) _]]; [|congruence].
    unfold bind, set_client_type. rewrite HA. reflexivity. }
  destruct Hk as [[K _]|[K ->]].
  { apply binary_word_iff in K; [congruence|exact Hw]. }
  apply compact_word_iff in K; [|exact Hw]. rewrite K.
  unfold bind, set_client_type. rewrite HA. reflexivity.
Qed.

(** readFrame always ends, whatever the stream. *)
Theorem C22_terminates : forall T (U : transport T) R decompress allowed req h c,
  stream R (t_read U) -> R (h_trans h) c -> 0 <= h_max h ->
  fst (readFrame U decompress allowed req h) <> Diverge.
Proof.
  intros T U R decompress allowed req h c HS HR Hm.
  destruct (shapes (h_max h) c Hm) as [w r k -> Hw Hk|f r -> Hle Hlt|n r -> Hn Hlt
    |w r -> Hw Hn NB NC|Hsh].
  - destruct (readFrame_unframed decompress U allowed R HS req h w r k HR Hw Hk) as (t & HRt & Er).
    rewrite Er. unfold unframed, bind, set_client_type.
    destruct (existsb (Z.eqb k) allowed); [|discriminate].
    destruct (req - 4 >? 0) eqn:Q; [|discriminate].
    unfold on_h. cbn [h_trans with_client with_trans].
    pose proof (HS t r (req - 4) HRt ltac:(lia)) as K.
    destruct (t_read U (req - 4) t) as [[l|e|] t2]; [discriminate|discriminate|destruct K].
  - destruct (readFrame_framed decompress U allowed R HS req h f r HR Hlt Hle) as (t & HRt & Er).
    rewrite Er. destruct (length f <? 4)%nat; [discriminate|].
    unfold framed_kind, bind, set_client_type.
    destruct (_ =? HEADER_MAGIC).
    { destruct (existsb _ allowed); [|discriminate].
      pose proof (parse_ends decompress f (with_client (with_trans h t) CT_HEADERS)) as PE.
      destruct (parse_header decompress f _) as [[p|e|] s]; [discriminate|discriminate|destruct PE]. }
    destruct (binary_word _); [destruct (existsb _ allowed); discriminate|].
    destruct (compact_word _); [destruct (existsb _ allowed); discriminate|discriminate].
  - destruct (readFrame_big decompress U allowed R HS req h n r HR ltac:(lia) Hlt) as (t & _ & ->).
    discriminate.
  - destruct (readFrame_negative decompress U allowed R HS req h w r HR Hw Hn Hm NB NC)
      as (t & _ & ->). discriminate.
  - destruct (readFrame_short decompress U allowed R HS req h c HR Hm Hsh) as (e & t & _ & _ & ->).
    discriminate.
Qed.

(** What was buffered, the client type and the write side survive every failure,
    except that the type may have changed to another allowed one. *)
Theorem C22_failure : forall T (U : transport T) R decompress allowed req h h' c e,
  stream R (t_read U) -> R (h_trans h) c -> 0 <= h_max h ->
  readFrame U decompress allowed req h = (Raise e, h') ->
  (h_client h' = h_client h \/ In (h_client h') allowed)
  /\ h_rbuf h' = h_rbuf h /\ h_wbuf h' = h_wbuf h /\ h_wheaders h' = h_wheaders h
  /\ h_wtransforms h' = h_wtransforms h /\ h_max h' = h_max h /\ h_maxdec h' = h_maxdec h.
Proof.
  intros T U R decompress allowed req h h' c e HS HR Hm E.
  destruct (shapes (h_max h) c Hm) as [w r k -> Hw Hk|f r -> Hle Hlt|n r -> Hn Hlt
    |w r -> Hw Hn NB NC|Hsh].
  - destruct (readFrame_unframed decompress U allowed R HS req h w r k HR Hw Hk) as (t & HRt & Er).
    rewrite Er in E. unfold unframed, bind, set_client_type in E.
    destruct (existsb (Z.eqb k) allowed) eqn:A.
    + apply allow_in in A. destruct (req - 4 >? 0) eqn:Q; [|discriminate].
      unfold on_h in E. destruct (t_read U (req - 4) _) as [[l|x|] t2]; try discriminate E.
      injection E as <- <-. cbn. auto 10.
    + injection E as <- <-. cbn. auto 10.
  - destruct (readFrame_framed decompress U allowed R HS req h f r HR Hlt Hle) as (t & HRt & Er).
    rewrite Er in E. destruct (length f <? 4)%nat; [injection E as <- <-; cbn; auto 10|].
    unfold framed_kind, bind, set_client_type in E.
    destruct (_ =? HEADER_MAGIC).
    { destruct (existsb _ allowed) eqn:A; [|injection E as <- <-; cbn; auto 10].
      apply allow_in in A.
      pose proof (parse_ends decompress f (with_client (with_trans h t) CT_HEADERS)) as PE.
      destruct (parse_header decompress f _) as [[p|x|] s]; try discriminate E.
      injection E as <- <-. destruct PE as (_ & P2 & P3 & P4 & P5 & P6 & P7 & P8).
      cbn in *. rewrite P2. auto 10. }
    destruct (binary_word _);
      [destruct (existsb _ allowed); [discriminate|injection E as <- <-; cbn; auto 10]|].
    destruct (compact_word _);
      [destruct (existsb _ allowed); [discriminate|injection E as <- <-; cbn; auto 10]|].
    injection E as <- <-; cbn; auto 10.
  - destruct (readFrame_big decompress U allowed R HS req h n r HR ltac:(lia) Hlt) as (t & _ & Er).
    rewrite Er in E. injection E as <- <-; cbn; auto 10.
  - destruct (readFrame_negative decompress U allowed R HS req h w r HR Hw Hn Hm NB NC)
      as (t & _ & Er). rewrite Er in E. injection E as <- <-; cbn; auto 10.
  - destruct (readFrame_short decompress U allowed R HS req h c HR Hm Hsh) as (x & t & _ & _ & Er).
    rewrite Er in E. injection E as <- <-; cbn; auto 10.
Qed.

(** The limits stay what set_max_frame_size and set_max_decompressed_size let
    through, however they are called. *)
Theorem C22_set_max : forall T (t : T) proto sizes,
  let h := snd (mapM_ (fun z h => (Ok tt, snd (set_max_decompressed_size (snd z)
                                             (snd (set_max_frame_size (fst z) h)))))
                  sizes (hdr_init t proto)) in
  0 < h_max h < 2 ^ 30 - 1 /\ 0 < h_maxdec h <= 2 ^ 30 - 1.
Proof.
  intros T t proto sizes h. subst h.
  enough (G : forall h : hdr T, 0 < h_max h < 2 ^ 30 - 1 /\ 0 < h_maxdec h <= 2 ^ 30 - 1 ->
    let h' := snd (mapM_ (fun z h => (Ok tt, snd (set_max_decompressed_size (snd z)
                                             (snd (set_max_frame_size (fst z) h))))) sizes h) in
    0 < h_max h' < 2 ^ 30 - 1 /\ 0 < h_maxdec h' <= 2 ^ 30 - 1).
  { apply G. cbn. unfold DEFAULT_MAX_FRAME_SIZE. lia. }
  induction sizes as [|[a b] l IH]; intros h H; [exact H|]. cbn [mapM_]. unfold bind. apply IH.
  cbn [fst snd]. unfold set_max_frame_size, set_max_decompressed_size, HARD_MAX_FRAME_SIZE.
  destruct ((0 <? b) && _) eqn:B; cbn [snd]; destruct ((0 <? a) && _) eqn:A;
    cbn [snd h_max h_maxdec with_max with_maxdec]; lia.
Qed.

(** What a frame unpacks to is bounded by the two limits, given that zlib keeps
    the one it is given. *)
Theorem C22_decompressed : forall T (U : transport T) R decompress allowed req h h' c,
  stream R (t_read U) -> R (h_trans h) c -> 0 <= h_max h -> 0 < h_maxdec h ->
  zlib_bounded decompress ->
  readFrame U decompress allowed req h = (Ok tt, h') ->
  h_client h' <> CT_UNFRAMED_BINARY -> h_client h' <> CT_UNFRAMED_COMPACT ->
  Z.of_nat (length (h_rbuf h')) <= Z.max (h_max h) (h_maxdec h).
Proof.
  intros T U R decompress allowed req h h' c HS HR Hm Hd HZ E N1 N2.
  destruct (shapes (h_max h) c Hm) as [w r k -> Hw Hk|f r -> Hle Hlt|n r -> Hn Hlt
    |w r -> Hw Hn NB NC|Hsh].
  - exfalso.
    destruct (readFrame_unframed decompress U allowed R HS req h w r k HR Hw Hk) as (t & _ & Er).
    rewrite Er in E. unfold unframed, bind, set_client_type in E.
    destruct (existsb (Z.eqb k) allowed); [|discriminate E].
    assert (C : h_client h' = k).
    { destruct (req - 4 >? 0).
      - unfold on_h in E. destruct (t_read U (req - 4) _) as [[l|e|] t2]; try discriminate E.
        injection E as <-. reflexivity.
      - injection E as <-. reflexivity. }
    destruct Hk as [[_ ->]|[_ ->]]; congruence.
  - destruct (readFrame_framed decompress U allowed R HS req h f r HR Hlt Hle) as (t & _ & Er).
    rewrite Er in E. destruct (length f <? 4)%nat; [discriminate E|].
    unfold framed_kind, bind, set_client_type in E.
    destruct (_ =? HEADER_MAGIC).
    { destruct (existsb _ allowed); [|discriminate E].
      destruct (parse_header decompress f _) as [[p|e|] s] eqn:EP; try discriminate E.
      injection E as <-. cbn [h_rbuf with_rbuf].
      apply parse_out in EP. destruct EP as (ids & k & s0 & HF & EP).
      cbn [h_maxdec with_client with_trans] in EP. destruct ids as [|i ids].
      - injection EP as <- _. rewrite skipn_length. lia.
      - pose proof (apply_all_bound decompress _ _ _ _ _ _ _ HZ Hd HF ltac:(discriminate) EP).
        lia. }
    destruct (binary_word _).
    { destruct (existsb _ allowed); [|discriminate E]. injection E as <-. cbn. lia. }
    destruct (compact_word _); [|discriminate E].
    destruct (existsb _ allowed); [|discriminate E]. injection E as <-. cbn. lia.
  - destruct (readFrame_big decompress U allowed R HS req h n r HR ltac:(lia) Hlt) as (t & _ & Er).
    congruence.
  - destruct (readFrame_negative decompress U allowed R HS req h w r HR Hw Hn Hm NB NC)
      as (t & _ & Er). congruence.
  - destruct (readFrame_short decompress U allowed R HS req h c HR Hm Hsh) as (e & t & _ & _ & Er).
    congruence.
Qed.


(** Sending: whatever the state, a flush either writes one frame whose size after
    the four length bytes is within the maximum, or raises with nothing
    written. *)
Theorem C22_flush : forall T (U : transport T) compress h r h',
  flush U compress h = (r, h') ->
  h_wbuf h' = []
  /\ ((exists b, Z.of_nat (length b) <= h_max h + 4
        /\ (r, h_trans h') = (t_write U b ;;; t_flush U)%monad (h_trans h))
      \/ (h_trans h' = h_trans h /\ (exists e, r = Raise e))).
Proof.
  intros T U compress h r h' E. unfold flush in E. unfold bind at 1 in E. unfold bind at 1 in E.
  unfold bind at 1 in E. set (h0 := with_wbuf h []) in *.
  assert (G : forall fb h1, h_trans h1 = h_trans h -> h_wbuf h1 = [] ->
    (if Z.of_nat (length fb) - 4 >? h_max h then raise (ETransport TT_SIZE_LIMIT)
     else on_h (t_write U fb) ;;; on_h (t_flush U))%monad h1 = (r, h') ->
    h_wbuf h' = []
    /\ ((exists b, Z.of_nat (length b) <= h_max h + 4
          /\ (r, h_trans h') = (t_write U b ;;; t_flush U)%monad (h_trans h))
        \/ (h_trans h' = h_trans h /\ (exists e, r = Raise e)))).
  { clear E. intros fb h1 H1 H2 E. destruct (_ >? h_max h) eqn:B.
    - injection E as <- <-. split; [exact H2|]. right. split; [exact H1|eauto].
    - unfold bind, on_h in E. rewrite H1 in E.
      destruct (t_write U fb (h_trans h)) as [[[]|e|] t1] eqn:W.
      + cbn [h_trans with_trans] in E. destruct (t_flush U t1) as [r2 t2] eqn:F.
        injection E as <- <-. split; [exact H2|]. left. exists fb. split; [lia|].
        unfold bind. rewrite W, F. reflexivity.
      + injection E as <- <-. split; [exact H2|]. left. exists fb. split; [lia|].
        unfold bind. rewrite W. reflexivity.
      + injection E as <- <-. split; [exact H2|]. left. exists fb. split; [lia|].
        unfold bind. rewrite W. reflexivity. }
  destruct (h_client h =? CT_HEADERS).
  - assert (HF : match header_frame compress (h_wbuf h) h0 with
                 | (Ok fb, h1) => h_trans h1 = h_trans h /\ h_wbuf h1 = []
                 | (Raise e, h1) => h_trans h1 = h_trans h /\ h_wbuf h1 = []
                 | (Diverge, _) => False
                 end).
    { unfold header_frame. unfold bind at 1. unfold bind at 1.
      assert (WT : forall ids p, match write_transforms compress ids p h0 with
                                 | (Ok _, s) => s = h0 | (Raise _, s) => s = h0
                                 | (Diverge, _) => False end).
      { induction ids as [|i ids IH]; intros p; [reflexivity|]. cbn.
        destruct (i =? ZLIB); [apply IH|reflexivity]. }
      specialize (WT (h_wtransforms h0) (h_wbuf h)).
      destruct (write_transforms compress _ _ h0) as [[z|e|] s]; [subst s|subst s; auto|exact WT].
      unfold bind at 1, lift at 1.
      assert (HB : header_bytes h0 <> Diverge).
      { unfold header_bytes.
        assert (WV : forall n (s : st unit), fst (writeVarint n s) <> Diverge).
        { intros n s. unfold writeVarint, bind, assert_. destruct (0 <=? n) eqn:P; [|discriminate].
          cbn [ret]. rewrite varint_loop_any by lia. discriminate. }
        assert (MM : forall A (f : A -> M unit unit), (forall a s, fst (f a s) <> Diverge) ->
          forall l s, fst (mapM_ f l s) <> Diverge).
        { intros A f Hf. induction l as [|a l IH]; intros s; [discriminate|]. cbn. unfold bind.
          specialize (Hf a s). destruct (f a s) as [[x|e|] s']; [apply IH|discriminate|destruct Hf; reflexivity]. }
        assert (BD : forall A B (m : M unit A) (f : A -> M unit B) s, fst (m s) <> Diverge ->
          (forall a s, fst (f a s) <> Diverge) -> fst (bind m f s) <> Diverge).
        { intros A B m f s H1 H2. unfold bind.
          destruct (m s) as [[x|e|] s']; [apply H2|discriminate|destruct H1; reflexivity]. }
        assert (WS : forall v s, fst (writeString v s) <> Diverge).
        { intros v s. apply BD; [apply WV|]. intros; discriminate. }
        enough (K : forall s, fst (header_section (h_proto h0) (h_wtransforms h0) (h_wheaders h0) s)
          <> Diverge).
        { specialize (K (mkst tt [] [] 0)).
          destruct (header_section _ _ _ _) as [[x|e|] s]; [discriminate|discriminate|].
          exfalso. apply K. reflexivity. }
        intros s. unfold header_section. apply BD; [apply WV|]. intros _ s1.
        apply BD; [apply WV|]. intros _ s2. apply BD; [apply MM; exact WV|]. intros _ s3.
        destruct (h_wheaders h0); [discriminate|]. apply BD; [apply WV|]. intros _ s4.
        apply BD; [apply WV|]. intros _ s5. apply MM. intros a s6. apply BD; [apply WS|].
        intros; apply WS. }
      destruct (header_bytes h0) as [hb|e|]; [|cbn; auto|congruence].
      unfold bind, pack_signed, pack_unsigned.
      repeat (match goal with |- context [if ?b then ret _ else raise _] => destruct b end;
              [unfold ret at 1|cbn; auto]).
      cbn. auto. }
    destruct (header_frame compress (h_wbuf h) h0) as [[fb|e|] h1]; [|
      injection E as <- <-; destruct HF as [A B]; split; [exact B|right; split; [exact A|eauto]]|
      destruct HF].
    destruct HF as [A B]. exact (G fb h1 A B E).
  - destruct ((h_client h =? CT_FRAMED_BINARY) || (h_client h =? CT_FRAMED_COMPACT)).
    + unfold bind at 1, pack_signed in E. destruct (_ && _).
      * cbn [ret] in E. exact (G _ h0 eq_refl eq_refl E).
      * injection E as <- <-. split; [reflexivity|]. right. eauto.
    + destruct (is_unframed (h_client h)).
      * exact (G _ h0 eq_refl eq_refl E).
      * injection E as <- <-. split; [reflexivity|]. right. eauto.
Qed.

(** A reply goes out in the dialect of the client: framed as TFramedTransport
    would, or as it is. *)
Theorem C22_dialect : forall T (U : transport T) compress h,
  let p := h_wbuf h in Z.of_nat (length p) <= h_max h < 2 ^ 31 ->
  (h_client h = CT_FRAMED_BINARY \/ h_client h = CT_FRAMED_COMPACT ->
     let q := (t_write U (frame p) ;;; t_flush U)%monad (h_trans h) in
     flush U compress h = (fst q, with_trans (with_wbuf h []) (snd q)))
  /\ (h_client h = CT_UNFRAMED_BINARY \/ h_client h = CT_UNFRAMED_COMPACT ->
     let q := (t_write U p ;;; t_flush U)%monad (h_trans h) in
     flush U compress h = (fst q, with_trans (with_wbuf h []) (snd q))).
Proof.
  intros T U compress h p Hp. unfold flush.
  assert (G : forall fb h1, h_trans h1 = h_trans h -> Z.of_nat (length fb) - 4 <= h_max h ->
    (if Z.of_nat (length fb) - 4 >? h_max h then raise (ETransport TT_SIZE_LIMIT)
     else on_h (t_write U fb) ;;; on_h (t_flush U))%monad h1
    = let q := (t_write U fb ;;; t_flush U)%monad (h_trans h) in (fst q, with_trans h1 (snd q))).
  { intros fb h1 H1 H2. replace (_ >? h_max h) with false by lia.
    unfold bind, on_h. rewrite H1. cbv zeta.
    destruct (t_write U fb (h_trans h)) as [[[]|e|] t1]; [|reflexivity..].
    cbn [h_trans with_trans]. destruct (t_flush U t1) as [r2 t2]. reflexivity. }
  split; intros Hc; cbv zeta; unfold bind at 1; unfold bind at 1; unfold bind at 1; fold p.
  - replace (h_client h =? CT_HEADERS) with false by (destruct Hc as [-> | ->]; reflexivity).
    replace ((h_client h =? CT_FRAMED_BINARY) || (h_client h =? CT_FRAMED_COMPACT)) with true
      by (destruct Hc as [-> | ->]; reflexivity).
    unfold bind at 1. rewrite pack_signed_ok
      by (unfold in_signed; change (8 * Z.of_nat 4 - 1) with 31; lia).
    cbn [ret]. fold (frame p). apply (G (frame p) (with_wbuf h [])); [reflexivity|].
    unfold frame. rewrite app_length, be_bytes_length. lia.
  - replace (h_client h =? CT_HEADERS) with false by (destruct Hc as [-> | ->]; reflexivity).
    replace ((h_client h =? CT_FRAMED_BINARY) || (h_client h =? CT_FRAMED_COMPACT)) with false
      by (destruct Hc as [-> | ->]; reflexivity).
    replace (is_unframed (h_client h)) with true by (destruct Hc as [-> | ->]; reflexivity).
    apply (G p (with_wbuf h [])); [reflexivity|lia].
Qed.

(** A framed message of none of the known kinds is refused whatever the list. *)
Theorem C22_unknown : forall T (U : transport T) R decompress allowed req h f c,
  stream R (t_read U) -> R (h_trans h) (frame f ++ c) ->
  4 <= Z.of_nat (length f) <= h_max h -> h_max h < HARD_MAX_FRAME_SIZE ->
  ~ header_start f -> ~ binary_start f -> ~ compact_start f ->
  exists t, readFrame U decompress allowed req h
    = (Raise (ETransport TT_INVALID_CLIENT_TYPE), with_trans h t) /\ R t c.
Proof.
  intros T U R decompress allowed req h f c HS HR Hf Hm NH NB NC.
  unfold HARD_MAX_FRAME_SIZE in Hm.
  destruct (readFrame_framed decompress U allowed R HS req h f c HR ltac:(lia) ltac:(lia))
    as (t & HRt & ->).
  exists t. split; [|exact HRt]. replace (length f <? 4)%nat with false by lia.
  unfold framed_kind. destruct (frame_start f ltac:(lia)) as (w & r' & Ef & Hw).
  assert (F4 : firstn 4 f = w) by (rewrite Ef; apply firstn_exact; exact Hw).
  cbv zeta. rewrite !F4.
  rewrite Ef, header_start_app in NH by exact Hw. rewrite Ef, binary_start_app in NB by exact Hw.
  rewrite Ef, compact_start_app in NC by exact Hw.
  destruct (Z.shiftr (unpack_signed 4 w) 16 =? HEADER_MAGIC) eqn:EH;
    [apply header_word_iff in EH; [contradiction|exact Hw]|].
  destruct (binary_word w) eqn:EB; [apply binary_word_iff in EB; [contradiction|exact Hw]|].
  destruct (compact_word w) eqn:EC; [apply compact_word_iff in EC; [contradiction|exact Hw]|].
  reflexivity.
Qed.

(** ** Where the checks fall short *)

(** A length with the top bit set counts as negative, passes the size check, and
    what the caller sees is struct.error from unpacking no bytes at all: the
    data is refused, but with neither of the two transport errors. *)
Theorem C22_negative_size_refuted : exists c : list byte,
  (exists n, c = be_bytes 4 n /\ HARD_MAX_FRAME_SIZE < n < 2 ^ 32) /\
  forall T (U : transport T) R decompress allowed req h r,
  stream R (t_read U) -> R (h_trans h) (c ++ r) -> 0 <= h_max h ->
  fst (readFrame U decompress allowed req h) = Raise EStructError.
Proof.
  exists [xff; xff; xff; xff]. split.
  - exists (2 ^ 32 - 1). split; [vm_compute; reflexivity|]. vm_compute. split; reflexivity.
  - intros T U R decompress allowed req h r HS HR Hm.
    destruct (readFrame_negative decompress U allowed R HS req h [xff; xff; xff; xff] r HR
      eq_refl eq_refl Hm) as (t & _ & ->); [| |reflexivity].
    + intros (x & K). discriminate K.
    + intros (x & y & K & _). discriminate K.
Qed.

(** A frame too short to tell its kind is struct.error as well. *)
Theorem C22_tiny_frame : forall T (U : transport T) R decompress allowed req h f c,
  stream R (t_read U) -> R (h_trans h) (frame f ++ c) ->
  (length f < 4)%nat -> Z.of_nat (length f) <= h_max h ->
  exists t, readFrame U decompress allowed req h = (Raise EStructError, with_trans h t) /\ R t c.
Proof.
  intros T U R decompress allowed req h f c HS HR Hf Hm.
  destruct (readFrame_framed decompress U allowed R HS req h f c HR ltac:(lia) Hm)
    as (t & HRt & ->).
  exists t. split; [|exact HRt]. replace (length f <? 4)%nat with true by lia. reflexivity.
Qed.

(** The header section's length is checked against the frame but not against
    what is read from it: a header may run into the payload, which is then
    handed out as well.  Here the header is one word, and the value of the one
    header comes from the payload. *)
Definition overrun : list byte :=
  [x0f; xff; x00; x00;  x00; x00; x00; x07;  x00; x01;   (* magic, flags, seq, 1 word *)
   x00; x00; x01; x01;                                    (* binary, no transforms, 1 pair *)
   x01; x6b; x03; x61; x62; x63].                         (* "k" -> "abc" *)

Theorem C22_overrun_refuted : exists (h' : hdr source),
  let h := hdr_init (mksource (frame overrun) [] false) SP_BINARY in
  readFrame (mktransport source source_read (fun _ => ret tt) (ret tt)) (fun _ _ => None)
    [CT_HEADERS] 0 h = (Ok tt, h')
  /\ h_rheaders h' = [([x6b], [x61; x62; x63])]
  /\ h_rbuf h' = [x01; x6b; x03; x61; x62; x63].
Proof. eexists. cbv zeta. split; [vm_compute; reflexivity|]. split; reflexivity. Qed.

(** And a header string longer than the rest of the frame is taken cut short. *)
Definition cut_short : list byte :=
  [x0f; xff; x00; x00;  x00; x00; x00; x07;  x00; x02;
   x00; x00; x01; x01;  x01; x6b; x7f; x61].

Theorem C22_cut_short_refuted : exists (h' : hdr source),
  let h := hdr_init (mksource (frame cut_short) [] false) SP_BINARY in
  readFrame (mktransport source source_read (fun _ => ret tt) (ret tt)) (fun _ _ => None)
    [CT_HEADERS] 0 h = (Ok tt, h')
  /\ h_rheaders h' = [([x6b], [x61])] /\ h_rbuf h' = [].
Proof. eexists. cbv zeta. split; [vm_compute; reflexivity|]. split; reflexivity. Qed.

(** * Cases *)

(** A stand-in for zlib that keeps the contract: a one byte head and a one byte
    trailer, and a tail left over when the limit is reached. *)
Definition toy_compress (p : list byte) : list byte := x78 :: p ++ [x2e].
Definition toy_decompress (d : list byte) (m : Z) : option (list byte * list byte) :=
  match d with
  | x78 :: r =>
      let p := removelast r in
      if Z.of_nat (length p) <? m then Some (p, [])
      else Some (firstn (Z.to_nat m) p, skipn (Z.to_nat m) r)
  | _ => None
  end.

Example toy_ok : zlib_ok toy_compress toy_decompress.
Proof.
  intros p m H. unfold toy_compress, toy_decompress. rewrite removelast_last.
  replace (Z.of_nat (length p) <? m) with true by lia. reflexivity.
Qed.

Example toy_bounded : zlib_bounded toy_decompress.
Proof.
  intros d m p t Hm E. unfold toy_decompress in E.
  destruct d as [|[] d]; try discriminate E.
  destruct (Z.of_nat (length (removelast d)) <? m) eqn:B; injection E as <- <-; [lia|].
  rewrite firstn_length. lia.
Qed.

Definition msg1 := mkhmsg 1 (-5) [([x61], [x62; x63]); ([x64], []); ([x61], [x65])] [[x01; x02]; [x03]].
Definition msg2 := mkhmsg 0 7 [] [].
Definition hs0 : hdr (list byte) := mkhdr [] CT_HEADERS [] [] [] [] (repeat ZLIB 2) 0 0 SP_COMPACT 1000 1000.

Example C21_fits : Forall (fits toy_compress SP_COMPACT 2 1000 1000 1000) [msg1; msg2].
Proof.
  repeat constructor; try (vm_compute; congruence);
    intros k Hk; destruct k as [|[|k]]; try lia; reflexivity.
Qed.

(** Two messages through a stream that delivers a few bytes at a time. *)
Example C21_case :
  let bytes := h_trans (snd (send_all toy_compress [msg1; msg2] hs0)) in
  let r := mkhdr (mksource (bytes ++ [xaa]) (repeat 3%nat 100) true) CT_HEADERS [] [] [] [] [] 0 0 0
             1000 1000 in
  let res := receive (mktransport source source_read (fun _ => ret tt) (ret tt)) toy_decompress
               [CT_HEADERS] 2 r in
  (fst res, src_data (h_trans (snd res)))
  = ([([x01; x02; x03], [([x61], [x65]); ([x64], [])], 1, -5, SP_COMPACT);
      ([], [], 0, 7, SP_COMPACT)], [xaa]).
Proof. vm_compute. reflexivity. Qed.

(** A payload of exactly the decompression limit can be refused by a decompressor
    that keeps the contract. *)
Theorem C21_exact_limit_refuted : exists compress decompress p m,
  zlib_ok compress decompress /\ zlib_bounded decompress
  /\ Z.of_nat (length p) = m
  /\ forall S (s : S), apply_all decompress m [ZLIB] (compress p) s
       = (Raise (ETransport TT_SIZE_LIMIT), s).
Proof.
  exists toy_compress, toy_decompress, [x01; x02], 2.
  split; [exact toy_ok|]. split; [exact toy_bounded|]. split; [reflexivity|]. reflexivity.
Qed.

(** C22: the four messages of other kinds, allowed and not. *)
Example C22_case_big :
  let h := hdr_init (mksource [x7f; xff; xff; xff; x01] [] true) SP_BINARY in
  readFrame (mktransport source source_read (fun _ => ret tt) (ret tt)) toy_decompress
    [CT_HEADERS] 0 h
  = (Raise (ETransport TT_SIZE_LIMIT), with_trans h (mksource [x01] [] true)).
Proof. vm_compute. reflexivity. Qed.

Example C22_case_refused :
  let h := hdr_init (mksource [x80; x01; x00; x01; x00] [] true) SP_BINARY in
  (fst (readFrame (mktransport source source_read (fun _ => ret tt) (ret tt)) toy_decompress
    [CT_HEADERS; CT_FRAMED_BINARY] 0 h),
   fst (readFrame (mktransport source source_read (fun _ => ret tt) (ret tt)) toy_decompress
    [CT_HEADERS; CT_UNFRAMED_BINARY] 0 h))
  = (Raise (ETransport TT_INVALID_CLIENT_TYPE), Ok tt).
Proof. vm_compute. reflexivity. Qed.

(** Axioms used. *)
Print Assumptions C21_wire.
Print Assumptions C21_read.
Print Assumptions C21_round_trip.
Print Assumptions C21_headers.
Print Assumptions C21_payload.
Print Assumptions C21_too_long.
Print Assumptions C22_too_large.
Print Assumptions C22_refused.
Print Assumptions C22_accepted.
Print Assumptions C22_framed_ok.
Print Assumptions C22_terminates.
Print Assumptions C22_failure.
Print Assumptions C22_set_max.
Print Assumptions C22_decompressed.
Print Assumptions C22_flush.
Print Assumptions C22_dialect.
Print Assumptions C22_unknown.
Print Assumptions C22_negative_size_refuted.
Print Assumptions C22_tiny_frame.
Print Assumptions C22_overrun_refuted.
Print Assumptions C22_cut_short_refuted.
Print Assumptions C21_exact_limit_refuted.
