(** Facts about HeaderProtocol.v. *)
From Coq Require Import String.
From Coq Require Import ZArith List Bool Lia.
From Coq Require Import Init.Byte.
From Coq Require Import ZifyBool ZifyNat ZifyN.
From Verif Require Import Base Bytes BytesFacts Utf8 Proto Spec Laws StructFacts InstFacts Binary BinaryLaws
  SpecBinary Compact CompactFacts CompactLaws SpecCompact CodecFacts MsgLaws Rpc RpcFacts RpcSys Transport
  TransportFacts SpecHeader HeaderProtocol PropsRpc.
From Verif Require Header HeaderFacts HeaderRead PropsHeader.
Import ListNotations.
Open Scope Z_scope.
Open Scope list_scope.

(** * The dialects *)

(** How a message travels: in header format with flags, a sequence id and info
    headers, compressed [n] times; in a frame; or as it is. *)
Inductive dialect :=
| DHeaders (flags seq : Z) (hs : list (list byte * list byte)) (n : nat)
| DFramed
| DUnframed.

(** The protocol id of the header format (doc/specs/HeaderFormat.md). *)
Definition proto_id (c : bool) : Z := if c then 2 else 0.

Section Compress.
Variable compress : list byte -> list byte.

Definition request_wire (d : dialect) (c : bool) (payload : list byte) : list byte :=
  match d with
  | DHeaders flags seq hs n =>
      sh_frame flags seq (proto_id c) (repeat 1 n) hs (Nat.iter n compress payload)
  | DFramed => be_bytes 4 (Z.of_nat (length payload)) ++ payload
  | DUnframed => payload
  end.

(** The reply: the flags of the request, the sequence id of the message, no info
    headers, compressed as the server is set up to. *)
Definition reply_wire (d : dialect) (c : bool) (seqid : Z) (n0 : nat) (payload : list byte)
  : list byte :=
  match d with
  | DHeaders flags _ _ _ =>
      sh_frame flags seqid (proto_id c) (repeat 1 n0) [] (Nat.iter n0 compress payload)
  | DFramed => be_bytes 4 (Z.of_nat (length payload)) ++ payload
  | DUnframed => payload
  end.

(** What a message must keep to for a receiver with these limits. *)
Definition request_fits (d : dialect) (c : bool) (mx md : Z) (payload : list byte) : Prop :=
  match d with
  | DHeaders flags seq hs n =>
      0 <= flags < 2 ^ 16 /\ - 2 ^ 31 <= seq < 2 ^ 31 /\ NoDup (map fst hs)
      /\ Z.of_nat (length (padded (sh_section (proto_id c) (repeat 1 n) hs))) < 4 * 2 ^ 16
      /\ Z.of_nat (length (sh_body flags seq (proto_id c) (repeat 1 n) hs
                             (Nat.iter n compress payload))) <= mx
      /\ (forall k, (k < n)%nat -> Z.of_nat (length (Nat.iter k compress payload)) < md)
  | DFramed => Z.of_nat (length payload) <= mx
  | DUnframed => True
  end.

(** ... and a reply for its sender. *)
Definition reply_fits (d : dialect) (c : bool) (n0 : nat) (mx : Z) (payload : list byte) : Prop :=
  match d with
  | DHeaders _ _ _ _ =>
      Z.of_nat (length (padded (sh_section (proto_id c) (repeat 1 n0) []))) < 4 * 2 ^ 16
      /\ 10 + Z.of_nat (length (padded (sh_section (proto_id c) (repeat 1 n0) [])))
         + Z.of_nat (length (Nat.iter n0 compress payload)) <= mx
  | _ => Z.of_nat (length payload) <= mx
  end.
End Compress.

(** The client types as the constructor's allow-list names them. *)
Definition client_type (d : dialect) (c : bool) : Z :=
  match d, c with
  | DHeaders _ _ _ _, _ => 0
  | DFramed, false => 1
  | DUnframed, false => 2
  | DFramed, true => 3
  | DUnframed, true => 4
  end.

(** * The flat connection is a stream *)

Lemma flat_stream s : stream (fun (w : wire) c => w = (c, s)) (t_read flat).
Proof.
  intros w c sz -> Hsz. cbn [t_read flat]. unfold bytesio_read. cbn [fst snd].
  destruct (Z.ltb_spec sz 0) as [?|_]; [lia|].
  exists (skipn (Z.to_nat sz) c). split; [symmetry; apply firstn_skipn|].
  split; [reflexivity|]. split; [rewrite firstn_length; lia|].
  intros E. destruct c as [|b c]; [reflexivity|].
  destruct (Z.to_nat sz) eqn:K; [lia|discriminate].
Qed.

(** * One sub-protocol *)

Definition hstate : Type := Header.hdr wire.

(** The transport while a message is read: [i] of it is left, [rest] follows on
    the connection.  For an unframed message all of it is still on the
    connection. *)
Definition reading (d : dialect) (c : bool) (i rest sent : list byte)
    (rh : list (list byte * list byte)) (wb : list byte)
    (wh : list (list byte * list byte)) (wt : list Z) (fl sq pr mx md : Z) : hstate :=
  match d with
  | DUnframed => Header.mkhdr (i ++ rest, sent) (client_type d c) [] rh wb wh wt fl sq pr mx md
  | _ => Header.mkhdr (rest, sent) (client_type d c) i rh wb wh wt fl sq pr mx md
  end.

Definition tail_of (d : dialect) (rest : list byte) : list byte :=
  match d with DUnframed => rest | _ => [] end.

Lemma ahead_reading d c i rest sent rh wb wh wt fl sq pr mx md :
  ahead (reading d c i rest sent rh wb wh wt fl sq pr mx md) = i ++ tail_of d rest.
Proof. destruct d; [|destruct c..]; reflexivity. Qed.

Lemma put_back_reading d c i i' rest sent rh wb wb' wh wt fl sq pr mx md :
  (length i' <= length i)%nat ->
  Header.with_wbuf (put_back (reading d c i rest sent rh wb wh wt fl sq pr mx md)
                      (i' ++ tail_of d rest)) wb'
  = reading d c i' rest sent rh wb' wh wt fl sq pr mx md.
Proof.
  intros Hl. destruct d as [f q hs n| |]; cbn [tail_of].
  - unfold put_back, reading. cbn. rewrite app_nil_r. reflexivity.
  - unfold put_back, reading. destruct c; cbn; rewrite app_nil_r; reflexivity.
  - unfold put_back, reading.
    assert (E : (length (i' ++ rest) - length (i ++ rest) = 0)%nat)
      by (rewrite !app_length; lia).
    destruct c; cbn [Header.h_client client_type];
      (replace (Header.is_unframed _) with true by reflexivity);
      cbn [Header.h_trans fst snd]; rewrite E; reflexivity.
Qed.

Section Sub.
Context {X : Type} {P : proto X} {SL CL : Z} (L : mlaws P SL CL).
Variable c : bool.
Variable emb : X -> sub.
Variable x0 : X.
Hypothesis Hx0 : ml_idle L x0.
Hypothesis Hemb : forall A (m : forall Y, proto Y -> M Y A) h x d,
  on_sub m (mkhp h (emb x) d)
  = match m X P (mkst x (ahead h) (Header.h_wbuf h) d) with
    | (r, s) => (r, mkhp (Header.with_wbuf (put_back h (inp s)) (out s)) (emb (px s)) (depth s))
    end.
Hypothesis Hset : forall h u d, fst (Header.protocol_id h) = Ok (proto_id c) ->
  set_protocol (mkhp h u d) = (Ok tt, mkhp h (emb x0) d).
Hypothesis HB : forall x i r, ml_rB L x i r -> i = r.
Hypothesis HA : forall x i r, ml_rA L x i r -> i = r.
Hypothesis Hstart : forall name type seqid r, mtype_ok type ->
  if c then compact_start (ml_hdr L name type seqid ++ r)
  else binary_start (ml_hdr L name type seqid ++ r).
Hypothesis Hlong : forall name type seqid, name_ok SL name ->
  (4 <= length (ml_hdr L name type seqid))%nat.

Notation msg := (message L).

Variable compress : list byte -> list byte.
Variable decompress : list byte -> Z -> option (list byte * list byte).
Hypothesis Hz : HeaderFacts.zlib_ok compress decompress.
Variable allowed : list Z.

(** Reading with the sub-protocol. *)
Lemma sub_read {A} (m : forall Y, proto Y -> M Y A) d i i' rest sent rh wb wb' wh wt fl sq pr mx
    md x x' dp dp' (r : A) :
  m X P (mkst x (i ++ tail_of d rest) wb dp) = (Ok r, mkst x' (i' ++ tail_of d rest) wb' dp') ->
  (length i' <= length i)%nat ->
  on_sub m (mkhp (reading d c i rest sent rh wb wh wt fl sq pr mx md) (emb x) dp)
  = (Ok r, mkhp (reading d c i' rest sent rh wb' wh wt fl sq pr mx md) (emb x') dp').
Proof.
  intros E Hl. rewrite Hemb, ahead_reading.
  replace (Header.h_wbuf (reading d c i rest sent rh wb wh wt fl sq pr mx md)) with wb
    by (destruct d; reflexivity).
  rewrite E. cbn [inp out px depth]. rewrite put_back_reading by exact Hl. reflexivity.
Qed.

(** The frame of a message. *)
Lemma frame_read d payload rest sent ct rb rh wb wh wt fl sq pr mx md :
  In (client_type d c) allowed -> mx < Header.HARD_MAX_FRAME_SIZE ->
  request_fits compress d c mx md payload -> (4 <= length payload)%nat ->
  (if c then compact_start payload else binary_start payload) ->
  exists h' rb' u rh' fl' sq' pr',
    Header.readFrame flat decompress allowed 0
      (Header.mkhdr (request_wire compress d c payload ++ rest, sent) ct rb rh wb wh wt fl sq pr
         mx md) = (Ok tt, h')
    /\ h' = Header.mkhdr (u, sent) (client_type d c) rb' rh' wb wh wt fl' sq' pr' mx md
    /\ match d with
       | DHeaders f q hs n => rb' = payload /\ u = rest /\ rh' = hs /\ fl' = f /\ sq' = q
                              /\ pr' = proto_id c
       | DFramed => rb' = payload /\ u = rest /\ rh' = rh /\ fl' = fl /\ sq' = sq /\ pr' = pr
       | DUnframed => rb' = firstn 4 payload /\ u = skipn 4 payload ++ rest /\ rh' = rh
                      /\ fl' = fl /\ sq' = sq /\ pr' = pr
       end.
Proof.
  intros Hal Hmx Hfit Hlen Hst.
  assert (Hp : 0 <= proto_id c < 2 ^ 70) by (unfold proto_id; destruct c; lia).
  destruct d as [f q hs n| |].
  - destruct Hfit as (Hf & Hq & Hnd & Hsec & Hbody & Hdec).
    destruct (PropsHeader.C21_read wire flat _ compress decompress allowed 0
      (Header.mkhdr (request_wire compress (DHeaders f q hs n) c payload ++ rest, sent)
         ct rb rh wb wh wt fl sq pr mx md) f q (proto_id c) n hs payload rest
      (flat_stream sent) Hz Hal Hf Hq Hp Hnd Hsec (conj Hbody Hmx) Hdec eq_refl)
      as (t & h' & E & E1 & Et & E2 & E3 & E4 & E5 & E6 & E7 & E8 & E9 & E10 & E11 & E12).
    exists h', payload, rest, hs, f, q, (proto_id c). split; [exact E|]. split; [|tauto].
    destruct h'. cbn in E1, E2, E3, E4, E5, E6, E7, E8, E9, E10, E11, E12. subst. reflexivity.
  - destruct (PropsHeader.C22_framed_ok wire flat _ decompress allowed 0
      (Header.mkhdr (request_wire compress DFramed c payload ++ rest, sent)
         ct rb rh wb wh wt fl sq pr mx md) payload rest (client_type DFramed c)
      (flat_stream sent) eq_refl) as (t & E & Et); [cbn in *; lia|exact Hmx| |exact Hal|].
    { destruct c; [right|left]; (split; [exact Hst|reflexivity]). }
    eexists. exists payload, rest, rh, fl, sq, pr. split; [exact E|]. subst t.
    split; [reflexivity|tauto].
  - assert (E4 : firstn 4 payload ++ skipn 4 payload ++ rest = payload ++ rest)
      by (rewrite app_assoc, firstn_skipn; reflexivity).
    assert (Hk : length (firstn 4 payload) = 4%nat) by (rewrite firstn_length; lia).
    destruct (HeaderRead.readFrame_unframed decompress flat allowed _ (flat_stream sent) 0
      (Header.mkhdr (request_wire compress DUnframed c payload ++ rest, sent)
         ct rb rh wb wh wt fl sq pr mx md) (firstn 4 payload) (skipn 4 payload ++ rest)
      (client_type DUnframed c)) as (t & Et & E).
    { rewrite E4. reflexivity. }
    { exact Hk. }
    { destruct payload as [|b1 [|b2 [|b3 [|b4 r]]]]; try (cbn in Hlen; lia).
      destruct c; [right|left]; (split; [|reflexivity]); cbn [firstn].
      - destruct Hst as (y & z & Ey & Hy). injection Ey as -> -> _.
        exists y, [b3; b4]. split; [reflexivity|exact Hy].
      - destruct Hst as (y & Ey). injection Ey as -> -> _. exists [b3; b4]. reflexivity. }
    assert (A : existsb (Z.eqb (client_type DUnframed c)) allowed = true).
    { apply existsb_exists. exists (client_type DUnframed c). split; [exact Hal|apply Z.eqb_refl]. }
    unfold Header.unframed, bind, Header.set_client_type in E. rewrite A in E.
    change (0 - 4 >? 0) with false in E. cbv iota in E. cbn [ret] in E.
    eexists. exists (firstn 4 payload), (skipn 4 payload ++ rest), rh, fl, sq, pr.
    split; [exact E|]. subst t. split; [cbn; rewrite app_nil_r; reflexivity|tauto].
Qed.

Definition dialect_flags (d : dialect) (fl : Z) : Z :=
  match d with DHeaders f _ _ _ => f | _ => fl end.
Definition dialect_headers (d : dialect) (rh : list (list byte * list byte)) :=
  match d with DHeaders _ _ hs _ => hs | _ => rh end.

Lemma begin_ok d name type seqid e n v rest sent ct rb rh wb wh wt fl sq pr mx md u dp :
  let payload := msg name type seqid e n v in
  let body := ml_body L e n v ++ ml_end L in
  name_ok SL name -> mtype_ok type -> seq_ok seqid ->
  In (client_type d c) allowed -> mx < Header.HARD_MAX_FRAME_SIZE ->
  request_fits compress d c mx md payload ->
  exists x sq' pr',
    hp_readMessageBegin decompress allowed
      (mkhp (Header.mkhdr (request_wire compress d c payload ++ rest, sent) ct rb rh wb wh wt fl
               sq pr mx md) u dp)
    = (Ok (name, type, seqid),
       mkhp (reading d c body rest sent (dialect_headers d rh) wb wh wt (dialect_flags d fl)
               sq' pr' mx md) (emb x) dp)
    /\ ml_rB L x (body ++ tail_of d rest) (body ++ tail_of d rest)
    /\ (match d with DHeaders _ _ _ _ => pr' = proto_id c | _ => True end).
Proof.
  intros payload body Hn Ht Hq Hal Hmx Hfit.
  assert (Hpl : payload = ml_hdr L name type seqid ++ body) by reflexivity.
  assert (Hlen : (4 <= length payload)%nat).
  { rewrite Hpl, app_length. pose proof (Hlong name type seqid Hn). lia. }
  assert (Hst : if c then compact_start payload else binary_start payload)
    by (rewrite Hpl; apply Hstart; exact Ht).
  destruct (frame_read d payload rest sent ct rb rh wb wh wt fl sq pr mx md Hal Hmx Hfit Hlen
    Hst) as (h' & rb' & u' & rh' & fl' & sq' & pr' & E & Eh & Hd).
  destruct (mr_begin L name type seqid (body ++ tail_of d rest) x0 wb dp Hx0 Hn Ht Hq
    ltac:(unfold body; rewrite <- app_assoc; apply (mt_body L)))
    as (x & i1 & E1 & H1).
  pose proof (HB _ _ _ H1) as ->.
  exists x, sq', pr'. split; [|split; [exact H1|destruct d; tauto]].
  unfold hp_readMessageBegin. unfold bind at 1, on_trans. cbn [p_trans p_sub p_depth].
  rewrite E. subst h'.
  assert (Ep : fst (Header.protocol_id
      (Header.mkhdr (u', sent) (client_type d c) rb' rh' wb wh wt fl' sq' pr' mx md))
      = Ok (proto_id c)).
  { destruct d; [destruct Hd as (_ & _ & _ & _ & _ & ->); reflexivity|destruct c; reflexivity..]. }
  rewrite Hset by exact Ep. rewrite Hemb.
  assert (Ea : ahead (Header.mkhdr (u', sent) (client_type d c) rb' rh' wb wh wt fl' sq' pr' mx md)
    = payload ++ tail_of d rest).
  { unfold ahead. cbn [Header.h_rbuf Header.h_client Header.h_trans fst].
    destruct d; cbn [tail_of]; [|destruct c; cbn [client_type];
      (replace (Header.is_unframed _) with false by reflexivity)|
      destruct c; cbn [client_type]; (replace (Header.is_unframed _) with true by reflexivity)].
    - destruct Hd as (-> & _). reflexivity.
    - destruct Hd as (-> & _). reflexivity.
    - destruct Hd as (-> & _). reflexivity.
    - destruct Hd as (-> & -> & _). rewrite app_assoc, firstn_skipn. reflexivity.
    - destruct Hd as (-> & -> & _). rewrite app_assoc, firstn_skipn. reflexivity. }
  rewrite Ea. cbn [Header.h_wbuf]. rewrite Hpl, <- app_assoc, E1. cbn [inp out px depth].
  f_equal. f_equal. clear E E1 Ep Ea.
  destruct d as [f q hs k| |]; cbn [tail_of dialect_headers dialect_flags].
  - destruct Hd as (_ & -> & -> & -> & _). unfold put_back, reading. cbn.
    rewrite app_nil_r. reflexivity.
  - destruct Hd as (_ & -> & -> & -> & _). unfold put_back, reading.
    destruct c; cbn; rewrite app_nil_r; reflexivity.
  - destruct Hd as (_ & -> & -> & -> & _). unfold put_back, reading.
    assert (En : (length (body ++ rest) - length (skipn 4 payload ++ rest) = 0)%nat).
    { rewrite !app_length, skipn_length, Hpl, app_length.
      pose proof (Hlong name type seqid Hn). lia. }
    destruct c; cbn [Header.h_client client_type];
      (replace (Header.is_unframed _) with true by reflexivity);
      cbn [Header.h_trans fst snd]; rewrite En; reflexivity.
Qed.

(** Writing a message and sending it off. *)
Lemma message_ok d rest name type seqid e n v sent rh wh n0 fl sq pr mx md x i :
  let payload := msg name type seqid e n v in
  ml_idle L x -> name_ok SL name -> mtype_ok type -> seq_ok seqid ->
  schema_ok e -> wfd (ml_dok L) e SL CL (TStruct n) v = true -> (sdepth v <= 64)%nat ->
  mx < Header.HARD_MAX_FRAME_SIZE ->
  match d with
  | DHeaders _ _ _ _ =>
      0 <= fl < 2 ^ 16 /\ pr = proto_id c
      /\ Z.of_nat (length (padded (sh_section (proto_id c) (repeat 1 n0) wh))) < 4 * 2 ^ 16
      /\ 10 + Z.of_nat (length (padded (sh_section (proto_id c) (repeat 1 n0) wh)))
         + Z.of_nat (length (Nat.iter n0 compress payload)) <= mx
  | _ => Z.of_nat (length payload) <= mx
  end ->
  exists x',
    hp_message compress name type seqid e n v
      (mkhp (reading d c i rest sent rh [] wh (repeat 1 n0) fl sq pr mx md) (emb x) 0)
    = (Ok tt,
       mkhp (reading d c i rest
               (sent ++ match d with
                        | DHeaders _ _ _ _ =>
                            sh_frame fl seqid (proto_id c) (repeat 1 n0) wh
                              (Nat.iter n0 compress payload)
                        | DFramed => be_bytes 4 (Z.of_nat (length payload)) ++ payload
                        | DUnframed => payload
                        end)
               rh [] (match d with DHeaders _ _ _ _ => [] | _ => wh end)
               (repeat 1 n0) fl seqid pr mx md)
            (emb x') 0)
    /\ ml_idle L x'.
Proof.
  intros payload Hx Hn Ht Hq He Hwf Hd Hmx Hfit.
  set (i' := i ++ tail_of d rest).
  destruct (mw_begin L name type seqid x i' [] 0 Hx Hn Ht Hq) as (x1 & E1 & H1).
  destruct (mw_body L e n v x1 i' ([] ++ ml_hdr L name type seqid) H1 He Hwf Hd)
    as (x2 & E2 & H2).
  destruct (mw_end L x2 i' (([] ++ ml_hdr L name type seqid) ++ ml_body L e n v) 0 H2)
    as (x3 & E3 & H3).
  exists x3. split; [|exact H3].
  unfold hp_message, hp_writeMessageBegin. unfold bind at 1. unfold bind at 1.
  unfold on_trans at 1. cbn [p_trans p_sub p_depth].
  assert (Es : Header.with_seq (reading d c i rest sent rh [] wh (repeat 1 n0) fl sq pr mx md) seqid
    = reading d c i rest sent rh [] wh (repeat 1 n0) fl seqid pr mx md) by (destruct d; reflexivity).
  rewrite Es.
  erewrite sub_read; [|exact E1|apply Nat.le_refl].
  unfold bind at 1. erewrite sub_read; [|exact E2|apply Nat.le_refl].
  unfold bind at 1. erewrite sub_read; [|exact E3|apply Nat.le_refl].
  assert (Epl : (([] ++ ml_hdr L name type seqid) ++ ml_body L e n v) ++ ml_end L = payload).
  { unfold payload, message. cbn [app]. rewrite <- app_assoc. reflexivity. }
  rewrite Epl. unfold on_trans. cbn [p_trans p_sub p_depth].
  assert (Hq' : - 2 ^ 31 <= seqid < 2 ^ 31).
  { unfold seq_ok, between in Hq. lia. }
  destruct d as [f q hs k| |].
  - destruct Hfit as (Hfl & -> & Hsec & Hsize).
    pose proof (PropsHeader.C21_wire wire flat compress
      (reading (DHeaders f q hs k) c i rest sent rh payload wh (repeat 1 n0) fl seqid
         (proto_id c) mx md) n0) as W.
    cbv zeta in W. rewrite W; [reflexivity|].
    constructor; cbn; try assumption; try reflexivity.
    unfold proto_id; destruct c; lia.
  - pose proof (PropsHeader.C22_dialect wire flat compress
      (reading DFramed c i rest sent rh payload wh (repeat 1 n0) fl seqid pr mx md)) as W.
    cbv zeta in W. unfold Header.HARD_MAX_FRAME_SIZE in Hmx.
    destruct W as [W _]; [cbn; lia|]. rewrite W by (destruct c; cbn; auto). reflexivity.
  - pose proof (PropsHeader.C22_dialect wire flat compress
      (reading DUnframed c i rest sent rh payload wh (repeat 1 n0) fl seqid pr mx md)) as W.
    cbv zeta in W. unfold Header.HARD_MAX_FRAME_SIZE in Hmx.
    destruct W as [_ W]; [cbn; lia|]. rewrite W by (destruct c; cbn; auto). reflexivity.
Qed.

(** * One request *)

(** The state between messages: [u] has arrived, [s] has been sent, the headers
    last read are [rh]. *)
Definition ready (n0 : nat) (mx md : Z) (rh : list (list byte * list byte)) (u s : list byte)
    (p : hp) : Prop :=
  exists ct rb fl sq pr sb,
    p = mkhp (Header.mkhdr (u, s) ct rb rh [] [] (repeat 1 n0) fl sq pr mx md) sb 0.

Lemma ready_reading d rest sent rh n0 fl sq pr mx md sb :
  ready n0 mx md rh rest sent
    (mkhp (reading d c [] rest sent rh [] [] (repeat 1 n0) fl sq pr mx md) sb 0).
Proof. destruct d; repeat eexists. Qed.

(** Reading a struct and the end of the message. *)
Lemma struct_read d e n v rest sent rh wb wh wt fl sq pr mx md x F :
  let body := ml_body L e n v ++ ml_end L in
  schema_ok e -> schema_closed e = true -> wfd (ml_dok L) e SL CL (TStruct n) v = true ->
  (sdepth v <= 64)%nat -> (length body <= F)%nat ->
  ml_rB L x (body ++ tail_of d rest) (body ++ tail_of d rest) ->
  exists x1 i1 x2,
    on_sub (fun X P => read_struct P e DFUEL F n)
      (mkhp (reading d c body rest sent rh wb wh wt fl sq pr mx md) (emb x) 0)
    = (Ok (with_defaults e (TStruct n) v),
       mkhp (reading d c i1 rest sent rh wb wh wt fl sq pr mx md) (emb x1) 0)
    /\ on_sub (fun X P => readMessageEnd P)
         (mkhp (reading d c i1 rest sent rh wb wh wt fl sq pr mx md) (emb x1) 0)
       = (Ok tt, mkhp (reading d c [] rest sent rh wb wh wt fl sq pr mx md) (emb x2) 0)
    /\ ml_idle L x2.
Proof.
  intros body He Hc Hwf Hd HF Hr.
  assert (Eb : body ++ tail_of d rest = ml_body L e n v ++ ml_end L ++ tail_of d rest)
    by (unfold body; rewrite <- app_assoc; reflexivity).
  destruct (read_same L e n v (ml_end L ++ tail_of d rest) x (body ++ tail_of d rest) wb F He Hc)
    as (x1 & i1 & E1 & H1).
  { rewrite <- Eb. exact Hr. }
  { exact Hwf. }
  { exact Hd. }
  { unfold body in HF. rewrite app_length in HF. lia. }
  destruct (mr_end L (tail_of d rest) x1 i1 wb 0 H1) as (x2 & E2 & H2).
  pose proof (HA _ _ _ H1) as ->.
  exists x1, (ml_end L), x2. split; [|split; [|exact H2]].
  - apply (sub_read (fun X P => read_struct P e DFUEL F n) d body (ml_end L)); [exact E1|].
    unfold body. rewrite app_length. lia.
  - apply (sub_read (fun X P => readMessageEnd P) d (ml_end L) []); [exact E2|cbn; lia].
Qed.

Lemma left_reading d i rest sent rh wb wh wt fl sq pr mx md u dp :
  exists F, left_to_read (mkhp (reading d c i rest sent rh wb wh wt fl sq pr mx md) u dp)
    = (Ok F, mkhp (reading d c i rest sent rh wb wh wt fl sq pr mx md) u dp)
    /\ (length i <= F)%nat.
Proof.
  eexists. split; [reflexivity|]. cbn [p_trans]. rewrite ahead_reading, app_length. lia.
Qed.

Section Process.
Variable env : schema.
Hypothesis Henv : schema_ok env.
Hypothesis Hclosed : schema_closed env = true.
Context {H : Type}.
Variable handler : list Z -> list (option value) -> H -> hres * H.
Variable ms : list method.
Variables (n0 : nat) (mx md : Z).
Hypothesis Hmx : mx < Header.HARD_MAX_FRAME_SIZE.

Notation process := (hp_process compress decompress allowed env handler ms).

(** A request for a known method is read and its handler called. *)
Lemma request_read d m type seqid args rest sent rh p h h' r :
  let payload := msg (m_name m) type seqid env (m_args m) (VStruct (m_args m) args) in
  lookup (m_name m) ms = Some m -> name_ok SL (m_name m) -> mtype_ok type -> seq_ok seqid ->
  args_ok L env (m_args m) args ->
  In (client_type d c) allowed -> request_fits compress d c mx md payload ->
  handler (m_name m) (received env (m_args m) args) h = (r, h') ->
  ready n0 mx md rh (request_wire compress d c payload ++ rest) sent p ->
  exists x fl sq pr,
    process (p, h)
    = match r with
      | HTransport t => raise (ETransport t)
      | _ => if m_oneway m then ret tt
             else match reply_for env m r with
                  | Some (mtype, e, n, v) => both (hp_message compress (m_name m) mtype seqid e n v)
                  | None => ret tt
                  end
      end (mkhp (reading d c [] rest sent (dialect_headers d rh) [] [] (repeat 1 n0) fl sq pr mx md)
             (emb x) 0, h')
    /\ ml_idle L x
    /\ match d with DHeaders f _ _ _ => fl = f /\ pr = proto_id c | _ => True end.
Proof.
  intros payload Hl Hn Ht Hq [Hwf Hd] Hal Hfit Hr (ct & rb & fl & sq & pr & sb & ->).
  destruct (begin_ok d (m_name m) type seqid env (m_args m) (VStruct (m_args m) args) rest sent
    ct rb rh [] [] (repeat 1 n0) fl sq pr mx md sb 0 Hn Ht Hq Hal Hmx Hfit)
    as (x & sq' & pr' & E & Hx & Hp).
  fold payload in E.
  set (body := ml_body L env (m_args m) (VStruct (m_args m) args) ++ ml_end L) in *.
  destruct (left_reading d body rest sent (dialect_headers d rh) [] [] (repeat 1 n0)
    (dialect_flags d fl) sq' pr' mx md (emb x) 0) as (F & EF & HF).
  destruct (struct_read d env (m_args m) (VStruct (m_args m) args) rest sent
    (dialect_headers d rh) [] [] (repeat 1 n0) (dialect_flags d fl) sq' pr' mx md x F Henv Hclosed
    Hwf Hd HF Hx) as (x1 & i1 & x2 & E1 & E2 & H2).
  fold body in E1.
  exists x2, (dialect_flags d fl), sq', pr'. split; [|split; [exact H2|destruct d; auto]].
  unfold hp_process. unfold bind at 1, both at 1. cbn [fst snd]. rewrite E.
  unfold bind at 1, both at 1. cbn [fst snd]. rewrite EF. rewrite Hl.
  unfold hp_process_function. unfold bind at 1, both at 1. cbn [fst snd]. rewrite E1.
  unfold bind at 1, both at 1. cbn [fst snd]. rewrite E2.
  unfold bind at 1, hp_call_handler. cbn [fst snd].
  unfold received in Hr. rewrite Hr. reflexivity.
Qed.

(** Two-way methods are answered in the dialect of the request. *)
Lemma step_two_way d m type seqid args rest sent rh p h h' r :
  let payload := msg (m_name m) type seqid env (m_args m) (VStruct (m_args m) args) in
  14 <= SL -> m_oneway m = false -> method_ok env m ->
  handler_okd (ml_dok L) env SL CL m r -> (forall t, r <> HTransport t) ->
  lookup (m_name m) ms = Some m -> name_ok SL (m_name m) -> mtype_ok type -> seq_ok seqid ->
  args_ok L env (m_args m) args ->
  In (client_type d c) allowed -> request_fits compress d c mx md payload ->
  handler (m_name m) (received env (m_args m) args) h = (r, h') ->
  (forall mt e n v, reply_for env m r = Some (mt, e, n, v) ->
     reply_fits compress d c n0 mx (msg (m_name m) mt seqid e n v)) ->
  ready n0 mx md rh (request_wire compress d c payload ++ rest) sent p ->
  exists e n v p',
    let rp := msg (m_name m) (reply_type m r) seqid e n v in
    reply_for env m r = Some (reply_type m r, e, n, v)
    /\ process (p, h) = (Ok tt, (p', h'))
    /\ ready n0 mx md (dialect_headers d rh) rest (sent ++ reply_wire compress d c seqid n0 rp) p'.
Proof.
  intros payload HSL Ho Hm Hh Htr Hl Hn Ht Hq Ha Hal Hfit Hr Hrf Hp.
  destruct (request_read d m type seqid args rest sent rh p h h' r Hl Hn Ht Hq Ha Hal Hfit Hr Hp)
    as (x & fl & sq & pr & E & Hx & Hd).
  destruct (reply_for_ok (ml_dok L) env SL CL m Hm HSL Henv Hclosed r Hh Htr)
    as (e & n & v & Er & He & Hc & Hwf & Hdp & Hmt & _).
  pose proof (Hrf _ _ _ _ Er) as Hrf'.
  assert (Hfl : match d with DHeaders f _ _ _ => 0 <= f < 2 ^ 16 | _ => True end)
    by (destruct d; cbn in Hfit; tauto).
  destruct (message_ok d rest (m_name m) (reply_type m r) seqid e n v sent (dialect_headers d rh) []
    n0 fl sq pr mx md x [] Hx Hn Hmt Hq He Hwf Hdp Hmx) as (x' & Em & Hx').
  { destruct d; cbn in Hrf'; [|exact Hrf'..]. destruct Hd as [-> ->]. tauto. }
  exists e, n, v. eexists. split; [exact Er|]. split.
  - rewrite E. destruct r; try (rewrite Ho, Er; unfold both; cbn [fst snd]; rewrite Em; reflexivity).
    exfalso. eapply Htr. reflexivity.
  - assert (Ed : reply_wire compress d c seqid n0 (msg (m_name m) (reply_type m r) seqid e n v)
      = match d with
        | DHeaders _ _ _ _ => sh_frame fl seqid (proto_id c) (repeat 1 n0) []
            (Nat.iter n0 compress (msg (m_name m) (reply_type m r) seqid e n v))
        | DFramed => be_bytes 4 (Z.of_nat (length (msg (m_name m) (reply_type m r) seqid e n v)))
                     ++ msg (m_name m) (reply_type m r) seqid e n v
        | DUnframed => msg (m_name m) (reply_type m r) seqid e n v
        end) by (destruct d; [destruct Hd as [-> ->]|..]; reflexivity).
    rewrite Ed. destruct d; apply ready_reading.
Qed.

Lemma step_one_way d m type seqid args rest sent rh p h h' r :
  let payload := msg (m_name m) type seqid env (m_args m) (VStruct (m_args m) args) in
  m_oneway m = true -> (forall t, r <> HTransport t) ->
  lookup (m_name m) ms = Some m -> name_ok SL (m_name m) -> mtype_ok type -> seq_ok seqid ->
  args_ok L env (m_args m) args ->
  In (client_type d c) allowed -> request_fits compress d c mx md payload ->
  handler (m_name m) (received env (m_args m) args) h = (r, h') ->
  ready n0 mx md rh (request_wire compress d c payload ++ rest) sent p ->
  exists p', process (p, h) = (Ok tt, (p', h'))
    /\ ready n0 mx md (dialect_headers d rh) rest sent p'.
Proof.
  intros payload Ho Htr Hl Hn Ht Hq Ha Hal Hfit Hr Hp.
  destruct (request_read d m type seqid args rest sent rh p h h' r Hl Hn Ht Hq Ha Hal Hfit Hr Hp)
    as (x & fl & sq & pr & E & Hx & Hd).
  eexists. split.
  - rewrite E. destruct r; try (rewrite Ho; reflexivity). exfalso. eapply Htr. reflexivity.
  - apply ready_reading.
Qed.

(** Unknown methods are answered in the dialect of the request too. *)
Lemma step_unknown d name type seqid e n args rest sent rh p h :
  let payload := msg name type seqid e n (VStruct n args) in
  let rp := msg name EXCEPTION seqid app_env O
              (app_exn TA_UNKNOWN_METHOD (Some (lit "Unknown function " ++ name))) in
  lookup name ms = None -> name_ok SL name -> mtype_ok type -> seq_ok seqid ->
  name_ok SL (lit "Unknown function " ++ name) ->
  schema_ok e -> wfd (ml_dok L) e SL CL (TStruct n) (VStruct n args) = true ->
  (vdepth (VStruct n args) <= 64)%nat -> all_bin (ml_skbin L) (VStruct n args) = true ->
  In (client_type d c) allowed -> request_fits compress d c mx md payload ->
  reply_fits compress d c n0 mx rp ->
  ready n0 mx md rh (request_wire compress d c payload ++ rest) sent p ->
  exists p', process (p, h) = (Ok tt, (p', h))
    /\ ready n0 mx md (dialect_headers d rh) rest (sent ++ reply_wire compress d c seqid n0 rp) p'.
Proof.
  intros payload rp Hl Hn Ht Hq Hu He Hwf Hd Hb Hal Hfit Hrf (ct & rb & fl & sq & pr & sb & ->).
  destruct (begin_ok d name type seqid e n (VStruct n args) rest sent
    ct rb rh [] [] (repeat 1 n0) fl sq pr mx md sb 0 Hn Ht Hq Hal Hmx Hfit)
    as (x & sq' & pr' & E & Hx & Hp).
  fold payload in E.
  set (body := ml_body L e n (VStruct n args) ++ ml_end L) in *.
  destruct (left_reading d body rest sent (dialect_headers d rh) [] [] (repeat 1 n0)
    (dialect_flags d fl) sq' pr' mx md (emb x) 0) as (F & EF & HF).
  assert (Eb : body ++ tail_of d rest
    = ml_body L e n (VStruct n args) ++ ml_end L ++ tail_of d rest)
    by (unfold body; rewrite <- app_assoc; reflexivity).
  destruct (mr_skip L e n (VStruct n args) (ml_end L ++ tail_of d rest) x
    (body ++ tail_of d rest) [] 0 F) as (x1 & i1 & E1 & H1); try assumption.
  { rewrite <- Eb. exact Hx. }
  { unfold body in HF. rewrite app_length in HF. lia. }
  destruct (mr_end L (tail_of d rest) x1 i1 [] 0 H1) as (x2 & E2 & H2).
  pose proof (HA _ _ _ H1) as ->.
  assert (Hfl : match d with DHeaders f _ _ _ => 0 <= f < 2 ^ 16 | _ => True end)
    by (destruct d; cbn in Hfit; tauto).
  destruct (message_ok d rest name EXCEPTION seqid app_env O
    (app_exn TA_UNKNOWN_METHOD (Some (lit "Unknown function " ++ name))) sent
    (dialect_headers d rh) [] n0 (dialect_flags d fl) sq' pr' mx md x2 [] H2 Hn
    ltac:(unfold mtype_ok, EXCEPTION; lia) Hq app_env_ok
    (app_exn_wf (ml_dok L) SL CL TA_UNKNOWN_METHOD (Some (lit "Unknown function " ++ name)) eq_refl Hu)
    ltac:(cbn; lia) Hmx) as (x' & Em & Hx').
  { destruct d; cbn in Hrf; [|exact Hrf..]. cbn [dialect_flags]. tauto. }
  eexists. split.
  - unfold hp_process. unfold bind at 1, both at 1. cbn [fst snd]. rewrite E.
    unfold bind at 1, both at 1. cbn [fst snd]. rewrite EF. rewrite Hl.
    unfold bind at 1, both at 1. cbn [fst snd].
    erewrite (sub_read (fun X P => skip P F SKIP_DEPTH T_STRUCT) d body (ml_end L));
      [|exact E1|unfold body; rewrite app_length; lia].
    unfold bind at 1, both at 1. cbn [fst snd].
    erewrite (sub_read (fun X P => readMessageEnd P) d (ml_end L) []); [|exact E2|cbn; lia].
    unfold both. cbn [fst snd]. rewrite Em. reflexivity.
  - destruct d; apply ready_reading.
Qed.

(** * The client *)

Lemma recv_ok d m name mt seqid e n v rest sent rh p :
  let payload := msg name mt seqid e n v in
  name_ok SL name -> mtype_ok mt -> seq_ok seqid ->
  schema_ok e -> schema_closed e = true ->
  wfd (ml_dok L) e SL CL (TStruct n) v = true -> (sdepth v <= 64)%nat ->
  (if mt =? EXCEPTION then e = app_env /\ n = O else e = env /\ n = m_result m) ->
  In (client_type d c) allowed -> request_fits compress d c mx md payload ->
  ready n0 mx md rh (request_wire compress d c payload ++ rest) sent p ->
  exists p', hp_recv decompress allowed env m p
    = (Ok (if mt =? EXCEPTION
           then match attrs (with_defaults e (TStruct n) v) with
                | [msg; type] => CApp type msg
                | _ => CApp None None
                end
           else result_of m (with_defaults e (TStruct n) v)), p')
    /\ exists x fl sq pr,
         p' = mkhp (reading d c [] rest sent (dialect_headers d rh) [] [] (repeat 1 n0) fl sq pr
                      mx md) (emb x) 0
         /\ ml_idle L x
         /\ match d with DHeaders f _ _ _ => fl = f /\ pr = proto_id c | _ => True end.
Proof.
  intros payload Hn Ht Hq He Hc Hwf Hd Hk Hal Hfit (ct & rb & fl & sq & pr & sb & ->).
  destruct (begin_ok d name mt seqid e n v rest sent
    ct rb rh [] [] (repeat 1 n0) fl sq pr mx md sb 0 Hn Ht Hq Hal Hmx Hfit)
    as (x & sq' & pr' & E & Hx & Hp).
  fold payload in E.
  set (body := ml_body L e n v ++ ml_end L) in *.
  destruct (left_reading d body rest sent (dialect_headers d rh) [] [] (repeat 1 n0)
    (dialect_flags d fl) sq' pr' mx md (emb x) 0) as (F & EF & HF).
  destruct (struct_read d e n v rest sent (dialect_headers d rh) [] [] (repeat 1 n0)
    (dialect_flags d fl) sq' pr' mx md x F He Hc Hwf Hd HF Hx) as (x1 & i1 & x2 & E1 & E2 & H2).
  fold body in E1.
  eexists. split; [|exists x2, (dialect_flags d fl), sq', pr';
    (split; [reflexivity|split; [exact H2|destruct d; auto]])].
  unfold hp_recv. unfold bind at 1. rewrite E. unfold bind at 1. rewrite EF.
  destruct (mt =? EXCEPTION); destruct Hk as [-> ->];
    (unfold bind at 1; rewrite E1; unfold bind at 1; rewrite E2; reflexivity).
Qed.
End Process.
End Sub.

(** * Both sub-protocols *)

(** A message as published, binary (strict) or compact. *)
Definition hp_msg (c : bool) (name : list Z) (type seqid : Z) (e : schema) (n : nat) (v : value)
  : list byte :=
  if c then c_msg name type seqid e n v else b_msg true name type seqid e n v.

(** The sub-protocol object between messages. *)
Definition sub_idle (c : bool) (sb : sub) : Prop :=
  if c then exists x, sb = SubC x /\ c_ready x else sb = SubB.

Section Both.
Variables (SL CL : Z).
Hypothesis HSL : SL <= 2147483647.
Hypothesis HCL : CL <= 2147483647.
Lemma b_lim : b_limits bdefault SL CL.
Proof. repeat split; assumption. Qed.
Lemma c_lim : c_limits cdefault SL CL.
Proof. repeat split; assumption. Qed.
Let LB := binary_mlaws bdefault SL CL b_lim (fun H => match Bool.diff_true_false H with end).
Let LC := compact_mlaws cdefault SL CL c_lim.

Lemma LB_msg name type seqid e n v : message LB name type seqid e n v = hp_msg false name type seqid e n v.
Proof. apply b_msg_eq. Qed.
Lemma LC_msg name type seqid e n v : message LC name type seqid e n v = hp_msg true name type seqid e n v.
Proof. apply c_msg_eq. Qed.

Lemma embB A (m : forall Y, proto Y -> M Y A) h (x : unit) d :
  on_sub m (mkhp h SubB d)
  = match m unit (binary bdefault) (mkst x (ahead h) (Header.h_wbuf h) d) with
    | (r, s) => (r, mkhp (Header.with_wbuf (put_back h (inp s)) (out s)) SubB (depth s))
    end.
Proof. destruct x. reflexivity. Qed.
Lemma embC A (m : forall Y, proto Y -> M Y A) h x d :
  on_sub m (mkhp h (SubC x) d)
  = match m cst (compact cdefault) (mkst x (ahead h) (Header.h_wbuf h) d) with
    | (r, s) => (r, mkhp (Header.with_wbuf (put_back h (inp s)) (out s)) (SubC (px s)) (depth s))
    end.
Proof. reflexivity. Qed.

Lemma setB h u d : fst (Header.protocol_id h) = Ok (proto_id false) ->
  set_protocol (mkhp h u d) = (Ok tt, mkhp h SubB d).
Proof.
  intros E. unfold set_protocol. cbn [p_trans].
  assert (Eh : snd (Header.protocol_id h) = h).
  { unfold Header.protocol_id. destruct (_ =? _); [reflexivity|]. destruct (_ || _)%bool; [reflexivity|].
    destruct (_ || _)%bool; reflexivity. }
  destruct (Header.protocol_id h) as [r h']. cbn [fst snd] in *. subst. reflexivity.
Qed.
Lemma setC h u d : fst (Header.protocol_id h) = Ok (proto_id true) ->
  set_protocol (mkhp h u d) = (Ok tt, mkhp h (SubC c_init) d).
Proof.
  intros E. unfold set_protocol. cbn [p_trans].
  assert (Eh : snd (Header.protocol_id h) = h).
  { unfold Header.protocol_id. destruct (_ =? _); [reflexivity|]. destruct (_ || _)%bool; [reflexivity|].
    destruct (_ || _)%bool; reflexivity. }
  destruct (Header.protocol_id h) as [r h']. cbn [fst snd] in *. subst. reflexivity.
Qed.

Lemma startB name type seqid r : mtype_ok type ->
  binary_start (ml_hdr LB name type seqid ++ r).
Proof. intros _. cbn. unfold sb_message. cbn. eexists. reflexivity. Qed.
Lemma startC name type seqid r : mtype_ok type ->
  compact_start (ml_hdr LC name type seqid ++ r).
Proof.
  intros Ht. eexists. eexists. split; [reflexivity|]. unfold mtype_ok in Ht.
  assert (E : type = 1 \/ type = 2 \/ type = 3 \/ type = 4) by lia.
  destruct E as [->|[->|[->| ->]]]; reflexivity.
Qed.
Lemma longB name type seqid : name_ok SL name -> (4 <= length (ml_hdr LB name type seqid))%nat.
Proof. intros _. cbn. unfold sb_message. cbn. lia. Qed.
Lemma longC name type seqid : name_ok SL name -> (4 <= length (ml_hdr LC name type seqid))%nat.
Proof.
  intros Hn. cbn [ml_hdr LC compact_mlaws]. unfold sc_message, sc_string, sc_binary.
  unfold name_ok, base_okd in Hn. destruct (utf8_encode name) as [b|]; [|discriminate].
  pose proof (varint_pos (seqid mod 2 ^ 32)). pose proof (varint_pos (Z.of_nat (length b))).
  rewrite !app_length. cbn [length]. lia.
Qed.

Variable compress : list byte -> list byte.
Variable decompress : list byte -> Z -> option (list byte * list byte).
Hypothesis Hz : HeaderFacts.zlib_ok compress decompress.
Variable allowed : list Z.
Variable env : schema.
Hypothesis Henv : schema_ok env.
Hypothesis Hclosed : schema_closed env = true.
Context {H : Type}.
Variable handler : list Z -> list (option value) -> H -> hres * H.
Variable ms : list method.
Variables (n0 : nat) (mx md : Z).
Hypothesis Hmx : mx < Header.HARD_MAX_FRAME_SIZE.

Notation process := (hp_process compress decompress allowed env handler ms).

Lemma two_way c d m type seqid args rest sent rh p h h' r :
  let payload := hp_msg c (m_name m) type seqid env (m_args m) (VStruct (m_args m) args) in
  14 <= SL -> m_oneway m = false -> method_ok env m ->
  handler_ok env SL CL m r -> (forall t, r <> HTransport t) ->
  lookup (m_name m) ms = Some m -> name_ok SL (m_name m) -> mtype_ok type -> seq_ok seqid ->
  PropsRpc.sendable env SL CL (m_args m) args ->
  In (client_type d c) allowed -> request_fits compress d c mx md payload ->
  handler (m_name m) (received env (m_args m) args) h = (r, h') ->
  (forall mt e n v, reply_for env m r = Some (mt, e, n, v) ->
     reply_fits compress d c n0 mx (hp_msg c (m_name m) mt seqid e n v)) ->
  ready n0 mx md rh (request_wire compress d c payload ++ rest) sent p ->
  exists e n v p',
    let rp := hp_msg c (m_name m) (reply_type m r) seqid e n v in
    reply_for env m r = Some (reply_type m r, e, n, v)
    /\ process (p, h) = (Ok tt, (p', h'))
    /\ ready n0 mx md (dialect_headers d rh) rest (sent ++ reply_wire compress d c seqid n0 rp) p'.
Proof.
  intros payload H14 Ho Hm Hh Htr Hl Hn Ht Hq Ha Hal Hfit Hr Hrf Hp. unfold payload in *.
  destruct c.
  - rewrite <- LC_msg in Hfit, Hp.
    destruct (step_two_way LC true SubC c_init ltac:(repeat split) embC setC
      (fun x i r E => proj1 E) (fun x i r E => proj1 E) startC longC compress decompress Hz allowed
      env Henv Hclosed handler ms n0 mx md Hmx d m type seqid args rest sent rh p h h' r H14 Ho Hm
      Hh Htr Hl Hn Ht Hq Ha Hal Hfit Hr) as (e & n & v & p' & E1 & E2 & E3).
    { intros mt e n v E. rewrite LC_msg. exact (Hrf _ _ _ _ E). }
    { exact Hp. }
    exists e, n, v, p'. rewrite LC_msg in E3. repeat split; assumption.
  - rewrite <- LB_msg in Hfit, Hp.
    destruct (step_two_way LB false (fun _ => SubB) tt I embB setB
      (fun x i r E => E) (fun x i r E => E) startB longB compress decompress Hz allowed
      env Henv Hclosed handler ms n0 mx md Hmx d m type seqid args rest sent rh p h h' r H14 Ho Hm
      Hh Htr Hl Hn Ht Hq Ha Hal Hfit Hr) as (e & n & v & p' & E1 & E2 & E3).
    { intros mt e n v E. rewrite LB_msg. exact (Hrf _ _ _ _ E). }
    { exact Hp. }
    exists e, n, v, p'. rewrite LB_msg in E3. repeat split; assumption.
Qed.

Lemma one_way c d m type seqid args rest sent rh p h h' r :
  let payload := hp_msg c (m_name m) type seqid env (m_args m) (VStruct (m_args m) args) in
  m_oneway m = true -> (forall t, r <> HTransport t) ->
  lookup (m_name m) ms = Some m -> name_ok SL (m_name m) -> mtype_ok type -> seq_ok seqid ->
  PropsRpc.sendable env SL CL (m_args m) args ->
  In (client_type d c) allowed -> request_fits compress d c mx md payload ->
  handler (m_name m) (received env (m_args m) args) h = (r, h') ->
  ready n0 mx md rh (request_wire compress d c payload ++ rest) sent p ->
  exists p', process (p, h) = (Ok tt, (p', h'))
    /\ ready n0 mx md (dialect_headers d rh) rest sent p'.
Proof.
  intros payload Ho Htr Hl Hn Ht Hq Ha Hal Hfit Hr Hp. unfold payload in *.
  destruct c.
  - rewrite <- LC_msg in Hfit, Hp.
    exact (step_one_way LC true SubC c_init ltac:(repeat split) embC setC
      (fun x i r E => proj1 E) (fun x i r E => proj1 E) startC longC compress decompress Hz allowed
      env Henv Hclosed handler ms n0 mx md Hmx d m type seqid args rest sent rh p h h' r Ho
      Htr Hl Hn Ht Hq Ha Hal Hfit Hr Hp).
  - rewrite <- LB_msg in Hfit, Hp.
    exact (step_one_way LB false (fun _ => SubB) tt I embB setB
      (fun x i r E => E) (fun x i r E => E) startB longB compress decompress Hz allowed
      env Henv Hclosed handler ms n0 mx md Hmx d m type seqid args rest sent rh p h h' r Ho
      Htr Hl Hn Ht Hq Ha Hal Hfit Hr Hp).
Qed.

Lemma unknown c d name type seqid e n args rest sent rh p h :
  let payload := hp_msg c name type seqid e n (VStruct n args) in
  let rp := hp_msg c name EXCEPTION seqid app_env O
              (app_exn TA_UNKNOWN_METHOD (Some (lit "Unknown function " ++ name))) in
  lookup name ms = None -> name_ok SL name -> mtype_ok type -> seq_ok seqid ->
  name_ok SL (lit "Unknown function " ++ name) ->
  schema_ok e -> wf e SL CL (TStruct n) (VStruct n args) = true ->
  (vdepth (VStruct n args) <= 64)%nat -> all_bin utf8_valid (VStruct n args) = true ->
  In (client_type d c) allowed -> request_fits compress d c mx md payload ->
  reply_fits compress d c n0 mx rp ->
  ready n0 mx md rh (request_wire compress d c payload ++ rest) sent p ->
  exists p', process (p, h) = (Ok tt, (p', h))
    /\ ready n0 mx md (dialect_headers d rh) rest (sent ++ reply_wire compress d c seqid n0 rp) p'.
Proof.
  intros payload rp Hl Hn Ht Hq Hu He Hwf Hd Hb Hal Hfit Hrf Hp. unfold payload, rp in *.
  destruct c.
  - rewrite <- !LC_msg in *.
    exact (step_unknown LC true SubC c_init ltac:(repeat split) embC setC
      (fun x i r E => proj1 E) (fun x i r E => proj1 E) startC longC compress decompress Hz allowed
      env handler ms n0 mx md Hmx d name type seqid e n args rest sent rh p h Hl Hn
      Ht Hq Hu He Hwf Hd Hb Hal Hfit Hrf Hp).
  - rewrite <- !LB_msg in *.
    exact (step_unknown LB false (fun _ => SubB) tt I embB setB
      (fun x i r E => E) (fun x i r E => E) startB longB compress decompress Hz allowed
      env handler ms n0 mx md Hmx d name type seqid e n args rest sent rh p h Hl Hn
      Ht Hq Hu He Hwf Hd Hb Hal Hfit Hrf Hp).
Qed.

(** * Calls *)

(** A client that talks header format, with the info headers [hs] set. *)
Definition client (c : bool) (n : nat) (fl mxc mdc : Z) (hs : list (list byte * list byte))
    (p : hp) : Prop :=
  exists rb rh sq sb,
    p = mkhp (Header.mkhdr ([], []) 0 rb rh [] hs (repeat 1 n) fl sq (proto_id c) mxc mdc) sb 0
    /\ sub_idle c sb.

Lemma client_send c n fl mxc mdc hs p m args :
  let payload := hp_msg c (m_name m) (if m_oneway m then ONEWAY else CALL) 0 env (m_args m)
                   (VStruct (m_args m) args) in
  name_ok SL (m_name m) -> PropsRpc.sendable env SL CL (m_args m) args ->
  mxc < Header.HARD_MAX_FRAME_SIZE -> 0 <= fl < 2 ^ 16 ->
  Z.of_nat (length (padded (sh_section (proto_id c) (repeat 1 n) hs))) < 4 * 2 ^ 16 ->
  10 + Z.of_nat (length (padded (sh_section (proto_id c) (repeat 1 n) hs)))
  + Z.of_nat (length (Nat.iter n compress payload)) <= mxc ->
  client c n fl mxc mdc hs p ->
  exists rb rh sb,
    hp_send compress env m args p
    = (Ok tt,
       mkhp (Header.mkhdr ([], request_wire compress (DHeaders fl 0 hs n) c payload) 0 rb rh [] []
               (repeat 1 n) fl 0 (proto_id c) mxc mdc) sb 0)
    /\ sub_idle c sb.
Proof.
  intros payload Hn [Hwf Hd] Hmxc Hfl Hsec Hsize (rb & rh & sq & sb & -> & Hsb).
  assert (Ht : mtype_ok (if m_oneway m then ONEWAY else CALL))
    by (unfold mtype_ok, ONEWAY, CALL; destruct (m_oneway m); lia).
  unfold payload, hp_send in *. destruct c; cbn [sub_idle] in Hsb.
  - destruct Hsb as (x & -> & Hx). rewrite <- LC_msg in Hsize |- *.
    destruct (message_ok LC true SubC c_init embC setC
      (fun x i r E => proj1 E) (fun x i r E => proj1 E) startC longC compress allowed (DHeaders 0 0 [] 0)
      [] (m_name m) (if m_oneway m then ONEWAY else CALL) 0 env (m_args m)
      (VStruct (m_args m) args) [] rh hs n fl sq (proto_id true) mxc mdc x rb Hx Hn Ht eq_refl Henv
      Hwf Hd Hmxc (conj Hfl (conj eq_refl (conj Hsec Hsize)))) as (x' & E & Hx').
    exists rb, rh, (SubC x'). split; [exact E|]. exists x'. split; [reflexivity|exact Hx'].
  - subst sb. rewrite <- LB_msg in Hsize |- *.
    destruct (message_ok LB false (fun _ => SubB) tt embB setB
      (fun x i r E => E) (fun x i r E => E) startB longB compress allowed
      (DHeaders 0 0 [] 0)
      [] (m_name m) (if m_oneway m then ONEWAY else CALL) 0 env (m_args m)
      (VStruct (m_args m) args) [] rh hs n fl sq (proto_id false) mxc mdc tt rb I Hn Ht eq_refl Henv
      Hwf Hd Hmxc (conj Hfl (conj eq_refl (conj Hsec Hsize)))) as (x' & E & Hx').
    exists rb, rh, SubB. split; [exact E|reflexivity].
Qed.

(** A reply decoded by a generated client on TBinaryProtocol or TCompactProtocol. *)
Definition reads (c : bool) (m : method) (res : cresult) (rp : list byte) : Prop :=
  forall F, (length rp <= F)%nat ->
  if c then fst (recv (compact cdefault) env F m (mkcs (mkst c_init rp [] 0) [])) = Ok res
  else fst (recv (binary bdefault) env F m (mkcs (mkst tt rp [] 0) [])) = Ok res.

Lemma msg_len {X} {P : proto X} (L : mlaws P SL CL) name type seqid e n v :
  (length (ml_body L e n v) <= length (message L name type seqid e n v))%nat.
Proof. clear. unfold message. rewrite !app_length. lia. Qed.

Lemma reply_reads c m r seqid e n v : 14 <= SL -> method_ok env m -> name_ok SL (m_name m) ->
  seq_ok seqid -> handler_ok env SL CL m r -> (forall t, r <> HTransport t) ->
  reply_for env m r = Some (reply_type m r, e, n, v) ->
  reads c m (expected env m r) (hp_msg c (m_name m) (reply_type m r) seqid e n v).
Proof.
  intros H14 Hm Hn Hq Hh Htr Er F HF.
  destruct (reply_for_ok (fun _ => true) env SL CL m Hm H14 Henv Hclosed r Hh Htr)
    as (e' & n' & v' & Er' & He & Hc & Hwf' & Hd' & Hmt & Hk).
  assert (e' = e) by congruence. assert (n' = n) by congruence.
  assert (v' = v) by congruence. subst e' n' v'. clear Er'.
  destruct c.
  - rewrite <- LC_msg in *.
    destruct (recv_reply LC env m (m_name m) seqid e n v (reply_type m r) [] c_init [] []
      F ltac:(repeat split) Hn Hmt Hq He Hc Hwf' Hd') as (x2 & Erc & _).
    { pose proof (msg_len LC (m_name m) (reply_type m r) seqid e n v). lia. }
    { destruct (reply_type m r =? EXCEPTION); tauto. }
    rewrite app_nil_r in Erc. rewrite Erc. cbn [fst]. f_equal.
    destruct (reply_type m r =? EXCEPTION); destruct Hk as (_ & _ & ->); reflexivity.
  - rewrite <- LB_msg in *.
    destruct (recv_reply LB env m (m_name m) seqid e n v (reply_type m r) [] tt [] []
      F I Hn Hmt Hq He Hc Hwf' Hd') as (x2 & Erc & _).
    { pose proof (msg_len LB (m_name m) (reply_type m r) seqid e n v). lia. }
    { destruct (reply_type m r =? EXCEPTION); tauto. }
    rewrite app_nil_r in Erc. rewrite Erc. cbn [fst]. f_equal.
    destruct (reply_type m r =? EXCEPTION); destruct Hk as (_ & _ & ->); reflexivity.
Qed.

Lemma client_recv c k n seqid fl q mxc mdc p m r e n' v :
  let rp := hp_msg c (m_name m) (reply_type m r) seqid e n' v in
  14 <= SL -> method_ok env m -> name_ok SL (m_name m) ->
  seq_ok seqid -> handler_ok env SL CL m r -> (forall t, r <> HTransport t) ->
  reply_for env m r = Some (reply_type m r, e, n', v) ->
  mxc < Header.HARD_MAX_FRAME_SIZE -> In 0 allowed ->
  request_fits compress (DHeaders fl q [] k) c mxc mdc rp ->
  (exists rh, ready n mxc mdc rh (request_wire compress (DHeaders fl q [] k) c rp) [] p) ->
  exists p', hp_recv decompress allowed env m p = (Ok (expected env m r), p')
    /\ client c n fl mxc mdc [] p'.
Proof.
  intros rp H14 Hm Hn Hq Hh Htr Er Hmxc Hal Hfit (rh & Hp).
  rewrite <- (app_nil_r (request_wire _ _ _ _)) in Hp.
  destruct (reply_for_ok (fun _ => true) env SL CL m Hm H14 Henv Hclosed r Hh Htr)
    as (e1 & n1 & v1 & Er' & He & Hc & Hwf' & Hd' & Hmt & Hk).
  assert (e1 = e) by congruence. assert (n1 = n') by congruence.
  assert (v1 = v) by congruence. subst e1 n1 v1. clear Er'.
  assert (Hk1 : if reply_type m r =? EXCEPTION then e = app_env /\ n' = O
                else e = env /\ n' = m_result m)
    by (destruct (reply_type m r =? EXCEPTION); tauto).
  unfold rp in *. destruct c.
  - rewrite <- LC_msg in *.
    destruct (recv_ok LC true SubC c_init ltac:(repeat split) embC setC
      (fun x i r E => proj1 E) (fun x i r E => proj1 E) startC longC compress decompress Hz allowed
      env n mxc mdc Hmxc (DHeaders fl q [] k) m (m_name m) (reply_type m r) seqid e n' v [] [] rh p
      Hn Hmt Hq He Hc Hwf' Hd' Hk1 Hal Hfit Hp)
      as (p' & E & (x & fl' & sq & pr & -> & Hx & -> & ->)).
    eexists. split; [rewrite E; f_equal; f_equal;
      destruct (reply_type m r =? EXCEPTION); destruct Hk as (_ & _ & ->); reflexivity|].
    exists [], [], sq, (SubC x). split; [reflexivity|]. exists x. split; [reflexivity|exact Hx].
  - rewrite <- LB_msg in *.
    destruct (recv_ok LB false (fun _ => SubB) tt I embB setB
      (fun x i r E => E) (fun x i r E => E) startB longB compress decompress Hz allowed
      env n mxc mdc Hmxc (DHeaders fl q [] k) m (m_name m) (reply_type m r) seqid e n' v [] [] rh p
      Hn Hmt Hq He Hc Hwf' Hd' Hk1 Hal Hfit Hp)
      as (p' & E & (x & fl' & sq & pr & -> & Hx & -> & ->)).
    eexists. split; [rewrite E; f_equal; f_equal;
      destruct (reply_type m r =? EXCEPTION); destruct Hk as (_ & _ & ->); reflexivity|].
    exists [], [], sq, SubB. split; reflexivity.
Qed.

(** The limits of both sides: client [mxc], [mdc], compressing [n] times; server
    [mx], [md], compressing [n0] times. *)
Definition call_fits (c : bool) (n : nat) (fl mxc mdc : Z) (hs : list (list byte * list byte))
    (m : method) (args : list (option value)) (r : hres) : Prop :=
  let payload := hp_msg c (m_name m) (if m_oneway m then ONEWAY else CALL) 0 env (m_args m)
                   (VStruct (m_args m) args) in
  10 + Z.of_nat (length (padded (sh_section (proto_id c) (repeat 1 n) hs)))
    + Z.of_nat (length (Nat.iter n compress payload)) <= mxc
  /\ request_fits compress (DHeaders fl 0 hs n) c mx md payload
  /\ (m_oneway m = false -> forall mt e k v, reply_for env m r = Some (mt, e, k, v) ->
       reply_fits compress (DHeaders fl 0 hs n) c n0 mx (hp_msg c (m_name m) mt 0 e k v)
       /\ request_fits compress (DHeaders fl 0 [] n0) c mxc mdc (hp_msg c (m_name m) mt 0 e k v)).

Lemma call_ok c n fl mxc mdc hs hs0 m args cp sp h h' r rh :
  14 <= SL -> In m ms -> service_ok env SL ms -> PropsRpc.sendable env SL CL (m_args m) args ->
  handler (m_name m) (received env (m_args m) args) h = (r, h') ->
  (m_oneway m = false -> handler_ok env SL CL m r) -> (forall t, r <> HTransport t) ->
  mxc < Header.HARD_MAX_FRAME_SIZE -> In 0 allowed ->
  call_fits c n fl mxc mdc hs m args r ->
  client c n fl mxc mdc hs0 cp -> ready n0 mx md rh [] [] sp ->
  exists cp' sp',
    hp_call compress decompress allowed env handler ms hs m args (cp, sp, h)
    = (Ok (if m_oneway m then CReturn None else expected env m r), hs, (cp', sp', h'))
    /\ client c n fl mxc mdc [] cp' /\ ready n0 mx md hs [] [] sp'.
Proof.
  intros H14 Hi Hms Ha Hr Hh Htr Hmxc Hal (Hsz & Hfit & Hrp) Hcp Hsp.
  destruct Hms as [Hnd Hall]. destruct (Hall m Hi) as [Hn Hm].
  pose proof (lookup_unique _ _ Hnd Hi) as Hl.
  set (payload := hp_msg c (m_name m) (if m_oneway m then ONEWAY else CALL) 0 env (m_args m)
                   (VStruct (m_args m) args)) in *.
  assert (Ht : mtype_ok (if m_oneway m then ONEWAY else CALL))
    by (unfold mtype_ok, ONEWAY, CALL; destruct (m_oneway m); lia).
  destruct Hcp as (rb & rh1 & sq & sb & -> & Hsb).
  destruct (client_send c n fl mxc mdc hs
    (mkhp (Header.mkhdr ([], []) 0 rb rh1 [] hs (repeat 1 n) fl sq (proto_id c) mxc mdc) sb 0)
    m args Hn Ha Hmxc) as (rb2 & rh2 & sb2 & Es & Hsb2).
  { cbn in Hfit. tauto. }
  { cbn in Hfit. tauto. }
  { exact Hsz. }
  { repeat eexists. exact Hsb. }
  fold payload in Es.
  unfold hp_call. cbv beta iota zeta.
  match goal with |- context [hp_send compress env m args ?q] =>
    change q with (mkhp (Header.mkhdr ([], []) 0 rb rh1 [] hs (repeat 1 n) fl sq (proto_id c) mxc
                           mdc) sb 0) end.
  rewrite Es.
  destruct Hsp as (ct & rbs & fls & sqs & prs & sbs & ->).
  unfold deliver at 1.
  cbn [p_trans p_sub p_depth Header.h_trans fst snd app].
  set (s1 := mkhp (Header.mkhdr (request_wire compress (DHeaders fl 0 hs n) c payload, []) ct rbs
                     rh [] [] (repeat 1 n0) fls sqs prs mx md) sbs 0).
  match goal with |- context [hp_process compress decompress allowed env handler ms (?q, h)] =>
    change q with s1 end.
  assert (Hs1 : ready n0 mx md rh (request_wire compress (DHeaders fl 0 hs n) c payload ++ []) [] s1).
  { rewrite app_nil_r. repeat eexists. }
  destruct (m_oneway m) eqn:Ho.
  - destruct (one_way c (DHeaders fl 0 hs n) m ONEWAY 0 args [] [] rh s1 h h' r Ho Htr Hl Hn Ht
      eq_refl Ha Hal Hfit Hr Hs1) as (p' & E & (ct' & rb' & fl' & sq' & pr' & sb' & ->)).
    rewrite E. unfold deliver.
    cbn [p_trans p_sub p_depth Header.h_trans fst snd app dialect_headers Header.h_rheaders].
    eexists. eexists. split; [reflexivity|]. split.
    + repeat eexists. exact Hsb2.
    + repeat eexists.
  - destruct (two_way c (DHeaders fl 0 hs n) m CALL 0 args [] [] rh s1 h h' r H14 Ho (Hm eq_refl)
      (Hh eq_refl) Htr Hl Hn Ht eq_refl Ha Hal Hfit Hr) as (e & k & v & p' & Er & E & Hp').
    { intros mt e k v Er. apply (Hrp eq_refl _ _ _ _ Er). }
    { exact Hs1. }
    destruct Hp' as (ct' & rb' & fl' & sq' & pr' & sb' & ->).
    rewrite E. unfold deliver.
    cbn [p_trans p_sub p_depth Header.h_trans fst snd app dialect_headers Header.h_rheaders].
    set (rp := hp_msg c (m_name m) (reply_type m r) 0 e k v) in *.
    set (c3 := mkhp (Header.mkhdr (reply_wire compress (DHeaders fl 0 hs n) c 0 n0 rp, []) 0 rb2
                       rh2 [] [] (repeat 1 n) fl 0 (proto_id c) mxc mdc) sb2 0).
    match goal with |- context [hp_recv decompress allowed env m ?q] => change q with c3 end.
    destruct (client_recv c n0 n 0 fl 0 mxc mdc c3 m r e k v H14 (Hm eq_refl) Hn eq_refl
      (Hh eq_refl) Htr Er Hmxc Hal) as (p'' & E' & Hc').
    { apply (Hrp eq_refl _ _ _ _ Er). }
    { exists rh2. repeat eexists. }
    rewrite E'. eexists. eexists. split; [reflexivity|]. split; [exact Hc'|]. repeat eexists.
Qed.
End Both.
