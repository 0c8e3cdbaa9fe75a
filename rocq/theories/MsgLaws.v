(** What the RPC proofs need of a protocol: whole messages.  Instances for the
    binary and compact protocols. *)
From Coq Require Import ZArith List Bool Lia.
From Coq Require Import Init.Byte.
From Verif Require Import Base Bytes Utf8 Proto Spec Laws RoundTrip StructFacts
  Binary BinaryLaws SpecBinary Compact CompactLaws SpecCompact WireFacts InstFacts
  CodecFacts.
Import ListNotations.
Open Scope Z_scope.

Definition name_ok (SL : Z) (name : list Z) : Prop :=
  base_ok SL TString (VStr name) = true.
Definition seq_ok (q : Z) : Prop := between (-2147483648) 2147483647 q = true.
Definition mtype_ok (t : Z) : Prop := 1 <= t <= 4.

Lemma wfd_struct_in D env SL CL n v : wfd D env SL CL (TStruct n) v = true ->
  (n < length env)%nat.
Proof.
  destruct v; try discriminate. cbn [wfd]. intros H.
  apply andb_prop in H as [_ H]. destruct (nth_error env n) eqn:E; [|discriminate].
  apply nth_error_Some. congruence.
Qed.

(** A protocol object is idle between messages ([ml_idle]), in front of the
    body ([ml_wB], [ml_rB]) or after the body ([ml_wA], [ml_rA]) of one.  The
    reading positions relate the object and its unread bytes to the message
    text still ahead.  [ml_dok]: the doubles the protocol can carry.  [ml_T]: what
    may follow a header. *)
Record mlaws {X} (P : proto X) (SL CL : Z) := mkmlaws {
  ml_idle : X -> Prop;
  ml_wB : X -> Prop;
  ml_wA : X -> Prop;
  ml_rB : X -> list byte -> list byte -> Prop;
  ml_rA : X -> list byte -> list byte -> Prop;
  ml_skbin : list byte -> bool;
  ml_dok : Z -> bool;
  ml_T : list byte -> Prop;
  ml_hdr : list Z -> Z -> Z -> list byte;
  ml_body : schema -> nat -> value -> list byte;
  ml_end : list byte;
  mw_begin : forall name type seqid x i o d, ml_idle x ->
    name_ok SL name -> mtype_ok type -> seq_ok seqid ->
    exists x', writeMessageBegin P name type seqid (mkst x i o d)
               = (Ok tt, mkst x' i (o ++ ml_hdr name type seqid) d) /\ ml_wB x';
  mw_body : forall env n v x i o, ml_wB x -> schema_ok env ->
    wfd ml_dok env SL CL (TStruct n) v = true -> (sdepth v <= 64)%nat ->
    exists x', write_struct P env n v (mkst x i o 0)
               = (Ok tt, mkst x' i (o ++ ml_body env n v) 0) /\ ml_wA x';
  mw_end : forall x i o d, ml_wA x ->
    exists x', writeMessageEnd P (mkst x i o d)
               = (Ok tt, mkst x' i (o ++ ml_end) d) /\ ml_idle x';
  mr_begin : forall name type seqid tail x o d, ml_idle x ->
    name_ok SL name -> mtype_ok type -> seq_ok seqid -> ml_T tail ->
    exists x' i', readMessageBegin P
                    (mkst x (ml_hdr name type seqid ++ tail) o d)
                  = (Ok (name, type, seqid), mkst x' i' o d)
                  /\ ml_rB x' i' tail;
  mr_body : forall envW envR R n m v tail x i o F, ml_rB x i (ml_body envW n v ++ tail) ->
    schema_ok envW -> schema_ok envR -> compat_env envW envR R -> R n m = true ->
    wfd ml_dok envW SL CL (TStruct n) v = true -> (sdepth v <= 64)%nat ->
    drop_ok envW envR ml_skbin SKIP_DEPTH (TStruct n) (TStruct m) v = true ->
    (length (ml_body envW n v) <= F)%nat ->
    exists x' i', read_struct P envR DFUEL F m (mkst x i o 0)
                  = (Ok (proj envW envR (TStruct n) (TStruct m) v), mkst x' i' o 0)
                  /\ ml_rA x' i' tail;
  mr_skip : forall env n v tail x i o d F, ml_rB x i (ml_body env n v ++ tail) ->
    schema_ok env -> wfd ml_dok env SL CL (TStruct n) v = true -> (vdepth v <= 64)%nat ->
    all_bin ml_skbin v = true -> (length (ml_body env n v) <= F)%nat ->
    exists x' i', skip P F SKIP_DEPTH T_STRUCT (mkst x i o d)
                  = (Ok tt, mkst x' i' o d) /\ ml_rA x' i' tail;
  mr_end : forall tail x i o d, ml_rA x i (ml_end ++ tail) ->
    exists x', readMessageEnd P (mkst x i o d) = (Ok tt, mkst x' tail o d)
               /\ ml_idle x';
  mt_body : forall env n v tail, ml_T (ml_body env n v ++ tail) }.

Arguments ml_idle {X P SL CL}.
Arguments ml_wB {X P SL CL}.
Arguments ml_wA {X P SL CL}.
Arguments ml_rB {X P SL CL}.
Arguments ml_rA {X P SL CL}.
Arguments ml_skbin {X P SL CL}.
Arguments ml_dok {X P SL CL}.
Arguments ml_T {X P SL CL}.
Arguments ml_hdr {X P SL CL}.
Arguments ml_body {X P SL CL}.
Arguments ml_end {X P SL CL}.
Arguments mw_begin {X P SL CL}.
Arguments mw_body {X P SL CL}.
Arguments mw_end {X P SL CL}.
Arguments mr_begin {X P SL CL}.
Arguments mr_body {X P SL CL}.
Arguments mr_skip {X P SL CL}.
Arguments mr_end {X P SL CL}.
Arguments mt_body {X P SL CL}.

(** A whole message. *)
Definition message {X} {P : proto X} {SL CL} (L : mlaws P SL CL)
    (name : list Z) (type seqid : Z) (env : schema) (n : nat) (v : value)
  : list byte :=
  ml_hdr L name type seqid ++ ml_body L env n v ++ ml_end L.

(** * Binary *)

Definition binary_mlaws cf SL CL (H : b_limits cf SL CL)
    (Hs : strictWrite cf = false -> strictRead cf = false) :
  mlaws (binary cf) SL CL.
Proof.
  refine {|
    ml_idle := fun _ => True; ml_wB := fun _ => True; ml_wA := fun _ => True;
    ml_rB := fun _ i r => i = r; ml_rA := fun _ i r => i = r;
    ml_skbin := utf8_valid; ml_dok := fun _ => true; ml_T := fun _ => True;
    ml_hdr := sb_message (strictWrite cf);
    ml_body := fun env n v => sb_value env (TStruct n) v;
    ml_end := [] |}.
  - intros name type seqid [] i o d _ Hn Ht Hq. exists tt. split; [|exact I].
    change (writeMessageBegin (binary cf)) with (b_writeMessageBegin cf).
    rewrite (b_writeMessage_ok cf SL); [reflexivity| |exact Hn| |exact Hq].
    + apply H.
    + unfold mtype_ok in Ht. destruct (strictWrite cf); lia.
  - intros env n v [] i o _ Hok Hwf Hd. exists tt. split; [|exact I].
    eapply binary_write; eauto; try apply H; lia.
  - intros [] i o d _. exists tt. rewrite app_nil_r. split; [reflexivity|exact I].
  - intros name type seqid tail [] o d _ Hn Ht Hq _. exists tt, tail.
    split; [|reflexivity]. unfold mtype_ok in Ht.
    change (readMessageBegin (binary cf)) with (b_readMessageBegin cf).
    destruct (strictWrite cf).
    + eapply b_readMessage_strict; eauto. lia.
    + eapply b_readMessage_old; eauto. lia.
  - intros envW envR R n m v tail [] i o F -> HW HR HC Hnm Hwf Hd Hdr HF.
    exists tt, tail. split; [|reflexivity].
    eapply binary_read; eauto; lia.
  - intros env n v tail [] i o d F -> Hok Hwf Hd Hb HF. exists tt, tail.
    split; [|reflexivity].
    exact (binary_skip cf SL CL env (TStruct n) v tail o d F H Hok Hwf Hd Hb HF).
  - intros tail [] i o d ->. exists tt. split; [reflexivity|exact I].
  - intros; exact I.
Defined.

(** * Compact *)

Definition c_wvalue (x : cst) : Prop :=
  state x = VALUE_WRITE /\ structs x = [] /\ containers x = [].

Lemma compact_write_v cf SL CL env n v d x i o : schema_ok env ->
  SL <= 2147483647 -> CL <= 2147483647 ->
  wf env SL CL (TStruct n) v = true -> 0 <= d -> d + Z.of_nat (sdepth v) <= 64 ->
  c_wvalue x ->
  exists x', write_struct (compact cf) env n v (mkst x i o d)
             = (Ok tt, mkst x' i (o ++ sc_value env (TStruct n) v) d)
             /\ c_wvalue x'.
Proof.
  intros Hok H1 H2 Hwf H0 Hd (X1 & X2 & X3). unfold write_struct.
  rewrite (write_value_same _ _ env v (compact_same_writers cf cdefault)).
  set (L := compact_laws cdefault SL CL (cdefault_limits _ _ H1 H2)).
  set (c := mkcpos KV (last_fid x) [] []).
  destruct (write_enc L env Hok v d (TStruct n) c H0 I Hwf Hd x i o
             ltac:(repeat split; assumption)) as (x' & E & Hr).
  exists x'. split.
  - rewrite E. unfold L. rewrite enc_compact_spec by exact I. reflexivity.
  - destruct Hr as (R1 & R2 & R3 & R4). repeat split; assumption.
Qed.

Lemma compact_skip_top cf SL CL env n v tail x o d F : c_limits cf SL CL ->
  schema_ok env -> wf env SL CL (TStruct n) v = true -> (vdepth v <= 64)%nat ->
  all_bin utf8_valid v = true -> (length (sc_value env (TStruct n) v) <= F)%nat ->
  c_ready x ->
  exists x', skip (compact cf) F SKIP_DEPTH T_STRUCT
    (mkst x (sc_value env (TStruct n) v ++ tail) o d)
  = (Ok tt, mkst x' tail o d) /\ c_ready x'.
Proof.
  intros Hl Hok Hwf Hd Hb HF Hx.
  set (L := compact_laws cf SL CL Hl).
  rewrite <- (enc_compact_spec cf SL CL Hl env v (TStruct n) (c_top x) I) in *.
  destruct (skip_enc L env Hok F v d SKIP_DEPTH (TStruct n) (c_top x) I Hwf Hd HF Hb
     tail I x _ o (ready_rrep x _ Hx)) as (x' & i' & E & Hr).
  apply rrep_ready in Hr as (-> & Hr & _). exists x'. split; [exact E|exact Hr].
Qed.

Definition compact_mlaws cf SL CL (H : c_limits cf SL CL) :
  mlaws (compact cf) SL CL.
Proof.
  refine {|
    ml_idle := c_ready; ml_wB := c_wvalue; ml_wA := c_wvalue;
    ml_rB := fun x i r => i = r /\ c_ready x;
    ml_rA := fun x i r => i = r /\ c_ready x;
    ml_skbin := utf8_valid; ml_dok := fun _ => true; ml_T := fun _ => True;
    ml_hdr := sc_message;
    ml_body := fun env n v => sc_value env (TStruct n) v;
    ml_end := [] |}.
  - intros name type seqid x i o d (X1 & X2 & X3) Hn Ht Hq.
    exists (set_state VALUE_WRITE x). split.
    + change (writeMessageBegin (compact cf)) with c_writeMessageBegin.
      eapply c_writeMessage_ok; eauto; [apply H|unfold mtype_ok in Ht; lia].
    + destruct x. cbn in *. repeat split; assumption.
  - intros env n v x i o Hx Hok Hwf Hd.
    eapply compact_write_v; eauto; try apply H; lia.
  - intros x i o d (X1 & X2 & X3). exists (set_state CLEAR x). split.
    + rewrite app_nil_r. change (writeMessageEnd (compact cf)) with c_writeMessageEnd.
      unfold c_writeMessageEnd, assert_state, upd, bind, get_px, set_px, assert_.
      cbn [px inp out depth]. rewrite X1. reflexivity.
    + destruct x. cbn in *. repeat split; assumption.
  - intros name type seqid tail x o d Hx Hn Ht Hq _. exists x, tail.
    split; [|split; [reflexivity|exact Hx]].
    change (readMessageBegin (compact cf)) with (c_readMessageBegin cf).
    eapply c_readMessage_ok; eauto; [apply Hx|unfold mtype_ok in Ht; lia].
  - intros envW envR R n m v tail x i o F (-> & Hx) HW HR HC Hnm Hwf Hd Hdr HF.
    destruct (compact_read cf SL CL envW envR R n m v tail x o 0 F H HW HR HC Hnm
      Hwf ltac:(lia) ltac:(lia) Hdr HF Hx) as (x' & E & Hx' & _).
    exists x', tail. split; [exact E|]. split; [reflexivity|exact Hx'].
  - intros env n v tail x i o d F (-> & Hx) Hok Hwf Hd Hb HF.
    destruct (compact_skip_top cf SL CL env n v tail x o d F H Hok Hwf Hd Hb HF Hx)
      as (x' & E & Hx').
    exists x', tail. split; [exact E|]. split; [reflexivity|exact Hx'].
  - intros tail x i o d (-> & Hx). exists x. split; [|exact Hx].
    destruct Hx as (X1 & X2 & X3).
    change (readMessageEnd (compact cf)) with c_readMessageEnd.
    unfold c_readMessageEnd, assert_state, bind, get_px, assert_.
    cbn [px inp out depth app]. rewrite X1. cbn. rewrite X2. reflexivity.
  - intros; exact I.
Defined.
