(** C40: the Twisted client completes every request exactly once. *)
From Coq Require Import String.
From Coq Require Import ZArith List Bool Lia Permutation.
From Coq Require Import Init.Byte.
From Coq Require Import ZifyBool ZifyNat ZifyN.
From Verif Require Import Base Bytes Utf8 Proto Spec Laws StructFacts Binary
  BinaryLaws SpecBinary Compact CompactLaws SpecCompact InstFacts CodecFacts FrameFacts
  Examples MsgLaws Rpc RpcFacts RpcSys PropsRpc Twisted TwistedFacts.
Import ListNotations.
Open Scope Z_scope.
Open Scope list_scope.

Lemma NoDup_right {A} (a b : list A) : NoDup (a ++ b) -> NoDup b.
Proof.
  induction a as [|x a IH]; intros H; [exact H|]. inversion H; subst. apply IH. assumption.
Qed.

(** A history is a list of calls, frames and connection loss; [user] says what
    calls the callbacks make when a Deferred fires.  [issued] and [fired] pick
    the requests made and the firings out of the log.  Sequence ids are numbered
    from 1, Deferreds from 0. *)

(** At every moment of every history, no Deferred has fired twice, and none has
    fired that was not issued. *)
Theorem C40_at_most_once : forall user fuel ws,
  let s := snd (run user fuel ws client0) in
  NoDup (map fst (fired (c_log s)))
  /\ NoDup (map fst (issued (c_log s))) /\ NoDup (map snd (issued (c_log s)))
  /\ forall d f, In (d, f) (fired (c_log s)) -> In d (map snd (issued (c_log s))).
Proof.
  intros user fuel ws s. pose proof (inv_run user fuel ws client0 inv0) as I. fold s in I.
  pose proof (i_nodup s I) as N. apply NoDup_right in N. split; [exact N|].
  rewrite (i_issued s I), !map_map. cbn [fst snd]. rewrite map_id.
  split; [|split; [apply seq_NoDup|]].
  - apply FinFun.Injective_map_NoDup; [|apply seq_NoDup]. intros a b. unfold seqid_of. lia.
  - intros d f Hi. apply in_seq. pose proof (i_fired s I d f Hi). lia.
Qed.

(** A reply goes to the request with its sequence id. *)
Theorem C40_matched : forall user fuel ws d q v,
  let s := snd (run user fuel ws client0) in
  In (d, FReply q v) (fired (c_log s)) -> In (q, d) (issued (c_log s)).
Proof.
  intros user fuel ws d q v s Hi. pose proof (inv_run user fuel ws client0 inv0) as I.
  fold s in I. rewrite (i_issued s I), (i_match s I d q v Hi). apply in_map_iff.
  exists d. split; [reflexivity|]. apply in_seq. pose proof (i_fired s I d _ Hi). lia.
Qed.

(** When the connection is lost and the callbacks have run, every request issued,
    whenever and by whomever, has fired exactly once -- unless a reply with its
    sequence id came whose body could not be read. *)
Theorem C40_exactly_once : forall user fuel ws s,
  In WLost ws -> run user fuel ws client0 = ([], s) ->
  forall q d, In (q, d) (issued (c_log s)) ->
  ~ In (WFrame (RBadBody q)) ws ->
  exists f, In (d, f) (fired (c_log s))
    /\ count_occ Nat.eq_dec (map fst (fired (c_log s))) d = 1%nat.
Proof.
  intros user fuel ws s HL E q d Hi Hb.
  pose proof (inv_run user fuel ws client0 inv0) as I.
  pose proof (lost_run user fuel ws client0 (or_intror HL)) as L.
  pose proof (accounted_run user (fun q => In (WFrame (RBadBody q)) ws) fuel ws client0 inv0)
    as A.
  rewrite E in *. cbn [fst snd] in *. destruct L as [L|[]].
  rewrite (i_issued s I) in Hi. apply in_map_iff in Hi. destruct Hi as (d' & K & Hd).
  injection K as <- <-. apply in_seq in Hd.
  destruct (A ltac:(intros ? K; cbn in K; lia) ltac:(auto) d') as [H|[H|H]]; [lia|..].
  - rewrite (i_dead s I L) in H. destruct H.
  - apply in_map_iff in H. destruct H as ([e f] & <- & Hf). exists f. split; [exact Hf|].
    apply NoDup_count_occ'.
    + pose proof (i_nodup s I) as N. apply NoDup_right in N. exact N.
    + apply in_map_iff. exists (e, f). auto.
  - contradiction.
Qed.

(** While the connection lasts, a good reply fires its request, whatever else is
    pending. *)
Theorem C40_reply_fires : forall user fuel ws q d v,
  let s := snd (run user fuel ws client0) in
  c_alive s = true -> In (q, d) (issued (c_log s)) ->
  ~ In d (map fst (fired (c_log s))) -> ~ In (WFrame (RBadBody q)) ws ->
  let p := step user (WFrame (RGood q v)) s in
  c_log (snd p) = c_log s ++ [LFire d (FReply q v)] /\ fst p = map WCall (user d (FReply q v))
  /\ Permutation ((q, d) :: c_reqs (snd p)) (c_reqs s).
Proof.
  intros user fuel ws q d v s Ha Hi Hf Hb.
  pose proof (inv_run user fuel ws client0 inv0) as I. fold s in I.
  pose proof (accounted_run user (fun q => In (WFrame (RBadBody q)) ws) fuel ws client0 inv0
    ltac:(intros ? K; cbn in K; lia) ltac:(auto)) as A. fold s in A.
  rewrite (i_issued s I) in Hi. apply in_map_iff in Hi. destruct Hi as (d' & K & Hd).
  injection K as <- <-. apply in_seq in Hd.
  destruct (A d' ltac:(lia)) as [H|[H|H]]; [|contradiction|contradiction].
  apply in_map_iff in H. destruct H as ([q e] & K & H). cbn in K. subst e.
  destruct (i_keys s I _ _ H) as [-> _].
  cbn [step]. unfold do_frame. rewrite Ha.
  destruct (pop (seqid_of d') (c_reqs s)) as [[e l]|] eqn:E.
  - apply pop_some in E. destruct E as (a & b & E1 & -> & _).
    assert (e = d') as ->.
    { destruct (i_keys s I (seqid_of d') e) as [K _]; [rewrite E1; apply in_elt|].
      unfold seqid_of in K. lia. }
    cbn. split; [reflexivity|]. split; [reflexivity|]. rewrite E1. apply Permutation_middle.
  - apply pop_none in E. exfalso. apply E. apply in_map_iff. exists (seqid_of d', d'). auto.
Qed.

Definition st (k : nat) : client :=
  mkclient (Z.of_nat k) k (map (fun d => (seqid_of d, d)) (seq 0 k)) true
    (map (fun d => LIssue (seqid_of d) d) (seq 0 k)).

(** Calls, then replies to all of them in any order: each gets its own. *)
Theorem C40_any_order : forall n (v : Z -> cresult) l,
  Permutation l (map Z.of_nat (seq 1 n)) ->
  exists s, run (fun _ _ => []) (n + n)
      (repeat (WCall (mkcall false true)) n ++ map (fun q => WFrame (RGood q (v q))) l) client0
    = ([], s)
    /\ fired (c_log s) = map (fun q => (Z.to_nat (q - 1), FReply q (v q))) l
    /\ c_reqs s = [].
Proof.
  intros n v l HP.
  assert (C : forall k m fuel ws, run (fun _ _ => []) (m + fuel)
      (repeat (WCall (mkcall false true)) m ++ ws) (st k)
    = run (fun _ _ => []) fuel ws (st (k + m)%nat)).
  { intros k m. revert k. induction m as [|m IH]; intros k fuel ws.
    - rewrite Nat.add_0_r. reflexivity.
    - cbn [repeat app Nat.add run step]. unfold do_call. unfold st at 1 2 3 4 5 6.
      cbn [c_alive k_sent k_oneway negb andb c_seq c_next c_reqs c_log app].
      assert (Ek : put (Z.of_nat k + 1) k (map (fun d => (seqid_of d, d)) (seq 0 k))
        = map (fun d => (seqid_of d, d)) (seq 0 (S k))).
      { rewrite put_fresh.
        - rewrite seq_S, map_app. cbn. unfold seqid_of. do 3 f_equal. lia.
        - rewrite map_map. cbn. intros Hi. apply in_map_iff in Hi.
          destruct Hi as (d & Hd & Hs). apply in_seq in Hs. unfold seqid_of in Hd. lia. }
      rewrite Ek. replace (k + S m)%nat with (S k + m)%nat by lia. rewrite <- IH.
      f_equal. unfold st. f_equal; [lia|].
      rewrite (seq_S k 0), map_app. cbn. unfold seqid_of. do 3 f_equal. lia. }
  change client0 with (st O). rewrite (C O n n). cbn [Nat.add].
  assert (G : forall l0 s, (forall q d, In (q, d) (c_reqs s) -> q = seqid_of d) ->
    c_alive s = true -> Permutation l0 (map fst (c_reqs s)) ->
    exists s', run (fun _ _ => []) (length l0) (map (fun q => WFrame (RGood q (v q))) l0) s
      = ([], s') /\ fired (c_log s') = fired (c_log s)
         ++ map (fun q => (Z.to_nat (q - 1), FReply q (v q))) l0 /\ c_reqs s' = []).
  { clear. induction l0 as [|q l0 IH]; intros s HK Ha HP.
    - exists s. cbn. split; [reflexivity|]. split; [symmetry; apply app_nil_r|].
      apply Permutation_nil in HP. destruct (c_reqs s); [reflexivity|discriminate].
    - cbn [length map run step]. unfold do_frame. rewrite Ha.
      destruct (pop q (c_reqs s)) as [[d r]|] eqn:E.
      + apply pop_some in E. destruct E as (a & b & E1 & -> & _). cbn [fire map app].
        destruct (IH (logc (LFire d (FReply q (v q))) (set_reqs (a ++ b) s)))
          as (s' & R1 & R2 & R3).
        * cbn. intros q' d' Hi. apply HK. rewrite E1. apply in_app_or in Hi.
          apply in_or_app. cbn. tauto.
        * exact Ha.
        * cbn. rewrite E1, map_app in HP. cbn in HP. rewrite map_app.
          apply (Permutation_cons_app_inv _ _ HP).
        * exists s'. split; [exact R1|]. split; [|exact R3]. rewrite R2. cbn [logc c_log].
          rewrite fired_app, <- app_assoc. cbn [fired flat_map app map].
          replace (Z.to_nat (q - 1)) with d; [reflexivity|].
          rewrite (HK q d); [unfold seqid_of; lia|]. rewrite E1. apply in_elt.
      + exfalso. apply pop_none in E. apply E. apply (Permutation_in _ HP). left. reflexivity. }
  assert (Hl : length l = n).
  { rewrite (Permutation_length HP), map_length, seq_length. reflexivity. }
  destruct (G l (st n)) as (s & R1 & R2 & R3).
  - cbn. intros q d Hi. apply in_map_iff in Hi. destruct Hi as (d' & K & _). congruence.
  - reflexivity.
  - cbn. rewrite map_map. cbn. rewrite HP. rewrite <- seq_shift, map_map. reflexivity.
  - rewrite Hl in R1. exists s. split; [exact R1|]. split; [|exact R3]. rewrite R2.
    replace (fired (c_log (st n))) with (@nil (nat * firing)); [reflexivity|].
    cbn [c_log st]. generalize (seq 0 n). intros l0. induction l0; [reflexivity|exact IHl0].
Qed.

(** A one-way call, and a call whose sending raises, fire before they return. *)
Theorem C40_immediate : forall user fuel ws c,
  let s := snd (run user fuel ws client0) in
  c_alive s = true -> k_oneway c = true \/ k_sent c = false ->
  let p := step user (WCall c) s in
  c_log (snd p) = c_log s ++ [LIssue (c_seq s + 1) (c_next s);
    LFire (c_next s) (if k_sent c then FSent else FSendError)]
  /\ c_reqs (snd p) = c_reqs s.
Proof.
  intros user fuel ws c s Ha Hc. pose proof (inv_run user fuel ws client0 inv0) as I.
  fold s in I. cbn [step]. rewrite (do_call_eq user c s I Ha).
  replace (k_sent c && negb (k_oneway c)) with false
    by (destruct Hc as [-> | ->]; destruct (k_sent c); reflexivity).
  cbn. rewrite <- app_assoc. split; reflexivity.
Qed.

(** ** Frames *)

(** The reply frame a processor sends for method [m] when its handler did [r]
    reaches the request with the value or exception due, under the frame's
    sequence id. *)
Section Decode.
Context {X : Type} {P : proto X} {SL CL : Z}.
Variable L : mlaws P SL CL.

Lemma decode_reply env ms m r q x F : schema_ok env -> schema_closed env = true ->
  ml_idle L x -> 14 <= SL ->
  lookup (m_name m) (filter (fun m => negb (m_oneway m)) ms) = Some m ->
  method_ok env m -> name_ok SL (m_name m) -> seq_ok q ->
  handler_okd (ml_dok L) env SL CL m r -> (forall t, r <> HTransport t) ->
  exists e n v, reply_for env m r = Some (reply_type m r, e, n, v)
    /\ ((length (ml_body L e n v) <= F)%nat ->
        decode P env F ms x (message L (m_name m) (reply_type m r) q e n v)
        = RGood q (expected env m r)).
Proof.
  intros He Hc Hx HSL Hl Hm Hn Hq Hh Ht.
  destruct (reply_for_ok (ml_dok L) env SL CL m Hm HSL He Hc r Hh Ht)
    as (e & n & v & Er & He' & Hc' & Hwf & Hd & Hty & Hk).
  exists e, n, v. split; [exact Er|]. intros HF. unfold decode.
  destruct (mr_begin L (m_name m) (reply_type m r) q (ml_body L e n v ++ ml_end L ++ []) x [] 0
     Hx Hn Hty Hq (mt_body L _ _ _ _)) as (x1 & i1 & E1 & H1).
  destruct (read_same L e n v (ml_end L ++ []) x1 i1 [] F He' Hc' H1 Hwf Hd HF)
    as (x2 & i2 & E2 & H2).
  destruct (mr_end L [] x2 i2 [] 0 H2) as (x3 & E3 & H3).
  unfold message. rewrite app_nil_r in E1. rewrite E1, Hl.
  destruct (reply_type m r =? EXCEPTION); destruct Hk as (-> & -> & ->);
    unfold bind, ret; rewrite E2, E3; reflexivity.
Qed.
End Decode.

Theorem C40_decoded_binary : forall cf SL CL env ms m r q F,
  b_limits cf SL CL -> strict_ok cf -> 14 <= SL -> schema_ok env -> schema_closed env = true ->
  lookup (m_name m) (filter (fun m => negb (m_oneway m)) ms) = Some m ->
  method_ok env m -> name_ok SL (m_name m) -> seq_ok q ->
  handler_ok env SL CL m r -> (forall t, r <> HTransport t) ->
  exists e n v, reply_for env m r = Some (reply_type m r, e, n, v)
    /\ let frame := b_msg (strictWrite cf) (m_name m) (reply_type m r) q e n v in
       ((length frame <= F)%nat ->
        decode (binary cf) env F ms tt frame = RGood q (expected env m r)).
Proof.
  intros cf SL CL env ms m r q F HL Hs HSL He Hc Hl Hm Hn Hq Hh Ht.
  destruct (decode_reply (binary_mlaws cf SL CL HL Hs) env ms m r q tt F He Hc I HSL Hl Hm Hn
    Hq Hh Ht) as (e & n & v & Er & Ed).
  exists e, n, v. split; [exact Er|]. intros frame HF. rewrite b_msg_eq in Ed. apply Ed.
  unfold frame, b_msg in HF. rewrite app_length in HF. cbn. lia.
Qed.

Theorem C40_decoded_compact : forall cf SL CL env ms m r q F,
  c_limits cf SL CL -> 14 <= SL -> schema_ok env -> schema_closed env = true ->
  lookup (m_name m) (filter (fun m => negb (m_oneway m)) ms) = Some m ->
  method_ok env m -> name_ok SL (m_name m) -> seq_ok q ->
  handler_ok env SL CL m r -> (forall t, r <> HTransport t) ->
  exists e n v, reply_for env m r = Some (reply_type m r, e, n, v)
    /\ let frame := c_msg (m_name m) (reply_type m r) q e n v in
       ((length frame <= F)%nat ->
        decode (compact cf) env F ms c_init frame = RGood q (expected env m r)).
Proof.
  intros cf SL CL env ms m r q F HL HSL He Hc Hl Hm Hn Hq Hh Ht.
  assert (Hi : c_ready c_init) by (repeat split).
  destruct (decode_reply (compact_mlaws cf SL CL HL) env ms m r q c_init F He Hc Hi HSL Hl Hm Hn
    Hq Hh Ht) as (e & n & v & Er & Ed).
  exists e, n, v. split; [exact Er|]. intros frame HF. rewrite c_msg_eq in Ed. apply Ed.
  unfold frame, c_msg in HF. rewrite app_length in HF. cbn. lia.
Qed.

(** ** Where the property fails *)

(** A reply whose body cannot be read takes its request out of _reqs and raises:
    the request never fires, not even when the connection is lost. *)
Theorem C40_bad_body_never : forall user fuel ws q d f,
  let s := snd (run user fuel ws client0) in
  c_alive s = true -> In (q, d) (c_reqs s) ->
  forall fuel' ws', let s' := snd (run user fuel' ws' (snd (step user (WFrame (RBadBody q)) s))) in
  ~ In (d, f) (fired (c_log s')).
Proof.
  intros user fuel ws q d f s Ha Hi fuel' ws' s'.
  pose proof (inv_run user fuel ws client0 inv0) as I. fold s in I.
  assert (G : forall fuel ws s, inv s -> (d < c_next s)%nat ->
    ~ In d (map snd (c_reqs s) ++ map fst (fired (c_log s))) ->
    ~ In d (map snd (c_reqs (snd (run user fuel ws s)))
            ++ map fst (fired (c_log (snd (run user fuel ws s)))))).
  { clear. induction fuel as [|n IH]; intros ws s I Hd Hn; [destruct ws; exact Hn|].
    destruct ws as [|w r]; [exact Hn|]. cbn [run].
    pose proof (inv_step user w s I) as Is.
    assert (K : (c_next s <= c_next (snd (step user w s)))%nat
      /\ ~ In d (map snd (c_reqs (snd (step user w s)))
                 ++ map fst (fired (c_log (snd (step user w s)))))).
    { assert (KF : forall e f l l1 l2 q0 s0, c_reqs s0 = l1 ++ (q0, e) :: l2 -> l = l1 ++ l2 ->
        ~ In d (map snd (c_reqs s0) ++ map fst (fired (c_log s0))) ->
        ~ In d (map snd (c_reqs (logc (LFire e f) (set_reqs l s0)))
                ++ map fst (fired (c_log (logc (LFire e f) (set_reqs l s0)))))).
      { intros e f l l1 l2 q0 s0 E -> H. cbn. rewrite fired_app, E, !map_app in *. cbn in *.
        rewrite !in_app_iff in *. cbn in *. tauto. }
      assert (KL : forall e, match e with LIssue _ _ | LFire _ _ => False | _ => True end ->
        ~ In d (map snd (c_reqs (logc e s)) ++ map fst (fired (c_log (logc e s))))).
      { intros e He. cbn. rewrite fired_app. destruct e; try contradiction; cbn;
          rewrite app_nil_r; exact Hn. }
      assert (KI : ~ In d (map snd (c_reqs (issue s)) ++ map fst (fired (c_log (issue s))))).
      { cbn. rewrite fired_app, !map_app, !in_app_iff in *. cbn. intuition lia. }
      destruct w as [c|r0|]; cbn [step].
      - destruct (c_alive s) eqn:Ha.
        + rewrite do_call_eq by assumption.
          destruct (k_sent c && negb (k_oneway c)); [split; [cbn; lia|exact KI]|].
          split; [cbn; lia|]. cbn [fire snd].
          apply (KF (c_next s) _ _ (c_reqs s) [] (c_seq s + 1) (issue s));
            [reflexivity|rewrite app_nil_r; reflexivity|exact KI].
        + unfold do_call. rewrite Ha. split; [cbn; lia|apply KL; exact Logic.I].
      - unfold do_frame. destruct (c_alive s); [|split; [cbn; lia|apply KL; exact Logic.I]].
        destruct r0 as [|q0|q0|q0 v]; try (split; [cbn; lia|apply KL; exact Logic.I]).
        + destruct (pop q0 (c_reqs s)) as [[e l]|] eqn:E;
            [|split; [cbn; lia|apply KL; exact Logic.I]].
          apply pop_some in E. destruct E as (a & b & E1 & -> & _). split; [cbn; lia|].
          cbn. rewrite fired_app, E1, !map_app in *. cbn in *. rewrite !in_app_iff in *.
          cbn in *. tauto.
        + destruct (pop q0 (c_reqs s)) as [[e l]|] eqn:E;
            [|split; [cbn; lia|apply KL; exact Logic.I]].
          apply pop_some in E. destruct E as (a & b & E1 & E2 & _). split; [cbn; lia|].
          apply (KF e _ l a b q0 s E1 E2 Hn).
      - unfold do_lost. destruct (c_alive s); [|split; [cbn; lia|exact Hn]].
        destruct (popitem (c_reqs s)) as [[e l]|] eqn:E.
        + apply popitem_some in E. destruct E as (q0 & E). split; [cbn; lia|].
          apply (KF e FLost l l [] q0 s E); [rewrite app_nil_r; reflexivity|exact Hn].
        + apply popitem_none in E. split; [cbn; lia|]. cbn. rewrite E in Hn. exact Hn. }
    destruct (step user w s) as [ws' s1]. cbn [snd] in *. destruct K as [K1 K2].
    apply IH; [exact Is|lia|exact K2]. }
  intros Hf. subst s'. cbn [step] in Hf. unfold do_frame in Hf. rewrite Ha in Hf.
  destruct (i_keys s I q d Hi) as [Hq Hd].
  destruct (pop q (c_reqs s)) as [[e l]|] eqn:E.
  - apply pop_some in E. destruct E as (a & b & E1 & -> & _).
    assert (e = d) as ->.
    { destruct (i_keys s I q e) as [K _]; [rewrite E1; apply in_elt|].
      unfold seqid_of in *. lia. }
    cbn [snd] in Hf.
    apply (G fuel' ws' (logc LRaised (set_reqs (a ++ b) s))).
    + apply inv_log; [|exact Logic.I]. apply (inv_drop s _ a b q d); auto.
    + exact Hd.
    + cbn. rewrite fired_app. cbn. rewrite app_nil_r. pose proof (i_nodup s I) as N.
      rewrite E1, map_app in N. cbn in N. rewrite <- app_assoc in N. cbn in N.
      apply NoDup_remove_2 in N. rewrite map_app, <- app_assoc. exact N.
    + apply in_or_app. right. apply in_map_iff. exists (d, f). auto.
  - apply pop_none in E. exfalso. apply E. apply in_map_iff. exists (q, d). auto.
Qed.

Theorem C40_bad_body_refuted : exists ws q d, forall fuel,
  In WLost ws /\ (length ws <= fuel)%nat ->
  exists s, run (fun _ _ => []) fuel ws client0 = ([], s)
  /\ In (q, d) (issued (c_log s)) /\ fired (c_log s) = [].
Proof.
  exists [WCall (mkcall false true); WFrame (RBadBody 1); WLost], 1, O.
  intros fuel [_ H]. cbn in H. destruct fuel as [|[|[|n]]]; [lia..|].
  eexists. destruct n; (split; [reflexivity|]; cbn; auto).
Qed.

(** After connectionLost a call does not return a Deferred at all: _reqs is
    gone and AttributeError comes out of the call. *)
Theorem C40_after_loss : forall user fuel ws c,
  let s := snd (run user fuel ws client0) in
  c_alive s = false -> step user (WCall c) s = ([], logc LRefused s).
Proof. intros user fuel ws c s Ha. cbn [step]. unfold do_call. rewrite Ha. reflexivity. Qed.

(** A user whose errback calls again keeps connectionLost looping for ever. *)
Theorem C40_retry_refuted : exists user, forall fuel,
  fst (run user fuel [WCall (mkcall false true); WLost] client0) <> [].
Proof.
  exists (fun _ _ => [mkcall false true]).
  assert (G : forall fuel s ws, inv s -> c_alive s = true ->
    (ws = [WLost] /\ c_reqs s <> []) \/ ws = [WCall (mkcall false true); WLost] ->
    fst (run (fun _ _ => [mkcall false true]) fuel ws s) <> []).
  { induction fuel as [|n IH]; intros s ws I Ha Hw.
    - destruct Hw as [[-> _]| ->]; discriminate.
    - destruct Hw as [[-> Hr]| ->]; cbn [run step].
      + pose proof (inv_step (fun _ _ => [mkcall false true]) WLost s I) as Is.
        cbn [step] in Is. unfold do_lost in *. rewrite Ha in *.
        destruct (popitem (c_reqs s)) as [[d l]|] eqn:E;
          [|apply popitem_none in E; contradiction].
        cbn [fire map app] in *. apply IH; [exact Is|exact Ha|right; reflexivity].
      + pose proof (inv_step (fun _ _ => [mkcall false true]) (WCall (mkcall false true)) s I) as Is.
        cbn [step] in Is. rewrite (do_call_eq _ _ s I Ha) in *. cbn [k_sent k_oneway andb negb snd] in *.
        apply IH; [exact Is|reflexivity|]. left. split; [reflexivity|].
        cbn. destruct (c_reqs s); discriminate. }
  intros fuel. apply G; [apply inv0|reflexivity|right; reflexivity].
Qed.

(** * Non-trivial cases *)

(** Three calls and a one-way; replies out of order; the callback of the first
    reply makes another call; a stray reply; then the connection is lost. *)
Definition ex_user (d : nat) (f : firing) : list ccall :=
  match f with FReply 2 _ => [mkcall false true] | FLost => [] | _ => [] end.
Example C40_ex :
  let two := WCall (mkcall false true) in
  let v := CReturn (Some (VInt 5)) in
  let p := run ex_user 20
    [two; two; WCall (mkcall true true); two; WFrame (RGood 2 v); WFrame (RGood 9 v);
     WFrame (RGood 1 v); WLost] client0 in
  fst p = [] /\
  fired (c_log (snd p))
  = [(2%nat, FSent); (1%nat, FReply 2 v); (0%nat, FReply 1 v); (4%nat, FLost); (3%nat, FLost)]
  /\ issued (c_log (snd p)) = [(1, 0%nat); (2, 1%nat); (3, 2%nat); (4, 3%nat); (5, 4%nat)].
Proof. vm_compute. repeat split. Qed.

Example C40_ex_frame :
  decode (binary bdefault) rpc_env 100 rpc_ms tt
    (b_msg true (lit "add") REPLY 7 rpc_env 1 (VStruct 1 [Some (VInt 3); None]))
  = RGood 7 (CReturn (Some (VInt 3)))
  /\ decode (binary bdefault) rpc_env 100 rpc_ms tt
       (sb_message true (lit "add") REPLY 7 ++ [x08]) = RBadBody 7
  /\ decode (binary bdefault) rpc_env 100 rpc_ms tt
       (sb_message true (lit "ping") REPLY 7 ++ [x00]) = RNoMethod 7.
Proof. vm_compute. repeat split. Qed.

(** Axioms used. *)
Print Assumptions C40_at_most_once.
Print Assumptions C40_matched.
Print Assumptions C40_exactly_once.
Print Assumptions C40_reply_fires.
Print Assumptions C40_any_order.
Print Assumptions C40_immediate.
Print Assumptions C40_decoded_binary.
Print Assumptions C40_decoded_compact.
Print Assumptions C40_bad_body_never.
Print Assumptions C40_bad_body_refuted.
Print Assumptions C40_after_loss.
Print Assumptions C40_retry_refuted.
