(** Facts about the HTTP server model. *)
From Coq Require Import ZArith List Bool Lia.
From Coq Require Import Init.Byte.
From Verif Require Import Base Bytes Utf8 Proto Compact Rpc HttpServer.
Import ListNotations.
Open Scope Z_scope.
Open Scope list_scope.

(** [calls l]: nothing but handler calls, at most one. *)
Definition calls (l : list hev) : Prop :=
  l = [] \/ exists name args, l = [Call name args].

Section Facts.
Context {X H : Type}.
Variable P : proto X.
Variable env : schema.

(** Leaves the shared world alone. *)
Definition keeps {A} (m : SM (hstate X H) A) : Prop :=
  forall s, s_h (snd (m s)) = s_h s.

Lemma keeps_bind {A B} (m : SM (hstate X H) A) (k : A -> SM (hstate X H) B) :
  keeps m -> (forall a, keeps (k a)) -> keeps (bind m k).
Proof.
  intros Hm Hk s. unfold bind. specialize (Hm s). destruct (m s) as [[a|e|] s1]; cbn in *; auto.
  rewrite Hk. exact Hm.
Qed.

Lemma keeps_in {A} (m : M X A) : keeps (on_in m).
Proof. intros s. unfold on_in. destruct (m (s_in s)). reflexivity. Qed.
Lemma keeps_out {A} (m : M X A) : keeps (on_out m).
Proof. intros s. unfold on_out. destruct (m (s_out s)). reflexivity. Qed.
Lemma keeps_flush : keeps flush_out.
Proof. intros s. reflexivity. Qed.
Lemma keeps_reply name t q e n v : keeps (reply P name t q e n v).
Proof.
  unfold reply. apply keeps_bind; [apply keeps_out|intros _].
  apply keeps_bind; [apply keeps_out|intros _].
  apply keeps_bind; [apply keeps_out|intros _]. apply keeps_flush.
Qed.

(** Adds handler calls to the trace and changes nothing else of it. *)
Definition adds {A} (m : SM (hstate X H) A) : Prop :=
  forall s, exists l, calls l
    /\ w_trace (s_h (snd (m s))) = w_trace (s_h s) ++ l
    /\ w_replied (s_h (snd (m s))) = w_replied (s_h s).

Lemma adds_keeps {A} (m : SM (hstate X H) A) : keeps m -> adds m.
Proof. intros K s. exists []. rewrite K, app_nil_r. split; [left; reflexivity|auto]. Qed.

Lemma adds_before {A B} (m : SM (hstate X H) A) (k : A -> SM (hstate X H) B) :
  keeps m -> (forall a, adds (k a)) -> adds (bind m k).
Proof.
  intros Hm Hk s. unfold bind. specialize (Hm s). destruct (m s) as [[a|e|] s1]; cbn in *.
  - destruct (Hk a s1) as (l & A1 & A2 & A3). rewrite Hm in A2, A3. exists l. auto.
  - exists []. rewrite Hm, app_nil_r. split; [left; reflexivity|auto].
  - exists []. rewrite Hm, app_nil_r. split; [left; reflexivity|auto].
Qed.

Lemma adds_after {A B} (m : SM (hstate X H) A) (k : A -> SM (hstate X H) B) :
  adds m -> (forall a, keeps (k a)) -> adds (bind m k).
Proof.
  intros Hm Hk s. unfold bind. destruct (Hm s) as (l & A1 & A2 & A3).
  exists l. split; [exact A1|]. destruct (m s) as [[a|e|] s1]; cbn in *; rewrite ?Hk; auto.
Qed.

Variable handler : list Z -> list (option value) -> H -> hres * H.

Lemma adds_call name args : adds (call_handler (traced handler) name args).
Proof.
  intros s. unfold call_handler, traced. destruct (handler name args (w_h (s_h s))).
  exists [Call name args]. split; [right; eauto|]. split; reflexivity.
Qed.

Lemma adds_dispatch F ms hdr : adds (dispatch P env (traced handler) F ms hdr).
Proof.
  destruct hdr as [[name type] seqid]. cbn [dispatch].
  destruct (lookup name ms) as [m|].
  - unfold process_function. apply adds_before; [apply keeps_in|intros a].
    apply adds_before; [apply keeps_in|intros _].
    apply adds_after; [apply adds_call|intros r].
    destruct r; try (intros s; reflexivity); destruct (m_oneway m);
      try (intros s; reflexivity);
      destruct (reply_for _ _ _) as [[[[? ?] ?] ?]|];
      try (intros s; reflexivity); apply keeps_reply.
  - apply adds_keeps. apply keeps_bind; [apply keeps_in|intros _].
    apply keeps_bind; [apply keeps_in|intros _]. apply keeps_reply.
Qed.

Lemma adds_decorated {A} undeco (m : SM (hstate X H) A) : adds m -> adds (decorated undeco m).
Proof.
  intros Hm s. destruct (Hm s) as (l & A1 & A2 & A3). exists l. split; [exact A1|].
  unfold decorated. destruct (m s) as [r s']. cbn in *. auto.
Qed.

(** The world after on_begin. *)
Definition begun (type : Z) (w : world H) : world H :=
  if type =? ONEWAY then mkworld (w_trace w ++ [Response None []]) true (w_h w) else w.

Definition with_world (s : hstate X H) (w : world H) : hstate X H :=
  mkss (s_in s) (s_out s) (s_sent s) w.

Lemma on_begin_eq name type seqid (s : hstate X H) :
  on_begin (name, type, seqid) s = (Ok tt, with_world s (begun type (s_h s))).
Proof.
  unfold on_begin, begun, with_world. destruct (type =? ONEWAY); [reflexivity|].
  destruct s; reflexivity.
Qed.

(** The hook may as well run before the message is looked at. *)
Lemma gen_eq F ms (s : hstate X H) name type seqid i :
  readMessageBegin P (s_in s) = (Ok (name, type, seqid), i) ->
  gen_processor P env handler F ms on_begin s
  = bind (process P env (traced handler) F ms) (fun _ => ret None)
      (with_world s (begun type (s_h s))).
Proof.
  intros E. unfold gen_processor, process.
  unfold bind at 1 2 3 4 5, on_in at 1 2. cbn [with_world s_in s_out s_sent s_h].
  rewrite E. rewrite on_begin_eq. cbn [with_world s_in s_out s_sent s_h]. reflexivity.
Qed.

Lemma adds_process F ms : adds (process P env (traced handler) F ms).
Proof. apply adds_before; [apply keeps_in|intros hdr; apply adds_dispatch]. Qed.

(** What a processor's outcome [r] and final state [s] make do_POST send last. *)
Definition last_response (type : Z) (r : outcome unit) (s : hstate X H) : list hev :=
  if type =? ONEWAY then []
  else match r with
       | Ok _ => [Response (Some (Z.of_nat (length (getvalue s)))) (getvalue s)]
       | _ => []
       end.

Lemma post_eq F ms x0 rq h n name type seqid i :
  content_length rq = Some n ->
  readMessageBegin P (mkst x0 (body rq) [] 0) = (Ok (name, type, seqid), i) ->
  let p := process P env (traced handler) F ms
    (with_world (start_state x0 (body rq) h) (begun type (mkworld [] false h))) in
  do_post (gen_processor P env handler F ms) x0 rq h
  = (w_trace (s_h (snd p)) ++ last_response type (fst p) (snd p), fst p, w_h (s_h (snd p)))
  /\ exists l, calls l
     /\ w_trace (s_h (snd p)) = (if type =? ONEWAY then [Response None []] else []) ++ l.
Proof.
  intros Hn E p. unfold do_post. rewrite Hn.
  rewrite (gen_eq F ms (start_state x0 (body rq) h) name type seqid i E).
  destruct (adds_process F ms (with_world (start_state x0 (body rq) h)
    (begun type (mkworld [] false h)))) as (l & A1 & A2 & A3).
  fold p in A2, A3. change (s_h (start_state x0 (body rq) h)) with (mkworld [] false h).
  cbv beta delta [bind ret]. fold p.
  assert (B : w_replied (s_h (snd p)) = (type =? ONEWAY)).
  { etransitivity; [exact A3|]. unfold begun, with_world. cbn.
    destruct (type =? ONEWAY); reflexivity. }
  clearbody p. destruct p as [[[]|e|] s]; cbn [fst snd] in *; unfold last_response; split.
  - rewrite B. destruct (type =? ONEWAY); rewrite ?app_nil_r; reflexivity.
  - exists l. split; [exact A1|]. etransitivity; [exact A2|]. unfold begun, with_world. cbn.
    destruct (type =? ONEWAY); reflexivity.
  - destruct (type =? ONEWAY); rewrite app_nil_r; reflexivity.
  - exists l. split; [exact A1|]. etransitivity; [exact A2|]. unfold begun, with_world. cbn.
    destruct (type =? ONEWAY); reflexivity.
  - destruct (type =? ONEWAY); rewrite app_nil_r; reflexivity.
  - exists l. split; [exact A1|]. etransitivity; [exact A2|]. unfold begun, with_world. cbn.
    destruct (type =? ONEWAY); reflexivity.
Qed.

Lemma post_unread F ms x0 rq h :
  (forall hdr i, readMessageBegin P (mkst x0 (body rq) [] 0) <> (Ok hdr, i)) ->
  let p := do_post (gen_processor P env handler F ms) x0 rq h in
  fst (fst p) = [] /\ snd p = h /\ snd (fst p) <> Ok tt.
Proof.
  intros E. unfold do_post. destruct (content_length rq); [|repeat split; discriminate].
  unfold gen_processor. cbv beta delta [bind on_in]. cbn [s_in start_state].
  destruct (readMessageBegin P _) as [[hdr|e|] i]; [|repeat split; discriminate..].
  exfalso. apply (E hdr i). reflexivity.
Qed.

(** From a fresh world: handler calls only, or the one-way response and then
    handler calls only. *)
Definition answered (w : world H) : Prop :=
  if w_replied w then exists l, calls l /\ w_trace w = Response None [] :: l
  else calls (w_trace w).
Definition fresh (w : world H) : Prop := w_trace w = [] /\ w_replied w = false.
Definition good {A} (m : SM (hstate X H) A) : Prop :=
  forall s, fresh (s_h s) -> answered (s_h (snd (m s))).

Lemma good_adds {A} (m : SM (hstate X H) A) : adds m -> good m.
Proof.
  intros Hm s [F1 F2]. destruct (Hm s) as (l & A1 & A2 & A3). unfold answered.
  rewrite A3, F2, A2, F1. exact A1.
Qed.

Lemma good_before {A B} (m : SM (hstate X H) A) (k : A -> SM (hstate X H) B) :
  keeps m -> (forall a, good (k a)) -> good (bind m k).
Proof.
  intros Hm Hk s Hs. unfold bind. specialize (Hm s). destruct (m s) as [[a|e|] s1]; cbn in *.
  - apply Hk. rewrite Hm. exact Hs.
  - rewrite Hm. destruct Hs as [F1 F2]. unfold answered. rewrite F1, F2. left. reflexivity.
  - rewrite Hm. destruct Hs as [F1 F2]. unfold answered. rewrite F1, F2. left. reflexivity.
Qed.

Lemma good_after {A B} (m : SM (hstate X H) A) (k : A -> SM (hstate X H) B) :
  good m -> (forall a, keeps (k a)) -> good (bind m k).
Proof.
  intros Hm Hk s Hs. unfold bind. specialize (Hm s Hs).
  destruct (m s) as [[a|e|] s1]; cbn in *; rewrite ?Hk; exact Hm.
Qed.

Lemma good_hook {A} hdr (k : unit -> SM (hstate X H) A) :
  (forall a, adds (k a)) -> good (bind (on_begin hdr) k).
Proof.
  intros Hk s Hs. destruct hdr as [[name type] seqid]. unfold bind. rewrite on_begin_eq.
  destruct (Hk tt (with_world s (begun type (s_h s)))) as (l & A1 & A2 & A3).
  destruct Hs as [F1 F2]. unfold answered. rewrite A3, A2. unfold begun.
  cbn [with_world s_h]. destruct (type =? ONEWAY); cbn [w_trace w_replied].
  - exists l. split; [exact A1|]. rewrite F1. reflexivity.
  - rewrite F1, F2. exact A1.
Qed.

Lemma good_decorated {A} undeco (m : SM (hstate X H) A) : good m -> good (decorated undeco m).
Proof.
  intros Hm s Hs. specialize (Hm s Hs). unfold decorated. destruct (m s) as [r s']. exact Hm.
Qed.

(** Lets no ResponseException out. *)
Definition plain {A} (m : SM (hstate X H) (option A)) : Prop :=
  forall s, match fst (m s) with Ok (Some _) => False | _ => True end.

Lemma plain_bind {A B} (m : SM (hstate X H) A) (k : A -> SM (hstate X H) (option B)) :
  (forall a, plain (k a)) -> plain (bind m k).
Proof.
  intros Hk s. unfold bind. destruct (m s) as [[a|e|] s1]; cbn; auto. apply Hk.
Qed.

Lemma plain_none {A} : plain (A := A) (ret None).
Proof. intros s. exact I. Qed.

(** do_POST with such a processor. *)
Lemma post_good (proc : processor X H) x0 rq h : good (proc on_begin) -> plain (proc on_begin) ->
  let p := do_post proc x0 rq h in
  exists l, calls l /\
    (fst (fst p) = Response None [] :: l
     \/ (snd (fst p) = Ok tt
         /\ exists b, fst (fst p) = l ++ [Response (Some (Z.of_nat (length b))) b])
     \/ (snd (fst p) <> Ok tt /\ fst (fst p) = l)).
Proof.
  intros Hg Hp. unfold do_post. destruct (content_length rq).
  - specialize (Hg (start_state x0 (body rq) h) (conj eq_refl eq_refl)).
    specialize (Hp (start_state x0 (body rq) h)).
    destruct (proc on_begin _) as [[[evs|]|e|] s]; cbn [fst snd] in *; [contradiction|..];
      unfold answered in Hg; destruct (w_replied (s_h s)); cbn [fst snd].
    all: try (destruct Hg as (l & A & ->); exists l; split; [exact A|left; reflexivity]).
    + exists (w_trace (s_h s)). split; [exact Hg|]. right. left. split; [reflexivity|eauto].
    + exists (w_trace (s_h s)). split; [exact Hg|]. right. right. split; [discriminate|reflexivity].
    + exists (w_trace (s_h s)). split; [exact Hg|]. right. right. split; [discriminate|reflexivity].
  - exists []. split; [left; reflexivity|]. right. right. split; [discriminate|reflexivity].
Qed.

Lemma gen_good F ms : good (gen_processor P env handler F ms on_begin)
  /\ plain (gen_processor P env handler F ms on_begin).
Proof.
  unfold gen_processor. split.
  - apply good_before; [apply keeps_in|intros hdr]. apply good_hook. intros _.
    apply adds_after; [apply adds_dispatch|intros _ s; reflexivity].
  - apply plain_bind. intros hdr. apply plain_bind. intros _. apply plain_bind. intros _.
    apply plain_none.
Qed.
End Facts.

Lemma mux_good {X H} (P : proto X) env
    (handlers : option (list Z) -> list Z -> list (option value) -> H -> hres * H)
    undeco F default svcs :
  good (mux_processor P env handlers undeco F default svcs on_begin)
  /\ plain (mux_processor P env handlers undeco F default svcs on_begin).
Proof.
  unfold mux_processor. split.
  - apply good_before; [apply keeps_in|intros [[name type] seqid]].
    destruct (negb (type =? CALL) && negb (type =? ONEWAY));
      [apply good_adds, adds_keeps; intros s; reflexivity|].
    destruct (split_name name) as [[svc call]|].
    + destruct (find_service svc svcs) as [ms|];
        [|apply good_adds, adds_keeps; intros s; reflexivity].
      apply good_after; [|intros _ s; reflexivity]. apply good_decorated.
      apply good_hook. intros _. apply adds_dispatch.
    + destruct default as [ms|]; [|apply good_adds, adds_keeps; intros s; reflexivity].
      apply good_after; [|intros _ s; reflexivity]. apply good_decorated, good_adds.
      apply adds_dispatch.
  - apply plain_bind. intros [[name type] seqid].
    destruct (negb (type =? CALL) && negb (type =? ONEWAY)); [intros s; exact I|].
    destruct (split_name name) as [[svc call]|].
    + destruct (find_service svc svcs); [|intros s; exact I].
      apply plain_bind. intros _. apply plain_none.
    + destruct default; [|intros s; exact I]. apply plain_bind. intros _. apply plain_none.
Qed.
