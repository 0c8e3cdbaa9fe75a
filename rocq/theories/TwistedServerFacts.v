(** Facts about the Twisted server, and about a Twisted client connected to it. *)
From Coq Require Import String.
From Coq Require Import ZArith List Bool Lia.
From Coq Require Import Init.Byte.
From Coq Require Import ZifyBool ZifyNat ZifyN.
From Verif Require Import Base Bytes BytesFacts Utf8 Proto Spec Laws StructFacts Closure FrameFacts
  InstFacts MsgLaws Rpc RpcFacts RpcSys Twisted TornadoRpc TornadoRpcFacts TwistedServer.
Import ListNotations.
Open Scope Z_scope.
Open Scope list_scope.

(** * Strings on the wire *)

Definition sfr (u : list byte) : list byte := be_bytes 4 (Z.of_nat (length u)) ++ u.
Definition sstream (us : list (list byte)) : list byte := concat (map sfr us).

Lemma send_small u : small u -> send_string u = Some (sfr u).
Proof.
  unfold small, send_string. intros S.
  replace (Z.of_nat (length u) <? 4294967296) with true by lia. reflexivity.
Qed.

Lemma sstream_app a b : sstream (a ++ b) = sstream a ++ sstream b.
Proof. unfold sstream. rewrite map_app, concat_app. reflexivity. Qed.

Lemma cut_sfr u r : small u -> next_string (sfr u ++ r) = CString u r.
Proof.
  intros S. unfold small in S. unfold next_string, sfr. rewrite <- app_assoc.
  assert (Hl : length (be_bytes 4 (Z.of_nat (length u))) = 4%nat)
    by (unfold be_bytes; rewrite rev_length; reflexivity).
  replace (length (be_bytes 4 (Z.of_nat (length u)) ++ u ++ r) <? 4)%nat with false
    by (rewrite app_length; symmetry; apply Nat.ltb_ge; lia).
  rewrite (first_exact 4), (skip_exact 4) by exact Hl.
  unfold unpack_unsigned. rewrite be_val_be_bytes.
  change (256 ^ Z.of_nat 4) with 4294967296. rewrite Z.mod_small by lia.
  unfold MAX_LENGTH. replace (Z.of_nat (length u) >? 2147483647) with false by lia.
  replace (Z.of_nat (length u) <=? Z.of_nat (length (u ++ r))) with true
    by (rewrite app_length; lia).
  rewrite Nat2Z.id, first_exact, skip_exact by reflexivity. reflexivity.
Qed.

Lemma cut_app i t :
  match next_string i with
  | CWait => True
  | CLong => next_string (i ++ t) = CLong
  | CString s r => next_string (i ++ t) = CString s (r ++ t)
  end.
Proof.
  unfold next_string. cbv zeta.
  destruct (Nat.ltb_spec (length i) 4) as [|Hl]; [exact Logic.I|].
  replace (length (i ++ t) <? 4)%nat with false
    by (rewrite app_length; symmetry; apply Nat.ltb_ge; lia).
  rewrite firstn_app, skipn_app. replace (4 - length i)%nat with O by lia.
  rewrite firstn_O, skipn_O, app_nil_r.
  pose proof (be_val_range (firstn 4 i)) as R.
  remember (unpack_unsigned (firstn 4 i)) as n eqn:En.
  assert (0 <= n) by (rewrite En; unfold unpack_unsigned; lia).
  remember (skipn 4 i) as s eqn:Es.
  destruct (n >? MAX_LENGTH); [reflexivity|].
  destruct (Z.leb_spec n (Z.of_nat (length s))) as [C|C]; [|exact Logic.I].
  replace (n <=? Z.of_nat (length (s ++ t))) with true by (rewrite app_length; lia).
  rewrite firstn_app, skipn_app. replace (Z.to_nat n - length s)%nat with O by lia.
  rewrite firstn_O, skipn_O, app_nil_r. reflexivity.
Qed.

Lemma cut_len i s r : next_string i = CString s r -> (length r + 4 <= length i)%nat.
Proof.
  unfold next_string. cbv zeta.
  destruct (Nat.ltb_spec (length i) 4) as [|Hl]; [intros E; discriminate E|].
  destruct (_ >? _); [intros E; discriminate E|].
  destruct (_ <=? _); [|intros E; discriminate E].
  intros E. assert (Er : r = skipn (Z.to_nat (unpack_unsigned (firstn 4 i))) (skipn 4 i))
    by congruence.
  rewrite Er, !skipn_length. lia.
Qed.

(** What arrives of a stream of small strings. *)
Lemma cut_stream us i t : Forall small us -> i ++ t = sstream us ->
  match next_string i with
  | CWait => i = [] \/ t <> []
  | CLong => False
  | CString s r => exists us', us = s :: us' /\ r ++ t = sstream us'
  end.
Proof.
  intros Hs E. pose proof (cut_app i t) as C. rewrite E in C.
  destruct us as [|u us'].
  - cbn in E. apply app_eq_nil in E as [-> ->]. left. reflexivity.
  - pose proof (Forall_inv Hs) as Hu.
    change (sstream (u :: us')) with (sfr u ++ sstream us') in C, E. rewrite (cut_sfr u) in C by exact Hu.
    destruct (next_string i) as [| |s r] eqn:En.
    + right. intros ->. rewrite app_nil_r in E. rewrite E, cut_sfr in En by exact Hu.
      discriminate En.
    + discriminate C.
    + exists us'. split; congruence.
Qed.

(** * Pieces *)

Section Pieces.
Context {X H : Type}.
Variable P : proto X.
Variable env : schema.
Variable handler : list Z -> list (option value) -> H -> option hres * H.
Variable ms : list method.
Variable x0 : X.
Notation str := (tw_string P env handler ms x0).
Notation loop := (tw_loop P env handler ms x0).
Notation data := (tw_data P env handler ms x0).

Lemma set_buf_twice a b (y : tws H) : set_buf a (set_buf b y) = set_buf a y.
Proof. reflexivity. Qed.

Lemma ok_set_buf d msg b (y : tws H) : tw_ok d msg (set_buf b y) = set_buf b (tw_ok d msg y).
Proof.
  unfold tw_ok, tw_dispatch. destruct msg; [reflexivity|].
  destruct (send_string _); reflexivity.
Qed.

Lemma string_set_buf s b y :
  str s (set_buf b y) = (fst (str s y), set_buf b (snd (str s y))).
Proof.
  unfold tw_string. change (w_h (set_buf b y)) with (w_h y).
  destruct (tw_process _ _ _ _ _ _ _) as [|msg|m q args [r|] h]; cbn [fst snd].
  - reflexivity.
  - rewrite ok_set_buf. reflexivity.
  - f_equal. unfold tw_finish, set_buf.
    cbn [w_buf w_closing w_next w_pending w_done w_sent w_out w_calls w_h].
    destruct (tw_answer _ _ _ _ _ _) as [msg|]; [|reflexivity].
    unfold tw_ok, tw_dispatch. destruct msg; [reflexivity|].
    destruct (send_string _); reflexivity.
  - reflexivity.
Qed.

Lemma loop_set_buf n : forall i b y, loop n i (set_buf b y) = loop n i y.
Proof.
  induction n as [|n IH]; intros i b y; [reflexivity|]. cbn [tw_loop].
  destruct (next_string i) as [| |s r]; [reflexivity|reflexivity|].
  rewrite string_set_buf. destruct (str s y) as [[|] y']; cbn [fst snd]; [apply IH|reflexivity].
Qed.

Lemma loop_fuel n : forall k i y, (length i < n)%nat -> (length i < k)%nat ->
  loop n i y = loop k i y.
Proof.
  induction n as [|n IH]; intros k i y Hn Hk; [lia|].
  destruct k as [|k]; [lia|]. cbn [tw_loop].
  destruct (next_string i) as [| |s r] eqn:E; [reflexivity|reflexivity|].
  apply cut_len in E. destruct (str s y) as [[|] y']; [|reflexivity].
  apply IH; lia.
Qed.

(** What a loop leaves in the buffer does not start with a whole string unless
    reading is over. *)
Lemma loop_wait n : forall i y, (length i < n)%nat ->
  w_closing (loop n i y) = false -> next_string (w_buf (loop n i y)) = CWait.
Proof.
  induction n as [|n IH]; intros i y Hn; [lia|]. cbn [tw_loop].
  destruct (next_string i) as [| |s r] eqn:E.
  - intros _. exact E.
  - intros C; discriminate C.
  - apply cut_len in E. destruct (str s y) as [[|] y']; [apply IH; lia|intros C; discriminate C].
Qed.

Lemma loop_app n : forall k k2 i t y, (length i < n)%nat -> (length (i ++ t) < k)%nat ->
  w_closing (loop n i y) = false ->
  (length (w_buf (loop n i y) ++ t) < k2)%nat ->
  loop k (i ++ t) y = loop k2 (w_buf (loop n i y) ++ t) (loop n i y).
Proof.
  induction n as [|n IH]; intros k k2 i t y Hn Hk; [lia|]. cbn [tw_loop].
  pose proof (cut_app i t) as C.
  destruct (next_string i) as [| |s r] eqn:E.
  - intros _. change (w_buf (set_buf i y)) with i. intros H2.
    rewrite (loop_set_buf _ (i ++ t)). apply loop_fuel; lia.
  - intros D; discriminate D.
  - destruct k as [|k]; [lia|]. cbn [tw_loop]. rewrite C.
    pose proof (cut_len _ _ _ E) as L1. pose proof (cut_len _ _ _ C) as L2.
    destruct (str s y) as [[|] y']; [|intros D; discriminate D].
    intros D H2. apply IH; [lia|lia|exact D|exact H2].
Qed.

Lemma data_app a b y : w_closing (data a y) = false -> data b (data a y) = data (a ++ b) y.
Proof.
  destruct (w_closing y) eqn:Ec.
  - unfold tw_data. rewrite !Ec. intros C; discriminate C.
  - assert (E : forall c, data c y = loop (S (length (w_buf y ++ c))) (w_buf y ++ c) y)
      by (intros c; unfold tw_data; rewrite Ec; reflexivity).
    rewrite !E. intros D. unfold tw_data. rewrite D.
    rewrite (app_assoc (w_buf y) a b). symmetry. apply loop_app; [lia|lia|exact D|lia].
Qed.
End Pieces.

(** * What is specified *)

(** The calls among the events. *)
Fixpoint xcalls (es : list xevent) : list (method * list (option value)) :=
  match es with
  | [] => []
  | XCall m args :: r => (m, args) :: xcalls r
  | _ :: r => xcalls r
  end.

(** What the client's Deferreds were fired with: replies, in order, ... *)
Fixpoint got (log : list clog) : list (nat * cresult) :=
  match log with
  | [] => []
  | LFire d (FReply _ r) :: t => (d, r) :: got t
  | _ :: t => got t
  end.
(** ... and one-way calls sent. *)
Fixpoint sent_log (log : list clog) : list nat :=
  match log with
  | [] => []
  | LFire d FSent :: t => d :: sent_log t
  | _ :: t => sent_log t
  end.
(** Nothing went wrong. *)
Definition fine (e : clog) : Prop :=
  match e with
  | LIssue _ _ | LFire _ (FReply _ _) | LFire _ FSent => True
  | _ => False
  end.

(** What the finished invocations in [dn] earn the callers [l]. *)
Definition earned (env : schema) (l : list (method * list (option value)))
    (dn : list (nat * hres)) : list (nat * cresult) :=
  flat_map (fun dr => match nth_error l (fst dr) with
                      | Some (m, _) => if m_oneway m then []
                                       else [(fst dr, expected env m (snd dr))]
                      | None => []
                      end) dn.

Fixpoint one_ways (d : nat) (l : list (method * list (option value))) : list nat :=
  match l with
  | [] => []
  | (m, _) :: r => if m_oneway m then d :: one_ways (S d) r else one_ways (S d) r
  end.

Lemma got_app a b : got (a ++ b) = got a ++ got b.
Proof.
  induction a as [|[q d|d [q r| | |]| |] t IH]; cbn [app got]; rewrite ?IH; reflexivity.
Qed.
Lemma sent_log_app a b : sent_log (a ++ b) = sent_log a ++ sent_log b.
Proof.
  induction a as [|[q d|d [q r| | |]| |] t IH]; cbn [app sent_log]; rewrite ?IH; reflexivity.
Qed.
Lemma one_ways_app a : forall b d,
  one_ways d (a ++ b) = one_ways d a ++ one_ways (d + length a) b.
Proof.
  induction a as [|[m args] r IH]; intros b d; cbn [app one_ways length].
  - rewrite Nat.add_0_r. reflexivity.
  - rewrite IH, Nat.add_succ_r. destruct (m_oneway m); reflexivity.
Qed.

Lemma nth_app_l {A} (a b : list A) n : (n < length a)%nat ->
  nth_error (a ++ b) n = nth_error a n.
Proof. apply nth_error_app1. Qed.

Lemma flat_map_ext_in {A B} (f g : A -> list B) l :
  (forall a, In a l -> f a = g a) -> flat_map f l = flat_map g l.
Proof.
  induction l as [|a r IH]; intros E; [reflexivity|]. cbn [flat_map].
  rewrite (E a (or_introl eq_refl)), IH; [reflexivity|].
  intros b Hb. apply E. right. exact Hb.
Qed.

Lemma earned_more env l x dn : (forall d r, In (d, r) dn -> (d < length l)%nat) ->
  earned env (l ++ x) dn = earned env l dn.
Proof.
  intros Hd. apply flat_map_ext_in. intros [d r] I. cbn [fst snd].
  rewrite nth_app_l by (eapply Hd; exact I). reflexivity.
Qed.

Lemma earned_app env l a b : earned env l (a ++ b) = earned env l a ++ earned env l b.
Proof. apply flat_map_app. Qed.

(** * The client's _reqs *)

Definition entry (i : nat) : Z * nat := (Z.of_nat i + 1, i).

(** Two-way calls without an answer yet. *)
Definition unanswered (l : list (method * list (option value))) (dn : list (nat * hres))
    (i : nat) : bool :=
  match nth_error l i with
  | Some (m, _) => negb (m_oneway m) && negb (existsb (Nat.eqb i) (map fst dn))
  | None => false
  end.

Definition open_reqs l dn : list (Z * nat) :=
  map entry (filter (unanswered l dn) (seq 0 (length l))).

Lemma pop_entry f ix : NoDup ix -> forall d, In d ix -> f d = true ->
  pop (Z.of_nat d + 1) (map entry (filter f ix))
  = Some (d, map entry (filter (fun i => f i && negb (Nat.eqb i d)) ix)).
Proof.
  induction 1 as [|a r Hn Hr IH]; intros d I Hf; [contradiction|].
  cbn [filter]. destruct (Nat.eq_dec a d) as [->|Hne].
  - rewrite Hf, Nat.eqb_refl, andb_false_r. cbn [map pop entry]. rewrite Z.eqb_refl.
    do 3 f_equal. apply filter_ext_in. intros b Hb.
    replace (Nat.eqb b d) with false; [rewrite andb_true_r; reflexivity|].
    symmetry. apply Nat.eqb_neq. intros ->. contradiction.
  - destruct I as [->|I]; [contradiction|].
    replace (Nat.eqb a d) with false by (symmetry; apply Nat.eqb_neq; exact Hne).
    rewrite andb_true_r. destruct (f a).
    + cbn [map pop entry]. replace (Z.of_nat a + 1 =? Z.of_nat d + 1) with false by lia.
      rewrite (IH d I Hf). reflexivity.
    + apply IH; assumption.
Qed.

(** Invocations of one-way methods answer nobody. *)
Definition silent (l : list (method * list (option value))) (dn : list (nat * hres)) : Prop :=
  forall d r, In (d, r) dn -> exists m args, nth_error l d = Some (m, args) /\ m_oneway m = true.

Lemma open_silent l dn a : silent l a -> open_reqs l (dn ++ a) = open_reqs l dn.
Proof.
  intros S. unfold open_reqs. f_equal. apply filter_ext_in. intros i _.
  unfold unanswered. destruct (nth_error l i) as [[m args]|] eqn:E; [|reflexivity].
  destruct (m_oneway m) eqn:Ho; [reflexivity|]. cbn [negb andb]. f_equal.
  rewrite map_app, existsb_app.
  replace (existsb (Nat.eqb i) (map fst a)) with false; [apply orb_false_r|].
  symmetry. apply not_true_is_false. intros C. apply existsb_exists in C as (j & I & C).
  apply Nat.eqb_eq in C. subst j. apply in_map_iff in I as ([d r] & <- & I). cbn [fst] in *.
  destruct (S d r I) as (m' & args' & E' & Ho'). congruence.
Qed.

Lemma open_pop l dn d r m args : nth_error l d = Some (m, args) -> m_oneway m = false ->
  ~ In d (map fst dn) ->
  pop (Z.of_nat d + 1) (open_reqs l dn) = Some (d, open_reqs l (dn ++ [(d, r)])).
Proof.
  intros E Ho Hn. unfold open_reqs. rewrite pop_entry.
  - do 3 f_equal. apply filter_ext_in. intros i _. unfold unanswered.
    destruct (nth_error l i) as [[m' args']|]; [|reflexivity].
    rewrite map_app, existsb_app. cbn [map existsb fst]. rewrite orb_false_r, negb_orb, andb_assoc.
    reflexivity.
  - apply seq_NoDup.
  - apply in_seq. assert (d < length l)%nat by (apply nth_error_Some; congruence). lia.
  - unfold unanswered. rewrite E, Ho. cbn [negb andb]. apply negb_true_iff.
    apply not_true_is_false. intros C. apply existsb_exists in C as (j & I & C).
    apply Nat.eqb_eq in C. subst j. contradiction.
Qed.

Lemma open_call l dn m args : (forall d r, In (d, r) dn -> (d < length l)%nat) ->
  open_reqs (l ++ [(m, args)]) dn
  = if m_oneway m then open_reqs l dn
    else put (Z.of_nat (length l) + 1) (length l) (open_reqs l dn).
Proof.
  intros Hd. unfold open_reqs at 1. rewrite app_length. cbn [length].
  rewrite Nat.add_comm. cbn [Nat.add]. rewrite seq_S, filter_app, map_app. cbn [Nat.add filter].
  assert (E : map entry (filter (unanswered (l ++ [(m, args)]) dn) (seq 0 (length l)))
              = open_reqs l dn).
  { unfold open_reqs. f_equal. apply filter_ext_in. intros i I. apply in_seq in I.
    unfold unanswered. rewrite nth_app_l by lia. reflexivity. }
  rewrite E. unfold unanswered. rewrite nth_error_app2, Nat.sub_diag by lia. cbn [nth_error].
  destruct (m_oneway m); cbn [negb andb].
  - apply app_nil_r.
  - replace (existsb (Nat.eqb (length l)) (map fst dn)) with false.
    + cbn [negb map]. symmetry. apply put_fresh. intros k e I.
      unfold open_reqs in I. apply in_map_iff in I as (i & Ei & I). apply filter_In in I as [I _].
      apply in_seq in I. unfold entry in Ei. assert (k = Z.of_nat i + 1) by congruence. lia.
    + symmetry. apply not_true_is_false. intros C. apply existsb_exists in C as (j & I & C).
      apply Nat.eqb_eq in C. subst j. apply in_map_iff in I as ([d r] & E' & I). cbn [fst] in E'.
      specialize (Hd d r I). lia.
Qed.

Lemma take_pending_in d l c : NoDup (map fst l) -> In (d, c) l ->
  exists r, take_pending d l = Some (c, r) /\ NoDup (map fst r)
    /\ forall e, In e r <-> In e l /\ fst e <> d.
Proof.
  induction l as [|[k c'] t IH]; intros Hn I; [contradiction|].
  cbn [map fst] in Hn. pose proof (proj1 (NoDup_cons_iff _ _) Hn) as [Hk Ht].
  cbn [take_pending]. destruct (Nat.eqb_spec k d) as [->|Hne].
  - destruct I as [E|I].
    + exists t. split; [congruence|]. split; [exact Ht|]. intros e. split.
      * intros Ie. split; [right; exact Ie|]. intros Ed. apply Hk. rewrite <- Ed.
        apply in_map. exact Ie.
      * intros [[<-|Ie] Hd]; [cbn [fst] in Hd; congruence|exact Ie].
    + exfalso. apply Hk. change d with (fst (d, c)). apply in_map. exact I.
  - destruct I as [E|I]; [congruence|].
    destruct (IH Ht I) as (r & E & Hr & Hs). exists ((k, c') :: r). rewrite E.
    split; [reflexivity|]. split.
    + cbn [map fst]. apply NoDup_cons; [|exact Hr]. intros C. apply Hk.
      apply in_map_iff in C as (e & Ee & C). apply Hs in C as [C _]. rewrite <- Ee.
      apply in_map. exact C.
    + intros e. split.
      * intros [<-|Ie]; [split; [left; reflexivity|exact Hne]|].
        apply Hs in Ie as [Ie Hd]. split; [right; exact Ie|exact Hd].
      * intros [[<-|Ie] Hd]; [left; reflexivity|]. right. apply Hs. split; assumption.
Qed.

Lemma take_pending_out d l : ~ In d (map fst l) -> take_pending d l = None.
Proof.
  induction l as [|[k c] t IH]; intros Hn; [reflexivity|]. cbn [take_pending map fst] in *.
  destruct (Nat.eqb_spec k d) as [->|Hne]; [exfalso; apply Hn; left; reflexivity|].
  rewrite IH; [reflexivity|]. intros I. apply Hn. right. exact I.
Qed.

(** * The undisturbed connection *)
Section Run.
Context {X : Type} {P : proto X} {SL CL : Z} (L : mlaws P SL CL).
Variables (env : schema).
Hypothesis Henv : schema_ok env.
Hypothesis Hclosed : schema_closed env = true.
Context {H : Type}.
Variable handler : list Z -> list (option value) -> H -> option hres * H.
Variable ms : list method.
Hypothesis Hms : service_ok env SL ms.
Hypothesis HSL : 14 <= SL.
Variable x0 : X.
Hypothesis Hx0 : ml_idle L x0.

Notation msg := (message L).
Notation calls_list := (list (method * list (option value))).
Notation rep := (rep L env).
Notation req := (req L env).
Notation reqs := (reqs L env).
Notation str := (tw_string P env handler ms x0).
Notation loop := (tw_loop P env handler ms x0).
Notation fin := (tw_finish P env x0).

(** For lemmas stated with a handler they do not use. *)
Definition any_handler (_ : list Z) (_ : list (option value)) (h : unit) : hres * unit :=
  (HOther, h).

Definition seq_of (d : nat) : Z := Z.of_nat d + 1.

(** A result invocation [d] of method [m] may have. *)
Definition good (d : nat) (m : method) (r : hres) : Prop :=
  (forall t, r <> HTransport t)
  /\ (m_oneway m = false -> handler_okd (ml_dok L) env SL CL m r /\ small (rep (seq_of d) m r)).

(** The messages that answer the callers [l]. *)
Definition answers_to (l : calls_list) (dn : list (nat * hres))
  : list (option nat * list byte) :=
  flat_map (fun dr => match nth_error l (fst dr) with
                      | Some (m, _) => if m_oneway m then []
                                       else [(Some (fst dr), rep (seq_of (fst dr)) m (snd dr))]
                      | None => []
                      end) dn.

Lemma answers_app l a b : answers_to l (a ++ b) = answers_to l a ++ answers_to l b.
Proof. apply flat_map_app. Qed.

Lemma answers_more l x dn : (forall d r, In (d, r) dn -> (d < length l)%nat) ->
  answers_to (l ++ x) dn = answers_to l dn.
Proof.
  intros Hd. apply flat_map_ext_in. intros [d r] I. cbn [fst snd].
  rewrite nth_app_l by (eapply Hd; exact I). reflexivity.
Qed.

Lemma write_message_ok name mt q e n v x i o : ml_idle L x -> name_ok SL name -> mtype_ok mt ->
  seq_ok q -> schema_ok e -> wfd (ml_dok L) e SL CL (TStruct n) v = true -> (sdepth v <= 64)%nat ->
  exists x', write_message P name mt q e n v (mkst x i o 0)
    = (Ok tt, mkst x' i (o ++ msg name mt q e n v) 0).
Proof.
  intros Hx Hn Ht Hq He Hwf Hd. unfold write_message.
  destruct (mw_begin L name mt q x i o 0 Hx Hn Ht Hq) as (x1 & E1 & H1).
  destruct (mw_body L e n v x1 i (o ++ ml_hdr L name mt q) H1 He Hwf Hd) as (x2 & E2 & H2).
  destruct (mw_end L x2 i ((o ++ ml_hdr L name mt q) ++ ml_body L e n v) 0 H2) as (x3 & E3 & H3).
  exists x3. unfold bind. rewrite E1, E2, E3. unfold message. rewrite !app_assoc. reflexivity.
Qed.

Lemma answer_ok m q r : In m ms -> seq_ok q -> m_oneway m = false ->
  handler_okd (ml_dok L) env SL CL m r -> (forall t, r <> HTransport t) ->
  tw_answer P env x0 m q r = Some (rep q m r).
Proof.
  intros Hin Hq Ho Hh Ht. destruct Hms as [_ Hall]. destruct (Hall m Hin) as [Hn Hm].
  destruct (reply_for_ok (ml_dok L) env SL CL m (Hm Ho) HSL Henv Hclosed r Hh Ht)
    as (e & n & v & Er & He & Hc & Hwf & Hd & Hmt & _).
  destruct (write_message_ok (m_name m) (reply_type m r) q e n v x0 [] [] Hx0 Hn Hmt Hq He Hwf Hd)
    as (x' & E).
  unfold tw_answer, TornadoRpcFacts.rep. rewrite Ho, Er.
  destruct r as [rv|rv|t o|t|].
  - cbn [reply_for] in Er. cbn [reply_type] in *.
    assert (e = env) by congruence. assert (n = m_result m) by congruence.
    assert (v = success_result m rv) by congruence. subst e n v.
    rewrite E. reflexivity.
  - rewrite E. reflexivity.
  - rewrite E. reflexivity.
  - exfalso. eapply Ht. reflexivity.
  - rewrite E. reflexivity.
Qed.

Lemma rep_nonempty m q r : In m ms -> m_oneway m = false -> handler_okd (ml_dok L) env SL CL m r ->
  (forall t, r <> HTransport t) -> seq_ok q -> rep q m r <> [].
Proof.
  intros Hin Ho Hh Ht Hq E. destruct Hms as [_ Hall]. destruct (Hall m Hin) as [Hn Hm].
  destruct (reply_for_ok (ml_dok L) env SL CL m (Hm Ho) HSL Henv Hclosed r Hh Ht)
    as (e & n & v & Er & He & Hc & Hwf & Hd & Hmt & _).
  unfold TornadoRpcFacts.rep in E. rewrite Er in E. unfold message in E.
  apply app_eq_nil in E as [E Eb]. apply app_eq_nil in Eb as [Eb _].
  assert (HT : forall t, ml_T L t)
    by (intros t; pose proof (mt_body L e n v t) as Q; rewrite Eb in Q; exact Q).
  set (q' := if q =? 0 then 1 else 0).
  assert (Hq' : seq_ok q') by (unfold q'; destruct (q =? 0); reflexivity).
  destruct (mr_begin L (m_name m) (reply_type m r) q (ml_hdr L (m_name m) (reply_type m r) q')
    x0 [] 0 Hx0 Hn Hmt Hq (HT _)) as (x1 & i1 & E1 & _).
  destruct (mr_begin L (m_name m) (reply_type m r) q' [] x0 [] 0 Hx0 Hn Hmt Hq' (HT _))
    as (x2 & i2 & E2 & _).
  rewrite E in E1. cbn [app] in E1. rewrite app_nil_r in E2. rewrite E1 in E2.
  assert (C : q = q') by congruence. unfold q' in C. destruct (q =? 0) eqn:Ez; lia.
Qed.

(** Everything about the server but what it has yet to read: [i]; [up] is on its
    way.  [xin] is what the client has in front of it, [done1] what it has
    dealt with. *)
Record mid (l : calls_list) (xin : list byte) (done1 : list (nat * hres))
    (i up : list byte) (y : tws H) : Prop := {
  md_closing : w_closing y = false;
  md_next : (w_next y <= length l)%nat;
  md_in : i ++ up = sstream (reqs (seq_of (w_next y)) (skipn (w_next y) l));
  md_calls : w_calls y = map (fun c => (m_name (fst c), received env (m_args (fst c)) (snd c)))
                           (firstn (w_next y) l);
  md_pend : forall d m q, In (d, (m, q)) (w_pending y) <->
    ((d < w_next y)%nat /\ ~ In d (map fst (w_done y))
     /\ (exists args, nth_error l d = Some (m, args)) /\ q = seq_of d);
  md_pnd : NoDup (map fst (w_pending y));
  md_dnd : NoDup (map fst (w_done y));
  md_dlt : forall d r, In (d, r) (w_done y) -> (d < w_next y)%nat
    /\ forall m args, nth_error l d = Some (m, args) -> good d m r;
  md_sent : w_sent y = answers_to l (w_done y);
  md_out : exists done2, w_done y = done1 ++ done2
    /\ xin ++ w_out y = sstream (map snd (answers_to l done2)) }.

Definition okl (l : calls_list) : Prop :=
  Forall (okc L env ms) l /\ Z.of_nat (length l) < 2147483648
  /\ Forall small (reqs 1 l).

Lemma okl_nth l d m args : okl l -> nth_error l d = Some (m, args) ->
  In m ms /\ args_ok L env (m_args m) args /\ seq_ok (seq_of d).
Proof.
  intros (Hf & Hl & _) E. assert (d < length l)%nat by (apply nth_error_Some; congruence).
  rewrite Forall_forall in Hf. apply nth_error_In in E. destruct (Hf _ E) as [A B].
  cbn [fst snd] in *. split; [exact A|]. split; [exact B|]. unfold seq_ok, between, seq_of. lia.
Qed.

(** A Deferred fires. *)
Lemma mid_finish l xin done1 i up y d m args r : okl l ->
  nth_error l d = Some (m, args) -> good d m r ->
  w_closing y = false -> (w_next y <= length l)%nat -> (d < w_next y)%nat ->
  i ++ up = sstream (reqs (seq_of (w_next y)) (skipn (w_next y) l)) ->
  w_calls y = map (fun c => (m_name (fst c), received env (m_args (fst c)) (snd c)))
                           (firstn (w_next y) l) ->
  (forall d' m q, In (d', (m, q)) (w_pending y) <->
    ((d' < w_next y)%nat /\ ~ In d' (d :: map fst (w_done y))
     /\ (exists args, nth_error l d' = Some (m, args)) /\ q = seq_of d')) ->
  NoDup (map fst (w_pending y)) ->
  NoDup (map fst (w_done y)) -> ~ In d (map fst (w_done y)) ->
  (forall d r, In (d, r) (w_done y) -> (d < w_next y)%nat
    /\ forall m args, nth_error l d = Some (m, args) -> good d m r) ->
  w_sent y = answers_to l (w_done y) ->
  (exists done2, w_done y = done1 ++ done2
    /\ xin ++ w_out y = sstream (map snd (answers_to l done2))) ->
  mid l xin done1 i up (fin d m (seq_of d) r y) /\ w_next (fin d m (seq_of d) r y) = w_next y
  /\ w_pending (fin d m (seq_of d) r y) = w_pending y.
Proof.
  intros Hok E [Gt Gh] A1 A2 A3 A4 A5 A6 A7 A8 A8' A9 A10 (done2 & A11 & A12).
  destruct (okl_nth _ _ _ _ Hok E) as (Hin & Ha & Hq).
  assert (Ea : forall dn, answers_to l (dn ++ [(d, r)])
     = answers_to l dn ++ (if m_oneway m then [] else [(Some d, rep (seq_of d) m r)])).
  { intros dn. rewrite answers_app. f_equal. unfold answers_to. cbn [flat_map fst snd].
    rewrite E. apply app_nil_r. }
  assert (Hpend : forall d' m' q, In (d', (m', q)) (w_pending y) <->
    ((d' < w_next y)%nat /\ ~ In d' (map fst (w_done y ++ [(d, r)]))
     /\ (exists args, nth_error l d' = Some (m', args)) /\ q = seq_of d')).
  { intros d' m' q. rewrite A6, map_app. cbn [map fst]. rewrite in_app_iff. cbn [In]. tauto. }
  assert (Hnd : NoDup (map fst (w_done y ++ [(d, r)]))).
  { rewrite map_app. apply NoDup_snoc; assumption. }
  assert (Hdlt : forall d' r', In (d', r') (w_done y ++ [(d, r)]) -> (d' < w_next y)%nat
    /\ forall m args, nth_error l d' = Some (m, args) -> good d' m r').
  { intros d' r' I. apply in_app_or in I as [I|[I|[]]]; [apply A9; exact I|].
    assert (d' = d) by congruence. assert (r' = r) by congruence. subst d' r'.
    split; [exact A3|]. intros m' args' E'. assert (m' = m) by congruence. subst m'.
    split; assumption. }
  unfold tw_finish. destruct (m_oneway m) eqn:Ho.
  - replace (tw_answer P env x0 m (seq_of d) r) with (Some (@nil byte)).
    2:{ unfold tw_answer. rewrite Ho. destruct r; try reflexivity. exfalso. eapply Gt; reflexivity. }
    cbn [tw_ok]. split; [|split; reflexivity].
    constructor; cbn [w_closing w_next w_calls w_pending w_done w_sent w_out]; try assumption.
    + rewrite Ea, app_nil_r. exact A10.
    + exists (done2 ++ [(d, r)]). rewrite Ea, app_nil_r, A11, app_assoc.
      split; [reflexivity|exact A12].
  - destruct (Gh eq_refl) as [Hh Hs].
    rewrite (answer_ok m (seq_of d) r Hin Hq Ho Hh Gt).
    pose proof (rep_nonempty m (seq_of d) r Hin Ho Hh Gt Hq) as Hne.
    unfold tw_ok. destruct (rep (seq_of d) m r) as [|b0 br] eqn:Er; [contradiction|].
    rewrite <- Er in *. unfold tw_dispatch. rewrite (send_small _ Hs).
    cbn [w_buf w_closing w_next w_calls w_pending w_done w_sent w_out w_h].
    split; [|split; reflexivity].
    constructor; cbn [w_closing w_next w_calls w_pending w_done w_sent w_out]; try assumption.
    + rewrite Ea, A10. reflexivity.
    + exists (done2 ++ [(d, r)]). rewrite Ea, A11, <- !app_assoc. split; [reflexivity|].
      rewrite app_assoc, A12, map_app, sstream_app. cbn [map snd]. f_equal.
      unfold sstream. cbn [map concat]. rewrite app_nil_r. reflexivity.
Qed.

(** A request arrives. *)
Lemma process_req m args q h : In m ms -> seq_ok q ->
  args_ok L env (m_args m) args ->
  tw_process P env handler ms x0 (req q m args) h
  = let '(r, h') := handler (m_name m) (received env (m_args m) args) h in
    PInvoked m q (received env (m_args m) args) r h'.
Proof.
  intros Hin Hq [Hwf Hd]. destruct Hms as [Hnd Hall]. destruct (Hall m Hin) as [Hn _].
  pose proof (lookup_unique _ _ Hnd Hin) as Hl.
  unfold tw_process, TornadoRpcFacts.req. cbv zeta.
  set (ty := if m_oneway m then ONEWAY else CALL).
  assert (Ht : mtype_ok ty)
    by (unfold ty, mtype_ok, ONEWAY, CALL; destruct (m_oneway m); lia).
  set (v := VStruct (m_args m) args) in *.
  change (message L (m_name m) ty q env (m_args m) v)
    with (ml_hdr L (m_name m) ty q ++ (ml_body L env (m_args m) v ++ ml_end L)).
  destruct (mr_begin L (m_name m) ty q (ml_body L env (m_args m) v ++ ml_end L)
    x0 [] 0 Hx0 Hn Ht Hq (mt_body L _ _ _ _)) as (x1 & i1 & E1 & H1).
  rewrite E1, Hl.
  destruct (read_same L env (m_args m) v (ml_end L ++ []) x1 i1 []
    (length (ml_hdr L (m_name m) ty q ++ ml_body L env (m_args m) v ++ ml_end L))
    Henv Hclosed) as (x2 & i2 & E2 & H2); try assumption.
  { rewrite app_nil_r. exact H1. }
  { rewrite !app_length. lia. }
  destruct (mr_end L [] x2 i2 [] 0 H2) as (x3 & E3 & H3).
  unfold bind. rewrite E2, E3. cbn [ret]. unfold received, v. reflexivity.
Qed.

(** What the handler may answer at once. *)
Definition okh (l : calls_list) : Prop :=
  forall d m args h r h', nth_error l d = Some (m, args) ->
    handler (m_name m) (received env (m_args m) args) h = (Some r, h') -> good d m r.

Lemma skipn_nth {A} k (l : list A) c r : skipn k l = c :: r ->
  nth_error l k = Some c /\ skipn (S k) l = r /\ firstn (S k) l = firstn k l ++ [c].
Proof.
  revert l. induction k as [|k IH]; intros l E.
  - destruct l as [|a t]; [discriminate|]. rewrite skipn_O in E.
    assert (a = c) by congruence. assert (t = r) by congruence. subst.
    repeat split; reflexivity.
  - destruct l as [|a t]; [discriminate|]. cbn [skipn] in E.
    destruct (IH t E) as (A1 & A2 & A3). split; [exact A1|]. split; [exact A2|].
    change (firstn (S (S k)) (a :: t)) with (a :: firstn (S k) t). rewrite A3. reflexivity.
Qed.

Lemma mid_string l xin done1 i up y s rest : okl l -> okh l ->
  mid l xin done1 i up y -> next_string i = CString s rest ->
  exists y', str s y = (true, y') /\ mid l xin done1 rest up y'
    /\ (w_next y' = S (w_next y)).
Proof.
  intros Hok Hh M En. destruct M as [A1 A2 A4 A5 A6 A7 A8 A9 A10 A11].
  set (k := w_next y) in *.
  assert (Hsm : Forall small (reqs (seq_of k) (skipn k l))).
  { destruct Hok as (_ & _ & Hs). rewrite <- (firstn_skipn k l), (reqs_app L env any_handler) in Hs.
    apply Forall_app in Hs as [_ Hs]. rewrite firstn_length_le in Hs by exact A2.
    unfold seq_of. replace (Z.of_nat k + 1) with (1 + Z.of_nat k) by lia. exact Hs. }
  pose proof (cut_stream _ _ _ Hsm A4) as C. rewrite En in C. destruct C as (us & Eus & Er).
  destruct (skipn k l) as [|[m args] l'] eqn:Ek; [discriminate|].
  destruct (skipn_nth _ _ _ _ Ek) as (En' & Es' & Ef').
  cbn [TornadoRpcFacts.reqs] in Eus.
  assert (Es : s = req (seq_of k) m args) by congruence.
  assert (Eu : us = reqs (seq_of k + 1) l') by congruence. subst s us.
  destruct (okl_nth _ _ _ _ Hok En') as (Hin & Ha & Hq).
  assert (Hk : (S k <= length l)%nat).
  { assert (k < length l)%nat by (apply nth_error_Some; congruence). lia. }
  assert (Hnot : ~ In k (map fst (w_done y))).
  { intros I. apply in_map_iff in I as ([d r] & Ed & I). cbn [fst] in Ed. subst d.
    apply A9 in I as [I _]. lia. }
  assert (Hnotp : ~ In k (map fst (w_pending y))).
  { intros I. apply in_map_iff in I as ([d [m' q]] & Ed & I). cbn [fst] in Ed. subst d.
    apply A6 in I as [I _]. lia. }
  assert (Hin' : rest ++ up = sstream (reqs (seq_of (S k)) (skipn (S k) l))).
  { rewrite Es', Er. do 2 f_equal. unfold seq_of. lia. }
  assert (Hcalls : w_calls y ++ [(m_name m, received env (m_args m) args)]
    = map (fun c => (m_name (fst c), received env (m_args (fst c)) (snd c))) (firstn (S k) l)).
  { rewrite Ef', map_app, A5. reflexivity. }
  assert (Hdlt : forall d r, In (d, r) (w_done y) -> (d < S k)%nat
    /\ forall m args, nth_error l d = Some (m, args) -> good d m r).
  { intros d r I. apply A9 in I as [I J]. split; [lia|exact J]. }
  unfold tw_string. rewrite (process_req m args (seq_of k) (w_h y) Hin Hq Ha). fold k.
  destruct (handler (m_name m) (received env (m_args m) args) (w_h y)) as [[r|] h'] eqn:Eh.
  - assert (Hp : forall d' m' q, In (d', (m', q)) (w_pending y) <->
      ((d' < S k)%nat /\ ~ In d' (k :: map fst (w_done y))
       /\ (exists args, nth_error l d' = Some (m', args)) /\ q = seq_of d')).
    { intros d' m' q. rewrite A6. cbn [In]. split.
      - intros (B1 & B2 & B3 & B4). repeat split; try assumption; [lia|].
        intros [<-|I]; [lia|contradiction].
      - intros (B1 & B2 & B3 & B4). repeat split; try assumption; [|tauto].
        destruct (Nat.eq_dec k d'); [exfalso; apply B2; left; assumption|lia]. }
    eexists. split; [reflexivity|].
    destruct (mid_finish l xin done1 rest up
      (mktws (w_buf y) (w_closing y) (S k) (w_pending y) (w_done y) (w_sent y) (w_out y)
        (w_calls y ++ [(m_name m, received env (m_args m) args)]) h') k m args r Hok En'
        (Hh _ _ _ _ _ _ En' Eh)) as (M & N & _);
      cbn [w_buf w_closing w_next w_calls w_pending w_done w_sent w_out w_h]; try assumption.
    { lia. }
    split; [exact M|exact N].
  - eexists. split; [reflexivity|]. split; [|reflexivity].
    constructor; cbn [w_buf w_closing w_next w_calls w_pending w_done w_sent w_out w_h];
      try assumption.
    + intros d m' q. rewrite in_app_iff, A6. cbn [In]. split.
      * intros [(B1 & B2 & B3 & B4)|[E|[]]].
        -- repeat split; try assumption. lia.
        -- assert (d = k) by congruence. assert (m' = m) by congruence.
           assert (q = seq_of k) by congruence. subst d m' q.
           split; [lia|]. split; [exact Hnot|]. split; [exists args; exact En'|reflexivity].
      * intros (B1 & B2 & (args' & B3) & B4). destruct (Nat.eq_dec d k) as [->|Hne].
        -- right. left. rewrite B4. congruence.
        -- left. split; [lia|]. split; [exact B2|]. split; [exists args'; exact B3|exact B4].
    + rewrite map_app. apply NoDup_snoc; assumption.
Qed.

Lemma mid_buf l xin done1 i up y b : mid l xin done1 i up y -> mid l xin done1 i up (set_buf b y).
Proof. intros [A1 A2 A4 A5 A6 A7 A8 A9 A10 A11]. constructor; assumption. Qed.

Definition sv_ok l xin done1 up (y : tws H) : Prop :=
  mid l xin done1 (w_buf y) up y /\ next_string (w_buf y) = CWait.

Lemma okl_small l k : okl l -> (k <= length l)%nat -> Forall small (reqs (seq_of k) (skipn k l)).
Proof.
  intros (_ & _ & Hs) Hk. rewrite <- (firstn_skipn k l), (reqs_app L env any_handler) in Hs.
  apply Forall_app in Hs as [_ Hs]. rewrite firstn_length_le in Hs by exact Hk.
  unfold seq_of. replace (Z.of_nat k + 1) with (1 + Z.of_nat k) by lia. exact Hs.
Qed.

Lemma mid_loop l xin done1 up n : okl l -> okh l -> forall i y, (length i < n)%nat ->
  mid l xin done1 i up y -> sv_ok l xin done1 up (loop n i y).
Proof.
  intros Hok Hh. induction n as [|n IH]; intros i y Hn M; [lia|]. cbn [tw_loop].
  pose proof (cut_stream _ _ _ (okl_small l _ Hok (md_next _ _ _ _ _ _ M))
    (md_in _ _ _ _ _ _ M)) as C.
  destruct (next_string i) as [| |s rest] eqn:En.
  - split; [apply mid_buf; exact M|exact En].
  - contradiction.
  - destruct (mid_string _ _ _ _ _ _ _ _ Hok Hh M En) as (y' & E & M' & _). rewrite E.
    apply cut_len in En. apply IH; [lia|exact M'].
Qed.

Lemma mid_data l xin done1 up n y : okl l -> okh l -> sv_ok l xin done1 up y ->
  sv_ok l xin done1 (skipn n up) (tw_data P env handler ms x0 (firstn n up) y).
Proof.
  intros Hok Hh [M _]. unfold tw_data. rewrite (md_closing _ _ _ _ _ _ M).
  apply mid_loop; try assumption; [lia|].
  destruct M as [A1 A2 A4 A5 A6 A7 A8 A9 A10 A11]. constructor; try assumption.
  rewrite <- app_assoc, firstn_skipn. exact A4.
Qed.

Lemma mid_fire l xin done1 up y d r : okl l -> sv_ok l xin done1 up y ->
  (forall m args, nth_error l d = Some (m, args) -> good d m r) ->
  let y' := tw_fire P env x0 d r y in
  sv_ok l xin done1 up y'
  /\ w_next y' = w_next y
  /\ (forall e, In e (w_pending y') <-> In e (w_pending y) /\ fst e <> d).
Proof.
  intros Hok [M W] G y'. unfold y', tw_fire.
  destruct (in_dec Nat.eq_dec d (map fst (w_pending y))) as [I|N].
  - apply in_map_iff in I as ([d' [m q]] & Ed & I). cbn [fst] in Ed. subst d'.
    destruct (take_pending_in d (w_pending y) (m, q) (md_pnd _ _ _ _ _ _ M) I)
      as (l' & E & Hn & Hl). rewrite E.
    destruct M as [A1 A2 A4 A5 A6 A7 A8 A9 A10 A11].
    destruct (proj1 (A6 _ _ _) I) as (B1 & B2 & (args & B3) & ->).
    destruct (mid_finish l xin done1 (w_buf y) up
      (mktws (w_buf y) (w_closing y) (w_next y) l' (w_done y) (w_sent y) (w_out y) (w_calls y)
         (w_h y)) d m args r Hok B3 (G _ _ B3)) as (M' & N' & P');
      cbn [w_buf w_closing w_next w_calls w_pending w_done w_sent w_out w_h]; try assumption.
    { intros d' m' q. rewrite Hl, A6. cbn [fst In]. intuition congruence. }
    assert (Eb : w_buf (fin d m (seq_of d) r
      (mktws (w_buf y) (w_closing y) (w_next y) l' (w_done y) (w_sent y) (w_out y) (w_calls y)
         (w_h y))) = w_buf y).
    { unfold tw_finish. destruct (tw_answer _ _ _ _ _ _) as [ms'|]; [|reflexivity].
      unfold tw_ok, tw_dispatch. destruct ms'; [reflexivity|].
      destruct (send_string _); reflexivity. }
    split; [|split; [exact N'|]].
    + split; [rewrite Eb; exact M'|rewrite Eb; exact W].
    + rewrite P'. cbn [w_pending]. exact Hl.
  - rewrite take_pending_out by exact N. split; [split; assumption|]. split; [reflexivity|].
    intros e. split; [|intros [I _]; exact I]. intros I. split; [exact I|].
    intros Ed. apply N. rewrite <- Ed. apply in_map. exact I.
Qed.

(** * The client *)

Lemma decode_rep m q r : In m ms -> m_oneway m = false -> seq_ok q ->
  handler_okd (ml_dok L) env SL CL m r -> (forall t, r <> HTransport t) ->
  decode P env (length (rep q m r)) ms x0 (rep q m r) = RGood q (expected env m r).
Proof.
  intros Hin Ho Hq Hh Ht. destruct Hms as [Hnd Hall]. destruct (Hall m Hin) as [Hn Hm].
  destruct (reply_for_ok (ml_dok L) env SL CL m (Hm Ho) HSL Henv Hclosed r Hh Ht)
    as (e & n & v & Erf & He & Hc & Hwf & Hd & Hmt & Hk).
  replace (rep q m r) with (ml_hdr L (m_name m) (reply_type m r) q
      ++ (ml_body L e n v ++ ml_end L))
    by (unfold TornadoRpcFacts.rep; rewrite Erf; reflexivity).
  unfold decode.
  destruct (mr_begin L (m_name m) (reply_type m r) q
     ((ml_body L e n v ++ ml_end L)) x0 [] 0 Hx0 Hn Hmt Hq (mt_body L _ _ _ _)) as (x1 & i1 & E1 & H1).
  rewrite E1. rewrite (lookup_two_way (SL:=SL) env ms Hms m Hin Ho).
  destruct (read_same L e n v (ml_end L ++ []) x1 i1 []
    (length (ml_hdr L (m_name m) (reply_type m r) q ++ ml_body L e n v ++ ml_end L))
    He Hc) as (x2 & i2 & E2 & H2); try assumption.
  { rewrite app_nil_r. exact H1. }
  { rewrite !app_length. lia. }
  destruct (mr_end L [] x2 i2 [] 0 H2) as (x3 & E3 & H3).
  destruct (reply_type m r =? EXCEPTION).
  - destruct Hk as (-> & -> & ->). unfold bind. rewrite E2, E3. reflexivity.
  - destruct Hk as (-> & -> & ->). unfold bind. rewrite E2, E3. reflexivity.
Qed.

Definition cl_ok (l : calls_list) (done1 : list (nat * hres)) (c : client) : Prop :=
  c_seq c = Z.of_nat (length l) /\ c_next c = length l /\ c_reqs c = open_reqs l done1
  /\ c_alive c = true /\ got (c_log c) = earned env l done1
  /\ sent_log (c_log c) = one_ways 0 l /\ Forall fine (c_log c).

Lemma answers_first l dn : (forall d r, In (d, r) dn -> (d < length l)%nat) ->
  forall o u us, answers_to l dn = (o, u) :: us ->
  exists a d r b m args, dn = a ++ (d, r) :: b /\ silent l a
    /\ nth_error l d = Some (m, args) /\ m_oneway m = false
    /\ u = rep (seq_of d) m r /\ us = answers_to l b.
Proof.
  induction dn as [|[d r] t IH]; intros Hd o u us E; [discriminate|].
  cbn [answers_to flat_map fst snd] in E. fold (answers_to l t) in E.
  assert (Hl : (d < length l)%nat) by (eapply Hd; left; reflexivity).
  destruct (nth_error l d) as [[m args]|] eqn:En; [|apply nth_error_None in En; lia].
  destruct (m_oneway m) eqn:Ho.
  - destruct (IH (fun d' r' I => Hd d' r' (or_intror I)) o u us E)
      as (a & d' & r' & b & m' & args' & -> & S & B).
    exists ((d, r) :: a), d', r', b, m', args'. split; [reflexivity|]. split; [|exact B].
    intros d2 r2 [I|I]; [|apply (S d2 r2); exact I].
    assert (d2 = d) by congruence. subst d2. exists m, args. split; assumption.
  - exists [], d, r, t, m, args. split; [reflexivity|]. split; [intros d2 r2 []|].
    cbn [app] in E. split; [exact En|]. split; [exact Ho|]. split; congruence.
Qed.

Lemma earned_silent l a : silent l a -> earned env l a = [].
Proof.
  induction a as [|[d r] t IH]; intros S; [reflexivity|].
  unfold earned. cbn [flat_map fst snd].
  destruct (S d r (or_introl eq_refl)) as (m & args & -> & ->). cbn [app].
  apply IH. intros d' r' I. apply (S d' r'). right. exact I.
Qed.

(** What the client must know of the finished invocations. *)
Definition dn_ok (l : calls_list) (dn : list (nat * hres)) : Prop :=
  NoDup (map fst dn)
  /\ forall d r, In (d, r) dn -> (d < length l)%nat
       /\ forall m args, nth_error l d = Some (m, args) -> good d m r.

Lemma small_answers l dn : dn_ok l dn -> Forall small (map snd (answers_to l dn)).
Proof.
  intros [_ Hd]. apply Forall_forall. intros u I. apply in_map_iff in I as ([o u'] & Eu & I).
  cbn [snd] in Eu. subst u'. apply in_flat_map in I as ([d r] & I & J). cbn [fst snd] in J.
  destruct (Hd d r I) as [_ G].
  destruct (nth_error l d) as [[m args]|] eqn:En; [|contradiction].
  destruct (m_oneway m) eqn:Ho; [contradiction|]. destruct J as [J|[]].
  destruct (G m args eq_refl) as [_ G']. destruct (G' Ho) as [_ S].
  replace u with (rep (seq_of d) m r) by congruence. exact S.
Qed.

Lemma dn_ok_r l a b : dn_ok l (a ++ b) -> dn_ok l b.
Proof.
  intros [Hn Hd]. split.
  - rewrite map_app in Hn. clear Hd. induction (map fst a) as [|c t IH]; [exact Hn|].
    cbn [app] in Hn. inversion Hn; subst. apply IH. assumption.
  - intros d r I. apply Hd. apply in_or_app. right. exact I.
Qed.

Lemma cl_loop_ok l dall w n : okl l -> dn_ok l dall ->
  forall i c done1 done2, (length i < n)%nat -> dall = done1 ++ done2 ->
  i ++ w = sstream (map snd (answers_to l done2)) -> cl_ok l done1 c ->
  exists done1' done2', dall = done1' ++ done2'
    /\ let ci := cl_loop P env ms x0 n i c in
       snd ci ++ w = sstream (map snd (answers_to l done2'))
       /\ next_string (snd ci) = CWait /\ cl_ok l done1' (fst ci).
Proof.
  intros Hok Hdn. induction n as [|n IH]; intros i c done1 done2 Hn Ed Ei Hc; [lia|].
  cbn [cl_loop].
  assert (Hd2 : dn_ok l done2) by (apply (dn_ok_r l done1); rewrite <- Ed; exact Hdn).
  pose proof (cut_stream _ _ _ (small_answers _ _ Hd2) Ei) as C.
  destruct (next_string i) as [| |s rest] eqn:En.
  - exists done1, done2. split; [exact Ed|]. cbn [fst snd]. auto.
  - contradiction.
  - destruct C as (us & Eus & Er).
    destruct (answers_to l done2) as [|[o u] ans] eqn:Ea; [discriminate|].
    cbn [map snd] in Eus. assert (u = s) by congruence. subst u.
    assert (Eu : us = map snd ans) by congruence. subst us.
    destruct (answers_first l done2 (fun d r I => proj1 (proj2 Hd2 d r I)) o s ans Ea)
      as (a & d & r & b & m & args & -> & Sa & Ed' & Ho & Es & Eb).
    destruct (okl_nth _ _ _ _ Hok Ed') as (Hin & _ & Hq).
    destruct (proj2 Hd2 d r) as [Hlt G].
    { apply in_or_app. right. left. reflexivity. }
    destruct (G m args Ed') as [Gt Gh]. destruct (Gh Ho) as [Hh _].
    assert (Edec : decode P env (length s) ms x0 s = RGood (seq_of d) (expected env m r)).
    { rewrite Es. apply decode_rep; assumption. }
    rewrite Edec.
    destruct Hc as (C1 & C2 & C3 & C4 & C5 & C6 & C7).
    assert (Hni : ~ In d (map fst (done1 ++ a))).
    { destruct Hdn as [Hnd _]. rewrite Ed, app_assoc, map_app in Hnd. cbn [map fst] in Hnd.
      apply NoDup_remove_2 in Hnd. intros I. apply Hnd. apply in_or_app. left. exact I. }
    assert (Ep : pop (seq_of d) (c_reqs c) = Some (d, open_reqs l ((done1 ++ a) ++ [(d, r)]))).
    { rewrite C3, <- (open_silent l done1 a Sa). eapply open_pop; eassumption. }
    rewrite Ep.
    apply (IH rest _ ((done1 ++ a) ++ [(d, r)]) b).
    + apply cut_len in En. lia.
    + rewrite Ed, <- !app_assoc. reflexivity.
    + rewrite Er, Eb. reflexivity.
    + unfold do_frame. rewrite C4, Ep. unfold fire. cbn [snd].
      unfold cl_ok, logc, set_reqs. cbn [c_seq c_next c_reqs c_alive c_log].
      split; [exact C1|]. split; [exact C2|]. split; [reflexivity|]. split; [exact C4|].
      rewrite got_app, sent_log_app. cbn [got sent_log]. split; [|split].
      * rewrite !earned_app, C5, (earned_silent l a Sa), app_nil_r. f_equal.
        unfold earned. cbn [flat_map fst snd]. rewrite Ed', Ho. reflexivity.
      * rewrite app_nil_r. exact C6.
      * apply Forall_app. split; [exact C7|]. repeat constructor.
Qed.

(** * Both *)

Definition sys_ok (l : calls_list) (y : xsys H) : Prop :=
  exists done1, sv_ok l (x_in y) done1 (x_up y) (x_sv y) /\ next_string (x_in y) = CWait
    /\ x_wbuf y = [] /\ cl_ok l done1 (x_cl y).

Lemma mid_dn l xin done1 i up y : mid l xin done1 i up y -> dn_ok l (w_done y).
Proof.
  intros M. split; [apply (md_dnd _ _ _ _ _ _ M)|]. intros d r I.
  destruct (md_dlt _ _ _ _ _ _ M d r I) as [A B]. split; [|exact B].
  pose proof (md_next _ _ _ _ _ _ M). lia.
Qed.

Lemma sys_call l y m args : okl (l ++ [(m, args)]) -> sys_ok l y ->
  sys_ok (l ++ [(m, args)]) (xcall P env x0 m args y).
Proof.
  intros Hok (done1 & [M W] & Wi & Wb & C).
  assert (Hnth : nth_error (l ++ [(m, args)]) (length l) = Some (m, args)).
  { rewrite nth_error_app2, Nat.sub_diag by lia. reflexivity. }
  destruct (okl_nth _ _ _ _ Hok Hnth) as (Hin & [Hwf Hd] & Hq).
  destruct (proj2 Hms m Hin) as [Hn _].
  assert (Hs : small (req (seq_of (length l)) m args)).
  { destruct Hok as (_ & _ & Hs). rewrite (reqs_app L env any_handler) in Hs.
    apply Forall_app in Hs as [_ Hs]. cbn [TornadoRpcFacts.reqs] in Hs.
    replace (1 + Z.of_nat (length l)) with (seq_of (length l)) in Hs by (unfold seq_of; lia).
    exact (Forall_inv Hs). }
  destruct C as (C1 & C2 & C3 & C4 & C5 & C6 & C7).
  destruct (twrite_ok L env Henv any_handler m args (seq_of (length l)) x0 [] [] Hx0 Hn Hq Hwf Hd)
    as (x' & E).
  unfold xcall. rewrite C1, Wb. fold (seq_of (length l)). rewrite E. cbn [out app].
  rewrite (send_small _ Hs), C4.
  destruct M as [A1 A2 A4 A5 A6 A7 A8 A9 A10 (done2 & A11 & A12)].
  assert (Hlt : forall d r, In (d, r) (w_done (x_sv y)) -> (d < length l)%nat).
  { intros d r I. apply A9 in I as [I _]. lia. }
  assert (Hlt1 : forall d r, In (d, r) done1 -> (d < length l)%nat).
  { intros d r I. apply (Hlt d r). rewrite A11. apply in_or_app. left. exact I. }
  assert (Hlt2 : forall d r, In (d, r) done2 -> (d < length l)%nat).
  { intros d r I. apply (Hlt d r). rewrite A11. apply in_or_app. right. exact I. }
  exists done1. cbn [x_in x_up x_sv x_wbuf x_cl]. split; [|split; [exact Wi|split; [reflexivity|]]].
  - split; [|exact W]. constructor; try assumption.
    + rewrite app_length. lia.
    + rewrite app_assoc, A4, skipn_app.
      replace (w_next (x_sv y) - length l)%nat with O by lia. rewrite skipn_O.
      rewrite (reqs_app L env any_handler), sstream_app. f_equal.
      rewrite skipn_length. cbn [TornadoRpcFacts.reqs].
      replace (seq_of (w_next (x_sv y)) + Z.of_nat (length l - w_next (x_sv y)))
        with (seq_of (length l)) by (unfold seq_of; lia).
      unfold sstream. cbn [map concat]. rewrite app_nil_r. reflexivity.
    + rewrite A5, firstn_app. replace (w_next (x_sv y) - length l)%nat with O by lia.
      rewrite firstn_O, app_nil_r. reflexivity.
    + intros d m' q. rewrite A6. split; intros (B1 & B2 & B3 & B4);
        (split; [exact B1|split; [exact B2|split; [|exact B4]]]);
        (rewrite nth_app_l in * by lia); exact B3.
    + intros d r I. destruct (A9 d r I) as [B1 B2]. split; [exact B1|].
      intros m' args'. rewrite nth_app_l by lia. apply B2.
    + rewrite answers_more by exact Hlt. exact A10.
    + exists done2. rewrite answers_more by exact Hlt2. split; assumption.
  - unfold cl_ok, do_call. rewrite C4. cbn [k_sent k_oneway andb].
    rewrite C1, C2, C3. rewrite (open_call l done1 m args Hlt1), app_length, one_ways_app.
    cbn [length one_ways Nat.add].
    rewrite earned_more by exact Hlt1.
    destruct (m_oneway m) eqn:Ho; cbn [negb].
    + cbn [c_reqs]. rewrite put_fresh.
      2:{ intros k e I. unfold open_reqs in I. apply in_map_iff in I as (i & Ei & I).
          apply filter_In in I as [I _]. apply in_seq in I. unfold entry in Ei.
          assert (k = Z.of_nat i + 1) by congruence. lia. }
      assert (Ep : pop (Z.of_nat (length l) + 1)
                     (open_reqs l done1 ++ [(Z.of_nat (length l) + 1, length l)])
                   = Some (length l, open_reqs l done1)).
      { assert (Hk : forall k e, In (k, e) (open_reqs l done1) -> k <> Z.of_nat (length l) + 1).
        { intros k e I. unfold open_reqs in I. apply in_map_iff in I as (i & Ei & I).
          apply filter_In in I as [I _]. apply in_seq in I. unfold entry in Ei.
          assert (k = Z.of_nat i + 1) by congruence. lia. }
        clear - Hk. induction (open_reqs l done1) as [|[k e] t IH]; cbn [app pop].
        - rewrite Z.eqb_refl. reflexivity.
        - replace (k =? Z.of_nat (length l) + 1) with false
            by (pose proof (Hk k e (or_introl eq_refl)); lia).
          rewrite IH; [reflexivity|]. intros k' e' I. apply (Hk k' e'). right. exact I. }
      rewrite Ep. unfold fire, logc, set_reqs. cbn [snd c_seq c_next c_reqs c_alive c_log].
      rewrite <- !app_assoc, !got_app, !sent_log_app. cbn [got sent_log app]. rewrite app_nil_r.
      split; [lia|]. split; [lia|]. split; [reflexivity|]. split; [reflexivity|].
      split; [exact C5|]. split; [rewrite C6; reflexivity|].
      apply Forall_app. split; [exact C7|]. repeat constructor.
    + cbn [snd c_seq c_next c_reqs c_alive c_log].
      rewrite !got_app, !sent_log_app. cbn [got sent_log]. rewrite !app_nil_r.
      split; [lia|]. split; [lia|]. split; [reflexivity|]. split; [reflexivity|].
      split; [exact C5|]. split; [exact C6|].
      apply Forall_app. split; [exact C7|]. repeat constructor.
Qed.

Lemma sys_up l y n : okl l -> okh l -> sys_ok l y ->
  sys_ok l (xstep P env handler ms x0 (XUp n) y).
Proof.
  intros Hok Hh (done1 & S & Wi & Wb & C). exists done1. cbn [xstep x_in x_up x_sv x_wbuf x_cl].
  split; [|auto]. apply mid_data; assumption.
Qed.

Lemma sys_fire l y d r : okl l -> sys_ok l y ->
  (forall m args, nth_error l d = Some (m, args) -> good d m r) ->
  sys_ok l (xstep P env handler ms x0 (XFire d r) y).
Proof.
  intros Hok (done1 & S & Wi & Wb & C) G. exists done1.
  cbn [xstep set_sv x_in x_up x_sv x_wbuf x_cl].
  split; [|auto]. destruct (mid_fire l _ _ _ _ d r Hok S G) as [A _]. exact A.
Qed.

Lemma sys_down l y n : okl l -> sys_ok l y ->
  sys_ok l (xstep P env handler ms x0 (XDown n) y)
  /\ x_sv (xstep P env handler ms x0 (XDown n) y) = drop_out n (x_sv y)
  /\ x_up (xstep P env handler ms x0 (XDown n) y) = x_up y.
Proof.
  intros Hok (done1 & [M W] & Wi & Wb & C).
  pose proof (mid_dn _ _ _ _ _ _ M) as Hdn.
  destruct M as [A1 A2 A4 A5 A6 A7 A8 A9 A10 (done2 & A11 & A12)].
  assert (Ei : (x_in y ++ firstn n (w_out (x_sv y))) ++ skipn n (w_out (x_sv y))
               = sstream (map snd (answers_to l done2)))
    by (rewrite move; exact A12).
  destruct (cl_loop_ok l (w_done (x_sv y)) (skipn n (w_out (x_sv y)))
    (Datatypes.S (length (x_in y ++ firstn n (w_out (x_sv y))))) Hok Hdn
    (x_in y ++ firstn n (w_out (x_sv y))) (x_cl y) done1 done2 ltac:(lia) A11 Ei C)
    as (done1' & done2' & Ed & Ei' & W' & C').
  cbn [xstep]. unfold cl_data, set_sv. cbn [x_cl x_in x_wbuf x_up x_sv].
  destruct C as (_ & _ & _ & Ca & _). rewrite Ca.
  destruct (cl_loop P env ms x0 _ _ _) as [c i]. cbn [fst snd] in *.
  split; [|split; reflexivity].
  exists done1'. cbn [x_cl x_in x_wbuf x_up x_sv]. split; [|auto].
  split; [|exact W]. constructor; try assumption. exists done2'. split; assumption.
Qed.

Lemma sys_start h : sys_ok [] (xstart h).
Proof.
  exists []. split; [|split; [reflexivity|split; [reflexivity|]]].
  - split; [|reflexivity].
    constructor; cbn [xstart tws_start x_sv x_in x_up w_buf w_closing w_next w_calls w_pending
      w_done w_sent w_out map].
    + reflexivity.
    + apply Nat.le_refl.
    + reflexivity.
    + reflexivity.
    + intros d m q. split; [intros []|]. intros (B & _). lia.
    + constructor.
    + constructor.
    + intros d r [].
    + reflexivity.
    + exists []. split; reflexivity.
  - repeat split; constructor.
Qed.

(** What may happen on an undisturbed connection. *)
Definition okev (lf : calls_list) (e : xevent) : Prop :=
  match e with
  | XFire d r => forall m args, nth_error lf d = Some (m, args) -> good d m r
  | XLost => False
  | _ => True
  end.

Lemma okl_app a b : okl (a ++ b) -> okl a.
Proof.
  intros (A & B & C). rewrite (reqs_app L env any_handler) in C.
  apply Forall_app in A, C. rewrite app_length in B. unfold okl. intuition lia.
Qed.

Lemma nth_app_some {A} (a b : list A) n c : nth_error a n = Some c -> nth_error (a ++ b) n = Some c.
Proof.
  intros E. rewrite nth_app_l; [exact E|]. apply nth_error_Some. congruence.
Qed.

Lemma okh_app a b : okh (a ++ b) -> okh a.
Proof.
  intros Hh d m args h r h' E Eh. apply (Hh d m args h r h'); [|exact Eh].
  apply nth_app_some. exact E.
Qed.

Lemma sys_step l e y b : okl (l ++ xcalls [e] ++ b) -> okh (l ++ xcalls [e] ++ b) ->
  okev (l ++ xcalls [e] ++ b) e -> sys_ok l y ->
  sys_ok (l ++ xcalls [e]) (xstep P env handler ms x0 e y).
Proof.
  intros Hok Hh He S. rewrite app_assoc in Hok, Hh, He. apply okl_app in Hok. apply okh_app in Hh.
  destruct e as [m args|n|d r|n|]; cbn [xcalls] in *.
  - apply sys_call; assumption.
  - rewrite app_nil_r in *. apply sys_up; assumption.
  - rewrite app_nil_r in *. apply sys_fire; try assumption. intros m args E.
    apply (He m args). apply nth_app_some. exact E.
  - rewrite app_nil_r in *. apply sys_down; assumption.
  - contradiction.
Qed.

Lemma xcalls_app a b : xcalls (a ++ b) = xcalls a ++ xcalls b.
Proof. induction a as [|[m args|n|d r|n|] t IH]; cbn [app xcalls]; rewrite ?IH; reflexivity. Qed.

Lemma sys_run es : forall l y, okl (l ++ xcalls es) -> okh (l ++ xcalls es) ->
  Forall (okev (l ++ xcalls es)) es -> sys_ok l y ->
  sys_ok (l ++ xcalls es) (xrun P env handler ms x0 es y).
Proof.
  induction es as [|e t IH]; intros l y Hok Hh He S.
  - cbn [xcalls]. rewrite app_nil_r. exact S.
  - change (e :: t) with ([e] ++ t) in *. rewrite xcalls_app in *.
    unfold xrun. cbn [app fold_left]. fold (xrun P env handler ms x0 t (xstep P env handler ms x0 e y)).
    rewrite app_assoc in *. apply IH; try assumption.
    + inversion He; subst. assumption.
    + rewrite <- app_assoc in *. eapply sys_step; try eassumption. exact (Forall_inv He).
Qed.

(** ** Nothing under way *)

Definition drained (y : xsys H) : Prop :=
  x_up y = [] /\ w_pending (x_sv y) = [] /\ w_out (x_sv y) = [].

Lemma stream_nil i us : Forall small us -> i ++ [] = sstream us -> next_string i = CWait ->
  i = [] /\ us = [].
Proof.
  intros Hs E W. pose proof (cut_stream _ _ _ Hs E) as C. rewrite W in C.
  assert (i = []) by (destruct C as [C|C]; [exact C|congruence]). subst i. split; [reflexivity|].
  destruct us as [|u t]; [reflexivity|]. exfalso.
  change (sstream (u :: t)) with (sfr u ++ sstream t) in E. symmetry in E.
  apply app_eq_nil in E as [E _]. unfold sfr in E. apply app_eq_nil in E as [E _].
  apply (f_equal (@length byte)) in E. unfold be_bytes in E. rewrite rev_length in E.
  discriminate E.
Qed.

Lemma sys_drained l y : okl l -> sys_ok l y -> drained y ->
  w_next (x_sv y) = length l
  /\ (forall d, (d < length l)%nat -> In d (map fst (w_done (x_sv y))))
  /\ got (c_log (x_cl y)) = earned env l (w_done (x_sv y)) /\ c_reqs (x_cl y) = [].
Proof.
  intros Hok (done1 & [M W] & Wi & Wb & C) (D1 & D2 & D3).
  pose proof (mid_dn _ _ _ _ _ _ M) as Hdn.
  pose proof (okl_small l _ Hok (md_next _ _ _ _ _ _ M)) as Hs.
  destruct M as [A1 A2 A4 A5 A6 A7 A8 A9 A10 (done2 & A11 & A12)].
  rewrite D1 in A4. rewrite D3 in A12.
  destruct (stream_nil _ _ Hs A4 W) as [_ E1].
  assert (Ek : w_next (x_sv y) = length l).
  { destruct (skipn (w_next (x_sv y)) l) as [|[m args] t] eqn:E; [|discriminate].
    apply (f_equal (@length _)) in E. rewrite skipn_length in E. cbn [length] in E. lia. }
  assert (Hall : forall d, (d < length l)%nat -> In d (map fst (w_done (x_sv y)))).
  { intros d Hd. destruct (in_dec Nat.eq_dec d (map fst (w_done (x_sv y)))) as [I|N]; [exact I|].
    exfalso. destruct (nth_error l d) as [[m args]|] eqn:E;
      [|apply nth_error_None in E; lia].
    assert (I : In (d, (m, seq_of d)) (w_pending (x_sv y))).
    { apply A6. rewrite Ek. split; [exact Hd|]. split; [exact N|].
      split; [exists args; exact E|reflexivity]. }
    rewrite D2 in I. contradiction. }
  assert (Hd2 : dn_ok l done2) by (apply (dn_ok_r l done1); rewrite <- A11; exact Hdn).
  destruct (stream_nil _ _ (small_answers _ _ Hd2) A12 Wi) as [_ E2].
  destruct (answers_to l done2) as [|c t] eqn:Ea; [|discriminate].
  assert (Sil : silent l done2).
  { intros d r I. destruct (proj2 Hd2 d r I) as [Hlt _].
    destruct (nth_error l d) as [[m args]|] eqn:E; [|apply nth_error_None in E; lia].
    exists m, args. split; [reflexivity|]. destruct (m_oneway m) eqn:Ho; [reflexivity|].
    exfalso. assert (J : In (Some d, rep (seq_of d) m r) (answers_to l done2)).
    { unfold answers_to. apply in_flat_map. exists (d, r). split; [exact I|].
      cbn [fst snd]. rewrite E, Ho. left. reflexivity. }
    rewrite Ea in J. contradiction. }
  destruct C as (C1 & C2 & C3 & C4 & C5 & C6 & C7).
  split; [exact Ek|]. split; [exact Hall|]. split.
  - rewrite A11, earned_app, C5, (earned_silent l done2 Sil), app_nil_r. reflexivity.
  - rewrite C3, <- (open_silent l done1 done2 Sil), <- A11. unfold open_reqs.
    replace (filter (unanswered l (w_done (x_sv y))) (seq 0 (length l))) with (@nil nat);
      [reflexivity|].
    symmetry. clear - Hall. assert (F : forall i, In i (seq 0 (length l)) ->
      unanswered l (w_done (x_sv y)) i = false).
    { intros i I. apply in_seq in I. unfold unanswered.
      destruct (nth_error l i) as [[m args]|]; [|reflexivity].
      replace (existsb (Nat.eqb i) (map fst (w_done (x_sv y)))) with true;
        [rewrite andb_false_r; reflexivity|].
      symmetry. apply existsb_exists. exists i. split; [apply Hall; lia|apply Nat.eqb_refl]. }
    induction (seq 0 (length l)) as [|a t IH]; [reflexivity|]. cbn [filter].
    rewrite (F a (or_introl eq_refl)). apply IH. intros i I. apply F. right. exact I.
Qed.

(** ... can always be reached, whatever the handlers still waited for answer. *)
Lemma fires_run l ds : okl l -> forall y, sys_ok l y ->
  (forall d r, In (d, r) ds -> forall m args, nth_error l d = Some (m, args) -> good d m r) ->
  let y' := xrun P env handler ms x0 (map (fun dr => XFire (fst dr) (snd dr)) ds) y in
  sys_ok l y' /\ x_up y' = x_up y /\ w_next (x_sv y') = w_next (x_sv y)
  /\ (forall e, In e (w_pending (x_sv y')) -> In e (w_pending (x_sv y))
        /\ ~ In (fst e) (map fst ds)).
Proof.
  intros Hok. induction ds as [|[d r] t IH]; intros y S G y'.
  - split; [exact S|]. split; [reflexivity|]. split; [reflexivity|].
    intros e I. split; [exact I|intros []].
  - destruct S as (done1 & Sv & Wi & Wb & C).
    destruct (mid_fire l (x_in y) done1 (x_up y) (x_sv y) d r Hok Sv
      (G d r (or_introl eq_refl))) as (A & B & D).
    set (y1 := xstep P env handler ms x0 (XFire d r) y).
    assert (S1 : sys_ok l y1) by (exists done1; auto).
    destruct (IH y1 S1) as (E1 & E2 & E3 & E4).
    { intros d' r' I. apply G. right. exact I. }
    change y' with (xrun P env handler ms x0 (map (fun dr => XFire (fst dr) (snd dr)) t) y1).
    split; [exact E1|]. split; [rewrite E2; reflexivity|]. split; [rewrite E3; exact B|].
    intros e I. apply E4 in I as [I N]. apply D in I as [I Hne]. split; [exact I|].
    cbn [map fst In]. intros [K|K]; [congruence|contradiction].
Qed.

Lemma sys_drain l y (res : nat -> hres) : okl l -> okh l -> sys_ok l y ->
  (forall d m args, nth_error l d = Some (m, args) -> good d m (res d)) ->
  exists n, drained (xrun P env handler ms x0
    ([XUp (length (x_up y))] ++ map (fun d => XFire d (res d)) (seq 0 (length l)) ++ [XDown n]) y)
  /\ sys_ok l (xrun P env handler ms x0
    ([XUp (length (x_up y))] ++ map (fun d => XFire d (res d)) (seq 0 (length l)) ++ [XDown n]) y).
Proof.
  intros Hok Hh S G.
  set (y1 := xstep P env handler ms x0 (XUp (length (x_up y))) y).
  assert (S1 : sys_ok l y1) by (apply sys_up; assumption).
  assert (U1 : x_up y1 = []) by (unfold y1; cbn [xstep x_up]; apply skipn_all).
  set (ds := map (fun d => (d, res d)) (seq 0 (length l))).
  destruct (fires_run l ds Hok y1 S1) as (S2 & U2 & N2 & P2).
  { intros d r I m args E. apply in_map_iff in I as (d' & Ed & _).
    assert (d' = d) by congruence. assert (r = res d') by congruence. subst.
    eapply G. exact E. }
  assert (Ef : map (fun dr => XFire (fst dr) (snd dr)) ds
             = map (fun d => XFire d (res d)) (seq 0 (length l))).
  { unfold ds. rewrite map_map. reflexivity. }
  rewrite Ef in *.
  set (y2 := xrun P env handler ms x0 (map (fun d => XFire d (res d)) (seq 0 (length l))) y1) in *.
  exists (length (w_out (x_sv y2))).
  assert (Er : xrun P env handler ms x0
    ([XUp (length (x_up y))] ++ map (fun d => XFire d (res d)) (seq 0 (length l))
       ++ [XDown (length (w_out (x_sv y2)))]) y
    = xstep P env handler ms x0 (XDown (length (w_out (x_sv y2)))) y2).
  { unfold xrun. rewrite !fold_left_app. reflexivity. }
  rewrite Er.
  destruct (sys_down l y2 (length (w_out (x_sv y2))) Hok S2) as (S3 & V3 & U3).
  split; [|exact S3]. unfold drained. rewrite U3, V3, U2. split; [exact U1|].
  unfold drop_out. cbn [w_pending w_out]. split; [|apply skipn_all].
  destruct (w_pending (x_sv y2)) as [|[d [m q]] t] eqn:Ep; [reflexivity|]. exfalso.
  destruct (P2 (d, (m, q)) (or_introl eq_refl)) as [I N]. cbn [fst] in N. apply N.
  destruct S1 as (done1 & [M _] & _).
  apply (md_pend _ _ _ _ _ _ M) in I as (Hlt & _). pose proof (md_next _ _ _ _ _ _ M).
  unfold ds. rewrite map_map. cbn [fst]. rewrite map_id. apply in_seq. lia.
Qed.
End Run.

(** * Any client, any handler *)

(** The invocations answered, in order. *)
Fixpoint answered (l : list (option nat * list byte)) : list nat :=
  match l with
  | [] => []
  | (Some d, _) :: r => d :: answered r
  | (None, _) :: r => answered r
  end.

Lemma answered_app a b : answered (a ++ b) = answered a ++ answered b.
Proof. induction a as [|[[d|] u] r IH]; cbn [app answered]; rewrite ?IH; reflexivity. Qed.

Section Any.
Context {X H : Type}.
Variable P : proto X.
Variable env : schema.
Variable handler : list Z -> list (option value) -> H -> option hres * H.
Variable ms : list method.
Variable x0 : X.

(** Every invocation is waited for or finished; answers are to finished ones,
    in the order they finished, none twice; nothing empty is sent. *)
Record ledger (y : tws H) : Prop := {
  lg_calls : length (w_calls y) = w_next y;
  lg_nd : NoDup (map fst (w_pending y) ++ map fst (w_done y));
  lg_all : forall d, In d (map fst (w_pending y) ++ map fst (w_done y)) <-> (d < w_next y)%nat;
  lg_sent : exists keep, answered (w_sent y) = filter keep (map fst (w_done y));
  lg_full : Forall (fun e => snd e <> []) (w_sent y) }.

Lemma ledger_buf b y : ledger y -> ledger (set_buf b y).
Proof. intros [A B C D E]. constructor; assumption. Qed.

Lemma ledger_error y : ledger y -> ledger (tw_error y).
Proof. intros [A B C D E]. constructor; assumption. Qed.

Lemma filter_same {A} (f g : A -> bool) l : (forall a, In a l -> f a = g a) ->
  filter f l = filter g l.
Proof. apply filter_ext_in. Qed.

(** An invocation not yet in the books finishes. *)
Lemma ledger_finish y d m q r : length (w_calls y) = w_next y ->
  NoDup (d :: map fst (w_pending y) ++ map fst (w_done y)) ->
  (forall e, In e (d :: map fst (w_pending y) ++ map fst (w_done y)) <-> (e < w_next y)%nat) ->
  (exists keep, answered (w_sent y) = filter keep (map fst (w_done y))) ->
  Forall (fun e => snd e <> []) (w_sent y) ->
  ledger (tw_finish P env x0 d m q r y).
Proof.
  intros A B C (keep & D) E.
  pose proof (proj1 (NoDup_cons_iff _ _) B) as [Hd Hnd].
  assert (Hnd' : NoDup (map fst (w_pending y) ++ map fst (w_done y ++ [(d, r)]))).
  { rewrite map_app, app_assoc. cbn [map fst]. apply NoDup_snoc; assumption. }
  assert (Hall : forall e, In e (map fst (w_pending y) ++ map fst (w_done y ++ [(d, r)]))
                   <-> (e < w_next y)%nat).
  { intros e. rewrite <- C, map_app, app_assoc, in_app_iff. cbn [map fst In]. tauto. }
  set (keep0 := fun e => keep e && negb (Nat.eqb e d)).
  assert (D0 : answered (w_sent y) = filter keep0 (map fst (w_done y ++ [(d, r)]))).
  { rewrite D, map_app, filter_app. cbn [map fst filter]. unfold keep0 at 2.
    rewrite Nat.eqb_refl, andb_false_r, app_nil_r. apply filter_ext_in. intros a I.
    unfold keep0. destruct (Nat.eqb_spec a d) as [->|N]; [|rewrite andb_true_r; reflexivity].
    exfalso. apply Hd. apply in_or_app. right. exact I. }
  set (keep1 := fun e => keep e || Nat.eqb e d).
  assert (D1 : answered (w_sent y) ++ [d] = filter keep1 (map fst (w_done y ++ [(d, r)]))).
  { rewrite D, map_app, filter_app. cbn [map fst filter]. unfold keep1 at 2.
    rewrite Nat.eqb_refl, orb_true_r. f_equal. apply filter_ext_in. intros a I.
    unfold keep1. destruct (Nat.eqb_spec a d) as [->|N]; [|rewrite orb_false_r; reflexivity].
    exfalso. apply Hd. apply in_or_app. right. exact I. }
  unfold tw_finish. destruct (tw_answer _ _ _ _ _ _) as [[|b0 br]|].
  - constructor; try assumption. exists keep0. exact D0.
  - unfold tw_ok, tw_dispatch. destruct (send_string _).
    + constructor; cbn [w_calls w_next w_pending w_done w_sent]; try assumption.
      * exists keep1. rewrite answered_app. exact D1.
      * apply Forall_app. split; [exact E|]. constructor; [discriminate|constructor].
    + constructor; try assumption. exists keep0. exact D0.
  - constructor; try assumption. exists keep0. exact D0.
Qed.

Lemma ledger_string s y : ledger y -> ledger (snd (tw_string P env handler ms x0 s y)).
Proof.
  intros LG. unfold tw_string.
  destruct (tw_process _ _ _ _ _ _ _) as [|msg|m q args r h]; cbn [snd].
  - exact LG.
  - destruct LG as [A B C D E]. unfold tw_ok, tw_dispatch. destruct msg as [|b0 br];
      [constructor; assumption|].
    destruct (send_string _); [|constructor; assumption].
    constructor; cbn [w_calls w_next w_pending w_done w_sent]; try assumption.
    + destruct D as (keep & D). exists keep. rewrite answered_app. cbn [answered].
      rewrite app_nil_r. exact D.
    + apply Forall_app. split; [exact E|]. constructor; [discriminate|constructor].
  - destruct LG as [A B C D E].
    assert (Hfresh : ~ In (w_next y) (map fst (w_pending y) ++ map fst (w_done y))).
    { intros I. apply C in I. lia. }
    destruct r as [r|].
    + apply ledger_finish; cbn [w_calls w_next w_pending w_done w_sent]; try assumption.
      * rewrite app_length, A. cbn [length]. lia.
      * constructor; assumption.
      * intros e. cbn [In]. rewrite C. split; [intros [<-|I]; lia|lia].
    + constructor; cbn [w_calls w_next w_pending w_done w_sent]; try assumption.
      * rewrite app_length, A. cbn [length]. lia.
      * rewrite map_app, <- app_assoc. cbn [map fst app].
        apply (NoDup_Add (a := w_next y) (l := map fst (w_pending y) ++ map fst (w_done y))).
        -- apply Add_app.
        -- split; assumption.
      * intros e. rewrite map_app, <- app_assoc. cbn [map fst app]. rewrite in_app_iff. cbn [In].
        specialize (C e). rewrite in_app_iff in C. split.
        -- intros [I|[I|I]]; [assert (e < w_next y)%nat by tauto; lia|lia|].
          assert (e < w_next y)%nat by tauto. lia.
        -- intros Hlt. destruct (Nat.eq_dec e (w_next y)) as [->|N]; [tauto|].
          assert (e < w_next y)%nat as Q by lia. tauto.
Qed.

Lemma ledger_loop n : forall i y, ledger y -> ledger (tw_loop P env handler ms x0 n i y).
Proof.
  induction n as [|n IH]; intros i y LG; cbn [tw_loop]; [apply ledger_buf; exact LG|].
  destruct (next_string i) as [| |s r].
  - apply ledger_buf. exact LG.
  - apply ledger_error, ledger_buf. exact LG.
  - pose proof (ledger_string s y LG) as LG'.
    destruct (tw_string _ _ _ _ _ _ _) as [[|] y']; cbn [snd] in LG'.
    + apply IH. exact LG'.
    + apply ledger_error, ledger_buf. exact LG'.
Qed.

Lemma take_pending_split d l c r : take_pending d l = Some (c, r) ->
  exists a b, l = a ++ (d, c) :: b /\ r = a ++ b.
Proof.
  revert r. induction l as [|[k c'] t IH]; intros r E; [discriminate|]. cbn [take_pending] in E.
  destruct (Nat.eqb_spec k d) as [->|N].
  - exists [], t. injection E as <- <-. split; reflexivity.
  - destruct (take_pending d t) as [[c2 r2]|]; [|discriminate].
    injection E as -> <-. destruct (IH r2 eq_refl) as (a & b & -> & ->).
    exists ((k, c') :: a), b. split; reflexivity.
Qed.

Lemma ledger_step e y : ledger y -> ledger (sstep P env handler ms x0 e y).
Proof.
  intros LG. destruct e as [b|d r]; cbn [sstep].
  - unfold tw_data. destruct (w_closing y); [exact LG|]. apply ledger_loop. exact LG.
  - unfold tw_fire. destruct (take_pending d (w_pending y)) as [[[m q] l]|] eqn:E; [|exact LG].
    destruct LG as [A B C D F]. destruct (take_pending_split _ _ _ _ E) as (a & b & Ea & El).
    apply ledger_finish; cbn [w_calls w_next w_pending w_done w_sent]; try assumption.
    + rewrite Ea, map_app in B. cbn [map fst] in B. rewrite <- app_assoc in B. cbn [app] in B.
      apply NoDup_remove in B as [B1 B2]. rewrite El, map_app, <- app_assoc.
      constructor; assumption.
    + intros e. rewrite <- C, Ea, El, !map_app. cbn [map fst In].
      rewrite !in_app_iff. cbn [In]. tauto.
Qed.

Lemma ledger_start h : ledger (tws_start h).
Proof.
  constructor; cbn.
  - reflexivity.
  - constructor.
  - intros d. split; [intros []|lia].
  - exists (fun _ => true). reflexivity.
  - constructor.
Qed.

Lemma ledger_run es : forall y, ledger y -> ledger (srun P env handler ms x0 es y).
Proof.
  induction es as [|e t IH]; intros y LG; [exact LG|]. unfold srun. cbn [fold_left].
  apply IH. apply ledger_step. exact LG.
Qed.

(** A server that is closing reads nothing more. *)
Lemma closing_finish (y : tws H) d m q r : w_closing y = true ->
  w_closing (tw_finish P env x0 d m q r y) = true
  /\ w_calls (tw_finish P env x0 d m q r y) = w_calls y.
Proof.
  intros C. unfold tw_finish. destruct (tw_answer _ _ _ _ _ _) as [[|b0 br]|].
  - split; [exact C|reflexivity].
  - unfold tw_ok, tw_dispatch. destruct (send_string _); (split; [exact C|reflexivity]).
  - split; reflexivity.
Qed.

Lemma closing_run es : forall y, w_closing y = true ->
  w_closing (srun P env handler ms x0 es y) = true
  /\ w_calls (srun P env handler ms x0 es y) = w_calls y.
Proof.
  induction es as [|e t IH]; intros y C; [split; [exact C|reflexivity]|].
  unfold srun. cbn [fold_left]. fold (srun P env handler ms x0 t (sstep P env handler ms x0 e y)).
  assert (S : w_closing (sstep P env handler ms x0 e y) = true
              /\ w_calls (sstep P env handler ms x0 e y) = w_calls y).
  { destruct e as [b|d r]; cbn [sstep].
    - unfold tw_data. rewrite C. split; [exact C|reflexivity].
    - unfold tw_fire. destruct (take_pending _ _) as [[[m q] l]|]; [|split; [exact C|reflexivity]].
      set (y1 := mktws _ _ _ l _ _ _ _ _).
      destruct (closing_finish y1 d m q r C) as [A B]. split; [exact A|exact B]. }
  destruct S as [S1 S2]. destruct (IH _ S1) as [A B]. split; [exact A|congruence].
Qed.
End Any.
