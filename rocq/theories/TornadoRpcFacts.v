(** Facts about calls over Tornado. *)
From Coq Require Import ZArith List Bool Lia.
From Coq Require Import Init.Byte.
From Coq Require Import ZifyBool ZifyNat ZifyN.
From Verif Require Import Base Bytes BytesFacts Utf8 Proto Spec Laws StructFacts Closure FrameFacts
  InstFacts MsgLaws Rpc RpcFacts RpcSys Twisted TornadoRpc.
Import ListNotations.
Open Scope Z_scope.
Open Scope list_scope.

(** * What is specified *)

(** The calls among the events. *)
Fixpoint tcalls (es : list tevent) : list (method * list (option value)) :=
  match es with
  | [] => []
  | TCall m args :: r => (m, args) :: tcalls r
  | _ :: r => tcalls r
  end.

(** Events of an undisturbed connection. *)
Definition honest (e : tevent) : Prop :=
  match e with TInject _ | TLost | TCancel _ => False | _ => True end.

(** What the calls return: the Futures, numbered from [d]. *)
Fixpoint made_of (d : nat) (l : list (method * list (option value))) : list made :=
  match l with
  | [] => []
  | (m, _) :: r =>
      if m_oneway m then Ok None :: made_of d r else Ok (Some d) :: made_of (S d) r
  end.

(** The sequence id of the call that made Future [d], counting from [q]. *)
Fixpoint future_seq (q : Z) (l : list (method * list (option value))) (d : nat)
  : option Z :=
  match l with
  | [] => None
  | (m, _) :: r =>
      if m_oneway m then future_seq (q + 1) r d
      else match d with O => Some q | S d' => future_seq (q + 1) r d' end
  end.

(** How many Futures the calls make. *)
Definition two_way (c : method * list (option value)) : bool := negb (m_oneway (fst c)).
Definition futures (l : list (method * list (option value))) : nat :=
  length (filter two_way l).

Section Answers.
Context {H : Type}.
Variable env : schema.
Variable handler : list Z -> list (option value) -> H -> hres * H.

(** What each Future should get. *)
Fixpoint answers (d : nat) (l : list (method * list (option value))) (h : H)
  : list (nat * outcome cresult) :=
  match l with
  | [] => []
  | (m, args) :: r =>
      let '(res, h') := handler (m_name m) (received env (m_args m) args) h in
      if m_oneway m then answers d r h'
      else (d, Ok (expected env m res)) :: answers (S d) r h'
  end.

Fixpoint after (l : list (method * list (option value))) (h : H) : H :=
  match l with
  | [] => h
  | (m, args) :: r => after r (snd (handler (m_name m) (received env (m_args m) args) h))
  end.

Lemma after_reference l : forall h, after l h = snd (reference env handler l h).
Proof.
  induction l as [|[m args] r IH]; intros h; [reflexivity|]. cbn [after reference].
  destruct (handler _ _ h) as [res h']. cbn [snd]. rewrite IH.
  destruct (reference env handler r h'). reflexivity.
Qed.

Lemma after_app a : forall b h, after (a ++ b) h = after b (after a h).
Proof. induction a as [|[m args] r IH]; intros; cbn [app after]; [reflexivity|apply IH]. Qed.

Lemma answers_app a : forall b d h,
  answers d (a ++ b) h = answers d a h ++ answers (d + futures a) b (after a h).
Proof.
  induction a as [|[m args] r IH]; intros b d h.
  - cbn [app answers after futures filter length]. rewrite Nat.add_0_r. reflexivity.
  - cbn [app answers after]. unfold futures. cbn [filter]. unfold two_way at 1. cbn [fst].
    destruct (handler _ _ h) as [res h']. cbn [snd].
    destruct (m_oneway m); cbn [negb length].
    + rewrite IH. reflexivity.
    + rewrite IH. cbn [app]. unfold futures. rewrite Nat.add_succ_r. reflexivity.
Qed.

Lemma good_history_app D SL CL a : forall b h,
  good_historyd D env handler SL CL (a ++ b) h ->
  good_historyd D env handler SL CL a h /\ good_historyd D env handler SL CL b (after a h).
Proof.
  induction a as [|[m args] r IH]; intros b h G; [split; [exact I|exact G]|].
  cbn [app good_historyd after] in *. destruct (handler _ _ h) as [res h']. cbn [snd].
  destruct G as (A & B & C). destruct (IH _ _ C). tauto.
Qed.

Lemma answers_len l : forall d h, length (answers d l h) = futures l.
Proof.
  induction l as [|[m args] r IH]; intros d h; [reflexivity|].
  cbn [answers]. unfold futures. cbn [filter]. unfold two_way at 1. cbn [fst].
  destruct (handler _ _ h) as [res h'].
  destruct (m_oneway m); cbn [negb length]; rewrite IH; reflexivity.
Qed.
End Answers.

Lemma futures_app a b : futures (a ++ b) = (futures a + futures b)%nat.
Proof. unfold futures. rewrite filter_app, app_length. reflexivity. Qed.

Lemma futures_one m args : futures [(m, args)] = if m_oneway m then O else 1%nat.
Proof. unfold futures, two_way. cbn [filter fst]. destruct (m_oneway m); reflexivity. Qed.

Lemma futures_cons m args r :
  futures ((m, args) :: r) = if m_oneway m then futures r else S (futures r).
Proof. unfold futures, two_way. cbn [filter fst]. destruct (m_oneway m); reflexivity. Qed.

Lemma NoDup_snoc {A} (l : list A) a : NoDup l -> ~ In a l -> NoDup (l ++ [a]).
Proof.
  intros N I. induction N as [|b r Hb _ IH]; cbn [app].
  - constructor; [intros []|constructor].
  - constructor; [|apply IH; intros C; apply I; right; exact C].
    intros C. apply in_app_or in C as [C|[<-|[]]]; [exact (Hb C)|]. apply I. left. reflexivity.
Qed.

Lemma NoDup_app_ {A} (a b : list A) : NoDup a -> NoDup b ->
  (forall x, In x a -> ~ In x b) -> NoDup (a ++ b).
Proof.
  intros Na Nb D. induction Na as [|x r Hx _ IH]; [exact Nb|]. cbn [app]. constructor.
  - intros C. apply in_app_or in C as [C|C]; [exact (Hx C)|]. exact (D x (or_introl eq_refl) C).
  - apply IH. intros y Hy. apply D. right. exact Hy.
Qed.

Lemma made_app a : forall b d, made_of d (a ++ b) = made_of d a ++ made_of (d + futures a) b.
Proof.
  induction a as [|[m args] r IH]; intros b d.
  - cbn [app made_of futures filter length]. rewrite Nat.add_0_r. reflexivity.
  - cbn [app made_of]. unfold futures. cbn [filter]. unfold two_way at 1. cbn [fst].
    destruct (m_oneway m); cbn [negb length]; rewrite IH; cbn [app]; unfold futures;
      rewrite ?Nat.add_succ_r; reflexivity.
Qed.

(** * Frames *)

Definition small (u : list byte) : Prop := Z.of_nat (length u) < 2147483648.

Definition fr (u : list byte) : list byte :=
  match tframe u with Some b => b | None => [] end.
Definition stream (us : list (list byte)) : list byte := concat (map fr us).

Lemma tframe_small u : small u ->
  exists hd, tframe u = Some (hd ++ u) /\ length hd = 4%nat
    /\ unpack_signed 4 hd = Z.of_nat (length u).
Proof.
  intros Hs. unfold small in Hs. exists (be_bytes 4 (Z.of_nat (length u))). split.
  - unfold tframe, pack_signed. change (2 ^ (8 * Z.of_nat 4 - 1)) with 2147483648.
    destruct ((- (2147483648) <=? Z.of_nat (length u)) && (Z.of_nat (length u) <? 2147483648))
      eqn:C; [reflexivity|lia].
  - split; [unfold be_bytes; rewrite rev_length; reflexivity|].
    apply unpack_pack; [lia|]. unfold in_signed.
    change (8 * Z.of_nat 4 - 1) with 31. lia.
Qed.

Lemma first_exact {A} n (a b : list A) : length a = n -> firstn n (a ++ b) = a.
Proof.
  intros <-. rewrite firstn_app, Nat.sub_diag, firstn_all, firstn_O, app_nil_r. reflexivity.
Qed.
Lemma skip_exact {A} n (a b : list A) : length a = n -> skipn n (a ++ b) = b.
Proof. intros <-. rewrite skipn_app, Nat.sub_diag, skipn_all. reflexivity. Qed.

Lemma take_fr u r : small u -> take_frame (fr u ++ r) = Some (u, r).
Proof.
  intros Hs. destruct (tframe_small u Hs) as (hd & E & Hl & Hn).
  unfold fr. rewrite E. unfold take_frame. rewrite <- app_assoc.
  replace (length (hd ++ u ++ r) <? 4)%nat with false
    by (rewrite app_length; symmetry; apply Nat.ltb_ge; lia).
  rewrite (first_exact 4), (skip_exact 4), Hn by exact Hl.
  replace ((0 <=? Z.of_nat (length u)) && (Z.of_nat (length u) <=? Z.of_nat (length (u ++ r))))
    with true by (rewrite app_length; lia).
  rewrite Nat2Z.id, first_exact, skip_exact by reflexivity. reflexivity.
Qed.

Lemma take_app i t f r : take_frame i = Some (f, r) -> take_frame (i ++ t) = Some (f, r ++ t).
Proof.
  unfold take_frame. cbv zeta.
  destruct (Nat.ltb_spec (length i) 4) as [|Hl]; [intros E; discriminate E|].
  replace (length (i ++ t) <? 4)%nat with false
    by (rewrite app_length; symmetry; apply Nat.ltb_ge; lia).
  rewrite firstn_app, skipn_app. replace (4 - length i)%nat with O by lia.
  rewrite firstn_O, skipn_O, app_nil_r.
  set (n := unpack_signed 4 (firstn 4 i)). set (s := skipn 4 i).
  destruct ((0 <=? n) && (n <=? Z.of_nat (length s))) eqn:C;
    [|intros E; discriminate E].
  intros E. assert (f = firstn (Z.to_nat n) s) by congruence.
  assert (r = skipn (Z.to_nat n) s) by congruence. subst f r. clear E.
  replace ((0 <=? n) && (n <=? Z.of_nat (length (s ++ t)))) with true
    by (rewrite app_length; lia).
  rewrite firstn_app, skipn_app. replace (Z.to_nat n - length s)%nat with O by lia.
  rewrite firstn_O, skipn_O, app_nil_r. reflexivity.
Qed.

Lemma take_nil : take_frame [] = None.
Proof. reflexivity. Qed.

Lemma tframes_small us : Forall small us -> tframes us = Some (stream us).
Proof.
  induction 1 as [|u r Hu _ IH]; [reflexivity|]. cbn [tframes]. rewrite IH.
  destruct (tframe_small u Hu) as (hd & E & _).
  change (stream (u :: r)) with (fr u ++ stream r).
  replace (fr u) with (hd ++ u) by (unfold fr; rewrite E; reflexivity).
  rewrite E. reflexivity.
Qed.

Lemma stream_app a b : stream (a ++ b) = stream a ++ stream b.
Proof. unfold stream. rewrite map_app, concat_app. reflexivity. Qed.

(** What arrives of a stream of frames and yields a frame yields the first. *)
Lemma take_stream us i t f r : Forall small us -> i ++ t = stream us ->
  take_frame i = Some (f, r) ->
  exists us', us = f :: us' /\ r ++ t = stream us'.
Proof.
  intros Hs E T. apply (take_app i t) in T. rewrite E in T.
  destruct us as [|u us']; [discriminate|]. inversion Hs; subst.
  unfold stream in T. cbn [map concat] in T. rewrite take_fr in T by assumption.
  exists us'. unfold stream. split; congruence.
Qed.

Lemma take_whole us i f : Forall small (f :: us) -> i = stream (f :: us) ->
  take_frame i = Some (f, stream us).
Proof.
  intros Hs ->. inversion Hs; subst. unfold stream. cbn [map concat].
  apply take_fr. assumption.
Qed.

(** * _reqs *)

Fixpoint pend (q : Z) (d : nat) (l : list (method * list (option value)))
  : list (Z * nat) :=
  match l with
  | [] => []
  | (m, _) :: r =>
      if m_oneway m then pend (q + 1) d r else (q, d) :: pend (q + 1) (S d) r
  end.

Lemma pend_app a : forall b q d,
  pend q d (a ++ b) = pend q d a ++ pend (q + Z.of_nat (length a)) (d + futures a) b.
Proof.
  induction a as [|[m args] r IH]; intros b q d.
  - cbn [app pend futures filter length]. rewrite Nat.add_0_r, Z.add_0_r. reflexivity.
  - cbn [app pend length]. unfold futures. cbn [filter]. unfold two_way at 1. cbn [fst].
    destruct (m_oneway m); cbn [negb length]; rewrite IH; cbn [app]; unfold futures.
    + do 2 f_equal; lia.
    + do 3 f_equal; lia.
Qed.

Lemma pend_bound l : forall q d k e, In (k, e) (pend q d l) ->
  q <= k < q + Z.of_nat (length l) /\ (d <= e < d + futures l)%nat.
Proof.
  induction l as [|[m args] r IH]; intros q d k e I; [contradiction|].
  cbn [pend length] in *. unfold futures. cbn [filter]. unfold two_way at 1. cbn [fst].
  destruct (m_oneway m); cbn [negb length].
  - apply IH in I. unfold futures in I. lia.
  - destruct I as [I|I]; [assert (k = q /\ e = d) by (split; congruence); lia|].
    apply IH in I. unfold futures in I. lia.
Qed.

Lemma put_fresh q d l : (forall k e, In (k, e) l -> k <> q) -> put q d l = l ++ [(q, d)].
Proof.
  intros F. unfold put.
  destruct (existsb (fun e => fst e =? q) l) eqn:E; [|reflexivity].
  apply existsb_exists in E as ([k e] & I & E). cbn [fst] in E.
  exfalso. apply (F k e I). lia.
Qed.

Lemma put_pend q d l m args : m_oneway m = false ->
  put (q + Z.of_nat (length l)) (d + futures l) (pend q d l) = pend q d (l ++ [(m, args)]).
Proof.
  intros Ho. rewrite pend_app. cbn [pend]. rewrite Ho. apply put_fresh.
  intros k e I. apply pend_bound in I. lia.
Qed.

(** * The undisturbed connection *)
Section Run.
Context {X : Type} {P : proto X} {SL CL : Z} (L : mlaws P SL CL).
Variables (env : schema).
Hypothesis Henv : schema_ok env.
Hypothesis Hclosed : schema_closed env = true.
Context {H : Type}.
Variable handler : list Z -> list (option value) -> H -> hres * H.
Variable ms : list method.
Hypothesis Hms : service_ok env SL ms.
Hypothesis HSL : 14 <= SL.
Variable x0 : X.
Hypothesis Hx0 : ml_idle L x0.

Notation msg := (message L).
Notation calls_list := (list (method * list (option value))).

Definition req (q : Z) (m : method) (args : list (option value)) : list byte :=
  msg (m_name m) (if m_oneway m then ONEWAY else CALL) q env (m_args m)
    (VStruct (m_args m) args).

Fixpoint reqs (q : Z) (l : calls_list) : list (list byte) :=
  match l with
  | [] => []
  | (m, args) :: r => req q m args :: reqs (q + 1) r
  end.

Definition rep (q : Z) (m : method) (r : hres) : list byte :=
  match reply_for env m r with
  | Some (t, e, n, v) => msg (m_name m) t q e n v
  | None => []
  end.

Fixpoint replies (q : Z) (l : calls_list) (h : H) : list (list byte) :=
  match l with
  | [] => []
  | (m, args) :: r =>
      let '(res, h') := handler (m_name m) (received env (m_args m) args) h in
      if m_oneway m then replies (q + 1) r h' else rep q m res :: replies (q + 1) r h'
  end.

Lemma reqs_app a : forall b q, reqs q (a ++ b) = reqs q a ++ reqs (q + Z.of_nat (length a)) b.
Proof.
  induction a as [|[m args] r IH]; intros b q; cbn [app reqs length].
  - rewrite Z.add_0_r. reflexivity.
  - rewrite IH. do 3 f_equal. lia.
Qed.

Lemma replies_app a : forall b q h, replies q (a ++ b) h
  = replies q a h ++ replies (q + Z.of_nat (length a)) b (after env handler a h).
Proof.
  induction a as [|[m args] r IH]; intros b q h; cbn [app replies length after].
  - rewrite Z.add_0_r. reflexivity.
  - destruct (handler _ _ h) as [res h']. cbn [snd].
    destruct (m_oneway m); rewrite IH; cbn [app]; [|f_equal];
    (f_equal; f_equal; lia).
Qed.

Definition okc (c : method * list (option value)) : Prop :=
  In (fst c) ms /\ args_ok L env (m_args (fst c)) (snd c).

Definition ok (l : calls_list) (h : H) : Prop :=
  Forall okc l /\ good_historyd (ml_dok L) env handler SL CL l h
  /\ Z.of_nat (length l) < 2147483648
  /\ Forall small (reqs 1 l) /\ Forall small (replies 1 l h).

Lemma ok_app a b h : ok (a ++ b) h -> ok a h.
Proof.
  intros (A & B & C & D & E). rewrite reqs_app in D. rewrite replies_app in E.
  apply Forall_app in A, D, E. apply good_history_app in B. rewrite app_length in C.
  unfold ok. intuition lia.
Qed.

(** l1: answered; l2: served, the answer under way; l3: under way. *)
Definition inv (h0 : H) (l1 l2 l3 : calls_list) (y : tsys X H) : Prop :=
  let l := l1 ++ l2 ++ l3 in
  let q1 := 1 + Z.of_nat (length l1) in
  t_up_in y ++ t_up y = stream (reqs (q1 + Z.of_nat (length l2)) l3)
  /\ t_down_in y ++ t_down y = stream (replies q1 l2 (after env handler l1 h0))
  /\ t_cl y = mktc (Z.of_nat (length l)) (futures l) (pend q1 (futures l1) (l2 ++ l3))
                true true [] (made_of 0 l) (answers env handler 0 l1 h0) []
  /\ (exists xo, t_out y = mkst xo [] [] 0 /\ ml_idle L xo)
  /\ t_h y = after env handler (l1 ++ l2) h0
  /\ t_serving y = true.

Lemma twrite_ok m args q x i o : ml_idle L x -> name_ok SL (m_name m) -> seq_ok q ->
  wfd (ml_dok L) env SL CL (TStruct (m_args m)) (VStruct (m_args m) args) = true ->
  (sdepth (VStruct (m_args m) args) <= 64)%nat ->
  exists x', twrite_call P env m args q (mkst x i o 0)
    = (Ok tt, mkst x' i (o ++ req q m args) 0).
Proof.
  intros Hx Hn Hq Hwf Hd. unfold twrite_call.
  set (ty := if m_oneway m then ONEWAY else CALL).
  assert (Ht : mtype_ok ty)
    by (unfold ty, mtype_ok, ONEWAY, CALL; destruct (m_oneway m); lia).
  destruct (mw_begin L (m_name m) ty q x i o 0 Hx Hn Ht Hq) as (x1 & E1 & H1).
  destruct (mw_body L env (m_args m) (VStruct (m_args m) args) x1 i
     (o ++ ml_hdr L (m_name m) ty q) H1 Henv Hwf Hd) as (x2 & E2 & H2).
  destruct (mw_end L x2 i ((o ++ ml_hdr L (m_name m) ty q)
     ++ ml_body L env (m_args m) (VStruct (m_args m) args)) 0 H2) as (x3 & E3 & H3).
  exists x3. unfold bind. rewrite E1, E2, E3. unfold req, message. fold ty.
  rewrite !app_assoc. reflexivity.
Qed.

Lemma inv_call h0 l1 l2 l3 m args y :
  ok (l1 ++ l2 ++ l3 ++ [(m, args)]) h0 -> inv h0 l1 l2 l3 y ->
  inv h0 l1 l2 (l3 ++ [(m, args)]) (tstep P env handler ms x0 (TCall m args) y).
Proof.
  intros (Hok & _ & Hlen & Hsm & _) (U & D & K & O & Hh & S).
  apply Forall_app in Hok as [_ Hok]. apply Forall_app in Hok as [_ Hok].
  apply Forall_app in Hok as [_ Hok]. inversion Hok as [|? ? [Hin Ha] _]; subst.
  cbn [fst snd] in *. destruct Hms as [_ Hall]. destruct (Hall m Hin) as [Hn _].
  set (l := l1 ++ l2 ++ l3) in *.
  assert (El : l1 ++ l2 ++ l3 ++ [(m, args)] = l ++ [(m, args)])
    by (unfold l; rewrite <- !app_assoc; reflexivity).
  rewrite El in *. rewrite app_length in Hlen. cbn [length] in Hlen.
  rewrite reqs_app in Hsm. apply Forall_app in Hsm as [_ Hsm].
  change (reqs (1 + Z.of_nat (length l)) [(m, args)])
    with [req (1 + Z.of_nat (length l)) m args] in Hsm. pose proof (Forall_inv Hsm) as Hs.
  destruct Ha as [Hwf Hd].
  remember (Z.of_nat (length l) + 1) as q eqn:Eq.
  assert (Hq : seq_ok q) by (unfold seq_ok, between; lia).
  destruct (twrite_ok m args q x0 [] [] Hx0 Hn Hq Hwf Hd) as (x' & E).
  cbn [app] in E. replace (1 + Z.of_nat (length l)) with q in Hs by lia.
  assert (Ef : tframe (req q m args) = Some (fr (req q m args))).
  { destruct (tframe_small _ Hs) as (hd & Ef & _). unfold fr. rewrite Ef. reflexivity. }
  cbn [tstep]. unfold tcall. rewrite K. fold l. cbn [k_seq k_next k_reqs k_running k_open
    k_wbuf k_made k_done k_cancelled]. rewrite <- Eq, E.
  cbn [out]. rewrite Ef. unfold record_call, with_wbuf.
  cbn [k_seq k_next k_reqs k_running k_open k_wbuf k_made k_done k_cancelled].
  unfold inv. cbn [t_up_in t_up t_down_in t_down t_cl t_out t_h t_serving].
  rewrite El. split; [|split; [exact D|split; [|split; [exact O|split; [exact Hh|exact S]]]]].
  - rewrite app_assoc, U, reqs_app, stream_app. f_equal.
    replace (1 + Z.of_nat (length l1) + Z.of_nat (length l2) + Z.of_nat (length l3)) with q
      by (rewrite Eq; unfold l; rewrite !app_length; lia).
    change (reqs q [(m, args)]) with [req q m args].
    change (stream [req q m args]) with (fr (req q m args) ++ []). rewrite app_nil_r.
    reflexivity.
  - rewrite app_length, futures_app, made_app. cbn [length made_of].
    rewrite futures_one. f_equal.
    + lia.
    + destruct (m_oneway m); lia.
    + rewrite app_assoc. destruct (m_oneway m) eqn:Ho.
      * rewrite (pend_app (l2 ++ l3)). cbn [pend]. rewrite Ho, app_nil_r. reflexivity.
      * rewrite <- put_pend by exact Ho. f_equal.
        -- rewrite Eq; unfold l. rewrite !app_length. lia.
        -- unfold l. rewrite !futures_app. lia.
    + cbn [Nat.add]. destruct (m_oneway m); reflexivity.
Qed.

Lemma inv_serve h0 l1 l2 m args l3 y rest :
  ok (l1 ++ l2 ++ (m, args) :: l3) h0 -> inv h0 l1 l2 ((m, args) :: l3) y ->
  take_frame (t_up_in y)
    = Some (req (1 + Z.of_nat (length l1) + Z.of_nat (length l2)) m args, rest) ->
  rest ++ t_up y
    = stream (reqs (1 + Z.of_nat (length l1) + Z.of_nat (length l2) + 1) l3) ->
  inv h0 l1 (l2 ++ [(m, args)]) l3 (tserve P env handler ms x0 y)
  /\ t_up (tserve P env handler ms x0 y) = t_up y.
Proof.
  intros (Hok & Hg & Hlen & _ & Hsm) (U & D & K & (xo & O & Hxo) & Hh & S) T R.
  rewrite app_assoc in Hok. apply Forall_app in Hok as [_ Hok].
  inversion Hok as [|? ? [Hin Ha] _]; subst. cbn [fst snd] in *.
  destruct Hms as [Hnd Hall]. destruct (Hall m Hin) as [Hn Hm].
  pose proof (lookup_unique _ _ Hnd Hin) as Hl.
  rewrite app_assoc in Hg. apply good_history_app in Hg as [_ Hg].
  cbn [good_historyd] in Hg.
  set (h := after env handler (l1 ++ l2) h0) in *.
  destruct (handler (m_name m) (received env (m_args m) args) h) as [res h'] eqn:Eh.
  destruct Hg as (Hho & Htr & _).
  set (q := 1 + Z.of_nat (length l1) + Z.of_nat (length l2)) in *.
  assert (Hq : seq_ok q).
  { rewrite !app_length in Hlen. cbn [length] in Hlen. unfold seq_ok, between, q. lia. }
  set (ty := if m_oneway m then ONEWAY else CALL).
  assert (Ht : mtype_ok ty)
    by (unfold ty, mtype_ok, ONEWAY, CALL; destruct (m_oneway m); lia).
  assert (Hafter : after env handler (l1 ++ l2 ++ [(m, args)]) h0 = h').
  { rewrite app_assoc, after_app. fold h. cbn [after]. rewrite Eh. reflexivity. }
  remember (tserve P env handler ms x0 y) as y' eqn:Ey.
  unfold tserve in Ey. rewrite S, T, O, Hh in Ey.
  unfold req in Ey. fold ty in Ey.
  destruct (m_oneway m) eqn:Ho.
  - destruct (process_request_one_way L env Henv Hclosed handler ms m ty args q [] [] [] []
      x0 xo [] h h' res
      (length (msg (m_name m) ty q env (m_args m) (VStruct (m_args m) args)))
      Hx0 Hxo Hl Hn Ht Hq Ha Eh Ho Htr (Nat.le_refl _)) as (x' & Ep & Hx').
    rewrite app_nil_r in Ep. rewrite Ep in Ey. cbn [s_sent tframes s_out s_h] in Ey.
    rewrite app_nil_r in Ey. subst y'. split; [|reflexivity].
    unfold inv. cbn [t_up_in t_up t_down_in t_down t_cl t_out t_h t_serving].
    rewrite <- !app_assoc. cbn [app]. rewrite app_length. cbn [length].
    split; [rewrite R; do 2 f_equal; unfold q; lia|].
    split; [|split; [exact K|split; [exists xo; split; [reflexivity|exact Hxo]|split;
      [symmetry; exact Hafter|reflexivity]]]].
    rewrite D, replies_app. rewrite <- after_app. fold h. cbn [replies]. rewrite Eh, Ho.
    rewrite app_nil_r. reflexivity.
  - destruct (process_request L env Henv Hclosed handler ms m ty args q [] [] [] []
      x0 xo [] h h' res
      (length (msg (m_name m) ty q env (m_args m) (VStruct (m_args m) args)))
      HSL Hx0 Hxo Hl Hn Ht Hq Ha Eh Ho (Hm eq_refl) (Hho eq_refl) Htr (Nat.le_refl _))
      as (e & n & v & Er & s' & Ep & (xi' & xo' & -> & Hxi' & Hxo')).
    rewrite app_nil_r in Ep. rewrite Ep in Ey. cbn [s_sent s_out s_h app] in Ey.
    assert (Erep : rep q m res = msg (m_name m) (reply_type m res) q e n v)
      by (unfold rep; rewrite Er; reflexivity).
    rewrite <- Erep in Ey.
    assert (Hsr : Forall small [rep q m res]).
    { rewrite app_assoc, replies_app in Hsm. apply Forall_app in Hsm as [_ Hsm].
      fold h in Hsm. cbn [replies] in Hsm. rewrite Eh, Ho in Hsm.
      rewrite app_length in Hsm.
      replace (1 + Z.of_nat (length l1 + length l2)) with q in Hsm by (unfold q; lia).
      constructor; [exact (Forall_inv Hsm)|constructor]. }
    rewrite (tframes_small _ Hsr) in Ey. subst y'. split; [|reflexivity].
    unfold inv. cbn [t_up_in t_up t_down_in t_down t_cl t_out t_h t_serving].
    rewrite <- !app_assoc. cbn [app]. rewrite app_length. cbn [length].
    split; [rewrite R; do 2 f_equal; unfold q; lia|].
    split; [|split; [exact K|split; [exists xo'; split; [reflexivity|exact Hxo']|split;
      [symmetry; exact Hafter|reflexivity]]]].
    rewrite app_assoc, D, replies_app, stream_app. rewrite <- after_app. fold h.
    cbn [replies]. rewrite Eh, Ho. reflexivity.
Qed.

(** The first reply of a list of served calls. *)
Lemma replies_first l : forall q h u us, replies q l h = u :: us ->
  exists a m args b, l = a ++ (m, args) :: b /\ (forall c, In c a -> m_oneway (fst c) = true)
    /\ m_oneway m = false
    /\ let h1 := after env handler a h in
       let '(res, h2) := handler (m_name m) (received env (m_args m) args) h1 in
       u = rep (q + Z.of_nat (length a)) m res
       /\ us = replies (q + Z.of_nat (length a) + 1) b h2.
Proof.
  induction l as [|[m args] r IH]; intros q h u us E; [discriminate|].
  cbn [replies] in E. destruct (handler _ _ h) as [res h'] eqn:Eh.
  destruct (m_oneway m) eqn:Ho.
  - destruct (IH _ _ _ _ E) as (a & m' & args' & b & -> & Ha & Ho' & R).
    exists ((m, args) :: a), m', args', b. split; [reflexivity|]. split.
    { intros c [<-|Hc]; [exact Ho|apply Ha; exact Hc]. }
    split; [exact Ho'|]. cbn [after length]. rewrite Eh. cbn [snd].
    cbv zeta in *. destruct (handler (m_name m') _ _) as [res' h2].
    replace (q + Z.of_nat (S (length a))) with (q + 1 + Z.of_nat (length a)) by lia.
    exact R.
  - exists [], m, args, r. split; [reflexivity|]. split; [intros c []|].
    split; [exact Ho|]. cbn [after length]. cbv zeta. rewrite Eh, Z.add_0_r.
    split; congruence.
Qed.

Lemma one_way_quiet a : (forall c, In c a -> m_oneway (fst c) = true) ->
  futures a = O /\ (forall q d, pend q d a = []) /\ (forall d h, answers env handler d a h = []).
Proof.
  induction a as [|[m args] r IH]; intros Ha; [repeat split|].
  assert (Ho : m_oneway m = true) by (apply (Ha (m, args)); left; reflexivity).
  destruct IH as (A & B & C); [intros c Hc; apply Ha; right; exact Hc|].
  unfold futures in *. cbn [filter pend answers]. unfold two_way at 1. cbn [fst].
  rewrite Ho. cbn [negb]. split; [exact A|]. split; [intros; apply B|].
  intros d h. destruct (handler _ _ h). apply C.
Qed.

Lemma lookup_two_way m : In m ms -> m_oneway m = false ->
  lookup (m_name m) (filter (fun m => negb (m_oneway m)) ms) = Some m.
Proof.
  intros Hi Ho. destruct Hms as [Hnd _]. apply lookup_unique.
  - clear - Hnd. induction ms as [|a r IH]; [constructor|]. inversion Hnd as [|? ? Hni Hnr]; subst.
    cbn [filter map]. destruct (negb (m_oneway a)); [|apply IH; exact Hnr].
    cbn [map]. constructor; [|apply IH; exact Hnr].
    intros C. apply Hni. apply in_map_iff in C as (c & E & C). apply filter_In in C as [C _].
    rewrite <- E. apply in_map. exact C.
  - apply filter_In. rewrite Ho. split; [exact Hi|reflexivity].
Qed.

Lemma inv_receive h0 l1 l2 l3 y u us rest :
  ok (l1 ++ l2 ++ l3) h0 -> inv h0 l1 l2 l3 y ->
  replies (1 + Z.of_nat (length l1)) l2 (after env handler l1 h0) = u :: us ->
  take_frame (t_down_in y) = Some (u, rest) -> rest ++ t_down y = stream us ->
  exists l1' l2', l1' ++ l2' = l1 ++ l2 /\ futures l1' = S (futures l1)
    /\ inv h0 l1' l2' l3 (treceive P env ms x0 y)
    /\ t_down (treceive P env ms x0 y) = t_down y
    /\ t_up (treceive P env ms x0 y) = t_up y.
Proof.
  intros (Hok & Hg & Hlen & _ & _) (U & D & K & O & Hh & S) Er T R.
  set (q1 := 1 + Z.of_nat (length l1)) in *. set (h1 := after env handler l1 h0) in *.
  destruct (replies_first _ _ _ _ _ Er) as (a & m & args & b & -> & Ha & Ho & Hr).
  cbv zeta in Hr.
  destruct (handler (m_name m) (received env (m_args m) args) (after env handler a h1))
    as [res h2] eqn:Eh.
  destruct Hr as [-> ->].
  set (q := q1 + Z.of_nat (length a)) in *.
  destruct (one_way_quiet a Ha) as (Fa & Pa & Aa).
  (* what is known about the call *)
  assert (E4 : l1 ++ (a ++ (m, args) :: b) ++ l3 = (l1 ++ a) ++ (m, args) :: b ++ l3)
    by (rewrite <- !app_assoc; reflexivity).
  rewrite E4 in Hok, Hg, Hlen.
  apply Forall_app in Hok as [_ Hok]. inversion Hok as [|? ? [Hin _] _]; subst.
  cbn [fst] in Hin. destruct Hms as [Hnd Hall]. destruct (Hall m Hin) as [Hn Hm].
  apply good_history_app in Hg as [_ Hg]. cbn [good_historyd] in Hg.
  rewrite after_app in Hg. fold h1 in Hg. rewrite Eh in Hg. destruct Hg as (Hho & Htr & _).
  specialize (Hho Ho). specialize (Hm Ho).
  assert (Hq : seq_ok q).
  { rewrite !app_length in Hlen. cbn [length] in Hlen. unfold seq_ok, between, q, q1. lia. }
  destruct (reply_for_ok (ml_dok L) env SL CL m Hm HSL Henv Hclosed res Hho Htr)
    as (e & n & v & Erf & He & Hc & Hwf & Hd & Hmt & Hk).
  assert (Erep : rep q m res = msg (m_name m) (reply_type m res) q e n v)
    by (unfold rep; rewrite Erf; reflexivity).
  (* the frame *)
  remember (treceive P env ms x0 y) as y' eqn:Ey. unfold treceive in Ey.
  replace (k_running (t_cl y)) with true in Ey by (rewrite K; reflexivity).
  rewrite T in Ey.
  assert (Ef : on_frame P env ms x0 (rep q m res) (t_cl y)
    = mktc (Z.of_nat (length (l1 ++ (a ++ (m, args) :: b) ++ l3)))
        (futures (l1 ++ (a ++ (m, args) :: b) ++ l3))
        (pend (q + 1) (Datatypes.S (futures l1)) (b ++ l3))
        true true [] (made_of 0 (l1 ++ (a ++ (m, args) :: b) ++ l3))
        (answers env handler 0 l1 h0 ++ [(futures l1, Ok (expected env m res))]) []).
  { unfold on_frame. rewrite Erep.
    destruct (mr_begin L (m_name m) (reply_type m res) q
       ((ml_body L e n v ++ ml_end L)) x0 [] 0 Hx0 Hn Hmt Hq (mt_body L _ _ _ _)) as (x1 & i1 & E1 & H1).
    change (message L (m_name m) (reply_type m res) q e n v)
      with (ml_hdr L (m_name m) (reply_type m res) q ++ (ml_body L e n v ++ ml_end L)).
    rewrite E1.
    rewrite (lookup_two_way m Hin Ho). rewrite K. cbn [k_reqs].
    rewrite <- app_assoc, pend_app, Pa, Fa, Nat.add_0_r. cbn [app pend]. rewrite Ho.
    fold q. cbn [pop]. rewrite Z.eqb_refl.
    destruct (read_same L e n v (ml_end L ++ []) x1 i1 []
      (length (ml_hdr L (m_name m) (reply_type m res) q ++ ml_body L e n v ++ ml_end L))
      He Hc) as (x2 & i2 & E2 & H2); try assumption.
    { rewrite app_nil_r. exact H1. }
    { rewrite !app_length. lia. }
    destruct (mr_end L [] x2 i2 [] 0 H2) as (x3 & E3 & H3).
    assert (Et : fst (trecv P env
        (length (ml_hdr L (m_name m) (reply_type m res) q ++ ml_body L e n v ++ ml_end L)) m
        (reply_type m res) (mkst x1 i1 [] 0)) = Ok (expected env m res)).
    { unfold trecv. destruct (reply_type m res =? EXCEPTION).
      - destruct Hk as (-> & -> & ->). unfold bind. rewrite E2, E3. reflexivity.
      - destruct Hk as (-> & -> & ->). unfold bind. rewrite E2, E3. reflexivity. }
    rewrite Et. unfold settle, is_done, with_reqs.
    cbn [k_seq k_next k_reqs k_running k_open k_wbuf k_made k_done k_cancelled existsb].
    replace (existsb (Nat.eqb (futures l1)) (map fst (answers env handler 0 l1 h0)))
      with false; [reflexivity|].
    symmetry. apply not_true_is_false. intros C. apply existsb_exists in C as (d & I & C).
    apply Nat.eqb_eq in C. subst d.
    assert (B : forall l d h, (forall c, In c (map fst (answers env handler d l h)) ->
              (c < d + futures l)%nat)).
    { clear. induction l as [|[m args] r IH]; intros d h c I; [contradiction|].
      cbn [answers] in I. unfold futures. cbn [filter]. unfold two_way at 1. cbn [fst].
      destruct (handler _ _ h) as [res h'].
      destruct (m_oneway m); cbn [negb length].
      - apply IH in I. exact I.
      - cbn [map fst] in I. destruct I as [<-|I]; [lia|]. apply IH in I.
        unfold futures in I. lia. }
    apply B in I. lia. }
  rewrite Ef in Ey. subst y'.
  exists (l1 ++ a ++ [(m, args)]), b.
  split; [rewrite <- !app_assoc; reflexivity|].
  assert (Ff : futures (l1 ++ a ++ [(m, args)]) = Datatypes.S (futures l1)).
  { rewrite !futures_app, Fa, futures_one, Ho. lia. }
  split; [exact Ff|]. split; [|split; reflexivity].
  assert (E5 : (l1 ++ a ++ [(m, args)]) ++ b ++ l3 = l1 ++ (a ++ (m, args) :: b) ++ l3)
    by (rewrite <- !app_assoc; reflexivity).
  assert (Eq : 1 + Z.of_nat (length (l1 ++ a ++ [(m, args)])) = q + 1)
    by (rewrite !app_length; cbn [length]; unfold q, q1; lia).
  assert (Ea : after env handler (l1 ++ a ++ [(m, args)]) h0 = h2).
  { rewrite !after_app. fold h1. cbn [after]. rewrite Eh. reflexivity. }
  unfold inv. cbn [t_up_in t_up t_down_in t_down t_cl t_out t_h t_serving].
  rewrite E5, Eq, Ea, Ff.
  split; [rewrite U; do 2 f_equal; rewrite !app_length; cbn [length]; unfold q; lia|].
  split; [exact R|]. split; [|split; [exact O|split; [|exact S]]].
  - f_equal. rewrite !answers_app, Aa, Fa. cbn [app answers]. fold h1. rewrite Eh, Ho.
    cbn [app]. do 3 f_equal. lia.
  - rewrite Hh. f_equal. rewrite <- !app_assoc. reflexivity.
Qed.

(** The calls of the client are [l]. *)
Definition good_state (h0 : H) (l : calls_list) (y : tsys X H) : Prop :=
  exists l1 l2 l3, l = l1 ++ l2 ++ l3 /\ inv h0 l1 l2 l3 y.

Lemma ok_small_reqs l1 l2 l3 h : ok (l1 ++ l2 ++ l3) h ->
  Forall small (reqs (1 + Z.of_nat (length l1) + Z.of_nat (length l2)) l3).
Proof.
  intros (_ & _ & _ & S & _). rewrite app_assoc, reqs_app in S.
  apply Forall_app in S as [_ S]. rewrite app_length in S.
  replace (1 + Z.of_nat (length l1 + length l2))
    with (1 + Z.of_nat (length l1) + Z.of_nat (length l2)) in S by lia. exact S.
Qed.

Lemma ok_small_replies l1 l2 l3 h : ok (l1 ++ l2 ++ l3) h ->
  Forall small (replies (1 + Z.of_nat (length l1)) l2 (after env handler l1 h)).
Proof.
  intros (_ & _ & _ & _ & S). rewrite !replies_app in S.
  apply Forall_app in S as [_ S]. apply Forall_app in S as [S _]. exact S.
Qed.

Lemma move {A} n (a b : list A) : (a ++ firstn n b) ++ skipn n b = a ++ b.
Proof. rewrite <- app_assoc, firstn_skipn. reflexivity. Qed.

Lemma good_step h0 l y e : honest e -> good_state h0 l y -> ok (l ++ tcalls [e]) h0 ->
  good_state h0 (l ++ tcalls [e]) (tstep P env handler ms x0 e y).
Proof.
  intros He (l1 & l2 & l3 & -> & I) Hok.
  destruct e as [m args|n| |n| |b| |d]; try contradiction; cbn [tcalls] in *.
  - exists l1, l2, (l3 ++ [(m, args)]). split; [rewrite <- !app_assoc; reflexivity|].
    apply inv_call; [|exact I]. rewrite <- !app_assoc in Hok. exact Hok.
  - rewrite app_nil_r in *. exists l1, l2, l3. split; [reflexivity|].
    destruct I as (U & I). split; [|exact I]. cbn [tstep t_up_in t_up]. rewrite move. exact U.
  - rewrite app_nil_r in *. cbn [tstep]. destruct I as (U & I).
    destruct (take_frame (t_up_in y)) as [[f r]|] eqn:T.
    + destruct (take_stream _ _ _ _ _ (ok_small_reqs _ _ _ _ Hok) U T) as (us & E & R).
      destruct l3 as [|[m args] l3]; [discriminate|]. cbn [reqs] in E.
      assert (Ef : f = req (1 + Z.of_nat (length l1) + Z.of_nat (length l2)) m args)
        by congruence.
      assert (Eu : us = reqs (1 + Z.of_nat (length l1) + Z.of_nat (length l2) + 1) l3)
        by congruence.
      subst f us.
      destruct (inv_serve h0 l1 l2 m args l3 y r Hok (conj U I) T R) as [I' _].
      exists l1, (l2 ++ [(m, args)]), l3. split; [rewrite <- !app_assoc; reflexivity|exact I'].
    + exists l1, l2, l3. split; [reflexivity|].
      replace (tserve P env handler ms x0 y) with y; [exact (conj U I)|].
      unfold tserve. rewrite T. destruct (t_serving y); reflexivity.
  - rewrite app_nil_r in *. exists l1, l2, l3. split; [reflexivity|].
    destruct I as (U & D & I). split; [exact U|]. split; [|exact I].
    cbn [tstep t_down_in t_down]. rewrite move. exact D.
  - rewrite app_nil_r in *. cbn [tstep]. destruct I as (U & D & I).
    destruct (take_frame (t_down_in y)) as [[f r]|] eqn:T.
    + destruct (take_stream _ _ _ _ _ (ok_small_replies _ _ _ _ Hok) D T) as (us & E & R).
      destruct (inv_receive h0 l1 l2 l3 y f us r Hok (conj U (conj D I)) E T R)
        as (l1' & l2' & E' & _ & I' & _).
      exists l1', l2', l3. split; [rewrite !app_assoc, E'; reflexivity|exact I'].
    + exists l1, l2, l3. split; [reflexivity|].
      replace (treceive P env ms x0 y) with y; [exact (conj U (conj D I))|].
      unfold treceive. rewrite T. destruct (k_running (t_cl y)); reflexivity.
Qed.

Lemma tcalls_app a b : tcalls (a ++ b) = tcalls a ++ tcalls b.
Proof.
  induction a as [|e r IH]; [reflexivity|]. cbn [app tcalls]. destruct e; rewrite IH; reflexivity.
Qed.

Lemma good_run h0 es : forall l y, Forall honest es -> good_state h0 l y ->
  ok (l ++ tcalls es) h0 ->
  good_state h0 (l ++ tcalls es) (trun P env handler ms x0 es y).
Proof.
  induction es as [|e r IH]; intros l y Hh G Hok.
  - cbn [tcalls trun fold_left]. rewrite app_nil_r. exact G.
  - inversion Hh; subst. change (trun P env handler ms x0 (e :: r) y)
      with (trun P env handler ms x0 r (tstep P env handler ms x0 e y)).
    change (e :: r) with ([e] ++ r) in *. rewrite tcalls_app in *. rewrite app_assoc in *.
    apply IH; [assumption| |exact Hok].
    apply good_step; [assumption|exact G|]. apply ok_app with (b := tcalls r). exact Hok.
Qed.

Lemma good_start h0 : good_state h0 [] (tstart x0 h0).
Proof.
  exists [], [], []. split; [reflexivity|]. unfold inv, tstart. cbn.
  repeat split. exists x0. split; [reflexivity|exact Hx0].
Qed.

Lemma stream_nil us : Forall small us -> stream us = [] -> us = [].
Proof.
  intros Hs E. destruct us as [|u us]; [reflexivity|]. exfalso. inversion Hs; subst.
  assert (T := take_fr u (stream us) H2). change (fr u ++ stream us) with (stream (u :: us)) in T.
  rewrite E in T. discriminate.
Qed.

Lemma no_replies l : forall q h, replies q l h = [] ->
  forall c, In c l -> m_oneway (fst c) = true.
Proof.
  induction l as [|[m args] r IH]; intros q h E c I; [contradiction|].
  cbn [replies] in E. destruct (handler _ _ h) as [res h'].
  destruct (m_oneway m) eqn:Ho; [|discriminate].
  destruct I as [<-|I]; [exact Ho|]. eapply IH; [exact E|exact I].
Qed.

(** Nothing left anywhere: everything answered. *)
Definition complete (h0 : H) (l : calls_list) (y : tsys X H) : Prop :=
  k_done (t_cl y) = answers env handler 0 l h0 /\ k_reqs (t_cl y) = []
  /\ t_h y = after env handler l h0.

Lemma inv_complete h0 l1 l2 y : inv h0 l1 l2 [] y ->
  replies (1 + Z.of_nat (length l1)) l2 (after env handler l1 h0) = [] ->
  complete h0 (l1 ++ l2) y.
Proof.
  intros (_ & _ & K & _ & Hh & _) E. pose proof (no_replies _ _ _ E) as Ho.
  destruct (one_way_quiet l2 Ho) as (_ & Pn & An).
  unfold complete. rewrite K. cbn [k_done k_reqs]. rewrite app_nil_r, Pn.
  rewrite answers_app, An, app_nil_r. repeat split. exact Hh.
Qed.

Lemma good_drained h0 l y : good_state h0 l y -> ok l h0 ->
  t_up_in y = [] -> t_up y = [] -> t_down_in y = [] -> t_down y = [] ->
  complete h0 l y.
Proof.
  intros (l1 & l2 & l3 & -> & I) Hok A B C D. pose proof I as (U & Dn & _).
  rewrite A, B in U. rewrite C, D in Dn. symmetry in U, Dn.
  apply stream_nil in U; [|eapply ok_small_reqs; exact Hok].
  apply stream_nil in Dn; [|eapply ok_small_replies; exact Hok].
  destruct l3 as [|[m args] l3]; [|discriminate]. rewrite app_nil_r.
  apply inv_complete; assumption.
Qed.

Lemma trun_app a b y : trun P env handler ms x0 (a ++ b) y
  = trun P env handler ms x0 b (trun P env handler ms x0 a y).
Proof. apply fold_left_app. Qed.

Lemma serve_all h0 l3 : forall l1 l2 y, ok (l1 ++ l2 ++ l3) h0 -> inv h0 l1 l2 l3 y ->
  t_up y = [] ->
  inv h0 l1 (l2 ++ l3) [] (trun P env handler ms x0 (repeat TServe (length l3)) y).
Proof.
  induction l3 as [|[m args] l3 IH]; intros l1 l2 y Hok I Hu.
  - rewrite app_nil_r. exact I.
  - cbn [length repeat]. change (TServe :: ?r) with ([TServe] ++ r). rewrite trun_app.
    change (trun P env handler ms x0 [TServe] y) with (tserve P env handler ms x0 y).
    pose proof I as (U & _). rewrite Hu, app_nil_r in U.
    pose proof (ok_small_reqs _ _ _ _ Hok) as Hs. cbn [reqs] in U, Hs.
    destruct (inv_serve h0 l1 l2 m args l3 y _ Hok I (take_whole _ _ _ Hs U)) as [I' Hu'].
    { rewrite Hu, app_nil_r. reflexivity. }
    rewrite Hu in Hu'.
    replace (l2 ++ (m, args) :: l3) with ((l2 ++ [(m, args)]) ++ l3)
      by (rewrite <- app_assoc; reflexivity).
    apply IH; [|exact I'|exact Hu'].
    replace (l1 ++ (l2 ++ [(m, args)]) ++ l3) with (l1 ++ l2 ++ (m, args) :: l3)
      by (rewrite <- !app_assoc; reflexivity). exact Hok.
Qed.

Lemma receive_all h0 n : forall l1 l2 y,
  length (replies (1 + Z.of_nat (length l1)) l2 (after env handler l1 h0)) = n ->
  ok (l1 ++ l2) h0 -> inv h0 l1 l2 [] y -> t_down y = [] ->
  complete h0 (l1 ++ l2) (trun P env handler ms x0 (repeat TReceive n) y).
Proof.
  induction n as [|n IH]; intros l1 l2 y E Hok I Hd.
  - cbn [repeat]. apply inv_complete; [exact I|]. apply length_zero_iff_nil. exact E.
  - cbn [repeat]. change (TReceive :: ?r) with ([TReceive] ++ r). rewrite trun_app.
    change (trun P env handler ms x0 [TReceive] y) with (treceive P env ms x0 y).
    destruct (replies (1 + Z.of_nat (length l1)) l2 (after env handler l1 h0))
      as [|u us] eqn:Er; [discriminate|].
    assert (Hok' : ok (l1 ++ l2 ++ []) h0) by (rewrite app_nil_r; exact Hok).
    pose proof I as (_ & D & _). rewrite Hd, app_nil_r in D.
    pose proof (ok_small_replies _ _ _ _ Hok') as Hs. rewrite Er in D, Hs.
    destruct (inv_receive h0 l1 l2 [] y u us _ Hok' I Er (take_whole _ _ _ Hs D))
      as (l1' & l2' & E' & F' & I' & Hd' & _).
    { rewrite Hd, app_nil_r. reflexivity. }
    rewrite <- E'. apply IH; [|rewrite E'; exact Hok|exact I'|congruence].
    assert (Lr : forall l q h, length (replies q l h) = futures l).
    { clear. induction l as [|[m args] r IH]; intros q h; [reflexivity|].
      cbn [replies]. unfold futures. cbn [filter]. unfold two_way at 1. cbn [fst].
      destruct (handler _ _ h). destruct (m_oneway m); cbn [negb length]; rewrite IH; reflexivity. }
    rewrite Lr. rewrite <- Er, Lr in E.
    assert (E2 : futures (l1' ++ l2') = futures (l1 ++ l2)) by (rewrite E'; reflexivity).
    rewrite !futures_app in E2. lia.
Qed.

Lemma good_drain h0 l y : good_state h0 l y -> ok l h0 ->
  exists es, Forall honest es /\ tcalls es = []
    /\ complete h0 l (trun P env handler ms x0 es y).
Proof.
  intros (l1 & l2 & l3 & -> & I) Hok.
  set (y1 := trun P env handler ms x0 [TUp (length (t_up y))] y).
  assert (I1 : inv h0 l1 l2 l3 y1).
  { destruct I as (U & I). split; [|exact I]. unfold y1. cbn [trun fold_left tstep t_up_in t_up].
    rewrite move. exact U. }
  assert (U1 : t_up y1 = []) by (unfold y1; cbn [trun fold_left tstep t_up]; apply skipn_all).
  pose proof (serve_all h0 l3 l1 l2 y1 Hok I1 U1) as I2.
  set (y2 := trun P env handler ms x0 (repeat TServe (length l3)) y1) in *.
  set (y3 := trun P env handler ms x0 [TDown (length (t_down y2))] y2).
  assert (I3 : inv h0 l1 (l2 ++ l3) [] y3).
  { destruct I2 as (U & D & I2). split; [exact U|]. split; [|exact I2].
    unfold y3. cbn [trun fold_left tstep t_down_in t_down]. rewrite move. exact D. }
  assert (D3 : t_down y3 = []) by (unfold y3; cbn [trun fold_left tstep t_down]; apply skipn_all).
  pose proof (receive_all h0 _ l1 (l2 ++ l3) y3 eq_refl Hok I3 D3) as C.
  match type of C with complete _ _ (trun _ _ _ _ _ ?r _) => set (rs := r) in * end.
  exists ([TUp (length (t_up y))] ++ repeat TServe (length l3) ++ [TDown (length (t_down y2))] ++ rs).
  assert (Rh : forall e n, honest e -> Forall honest (repeat e n)).
  { intros e n He. induction n; constructor; assumption. }
  assert (Rc : forall e n, tcalls [e] = [] -> tcalls (repeat e n) = []).
  { intros e n He. induction n as [|n IH]; [reflexivity|]. cbn [repeat].
    change (e :: repeat e n) with ([e] ++ repeat e n). rewrite tcalls_app, He. exact IH. }
  split; [|split].
  - apply Forall_app. split; [exact (Rh (TUp _) 1%nat Logic.I)|].
    apply Forall_app. split; [apply Rh; exact Logic.I|].
    apply Forall_app. split; [exact (Rh (TDown _) 1%nat Logic.I)|apply Rh; exact Logic.I].
  - rewrite !tcalls_app, Rc by reflexivity. unfold rs. rewrite Rc by reflexivity. reflexivity.
  - rewrite !trun_app. exact C.
Qed.

Lemma good_prefix h0 l y : good_state h0 l y ->
  exists served answered, (served <= length l)%nat
    /\ t_h y = after env handler (firstn served l) h0
    /\ k_done (t_cl y) = firstn answered (answers env handler 0 l h0)
    /\ k_made (t_cl y) = made_of 0 l /\ k_running (t_cl y) = true
    /\ t_serving y = true.
Proof.
  intros (l1 & l2 & l3 & -> & _ & _ & K & _ & Hh & S).
  exists (length (l1 ++ l2)), (length (answers env handler 0 l1 h0)).
  split; [rewrite !app_length; lia|].
  rewrite K. cbn [k_done k_made k_running].
  split; [rewrite Hh; f_equal; rewrite app_assoc, first_exact by reflexivity; reflexivity|].
  split; [rewrite answers_app, first_exact by reflexivity; reflexivity|].
  repeat split. exact S.
Qed.
End Run.

(** * Any execution *)

Lemma future_seq_app a : forall q b d, (d < futures a)%nat ->
  future_seq q (a ++ b) d = future_seq q a d.
Proof.
  induction a as [|[m args] r IH]; intros q b d Hd; [cbn in Hd; lia|].
  rewrite futures_cons in Hd. cbn [app future_seq].
  destruct (m_oneway m); [apply IH; exact Hd|].
  destruct d as [|d]; [reflexivity|]. apply IH. lia.
Qed.

Lemma future_seq_last a : forall q m args, m_oneway m = false ->
  future_seq q (a ++ [(m, args)]) (futures a) = Some (q + Z.of_nat (length a)).
Proof.
  induction a as [|[m' args'] r IH]; intros q m args Ho.
  - cbn [app future_seq futures filter length]. rewrite Ho, Z.add_0_r. reflexivity.
  - rewrite futures_cons. cbn [app future_seq length].
    destruct (m_oneway m'); rewrite IH by exact Ho; f_equal; lia.
Qed.

(** [l]: the calls made. *)
Record kinv (l : list (method * list (option value))) (k : tclient) : Prop := {
  ki_seq : k_seq k = Z.of_nat (length l);
  ki_next : k_next k = futures l;
  ki_reqs : forall q d, In (q, d) (k_reqs k) ->
    (d < futures l)%nat /\ future_seq 1 l d = Some q /\ q <= Z.of_nat (length l);
  ki_nodup : NoDup (map snd (k_reqs k));
  ki_fresh : k_running k = true -> forall d, In d (map snd (k_reqs k)) ->
    ~ In d (map fst (k_done k));
  ki_all : k_running k = true -> forall d, (d < futures l)%nat ->
    In d (map snd (k_reqs k)) \/ In d (map fst (k_done k));
  ki_done : NoDup (map fst (k_done k));
  ki_known : forall d, In d (map fst (k_done k)) -> (d < futures l)%nat;
  ki_cancel : forall d, In d (map fst (k_done k)) -> ~ In d (k_cancelled k) }.

Lemma existsb_nat d l : existsb (Nat.eqb d) l = true <-> In d l.
Proof.
  rewrite existsb_exists. split.
  - intros (x & I & E). apply Nat.eqb_eq in E. subst x. exact I.
  - intros I. exists d. split; [exact I|apply Nat.eqb_refl].
Qed.

Lemma is_done_false d k : is_done d k = false <->
  ~ In d (map fst (k_done k)) /\ ~ In d (k_cancelled k).
Proof.
  unfold is_done. rewrite orb_false_iff, <- !not_true_iff_false, !existsb_nat. reflexivity.
Qed.

Lemma pop_spec q l d l' : pop q l = Some (d, l') ->
  exists a b, l = a ++ (q, d) :: b /\ l' = a ++ b.
Proof.
  revert l'. induction l as [|[k e] r IH]; intros l' E; [discriminate|]. cbn [pop] in E.
  destruct (Z.eqb_spec k q) as [->|Hn].
  - exists [], r. split; cbn [app]; congruence.
  - destruct (pop q r) as [[e' r']|]; [|discriminate].
    destruct (IH r') as (a & b & -> & ->); [congruence|].
    exists ((k, e) :: a), b. split; [reflexivity|]. cbn [app]. congruence.
Qed.

Lemma kinv_start : kinv [] tc_start.
Proof.
  constructor; try reflexivity; cbn; try (constructor); try tauto; try lia.
Qed.

(** Fields the invariant does not speak of. *)
Lemma kinv_same l k k' : kinv l k -> k_seq k' = k_seq k -> k_next k' = k_next k ->
  k_reqs k' = k_reqs k -> (k_running k' = true -> k_running k = true) ->
  k_done k' = k_done k -> k_cancelled k' = k_cancelled k -> kinv l k'.
Proof.
  intros [] E1 E2 E3 E4 E5 E6.
  constructor; rewrite ?E1, ?E2, ?E3, ?E5, ?E6; auto.
Qed.

Lemma put_keys q d l k : (forall k' e, In (k', e) l -> k' <= k) -> k < q ->
  put q d l = l ++ [(q, d)].
Proof. intros B Hq. apply put_fresh. intros k' e I. apply B in I. lia. Qed.

Section Any.
Context {X H : Type}.
Variable P : proto X.
Variable env : schema.
Variable handler : list Z -> list (option value) -> H -> hres * H.
Variable ms : list method.
Variable x0 : X.

Lemma kinv_call l k m args : kinv l k ->
  kinv (l ++ [(m, args)]) (fst (tcall P env x0 m args k)).
Proof.
  intros I. pose proof (ki_seq _ _ I) as Es. pose proof (ki_next _ _ I) as En.
  assert (Hb : forall q d, In (q, d) (k_reqs k) -> q <= Z.of_nat (length l)).
  { intros q d Hq. apply (ki_reqs _ _ I) in Hq. tauto. }
  assert (K : kinv (l ++ [(m, args)])
    (mktc (k_seq k + 1) (if m_oneway m then k_next k else S (k_next k))
       (if m_oneway m then k_reqs k else put (k_seq k + 1) (k_next k) (k_reqs k))
       (k_running k) (k_open k) (k_wbuf k) (k_made k) (k_done k) (k_cancelled k))).
  { destruct I. rewrite Es, En. destruct (m_oneway m) eqn:Ho.
    - constructor; cbn [k_seq k_next k_reqs k_running k_done k_cancelled];
        rewrite ?app_length, ?futures_app, ?futures_one, ?Ho, ?Nat.add_0_r; auto.
      + cbn [length]. lia.
      + intros q d Hq. destruct (ki_reqs0 q d Hq) as (A & B & C).
        rewrite future_seq_app by exact A. repeat split; [exact A|exact B|cbn [length]; lia].
    - rewrite (put_keys _ _ _ (Z.of_nat (length l)) Hb) by lia.
      constructor; cbn [k_seq k_next k_reqs k_running k_done k_cancelled];
        rewrite ?app_length, ?futures_app, ?futures_one, ?Ho, ?map_app; cbn [length map snd]; auto.
      + lia.
      + lia.
      + intros q d Hq. apply in_app_or in Hq as [Hq|[Hq|[]]].
        * destruct (ki_reqs0 q d Hq) as (A & B & C).
          rewrite future_seq_app by exact A. repeat split; [lia|exact B|lia].
        * assert (d = futures l) by congruence. assert (q = Z.of_nat (length l) + 1) by congruence.
          subst d q. rewrite future_seq_last by exact Ho. repeat split; [lia|f_equal; lia|lia].
      + apply NoDup_snoc; [exact ki_nodup0|]. intros C. apply in_map_iff in C as ([q d] & E & C).
        cbn [snd] in E. subst d. apply ki_reqs0 in C. lia.
      + intros R d Hd. apply in_app_or in Hd as [Hd|[<-|[]]]; [exact (ki_fresh0 R d Hd)|].
        intros C. apply ki_known0 in C. lia.
      + intros R d Hd. destruct (Nat.eq_dec d (futures l)) as [->|Hn].
        * left. apply in_or_app. right. left. reflexivity.
        * destruct (ki_all0 R d) as [A|A]; [lia| |right; exact A].
          left. apply in_or_app. left. exact A.
      + intros d Hd. apply ki_known0 in Hd. lia. }
  unfold tcall. destruct (twrite_call _ _ _ _ _ _) as [[u|e|] s].
  - destruct (tframe (out s)); [destruct (k_open k)|]; cbn [fst];
      (eapply kinv_same; [exact K| | | | | |]; try reflexivity; exact (fun H => H)).
  - cbn [fst]. eapply kinv_same; [exact K| | | | | |]; try reflexivity. exact (fun H => H).
  - cbn [fst]. eapply kinv_same; [exact K| | | | | |]; try reflexivity. exact (fun H => H).
Qed.

Lemma kinv_reqs_sub l k a q d b : kinv l k -> k_reqs k = a ++ (q, d) :: b ->
  (forall x, In x (a ++ b) -> In x (k_reqs k))
  /\ NoDup (map snd (a ++ b)) /\ ~ In d (map snd (a ++ b)) /\ In (q, d) (k_reqs k).
Proof.
  intros I E. pose proof (ki_nodup _ _ I) as N. rewrite E in *.
  split; [|split; [|split]].
  - intros x Hx. apply in_app_or in Hx as [Hx|Hx]; apply in_or_app;
      [left; exact Hx|right; right; exact Hx].
  - rewrite map_app in *. cbn [map snd] in N. apply NoDup_remove_1 in N. exact N.
  - rewrite map_app in *. cbn [map snd] in N. apply NoDup_remove_2 in N. exact N.
  - apply in_or_app. right. left. reflexivity.
Qed.

Lemma kinv_frame l k f : kinv l k -> kinv l (on_frame P env ms x0 f k).
Proof.
  intros I. unfold on_frame.
  assert (En : kinv l (ended k)).
  { eapply kinv_same; [exact I| | | | | |]; try reflexivity. intros C. discriminate C. }
  destruct (readMessageBegin P _) as [[[[fname mtype] q]|e|] s]; try exact En.
  destruct (lookup _ _) as [m|]; [|exact En].
  destruct (pop q (k_reqs k)) as [[d r]|] eqn:Ep; [|exact I].
  destruct (pop_spec _ _ _ _ Ep) as (a & b & Er & ->).
  destruct (kinv_reqs_sub _ _ _ _ _ _ I Er) as (Sub & Nd & Nin & Hin).
  destruct (ki_reqs _ _ I _ _ Hin) as (Hd & _).
  unfold settle, is_done. unfold with_reqs at 1 2.
  cbn [k_done k_cancelled]. fold (is_done d k).
  destruct (is_done d k) eqn:Ed; destruct I.
  - constructor; cbn [ended with_reqs k_seq k_next k_reqs k_running k_done k_cancelled]; auto;
      discriminate.
  - apply is_done_false in Ed as [D1 D2].
    constructor; cbn [ended with_reqs k_seq k_next k_reqs k_running k_done k_cancelled];
      rewrite ?map_app; cbn [map fst]; auto.
    + rewrite <- map_app. exact Nd.
    + intros R e He C. rewrite <- map_app in He. apply in_app_or in C as [C|[<-|[]]].
      * apply (ki_fresh0 R e); [|exact C]. apply in_map_iff in He as (x & Ex & Hx).
        apply in_map_iff. exists x. split; [exact Ex|apply Sub; exact Hx].
      * exact (Nin He).
    + intros R e He. destruct (Nat.eq_dec e d) as [->|Hn].
      * right. apply in_or_app. right. left. reflexivity.
      * destruct (ki_all0 R e He) as [A|A].
        -- left. rewrite <- map_app. rewrite Er, map_app in A. cbn [map snd] in A.
           rewrite map_app. apply in_app_or in A as [A|[A|A]]; [|congruence|];
             apply in_or_app; tauto.
        -- right. apply in_or_app. left. exact A.
    + apply NoDup_snoc; assumption.
    + intros e He. apply in_app_or in He as [He|[<-|[]]]; [auto|exact Hd].
    + intros e He. apply in_app_or in He as [He|[<-|[]]]; [auto|exact D2].
Qed.

Definition failed (e : exn) (l : list (Z * nat)) : list (nat * outcome cresult) :=
  map (fun x => (snd x, Raise e)) l.

Lemma failed_fst e l : map fst (failed e l) = map snd l.
Proof. unfold failed. rewrite map_map. reflexivity. Qed.

Lemma fail_all_spec e l : forall k b k', fail_all l e k = (b, k') ->
  exists l0 l1, l = l0 ++ l1
    /\ k' = mktc (k_seq k) (k_next k) (k_reqs k) (k_running k) (k_open k) (k_wbuf k)
              (k_made k) (k_done k ++ failed e l0) (k_cancelled k)
    /\ (b = true -> l1 = [])
    /\ (forall d, In d (map snd l0) -> ~ In d (map fst (k_done k)) /\ ~ In d (k_cancelled k)).
Proof.
  induction l as [|[q d] r IH]; intros k b k' E; cbn [fail_all] in E.
  - exists [], []. split; [reflexivity|]. split; [|split; [reflexivity|intros d []]].
    cbn. rewrite app_nil_r. destruct k. cbn. congruence.
  - unfold settle in E. destruct (is_done d k) eqn:Ed.
    + exists [], ((q, d) :: r). split; [reflexivity|]. split; [|split; [intros; congruence|intros c []]].
      cbn. rewrite app_nil_r. destruct k. cbn. congruence.
    + apply is_done_false in Ed. apply IH in E as (l0 & l1 & -> & -> & B & F).
      exists ((q, d) :: l0), l1. split; [reflexivity|].
      cbn [k_seq k_next k_reqs k_running k_open k_wbuf k_made k_done k_cancelled] in *.
      split; [rewrite <- app_assoc; reflexivity|]. split; [exact B|].
      intros c [<-|Hc]; [exact Ed|]. destruct (F c Hc) as [A C]. split; [|exact C].
      intros C'. apply A. rewrite map_app. apply in_or_app. left. exact C'.
Qed.

Lemma fail_all_ok e l : forall k, NoDup (map snd l) -> k_cancelled k = [] ->
  (forall d, In d (map snd l) -> ~ In d (map fst (k_done k))) ->
  fst (fail_all l e k) = true.
Proof.
  induction l as [|[q d] r IH]; intros k N C F; [reflexivity|]. cbn [fail_all map snd] in *.
  inversion N as [|? ? Nd Nr]; subst.
  unfold settle. replace (is_done d k) with false.
  - apply IH; cbn [k_cancelled k_done]; [exact Nr|exact C|].
    intros c Hc C'. rewrite map_app in C'. apply in_app_or in C' as [C'|[C'|[]]].
    + apply (F c); [right; exact Hc|exact C'].
    + cbn [fst] in C'. subst c. exact (Nd Hc).
  - symmetry. apply is_done_false. rewrite C. split; [apply F; left; reflexivity|intros []].
Qed.

Lemma kinv_lost l k : kinv l k -> kinv l (lost k).
Proof.
  intros I. unfold lost.
  assert (I0 : kinv l (stream_closed k)).
  { eapply kinv_same; [exact I| | | | | |]; try reflexivity. exact (fun H => H). }
  destruct (k_running (stream_closed k)) eqn:R; [|exact I0].
  destruct (fail_all _ _ _) as [b k'] eqn:Ef.
  destruct (fail_all_spec _ _ _ _ _ Ef) as (l0 & l1 & El & -> & B & F).
  cbn [k_reqs stream_closed k_running k_done k_cancelled] in *.
  assert (Hsub : forall d, In d (map snd l0) -> In d (map snd (k_reqs k))).
  { intros d Hd. rewrite El, map_app. apply in_or_app. left. exact Hd. }
  assert (N0 : NoDup (map snd l0)).
  { pose proof (ki_nodup _ _ I) as N. rewrite El, map_app in N.
    clear -N. induction (map snd l0) as [|x r IH]; [constructor|]. cbn [app] in N.
    inversion N; subst. constructor; [|apply IH; assumption].
    intros C. apply H1. apply in_or_app. left. exact C. }
  assert (K : forall rs, (forall x, In x rs -> In x (k_reqs k)) -> NoDup (map snd rs) ->
    kinv l (mktc (k_seq k) (k_next k) rs false false (k_wbuf k) (k_made k)
              (k_done k ++ failed (ETransport TT_END_OF_FILE) l0) (k_cancelled k))).
  { intros rs Hrs Nrs. destruct I.
    constructor; cbn [k_seq k_next k_reqs k_running k_done k_cancelled];
      rewrite ?map_app, ?failed_fst; auto; try discriminate.
    - apply NoDup_app_; [exact ki_done0|rewrite ?failed_fst; exact N0|]. intros d H1 H2.
      rewrite ?failed_fst in H2. destruct (F d H2) as [A _]. exact (A H1).
    - intros d Hd. apply in_app_or in Hd as [Hd|Hd]; [auto|].
      apply Hsub in Hd. apply in_map_iff in Hd as ([q c] & Ec & Hc). cbn [snd] in Ec. subst c.
      apply ki_reqs0 in Hc. tauto.
    - intros d Hd. apply in_app_or in Hd as [Hd|Hd]; [auto|]. apply F. exact Hd. }
  destruct b; unfold ended, with_reqs;
    cbn [k_seq k_next k_reqs k_running k_open k_wbuf k_made k_done k_cancelled stream_closed].
  - apply K; [intros x []|constructor].
  - apply K; [auto|exact (ki_nodup _ _ I)].
Qed.

(** With nobody's Future cancelled, a lost connection fails every pending one. *)
Lemma lost_all l k : kinv l k -> k_running k = true -> k_cancelled k = [] ->
  k_done (lost k) = k_done k ++ failed (ETransport TT_END_OF_FILE) (k_reqs k)
  /\ k_reqs (lost k) = []
  /\ forall d, (d < k_next k)%nat -> In d (map fst (k_done (lost k))).
Proof.
  intros I R C. unfold lost. cbn [stream_closed k_running k_reqs]. rewrite R.
  destruct (fail_all _ _ _) as [b k'] eqn:Ef.
  assert (b = true).
  { change b with (fst (b, k')). rewrite <- Ef. apply fail_all_ok.
    - exact (ki_nodup _ _ I).
    - exact C.
    - exact (ki_fresh _ _ I R). }
  subst b. destruct (fail_all_spec _ _ _ _ _ Ef) as (l0 & l1 & El & -> & B & _).
  rewrite (B eq_refl), app_nil_r in El. subst l0.
  cbn [k_done k_reqs ended with_reqs stream_closed]. split; [reflexivity|]. split; [reflexivity|].
  intros d Hd. rewrite (ki_next _ _ I) in Hd. rewrite map_app, failed_fst.
  apply in_or_app. destruct (ki_all _ _ I R d Hd); tauto.
Qed.

Lemma kinv_step l y e : kinv l (t_cl y) ->
  kinv (l ++ tcalls [e]) (t_cl (tstep P env handler ms x0 e y)).
Proof.
  intros I. destruct e as [m args|n| |n| |b| |d]; cbn [tcalls tstep]; rewrite ?app_nil_r;
    try exact I.
  - pose proof (kinv_call l (t_cl y) m args I) as K.
    destruct (tcall P env x0 m args (t_cl y)) as [k b]. exact K.
  - unfold tserve. destruct (t_serving y); [|exact I].
    destruct (take_frame (t_up_in y)) as [[f r]|]; [|exact I].
    destruct (process _ _ _ _ _ _) as [[u|e|] s]; try exact I.
    destruct (tframes (s_sent s)); exact I.
  - unfold treceive. destruct (k_running (t_cl y)); [|exact I].
    destruct (take_frame (t_down_in y)) as [[f r]|]; [|exact I].
    apply kinv_frame. exact I.
  - apply kinv_lost. exact I.
  - destruct (is_done d (t_cl y)) eqn:Ed; cbn [orb]; [exact I|].
    destruct (d <? k_next (t_cl y))%nat; cbn [negb]; [|exact I].
    apply is_done_false in Ed as [D1 D2]. destruct I.
    constructor; cbn [set_cl t_cl k_seq k_next k_reqs k_running k_done k_cancelled]; auto.
    intros c Hc C. apply in_app_or in C as [C|[<-|[]]]; [exact (ki_cancel0 c Hc C)|exact (D1 Hc)].
Qed.

Lemma kinv_run es : forall l y, kinv l (t_cl y) ->
  kinv (l ++ tcalls es) (t_cl (trun P env handler ms x0 es y)).
Proof.
  induction es as [|e r IH]; intros l y I.
  - cbn [tcalls]. rewrite app_nil_r. exact I.
  - change (trun P env handler ms x0 (e :: r) y)
      with (trun P env handler ms x0 r (tstep P env handler ms x0 e y)).
    change (e :: r) with ([e] ++ r). rewrite tcalls_app, app_assoc.
    apply IH. apply kinv_step. exact I.
Qed.

(** What one event does to the settled Futures. *)
Lemma done_step l y e : kinv l (t_cl y) ->
  k_done (t_cl (tstep P env handler ms x0 e y)) = k_done (t_cl y)
  \/ (exists f rest fname mtype q s d r, e = TReceive
      /\ take_frame (t_down_in y) = Some (f, rest)
      /\ readMessageBegin P (mkst x0 f [] 0) = (Ok (fname, mtype, q), s)
      /\ future_seq 1 l d = Some q /\ In (q, d) (k_reqs (t_cl y))
      /\ k_done (t_cl (tstep P env handler ms x0 e y)) = k_done (t_cl y) ++ [(d, r)])
  \/ (e = TLost /\ exists l0 l1, k_reqs (t_cl y) = l0 ++ l1
      /\ k_done (t_cl (tstep P env handler ms x0 e y))
         = k_done (t_cl y) ++ failed (ETransport TT_END_OF_FILE) l0).
Proof.
  intros I. destruct e as [m args|n| |n| |b| |d]; cbn [tstep]; try (left; reflexivity).
  - left. unfold tcall. destruct (twrite_call _ _ _ _ _ _) as [[u|e|] s]; try reflexivity.
    destruct (tframe (out s)); [destruct (k_open (t_cl y))|]; reflexivity.
  - left. unfold tserve. destruct (t_serving y); [|reflexivity].
    destruct (take_frame (t_up_in y)) as [[f r]|]; [|reflexivity].
    destruct (process _ _ _ _ _ _) as [[u|e|] s]; try reflexivity.
    destruct (tframes (s_sent s)); reflexivity.
  - unfold treceive. destruct (k_running (t_cl y)); [|left; reflexivity].
    destruct (take_frame (t_down_in y)) as [[f rest]|] eqn:T; [|left; reflexivity].
    cbn [t_cl]. unfold on_frame.
    destruct (readMessageBegin P _) as [[[[fname mtype] q]|e|] s] eqn:Em;
      try (left; reflexivity).
    destruct (lookup _ _) as [m|]; [|left; reflexivity].
    destruct (pop q (k_reqs (t_cl y))) as [[d r]|] eqn:Ep; [|left; reflexivity].
    destruct (pop_spec _ _ _ _ Ep) as (a & b & Er & ->).
    assert (Hin : In (q, d) (k_reqs (t_cl y)))
      by (rewrite Er; apply in_or_app; right; left; reflexivity).
    unfold settle. destruct (is_done d _); [left; reflexivity|].
    right. left. exists f, rest, fname, mtype, q, s, d. eexists.
    split; [reflexivity|]. split; [reflexivity|]. split; [exact Em|].
    split; [apply (ki_reqs _ _ I _ _ Hin)|]. split; [exact Hin|]. reflexivity.
  - unfold lost. cbn [set_cl t_cl]. destruct (k_running (stream_closed (t_cl y))); [|left; reflexivity].
    destruct (fail_all _ _ _) as [b k'] eqn:Ef.
    destruct (fail_all_spec _ _ _ _ _ Ef) as (l0 & l1 & El & -> & _).
    right. right. split; [reflexivity|]. exists l0, l1. split; [exact El|].
    destruct b; reflexivity.
  - left. destruct (is_done d (t_cl y) || _); reflexivity.
Qed.

(** Once the receiving coroutine has ended no Future is ever settled. *)
Lemma ended_step y e : k_running (t_cl y) = false ->
  let y' := tstep P env handler ms x0 e y in
  k_running (t_cl y') = false /\ k_done (t_cl y') = k_done (t_cl y).
Proof.
  intros R. destruct e as [m args|n| |n| |b| |d]; cbn [tstep]; cbv zeta;
    try (split; [exact R|reflexivity]).
  - unfold tcall. destruct (twrite_call _ _ _ _ _ _) as [[u|e|] s];
      try (split; [exact R|reflexivity]).
    destruct (tframe (out s)); [destruct (k_open (t_cl y))|]; (split; [exact R|reflexivity]).
  - unfold tserve. destruct (t_serving y); [|split; [exact R|reflexivity]].
    destruct (take_frame (t_up_in y)) as [[f r]|]; [|split; [exact R|reflexivity]].
    destruct (process _ _ _ _ _ _) as [[u|e|] s]; try (split; [exact R|reflexivity]).
    destruct (tframes (s_sent s)); (split; [exact R|reflexivity]).
  - unfold treceive. rewrite R. split; [exact R|reflexivity].
  - unfold lost. cbn [set_cl t_cl stream_closed k_running k_done]. rewrite R.
    split; [exact R|reflexivity].
  - destruct (is_done d (t_cl y) || _); (split; [exact R|reflexivity]).
Qed.

Lemma ended_run es : forall y, k_running (t_cl y) = false ->
  k_done (t_cl (trun P env handler ms x0 es y)) = k_done (t_cl y).
Proof.
  induction es as [|e r IH]; intros y R; [reflexivity|].
  change (trun P env handler ms x0 (e :: r) y)
    with (trun P env handler ms x0 r (tstep P env handler ms x0 e y)).
  destruct (ended_step y e R) as [R' D]. rewrite IH by exact R'. exact D.
Qed.

(** A call on a closed stream raises. *)
Lemma closed_call y m args : k_open (t_cl y) = false ->
  exists r, k_made (t_cl (tstep P env handler ms x0 (TCall m args) y)) = k_made (t_cl y) ++ [r]
    /\ forall d, r <> Ok d.
Proof.
  intros O. cbn [tstep]. unfold tcall.
  destruct (twrite_call _ _ _ _ _ _) as [[u|e|] s].
  - destruct (tframe (out s)); [rewrite O|]; eexists; (split; [reflexivity|discriminate]).
  - eexists; (split; [reflexivity|discriminate]).
  - eexists; (split; [reflexivity|discriminate]).
Qed.
End Any.

(** Every message of the calls [l] and of their answers fits a frame; [enc] is
    the encoding of a message. *)
Section Sized.
Context {H : Type}.
Variable enc : list Z -> Z -> Z -> schema -> nat -> value -> list byte.
Variable env : schema.
Variable handler : list Z -> list (option value) -> H -> hres * H.

Fixpoint sized (q : Z) (l : list (method * list (option value))) (h : H) : Prop :=
  match l with
  | [] => True
  | (m, args) :: r =>
      let '(res, h') := handler (m_name m) (received env (m_args m) args) h in
      Z.of_nat (length (enc (m_name m) (if m_oneway m then ONEWAY else CALL) q env
                          (m_args m) (VStruct (m_args m) args))) < 2147483648
      /\ (m_oneway m = false -> forall t e n v, reply_for env m res = Some (t, e, n, v) ->
            Z.of_nat (length (enc (m_name m) t q e n v)) < 2147483648)
      /\ sized (q + 1) r h'
  end.
End Sized.

Lemma sized_small {X} {P : proto X} {SL CL : Z} (L : mlaws P SL CL) env {H}
    (handler : list Z -> list (option value) -> H -> hres * H) enc :
  (forall name t q e n v, message L name t q e n v = enc name t q e n v) ->
  forall l q h, sized enc env handler q l h ->
  Forall small (reqs L env q l) /\ Forall small (replies L env handler q l h).
Proof.
  intros E l. induction l as [|[m args] r IH]; intros q h S; [split; constructor|].
  cbn [sized reqs replies] in *. destruct (handler _ _ h) as [res h'].
  destruct S as (A & B & C). destruct (IH _ _ C) as [D F].
  split.
  - constructor; [unfold small, req; rewrite E; exact A|exact D].
  - destruct (m_oneway m); [exact F|]. constructor; [|exact F]. unfold small, rep.
    destruct (reply_for env m res) as [[[[t e] n] v]|] eqn:Er; [|cbn; lia].
    rewrite E. apply (B eq_refl). reflexivity.
Qed.
