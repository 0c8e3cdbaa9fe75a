(** Facts about the Twisted client model. *)
From Coq Require Import ZArith List Bool Lia Permutation.
From Coq Require Import Init.Byte.
From Coq Require Import ZifyBool ZifyNat ZifyN.
From Verif Require Import Base Bytes Proto Rpc Twisted.
Import ListNotations.
Open Scope Z_scope.
Open Scope list_scope.

Definition issued (l : list clog) : list (Z * nat) :=
  flat_map (fun e => match e with LIssue q d => [(q, d)] | _ => [] end) l.
Definition fired (l : list clog) : list (nat * firing) :=
  flat_map (fun e => match e with LFire d f => [(d, f)] | _ => [] end) l.

Lemma issued_app a b : issued (a ++ b) = issued a ++ issued b.
Proof. apply flat_map_app. Qed.
Lemma fired_app a b : fired (a ++ b) = fired a ++ fired b.
Proof. apply flat_map_app. Qed.

(** ** Dictionary *)
Lemma pop_some q l d r : pop q l = Some (d, r) ->
  exists a b, l = a ++ (q, d) :: b /\ r = a ++ b /\ ~ In q (map fst a).
Proof.
  revert d r. induction l as [|[k e] l IH]; intros d r E; cbn [pop] in E; [discriminate|].
  destruct (k =? q) eqn:Ek.
  - injection E as <- <-. apply Z.eqb_eq in Ek. subst k. exists [], l. repeat split. intros [].
  - destruct (pop q l) as [[e' r']|]; [|discriminate]. injection E as <- <-.
    destruct (IH e' r' eq_refl) as (a & b & -> & -> & Hn). exists ((k, e) :: a), b.
    repeat split. intros [E|E]; [|exact (Hn E)]. cbn in E. lia.
Qed.

Lemma pop_none q l : pop q l = None -> ~ In q (map fst l).
Proof.
  induction l as [|[k e] l IH]; cbn [pop]; intros E; [intros []|].
  destruct (k =? q) eqn:Ek; [discriminate|].
  destruct (pop q l) as [[e' r']|]; [discriminate|].
  intros [K|K]; [cbn in K; lia|]. apply IH; auto.
Qed.

Lemma popitem_some l d r : popitem l = Some (d, r) -> exists q, l = r ++ [(q, d)].
Proof.
  unfold popitem. destruct (rev l) as [|[q e] t] eqn:E; [discriminate|].
  intros K. injection K as <- <-. exists q. rewrite <- (rev_involutive l), E. reflexivity.
Qed.

Lemma popitem_none l : popitem l = None -> l = [].
Proof.
  unfold popitem. destruct (rev l) as [|[q e] t] eqn:E; [|discriminate].
  intros _. rewrite <- (rev_involutive l), E. reflexivity.
Qed.

Lemma put_fresh q d l : ~ In q (map fst l) -> put q d l = l ++ [(q, d)].
Proof.
  intros H. unfold put. destruct (existsb _ l) eqn:E; [|reflexivity].
  apply existsb_exists in E. destruct E as ([k e] & Hin & Ek). cbn in Ek.
  apply Z.eqb_eq in Ek. subst k. exfalso. apply H. apply in_map_iff. exists (q, e). auto.
Qed.

Lemma pop_last q d l : ~ In q (map fst l) -> pop q (l ++ [(q, d)]) = Some (d, l).
Proof.
  induction l as [|[k e] l IH]; intros H; cbn [app pop].
  - rewrite Z.eqb_refl. reflexivity.
  - cbn in H. destruct (k =? q) eqn:Ek; [exfalso; lia|]. rewrite IH; [reflexivity|tauto].
Qed.

(** ** Invariant *)
Definition seqid_of (d : nat) : Z := Z.of_nat (S d).

Record inv (s : client) : Prop := {
  i_seq : c_seq s = Z.of_nat (c_next s);
  i_issued : issued (c_log s) = map (fun d => (seqid_of d, d)) (seq 0 (c_next s));
  i_keys : forall q d, In (q, d) (c_reqs s) -> q = seqid_of d /\ (d < c_next s)%nat;
  i_nodup : NoDup (map snd (c_reqs s) ++ map fst (fired (c_log s)));
  i_fired : forall d f, In (d, f) (fired (c_log s)) -> (d < c_next s)%nat;
  i_match : forall d q v, In (d, FReply q v) (fired (c_log s)) -> q = seqid_of d;
  i_dead : c_alive s = false -> c_reqs s = [] }.

Lemma inv0 : inv client0.
Proof. split; cbn; try reflexivity; try tauto. constructor. Qed.

(** Taking a request out and firing it. *)
Lemma inv_fire s d f l l1 l2 q : inv s -> c_alive s = true ->
  c_reqs s = l1 ++ (q, d) :: l2 -> l = l1 ++ l2 ->
  (forall q' v, f = FReply q' v -> q' = q) ->
  inv (logc (LFire d f) (set_reqs l s)).
Proof.
  intros [I1 I2 I3 I4 I5 I6 I7] Ha E -> Hf.
  destruct (I3 q d) as [Hq Hd]; [rewrite E; apply in_elt|].
  split; cbn [logc set_reqs c_seq c_next c_reqs c_alive c_log].
  - exact I1.
  - rewrite issued_app. cbn. rewrite app_nil_r. exact I2.
  - intros q' d' Hi. apply I3. rewrite E. apply in_app_or in Hi. apply in_or_app.
    cbn. tauto.
  - rewrite fired_app, map_app. cbn. rewrite E, map_app in I4. cbn in I4.
    rewrite map_app, app_assoc.
    apply (Permutation_NoDup (l := (map snd l1 ++ d :: map snd l2) ++ map fst (fired (c_log s))));
      [|exact I4].
    etransitivity; [|apply Permutation_cons_append]. cbn [fst].
    change (d :: (map snd l1 ++ map snd l2) ++ map fst (fired (c_log s)))
      with ((d :: (map snd l1 ++ map snd l2)) ++ map fst (fired (c_log s))).
    apply Permutation_app_tail. symmetry. apply Permutation_middle.
  - intros d' f' Hi. rewrite fired_app in Hi. apply in_app_or in Hi. destruct Hi as [Hi|[Hi|[]]].
    + apply (I5 d' f' Hi).
    + injection Hi as <- <-. exact Hd.
  - intros d' q' v Hi. rewrite fired_app in Hi. apply in_app_or in Hi. destruct Hi as [Hi|[Hi|[]]].
    + apply (I6 d' q' v Hi).
    + injection Hi as <- ->. rewrite (Hf q' v eq_refl). exact Hq.
  - congruence.
Qed.

Lemma inv_log s e : inv s -> match e with LIssue _ _ | LFire _ _ => False | _ => True end ->
  inv (logc e s).
Proof.
  intros [I1 I2 I3 I4 I5 I6 I7] He.
  assert (A : issued (c_log s ++ [e]) = issued (c_log s)).
  { rewrite issued_app. destruct e; try contradiction; apply app_nil_r. }
  assert (B : fired (c_log s ++ [e]) = fired (c_log s)).
  { rewrite fired_app. destruct e; try contradiction; apply app_nil_r. }
  split; cbn [logc c_seq c_next c_reqs c_alive c_log]; rewrite ?A, ?B; assumption.
Qed.

Lemma NoDup_drop {A} (a b : list A) x c : NoDup ((a ++ x :: b) ++ c) -> NoDup ((a ++ b) ++ c).
Proof.
  rewrite <- !app_assoc. cbn [app]. apply NoDup_remove_1.
Qed.

Lemma inv_drop s l l1 l2 q d : inv s -> c_alive s = true ->
  c_reqs s = l1 ++ (q, d) :: l2 -> l = l1 ++ l2 -> inv (set_reqs l s).
Proof.
  intros [I1 I2 I3 I4 I5 I6 I7] Ha E ->.
  split; cbn [set_reqs c_seq c_next c_reqs c_alive c_log]; try assumption.
  - intros q' d' Hi. apply I3. rewrite E. apply in_app_or in Hi. apply in_or_app. cbn. tauto.
  - rewrite E in I4. rewrite map_app in *. cbn [map] in I4.
    apply (NoDup_drop _ _ _ _ I4).
  - congruence.
Qed.

(** Issuing a request. *)
Definition issue (s : client) : client :=
  mkclient (c_seq s + 1) (S (c_next s)) (c_reqs s ++ [(c_seq s + 1, c_next s)]) true
    (c_log s ++ [LIssue (c_seq s + 1) (c_next s)]).

Lemma fresh_key s : inv s -> ~ In (c_seq s + 1) (map fst (c_reqs s)).
Proof.
  intros I H. apply in_map_iff in H. destruct H as ([q d] & E & Hi). cbn in E. subst q.
  destruct (i_keys s I _ _ Hi) as [Hq Hd]. rewrite (i_seq s I) in Hq. unfold seqid_of in Hq. lia.
Qed.

Lemma inv_issue s : inv s -> inv (issue s).
Proof.
  intros I. pose proof (fresh_key s I) as Hk. destruct I as [I1 I2 I3 I4 I5 I6 I7].
  assert (Hq : c_seq s + 1 = seqid_of (c_next s)) by (unfold seqid_of; lia).
  split; cbn [issue c_seq c_next c_reqs c_alive c_log].
  - lia.
  - rewrite issued_app, I2. rewrite seq_S, map_app. cbn. rewrite Hq. reflexivity.
  - intros q d Hi. apply in_app_or in Hi. destruct Hi as [Hi|[Hi|[]]].
    + destruct (I3 q d Hi). split; [assumption|lia].
    + injection Hi as <- <-. split; [exact Hq|lia].
  - rewrite fired_app. change (fired [LIssue (c_seq s + 1) (c_next s)]) with (@nil (nat * firing)).
    rewrite app_nil_r, map_app. cbn [map snd]. rewrite <- app_assoc. cbn [app].
    apply (Permutation_NoDup (l := c_next s :: map snd (c_reqs s) ++ map fst (fired (c_log s))));
      [apply Permutation_middle|].
    constructor; [|exact I4].
    intros Hi. apply in_app_or in Hi. destruct Hi as [Hi|Hi]; apply in_map_iff in Hi.
    + destruct Hi as ([q d] & E & Hi). cbn in E. subst d. apply I3 in Hi. lia.
    + destruct Hi as ([d f] & E & Hi). cbn in E. subst d. apply I5 in Hi. lia.
  - intros d f Hi. rewrite fired_app in Hi. cbn in Hi. rewrite app_nil_r in Hi.
    specialize (I5 d f Hi). lia.
  - intros d q v Hi. rewrite fired_app in Hi. cbn in Hi. rewrite app_nil_r in Hi.
    apply (I6 d q v Hi).
  - discriminate.
Qed.

Section Run.
Variable user : nat -> firing -> list ccall.

(** The three ways a call goes. *)
Lemma do_call_eq c s : inv s -> c_alive s = true ->
  do_call user c s
  = if k_sent c && negb (k_oneway c) then ([], issue s)
    else fire user (c_next s) (if k_sent c then FSent else FSendError)
           (set_reqs (c_reqs s) (issue s)).
Proof.
  intros I Ha. unfold do_call. rewrite Ha. cbn [c_reqs].
  rewrite (put_fresh _ _ _ (fresh_key s I)).
  destruct (k_sent c && negb (k_oneway c)); [reflexivity|].
  rewrite (pop_last _ _ _ (fresh_key s I)). reflexivity.
Qed.

Lemma inv_step w s : inv s -> inv (snd (step user w s)).
Proof.
  intros I. destruct w as [c|r|]; cbn [step].
  - destruct (c_alive s) eqn:Ha.
    + rewrite do_call_eq by assumption.
      destruct (k_sent c && negb (k_oneway c)); [apply inv_issue, I|].
      cbn [fire snd].
      apply (inv_fire (issue s) (c_next s) _ _ (c_reqs s) [] (c_seq s + 1)).
      * apply inv_issue, I.
      * reflexivity.
      * reflexivity.
      * rewrite app_nil_r. reflexivity.
      * intros q' v. destruct (k_sent c); discriminate.
    + unfold do_call. rewrite Ha. apply inv_log; [exact I|exact Logic.I].
  - unfold do_frame. destruct (c_alive s) eqn:Ha; [|apply inv_log; [exact I|exact Logic.I]].
    destruct r as [|q|q|q v]; try (apply inv_log; [exact I|exact Logic.I]).
    + destruct (pop q (c_reqs s)) as [[d l]|] eqn:E; cbn [snd];
        [|apply inv_log; [exact I|exact Logic.I]].
      apply pop_some in E. destruct E as (a & b & E1 & E2 & _).
      apply inv_log; [|exact Logic.I]. apply (inv_drop s l a b q d); assumption.
    + destruct (pop q (c_reqs s)) as [[d l]|] eqn:E; cbn [snd fire];
        [|apply inv_log; [exact I|exact Logic.I]].
      apply pop_some in E. destruct E as (a & b & E1 & E2 & _).
      apply (inv_fire s d _ l a b q); try assumption. intros q' v' K. congruence.
  - unfold do_lost. destruct (c_alive s) eqn:Ha; [|exact I].
    destruct (popitem (c_reqs s)) as [[d l]|] eqn:E.
    + apply popitem_some in E. destruct E as (q & E). cbn [fire snd].
      apply (inv_fire s d FLost l l [] q); try assumption.
      * rewrite app_nil_r. reflexivity.
      * discriminate.
    + apply popitem_none in E. cbn [snd]. destruct I as [I1 I2 I3 I4 I5 I6 I7].
      split; cbn [c_seq c_next c_reqs c_alive c_log]; try assumption; try reflexivity.
      * intros q d [].
      * rewrite E in I4. exact I4.
Qed.

Lemma inv_run fuel : forall ws s, inv s -> inv (snd (run user fuel ws s)).
Proof.
  induction fuel as [|n IH]; intros ws s I; [destruct ws; exact I|].
  destruct ws as [|w r]; [exact I|]. cbn [run]. pose proof (inv_step w s I) as Is.
  destruct (step user w s) as [ws' s']. apply IH, Is.
Qed.

(** What a step pushes. *)
Lemma step_work w s : forall w', In w' (fst (step user w s)) ->
  (exists c, w' = WCall c) \/ (w = WLost /\ w' = WLost).
Proof.
  intros w' H. assert (F : forall d f s, In w' (fst (fire user d f s)) -> exists c, w' = WCall c).
  { intros d f s0 Hi. cbn in Hi. apply in_map_iff in Hi. destruct Hi as (c & <- & _). eauto. }
  destruct w as [c|r|]; cbn [step] in H.
  - left. unfold do_call in H. destruct (c_alive s); [|contradiction].
    cbv zeta in H. destruct (_ && _); [contradiction|].
    destruct (pop _ _) as [[e l]|]; [|contradiction]. apply (F _ _ _ H).
  - left. unfold do_frame in H. destruct (c_alive s); [|contradiction].
    destruct r as [|q|q|q v]; try contradiction.
    + destruct (pop q (c_reqs s)) as [[d l]|]; contradiction.
    + destruct (pop q (c_reqs s)) as [[d l]|]; [|contradiction]. apply (F _ _ _ H).
  - unfold do_lost in H. destruct (c_alive s); [|contradiction].
    destruct (popitem _) as [[d l]|]; [|contradiction]. cbn [fire fst] in H.
    apply in_app_or in H. destruct H as [H|[<-|[]]]; [|right; auto].
    left. apply in_map_iff in H. destruct H as (c & <- & _). eauto.
Qed.

(** Once lost, lost; and the loop of connectionLost goes on until then. *)
Lemma lost_step w s : c_alive (snd (step user w s)) = false
  \/ (c_alive s = true /\ (w = WLost -> In WLost (fst (step user w s)))).
Proof.
  destruct w as [c|r|]; cbn [step].
  - unfold do_call. destruct (c_alive s) eqn:Ha; [right|left; exact Ha].
    split; [reflexivity|discriminate].
  - unfold do_frame. destruct (c_alive s) eqn:Ha; [right|left; exact Ha].
    split; [reflexivity|discriminate].
  - unfold do_lost. destruct (c_alive s) eqn:Ha; [|left; exact Ha].
    destruct (popitem _) as [[d l]|]; [right|left; reflexivity].
    split; [reflexivity|]. intros _. cbn [fire fst]. apply in_or_app. right. left. reflexivity.
Qed.

Lemma lost_run fuel : forall ws s, c_alive s = false \/ In WLost ws ->
  let p := run user fuel ws s in c_alive (snd p) = false \/ In WLost (fst p).
Proof.
  induction fuel as [|n IH]; intros ws s H; [destruct ws; exact H|].
  destruct ws as [|w r]; [exact H|]. cbn [run]. pose proof (lost_step w s) as L.
  destruct (step user w s) as [ws' s'] eqn:E. cbn [fst snd] in *. apply IH.
  destruct L as [L|[L1 L2]]; [left; exact L|]. destruct H as [H|[H|H]].
  - congruence.
  - right. apply in_or_app. left. apply L2, H.
  - right. apply in_or_app. right. exact H.
Qed.

(** Every request is pending, has fired, or its reply could not be read. *)
Definition accounted (B : Z -> Prop) (s : client) : Prop :=
  forall d, (d < c_next s)%nat ->
    In d (map snd (c_reqs s)) \/ In d (map fst (fired (c_log s))) \/ B (seqid_of d).

Lemma accounted_fire B s d f l l1 l2 q : accounted B s ->
  c_reqs s = l1 ++ (q, d) :: l2 -> l = l1 ++ l2 ->
  accounted B (logc (LFire d f) (set_reqs l s)).
Proof.
  intros A E -> e He. cbn [logc set_reqs c_next c_reqs c_log] in *.
  destruct (A e He) as [H|[H|H]]; [|right; left|auto].
  - rewrite E, map_app in H. cbn in H. rewrite map_app. apply in_app_or in H.
    rewrite in_app_iff. destruct H as [H|[H|H]]; [auto| |auto].
    right. left. rewrite fired_app, map_app. apply in_or_app. right. left. exact H.
  - rewrite fired_app, map_app. apply in_or_app. left. exact H.
Qed.

Lemma accounted_step (B : Z -> Prop) w s : inv s -> accounted B s ->
  (forall q, w = WFrame (RBadBody q) -> B q) -> accounted B (snd (step user w s)).
Proof.
  intros I A HB.
  assert (L : forall e s, match e with LFire _ _ => False | _ => True end ->
    accounted B s -> accounted B (logc e s)).
  { intros e s0 He A0 d Hd. cbn [logc c_next c_reqs c_log] in *. rewrite fired_app.
    destruct e; try contradiction; cbn; rewrite app_nil_r; apply A0, Hd. }
  assert (AI : accounted B (issue s)).
  { intros d Hd. cbn [issue c_next c_reqs c_log] in *.
    rewrite fired_app. change (fired [LIssue (c_seq s + 1) (c_next s)]) with (@nil (nat * firing)).
    rewrite app_nil_r, map_app, in_app_iff. cbn [map snd In]. destruct (Nat.eq_dec d (c_next s)) as [->|]; [auto|].
    destruct (A d ltac:(lia)) as [H|[H|H]]; auto. }
  destruct w as [c|r|]; cbn [step].
  - destruct (c_alive s) eqn:Ha.
    + rewrite do_call_eq by assumption.
      destruct (k_sent c && negb (k_oneway c)); [exact AI|]. cbn [fire snd].
      apply (accounted_fire B (issue s) (c_next s) _ _ (c_reqs s) [] (c_seq s + 1) AI);
        [reflexivity|rewrite app_nil_r; reflexivity].
    + unfold do_call. rewrite Ha. apply L; [exact Logic.I|exact A].
  - unfold do_frame. destruct (c_alive s) eqn:Ha; [|apply L; [exact Logic.I|exact A]].
    destruct r as [|q|q|q v]; try (apply L; [exact Logic.I|exact A]).
    + destruct (pop q (c_reqs s)) as [[d l]|] eqn:E; cbn [snd];
        [|apply L; [exact Logic.I|exact A]].
      apply pop_some in E. destruct E as (a & b & E1 & -> & _).
      apply L; [exact Logic.I|]. intros e He. cbn [set_reqs c_next c_reqs c_log] in *.
      destruct (A e He) as [H|[H|H]]; auto. rewrite E1, map_app in H. cbn in H.
      rewrite map_app, in_app_iff. apply in_app_or in H. destruct H as [H|[<-|H]]; auto.
      right. right. destruct (i_keys s I q d) as [<- _]; [rewrite E1; apply in_elt|].
      apply HB. reflexivity.
    + destruct (pop q (c_reqs s)) as [[d l]|] eqn:E; cbn [snd fire];
        [|apply L; [exact Logic.I|exact A]].
      apply pop_some in E. destruct E as (a & b & E1 & E2 & _).
      apply (accounted_fire B s d _ l a b q A E1 E2).
  - unfold do_lost. destruct (c_alive s) eqn:Ha; [|exact A].
    destruct (popitem (c_reqs s)) as [[d l]|] eqn:E.
    + apply popitem_some in E. destruct E as (q & E). cbn [fire snd].
      apply (accounted_fire B s d FLost l l [] q A E). rewrite app_nil_r. reflexivity.
    + apply popitem_none in E. intros d Hd. cbn [snd c_next c_reqs c_log] in *.
      specialize (A d Hd). rewrite E in A. exact A.
Qed.

Lemma accounted_run (B : Z -> Prop) fuel : forall ws s, inv s -> accounted B s ->
  (forall q, In (WFrame (RBadBody q)) ws -> B q) ->
  accounted B (snd (run user fuel ws s)).
Proof.
  induction fuel as [|n IH]; intros ws s I A HB; [destruct ws; exact A|].
  destruct ws as [|w r]; [exact A|]. cbn [run].
  pose proof (inv_step w s I) as Is.
  assert (As : accounted B (snd (step user w s))).
  { apply accounted_step; [exact I|exact A|]. intros q ->. apply HB. left. reflexivity. }
  pose proof (step_work w s) as W. destruct (step user w s) as [ws' s'].
  cbn [fst snd] in *. apply IH; [exact Is|exact As|].
  intros q Hi. apply in_app_or in Hi. destruct Hi as [Hi|Hi].
  - destruct (W _ Hi) as [[c K]|[_ K]]; discriminate.
  - apply HB. right. exact Hi.
Qed.
End Run.
