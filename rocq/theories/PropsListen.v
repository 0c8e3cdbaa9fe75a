(** C75: listening sockets. *)
From Coq Require Import ZArith List Bool Lia.
From Coq Require Import ZifyBool ZifyNat ZifyN.
From Verif Require Import Base Listen.
Import ListNotations.
Open Scope Z_scope.
Open Scope list_scope.

(** * The address *)

Theorem C75_address : forall A f (l : list (afam * A)) x,
  choose f l = Some x <->
  exists a b, l = a ++ x :: b
    /\ (forall y, In y a -> afam_is (fst y) f = false)
    /\ (b = [] \/ afam_is (fst x) f = true).
Proof.
  intros A f l x. split.
  - induction l as [|y l IH]; [discriminate|]. cbn [choose]. destruct l as [|z l].
    + intros H. injection H as ->. exists [], []. cbn. tauto.
    + destruct (afam_is (fst y) f) eqn:E.
      * intros H. injection H as ->. exists [], (z :: l). cbn. tauto.
      * intros H. destruct (IH H) as (a & b & -> & Ha & Hb). exists (y :: a), b. split; [reflexivity|].
        split; [|assumption]. intros u [<-|Hu]; auto.
  - intros (a & b & -> & Ha & Hb). induction a as [|y a IH]; cbn [app choose].
    + destruct Hb as [->|Hb]; [reflexivity|]. rewrite Hb. destruct b; reflexivity.
    + destruct (a ++ x :: b) as [|z r] eqn:E; [destruct a; discriminate|].
      rewrite (Ha y (or_introl eq_refl)). apply IH. intros u Hu. apply Ha. right. assumption.
Qed.

(** (defect) A family given as a plain int is not found: the last address is
    taken. *)
Theorem C75_plain_int_fails : forall A n (l : list (afam * A)) x,
  n <> AF_UNSPEC -> choose (preferred (AInt n)) (l ++ [x]) = Some x.
Proof.
  intros A n l x H. apply C75_address. exists l, []. split; [reflexivity|]. split; [|left; reflexivity].
  intros y _. unfold preferred. cbn [afam_num]. apply Z.eqb_neq in H. rewrite H. destruct (fst y); reflexivity.
Qed.
(** Nothing else than the chosen address is tried: an unspecified family takes the
    first IPv6 address. *)
Example C75_address_ex :
  choose (preferred (AMember AF_UNSPEC)) [(AMember AF_INET, 1); (AMember AF_INET6, 2); (AMember AF_INET, 3)]
  = Some (AMember AF_INET6, 2)
  /\ choose (preferred (AMember AF_INET)) [(AMember AF_INET, 1); (AMember AF_INET, 3)] = Some (AMember AF_INET, 1)
  /\ choose (preferred (AInt AF_INET)) [(AMember AF_INET, 1); (AMember AF_INET, 3)] = Some (AMember AF_INET, 3).
Proof. vm_compute. auto. Qed.

(** * The path *)

(** The socket that a client reaches. *)
Definition reached (k : kern) : option nat :=
  match k_file k with
  | FSock i => match nth_error (k_socks k) i with Some (SListen _) => Some i | _ => None end
  | _ => None
  end.

(** What is named exists. *)
Definition known (k : kern) : Prop :=
  match k_file k with FSock i => (i < length (k_socks k))%nat | _ => True end.
Definition known_to (k : kern) (v : srv) : Prop := forall i, In i (owned v) -> (i < length (k_socks k))%nat.

Lemma upd_length {A} (l : list A) i x : length (upd l i x) = length l.
Proof. revert i. induction l as [|y l IH]; intros [|i]; cbn [upd length]; auto. Qed.
Lemma nth_upd {A} (l : list A) i x j : (i < length l)%nat ->
  nth_error (upd l i x) j = if Nat.eqb i j then Some x else nth_error l j.
Proof.
  revert i j. induction l as [|y l IH]; intros [|i] [|j] H; cbn [upd length nth_error Nat.eqb] in *; try lia; try reflexivity.
  apply IH. lia.
Qed.
Lemma upd_out {A} (l : list A) i x : (length l <= i)%nat -> upd l i x = l.
Proof. revert i. induction l as [|y l IH]; intros [|i] H; cbn [upd length] in *; try lia; auto. rewrite IH by lia. reflexivity. Qed.
Lemma nth_upd_other {A} (l : list A) i x j : i <> j -> nth_error (upd l i x) j = nth_error l j.
Proof.
  intros H. destruct (Nat.lt_ge_cases i (length l)) as [Hi|Hi].
  - rewrite nth_upd by assumption. destruct (Nat.eqb_spec i j); [contradiction|reflexivity].
  - rewrite upd_out by assumption. reflexivity.
Qed.

Lemma not_reached_connect k : reached k = None ->
  connect k = Some (Errno ENOENT) /\ k_file k = FNone
  \/ connect k = Some (Errno ECONNREFUSED) /\ k_file k <> FNone.
Proof.
  unfold reached, connect. destruct (k_file k) as [| |i]; intros H; [left; auto|right; split; [reflexivity|discriminate]|right].
  destruct (nth_error (k_socks k) i) as [[| |b|]|]; try discriminate H; split; try reflexivity; discriminate.
Qed.

(** Sockets after those of [k]. *)
Definition only_new (k k' : kern) (v : srv) (s : nat) : Prop :=
  forall i x, nth_error (k_socks k') i = Some x ->
    if Nat.ltb i (length (k_socks k)) then
      match v_handle v with
      | Some h => if Nat.eqb i h then x = SClosed else nth_error (k_socks k) i = Some x
      | None => nth_error (k_socks k) i = Some x
      end
    else i = s \/ x = SClosed.

Lemma alone_step n k v : alone (S n) k v = alone n (fst (step None k v)) (snd (step None k v)).
Proof. cbn [alone]. destruct (step None k v). reflexivity. Qed.

(** Where nobody is reached, a server comes up, whatever is at the path, and
    whatever its handle was. *)
Theorem C75_up : forall k v,
  v_at v = ATmp -> known k -> known_to k v -> reached k = None ->
  let (k', v') := alone 7 k v in
  v_done v' = Some (Ok tt) /\ v_at v' = AIdle
  /\ exists s, v_handle v' = Some s /\ reached k' = Some s
       /\ nth_error (k_socks k') s = Some (SListen (v_backlog v))
       /\ (length (k_socks k) <= s)%nat /\ only_new k k' v s.
Proof.
  intros [f l] [h b p d] Hp Hk Hv Hr. cbn [v_at] in Hp. subst p.
  assert (Hh : forall i, h = Some i -> (i < length l)%nat).
  { intros i ->. apply Hv. left. reflexivity. }
  set (n := length l) in *.
  (* both ways lead to [ACreate n] with no file *)
  assert (E : alone 7 (mkkern f l) (mksrv h b ATmp d)
              = alone 4 (mkkern FNone (l ++ [SFresh])) (mksrv h b (ACreate n) None)
           \/ alone 7 (mkkern f l) (mksrv h b ATmp d)
              = alone 5 (mkkern FNone (l ++ [SFresh])) (mksrv h b (ACreate n) None)).
  { assert (Hc : reached (mkkern f (l ++ [SFresh])) = None).
    { unfold reached in *. cbn [k_file k_socks] in *. destruct f as [| |i]; auto.
      unfold known in Hk. cbn [k_file k_socks] in Hk. rewrite nth_error_app1 by assumption. exact Hr. }
    destruct (not_reached_connect _ Hc) as [[C1 C2]|[C1 C2]].
    - right. cbn [k_file] in C2. subst f. reflexivity.
    - left. rewrite (alone_step 6), (alone_step 5), (alone_step 4).
      change (step None (mkkern f l) (mksrv h b ATmp d)) with (mkkern f (l ++ [SFresh]), mksrv h b (AConnect n) None).
      cbn [fst snd].
      replace (step None (mkkern f (l ++ [SFresh])) (mksrv h b (AConnect n) None))
        with (mkkern f (l ++ [SFresh]), mksrv h b (AUnlink n) None).
      2: { unfold step. cbn [v_at]. rewrite C1. reflexivity. }
      cbn [fst snd].
      replace (step None (mkkern f (l ++ [SFresh])) (mksrv h b (AUnlink n) None))
        with (mkkern FNone (l ++ [SFresh]), mksrv h b (ACreate n) None); [reflexivity|].
      destruct f as [| |i]; [exfalso; apply C2; reflexivity|reflexivity|reflexivity]. }
  assert (L1 : length (l ++ [SFresh]) = S n) by (rewrite app_length; cbn; lia).
  assert (F : forall m, (4 <= m <= 5)%nat ->
    alone m (mkkern FNone (l ++ [SFresh])) (mksrv h b (ACreate n) None)
    = (close_sock n (set_sock (S n) (SListen b) (set_file (FSock (S n)) (set_sock (S n) SBound
         (close_opt h (new_sock (mkkern FNone (l ++ [SFresh]))))))),
       mksrv (Some (S n)) b AIdle (Some (Ok tt)))).
  { intros m Hm. assert (M : m = 4%nat \/ m = 5%nat) by lia.
    destruct M as [-> | ->]; cbn [alone step v_at k_file k_socks v_handle v_backlog go]; rewrite L1;
      (replace (k_file (close_opt h (new_sock (mkkern FNone (l ++ [SFresh]))))) with FNone by (destruct h; reflexivity));
      reflexivity. }
  set (k' := close_sock n (set_sock (S n) (SListen b) (set_file (FSock (S n)) (set_sock (S n) SBound
         (close_opt h (new_sock (mkkern FNone (l ++ [SFresh])))))))) in *.
  assert (A : alone 7 (mkkern f l) (mksrv h b ATmp d) = (k', mksrv (Some (S n)) b AIdle (Some (Ok tt)))).
  { destruct E as [E|E]; rewrite E; apply F; lia. }
  rewrite A. cbn [v_done v_at v_handle v_backlog k_socks]. split; [reflexivity|]. split; [reflexivity|].
  assert (L2 : length (k_socks (close_opt h (new_sock (mkkern FNone (l ++ [SFresh]))))) = S (S n)).
  { destruct h; cbn [close_opt close_sock set_sock new_sock k_socks]; rewrite ?upd_length, app_length, L1; cbn; lia. }
  assert (N : forall i, nth_error (k_socks k') i
    = if Nat.eqb n i then Some SClosed else if Nat.eqb (S n) i then Some (SListen b)
      else nth_error (k_socks (close_opt h (new_sock (mkkern FNone (l ++ [SFresh]))))) i).
  { intros i. unfold k', close_sock, set_file, set_sock. cbn [k_socks k_file].
    rewrite nth_upd by (rewrite !upd_length, L2; lia). destruct (Nat.eqb_spec n i); [reflexivity|].
    rewrite nth_upd by (rewrite !upd_length, L2; lia). destruct (Nat.eqb_spec (S n) i); [reflexivity|].
    apply nth_upd_other. assumption. }
  assert (NS : nth_error (k_socks k') (S n) = Some (SListen b)).
  { rewrite N. rewrite (proj2 (Nat.eqb_neq n (S n))) by lia. rewrite Nat.eqb_refl. reflexivity. }
  exists (S n). split; [reflexivity|]. split.
  { unfold reached. replace (k_file k') with (FSock (S n)) by reflexivity. rewrite NS. reflexivity. }
  split; [assumption|]. split; [lia|].
  intros i x Hx. cbn [k_socks]. fold n. rewrite N in Hx.
  destruct (Nat.ltb_spec i n) as [Hi|Hi].
  - rewrite (proj2 (Nat.eqb_neq n i)), (proj2 (Nat.eqb_neq (S n) i)) in Hx by lia.
    destruct h as [h|]; cbn [close_opt close_sock set_sock new_sock k_socks] in Hx.
    + specialize (Hh h eq_refl). rewrite nth_upd in Hx by (rewrite app_length, L1; cbn; lia).
      cbn [v_handle]. rewrite (Nat.eqb_sym i h). destruct (Nat.eqb_spec h i); [congruence|].
      rewrite <- app_assoc, nth_error_app1 in Hx by (fold n; lia). exact Hx.
    + rewrite <- app_assoc, nth_error_app1 in Hx by (fold n; lia). exact Hx.
  - destruct (Nat.eqb_spec n i); [right; congruence|]. destruct (Nat.eqb_spec (S n) i); [left; auto|].
    exfalso. assert (Z : nth_error (k_socks (close_opt h (new_sock (mkkern FNone (l ++ [SFresh]))))) i = None)
      by (apply nth_error_None; lia). congruence.
Qed.

Lemma busy_run f l h b d i bl : f = FSock i -> nth_error l i = Some (SListen bl) ->
  let n := length l in
  alone 7 (mkkern f l) (mksrv h b ATmp d)
  = (close_sock n (close_opt h (mkkern f ((l ++ [SFresh]) ++ [SFresh]))), mksrv (Some (S n)) b AIdle (Some (Raise EOSError))).
Proof.
  intros -> Hn n.
  assert (Hi : (i < length l)%nat) by (apply nth_error_Some; congruence).
  rewrite (alone_step 6), (alone_step 5), (alone_step 4).
  change (step None (mkkern (FSock i) l) (mksrv h b ATmp d)) with (mkkern (FSock i) (l ++ [SFresh]), mksrv h b (AConnect n) None).
  cbn [fst snd].
  replace (step None (mkkern (FSock i) (l ++ [SFresh])) (mksrv h b (AConnect n) None))
    with (mkkern (FSock i) (l ++ [SFresh]), mksrv h b (ACreate n) None).
  2: { unfold step, connect. cbn [v_at k_file k_socks]. rewrite nth_error_app1 by assumption. rewrite Hn. reflexivity. }
  cbn [fst snd].
  replace (step None (mkkern (FSock i) (l ++ [SFresh])) (mksrv h b (ACreate n) None))
    with (close_opt h (mkkern (FSock i) ((l ++ [SFresh]) ++ [SFresh])), mksrv (Some (S n)) b (ASet n (S n)) None).
  2: { unfold step. cbn [v_at k_file k_socks v_handle v_backlog new_sock]. rewrite app_length. fold n.
       replace (n + length [SFresh])%nat with (S n) by (cbn; lia). reflexivity. }
  cbn [fst snd]. rewrite (alone_step 3). cbn [step v_at go v_handle v_backlog fst snd].
  rewrite (alone_step 2). unfold step at 1 2. cbn [v_at].
  assert (E : k_file (close_opt h (mkkern (FSock i) ((l ++ [SFresh]) ++ [SFresh]))) = FSock i) by (destruct h; reflexivity).
  rewrite E. reflexivity.
Qed.

(** A server that somebody is connected through keeps the path: another one's
    listen raises.  (defect) The other is left with a handle that is a socket
    listening nowhere. *)
Theorem C75_busy : forall k v i,
  v_at v = ATmp -> known_to k v -> reached k = Some i -> v_handle v <> Some i ->
  let (k', v') := alone 7 k v in
  v_done v' = Some (Raise EOSError) /\ v_at v' = AIdle
  /\ reached k' = Some i /\ k_file k' = k_file k
  /\ exists s, v_handle v' = Some s /\ nth_error (k_socks k') s = Some SFresh /\ only_new k k' v s.
Proof.
  intros [f l] [h b p d] i Hp Hv Hr Hi. cbn [v_at] in Hp. subst p. cbn [v_handle] in Hi.
  assert (Hh : forall i, h = Some i -> (i < length l)%nat).
  { intros j ->. apply Hv. left. reflexivity. }
  assert (Q : f = FSock i /\ exists bl, nth_error l i = Some (SListen bl)).
  { unfold reached in Hr. cbn [k_file k_socks] in Hr. destruct f as [| |j]; try discriminate.
    destruct (nth_error l j) as [[| |bl|]|] eqn:E; try discriminate. injection Hr as ->. eauto. }
  destruct Q as (-> & bl & Hn).
  assert (Li : (i < length l)%nat) by (apply nth_error_Some; congruence).
  rewrite (busy_run (FSock i) l h b d i bl eq_refl Hn).
  set (n := length l) in *.
  assert (L : length ((l ++ [SFresh]) ++ [SFresh]) = S (S n)) by (rewrite !app_length; cbn; fold n; lia).
  set (k' := close_sock n (close_opt h (mkkern (FSock i) ((l ++ [SFresh]) ++ [SFresh])))).
  assert (N : forall j, nth_error (k_socks k') j
    = if Nat.eqb n j then Some SClosed
      else if match h with Some h => Nat.eqb h j | None => false end then Some SClosed
      else nth_error ((l ++ [SFresh]) ++ [SFresh]) j).
  { intros j. unfold k'. destruct h as [h|]; cbn [close_opt close_sock set_sock k_socks k_file].
    - specialize (Hh h eq_refl). rewrite nth_upd by (rewrite upd_length, L; lia).
      destruct (Nat.eqb n j); [reflexivity|]. rewrite nth_upd by (rewrite L; lia). reflexivity.
    - rewrite nth_upd by (rewrite L; lia). reflexivity. }
  assert (F : k_file k' = FSock i) by (unfold k'; destruct h; reflexivity).
  cbn [v_done v_at v_handle]. split; [reflexivity|]. split; [reflexivity|]. split; [|split].
  - unfold reached. rewrite F, N. rewrite (proj2 (Nat.eqb_neq n i)) by lia.
    replace (match h with Some h => Nat.eqb h i | None => false end) with false.
    + rewrite <- app_assoc, nth_error_app1 by assumption. rewrite Hn. reflexivity.
    + destruct h as [h|]; [|reflexivity]. symmetry. apply Nat.eqb_neq. congruence.
  - exact F.
  - exists (S n). split; [reflexivity|]. split.
    + rewrite N. rewrite (proj2 (Nat.eqb_neq n (S n))) by lia.
      replace (match h with Some h => Nat.eqb h (S n) | None => false end) with false.
      * rewrite nth_error_app2 by (rewrite app_length; fold n; cbn; lia). rewrite app_length. fold n.
        replace (S n - (n + length [SFresh]))%nat with 0%nat by (cbn [length]; lia). reflexivity.
      * destruct h as [h|]; [|reflexivity]. symmetry. apply Nat.eqb_neq. specialize (Hh h eq_refl). lia.
    + intros j x Hx. rewrite N in Hx. cbn [k_socks v_handle]. fold n. destruct (Nat.ltb_spec j n) as [Hj|Hj].
      * rewrite (proj2 (Nat.eqb_neq n j)) in Hx by lia. rewrite <- app_assoc, nth_error_app1 in Hx by (fold n; lia).
        destruct h as [h|]; [|exact Hx]. rewrite (Nat.eqb_sym j h). destruct (Nat.eqb h j); [congruence|exact Hx].
      * destruct (Nat.eqb_spec n j); [right; congruence|].
        destruct (Nat.eq_dec j (S n)) as [->|Hne]; [left; reflexivity|]. exfalso.
        replace (match h with Some h => Nat.eqb h j | None => false end) with false in Hx.
        -- assert (Z : nth_error ((l ++ [SFresh]) ++ [SFresh]) j = None) by (apply nth_error_None; lia). congruence.
        -- destruct h as [h|]; [|reflexivity]. symmetry. apply Nat.eqb_neq. specialize (Hh h eq_refl). lia.
Qed.

(** (defect) Calling listen on a server that is listening: it raises, and nobody
    is reached any more. *)
Theorem C75_twice_fails : forall k v i,
  v_at v = ATmp -> known_to k v -> reached k = Some i -> v_handle v = Some i ->
  let (k', v') := alone 7 k v in
  v_done v' = Some (Raise EOSError) /\ reached k' = None.
Proof.
  intros [f l] [h b p d] i Hp Hv Hr Hi. cbn [v_at v_handle] in Hp, Hi. subst p h.
  assert (Q : f = FSock i /\ exists bl, nth_error l i = Some (SListen bl)).
  { unfold reached in Hr. cbn [k_file k_socks] in Hr. destruct f as [| |j]; try discriminate.
    destruct (nth_error l j) as [[| |bl|]|] eqn:E; try discriminate. injection Hr as ->. eauto. }
  destruct Q as (-> & bl & Hn).
  assert (Li : (i < length l)%nat) by (apply nth_error_Some; congruence).
  rewrite (busy_run (FSock i) l (Some i) b d i bl eq_refl Hn). split; [reflexivity|].
  unfold reached. cbn [close_opt close_sock set_sock k_file k_socks].
  rewrite nth_upd by (rewrite upd_length, !app_length; cbn; lia).
  rewrite (proj2 (Nat.eqb_neq (length l) i)) by lia.
  rewrite nth_upd by (rewrite !app_length; cbn; lia). rewrite Nat.eqb_refl. reflexivity.
Qed.

(** (defect) What is at the path and is no socket is deleted. *)
Theorem C75_file_deleted : forall k v,
  v_at v = ATmp -> k_file k = FOther -> known_to k v ->
  let (k', v') := alone 7 k v in
  k_file k' <> FOther /\ v_done v' = Some (Ok tt).
Proof.
  intros k v Hp Hf Hv.
  assert (Hk : known k) by (unfold known; rewrite Hf; exact I).
  assert (Hr : reached k = None) by (unfold reached; rewrite Hf; reflexivity).
  pose proof (C75_up k v Hp Hk Hv Hr) as H. destruct (alone 7 k v) as [k' v'].
  destruct H as (H1 & _ & s & _ & H2 & _). split; [|assumption].
  intros E. unfold reached in H2. rewrite E in H2. discriminate.
Qed.

(** * Several servers *)

(** Sockets belong to one server, and exist. *)
Definition wf (y : sys) : Prop :=
  known (fst y)
  /\ (forall j, known_to (fst y) (snd y j))
  /\ (forall a b i, a <> b -> In i (owned (snd y a)) -> In i (owned (snd y b)) -> False).

Definition start (f : file) : sys := (mkkern f [], fun _ => mksrv None 128 AIdle None).

Lemma step_grows inj k v : (length (k_socks k) <= length (k_socks (fst (step inj k v))))%nat.
Proof.
  unfold step, finish, close_sock, set_sock, set_file, new_sock, close_opt.
  destruct (v_at v); cbn [fst k_socks]; auto.
  - destruct inj; cbn [fst k_socks]; rewrite ?app_length; cbn; lia.
  - destruct (match inj with Some e => Some e | None => connect k end) as [[n|]|]; cbn [fst k_socks]; rewrite ?upd_length; lia.
  - destruct inj; [|destruct (k_file k)]; cbn [fst k_socks]; rewrite ?upd_length; lia.
  - destruct inj; [cbn [fst k_socks]; rewrite upd_length; lia|].
    destruct (v_handle v); unfold close_sock, set_sock; cbn [fst k_socks]; rewrite ?upd_length, app_length; cbn [length]; lia.
  - destruct inj; cbn [fst k_socks]; rewrite ?upd_length; lia.
  - destruct inj; [|destruct (k_file k)]; cbn [fst k_socks]; rewrite ?upd_length; lia.
  - destruct inj; cbn [fst k_socks]; rewrite ?upd_length; cbn [k_socks]; rewrite ?upd_length; lia.
Qed.

(** A step takes over no socket of another: what it owns afterwards it owned, or
    is new. *)
Lemma step_owned inj k v i : In i (owned (snd (step inj k v))) ->
  In i (owned v) \/ (i = length (k_socks k) /\ (i < length (k_socks (fst (step inj k v))))%nat).
Proof.
  destruct v as [h b p d]. unfold step, finish, go, owned. cbn [v_at v_handle v_backlog].
  destruct p; cbn [snd fst v_at v_handle].
  - auto.
  - destruct inj; cbn [snd fst v_at v_handle].
    + auto.
    + rewrite !in_app_iff. intros [H|[<-|[]]]; auto. right. split; [reflexivity|].
      unfold new_sock. cbn [k_socks]. rewrite app_length. cbn. lia.
  - destruct (match inj with Some e => Some e | None => connect k end) as [[n|]|]; cbn [snd fst v_at v_handle];
      rewrite ?in_app_iff; cbn [In]; [|tauto|tauto]. destruct (n =? ECONNREFUSED); tauto.
  - destruct inj; [|destruct (k_file k)]; cbn [snd fst v_at v_handle]; rewrite ?in_app_iff; cbn [In]; tauto.
  - destruct inj; cbn [snd fst v_at v_handle]; rewrite ?in_app_iff; cbn [In]; [tauto|].
    assert (L : (length (k_socks k) < length (k_socks (close_opt h (new_sock k))))%nat).
    { destruct h; unfold close_opt, close_sock, set_sock, new_sock; cbn [k_socks]; rewrite ?upd_length, app_length; cbn; lia. }
    intros [[<-|[]]|[<-|[<-|[]]]]; auto.
  - destruct inj; cbn [snd fst v_at v_handle]; rewrite ?in_app_iff; cbn [In]; tauto.
  - destruct inj; [|destruct (k_file k)]; cbn [snd fst v_at v_handle]; rewrite ?in_app_iff; cbn [In]; tauto.
  - destruct inj; cbn [snd fst v_at v_handle]; rewrite ?in_app_iff; cbn [In]; tauto.
Qed.
Lemma step_known inj k v : known k -> known_to k v -> known (fst (step inj k v)).
Proof.
  intros Hk Hv. pose proof (step_grows inj k v) as G. unfold known in *.
  assert (C : k_file (fst (step inj k v)) = k_file k \/ k_file (fst (step inj k v)) = FNone
              \/ exists s, In s (owned v) /\ k_file (fst (step inj k v)) = FSock s).
  { destruct v as [h b p d]. unfold step, finish, close_sock, set_sock, set_file, new_sock. cbn [v_at v_handle v_backlog].
    destruct p; cbn [fst k_file]; auto.
    - destruct inj; cbn [fst k_file]; auto.
    - destruct (match inj with Some e => Some e | None => connect k end) as [[n|]|]; cbn [fst k_file]; auto.
    - destruct inj; [|destruct (k_file k)]; cbn [fst k_file]; auto.
    - destruct inj; [|destruct h]; cbn [fst k_file close_opt close_sock set_sock new_sock]; auto.
    - destruct inj; cbn [fst k_file]; auto.
    - destruct inj; [|destruct (k_file k)]; cbn [fst k_file]; auto.
      right. right. exists s. split; [|reflexivity]. unfold owned. cbn [v_at v_handle]. rewrite in_app_iff. cbn. tauto.
    - destruct inj; cbn [fst k_file]; auto. }
  destruct C as [C|[C|(s & Hs & C)]]; rewrite C.
  - destruct (k_file k); auto. lia.
  - exact I.
  - specialize (Hv s Hs). lia.
Qed.
Lemma close_length i k : length (k_socks (close_sock i k)) = length (k_socks k).
Proof. unfold close_sock, set_sock. cbn [k_socks]. apply upd_length. Qed.
Lemma closes_length l k : length (k_socks (fold_right close_sock k l)) = length (k_socks k).
Proof. induction l as [|i l IH]; cbn [fold_right]; [reflexivity|]. rewrite close_length. exact IH. Qed.
Lemma closes_file l k : k_file (fold_right close_sock k l) = k_file k.
Proof. induction l as [|i l IH]; cbn [fold_right]; [reflexivity|]. exact IH. Qed.

Lemma wf_put k w k' j v' : wf (k, w) -> known k' -> (length (k_socks k) <= length (k_socks k'))%nat ->
  (forall i, In i (owned v') -> In i (owned (w j)) \/ (i = length (k_socks k) /\ (i < length (k_socks k'))%nat)) ->
  wf (k', put j v' w).
Proof.
  intros (H1 & H2 & H3) Hk Hl Ho. unfold wf. cbn [fst snd] in *. split; [assumption|]. split.
  - intros a i Hi. unfold put in Hi. destruct (Nat.eqb_spec a j) as [->|Hne].
    + destruct (Ho i Hi) as [H|[_ H]]; [specialize (H2 j i H); lia|assumption].
    + specialize (H2 a i Hi). lia.
  - intros a b i Hab Ha Hb. unfold put in *.
    assert (Q : forall c, c <> j -> In i (owned v') -> In i (owned (w c)) -> False).
    { intros c Hc Hv Hw. destruct (Ho i Hv) as [H|[H _]]; [exact (H3 c j i Hc Hw H)|].
      specialize (H2 c i Hw). lia. }
    destruct (Nat.eqb_spec a j) as [->|Ha'], (Nat.eqb_spec b j) as [->|Hb'].
    + contradiction.
    + exact (Q b Hb' Ha Hb).
    + exact (Q a Ha' Hb Ha).
    + exact (H3 a b i Hab Ha Hb).
Qed.

Lemma wf_happen e y : wf y -> wf (happen e y).
Proof.
  destruct y as [k w]. intros H. pose proof H as (H1 & H2 & H3). cbn [fst snd] in *.
  destruct e as [j|j inj|j|j]; cbn [happen].
  - destruct (v_at (w j)) eqn:E; auto. apply (wf_put k w k j); auto.
    intros i Hi. left. unfold owned, go in *. cbn [v_at v_handle] in Hi. rewrite E. exact Hi.
  - pose proof (step_known inj k (w j) H1 (H2 j)) as K. pose proof (step_grows inj k (w j)) as G.
    pose proof (fun i => step_owned inj k (w j) i) as O.
    destruct (step inj k (w j)) as [k' v']. cbn [fst snd] in *. apply (wf_put k w k' j); auto.
  - destruct (v_at (w j)) eqn:E; auto. unfold close. apply (wf_put k w _ j); auto.
    + unfold known in *. destruct (v_handle (w j)) as [h|]; cbn [close_opt]; [|exact H1].
      rewrite close_length. exact H1.
    + destruct (v_handle (w j)); cbn [close_opt]; rewrite ?close_length; lia.
    + intros i Hi. left. unfold owned in *. cbn [v_at v_handle] in Hi. rewrite E in *. destruct Hi.
  - apply (wf_put k w _ j); auto.
    + unfold known in *. rewrite closes_file, closes_length. exact H1.
    + rewrite closes_length. lia.
    + intros i [].
Qed.
Lemma wf_happens es : forall y, wf y -> wf (happens es y).
Proof. induction es as [|e es IH]; intros y H; [exact H|]. cbn [happens fold_left]. apply IH. apply wf_happen. exact H. Qed.
Lemma wf_start f : (forall i, f <> FSock i) -> wf (start f).
Proof.
  intros H. unfold wf, start, known, known_to, owned. cbn. split; [destruct f; auto; exfalso; eapply H; reflexivity|].
  split; [intros j i []|intros a b i _ []].
Qed.

Lemma happens_alone n : forall k w j, happens (repeat (Step j None) n) (k, w)
  = (fst (alone n k (w j)), snd (happens (repeat (Step j None) n) (k, w)))
  /\ snd (happens (repeat (Step j None) n) (k, w)) j = snd (alone n k (w j)).
Proof.
  induction n as [|n IH]; intros k w j; [split; reflexivity|].
  cbn [repeat happens fold_left happen alone]. destruct (step None k (w j)) as [k' v'] eqn:E.
  destruct (IH k' (put j v' w) j) as [I1 I2].
  assert (P : put j v' w j = v') by (unfold put; rewrite Nat.eqb_refl; reflexivity).
  rewrite P in I1, I2. split; [exact I1|exact I2].
Qed.

(** After anything that may happen to any number of servers, including that
    processes end: if nobody is reached, a server that starts comes up. *)
Theorem C75_restart : forall f es j,
  (forall i, f <> FSock i) ->
  let y := happens es (start f) in
  reached (fst y) = None -> v_at (snd y j) = AIdle ->
  let y' := happens (Call j :: repeat (Step j None) 7) y in
  v_done (snd y' j) = Some (Ok tt)
  /\ exists s, v_handle (snd y' j) = Some s /\ reached (fst y') = Some s.
Proof.
  intros f es j Hf y Hr Ha. pose proof (wf_happens es _ (wf_start f Hf)) as W. fold y in W.
  clearbody y. destruct y as [k w]. destruct W as (W1 & W2 & _). cbn [fst snd] in Hr, Ha, W1, W2.
  intros y'.
  assert (E : y' = happens (repeat (Step j None) 7) (k, put j (go ATmp (w j)) w)).
  { unfold y'. cbn [happens fold_left happen]. rewrite Ha. reflexivity. }
  clearbody y'. subst y'.
  destruct (happens_alone 7 k (put j (go ATmp (w j)) w) j) as [E1 E2].
  assert (P : put j (go ATmp (w j)) w j = go ATmp (w j)) by (unfold put; rewrite Nat.eqb_refl; reflexivity).
  rewrite P in E1, E2.
  assert (K : known_to k (go ATmp (w j))).
  { intros i Hi. apply (W2 j). unfold owned, go in *. cbn [v_at v_handle] in Hi. rewrite Ha. exact Hi. }
  pose proof (C75_up k (go ATmp (w j)) eq_refl W1 K Hr) as U.
  rewrite E2, E1. cbn [fst]. destruct (alone 7 k (go ATmp (w j))) as [k' v'].
  cbn [fst snd]. destruct U as (U1 & _ & s & U2 & U3 & _). eauto.
Qed.

(** While one is reached and goes on listening, nobody else takes the path,
    however many start at whatever time, and none of them returns from listen. *)
Theorem C75_live_kept : forall es y a i,
  wf y -> reached (fst y) = Some i -> v_handle (snd y a) = Some i -> v_at (snd y a) = AIdle ->
  (forall j, j <> a -> v_at (snd y j) = AIdle /\ v_done (snd y j) <> Some (Ok tt)) ->
  (forall e, In e es ->
     e <> Call a /\ e <> Close a /\ e <> Kill a /\ (forall j, e <> Step j (Some (Errno ECONNREFUSED)))) ->
  reached (fst (happens es y)) = Some i
  /\ (forall j, j <> a -> v_done (snd (happens es y) j) <> Some (Ok tt)).
Proof.
  intros es y a i W Hr Hh Ha Hj He.
  assert (G : forall es y, wf y -> reached (fst y) = Some i -> v_handle (snd y a) = Some i -> v_at (snd y a) = AIdle ->
    (forall j, j <> a -> v_done (snd y j) <> Some (Ok tt)
       /\ match v_at (snd y j) with AUnlink _ | AListen _ _ => False | _ => True end) ->
    (forall e, In e es ->
       e <> Call a /\ e <> Close a /\ e <> Kill a /\ (forall j, e <> Step j (Some (Errno ECONNREFUSED)))) ->
    reached (fst (happens es y)) = Some i
    /\ (forall j, j <> a -> v_done (snd (happens es y) j) <> Some (Ok tt))).
  { clear. induction es as [|e es IH]; intros y W Hr Hh Ha Hj He.
    { split; [exact Hr|]. intros j Hja. apply (Hj j Hja). }
    cbn [happens fold_left]. specialize (He e (or_introl eq_refl)) as Hee.
    assert (He' : forall e, In e es ->
       e <> Call a /\ e <> Close a /\ e <> Kill a /\ (forall j, e <> Step j (Some (Errno ECONNREFUSED))))
      by (intros e' H; apply He; right; exact H).
    pose proof (wf_happen e y W) as W'.
    (* sockets of the others are not [i] *)
    assert (Oth : forall j, j <> a -> ~ In i (owned (snd y j))).
    { intros j Hja H. destruct W as (_ & _ & W3). apply (W3 j a i Hja H). unfold owned. rewrite Hh. left. reflexivity. }
    assert (C : forall k t, t <> i -> reached k = Some i -> reached (close_sock t k) = Some i).
    { intros k t Ht H. unfold reached in *. cbn [close_sock set_sock k_file k_socks]. destruct (k_file k); try discriminate.
      destruct (Nat.eq_dec i0 i) as [->|Hne].
      - rewrite nth_upd_other by assumption. exact H.
      - exfalso. destruct (nth_error (k_socks k) i0) as [[]|]; try discriminate. congruence. }
    assert (Nw : forall k, reached k = Some i -> reached (new_sock k) = Some i).
    { intros k H. unfold reached in *. cbn [new_sock k_file k_socks]. destruct (k_file k) as [| |i0]; try discriminate.
      destruct (nth_error (k_socks k) i0) as [u|] eqn:E; [|discriminate].
      rewrite nth_error_app1 by (apply nth_error_Some; congruence). rewrite E. exact H. }
    destruct y as [k w]. cbn [fst snd] in *.
    assert (Done : forall k' j v', j <> a ->
      happen e (k, w) = (k', put j v' w) -> reached k' = Some i ->
      v_done v' <> Some (Ok tt) -> match v_at v' with AUnlink _ | AListen _ _ => False | _ => True end ->
      reached (fst (happens es (happen e (k, w)))) = Some i
      /\ (forall j, j <> a -> v_done (snd (happens es (happen e (k, w))) j) <> Some (Ok tt))).
    { intros k' j v' Hja E Hr' Hd Hp. rewrite E in *. apply IH; auto; cbn [fst snd].
      - unfold put. rewrite (proj2 (Nat.eqb_neq a j)) by auto. exact Hh.
      - unfold put. rewrite (proj2 (Nat.eqb_neq a j)) by auto. exact Ha.
      - intros j' Hj'. unfold put. destruct (Nat.eqb_spec j' j); [auto|apply Hj; assumption]. }
    change (fold_left (fun y0 e0 => happen e0 y0) es (happen e (k, w))) with (happens es (happen e (k, w))).
    destruct e as [j|j inj|j|j].
    - assert (Hja : j <> a) by (intros ->; apply (proj1 Hee); reflexivity).
      destruct (v_at (w j)) eqn:E;
        [apply (Done k j (go ATmp (w j)) Hja); [cbn [happen]; rewrite E; reflexivity|exact Hr|discriminate|exact I]| | | | | | |];
        (replace (happen (Call j) (k, w)) with (k, w) by (cbn [happen]; rewrite E; reflexivity); apply IH; auto).
    - destruct (Nat.eq_dec j a) as [->|Hja].
      { replace (happen (Step a inj) (k, w)) with (k, put a (w a) w)
          by (cbn [happen]; unfold step; rewrite Ha; reflexivity).
        assert (P : forall b, put a (w a) w b = w b) by (intros b; unfold put; destruct (Nat.eqb_spec b a); congruence).
        apply IH; auto; cbn [fst snd].
        - replace (k, put a (w a) w) with (happen (Step a inj) (k, w))
            by (cbn [happen]; unfold step; rewrite Ha; reflexivity). exact W'.
        - rewrite P; exact Hh.
        - rewrite P; exact Ha.
        - intros b Hb. rewrite P. apply Hj. assumption. }
      specialize (Oth j Hja). destruct (Hj j Hja) as [Hd Hp].
      assert (R : reached (fst (step inj k (w j))) = Some i
        /\ v_done (snd (step inj k (w j))) <> Some (Ok tt)
        /\ match v_at (snd (step inj k (w j))) with AUnlink _ | AListen _ _ => False | _ => True end).
      { assert (Hin : inj <> Some (Errno ECONNREFUSED)) by (intros ->; eapply (proj2 (proj2 (proj2 Hee))); reflexivity).
        assert (Hc : connect k = None).
        { unfold reached in Hr. unfold connect. destruct (k_file k) as [| |i0]; try discriminate.
          destruct (nth_error (k_socks k) i0) as [[]|]; try discriminate. reflexivity. }
        assert (Hf : exists i0, k_file k = FSock i0).
        { unfold reached in Hr. destruct (k_file k) as [| |i0]; try discriminate. eauto. }
        destruct Hf as [i0 Hf].
        destruct (w j) as [h b p d]. unfold owned in Oth. cbn [v_at v_handle v_done] in *.
        assert (T : forall t, In t (match p with
            | AConnect t | AUnlink t | ACreate t => [t]
            | ASet t s | ABind t s | AListen t s => [t; s]
            | _ => [] end) -> t <> i).
        { intros t Ht ->. apply Oth. apply in_or_app. right. exact Ht. }
        unfold step, finish, go. cbn [v_at v_handle v_backlog].
        destruct p; try destruct Hp.
        - cbn [fst snd v_done v_at]. auto.
        - destruct inj; cbn [fst snd v_done v_at]; (split; [auto|]); (split; [discriminate|exact I]).
        - rewrite Hc. destruct inj as [[n|]|].
          + destruct (Z.eqb_spec n ECONNREFUSED) as [->|_]; [exfalso; apply Hin; reflexivity|].
            cbn [fst snd v_done v_at]. split; [auto|]. split; [discriminate|exact I].
          + cbn [fst snd v_done v_at]. split; [apply C; [apply T; left; reflexivity|assumption]|]. split; [discriminate|exact I].
          + cbn [fst snd v_done v_at]. split; [auto|]. split; [discriminate|exact I].
        - destruct inj; cbn [fst snd v_done v_at].
          + split; [apply C; [apply T; left; reflexivity|assumption]|]. split; [discriminate|exact I].
          + split; [|split; [discriminate|exact I]]. destruct h as [h|]; cbn [close_opt]; [|apply Nw; assumption].
            apply C; [|apply Nw; assumption]. intros ->. apply Oth. left. reflexivity.
        - destruct inj; cbn [fst snd v_done v_at].
          + split; [apply C; [apply T; left; reflexivity|assumption]|]. split; [discriminate|exact I].
          + split; [auto|]. split; [discriminate|exact I].
        - rewrite Hf. destruct inj; cbn [fst snd v_done v_at];
            (split; [apply C; [apply T; left; reflexivity|assumption]|]; split; [discriminate|exact I]). }
      destruct R as (R1 & R2 & R3). destruct (step inj k (w j)) as [k' v'] eqn:E. cbn [fst snd] in *.
      apply (Done k' j v' Hja); auto. cbn [happen]. rewrite E. reflexivity.
    - assert (Hja : j <> a) by (intros ->; apply (proj1 (proj2 Hee)); reflexivity).
      specialize (Oth j Hja). destruct (Hj j Hja) as [Hd Hp].
      destruct (v_at (w j)) eqn:E;
        [| (replace (happen (Close j) (k, w)) with (k, w) by (cbn [happen]; rewrite E; reflexivity); apply IH; auto) ..].
      apply (Done (fst (close k (w j))) j (snd (close k (w j))) Hja).
      + cbn [happen]. rewrite E. destruct (close k (w j)). reflexivity.
      + unfold close. cbn [fst]. destruct (v_handle (w j)) as [h|] eqn:Eh; cbn [close_opt]; [|exact Hr].
        apply C; [|exact Hr]. intros ->. apply Oth. unfold owned. rewrite Eh. left. reflexivity.
      + exact Hd.
      + unfold close. cbn [snd v_at]. rewrite E. exact I.
    - assert (Hja : j <> a) by (intros ->; apply (proj1 (proj2 (proj2 Hee))); reflexivity).
      specialize (Oth j Hja).
      apply (Done (fold_right close_sock k (owned (w j))) j (mksrv None 128 AIdle None) Hja); auto.
      + revert Oth. induction (owned (w j)) as [|t l IHl]; intros Oth; cbn [fold_right]; [exact Hr|].
        apply C; [intros ->; apply Oth; left; reflexivity|]. apply IHl. intros H. apply Oth. right. exact H.
      + discriminate.
      + exact I. }
  apply (G es y W Hr Hh Ha); auto. intros j Hja. destruct (Hj j Hja) as [H1 H2]. rewrite H1. auto.
Qed.

(** (defect) Two servers that start at the same time may both return from listen,
    where only one of them is reached: the other's path was deleted between its
    bind and its listen. *)
Theorem C75_race_refuted : exists es,
  let y := happens es (start FNone) in
  v_done (snd y O) = Some (Ok tt) /\ v_done (snd y 1%nat) = Some (Ok tt)
  /\ v_handle (snd y O) <> None /\ reached (fst y) = v_handle (snd y 1%nat)
  /\ v_handle (snd y O) <> v_handle (snd y 1%nat).
Proof.
  exists ([Call 0] ++ repeat (Step 0 None) 5 ++ [Call 1] ++ repeat (Step 1 None) 6 ++ [Step 0 None; Step 1 None])%nat.
  vm_compute. repeat split; discriminate.
Qed.

(** * When listen fails *)

Definition steps (injs : list (option oerr)) (k : kern) (v : srv) : kern * srv :=
  fold_left (fun kv inj => step inj (fst kv) (snd kv)) injs (k, v).

Lemma failed_inv injs : forall k v,
  match v_at v with
  | ATmp => v_handle v = None
  | AConnect t | AUnlink t | ACreate t => v_handle v = None /\ (t < length (k_socks k))%nat
  | ASet t s | ABind t s => v_handle v = Some s /\ t <> s /\ nth_error (k_socks k) s = Some SFresh
  | AListen t s => v_handle v = Some s /\ t <> s /\ nth_error (k_socks k) s = Some SBound
  | AIdle => (exists e, v_done v = Some (Raise e)) ->
             forall s, v_handle v = Some s -> exists x, nth_error (k_socks k) s = Some x /\ In x [SFresh; SBound]
  end ->
  forall k' v', steps injs k v = (k', v') -> v_at v' = AIdle ->
  (exists e, v_done v' = Some (Raise e)) ->
  forall s, v_handle v' = Some s -> exists x, nth_error (k_socks k') s = Some x /\ In x [SFresh; SBound].
Proof.
  induction injs as [|inj injs IH]; intros k v Hv k' v' E Ha He.
  - cbn in E. injection E as <- <-. rewrite Ha in Hv. exact (Hv He).
  - unfold steps in E. cbn [fold_left fst snd] in E. destruct (step inj k v) as [k1 v1] eqn:E1.
    refine (IH k1 v1 _ k' v' E Ha He). clear E Ha He IH k' v' injs.
    destruct v as [h b p d]. unfold step, finish, go in E1. cbn [v_at v_handle v_backlog v_done] in *.
    assert (CK : forall t s x, t <> s -> nth_error (k_socks k) s = Some x ->
                  nth_error (k_socks (close_sock t k)) s = Some x).
    { intros t s x H1 H2. unfold close_sock, set_sock. cbn [k_socks]. rewrite nth_upd_other by assumption. exact H2. }
    destruct p.
    + injection E1 as <- <-. cbn [v_at v_handle v_done]. exact Hv.
    + subst h. destruct inj; injection E1 as <- <-; cbn [v_at v_handle v_done].
      * intros _ s H. discriminate.
      * split; [reflexivity|]. unfold new_sock. cbn [k_socks]. rewrite app_length. cbn [length]. lia.
    + destruct Hv as [-> Ht]. destruct (match inj with Some e => Some e | None => connect k end) as [[n|]|];
        injection E1 as <- <-; cbn [v_at v_handle v_done]; auto.
      * destruct (n =? ECONNREFUSED); auto.
      * intros _ s H. discriminate.
    + destruct Hv as [-> Ht]. destruct inj; [|destruct (k_file k)]; injection E1 as <- <-; cbn [v_at v_handle v_done]; auto;
        intros _ s H; discriminate.
    + destruct Hv as [-> Ht]. destruct inj; injection E1 as <- <-; cbn [v_at v_handle v_done].
      * intros _ s H. discriminate.
      * split; [reflexivity|]. split; [lia|]. cbn [close_opt new_sock k_socks].
        rewrite nth_error_app2 by lia. rewrite Nat.sub_diag. reflexivity.
    + destruct Hv as (-> & Hne & Hn). destruct inj; injection E1 as <- <-; cbn [v_at v_handle v_done]; auto.
      intros _ s0 H. injection H as <-. exists SFresh. split; [auto|cbn; tauto].
    + destruct Hv as (-> & Hne & Hn).
      assert (Z : forall s0, Some s = Some s0 -> exists x, nth_error (k_socks (close_sock t k)) s0 = Some x /\ In x [SFresh; SBound]).
      { intros s0 H. injection H as <-. exists SFresh. split; [auto|cbn; tauto]. }
      destruct inj; [|destruct (k_file k)]; injection E1 as <- <-; cbn [v_at v_handle v_done]; auto.
      split; [reflexivity|]. split; [assumption|]. cbn [set_file set_sock k_socks].
      rewrite nth_upd by (apply nth_error_Some; congruence). rewrite Nat.eqb_refl. reflexivity.
    + destruct Hv as (-> & Hne & Hn). destruct inj; injection E1 as <- <-; cbn [v_at v_handle v_done].
      * intros _ s0 H. injection H as <-. exists SBound. split; [auto|cbn; tauto].
      * intros [e H]. discriminate.
Qed.

(** Whatever makes listen raise, the server does not listen; (defect) if it has
    a handle then it is one that cannot accept, and the backlog can no more be
    set. *)
Theorem C75_failed : forall injs k v k' v' e,
  v_at v = ATmp -> v_handle v = None -> steps injs k v = (k', v') ->
  v_at v' = AIdle -> v_done v' = Some (Raise e) ->
  reached k' <> v_handle v' \/ v_handle v' = None /\ forall c, accept k' v' c = Raise EAttributeError.
Proof.
  intros injs k v k' v' e H1 H2 H3 H4 H5.
  assert (F : forall s, v_handle v' = Some s -> exists x, nth_error (k_socks k') s = Some x /\ In x [SFresh; SBound]).
  { apply (failed_inv injs k v) with (v' := v'); auto; [rewrite H1; exact H2|eauto]. }
  destruct (v_handle v') as [s|] eqn:E.
  - left. destruct (F s eq_refl) as (x & Hx & Hi). unfold reached. destruct (k_file k') as [| |i]; try discriminate.
    destruct (Nat.eq_dec i s) as [->|Hne].
    + rewrite Hx. destruct Hi as [<-|[<-|[]]]; discriminate.
    + destruct (nth_error (k_socks k') i) as [[]|]; congruence.
  - right. split; [reflexivity|]. intros c. unfold accept. rewrite E. reflexivity.
Qed.
Theorem C75_failed_handle_fails : forall injs k v k' v' e s c n,
  v_at v = ATmp -> v_handle v = None -> steps injs k v = (k', v') ->
  v_at v' = AIdle -> v_done v' = Some (Raise e) -> v_handle v' = Some s ->
  accept k' v' c = Raise EOSError /\ setBacklog n v' = v'.
Proof.
  intros injs k v k' v' e s c n H1 H2 H3 H4 H5 H6.
  assert (F : forall s, v_handle v' = Some s -> exists x, nth_error (k_socks k') s = Some x /\ In x [SFresh; SBound]).
  { apply (failed_inv injs k v) with (v' := v'); auto; [rewrite H1; exact H2|eauto]. }
  destruct (F s H6) as (x & Hx & Hi). split.
  - unfold accept. rewrite H6, Hx. destruct Hi as [<-|[<-|[]]]; reflexivity.
  - unfold setBacklog. rewrite H6. reflexivity.
Qed.
Example C75_failed_ex :
  let (k', v') := steps [None; None; None; None; Some (Errno 13)] (mkkern FNone []) (mksrv None 5 ATmp None) in
  v_at v' = AIdle /\ v_done v' = Some (Raise EOSError) /\ v_handle v' = Some 1%nat
  /\ v_done (snd (steps [None; Some NoErrno] (mkkern FNone []) (mksrv None 5 ATmp None))) = Some (Raise EValueError).
Proof. vm_compute. auto. Qed.

(** * close, accept, setBacklog *)

(** A closed server is not reached and its path stays; it can be set up again;
    closing twice is closing once. *)
Theorem C75_close : forall k v i,
  v_handle v = Some i -> (i < length (k_socks k))%nat ->
  let (k', v') := close k v in
  reached k' <> Some i /\ k_file k' = k_file k /\ (forall c, accept k' v' c = Raise EAttributeError)
  /\ (forall n, v_backlog (setBacklog n v') = n) /\ close k' v' = (k', v').
Proof.
  intros k v i H Hi. unfold close. rewrite H. cbn [close_opt close_sock set_sock]. split; [|repeat split].
  unfold reached, close_sock, set_sock. cbn [set_sock k_file k_socks]. destruct (k_file k) as [| |j]; try discriminate.
  destruct (Nat.eq_dec i j) as [->|Hne].
  - rewrite nth_upd by assumption. rewrite Nat.eqb_refl. discriminate.
  - destruct (nth_error (upd (k_socks k) i SClosed) j) as [[]|]; congruence.
Qed.
(** While it listens it accepts what the kernel gives it. *)
Theorem C75_accept : forall k v i c b,
  v_handle v = Some i -> nth_error (k_socks k) i = Some (SListen b) -> accept k v c = Ok c.
Proof. intros k v i c b H1 H2. unfold accept. rewrite H1, H2. reflexivity. Qed.

(** * Cases *)

(** A server comes up, is killed, and comes up again at the path it left. *)
Example C75_restart_ex :
  let up := [Call 0] ++ repeat (Step 0 None) 7 in
  let y := happens (up ++ [Kill 0])%nat (start FNone) in
  k_file (fst y) = FSock 1 /\ reached (fst y) = None /\ v_at (snd y O) = AIdle
  /\ reached (fst (happens up y)) = Some 3%nat.
Proof. vm_compute. auto. Qed.
(** One listens, two more start and are interleaved. *)
Example C75_live_kept_ex :
  let y := happens ([Call 0] ++ repeat (Step 0 None) 7)%nat (start FNone) in
  reached (fst y) = Some 1%nat /\ v_handle (snd y O) = Some 1%nat /\ v_at (snd y O) = AIdle
  /\ let y' := happens [Call 1; Step 1 None; Call 2; Step 2 None; Step 1 None; Step 2 None; Step 2 None; Step 1 None;
                        Step 1 None; Step 2 None; Kill 1; Step 2 None]%nat y in
     reached (fst y') = Some 1%nat /\ v_done (snd y' 2%nat) = Some (Raise EOSError).
Proof. vm_compute. repeat split. Qed.
Example C75_twice_ex :
  let y := happens ([Call 0] ++ repeat (Step 0 None) 7 ++ [Call 0] ++ repeat (Step 0 None) 7)%nat (start FOther) in
  reached (fst y) = None /\ v_done (snd y O) = Some (Raise EOSError).
Proof. vm_compute. auto. Qed.

(** Axioms used. *)
Print Assumptions C75_address.
Print Assumptions C75_plain_int_fails.
Print Assumptions C75_up.
Print Assumptions C75_busy.
Print Assumptions C75_twice_fails.
Print Assumptions C75_file_deleted.
Print Assumptions C75_restart.
Print Assumptions C75_live_kept.
Print Assumptions C75_race_refuted.
Print Assumptions C75_failed.
Print Assumptions C75_failed_handle_fails.
Print Assumptions C75_close.
Print Assumptions C75_accept.
