(** Runs of the non-blocking server: waiting for input, the endless loop, closed
    connections, bad lengths. *)
From Coq Require Import ZArith List Bool Lia.
From Coq Require Import Init.Byte.
From Coq Require Import ZifyBool ZifyNat ZifyN.
From Verif Require Import Base Bytes BytesFacts Transport TransportFacts Nonblocking NonblockFacts.
Import ListNotations.
Open Scope Z_scope.

(** The kernel gives accepted connections non-negative descriptors. *)
Definition accepts_ok (e : nevent) : Prop :=
  match e with
  | Handle k => forall fd, In (RListen (Some fd)) (k_read k) -> 0 <= fd
  | Done _ _ => True
  end.

Definition empty_server : nserver := mksrv [] [].

Lemma run_inv poll evs r s fd c : Forall accepts_ok evs ->
  nrun poll evs empty_server = (r, s) -> In (fd, c) (clients s) ->
  NoDup (map fst (clients s)) /\ 0 <= fd /\ conn_inv c.
Proof.
  intros He E Hi.
  assert (H : all conn_inv (snd (nrun poll evs empty_server))).
  { apply (nrun_all conn_inv (fun _ => True)).
    - apply new_conn_inv.
    - apply n_close_inv.
    - intros rs c0 Hc _. apply n_read_inv. exact Hc.
    - apply n_write_inv.
    - apply n_ready_inv.
    - apply n_wait_inv.
    - apply n_hand_inv.
    - eapply Forall_impl; [|exact He]. intros [k|f a] H; cbn in *; [|exact I].
      split; [exact H|]. intros; exact I.
    - split; [constructor|]. intros ? ? []. }
  rewrite E in H. destruct H as [H1 H2]. split; [exact H1|]. apply H2. exact Hi.
Qed.

(** ** Receives shorter than the buffer leave [remaining] false *)

Definition short_recv (rs : list rres) : Prop :=
  Forall (fun r => match r with RData b => Z.of_nat (length b) < BUF_SIZE | RError => True end) rs.

Definition short_ok (e : nevent) : Prop :=
  match e with Handle k => forall fd, short_recv (k_recv k fd) | Done _ _ => True end.

(** The invariant, with [remaining] false. *)
Definition calm (c : nconn) : Prop := conn_inv c /\ n_remaining c = false.

Lemma recv_loop_calm rs first c : short_recv rs -> n_remaining c = false ->
  n_remaining (snd (recv_loop first rs c)) = false.
Proof.
  intros Hrs Hc. destruct rs as [|[b|] rs]; cbn [recv_loop]; destruct (n_open c); try exact Hc.
  inversion Hrs as [|? ? Hb _]; subst.
  assert (Eb : (Z.of_nat (length b) <? BUF_SIZE) = true) by lia. rewrite Eb.
  set (c2 := if first && (Z.of_nat (length b) =? 0) then n_close (n_add b c) else n_add b c).
  assert (H2 : n_remaining c2 = false) by (unfold c2; destruct (first && _); exact Hc).
  assert (Hf : forall f x, n_remaining (snd (frames f x)) = n_remaining x).
  { clear. induction f as [|f IH]; intros x; cbn [frames]; destruct (_ <? _); try reflexivity.
    destruct (g_header _); [destruct (_ <? 0); [reflexivity|]|]; rewrite IH; reflexivity. }
  specialize (Hf (2 * length (n_rbuf c2) + 2)%nat c2).
  destruct (frames _ c2) as [[u|e|] c3]; cbn [snd] in *; try congruence.
  destruct (n_received c3); reflexivity.
Qed.

Lemma run_calm poll evs r s fd c : Forall accepts_ok evs -> Forall short_ok evs ->
  nrun poll evs empty_server = (r, s) -> In (fd, c) (clients s) -> n_remaining c = false.
Proof.
  intros He Hsh E Hi.
  assert (H : all calm (snd (nrun poll evs empty_server))).
  { apply (nrun_all calm short_recv).
    - split; [apply new_conn_inv|reflexivity].
    - intros c0 [H1 H2]. split; [apply n_close_inv; exact H1|exact H2].
    - intros rs c0 [H1 H2] Hk. destruct (n_read_inv rs c0 H1) as [J1 J2]. split; [|exact J2].
      split; [exact J1|]. unfold n_read.
      destruct (n_status c0); try exact H2; destruct (n_received c0); try exact H2;
        apply recv_loop_calm; assumption.
    - intros x c0 [H1 H2]. split; [apply n_write_inv; exact H1|]. unfold n_write.
      destruct (n_status c0); try exact H2. destruct (n_open c0); [|exact H2].
      destruct x; [|exact H2]. cbn [snd]. destruct (Nat.eqb _ _); exact H2.
    - intros a c0 [H1 H2]. split; [apply n_ready_inv; exact H1|]. unfold n_ready.
      destruct (n_status c0); try exact H2. destruct a as [[|x m]|]; try exact H2.
      destruct (_ <=? _); exact H2.
    - intros c0 [H1 H2] Hi'. split; [apply n_wait_inv; assumption|exact H2].
    - intros m l c0 [H1 H2] Hr. split; [apply n_hand_inv; assumption|exact H2].
    - clear -He Hsh. induction He as [|e evs H1 He IH]; [constructor|].
      inversion Hsh; subst. constructor; [|apply IH; assumption].
      destruct e; cbn in *; [|exact I]. split; assumption.
    - split; [constructor|]. intros ? ? []. }
  rewrite E in H. destruct (proj2 H _ _ Hi) as [_ [_ H']]. exact H'.
Qed.

(** ** What a [handle] does for a given client *)

(** Serving [fd] leaves the other clients alone. *)
Lemma on_client_other A fd fd' (f : nconn -> outcome A * nconn) s : fd' <> fd ->
  find_client fd' (clients (snd (on_client fd f s))) = find_client fd' (clients s).
Proof.
  intros H. unfold on_client. destruct (find_client fd (clients s)); [|reflexivity].
  destruct (f n) as [r c']. cbn [snd clients]. apply find_put_other. exact H.
Qed.

Lemma hand_over_other poll fd fd' s : fd' <> fd ->
  find_client fd' (clients (snd (hand_over poll fd s))) = find_client fd' (clients s).
Proof.
  intros H. destruct (hand_over_cases poll fd s) as (r & s' & -> & Hc). cbn [snd].
  destruct Hc as [->|(c & m & l & _ & _ & [-> |[_ ->]])]; rewrite ?find_put_other by exact H;
    reflexivity.
Qed.

Lemma serve_client_other poll sel k fd fd' s : fd' <> fd ->
  find_client fd' (clients (snd (serve_client poll sel k fd s))) = find_client fd' (clients s).
Proof.
  intros H. rewrite serve_client_eq. unfold bind.
  set (f := if sel then on_client fd (n_read (k_recv k fd)) else on_client fd (fun c => (Ok tt, c))).
  assert (Hf : find_client fd' (clients (snd (f s))) = find_client fd' (clients s)).
  { unfold f. destruct sel; apply on_client_other; exact H. }
  destruct (f s) as [[u|e|] s1]; cbn [snd] in *; try exact Hf.
  rewrite hand_over_other by exact H. exact Hf.
Qed.

(** Serving a leftover: the first queued message is handed over. *)
Lemma leftover_hands poll k fd s s' c m l : find_client fd (clients s) = Some c ->
  n_received c = m :: l ->
  serve_client poll false k fd s = (Ok tt, s') ->
  find_client fd (clients s') = Some (n_hand m l (set_status WAIT_PROCESS c)).
Proof.
  intros Ef Er E. rewrite serve_client_eq in E. unfold bind, on_client in E. rewrite Ef in E.
  destruct (hand_over_cases poll fd (mksrv (put_client fd c (clients s)) (polled s)))
    as (r & s2 & E2 & H). rewrite E2 in E.
  assert (r = Ok tt) by congruence. assert (s2 = s') by congruence. subst r s2.
  cbn [clients] in H. rewrite find_put_same in H.
  unfold hand_over in E2. cbn [clients polled] in E2. rewrite find_put_same, Er in E2.
  unfold bind, on_client in E2. cbn [clients polled] in E2. rewrite find_put_same in E2.
  destruct poll.
  - match type of E2 with context [unregister ?x ?y] => set (s1 := y) in *;
      pose proof (unregister_clients x s1) as Hu; destruct (unregister x s1) as [[[]|e|] s3] end;
      cbn [snd] in Hu; try discriminate.
    rewrite Hu in E2. unfold s1 in E2. cbn [clients] in E2. rewrite find_put_same in E2.
    assert (E3 : s' = snd (Ok tt, s')) by reflexivity. rewrite <- E2 in E3. cbn [snd] in E3.
    rewrite E3. cbn [clients]. apply find_put_same.
  - unfold ret in E2. cbn [clients] in E2. rewrite find_put_same in E2.
    assert (E3 : s' = snd (Ok tt, s')) by reflexivity. rewrite <- E2 in E3. cbn [snd] in E3.
    rewrite E3. cbn [clients]. apply find_put_same.
Qed.

Lemma leftovers_other poll k l : forall s fd, ~ In fd l ->
  find_client fd (clients (snd (mapM_ (serve_readable poll false k) (map RClient l) s)))
  = find_client fd (clients s).
Proof.
  induction l as [|f l IH]; intros s fd Hn; [reflexivity|].
  cbn [map mapM_ serve_readable]. unfold bind.
  pose proof (serve_client_other poll false k f fd s) as H.
  destruct (serve_client poll false k f s) as [[[]|e|] s1]; cbn [snd] in *;
    try (apply H; intros ->; apply Hn; left; reflexivity).
  rewrite IH by (intros Hi; apply Hn; right; exact Hi).
  apply H. intros ->. apply Hn. left. reflexivity.
Qed.

Lemma leftovers_hand poll k l : forall s s' fd c m r, NoDup l -> In fd l ->
  find_client fd (clients s) = Some c -> n_received c = m :: r ->
  mapM_ (serve_readable poll false k) (map RClient l) s = (Ok tt, s') ->
  find_client fd (clients s') = Some (n_hand m r (set_status WAIT_PROCESS c)).
Proof.
  induction l as [|f l IH]; intros s s' fd c m r Hn Hi Ef Er E; [contradiction|].
  cbn [map mapM_ serve_readable] in E. unfold bind in E. inversion Hn as [|? ? Hf Hl]; subst.
  destruct (serve_client poll false k f s) as [[[]|e|] s1] eqn:E1; try discriminate.
  destruct Hi as [->|Hi].
  - pose proof (leftover_hands _ _ _ _ _ _ _ _ Ef Er E1) as H.
    pose proof (leftovers_other poll k l s1 fd Hf) as Ho. rewrite E in Ho. cbn [snd] in Ho.
    rewrite Ho. exact H.
  - apply (IH s1 s' fd c m r Hl Hi); [|exact Er|exact E].
    pose proof (serve_client_other poll false k f fd s) as Ho. rewrite E1 in Ho. cbn [snd] in Ho.
    rewrite Ho by (intros ->; contradiction). exact Ef.
Qed.

(** Descriptors in the list of leftovers are distinct if the sockets are open. *)
Lemma leftover_nodup l : NoDup (map fst l) ->
  (forall fd c, In (fd, c) l -> left_over c = true -> n_open c = true) ->
  NoDup (map (fun p => n_fileno (fst p) (snd p)) (filter (fun p => left_over (snd p)) l)).
Proof.
  induction l as [|[fd c] l IH]; intros Hn Ho; [constructor|].
  cbn [map fst] in Hn. inversion Hn as [|? ? Hk Hl]; subst.
  assert (IH' := IH Hl (fun fd' c' H => Ho fd' c' (or_intror H))). cbn [filter snd].
  destruct (left_over c) eqn:El; [|exact IH']. cbn [map fst snd].
  constructor; [|exact IH']. unfold n_fileno at 1. rewrite (Ho fd c (or_introl eq_refl) El).
  intros Hi. apply in_map_iff in Hi as ([fd' c'] & E & Hi). cbn [fst snd] in E.
  apply filter_In in Hi as [Hi Hl']. cbn [snd] in Hl'. unfold n_fileno in E.
  rewrite (Ho fd' c' (or_intror Hi) Hl') in E. subst fd'. apply Hk.
  apply (in_map fst) in Hi. exact Hi.
Qed.

(** A message queued on a readable client is handed over by the next [handle]. *)
Lemma handle_hands poll k s s' fd c m r :
  NoDup (map fst (clients s)) -> (forall fd c, In (fd, c) (clients s) -> 0 <= fd) ->
  find_client fd (clients s) = Some c -> n_readable c = true -> n_open c = true ->
  n_received c = m :: r -> handle poll k s = (Ok tt, s') ->
  find_client fd (clients s') = Some (n_hand m r (set_status WAIT_PROCESS c)).
Proof.
  intros Hn Hp Ef Hr Ho Er E. unfold handle, bind at 1 in E.
  destruct (scan poll (clients s) s) as [[[rem b]|e|] s1] eqn:Es; try discriminate.
  destruct (scan_table _ _ _ _ Hn Es) as (T1 & T2 & T3 & T4).
  destruct (scan_result _ _ _ _ _ _ Es) as (R1 & _ & _).
  assert (Hi : In fd rem).
  { rewrite R1. apply in_map_iff. exists (fd, c). cbn [fst snd]. split.
    - unfold n_fileno. rewrite Ho. reflexivity.
    - apply filter_In. split; [apply find_In; exact Ef|]. cbn [snd]. unfold left_over.
      rewrite Hr, Er, Bool.orb_true_r. reflexivity. }
  destruct rem as [|f0 rem0]; [contradiction|].
  assert (Ef1 : find_client fd (clients s1) = Some c).
  { apply In_find; [exact T1|]. apply T3; [apply find_In; exact Ef|].
    apply readable_not_closed. exact Hr. }
  (* a closed socket would have made the loop stop with KeyError *)
  assert (Hop : forall l s0 s9, mapM_ (serve_readable poll false k) (map RClient l) s0 = (Ok tt, s9) ->
    (forall fd' c', In (fd', c') (clients s0) -> 0 <= fd') -> ~ In (-1) l).
  { clear. induction l as [|f l IH]; intros s0 s9 E Hp; [auto|].
    cbn [map mapM_ serve_readable] in E. unfold bind in E.
    destruct (serve_client poll false k f s0) as [[[]|e|] s2] eqn:E2; try discriminate.
    intros [->|Hi].
    - rewrite serve_client_eq in E2. unfold bind, on_client in E2.
      destruct (find_client (-1) (clients s0)) as [c|] eqn:Ef; [|discriminate].
      apply find_In, Hp in Ef. lia.
    - revert Hi. apply (IH _ _ E). intros fd' c' Hi.
      rewrite serve_client_eq in E2. unfold bind, on_client in E2.
      destruct (find_client f (clients s0)) as [c|] eqn:Ef; [|discriminate].
      pose proof (Hp _ _ (find_In _ _ _ Ef)) as Hf.
      match type of E2 with hand_over _ _ ?x = _ => set (s1 := x) in * end.
      assert (H1 : forall fd' c', In (fd', c') (clients s1) -> 0 <= fd').
      { intros a b H. unfold s1 in H. cbn [clients] in H. apply put_In in H as [H|H].
        - assert (a = f) by congruence. lia.
        - apply (Hp _ _ H). }
      destruct (hand_over_cases poll f s1) as (r & s3 & E3 & H).
      rewrite E3 in E2. assert (s3 = s2) by congruence. subst s3.
      destruct H as [H|(c0 & m & l0 & _ & _ & [H|[_ H]])]; rewrite H in Hi.
      + apply (H1 _ _ Hi).
      + apply put_In in Hi as [Hi|Hi]; [assert (fd' = f) by congruence; lia|apply (H1 _ _ Hi)].
      + apply put_In in Hi as [Hi|Hi]; [assert (fd' = f) by congruence; lia|].
        apply put_In in Hi as [Hi|Hi]; [assert (fd' = f) by congruence; lia|apply (H1 _ _ Hi)]. }
  assert (Hneg : ~ In (-1) (f0 :: rem0)).
  { apply (Hop _ _ _ E). intros fd' c' H. apply (Hp fd' c'). apply T2. exact H. }
  assert (Hnd : NoDup (f0 :: rem0)).
  { rewrite R1. apply leftover_nodup; [exact Hn|]. intros fd' c' H1 H2.
    destruct (n_open c') eqn:Eo; [reflexivity|]. exfalso. apply Hneg. rewrite R1.
    apply in_map_iff. exists (fd', c'). cbn [fst snd]. unfold n_fileno. rewrite Eo.
    split; [reflexivity|]. apply filter_In. auto. }
  exact (leftovers_hand poll k _ s1 s' fd c m r Hnd Hi Ef1 Er E).
Qed.

(** With nothing left over and every active socket open, [handle] gets to the
    kernel: the scan only removes closed clients. *)
Lemma scan_quiet poll l : forall s,
  (forall fd c, In (fd, c) l -> left_over c = false) ->
  (forall fd c, In (fd, c) l -> active c = true -> n_open c = true) ->
  (forall fd c, In (fd, c) l -> 0 <= fd) ->
  exists s', scan poll l s = (Ok ([], false), s')
    /\ (poll = true -> forall fd, (exists c, In (fd, c) l /\ active c = true) \/ In fd (polled s) ->
        (forall c, In (fd, c) l -> n_closed c = false) -> In fd (polled s')).
Proof.
  induction l as [|[fd c] l IH]; intros s Hl Ho Hp; cbn [scan].
  - exists s. split; [reflexivity|]. intros _ fd [(c & [] & _)|H] _. exact H.
  - pose proof (Hl fd c (or_introl eq_refl)) as Hlc. pose proof (Ho fd c (or_introl eq_refl)) as Hoc.
    pose proof (Hp fd c (or_introl eq_refl)) as Hpc.
    change (n_readable c || n_writeable c) with (active c).
    change (n_readable c && (n_remaining c || match n_received c with [] => false | _ => true end))
      with (left_over c). rewrite Hlc.
    assert (H1 : exists s1, (if active c && poll then register (n_fileno fd c) else ret tt) s
      = (Ok tt, s1) /\ (poll = true -> forall f, (f = fd /\ active c = true) \/ In f (polled s) ->
         In f (polled s1))).
    { destruct (active c && poll) eqn:Ea.
      - apply andb_prop in Ea as [Ea _]. unfold register, n_fileno. rewrite (Hoc Ea).
        destruct (fd <? 0) eqn:E0; [lia|]. eexists. split; [reflexivity|]. cbn [polled].
        intros _ f [[-> _]|H]; [left; reflexivity|].
        destruct (Z.eq_dec f fd) as [->|Hne]; [left; reflexivity|]. right. apply filter_In.
        split; [exact H|]. lia.
      - eexists. split; [reflexivity|]. intros -> f [[_ Hac]|H]; [|exact H].
        rewrite Hac in Ea. discriminate. }
    destruct H1 as (s1 & E1 & P1). unfold bind at 1. rewrite E1. unfold bind at 1.
    set (s2 := snd ((if n_closed c then forget poll fd else ret tt) s1)).
    assert (E2 : (if n_closed c then forget poll fd else ret tt) s1 = (Ok tt, s2))
      by (unfold s2; destruct (n_closed c); reflexivity).
    rewrite E2. unfold bind.
    destruct (IH s2) as (s3 & E3 & P3);
      [intros; eapply Hl; right; eassumption|intros; eapply Ho; [right; eassumption|assumption]
      |intros; eapply Hp; right; eassumption|].
    rewrite E3. unfold ret. cbn [app].
    assert (En : active c && (n_fileno fd c <? 0) || false = false).
    { destruct (active c); [|reflexivity]. unfold n_fileno. rewrite (Hoc eq_refl). cbn. lia. }
    rewrite En. exists s3. split; [reflexivity|]. intros Hpo f Hf Hcl. apply P3; [exact Hpo| |].
    + assert (G : (f = fd /\ active c = true) \/ In f (polled s) -> In f (polled s2)).
      { intros H. pose proof (P1 Hpo f H) as H1. unfold s2.
        destruct (n_closed c) eqn:Ec; [|exact H1]. unfold forget. cbn [snd polled].
        rewrite Hpo. apply filter_In. split; [exact H1|].
        destruct (Z.eq_dec f fd) as [->|Hne]; [|lia].
        pose proof (Hcl c (or_introl eq_refl)). congruence. }
      destruct Hf as [(c' & [Hc'|Hc'] & Ha)|Hf].
      * assert (fd = f) by congruence. assert (c = c') by congruence. subst. right. apply G. auto.
      * left. exists c'. auto.
      * right. apply G. auto.
    + intros c' H. apply Hcl. right. exact H.
Qed.

(** The bytes of a short receive are taken. *)
Lemma frames_got : forall f c, n_got (snd (frames f c)) = n_got c.
Proof.
  induction f as [|f IH]; intros x; cbn [frames]; destruct (_ <? _); try reflexivity.
  destruct (g_header _); [destruct (_ <? 0); [reflexivity|]|]; rewrite IH; reflexivity.
Qed.

Lemma n_read_got b rs c : n_readable c = true -> n_open c = true -> n_received c = [] ->
  Z.of_nat (length b) < BUF_SIZE -> n_got (snd (n_read (RData b :: rs) c)) = n_got c ++ b.
Proof.
  intros Hr Ho Hv Hb. unfold n_read. rewrite Hv.
  assert (G : n_got (snd (recv_loop true (RData b :: rs) c)) = n_got c ++ b).
  { cbn [recv_loop]. rewrite Ho.
    assert (Eb : (Z.of_nat (length b) <? BUF_SIZE) = true) by lia. rewrite Eb.
    set (c2 := if true && (Z.of_nat (length b) =? 0) then n_close (n_add b c) else n_add b c).
    assert (H2 : n_got c2 = n_got c ++ b) by (unfold c2; destruct (true && _); reflexivity).
    pose proof (frames_got (2 * length (n_rbuf c2) + 2)%nat c2) as Hf.
    destruct (frames _ c2) as [[u|e|] c3]; cbn [snd] in *; try congruence.
    destruct (n_received c3); cbn [snd set_remaining set_status n_got]; congruence. }
  unfold n_readable in Hr. destruct (n_status c); try discriminate; exact G.
Qed.

Definition touches (fd : Z) (r : rfd) : bool :=
  match r with RListen (Some x) | RClient x => x =? fd | _ => false end.

Lemma readables_other poll k l : forall s fd, existsb (touches fd) l = false ->
  find_client fd (clients (snd (mapM_ (serve_readable poll true k) l s)))
  = find_client fd (clients s).
Proof.
  induction l as [|x l IH]; intros s fd Hn; [reflexivity|].
  cbn [existsb] in Hn. apply orb_false_elim in Hn as [Hx Hn].
  cbn [mapM_]. unfold bind.
  assert (H : find_client fd (clients (snd (serve_readable poll true k x s)))
              = find_client fd (clients s)).
  { destruct x as [[a|]| |a]; cbn [serve_readable touches] in *; try reflexivity.
    - cbn [snd clients]. apply find_put_other. lia.
    - apply serve_client_other. lia. }
  destruct (serve_readable poll true k x s) as [[[]|e|] s1]; cbn [snd] in *; try exact H.
  rewrite IH by exact Hn. exact H.
Qed.

Lemma on_clients_got (f : Z -> nconn -> outcome unit * nconn) l :
  (forall fd c, n_got (snd (f fd c)) = n_got c) ->
  forall s fd c, find_client fd (clients s) = Some c ->
  exists c', find_client fd (clients (snd (mapM_ (fun fd => on_client fd (f fd)) l s))) = Some c'
    /\ n_got c' = n_got c.
Proof.
  intros Hf. induction l as [|x l IH]; intros s fd c Ef; [exists c; auto|].
  cbn [mapM_]. unfold bind.
  assert (G : exists c1, find_client fd (clients (snd (on_client x (f x) s))) = Some c1
              /\ n_got c1 = n_got c).
  { destruct (Z.eq_dec fd x) as [->|Hne].
    - unfold on_client. rewrite Ef. specialize (Hf x c). destruct (f x c) as [r c1].
      cbn [snd clients] in *. exists c1. rewrite find_put_same. auto.
    - rewrite on_client_other by exact Hne. exists c. auto. }
  destruct G as (c1 & E1 & G1).
  destruct (on_client x (f x) s) as [[[]|e|] s1]; cbn [snd] in *; try (exists c1; auto; fail).
  destruct (IH s1 fd c1 E1) as (c2 & E2 & G2). exists c2. split; [exact E2|congruence].
Qed.

Lemma n_write_got r c : n_got (snd (n_write r c)) = n_got c.
Proof.
  unfold n_write. destruct (n_status c); try reflexivity. destruct (n_open c); [|reflexivity].
  destruct r; [|reflexivity]. cbn [snd]. destruct (Nat.eqb _ _); reflexivity.
Qed.

Lemma handle_reads poll k s fd c b rs l :
  NoDup (map fst (clients s)) -> (forall fd c, In (fd, c) (clients s) -> 0 <= fd) ->
  (forall fd c, In (fd, c) (clients s) -> left_over c = false) ->
  (forall fd c, In (fd, c) (clients s) -> active c = true -> n_open c = true) ->
  find_client fd (clients s) = Some c -> n_readable c = true ->
  k_read k = RClient fd :: l -> existsb (touches fd) l = false ->
  k_recv k fd = RData b :: rs -> Z.of_nat (length b) < BUF_SIZE ->
  exists c', find_client fd (clients (snd (handle poll k s))) = Some c'
    /\ n_got c' = n_got c ++ b.
Proof.
  intros Hn Hp Hl Ho Ef Hr Hk Ht Hrecv Hb. unfold handle, bind at 1.
  destruct (scan_quiet poll (clients s) s Hl Ho Hp) as (s1 & Es & _). rewrite Es.
  destruct (scan_table _ _ _ _ Hn Es) as (T1 & T2 & T3 & T4).
  assert (Ef1 : find_client fd (clients s1) = Some c).
  { apply In_find; [exact T1|]. apply T3; [apply find_In; exact Ef|].
    apply readable_not_closed. exact Hr. }
  rewrite Bool.andb_false_r. rewrite Hk. cbn [mapM_ serve_readable].
  assert (Hoc : n_open c = true).
  { apply (Ho fd c (find_In _ _ _ Ef)). unfold active. rewrite Hr. reflexivity. }
  assert (Hv : n_received c = []).
  { pose proof (Hl fd c (find_In _ _ _ Ef)) as H. unfold left_over in H. rewrite Hr in H.
    destruct (n_received c); [reflexivity|]. rewrite Bool.orb_true_r in H. discriminate. }
  assert (G : exists c1, find_client fd (clients (snd (serve_client poll true k fd s1))) = Some c1
              /\ n_got c1 = n_got c ++ b).
  { rewrite serve_client_eq, Hrecv. unfold bind, on_client. rewrite Ef1.
    pose proof (n_read_got b rs c Hr Hoc Hv Hb) as Hg.
    destruct (n_read (RData b :: rs) c) as [o c1]. cbn [snd] in Hg.
    set (s2 := mksrv (put_client fd c1 (clients s1)) (polled s1)).
    assert (F2 : find_client fd (clients s2) = Some c1) by apply find_put_same.
    destruct o as [[]|e|]; try (exists c1; split; [exact F2|exact Hg]; fail).
    destruct (hand_over_cases poll fd s2) as (r & s3 & E3 & H).
    exists (match find_client fd (clients s3) with Some c3 => c3 | None => c1 end).
    change (find_client fd (clients (snd (hand_over poll fd s2))) =
      Some match find_client fd (clients s3) with Some c3 => c3 | None => c1 end /\
      n_got match find_client fd (clients s3) with Some c3 => c3 | None => c1 end = n_got c ++ b).
    rewrite E3. cbn [snd].
    destruct H as [->|(c0 & m & l0 & F & _ & [-> |[_ ->]])].
    - rewrite F2. auto.
    - rewrite find_put_same. split; [reflexivity|]. cbn. congruence.
    - rewrite find_put_same. split; [reflexivity|]. cbn. congruence. }
  destruct G as (c1 & F1 & G1). unfold bind.
  destruct (serve_client poll true k fd s1) as [[[]|e|] s2]; cbn [snd] in F1;
    try (exists c1; split; [exact F1|exact G1]; fail).
  pose proof (readables_other poll k l s2 fd Ht) as H3.
  destruct (mapM_ (serve_readable poll true k) l s2) as [[[]|e|] s3]; cbn [snd] in H3;
    try (exists c1; cbn [snd]; split; [congruence|exact G1]; fail).
  assert (F3 : find_client fd (clients s3) = Some c1) by congruence.
  destruct (on_clients_got (fun fd => n_write (k_send k fd)) (k_write k)
    (fun f c => n_write_got _ c) s3 fd c1 F3) as (c4 & F4 & G4).
  destruct (mapM_ (fun fd => on_client fd (n_write (k_send k fd))) (k_write k) s3)
    as [[[]|e|] s4]; cbn [snd] in F4;
    try (exists c4; cbn [snd]; split; [exact F4|congruence]; fail).
  destruct (on_clients_got (fun _ c => (Ok tt, n_close c)) (k_err k)
    (fun f c => eq_refl) s4 fd c4 F4) as (c5 & F5 & G5).
  exists c5. split; [exact F5|congruence].
Qed.

(** ** The endless loop *)

Definition stuck (s : nserver) : Prop :=
  exists fd c, In (fd, c) (clients s) /\ n_readable c = true /\ n_open c = true
    /\ n_remaining c = true /\ n_received c = [].

(** The traffic of the clients of [s'] is that of the clients of [s]. *)
Definition no_traffic (s s' : nserver) : Prop :=
  forall fd c', In (fd, c') (clients s') ->
  exists c, In (fd, c) (clients s) /\ n_got c' = n_got c /\ n_sent c' = n_sent c.

Lemma no_traffic_refl s : no_traffic s s.
Proof. intros fd c H. exists c. auto. Qed.

Lemma no_traffic_trans s1 s2 s3 : no_traffic s1 s2 -> no_traffic s2 s3 -> no_traffic s1 s3.
Proof.
  intros H1 H2 fd c H. destruct (H2 fd c H) as (c2 & I2 & G2 & S2).
  destruct (H1 fd c2 I2) as (c1 & I1 & G1 & S1). exists c1. split; [exact I1|]. split; congruence.
Qed.

(** [fd] is in the table with the connection [c]. *)
Definition has (s : nserver) (fd : Z) (c : nconn) : Prop :=
  NoDup (map fst (clients s)) /\ find_client fd (clients s) = Some c.

Lemma put_quiet fd c c0 s p : find_client fd (clients s) = Some c0 ->
  n_got c = n_got c0 -> n_sent c = n_sent c0 ->
  no_traffic s (mksrv (put_client fd c (clients s)) p).
Proof.
  intros Ef Hg Hs fd' c' Hi. cbn [clients] in Hi. apply put_In in Hi as [E|Hi].
  - assert (fd' = fd) by congruence. assert (c' = c) by congruence. subst.
    exists c0. split; [apply find_In; exact Ef|]. auto.
  - exists c'. auto.
Qed.

Lemma leftover_quiet poll k fd s : no_traffic s (snd (serve_client poll false k fd s)).
Proof.
  rewrite serve_client_eq. unfold bind, on_client.
  destruct (find_client fd (clients s)) as [c|] eqn:Ef; [|apply no_traffic_refl].
  set (s1 := mksrv (put_client fd c (clients s)) (polled s)).
  assert (H1 : no_traffic s s1) by (eapply put_quiet; [exact Ef|reflexivity|reflexivity]).
  change (no_traffic s (snd (hand_over poll fd s1))).
  destruct (hand_over_cases poll fd s1) as (r & s2 & E2 & H). rewrite E2. cbn [snd].
  eapply no_traffic_trans; [exact H1|].
  destruct H as [H|(c0 & m & l & F & _ & [H|[_ H]])].
  - intros fd' c' Hi. rewrite H in Hi. exists c'. auto.
  - intros fd' c' Hi. rewrite H in Hi.
    apply (put_quiet fd (set_status WAIT_PROCESS c0) c0 s1 (polled s1) F eq_refl eq_refl). exact Hi.
  - intros fd' c' Hi. rewrite H in Hi. apply put_In in Hi as [E|Hi].
    + assert (fd' = fd) by congruence. subst fd'. exists c0. split; [apply find_In; exact F|].
      assert (c' = n_hand m l (set_status WAIT_PROCESS c0)) by congruence. subst c'. auto.
    + apply (put_quiet fd (set_status WAIT_PROCESS c0) c0 s1 (polled s1) F eq_refl eq_refl). exact Hi.
Qed.

Lemma leftovers_quiet poll k l : forall s,
  no_traffic s (snd (mapM_ (serve_readable poll false k) (map RClient l) s)).
Proof.
  induction l as [|fd l IH]; intros s; [apply no_traffic_refl|].
  cbn [map mapM_ serve_readable]. unfold bind. pose proof (leftover_quiet poll k fd s) as H.
  destruct (serve_client poll false k fd s) as [[[]|e|] s1]; cbn [snd] in *; try exact H.
  eapply no_traffic_trans; [exact H|apply IH].
Qed.

(** A client with an empty queue is not changed by the leftovers. *)
Lemma leftovers_keep poll k l : forall s fd c, has s fd c -> n_received c = [] ->
  has (snd (mapM_ (serve_readable poll false k) (map RClient l) s)) fd c.
Proof.
  induction l as [|f l IH]; intros s fd c Hh Hv; [exact Hh|].
  cbn [map mapM_ serve_readable]. unfold bind.
  assert (H : has (snd (serve_client poll false k f s)) fd c).
  { destruct Hh as [Hn Ef]. split.
    - rewrite serve_client_eq. unfold bind, on_client.
      destruct (find_client f (clients s)) as [c0|] eqn:Ef0; [|exact Hn].
      set (s1 := mksrv (put_client f c0 (clients s)) (polled s)).
      assert (H1 : NoDup (map fst (clients s1))) by (apply put_keys; exact Hn).
      change (NoDup (map fst (clients (snd (hand_over poll f s1))))).
      destruct (hand_over_cases poll f s1) as (r & s2 & E2 & H). rewrite E2. cbn [snd].
      destruct H as [-> |(c1 & m & l0 & F & _ & [-> |[_ ->]])]; auto using put_keys.
    - destruct (Z.eq_dec fd f) as [->|Hne]; [|rewrite serve_client_other by exact Hne; exact Ef].
      rewrite serve_client_eq. unfold bind, on_client. rewrite Ef.
      set (s1 := mksrv (put_client f c (clients s)) (polled s)).
      change (find_client f (clients (snd (hand_over poll f s1))) = Some c).
      assert (F1 : find_client f (clients s1) = Some c) by apply find_put_same.
      unfold hand_over. rewrite F1, Hv. exact F1. }
  destruct (serve_client poll false k f s) as [[[]|e|] s1]; cbn [snd] in *; try exact H.
  apply IH; assumption.
Qed.

Lemma n_ready_quiet a c : n_got (snd (n_ready a c)) = n_got c /\ n_sent (snd (n_ready a c)) = n_sent c.
Proof.
  unfold n_ready. destruct (n_status c); auto. destruct a as [[|x m]|]; auto.
  destruct (_ <=? _); auto.
Qed.

Lemma stuck_step poll e s : NoDup (map fst (clients s)) -> stuck s ->
  NoDup (map fst (clients (snd (nstep poll e s)))) /\ stuck (snd (nstep poll e s))
  /\ no_traffic s (snd (nstep poll e s)).
Proof.
  intros Hn (fd & c & Hi & Hr & Ho & Hrem & Hv).
  assert (Ef : find_client fd (clients s) = Some c) by (apply In_find; assumption).
  destruct e as [k|fd0 a]; cbn [nstep].
  - destruct (handle poll k s) as [o' s'] eqn:E. unfold handle, bind at 1 in E. cbn [snd].
    destruct (scan poll (clients s) s) as [o s1] eqn:Es.
    destruct (scan_table _ _ _ _ Hn Es) as (T1 & T2 & T3 & T4).
    assert (I1 : In (fd, c) (clients s1)) by (apply T3; [exact Hi|apply readable_not_closed; exact Hr]).
    assert (N1 : no_traffic s s1) by (intros f x Hx; exists x; split; [apply T2; exact Hx|auto]).
    assert (S1 : stuck s1) by (exists fd, c; auto).
    destruct o as [[rem b]|e|]; try (assert (s' = s1) by congruence; subst s'; auto; fail).
    destruct (scan_result _ _ _ _ _ _ Es) as (R1 & _ & _).
    assert (Hfd : In fd rem).
    { rewrite R1. apply in_map_iff. exists (fd, c). cbn [fst snd]. split.
      - unfold n_fileno. rewrite Ho. reflexivity.
      - apply filter_In. split; [exact Hi|]. cbn [snd]. unfold left_over. rewrite Hr, Hrem. reflexivity. }
    destruct rem as [|f0 rem0]; [contradiction|].
    assert (Hh : has s1 fd c) by (split; [exact T1|apply In_find; assumption]).
    destruct (leftovers_keep poll k (f0 :: rem0) s1 fd c Hh Hv) as [K1 K2].
    pose proof (leftovers_quiet poll k (f0 :: rem0) s1) as K3.
    rewrite E in K1, K2, K3. cbn [snd] in K1, K2, K3.
    split; [exact K1|]. split.
    + exists fd, c. split; [exact (find_In _ _ _ K2)|auto].
    + eapply no_traffic_trans; [exact N1|exact K3].
  - destruct (find_client fd0 (clients s)) as [c0|] eqn:Ef0; cbn [snd].
    2:{ split; [exact Hn|]. split; [exists fd, c; auto|apply no_traffic_refl]. }
    destruct (n_ready_quiet a c0) as [Q1 Q2]. split; [apply put_keys; exact Hn|]. split.
    + exists fd, c. cbn [clients]. split; [|auto]. apply find_In.
      destruct (Z.eq_dec fd fd0) as [->|Hne].
      * rewrite find_put_same. assert (c0 = c) by congruence. subst c0.
        unfold n_ready, n_readable in *. destruct (n_status c); try discriminate; reflexivity.
      * rewrite find_put_other by exact Hne. exact Ef.
    + eapply put_quiet; eassumption.
Qed.

Lemma stuck_run poll evs : forall s, NoDup (map fst (clients s)) -> stuck s ->
  stuck (snd (nrun poll evs s)) /\ no_traffic s (snd (nrun poll evs s)).
Proof.
  induction evs as [|e evs IH]; intros s Hn Hs; [split; [exact Hs|apply no_traffic_refl]|].
  cbn [nrun]. unfold bind. destruct (stuck_step poll e s Hn Hs) as (H1 & H2 & H3).
  destruct (nstep poll e s) as [[[]|x|] s1]; cbn [snd] in *; auto.
  destruct (IH s1 H1 H2) as [J1 J2]. split; [exact J1|]. eapply no_traffic_trans; eassumption.
Qed.

(** ** One receive that completes frames *)

Lemma n_read_frames c b rs ps r : conn_inv c -> n_readable c = true -> n_open c = true ->
  n_received c = [] -> b <> [] -> n_rbuf c ++ b = stream_of ps r -> Forall small ps ->
  no_frame r -> ps <> [] ->
  exists rd, n_read (RData b :: rs) c
    = (Ok tt, set_remaining (negb (Z.of_nat (length b) <? BUF_SIZE))
                (after (n_add b c) WAIT_PROCESS rd ps r)).
Proof.
  intros Hc Hr Ho Hv Hb Es Hps Hnr Hne.
  destruct (round_ok c b (settled_reading _ _ (ci_reading _ Hc)))
    as (ps' & r' & st & rd & Es' & Hps' & Hnr' & Efr & _ & _).
  assert (ps' = ps /\ r' = r) as [-> ->].
  { apply stream_unique; auto. congruence. }
  exists rd.
  assert (G : recv_loop true (RData b :: rs) c
    = (Ok tt, set_remaining (negb (Z.of_nat (length b) <? BUF_SIZE))
                (after (n_add b c) WAIT_PROCESS rd ps r))).
  { cbn [recv_loop]. rewrite Ho.
    assert (Eb : true && (Z.of_nat (length b) =? 0) = false) by (destruct b; [congruence|reflexivity]).
    rewrite Eb. rewrite Efr by (cbn [n_add n_rbuf]; lia).
    assert (Em : n_received (after (n_add b c) st rd ps r) = msgs ps r).
    { unfold after. cbn [n_received n_add]. rewrite Hv. reflexivity. }
    rewrite Em. destruct ps as [|p ps]; [congruence|]. reflexivity. }
  unfold n_read. rewrite Hv. unfold n_readable in Hr. destruct (n_status c); try discriminate; exact G.
Qed.

(** ** A bad length after a complete frame *)

(** With [poll]: the exception leaves [handle]. *)
Lemma bad_after_frame_poll k s fd c b rs l ps r :
  NoDup (map fst (clients s)) -> (forall fd c, In (fd, c) (clients s) -> 0 <= fd) ->
  (forall fd c, In (fd, c) (clients s) -> left_over c = false) ->
  (forall fd c, In (fd, c) (clients s) -> active c = true -> n_open c = true) ->
  find_client fd (clients s) = Some c -> conn_inv c -> n_readable c = true ->
  k_read k = RClient fd :: l -> k_recv k fd = RData b :: rs ->
  n_rbuf c ++ b = stream_of ps r -> Forall small ps -> ps <> [] -> bad r -> b <> [] ->
  exists s' c', handle true k s = (Raise EValueError, s')
    /\ find_client fd (clients s') = Some c'
    /\ n_open c' = false /\ n_status c' = WAIT_PROCESS.
Proof.
  intros Hn Hp Hl Ho Ef Hc Hr Hk Hrecv Es Hps Hne Hbad Hb. unfold handle, bind at 1.
  destruct (scan_quiet true (clients s) s Hl Ho Hp) as (s1 & Esc & _). rewrite Esc.
  destruct (scan_table _ _ _ _ Hn Esc) as (T1 & T2 & T3 & T4).
  assert (Ef1 : find_client fd (clients s1) = Some c).
  { apply In_find; [exact T1|]. apply T3; [apply find_In; exact Ef|].
    apply readable_not_closed. exact Hr. }
  cbn [negb andb]. rewrite Hk. cbn [mapM_ serve_readable].
  assert (Hoc : n_open c = true).
  { apply (Ho fd c (find_In _ _ _ Ef)). unfold active. rewrite Hr. reflexivity. }
  assert (Hv : n_received c = []).
  { pose proof (Hl fd c (find_In _ _ _ Ef)) as H. unfold left_over in H. rewrite Hr in H.
    destruct (n_received c); [reflexivity|]. rewrite Bool.orb_true_r in H. discriminate. }
  assert (Hnr : no_frame r) by (destruct Hbad; right; left; assumption).
  destruct (n_read_frames c b rs ps r Hc Hr Hoc Hv Hb Es Hps Hnr Hne) as (rd & Er).
  set (c1 := set_remaining (negb (Z.of_nat (length b) <? BUF_SIZE))
               (after (n_add b c) WAIT_PROCESS rd ps r)) in *.
  assert (O1 : n_open c1 = false).
  { unfold c1, after. cbn [set_remaining n_open n_add]. rewrite (proj2 (is_bad_spec r) Hbad).
    apply Bool.andb_false_r. }
  assert (V1 : exists m ms, n_received c1 = m :: ms).
  { unfold c1, after. cbn [set_remaining n_received n_add]. rewrite Hv.
    destruct ps as [|p ps]; [congruence|]. cbn [msgs app]. eauto. }
  destruct V1 as (m & ms & V1).
  set (s2 := mksrv (put_client fd c1 (clients s1)) (polled s1)).
  set (s3 := mksrv (put_client fd (set_status WAIT_PROCESS c1) (clients s2)) (polled s2)).
  assert (Eserve : serve_client true true k fd s1 = (Raise EValueError, s3)).
  { rewrite serve_client_eq, Hrecv. unfold bind, on_client. rewrite Ef1, Er. fold s2.
    unfold hand_over. assert (F2 : find_client fd (clients s2) = Some c1) by apply find_put_same.
    rewrite F2, V1. unfold bind, on_client at 1. rewrite F2. fold s3.
    unfold n_fileno. rewrite O1. reflexivity. }
  exists s3, (set_status WAIT_PROCESS c1). unfold bind. rewrite Eserve.
  split; [reflexivity|]. split; [apply find_put_same|]. split; [exact O1|reflexivity].
Qed.

(** With [select]: the request of the closed connection goes to a worker. *)
Lemma bad_after_frame_select k s fd c b rs ps r p :
  NoDup (map fst (clients s)) -> (forall fd c, In (fd, c) (clients s) -> 0 <= fd) ->
  (forall fd c, In (fd, c) (clients s) -> left_over c = false) ->
  (forall fd c, In (fd, c) (clients s) -> active c = true -> n_open c = true) ->
  find_client fd (clients s) = Some c -> conn_inv c -> n_readable c = true ->
  k_read k = [RClient fd] -> k_write k = [] -> k_err k = [] -> k_recv k fd = RData b :: rs ->
  n_rbuf c ++ b = stream_of (p :: ps) r -> Forall small (p :: ps) -> bad r -> b <> [] ->
  exists s' c' m, handle false k s = (Ok tt, s')
    /\ find_client fd (clients s') = Some c'
    /\ n_open c' = false /\ n_status c' = WAIT_PROCESS
    /\ n_handed c' = n_handed c ++ [m] /\ payload m = p.
Proof.
  intros Hn Hp Hl Ho Ef Hc Hr Hk Hkw Hke Hrecv Es Hps Hbad Hb. unfold handle, bind at 1.
  destruct (scan_quiet false (clients s) s Hl Ho Hp) as (s1 & Esc & _). rewrite Esc.
  destruct (scan_table _ _ _ _ Hn Esc) as (T1 & T2 & T3 & T4).
  assert (Ef1 : find_client fd (clients s1) = Some c).
  { apply In_find; [exact T1|]. apply T3; [apply find_In; exact Ef|].
    apply readable_not_closed. exact Hr. }
  cbn [negb andb]. rewrite Hk, Hkw, Hke. cbn [mapM_ serve_readable].
  assert (Hoc : n_open c = true).
  { apply (Ho fd c (find_In _ _ _ Ef)). unfold active. rewrite Hr. reflexivity. }
  assert (Hv : n_received c = []).
  { pose proof (Hl fd c (find_In _ _ _ Ef)) as H. unfold left_over in H. rewrite Hr in H.
    destruct (n_received c); [reflexivity|]. rewrite Bool.orb_true_r in H. discriminate. }
  assert (Hnr : no_frame r) by (destruct Hbad; right; left; assumption).
  destruct (n_read_frames c b rs (p :: ps) r Hc Hr Hoc Hv Hb Es Hps Hnr ltac:(discriminate)) as (rd & Er).
  set (c1 := set_remaining (negb (Z.of_nat (length b) <? BUF_SIZE))
               (after (n_add b c) WAIT_PROCESS rd (p :: ps) r)) in *.
  assert (O1 : n_open c1 = false).
  { unfold c1, after. cbn [set_remaining n_open n_add]. rewrite (proj2 (is_bad_spec r) Hbad).
    apply Bool.andb_false_r. }
  set (m := mkmsg 4 (Z.of_nat (length p)) (stream_of (p :: ps) r) false).
  assert (V1 : n_received c1 = m :: msgs ps r).
  { unfold c1, after. cbn [set_remaining n_received n_add]. rewrite Hv. reflexivity. }
  set (s2 := mksrv (put_client fd c1 (clients s1)) (polled s1)).
  set (s3 := mksrv (put_client fd (set_status WAIT_PROCESS c1) (clients s2)) (polled s2)).
  set (c4 := n_hand m (msgs ps r) (set_status WAIT_PROCESS c1)).
  set (s4 := mksrv (put_client fd c4 (clients s3)) (polled s3)).
  assert (Eserve : serve_client false true k fd s1 = (Ok tt, s4)).
  { rewrite serve_client_eq, Hrecv. unfold bind, on_client. rewrite Ef1, Er. fold s2.
    unfold hand_over. assert (F2 : find_client fd (clients s2) = Some c1) by apply find_put_same.
    rewrite F2, V1. unfold bind, on_client. rewrite F2. fold s3. unfold ret.
    assert (F3 : find_client fd (clients s3) = Some (set_status WAIT_PROCESS c1)) by apply find_put_same.
    rewrite F3. reflexivity. }
  exists s4, c4, m. unfold bind. rewrite Eserve. split; [reflexivity|].
  split; [apply find_put_same|]. split; [exact O1|]. split; [reflexivity|]. split; [reflexivity|].
  unfold m, stream_of. cbn [map concat]. rewrite <- app_assoc. apply payload_msg.
Qed.

(** ** Closed connections *)

(** A connection closed by the server is marked so, unless a bad length came
    after a complete frame. *)
Definition marked (c : nconn) : Prop :=
  conn_inv c /\ (n_open c = false -> n_status c = CLOSED \/ bad (n_rbuf c)).

Lemma run_marked poll evs r s fd c : Forall accepts_ok evs ->
  nrun poll evs empty_server = (r, s) -> In (fd, c) (clients s) ->
  n_open c = false -> n_status c = CLOSED \/ bad (n_rbuf c).
Proof.
  intros He E Hi.
  assert (H : all marked (snd (nrun poll evs empty_server))).
  { apply (nrun_all marked (fun _ => True)).
    - split; [apply new_conn_inv|]. discriminate.
    - intros c0 [H1 H2]. split; [apply n_close_inv; exact H1|]. intros _. left. reflexivity.
    - intros rs c0 [H1 H2] _. destruct (n_read_inv rs c0 H1) as [J1 J2]. split; [|exact J2].
      split; [exact J1|]. clear J1 J2. unfold n_read.
      assert (G : n_readable c0 = true -> n_received c0 = [] ->
        n_open (snd (recv_loop true rs c0)) = false ->
        n_status (snd (recv_loop true rs c0)) = CLOSED \/ bad (n_rbuf (snd (recv_loop true rs c0)))).
      { intros Hr Hv. destruct (recv_loop_ok rs true c0 (conn_inv_core _ H1) Hv) as (c' & E' & [K1 K2 K3 K4 K5 K6 K7 K8]).
        - intros Ho. split; [exact Hr|]. apply (ci_bad _ H1). exact Ho.
        - rewrite E'. exact K8. }
      unfold n_readable in G.
      destruct (n_status c0) eqn:Es; destruct (n_received c0) eqn:Ev;
        try (apply G; reflexivity); cbn [snd]; rewrite Es; exact H2.
    - intros x c0 [H1 H2]. split; [apply n_write_inv; exact H1|]. unfold n_write.
      destruct (n_status c0) eqn:Es; try (cbn [snd]; rewrite Es; exact H2).
      destruct (n_open c0) eqn:Eo; [|left; reflexivity].
      destruct x; [|left; reflexivity]. cbn [snd].
      destruct (Nat.eqb _ _); cbn [set_out n_open]; congruence.
    - intros a c0 [H1 H2]. split; [apply n_ready_inv; exact H1|]. unfold n_ready.
      destruct (n_status c0) eqn:Es; try (cbn [snd]; rewrite Es; exact H2).
      assert (H3 : n_open c0 = false -> bad (n_rbuf c0)).
      { intros H. destruct (H2 H); [congruence|assumption]. }
      destruct a as [[|x m]|]; [cbn; auto| |left; reflexivity].
      destruct (_ <=? _); [cbn [snd n_open n_status n_rbuf]; auto|left; reflexivity].
    - intros c0 [H1 H2] Hi'. split; [apply n_wait_inv; assumption|]. cbn. intros H. right.
      destruct (H2 H) as [J|J]; [|exact J]. destruct Hi' as [K|K]; [congruence|].
      unfold n_readable in K. rewrite J in K. discriminate.
    - intros m l c0 [H1 H2] Hr. split; [apply n_hand_inv; assumption|exact H2].
    - eapply Forall_impl; [|exact He]. intros [k|f a] H; cbn in *; [|exact I].
      split; [exact H|]. intros; exact I.
    - split; [constructor|]. intros ? ? []. }
  rewrite E in H. destruct (proj2 H _ _ Hi) as [_ [_ H']]. exact H'.
Qed.

(** What is left of a closed connection, as long as its descriptor is not given
    to a new one: nothing, or the same connection unchanged. *)
Definition accepting (fd : Z) (e : nevent) : Prop :=
  match e with Handle k => In (RListen (Some fd)) (k_read k) | Done _ _ => False end.

Definition at_most (s : nserver) (fd : Z) (c : nconn) : Prop :=
  find_client fd (clients s) = None \/ find_client fd (clients s) = Some c.

Lemma put_missing fd fd' c s p : find_client fd (clients s) = None ->
  find_client fd' (clients s) <> None ->
  find_client fd (clients (mksrv (put_client fd' c (clients s)) p)) = None.
Proof.
  intros H H'. destruct (Z.eq_dec fd fd') as [->|Hne]; [congruence|].
  cbn [clients]. rewrite find_put_other by exact Hne. exact H.
Qed.

Lemma on_client_missing A fd fd' (f : nconn -> outcome A * nconn) s :
  find_client fd (clients s) = None ->
  find_client fd (clients (snd (on_client fd' f s))) = None.
Proof.
  intros H. unfold on_client. destruct (find_client fd' (clients s)) eqn:E; [|exact H].
  destruct (f n) as [r c']. cbn [snd]. apply put_missing; [exact H|congruence].
Qed.

Lemma serve_client_missing poll sel k fd fd' s : find_client fd (clients s) = None ->
  find_client fd (clients (snd (serve_client poll sel k fd' s))) = None.
Proof.
  intros H. destruct (Z.eq_dec fd fd') as [->|Hne]; [|rewrite serve_client_other; assumption].
  unfold serve_client, bind. destruct sel; unfold on_client; rewrite H; exact H.
Qed.

Lemma mapM_missing A (f : A -> SM nserver unit) l fd : forall s,
  (forall x s, In x l -> find_client fd (clients s) = None ->
     find_client fd (clients (snd (f x s))) = None) ->
  find_client fd (clients s) = None -> find_client fd (clients (snd (mapM_ f l s))) = None.
Proof.
  induction l as [|x l IH]; intros s Hf H; [exact H|]. cbn [mapM_]. unfold bind.
  pose proof (Hf x s (or_introl eq_refl) H) as H1.
  destruct (f x s) as [[[]|e|] s1]; cbn [snd] in *; try exact H1.
  apply IH; [|exact H1]. intros y s' Hy. apply Hf. right. exact Hy.
Qed.

Lemma find_gone fd D l : find_client fd l = None -> find_client fd (gone D l) = None.
Proof.
  unfold find_client, gone. induction l as [|[k x] l IH]; [reflexivity|].
  cbn [find fst filter]. destruct (k =? fd) eqn:E; [discriminate|]. intros H.
  destruct (negb _); [|apply IH; exact H]. cbn [find fst]. rewrite E. apply IH. exact H.
Qed.

Lemma find_not_In fd l : find_client fd l = None -> ~ In fd (map fst l).
Proof.
  unfold find_client. induction l as [|[k x] l IH]; cbn [find fst map In]; [auto|].
  destruct (k =? fd) eqn:E; [discriminate|]. intros H [Hk|Hi]; [lia|]. apply (IH H Hi).
Qed.

(** The part of [handle] after the scan. *)
Lemma handle_rest_missing poll k s1 fd rem b : ~ In (RListen (Some fd)) (k_read k) ->
  find_client fd (clients s1) = None ->
  find_client fd (clients (snd (
    match rem with
    | _ :: _ => mapM_ (serve_readable poll false k) (map RClient rem)
    | [] =>
        if negb poll && b then raise EValueError
        else
          bind (mapM_ (serve_readable poll true k) (k_read k)) (fun _ =>
          bind (mapM_ (fun fd => on_client fd (n_write (k_send k fd))) (k_write k)) (fun _ =>
          mapM_ (fun fd => on_client fd (fun c => (Ok tt, n_close c))) (k_err k)))
    end s1))) = None.
Proof.
  intros Hk H2. destruct rem as [|f rem].
  - destruct (negb poll && b); [exact H2|]. unfold bind.
    assert (H3 : find_client fd (clients (snd (mapM_ (serve_readable poll true k) (k_read k) s1))) = None).
    { apply mapM_missing; [|exact H2]. intros [[x|]| |x] s' Hi Hs'; cbn [serve_readable]; try exact Hs'.
      - destruct (Z.eq_dec fd x) as [->|Hne]; [contradiction|].
        cbn [snd clients]. rewrite find_put_other by exact Hne. exact Hs'.
      - apply serve_client_missing. exact Hs'. }
    destruct (mapM_ (serve_readable poll true k) (k_read k) s1) as [[[]|e|] s2]; cbn [snd] in *; try exact H3.
    assert (H4 : find_client fd (clients (snd (mapM_ (fun fd => on_client fd (n_write (k_send k fd))) (k_write k) s2))) = None).
    { apply mapM_missing; [|exact H3]. intros x s' _. apply on_client_missing. }
    destruct (mapM_ _ (k_write k) s2) as [[[]|e|] s3]; cbn [snd] in *; try exact H4.
    apply mapM_missing; [|exact H4]. intros x s' _. apply on_client_missing.
  - apply mapM_missing; [|exact H2]. intros x s' Hi Hs'. apply in_map_iff in Hi as (y & <- & _).
    apply serve_client_missing. exact Hs'.
Qed.

Lemma handle_missing poll k s fd : ~ In (RListen (Some fd)) (k_read k) ->
  find_client fd (clients s) = None ->
  find_client fd (clients (snd (handle poll k s))) = None.
Proof.
  intros Hk H. unfold handle, bind at 1.
  destruct (scan poll (clients s) s) as [o s1] eqn:Es.
  assert (H1 : find_client fd (clients s1) = None).
  { destruct (scan_clients _ _ _ _ _ Es) as (D & _ & -> & _). apply find_gone. exact H. }
  destruct o as [[rem b]|e|]; try exact H1. apply (handle_rest_missing poll k s1 fd rem b Hk H1).
Qed.

Lemma handle_closed poll k s fd c : NoDup (map fst (clients s)) ->
  ~ In (RListen (Some fd)) (k_read k) ->
  find_client fd (clients s) = Some c -> n_closed c = true ->
  at_most (snd (handle poll k s)) fd c.
Proof.
  intros Hn Hk Ef Hc. destruct (scan poll (clients s) s) as [o s1] eqn:Es.
  destruct (scan_table _ _ _ _ Hn Es) as (T1 & T2 & T3 & T4).
  assert (H1 : at_most s1 fd c).
  { destruct (find_client fd (clients s1)) as [c1|] eqn:E; [right|left; exact E].
    pose proof (T2 _ (find_In _ _ _ E)) as Hi. apply (In_find _ _ _ Hn) in Hi. congruence. }
  destruct o as [[rem b]|e|].
  2,3: unfold handle, bind at 1; rewrite Es; exact H1.
  assert (H2 : find_client fd (clients s1) = None).
  { destruct (find_client fd (clients s1)) as [c1|] eqn:E; [|reflexivity].
    pose proof (T4 _ eq_refl _ _ (find_In _ _ _ E)) as Hcl.
    destruct H1 as [H1|H1]; congruence. }
  left. unfold handle, bind at 1. rewrite Es. apply (handle_rest_missing poll k s1 fd rem b Hk H2).
Qed.

Lemma handle_gone poll k s fd c : NoDup (map fst (clients s)) ->
  ~ In (RListen (Some fd)) (k_read k) ->
  find_client fd (clients s) = Some c -> n_closed c = true ->
  fst (handle poll k s) = Ok tt ->
  forall c', ~ In (fd, c') (clients (snd (handle poll k s))).
Proof.
  intros Hn Hk Ef Hc Hok c' Hi.
  assert (G : find_client fd (clients (snd (handle poll k s))) = None).
  { destruct (scan poll (clients s) s) as [o s1] eqn:Es.
    destruct (scan_table _ _ _ _ Hn Es) as (T1 & T2 & T3 & T4).
    destruct o as [v|e|];
      try (unfold handle, bind at 1 in Hok; rewrite Es in Hok; discriminate).
    assert (H2 : find_client fd (clients s1) = None).
    { destruct (find_client fd (clients s1)) as [c1|] eqn:E; [|reflexivity].
      pose proof (T4 _ eq_refl _ _ (find_In _ _ _ E)) as Hcl.
      pose proof (T2 _ (find_In _ _ _ E)) as Hi1. apply (In_find _ _ _ Hn) in Hi1. congruence. }
    unfold handle, bind at 1. rewrite Es. destruct v as [rem b].
    exact (handle_rest_missing poll k s1 fd rem b Hk H2). }
  apply find_not_In in G. apply G. apply (in_map fst) in Hi. exact Hi.
Qed.

Lemma inv_step poll e s : accepts_ok e -> all conn_inv s -> all conn_inv (snd (nstep poll e s)).
Proof.
  intros He. apply (nstep_all conn_inv (fun _ => True)).
  - apply new_conn_inv.
  - apply n_close_inv.
  - intros rs c0 Hc _. apply n_read_inv. exact Hc.
  - apply n_write_inv.
  - apply n_ready_inv.
  - apply n_wait_inv.
  - apply n_hand_inv.
  - destruct e as [k|f a]; cbn in *; [|exact I]. split; [exact He|]. intros; exact I.
Qed.

Lemma closed_run poll fd c evs : n_closed c = true -> forall s,
  all conn_inv s -> Forall accepts_ok evs -> Forall (fun e => ~ accepting fd e) evs ->
  at_most s fd c -> at_most (snd (nrun poll evs s)) fd c.
Proof.
  intros Hc. induction evs as [|e evs IH]; intros s Hs He Ha H; [exact H|].
  inversion He as [|? ? He1 He2]; subst. inversion Ha as [|? ? Ha1 Ha2]; subst.
  cbn [nrun]. unfold bind.
  assert (H1 : at_most (snd (nstep poll e s)) fd c).
  { destruct e as [k|f a]; cbn [nstep accepting] in *.
    - destruct H as [H|H]; [left; apply handle_missing; assumption|].
      apply handle_closed; try assumption. apply (proj1 Hs).
    - destruct (find_client f (clients s)) as [c0|] eqn:Ef; [|exact H].
      cbn [snd]. destruct (Z.eq_dec fd f) as [->|Hne].
      + unfold at_most in H. rewrite Ef in H. destruct H as [H|H]; [discriminate|].
        assert (c0 = c) by congruence. subst c0. right. cbn [clients]. rewrite find_put_same.
        unfold n_ready. unfold n_closed in Hc. destruct (n_status c); try discriminate. reflexivity.
      + unfold at_most. cbn [clients]. rewrite find_put_other by exact Hne. exact H. }
  pose proof (inv_step poll e s He1 Hs) as H2.
  destruct (nstep poll e s) as [[[]|x|] s1]; cbn [snd] in *; try exact H1.
  apply IH; assumption.
Qed.

(** ** Reaching the endless loop *)

(** A connection that sends one frame of exactly the size of the receive buffer
    and gets its answer. *)
Definition idle_kernel : kernel := mkkernel [] [] [] (fun _ => []) (fun _ => SendError).
Definition accept_kernel (fd : Z) : kernel :=
  mkkernel [RListen (Some fd)] [] [] (fun _ => []) (fun _ => SendError).
Definition read_kernel (fd : Z) (b : list byte) : kernel :=
  mkkernel [RClient fd] [] [] (fun _ => [RData b]) (fun _ => SendError).
Definition write_kernel (fd : Z) (n : nat) : kernel :=
  mkkernel [] [fd] [] (fun _ => []) (fun _ => Sent n).

Definition full_frame_events (p answer : list byte) : list nevent :=
  [Handle (accept_kernel 5); Handle (read_kernel 5 (frame p)); Done 5 (Some answer);
   Handle (write_kernel 5 (4 + length answer))].

Lemma full_frame_stuck poll p answer : length p = Z.to_nat 8188 -> answer <> [] -> small answer ->
  exists s, nrun poll (full_frame_events p answer) empty_server = (Ok tt, s) /\ stuck s
    /\ exists c, clients s = [(5, c)] /\ map payload (n_handed c) = [p] /\ n_sent c = frame answer
       /\ n_got c = frame p /\ n_status c = WAIT_LEN.
Proof.
  intros Hp Ha Hsm.
  assert (Sp : small p) by (unfold small; rewrite Hp; lia).
  destruct (n_read_frames new_conn (frame p) [] [p] [] new_conn_inv eq_refl eq_refl eq_refl)
    as (rd & Er).
  { unfold frame. destruct p; discriminate. }
  { cbn [new_conn n_rbuf app]. unfold stream_of. cbn [map concat]. rewrite !app_nil_r. reflexivity. }
  { constructor; [exact Sp|constructor]. }
  { left. cbn. lia. }
  { discriminate. }
  assert (Lf : Z.of_nat (length (frame p)) <? BUF_SIZE = false).
  { rewrite frame_length, Hp. unfold BUF_SIZE. lia. }
  rewrite Lf in Er. cbn [negb] in Er.
  set (m := mkmsg 4 (Z.of_nat (length p)) (stream_of [p] []) false).
  assert (Er' : n_read [RData (frame p)] new_conn
    = (Ok tt, mkconn WAIT_PROCESS [m] rd [] [] true true (frame p) [] [] [])) by exact Er.
  clear Er.
  set (c1 := mkconn WAIT_PROCESS [m] rd [] [] true true (frame p) [] [] []) in *.
  set (c2 := mkconn WAIT_PROCESS [] rd [] [] true true (frame p) [m] [] []).
  set (c4 := mkconn WAIT_LEN [] rd [] [] true true (frame p) [m] [answer] (frame answer)).
  set (c3 := mkconn SEND_ANSWER [] rd [] (frame answer) true true (frame p) [m] [answer] []).
  assert (E1 : handle poll (accept_kernel 5) empty_server = (Ok tt, mksrv [(5, new_conn)] []))
    by (destruct poll; reflexivity).
  assert (E2 : exists pl, handle poll (read_kernel 5 (frame p)) (mksrv [(5, new_conn)] [])
             = (Ok tt, mksrv [(5, c2)] pl)).
  { unfold handle, bind at 1.
    assert (Es : exists pl, scan poll [(5, new_conn)] (mksrv [(5, new_conn)] [])
                 = (Ok ([], false), mksrv [(5, new_conn)] pl) /\ (poll = true -> pl = [5])).
    { destruct poll; eexists; split; try reflexivity. discriminate. }
    cbn [clients]. destruct Es as (pl & -> & Hpl). rewrite Bool.andb_false_r.
    cbn [read_kernel k_read k_write k_err mapM_ serve_readable].
    assert (Es : exists pl', serve_client poll true (read_kernel 5 (frame p)) 5 (mksrv [(5, new_conn)] pl)
                 = (Ok tt, mksrv [(5, c2)] pl')).
    { rewrite serve_client_eq. cbn [read_kernel k_recv]. unfold bind, on_client.
      cbn [clients find_client find fst option_map snd Z.eqb Pos.eqb]. rewrite Er'.
      cbn [put_client Z.eqb Pos.eqb]. destruct poll.
      - rewrite Hpl by reflexivity. eexists. reflexivity.
      - eexists. reflexivity. }
    destruct Es as (pl' & Es). exists pl'. unfold bind. rewrite Es. reflexivity. }
  destruct E2 as (pl & E2).
  assert (E3 : nstep poll (Done 5 (Some answer)) (mksrv [(5, c2)] pl)
             = (Ok tt, mksrv [(5, c3)] pl)).
  { cbn [nstep clients find_client find fst option_map snd Z.eqb Pos.eqb].
    unfold n_ready. cbn [n_status c2]. destruct answer as [|x ans]; [congruence|].
    assert (El : Z.of_nat (length (x :: ans)) <=? 2147483647 = true) by (unfold small in Hsm; lia).
    rewrite El. reflexivity. }
  assert (E4 : exists pl', handle poll (write_kernel 5 (4 + length answer)) (mksrv [(5, c3)] pl)
             = (Ok tt, mksrv [(5, c4)] pl')).
  { unfold handle, bind at 1.
    assert (Es : exists pl', scan poll [(5, c3)] (mksrv [(5, c3)] pl)
                 = (Ok ([], false), mksrv [(5, c3)] pl')).
    { destruct poll; eexists; reflexivity. }
    cbn [clients]. destruct Es as (pl' & ->). exists pl'. rewrite Bool.andb_false_r.
    cbn [write_kernel k_read k_write k_err mapM_ k_send]. unfold bind, ret, on_client.
    cbn [clients find_client find fst option_map snd Z.eqb Pos.eqb].
    unfold n_write. cbn [n_status n_open c3 n_wbuf].
    rewrite <- (frame_length answer), Nat.min_id, Nat.eqb_refl, firstn_all. reflexivity. }
  destruct E4 as (pl' & E4).
  exists (mksrv [(5, c4)] pl'). split; [|split].
  - unfold full_frame_events. cbn [nrun]. unfold bind, ret. cbn [nstep] in *.
    rewrite E1, E2, E3, E4. reflexivity.
  - exists 5, c4. cbn [clients In]. repeat split; auto.
  - exists c4. split; [reflexivity|]. split; [|repeat split].
    cbn [n_handed c4 map]. unfold m, stream_of. cbn [map concat]. rewrite <- app_assoc.
    rewrite (proj1 (payload_msg p _)). reflexivity.
Qed.
