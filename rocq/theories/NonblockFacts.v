(** Facts about the non-blocking server. *)
From Coq Require Import ZArith List Bool Lia.
From Coq Require Import Init.Byte.
From Coq Require Import ZifyBool ZifyNat ZifyN.
From Verif Require Import Base Bytes BytesFacts Transport TransportFacts Nonblocking.
Import ListNotations.
Open Scope Z_scope.

(** * Splitting a byte string into frames *)

Definition small (p : list byte) : Prop := Z.of_nat (length p) < 2 ^ 31.

(** No frame can be taken off [r]: less than a header, a header announcing more
    than there is, or a negative length. *)
Definition head (r : list byte) : Z := unpack_signed 4 (firstn 4 r).
Definition bad (r : list byte) : Prop := (4 <= length r)%nat /\ head r < 0.
Definition no_frame (r : list byte) : Prop :=
  (length r < 4)%nat \/ head r < 0 \/ Z.of_nat (length r) < 4 + head r.

Definition stream_of (ps : list (list byte)) (r : list byte) : list byte :=
  concat (map frame ps) ++ r.

Lemma frame_length p : length (frame p) = (4 + length p)%nat.
Proof. unfold frame. rewrite app_length, be_bytes_length. lia. Qed.

Lemma head_frame p x : small p -> head (frame p ++ x) = Z.of_nat (length p).
Proof.
  intros Hp. unfold head, frame. rewrite <- app_assoc.
  rewrite firstn_exact by apply be_bytes_length. apply unpack_pack; [lia|].
  unfold in_signed, small in *. change (2 ^ (8 * Z.of_nat 4 - 1)) with (2 ^ 31). lia.
Qed.

Lemma frame_of b l : (4 <= length b)%nat -> head b = Z.of_nat l -> (4 + l <= length b)%nat ->
  exists p, firstn (4 + l) b = frame p /\ length p = l /\ small p.
Proof.
  intros H4 Hh Hl. exists (firstn l (skipn 4 b)).
  assert (Lp : length (firstn l (skipn 4 b)) = l).
  { rewrite firstn_length, skipn_length. lia. }
  split; [|split; [exact Lp|]].
  - unfold frame. rewrite Lp. rewrite <- Hh. unfold head, unpack_signed.
    assert (L4 : length (firstn 4 b) = 4%nat) by (rewrite firstn_length; lia).
    pose proof (be_val_range (firstn 4 b)) as Hr. rewrite L4 in Hr.
    change (256 ^ Z.of_nat 4) with 4294967296 in Hr.
    assert (E : to_signed 4 (be_val (firstn 4 b)) = be_val (firstn 4 b)).
    { unfold head, unpack_signed in Hh. unfold to_signed in *.
      change (2 ^ (8 * Z.of_nat 4 - 1)) with 2147483648 in *.
      change (2 ^ (8 * Z.of_nat 4)) with 4294967296 in *.
      destruct (_ <? _) eqn:E in *; lia. }
    rewrite E. pose proof (be_bytes_be_val (firstn 4 b)) as B. rewrite L4 in B. rewrite B.
    rewrite <- (firstn_skipn 4 b) at 1. rewrite firstn_app, L4.
    rewrite firstn_all2 by (rewrite L4; lia). f_equal. f_equal. lia.
  - unfold small. rewrite Lp. rewrite <- Hh. unfold head.
    pose proof (unpack_signed_range 4 (firstn 4 b)) as Hr.
    assert (L4 : length (firstn 4 b) = 4%nat) by (rewrite firstn_length; lia).
    specialize (Hr ltac:(lia) L4). unfold in_signed in Hr.
    change (2 ^ (8 * Z.of_nat 4 - 1)) with (2 ^ 31) in Hr. lia.
Qed.

(** Every byte string splits ... *)
Lemma decompose : forall n b, (length b <= n)%nat ->
  exists ps r, b = stream_of ps r /\ Forall small ps /\ no_frame r.
Proof.
  induction n as [|n IH]; intros b Hb.
  - exists [], b. repeat split; [constructor|]. left. lia.
  - destruct (Nat.lt_ge_cases (length b) 4) as [L|G];
      [exists [], b; repeat split; [constructor|left; lia]|].
    destruct (Z.lt_ge_cases (head b) 0) as [Ln|Gn];
      [exists [], b; repeat split; [constructor|right; left; lia]|].
    destruct (Z.lt_ge_cases (Z.of_nat (length b)) (4 + head b)) as [Ls|Gs];
      [exists [], b; repeat split; [constructor|right; right; lia]|].
    destruct (frame_of b (Z.to_nat (head b)) G ltac:(lia) ltac:(lia)) as (p & Ep & Lp & Sp).
    destruct (IH (skipn (4 + Z.to_nat (head b)) b)) as (ps & r & E & Hps & Hr).
    { rewrite skipn_length. lia. }
    exists (p :: ps), r. split; [|split; [constructor; assumption|exact Hr]].
    unfold stream_of in *. cbn [map concat]. rewrite <- app_assoc, <- E, <- Ep.
    symmetry. apply firstn_skipn.
Qed.

(** ... in one way. *)
Lemma frame_inj p q x y : small p -> small q -> frame p ++ x = frame q ++ y -> p = q /\ x = y.
Proof.
  intros Hp Hq E. assert (L : length p = length q).
  { apply (f_equal head) in E. rewrite !head_frame in E by assumption. lia. }
  assert (Lf : length (frame p) = length (frame q)) by (rewrite !frame_length; lia).
  assert (E1 : frame p = frame q).
  { apply (f_equal (firstn (length (frame p)))) in E.
    rewrite firstn_exact in E by reflexivity. rewrite firstn_exact in E by congruence.
    exact E. }
  rewrite E1 in E. apply app_inv_head in E. split; [|exact E].
  unfold frame in E1. rewrite L in E1. apply app_inv_head in E1. exact E1.
Qed.

Lemma no_frame_app p x : small p -> ~ no_frame (frame p ++ x).
Proof.
  intros Hp H. unfold no_frame in H. rewrite head_frame in H by assumption.
  rewrite app_length, frame_length in H. lia.
Qed.

Lemma stream_unique ps : forall qs r r', Forall small ps -> Forall small qs ->
  no_frame r -> no_frame r' -> stream_of ps r = stream_of qs r' -> ps = qs /\ r = r'.
Proof.
  unfold stream_of. induction ps as [|p ps IH]; intros [|q qs] r r' Hps Hqs Hr Hr' E;
    cbn [map concat app] in E; try rewrite <- app_assoc in E.
  - split; [reflexivity|exact E].
  - inversion Hqs; subst. exfalso. eapply no_frame_app; eassumption.
  - inversion Hps; subst. exfalso. eapply no_frame_app; eassumption.
  - inversion Hps; subst. inversion Hqs; subst. rewrite <- app_assoc in E.
    apply frame_inj in E as [-> E]; try assumption.
    destruct (IH qs r r') as [-> ->]; auto.
Qed.

(** * The receive loop *)

(** The messages queued for the frames [ps] found in one buffer with [r] left. *)
Fixpoint msgs (ps : list (list byte)) (r : list byte) : list nmsg :=
  match ps with
  | [] => []
  | p :: ps' => mkmsg 4 (Z.of_nat (length p)) (stream_of ps r) false :: msgs ps' r
  end.

Definition msg_ok (m : nmsg) : Prop :=
  exists p extra, m = mkmsg 4 (Z.of_nat (length p)) (frame p ++ extra) false /\ small p.

Lemma payload_msg p extra :
  payload (mkmsg 4 (Z.of_nat (length p)) (frame p ++ extra) false) = p
  /\ worker_input (mkmsg 4 (Z.of_nat (length p)) (frame p ++ extra) false) = p ++ extra.
Proof.
  unfold payload, worker_input. cbn [g_len g_offset g_buffer].
  change (Z.to_nat 4) with 4%nat. rewrite Nat2Z.id. unfold frame. rewrite <- app_assoc.
  rewrite skipn_exact by apply be_bytes_length. rewrite firstn_exact by reflexivity. auto.
Qed.

Lemma msgs_payload ps r : map payload (msgs ps r) = ps.
Proof.
  induction ps as [|p ps IH]; [reflexivity|]. cbn [msgs map].
  unfold stream_of. cbn [map concat]. rewrite <- app_assoc.
  rewrite (proj1 (payload_msg p _)), IH. reflexivity.
Qed.

Lemma msgs_ok ps r : Forall small ps -> Forall msg_ok (msgs ps r).
Proof.
  induction 1 as [|p ps Hp Hps IH]; [constructor|]. cbn [msgs]. constructor; [|exact IH].
  exists p, (stream_of ps r). split; [|exact Hp]. unfold stream_of. cbn [map concat].
  rewrite <- app_assoc. reflexivity.
Qed.

(** The message being read agrees with the buffer. *)
Definition reading_ok (m : nmsg) (b : list byte) : Prop :=
  m = HEAD \/ (m = mkmsg 4 (head b) [] false /\ (4 <= length b)%nat /\ 0 <= head b).

(** ... and the header of the next frame has been looked at if it is there. *)
Definition settled (m : nmsg) (b : list byte) : Prop :=
  (m = HEAD /\ ((length b < 4)%nat \/ head b < 0))
  \/ (m = mkmsg 4 (head b) [] false /\ (4 <= length b)%nat /\ 0 <= head b).

Lemma settled_reading m b : settled m b -> reading_ok m b.
Proof. intros [[H _]|H]; [left|right]; assumption. Qed.

Definition is_bad (r : list byte) : bool := (4 <=? length r)%nat && (head r <? 0).

Lemma is_bad_spec r : is_bad r = true <-> bad r.
Proof. unfold is_bad, bad. rewrite andb_true_iff, Nat.leb_le, Z.ltb_lt. tauto. Qed.

(** The state after the inner loop has gone through [ps] with [r] left. *)
Definition after (c : nconn) (st : nstatus) (rd : nmsg) ps r : nconn :=
  mkconn st (n_received c ++ msgs ps r) rd r (n_wbuf c) (n_remaining c)
    (n_open c && negb (is_bad r)) (n_got c) (n_handed c) (n_answers c) (n_sent c).

Definition status_ok (st : nstatus) (c : nconn) (r : list byte) : Prop :=
  if is_bad r then st = CLOSED else st = n_status c \/ st = WAIT_MESSAGE.

Lemma head_app b x : (4 <= length b)%nat -> head (b ++ x) = head b.
Proof.
  intros H. unfold head. rewrite firstn_app.
  replace (4 - length b)%nat with O by lia. cbn [firstn]. rewrite app_nil_r. reflexivity.
Qed.

Definition mu (c : nconn) : nat :=
  (2 * length (n_rbuf c) + (if g_header (n_reading c) then 1 else 0))%nat.

Lemma frames_all fuel : forall c ps r, (mu c <= fuel)%nat ->
  reading_ok (n_reading c) (n_rbuf c) -> n_rbuf c = stream_of ps r ->
  Forall small ps -> no_frame r ->
  exists st rd, frames fuel c = (Ok tt, after c st rd ps r)
    /\ settled rd r /\ status_ok st c r.
Proof.
  induction fuel as [|f IH]; intros c ps r Hmu Hrd Hb Hps Hr.
  - unfold mu in Hmu. destruct Hrd as [E|(E & H4 & H0)]; [rewrite E in Hmu; cbn in Hmu; lia|].
    exfalso. lia.
  - cbn [frames]. destruct Hrd as [E|(E & H4 & H0)].
    + rewrite E. change (g_end HEAD) with 4. change (g_header HEAD) with true. cbv iota.
      destruct (Z.of_nat (length (n_rbuf c)) <? 4) eqn:L4.
      * (* less than a header *)
        destruct ps as [|p ps].
        2:{ exfalso. rewrite Hb in L4. unfold stream_of in L4. cbn [map concat] in L4.
            rewrite <- app_assoc, app_length, frame_length in L4. lia. }
        unfold stream_of in Hb. cbn in Hb. exists (n_status c), HEAD. split; [|split].
        -- unfold after, is_bad. cbn [msgs]. rewrite app_nil_r, <- Hb.
           replace (4 <=? length (n_rbuf c))%nat with false by lia. cbn [andb negb].
           rewrite andb_true_r. destruct c. cbn in *. subst. reflexivity.
        -- left. split; [reflexivity|left; rewrite <- Hb; lia].
        -- unfold status_ok, is_bad. rewrite <- Hb.
           replace (4 <=? length (n_rbuf c))%nat with false by lia. left. reflexivity.
      * fold (head (n_rbuf c)). destruct (head (n_rbuf c) <? 0) eqn:Hn.
        -- (* a negative length *)
           destruct ps as [|p ps].
           2:{ exfalso. rewrite Hb in Hn. unfold stream_of in Hn. cbn [map concat] in Hn.
               inversion Hps; subst.
               rewrite <- app_assoc, head_frame in Hn by assumption. lia. }
           unfold stream_of in Hb. cbn in Hb. exists CLOSED, HEAD.
           assert (Eb : is_bad r = true).
           { unfold is_bad. rewrite <- Hb, Hn. replace (4 <=? length (n_rbuf c))%nat with true by lia.
             reflexivity. }
           split; [|split].
           ++ unfold after. rewrite Eb. cbn [msgs negb]. rewrite app_nil_r, andb_false_r, <- Hb.
              unfold n_close. rewrite E. reflexivity.
           ++ left. split; [reflexivity|right; rewrite <- Hb; lia].
           ++ unfold status_ok. rewrite Eb. reflexivity.
        -- destruct (IH (set_reading WAIT_MESSAGE (mkmsg 4 (head (n_rbuf c)) [] false) c) ps r)
             as (st & rd & E1 & H1 & H2); try assumption.
           ++ unfold mu in *. cbn [n_rbuf n_reading g_header set_reading]. rewrite E in Hmu.
              cbn in Hmu. lia.
           ++ right. cbn [n_reading n_rbuf set_reading]. split; [reflexivity|lia].
           ++ exists st, rd. split; [exact E1|]. split; [exact H1|].
              unfold status_ok in *. cbn [n_status set_reading] in H2.
              destruct (is_bad r); [exact H2|]. right. tauto.
    + rewrite E. unfold g_end. cbn [g_offset g_len g_header].
      destruct (Z.of_nat (length (n_rbuf c)) <? 4 + head (n_rbuf c)) eqn:Ls.
      * (* the body is not complete *)
        destruct ps as [|p ps].
        2:{ exfalso. rewrite Hb in Ls. unfold stream_of in Ls. cbn [map concat] in Ls.
            inversion Hps; subst.
            rewrite <- app_assoc, head_frame, app_length, frame_length in Ls by assumption. lia. }
        unfold stream_of in Hb. cbn in Hb. exists (n_status c), (n_reading c). split; [|split].
        -- unfold after, is_bad. cbn [msgs]. rewrite app_nil_r, <- Hb.
           replace (head (n_rbuf c) <? 0) with false by lia. rewrite andb_false_r. cbn [negb].
           rewrite andb_true_r. destruct c. reflexivity.
        -- right. rewrite <- Hb. repeat split; assumption.
        -- unfold status_ok, is_bad. rewrite <- Hb.
           replace (head (n_rbuf c) <? 0) with false by lia. rewrite andb_false_r.
           left. reflexivity.
      * destruct ps as [|p ps].
        { exfalso. unfold stream_of in Hb. cbn in Hb. subst r. unfold no_frame in Hr. lia. }
        inversion Hps as [|? ? Hp Hps']; subst.
        assert (Hh : head (n_rbuf c) = Z.of_nat (length p)).
        { rewrite Hb. unfold stream_of. cbn [map concat].
          rewrite <- app_assoc. apply head_frame. exact Hp. }
        assert (Hsk : skipn (Z.to_nat (4 + head (n_rbuf c))) (n_rbuf c) = stream_of ps r).
        { rewrite Hh. rewrite Hb at 1. unfold stream_of. cbn [map concat].
          rewrite <- app_assoc. apply skipn_exact. rewrite frame_length. lia. }
        destruct (IH (n_complete c) ps r) as (st & rd & E1 & H1 & H2); try assumption.
        -- unfold mu, n_complete in *. cbn [n_rbuf n_reading g_header HEAD].
           rewrite E in *. unfold g_end. cbn [g_offset g_len g_header] in *. rewrite Hsk.
           rewrite Hb in Hmu. unfold stream_of in *. cbn [map concat] in Hmu.
           rewrite <- app_assoc, app_length, frame_length in Hmu. lia.
        -- left. reflexivity.
        -- unfold n_complete. cbn [n_rbuf]. rewrite E. unfold g_end. cbn [g_offset g_len].
           exact Hsk.
        -- exists st, rd. split; [|split; [exact H1|exact H2]].
           rewrite E1. unfold after, n_complete.
           cbn [n_received n_wbuf n_remaining n_open n_got n_handed n_answers n_sent].
           rewrite <- app_assoc. cbn [app msgs]. rewrite E at 1 2. cbn [g_offset g_len].
           rewrite Hh, Hb. reflexivity.
Qed.

(** * An invariant of connections *)

(** Every message's buffer is a piece of what was received, starting at its
    frame. *)
Definition located (got : list byte) (ms : list nmsg) : Prop :=
  Forall msg_ok ms /\
  forall pre m post, ms = pre ++ m :: post ->
    exists later, got = concat (map frame (map payload pre)) ++ g_buffer m ++ later.

(** The bytes received so far are the frames handed over or queued, then the
    buffer, which begins no frame; and the bytes sent plus the unsent ones are
    the framed answers. *)
Record conn_inv (c : nconn) : Prop := mkinv {
  ci_got : n_got c = stream_of (map payload (n_handed c ++ n_received c)) (n_rbuf c);
  ci_msgs : located (n_got c) (n_handed c ++ n_received c);
  ci_rest : no_frame (n_rbuf c);
  ci_reading : settled (n_reading c) (n_rbuf c);
  ci_sent : n_sent c ++ n_wbuf c = concat (map frame (n_answers c));
  ci_wbuf : n_status c = WAIT_PROCESS \/ n_readable c = true -> n_wbuf c = [];
  ci_bad : n_open c = true -> ~ bad (n_rbuf c) }.

Lemma new_conn_inv : conn_inv new_conn.
Proof.
  constructor; cbn; auto; try discriminate.
  - split; [constructor|]. intros [|? ?]; discriminate.
  - left. cbn. lia.
  - left. split; [reflexivity|left; cbn; lia].
  - intros _ [H _]. cbn in H. lia.
Qed.

Lemma small_payloads ms : Forall msg_ok ms -> Forall small (map payload ms).
Proof.
  induction 1 as [|m ms Hm Hms IH]; [constructor|]. cbn [map]. constructor; [|exact IH].
  destruct Hm as (p & extra & -> & Hp). rewrite (proj1 (payload_msg p extra)). exact Hp.
Qed.

Lemma n_close_inv c : conn_inv c -> conn_inv (n_close c).
Proof.
  intros [H1 H2 H3 H4 H5 H6 H7]. constructor; cbn; auto; try discriminate.
  intros [?|?]; discriminate.
Qed.

Lemma stream_app ps qs r : stream_of (ps ++ qs) r = concat (map frame ps) ++ stream_of qs r.
Proof. unfold stream_of. rewrite map_app, concat_app, app_assoc. reflexivity. Qed.

Lemma reading_app m b x : reading_ok m b -> reading_ok m (b ++ x).
Proof.
  intros [H|(H & H4 & H0)]; [left; exact H|]. right.
  rewrite head_app by exact H4. rewrite app_length. repeat split; auto; lia.
Qed.

(** One round of receive: more bytes, then the inner loop. *)
Lemma round_ok c b : reading_ok (n_reading c) (n_rbuf c) ->
  exists ps r st rd,
    n_rbuf c ++ b = stream_of ps r /\ Forall small ps /\ no_frame r
    /\ (forall fuel, (2 * length (n_rbuf c ++ b) + 2 <= fuel)%nat ->
        frames fuel (n_add b c) = (Ok tt, after (n_add b c) st rd ps r))
    /\ settled rd r /\ status_ok st c r.
Proof.
  intros Hrd. destruct (decompose (length (n_rbuf c ++ b)) (n_rbuf c ++ b) (Nat.le_refl _))
    as (ps & r & E & Hps & Hr).
  destruct (frames_all (mu (n_add b c)) (n_add b c) ps r (Nat.le_refl _)) as (st & rd & E1 & H1 & H2);
    auto.
  { cbn [n_add n_reading n_rbuf]. apply reading_app. exact Hrd. }
  exists ps, r, st, rd. repeat split; auto.
  intros fuel Hf.
  destruct (frames_all fuel (n_add b c) ps r) as (st' & rd' & E1' & H1' & H2'); auto.
  { unfold mu. cbn [n_add n_reading n_rbuf]. destruct (g_header _); lia. }
  { cbn [n_add n_reading n_rbuf]. apply reading_app. exact Hrd. }
  (* the two runs agree *)
  enough (st' = st /\ rd' = rd) as [-> ->] by exact E1'.
  assert (M : forall f c0 r0 c1, frames f c0 = (Ok r0, c1) ->
              forall f', (f <= f')%nat -> frames f' c0 = (Ok r0, c1)).
  { clear. induction f as [|f IH]; intros c0 r0 c1 E f' Hf; cbn [frames] in E.
    - destruct f'; cbn [frames]; destruct (_ <? _); congruence || discriminate.
    - destruct f' as [|f']; [lia|]. cbn [frames]. destruct (_ <? _); [exact E|].
      destruct (g_header _); [destruct (_ <? 0); [exact E|]|]; apply IH; auto; lia. }
  assert (Hle : (mu (n_add b c) <= fuel)%nat).
  { unfold mu. cbn [n_add n_reading n_rbuf]. destruct (g_header _); lia. }
  rewrite (M _ _ _ _ E1 _ Hle) in E1'. unfold after in E1'. split; congruence.
Qed.

(** The part of the invariant that does not mention the status and the output. *)
Record core (c : nconn) : Prop := mkcore {
  co_got : n_got c = stream_of (map payload (n_handed c ++ n_received c)) (n_rbuf c);
  co_msgs : located (n_got c) (n_handed c ++ n_received c);
  co_rest : no_frame (n_rbuf c);
  co_reading : settled (n_reading c) (n_rbuf c) }.

Lemma split_app {A} (l1 l2 : list A) : forall pre m post, l1 ++ l2 = pre ++ m :: post ->
  (exists post', l1 = pre ++ m :: post' /\ post = post' ++ l2)
  \/ (exists pre', pre = l1 ++ pre' /\ l2 = pre' ++ m :: post).
Proof.
  induction l1 as [|x l1 IH]; intros [|y pre] m post E; cbn [app] in E.
  - right. exists []. auto.
  - right. exists (y :: pre). auto.
  - left. exists l1. cbn [app]. split; congruence.
  - assert (x = y) by congruence. subst y. assert (E' : l1 ++ l2 = pre ++ m :: post) by congruence.
    destruct (IH _ _ _ E') as [(post' & -> & ->)|(pre' & -> & ->)].
    + left. exists post'. auto.
    + right. exists pre'. auto.
Qed.

Lemma msgs_split ps r : forall pre m post, msgs ps r = pre ++ m :: post ->
  exists ps1 ps2, ps = ps1 ++ ps2 /\ map payload pre = ps1 /\ g_buffer m = stream_of ps2 r.
Proof.
  induction ps as [|p ps IH]; intros [|y pre] m post E; cbn [msgs app] in E; try discriminate.
  - exists [], (p :: ps). split; [reflexivity|]. split; [reflexivity|].
    assert (m = mkmsg 4 (Z.of_nat (length p)) (stream_of (p :: ps) r) false) by congruence.
    subst m. reflexivity.
  - assert (y = mkmsg 4 (Z.of_nat (length p)) (stream_of (p :: ps) r) false) by congruence.
    assert (E' : msgs ps r = pre ++ m :: post) by congruence.
    destruct (IH _ _ _ E') as (ps1 & ps2 & -> & Ep & Eb).
    exists (p :: ps1), ps2. split; [reflexivity|]. split; [|exact Eb]. cbn [map].
    rewrite Ep. f_equal. subst y. unfold stream_of. cbn [map concat]. rewrite <- app_assoc.
    apply payload_msg.
Qed.

Lemma after_core c b ps r st rd : core c -> n_rbuf c ++ b = stream_of ps r ->
  Forall small ps -> no_frame r -> settled rd r -> core (after (n_add b c) st rd ps r).
Proof.
  intros [H1 H2 H3 H4] E Hps Hr Hrd. constructor; unfold after;
    cbn [n_add n_got n_handed n_received n_rbuf n_reading]; try assumption.
  - rewrite app_assoc, map_app, msgs_payload, stream_app, <- E, H1. unfold stream_of.
    rewrite <- app_assoc. reflexivity.
  - rewrite app_assoc. destruct H2 as [H2 H2'].
    split; [apply Forall_app; split; [exact H2|apply msgs_ok; exact Hps]|].
    intros pre m post Em. apply split_app in Em as [(post' & Em & _)|(pre' & -> & Em)].
    + destruct (H2' _ _ _ Em) as [later ->]. exists (later ++ b). rewrite <- !app_assoc. reflexivity.
    + apply msgs_split in Em as (ps1 & ps2 & -> & Ep & Eb). exists [].
      rewrite app_nil_r, Eb, H1, (map_app payload (n_handed c ++ n_received c)), Ep.
      set (Q := map payload (n_handed c ++ n_received c)). unfold stream_of in E |- *.
      rewrite !map_app, !concat_app, <- !app_assoc, E, !map_app, !concat_app, <- !app_assoc.
      reflexivity.
Qed.

(** What [read] leaves alone. *)
Definition same_io (c c' : nconn) : Prop :=
  n_wbuf c' = n_wbuf c /\ n_handed c' = n_handed c /\ n_answers c' = n_answers c
  /\ n_sent c' = n_sent c.

Lemma frames_settled fuel c : settled (n_reading c) (n_rbuf c) -> no_frame (n_rbuf c) ->
  ~ bad (n_rbuf c) -> frames fuel c = (Ok tt, c).
Proof.
  intros Hs Hn Hb. assert (L : Z.of_nat (length (n_rbuf c)) < g_end (n_reading c)).
  { unfold bad in Hb. destruct Hs as [[E H]|(E & H4 & H0)]; rewrite E; unfold g_end;
      cbn [HEAD g_offset g_len]; unfold no_frame in Hn; lia. }
  destruct fuel; cbn [frames]; destruct (_ <? _) eqn:E; try reflexivity; lia.
Qed.

Lemma core_close c : core c -> core (n_close c).
Proof. intros [H1 H2 H3 H4]. constructor; assumption. Qed.
Lemma core_status st c : core c -> core (set_status st c).
Proof. intros [H1 H2 H3 H4]. constructor; assumption. Qed.
Lemma core_remaining b c : core c -> core (set_remaining b c).
Proof. intros [H1 H2 H3 H4]. constructor; assumption. Qed.

(** The states [read] can end in: it closes or reads on without a frame, or it
    has queued frames, and then the status is WAIT_PROCESS even if the
    connection was closed because of a bad length. *)
Record read_end (c c' : nconn) : Prop := mkre {
  re_core : core c';
  re_wbuf : n_wbuf c' = n_wbuf c;
  re_handed : n_handed c' = n_handed c;
  re_answers : n_answers c' = n_answers c;
  re_sent : n_sent c' = n_sent c;
  re_status : (n_received c' = [] /\ n_status c' = CLOSED /\ n_open c' = false)
              \/ (n_received c' = [] /\ n_readable c' = true /\ n_open c' = true)
              \/ (n_received c' <> [] /\ n_status c' = WAIT_PROCESS);
  re_bad : n_open c' = true -> ~ bad (n_rbuf c');
  re_mark : n_open c' = false -> n_status c' = CLOSED \/ bad (n_rbuf c') }.

Lemma recv_loop_ok rs : forall first c, core c -> n_received c = [] ->
  (n_open c = true -> n_readable c = true /\ ~ bad (n_rbuf c)) ->
  exists c', recv_loop first rs c = (Ok tt, c') /\ read_end c c'.
Proof.
  assert (Hcl : forall c, core c -> n_received c = [] -> read_end c (n_close c)).
  { intros c Hc Hr. constructor; try reflexivity; [apply core_close; exact Hc| |discriminate|].
    - left. auto.
    - intros _. left. reflexivity. }
  induction rs as [|[b|] rs IH]; intros first c Hc Hr Ho; cbn [recv_loop].
  - exists (n_close c). destruct (n_open c); auto.
  - destruct (n_open c) eqn:Eo; [|exists (n_close c); auto].
    destruct (Ho eq_refl) as [Hre Hnb].
    pose proof (co_reading _ Hc) as Hset. pose proof (co_rest _ Hc) as Hnf.
    destruct (first && (Z.of_nat (length b) =? 0)) eqn:Ef.
    + (* end of stream *)
      assert (b = []) by (destruct b; [reflexivity|cbn in Ef; lia]). subst b.
      assert (En : n_add [] c = c) by (destruct c; unfold n_add; cbn; rewrite !app_nil_r; reflexivity).
      rewrite En. rewrite frames_settled by assumption.
      change (n_received (n_close c)) with (n_received c).
      rewrite Hr. cbn [length Z.of_nat]. change (0 <? BUF_SIZE) with true.
      cbv iota. eexists. split; [reflexivity|].
      constructor; try reflexivity; [apply core_remaining, core_close; exact Hc| |discriminate|].
      * left. split; [exact Hr|]. split; reflexivity.
      * intros _. left. reflexivity.
    + destruct (round_ok c b (settled_reading _ _ Hset))
        as (ps & r & st & rd & Es & Hps & Hnr & Efr & Hsd & Hst).
      rewrite Efr by (cbn [n_add n_rbuf]; lia).
      pose proof (after_core c b ps r st rd Hc Es Hps Hnr Hsd) as Hco.
      set (c3 := after (n_add b c) st rd ps r) in *.
      assert (Er3 : n_received c3 = msgs ps r).
      { unfold c3, after. cbn [n_received n_add]. rewrite Hr. reflexivity. }
      destruct (n_received c3) as [|m ms] eqn:Em.
      * assert (Hst3 : n_status c3 = st) by reflexivity.
        assert (Ho3 : n_open c3 = negb (is_bad r)).
        { unfold c3, after. cbn [n_open n_add]. rewrite Eo. reflexivity. }
        assert (Hps0 : ps = []) by (destruct ps; [reflexivity|discriminate]).
        assert (Hre3 : n_open c3 = true -> n_readable c3 = true /\ ~ bad (n_rbuf c3)).
        { rewrite Ho3. intros Hb. apply negb_true_iff in Hb.
          unfold status_ok in Hst. rewrite Hb in Hst. split.
          - unfold n_readable in *. rewrite Hst3. destruct Hst as [->| ->]; [exact Hre|reflexivity].
          - change (n_rbuf c3) with r. rewrite <- is_bad_spec. congruence. }
        destruct (Z.of_nat (length b) <? BUF_SIZE).
        -- exists (set_remaining false c3). split; [reflexivity|].
           constructor; try reflexivity; [apply core_remaining; exact Hco| |intros H; apply Hre3, H|].
           2:{ cbn [set_remaining n_open n_rbuf]. rewrite Ho3. intros Hb. right.
               change (n_rbuf c3) with r. rewrite <- is_bad_spec. destruct (is_bad r); [reflexivity|discriminate]. }
           change (n_received (set_remaining false c3)) with (n_received c3).
           change (n_status (set_remaining false c3)) with (n_status c3).
           change (n_open (set_remaining false c3)) with (n_open c3).
           change (n_readable (set_remaining false c3)) with (n_readable c3).
           rewrite Em. destruct (n_open c3) eqn:E3.
           ++ right. left. split; [reflexivity|]. split; [apply Hre3|]; reflexivity.
           ++ left. split; [reflexivity|]. split; [|reflexivity].
              symmetry in Ho3. apply negb_false_iff in Ho3.
              unfold status_ok in Hst. rewrite Ho3 in Hst. congruence.
        -- destruct (IH false c3 Hco Em Hre3) as (c' & E' & [K1 K2 K3 K4 K5 K6 K7 K8]).
           exists c'. split; [exact E'|]. constructor; assumption.
      * exists (set_remaining (negb (Z.of_nat (length b) <? BUF_SIZE)) (set_status WAIT_PROCESS c3)).
        split; [reflexivity|].
        constructor; try reflexivity; [apply core_remaining, core_status; exact Hco| | |].
        3:{ cbn [set_remaining set_status n_open n_rbuf]. unfold c3, after. cbn [n_open n_rbuf n_add].
            rewrite Eo, <- is_bad_spec. right. destruct (is_bad r); [reflexivity|discriminate]. }
        2:{ cbn [set_remaining set_status n_open n_rbuf]. unfold c3, after. cbn [n_open n_rbuf n_add].
            rewrite Eo, <- is_bad_spec. destruct (is_bad r); cbn; congruence. }
        right. right. cbn [set_remaining set_status n_received n_status]. rewrite Em.
        split; [discriminate|reflexivity].
  - exists (n_close c). destruct (n_open c); auto.
Qed.

Lemma conn_inv_core c : conn_inv c -> core c.
Proof. intros [H1 H2 H3 H4 H5 H6 H7]. constructor; assumption. Qed.

Lemma n_read_inv rs c : conn_inv c -> conn_inv (snd (n_read rs c))
  /\ (fst (n_read rs c) = Ok tt -> n_received (snd (n_read rs c)) <> [] ->
      n_status (snd (n_read rs c)) = WAIT_PROCESS).
Proof.
  intros Hc. unfold n_read.
  assert (G : n_readable c = true -> n_received c = [] ->
    conn_inv (snd (recv_loop true rs c))
    /\ (fst (recv_loop true rs c) = Ok tt -> n_received (snd (recv_loop true rs c)) <> [] ->
        n_status (snd (recv_loop true rs c)) = WAIT_PROCESS)).
  { intros Hr Hv.
    destruct (recv_loop_ok rs true c (conn_inv_core _ Hc) Hv) as (c' & E & [K1 K2 K3 K4 K5 K6 K7 K8]).
    { intros Ho. split; [exact Hr|]. apply (ci_bad _ Hc). exact Ho. }
    rewrite E. cbn [fst snd]. destruct Hc as [H1 H2 H3 H4 H5 H6 H7].
    assert (Hw : n_wbuf c = []) by auto. split.
    - destruct K1 as [J1 J2 J3 J4].
      constructor; try assumption; try congruence.
    - intros _ Hne. destruct K6 as [[? ?]|[[? ?]|[_ H]]]; [contradiction|contradiction|exact H]. }
  unfold n_readable in G.
  destruct (n_status c); destruct (n_received c) eqn:Hv;
    (apply G; reflexivity) || (split; [exact Hc|discriminate]).
Qed.

Lemma n_write_inv r c : conn_inv c -> conn_inv (snd (n_write r c)).
Proof.
  intros Hc. unfold n_write. destruct (n_status c) eqn:Es; try exact Hc.
  destruct (n_open c) eqn:Eo; [|apply n_close_inv; exact Hc].
  destruct r as [k|]; [|apply n_close_inv; exact Hc].
  destruct Hc as [H1 H2 H3 H4 H5 H6 H7]. cbn [snd].
  set (n := Nat.min k (length (n_wbuf c))).
  destruct (Nat.eqb_spec n (length (n_wbuf c))) as [En|En];
    constructor; cbn [set_out n_got n_handed n_received n_rbuf n_reading n_sent n_wbuf
      n_answers n_status n_readable n_open]; auto.
  - rewrite En, firstn_all, app_nil_r. exact H5.
  - rewrite <- app_assoc, firstn_skipn. exact H5.
  - intros [H|H]; discriminate.
Qed.

Lemma n_ready_inv a c : conn_inv c -> conn_inv (snd (n_ready a c)).
Proof.
  intros Hc. unfold n_ready. destruct (n_status c) eqn:Es; try exact Hc.
  destruct a as [[|x m]|]; [| |apply n_close_inv; exact Hc].
  - destruct Hc as [H1 H2 H3 H4 H5 H6 H7]. cbn [snd]. constructor; cbn; auto.
    rewrite H6 in H5 by auto. exact H5.
  - destruct (_ <=? _) eqn:El; [|apply n_close_inv; exact Hc].
    destruct Hc as [H1 H2 H3 H4 H5 H6 H7]. cbn [snd]. constructor;
      cbn [n_got n_handed n_received n_rbuf n_reading n_sent n_wbuf n_answers n_status
           n_readable n_open]; auto.
    + rewrite H6, app_nil_r in H5 by auto. rewrite map_app, concat_app, H5. cbn [map concat].
      rewrite app_nil_r. reflexivity.
    + intros [H|H]; discriminate.
Qed.

(** Handing over the first queued message. *)
Definition n_hand (m : nmsg) (r : list nmsg) (c : nconn) : nconn :=
  mkconn (n_status c) r (n_reading c) (n_rbuf c) (n_wbuf c) (n_remaining c) (n_open c)
    (n_got c) (n_handed c ++ [m]) (n_answers c) (n_sent c).

Definition idle_out (c : nconn) : Prop := n_status c = WAIT_PROCESS \/ n_readable c = true.

Lemma n_wait_inv c : conn_inv c -> idle_out c -> conn_inv (set_status WAIT_PROCESS c).
Proof.
  intros [H1 H2 H3 H4 H5 H6 H7] Hi. constructor; cbn; auto.
Qed.

Lemma n_hand_inv m r c : conn_inv c -> n_received c = m :: r -> conn_inv (n_hand m r c).
Proof.
  intros [H1 H2 H3 H4 H5 H6 H7] Hr. rewrite Hr in H1, H2.
  constructor; cbn; auto; rewrite <- app_assoc; assumption.
Qed.

(** * The table of clients *)

Lemma find_put_same fd c l : find_client fd (put_client fd c l) = Some c.
Proof.
  unfold find_client. induction l as [|[k x] l IH]; cbn [put_client find fst].
  - rewrite Z.eqb_refl. reflexivity.
  - destruct (k =? fd) eqn:E; cbn [find fst]; [rewrite Z.eqb_refl; reflexivity|].
    rewrite E. exact IH.
Qed.

Lemma find_put_other fd fd' c l : fd' <> fd ->
  find_client fd' (put_client fd c l) = find_client fd' l.
Proof.
  intros H. unfold find_client. induction l as [|[k x] l IH]; cbn [put_client find fst].
  - destruct (fd =? fd') eqn:E; [lia|reflexivity].
  - destruct (k =? fd) eqn:E; cbn [find fst].
    + destruct (fd =? fd') eqn:E1; [lia|]. destruct (k =? fd') eqn:E2; [lia|]. reflexivity.
    + destruct (k =? fd'); [reflexivity|]. exact IH.
Qed.

Lemma find_In fd c l : find_client fd l = Some c -> In (fd, c) l.
Proof.
  unfold find_client. intros H. destruct (find _ l) as [[k x]|] eqn:E; [|discriminate].
  apply find_some in E as [Hi E]. cbn in *. assert (k = fd) by lia. congruence.
Qed.

Lemma In_find fd c l : NoDup (map fst l) -> In (fd, c) l -> find_client fd l = Some c.
Proof.
  unfold find_client. induction l as [|[k x] l IH]; intros Hn Hi; [contradiction|].
  cbn [map fst find] in *. inversion Hn; subst.
  destruct Hi as [Hi|Hi].
  - assert (k = fd) by congruence. assert (x = c) by congruence. subst.
    rewrite Z.eqb_refl. reflexivity.
  - destruct (k =? fd) eqn:E; [|apply IH; assumption].
    exfalso. assert (k = fd) by lia. subst. apply H1.
    apply (in_map fst) in Hi. exact Hi.
Qed.

Lemma put_keys fd c l : NoDup (map fst l) -> NoDup (map fst (put_client fd c l)).
Proof.
  induction l as [|[k x] l IH]; intros Hn; cbn [put_client map fst].
  - constructor; [intros []|constructor].
  - cbn [map fst] in Hn. inversion Hn as [|? ? Hk Hl]; subst.
    destruct (k =? fd) eqn:E; cbn [map fst].
    + assert (k = fd) by lia. subst. exact Hn.
    + constructor; [|apply IH; exact Hl]. intros Hi.
      assert (G : forall l, In k (map fst (put_client fd c l)) -> In k (map fst l) \/ k = fd).
      { clear. induction l as [|[k' x'] l IH]; cbn [put_client map fst In].
        - intros [H|[]]; auto.
        - destruct (k' =? fd) eqn:E; cbn [map fst In]; intros [H|H]; auto.
          destruct (IH H); auto. }
      destruct (G _ Hi); [contradiction|lia].
Qed.

Lemma put_In fd c l x : In x (put_client fd c l) -> x = (fd, c) \/ In x l.
Proof.
  induction l as [|[k y] l IH]; cbn [put_client In].
  - intros [H|[]]; auto.
  - destruct (k =? fd); cbn [In]; intros [H|H]; auto. destruct (IH H); auto.
Qed.

(** * Preservation of a property of all connections *)

Section Preserve.
Variable Q : nconn -> Prop.
Variable K : list rres -> Prop.
Hypothesis Q_new : Q new_conn.
Hypothesis Q_close : forall c, Q c -> Q (n_close c).
Hypothesis Q_read : forall rs c, Q c -> K rs -> Q (snd (n_read rs c))
  /\ (fst (n_read rs c) = Ok tt -> n_received (snd (n_read rs c)) <> [] ->
      n_status (snd (n_read rs c)) = WAIT_PROCESS).
Hypothesis Q_write : forall r c, Q c -> Q (snd (n_write r c)).
Hypothesis Q_ready : forall a c, Q c -> Q (snd (n_ready a c)).
Hypothesis Q_wait : forall c, Q c -> idle_out c -> Q (set_status WAIT_PROCESS c).
Hypothesis Q_hand : forall m r c, Q c -> n_received c = m :: r -> Q (n_hand m r c).

Definition all (s : nserver) : Prop :=
  NoDup (map fst (clients s)) /\ forall fd c, In (fd, c) (clients s) -> 0 <= fd /\ Q c.

(** The kernel gives new connections non-negative descriptors. *)
Definition kernel_ok (k : kernel) : Prop :=
  (forall fd, In (RListen (Some fd)) (k_read k) -> 0 <= fd) /\ forall fd, K (k_recv k fd).

Lemma all_put fd c s p : all s -> 0 <= fd -> Q c -> all (mksrv (put_client fd c (clients s)) p).
Proof.
  intros [Hn Ha] Hf Hc. split; cbn [clients]; [apply put_keys; exact Hn|].
  intros fd' c' Hi. apply put_In in Hi as [E|Hi]; [|apply Ha; exact Hi].
  assert (fd' = fd) by congruence. assert (c' = c) by congruence. subst. auto.
Qed.

Lemma all_polled s p : all s -> all (mksrv (clients s) p).
Proof. intros H. exact H. Qed.

Lemma on_client_all A fd (f : nconn -> outcome A * nconn) s : all s ->
  (forall c, find_client fd (clients s) = Some c -> Q c -> Q (snd (f c))) ->
  all (snd (on_client fd f s)).
Proof.
  intros Hs Hf. unfold on_client. destruct (find_client fd (clients s)) as [c|] eqn:E; [|exact Hs].
  destruct (proj2 Hs fd c (find_In _ _ _ E)) as [H0 Hq]. specialize (Hf c eq_refl Hq).
  destruct (f c) as [r c']. cbn [snd] in *. apply all_put; assumption.
Qed.

Lemma register_clients fd s : clients (snd (register fd s)) = clients s.
Proof. unfold register. destruct (fd <? 0); reflexivity. Qed.
Lemma unregister_clients fd s : clients (snd (unregister fd s)) = clients s.
Proof. unfold unregister. destruct (fd <? 0); [reflexivity|]. destruct (existsb _ _); reflexivity. Qed.

Lemma all_clients s s' : clients s' = clients s -> all s -> all s'.
Proof. intros E. unfold all. rewrite E. auto. Qed.

(** The hand-over after the read. *)
Definition hand_over (poll : bool) (fd : Z) : SM nserver unit :=
  fun s =>
    match find_client fd (clients s) with
    | Some c =>
        match n_received c with
        | [] => (Ok tt, s)
        | m :: r =>
            bind (on_client fd (fun c => (Ok tt, set_status WAIT_PROCESS c))) (fun _ =>
            bind (if poll then unregister (n_fileno fd c) else ret tt) (fun _ =>
            on_client fd (fun c => (Ok tt, n_hand m r c)))) s
        end
    | None => (Raise EKeyError, s)
    end.

Lemma serve_client_eq poll sel k fd : serve_client poll sel k fd
  = bind (if sel then on_client fd (n_read (k_recv k fd)) else on_client fd (fun c => (Ok tt, c)))
      (fun _ => hand_over poll fd).
Proof. reflexivity. Qed.

(** What [hand_over] does to the table. *)
Lemma hand_over_cases poll fd s :
  exists r s', hand_over poll fd s = (r, s') /\
  (clients s' = clients s
   \/ exists c m l, find_client fd (clients s) = Some c /\ n_received c = m :: l
      /\ (clients s' = put_client fd (set_status WAIT_PROCESS c) (clients s)
          \/ (r = Ok tt /\ clients s' = put_client fd (n_hand m l (set_status WAIT_PROCESS c))
                 (put_client fd (set_status WAIT_PROCESS c) (clients s))))).
Proof.
  unfold hand_over. destruct (find_client fd (clients s)) as [c|] eqn:E;
    [|eexists; eexists; split; [reflexivity|left; reflexivity]].
  destruct (n_received c) as [|m l] eqn:Er;
    [eexists; eexists; split; [reflexivity|left; reflexivity]|].
  unfold bind at 1, on_client at 1. rewrite E.
  set (s1 := mksrv (put_client fd (set_status WAIT_PROCESS c) (clients s)) (polled s)).
  assert (E1 : forall s2, clients s2 = clients s1 ->
    on_client fd (fun c0 => (Ok tt, n_hand m l c0)) s2
    = (Ok tt, mksrv (put_client fd (n_hand m l (set_status WAIT_PROCESS c)) (clients s1)) (polled s2))).
  { intros s2 Es. unfold on_client. rewrite Es. cbn [s1 clients]. rewrite find_put_same. reflexivity. }
  unfold bind. destruct poll.
  - pose proof (unregister_clients (n_fileno fd c) s1) as Hu.
    destruct (unregister (n_fileno fd c) s1) as [[[]|e|] s2] eqn:Eu; cbn [snd] in Hu.
    + rewrite (E1 s2 Hu). eexists. eexists. split; [reflexivity|]. right. exists c, m, l.
      split; [reflexivity|]. split; [exact Er|]. right. split; [reflexivity|]. reflexivity.
    + eexists. eexists. split; [reflexivity|]. right. exists c, m, l.
      split; [reflexivity|]. split; [exact Er|]. left. exact Hu.
    + eexists. eexists. split; [reflexivity|]. right. exists c, m, l.
      split; [reflexivity|]. split; [exact Er|]. left. exact Hu.
  - unfold ret. rewrite (E1 s1 eq_refl). eexists. eexists. split; [reflexivity|].
    right. exists c, m, l. split; [reflexivity|]. split; [exact Er|]. right. split; reflexivity.
Qed.

Lemma hand_over_all poll fd s : all s ->
  (forall c, find_client fd (clients s) = Some c -> n_received c <> [] -> idle_out c) ->
  all (snd (hand_over poll fd s)).
Proof.
  intros Hs Hi. destruct (hand_over_cases poll fd s) as (r & s' & -> & H). cbn [snd].
  destruct H as [E|(c & m & l & Ef & Er & H)]; [eapply all_clients; eassumption|].
  destruct (proj2 Hs fd c (find_In _ _ _ Ef)) as [H0 Hq].
  assert (Hio : idle_out c) by (apply Hi; [exact Ef|rewrite Er; discriminate]).
  pose proof (Q_wait c Hq Hio) as Hw.
  pose proof (all_put fd _ s (polled s) Hs H0 Hw) as H1.
  destruct H as [E|[_ E]].
  - apply (all_clients (mksrv (put_client fd (set_status WAIT_PROCESS c) (clients s)) (polled s)));
      [exact E|exact H1].
  - pose proof (Q_hand m l (set_status WAIT_PROCESS c) Hw Er) as Hh.
    pose proof (all_put fd _ _ (polled s) H1 H0 Hh) as H2.
    eapply all_clients; [|exact H2]. exact E.
Qed.

Lemma serve_selected_all poll k fd s : all s -> K (k_recv k fd) ->
  all (snd (serve_client poll true k fd s)).
Proof.
  intros Hs Hk. rewrite serve_client_eq. unfold bind.
  unfold on_client. destruct (find_client fd (clients s)) as [c|] eqn:E; [|exact Hs].
  destruct (proj2 Hs fd c (find_In _ _ _ E)) as [H0 Hq].
  destruct (Q_read (k_recv k fd) c Hq Hk) as [H1 H2].
  destruct (n_read (k_recv k fd) c) as [r c']. cbn [fst snd] in H1, H2.
  pose proof (all_put fd c' s (polled s) Hs H0 H1) as H3.
  destruct r as [[]|e|]; try exact H3. apply hand_over_all; [exact H3|].
  cbn [clients]. rewrite find_put_same. intros c0 E0 Hr. left.
  assert (c0 = c') by congruence. subst. auto.
Qed.

(** Serving leftovers. *)
Definition idle_at (s : nserver) (fd : Z) : Prop :=
  forall c, find_client fd (clients s) = Some c -> idle_out c.

Lemma serve_leftover_all poll k fd s : all s -> idle_at s fd ->
  all (snd (serve_client poll false k fd s))
  /\ forall fd', idle_at s fd' -> idle_at (snd (serve_client poll false k fd s)) fd'.
Proof.
  intros Hs Hi. rewrite serve_client_eq. unfold bind, on_client.
  destruct (find_client fd (clients s)) as [c|] eqn:E; [|split; auto].
  set (s1 := mksrv (put_client fd c (clients s)) (polled s)).
  destruct (proj2 Hs fd c (find_In _ _ _ E)) as [H0 Hq].
  assert (H1 : all s1) by (apply all_put; assumption).
  assert (F1 : find_client fd (clients s1) = Some c) by apply find_put_same.
  assert (I1 : forall fd', idle_at s fd' -> idle_at s1 fd').
  { intros fd' H c' Ec. destruct (Z.eq_dec fd' fd) as [->|Hne].
    - rewrite F1 in Ec. apply H. congruence.
    - apply H. unfold s1 in Ec. cbn [clients] in Ec. rewrite find_put_other in Ec by exact Hne.
      exact Ec. }
  split.
  - apply hand_over_all; [exact H1|]. intros c0 E0 _. apply (I1 fd Hi). exact E0.
  - intros fd' H'. destruct (hand_over_cases poll fd s1) as (r & s' & Eh & H).
    assert (Eh' : snd (hand_over poll fd s1) = s') by (rewrite Eh; reflexivity).
    change (idle_at (snd (hand_over poll fd s1)) fd'). rewrite Eh'. clear Eh'.
    destruct H as [Es|(c0 & m & l & Ef & Er & H)].
    + unfold idle_at. rewrite Es. apply I1, H'.
    + intros c' Ec. destruct (Z.eq_dec fd' fd) as [->|Hne].
      * destruct H as [Es|[_ Es]]; rewrite Es, find_put_same in Ec; left.
        -- assert (Ec' : set_status WAIT_PROCESS c0 = c') by congruence. rewrite <- Ec'. reflexivity.
        -- assert (Ec' : n_hand m l (set_status WAIT_PROCESS c0) = c') by congruence.
           rewrite <- Ec'. reflexivity.
      * apply (I1 fd' H'). destruct H as [Es|[_ Es]]; rewrite Es in Ec;
          rewrite ?find_put_other in Ec by exact Hne; exact Ec.
Qed.

(** The scan over the clients. *)
Lemma del_In fd l x : In x (del_client fd l) -> In x l.
Proof. unfold del_client. intros H. apply filter_In in H. tauto. Qed.

Lemma del_keys fd l : NoDup (map fst l) -> NoDup (map fst (del_client fd l)).
Proof.
  unfold del_client. induction l as [|[k x] l IH]; intros Hn; [constructor|].
  cbn [map fst filter] in *. inversion Hn as [|? ? Hk Hl]; subst.
  destruct (negb (k =? fd)); cbn [map fst]; auto. constructor; auto.
  intros Hi. apply Hk. apply in_map_iff in Hi as (y & <- & Hy). apply in_map.
  apply filter_In in Hy. tauto.
Qed.

Definition left_over (c : nconn) : bool :=
  n_readable c && (n_remaining c || match n_received c with [] => false | _ => true end).

Definition gone (D : list Z) (l : list (Z * nconn)) : list (Z * nconn) :=
  filter (fun p => negb (existsb (Z.eqb (fst p)) D)) l.

Lemma gone_nil l : gone [] l = l.
Proof. unfold gone. induction l as [|x l IH]; [reflexivity|].
  cbn [filter existsb negb]. f_equal. exact IH. Qed.

Lemma gone_cons fd D l : gone D (del_client fd l) = gone (fd :: D) l.
Proof.
  unfold gone, del_client. induction l as [|[k x] l IH]; [reflexivity|].
  cbn [filter fst existsb]. destruct (k =? fd) eqn:E; cbn [negb orb filter fst]; [exact IH|].
  destruct (existsb (Z.eqb k) D); cbn [negb]; [exact IH|f_equal; exact IH].
Qed.

Lemma scan_clients poll l : forall s r s', scan poll l s = (r, s') ->
  exists D, (forall fd, In fd D -> exists c, In (fd, c) l /\ n_closed c = true)
    /\ clients s' = gone D (clients s)
    /\ (forall v, r = Ok v -> forall fd c, In (fd, c) l -> n_closed c = true -> In fd D).
Proof.
  induction l as [|[fd0 c0] l IH]; intros s r s' E; cbn [scan] in E.
  - unfold ret in E. exists []. assert (s' = s) by congruence. subst s'. rewrite gone_nil.
    split; [intros ? []|]. split; [reflexivity|]. intros v _ fd c [].
  - unfold bind at 1 in E.
    set (act := n_readable c0 || n_writeable c0) in *.
    assert (H1 : exists o s1, (if act && poll then register (n_fileno fd0 c0) else ret tt) s = (o, s1)
      /\ clients s1 = clients s).
    { destruct (act && poll).
      - unfold register. destruct (n_fileno fd0 c0 <? 0); eexists; eexists; split; reflexivity.
      - eexists; eexists; split; reflexivity. }
    destruct H1 as (o & s1 & E1 & C1). rewrite E1 in E. destruct o as [[]|e|].
    2:{ assert (Es : s1 = s') by congruence. exists []. rewrite gone_nil, <- Es.
        split; [intros ? []|]. split; [exact C1|]. intros v Ev. exfalso. congruence. }
    2:{ assert (Es : s1 = s') by congruence. exists []. rewrite gone_nil, <- Es.
        split; [intros ? []|]. split; [exact C1|]. intros v Ev. exfalso. congruence. }
    unfold bind at 1 in E.
    set (s2 := snd ((if n_closed c0 then forget poll fd0 else ret tt) s1)).
    assert (E2 : (if n_closed c0 then forget poll fd0 else ret tt) s1 = (Ok tt, s2))
      by (unfold s2; destruct (n_closed c0); reflexivity).
    rewrite E2 in E. unfold bind in E.
    destruct (scan poll l s2) as [r3 s3] eqn:E3.
    destruct (IH _ _ _ E3) as (D & D1 & D2 & D3).
    assert (G : clients s' = clients s3 /\ forall v, r = Ok v -> exists v', r3 = Ok v').
    { destruct r3 as [[rem b]|e|]; unfold ret in E.
      - assert (s3 = s') by congruence. subst. split; [reflexivity|]. eauto.
      - assert (s3 = s') by congruence. subst. split; [reflexivity|]. intros v Ev. exfalso. congruence.
      - assert (s3 = s') by congruence. subst. split; [reflexivity|]. intros v Ev. exfalso. congruence. }
    destruct G as [G1 G2].
    exists (if n_closed c0 then fd0 :: D else D). split; [|split].
    + intros fd Hi. destruct (n_closed c0) eqn:Ec.
      * destruct Hi as [<-|Hi]; [exists c0; split; [left; reflexivity|exact Ec]|].
        destruct (D1 fd Hi) as (c & Hc & Hc'). exists c. split; [right; exact Hc|exact Hc'].
      * destruct (D1 fd Hi) as (c & Hc & Hc'). exists c. split; [right; exact Hc|exact Hc'].
    + rewrite G1, D2. unfold s2. destruct (n_closed c0); cbn [forget snd clients ret].
      * rewrite gone_cons, C1. reflexivity.
      * rewrite C1. reflexivity.
    + intros v Ev fd c Hi Hc. destruct (G2 v Ev) as [v' Ev'].
      destruct Hi as [Hi|Hi].
      * assert (fd0 = fd) by congruence. assert (c0 = c) by congruence. subst.
        rewrite Hc. left. reflexivity.
      * pose proof (D3 v' Ev' fd c Hi Hc). destruct (n_closed c0); [right|]; assumption.
Qed.

Definition active (c : nconn) : bool := n_readable c || n_writeable c.

Lemma scan_result poll l : forall s rem b s', scan poll l s = (Ok (rem, b), s') ->
  rem = map (fun p => n_fileno (fst p) (snd p)) (filter (fun p => left_over (snd p)) l)
  /\ b = existsb (fun p => active (snd p) && (n_fileno (fst p) (snd p) <? 0)) l
  /\ (poll = true -> b = false).
Proof.
  induction l as [|[fd0 c0] l IH]; intros s rem b s' E; cbn [scan] in E.
  - unfold ret in E. assert (rem = []) by congruence. assert (b = false) by congruence.
    subst. auto.
  - unfold bind at 1 in E. change (n_readable c0 || n_writeable c0) with (active c0) in E.
    destruct ((if active c0 && poll then register (n_fileno fd0 c0) else ret tt) s)
      as [[[]|e|] s1] eqn:E1; try discriminate.
    unfold bind at 1 in E.
    set (s2 := snd ((if n_closed c0 then forget poll fd0 else ret tt) s1)).
    assert (E2 : (if n_closed c0 then forget poll fd0 else ret tt) s1 = (Ok tt, s2))
      by (unfold s2; destruct (n_closed c0); reflexivity).
    rewrite E2 in E. unfold bind in E.
    destruct (scan poll l s2) as [[[rem3 b3]|e|] s3] eqn:E3; try discriminate.
    destruct (IH _ _ _ _ E3) as (R1 & R2 & R3).
    change (n_readable c0 && (n_remaining c0 || match n_received c0 with [] => false | _ => true end))
      with (left_over c0) in E.
    unfold ret in E.
    assert (Hr : rem = (if left_over c0 then [n_fileno fd0 c0] else []) ++ rem3) by congruence.
    assert (Hb : b = active c0 && (n_fileno fd0 c0 <? 0) || b3) by congruence.
    split; [|split].
    + rewrite Hr, R1. cbn [filter snd]. destruct (left_over c0); reflexivity.
    + rewrite Hb, R2. reflexivity.
    + intros Hp. rewrite Hb, (R3 Hp), Bool.orb_false_r. subst poll.
      rewrite Bool.andb_true_r in E1. destruct (active c0); [|reflexivity].
      unfold register in E1. destruct (n_fileno fd0 c0 <? 0); [discriminate|reflexivity].
Qed.

Lemma gone_In D l x : In x (gone D l) <-> In x l /\ ~ In (fst x) D.
Proof.
  unfold gone. rewrite filter_In. split; intros [H1 H2]; (split; [exact H1|]).
  - intros Hi. rewrite Bool.negb_true_iff in H2.
    assert (existsb (Z.eqb (fst x)) D = true); [|congruence].
    apply existsb_exists. exists (fst x). split; [exact Hi|lia].
  - rewrite Bool.negb_true_iff. apply Bool.not_true_is_false. intros He.
    apply existsb_exists in He as (y & Hy & E). apply H2.
    assert (fst x = y) by lia. congruence.
Qed.

Lemma gone_keys D l : NoDup (map fst l) -> NoDup (map fst (gone D l)).
Proof.
  intros Hn. induction l as [|[k x] l IH]; [constructor|].
  cbn [map fst] in Hn. inversion Hn as [|? ? Hk Hl]; subst.
  unfold gone. cbn [filter fst]. fold (gone D l).
  destruct (negb _); cbn [map fst]; auto. constructor; auto.
  intros Hi. apply Hk. apply in_map_iff in Hi as (y & <- & Hy). apply in_map.
  apply gone_In in Hy. tauto.
Qed.

(** Every client that is not closed stays; after a successful scan no closed
    client is left. *)
Lemma scan_table poll s r s' : NoDup (map fst (clients s)) ->
  scan poll (clients s) s = (r, s') ->
  NoDup (map fst (clients s'))
  /\ (forall x, In x (clients s') -> In x (clients s))
  /\ (forall fd c, In (fd, c) (clients s) -> n_closed c = false -> In (fd, c) (clients s'))
  /\ (forall v, r = Ok v -> forall fd c, In (fd, c) (clients s') -> n_closed c = false).
Proof.
  intros Hn E. destruct (scan_clients _ _ _ _ _ E) as (D & D1 & D2 & D3). rewrite D2.
  split; [apply gone_keys; exact Hn|]. split; [|split].
  - intros x Hx. apply gone_In in Hx. tauto.
  - intros fd c Hi Hc. apply gone_In. split; [exact Hi|]. cbn [fst]. intros Hd.
    destruct (D1 fd Hd) as (c' & Hi' & Hc').
    apply (In_find _ _ _ Hn) in Hi, Hi'. congruence.
  - intros v Ev fd c Hi. apply gone_In in Hi as [Hi Hd]. cbn [fst] in Hd.
    destruct (n_closed c) eqn:Ec; [|reflexivity]. exfalso. apply Hd. apply (D3 v Ev fd c Hi Ec).
Qed.

Lemma readable_not_closed c : n_readable c = true -> n_closed c = false.
Proof. unfold n_readable, n_closed. destruct (n_status c); congruence. Qed.

(** * One step and whole runs *)

Lemma mapM_all A (f : A -> SM nserver unit) l : forall s,
  (forall x s, In x l -> all s -> all (snd (f x s))) -> all s -> all (snd (mapM_ f l s)).
Proof.
  induction l as [|x l IH]; intros s Hf Hs; [exact Hs|].
  cbn [mapM_]. unfold bind. pose proof (Hf x s (or_introl eq_refl) Hs) as H1.
  destruct (f x s) as [[[]|e|] s1]; cbn [snd] in *; auto.
  apply IH; [|exact H1]. intros y s' Hy. apply Hf. right. exact Hy.
Qed.

Lemma leftovers_all poll k l : forall s, all s -> (forall fd, In fd l -> idle_at s fd) ->
  all (snd (mapM_ (serve_readable poll false k) (map RClient l) s)).
Proof.
  induction l as [|fd l IH]; intros s Hs Hi; [exact Hs|].
  cbn [map mapM_ serve_readable]. unfold bind.
  destruct (serve_leftover_all poll k fd s Hs (Hi fd (or_introl eq_refl))) as [H1 H2].
  destruct (serve_client poll false k fd s) as [[[]|e|] s1]; cbn [snd] in *; auto.
  apply IH; [exact H1|]. intros fd' Hd. apply H2, Hi. right. exact Hd.
Qed.

Lemma handle_all poll k s : kernel_ok k -> all s -> all (snd (handle poll k s)).
Proof.
  intros [Hk1 Hk2] Hs. unfold handle, bind at 1.
  destruct (scan poll (clients s) s) as [r s1] eqn:E.
  destruct (scan_table _ _ _ _ (proj1 Hs) E) as (T1 & T2 & T3 & T4).
  assert (Hs1 : all s1).
  { split; [exact T1|]. intros fd c Hi. apply (proj2 Hs), T2, Hi. }
  destruct r as [[rem b]|e|]; try exact Hs1.
  destruct (scan_result _ _ _ _ _ _ E) as (R1 & _ & _).
  destruct rem as [|f rem].
  - destruct (negb poll && b); [exact Hs1|].
    assert (G1 : all (snd (mapM_ (serve_readable poll true k) (k_read k) s1))).
    { apply mapM_all; [|exact Hs1]. intros [[fd|]| |fd] s' Hi Ha; cbn [serve_readable]; try exact Ha.
      - apply all_put; [exact Ha|apply Hk1; exact Hi|exact Q_new].
      - apply serve_selected_all; [exact Ha|apply Hk2]. }
    unfold bind. destruct (mapM_ (serve_readable poll true k) (k_read k) s1) as [[[]|e|] s2];
      cbn [snd] in *; try exact G1.
    assert (G2 : all (snd (mapM_ (fun fd => on_client fd (n_write (k_send k fd))) (k_write k) s2))).
    { apply mapM_all; [|exact G1]. intros fd s' _ Ha. apply on_client_all; [exact Ha|].
      intros c _. apply Q_write. }
    destruct (mapM_ (fun fd => on_client fd (n_write (k_send k fd))) (k_write k) s2)
      as [[[]|e|] s3]; cbn [snd] in *; try exact G2.
    apply mapM_all; [|exact G2]. intros fd s' _ Ha. apply on_client_all; [exact Ha|].
    intros c _. apply Q_close.
  - apply leftovers_all; [exact Hs1|]. intros fd Hi c Ec.
    rewrite R1 in Hi. apply in_map_iff in Hi as ([k0 c0] & Ef & Hi). cbn [fst snd] in Ef.
    apply filter_In in Hi as [Hi Hl]. cbn [snd] in Hl.
    unfold left_over in Hl. apply andb_prop in Hl as [Hr _].
    pose proof (find_In _ _ _ Ec) as Hc. destruct (proj2 Hs1 _ _ Hc) as [H0 _].
    unfold n_fileno in Ef. destruct (n_open c0); [|lia]. subst k0.
    pose proof (T3 _ _ Hi (readable_not_closed _ Hr)) as Hi'.
    apply (In_find _ _ _ T1) in Hi'. right. congruence.
Qed.

Definition event_ok (e : nevent) : Prop :=
  match e with Handle k => kernel_ok k | Done _ _ => True end.

Lemma nstep_all poll e s : event_ok e -> all s -> all (snd (nstep poll e s)).
Proof.
  destruct e as [k|fd a]; intros He Hs; cbn [nstep]; [apply handle_all; assumption|].
  destruct (find_client fd (clients s)) as [c|] eqn:E; [|exact Hs].
  destruct (proj2 Hs fd c (find_In _ _ _ E)) as [H0 Hq].
  apply all_put; auto.
Qed.

Lemma nrun_all poll l : forall s, Forall event_ok l -> all s -> all (snd (nrun poll l s)).
Proof.
  induction l as [|e l IH]; intros s Hl Hs; [exact Hs|].
  inversion Hl as [|? ? He Hl']; subst. cbn [nrun]. unfold bind.
  pose proof (nstep_all poll e s He Hs) as H1.
  destruct (nstep poll e s) as [[[]|x|] s1]; cbn [snd] in *; auto.
Qed.
End Preserve.
