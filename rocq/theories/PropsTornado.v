(** C39: the lock of the Tornado transport, and the frames read under it. *)
From Coq Require Import ZArith List Bool Lia ZifyBool ZifyNat.
From Coq Require Import Init.Byte.
From Verif Require Import Base Bytes BytesFacts Tornado TornadoFacts.
Import ListNotations.
Open Scope Z_scope.

(** For every history of calls of acquire, resumptions by the event loop and
    exits from the with block, in any order. *)
Theorem C39_mutual_exclusion : forall es s i j, lrun es lstart = Some s ->
  phases s i = Inside -> phases s j = Inside -> i = j.
Proof.
  intros es s i j E Hi Hj. destruct (lrun_inv _ _ _ _ lstart_inv E) as [r I].
  destruct (linv_inside _ _ _ I Hi), (linv_inside _ _ _ I Hj). congruence.
Qed.

(** Users are numbered by the order of their requests: when one has the lock, or
    has had it, all earlier ones are done. *)
Theorem C39_request_order : forall es s i j, lrun es lstart = Some s -> (i < j)%nat ->
  phases s j = Inside \/ phases s j = Left -> phases s i = Left.
Proof.
  intros es s i j E Hij Hj. destruct (lrun_inv _ _ _ _ lstart_inv E) as [r I].
  apply (li_left _ _ I). destruct Hj as [Hj|Hj].
  - destruct (linv_inside _ _ _ I Hj). lia.
  - destruct (le_lt_dec (created (the_lock s)) j) as [Hn|Hn].
    + rewrite (li_out _ _ I j Hn) in Hj. discriminate.
    + destruct (lt_eq_lt_dec j r) as [[H|H]|H]; [lia| |].
      * subst j. lia.
      * rewrite (li_wait _ _ I j ltac:(lia)) in Hj. discriminate.
Qed.

(** No wake-up is lost: while a request is outstanding, its first user is inside
    or can be resumed; and leaving never trips the assertion of release(). *)
Theorem C39_no_lost_wakeup : forall es s i, lrun es lstart = Some s ->
  phases s i <> Absent -> phases s i <> Left ->
  exists j, (j <= i)%nat
    /\ (phases s j = Inside \/ exists s', lstep s (Resume j) = Some s' /\ phases s' j = Inside).
Proof.
  intros es s i E H1 H2. destruct (lrun_inv _ _ _ _ lstart_inv E) as [r I].
  assert (Hi : (r <= i < created (the_lock s))%nat).
  { split.
    - destruct (le_lt_dec r i); [assumption|]. exfalso. apply H2, (li_left _ _ I). assumption.
    - destruct (le_lt_dec (created (the_lock s)) i); [|assumption].
      exfalso. apply H1, (li_out _ _ I). assumption. }
  exists r. split; [lia|]. destruct (li_head _ _ I ltac:(lia)) as [H|[H0 H]]; [left; exact H|].
  right. cbn [lstep]. rewrite H, (li_resolved _ _ I).
  replace (r - 1 <? r)%nat with true by lia.
  eexists. split; [reflexivity|]. cbn [phases]. apply upd_eq.
Qed.

Theorem C39_release_succeeds : forall es s i, lrun es lstart = Some s ->
  phases s i = Inside -> exists s', lstep s (Release i) = Some s' /\ phases s' i = Left.
Proof.
  intros es s i E Hi. destruct (lrun_inv _ _ _ _ lstart_inv E) as [r I].
  destruct (linv_inside _ _ _ I Hi) as [-> Hc]. cbn [lstep]. rewrite Hi. unfold release.
  rewrite (li_waiters _ _ I). destruct (created (the_lock s) - r)%nat eqn:Em; [lia|].
  cbn [seq]. eexists. split; [reflexivity|]. cbn [phases]. apply upd_eq.
Qed.

(** Concurrent calls of readFrame on one stream: the i-th call that completes a
    frame gets the i-th frame, whatever the interleaving and whatever follows
    the whole frames. *)
Theorem C39_frames_in_order : forall frames tail es s i a,
  (forall f, In f frames -> Z.of_nat (length f) < 2 ^ 31) ->
  ((length tail < 4)%nat \/ unpack_signed 4 (firstn 4 tail) < 0
   \/ Z.of_nat (length tail) - 4 < unpack_signed 4 (firstn 4 tail)) ->
  rrun es (rstart (concat (map (fun f => be_bytes 4 (Z.of_nat (length f)) ++ f) frames)
                   ++ tail)) = Some s ->
  (forall j, ~ In (StreamError j) es) ->
  answer s i = Some a -> exists f, nth_error frames i = Some f /\ a = Ok f.
Proof.
  intros frames tail es s i a Hf Ht E He Ha.
  assert (He' : forallb no_error es = true).
  { rewrite forallb_forall. intros [| | | |j] Hin; try reflexivity.
    exfalso. apply (He j Hin). }
  destruct (rrun_inv frames tail es _ _ _ Ht Hf (rstart_inv frames tail) E He')
    as (r & _ & A1 & A2 & _).
  destruct (le_lt_dec r i) as [H|H].
  - rewrite (A2 i H) in Ha. discriminate.
  - destruct (A1 i H) as (f & Ef & Ea). exists f. split; [exact Ef|congruence].
Qed.

(** With stream errors too, readers exclude one another, and each leaves the
    lock whatever happened to its reads. *)
Theorem C39_reader_exclusion : forall stream es s i j, rrun es (rstart stream) = Some s ->
  phases (users s) i = Inside -> phases (users s) j = Inside -> i = j.
Proof.
  intros stream es s i j E Hi Hj.
  destruct (rrun_linv es (rstart stream) O s lstart_inv E) as [r I].
  destruct (linv_inside _ _ _ I Hi), (linv_inside _ _ _ I Hj). congruence.
Qed.

Theorem C39_reader_releases : forall stream es s i, rrun es (rstart stream) = Some s ->
  phases (users s) i = Inside ->
  exists s', rstep s (StreamError i) = Some s' /\ phases (users s') i = Left
    /\ answer s' i = Some (Raise (ETransport TT_END_OF_FILE)).
Proof.
  intros stream es s i E Hi. destruct (rrun_linv es (rstart stream) O s lstart_inv E) as [r I].
  destruct (linv_inside _ _ _ I Hi) as [-> Hc]. cbn [rstep]. unfold inside. rewrite Hi.
  cbn [lstep]. rewrite Hi. unfold release. rewrite (li_waiters _ _ I).
  destruct (created (the_lock (users s)) - r)%nat eqn:Em; [lia|]. cbn [seq].
  eexists. split; [reflexivity|]. cbn [users phases answer]. split; apply upd_eq.
Qed.

(** What one side flushes, the other side's readers get. *)
Theorem C39_flush_frame : forall b s o, Z.of_nat (length (b ++ s)) < 2 ^ 31 ->
  bind (twrite s) (fun _ => tflush) (mkwt b o)
  = (Ok tt, mkwt [] (o ++ be_bytes 4 (Z.of_nat (length (b ++ s))) ++ b ++ s)).
Proof.
  intros b s o H. unfold bind, twrite, tflush. cbn [wbuf sent].
  rewrite pack_signed_ok; [reflexivity|].
  unfold in_signed. change (8 * Z.of_nat 4 - 1) with 31. lia.
Qed.

(** * Non-trivial cases *)

(** Three requests, the second made while the first holds the lock. *)
Example C39_ex : match lrun [Acquire; Acquire; Release 0; Acquire; Resume 1; Release 1; Resume 2]
                       lstart with
  | Some s => map (phases s) [0; 1; 2; 3]%nat = [Left; Left; Inside; Absent]
  | None => False
  end.
Proof. reflexivity. Qed.

(** Resuming out of turn cannot happen. *)
Example C39_ex_turn :
  lrun [Acquire; Acquire; Acquire; Release 0; Resume 2] lstart = None.
Proof. reflexivity. Qed.

(** release() is public: called by someone who does not hold the lock, it lets
    the next user in. *)
Example C39_ex_foreign_release :
  match lrun [Acquire; Acquire] lstart with
  | Some s =>
      match release (the_lock s) with
      | Ok l => match lstep (mkls l (phases s)) (Resume 1) with
                | Some s' => phases s' 0%nat = Inside /\ phases s' 1%nat = Inside
                | None => False
                end
      | _ => False
      end
  | None => False
  end.
Proof. split; reflexivity. Qed.

Example C39_ex_frames :
  match rrun [Call; Call; ReadHeader 0; Call; ReadBody 0; Wake 1; ReadHeader 1; ReadBody 1; Wake 2]
          (rstart (concat (map frame_bytes [[x41]; [x42; x43]]) ++ [x00; x00])) with
  | Some s => map (answer s) [0; 1; 2]%nat = [Some (Ok [x41]); Some (Ok [x42; x43]); None]
  | None => False
  end.
Proof. vm_compute. reflexivity. Qed.

(** Axioms used. *)
Print Assumptions C39_mutual_exclusion.
Print Assumptions C39_request_order.
Print Assumptions C39_no_lost_wakeup.
Print Assumptions C39_release_succeeds.
Print Assumptions C39_frames_in_order.
Print Assumptions C39_reader_exclusion.
Print Assumptions C39_reader_releases.
Print Assumptions C39_flush_frame.
