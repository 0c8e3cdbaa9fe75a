(** Facts about HttpClient.v. *)
From Coq Require Import String.
From Coq Require Import ZArith List Bool Lia.
From Coq Require Import Init.Byte.
From Coq Require Import ZifyBool ZifyNat ZifyN.
From Verif Require Import Base Bytes Utf8 Proto Spec Laws StructFacts JsonText MsgLaws Rpc
  RpcFacts RpcSys HttpServer HttpFacts Transport HttpClient.
Import ListNotations.
Open Scope Z_scope.
Open Scope list_scope.

(** * What a history should lead to *)

(** The bodies of the requests sent: what was written since the last flush. *)
Fixpoint requests (acc : list byte) (l : list hop) : list (list byte) :=
  match l with
  | [] => []
  | HWrite b :: r => requests (acc ++ b) r
  | HFlush (Unsent _) :: r => requests [] r
  | HFlush _ :: r => acc :: requests [] r
  | _ :: r => requests acc r
  end.

(** What is left to be sent. *)
Fixpoint pending (acc : list byte) (l : list hop) : list byte :=
  match l with
  | [] => acc
  | HWrite b :: r => pending (acc ++ b) r
  | HFlush _ :: r => pending [] r
  | _ :: r => pending acc r
  end.

(** The headers of the last response there was. *)
Fixpoint last_headers (h : option (list header)) (l : list hop) : option (list header) :=
  match l with
  | [] => h
  | HFlush (Answered r) :: l' => last_headers (Some (r_headers r)) l'
  | _ :: l' => last_headers h l'
  end.

Fixpoint last_custom (h : option (list header)) (l : list hop) : option (list header) :=
  match l with
  | [] => h
  | HCustom h' :: l' => last_custom h' l'
  | _ :: l' => last_custom h l'
  end.

Fixpoint posts (log : list hcev) : list (list header * list byte) :=
  match log with
  | [] => []
  | Posted _ _ h b :: r => (h, b) :: posts r
  | _ :: r => posts r
  end.

(** open() is not called while open. *)
Fixpoint disciplined (open : bool) (l : list hop) : bool :=
  match l with
  | [] => true
  | HOpen :: r => negb open && disciplined true r
  | HClose :: r => disciplined false r
  | HFlush _ :: r => disciplined true r
  | _ :: r => disciplined open r
  end.

(** A connection is closed before the next is opened, the numbers go up, and a
    connection carries at most one request.  [cur]: the open connection and
    whether it has been used. *)
Fixpoint lifecycle (next : nat) (cur : option (nat * bool)) (log : list hcev) : bool :=
  match log with
  | [] => true
  | Opened n _ _ :: r =>
      match cur with
      | None => Nat.eqb n next && lifecycle (S next) (Some (n, false)) r
      | Some _ => false
      end
  | Closed n :: r =>
      match cur with
      | Some (m, _) => Nat.eqb n m && lifecycle next None r
      | None => false
      end
  | Posted n _ _ _ :: r =>
      match cur with
      | Some (m, false) => Nat.eqb n m && lifecycle next (Some (m, true)) r
      | _ => false
      end
  end.

(** * Proofs *)

Lemma posts_app a b : posts (a ++ b) = posts a ++ posts b.
Proof. induction a as [|[] a IH]; cbn [posts app]; try assumption; [reflexivity|]. rewrite IH. reflexivity. Qed.

Section Hist.
Variable cf : conf.
Variable legal : header -> bool.
Hypothesis Hlegal : forall h, legal h = true.

Lemma all_legal l : forallb legal l = true.
Proof. induction l as [|a l IH]; cbn [forallb]; [reflexivity|]. rewrite Hlegal, IH. reflexivity. Qed.

(** flush, with the closing and opening done. *)
Definition reopened (s : hclient) : hclient :=
  hc_open cf (if hc_isOpen s then snd (hc_close s) else s).

Lemma reopened_same s :
  c_wbuf (reopened s) = c_wbuf s /\ c_code (reopened s) = c_code s
  /\ c_hdrs (reopened s) = c_hdrs s /\ c_custom (reopened s) = c_custom s
  /\ c_conn (reopened s) = Some (c_next s) /\ c_next (reopened s) = S (c_next s)
  /\ (c_conn s <> None \/ c_resp s = None -> c_resp (reopened s) = None)
  /\ posts (c_log (reopened s)) = posts (c_log s)
  /\ c_log (reopened s)
     = c_log s ++ match c_conn s with Some n => [Closed n] | None => [] end
       ++ [Opened (c_next s)
             (match proxied cf with Some (p, _) => p | None => origin cf end)
             (match proxied cf with Some (_, a) => Some (origin cf, a) | None => None end)].
Proof.
  unfold reopened, hc_open, hc_isOpen, hc_close.
  destruct (c_conn s) as [n|] eqn:E; cbn; rewrite ?E; cbn; repeat split; auto;
    try (rewrite !posts_app; cbn [posts]; rewrite ?app_nil_r; reflexivity);
    try (rewrite <- app_assoc; reflexivity).
  intros [F|F]; [congruence|exact F].
Qed.

(** The headers do not depend on more of the client than the custom headers and
    the last response's headers. *)
Definition req_headers (custom hdrs : option (list header)) (data : list byte) : list header :=
  headers_for cf (mkhc [] None None None hdrs custom O []) data.

Lemma flush_eq f s :
  hc_flush cf legal f s
  = let t := reopened s in
    let hs := req_headers (c_custom s) (c_hdrs s) (c_wbuf s) in
    let posted := c_log t ++ [Posted (c_next s) (target cf) hs (c_wbuf s)] in
    match f with
    | Unsent e => (Raise e, mkhc [] (Some (c_next s)) (c_resp t) (c_code s) (c_hdrs s)
                                 (c_custom s) (S (c_next s)) (c_log t))
    | Unanswered e => (Raise e, mkhc [] (Some (c_next s)) (c_resp t) (c_code s) (c_hdrs s)
                                 (c_custom s) (S (c_next s)) posted)
    | Answered r => (Ok tt, mkhc [] (Some (c_next s)) (Some (r_body r)) (Some (r_status r))
                                 (Some (r_headers r)) (c_custom s) (S (c_next s)) posted)
    end.
Proof.
  destruct (reopened_same s) as (E1 & E2 & E3 & E4 & E5 & E6 & _ & _).
  unfold hc_flush. rewrite all_legal. fold (reopened s).
  rewrite E1, E2, E3, E4, E5, E6.
  assert (En : c_next (if hc_isOpen s then snd (hc_close s) else s) = c_next s).
  { unfold hc_isOpen, hc_close. destruct (c_conn s); reflexivity. }
  rewrite En. destruct f; reflexivity.
Qed.

Lemma hrun_eq o l s : hrun cf legal (o :: l) s
  = (fst (hstep cf legal o s) :: fst (hrun cf legal l (snd (hstep cf legal o s))),
     snd (hrun cf legal l (snd (hstep cf legal o s)))).
Proof.
  cbn [hrun]. destruct (hstep cf legal o s) as [x s']. cbn [fst snd].
  destruct (hrun cf legal l s'). reflexivity.
Qed.

Lemma step_flush f s : snd (hstep cf legal (HFlush f) s) = snd (hc_flush cf legal f s).
Proof. cbn [hstep]. unfold bind. destruct (hc_flush cf legal f s) as [[]]; reflexivity. Qed.
Lemma step_close s : snd (hstep cf legal HClose s) = snd (hc_close s).
Proof. cbn [hstep]. unfold bind. destruct (hc_close s) as [[]]; reflexivity. Qed.

(** What a history leads to, in terms of the functions above. *)
Lemma run_spec l : forall s,
  let s' := snd (hrun cf legal l s) in
  map snd (posts (c_log s')) = map snd (posts (c_log s)) ++ requests (c_wbuf s) l
  /\ c_wbuf s' = pending (c_wbuf s) l
  /\ c_hdrs s' = last_headers (c_hdrs s) l
  /\ c_custom s' = last_custom (c_custom s) l.
Proof.
  induction l as [|o l IH]; intros s; cbn zeta.
  - cbn [hrun snd requests pending last_headers last_custom]. rewrite app_nil_r. auto.
  - rewrite hrun_eq. cbn [snd]. destruct o as [| |b|f|k sz|h].
    + specialize (IH (hc_open cf s)). cbn zeta in IH. cbn [hstep snd].
      cbn [requests pending last_headers last_custom].
      unfold hc_open in IH at 2 4 5 6. cbn [c_log c_wbuf c_hdrs c_custom] in IH.
      rewrite posts_app in IH. cbn [posts] in IH. rewrite app_nil_r in IH. exact IH.
    + rewrite step_close. unfold hc_close. cbn [requests pending last_headers last_custom].
      destruct (c_conn s); cbn [snd]; [|exact (IH s)].
      match goal with |- context [hrun cf legal l ?t] => specialize (IH t) end.
      cbn zeta in IH. cbn [c_log c_wbuf c_hdrs c_custom] in IH.
      rewrite posts_app in IH. cbn [posts] in IH. rewrite app_nil_r in IH. exact IH.
    + cbn [hstep snd]. exact (IH (hc_write b s)).
    + rewrite step_flush, flush_eq.
      destruct (reopened_same s) as (_ & _ & _ & _ & _ & _ & _ & E8 & _).
      cbn zeta. destruct f as [e|e|r]; cbn [snd requests pending last_headers last_custom];
        match goal with |- context [hrun cf legal l ?t] => specialize (IH t) end;
        cbn zeta in IH; cbn [c_log c_wbuf c_hdrs c_custom] in IH;
        rewrite ?posts_app, E8 in IH; cbn [posts] in IH; rewrite ?map_app in IH;
        cbn [map snd] in IH; rewrite <- ?app_assoc in IH; exact IH.
    + cbn [hstep requests pending last_headers last_custom]. unfold hc_read.
      destruct (c_resp s); cbn [snd]; [|exact (IH s)].
      match goal with |- context [hrun cf legal l ?t] => exact (IH t) end.
    + cbn [hstep snd]. exact (IH (hc_custom h s)).
Qed.

(** No response without a connection. *)
Definition sane (s : hclient) : Prop := c_conn s = None -> c_resp s = None.

Lemma step_sane o s : sane s -> sane (snd (hstep cf legal o s)).
Proof.
  intros H. destruct o as [| |b|f|k sz|h].
  - discriminate.
  - rewrite step_close. unfold hc_close, sane in *. destruct (c_conn s) eqn:E; cbn [snd];
      [reflexivity|exact (fun _ => H eq_refl)].
  - exact H.
  - rewrite step_flush, flush_eq. destruct f; discriminate.
  - cbn [hstep]. unfold hc_read, sane in *. destruct (c_resp s) eqn:E; cbn [snd c_conn c_resp].
    + intros C. specialize (H C). discriminate.
    + rewrite E. auto.
  - exact H.
Qed.

Lemma run_sane l : forall s, sane s -> sane (snd (hrun cf legal l s)).
Proof.
  induction l as [|o l IH]; intros s H; [exact H|]. rewrite hrun_eq. cbn [snd].
  apply IH, step_sane, H.
Qed.

(** * Connections *)

(** The connection open at the end of a well-behaved log, and the next number. *)
Fixpoint life (next : nat) (cur : option (nat * bool)) (log : list hcev)
  : option (nat * option (nat * bool)) :=
  match log with
  | [] => Some (next, cur)
  | Opened n _ _ :: r =>
      match cur with
      | None => if Nat.eqb n next then life (S next) (Some (n, false)) r else None
      | Some _ => None
      end
  | Closed n :: r =>
      match cur with
      | Some (m, _) => if Nat.eqb n m then life next None r else None
      | None => None
      end
  | Posted n _ _ _ :: r =>
      match cur with
      | Some (m, false) => if Nat.eqb n m then life next (Some (m, true)) r else None
      | _ => None
      end
  end.

Lemma life_lifecycle log : forall next cur, life next cur log <> None ->
  lifecycle next cur log = true.
Proof.
  induction log as [|[n t u|n|n t h b] log IH]; intros next cur H; cbn [life lifecycle] in *.
  - reflexivity.
  - destruct cur; [congruence|]. destruct (Nat.eqb n next); [|congruence]. apply IH, H.
  - destruct cur as [[m u]|]; [|congruence]. destruct (Nat.eqb n m); [|congruence]. apply IH, H.
  - destruct cur as [[m []]|]; try congruence. destruct (Nat.eqb n m); [|congruence].
    apply IH, H.
Qed.

Lemma life_app log log' : forall next cur,
  life next cur (log ++ log')
  = match life next cur log with Some (n, c) => life n c log' | None => None end.
Proof.
  induction log as [|[n t u|n|n t h b] log IH]; intros next cur; cbn [life app].
  - reflexivity.
  - destruct cur; [reflexivity|]. destruct (Nat.eqb n next); auto.
  - destruct cur as [[m u]|]; [|reflexivity]. destruct (Nat.eqb n m); auto.
  - destruct cur as [[m []]|]; auto. destruct (Nat.eqb n m); auto.
Qed.

Definition alive (s : hclient) : Prop :=
  exists cur, life O None (c_log s) = Some (c_next s, cur)
    /\ option_map fst cur = c_conn s.

Lemma reopened_alive s : alive s ->
  life O None (c_log (reopened s)) = Some (S (c_next s), Some (c_next s, false)).
Proof.
  intros (cur & E & C). destruct (reopened_same s) as (_ & _ & _ & _ & _ & _ & _ & _ & EL).
  rewrite EL, !life_app, E. destruct cur as [[m u]|]; cbn in C; rewrite <- C.
  - cbn [life app]. rewrite Nat.eqb_refl. cbn [life]. rewrite Nat.eqb_refl. reflexivity.
  - cbn [life app]. rewrite Nat.eqb_refl. reflexivity.
Qed.

Lemma run_alive l : forall s, disciplined (hc_isOpen s) l = true -> alive s ->
  alive (snd (hrun cf legal l s)).
Proof.
  induction l as [|o l IH]; intros s D A; [exact A|]. rewrite hrun_eq. cbn [snd].
  destruct o as [| |b|f|k sz|h]; cbn [disciplined] in D.
  - apply andb_prop in D as [D1 D2]. cbn [hstep snd]. apply IH; [exact D2|].
    destruct A as (cur & E & C). unfold hc_isOpen in D1.
    destruct (c_conn s) eqn:Ec; [discriminate|].
    destruct cur as [[m u]|]; [discriminate|].
    exists (Some (c_next s, false)). unfold hc_open. cbn [c_log c_next c_conn].
    rewrite life_app, E. cbn [life]. rewrite Nat.eqb_refl. split; reflexivity.
  - rewrite step_close. unfold hc_close. destruct A as (cur & E & C).
    destruct (c_conn s) as [n|] eqn:Ec; cbn [snd].
    + apply IH; [exact D|]. exists None. cbn [c_log c_next c_conn]. split; [|reflexivity].
      destruct cur as [[m u]|]; [|discriminate]. cbn in C. injection C as ->.
      rewrite life_app, E. cbn [life]. rewrite Nat.eqb_refl. reflexivity.
    + apply IH; [|exists cur; split; [exact E|congruence]].
      unfold hc_isOpen. rewrite Ec. exact D.
  - cbn [hstep snd]. apply IH; assumption.
  - rewrite step_flush, flush_eq. pose proof (reopened_alive s A) as R. cbn zeta.
    destruct f as [e|e|r]; cbn [snd]; (apply IH; [exact D|]).
    + exists (Some (c_next s, false)). cbn [c_log c_next c_conn]. split; [exact R|reflexivity].
    + exists (Some (c_next s, true)). cbn [c_log c_next c_conn]. split; [|reflexivity].
      rewrite life_app, R. cbn [life]. rewrite Nat.eqb_refl. reflexivity.
    + exists (Some (c_next s, true)). cbn [c_log c_next c_conn]. split; [|reflexivity].
      rewrite life_app, R. cbn [life]. rewrite Nat.eqb_refl. reflexivity.
  - cbn [hstep]. unfold hc_read. destruct (c_resp s); cbn [snd]; (apply IH; [exact D|exact A]).
  - cbn [hstep snd]. apply IH; assumption.
Qed.
End Hist.

(** * Reading *)

(** A client with a schedule of how much each read gives at most. *)
Definition sched_read (sz : Z) : SM (list nat * hclient) (list byte) :=
  fun s =>
    match hc_read (hd O (fst s)) sz (snd s) with
    | (r, c) => (r, (tl (fst s), c))
    end.

Definition with_resp (s : hclient) (b : list byte) : hclient :=
  mkhc (c_wbuf s) (c_conn s) (Some b) (c_code s) (c_hdrs s) (c_custom s) (c_next s) (c_log s).

Lemma with_resp_twice s b b' : with_resp (with_resp s b) b' = with_resp s b'.
Proof. reflexivity. Qed.

Lemma readAll_spec fuel : forall sched s b sz have buff,
  (Z.to_nat (sz - have) < fuel)%nat -> 0 <= have <= sz ->
  exists sched',
    readAll_loop fuel sched_read sz have buff (sched, with_resp s b)
    = if sz - have <=? Z.of_nat (length b)
      then (Ok (buff ++ firstn (Z.to_nat (sz - have)) b),
            (sched', with_resp s (skipn (Z.to_nat (sz - have)) b)))
      else (Raise EEOFError, (sched', with_resp s [])).
Proof.
  induction fuel as [|k IH]; intros sched s b sz have buff HF Hh; [lia|].
  cbn [readAll_loop]. destruct (Z.ltb_spec have sz) as [Hlt|Hge].
  2: { exists sched. replace (sz - have) with 0 by lia.
       replace (0 <=? Z.of_nat (length b)) with true by lia.
       cbn [Z.to_nat firstn skipn]. rewrite app_nil_r. reflexivity. }
  set (n := Nat.min (Z.to_nat (sz - have)) (S (hd O sched))).
  assert (Hn : (1 <= n <= Z.to_nat (sz - have))%nat) by (unfold n; lia).
  assert (Er : sched_read (sz - have) (sched, with_resp s b)
               = (Ok (firstn n b), (tl sched, with_resp s (skipn n b)))).
  { unfold sched_read, hc_read. cbn [fst snd c_resp with_resp].
    destruct (Z.ltb_spec (sz - have) 0) as [?|_]; [lia|]. reflexivity. }
  unfold bind. rewrite Er. clear Er.
  destruct b as [|x b].
  - rewrite firstn_nil, skipn_nil. exists (tl sched).
    replace (sz - have <=? Z.of_nat (length (@nil byte))) with false
      by (cbn [length]; lia). reflexivity.
  - set (l := x :: b) in *.
    assert (Hlen : length (firstn n l) = Nat.min n (length l)) by apply firstn_length.
    assert (Hpos : (1 <= length l)%nat) by (unfold l; cbn [length]; lia).
    destruct (Z.eqb_spec (Z.of_nat (length (firstn n l))) 0) as [E0|E0]; [lia|].
    destruct (IH (tl sched) s (skipn n l) sz (have + Z.of_nat (length (firstn n l)))
                (buff ++ firstn n l)) as (sched' & E); [lia|lia|].
    exists sched'. rewrite E. clear E. rewrite skipn_length.
    destruct (Nat.le_gt_cases (length l) n) as [Hs|Hs].
    + (* everything was read *)
      rewrite (firstn_all2 l Hs), (skipn_all2 l Hs). rewrite firstn_nil, skipn_nil, app_nil_r.
      destruct (Z.leb_spec (sz - (have + Z.of_nat (length l)))
                  (Z.of_nat (length l - n))) as [Hc|Hc];
      destruct (Z.leb_spec (sz - have) (Z.of_nat (length l))) as [Hd|Hd]; try lia.
      * rewrite (firstn_all2 l) by lia. rewrite (skipn_all2 l) by lia. reflexivity.
      * reflexivity.
    + replace (length (firstn n l)) with n by lia.
      destruct (Z.leb_spec (sz - (have + Z.of_nat n))
                  (Z.of_nat (length l - n))) as [Hc|Hc];
      destruct (Z.leb_spec (sz - have) (Z.of_nat (length l))) as [Hd|Hd]; try lia;
        [|reflexivity].
      replace (Z.to_nat (sz - have)) with (n + Z.to_nat (sz - (have + Z.of_nat n)))%nat
        by lia.
      set (j := Z.to_nat (sz - (have + Z.of_nat n))).
      rewrite <- app_assoc.
      assert (Es : skipn j (skipn n l) = skipn (n + j) l).
      { rewrite <- (firstn_skipn n l) at 2. rewrite skipn_app.
        rewrite firstn_length, Nat.min_l by lia.
        rewrite (skipn_all2 (firstn n l)) by (rewrite firstn_length; lia).
        replace (n + j - n)%nat with j by lia. reflexivity. }
      rewrite Es.
      assert (Ef : firstn n l ++ firstn j (skipn n l) = firstn (n + j) l).
      { rewrite <- (firstn_skipn n l) at 3. rewrite firstn_app.
        rewrite firstn_length, Nat.min_l by lia.
        rewrite (firstn_all2 (firstn n l)) by (rewrite firstn_length; lia).
        replace (n + j - n)%nat with j by lia. reflexivity. }
      rewrite Ef. reflexivity.
Qed.
