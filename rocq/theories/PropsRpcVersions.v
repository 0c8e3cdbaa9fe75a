(** C66: a client and a server generated from different versions of a
    service. *)
From Coq Require Import String.
From Coq Require Import ZArith List Bool Lia.
From Coq Require Import Init.Byte.
From Coq Require Import ZifyBool ZifyNat ZifyN.
From Verif Require Import Base Bytes Utf8 Proto Spec Laws StructFacts Binary
  BinaryLaws SpecBinary Compact CompactLaws SpecCompact InstFacts CodecFacts FrameFacts
  Examples MsgLaws Rpc RpcFacts RpcSys PropsRpc RpcVersions RpcVersionsFacts.
Import ListNotations.
Open Scope Z_scope.
Open Scope list_scope.

(** * Every program of calls

    The handler is invoked for the calls the server knows, in order, with the
    server's version of the arguments ([vreceived]); each caller gets the
    client's version of what the handler did ([seen]), or is told that the
    server does not know the method; nothing is left over. *)
Theorem C66_history_binary : forall cf SL CL envC envS RA RR H
    (handler : list Z -> list (option value) -> H -> hres * H) ms l h,
  b_limits cf SL CL -> strict_ok cf -> 14 <= SL ->
  schema_ok envC -> schema_ok envS -> schema_closed envS = true -> service_ok envS SL ms ->
  compat_env envC envS RA -> compat_env envS envC RR ->
  vhistory envC envS SL CL utf8_valid RA RR handler ms l h ->
  let idle h := (mkcs (mkst tt [] [] 0) [],
                 mkss (mkst tt [] [] 0) (mkst tt [] [] 0) [] h) in
  vcalls (binary cf) envC envS handler ms l (idle h)
  = (fst (vreference envC envS handler ms l h), idle (snd (vreference envC envS handler ms l h))).
Proof.
  intros cf SL CL envC envS RA RR H handler ms l h HL Hs HSL HeC HeS Hc Hms HA HR Hg idle.
  destruct (vcalls_ok (binary_mlaws cf SL CL HL Hs) envC envS HeC HeS Hc RA RR HA HR handler ms
    Hms HSL l h (idle h) Hg) as (y' & E & ([] & [] & [] & -> & _)).
  { exists tt, tt, tt. repeat split. }
  exact E.
Qed.

Theorem C66_history_compact : forall cf SL CL envC envS RA RR H
    (handler : list Z -> list (option value) -> H -> hres * H) ms l h,
  c_limits cf SL CL -> 14 <= SL ->
  schema_ok envC -> schema_ok envS -> schema_closed envS = true -> service_ok envS SL ms ->
  compat_env envC envS RA -> compat_env envS envC RR ->
  vhistory envC envS SL CL utf8_valid RA RR handler ms l h ->
  let idle xc xi xo h := (mkcs (mkst xc [] [] 0) [],
                          mkss (mkst xi [] [] 0) (mkst xo [] [] 0) [] h) in
  exists xc xi xo,
  vcalls (compact cf) envC envS handler ms l (idle c_init c_init c_init h)
  = (fst (vreference envC envS handler ms l h),
     idle xc xi xo (snd (vreference envC envS handler ms l h))).
Proof.
  intros cf SL CL envC envS RA RR H handler ms l h HL HSL HeC HeS Hc Hms HA HR Hg idle.
  destruct (vcalls_ok (compact_mlaws cf SL CL HL) envC envS HeC HeS Hc RA RR HA HR handler ms
    Hms HSL l h (idle c_init c_init c_init h) Hg) as (y' & E & (xc & xi & xo & -> & _)).
  { exists c_init, c_init, c_init. repeat split. }
  exists xc, xi, xo. exact E.
Qed.

(** * What the handler gets

    Each of the server's arguments: the client's argument of the same id and
    wire type if the caller gave it, the server's default otherwise (None when
    it has none, [required] or not). *)
Lemma look_given envW envR dR x : forall fs ds k dW,
  NoDup (map f_id ds) -> nth_error ds k = Some dW -> nth_error fs k = Some (Some x) ->
  f_id dW = f_id dR -> code (f_ty dW) = code (f_ty dR) ->
  look envW envR dR fs ds = Some (proj envW envR (f_ty dW) (f_ty dR) x).
Proof.
  induction fs as [|f r IH]; intros [|d ds] [|k] dW Hn Hd Hf Hi Hc; try discriminate.
  - cbn in Hd, Hf. injection Hd as ->. injection Hf as ->. cbn [look].
    rewrite Hi, Hc, !Z.eqb_refl. reflexivity.
  - cbn in Hd, Hf. cbn [map] in Hn. inversion Hn as [|? ? Hni Hnr]; subst.
    assert (R : look envW envR dR r ds = Some (proj envW envR (f_ty dW) (f_ty dR) x))
      by (eapply IH; eassumption).
    cbn [look]. destruct f as [y|]; [|exact R].
    replace (f_id d =? f_id dR) with false; [exact R|]. symmetry. apply Z.eqb_neq. intros E.
    apply Hni. rewrite E, <- Hi. apply in_map. eapply nth_error_In; eassumption.
Qed.

Lemma look_absent envW envR dR : forall fs ds,
  (forall k dW x, nth_error ds k = Some dW -> nth_error fs k = Some (Some x) ->
     ~ (f_id dW = f_id dR /\ code (f_ty dW) = code (f_ty dR))) ->
  look envW envR dR fs ds = f_def dR.
Proof.
  induction fs as [|f r IH]; intros [|d ds] Hall; try reflexivity. cbn [look].
  assert (R : look envW envR dR r ds = f_def dR).
  { apply IH. intros k dW x A B. exact (Hall (S k) dW x A B). }
  destruct f as [y|]; [|exact R].
  destruct ((f_id d =? f_id dR) && (code (f_ty d) =? code (f_ty dR))) eqn:E; [|exact R].
  exfalso. apply (Hall O d y eq_refl eq_refl). lia.
Qed.

Theorem C66_arguments : forall envC envS mc sm args dsC dsS,
  nth_error envC (m_args mc) = Some dsC -> nth_error envS (m_args sm) = Some dsS ->
  NoDup (map f_id dsC) ->
  length (vreceived envC envS mc sm args) = length dsS
  /\ forall j dS, nth_error dsS j = Some dS ->
     exists w, nth_error (vreceived envC envS mc sm args) j = Some w
     /\ (forall k dC x, nth_error dsC k = Some dC -> nth_error args k = Some (Some x) ->
           f_id dC = f_id dS -> code (f_ty dC) = code (f_ty dS) ->
           w = Some (proj envC envS (f_ty dC) (f_ty dS) x))
     /\ ((forall k dC x, nth_error dsC k = Some dC -> nth_error args k = Some (Some x) ->
           ~ (f_id dC = f_id dS /\ code (f_ty dC) = code (f_ty dS))) ->
         w = f_def dS).
Proof.
  intros envC envS mc sm args dsC dsS EC ES Hn.
  unfold vreceived. rewrite (proj_struct _ _ _ _ _ _ _ _ EC ES). cbn [attrs].
  split; [apply map_length|]. intros j dS Ej. exists (look envC envS dS args dsC).
  split; [exact (map_nth_error (fun dR => look envC envS dR args dsC) _ _ Ej)|]. split.
  - intros k dC x A B C D. eapply look_given; eassumption.
  - intros Hall. apply look_absent. exact Hall.
Qed.

(** * One version

    With the same schema and the same method at both ends this is C30. *)
Lemma class_for_declared c xs i : NoDup (map fst xs) -> sent_as c xs = Some i ->
  class_for i xs = Some c.
Proof.
  induction xs as [|[j c'] r IH]; intros Hn E; [discriminate|]. cbn [map fst] in Hn.
  inversion Hn as [|? ? Hni Hnr]; subst. cbn [sent_as class_for] in *.
  destruct (Nat.eqb_spec c c') as [<-|Hc].
  - injection E as ->. rewrite Z.eqb_refl. reflexivity.
  - destruct (Z.eqb_spec i j) as [->|]; [|apply IH; assumption].
    exfalso. apply Hni. clear - E. induction r as [|[k c2] r IH]; [discriminate|].
    cbn [sent_as map fst] in *. destruct (Nat.eqb c c2); [left; congruence|right; auto].
Qed.

Lemma sent_as_declared m c fs : declared m (VStruct c fs) = true ->
  exists i, sent_as c (m_xs m) = Some i.
Proof.
  unfold declared. induction (m_xs m) as [|[i c'] r IH]; [discriminate|].
  cbn [existsb snd sent_as]. destruct (Nat.eqb c c'); [eauto|exact IH].
Qed.

Theorem C66_one_version : forall env SL CL m r args,
  schema_ok env -> NoDup (map fst (m_xs m)) -> handler_ok env SL CL m r ->
  wf env SL CL (TStruct (m_args m)) (VStruct (m_args m) args) = true ->
  seen env env m m r = expected env m r
  /\ vreceived env env m m args = received env (m_args m) args.
Proof.
  intros env SL CL m r args He Hn Hh Hwf. split.
  - unfold seen, expected. destruct r as [v|v|t s|t|]; try reflexivity.
    + unfold handler_ok in Hh. destruct (m_ret m) as [t|]; [|reflexivity].
      destruct v as [x|]; [|reflexivity]. rewrite Z.eqb_refl. destruct Hh as [Hw _].
      rewrite (proj_with_defaults _ _ _ _ He _ Hw). reflexivity.
    + destruct (declared m v) eqn:D; [|destruct (sent_as (class_of v) (m_xs m)); reflexivity].
      destruct v as [| | | | | | | | |c fs]; try discriminate. cbn [class_of].
      destruct (sent_as_declared m c fs D) as (i & Ei). rewrite Ei.
      rewrite (class_for_declared _ _ _ Hn Ei).
      destruct (Hh (declared_In m c fs D)) as [Hw _].
      rewrite (proj_with_defaults _ _ _ _ He _ Hw). reflexivity.
  - unfold vreceived, received. rewrite (proj_with_defaults _ _ _ _ He _ Hwf). reflexivity.
Qed.

(** * A newer client of the service of PropsRpc.v

    Its [add] has dropped argument 2 and got a new one; its exception has got a
    field with a default; there is a new method [sub] and a new exception. *)
Definition v2_env : schema :=
  [ [ mkfield 1 TI32 false None; mkfield 3 TString false None ];
    [ mkfield 0 TI32 false None; mkfield 1 (TStruct 2) false None; mkfield 2 (TStruct 4) false None ];
    [ mkfield 1 TString false None; mkfield 2 TI32 false (Some (VInt 7)) ];
    [ ];
    [ mkfield 1 TI32 false None ] ].
Definition v2_add : method := mkmethod (lit "add") false 0 1 (Some TI32) [(1, 2%nat); (2, 4%nat)].
Definition v2_sub : method := mkmethod (lit "sub") false 0 1 (Some TI32) [].
Definition v2_ping : method := mkmethod (lit "ping") true 3 0 None [].
Definition v2_RA (n m : nat) : bool := Nat.eqb n 0 && Nat.eqb m 0 || Nat.eqb n 3 && Nat.eqb m 3.
Definition v2_RR (n m : nat) : bool := Nat.eqb n 1 && Nat.eqb m 1 || Nat.eqb n 2 && Nat.eqb m 2.

Lemma v2_compat_args : compat_env v2_env rpc_env v2_RA.
Proof.
  intros n m E.
  assert (n = 0%nat /\ m = 0%nat \/ n = 3%nat /\ m = 3%nat) as [[-> ->]|[-> ->]]
    by (unfold v2_RA in E; destruct (Nat.eqb_spec n 0), (Nat.eqb_spec m 0),
          (Nat.eqb_spec n 3), (Nat.eqb_spec m 3); try discriminate; auto).
  - do 2 eexists. split; [reflexivity|]. split; [reflexivity|].
    intros dW dR [<-|[<-|[]]] [<-|[<-|[]]]; cbn; intros A B; try discriminate; reflexivity.
  - do 2 eexists. split; [reflexivity|]. split; [reflexivity|]. intros dW dR [].
Qed.

Lemma v2_compat_results : compat_env rpc_env v2_env v2_RR.
Proof.
  intros n m E.
  assert (n = 1%nat /\ m = 1%nat \/ n = 2%nat /\ m = 2%nat) as [[-> ->]|[-> ->]]
    by (unfold v2_RR in E; destruct (Nat.eqb_spec n 1), (Nat.eqb_spec m 1),
          (Nat.eqb_spec n 2), (Nat.eqb_spec m 2); try discriminate; auto).
  - do 2 eexists. split; [reflexivity|]. split; [reflexivity|].
    intros dW dR [<-|[<-|[]]] [<-|[<-|[<-|[]]]]; cbn; intros A B; try discriminate; reflexivity.
  - do 2 eexists. split; [reflexivity|]. split; [reflexivity|].
    intros dW dR [<-|[]] [<-|[<-|[]]]; cbn; intros A B; try discriminate; reflexivity.
Qed.

Definition v2_calls : list (method * list (option value)) :=
  [(v2_add, [Some (VInt 5); Some (VStr (lit "because"))]);
   (v2_sub, [Some (VInt 5); None]);
   (v2_ping, []);
   (v2_add, [Some (VInt (-1)); None])].

Example C66_history_ex :
  vhistory v2_env rpc_env 100 100 utf8_valid v2_RA v2_RR rpc_handler rpc_ms v2_calls 0
  /\ fst (vcalls (compact cdefault) v2_env rpc_env rpc_handler rpc_ms v2_calls (c_sys 0))
     = [Ok (CReturn (Some (VInt 15)));
        Ok (CApp (Some (VInt 1)) (Some (VStr (lit "Unknown function sub"))));
        Ok (CReturn None);
        Ok (CThrow (VStruct 2 [Some (VStr (lit "neg")); Some (VInt 7)]))].
Proof.
  split; [|vm_compute; reflexivity].
  unfold v2_calls. cbn [vhistoryd]. 
  assert (V : version_of v2_env v2_RA v2_RR v2_add rpc_add).
  { split; [reflexivity|]. split; [reflexivity|]. intros _. split; [reflexivity|].
    split; [reflexivity|]. split; cbn; lia. }
  assert (V' : version_of v2_env v2_RA v2_RR v2_ping rpc_ping).
  { split; [reflexivity|]. split; [reflexivity|]. intros E. discriminate E. }
  change (lookup (m_name v2_add) rpc_ms) with (Some rpc_add).
  change (lookup (m_name v2_sub) rpc_ms) with (@None method).
  change (lookup (m_name v2_ping) rpc_ms) with (Some rpc_ping).
  cbv iota.
  repeat match goal with
  | |- _ /\ _ => split
  | |- version_of _ _ _ _ _ => assumption
  | |- (_ <= _)%nat => vm_compute; lia
  | |- handler_ok _ _ _ _ _ => vm_compute
  | |- answer_known _ _ _ _ _ _ =>
      let n := fresh in let v := fresh in let E := fresh in
      intros n v E; vm_compute in E; injection E as <- <-; vm_compute; reflexivity
  | |- _ -> False => intros; discriminate
  | |- _ <> _ => vm_compute; discriminate
  | |- forall _ : Z, _ => intro
  | |- (_ = false) -> _ => let E := fresh in intros E; try discriminate E
  | |- _ -> _ => intros _
  | |- True => exact Logic.I
  | |- ~ _ => vm_compute; discriminate
  | |- _ => vm_compute; first [reflexivity | discriminate]
  end.
Qed.

(** * Where versions do not mix *)

(** A void method to which the server's version has added an exception: the
    handler raised it, and the old caller sees the call succeed. *)
Definition lx_envC : schema := [ []; [] ].
Definition lx_envS : schema := [ []; [mkfield 1 (TStruct 2) false None]; [mkfield 1 TString false None] ].
Definition lx_c : method := mkmethod (lit "del") false 0 1 None [].
Definition lx_s : method := mkmethod (lit "del") false 0 1 None [(1, 2%nat)].

Theorem C66_lost_exception : forall envC envS mc sm v i,
  m_ret mc = None -> declared sm v = true -> sent_as (class_of v) (m_xs sm) = Some i ->
  class_for i (m_xs mc) = None ->
  seen envC envS mc sm (HRaise v) = CReturn None.
Proof.
  intros envC envS mc sm v i Hr Hd Hi Hc. unfold seen. rewrite Hi, Hd, Hc, Hr. reflexivity.
Qed.

Theorem C66_lost_exception_refuted : exists v,
  let handler := fun (_ : list Z) (_ : list (option value)) (h : Z) => (HRaise v, h + 1) in
  vhistory lx_envC lx_envS 100 100 utf8_valid (fun n m => Nat.eqb n 0 && Nat.eqb m 0)
    (fun n m => Nat.eqb n 1 && Nat.eqb m 1) handler [lx_s] [(lx_c, [])] 0
  /\ declared lx_s v = true
  /\ let r := vcalls (binary bdefault) lx_envC lx_envS handler [lx_s] [(lx_c, [])] (b_sys 0) in
     fst r = [Ok (CReturn None)] /\ s_h (snd (snd r)) = 1.
Proof.
  exists (VStruct 2 [Some (VStr (lit "in use"))]). intros handler.
  split; [|split; [reflexivity|vm_compute; split; reflexivity]].
  cbn [vhistoryd]. change (lookup (m_name lx_c) [lx_s]) with (Some lx_s). cbv iota.
  split; [vm_compute; reflexivity|]. split; [vm_compute; reflexivity|].
  split; [vm_compute; lia|]. split.
  { split; [reflexivity|]. split; [reflexivity|]. intros _. split; [reflexivity|].
    split; [reflexivity|]. split; cbn; lia. }
  split; [vm_compute; reflexivity|]. split.
  { intros _. split.
    - intros _. split; [vm_compute; reflexivity|vm_compute; lia].
    - intros n v E. vm_compute in E. injection E as <- <-. vm_compute. reflexivity. }
  split; [intros t E; vm_compute in E; discriminate E|exact Logic.I].
Qed.

(** A one-way call of a method the server does not have, or has as a two-way
    one: the answer nobody reads is taken for that of the next call. *)
Theorem C66_one_way_unknown_refuted : exists note m args,
  lookup (m_name note) rpc_ms = None /\ m_oneway note = true
  /\ sendable rpc_env 100 100 (m_args m) args
  /\ fst (vcalls (binary bdefault) rpc_env rpc_env rpc_handler rpc_ms [(m, args)] (b_sys 0))
     = [Ok (CReturn (Some (VInt 3)))]
  /\ fst (vcalls (binary bdefault) rpc_env rpc_env rpc_handler rpc_ms [(note, []); (m, args)] (b_sys 0))
     = [Ok (CReturn None); Ok (unknown note)].
Proof.
  exists (mkmethod (lit "note") true 3 0 None []), rpc_add, [Some (VInt 1); Some (VInt 2)].
  split; [reflexivity|]. split; [reflexivity|]. split; [apply rpc_add_sendable; lia|].
  split; vm_compute; reflexivity.
Qed.

Theorem C66_one_way_two_way_refuted : exists mc sm m args args',
  m_name mc = m_name sm /\ m_oneway mc = true /\ m_oneway sm = false
  /\ sendable rpc_env 100 100 (m_args m) args /\ sendable rpc_env 100 100 (m_args mc) args'
  /\ fst (vcalls (binary bdefault) rpc_env rpc_env rpc_handler [sm] [(m, args)] (b_sys 0))
     = [Ok (CReturn (Some (VInt 3)))]
  /\ fst (vcalls (binary bdefault) rpc_env rpc_env rpc_handler [sm] [(mc, args'); (m, args)] (b_sys 0))
     = [Ok (CReturn None); Ok (CReturn (Some (VInt 77)))].
Proof.
  exists (mkmethod (lit "add") true 0 1 None []), rpc_add, rpc_add,
    [Some (VInt 1); Some (VInt 2)], [Some (VInt 70); Some (VInt 7)].
  split; [reflexivity|]. split; [reflexivity|]. split; [reflexivity|].
  split; [apply rpc_add_sendable; lia|]. split; [apply rpc_add_sendable; lia|].
  split; vm_compute; reflexivity.
Qed.

(** A two-way call of a method that is one-way at the server: the handler runs,
    nobody answers, and the caller waits until the connection ends. *)
Theorem C66_unanswered_refuted : exists mc sm,
  m_name mc = m_name sm /\ m_oneway mc = false /\ m_oneway sm = true
  /\ let r := vcalls (compact cdefault) rpc_env rpc_env rpc_handler [sm] [(mc, [])] (c_sys 0) in
     fst r = [Raise EEOFError] /\ s_h (snd (snd r)) = 100.
Proof.
  exists (mkmethod (lit "ping") false 3 3 None []), rpc_ping.
  split; [reflexivity|]. split; [reflexivity|]. split; [reflexivity|].
  vm_compute. split; reflexivity.
Qed.

(** A required argument the old client does not send arrives as None. *)
Theorem C66_required_refuted : exists envC envS mc sm args d,
  nth_error envS (m_args sm) = Some [d] /\ f_req d = true
  /\ sendable envC 100 100 (m_args mc) args
  /\ vreceived envC envS mc sm args = [None].
Proof.
  exists [[]], [[mkfield 1 TI32 true None]],
    (mkmethod (lit "get") false 0 1 None []), (mkmethod (lit "get") false 0 1 None []), [],
    (mkfield 1 TI32 true None).
  split; [reflexivity|]. split; [reflexivity|]. split; [|reflexivity].
  split; [reflexivity|vm_compute; lia].
Qed.

Example C66_one_version_ex :
  handler_ok rpc_env 100 100 rpc_add (HReturn (Some (VInt 3)))
  /\ seen rpc_env rpc_env rpc_add rpc_add (HReturn (Some (VInt 3))) = CReturn (Some (VInt 3)).
Proof. split; [split; [reflexivity|vm_compute; lia]|reflexivity]. Qed.

Example C66_arguments_ex :
  vreceived v2_env rpc_env v2_add rpc_add [Some (VInt 5); Some (VStr (lit "because"))]
  = [Some (VInt 5); Some (VInt 10)].
Proof. reflexivity. Qed.

(** Axioms used. *)
Print Assumptions C66_history_binary.
Print Assumptions C66_history_compact.
Print Assumptions C66_arguments.
Print Assumptions C66_one_version.
Print Assumptions C66_lost_exception.
Print Assumptions C66_lost_exception_refuted.
Print Assumptions C66_one_way_unknown_refuted.
Print Assumptions C66_one_way_two_way_refuted.
Print Assumptions C66_unanswered_refuted.
Print Assumptions C66_required_refuted.
