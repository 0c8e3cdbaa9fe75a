(** The struct theorems for TJSONProtocol. *)
From Coq Require Import ZArith List Bool Lia.
From Coq Require Import Init.Byte.
From Verif Require Import Base Bytes Utf8 Proto Spec Laws RoundTrip StructFacts
  Compact BinaryLaws JsonText JsonTextFacts Json JsonLaws SpecJson InstFacts.
Import ListNotations.
Open Scope Z_scope.

Lemma sj_char_escape c :
  match escape_char c with Some e => [92; e] | None => [c] end = sj_char c.
Proof.
  destruct (Z_lt_le_dec c 0). { destruct c; try lia; reflexivity. }
  destruct (Z_lt_le_dec c 128) as [Hc|Hc].
  - assert (H : forallb (fun c => list_eqb
      match escape_char c with Some e => [92; e] | None => [c] end (sj_char c))
      (zrange 128 0) = true) by reflexivity.
    rewrite forallb_forall in H.
    assert (Hin : In c (zrange 128 0)).
    { clear H. assert (G : forall k lo c, lo <= c < lo + Z.of_nat k -> In c (zrange k lo)).
      { induction k as [|k IH]; intros lo x Hx; [lia|]. cbn [zrange].
        destruct (Z.eq_dec lo x); [left; assumption|right; apply IH; lia]. }
      apply G. lia. }
    specialize (H c Hin).
    unfold list_eqb in H. destruct (list_eq_dec _ _ _) as [e|]; [exact e|discriminate].
  - rewrite escape_char_high by lia. unfold sj_char.
    destruct c as [|p|p]; try lia.
    do 8 (destruct p as [p|p|]; try reflexivity; try lia).
Qed.

Lemma sj_escape s : escape s = flat_map sj_char s.
Proof.
  unfold escape. induction s as [|c s IH]; [reflexivity|]. cbn [flat_map].
  rewrite sj_char_escape, IH. reflexivity.
Qed.

Lemma jstr_spec s b : utf8_encode s = Some b -> jstr s = sj_string s.
Proof.
  intros H. destruct (escape_encodes s b H) as (e & He & _).
  unfold jstr, sj_string, etext. rewrite <- sj_escape, He. reflexivity.
Qed.

Lemma tname_spec t : jstr (tname (code t)) = sj_string (sj_type t).
Proof. destruct t; reflexivity. Qed.

Lemma num_spec c t : num c t = sj_num (esc (j_nxt c)) t.
Proof. unfold num, sj_num, quoted. destruct (esc (j_nxt c)); reflexivity. Qed.

Lemma join_cons a l : join (a :: l) = a ++ concat (map (cons x2c) l).
Proof.
  revert a. induction l as [|b l IH]; intros a; [symmetry; apply app_nil_r|].
  change (join (a :: b :: l)) with (a ++ x2c :: join (b :: l)).
  rewrite IH. reflexivity.
Qed.

(** What [join] gives for the rest of a list, with the comma. *)
Definition more (l : list (list byte)) : list byte := concat (map (cons x2c) l).

Ltac norm := repeat first [rewrite <- app_assoc | progress cbn [app]].

Section J.
Variables (limit : option Z) (SL CL : Z).
Hypothesis Hlim : j_limits limit SL CL.
Variable env : schema.
Let L := json_laws limit SL CL Hlim.

Definition kv_text kt vt (kv : value * value) : list byte :=
  match kv with
  | (k, x) => sj_value env true kt k ++ x3a :: sj_value env false vt x
  end.

Definition fd_text (d : fielddef) (x : value) : list byte :=
  sj_num true (int_text (f_id d)) ++ x3a
  :: object [sj_string (sj_type (f_ty d)) ++ x3a :: sj_value env false (f_ty d) x].

Fixpoint fds (fs : list (option value)) (ds : list fielddef) : list (list byte) :=
  match fs, ds with
  | f :: fs', d :: ds' =>
      match f with Some x => [fd_text d x] | None => [] end ++ fds fs' ds'
  | _, _ => []
  end.

Lemma sj_struct m n fs ds : nth_error env n = Some ds ->
  sj_value env m (TStruct n) (VStruct n fs) = object (fds fs ds).
Proof. intros H. cbn [sj_value]. rewrite H. reflexivity. Qed.

Lemma enc_json_spec v : forall (c : list ctx) t, wfd finite env SL CL t v = true ->
  enc L env c t v = sep c ++ sj_value env (esc (j_nxt c)) t v.
Proof.
  induction v using value_rect'; intros c t Hwf.
  1-6: destruct t; try discriminate Hwf; cbn [enc e_base json_laws L sj_value];
    unfold je_base; rewrite ?num_spec; try reflexivity.
  - f_equal. cbn [wfd base_okd] in Hwf.
    destruct (utf8_encode s) as [b|] eqn:E; [|discriminate]. eapply jstr_spec, E.
  - f_equal. eapply jstr_spec. apply etext_plain, uuid_text_plain.
  - destruct t; try discriminate Hwf.
    rewrite enc_list. cbn [sj_value].
    cbn [wfd] in Hwf. apply andb_prop in Hwf as [_ Hwf].
    assert (G : enc_elems L env (CList false :: j_nxt c) t l
      = more (map (sj_value env false t) l) ++ [x5d]).
    { induction H as [|x l Hx _ IH]; [reflexivity|].
      cbn [forallb] in Hwf. apply andb_prop in Hwf as [Hw1 Hw2].
      cbn [enc_elems map]. rewrite Hx by assumption. specialize (IH Hw2).
      cbn [L nxt json_laws j_nxt adv] in *. rewrite IH.
      unfold more. cbn [map concat sep top esc j_nxt adv app]. norm. reflexivity. }
    cbn [L e_lbeg inL json_laws] in *. rewrite G. unfold je_lbeg.
    rewrite tname_spec, num_spec. unfold array. rewrite join_cons. unfold more.
    cbn [map concat]. cbn [sep top esc j_nxt adv]. norm. reflexivity.
  - destruct t; try discriminate Hwf.
    rewrite enc_set. cbn [sj_value].
    cbn [wfd] in Hwf. apply andb_prop in Hwf as [_ Hwf].
    assert (G : enc_elems L env (CList false :: j_nxt c) t l
      = more (map (sj_value env false t) l) ++ [x5d]).
    { induction H as [|x l Hx _ IH]; [reflexivity|].
      cbn [forallb] in Hwf. apply andb_prop in Hwf as [Hw1 Hw2].
      cbn [enc_elems map]. rewrite Hx by assumption. specialize (IH Hw2).
      cbn [L nxt json_laws j_nxt adv] in *. rewrite IH.
      unfold more. cbn [map concat sep top esc j_nxt adv app]. norm. reflexivity. }
    cbn [L e_lbeg inL json_laws] in *. rewrite G. unfold je_lbeg.
    rewrite tname_spec, num_spec. unfold array. rewrite join_cons. unfold more.
    cbn [map concat]. cbn [sep top esc j_nxt adv]. norm. reflexivity.
  - destruct t; try discriminate Hwf.
    rewrite enc_map. cbn [sj_value].
    cbn [wfd] in Hwf. apply andb_prop in Hwf as [_ Hwf].
    cbn [L e_mbeg inM json_laws]. unfold je_mbeg.
    rewrite !tname_spec, num_spec. unfold array. rewrite join_cons.
    cbn [map concat]. cbn [sep top esc j_nxt adv].
    set (c' := CList false :: j_nxt c).
    assert (G : enc_items L env (CPair false false :: c') t1 t2 l
      = more (map (kv_text t1 t2) l) ++ [x7d; x5d]
      /\ enc_items L env (CPair true true :: c') t1 t2 l
      = join (map (kv_text t1 t2) l) ++ [x7d; x5d]).
    { induction H as [|[k x] l [Hk Hx] _ IH]; [split; reflexivity|].
      cbn [forallb] in Hwf. apply andb_prop in Hwf as [Hw1 Hw2].
      apply andb_prop in Hw1 as [Hwk Hwx]. destruct (IH Hw2) as [IH1 _].
      cbn [fst snd] in *. cbn [enc_items map]. rewrite join_cons.
      change (concat (map (cons x2c) (map (kv_text t1 t2) l)))
        with (more (map (kv_text t1 t2) l)).
      rewrite !Hk, !Hx by assumption. cbn [L nxt json_laws j_nxt adv negb] in *.
      rewrite IH1. unfold more. cbn [map concat kv_text sep top esc app].
      split; norm; reflexivity. }
    destruct G as [_ G]. cbn [L json_laws] in G. rewrite G. subst c'.
    change (fun kv : value * value => _) with (kv_text t1 t2). unfold object.
    norm. reflexivity.
  - destruct t; try discriminate Hwf.
    cbn [wfd] in Hwf. apply andb_prop in Hwf as [Hn Hwf]. apply Nat.eqb_eq in Hn.
    subst n0.
    destruct (nth_error env n) as [ds|] eqn:E; [|discriminate].
    rewrite (enc_struct _ _ _ _ _ _ _ E), (sj_struct _ _ _ _ E).
    cbn [L e_sbeg json_laws inS]. unfold je_sbeg, object.
    rewrite <- !app_assoc. cbn [app]. do 2 f_equal.
    set (c' := j_nxt c). clear E.
    assert (G : enc_fields L env (CPair false false :: c') fs ds
      = more (fds fs ds) ++ [x7d]
      /\ enc_fields L env (CPair true true :: c') fs ds
      = join (fds fs ds) ++ [x7d]).
    { revert ds Hwf. induction H as [|f fs Hf _ IH]; intros ds Hwf.
      - destruct ds; split; reflexivity.
      - destruct ds as [|d ds]; [discriminate Hwf|].
        destruct f as [x|].
        + cbn [fds app]. rewrite join_cons.
          change (concat (map (cons x2c) (fds fs ds))) with (more (fds fs ds)).
          apply andb_prop in Hwf as [Hw1 Hw2].
          destruct (IH ds Hw2) as [IH1 _].
          cbn [enc_fields]. cbv zeta. cbn [L e_fbeg e_fend aft inF json_laws] in *.
          unfold je_fbeg, j_inF. cbn [j_nxt adv negb].
          rewrite !IH1, !Hf by assumption. rewrite !tname_spec, !num_spec.
          unfold more, fd_text, object.
          cbn [map concat sep top esc app join j_nxt adv negb].
          split; norm; reflexivity.
        + cbn [fds app enc_fields]. apply IH.
          apply andb_prop in Hwf as [_ Hwf]. exact Hwf. }
    destruct G as [_ G]. exact G.
Qed.
End J.

(** * Whole structs *)

Lemma json_same_writers l l' : same_writers (json l) (json l').
Proof.
  unfold same_writers.
  cbn [json writeStructBegin writeStructEnd writeFieldBegin writeFieldEnd writeFieldStop
    writeMapBegin writeMapEnd writeListBegin writeListEnd writeSetBegin writeSetEnd].
  do 11 (split; [reflexivity|]). intros t v.
  destruct t, v; cbn [write_base]; cbn [json writeBool writeByte writeI16 writeI32
    writeI64 writeDouble writeString writeBinary writeUuid]; reflexivity.
Qed.

Lemma no_limits SL CL : CL <= 9223372036854775807 -> j_limits None SL CL.
Proof. intros H. repeat split; exact H. Qed.

(** The bytes a reader has still to look at. *)
Definition pending (x : jst) (i : list byte) : list byte :=
  match ahead x with Some d => d ++ i | None => i end.

Lemma rrep_pending c x i rest : j_rrep c x i rest -> stack x = c /\ pending x i = rest.
Proof.
  intros [Hs Ha]. split; [exact Hs|]. unfold pending. destruct (ahead x) as [d|].
  - destruct Ha as (b & -> & ->). reflexivity.
  - symmetry. exact Ha.
Qed.

Lemma json_write limit SL CL env n v d x i o : schema_ok env ->
  CL <= 9223372036854775807 ->
  wfd finite env SL CL (TStruct n) v = true -> 0 <= d -> d + Z.of_nat (sdepth v) <= 64 ->
  stack x = [CBase] ->
  exists x', write_struct (json limit) env n v (mkst x i o d)
    = (Ok tt, mkst x' i (o ++ sj_value env false (TStruct n) v) d)
    /\ stack x' = [CBase].
Proof.
  intros Hok HC Hwf H0 Hd Hx. unfold write_struct.
  rewrite (write_value_same _ _ env v (json_same_writers limit None)).
  set (L := json_laws None SL CL (no_limits SL CL HC)).
  destruct (write_enc L env Hok v d (TStruct n) [CBase] H0 I Hwf Hd x i o Hx)
    as (x' & E & Hr).
  exists x'. split; [|exact Hr]. rewrite E. unfold L.
  rewrite enc_json_spec by exact Hwf. reflexivity.
Qed.

(** Reading a struct ends with its closing brace, looking no further. *)
Lemma read_struct_ahead limit env k F n s v s' :
  read_struct (json limit) env k F n s = (Ok v, s') -> ahead (px s') = None.
Proof.
  destruct k as [|k]; cbn [read_struct]; [discriminate|].
  destruct (nth_error env n) as [ds|]; [|discriminate].
  unfold with_depth, increment_recursion_depth, bind, try_finally.
  destruct (_ >? _); [discriminate|]. cbn [json readStructBegin readStructEnd].
  destruct (readJSONObjectStart _) as [[[]|?|] s1]; try discriminate.
  destruct (read_fields _ _ _ _ _ _ s1) as [[acc|?|] s2]; try discriminate.
  destruct (readJSONObjectEnd s2) as [[[]|?|] s3] eqn:E; try discriminate.
  intros H. injection H as <- <-. cbn [px].
  revert E. unfold readJSONObjectEnd, readJSONSyntaxChar, bind.
  assert (H1 : forall r s4, rd s2 = (Ok r, s4) -> ahead (px s4) = None).
  { intros r s4. unfold rd, get_px, set_px, bind, ret.
    destruct (ahead (px s2)) eqn:Ea.
    - intros E. injection E as <- <-. reflexivity.
    - unfold tread. intros E. injection E as <- <-. exact Ea. }
  destruct (rd s2) as [[r|?|] s4]; try discriminate. specialize (H1 r s4 eq_refl).
  destruct (is_byte r RBRACE); [|discriminate].
  unfold popContext, get_stack, set_stack, get_px, set_px, bind, ret, raise.
  destruct (stack (px s4)); [discriminate|]. intros E. injection E as <-. exact H1.
Qed.

Lemma json_read limit SL CL envW envR R n m v tail x o d F :
  j_limits limit SL CL ->
  schema_ok envW -> schema_ok envR -> compat_env envW envR R -> R n m = true ->
  wfd finite envW SL CL (TStruct n) v = true -> 0 <= d -> d + Z.of_nat (sdepth v) <= 64 ->
  drop_ok envW envR (fun _ => true) SKIP_DEPTH (TStruct n) (TStruct m) v = true ->
  (length (sj_value envW false (TStruct n) v) <= F)%nat ->
  x = j_init ->
  read_struct (json limit) envR DFUEL F m
    (mkst x (sj_value envW false (TStruct n) v ++ tail) o d)
  = (Ok (proj envW envR (TStruct n) (TStruct m) v), mkst j_init tail o d).
Proof.
  intros Hl HW HR HC Hnm Hwf H0 Hd Hdr HF ->.
  set (L := json_laws limit SL CL Hl).
  pose proof (enc_json_spec limit SL CL Hl envW v [CBase] (TStruct n) Hwf) as Ee.
  cbn [sep top esc j_nxt adv app] in Ee. rewrite <- Ee in *.
  destruct (read_enc L envW envR R HW HR HC F v d (TStruct n) (TStruct m) [CBase] DFUEL
     H0 Hnm I Hwf Hd ltac:(unfold DFUEL; lia) HF Hdr tail I j_init _ o
     (conj eq_refl eq_refl)) as ([st h] & i' & E & Hr).
  cbn [read_ty] in E. pose proof (read_struct_ahead _ _ _ _ _ _ _ _ E) as Ha. cbn in Ha. subst h.
  apply rrep_pending in Hr as [Hs Hp]. cbn in Hs, Hp. subst st i'. exact E.
Qed.

(** Skipping, at any position in a document. *)
Lemma json_skip limit SL CL env t v tail c x i o d F : j_limits limit SL CL ->
  schema_ok env -> wfd finite env SL CL t v = true -> (vdepth v <= 64)%nat ->
  (length (sep c ++ sj_value env (esc (j_nxt c)) t v) <= F)%nat ->
  j_okT tail \/ (exists n, t = TStruct n) ->
  stack x = c -> ahead x <> Some [] ->
  (forall b b' r, ahead x <> Some (b :: b' :: r)) ->
  pending x i = sep c ++ sj_value env (esc (j_nxt c)) t v ++ tail ->
  exists x' i', skip (json limit) F SKIP_DEPTH (code t) (mkst x i o d)
    = (Ok tt, mkst x' i' o d) /\ stack x' = j_nxt c /\ pending x' i' = tail.
Proof.
  intros Hl Hok Hwf Hd HF Ht Hs Hn1 Hn2 Hp.
  set (L := json_laws limit SL CL Hl).
  pose proof (enc_json_spec limit SL CL Hl env v c t Hwf) as Ee.
  assert (Hb : all_bin (fun _ => true) v = true).
  { clear. induction v using value_rect'; try reflexivity; cbn [all_bin];
      apply forallb_forall; rewrite Forall_forall in H.
    - exact H.
    - exact H.
    - intros [k y] Hin. destruct (H _ Hin) as [H1 H2]. cbn in H1, H2. rewrite H1, H2.
      reflexivity.
    - intros [y|] Hin; [exact (H _ Hin)|reflexivity]. }
  rewrite <- Ee in HF. rewrite app_assoc, <- Ee in Hp.
  assert (Hr : rpos L c t v) by (destruct t, v; exact I).
  assert (Hq : tailQ L t tail).
  { destruct Ht as [Ht|[k ->]]; [destruct t; try exact Ht; exact I|exact I]. }
  destruct (skip_enc L env Hok F v d SKIP_DEPTH t c Hr Hwf Hd HF Hb tail Hq x i o)
    as (x' & i' & E & Hr').
  - split; [exact Hs|]. unfold pending in Hp. unfold L.
    destruct (ahead x) as [[|b [|b' r]]|].
    + contradiction.
    + exists b. split; [reflexivity|]. symmetry. exact Hp.
    + exfalso. exact (Hn2 b b' r eq_refl).
    + symmetry. exact Hp.
  - exists x', i'. split; [exact E|]. apply rrep_pending in Hr'. exact Hr'.
Qed.

Lemma json_serialize limit SL CL env n v : schema_ok env ->
  CL <= 9223372036854775807 ->
  wfd finite env SL CL (TStruct n) v = true -> (sdepth v <= 64)%nat ->
  serialize (json limit) j_init env n v = Ok (sj_value env false (TStruct n) v).
Proof.
  intros. unfold serialize.
  destruct (json_write limit SL CL env n v 0 j_init [] []) as (x' & E & _);
    try assumption; try lia; [reflexivity|]. rewrite E. reflexivity.
Qed.

Lemma json_deserialize limit SL CL envW envR R n m v tail : j_limits limit SL CL ->
  schema_ok envW -> schema_ok envR -> compat_env envW envR R -> R n m = true ->
  wfd finite envW SL CL (TStruct n) v = true -> (sdepth v <= 64)%nat ->
  drop_ok envW envR (fun _ => true) SKIP_DEPTH (TStruct n) (TStruct m) v = true ->
  deserialize (json limit) j_init envR m (sj_value envW false (TStruct n) v ++ tail)
  = Ok (proj envW envR (TStruct n) (TStruct m) v, tail).
Proof.
  intros. unfold deserialize.
  erewrite json_read; try eassumption; try lia; try reflexivity.
  rewrite app_length. lia.
Qed.

Lemma wfd_struct_in D env SL CL n v : wfd D env SL CL (TStruct n) v = true ->
  (n < length env)%nat.
Proof.
  destruct v; try discriminate. cbn [wfd]. intros H.
  apply andb_prop in H as [_ H]. destruct (nth_error env n) eqn:E; [|discriminate].
  apply nth_error_Some. congruence.
Qed.

Lemma json_round_trip lW lR SL CL env n v tail :
  schema_ok env -> schema_closed env = true -> j_limits lR SL CL ->
  wfd finite env SL CL (TStruct n) v = true -> (sdepth v <= 64)%nat ->
  exists bs, serialize (json lW) j_init env n v = Ok bs
    /\ deserialize (json lR) j_init env n (bs ++ tail)
       = Ok (with_defaults env (TStruct n) v, tail).
Proof.
  intros Hok Hc Hl Hwf Hd. eexists. split.
  - eapply json_serialize; eauto; apply Hl.
  - erewrite json_deserialize; try eassumption.
    + erewrite proj_with_defaults by eassumption. reflexivity.
    + eapply compat_env_same; eassumption.
    + apply same_in. eapply wfd_struct_in; eassumption.
    + eapply drop_ok_same; eassumption.
Qed.
