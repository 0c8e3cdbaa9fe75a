(** A constant with a meaning (SpecConst.v) is compiled, and Python evaluates
    the text to its value. *)
From Coq Require Import String Ascii.
From Coq Require Import ZArith List Bool Lia.
From Coq Require Import Init.Byte.
From Coq Require Import ZifyBool ZifyNat ZifyN.
From Verif Require Import Base Bytes BytesFacts Utf8 Utf8Facts Proto Spec JsonText JsonTextFacts
  GenClass SpecClass GenClassFacts Const ConstText SpecConst.
Import ListNotations.
Open Scope Z_scope.

(** * Induction *)

Section Ind.
Variable P : cv -> Prop.
Hypothesis HI : forall z, P (CInt z).
Hypothesis HD : forall b, P (CDouble b).
Hypothesis HS : forall s, P (CString s).
Hypothesis HX : forall id e, P (CIdent id e).
Hypothesis HM : forall l, Forall (fun kv => P (fst kv) /\ P (snd kv)) l -> P (CMap l).
Hypothesis HL : forall l, Forall P l -> P (CList l).
Fixpoint cv_nested (c : cv) : P c :=
  match c with
  | CInt z => HI z
  | CDouble b => HD b
  | CString s => HS s
  | CIdent id e => HX id e
  | CMap l => HM l ((fix go l : Forall (fun kv => P (fst kv) /\ P (snd kv)) l :=
                       match l with
                       | [] => Forall_nil _
                       | (k, x) :: r =>
                           Forall_cons (k, x) (conj (cv_nested k) (cv_nested x)) (go r)
                       end) l)
  | CList l => HL l ((fix go l : Forall P l :=
                        match l with
                        | [] => Forall_nil _
                        | x :: r => Forall_cons x (cv_nested x) (go r)
                        end) l)
  end.
End Ind.

(** * Loops as maps *)

Definition mapo2 {A B C D} (f : A -> option C) (g : B -> option D) : list (A * B) -> option (list (C * D)) :=
  mapo (fun kx => match f (fst kx), g (snd kx) with
                  | Some k', Some x' => Some (k', x')
                  | _, _ => None
                  end).

Lemma mapo_cons A B (f : A -> option B) x l y t : f x = Some y -> mapo f l = Some t ->
  mapo f (x :: l) = Some (y :: t).
Proof. intros H1 H2. cbn [mapo]. rewrite H1, H2. reflexivity. Qed.

Lemma mapo_inv A B (f : A -> option B) x l r : mapo f (x :: l) = Some r ->
  exists y t, f x = Some y /\ mapo f l = Some t /\ r = y :: t.
Proof.
  cbn [mapo]. destruct (f x) as [y|]; [|discriminate]. destruct (mapo f l) as [t|]; [|discriminate].
  intros H. injection H as <-. eauto.
Qed.

Fixpoint mapp {A B} (f : A -> pyres B) (l : list A) : pyres (list B) :=
  match l with
  | [] => POk []
  | x :: r => match f x with
              | POk y => match mapp f r with
                         | POk t => POk (y :: t)
                         | PNameError => PNameError
                         | PRaise e => PRaise e
                         end
              | PNameError => PNameError
              | PRaise e => PRaise e
              end
  end.

Lemma mapp_cons A B (f : A -> pyres B) x l y t : f x = POk y -> mapp f l = POk t ->
  mapp f (x :: l) = POk (y :: t).
Proof. intros H1 H2. cbn [mapp]. rewrite H1, H2. reflexivity. Qed.

Section Prog.
Variable p : gprog.
Variable scope : list (string * (gty * cv)).

Ltac loop l := induction l as [|? l IH]; [reflexivity|]; cbn [mapo]; rewrite <- IH; reflexivity.
Ltac loop2 l :=
  unfold mapo2; induction l as [|[? ?] l IH]; [reflexivity|]; cbn [mapo fst snd]; rewrite <- IH;
  repeat match goal with |- context [match ?x with _ => _ end] =>
    match x with context [match _ with _ => _ end] => fail 1 | _ => destruct x end end; reflexivity.

Lemma resolve_list i et l :
  resolve p scope (GList i et) (CList l) = option_map CList (mapo (resolve p scope et) l).
Proof. cbn [resolve]. f_equal. loop l. Qed.
Lemma resolve_set i et l :
  resolve p scope (GSet i et) (CList l) = option_map CList (mapo (resolve p scope et) l).
Proof. cbn [resolve]. f_equal. loop l. Qed.
Lemma resolve_map i kt vt l :
  resolve p scope (GMap i kt vt) (CMap l)
  = option_map CMap (mapo2 (resolve p scope kt) (resolve p scope vt) l).
Proof.
  cbn [resolve]. f_equal. unfold mapo2. induction l as [|[k x] l IH]; [reflexivity|].
  cbn [mapo fst snd]. rewrite <- IH.
  destruct (resolve p scope kt k); [|reflexivity].
  destruct (resolve p scope vt x); reflexivity.
Qed.
Definition resolve_field (k : gclass) (fx : cv * cv) : option (cv * cv) :=
  match field_named k (get_string (fst fx)) with
  | None => None
  | Some g => option_map (pair (fst fx)) (resolve p scope (g_ty g) (snd fx))
  end.
Lemma resolve_struct n k l : nth_error (p_classes p) n = Some k -> k_exc k = false ->
  resolve p scope (GStruct n) (CMap l) = option_map CMap (mapo (resolve_field k) l).
Proof.
  intros Hk He. cbn [resolve]. rewrite Hk, He. f_equal.
  induction l as [|[f x] l IH]; [reflexivity|]. cbn [mapo]. rewrite <- IH.
  unfold resolve_field at 1. cbn [fst snd].
  destruct (field_named k (get_string f)) as [g|]; [|reflexivity].
  destruct (resolve p scope (g_ty g) x); reflexivity.
Qed.

Lemma validate_list i et l :
  validate p (GList i et) (CList l) = option_map CList (mapo (validate p et) l).
Proof. cbn [validate]. f_equal. loop l. Qed.
Lemma validate_set i et l :
  validate p (GSet i et) (CList l) = option_map CList (mapo (validate p et) l).
Proof. cbn [validate]. f_equal. loop l. Qed.
Lemma validate_map i kt vt l :
  validate p (GMap i kt vt) (CMap l)
  = option_map CMap (mapo2 (validate p kt) (validate p vt) l).
Proof.
  cbn [validate]. f_equal. unfold mapo2. induction l as [|[k x] l IH]; [reflexivity|].
  cbn [mapo fst snd]. rewrite <- IH.
  destruct (validate p kt k); [|reflexivity].
  destruct (validate p vt x); reflexivity.
Qed.
Definition validate_field (k : gclass) (fx : cv * cv) : option (cv * cv) :=
  match fst fx with
  | CString s =>
      match field_named k s with
      | None => None
      | Some g => option_map (pair (fst fx)) (validate p (g_ty g) (snd fx))
      end
  | _ => None
  end.
Lemma validate_struct n k l : nth_error (p_classes p) n = Some k ->
  validate p (GStruct n) (CMap l) = option_map CMap (mapo (validate_field k) l).
Proof.
  intros Hk. cbn [validate]. rewrite Hk. f_equal.
  induction l as [|[f x] l IH]; [reflexivity|]. cbn [mapo]. rewrite <- IH.
  unfold validate_field at 1. cbn [fst snd]. destruct f as [| |s| | |]; try reflexivity.
  destruct (field_named k s) as [g|]; [|reflexivity].
  destruct (validate p (g_ty g) x); reflexivity.
Qed.

Lemma render_list i et l :
  render p (GList i et) (CList l) = option_map (XList i) (mapo (render p et) l).
Proof. cbn [render]. f_equal. loop l. Qed.
Lemma render_set i et l :
  render p (GSet i et) (CList l) = option_map (XSet i) (mapo (render p et) l).
Proof. cbn [render]. f_equal. loop l. Qed.
Lemma render_map i kt vt l :
  render p (GMap i kt vt) (CMap l)
  = option_map (XDict i) (mapo2 (render p kt) (render p vt) l).
Proof.
  cbn [render]. f_equal. unfold mapo2. induction l as [|[k x] l IH]; [reflexivity|].
  cbn [mapo fst snd]. rewrite <- IH.
  destruct (render p kt k); [|reflexivity].
  destruct (render p vt x); reflexivity.
Qed.
Definition render_field (k : gclass) (fx : cv * cv) : option (list byte * pexpr) :=
  match field_named k (get_string (fst fx)) with
  | None => None
  | Some g => option_map (pair (escape_string (get_string (fst fx)))) (render p (g_ty g) (snd fx))
  end.
Lemma render_struct n k l : nth_error (p_classes p) n = Some k ->
  render p (GStruct n) (CMap l) = option_map (XNew n) (mapo (render_field k) l).
Proof.
  intros Hk. cbn [render]. rewrite Hk. f_equal.
  induction l as [|[f x] l IH]; [reflexivity|]. cbn [mapo]. rewrite <- IH.
  unfold render_field at 1. cbn [fst snd].
  destruct (field_named k (get_string f)) as [g|]; [|reflexivity].
  destruct (render p (g_ty g) x); reflexivity.
Qed.

Lemma meaning_list i et l :
  meaning p scope (GList i et) (CList l) = option_map VList (mapo (meaning p scope et) l).
Proof. cbn [meaning]. f_equal. loop l. Qed.
Lemma meaning_set i et l :
  meaning p scope (GSet i et) (CList l)
  = if ghashable et
    then option_map (fun l' => VSet (fold_left set_add l' [])) (mapo (meaning p scope et) l)
    else None.
Proof. cbn [meaning]. destruct (ghashable et); [|reflexivity]. f_equal. loop l. Qed.
Lemma meaning_map i kt vt l :
  meaning p scope (GMap i kt vt) (CMap l)
  = if ghashable kt
    then option_map (fun l' => VMap (fold_left (fun d kv => dict_set d (fst kv) (snd kv)) l' []))
           (mapo2 (meaning p scope kt) (meaning p scope vt) l)
    else None.
Proof.
  cbn [meaning]. destruct (ghashable kt); [|reflexivity]. f_equal. unfold mapo2.
  induction l as [|[k x] l IH]; [reflexivity|].
  cbn [mapo fst snd]. rewrite <- IH.
  destruct (meaning p scope kt k); [|reflexivity].
  destruct (meaning p scope vt x); reflexivity.
Qed.
Definition meaning_field (k : gclass) (fx : cv * cv) : option (list byte * value) :=
  match fst fx with
  | CString s =>
      match field_named k s with
      | None => None
      | Some g => option_map (pair s) (meaning p scope (g_ty g) (snd fx))
      end
  | _ => None
  end.
Lemma meaning_struct n k l : nth_error (p_classes p) n = Some k ->
  meaning p scope (GStruct n) (CMap l)
  = if k_exc k || unconstructible k then None
    else match mapo (meaning_field k) l with
         | None => None
         | Some l' =>
             if nodupb (map fst l') then
               Some (VStruct n (map (fun g => match given (name_bytes (g_name g)) l' with
                                              | Some v => Some v
                                              | None => g_def g
                                              end) (k_fields k)))
             else None
         end.
Proof.
  intros Hk. cbn [meaning]. rewrite Hk. destruct (k_exc k || unconstructible k); [reflexivity|].
  match goal with |- match ?a with _ => _ end = match ?b with _ => _ end =>
    assert (E : a = b) end.
  { induction l as [|[f x] l IH]; [reflexivity|]. cbn [mapo]. rewrite <- IH.
    unfold meaning_field at 1. cbn [fst snd]. destruct f as [| |s| | |]; try reflexivity.
    unfold field_named, name_bytes.
    destruct (find _ (k_fields k)) as [g|]; [|reflexivity].
    destruct (meaning p scope (g_ty g) x); reflexivity. }
  rewrite E. reflexivity.
Qed.

Lemma eval_list i l : eval p (XList i l) = match mapp (eval p) l with
  | POk l' => POk (PList i l') | PNameError => PNameError | PRaise e => PRaise e end.
Proof.
  cbn [eval].
  match goal with |- match ?a with _ => _ end = match ?b with _ => _ end =>
    assert (E : a = b); [|rewrite E; reflexivity] end.
  induction l as [|x l IH]; [reflexivity|]; cbn [mapp]; rewrite <- IH; reflexivity.
Qed.
Lemma eval_set i l : eval p (XSet i l) = match mapp (eval p) l with
  | POk l' => if forallb hashes l' then POk (PSet i (fold_left pset_add l' []))
              else PRaise ETypeError
  | PNameError => PNameError | PRaise e => PRaise e end.
Proof.
  cbn [eval].
  match goal with |- match ?a with _ => _ end = match ?b with _ => _ end =>
    assert (E : a = b); [|rewrite E; reflexivity] end.
  induction l as [|x l IH]; [reflexivity|]; cbn [mapp]; rewrite <- IH; reflexivity.
Qed.
Definition eval_pair (kx : pexpr * pexpr) : pyres (pv * pv) :=
  match eval p (fst kx) with
  | POk k => match eval p (snd kx) with
             | POk y => POk (k, y) | PNameError => PNameError | PRaise e => PRaise e
             end
  | PNameError => PNameError
  | PRaise e => PRaise e
  end.
Lemma eval_dict i l : eval p (XDict i l) = match mapp eval_pair l with
  | POk l' => if forallb (fun kv => hashes (fst kv)) l'
              then POk (PMap i (fold_left (fun d kv => pdict_set d (fst kv) (snd kv)) l' []))
              else PRaise ETypeError
  | PNameError => PNameError | PRaise e => PRaise e end.
Proof.
  cbn [eval].
  match goal with |- match ?a with _ => _ end = match ?b with _ => _ end =>
    assert (E : a = b); [|rewrite E; reflexivity] end.
  induction l as [|[k x] l IH]; [reflexivity|]; cbn [mapp]; rewrite <- IH.
  unfold eval_pair at 1. cbn [fst snd].
  destruct (eval p k); try reflexivity. destruct (eval p x); reflexivity.
Qed.
Definition eval_kw (kx : list byte * pexpr) : pyres (string * option pv) :=
  match str_literal (fst kx) with
  | None => PNameError
  | Some s => match eval p (snd kx) with
              | POk y => POk (to_name s, Some y) | PNameError => PNameError | PRaise e => PRaise e
              end
  end.
Lemma eval_new n l : eval p (XNew n l) = match mapp eval_kw l with
  | POk kw => new_object p n kw | PNameError => PNameError | PRaise e => PRaise e end.
Proof.
  cbn [eval].
  match goal with |- match ?a with _ => _ end = match ?b with _ => _ end =>
    assert (E : a = b); [|rewrite E; reflexivity] end.
  induction l as [|[k x] l IH]; [reflexivity|]; cbn [mapp]; rewrite <- IH.
  unfold eval_kw at 1. cbn [fst snd].
  destruct (str_literal k); [|reflexivity]. destruct (eval p x); reflexivity.
Qed.

(** * Leaves *)

Lemma half_or_more_spec b : half_or_more b = true ->
  0 <= b < 2 ^ 64 /\ finite b = true
  /\ (b mod DBL_SIGN = 0 \/ DBL_HALF <= b mod DBL_SIGN < DBL_INF).
Proof.
  unfold half_or_more, finite. change (2 ^ 63) with DBL_SIGN.
  change 9218868437227405312 with DBL_INF. change 4602678819172646912 with DBL_HALF.
  change (2 ^ 64) with 18446744073709551616.
  intros H. assert (DBL_INF = 9218868437227405312) by reflexivity. lia.
Qed.

Lemma leaf_double b : half_or_more b = true ->
  float_literal (emit_double b) = Some (FVal b).
Proof.
  intros H. apply half_or_more_spec in H as (Hb & Hf & Hm).
  rewrite float_literal_emit by assumption. rewrite units_round by assumption.
  f_equal. f_equal. lia.
Qed.

(** UUIDs. *)

Lemma nth_list A (l : list A) n : length l = n ->
  match n with
  | O => l = []
  | S m => exists x r, l = x :: r /\ length r = m
  end.
Proof.
  intros <-. destruct l as [|x l]; [reflexivity|]. cbn [length]. eauto.
Qed.

Lemma hex_bytes_digits l : forall b, hex_bytes l = Some b ->
  Forall (fun c => exists d, hex_digit c = Some d) l.
Proof.
  assert (G : forall n l, (length l <= n)%nat -> forall b, hex_bytes l = Some b ->
    Forall (fun c => exists d, hex_digit c = Some d) l).
  { induction n as [|n IH]; intros [|a [|c r]] Hl b H; cbn [length] in Hl; try lia;
      try (constructor; fail); try discriminate.
    cbn [hex_bytes] in H.
    destruct (hex_digit a) eqn:E1; [|discriminate]. destruct (hex_digit c) eqn:E2; [|discriminate].
    destruct (hex_bytes r) eqn:E3; [|discriminate].
    repeat constructor; eauto. apply (IH r) with l0; [lia|assumption]. }
  intros b. apply (G (length l) l). lia.
Qed.

Lemma hex_digit_range c d : hex_digit c = Some d -> 48 <= c < 128 /\ c <> 45.
Proof.
  unfold hex_digit, is_digit. intros H.
  repeat match type of H with (if ?b then _ else _) = _ => destruct b eqn:? end;
    try discriminate; lia.
Qed.

Lemma filter_yes A (f : A -> bool) x l : f x = true -> filter f (x :: l) = x :: filter f l.
Proof. intros H. cbn [filter]. rewrite H. reflexivity. Qed.
Lemma filter_no A (f : A -> bool) x l : f x = false -> filter f (x :: l) = filter f l.
Proof. intros H. cbn [filter]. rewrite H. reflexivity. Qed.

Lemma uuid_of_spec s b : uuid_of s = Some b ->
  exists u, validate_uuid s = Some u /\ validate_uuid u = Some u /\ uuid_of u = Some b
    /\ no_nul u = true /\ ascii_only u = true /\ py_uuid (map b2z u) = Some b.
Proof.
  unfold uuid_of, validate_uuid. fold (unbrace s). intros H.
  set (u := unbrace s) in *. clearbody u. exists u.
  destruct ((length u =? 36)%nat) eqn:El; [|discriminate]. cbn [andb] in *.
  apply Nat.eqb_eq in El.
  assert (Eu : unbrace u = u) by (unfold unbrace; rewrite El; reflexivity).
  fold (unbrace u). rewrite Eu, El, Nat.eqb_refl. cbn [andb].
  do 36 (let n := fresh "x" in
         match type of El with length ?l = S ?m =>
           destruct (nth_list _ l (S m) El) as (n & ? & -> & El') end;
         clear El; rename El' into El).
  match type of El with length ?l = O => apply (nth_list _ l O) in El; subst l end.
  clear Eu. cbn [firstn skipn app] in *.
  match type of H with (if bytes_eqb ?a ?b then _ else _) = _ =>
    destruct (bytes_eqb_spec a b) as [E|]; [|discriminate] end.
  injection E as -> -> -> ->. rewrite H.
  pose proof (hex_bytes_digits _ _ H) as F. cbn [map] in F.
  repeat match goal with
         | F : Forall _ (_ :: _) |- _ => inversion F as [|? ? [? ?] F']; clear F; rename F' into F; subst
         end. clear F.
  assert (U : forall c d, hex_digit (b2z c) = Some d ->
    (b2z c <? 128) = true /\ negb (Byte.eqb c x00) = true /\ negb (b2z c =? 45) = true).
  { intros c d Hd. apply hex_digit_range in Hd. repeat split; try lia.
    destruct (Byte.eqb c x00) eqn:E0; [|reflexivity].
    apply Byte.byte_dec_bl in E0. subst c. change (b2z x00) with 0 in Hd. lia. }
  repeat match goal with
         | E : hex_digit (b2z ?c) = Some _ |- _ =>
             destruct (U _ _ E) as (? & ? & ?); revert E
         end. intros.
  assert (V : forall A (x y : A), (if uuid_chars 0 [] then x else y) = x) by reflexivity.
  split; [|split; [|split; [|split; [|split]]]].
  - cbn [uuid_chars Nat.eqb orb]. change (b2z x2d =? 45) with true.
    repeat match goal with E : hex_digit _ = Some _ |- _ => rewrite E; clear E end.
    cbn [andb]. reflexivity.
  - cbn [uuid_chars Nat.eqb orb]. change (b2z x2d =? 45) with true.
    repeat match goal with E : hex_digit _ = Some _ |- _ => rewrite E; clear E end.
    cbn [andb]. reflexivity.
  - destruct (bytes_eqb_spec [x2d; x2d; x2d; x2d] [x2d; x2d; x2d; x2d]); [reflexivity|congruence].
  - unfold no_nul. cbn [forallb]. change (negb (Byte.eqb x2d x00)) with true.
    repeat match goal with E : negb (Byte.eqb _ _) = true |- _ => rewrite E; clear E end. reflexivity.
  - unfold ascii_only. cbn [forallb]. change (b2z x2d <? 128) with true.
    repeat match goal with E : (_ <? 128) = true |- _ => rewrite E; clear E end. reflexivity.
  - unfold py_uuid. cbn [map].
    repeat first [rewrite filter_yes by assumption | rewrite filter_no by reflexivity].
    cbn [filter]. cbn [length Nat.eqb]. exact H.
Qed.

Lemma leaf_compiles bt c v : leaf bt c = Some v ->
  exists c2 x, validate p (GBase bt) c = Some c2 /\ render p (GBase bt) c2 = Some x
    /\ lexes x = true /\ eval p x = POk (PVal v).
Proof.
  intros H. destruct bt, c; cbn [leaf] in H; try discriminate.
  - (* bool *)
    eexists _, _. cbn [validate render get_integer option_map].
    split; [reflexivity|]. split; [reflexivity|]. cbn [lexes eval]. split; [reflexivity|].
    destruct (z =? 0) eqn:E0; [|destruct (z =? 1) eqn:E1; [|discriminate]];
      injection H as <-; do 3 f_equal; lia.
  - injection H as <-. eexists _, _. cbn [validate render get_integer option_map].
    split; [reflexivity|]. split; [reflexivity|]. cbn [lexes eval].
    rewrite int_literal_text. split; reflexivity.
  - injection H as <-. eexists _, _. cbn [validate render get_integer option_map].
    split; [reflexivity|]. split; [reflexivity|]. cbn [lexes eval].
    rewrite int_literal_text. split; reflexivity.
  - injection H as <-. eexists _, _. cbn [validate render get_integer option_map].
    split; [reflexivity|]. split; [reflexivity|]. cbn [lexes eval].
    rewrite int_literal_text. split; reflexivity.
  - injection H as <-. eexists _, _. cbn [validate render get_integer option_map].
    split; [reflexivity|]. split; [reflexivity|]. cbn [lexes eval].
    rewrite int_literal_text. split; reflexivity.
  - injection H as <-. eexists _, _. cbn [validate render get_integer option_map].
    split; [reflexivity|]. split; [reflexivity|]. cbn [lexes eval].
    rewrite int_literal_text. split; reflexivity.
  - destruct (half_or_more bits) eqn:Hh; [|discriminate]. injection H as <-.
    eexists _, _. cbn [validate render get_double]. split; [reflexivity|]. split; [reflexivity|].
    cbn [lexes eval get_double]. rewrite (leaf_double bits Hh). split; reflexivity.
  - destruct (no_nul s) eqn:Hn; [|discriminate].
    destruct (utf8_decode s) as [l|] eqn:Hd; [|discriminate]. injection H as <-.
    eexists _, _. cbn [validate render get_string]. split; [reflexivity|]. split; [reflexivity|].
    cbn [lexes eval get_string]. rewrite (str_literal_escape s l Hn Hd). split; reflexivity.
  - destruct (no_nul s) eqn:Hn; [|discriminate].
    destruct (ascii_only s) eqn:Ha; [|discriminate]. injection H as <-.
    eexists _, _. cbn [validate render get_string]. split; [reflexivity|]. split; [reflexivity|].
    cbn [lexes eval get_string]. rewrite (bytes_literal_escape s Hn Ha). split; reflexivity.
  - destruct (uuid_of s) as [b|] eqn:Hu; [|discriminate]. injection H as <-.
    destruct (uuid_of_spec s b Hu) as (u & V1 & _ & _ & Hn & Ha & Hp).
    exists (CString u). eexists. cbn [validate]. rewrite V1. split; [reflexivity|].
    cbn [render get_string]. split; [reflexivity|]. cbn [lexes eval get_string].
    rewrite (str_literal_escape u (map b2z u) Hn (ascii_decode u Ha)).
    split; [reflexivity|]. rewrite Hp. reflexivity.
Qed.


Lemma same_base_eq a b : same_base a b = true -> a = b.
Proof. destruct a, b; intros H; try reflexivity; discriminate. Qed.

(** A reference stands for a literal of the same meaning. *)
Lemma leaf_reference bt c v id e : leaf bt c = Some v ->
  match bt, c with TDouble, CInt _ => False | _, _ => True end ->
  assoc id scope = Some (GBase bt, c) ->
  exists c1, resolve p scope (GBase bt) (CIdent id e) = Some c1 /\ leaf bt c1 = Some v.
Proof.
  intros H Hd Ha. cbn [resolve resolve_leaf]. rewrite Ha.
  destruct bt, c; cbn [leaf] in H; try discriminate; try contradiction;
    cbn [get_integer get_string get_double option_map];
    try (eexists; split; [reflexivity|exact H]).
  destruct (uuid_of s) as [b|] eqn:Hu; [|discriminate].
  destruct (uuid_of_spec s b Hu) as (u & V1 & _ & U & _). rewrite V1. cbn [option_map].
  eexists. split; [reflexivity|]. cbn [leaf]. rewrite U. exact H.
Qed.

(** * Enums *)

Lemma after_dot_app a b : after_dot a = None -> after_dot (a ++ String "." b) = Some b.
Proof.
  induction a as [|c a IH]; intros H; [reflexivity|]. cbn [append after_dot] in *.
  destruct (Ascii.eqb c "."); [discriminate|]. apply IH. assumption.
Qed.
Lemma last_part_none b : after_dot b = None -> last_part b = b.
Proof.
  destruct b as [|c b]; [reflexivity|]. intros H. cbn [last_part]. rewrite H. reflexivity.
Qed.
Lemma last_part_app a b : after_dot a = None -> after_dot b = None ->
  last_part (a ++ String "." b) = b.
Proof.
  intros Ha Hb. induction a as [|c a IH].
  - cbn [append last_part]. change (after_dot (String "." b)) with (Some b).
    apply last_part_none. assumption.
  - cbn [append last_part].
    assert (E := after_dot_app _ b Ha). cbn [append] in E. rewrite E.
    apply IH. cbn [after_dot] in Ha. destruct (Ascii.eqb c "."); [discriminate|assumption].
Qed.

Lemma find_key A B (eqb : B -> B -> bool) (key : A -> B) l m :
  (forall x y, eqb x y = true <-> x = y) ->
  NoDup (map key l) -> In m l -> find (fun x => eqb (key x) (key m)) l = Some m.
Proof.
  intros He. induction l as [|x l IH]; intros Hn Hi; [destruct Hi|].
  cbn [map] in Hn. inversion Hn as [|? ? H1 H2]; subst. cbn [find].
  destruct Hi as [->|Hi].
  - rewrite (proj2 (He _ _) eq_refl). reflexivity.
  - destruct (eqb (key x) (key m)) eqn:E.
    + exfalso. apply He in E. apply H1. rewrite E. apply in_map. assumption.
    + apply IH; assumption.
Qed.

Definition enums_ok : Prop := forall d, In d (p_enums p) -> enum_ok d.

Lemma enum_render e b d n m id : enums_ok -> nth_error (p_enums p) e = Some d ->
  by_name d n = Some m -> last_part id = n -> identifier_name id = Some n ->
  exists c2 x, validate p (GEnum e b) (CIdent id (Some e)) = Some c2
    /\ render p (GEnum e b) c2 = Some x
    /\ lexes x = true /\ eval p x = POk (lift p (GEnum e b) (VInt (snd m))).
Proof.
  intros He Hd Hm Hl Hi.
  assert (G : get_integer p (CIdent id (Some e)) = Some (snd m)).
  { cbn [get_integer]. rewrite Hd, Hl, Hm. reflexivity. }
  unfold by_name in Hm.
  destruct (find_some _ _ Hm) as [Hin _].
  destruct (He d (nth_error_In _ _ Hd)) as (_ & _ & _ & Hn).
  cbn [validate]. rewrite Hd, Hi. unfold by_name. rewrite Hm.
  exists (CIdent id (Some e)). cbn [render]. rewrite Hd, G. cbn [lift].
  destruct (o_enum p) eqn:Ho.
  - assert (B : exists m', by_value d (snd m) = Some m').
    { unfold by_value. destruct (find (fun m0 => snd m0 =? snd m) (e_members d)) eqn:F; eauto.
      exfalso. pose proof (find_none _ _ F m Hin) as F'. cbn beta in F'. lia. }
    destruct B as [m' B]. rewrite B. cbn [option_map]. eexists. split; [reflexivity|].
    split; [reflexivity|]. cbn [lexes eval]. split; [reflexivity|]. rewrite Hd.
    destruct (find_some _ _ B) as [Hin' Hv].
    rewrite (find_key _ _ String.eqb (fun m => maybe_escape_identifier (fst m)) _ m' String.eqb_eq Hn Hin').
    do 2 f_equal. lia.
  - eexists. split; [reflexivity|]. split; [reflexivity|]. cbn [lexes eval].
    rewrite int_literal_text. split; reflexivity.
Qed.

(** * Names *)

Lemma to_name_bytes n : to_name (map b2z (list_byte_of_string n)) = n.
Proof.
  unfold to_name, list_byte_of_string. rewrite !map_map.
  rewrite <- (string_of_list_ascii_of_string n) at 2. f_equal.
  rewrite <- (map_id (list_ascii_of_string n)) at 2. apply map_ext.
  intros [[] [] [] [] [] [] [] []]; reflexivity.
Qed.
Lemma name_bytes_inj a b : list_byte_of_string a = list_byte_of_string b -> a = b.
Proof. intros H. rewrite <- (to_name_bytes a), <- (to_name_bytes b), H. reflexivity. Qed.

Lemma bytes_eqb_iff a b : bytes_eqb a b = true <-> a = b.
Proof. destruct (bytes_eqb_spec a b); split; congruence. Qed.

Lemma field_named_spec k s g : field_named k s = Some g ->
  In g (k_fields k) /\ s = list_byte_of_string (g_name g).
Proof.
  unfold field_named. intros H. apply find_some in H as [H1 H2].
  apply bytes_eqb_iff in H2. split; [assumption|]. symmetry. exact H2.
Qed.
Lemma field_named_in k g : plain k -> In g (k_fields k) ->
  field_named k (list_byte_of_string (g_name g)) = Some g.
Proof.
  intros Hp Hg. unfold field_named.
  apply (find_key _ _ bytes_eqb (fun f => name_bytes (g_name f))); [apply bytes_eqb_iff| |assumption].
  destruct Hp as [Hp _]. unfold names in Hp.
  rewrite <- (map_map g_name name_bytes). clear Hg.
  induction Hp as [|x l Hx Hl IH]; cbn [map]; constructor; [|assumption].
  intros Hi. apply in_map_iff in Hi as (y & E & Hy). apply name_bytes_inj in E. subst y.
  contradiction.
Qed.

Definition kw_of (k : gclass) (l : list (list byte * value)) : attrs :=
  map (fun sy => (to_name (map b2z (fst sy)),
                  match field_named k (fst sy) with
                  | Some g => Some (lift p (g_ty g) (snd sy))
                  | None => None
                  end)) l.

Definition given_ok (k : gclass) (l : list (list byte * value)) : Prop :=
  forall s y, In (s, y) l -> exists g, field_named k s = Some g /\ okv (g_ty g) y.

Lemma assoc_kw k l g : plain k -> In g (k_fields k) -> given_ok k l ->
  match given (list_byte_of_string (g_name g)) l with
  | Some y => assoc (g_name g) (kw_of k l) = Some (Some (lift p (g_ty g) y)) /\ okv (g_ty g) y
  | None => assoc (g_name g) (kw_of k l) = None
  end.
Proof.
  intros Hp Hg Hl. induction l as [|[s y] l IH]; [reflexivity|].
  assert (Hl' : given_ok k l) by (intros s' y' H; apply Hl; right; assumption).
  destruct (Hl s y (or_introl eq_refl)) as (g' & Hg' & Hy).
  destruct (field_named_spec _ _ _ Hg') as [Hin Es].
  cbn [given kw_of map fst snd assoc]. fold (kw_of k l). rewrite Hg', Es, to_name_bytes.
  destruct (bytes_eqb_spec (list_byte_of_string (g_name g')) (list_byte_of_string (g_name g))) as [E|E].
  - apply name_bytes_inj in E. rewrite E in *. rewrite String.eqb_refl.
    assert (g' = g).
    { rewrite Es in Hg'. rewrite (field_named_in k g Hp Hg) in Hg'. congruence. }
    subst g'. split; [reflexivity|assumption].
  - destruct (String.eqb_spec (g_name g) (g_name g')) as [E'|_]; [congruence|].
    apply IH. assumption.
Qed.

Lemma construct_given k l : plain k -> typed k -> given_ok k l ->
  construct p k (kw_of k l)
  = Ok (lift_fields p (map (fun g => match given (list_byte_of_string (g_name g)) l with
                                     | Some v => Some v
                                     | None => g_def g
                                     end) (k_fields k)) (k_fields k)).
Proof.
  intros Hp Ht Hl. unfold construct.
  replace (forallb _ (kw_of k l)) with true.
  - rewrite (init_fields_lift p k _ Hp _
               (map (fun g => match given (list_byte_of_string (g_name g)) l with
                              | Some v => Some v
                              | None => g_def g
                              end) (k_fields k))); auto.
    + apply map_length.
    + apply Hp.
    + intros i g f Hg Hf. rewrite (map_nth_error _ i _ Hg) in Hf. injection Hf as <-.
      pose proof (nth_error_In _ _ Hg) as Hin.
      pose proof (assoc_kw k l g Hp Hin Hl) as A.
      destruct (given _ l) as [y|].
      * destruct A as [-> Ho]. split; [reflexivity|assumption].
      * rewrite A. split; [reflexivity|]. destruct (Ht g Hin) as [_ Hd].
        destruct (g_def g) as [v|]; [|exact Logic.I].
        unfold okv. destruct (g_ty g); try exact Logic.I. exact Hd.
  - symmetry. apply forallb_forall. intros [n v] Hn. cbn [fst].
    unfold kw_of in Hn. apply in_map_iff in Hn as ([s y] & E & Hn). cbn [fst snd] in E.
    destruct (Hl s y Hn) as (g & Hg & _). destruct (field_named_spec _ _ _ Hg) as [Hin ->].
    rewrite to_name_bytes in E. injection E as <- _.
    apply mem_In. rewrite <- (esc_plain k g Hp Hin) at 1.
    apply (in_map (fun f => maybe_escape_identifier (g_name f))). assumption.
Qed.

(** * Containers *)

Lemma set_lift t l : ghashable t = true -> Forall (okv t) l -> forall acc, Forall (okv t) acc ->
  fold_left pset_add (map (lift p t) l) (map (lift p t) acc)
  = map (lift p t) (fold_left set_add l acc).
Proof.
  intros Hh Hl. induction Hl as [|x l Hx Hl IH]; intros acc Ha; [reflexivity|].
  cbn [map fold_left]. rewrite pset_add_lift by assumption.
  apply IH. apply set_add_ok; assumption.
Qed.
Lemma dict_lift kt vt l : ghashable kt = true -> Forall (fun e => okv kt (fst e)) l ->
  forall acc, Forall (fun e => okv kt (fst e)) acc ->
  fold_left (fun d kv => pdict_set d (fst kv) (snd kv))
    (map (fun kv => (lift p kt (fst kv), lift p vt (snd kv))) l)
    (map (fun kv => match kv with (k, x) => (lift p kt k, lift p vt x) end) acc)
  = map (fun kv => match kv with (k, x) => (lift p kt k, lift p vt x) end)
      (fold_left (fun d (kv : value * value) => dict_set d (fst kv) (snd kv)) l acc).
Proof.
  intros Hh Hl. induction Hl as [|x l Hx Hl IH]; intros acc Ha; [reflexivity|].
  cbn [map fold_left fst snd]. rewrite pdict_set_lift by assumption.
  apply IH. apply dict_set_ok; assumption.
Qed.
Lemma hashes_lift t v : ghashable t = true -> okv t v -> hashes (lift p t v) = true.
Proof.
  destruct t; unfold ghashable; cbn [ety hashable]; intros H Hv; try discriminate.
  - rewrite lift_base. reflexivity.
  - destruct Hv as [z ->]. cbn [lift]. destruct (o_enum p); reflexivity.
Qed.

(** * The whole *)

Definition good (t : gty) (c : cv) (v : value) : Prop :=
  okv t v /\
  exists c1 c2 x, resolve p scope t c = Some c1 /\ validate p t c1 = Some c2
    /\ render p t c2 = Some x /\ lexes x = true /\ eval p x = POk (lift p t v).

Definition compiles (c : cv) : Prop :=
  forall t v, meaning p scope t c = Some v -> good t c v.

Lemma list_good et l : Forall compiles l -> forall vs, mapo (meaning p scope et) l = Some vs ->
  Forall (okv et) vs /\
  exists l1 l2 xs, mapo (resolve p scope et) l = Some l1 /\ mapo (validate p et) l1 = Some l2
    /\ mapo (render p et) l2 = Some xs /\ forallb lexes xs = true
    /\ mapp (eval p) xs = POk (map (lift p et) vs).
Proof.
  intros F. induction F as [|c l Hc Hl IH]; intros vs H.
  - cbn [mapo] in H. injection H as <-. split; [constructor|].
    exists [], [], []. repeat split; reflexivity.
  - apply mapo_inv in H as (v & t & H1 & H2 & ->).
    destruct (IH t H2) as (Ho & l1 & l2 & xs & A1 & A2 & A3 & A4 & A5).
    destruct (Hc et v H1) as (Hv & c1 & c2 & x & B1 & B2 & B3 & B4 & B5).
    split; [constructor; assumption|].
    exists (c1 :: l1), (c2 :: l2), (x :: xs). split; [apply mapo_cons; assumption|].
    split; [apply mapo_cons; assumption|]. split; [apply mapo_cons; assumption|].
    split; [cbn [forallb]; rewrite B4, A4; reflexivity|].
    cbn [map]. apply mapp_cons; assumption.
Qed.

Lemma map_good kt vt l : Forall (fun kx => compiles (fst kx) /\ compiles (snd kx)) l ->
  forall vs, mapo2 (meaning p scope kt) (meaning p scope vt) l = Some vs ->
  Forall (fun e => okv kt (fst e)) vs /\
  exists l1 l2 xs, mapo2 (resolve p scope kt) (resolve p scope vt) l = Some l1
    /\ mapo2 (validate p kt) (validate p vt) l1 = Some l2
    /\ mapo2 (render p kt) (render p vt) l2 = Some xs
    /\ forallb (fun kx => lexes (fst kx) && lexes (snd kx)) xs = true
    /\ mapp eval_pair xs = POk (map (fun kv => (lift p kt (fst kv), lift p vt (snd kv))) vs).
Proof.
  intros F. unfold mapo2. induction F as [|[k c] l [Hk Hc] Hl IH]; intros vs H.
  - cbn [mapo] in H. injection H as <-. split; [constructor|].
    exists [], [], []. repeat split; reflexivity.
  - cbn [fst snd] in *. apply mapo_inv in H as (v & t & H1 & H2 & ->). cbn [fst snd] in H1.
    destruct (meaning p scope kt k) as [kv|] eqn:K1; [|discriminate].
    destruct (meaning p scope vt c) as [cv|] eqn:K2; [|discriminate]. injection H1 as <-.
    destruct (IH t H2) as (Ho & l1 & l2 & xs & A1 & A2 & A3 & A4 & A5).
    destruct (Hk kt kv K1) as (Hkv & k1 & k2 & y & D1 & D2 & D3 & D4 & D5).
    destruct (Hc vt cv K2) as (_ & c1 & c2 & x & B1 & B2 & B3 & B4 & B5).
    split; [constructor; assumption|].
    exists ((k1, c1) :: l1), ((k2, c2) :: l2), ((y, x) :: xs).
    split; [apply mapo_cons; [cbn [fst snd]; rewrite D1, B1; reflexivity|assumption]|].
    split; [apply mapo_cons; [cbn [fst snd]; rewrite D2, B2; reflexivity|assumption]|].
    split; [apply mapo_cons; [cbn [fst snd]; rewrite D3, B3; reflexivity|assumption]|].
    split; [cbn [forallb fst snd]; rewrite D4, B4, A4; reflexivity|].
    cbn [map fst snd]. apply mapp_cons; [|assumption].
    unfold eval_pair. cbn [fst snd]. rewrite D5, B5. reflexivity.
Qed.

Lemma fields_good k l : plain k ->
  (forall f, In f (k_fields k) -> no_nul (list_byte_of_string (g_name f)) = true
     /\ ascii_only (list_byte_of_string (g_name f)) = true) ->
  Forall (fun kx => compiles (fst kx) /\ compiles (snd kx)) l ->
  forall vs, mapo (meaning_field k) l = Some vs ->
  given_ok k vs /\
  exists l1 l2 xs, mapo (resolve_field k) l = Some l1
    /\ mapo (validate_field k) l1 = Some l2
    /\ mapo (render_field k) l2 = Some xs
    /\ forallb (fun kx => match str_literal (fst kx) with Some _ => true | None => false end
                          && lexes (snd kx)) xs = true
    /\ mapp eval_kw xs = POk (kw_of k vs).
Proof.
  intros Hp Hn F. induction F as [|[s c] l [_ Hc] Hl IH]; intros vs H.
  - cbn [mapo] in H. injection H as <-. split; [intros ? ? []|].
    exists [], [], []. repeat split; reflexivity.
  - cbn [fst snd] in *. apply mapo_inv in H as (v & t & H1 & H2 & ->).
    unfold meaning_field in H1. cbn [fst snd] in H1.
    destruct s as [| |s| | |]; try discriminate.
    destruct (field_named k s) as [g|] eqn:G; [|discriminate].
    destruct (meaning p scope (g_ty g) c) as [y|] eqn:K; [|discriminate]. injection H1 as <-.
    destruct (IH t H2) as (Ho & l1 & l2 & xs & A1 & A2 & A3 & A4 & A5).
    destruct (Hc (g_ty g) y K) as (Hy & c1 & c2 & x & B1 & B2 & B3 & B4 & B5).
    destruct (field_named_spec _ _ _ G) as [Hin Es]. destruct (Hn g Hin) as [N1 N2].
    rewrite <- Es in N1, N2.
    pose proof (str_literal_escape s (map b2z s) N1 (ascii_decode s N2)) as L.
    split.
    { intros s' y' [E|E]; [injection E as <- <-; eauto|apply Ho; assumption]. }
    exists ((CString s, c1) :: l1), ((CString s, c2) :: l2), ((escape_string s, x) :: xs).
    split; [apply mapo_cons; [unfold resolve_field; cbn [fst snd get_string]; rewrite G, B1; reflexivity|assumption]|].
    split; [apply mapo_cons; [unfold validate_field; cbn [fst snd]; rewrite G, B2; reflexivity|assumption]|].
    split; [apply mapo_cons; [unfold render_field; cbn [fst snd get_string]; rewrite G, B3; reflexivity|assumption]|].
    split; [cbn [forallb fst snd]; rewrite L, B4, A4; reflexivity|].
    cbn [kw_of map fst snd]. apply mapp_cons; [|assumption].
    unfold eval_kw. cbn [fst snd]. rewrite L, B5, G. reflexivity.
Qed.

Theorem meaning_good : prog_ok p -> enums_ok -> ascii_names p -> forall c, compiles c.
Proof.
  intros Hp He Hn.
  assert (L : forall bt c v, leaf bt c = Some v -> resolve p scope (GBase bt) c = Some c ->
    good (GBase bt) c v).
  { intros bt c v H R. split; [exact Logic.I|].
    destruct (leaf_compiles bt c v H) as (c2 & x & A1 & A2 & A3 & A4).
    exists c, c2, x. rewrite lift_base. auto. }
  assert (E : forall e b d m id c, nth_error (p_enums p) e = Some d ->
    resolve p scope (GEnum e b) c = Some (CIdent id (Some e)) ->
    by_name d (last_part id) = Some m -> identifier_name id = Some (last_part id) ->
    good (GEnum e b) c (VInt (snd m))).
  { intros e b d m id c Hd R Hm Hi. split; [exists (snd m); reflexivity|].
    destruct (enum_render e b d (last_part id) m id He Hd Hm eq_refl Hi)
      as (c2 & x & A1 & A2 & A3 & A4).
    exists (CIdent id (Some e)), c2, x. auto. }
  apply cv_nested; unfold compiles.
  - intros z t v H; destruct t as [bt|e b| | | |n]; cbn [meaning] in H; try discriminate.
    + apply L; [assumption|reflexivity].
    + unfold is_member in H. destruct (nth_error (p_enums p) e) as [d|] eqn:Hd; [|discriminate].
      destruct (existsb _ _) eqn:X; [|discriminate]. injection H as <-.
      assert (B : exists m, by_value d z = Some m).
      { unfold by_value. destruct (find (fun m => snd m =? z) (e_members d)) eqn:F; eauto.
        exfalso. apply existsb_exists in X as (m & Hm & Hz).
        pose proof (find_none _ _ F m Hm) as F'. cbn beta in F'. congruence. }
      destruct B as [m B]. pose proof B as B'. unfold by_value in B'.
      destruct (find_some _ _ B') as [Hin Hz]. clear B'.
      destruct (He d (nth_error_In _ _ Hd)) as (D1 & D2 & D3 & D4).
      specialize (D1 m Hin). replace z with (snd m) by lia.
      assert (LP : last_part (e_name d ++ "." ++ fst m) = fst m)
        by (apply last_part_app; assumption).
      apply (E e b d m (e_name d ++ "." ++ fst m)%string).
      * assumption.
      * cbn [resolve resolve_leaf get_integer]. rewrite Hd. replace (snd m) with z by lia.
        rewrite B. reflexivity.
      * rewrite LP. unfold by_name.
        apply (find_key _ _ String.eqb fst); [apply String.eqb_eq|assumption|assumption].
      * rewrite LP. unfold identifier_name.
        pose proof (after_dot_app (e_name d) (fst m) D2) as X2.
        change (e_name d ++ String "." (fst m))%string with (e_name d ++ "." ++ fst m)%string in X2.
        rewrite X2, D1. reflexivity.
  - intros z t v H; destruct t as [bt|e b| | | |n]; cbn [meaning] in H; try discriminate.
    + apply L; [assumption|reflexivity].
  - intros z t v H; destruct t as [bt|e b| | | |n]; cbn [meaning] in H; try discriminate.
    + apply L; [assumption|reflexivity].
  - intros id o t v H; destruct t as [bt|e b| | | |n]; cbn [meaning] in H; try discriminate.
    + destruct (assoc id scope) as [[t' c']|] eqn:A; [|discriminate].
      destruct t' as [bt'| | | | |]; try discriminate.
      destruct (same_base bt bt') eqn:S; [|discriminate].
      apply same_base_eq in S. subst bt'.
      assert (H' : leaf bt c' = Some v
                   /\ match bt, c' with TDouble, CInt _ => False | _, _ => True end).
      { destruct bt, c'; try discriminate; split; (exact H || exact Logic.I). }
      destruct H' as [H1 H2].
      destruct (leaf_reference bt c' v id o H1 H2 A) as (c1 & R & Hc).
      split; [exact Logic.I|].
      destruct (leaf_compiles bt c1 v Hc) as (c2 & x & A1 & A2 & A3 & A4).
      exists c1, c2, x. rewrite lift_base. auto.
    + destruct (nth_error (p_enums p) e) as [d|] eqn:Hd; [|discriminate].
      destruct (identifier_name id) as [n|] eqn:Hi; [|discriminate].
      destruct (String.eqb_spec n (last_part id)) as [->|]; [|discriminate].
      destruct (by_name d (last_part id)) as [m|] eqn:Hm; [|discriminate].
      injection H as <-. apply (E e b d m id); auto.
  - intros l F t v H; destruct t as [bt|e b| | |i kt vt|n]; try discriminate.
    + destruct bt; discriminate.
    + rewrite meaning_map in H. destruct (ghashable kt) eqn:Hh; [|discriminate].
      destruct (mapo2 _ _ l) as [vs|] eqn:V; [|discriminate]. injection H as <-.
      destruct (map_good kt vt l F vs V) as (Ho & l1 & l2 & xs & A1 & A2 & A3 & A4 & A5).
      split; [exact Logic.I|]. exists (CMap l1), (CMap l2), (XDict i xs).
      rewrite resolve_map, A1, validate_map, A2, render_map, A3. cbn [option_map].
      do 3 (split; [reflexivity|]). split.
      { cbn [lexes]. rewrite <- A4. clear. induction xs as [|[k x] xs IH]; [reflexivity|].
        cbn [forallb fst snd]. rewrite IH. reflexivity. }
      rewrite eval_dict, A5. replace (forallb _ _) with true.
      * cbn [lift]. do 2 f_equal. apply (dict_lift kt vt vs Hh Ho []). constructor.
      * symmetry. apply forallb_forall. intros y Hy. apply in_map_iff in Hy as (kv & <- & Hkv).
        cbn [fst]. apply hashes_lift; [assumption|].
        rewrite Forall_forall in Ho. apply (Ho kv Hkv).
    + destruct (nth_error (p_classes p) n) as [k|] eqn:Hk;
        [|cbn [meaning] in H; rewrite Hk in H; discriminate].
      rewrite (meaning_struct n k l Hk) in H.
      destruct (k_exc k) eqn:Hx; [discriminate|]. cbn [orb] in H.
      destruct (unconstructible k) eqn:Hu; [discriminate|].
      destruct (mapo (meaning_field k) l) as [vs|] eqn:V; [|discriminate].
      destruct (nodupb _); [|discriminate]. injection H as <-.
      destruct (Hp k (nth_error_In _ _ Hk)) as (Hpl & _ & Hty).
      destruct (fields_good k l Hpl (fun f => Hn k f (nth_error_In _ _ Hk)) F vs V)
        as (Ho & l1 & l2 & xs & A1 & A2 & A3 & A4 & A5).
      split; [exact Logic.I|]. exists (CMap l1), (CMap l2), (XNew n xs).
      rewrite (resolve_struct n k l Hk Hx), A1, (validate_struct n k l1 Hk), A2,
        (render_struct n k l2 Hk), A3. cbn [option_map].
      do 3 (split; [reflexivity|]). split.
      { cbn [lexes]. etransitivity; [|exact A4]. clear. induction xs as [|[s x] xs IH]; [reflexivity|].
        cbn [forallb fst snd]. rewrite IH. reflexivity. }
      rewrite eval_new, A5. unfold new_object. rewrite Hk, (construct_given k vs Hpl Hty Ho), Hu.
      rewrite lift_struct, Hk. reflexivity.
  - intros l F t v H; destruct t as [bt|e b|i et|i et| |n]; try discriminate.
    + destruct bt; discriminate.
    + rewrite meaning_list in H.
      destruct (mapo _ l) as [vs|] eqn:V; [|discriminate]. injection H as <-.
      destruct (list_good et l F vs V) as (Ho & l1 & l2 & xs & A1 & A2 & A3 & A4 & A5).
      split; [exact Logic.I|]. exists (CList l1), (CList l2), (XList i xs).
      rewrite resolve_list, A1, validate_list, A2, render_list, A3. cbn [option_map].
      do 3 (split; [reflexivity|]). split; [exact A4|].
      rewrite eval_list, A5. reflexivity.
    + rewrite meaning_set in H. destruct (ghashable et) eqn:Hh; [|discriminate].
      destruct (mapo _ l) as [vs|] eqn:V; [|discriminate]. injection H as <-.
      destruct (list_good et l F vs V) as (Ho & l1 & l2 & xs & A1 & A2 & A3 & A4 & A5).
      split; [exact Logic.I|]. exists (CList l1), (CList l2), (XSet i xs).
      rewrite resolve_set, A1, validate_set, A2, render_set, A3. cbn [option_map].
      do 3 (split; [reflexivity|]). split; [exact A4|].
      rewrite eval_set, A5. replace (forallb _ _) with true.
      * cbn [lift]. do 2 f_equal. apply (set_lift et vs Hh Ho []). constructor.
      * symmetry. apply forallb_forall. intros y Hy. apply in_map_iff in Hy as (x & <- & Hx).
        apply hashes_lift; [assumption|]. rewrite Forall_forall in Ho. apply (Ho x Hx).
Qed.

Lemma compile_meaning t c v : prog_ok p -> enums_ok -> ascii_names p ->
  meaning p scope t c = Some v ->
  exists x, compile_const p scope t c = Some x /\ lexes x = true /\ eval p x = POk (lift p t v).
Proof.
  intros Hp He Hn H. destruct (meaning_good Hp He Hn c t v H)
    as (_ & c1 & c2 & x & A1 & A2 & A3 & A4 & A5).
  exists x. unfold compile_const. rewrite A1, A2. auto.
Qed.

End Prog.
