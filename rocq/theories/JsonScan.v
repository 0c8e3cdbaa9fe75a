(** A property of every JSON text that is easy to compute: outside strings an
    opening brace is never followed by another, there is no letter i, and there
    are no control characters but white space. *)
From Coq Require Import ZArith List Bool Lia.
From Coq Require Import Init.Byte.
From Coq Require Import ZifyBool ZifyNat ZifyN.
From Verif Require Import Base Bytes BytesFacts Utf8 Utf8Facts Proto JsonText SpecJson
  JsonStr SpecJsonDoc.
Import ListNotations.
Open Scope Z_scope.

Inductive scst := Out (p : Z) | In_ | Esc.

Definition low (c : Z) : bool := (c <? 32) && negb ((c =? 9) || (c =? 10) || (c =? 13)).

Definition step (s : scst) (c : Z) : option scst :=
  match s with
  | Out p => if c =? 34 then Some In_
             else if (p =? 123) && (c =? 123) || (c =? 105) || low c then None
             else Some (Out c)
  | In_ => if c =? 34 then Some (Out 34) else if c =? 92 then Some Esc
           else if c <? 32 then None else Some In_
  | Esc => Some In_
  end.

Fixpoint scan (s : scst) (l : list Z) : option scst :=
  match l with
  | [] => Some s
  | c :: r => match step s c with Some s' => scan s' r | None => None end
  end.

Lemma scan_app a b s s' : scan s a = Some s' -> scan s (a ++ b) = scan s' b.
Proof.
  revert s. induction a as [|c a IH]; intros s H; cbn [scan app] in *; [congruence|].
  destruct (step s c); [auto|discriminate].
Qed.

Definition fine (l : list Z) : Prop :=
  forall p, p <> 123 -> exists q, scan (Out p) l = Some (Out q) /\ q <> 123.
(** Also after an opening brace. *)
Definition fine0 (l : list Z) : Prop :=
  forall p, exists q, scan (Out p) l = Some (Out q) /\ (l <> [] -> q <> 123)
            /\ (p <> 123 -> q <> 123).

Lemma fine_app a b : fine a -> fine b -> fine (a ++ b).
Proof.
  intros Ha Hb p Hp. destruct (Ha p Hp) as (q & E & Hq). rewrite (scan_app a b _ _ E).
  apply Hb, Hq.
Qed.

(** Characters that stand outside strings. *)
Definition outer (c : Z) : bool :=
  negb (c =? 34) && negb (c =? 123) && negb (c =? 105) && negb (low c).

Lemma outer0 l : forallb outer l = true -> fine0 l.
Proof.
  induction l as [|c l IH]; intros H p.
  - exists p. repeat split; [congruence|auto].
  - cbn [forallb] in H. apply andb_prop in H as [H1 H2]. unfold outer in H1. destruct (low c) eqn:El; [lia|].
    cbn [scan]. unfold step. rewrite El. destruct (c =? 34) eqn:E1; [lia|].
    destruct ((p =? 123) && (c =? 123) || (c =? 105) || false) eqn:E2; [lia|].
    destruct (IH H2 c) as (q & E & _ & G). exists q.
    assert (q <> 123) by (apply G; lia). split; [exact E|auto].
Qed.

Lemma fine0_fine l : fine0 l -> fine l.
Proof. intros H p Hp. destruct (H p) as (q & E & _ & G). eauto. Qed.

Lemma ws_outer w : json_ws w -> forallb outer w = true.
Proof.
  intros H. apply forallb_forall. intros c Hc.
  destruct (H c Hc) as [->|[->|[-> | ->]]]; reflexivity.
Qed.

Lemma digits_outer l : (forall c, In c l -> 48 <= c <= 57) -> forallb outer l = true.
Proof.
  intros H. apply forallb_forall. intros c Hc. specialize (H c Hc). unfold outer, low. lia.
Qed.

Lemma number_outer l : json_number l -> forallb outer l = true.
Proof.
  intros (m & i & f & e & -> & Hm & [[_ Hi] _] & Hf & He). rewrite !forallb_app.
  rewrite (digits_outer i Hi).
  assert (Hm' : forallb outer m = true) by (destruct Hm as [-> | ->]; reflexivity).
  assert (Hf' : forallb outer f = true).
  { destruct Hf as [->|(r & -> & _ & Hr)]; [reflexivity|]. cbn [forallb].
    rewrite (digits_outer r Hr). reflexivity. }
  assert (He' : forallb outer e = true).
  { destruct He as [->|(x & s & r & -> & Hx & Hs & _ & Hr)]; [reflexivity|].
    cbn [forallb]. rewrite forallb_app, (digits_outer r Hr).
    destruct Hx as [-> | ->]; destruct Hs as [->|[-> | ->]]; reflexivity. }
  rewrite Hm', Hf', He'. reflexivity.
Qed.

Lemma hex_in_ x v : hex_digit x = Some v -> step In_ x = Some In_.
Proof.
  intros H. apply hex_digit_range in H. unfold step.
  destruct (x =? 34) eqn:E1; [lia|]. destruct (x =? 92) eqn:E2; [lia|].
  destruct (x <? 32) eqn:E3; [lia|]. reflexivity.
Qed.

Lemma hex4_in_ a b c d u r : hex4 a b c d = Some u ->
  scan In_ (a :: b :: c :: d :: r) = scan In_ r.
Proof.
  unfold hex4. intros H.
  destruct (hex_digit a) eqn:Ha; [|discriminate]. destruct (hex_digit b) eqn:Hb; [|discriminate].
  destruct (hex_digit c) eqn:Hc; [|discriminate]. destruct (hex_digit d) eqn:Hd; [|discriminate].
  cbn [scan]. rewrite (hex_in_ _ _ Ha), (hex_in_ _ _ Hb), (hex_in_ _ _ Hc), (hex_in_ _ _ Hd).
  reflexivity.
Qed.

Lemma char_in_ t c : json_char 32 t c -> scan In_ t = Some In_.
Proof.
  intros H. destruct H as [c H1 H2 H3 H4|e c H|a b c d u H Hs|a b c d a' b' c' d' h l H H' _ _].
  - cbn [scan step]. destruct (c =? 34) eqn:E1; [lia|]. destruct (c =? 92) eqn:E2; [lia|].
    destruct (c <? 32) eqn:E3; [lia|]. reflexivity.
  - reflexivity.
  - change (scan In_ [92; 117; a; b; c; d]) with (scan In_ [a; b; c; d]).
    apply (hex4_in_ a b c d u [] H).
  - change (scan In_ [92; 117; a; b; c; d; 92; 117; a'; b'; c'; d'])
      with (scan In_ [a; b; c; d; 92; 117; a'; b'; c'; d']).
    rewrite (hex4_in_ a b c d h _ H).
    change (scan In_ [92; 117; a'; b'; c'; d']) with (scan In_ [a'; b'; c'; d']).
    apply (hex4_in_ a' b' c' d' l [] H').
Qed.

Lemma chars_in_ u s : json_chars 32 u s -> scan In_ u = Some In_.
Proof.
  induction 1 as [|t c u s Ht _ IH]; [reflexivity|].
  rewrite (scan_app t u _ _ (char_in_ t c Ht)). exact IH.
Qed.

Lemma string0 t s : json_string t s -> forall p, scan (Out p) t = Some (Out 34).
Proof.
  intros (u & Hu & ->) p. change (scan (Out p) (34 :: u ++ [34])) with (scan In_ (u ++ [34])).
  rewrite (scan_app u [34] _ _ (chars_in_ u s Hu)). reflexivity.
Qed.

Lemma string_fine t s : json_string t s -> fine t.
Proof. intros H p _. exists 34. split; [apply (string0 t s H)|lia]. Qed.

Lemma outer_fine l : forallb outer l = true -> fine l.
Proof. intros H. apply fine0_fine, outer0, H. Qed.

(** Members, after an opening brace too. *)
Lemma member_scan w k s w' r q p : json_ws w -> json_string k s -> json_ws w' ->
  scan (Out 58) r = Some (Out q) -> scan (Out p) (w ++ k ++ w' ++ 58 :: r) = Some (Out q).
Proof.
  intros Hw Hk Hw' Hr. destruct (outer0 w (ws_outer w Hw) p) as (p1 & E1 & _).
  rewrite (scan_app w _ _ _ E1), (scan_app k _ _ _ (string0 k s Hk p1)).
  destruct (outer0 w' (ws_outer w' Hw') 34) as (p2 & E2 & _).
  rewrite (scan_app w' _ _ _ E2). cbn [scan step]. cbn [Z.eqb andb orb low].
  change (58 =? 123) with false. rewrite andb_false_r. exact Hr.
Qed.

Scheme jt_ind := Minimality for json_text Sort Prop
  with je_ind := Minimality for json_elems Sort Prop
  with jm_ind := Minimality for json_members Sort Prop.

Lemma text_fine t j : json_text t j -> fine t.
Proof.
  apply (jt_ind (fun t _ => fine t) (fun t _ => fine t)
    (fun t _ => forall p, exists q, scan (Out p) t = Some (Out q) /\ q <> 123)).
  - apply outer_fine. reflexivity.
  - apply outer_fine. reflexivity.
  - apply outer_fine. reflexivity.
  - intros l H. apply outer_fine, number_outer, H.
  - intros l s H. exact (string_fine l s H).
  - intros w H. apply outer_fine. cbn [forallb]. rewrite forallb_app, (ws_outer w H).
    reflexivity.
  - intros l _ _ H. change (91 :: l ++ [93]) with ([91] ++ l ++ [93]).
    apply fine_app; [apply outer_fine; reflexivity|].
    apply fine_app; [exact H|apply outer_fine; reflexivity].
  - intros w H p Hp. cbn [scan step]. change (123 =? 34) with false. cbv iota.
    destruct ((p =? 123) && (123 =? 123) || (123 =? 105) || low 123) eqn:E.
    + exfalso. change (low 123) with false in E. lia.
    + destruct (outer0 (w ++ [125])) with (p := 123) as (q & Eq & G & _).
      * rewrite forallb_app, (ws_outer w H). reflexivity.
      * exists q. split; [exact Eq|]. apply G. destruct w; discriminate.
  - intros l _ _ H p Hp. cbn [scan step]. change (123 =? 34) with false. cbv iota.
    destruct ((p =? 123) && (123 =? 123) || (123 =? 105) || low 123) eqn:E.
    + exfalso. change (low 123) with false in E. lia.
    + destruct (H 123) as (q & Eq & Hq). rewrite (scan_app l [125] _ _ Eq).
      apply (outer_fine [125] eq_refl). exact Hq.
  - intros w w' l _ Hw Hw' _ H.
    apply fine_app; [apply outer_fine, ws_outer, Hw|].
    apply fine_app; [exact H|apply outer_fine, ws_outer, Hw'].
  - intros l _ _ H. exact H.
  - intros l _ u _ _ Hl _ Hu. apply fine_app; [exact Hl|].
    change (44 :: u) with ([44] ++ u). apply fine_app; [apply outer_fine; reflexivity|exact Hu].
  - intros w k s w' l _ Hw Hk Hw' _ Hl p. destruct (Hl 58 ltac:(lia)) as (q & E & Hq).
    exists q. split; [|exact Hq]. exact (member_scan w k s w' l q p Hw Hk Hw' E).
  - intros w k s w' l _ u _ Hw Hk Hw' _ Hl _ Hu p.
    destruct (Hl 58 ltac:(lia)) as (q1 & E1 & Hq1). destruct (Hu 44) as (q & E & Hq).
    exists q. split; [|exact Hq]. apply (member_scan w k s w'); try assumption.
    rewrite (scan_app l _ _ _ E1). cbn [scan step]. change (44 =? 34) with false. cbv iota.
    change (44 =? 123) with false. rewrite andb_false_r. exact E.
Qed.

Theorem scan_refutes t : scan (Out 0) t = None -> forall j, ~ json_text t j.
Proof.
  intros H j Hj. destruct (text_fine t j Hj 0 ltac:(lia)) as (q & E & _). congruence.
Qed.
