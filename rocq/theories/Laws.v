(** The obligations a protocol has to meet for the generic round-trip and skip
    theorems (RoundTrip.v), method by method, and the generic encoding they
    describe. *)
From Coq Require Import ZArith List Bool Lia.
From Coq Require Import Init.Byte.
From Verif Require Import Base Bytes Utf8 Proto Spec.
Import ListNotations.
Open Scope Z_scope.

(** Writing from position [c] to position [c']: succeeds, appends [bs], leaves
    the unread input and the depth counter alone. *)
Definition Wr {X C} (rep : C -> X -> Prop) (c c' : C) (bs : list byte)
    (m : M X unit) : Prop :=
  forall x i o d, rep c x ->
    exists x', m (mkst x i o d) = (Ok tt, mkst x' i (o ++ bs) d) /\ rep c' x'.

(** Reading [bs] from position [c] to [c']: succeeds with [v] whatever
    follows (provided [Q]), leaves what follows, the output and the depth
    counter alone.  [rep c x i rest] says that a protocol object in state [x]
    over unread bytes [i] is about to read [rest] (they differ when the
    protocol object has looked ahead). *)
Definition Rd {X C A} (rep : C -> X -> list byte -> list byte -> Prop)
    (Q : list byte -> Prop) (c c' : C) (bs : list byte) (m : M X A) (v : A)
  : Prop :=
  forall tail, Q tail -> forall x i o d, rep c x i (bs ++ tail) ->
    exists x' i', m (mkst x i o d) = (Ok v, mkst x' i' o d)
                  /\ rep c' x' i' tail.

Definition anyT (_ : list byte) : Prop := True.

Record laws {X} (P : proto X) (SL CL : Z) := mklaws {
  C : Type;
  wrep : C -> X -> Prop;
  rrep : C -> X -> list byte -> list byte -> Prop;
  okT : list byte -> Prop;
  skbin : list byte -> bool;
  dok : Z -> bool;
  idok : Z -> bool;
  (* positions *)
  nxt : C -> C;
  inS : C -> C;
  inF : C -> Z -> option bool -> C;
  aft : C -> Z -> C;
  stp : C -> C;
  inL : C -> C;
  inM : C -> C;
  spos : C -> Prop;
  vpos : C -> Prop;
  epos : C -> Prop;
  bpos : C -> bool -> Prop;
  fpos : C -> C -> Prop;
  lpos : C -> C -> Prop;
  mpos : C -> C -> Prop;
  (* bytes *)
  e_base : C -> ty -> value -> list byte;
  e_sbeg : C -> list byte;
  e_fbeg : C -> Z -> Z -> option bool -> list byte;
  e_fend : list byte;
  e_stop : list byte;
  e_send : list byte;
  e_lbeg : C -> Z -> Z -> list byte;
  e_lend : list byte;
  e_mbeg : C -> Z -> Z -> Z -> list byte;
  e_mend : list byte;
  mret : Z -> Z -> Z -> Z * Z * Z;
  (* position laws *)
  p_vs : forall c, vpos c -> spos c;
  p_ev : forall c, epos c -> vpos c;
  p_eb : forall c b, epos c -> bpos c b;
  p_fS : forall c, spos c -> fpos c (inS c);
  p_fA : forall c f id, fpos c f -> fpos c (aft f id);
  p_F : forall c f id, fpos c f -> vpos (inF f id None);
  p_Fb : forall c f id b, fpos c f -> bpos (inF f id (Some b)) b;
  p_L : forall c, vpos c -> lpos c (inL c);
  p_Ln : forall c e, lpos c e -> lpos c (nxt e);
  p_Le : forall c e, lpos c e -> epos e;
  p_Li : forall c, vpos c -> exists e, epos e /\ inL c = nxt e;
  p_M : forall c, vpos c -> mpos c (inM c);
  p_Mn : forall c e, mpos c e -> mpos c (nxt (nxt e));
  p_Mk : forall c e, mpos c e -> epos e;
  p_Mv : forall c e, mpos c e -> epos (nxt e);
  (* writing *)
  w_base : forall c t v, vpos c -> (t = TBool -> epos c) -> base_ty t = true ->
    base_okd dok SL t v = true ->
    Wr wrep c (nxt c) (e_base c t v) (write_base P t v);
  w_sbeg : forall c, spos c -> Wr wrep c (inS c) (e_sbeg c) (writeStructBegin P);
  w_fbeg : forall c f id t, fpos c f -> idok id = true ->
    t <> TBool ->
    Wr wrep f (inF f id None) (e_fbeg f id (code t) None)
       (writeFieldBegin P (code t) id);
  w_fbool : forall c f id b, fpos c f -> idok id = true ->
    Wr wrep f (nxt (inF f id (Some b)))
       (e_fbeg f id T_BOOL (Some b)
        ++ e_base (inF f id (Some b)) TBool (VBool b))
       (writeFieldBegin P T_BOOL id ;;; writeBool P b);
  w_fend : forall c f id ob, fpos c f ->
    Wr wrep (nxt (inF f id ob)) (aft f id) e_fend (writeFieldEnd P);
  w_send : forall c f, spos c -> fpos c f ->
    Wr wrep f (nxt c) (e_stop ++ e_send)
       (writeFieldStop P ;;; writeStructEnd P);
  w_lbeg : forall c t n, vpos c -> 0 <= n <= CL ->
    Wr wrep c (inL c) (e_lbeg c (code t) n) (writeListBegin P (code t) n);
  w_lend : forall c e, vpos c -> lpos c e ->
    Wr wrep e (nxt c) e_lend (writeListEnd P);
  w_tbeg : forall c t n, vpos c -> 0 <= n <= CL ->
    Wr wrep c (inL c) (e_lbeg c (code t) n) (writeSetBegin P (code t) n);
  w_tend : forall c e, vpos c -> lpos c e ->
    Wr wrep e (nxt c) e_lend (writeSetEnd P);
  w_mbeg : forall c k t n, vpos c -> 0 <= n <= CL ->
    Wr wrep c (inM c) (e_mbeg c (code k) (code t) n)
       (writeMapBegin P (code k) (code t) n);
  w_mend : forall c e, vpos c -> mpos c e ->
    Wr wrep e (nxt c) e_mend (writeMapEnd P);
  (* reading *)
  r_base : forall c t v,
    (match v with VBool b => bpos c b | _ => vpos c end) ->
    base_ty t = true -> base_okd dok SL t v = true ->
    Rd rrep okT c (nxt c) (e_base c t v) (read_base P t) v;
  r_skbin : forall c b, vpos c -> base_okd dok SL TBinary (VBin b) = true ->
    skbin b = true ->
    exists s, Rd rrep okT c (nxt c) (e_base c TBinary (VBin b))
                 (readString P) s;
  r_sbeg : forall c, spos c ->
    Rd rrep anyT c (inS c) (e_sbeg c) (readStructBegin P) tt;
  r_fbeg : forall c f id t ob, fpos c f -> idok id = true ->
    (t = TBool <-> ob <> None) ->
    Rd rrep anyT f (inF f id ob) (e_fbeg f id (code t) ob) (readFieldBegin P)
       (code t, id);
  r_fend : forall c f id ob, fpos c f ->
    Rd rrep anyT (nxt (inF f id ob)) (aft f id) e_fend (readFieldEnd P) tt;
  r_stop : forall c f, fpos c f -> forall tail, exists z,
    Rd rrep (fun l => l = e_send ++ tail) f (stp f) e_stop (readFieldBegin P)
       (T_STOP, z);
  r_send : forall c f, spos c -> fpos c f ->
    Rd rrep anyT (stp f) (nxt c) e_send (readStructEnd P) tt;
  r_lbeg : forall c t n, vpos c -> 0 <= n <= CL ->
    Rd rrep okT c (inL c) (e_lbeg c (code t) n) (readListBegin P) (code t, n);
  r_lend : forall c e, vpos c -> lpos c e ->
    Rd rrep anyT e (nxt c) e_lend (readListEnd P) tt;
  r_tbeg : forall c t n, vpos c -> 0 <= n <= CL ->
    Rd rrep okT c (inL c) (e_lbeg c (code t) n) (readSetBegin P) (code t, n);
  r_tend : forall c e, vpos c -> lpos c e ->
    Rd rrep anyT e (nxt c) e_lend (readSetEnd P) tt;
  r_mbeg : forall c k t n, vpos c -> 0 <= n <= CL ->
    Rd rrep anyT c (inM c) (e_mbeg c (code k) (code t) n) (readMapBegin P)
       (mret (code k) (code t) n);
  r_mend : forall c e, vpos c -> mpos c e ->
    Rd rrep anyT e (nxt c) e_mend (readMapEnd P) tt;
  mret_pos : forall k t n, 0 < n -> mret k t n = (k, t, n);
  mret_zero : forall k t, snd (mret k t 0) = 0;
  (* what follows a value *)
  t_fend : forall tail, okT (e_fend ++ tail);
  t_lend : forall tail, okT (e_lend ++ tail);
  t_mend : forall tail, okT (e_mend ++ tail);
  t_base : forall c t v tail, epos c -> okT (e_base (nxt c) t v ++ tail);
  t_sbeg : forall c tail, epos c -> okT (e_sbeg (nxt c) ++ tail);
  t_lbeg : forall c t n tail, epos c -> okT (e_lbeg (nxt c) t n ++ tail);
  t_mbeg : forall c k t n tail, epos c -> okT (e_mbeg (nxt c) k t n ++ tail);
  (* sizes *)
  l_base : forall c t v, epos c -> base_ty t = true -> base_okd dok SL t v = true ->
    (1 <= length (e_base c t v))%nat;
  l_fbeg : forall f id t ob, (1 <= length (e_fbeg f id t ob))%nat;
  l_stop : (1 <= length (e_stop ++ e_send))%nat;
  l_lbeg : forall c t n, (1 <= length (e_lbeg c t n))%nat;
  l_mbeg : forall c k t n, (1 <= length (e_mbeg c k t n))%nat }.

Arguments C {X P SL CL} l.
Arguments wrep {X P SL CL} l _ _.
Arguments rrep {X P SL CL} l _ _ _ _.
Arguments okT {X P SL CL} l _.
Arguments skbin {X P SL CL} l _.
Arguments dok {X P SL CL} l _.
Arguments idok {X P SL CL} l _.
Arguments nxt {X P SL CL} l _.
Arguments inS {X P SL CL} l _.
Arguments inF {X P SL CL} l _ _ _.
Arguments aft {X P SL CL} l _ _.
Arguments stp {X P SL CL} l _.
Arguments inL {X P SL CL} l _.
Arguments inM {X P SL CL} l _.
Arguments spos {X P SL CL} l _.
Arguments vpos {X P SL CL} l _.
Arguments epos {X P SL CL} l _.
Arguments bpos {X P SL CL} l _ _.
Arguments fpos {X P SL CL} l _ _.
Arguments lpos {X P SL CL} l _ _.
Arguments mpos {X P SL CL} l _ _.
Arguments e_base {X P SL CL} l _ _ _.
Arguments e_sbeg {X P SL CL} l _.
Arguments e_fbeg {X P SL CL} l _ _ _ _.
Arguments e_fend {X P SL CL} l.
Arguments e_stop {X P SL CL} l.
Arguments e_send {X P SL CL} l.
Arguments e_lbeg {X P SL CL} l _ _ _.
Arguments e_lend {X P SL CL} l.
Arguments e_mbeg {X P SL CL} l _ _ _ _.
Arguments e_mend {X P SL CL} l.
Arguments mret {X P SL CL} l _ _ _.

(** The value of a boolean field, which the compact protocol folds into the
    field header. *)
Definition fold_bool (t : ty) (v : value) : option bool :=
  match t, v with TBool, VBool b => Some b | _, _ => None end.

Section Enc.
Context {X : Type} {P : proto X} {SL CL : Z} (L : laws P SL CL).
Variable env : schema.

Fixpoint enc (c : C L) (t : ty) (v : value) {struct v} : list byte :=
  match t, v with
  | TList et, VList l | TSet et, VSet l =>
      e_lbeg L c (code et) (Z.of_nat (length l))
      ++ (fix go e l :=
            match l with
            | [] => e_lend L
            | x :: r => enc e et x ++ go (nxt L e) r
            end) (inL L c) l
  | TMap kt vt, VMap l =>
      e_mbeg L c (code kt) (code vt) (Z.of_nat (length l))
      ++ (fix go e l :=
            match l with
            | [] => e_mend L
            | (k, x) :: r =>
                enc e kt k ++ enc (nxt L e) vt x ++ go (nxt L (nxt L e)) r
            end) (inM L c) l
  | TStruct _, VStruct n fs =>
      match nth_error env n with
      | None => []
      | Some ds =>
          e_sbeg L c
          ++ (fix go f fs ds :=
                match fs, ds with
                | Some x :: fs', d :: ds' =>
                    let ob := fold_bool (f_ty d) x in
                    e_fbeg L f (f_id d) (code (f_ty d)) ob
                    ++ enc (inF L f (f_id d) ob) (f_ty d) x
                    ++ e_fend L
                    ++ go (aft L f (f_id d)) fs' ds'
                | None :: fs', _ :: ds' => go f fs' ds'
                | _, _ => e_stop L ++ e_send L
                end) (inS L c) fs ds
      end
  | _, _ => e_base L c t v
  end.

(** The loops of [enc], by name. *)
Fixpoint enc_elems (e : C L) (et : ty) (l : list value) : list byte :=
  match l with
  | [] => e_lend L
  | x :: r => enc e et x ++ enc_elems (nxt L e) et r
  end.

Fixpoint enc_items (e : C L) (kt vt : ty) (l : list (value * value))
  : list byte :=
  match l with
  | [] => e_mend L
  | (k, x) :: r =>
      enc e kt k ++ enc (nxt L e) vt x ++ enc_items (nxt L (nxt L e)) kt vt r
  end.

Fixpoint enc_fields (f : C L) (fs : list (option value)) (ds : list fielddef)
  : list byte :=
  match fs, ds with
  | Some x :: fs', d :: ds' =>
      let ob := fold_bool (f_ty d) x in
      e_fbeg L f (f_id d) (code (f_ty d)) ob
      ++ enc (inF L f (f_id d) ob) (f_ty d) x
      ++ e_fend L
      ++ enc_fields (aft L f (f_id d)) fs' ds'
  | None :: fs', _ :: ds' => enc_fields f fs' ds'
  | _, _ => e_stop L ++ e_send L
  end.

Lemma enc_list c et l : enc c (TList et) (VList l) =
  e_lbeg L c (code et) (Z.of_nat (length l)) ++ enc_elems (inL L c) et l.
Proof.
  cbn [enc]. f_equal. generalize (inL L c).
  induction l; intros; cbn [enc_elems]; [reflexivity|]. f_equal. auto.
Qed.

Lemma enc_set c et l : enc c (TSet et) (VSet l) =
  e_lbeg L c (code et) (Z.of_nat (length l)) ++ enc_elems (inL L c) et l.
Proof.
  cbn [enc]. f_equal. generalize (inL L c).
  induction l; intros; cbn [enc_elems]; [reflexivity|]. f_equal. auto.
Qed.

Lemma enc_map c kt vt l : enc c (TMap kt vt) (VMap l) =
  e_mbeg L c (code kt) (code vt) (Z.of_nat (length l))
  ++ enc_items (inM L c) kt vt l.
Proof.
  cbn [enc]. f_equal. generalize (inM L c).
  induction l as [|[k x] l]; intros; cbn [enc_items]; [reflexivity|].
  do 2 f_equal. auto.
Qed.

Lemma enc_struct c m n fs ds : nth_error env n = Some ds ->
  enc c (TStruct m) (VStruct n fs) = e_sbeg L c ++ enc_fields (inS L c) fs ds.
Proof.
  intros H. cbn [enc]. rewrite H. reflexivity.
Qed.

End Enc.
