(** TFrozenDict (lib/py/src/Thrift.py 182-199), a subclass of dict.

    The methods inherited from dict are implemented in C and work on the table
    directly, without calling an overridden __setitem__ or __delitem__
    (CPython, Objects/dictobject.c); they are modelled by their documented
    effect.  A dict is its items in insertion order. *)
From Coq Require Import ZArith List Bool.
From Verif Require Import Base.
Import ListNotations.
Open Scope Z_scope.

Section Dict.
Context {K V : Type}.
Variable keq : K -> K -> bool.          (* == on keys *)
Variable ile : K * V -> K * V -> bool.  (* <= on items, used by sorted() *)
Variable hash_items : list (K * V) -> Z.  (* hash of the tuple of items *)
Variable hash_class : Z.                (* hash(TFrozenDict) *)

Definition items := list (K * V).

Fixpoint dget (d : items) (k : K) : option V :=
  match d with
  | [] => None
  | (k', v) :: r => if keq k k' then Some v else dget r k
  end.

(** Insertion keeps the position, and the key object, of an equal key. *)
Fixpoint dput (d : items) (k : K) (v : V) : items :=
  match d with
  | [] => [(k, v)]
  | (k', v') :: r => if keq k k' then (k', v) :: r else (k', v') :: dput r k v
  end.

Fixpoint ddel (d : items) (k : K) : items :=
  match d with
  | [] => []
  | (k', v') :: r => if keq k k' then r else (k', v') :: ddel r k
  end.

Definition dupdate (d : items) (l : items) : items :=
  fold_left (fun d kv => dput d (fst kv) (snd kv)) l d.

(** sorted(): any stable sort, here by insertion. *)
Fixpoint insert (x : K * V) (l : items) : items :=
  match l with
  | [] => [x]
  | y :: r => if ile x y then x :: y :: r else y :: insert x r
  end.

Fixpoint isort (l : items) : items :=
  match l with [] => [] | x :: r => insert x (isort r) end.

(** The object: the table and the attribute __hashval. *)
Record fdict := mkfd { table : items; hashval : Z }.

(** __init__ (Thrift.py 185-190) on the items given.  Items whose comparison
    raises are not modelled. *)
Definition frozen (l : items) : fdict :=
  let d := dupdate [] l in
  mkfd d (Z.lxor hash_class (hash_items (isort d))).

Inductive op :=
| SetItem (k : K) (v : V)      (* d[k] = v *)
| DelItem (k : K)              (* del d[k] *)
| GetItem (k : K)              (* d[k] *)
| Get (k : K)                  (* d.get(k) *)
| Contains (k : K)             (* k in d *)
| Hash                         (* hash(d) *)
| Len                          (* len(d) *)
| Update (l : items)           (* d.update(l), d |= l *)
| SetDefault (k : K) (v : V)   (* d.setdefault(k, v) *)
| Pop (k : K)                  (* d.pop(k) *)
| PopItem                      (* d.popitem() *)
| Clear.                       (* d.clear() *)

Inductive result :=
| RNone | RVal (v : V) | RBool (b : bool) | RInt (z : Z) | RItem (k : K) (v : V).

Definition step (o : op) (d : fdict) : outcome result * fdict :=
  match o with
  | SetItem _ _ => (Raise ETypeError, d)                  (* Thrift.py 192-193 *)
  | DelItem _ => (Raise ETypeError, d)                    (* Thrift.py 195-196 *)
  | GetItem k =>
      (match dget (table d) k with Some v => Ok (RVal v) | None => Raise EKeyError end, d)
  | Get k =>
      (Ok match dget (table d) k with Some v => RVal v | None => RNone end, d)
  | Contains k =>
      (Ok (RBool match dget (table d) k with Some _ => true | None => false end), d)
  | Hash => (Ok (RInt (hashval d)), d)                    (* Thrift.py 198-199 *)
  | Len => (Ok (RInt (Z.of_nat (length (table d)))), d)
  | Update l => (Ok RNone, mkfd (dupdate (table d) l) (hashval d))
  | SetDefault k v =>
      match dget (table d) k with
      | Some v' => (Ok (RVal v'), d)
      | None => (Ok (RVal v), mkfd (dput (table d) k v) (hashval d))
      end
  | Pop k =>
      match dget (table d) k with
      | Some v => (Ok (RVal v), mkfd (ddel (table d) k) (hashval d))
      | None => (Raise EKeyError, d)
      end
  | PopItem =>
      match rev (table d) with
      | [] => (Raise EKeyError, d)
      | (k, v) :: r => (Ok (RItem k v), mkfd (rev r) (hashval d))
      end
  | Clear => (Ok RNone, mkfd [] (hashval d))
  end.

Fixpoint run (os : list op) (d : fdict) : list (outcome result) * fdict :=
  match os with
  | [] => ([], d)
  | o :: r =>
      let '(x, d1) := step o d in
      let '(xs, d2) := run r d1 in
      (x :: xs, d2)
  end.

(** dict.__eq__: the same keys with the same values ([veq] on values). *)
Definition dict_eq (veq : V -> V -> bool) (a b : items) : bool :=
  (length a =? length b)%nat
  && forallb (fun kv => match dget b (fst kv) with
                        | Some v => veq (snd kv) v
                        | None => false
                        end) a.
End Dict.
