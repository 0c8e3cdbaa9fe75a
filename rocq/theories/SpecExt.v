(** What the accelerated decoder must be able to skip.  Nothing here mentions
    how it works. *)
From Coq Require Import ZArith List Bool.
From Coq Require Import Init.Byte.
From Verif Require Import Base Bytes Utf8 Proto Spec.
Import ListNotations.
Open Scope Z_scope.

(** Every value the reader does not know stays, together with the structs
    around it, within [k] levels of nesting. *)
Fixpoint drop_within (envW envR : schema) (k : nat) (tW tR : ty) (v : value)
  {struct v} : bool :=
  match tW, tR, v with
  | TList a, TList b, VList l => forallb (drop_within envW envR k a b) l
  | TMap _ va, TMap _ vb, VMap l =>
      forallb (fun kv => match kv with
                         | (_, x) => drop_within envW envR k va vb x
                         end) l
  | TStruct _, TStruct m, VStruct n fs =>
      match nth_error envW n, nth_error envR m with
      | Some dsW, Some dsR =>
          (fix go fs ds :=
             match fs, ds with
             | f :: fs', d :: ds' =>
                 match f with
                 | Some x =>
                     match find (fun dR => (f_id d =? f_id dR)
                                  && (code (f_ty d) =? code (f_ty dR))) dsR with
                     | Some dR =>
                         drop_within envW envR (pred k) (f_ty d) (f_ty dR) x
                     | None => (vdepth x <=? pred k)%nat
                     end
                 | None => true
                 end && go fs' ds'
             | _, _ => true
             end) fs dsW
      | _, _ => true
      end
  | _, _, _ => true
  end.

(** The largest length a configured limit lets through: lengths are 32-bit
    signed, and a limit that is no C long counts as absent. *)
Definition accel_bound (o : option Z) : Z :=
  match o with
  | Some l =>
      if (- 2 ^ 63 <=? l) && (l <? 2 ^ 63) then Z.min l (2 ^ 31 - 1) else 2 ^ 31 - 1
  | None => 2 ^ 31 - 1
  end.
