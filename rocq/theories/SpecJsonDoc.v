(** JSON documents: the grammar of RFC 8259, a printer, and the documents the
    two JSON protocols are to write. *)
From Coq Require Import ZArith List Bool.
From Coq Require Import Init.Byte.
From Verif Require Import Base Utf8 Proto JsonText SpecJson.
Import ListNotations.
Open Scope Z_scope.

(** A JSON value.  A number is known by its text. *)
Inductive json :=
| JNull
| JBool (b : bool)
| JNum (text : list Z)
| JStr (s : list Z)
| JArr (l : list json)
| JObj (l : list (list Z * json)).

(** * RFC 8259

    Texts are lists of code points. *)

(** Section 2: space, tab, line feed, carriage return. *)
Definition json_ws (l : list Z) : Prop :=
  forall c, In c l -> c = 32 \/ c = 9 \/ c = 10 \/ c = 13.

Definition json_digits (l : list Z) : Prop := l <> [] /\ forall c, In c l -> 48 <= c <= 57.

(** Section 6: [ minus ] int [ frac ] [ exp ]. *)
Definition json_int (l : list Z) : Prop :=
  json_digits l /\ (l = [48] \/ hd 48 l <> 48).
Definition json_frac (l : list Z) : Prop :=
  l = [] \/ exists r, l = 46 :: r /\ json_digits r.
Definition json_exp (l : list Z) : Prop :=
  l = [] \/ exists e s r, l = e :: s ++ r /\ (e = 101 \/ e = 69)
            /\ (s = [] \/ s = [43] \/ s = [45]) /\ json_digits r.
Definition json_number (l : list Z) : Prop :=
  exists m i f e, l = m ++ i ++ f ++ e /\ (m = [] \/ m = [45])
    /\ json_int i /\ json_frac f /\ json_exp e.

(** Sections 3 to 5.  [json_string] is section 7 (SpecJson.v). *)
Inductive json_text : list Z -> json -> Prop :=
| jt_null : json_text [110; 117; 108; 108] JNull
| jt_true : json_text [116; 114; 117; 101] (JBool true)
| jt_false : json_text [102; 97; 108; 115; 101] (JBool false)
| jt_num t : json_number t -> json_text t (JNum t)
| jt_str t s : json_string t s -> json_text t (JStr s)
| jt_arr0 w : json_ws w -> json_text (91 :: w ++ [93]) (JArr [])
| jt_arr t l : json_elems t l -> json_text (91 :: t ++ [93]) (JArr l)
| jt_obj0 w : json_ws w -> json_text (123 :: w ++ [125]) (JObj [])
| jt_obj t l : json_members t l -> json_text (123 :: t ++ [125]) (JObj l)
| jt_ws w w' t j : json_ws w -> json_ws w' -> json_text t j ->
    json_text (w ++ t ++ w') j
with json_elems : list Z -> list json -> Prop :=
| je_one t j : json_text t j -> json_elems t [j]
| je_cons t j u l : json_text t j -> json_elems u l ->
    json_elems (t ++ 44 :: u) (j :: l)
with json_members : list Z -> list (list Z * json) -> Prop :=
| jm_one w k s w' t j : json_ws w -> json_string k s -> json_ws w' ->
    json_text t j -> json_members (w ++ k ++ w' ++ 58 :: t) [(s, j)]
| jm_cons w k s w' t j u l : json_ws w -> json_string k s -> json_ws w' ->
    json_text t j -> json_members u l ->
    json_members (w ++ k ++ w' ++ 58 :: t ++ 44 :: u) ((s, j) :: l).

(** * The documents

    [json_print] is one way of writing a document: no white space, the short
    escapes of [sj_char] and no others. *)
Fixpoint commas (l : list (list Z)) : list Z :=
  match l with
  | [] => []
  | [x] => x
  | x :: r => x ++ 44 :: commas r
  end.

Definition print_string (s : list Z) : list Z := 34 :: flat_map sj_char s ++ [34].

Fixpoint json_print (j : json) : list Z :=
  match j with
  | JNull => [110; 117; 108; 108]
  | JBool true => [116; 114; 117; 101]
  | JBool false => [102; 97; 108; 115; 101]
  | JNum t => t
  | JStr s => print_string s
  | JArr l => 91 :: commas (map json_print l) ++ [93]
  | JObj l => 123 :: commas (map (fun m => print_string (fst m) ++ 58 :: json_print (snd m)) l)
              ++ [125]
  end.

(** In UTF-8. *)
Definition json_bytes (j : json) : list byte :=
  match utf8_encode (json_print j) with Some b => b | None => [] end.

(** The string that stands for a map key.  Keys are never containers (Spec.v,
    [hashable]). *)
Definition key_text (dtext : Z -> list Z) (k : value) : list Z :=
  match k with
  | VBool b => int_text (if b then 1 else 0)
  | VInt z => int_text z
  | VDouble d => dtext d
  | VStr s => s
  | VBin b => b64encode b
  | VUuid u => uuid_text u
  | _ => []
  end.

(** Values other than lists, sets, maps and structs. *)
Definition scalar_doc (dtext : Z -> list Z) (v : value) : json :=
  match v with
  | VBool b => JNum (int_text (if b then 1 else 0))
  | VInt z => JNum (int_text z)
  | VDouble d => JNum (dtext d)
  | VStr s => JStr s
  | VBin b => JStr (b64encode b)
  | VUuid u => JStr (uuid_text u)
  | _ => JNull
  end.

(** TJSONProtocol: see SpecJson.v. *)
Fixpoint tj_doc (env : schema) (t : ty) (v : value) {struct v} : json :=
  match t, v with
  | TList et, VList l | TSet et, VSet l =>
      JArr (JStr (sj_type et) :: JNum (int_text (Z.of_nat (length l)))
            :: map (tj_doc env et) l)
  | TMap kt vt, VMap l =>
      JArr [JStr (sj_type kt); JStr (sj_type vt);
            JNum (int_text (Z.of_nat (length l)));
            JObj (map (fun kv => match kv with
                                 | (k, x) => (key_text dbl_text k, tj_doc env vt x)
                                 end) l)]
  | TStruct _, VStruct n fs =>
      match nth_error env n with
      | None => JNull
      | Some ds =>
          JObj ((fix go fs ds :=
                   match fs, ds with
                   | f :: fs', d :: ds' =>
                       match f with
                       | Some x => [(int_text (f_id d),
                                     JObj [(sj_type (f_ty d), tj_doc env (f_ty d) x)])]
                       | None => []
                       end ++ go fs' ds'
                   | _, _ => []
                   end) fs ds)
      end
  | _, _ => scalar_doc dbl_text v
  end.

(** TSimpleJSONProtocol: a struct is an object from field names to values, a map
    an object, a list or a set an array.  [names n i] is the name of field [i]
    of struct [n]; [dtext] is how a double is written. *)
Fixpoint ss_doc (dtext : Z -> list Z) (names : nat -> nat -> list Z) (env : schema)
    (t : ty) (v : value) {struct v} : json :=
  match t, v with
  | TList et, VList l | TSet et, VSet l => JArr (map (ss_doc dtext names env et) l)
  | TMap kt vt, VMap l =>
      JObj (map (fun kv => match kv with
                           | (k, x) => (key_text dtext k, ss_doc dtext names env vt x)
                           end) l)
  | TStruct _, VStruct n fs =>
      match nth_error env n with
      | None => JNull
      | Some ds =>
          JObj ((fix go i fs ds :=
                   match fs, ds with
                   | f :: fs', d :: ds' =>
                       match f with
                       | Some x => [(names n i, ss_doc dtext names env (f_ty d) x)]
                       | None => []
                       end ++ go (S i) fs' ds'
                   | _, _ => []
                   end) O fs ds)
      end
  | _, _ => scalar_doc dtext v
  end.

(** * Conditions on values *)

(** A character that may stand in a JSON string as [sj_char] writes it. *)
Definition clean_char (c : Z) : bool :=
  (32 <=? c) || existsb (Z.eqb c) [8; 9; 10; 12; 13].
Definition clean_string (s : list Z) : bool := forallb clean_char s.

(** Every string is clean. *)
Fixpoint clean (v : value) : bool :=
  match v with
  | VStr s => clean_string s
  | VList l | VSet l => forallb clean l
  | VMap l => forallb (fun kv => match kv with (k, x) => clean k && clean x end) l
  | VStruct _ fs => forallb (fun f => match f with Some x => clean x | None => true end) fs
  | _ => true
  end.

(** No object has two members of the same name. *)
Fixpoint unique_names (j : json) : Prop :=
  match j with
  | JArr l => fold_right (fun x P => unique_names x /\ P) True l
  | JObj l => NoDup (map fst l) /\ fold_right (fun m P => unique_names (snd m) /\ P) True l
  | _ => True
  end.
