(** The JSON encoding of Thrift values, as a layout of JSON texts.  There is no
    published document for it; this is the shape common to the libraries:
    structs are objects of {"type": value} by field id, lists and sets are
    arrays [type, size, element, ...], maps are arrays
    [key type, value type, size, {key: value, ...}], numbers in the position of
    an object key are quoted, binaries are base64 strings. *)
From Coq Require Import ZArith List Bool.
From Coq Require Import Init.Byte.
From Verif Require Import Base Bytes Utf8 Proto JsonText.
Import ListNotations.
Open Scope Z_scope.

(** "t" *)
Definition sj_type (t : ty) : list Z :=
  match t with
  | TBool => [116; 102]                (* tf *)
  | TByte => [105; 56]                 (* i8 *)
  | TI16 => [105; 49; 54]              (* i16 *)
  | TI32 => [105; 51; 50]              (* i32 *)
  | TI64 => [105; 54; 52]              (* i64 *)
  | TDouble => [100; 98; 108]          (* dbl *)
  | TString | TBinary => [115; 116; 114] (* str *)
  | TStruct _ => [114; 101; 99]        (* rec *)
  | TMap _ _ => [109; 97; 112]         (* map *)
  | TSet _ => [115; 101; 116]          (* set *)
  | TList _ => [108; 115; 116]         (* lst *)
  | TUuid => [117; 105; 100]           (* uid *)
  end.

Definition quoted (b : list byte) : list byte := x22 :: b ++ [x22].

(** A character of a string: the two-character escapes, and the others as they
    are. *)
Definition sj_char (c : Z) : list Z :=
  match c with
  | 34 | 92 => [92; c]
  | 8 => [92; 98]
  | 9 => [92; 116]
  | 10 => [92; 110]
  | 12 => [92; 102]
  | 13 => [92; 114]
  | _ => [c]
  end.

Definition sj_string (s : list Z) : list byte :=
  match utf8_encode (flat_map sj_char s) with
  | Some b => quoted b
  | None => []
  end.

(** A number, quoted in the position of a key. *)
Definition sj_num (key : bool) (text : list Z) : list byte :=
  if key then quoted (map z2b text) else map z2b text.

Fixpoint join (l : list (list byte)) : list byte :=
  match l with
  | [] => []
  | [x] => x
  | x :: r => x ++ x2c :: join r
  end.

Definition array (l : list (list byte)) : list byte := x5b :: join l ++ [x5d].
Definition object (l : list (list byte)) : list byte := x7b :: join l ++ [x7d].

Fixpoint sj_value (env : schema) (key : bool) (t : ty) (v : value) {struct v}
  : list byte :=
  match t, v with
  | TBool, VBool b => sj_num key (int_text (if b then 1 else 0))
  | TByte, VInt z | TI16, VInt z | TI32, VInt z | TI64, VInt z =>
      sj_num key (int_text z)
  | TDouble, VDouble d => sj_num key (dbl_text d)
  | TString, VStr s => sj_string s
  | TBinary, VBin b => quoted (map z2b (b64encode b))
  | TUuid, VUuid u => sj_string (uuid_text u)
  | TList et, VList l | TSet et, VSet l =>
      array (sj_string (sj_type et) :: sj_num false (int_text (Z.of_nat (length l)))
             :: map (sj_value env false et) l)
  | TMap kt vt, VMap l =>
      array [sj_string (sj_type kt); sj_string (sj_type vt);
             sj_num false (int_text (Z.of_nat (length l)));
             object (map (fun kv => match kv with
                                    | (k, x) => sj_value env true kt k ++ x3a
                                                :: sj_value env false vt x
                                    end) l)]
  | TStruct _, VStruct n fs =>
      match nth_error env n with
      | None => []
      | Some ds =>
          object
            ((fix go fs ds :=
                match fs, ds with
                | f :: fs', d :: ds' =>
                    match f with
                    | Some x =>
                        [sj_num true (int_text (f_id d)) ++ x3a
                         :: object [sj_string (sj_type (f_ty d)) ++ x3a
                                    :: sj_value env false (f_ty d) x]]
                    | None => []
                    end ++ go fs' ds'
                | _, _ => []
                end) fs ds)
      end
  | _, _ => []
  end.

(** * JSON texts, RFC 8259

    Texts are lists of code points. *)

(** Section 7: a character of a string, and what it stands for.  [lo] is the
    first character that may stand for itself: 32 in the RFC. *)
Definition hex4 (a b c d : Z) : option Z :=
  match hex_digit a, hex_digit b, hex_digit c, hex_digit d with
  | Some x, Some y, Some z, Some w => Some (((x * 16 + y) * 16 + z) * 16 + w)
  | _, _, _, _ => None
  end.

Definition two_char_escapes : list (Z * Z) :=
  [(34, 34); (92, 92); (47, 47); (98, 8); (102, 12); (110, 10); (114, 13); (116, 9)].

Inductive json_char (lo : Z) : list Z -> Z -> Prop :=
| jc_raw c : lo <= c -> c <> 34 -> c <> 92 -> scalar c = true -> json_char lo [c] c
| jc_esc e c : In (e, c) two_char_escapes -> json_char lo [92; e] c
| jc_u a b c d u : hex4 a b c d = Some u -> scalar u = true ->
    json_char lo [92; 117; a; b; c; d] u
| jc_pair a b c d a' b' c' d' h l :
    hex4 a b c d = Some h -> hex4 a' b' c' d' = Some l ->
    55296 <= h <= 56319 -> 56320 <= l <= 57343 ->
    json_char lo [92; 117; a; b; c; d; 92; 117; a'; b'; c'; d']
      (65536 + (h - 55296) * 1024 + (l - 56320)).

Inductive json_chars (lo : Z) : list Z -> list Z -> Prop :=
| jcs_nil : json_chars lo [] []
| jcs_cons t c u s : json_char lo t c -> json_chars lo u s ->
    json_chars lo (t ++ u) (c :: s).

Definition json_string (t s : list Z) : Prop :=
  exists u, json_chars 32 u s /\ t = 34 :: u ++ [34].
