(** What the statements about services assume of names, in terms of the names in
    the IDL only. *)
From Coq Require Import String.
From Coq Require Import ZArith List Bool.
From Verif Require Import Base GenClass Service.
Import ListNotations.
Open Scope string_scope.
Open Scope list_scope.

Definition functions (ch : chain) : list string := map fn_name (concat ch).

(** The parser refuses two functions of the same name in a chain. *)
Definition accepted (ch : chain) : Prop := NoDup (functions ch).

(** No function is called like a keyword that the generator escapes, with an
    underscore behind it, where that keyword is a function too. *)
Definition apart (ch : chain) : Prop :=
  forall n, In n (functions ch) -> In n python_keywords_ -> ~ In (n ++ "_")%string (functions ch).

(** The auxiliary methods of a client. *)
Definition prefixes (fl : flavour) : list string :=
  match fl with
  | Twisted => ["send_"; "recv_"; "cb_send_"; "eb_send_"]
  | _ => ["send_"; "recv_"]
  end.

(** No function is called like an escaped keyword, like an auxiliary method of
    another, or like what the client has anyway. *)
Definition plain_services (fl : flavour) (ch : chain) : Prop :=
  (forall n, In n (functions ch) -> ~ In n python_keywords_)
  /\ (forall n m q, In n (functions ch) -> In m (functions ch) -> In q (prefixes fl) -> n <> (q ++ m)%string)
  /\ (forall n, In n (functions ch) -> ~ In n ("__init__" :: "_start_receiving" :: instance_attrs fl)).

(** The names of parameters that a client uses itself. *)
Definition captured (fl : flavour) (oneway : bool) : list string :=
  "args" :: match fl with
            | Sync => []
            | Twisted => ["oprot"; "seqid"]
            | Tornado => "oprot" :: if oneway then [] else ["future"]
            end.

(** The names of the module that a client reads where parameters may hide
    them. *)
Definition client_globals (fl : flavour) (f : fn) : list string :=
  "TMessageType" :: (fn_name f ++ "_args")%string
  :: match fl with
     | Sync => []
     | Twisted => ["defer"]
     | Tornado => if fn_oneway f then [] else ["concurrent"]
     end.

(** The names of exceptions that process_<fn> uses itself when the exception has
    been caught. *)
Definition used_after : list string := ["oprot"; "msg_type"; "seqid"; "result"].

(** The names of the module that process_<fn> reads where exceptions may hide
    them. *)
Definition process_globals (class_of : nat -> string) (f : fn) : list string :=
  ["TMessageType"; "TTransport"; "TApplicationException"; "Exception"; "logging"; "gen";
   fn_name f ++ "_args"; fn_name f ++ "_result"]%string
  ++ map (fun x => class_of (snd x)) (fn_xs f).
