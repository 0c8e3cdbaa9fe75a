(** The Twisted client: lib/py/src/transport/TTwisted.py (ThriftClientProtocol)
    and the client methods generated for it (t_py_generator.cc 1548-1757,
    [gen_twisted_] branches).  No proofs here.

    Requests are known by their Deferred, numbered in order of creation;
    [_reqs] maps sequence ids to Deferreds.  Firing a Deferred runs the user's
    callbacks at once, and these may call the client again: [user d f] lists the
    calls they make when Deferred [d] fires with [f].  Cancelling a Deferred is
    not modelled. *)
From Coq Require Import ZArith List Bool.
From Coq Require Import Init.Byte.
From Verif Require Import Base Bytes Proto Rpc.
Import ListNotations.
Open Scope Z_scope.
Open Scope list_scope.

(** What a Deferred fires with. *)
Inductive firing :=
| FReply (rseqid : Z) (r : cresult)  (* callback or errback from recv_<fn> *)
| FSent                              (* callback(None) of a one-way call *)
| FSendError                         (* errback from eb_send_<fn> *)
| FLost.                             (* TTransportException END_OF_FILE *)

(** A call: whether the method is one-way, and whether send_<fn> returns. *)
Record ccall := mkcall { k_oneway : bool; k_sent : bool }.

(** A frame, as stringReceived finds it. *)
Inductive reply :=
| RBadHeader                         (* readMessageBegin raises *)
| RNoMethod (rseqid : Z)             (* the client has no recv_<fname> *)
| RBadBody (rseqid : Z)              (* reading the result raises *)
| RGood (rseqid : Z) (r : cresult).

(** What happened, in order. *)
Inductive clog :=
| LIssue (q : Z) (d : nat)           (* request created *)
| LFire (d : nat) (f : firing)
| LRefused                           (* the call itself raised: no _reqs any more *)
| LRaised.                           (* stringReceived raised *)

(** Things to do, first first: calls, frames received, the turns of the loop in
    connectionLost. *)
Inductive work := WCall (c : ccall) | WFrame (r : reply) | WLost.

(** [c_seq]: self._seqid; [c_next]: Deferreds made so far; [c_reqs]: _reqs in
    insertion order; [c_alive]: the protocol's client is set and has _reqs. *)
Record client := mkclient {
  c_seq : Z; c_next : nat; c_reqs : list (Z * nat); c_alive : bool; c_log : list clog }.

Definition client0 : client := mkclient 0 0 [] true [].

(** [dict.pop(key)] *)
Fixpoint pop (q : Z) (l : list (Z * nat)) : option (nat * list (Z * nat)) :=
  match l with
  | [] => None
  | (k, d) :: r =>
      if k =? q then Some (d, r)
      else match pop q r with Some (e, r') => Some (e, (k, d) :: r') | None => None end
  end.

(** [dict.popitem()]: the item inserted last. *)
Definition popitem (l : list (Z * nat)) : option (nat * list (Z * nat)) :=
  match rev l with [] => None | (_, d) :: r => Some (d, rev r) end.

(** [dict[key] = d] *)
Definition put (q : Z) (d : nat) (l : list (Z * nat)) : list (Z * nat) :=
  if existsb (fun e => fst e =? q) l
  then map (fun e => if fst e =? q then (q, d) else e) l
  else l ++ [(q, d)].

Section Machine.
Variable user : nat -> firing -> list ccall.

Definition logc (e : clog) (s : client) : client :=
  mkclient (c_seq s) (c_next s) (c_reqs s) (c_alive s) (c_log s ++ [e]).
Definition set_reqs (l : list (Z * nat)) (s : client) : client :=
  mkclient (c_seq s) (c_next s) l (c_alive s) (c_log s).

(** [d.callback(..)] or [d.errback(..)]: the new state, and the calls the user's
    callbacks make. *)
Definition fire (d : nat) (f : firing) (s : client) : list work * client :=
  (map WCall (user d f), logc (LFire d f) s).

(** <fn>(args) (t_py_generator.cc 1548-1560, 1591-1628): maybeDeferred calls
    send_<fn> at once, and cb_send_<fn> or eb_send_<fn> with its outcome. *)
Definition do_call (c : ccall) (s : client) : list work * client :=
  if c_alive s then
    let q := c_seq s + 1 in
    let d := c_next s in
    let s1 := mkclient q (S d) (put q d (c_reqs s)) true (c_log s ++ [LIssue q d]) in
    if k_sent c && negb (k_oneway c) then ([], s1)
    else match pop q (c_reqs s1) with
         | Some (e, r) => fire e (if k_sent c then FSent else FSendError) (set_reqs r s1)
         | None => ([], s1)
         end
  else ([], logc LRefused s).

(** stringReceived (TTwisted.py 98-109) and recv_<fn> (t_py_generator.cc
    1666-1752, Twisted): the request is taken out of _reqs before the result is
    read. *)
Definition do_frame (r : reply) (s : client) : list work * client :=
  if c_alive s then
    match r with
    | RBadHeader | RNoMethod _ => ([], logc LRaised s)
    | RBadBody q =>
        match pop q (c_reqs s) with
        | Some (_, l) => ([], logc LRaised (set_reqs l s))
        | None => ([], logc LRaised s)
        end
    | RGood q v =>
        match pop q (c_reqs s) with
        | Some (d, l) => fire d (FReply q v) (set_reqs l s)
        | None => ([], logc LRaised s)
        end
    end
  else ([], logc LRaised s).

(** One turn of connectionLost (TTwisted.py 84-96): fail a request and come back,
    or delete _reqs when there is none. *)
Definition do_lost (s : client) : list work * client :=
  if c_alive s then
    match popitem (c_reqs s) with
    | Some (d, l) => let '(w, s') := fire d FLost (set_reqs l s) in (w ++ [WLost], s')
    | None => ([], mkclient (c_seq s) (c_next s) [] false (c_log s))
    end
  else ([], s).

Definition step (w : work) (s : client) : list work * client :=
  match w with
  | WCall c => do_call c s
  | WFrame r => do_frame r s
  | WLost => do_lost s
  end.

(** [fuel] steps; what remains to be done, if anything. *)
Fixpoint run (fuel : nat) (ws : list work) (s : client) : list work * client :=
  match fuel, ws with
  | O, _ => (ws, s)
  | _, [] => ([], s)
  | S n, w :: r => let '(ws', s') := step w s in run n (ws' ++ r) s'
  end.
End Machine.

(** * Frames *)
Section Frames.
Context {X : Type}.
Variable P : proto X.
Variable env : schema.

(** stringReceived and recv_<fn> on the bytes of a frame; [ms] are the methods
    of the client with a recv_ function. *)
Definition decode (F : nat) (ms : list method) (x0 : X) (frame : list byte) : reply :=
  match readMessageBegin P (mkst x0 frame [] 0) with
  | (Ok (fname, mtype, q), s) =>
      match lookup fname (filter (fun m => negb (m_oneway m)) ms) with
      | None => RNoMethod q
      | Some m =>
          if mtype =? EXCEPTION then
            match (x <- read_struct P app_env DFUEL F O ;;
                   readMessageEnd P ;;; ret x)%monad s with
            | (Ok x, _) =>
                RGood q match attrs x with
                        | [msg; type] => CApp type msg
                        | _ => CApp None None
                        end
            | _ => RBadBody q
            end
          else
            match (x <- read_struct P env DFUEL F (m_result m) ;;
                   readMessageEnd P ;;; ret x)%monad s with
            | (Ok x, _) => RGood q (result_of m x)
            | _ => RBadBody q
            end
      end
  | _ => RBadHeader
  end.
End Frames.
