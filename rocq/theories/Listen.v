(** TServerSocket (lib/py/src/transport/TSocket.py 203-256): which address it
    listens on, and what listen does to a Unix socket path that others use too.
    No proofs here. *)
From Coq Require Import ZArith List Bool.
From Verif Require Import Base.
Import ListNotations.
Open Scope Z_scope.
Open Scope list_scope.

(** * The address *)

(** An address family: a member of socket.AddressFamily, or a plain int.
    [a == b] compares the numbers; [a is b] holds of the same member only. *)
Inductive afam := AMember (n : Z) | AInt (n : Z).
Definition afam_num (a : afam) : Z := match a with AMember n => n | AInt n => n end.
Definition afam_is (a b : afam) : bool :=
  match a, b with AMember n, AMember m => n =? m | _, _ => false end.

Definition AF_UNSPEC := 0.
Definition AF_INET := 2.
Definition AF_INET6 := 10.

(** 224: [self._socket_family == AF_UNSPEC and AF_INET6 or self._socket_family] *)
Definition preferred (a : afam) : afam :=
  if afam_num a =? AF_UNSPEC then AMember AF_INET6 else a.

(** 225-227: the loop breaks at an address of that family or at the last.  None:
    there is no address, and [res] is not bound. *)
Fixpoint choose {A} (f : afam) (l : list (afam * A)) : option (afam * A) :=
  match l with
  | [] => None
  | x :: r =>
      match r with
      | [] => Some x
      | _ => if afam_is (fst x) f then Some x else choose f r
      end
  end.

(** * The kernel, as far as it concerns one path

    A path may be that of a socket, or of something else.  Linux: connecting to
    a socket that nobody listens on, and connecting to what is no socket, is
    refused. *)
Inductive file := FNone | FOther | FSock (i : nat).
Inductive sock := SFresh | SBound | SListen (backlog : Z) | SClosed.

Record kern := mkkern { k_file : file; k_socks : list sock }.

Fixpoint upd {A} (l : list A) (i : nat) (x : A) : list A :=
  match l, i with
  | [], _ => []
  | _ :: r, O => x :: r
  | y :: r, S j => y :: upd r j x
  end.

Definition new_sock (k : kern) : kern := mkkern (k_file k) (k_socks k ++ [SFresh]).
Definition set_sock (i : nat) (x : sock) (k : kern) : kern := mkkern (k_file k) (upd (k_socks k) i x).
Definition close_sock (i : nat) : kern -> kern := set_sock i SClosed.
Definition set_file (f : file) (k : kern) : kern := mkkern f (k_socks k).

(** An error of a call: [OSError(errno, message)], or one without these two
    arguments (a path that is too long). *)
Inductive oerr := Errno (n : Z) | NoErrno.
Definition ENOENT := 2.
Definition ECONNREFUSED := 111.

(** [connect] on the path. *)
Definition connect (k : kern) : option oerr :=
  match k_file k with
  | FNone => Some (Errno ENOENT)
  | FOther => Some (Errno ECONNREFUSED)
  | FSock i =>
      match nth_error (k_socks k) i with
      | Some (SListen _) => None
      | _ => Some (Errno ECONNREFUSED)
      end
  end.

(** * One TServerSocket

    Where its thread is in listen (222-250): before each call to the kernel.
    [t]: the socket [tmp], [s]: the new handle. *)
Inductive place :=
| AIdle
| ATmp                        (* socket.socket, 232 *)
| AConnect (t : nat)          (* tmp.connect, 234 *)
| AUnlink (t : nat)           (* os.unlink, 238 *)
| ACreate (t : nat)           (* socket.socket, 240 *)
| ASet (t s : nat)            (* setsockopt and settimeout, 245-248 *)
| ABind (t s : nat)           (* 249 *)
| AListen (t s : nat).        (* 250 *)

Record srv := mksrv {
  v_handle : option nat;          (* self.handle *)
  v_backlog : Z;
  v_at : place;
  v_done : option (outcome unit)  (* how the last call of listen ended *) }.

Definition go (p : place) (v : srv) : srv := mksrv (v_handle v) (v_backlog v) p None.

(** listen returns or raises: [tmp] is forgotten, and so closed (CPython). *)
Definition finish (t : nat) (r : outcome unit) (k : kern) (v : srv) : kern * srv :=
  (close_sock t k, mksrv (v_handle v) (v_backlog v) AIdle (Some r)).

Definition close_opt (h : option nat) (k : kern) : kern :=
  match h with Some i => close_sock i k | None => k end.

(** One call to the kernel; [inj]: it fails with this, for a reason of its own. *)
Definition step (inj : option oerr) (k : kern) (v : srv) : kern * srv :=
  let fresh := length (k_socks k) in
  match v_at v with
  | AIdle => (k, v)
  | ATmp =>
      match inj with
      | Some _ => (k, mksrv (v_handle v) (v_backlog v) AIdle (Some (Raise EOSError)))
      | None => (new_sock k, go (AConnect fresh) v)
      end
  | AConnect t =>
      match (match inj with Some e => Some e | None => connect k end) with
      | None => (k, go (ACreate t) v)
      | Some (Errno n) => (k, go (if n =? ECONNREFUSED then AUnlink t else ACreate t) v)
      | Some NoErrno => finish t (Raise EValueError) k v   (* eno, message = err.args *)
      end
  | AUnlink t =>
      match inj, k_file k with
      | None, (FOther | FSock _) => (set_file FNone k, go (ACreate t) v)
      | _, _ => finish t (Raise EOSError) k v
      end
  | ACreate t =>
      match inj with
      | Some _ => finish t (Raise EOSError) k v
      | None =>
          (* self.handle = s: the handle before is forgotten, and so closed *)
          (close_opt (v_handle v) (new_sock k), mksrv (Some fresh) (v_backlog v) (ASet t fresh) None)
      end
  | ASet t s =>
      match inj with
      | Some _ => finish t (Raise EOSError) k v
      | None => (k, go (ABind t s) v)
      end
  | ABind t s =>
      match inj, k_file k with
      | None, FNone => (set_file (FSock s) (set_sock s SBound k), go (AListen t s) v)
      | _, _ => finish t (Raise EOSError) k v
      end
  | AListen t s =>
      match inj with
      | Some _ => finish t (Raise EOSError) k v
      | None => finish t (Ok tt) (set_sock s (SListen (v_backlog v)) k) v
      end
  end.

(** close (45-48); the path stays. *)
Definition close (k : kern) (v : srv) : kern * srv :=
  (close_opt (v_handle v) k, mksrv None (v_backlog v) (v_at v) (v_done v)).

(** setBacklog (214-220) *)
Definition setBacklog (n : Z) (v : srv) : srv :=
  match v_handle v with
  | None => mksrv None n (v_at v) (v_done v)
  | Some _ => v
  end.

(** accept (252-256): the TSocket returned has the new connection as its handle,
    and otherwise what TSocket() has; [conn]: what the kernel returns. *)
Definition accept (k : kern) (v : srv) (conn : nat) : outcome nat :=
  match v_handle v with
  | None => Raise EAttributeError
  | Some i =>
      match nth_error (k_socks k) i with
      | Some (SListen _) => Ok conn
      | _ => Raise EOSError
      end
  end.

(** * Several servers on the same path *)

Definition sys := (kern * (nat -> srv))%type.
Definition put (j : nat) (v : srv) (w : nat -> srv) : nat -> srv := fun i => if Nat.eqb i j then v else w i.

(** A call of listen or close (by one thread); a call to the kernel from listen;
    the end of the process, and a new process in its place. *)
Inductive event :=
| Call (j : nat)
| Step (j : nat) (inj : option oerr)
| Close (j : nat)
| Kill (j : nat).

(** The sockets of a process. *)
Definition owned (v : srv) : list nat :=
  match v_handle v with Some h => [h] | None => [] end
  ++ match v_at v with
     | AConnect t | AUnlink t | ACreate t => [t]
     | ASet t s | ABind t s | AListen t s => [t; s]
     | _ => []
     end.

Definition happen (e : event) (y : sys) : sys :=
  let (k, w) := y in
  match e with
  | Call j => match v_at (w j) with AIdle => (k, put j (go ATmp (w j)) w) | _ => y end
  | Step j inj => let (k', v') := step inj k (w j) in (k', put j v' w)
  | Close j => match v_at (w j) with AIdle => let (k', v') := close k (w j) in (k', put j v' w) | _ => y end
  | Kill j => (fold_right close_sock k (owned (w j)), put j (mksrv None 128 AIdle None) w)
  end.

Definition happens (es : list event) (y : sys) : sys := fold_left (fun y e => happen e y) es y.

(** A server alone, nothing failing for reasons of its own. *)
Fixpoint alone (n : nat) (k : kern) (v : srv) : kern * srv :=
  match n with
  | O => (k, v)
  | S m => let (k', v') := step None k v in alone m k' v'
  end.
