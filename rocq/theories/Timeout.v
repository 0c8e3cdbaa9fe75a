(** The time-out of a TSocket (lib/py/src/transport/TSocket.py 45-180): setTimeout,
    setHandle, open, close, isOpen and read, one after the other and from several
    threads.  No proofs here.

    Simplifications: times are whole milliseconds (ms / 1000.0 is rounded there);
    a call of a socket method is one step, together with looking up [self.handle]
    (for gettimeout, with the test for None before it), and so is [close]; which
    address [open] connects to is C48; the branch of [read] for darwin and freebsd is left out. *)
From Coq Require Import ZArith List Bool.
Import ListNotations.
Open Scope Z_scope.

(** None: blocking; [Some 0]: non-blocking. *)
Definition tmo := option Z.

(** [self._timeout]; the time-out of [self.handle], None without a handle. *)
Record tsock := mkts { t_own : tmo; t_handle : option tmo }.
(** __init__, 54-72 *)
Definition ts_init : tsock := mkts None None.

Definition with_handle (h : option tmo) (s : tsock) : tsock := mkts (t_own s) h.

(** What [recv(1, MSG_PEEK)] does on a non-blocking socket: a byte, the end of
    the stream, EAGAIN or EWOULDBLOCK, another error, ValueError. *)
Inductive peek := PByte | PEof | PBlock | PErr | PFlags.

(** 91-101: does [isOpen] return True from the inner statement? *)
Definition alive (p : peek) : bool :=
  match p with PByte | PBlock | PFlags => true | PEof | PErr => false end.

(** isOpen, 77-109 *)
Definition is_open (p : peek) (s : tsock) : bool * tsock :=
  match t_handle s with
  | None => (false, s)
  | Some original =>
      let s1 := with_handle (Some (Some 0)) s in
      let s2 := with_handle (Some original) s1 in
      if alive p then (true, s2) else (false, with_handle None s2)
  end.

(** What one thread does to the object.  [TOpen b]: [open] (127-157), [b]:
    whether some address accepts. *)
Inductive op :=
| TSet (t : tmo) | TOpen (b : bool) | TClose | THandle (t : tmo) | TIsOpen (p : peek).
Definition do_op (o : op) (s : tsock) : tsock :=
  match o with
  | TSet t => mkts t (match t_handle s with Some _ => Some t | None => None end)  (* 111-118 *)
  | TOpen b =>
      match t_handle s with
      | Some _ => s                                            (* ALREADY_OPEN *)
      | None => if b then with_handle (Some (t_own s)) s else s
      end
  | TClose => with_handle None s                               (* 45-48 *)
  | THandle t => with_handle (Some t) s                        (* 74-75 *)
  | TIsOpen p => snd (is_open p s)
  end.
Definition do_ops (l : list op) (s : tsock) : tsock := fold_left (fun s o => do_op o s) l s.

(** read, 159-180.  [arrives]: after how long there is something to receive, if
    ever; [eof]: whether that is the end of the stream. *)
Inductive rres := RData | REof | RTimedOut | RUnknown | RForever | RAttributeError.
Definition read (arrives : option Z) (eof : bool) (s : tsock) : rres :=
  let got := if eof then REof else RData in
  match t_handle s with
  | None => RAttributeError
  | Some None => match arrives with Some _ => got | None => RForever end
  | Some (Some t) =>
      match arrives with
      | Some a => if a <=? t then got else if t =? 0 then RUnknown else RTimedOut
      | None => if t =? 0 then RUnknown else RTimedOut
      end
  end.

(** [isOpen] in a thread of its own: not begun; after [gettimeout]; after
    [settimeout(0)]; after [recv], with what it found; after the [finally], about
    to close; over, with the result; left by AttributeError on None. *)
Inductive pc :=
| CStart | CGot (t : tmo) | CPeek (t : tmo) | CBack (t : tmo) (p : peek) | CShut
| COver (b : bool) | CFail.

Definition thread_step (p : peek) (c : pc) (s : tsock) : option (pc * tsock) :=
  match c with
  | CStart => Some (match t_handle s with Some t => CGot t | None => COver false end, s)
  | CGot t => Some (match t_handle s with
                    | Some _ => (CPeek t, with_handle (Some (Some 0)) s)
                    | None => (CFail, s)
                    end)
  | CPeek t => Some (match t_handle s with Some _ => (CBack t p, s) | None => (CFail, s) end)
  | CBack t q => Some (match t_handle s with
                       | Some _ => (if alive q then COver true else CShut,
                                    with_handle (Some t) s)
                       | None => (CFail, s)
                       end)
  | CShut => Some (COver false, with_handle None s)
  | COver _ | CFail => None
  end.

Fixpoint set_pc (i : nat) (c : pc) (l : list pc) : list pc :=
  match l, i with
  | [], _ => []
  | _ :: r, O => c :: r
  | x :: r, S j => x :: set_pc j c r
  end.

(** A schedule: which thread moves, and what its [recv] would find. *)
Fixpoint threads (l : list (nat * peek)) (cs : list pc) (s : tsock) : option (list pc * tsock) :=
  match l with
  | [] => Some (cs, s)
  | (i, p) :: r =>
      match nth_error cs i with
      | Some c =>
          match thread_step p c s with
          | Some (c', s') => threads r (set_pc i c' cs) s'
          | None => None
          end
      | None => None
      end
  end.
