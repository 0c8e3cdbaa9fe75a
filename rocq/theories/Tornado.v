(** The Tornado transport (lib/py/src/TTornado.py): its lock, and readFrame and
    flush on top of it.

    A coroutine runs until it yields a pending future and is resumed by the
    event loop some time after the future is resolved; the order in which the
    loop resumes coroutines, and runs other code in between, is arbitrary. *)
From Coq Require Import ZArith List Bool.
From Coq Require Import Init.Byte.
From Verif Require Import Base Bytes.
Import ListNotations.
Open Scope Z_scope.

Definition upd {A} (f : nat -> A) (i : nat) (a : A) : nat -> A :=
  fun j => if (j =? i)%nat then a else f j.

(** * _Lock (TTornado.py 37-64)

    Futures are numbered in the order of their creation; [resolved f] says that
    set_result was called on [f]. *)
Record lock := mklock { waiters : list nat; resolved : nat -> bool; created : nat }.

Definition new_lock : lock := mklock [] (fun _ => false) 0.

(** acquired (TTornado.py 41-42). *)
Definition acquired (l : lock) : bool := (0 <? length (waiters l))%nat.

Fixpoint last_opt {A} (l : list A) : option A :=
  match l with [] => None | [x] => Some x | _ :: r => last_opt r end.

(** acquire up to its yield (TTornado.py 44-50): the future it waits for, its
    own future, and the lock. *)
Definition acquire (l : lock) : option nat * nat * lock :=
  let blocker := if acquired l then last_opt (waiters l) else None in
  let future := created l in
  (blocker, future, mklock (waiters l ++ [future]) (resolved l) (S (created l))).

(** release (TTornado.py 54-57). *)
Definition release (l : lock) : outcome lock :=
  match waiters l with
  | [] => Raise EAssertion
  | f :: r => Ok (mklock r (upd (resolved l) f true) (created l))
  end.

(** Users of the lock, numbered in the order of their calls of acquire:
    suspended at [yield blocker], inside the [with] block, or past it. *)
Inductive phase := Absent | Waiting (blocker : nat) | Inside | Left.

Record lsys := mkls { the_lock : lock; phases : nat -> phase }.

Definition lstart : lsys := mkls new_lock (fun _ => Absent).

Inductive lev :=
| Acquire              (* some coroutine calls acquire() *)
| Resume (i : nat)     (* the loop resumes user [i] after its blocker *)
| Release (i : nat).   (* user [i] leaves its with block (TTornado.py 59-64) *)

(** None: the event cannot happen in this state, or release() raised. *)
Definition lstep (s : lsys) (e : lev) : option lsys :=
  match e with
  | Acquire =>
      let '(b, f, l) := acquire (the_lock s) in
      Some (mkls l (upd (phases s) f
                     match b with Some b => Waiting b | None => Inside end))
  | Resume i =>
      match phases s i with
      | Waiting b =>
          if resolved (the_lock s) b
          then Some (mkls (the_lock s) (upd (phases s) i Inside)) else None
      | _ => None
      end
  | Release i =>
      match phases s i with
      | Inside =>
          match release (the_lock s) with
          | Ok l => Some (mkls l (upd (phases s) i Left))
          | _ => None
          end
      | _ => None
      end
  end.

Fixpoint lrun (es : list lev) (s : lsys) : option lsys :=
  match es with
  | [] => Some s
  | e :: r => match lstep s e with Some s1 => lrun r s1 | None => None end
  end.

(** * readFrame (TTornado.py 147-157)

    [rest] is what is left of the incoming stream.  A read of the header or of
    the body completes when that many bytes are there, or fails when the stream
    is closed; leaving the with block releases the lock in either case.
    [header i] is the length read by call [i]. *)
Record rsys := mkrs {
  users : lsys; rest : list byte; header : nat -> option Z;
  answer : nat -> option (outcome (list byte)) }.

Definition rstart (stream : list byte) : rsys :=
  mkrs lstart stream (fun _ => None) (fun _ => None).

Inductive rev_ :=
| Call                 (* some coroutine calls readFrame() *)
| Wake (i : nat)
| ReadHeader (i : nat)
| ReadBody (i : nat)
| StreamError (i : nat).

Definition inside (s : rsys) (i : nat) : bool :=
  match phases (users s) i with Inside => true | _ => false end.

Definition rstep (s : rsys) (e : rev_) : option rsys :=
  match e with
  | Call =>
      match lstep (users s) Acquire with
      | Some u => Some (mkrs u (rest s) (header s) (answer s)) | None => None
      end
  | Wake i =>
      match lstep (users s) (Resume i) with
      | Some u => Some (mkrs u (rest s) (header s) (answer s)) | None => None
      end
  | ReadHeader i =>
      match header s i with
      | None =>
          if inside s i && (4 <=? length (rest s))%nat
          then Some (mkrs (users s) (skipn 4 (rest s))
                      (upd (header s) i (Some (unpack_signed 4 (firstn 4 (rest s)))))
                      (answer s))
          else None
      | Some _ => None
      end
  | ReadBody i =>
      match header s i with
      | Some n =>
          if inside s i && (0 <=? n) && (n <=? Z.of_nat (length (rest s)))
          then match lstep (users s) (Release i) with
               | Some u => Some (mkrs u (skipn (Z.to_nat n) (rest s)) (header s)
                             (upd (answer s) i (Some (Ok (firstn (Z.to_nat n) (rest s))))))
               | None => None
               end
          else None
      | None => None
      end
  | StreamError i =>
      if inside s i
      then match lstep (users s) (Release i) with
           | Some u => Some (mkrs u (rest s) (header s)
                         (upd (answer s) i (Some (Raise (ETransport TT_END_OF_FILE)))))
           | None => None
           end
      else None
  end.

Fixpoint rrun (es : list rev_) (s : rsys) : option rsys :=
  match es with
  | [] => Some s
  | e :: r => match rstep s e with Some s1 => rrun r s1 | None => None end
  end.

(** * write and flush (TTornado.py 159-168)

    The transport's buffer and what was handed to stream.write, which accepts
    everything.  struct.error beyond 2^31-1 bytes comes before the reset. *)
Record wtrans := mkwt { wbuf : list byte; sent : list byte }.

Definition twrite (b : list byte) : SM wtrans unit :=
  fun t => (Ok tt, mkwt (wbuf t ++ b) (sent t)).

Definition tflush : SM wtrans unit :=
  fun t =>
    match pack_signed 4 (Z.of_nat (length (wbuf t))) t with
    | (Ok h, _) => (Ok tt, mkwt [] (sent t ++ h ++ wbuf t))
    | (Raise e, _) => (Raise e, t)
    | (Diverge, _) => (Diverge, t)
    end.
