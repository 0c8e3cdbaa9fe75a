(** TNonblockingServer (lib/py/src/server/TNonblockingServer.py) as threads: the
    main thread in [serve], the workers, and whoever calls [stop] and [close].
    Nonblocking.v has the bytes; here a connection is its status and the number
    of complete messages waiting in it, and every step of every thread that can
    be seen by another one is a step of its own.  No proofs here.

    Left out: [_select], used where there is no poll (the two differ in what
    they register only); exceptions out of [accept]; a frame with a negative
    length behind complete ones in one read, and the other ways of leaving
    [handle] by an exception that are in Nonblocking.v. *)
From Coq Require Import ZArith List Bool.
From Verif Require Import Nonblocking.
Import ListNotations.
Open Scope Z_scope.

(** Entries of the task queue: a request of the connection with that
    descriptor (394-395), or what [close] puts there (404). *)
Inductive task := Req (fd : Z) | Quit.

(** Worker.run (52-63): in [queue.get]; processing a request; in [wake_up], with
    the lock of the connection held (183-209); the same, but the connection is
    no longer in [clients]; ended. *)
Inductive worker := WIdle | WRun (fd : Z) | WWake (fd : Z) | WFree | WEnd.

(** [status], [len(received)], [remaining]. *)
Record qconn := mkq { q_status : nstatus; q_received : nat; q_rem : bool }.

(** What [read] gets (132-169): [S n] complete messages, and whether the last
    [recv] filled the buffer; part of a message, leaving WAIT_LEN or
    WAIT_MESSAGE; the end of the stream or an error. *)
Inductive rd := RMsgs (n : nat) (more : bool) | RPart (in_body : bool) | RGone.
(** What [write] does (171-181): all sent, part of it sent, an error. *)
Inductive wr := WAll | WPart | WGone.

(** The entries of rset, wset and xset (369-399).  [ERem]: those returned when
    nothing was polled (342-343). *)
Inductive entry :=
| EWake | EAccept | ERead (fd : Z) (r : rd) | ERem (fd : Z) | EWrite (fd : Z) (w : wr)
| EErr (fd : Z).

(** Where the main thread is: outside [serve]; in [serve] before [prepare]
    (413-414); at the test of the loop (415); in the loop of [_poll_select]
    (329-341), with the descriptors still to be looked at, those found to have
    something left, and those registered (true: for writing); in [poll.poll()]
    (348); in the loops of [handle] (369-399); left by an exception. *)
Inductive mpos :=
| MOut | MStart | MCheck
| MScan (l : list Z) (rem : list Z) (reg : list (Z * bool))
| MPoll (reg : list (Z * bool))
| MServe (l : list entry)
| MDead.

(** The server.  [pipe] counts the bytes in the socket pair; [stoppers] the
    calls of [stop] between their two statements (300-301); [handed] and
    [taken] are not in the code: the requests put on the queue and taken from
    it. *)
Record nb := mknb {
  m_pos : mpos;
  m_stop : bool;
  m_prepared : bool;
  m_threads : nat;
  m_clients : list (Z * qconn);
  m_tasks : list task;
  m_workers : list worker;
  m_pipe : nat;
  m_stoppers : nat;
  m_handed : list Z;
  m_taken : list Z }.

(** __init__, 240-256 *)
Definition nb_init (threads : nat) : nb :=
  mknb MOut false false threads [] [] [] 0 0 [] [].

Fixpoint get {A} (fd : Z) (l : list (Z * A)) : option A :=
  match l with
  | [] => None
  | (k, x) :: r => if k =? fd then Some x else get fd r
  end.
Fixpoint put {A} (fd : Z) (c : A) (l : list (Z * A)) : list (Z * A) :=
  match l with
  | [] => [(fd, c)]
  | (k, x) :: r => if k =? fd then (fd, c) :: r else (k, x) :: put fd c r
  end.
Definition del {A} (fd : Z) (l : list (Z * A)) : list (Z * A) :=
  filter (fun p => negb (fst p =? fd)) l.

Definition q_readable (c : qconn) : bool :=
  match q_status c with WAIT_LEN | WAIT_MESSAGE => true | _ => false end.
Definition q_writeable (c : qconn) : bool :=
  match q_status c with SEND_ANSWER => true | _ => false end.
Definition q_closed (c : qconn) : bool :=
  match q_status c with CLOSED => true | _ => false end.

(** Nobody holds the lock of the connection.  (The main thread takes it three
    times per connection, which is one step here.) *)
Definition lock_free (fd : Z) (ws : list worker) : bool :=
  forallb (fun w => match w with WWake f => negb (f =? fd) | _ => true end) ws.

Definition at_pos (p : mpos) (s : nb) : nb :=
  mknb p (m_stop s) (m_prepared s) (m_threads s) (m_clients s) (m_tasks s)
    (m_workers s) (m_pipe s) (m_stoppers s) (m_handed s) (m_taken s).
Definition with_clients (l : list (Z * qconn)) (s : nb) : nb :=
  mknb (m_pos s) (m_stop s) (m_prepared s) (m_threads s) l (m_tasks s)
    (m_workers s) (m_pipe s) (m_stoppers s) (m_handed s) (m_taken s).
Definition with_workers (l : list worker) (s : nb) : nb :=
  mknb (m_pos s) (m_stop s) (m_prepared s) (m_threads s) (m_clients s) (m_tasks s)
    l (m_pipe s) (m_stoppers s) (m_handed s) (m_taken s).
Definition with_pipe (n : nat) (s : nb) : nb :=
  mknb (m_pos s) (m_stop s) (m_prepared s) (m_threads s) (m_clients s) (m_tasks s)
    (m_workers s) n (m_stoppers s) (m_handed s) (m_taken s).

(** A connection replaced in [clients] by a new one with its descriptor (380):
    the lock its worker may still hold is not that of the new one. *)
Definition forget (fd : Z) (w : worker) : worker :=
  match w with WWake f => if f =? fd then WFree else w | _ => w end.

(** 385-395: [n] messages are left in the connection. *)
Definition hand (fd : Z) (n : nat) (rem : bool) (s : nb) : nb :=
  mknb (m_pos s) (m_stop s) (m_prepared s) (m_threads s)
    (put fd (mkq WAIT_PROCESS n rem) (m_clients s)) (m_tasks s ++ [Req fd])
    (m_workers s) (m_pipe s) (m_stoppers s) (m_handed s ++ [fd]) (m_taken s).

(** One entry of the lists (369-399).  [a]: the descriptor of the connection
    accepted, if any.  None: an exception (KeyError at [self.clients[...]], or
    an assertion of [read] or [write]). *)
Definition serve_entry (a : option Z) (e : entry) (s : nb) : option nb :=
  match e with
  | EWake => Some (with_pipe (m_pipe s - 1024) s)
  | EAccept =>
      Some (match a with
            | Some fd => with_workers (map (forget fd) (m_workers s))
                (with_clients (put fd (mkq WAIT_LEN 0 false) (m_clients s)) s)
            | None => s
            end)
  | ERead fd r =>
      match get fd (m_clients s) with
      | Some c =>
          if q_readable c && Nat.eqb (q_received c) 0 then
            Some (match r with
                  | RMsgs n more => hand fd n more s
                  | RPart b => with_clients (put fd
                      (mkq (if b then WAIT_MESSAGE else WAIT_LEN) 0 false) (m_clients s)) s
                  | RGone => with_clients (put fd (mkq CLOSED 0 (q_rem c)) (m_clients s)) s
                  end)
          else None
      | None => None
      end
  | ERem fd =>
      match get fd (m_clients s) with
      | Some c => Some (match q_received c with
                        | O => s
                        | S n => hand fd n (q_rem c) s
                        end)
      | None => None
      end
  | EWrite fd w =>
      match get fd (m_clients s) with
      | Some c =>
          if q_writeable c then
            Some (with_clients (put fd
                    (mkq (match w with WAll => WAIT_LEN | WPart => SEND_ANSWER
                          | WGone => CLOSED end) (q_received c) (q_rem c))
                    (m_clients s)) s)
          else None
      | None => None
      end
  | EErr fd =>
      match get fd (m_clients s) with
      | Some c => Some (with_clients (put fd (mkq CLOSED (q_received c) (q_rem c))
                                        (m_clients s)) s)
      | None => None
      end
  end.

(** A descriptor the kernel may give to a new connection. *)
Definition unused (fd : Z) (l : list (Z * qconn)) : bool :=
  match get fd l with Some c => q_closed c | None => true end.

Definition fd_of (e : entry) : list Z :=
  match e with
  | EWake | EAccept => []
  | ERead fd _ | ERem fd | EWrite fd _ | EErr fd => [fd]
  end.

Fixpoint distinct (l : list Z) : bool :=
  match l with
  | [] => true
  | x :: r => negb (existsb (Z.eqb x) r) && distinct r
  end.

(** What [poll] may return (348-360): at least one descriptor, each connection
    once and if registered, the wake-up socket only with something in it. *)
Definition reported (reg : list (Z * bool)) (pipe : nat) (es : list entry) : bool :=
  negb (match es with [] => true | _ => false end)
  && distinct (flat_map fd_of es)
  && forallb (fun e => match e with
       | EWake => (0 <? pipe)%nat
       | EAccept => true
       | ERead fd _ => match get fd reg with Some false => true | _ => false end
       | EWrite fd _ => match get fd reg with Some true => true | _ => false end
       | EErr fd => match get fd reg with Some _ => true | None => false end
       | ERem _ => false
       end) es.

(** A step of the main thread inside [serve], other than waiting in [poll]. *)
Definition main_step (a : option Z) (s : nb) : option nb :=
  match m_pos s with
  | MOut | MPoll _ | MDead => None
  (* prepare, 264-273 *)
  | MStart =>
      Some (mknb MCheck (m_stop s) true (m_threads s) (m_clients s) (m_tasks s)
              (m_workers s ++ (if m_prepared s then [] else repeat WIdle (m_threads s)))
              (m_pipe s) (m_stoppers s) (m_handed s) (m_taken s))
  | MCheck => Some (at_pos (if m_stop s then MOut
                            else MScan (map fst (m_clients s)) [] []) s)
  | MScan (fd :: l) rem reg =>
      match get fd (m_clients s) with
      | None => Some (at_pos (MScan l rem reg) s)
      | Some c =>
          if lock_free fd (m_workers s) then
            let left := q_readable c && (q_rem c || negb (Nat.eqb (q_received c) 0)) in
            let active := q_readable c || q_writeable c in
            Some (at_pos (MScan l (if left then rem ++ [fd] else rem)
                            (if active then reg ++ [(fd, q_writeable c)] else reg))
                    (if q_closed c then with_clients (del fd (m_clients s)) s else s))
          else None
      end
  | MScan [] [] reg => Some (at_pos (MPoll reg) s)
  | MScan [] rem _ => Some (at_pos (MServe (map ERem rem)) s)
  | MServe [] => Some (at_pos MCheck s)
  | MServe (e :: l) =>
      if match e, a with EAccept, Some fd => unused fd (m_clients s) | _, _ => true end then
        match serve_entry a e s with
        | Some s' => Some (at_pos (MServe l) s')
        | None => Some (at_pos MDead s)
        end
      else None
  end.

(** How [processor.process] ends: with an answer; with none (a one-way method);
    with an Exception, or an answer whose length [struct.pack] refuses; with
    another BaseException, which ends the thread (61-63). *)
Inductive hout := HAnswer | HOneway | HFail | HDie.

(** [ready] up to [wake_up] (183-209).  When the assertion fails, the second
    call of the callback (63) fails too, and ends the thread. *)
Definition ready_status (o : hout) : nstatus :=
  match o with
  | HAnswer => SEND_ANSWER
  | HOneway => WAIT_LEN
  | _ => CLOSED
  end.

Fixpoint set_worker (i : nat) (w : worker) (l : list worker) : list worker :=
  match l, i with
  | [], _ => []
  | _ :: r, O => w :: r
  | x :: r, S j => x :: set_worker j w r
  end.

(** A step of worker [i]; [K] is the capacity of the socket pair. *)
Definition work_step (K : nat) (i : nat) (o : hout) (s : nb) : option nb :=
  match nth_error (m_workers s) i with
  | None | Some WEnd => None
  | Some WIdle =>
      match m_tasks s with
      | [] => None
      | Quit :: r =>
          Some (mknb (m_pos s) (m_stop s) (m_prepared s) (m_threads s) (m_clients s) r
                  (set_worker i WEnd (m_workers s)) (m_pipe s) (m_stoppers s)
                  (m_handed s) (m_taken s))
      | Req fd :: r =>
          Some (mknb (m_pos s) (m_stop s) (m_prepared s) (m_threads s) (m_clients s) r
                  (set_worker i (WRun fd) (m_workers s)) (m_pipe s) (m_stoppers s)
                  (m_handed s) (m_taken s ++ [fd]))
      end
  | Some (WRun fd) =>
      match o with
      | HDie => Some (with_workers (set_worker i WEnd (m_workers s)) s)
      | _ =>
          if lock_free fd (m_workers s) then
            match get fd (m_clients s) with
            | Some (mkq WAIT_PROCESS n rem) =>
                Some (with_workers (set_worker i (WWake fd) (m_workers s))
                        (with_clients (put fd (mkq (ready_status o) n rem) (m_clients s)) s))
            | _ => Some (with_workers (set_worker i WEnd (m_workers s)) s)
            end
          else None
      end
  | Some (WWake _) | Some WFree =>
      if (m_pipe s <? K)%nat
      then Some (with_pipe (S (m_pipe s)) (with_workers (set_worker i WIdle (m_workers s)) s))
      else None
  end.

(** Everything that can happen.  [Serve] is the first statement of [serve]
    (413); [Close] (401-406) is called while nobody is in [serve]; an assertion
    keeps [SetThreads] (258-262) out once prepared. *)
Inductive event :=
| Main (a : option Z) | Polled (es : list entry) | Work (i : nat) (o : hout)
| StopSet | StopWake | Serve | Close | SetThreads (n : nat).

Definition step (K : nat) (e : event) (s : nb) : option nb :=
  match e with
  | Main a => main_step a s
  | Polled es =>
      match m_pos s with
      | MPoll reg => if reported reg (m_pipe s) es then Some (at_pos (MServe es) s) else None
      | _ => None
      end
  | Work i o => work_step K i o s
  | StopSet =>
      Some (mknb (m_pos s) true (m_prepared s) (m_threads s) (m_clients s) (m_tasks s)
              (m_workers s) (m_pipe s) (S (m_stoppers s)) (m_handed s) (m_taken s))
  | StopWake =>
      match m_stoppers s with
      | S n =>
          if (m_pipe s <? K)%nat then
            Some (mknb (m_pos s) (m_stop s) (m_prepared s) (m_threads s) (m_clients s)
                    (m_tasks s) (m_workers s) (S (m_pipe s)) n (m_handed s) (m_taken s))
          else None
      | O => None
      end
  | Serve =>
      match m_pos s with
      | MOut => Some (mknb MStart false (m_prepared s) (m_threads s) (m_clients s)
                        (m_tasks s) (m_workers s) (m_pipe s) (m_stoppers s)
                        (m_handed s) (m_taken s))
      | _ => None
      end
  | Close =>
      match m_pos s with
      | MOut => Some (mknb MOut (m_stop s) false (m_threads s) (m_clients s)
                        (m_tasks s ++ repeat Quit (m_threads s)) (m_workers s) (m_pipe s)
                        (m_stoppers s) (m_handed s) (m_taken s))
      | _ => None
      end
  | SetThreads n =>
      Some (if m_prepared s then s
            else mknb (m_pos s) (m_stop s) (m_prepared s) n (m_clients s) (m_tasks s)
                   (m_workers s) (m_pipe s) (m_stoppers s) (m_handed s) (m_taken s))
  end.

(** Executions: None when an event cannot happen. *)
Fixpoint run (K : nat) (l : list event) (s : nb) : option nb :=
  match l with
  | [] => Some s
  | e :: r => match step K e s with Some s' => run K r s' | None => None end
  end.
