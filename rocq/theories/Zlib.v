(** TZlibTransport and TZlibTransportFactory
    (lib/py/src/transport/TZlibTransport.py).  No proofs here.

    zlib itself is an argument: the decompression object is any state [D] with
    a [decompress(data, max_length)] that may raise and an [unconsumed_tail]
    attribute, the compression object any state [C] with [compress] and
    [flush(Z_SYNC_FLUSH)].  What is assumed of them is said where it is used. *)
From Coq Require Import ZArith List Bool.
From Coq Require Import Init.Byte.
From Verif Require Import Base Bytes Transport.
Import ListNotations.
Open Scope Z_scope.

(** The attributes, 96-102, 115-118, 124-126: the transport underneath, the
    unread part of __rbuf, __wbuf, _zcomp_read, _zcomp_write,
    _bytes_decompressed and the four counters. *)
Record zt (T D C : Type) := mkzt {
  z_trans : T;
  z_rbuf : list byte;
  z_wbuf : list byte;
  z_dec : D;
  z_comp : C;
  z_count : Z;
  z_in : Z;
  z_in_comp : Z;
  z_out : Z;
  z_out_comp : Z }.
Arguments mkzt {T D C}. Arguments z_trans {T D C}. Arguments z_rbuf {T D C}.
Arguments z_wbuf {T D C}. Arguments z_dec {T D C}. Arguments z_comp {T D C}.
Arguments z_count {T D C}. Arguments z_in {T D C}. Arguments z_in_comp {T D C}.
Arguments z_out {T D C}. Arguments z_out_comp {T D C}.

Section Zlib.
Context {T D C : Type}.
Variable U : transport T.
Variable decompress : list byte -> Z -> SM D (list byte).
Variable tail : D -> list byte.                       (* unconsumed_tail *)
Variable compress : list byte -> C -> list byte * C.
Variable cflush : C -> list byte * C.                 (* flush(Z_SYNC_FLUSH) *)
Variable dec_init : D.                                (* zlib.decompressobj() *)
Variable comp_init : C.                               (* zlib.compressobj(level) *)
Variable max_size : Z.                                (* _max_decompressed_size *)

Notation zt := (zt T D C).

(** __init__, 81-102 *)
Definition z_init (t : T) : zt := mkzt t [] [] dec_init comp_init 0 0 0 0 0.

(** open 171-174 and close 184-188, but for the call of the same method of the
    transport underneath. *)
Definition z_open (z : zt) : zt :=
  mkzt (z_trans z) (z_rbuf z) (z_wbuf z) (z_dec z) (z_comp z) (z_count z) 0 0 0 0.
Definition z_close (z : zt) : zt :=
  mkzt (z_trans z) [] [] dec_init comp_init 0 (z_in z) (z_in_comp z) (z_out z) (z_out_comp z).

(** readComp, 205-225 *)
Definition readComp (sz : Z) : SM zt bool :=
  fun z =>
    match t_read U sz (z_trans z) with
    | (Raise e, t) =>
        (Raise e, mkzt t (z_rbuf z) (z_wbuf z) (z_dec z) (z_comp z) (z_count z)
                    (z_in z) (z_in_comp z) (z_out z) (z_out_comp z))
    | (Diverge, t) =>
        (Diverge, mkzt t (z_rbuf z) (z_wbuf z) (z_dec z) (z_comp z) (z_count z)
                    (z_in z) (z_in_comp z) (z_out z) (z_out_comp z))
    | (Ok zbuf0, t) =>
        let zbuf := tail (z_dec z) ++ zbuf0 in
        let remaining := max_size - z_count z in
        match decompress zbuf remaining (z_dec z) with
        | (Raise e, d) =>
            (Raise e, mkzt t (z_rbuf z) (z_wbuf z) d (z_comp z) (z_count z)
                        (z_in z) (z_in_comp z) (z_out z) (z_out_comp z))
        | (Diverge, d) =>
            (Diverge, mkzt t (z_rbuf z) (z_wbuf z) d (z_comp z) (z_count z)
                        (z_in z) (z_in_comp z) (z_out z) (z_out_comp z))
        | (Ok buf, d) =>
            match tail d with
            | _ :: _ =>
                (Raise (ETransport TT_SIZE_LIMIT),
                 mkzt t (z_rbuf z) (z_wbuf z) d (z_comp z) (z_count z)
                   (z_in z) (z_in_comp z) (z_out z) (z_out_comp z))
            | [] =>
                let old := z_rbuf z in
                (Ok (negb (Z.of_nat (length old) + Z.of_nat (length buf) =? 0)),
                 mkzt t (old ++ buf) (z_wbuf z) d (z_comp z)
                   (z_count z + Z.of_nat (length buf))
                   (z_in z + Z.of_nat (length zbuf))
                   (z_in_comp z + Z.of_nat (length buf)) (z_out z) (z_out_comp z))
            end
        end
    end.

(** [self.__rbuf.read(sz)] *)
Definition zrbuf_read (sz : Z) : SM zt (list byte) :=
  fun z => let (a, b) := bytesio_read sz (z_rbuf z) in
           (Ok a, mkzt (z_trans z) b (z_wbuf z) (z_dec z) (z_comp z) (z_count z)
                    (z_in z) (z_in_comp z) (z_out z) (z_out_comp z)).

(** The loop of 199-201. *)
Fixpoint comp_loop (fuel : nat) (sz : Z) : SM zt unit :=
  match fuel with
  | O => diverge
  | S k => got <- readComp sz ;; if got : bool then ret tt else comp_loop k sz
  end.

(** read, 190-203 *)
Definition z_read (fuel : nat) (sz : Z) : SM zt (list byte) :=
  r <- zrbuf_read sz ;;
  if 0 <? Z.of_nat (length r) then ret r
  else comp_loop fuel sz ;;; zrbuf_read sz.

(** write, 227-231 *)
Definition z_write (buf : list byte) : SM zt unit :=
  fun z => (Ok tt, mkzt (z_trans z) (z_rbuf z) (z_wbuf z ++ buf) (z_dec z) (z_comp z)
                     (z_count z) (z_in z) (z_in_comp z) (z_out z) (z_out_comp z)).

Definition on_z {A} (m : SM T A) : SM zt A :=
  fun z => let (r, t) := m (z_trans z) in
           (r, mkzt t (z_rbuf z) (z_wbuf z) (z_dec z) (z_comp z) (z_count z)
                 (z_in z) (z_in_comp z) (z_out z) (z_out_comp z)).

(** flush, 233-249.  Without data [zbuf] is the string '', and adding the bytes
    of [ztail] to it is a TypeError. *)
Definition z_flush : SM zt unit :=
  fun z =>
    let wout := z_wbuf z in
    let data := 0 <? Z.of_nat (length wout) in
    let (zbuf, c1) := if data then compress wout (z_comp z) else ([], z_comp z) in
    let out' := if data then z_out z + Z.of_nat (length wout) else z_out z in
    let outc := if data then z_out_comp z + Z.of_nat (length zbuf) else z_out_comp z in
    let (ztail, c2) := cflush c1 in
    let outc' := outc + Z.of_nat (length ztail) in
    if 0 <? Z.of_nat (length zbuf) + Z.of_nat (length ztail) then
      let z' := mkzt (z_trans z) (z_rbuf z) [] (z_dec z) c2 (z_count z) (z_in z) (z_in_comp z)
                  out' outc' in
      if data then (on_z (t_write U (zbuf ++ ztail)) ;;; on_z (t_flush U)) z'
      else (Raise ETypeError, z')
    else
      on_z (t_flush U)
        (mkzt (z_trans z) (z_rbuf z) wout (z_dec z) c2 (z_count z) (z_in z) (z_in_comp z)
           out' outc').

(** cstringio_refill, 256-264: returns the new __rbuf. *)
Fixpoint z_refill_loop (fuel rfuel : nat) (ret_ : list byte) (reqlen : Z) : SM zt (list byte) :=
  if Z.of_nat (length ret_) <? reqlen then
    match fuel with
    | O => diverge
    | S k => r <- z_read rfuel (reqlen - Z.of_nat (length ret_)) ;;
             z_refill_loop k rfuel (ret_ ++ r) reqlen
    end
  else ret ret_.

Definition z_refill (fuel rfuel : nat) (partialread : list byte) (reqlen : Z)
  : SM zt (list byte) :=
  r0 <- (if reqlen <? 4096 then r <- z_read rfuel 4096 ;; ret (partialread ++ r)
         else ret partialread) ;;
  r <- z_refill_loop fuel rfuel r0 reqlen ;;
  fun z => (Ok r, mkzt (z_trans z) r (z_wbuf z) (z_dec z) (z_comp z) (z_count z)
                    (z_in z) (z_in_comp z) (z_out z) (z_out_comp z)).

Definition ztransport (fuel : nat) : transport zt :=
  mktransport zt (z_read fuel) z_write z_flush.

End Zlib.

(** * TZlibTransportFactory, 32-69

    Transports are numbers (== on them is identity).  A TZlibTransport made by
    the factory is the call that made it, the transport it wraps and its limit;
    [f_next] numbers the objects made. *)
Record zobj := mkzobj { zo_id : nat; zo_trans : nat; zo_max : Z }.

Record factory := mkfactory {
  f_trans : option nat;       (* _last_trans *)
  f_z : option zobj;          (* _last_z *)
  f_next : nat }.

Definition factory_init : factory := mkfactory None None 0.

Definition same_trans (a : nat) (b : option nat) : bool :=
  match b with Some x => Nat.eqb a x | None => false end.

(** getTransport, 51-69, run without interruption.  The result is an option for
    _last_z, which starts as None. *)
Definition getTransport (trans : nat) (max : Z) (f : factory) : option zobj * factory :=
  if same_trans trans (f_trans f) then (f_z f, f)
  else let z := mkzobj (f_next f) trans max in
       (Some z, mkfactory (Some trans) (Some z) (S (f_next f))).

(** The same call as the reads and writes of attributes it makes, for threads
    sharing a factory: the test 64, the return of 65, the construction 66, and
    the two assignments 67 and 68. *)
Inductive fpc :=
| FTest (trans : nat) (max : Z)
| FHit (trans : nat)
| FMake (trans : nat) (max : Z)
| FSetTrans (z : zobj)
| FSetZ (z : zobj)
| FDone (trans : nat) (r : option zobj).

Definition fstep (p : fpc) (f : factory) : fpc * factory :=
  match p with
  | FTest trans max => (if same_trans trans (f_trans f) then FHit trans else FMake trans max, f)
  | FHit trans => (FDone trans (f_z f), f)
  | FMake trans max =>
      (FSetTrans (mkzobj (f_next f) trans max),
       mkfactory (f_trans f) (f_z f) (S (f_next f)))
  | FSetTrans z => (FSetZ z, mkfactory (Some (zo_trans z)) (f_z f) (f_next f))
  | FSetZ z => (FDone (zo_trans z) (Some z), mkfactory (f_trans f) (Some z) (f_next f))
  | FDone t r => (FDone t r, f)
  end.

(** A thread makes its calls one after the other; a step of the machine is a
    step of one thread.  [th_log] is what it was given: the transport asked for
    and the object returned. *)
Record thread := mkthread {
  th_calls : list (nat * Z);
  th_pc : option fpc;
  th_log : list (nat * option zobj) }.

Definition tstep (th : thread) (f : factory) : thread * factory :=
  match th_pc th with
  | None => match th_calls th with
            | [] => (th, f)
            | (t, m) :: r => (mkthread r (Some (FTest t m)) (th_log th), f)
            end
  | Some p =>
      let (p', f') := fstep p f in
      (match p' with
       | FDone t r => mkthread (th_calls th) None (th_log th ++ [(t, r)])
       | _ => mkthread (th_calls th) (Some p') (th_log th)
       end, f')
  end.

Fixpoint run_threads (sched : list nat) (ths : list thread) (f : factory)
  : list thread * factory :=
  match sched with
  | [] => (ths, f)
  | i :: r =>
      match nth_error ths i with
      | None => run_threads r ths f
      | Some th => let (th', f') := tstep th f in
                   run_threads r (firstn i ths ++ th' :: skipn (S i) ths) f'
      end
  end.
