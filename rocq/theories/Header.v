(** THeaderTransport (lib/py/src/transport/THeaderTransport.py).  No proofs
    here.

    zlib is an oracle: [compress] is [zlib.compress]; [decompress data n] is a
    fresh [decompressobj().decompress(data, n)] with its [unconsumed_tail], or
    None when zlib.error is raised. *)
From Coq Require Import ZArith List Bool.
From Coq Require Import Init.Byte.
From Verif Require Import Base Bytes Transport Compact.
Import ListNotations.
Open Scope Z_scope.
Open Scope list_scope.

(** Constants, 34-69. *)
Definition HEADER_MAGIC := 4095.             (* 0x0FFF *)
Definition DEFAULT_MAX_FRAME_SIZE := 16384000.
Definition HARD_MAX_FRAME_SIZE := 1073741823. (* 0x3FFFFFFF *)
Definition CT_HEADERS := 0.
Definition CT_FRAMED_BINARY := 1.
Definition CT_UNFRAMED_BINARY := 2.
Definition CT_FRAMED_COMPACT := 3.
Definition CT_UNFRAMED_COMPACT := 4.
Definition SP_BINARY := 0.
Definition SP_COMPACT := 2.
Definition KEY_VALUE := 1.
Definition ZLIB := 1.

(** TBinaryProtocol.py 33-37, TCompactProtocol.py 134-136 *)
Definition B_VERSION_MASK := -65536.
Definition B_VERSION_1 := -2147418112.
Definition C_PROTOCOL_ID := 130.             (* 0x82 *)
Definition C_VERSION := 1.
Definition C_VERSION_MASK := 31.             (* 0x1f *)

(** A dictionary from bytes to bytes, in insertion order. *)
Definition headers := list (list byte * list byte).

(** [d[key] = value] *)
Fixpoint hset (k v : list byte) (l : headers) : headers :=
  match l with
  | [] => [(k, v)]
  | (k', v') :: r => if bytes_eqb k' k then (k', v) :: r else (k', v') :: hset k v r
  end.

(** The attributes, 88-104; [h_rbuf] is the unread part of _read_buffer. *)
Record hdr (T : Type) := mkhdr {
  h_trans : T;
  h_client : Z;
  h_rbuf : list byte;
  h_rheaders : headers;
  h_wbuf : list byte;
  h_wheaders : headers;
  h_wtransforms : list Z;
  h_flags : Z;
  h_seq : Z;
  h_proto : Z;
  h_max : Z;
  h_maxdec : Z }.
Arguments mkhdr {T}.
Arguments h_trans {T}. Arguments h_client {T}. Arguments h_rbuf {T}.
Arguments h_rheaders {T}. Arguments h_wbuf {T}. Arguments h_wheaders {T}.
Arguments h_wtransforms {T}. Arguments h_flags {T}. Arguments h_seq {T}.
Arguments h_proto {T}. Arguments h_max {T}. Arguments h_maxdec {T}.

(** __init__, 88-104 *)
Definition hdr_init {T} (t : T) (default_protocol : Z) : hdr T :=
  mkhdr t CT_HEADERS [] [] [] [] [] 0 0 default_protocol
    DEFAULT_MAX_FRAME_SIZE DEFAULT_MAX_FRAME_SIZE.

(** Assignments to single attributes. *)
Section Setters.
Context {T : Type}.
Implicit Type h : hdr T.
Definition with_trans h x := mkhdr x (h_client h) (h_rbuf h) (h_rheaders h) (h_wbuf h)
  (h_wheaders h) (h_wtransforms h) (h_flags h) (h_seq h) (h_proto h) (h_max h) (h_maxdec h) : hdr T.
Definition with_client h x := mkhdr (h_trans h) x (h_rbuf h) (h_rheaders h) (h_wbuf h)
  (h_wheaders h) (h_wtransforms h) (h_flags h) (h_seq h) (h_proto h) (h_max h) (h_maxdec h).
Definition with_rbuf h x := mkhdr (h_trans h) (h_client h) x (h_rheaders h) (h_wbuf h)
  (h_wheaders h) (h_wtransforms h) (h_flags h) (h_seq h) (h_proto h) (h_max h) (h_maxdec h).
Definition with_rheaders h x := mkhdr (h_trans h) (h_client h) (h_rbuf h) x (h_wbuf h)
  (h_wheaders h) (h_wtransforms h) (h_flags h) (h_seq h) (h_proto h) (h_max h) (h_maxdec h).
Definition with_wbuf h x := mkhdr (h_trans h) (h_client h) (h_rbuf h) (h_rheaders h) x
  (h_wheaders h) (h_wtransforms h) (h_flags h) (h_seq h) (h_proto h) (h_max h) (h_maxdec h).
Definition with_wheaders h x := mkhdr (h_trans h) (h_client h) (h_rbuf h) (h_rheaders h) (h_wbuf h)
  x (h_wtransforms h) (h_flags h) (h_seq h) (h_proto h) (h_max h) (h_maxdec h).
Definition with_wtransforms h x := mkhdr (h_trans h) (h_client h) (h_rbuf h) (h_rheaders h)
  (h_wbuf h) (h_wheaders h) x (h_flags h) (h_seq h) (h_proto h) (h_max h) (h_maxdec h).
Definition with_flags h x := mkhdr (h_trans h) (h_client h) (h_rbuf h) (h_rheaders h) (h_wbuf h)
  (h_wheaders h) (h_wtransforms h) x (h_seq h) (h_proto h) (h_max h) (h_maxdec h).
Definition with_seq h x := mkhdr (h_trans h) (h_client h) (h_rbuf h) (h_rheaders h) (h_wbuf h)
  (h_wheaders h) (h_wtransforms h) (h_flags h) x (h_proto h) (h_max h) (h_maxdec h).
Definition with_proto h x := mkhdr (h_trans h) (h_client h) (h_rbuf h) (h_rheaders h) (h_wbuf h)
  (h_wheaders h) (h_wtransforms h) (h_flags h) (h_seq h) x (h_max h) (h_maxdec h).
Definition with_max h x := mkhdr (h_trans h) (h_client h) (h_rbuf h) (h_rheaders h) (h_wbuf h)
  (h_wheaders h) (h_wtransforms h) (h_flags h) (h_seq h) (h_proto h) x (h_maxdec h).
Definition with_maxdec h x := mkhdr (h_trans h) (h_client h) (h_rbuf h) (h_rheaders h) (h_wbuf h)
  (h_wheaders h) (h_wtransforms h) (h_flags h) (h_seq h) (h_proto h) (h_max h) x.
End Setters.

Section Header.
Context {T : Type}.
Variable U : transport T.
Variable compress : list byte -> list byte.
Variable decompress : list byte -> Z -> option (list byte * list byte).
Variable allowed : list Z.      (* _allowed_client_types *)

(** self._transport.<m>() *)
Definition on_h {A} (m : SM T A) : SM (hdr T) A :=
  fun h => let (r, t) := m (h_trans h) in (r, with_trans h t).

(** set_header 118-123 (the type checks always pass on bytes), clear_headers
    125-126, add_transform 128-131, set_max_frame_size 133-136,
    set_max_decompressed_size 138-141 *)
Definition set_header (k v : list byte) : SM (hdr T) unit :=
  fun h => (Ok tt, with_wheaders h (hset k v (h_wheaders h))).
Definition clear_headers : SM (hdr T) unit := fun h => (Ok tt, with_wheaders h []).
Definition add_transform (id : Z) : SM (hdr T) unit :=
  fun h => if id =? ZLIB then (Ok tt, with_wtransforms h (h_wtransforms h ++ [id]))
           else (Raise EValueError, h).
Definition set_max_frame_size (size : Z) : SM (hdr T) unit :=
  fun h => if (0 <? size) && (size <? HARD_MAX_FRAME_SIZE) then (Ok tt, with_max h size)
           else (Raise EValueError, h).
Definition set_max_decompressed_size (size : Z) : SM (hdr T) unit :=
  fun h => if (0 <? size) && (size <=? HARD_MAX_FRAME_SIZE) then (Ok tt, with_maxdec h size)
           else (Raise EValueError, h).

(** _apply_read_transform, 143-152 *)
Definition apply_read_transform {S} (maxdec id : Z) (payload : list byte)
  : SM S (list byte) :=
  if id =? ZLIB then
    match decompress payload maxdec with
    | None => raise EZlib
    | Some (p, tail) =>
        match tail with [] => ret p | _ => raise (ETransport TT_SIZE_LIMIT) end
    end
  else ret payload.

(** [for transform_id in transforms: payload = ...], 294-295 *)
Fixpoint apply_all {S} (maxdec : Z) (ids : list Z) (payload : list byte) : SM S (list byte) :=
  match ids with
  | [] => ret payload
  | id :: r => p <- apply_read_transform maxdec id payload ;; apply_all maxdec r p
  end.

(** protocol_id, 154-166 *)
Definition protocol_id : SM (hdr T) Z :=
  fun h =>
    if h_client h =? CT_HEADERS then (Ok (h_proto h), h)
    else if (h_client h =? CT_FRAMED_BINARY) || (h_client h =? CT_UNFRAMED_BINARY)
    then (Ok SP_BINARY, h)
    else if (h_client h =? CT_FRAMED_COMPACT) || (h_client h =? CT_UNFRAMED_COMPACT)
    then (Ok SP_COMPACT, h)
    else (Raise (ETransport TT_INVALID_CLIENT_TYPE), h).

(** _set_client_type, 185-191 *)
Definition set_client_type (c : Z) : SM (hdr T) unit :=
  fun h => if existsb (Z.eqb c) allowed then (Ok tt, with_client h c)
           else (Raise (ETransport TT_INVALID_CLIENT_TYPE), h).

(** ** Parsing a header-format frame

    The methods run on a state whose [px] is the transport object and whose
    [inp] is the unread part of [buffer]. *)
Definition upd (f : hdr T -> hdr T) : M (hdr T) unit :=
  fun s => (Ok tt, mkst (f (px s)) (inp s) (out s) (depth s)).

(** [struct.unpack(buffer.read(n))]: the read may be short. *)
Definition read_word (n : nat) (unpack : list byte -> Z) : M (hdr T) Z :=
  b <- tread n ;;
  if (length b =? n)%nat then ret (unpack b) else raise EStructError.

(** _readString, 72-79.  BytesIO.read raises OverflowError on a size that is
    not a C ssize_t, and returns what there is when there is less. *)
Definition readString : M (hdr T) (list byte) :=
  size <- readVarint ;;
  if size <? 0 then raise (ETransport TT_NEGATIVE_SIZE)
  else if 2 ^ 63 <=? size then raise EOverflow
  else mem_read size.

(** The transforms, 265-275. *)
Definition read_transform (acc : list Z) : M (hdr T) (list Z) :=
  id <- readVarint ;;
  if id =? ZLIB then ret (acc ++ [id]) else raise (EApplication TA_INVALID_TRANSFORM).

Definition read_pair (acc : headers) : M (hdr T) headers :=
  key <- readString ;;
  value <- readString ;;
  ret (hset key value acc).

(** [buffer.tell()], for a frame of [total] bytes *)
Definition tell (total : Z) : M (hdr T) Z :=
  fun s => (Ok (total - Z.of_nat (length (inp s))), s).

(** The info headers, 277-287.  Every turn reads a byte or raises: fuel for
    both loops is more than the bytes there are. *)
Fixpoint info_loop (fuel : nat) (total stop : Z) (acc : headers) : M (hdr T) headers :=
  match fuel with
  | O => diverge
  | S k =>
      pos <- tell total ;;
      if pos <? stop then
        ty <- readVarint ;;
        if ty =? KEY_VALUE then
          count <- readVarint ;;
          acc' <- repeatM (S (Z.to_nat total)) count read_pair acc ;;
          info_loop k total stop acc'
        else ret acc
      else ret acc
  end.

(** _parse_header_format, 246-296; [frame] is the whole frame, and the state's
    [inp] starts as [frame]. *)
Definition parse_header (frame : list byte) : M (hdr T) (list byte) :=
  let total := Z.of_nat (length frame) in
  tread 2 ;;;
  flags <- read_word 2 unpack_unsigned ;;
  upd (fun h => with_flags h flags) ;;;
  seq <- read_word 4 (unpack_signed 4) ;;
  upd (fun h => with_seq h seq) ;;;
  words <- read_word 2 unpack_unsigned ;;
  pos <- tell total ;;
  let stop := pos + words * 4 in
  if total <? stop then raise (ETransport TT_SIZE_LIMIT)
  else
    proto <- readVarint ;;
    upd (fun h => with_proto h proto) ;;;
    count <- readVarint ;;
    transforms <- repeatM (S (Z.to_nat total)) count read_transform [] ;;
    hs <- info_loop (S (Z.to_nat total)) total stop [] ;;
    upd (fun h => with_rheaders h hs) ;;;
    h <- get_px ;;
    apply_all (h_maxdec h) (rev transforms) (skipn (Z.to_nat stop) frame).

Definition byte_at (l : list byte) (i : nat) : Z := b2z (nth i l x00).

(** The tests of 199-203 and 233-237: a binary or a compact message. *)
Definition binary_word (w : list byte) : bool :=
  Z.land (unpack_signed 4 w) B_VERSION_MASK =? B_VERSION_1.
Definition compact_word (w : list byte) : bool :=
  (byte_at w 0 =? C_PROTOCOL_ID) && (Z.land (byte_at w 1) C_VERSION_MASK =? C_VERSION).

(** 200-201, 204-205, 207-214 *)
Definition unframed (c : Z) (req_sz : Z) (first_word : list byte) : SM (hdr T) unit :=
  set_client_type c ;;;
  rest <- (if req_sz - 4 >? 0 then on_h (t_read U (req_sz - 4)) else ret []) ;;
  fun h => (Ok tt, with_rbuf h (first_word ++ rest)).

(** readFrame, 193-244 *)
Definition readFrame (req_sz : Z) : SM (hdr T) unit :=
  first_word <- on_h (readAll_t (t_read U) 4) ;;
  let frame_size := unpack_signed 4 first_word in
  if binary_word first_word then unframed CT_UNFRAMED_BINARY req_sz first_word
  else if compact_word first_word then unframed CT_UNFRAMED_COMPACT req_sz first_word
  else
    h <- (fun h => (Ok h, h)) ;;
    if frame_size >? h_max h then raise (ETransport TT_SIZE_LIMIT)
    else
      frame <- on_h (readAll_t (t_read U) frame_size) ;;
      let second_word := firstn 4 frame in
      if negb (length second_word =? 4)%nat then raise EStructError
      else
        let version := unpack_signed 4 second_word in
        if Z.shiftr version 16 =? HEADER_MAGIC then
          set_client_type CT_HEADERS ;;;
          fun h =>
            match parse_header frame (mkst h frame [] 0) with
            | (Ok payload, s) => (Ok tt, with_rbuf (px s) payload)
            | (Raise e, s) => (Raise e, px s)
            | (Diverge, s) => (Diverge, px s)
            end
        else if binary_word second_word then
          set_client_type CT_FRAMED_BINARY ;;;
          fun h => (Ok tt, with_rbuf h frame)
        else if compact_word second_word then
          set_client_type CT_FRAMED_COMPACT ;;;
          fun h => (Ok tt, with_rbuf h frame)
        else raise (ETransport TT_INVALID_CLIENT_TYPE).

(** [self._read_buffer.read(sz)] *)
Definition hrbuf_read (sz : Z) : SM (hdr T) (list byte) :=
  fun h => let (a, b) := bytesio_read sz (h_rbuf h) in (Ok a, with_rbuf h b).

Definition is_unframed (c : Z) : bool :=
  (c =? CT_UNFRAMED_BINARY) || (c =? CT_UNFRAMED_COMPACT).

(** read, 168-183 *)
Definition read (sz : Z) : SM (hdr T) (list byte) :=
  bytes_read <- hrbuf_read sz ;;
  let left := sz - Z.of_nat (length bytes_read) in
  if left =? 0 then ret bytes_read
  else
    h <- (fun h => (Ok h, h)) ;;
    if is_unframed (h_client h) then
      r <- on_h (t_read U left) ;; ret (bytes_read ++ r)
    else
      readFrame left ;;;
      r <- hrbuf_read left ;;
      ret (bytes_read ++ r).

(** write, 298-299 *)
Definition write (buf : list byte) : SM (hdr T) unit :=
  fun h => (Ok tt, with_wbuf h (h_wbuf h ++ buf)).

(** _writeString, 82-84 *)
Definition writeString (v : list byte) : M unit unit :=
  writeVarint (Z.of_nat (length v)) ;;; twrite v.

(** [transform_fn(payload)] for each transform, 307-309; ids not in
    WRITE_TRANSFORMS_BY_ID raise KeyError. *)
Fixpoint write_transforms {S} (ids : list Z) (payload : list byte) : SM S (list byte) :=
  match ids with
  | [] => ret payload
  | id :: r => if id =? ZLIB then write_transforms r (compress payload) else raise EKeyError
  end.

(** The header section before padding, 311-321. *)
Definition header_section (proto : Z) (ids : list Z) (hs : headers) : M unit unit :=
  writeVarint proto ;;;
  writeVarint (Z.of_nat (length ids)) ;;;
  mapM_ writeVarint ids ;;;
  match hs with
  | [] => ret tt
  | _ =>
      writeVarint KEY_VALUE ;;;
      writeVarint (Z.of_nat (length hs)) ;;;
      mapM_ (fun kv => writeString (fst kv) ;;; writeString (snd kv)) hs
  end.

(** 311-325: the padded section. *)
Definition header_bytes (h : hdr T) : outcome (list byte) :=
  match header_section (h_proto h) (h_wtransforms h) (h_wheaders h) (mkst tt [] [] 0) with
  | (Ok _, s) =>
      Ok (out s ++ repeat x00 (Z.to_nat ((4 - Z.of_nat (length (out s)) mod 4) mod 4)))
  | (Raise e, _) => Raise e
  | (Diverge, _) => Diverge
  end.

(** 306-333: the frame in header format.  _write_headers is emptied when the
    section has been written. *)
Definition header_frame (payload : list byte) : SM (hdr T) (list byte) :=
  h <- (fun h => (Ok h, h)) ;;
  payload <- write_transforms (h_wtransforms h) payload ;;
  hb <- lift (header_bytes h) ;;
  (fun h => (Ok tt, with_wheaders h [])) ;;;
  size <- pack_signed 4 (10 + Z.of_nat (length hb) + Z.of_nat (length payload)) ;;
  magic <- pack_unsigned 2 HEADER_MAGIC ;;
  flags <- pack_unsigned 2 (h_flags h) ;;
  seq <- pack_signed 4 (h_seq h) ;;
  words <- pack_unsigned 2 (Z.of_nat (length hb) / 4) ;;
  ret (size ++ magic ++ flags ++ seq ++ words ++ hb ++ payload).

(** flush, 301-355 *)
Definition flush : SM (hdr T) unit :=
  h <- (fun h => (Ok h, h)) ;;
  let payload := h_wbuf h in
  (fun h => (Ok tt, with_wbuf h [])) ;;;
  frame_bytes <-
    (if h_client h =? CT_HEADERS then header_frame payload
     else if (h_client h =? CT_FRAMED_BINARY) || (h_client h =? CT_FRAMED_COMPACT) then
       size <- pack_signed 4 (Z.of_nat (length payload)) ;; ret (size ++ payload)
     else if is_unframed (h_client h) then ret payload
     else raise (ETransport TT_INVALID_CLIENT_TYPE)) ;;
  if Z.of_nat (length frame_bytes) - 4 >? h_max h then raise (ETransport TT_SIZE_LIMIT)
  else
    on_h (t_write U frame_bytes) ;;;
    on_h (t_flush U).

(** cstringio_refill, 361-366.  Fuel: one unit per read. *)
Fixpoint refill_loop (fuel : nat) (result : list byte) (reqlen : Z) : SM (hdr T) (list byte) :=
  match fuel with
  | O => diverge
  | S k =>
      if Z.of_nat (length result) <? reqlen then
        r <- read (reqlen - Z.of_nat (length result)) ;;
        refill_loop k (result ++ r) reqlen
      else ret result
  end.
Definition refill (fuel : nat) (partialread : list byte) (reqlen : Z) : SM (hdr T) (list byte) :=
  r <- refill_loop fuel partialread reqlen ;;
  fun h => (Ok r, with_rbuf h r).

End Header.
