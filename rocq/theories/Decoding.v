(** eth_abi/decoding.py: the framed stream and the decoders. *)
From Verif Require Import Py Bytes Utf8 Address Decimals.
Open Scope Z_scope.

(** ** ContextFramesBytesIO (decoding.py:35-113)

    The buffer never changes during a decoding, so it is passed separately. *)
Record stream := mkStream {
  pos : Z;                    (* tell() *)
  frames : list (Z * Z);      (* _frames, top of the stack first: (offset, return_pos) *)
  total : Z                   (* _total_offset *)
}.

(** decoding.py:79-83 *)
Definition new_stream : stream := mkStream 0 [] 0.

(** [io.BytesIO.read(n)] for n >= 0: OverflowError if n does not fit in a
    Py_ssize_t; a read at or past the end returns b"" and does not move. *)
Definition read (buf : bytes) (n : Z) (st : stream) : result (bytes * stream) :=
  if maxsize <? n then Err OverflowError
  else
    let data := take_z n (drop_z (pos st) buf) in
    Ok (data, mkStream (pos st + len data) (frames st) (total st)).

(** [io.BytesIO.seek(p)] *)
Definition seek (p : Z) (st : stream) : result stream :=
  if p <? 0 then Err ValueError
  else if maxsize <? p then Err OverflowError
  else Ok (mkStream p (frames st) (total st)).

(** decoding.py:85-89 *)
Definition seek_in_frame (p : Z) (st : stream) : result stream := seek (total st + p) st.

(** decoding.py:91-100 *)
Definition push_frame (offset : Z) (st : stream) : result stream :=
  seek_in_frame 0 (mkStream (pos st) ((offset, pos st) :: frames st) (total st + offset)).

(** decoding.py:102-113 *)
Definition pop_frame (st : stream) : result stream :=
  match frames st with
  | [] => Err IndexError
  | (offset, return_pos) :: fs => seek return_pos (mkStream (pos st) fs (total st - offset))
  end.

(** ** Decoder instances *)

(** The [strict] attribute of a dynamic decoder instance (decoding.py:123,
    registry.py:477-481).  Instances created by from_type_str belong to one
    cache entry and their flag never changes after creation: [SConst].
    An instance registered by the user is shared by all calls and its flag is
    a mutable cell: [SRef id], looked up in a heap. *)
Inductive strict_ref :=
| SConst (b : bool)
| SRef (id : N).

Definition heap := list (N * bool).

(** decoding.py:123: the class attribute is True. *)
Fixpoint heap_get (h : heap) (id : N) : bool :=
  match h with
  | [] => true
  | (i, b) :: h' => if N.eqb i id then b else heap_get h' id
  end.
Definition heap_set (h : heap) (id : N) (b : bool) : heap := (id, b) :: h.

Definition strict_val (h : heap) (s : strict_ref) : bool :=
  match s with SConst b => b | SRef id => heap_get h id end.

Inductive decoder :=
(* decoding.py:462-468 UnsignedIntegerDecoder *)
| DUInt (bits : Z)
(* decoding.py:477-503 SignedIntegerDecoder *)
| DInt (bits : Z)
(* decoding.py:429-446 BooleanDecoder *)
| DBool
(* decoding.py:449-456 AddressDecoder *)
| DAddr
(* decoding.py:535-548 UnsignedFixedDecoder *)
| DUFixed (bits frac : Z)
(* decoding.py:551-582 SignedFixedDecoder *)
| DFixed (bits frac : Z)
(* decoding.py:509-518 BytesDecoder *)
| DBytesM (bits : Z)
(* decoding.py:588-620 ByteStringDecoder *)
| DByteString (s : strict_ref)
(* decoding.py:623-641 StringDecoder; [handler] is bytes.decode("utf-8", errors=...):
   utf8_decode for errors="strict" *)
| DString (s : strict_ref) (handler : bytes -> result pystr)
(* decoding.py:137-169 HeadTailDecoder *)
| DHeadTail (d : decoder)
(* decoding.py:172-236 TupleDecoder, members already wrapped by __init__ *)
| DTuple (ds : list decoder)
(* decoding.py:326-341 SizedArrayDecoder, item already wrapped by __init__ *)
| DSized (n : Z) (d : decoder)
(* decoding.py:344-358 DynamicArrayDecoder, item already wrapped *)
| DDyn (d : decoder)
(* a plain callable registered as a decoder (registry.py:33) *)
| DCallable (f : bytes -> stream -> result (pyval * stream))
(* an instance of a user-defined BaseDecoder subclass; its decode may look at
   its strict flag *)
| DCustom (dyn : bool) (s : strict_ref) (f : bool -> bytes -> stream -> result (pyval * stream)).

(** The [is_dynamic] attribute; [None] for plain callables. *)
Fixpoint dec_dyn_attr (d : decoder) : option bool :=
  match d with
  | DByteString _ | DString _ _ | DHeadTail _ | DDyn _ => Some true
  | DTuple ds =>
      Some (existsb (fun d => match dec_dyn_attr d with Some b => b | None => false end) ds)
  | DSized _ d => dec_dyn_attr d
  | DCallable _ => None
  | DCustom dyn _ _ => Some dyn
  | _ => Some false
  end.
Definition dec_is_dyn (d : decoder) : bool :=
  match dec_dyn_attr d with Some b => b | None => false end.

(** [getattr(decoder, "array_size", 1)] *)
Definition array_size_attr (d : decoder) : Z := match d with DSized n _ => n | _ => 1 end.

(** decoding.py:387-396 read_data_from_stream *)
Definition read_fixed (buf : bytes) (n : Z) (st : stream) : result (bytes * stream) :=
  ' (data, st') <- read buf n st ;;
  if len data =? n then Ok (data, st') else Err InsufficientDataBytes.

(** decoding.py:251-259, 398-409: decode a 32-byte word with the value in the
    last / first [bits // 8] bytes; [fn] is decoder_fn and [check] is
    validate_padding_bytes. *)
Definition decode_word (big_endian : bool) (bits : Z)
    (fn : bytes -> result pyval) (check : pyval -> bytes -> Z -> result unit)
    (buf : bytes) (st : stream) : result (pyval * stream) :=
  ' (raw, st') <- read_fixed buf 32 st ;;
  let vsz := bits / 8 in
  let psz := 32 - vsz in
  let '(data, padding) :=
    if big_endian then (drop_z psz raw, take_z psz raw)
    else (take_z vsz raw, drop_z vsz raw) in
  v <- fn data ;;
  check v padding psz ;;;
  Ok (v, st').

(** decoding.py:411-418 *)
Definition check_zero_padding (_ : pyval) (padding : bytes) (psz : Z) : result unit :=
  raise_if (negb (bytes_eqb padding (zeros psz))) NonEmptyPaddingBytes.

(** decoding.py:487-499 and 564-576; [neg] is [value < 0] *)
Definition check_sign_padding (v : pyval) (padding : bytes) (psz : Z) : result unit :=
  let neg := match v with
             | PInt z => z <? 0
             | PDec d => dec_ltb d ZERO
             | _ => false
             end in
  raise_if (negb (bytes_eqb padding (if neg then ones psz else zeros psz))) NonEmptyPaddingBytes.

(** decoding.py:480-485, 553-557: two's complement *)
Definition signed_of (bits value : Z) : Z :=
  if 2 ^ (bits - 1) <=? value then value - 2 ^ bits else value.

(** decoding.py:433-442 BooleanDecoder.decoder_fn *)
Definition bool_fn (data : bytes) : result pyval :=
  if bytes_eqb data [x00] then Ok (PBool false)
  else if bytes_eqb data [x01] then Ok (PBool true)
  else Err NonEmptyPaddingBytes.

(** decoding.py:539-542, 559-562 *)
Definition unscale (frac value : Z) : result pyval :=
  d <- dec_div (dec_of_Z value) (ten_pow frac) ;; Ok (PDec d).

(** decoding.py:471 decode_uint_256 *)
Definition decode_uint_256 (buf : bytes) (st : stream) : result (Z * stream) :=
  ' (raw, st') <- read_fixed buf 32 st ;;
  Ok (from_be raw, st').

(** decoding.py:595-613 ByteStringDecoder.read_data_from_stream *)
Definition read_bytestring (strict : bool) (buf : bytes) (st : stream) : result (bytes * stream) :=
  ' (data_length, st1) <- decode_uint_256 buf st ;;
  let padded_length := ceil32 data_length in
  ' (data, st2) <- read buf padded_length st1 ;;
  if strict then
    if len data <? padded_length then Err InsufficientDataBytes
    else if negb (bytes_eqb (drop_z data_length data) (zeros (padded_length - data_length)))
    then Err NonEmptyPaddingBytes
    else Ok (take_z data_length data, st2)
  else Ok (take_z data_length data, st2).

(** decoding.py:199, 203-216 and 307, 310-322: read one pointer and check it.
    [start] is current_location, [hi] is end_of_offsets. *)
Definition check_pointer (buf : bytes) (start hi : Z) (st : stream) : result stream :=
  ' (offset, st') <- decode_uint_256 buf st ;;
  let idx := start + offset in
  if (idx <? hi) || (len buf <=? idx) then Err InvalidPointer else Ok st'.

(** [for _ in range(p): s = f(s)], exact, stopping at the first exception. *)
Fixpoint loop_pos {S} (p : positive) (f : S -> result S) (s : S) : result S :=
  match p with
  | xH => f s
  | xO p' => s1 <- loop_pos p' f s ;; loop_pos p' f s1
  | xI p' => s0 <- f s ;; s1 <- loop_pos p' f s0 ;; loop_pos p' f s1
  end.
Definition loop_Z {S} (n : Z) (f : S -> result S) (s : S) : result S :=
  match n with
  | Zpos p => loop_pos p f s
  | _ => Ok s
  end.

(** The items of an array: accumulated in reverse. *)
Definition loop_items (n : Z) (f : stream -> result (pyval * stream)) (st : stream)
  : result (list pyval * stream) :=
  ' (acc, st') <- loop_Z n (fun s : list pyval * stream =>
                              ' (v, st') <- f (snd s) ;; Ok (v :: fst s, st'))
                         ([], st) ;;
  Ok (rev acc, st').

Definition is_headtail (d : decoder) : bool := match d with DHeadTail _ => true | _ => false end.

(** decoding.py:301-323 BaseArrayDecoder.validate_pointers *)
Definition array_validate_pointers (headtail : bool) (n : Z) (buf : bytes) (st : stream)
  : result stream :=
  if headtail then
    let start := pos st in
    st' <- loop_Z n (check_pointer buf start (start + 32 * n)) st ;;
    seek start st'
  else Ok st.

(** [decode] for every decoder. *)
Fixpoint decode_with (h : heap) (d : decoder) (buf : bytes) (st : stream) {struct d}
  : result (pyval * stream) :=
  match d with
  | DUInt bits => decode_word true bits (fun b => Ok (PInt (from_be b))) check_zero_padding buf st
  | DInt bits =>
      decode_word true bits (fun b => Ok (PInt (signed_of bits (from_be b)))) check_sign_padding buf st
  | DBool => decode_word true 8 bool_fn check_zero_padding buf st
  | DAddr =>
      decode_word true 160
        (fun b => s <- to_normalized_address (PBytes b) ;; Ok (PStr s)) check_zero_padding buf st
  | DUFixed bits frac =>
      decode_word true bits (fun b => unscale frac (from_be b)) check_zero_padding buf st
  | DFixed bits frac =>
      decode_word true bits (fun b => unscale frac (signed_of bits (from_be b)))
        check_sign_padding buf st
  | DBytesM bits => decode_word false bits (fun b => Ok (PBytes b)) check_zero_padding buf st
  | DByteString s =>
      ' (b, st') <- read_bytestring (strict_val h s) buf st ;; Ok (PBytes b, st')
  | DString s handler =>
      ' (b, st') <- read_bytestring (strict_val h s) buf st ;;
      t <- handler b ;; Ok (PStr t, st')
  | DHeadTail d' =>
      (* decoding.py:155-169 *)
      ' (start_pos, st1) <- decode_uint_256 buf st ;;
      st2 <- push_frame start_pos st1 ;;
      ' (v, st3) <- decode_with h d' buf st2 ;;
      st4 <- pop_frame st3 ;;
      Ok (v, st4)
  | DTuple ds =>
      (* decoding.py:191-222 validate_pointers *)
      let start := pos st in
      let hi := start + 32 * fold_right (fun d acc => array_size_attr d + acc) 0 ds in
      st1 <- (fix vp (ds : list decoder) (st : stream) : result stream :=
                match ds with
                | [] => Ok st
                | d :: ds' =>
                    st' <- (if is_headtail d then check_pointer buf start hi st
                            else ' (_, st') <- decode_with h d buf st ;; Ok st') ;;
                    vp ds' st'
                end) ds st ;;
      st2 <- seek start st1 ;;
      (* decoding.py:224-228 *)
      ' (vs, st3) <-
          (fix go (ds : list decoder) (st : stream) : result (list pyval * stream) :=
             match ds with
             | [] => Ok ([], st)
             | d :: ds' =>
                 ' (v, st') <- decode_with h d buf st ;;
                 ' (vs, st'') <- go ds' st' ;;
                 Ok (v :: vs, st'')
             end) ds st2 ;;
      Ok (PTuple vs, st3)
  | DSized n d' =>
      (* decoding.py:334-341 *)
      st1 <- array_validate_pointers (is_headtail d') n buf st ;;
      ' (vs, st2) <- loop_items n (decode_with h d' buf) st1 ;;
      Ok (PTuple vs, st2)
  | DDyn d' =>
      (* decoding.py:348-358 *)
      ' (n, st1) <- decode_uint_256 buf st ;;
      st2 <- push_frame 32 st1 ;;
      st3 <- array_validate_pointers (is_headtail d') n buf st2 ;;
      ' (vs, st4) <- loop_items n (decode_with h d' buf) st3 ;;
      st5 <- pop_frame st4 ;;
      Ok (PTuple vs, st5)
  | DCallable f => f buf st
  | DCustom _ s f => f (strict_val h s) buf st
  end.

(** ** Construction *)

(** decoding.py:367-385 FixedByteSizeDecoder.validate, data_byte_size = 32 *)
Definition check_dec_sizes (bits : Z) : result unit :=
  raise_if (negb (bits mod 8 =? 0)) ValueError ;;;
  raise_if (32 * 8 <? bits) ValueError.
(** decoding.py:525-532 BaseFixedDecoder.validate *)
Definition check_dec_frac (frac : Z) : result unit :=
  raise_if ((frac <=? 0) || (80 <? frac)) ValueError.

Definition mk_duint (bits : Z) : result decoder := check_dec_sizes bits ;;; Ok (DUInt bits).
Definition mk_dint (bits : Z) : result decoder := check_dec_sizes bits ;;; Ok (DInt bits).
Definition mk_dbytesM (bits : Z) : result decoder := check_dec_sizes bits ;;; Ok (DBytesM bits).
Definition mk_dufixed (bits frac : Z) : result decoder :=
  check_dec_sizes bits ;;; check_dec_frac frac ;;; Ok (DUFixed bits frac).
Definition mk_dfixed (bits frac : Z) : result decoder :=
  check_dec_sizes bits ;;; check_dec_frac frac ;;; Ok (DFixed bits frac).

(** decoding.py:175-183 TupleDecoder.__init__ *)
Definition wrap (d : decoder) : decoder := if dec_is_dyn d then DHeadTail d else d.
Definition mk_dtuple (ds : list decoder) : decoder := DTuple (map wrap ds).

(** decoding.py:271-278 BaseArrayDecoder.__init__: [self.item_decoder.is_dynamic]
    raises AttributeError for a plain callable. *)
Definition mk_item (d : decoder) : result decoder :=
  match dec_dyn_attr d with
  | None => Err AttributeError
  | Some b => Ok (if b then DHeadTail d else d)
  end.
Definition mk_dsized (n : Z) (d : decoder) : result decoder :=
  d' <- mk_item d ;; Ok (DSized n d').
Definition mk_ddyn (d : decoder) : result decoder :=
  d' <- mk_item d ;; Ok (DDyn d').
