(** eth_abi/encoding.py: encoder instances, [validate_value] and [encode].

    An encoder instance is a tree of data: the class of the instance together
    with the keyword arguments it was built from.  Construction checks
    ([validate], and attribute accesses in [__init__]) are the [mk_*]
    functions at the end. *)
From Verif Require Import Py Bytes Utf8 Address Decimals.
Open Scope Z_scope.

Inductive encoder :=
(* encoding.py:278-297 (Packed)UnsignedIntegerEncoder(value_bit_size, data_byte_size) *)
| EUInt (bits dsz : Z)
(* encoding.py:300-329 (Packed)SignedIntegerEncoder *)
| EInt (bits dsz : Z)
(* encoding.py:213-237 (Packed)BooleanEncoder *)
| EBool (dsz : Z)
(* encoding.py:449-471 (Packed)AddressEncoder *)
| EAddr (dsz : Z)
(* encoding.py:370-400 (Packed)UnsignedFixedEncoder *)
| EUFixed (bits frac dsz : Z)
(* encoding.py:403-446 (Packed)SignedFixedEncoder *)
| EFixed (bits frac dsz : Z)
(* encoding.py:474-504 (Packed)BytesEncoder; [bits] is value_bit_size *)
| EBytesM (bits dsz : Z)
(* encoding.py:507-536 (Packed)ByteStringEncoder *)
| EByteString (packed : bool)
(* encoding.py:539-570 (Packed)TextStringEncoder *)
| EText (packed : bool)
(* encoding.py:97-161 TupleEncoder *)
| ETuple (es : list encoder)
(* encoding.py:660-688 SizedArrayEncoder *)
| ESized (n : Z) (e : encoder)
(* encoding.py:691-699 DynamicArrayEncoder *)
| EDyn (e : encoder)
(* encoding.py:627-657 PackedArrayEncoder, array_size may be None *)
| EPackedArr (n : option Z) (e : encoder)
(* a plain callable registered as an encoder (registry.py:32): no
   validate_value, no is_dynamic *)
| ECallable (f : pyval -> result bytes)
(* an instance of a user-defined BaseEncoder subclass *)
| ECustom (dyn : bool) (validate : pyval -> result unit) (enc : pyval -> result bytes).

(** The [is_dynamic] attribute; [None] when the object has none (plain
    callables).  base.py:116, encoding.py:103, 508, 531, 540, 565, 666, 692;
    PackedArrayEncoder inherits the default False. *)
Fixpoint enc_dyn_attr (e : encoder) : option bool :=
  match e with
  | EByteString packed | EText packed => Some (negb packed)
  | ETuple es =>
      Some (existsb (fun e => match enc_dyn_attr e with Some b => b | None => false end) es)
  | ESized _ e => enc_dyn_attr e
  | EDyn _ => Some true
  | ECallable _ => None
  | ECustom d _ _ => Some d
  | _ => Some false
  end.

(** [getattr(e, "is_dynamic", False)] *)
Definition enc_is_dyn (e : encoder) : bool :=
  match enc_dyn_attr e with Some b => b | None => false end.

(** ** Value encoders of fixed size *)

(** encoding.py:254-275 NumberEncoder.validate_value for integer encoders *)
Definition validate_int (lo hi : Z) (v : pyval) : result unit :=
  match v with
  | PInt z => raise_if ((z <? lo) || (hi <? z)) ValueOutOfBounds
  | _ => Err EncodingTypeError
  end.

Definition int_of (v : pyval) : Z := match v with PInt z => z | _ => 0 end.

(** encoding.py:278-285 UnsignedIntegerEncoder *)
Definition validate_uint (bits : Z) (v : pyval) : result unit :=
  let '(lo, hi) := compute_unsigned_integer_bounds bits in validate_int lo hi v.
Definition encode_uint (bits dsz : Z) (v : pyval) : result bytes :=
  validate_uint bits v ;;;
  b <- int_to_big_endian (int_of v) ;;
  Ok (zpad b dsz).

(** encoding.py:288 encode_uint_256 *)
Definition encode_uint_256 (z : Z) : result bytes := encode_uint 256 32 (PInt z).

(** encoding.py:300-320 SignedIntegerEncoder *)
Definition validate_sint (bits : Z) (v : pyval) : result unit :=
  let '(lo, hi) := compute_signed_integer_bounds bits in validate_int lo hi v.
Definition encode_sint (bits dsz : Z) (v : pyval) : result bytes :=
  validate_sint bits v ;;;
  b <- int_to_big_endian (int_of v mod 2 ^ bits) ;;
  Ok (if 0 <=? int_of v then zpad b dsz else fpad b dsz).

(** encoding.py:213-233 BooleanEncoder *)
Definition validate_bool (v : pyval) : result unit :=
  if is_boolean v then Ok tt else Err EncodingTypeError.
Definition encode_bool (dsz : Z) (v : pyval) : result bytes :=
  validate_bool v ;;;
  match v with
  | PBool true => Ok (zpad [x01] dsz)
  | PBool false => Ok (zpad [x00] dsz)
  | _ => Err ValueError
  end.

(** encoding.py:449-467 AddressEncoder *)
Definition validate_addr (v : pyval) : result unit :=
  if is_address v then Ok tt else Err EncodingTypeError.
Definition encode_addr (dsz : Z) (v : pyval) : result bytes :=
  validate_addr v ;;;
  b <- to_canonical_address v ;;
  Ok (zpad b dsz).

(** encoding.py:332-358 BaseFixedEncoder.validate_value (with 254-275) *)
Definition validate_fixed (bounds : result (decimal * decimal)) (frac : Z) (v : pyval)
  : result unit :=
  if negb (is_number v) || match v with PFloat _ => true | _ => false end
  then Err EncodingTypeError
  else if match v with PDec DNaN | PDec (DInf _) => true | _ => false end
  then Err IllegalValue
  else
    ' (lower, upper) <- bounds ;;
    cl <- num_cmp v lower ;;
    cu <- num_cmp v upper ;;
    raise_if (match cl with Lt => true | _ => false end
              || match cu with Gt => true | _ => false end) ValueOutOfBounds ;;;
    d <- to_dec v ;;
    residue <- dec_mod d (ten_pow (- frac)) ;;
    raise_if (dec_ltb ZERO residue) IllegalValue.

(** encoding.py:374-377 and 407-410: [int(value * TEN**frac_places)] *)
Definition scaled_int (frac : Z) (v : pyval) : result Z :=
  d <- to_dec v ;;
  s <- dec_mul d (ten_pow frac) ;;
  Ok (dec_int s).

(** encoding.py:370-388 UnsignedFixedEncoder *)
Definition validate_ufixed (bits frac : Z) (v : pyval) : result unit :=
  validate_fixed (compute_unsigned_fixed_bounds bits frac) frac v.
Definition encode_ufixed (bits frac dsz : Z) (v : pyval) : result bytes :=
  validate_ufixed bits frac v ;;;
  i <- scaled_int frac v ;;
  b <- int_to_big_endian i ;;
  Ok (zpad b dsz).

(** encoding.py:403-434 SignedFixedEncoder *)
Definition validate_sfixed (bits frac : Z) (v : pyval) : result unit :=
  validate_fixed (compute_signed_fixed_bounds bits frac) frac v.
Definition encode_sfixed (bits frac dsz : Z) (v : pyval) : result bytes :=
  validate_sfixed bits frac v ;;;
  i <- scaled_int frac v ;;
  b <- int_to_big_endian (i mod 2 ^ bits) ;;
  c <- num_cmp v ZERO ;;
  Ok (match c with Lt => fpad b dsz | _ => zpad b dsz end).

(** encoding.py:474-495 BytesEncoder *)
Definition validate_bytesM (bits : Z) (v : pyval) : result unit :=
  if is_bytes v
  then raise_if (bits / 8 <? len (bytes_of v)) ValueOutOfBounds
  else Err EncodingTypeError.
Definition encode_bytesM (bits dsz : Z) (v : pyval) : result bytes :=
  validate_bytesM bits v ;;; Ok (zpad_right (bytes_of v) dsz).

(** ** Strings *)

(** [encode_uint_256(len(b)) + zpad_right(b, ceil32(len(b)))],
    encoding.py:518-523 and 552-557 *)
Definition encode_length_prefixed (b : bytes) : result bytes :=
  size <- encode_uint_256 (len b) ;;
  Ok (size ++ zpad_right b (ceil32 (len b))).

(** encoding.py:507-523, 530-536 *)
Definition validate_bytestring (v : pyval) : result unit :=
  if is_bytes v then Ok tt else Err EncodingTypeError.
Definition encode_bytestring (packed : bool) (v : pyval) : result bytes :=
  validate_bytestring v ;;;
  if packed then Ok (bytes_of v) else encode_length_prefixed (bytes_of v).

(** encoding.py:539-557, 564-570 *)
Definition validate_text (v : pyval) : result unit :=
  if is_text v then Ok tt else Err EncodingTypeError.
Definition encode_text (packed : bool) (v : pyval) : result bytes :=
  validate_text v ;;;
  b <- utf8_encode (match v with PStr s => s | _ => [] end) ;;
  if packed then Ok b else encode_length_prefixed b.

(** ** Containers *)

(** [(0,) + tuple(accumulate(map(len, chunks[:-1])))], zipped with the chunks:
    the offset of each chunk from the start of the tail. *)
Fixpoint tail_offsets (acc : Z) (chunks : list bytes) : list Z :=
  match chunks with
  | [] => []
  | c :: cs => acc :: tail_offsets (acc + len c) cs
  end.

(** encoding.py:135-143: the loop over zip(values, encoders).  A head chunk is
    [None] for a dynamic element.  [des] pairs each encoder's is_dynamic with
    its encode function. *)
Fixpoint tuple_chunks (des : list (bool * (pyval -> result bytes))) (vs : list pyval)
  : result (list (option bytes * bytes)) :=
  match des, vs with
  | (dyn, enc) :: des', v :: vs' =>
      b <- enc v ;;
      rest <- tuple_chunks des' vs' ;;
      Ok ((if dyn then (None, b) else (Some b, [])) :: rest)
  | _, _ => Ok []
  end.

(** encoding.py:145-153 *)
Definition join_chunks (chunks : list (option bytes * bytes)) : result bytes :=
  let head_length :=
    fold_right (fun c acc => match fst c with None => 32 | Some b => len b end + acc) 0 chunks in
  heads <- mapM (fun co =>
                   match fst co with
                   | None => encode_uint_256 (head_length + snd co)
                   | Some b => Ok b
                   end)
                (combine (map fst chunks) (tail_offsets 0 (map snd chunks))) ;;
  Ok (concat heads ++ concat (map snd chunks)).

(** encoding.py:126-130: try validate_value, on AttributeError call the
    encoder itself. *)
Fixpoint tuple_validate_items
    (ves : list ((pyval -> result unit) * (pyval -> result bytes))) (vs : list pyval)
  : result unit :=
  match ves, vs with
  | (val, enc) :: ves', v :: vs' =>
      match val v with
      | Err AttributeError => enc v ;;; tuple_validate_items ves' vs'
      | Err e => Err e
      | Ok _ => tuple_validate_items ves' vs'
      end
  | _, _ => Ok tt
  end.

(** encoding.py:111-130 *)
Definition tuple_validate
    (ves : list ((pyval -> result unit) * (pyval -> result bytes))) (v : pyval) : result unit :=
  if negb (is_list_like v) then Err EncodingTypeError
  else if negb (len (items v) =? len ves) then Err ValueOutOfBounds
  else tuple_validate_items ves (items v).

(** encoding.py:582-590 BaseArrayEncoder.validate_value *)
Fixpoint validate_all (val : pyval -> result unit) (vs : list pyval) : result unit :=
  match vs with
  | [] => Ok tt
  | v :: vs' => val v ;;; validate_all val vs'
  end.
Definition array_validate (val : pyval -> result unit) (v : pyval) : result unit :=
  if negb (is_list_like v) then Err EncodingTypeError else validate_all val (items v).

(** encoding.py:630-639 and 674-683: the size check after the items *)
Definition sized_validate (n : option Z) (val : pyval -> result unit) (v : pyval) : result unit :=
  array_validate val v ;;;
  match n with
  | None => Ok tt
  | Some n => raise_if (negb (len (items v) =? n)) ValueOutOfBounds
  end.

(** encoding.py:592-609 encode_elements; [validate] is self.validate_value *)
Definition encode_elements (validate : pyval -> result unit) (dyn : bool)
    (enc : pyval -> result bytes) (v : pyval) : result bytes :=
  validate v ;;;
  chunks <- mapM enc (items v) ;;
  if negb dyn || (len (items v) =? 0) then Ok (concat chunks)
  else
    heads <- mapM (fun off => encode_uint_256 (32 * len (items v) + off)) (tail_offsets 0 chunks) ;;
    Ok (concat heads ++ concat chunks).

(** [(e.validate_value, e.encode)] for every encoder. *)
Fixpoint ve (e : encoder) : (pyval -> result unit) * (pyval -> result bytes) :=
  match e with
  | EUInt bits dsz => (validate_uint bits, encode_uint bits dsz)
  | EInt bits dsz => (validate_sint bits, encode_sint bits dsz)
  | EBool dsz => (validate_bool, encode_bool dsz)
  | EAddr dsz => (validate_addr, encode_addr dsz)
  | EUFixed bits frac dsz => (validate_ufixed bits frac, encode_ufixed bits frac dsz)
  | EFixed bits frac dsz => (validate_sfixed bits frac, encode_sfixed bits frac dsz)
  | EBytesM bits dsz => (validate_bytesM bits, encode_bytesM bits dsz)
  | EByteString packed => (validate_bytestring, encode_bytestring packed)
  | EText packed => (validate_text, encode_text packed)
  | ETuple es =>
      let ves := map ve es in
      let val := tuple_validate ves in
      (val,
       fun v =>
         val v ;;;
         chunks <- tuple_chunks (combine (map enc_is_dyn es) (map snd ves)) (items v) ;;
         join_chunks chunks)
  | ESized n e =>
      let val := sized_validate (Some n) (fst (ve e)) in
      (val, encode_elements val (enc_is_dyn e) (snd (ve e)))
  | EDyn e =>
      let val := array_validate (fst (ve e)) in
      (val,
       fun v =>
         n <- py_len v ;;
         size <- encode_uint_256 n ;;
         elements <- encode_elements val (enc_is_dyn e) (snd (ve e)) v ;;
         Ok (size ++ elements))
  | EPackedArr n e =>
      let val := sized_validate n (fst (ve e)) in
      (val, encode_elements val (enc_is_dyn e) (snd (ve e)))
  | ECallable f => (fun _ => Err AttributeError, f)
  | ECustom _ val enc => (val, enc)
  end.

Definition validate_value (e : encoder) : pyval -> result unit := fst (ve e).
Definition encode_with (e : encoder) : pyval -> result bytes := snd (ve e).

(** ** Construction *)

(** encoding.py:171-190 FixedSizeEncoder.validate *)
Definition check_sizes (bits dsz : Z) : result unit :=
  raise_if (negb (bits mod 8 =? 0)) ValueError ;;;
  raise_if (dsz * 8 <? bits) ValueError.

Definition mk_uint (bits dsz : Z) : result encoder :=
  check_sizes bits dsz ;;; Ok (EUInt bits dsz).
Definition mk_sint (bits dsz : Z) : result encoder :=
  check_sizes bits dsz ;;; Ok (EInt bits dsz).
Definition mk_bytesM (bits dsz : Z) : result encoder :=
  check_sizes bits dsz ;;; Ok (EBytesM bits dsz).

(** encoding.py:360-367 BaseFixedEncoder.validate *)
Definition check_frac (frac : Z) : result unit :=
  raise_if ((frac <=? 0) || (80 <? frac)) ValueError.
Definition mk_ufixed (bits frac dsz : Z) : result encoder :=
  check_sizes bits dsz ;;; check_frac frac ;;; Ok (EUFixed bits frac dsz).
Definition mk_sfixed (bits frac dsz : Z) : result encoder :=
  check_sizes bits dsz ;;; check_frac frac ;;; Ok (EFixed bits frac dsz).

(** encoding.py:663-666 SizedArrayEncoder.__init__: [self.item_encoder.is_dynamic]
    raises AttributeError for a plain callable. *)
Definition mk_sized (n : Z) (e : encoder) : result encoder :=
  match enc_dyn_attr e with
  | None => Err AttributeError
  | Some _ => Ok (ESized n e)
  end.
