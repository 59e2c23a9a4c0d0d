(** Coders built by hand: the keyword constructor of eth_abi/base.py:112-137 and
    the [__init__] and [validate] methods of the concrete classes of
    eth_abi/encoding.py and eth_abi/decoding.py, with any sizes.

    Encoding.v and Decoding.v model the instances that [from_type_str] builds
    ([mk_uint] and so on); ConstructProofs.v shows that those are what the
    constructors below give for the same arguments. *)
From Verif Require Import Py Bytes Utf8 Address Decimals Encoding Decoding.
Open Scope Z_scope.

(** Keywords: the data and function attributes of the classes.  [KAbsent n] is a
    name that no coder class has.  Simplification: keywords that name methods
    ([encode], [validate], ...) are not modelled. *)
Inductive key :=
| KValueBitSize | KDataByteSize | KIsBigEndian | KFracPlaces | KIsDynamic | KStrict
| KEncodeFn | KTypeCheckFn | KBoundsFn | KIllegalValueFn | KDecoderFn
| KEncoders | KItemEncoder | KArraySize | KDecoders | KItemDecoder | KTailDecoder
| KAbsent (n : N).

Definition key_eqb (a b : key) : bool :=
  match a, b with
  | KValueBitSize, KValueBitSize | KDataByteSize, KDataByteSize | KIsBigEndian, KIsBigEndian
  | KFracPlaces, KFracPlaces | KIsDynamic, KIsDynamic | KStrict, KStrict
  | KEncodeFn, KEncodeFn | KTypeCheckFn, KTypeCheckFn | KBoundsFn, KBoundsFn
  | KIllegalValueFn, KIllegalValueFn | KDecoderFn, KDecoderFn
  | KEncoders, KEncoders | KItemEncoder, KItemEncoder | KArraySize, KArraySize
  | KDecoders, KDecoders | KItemDecoder, KItemDecoder | KTailDecoder, KTailDecoder => true
  | KAbsent m, KAbsent n => N.eqb m n
  | _, _ => false
  end.

(** Attribute values.  [AFun] is a function defined by the class; [AObj] any
    object that supports no arithmetic (a function given by the caller, a
    string, ...).  Simplification: a function given by the caller is only
    tested for being None, never called. *)
Inductive attr :=
| ANone
| AInt (z : Z)
| ABool (b : bool)
| AFun
| AObj
| AEnc (e : encoder)
| AEncs (es : list encoder)
| ADec (d : decoder)
| ADecs (ds : list decoder).

Definition is_none (a : attr) : bool := match a with ANone => true | _ => false end.
(** Arithmetic and comparison with an int; bool is an int. *)
Definition num (a : attr) : result Z :=
  match a with
  | AInt z => Ok z
  | ABool b => Ok (if b then 1 else 0)
  | _ => Err TypeError
  end.
(** [bool(a)]; an empty tuple is false, objects are true *)
Definition truthy (a : attr) : bool :=
  match a with
  | ANone => false
  | AInt z => negb (z =? 0)
  | ABool b => b
  | AEncs [] | ADecs [] => false
  | _ => true
  end.

(** The concrete classes. *)
Inductive cls :=
(* encoding.py:213-237 *) | NBoolEnc | NPackedBoolEnc
(* encoding.py:278-329 *) | NUIntEnc | NPackedUIntEnc | NIntEnc | NPackedIntEnc
(* encoding.py:370-446 *) | NUFixedEnc | NPackedUFixedEnc | NFixedEnc | NPackedFixedEnc
(* encoding.py:449-471 *) | NAddrEnc | NPackedAddrEnc
(* encoding.py:474-504 *) | NBytesEnc | NPackedBytesEnc
(* encoding.py:507-570 *) | NByteStringEnc | NPackedByteStringEnc | NTextEnc | NPackedTextEnc
(* encoding.py:97-161, 627-699 *) | NTupleEnc | NPackedArrayEnc | NSizedEnc | NDynEnc
(* decoding.py:137-236 *) | NHeadTailDec | NTupleDec
(* decoding.py:326-358 *) | NSizedDec | NDynDec
(* decoding.py:429-582 *) | NBoolDec | NAddrDec | NUIntDec | NIntDec | NBytesDec | NUFixedDec | NFixedDec
(* decoding.py:588-620 *) | NByteStringDec.

(** ** Class attributes; [None] where [hasattr(cls, key)] is False *)

(** base.py:117, encoding.py:164-169 FixedSizeEncoder, 209-210 Fixed32ByteSizeEncoder *)
Definition fixed_enc_attr (k : key) : option attr :=
  match k with
  | KIsDynamic => Some (ABool false)
  | KValueBitSize | KEncodeFn | KTypeCheckFn | KIsBigEndian => Some ANone
  | KDataByteSize => Some (AInt 32)
  | _ => None
  end.
(** encoding.py:240-244 NumberEncoder *)
Definition number_enc_attr (k : key) : option attr :=
  match k with
  | KIsBigEndian => Some (ABool true)
  | KBoundsFn | KIllegalValueFn | KTypeCheckFn => Some ANone
  | _ => fixed_enc_attr k
  end.
(** encoding.py:332-344 BaseFixedEncoder *)
Definition base_fixed_enc_attr (k : key) : option attr :=
  match k with
  | KFracPlaces => Some ANone
  | KTypeCheckFn | KIllegalValueFn => Some AFun
  | _ => number_enc_attr k
  end.
(** base.py:117, encoding.py:573-574 BaseArrayEncoder *)
Definition array_enc_attr (k : key) : option attr :=
  match k with
  | KIsDynamic => Some (ABool false)
  | KItemEncoder => Some ANone
  | _ => None
  end.
(** base.py:117, decoding.py:123 BaseDecoder *)
Definition base_dec_attr (k : key) : option attr :=
  match k with
  | KIsDynamic => Some (ABool false)
  | KStrict => Some (ABool true)
  | _ => None
  end.
(** decoding.py:239-240, 361-365, 425-426 SingleDecoder, FixedByteSizeDecoder,
    Fixed32ByteSizeDecoder *)
Definition fixed_dec_attr (k : key) : option attr :=
  match k with
  | KDecoderFn | KValueBitSize | KIsBigEndian => Some ANone
  | KDataByteSize => Some (AInt 32)
  | _ => base_dec_attr k
  end.
(** decoding.py:268-269 BaseArrayDecoder *)
Definition array_dec_attr (k : key) : option attr :=
  match k with KItemDecoder => Some ANone | _ => base_dec_attr k end.

Definition class_attr (c : cls) (k : key) : option attr :=
  match c with
  | NBoolEnc =>          (* encoding.py:214-215, 222-229 *)
      match k with
      | KValueBitSize => Some (AInt 8) | KIsBigEndian => Some (ABool true) | KEncodeFn => Some AFun
      | _ => fixed_enc_attr k
      end
  | NPackedBoolEnc =>    (* encoding.py:237 *)
      match k with
      | KValueBitSize => Some (AInt 8) | KIsBigEndian => Some (ABool true) | KEncodeFn => Some AFun
      | KDataByteSize => Some (AInt 1)
      | _ => fixed_enc_attr k
      end
  | NUIntEnc | NPackedUIntEnc | NIntEnc | NPackedIntEnc =>  (* encoding.py:279-281, 301-305 *)
      match k with
      | KEncodeFn | KBoundsFn | KTypeCheckFn => Some AFun
      | _ => number_enc_attr k
      end
  | NUFixedEnc | NPackedUFixedEnc | NFixedEnc | NPackedFixedEnc =>  (* encoding.py:371-379, 404-414 *)
      match k with
      | KEncodeFn | KBoundsFn => Some AFun
      | _ => base_fixed_enc_attr k
      end
  | NAddrEnc =>          (* encoding.py:450-452 *)
      match k with
      | KValueBitSize => Some (AInt 160) | KEncodeFn => Some AFun | KIsBigEndian => Some (ABool true)
      | _ => fixed_enc_attr k
      end
  | NPackedAddrEnc =>    (* encoding.py:471 *)
      match k with
      | KValueBitSize => Some (AInt 160) | KEncodeFn => Some AFun | KIsBigEndian => Some (ABool true)
      | KDataByteSize => Some (AInt 20)
      | _ => fixed_enc_attr k
      end
  | NBytesEnc | NPackedBytesEnc =>  (* encoding.py:475, 489-491 *)
      match k with
      | KIsBigEndian => Some (ABool false) | KEncodeFn => Some AFun
      | _ => fixed_enc_attr k
      end
  | NByteStringEnc | NTextEnc =>    (* encoding.py:508, 540 *)
      match k with KIsDynamic => Some (ABool true) | _ => None end
  | NPackedByteStringEnc | NPackedTextEnc =>  (* encoding.py:531, 565 *)
      match k with KIsDynamic => Some (ABool false) | _ => None end
  | NTupleEnc =>         (* encoding.py:98 *)
      match k with KIsDynamic => Some (ABool false) | KEncoders => Some ANone | _ => None end
  | NPackedArrayEnc | NSizedEnc =>  (* encoding.py:628, 661 *)
      match k with KArraySize => Some ANone | _ => array_enc_attr k end
  | NDynEnc =>           (* encoding.py:692 *)
      match k with KIsDynamic => Some (ABool true) | _ => array_enc_attr k end
  | NHeadTailDec =>      (* decoding.py:145-147 *)
      match k with
      | KIsDynamic => Some (ABool true) | KTailDecoder => Some ANone
      | _ => base_dec_attr k
      end
  | NTupleDec =>         (* decoding.py:173 *)
      match k with KDecoders => Some ANone | _ => base_dec_attr k end
  | NSizedDec =>         (* decoding.py:327 *)
      match k with KArraySize => Some ANone | _ => array_dec_attr k end
  | NDynDec =>           (* decoding.py:346 *)
      match k with KIsDynamic => Some (ABool true) | _ => array_dec_attr k end
  | NBoolDec =>          (* decoding.py:430-434 *)
      match k with
      | KValueBitSize => Some (AInt 8) | KIsBigEndian => Some (ABool true) | KDecoderFn => Some AFun
      | _ => fixed_dec_attr k
      end
  | NAddrDec =>          (* decoding.py:450-452 *)
      match k with
      | KValueBitSize => Some (AInt 160) | KIsBigEndian => Some (ABool true) | KDecoderFn => Some AFun
      | _ => fixed_dec_attr k
      end
  | NUIntDec | NIntDec => (* decoding.py:463-464, 478-480 *)
      match k with
      | KIsBigEndian => Some (ABool true) | KDecoderFn => Some AFun
      | _ => fixed_dec_attr k
      end
  | NBytesDec =>         (* decoding.py:510-514 *)
      match k with
      | KIsBigEndian => Some (ABool false) | KDecoderFn => Some AFun
      | _ => fixed_dec_attr k
      end
  | NUFixedDec | NFixedDec =>  (* decoding.py:522-523, 536, 552 *)
      match k with
      | KFracPlaces => Some ANone | KIsBigEndian => Some (ABool true) | KDecoderFn => Some AFun
      | _ => fixed_dec_attr k
      end
  | NByteStringDec =>    (* decoding.py:589-593 *)
      match k with
      | KIsDynamic => Some (ABool true) | KDecoderFn => Some AFun
      | _ => base_dec_attr k
      end
  end.

(** ** Instances *)

(** The attributes of an instance: those set on it, else those of its class
    ([ANone] stands for a missing one; no method reads a missing attribute). *)
Definition instance := key -> attr.
Definition fresh (c : cls) : instance :=
  fun k => match class_attr c k with Some a => a | None => ANone end.
Definition setattr (o : instance) (k : key) (a : attr) : instance :=
  fun k' => if key_eqb k' k then a else o k'.

(** base.py:123-134: the loop over the keyword arguments *)
Fixpoint set_kwargs (c : cls) (kw : list (key * attr)) (o : instance) : result instance :=
  match kw with
  | [] => Ok o
  | (k, a) :: kw' =>
      match class_attr c k with
      | None => Err AttributeError
      | Some _ => set_kwargs c kw' (setattr o k a)
      end
  end.

(** encoding.py:171-190 FixedSizeEncoder.validate and decoding.py:244-248,
    367-385 FixedByteSizeDecoder.validate; [fn] is encode_fn / decoder_fn *)
Definition validate_sizes (fn : key) (o : instance) : result unit :=
  raise_if (is_none (o KValueBitSize)) ValueError ;;;
  raise_if (is_none (o KDataByteSize)) ValueError ;;;
  raise_if (is_none (o fn)) ValueError ;;;
  raise_if (is_none (o KIsBigEndian)) ValueError ;;;
  bits <- num (o KValueBitSize) ;;
  raise_if (negb (bits mod 8 =? 0)) ValueError ;;;
  dsz <- num (o KDataByteSize) ;;
  raise_if (dsz * 8 <? bits) ValueError.
(** encoding.py:246-252 NumberEncoder.validate *)
Definition validate_number (o : instance) : result unit :=
  validate_sizes KEncodeFn o ;;;
  raise_if (is_none (o KBoundsFn)) ValueError ;;;
  raise_if (is_none (o KTypeCheckFn)) ValueError.
(** encoding.py:360-367 and decoding.py:525-532 *)
Definition validate_frac (o : instance) : result unit :=
  raise_if (is_none (o KFracPlaces)) ValueError ;;;
  frac <- num (o KFracPlaces) ;;
  raise_if ((frac <=? 0) || (80 <? frac)) ValueError.

(** [self.validate()] *)
Definition validate (c : cls) (o : instance) : result unit :=
  match c with
  | NBoolEnc | NPackedBoolEnc | NBytesEnc | NPackedBytesEnc => validate_sizes KEncodeFn o
  | NUIntEnc | NPackedUIntEnc | NIntEnc | NPackedIntEnc => validate_number o
  | NUFixedEnc | NPackedUFixedEnc | NFixedEnc | NPackedFixedEnc => validate_number o ;;; validate_frac o
  | NAddrEnc | NPackedAddrEnc =>   (* encoding.py:459-463 *)
      validate_sizes KEncodeFn o ;;;
      bits <- num (o KValueBitSize) ;;
      raise_if (negb (bits =? 160)) ValueError
  | NByteStringEnc | NPackedByteStringEnc | NTextEnc | NPackedTextEnc => Ok tt
  | NTupleEnc => raise_if (is_none (o KEncoders)) ValueError          (* encoding.py:105-109 *)
  | NPackedArrayEnc | NDynEnc => raise_if (is_none (o KItemEncoder)) ValueError  (* encoding.py:576-580 *)
  | NSizedEnc =>                   (* encoding.py:668-672 *)
      raise_if (is_none (o KItemEncoder)) ValueError ;;;
      raise_if (is_none (o KArraySize)) ValueError
  | NHeadTailDec => raise_if (is_none (o KTailDecoder)) ValueError    (* decoding.py:149-153 *)
  | NTupleDec => raise_if (is_none (o KDecoders)) ValueError          (* decoding.py:185-189 *)
  | NSizedDec | NDynDec => raise_if (is_none (o KItemDecoder)) ValueError  (* decoding.py:280-284 *)
  | NBoolDec | NAddrDec | NUIntDec | NIntDec | NBytesDec =>
      raise_if (is_none (o KDecoderFn)) ValueError ;;; validate_sizes KDecoderFn o
  | NUFixedDec | NFixedDec =>
      raise_if (is_none (o KDecoderFn)) ValueError ;;; validate_sizes KDecoderFn o ;;; validate_frac o
  | NByteStringDec => raise_if (is_none (o KDecoderFn)) ValueError
  end.

(** What the classes' own [__init__] do after [super().__init__] *)
Definition finish (c : cls) (o : instance) : result instance :=
  match c with
  | NTupleEnc =>   (* encoding.py:100-103 *)
      match o KEncoders with
      | AEncs es => Ok (setattr o KIsDynamic (ABool (existsb enc_is_dyn es)))
      | _ => Err TypeError
      end
  | NSizedEnc =>   (* encoding.py:663-666 *)
      match o KItemEncoder with
      | AEnc e =>
          match enc_dyn_attr e with
          | Some b => Ok (setattr o KIsDynamic (ABool b))
          | None => Err AttributeError
          end
      | _ => Err AttributeError
      end
  | NTupleDec =>   (* decoding.py:175-183 *)
      match o KDecoders with
      | ADecs ds =>
          let o1 := setattr o KDecoders (ADecs (map wrap ds)) in
          Ok (setattr o1 KIsDynamic (ABool (existsb dec_is_dyn (map wrap ds))))
      | _ => Err TypeError
      end
  | NDynDec | NSizedDec =>   (* decoding.py:271-278, 329-332 *)
      match o KItemDecoder with
      | ADec d =>
          d' <- mk_item d ;;
          let o1 := setattr o KItemDecoder (ADec d') in
          match c, dec_dyn_attr d' with
          | NSizedDec, Some b => Ok (setattr o1 KIsDynamic (ABool b))
          | NSizedDec, None => Err AttributeError
          | _, _ => Ok o1
          end
      | _ => Err AttributeError
      end
  | _ => Ok o
  end.

(** [cls( **kwargs)], base.py:119-137 *)
Definition construct (c : cls) (kw : list (key * attr)) : result instance :=
  o <- set_kwargs c kw (fresh c) ;;
  validate c o ;;;
  finish c o.

(** ** Encoding and decoding with an instance of a leaf class *)

(** encoding.py:195-206 FixedSizeEncoder.encode: the padding *)
Definition pad_obj (o : instance) (b : bytes) : result bytes :=
  dsz <- num (o KDataByteSize) ;;
  Ok (if truthy (o KIsBigEndian) then zpad b dsz else zpad_right b dsz).
(** encoding.py:307-316, 416-425: SignedIntegerEncoder.encode and
    SignedFixedEncoder.encode ignore is_big_endian *)
Definition pad_signed (o : instance) (neg : bool) (b : bytes) : result bytes :=
  dsz <- num (o KDataByteSize) ;;
  Ok (if neg then fpad b dsz else zpad b dsz).

Definition encode_obj (c : cls) (o : instance) (v : pyval) : result bytes :=
  match c with
  | NBoolEnc | NPackedBoolEnc =>
      validate_bool v ;;;
      pad_obj o (match v with PBool true => [x01] | _ => [x00] end)
  | NUIntEnc | NPackedUIntEnc =>
      bits <- num (o KValueBitSize) ;;
      validate_uint bits v ;;;
      b <- int_to_big_endian (int_of v) ;; pad_obj o b
  | NIntEnc | NPackedIntEnc =>
      bits <- num (o KValueBitSize) ;;
      validate_sint bits v ;;;
      b <- int_to_big_endian (int_of v mod 2 ^ bits) ;;
      pad_signed o (int_of v <? 0) b
  | NUFixedEnc | NPackedUFixedEnc =>
      bits <- num (o KValueBitSize) ;; frac <- num (o KFracPlaces) ;;
      validate_ufixed bits frac v ;;;
      i <- scaled_int frac v ;;
      b <- int_to_big_endian i ;; pad_obj o b
  | NFixedEnc | NPackedFixedEnc =>
      bits <- num (o KValueBitSize) ;; frac <- num (o KFracPlaces) ;;
      validate_sfixed bits frac v ;;;
      i <- scaled_int frac v ;;
      b <- int_to_big_endian (i mod 2 ^ bits) ;;
      c <- num_cmp v ZERO ;;
      pad_signed o (match c with Lt => true | _ => false end) b
  | NAddrEnc | NPackedAddrEnc =>
      validate_addr v ;;;
      b <- to_canonical_address v ;; pad_obj o b
  | NBytesEnc | NPackedBytesEnc =>
      bits <- num (o KValueBitSize) ;;
      validate_bytesM bits v ;;; pad_obj o (bytes_of v)
  | _ => Err NotImplementedError      (* not a leaf class: see Encoding.v *)
  end.

(** decoding.py:250-259, 387-409: [decode_word] of Decoding.v with any
    data_byte_size *)
Definition decode_sized (o : instance) (fn : Z -> bytes -> result pyval)
    (check : pyval -> bytes -> Z -> result unit) (buf : bytes) (st : stream)
  : result (pyval * stream) :=
  bits <- num (o KValueBitSize) ;;
  dsz <- num (o KDataByteSize) ;;
  ' (raw, st') <- read_fixed buf dsz st ;;
  let vsz := bits / 8 in
  let psz := dsz - vsz in
  let '(data, padding) :=
    if truthy (o KIsBigEndian) then (drop_z psz raw, take_z psz raw)
    else (take_z vsz raw, drop_z vsz raw) in
  v <- fn bits data ;;
  check v padding psz ;;;
  Ok (v, st').

Definition decode_obj (c : cls) (o : instance) : bytes -> stream -> result (pyval * stream) :=
  match c with
  | NBoolDec => decode_sized o (fun _ => bool_fn) check_zero_padding
  | NAddrDec =>
      decode_sized o (fun _ b => s <- to_normalized_address (PBytes b) ;; Ok (PStr s)) check_zero_padding
  | NUIntDec => decode_sized o (fun _ b => Ok (PInt (from_be b))) check_zero_padding
  | NIntDec => decode_sized o (fun bits b => Ok (PInt (signed_of bits (from_be b)))) check_sign_padding
  | NBytesDec => decode_sized o (fun _ b => Ok (PBytes b)) check_zero_padding
  | NUFixedDec =>
      decode_sized o (fun _ b => frac <- num (o KFracPlaces) ;; unscale frac (from_be b)) check_zero_padding
  | NFixedDec =>
      decode_sized o (fun bits b => frac <- num (o KFracPlaces) ;; unscale frac (signed_of bits (from_be b)))
        check_sign_padding
  | _ => fun _ _ => Err NotImplementedError
  end.
