(** What the exceptions of the constructors say.

    [construct_told] repeats [construct] of Construct.v, but a failure carries
    what goes into the message; FaultProofs.v shows that it gives the same
    results. *)
From Coq Require Import Strings.String.
From Verif Require Import Py Bytes Grammar Encoding Decoding Limits Construct.
Open Scope Z_scope.

Inductive fault :=
(* base.py:125-132 "Property {key} not found on {cls} class. ..." *)
| Unknown (k : key)
(* "`{key}` may not be none" and the like *)
| Missing (k : key)
(* encoding.py:184-187, decoding.py:380-382 *)
| NotBytes (bits : attr)
(* encoding.py:190, decoding.py:385 *)
| TooWide
(* encoding.py:367, decoding.py:532 *)
| Places
(* encoding.py:463 *)
| Not160
(* arithmetic with an object that is no number, members that are no coders *)
| Elsewhere (e : exc).
Definition class_of_fault (f : fault) : exc :=
  match f with Unknown _ => AttributeError | Elsewhere e => e | _ => ValueError end.

Inductive built (A : Type) := Made (a : A) | Faulty (f : fault).
Arguments Made {A}. Arguments Faulty {A}.
Definition fbind {A B} (m : built A) (g : A -> built B) : built B := match m with Made a => g a | Faulty f => Faulty f end.
Notation "x <^ m ;; g" := (fbind m (fun x => g)) (at level 61, m at next level, right associativity).
Notation "m ;^ g" := (fbind m (fun _ => g)) (at level 61, right associativity).
Definition silently {A} (r : result A) : built A := match r with Ok a => Made a | Err e => Faulty (Elsewhere e) end.
(** The exception alone. *)
Definition forget {A} (m : built A) : result A := match m with Made a => Ok a | Faulty f => Err (class_of_fault f) end.
Definition fault_if (bad : bool) (f : fault) : built unit := if bad then Faulty f else Made tt.
Definition need (o : instance) (k : key) : built unit := fault_if (is_none (o k)) (Missing k).

(** base.py:123-134 *)
Fixpoint set_kwargs_told (c : cls) (kw : list (key * attr)) (o : instance) : built instance :=
  match kw with
  | [] => Made o
  | (k, a) :: kw' => match class_attr c k with None => Faulty (Unknown k) | Some _ => set_kwargs_told c kw' (setattr o k a) end
  end.
(** encoding.py:171-190, decoding.py:367-385 *)
Definition validate_sizes_told (fn : key) (o : instance) : built unit :=
  need o KValueBitSize ;^ need o KDataByteSize ;^ need o fn ;^ need o KIsBigEndian ;^
  bits <^ silently (num (o KValueBitSize)) ;;
  fault_if (negb (bits mod 8 =? 0)) (NotBytes (o KValueBitSize)) ;^
  dsz <^ silently (num (o KDataByteSize)) ;;
  fault_if (dsz * 8 <? bits) TooWide.
(** encoding.py:246-252 *)
Definition validate_number_told (o : instance) : built unit :=
  validate_sizes_told KEncodeFn o ;^ need o KBoundsFn ;^ need o KTypeCheckFn.
(** encoding.py:360-367, decoding.py:525-532 *)
Definition validate_frac_told (o : instance) : built unit :=
  need o KFracPlaces ;^
  frac <^ silently (num (o KFracPlaces)) ;;
  fault_if ((frac <=? 0) || (80 <? frac)) Places.
(** [self.validate()] *)
Definition validate_told (c : cls) (o : instance) : built unit :=
  match c with
  | NBoolEnc | NPackedBoolEnc | NBytesEnc | NPackedBytesEnc => validate_sizes_told KEncodeFn o
  | NUIntEnc | NPackedUIntEnc | NIntEnc | NPackedIntEnc => validate_number_told o
  | NUFixedEnc | NPackedUFixedEnc | NFixedEnc | NPackedFixedEnc => validate_number_told o ;^ validate_frac_told o
  | NAddrEnc | NPackedAddrEnc =>   (* encoding.py:459-463 *)
      validate_sizes_told KEncodeFn o ;^
      bits <^ silently (num (o KValueBitSize)) ;;
      fault_if (negb (bits =? 160)) Not160
  | NByteStringEnc | NPackedByteStringEnc | NTextEnc | NPackedTextEnc => Made tt
  | NTupleEnc => need o KEncoders                     (* encoding.py:105-109 *)
  | NPackedArrayEnc | NDynEnc => need o KItemEncoder  (* encoding.py:576-580 *)
  | NSizedEnc => need o KItemEncoder ;^ need o KArraySize  (* encoding.py:668-672 *)
  | NHeadTailDec => need o KTailDecoder               (* decoding.py:149-153 *)
  | NTupleDec => need o KDecoders                     (* decoding.py:185-189 *)
  | NSizedDec | NDynDec => need o KItemDecoder        (* decoding.py:280-284 *)
  | NBoolDec | NAddrDec | NUIntDec | NIntDec | NBytesDec => need o KDecoderFn ;^ validate_sizes_told KDecoderFn o
  | NUFixedDec | NFixedDec => need o KDecoderFn ;^ validate_sizes_told KDecoderFn o ;^ validate_frac_told o
  | NByteStringDec => need o KDecoderFn
  end.
(** [cls( **kwargs)], base.py:119-137 *)
Definition construct_told (c : cls) (kw : list (key * attr)) : built instance :=
  o <^ set_kwargs_told c kw (fresh c) ;;
  validate_told c o ;^
  silently (finish c o).

(** ** The texts *)

(** [absent] gives the names that no class has. *)
Definition key_text (absent : N -> pystr) (k : key) : pystr :=
  match k with
  | KValueBitSize => lit "value_bit_size" | KDataByteSize => lit "data_byte_size" | KIsBigEndian => lit "is_big_endian"
  | KFracPlaces => lit "frac_places" | KIsDynamic => lit "is_dynamic" | KStrict => lit "strict"
  | KEncodeFn => lit "encode_fn" | KTypeCheckFn => lit "type_check_fn" | KBoundsFn => lit "bounds_fn"
  | KIllegalValueFn => lit "illegal_value_fn" | KDecoderFn => lit "decoder_fn"
  | KEncoders => lit "encoders" | KItemEncoder => lit "item_encoder" | KArraySize => lit "array_size"
  | KDecoders => lit "decoders" | KItemDecoder => lit "item_decoder" | KTailDecoder => lit "tail_decoder"
  | KAbsent n => absent n
  end.
Definition is_encoder_class (c : cls) : bool :=
  match c with
  | NHeadTailDec | NTupleDec | NSizedDec | NDynDec | NBoolDec | NAddrDec | NUIntDec | NIntDec | NBytesDec | NUFixedDec | NFixedDec
  | NByteStringDec => false
  | _ => true
  end.
(** format(_, "") of a size; beyond 4300 digits it raises a ValueError with a
    text of CPython *)
Definition size_text (a : attr) : option pystr :=
  match a with
  | AInt z => if long_int z then None else Some (str_of_Z z)
  | ABool true => Some (lit "True") | ABool false => Some (lit "False")
  | _ => None
  end.
(** [name] is [cls.__name__]. *)
Definition fault_text (absent : N -> pystr) (c : cls) (name : pystr) (f : fault) : option pystr :=
  let tick s := lit "`" ++ s ++ lit "`" in
  match f with
  (* base.py:126-132 *)
  | Unknown k =>
      Some (lit "Property " ++ key_text absent k ++ lit " not found on " ++ name ++ lit " class. `" ++ name
            ++ lit ".__init__` only accepts keyword arguments which are present on the " ++ name ++ lit " class.")
  | Missing k =>
      match k with
      (* encoding.py:250, 252 *)
      | KBoundsFn | KTypeCheckFn => Some (tick (key_text absent k) ++ lit " cannot be null")
      (* encoding.py:364, decoding.py:529 *)
      | KFracPlaces => Some (lit "must specify " ++ tick (key_text absent k))
      (* decoding.py:153, 189, 246, 284 *)
      | KTailDecoder | KDecoders | KDecoderFn | KItemDecoder => Some (lit "No " ++ tick (key_text absent k) ++ lit " set")
      (* encoding.py:109, 175-181, 580, 672, decoding.py:371-377 *)
      | _ => Some (tick (key_text absent k) ++ (if is_encoder_class c then lit " may not be none" else lit " may not be None"))
      end
  (* encoding.py:185-186; decoding.py:381 is no f-string *)
  | NotBytes a =>
      if is_encoder_class c then
        option_map (fun s => lit "Invalid value bit size: " ++ s ++ lit ". Must be a multiple of 8") (size_text a)
      else Some (lit "Invalid value bit size: {self.value_bit_size}. Must be a multiple of 8")
  | TooWide => Some (lit "Value byte size exceeds data size")
  | Places => Some (lit "`frac_places` must be in range (0, 80]")
  | Not160 => Some (lit "Addresses must be 160 bits in length")
  | Elsewhere _ => None
  end.
