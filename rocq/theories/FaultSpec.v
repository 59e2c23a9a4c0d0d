(** What is wrong with keyword arguments. *)
From Verif Require Import Py Bytes Encoding Decoding Construct Faults.
Open Scope Z_scope.

(** Classes with sizes; those for numbers and for fractions. *)
Definition sized (c : cls) : Prop :=
  In c [NBoolEnc; NPackedBoolEnc; NUIntEnc; NPackedUIntEnc; NIntEnc; NPackedIntEnc; NAddrEnc; NPackedAddrEnc;
        NBytesEnc; NPackedBytesEnc; NBoolDec; NAddrDec; NUIntDec; NIntDec; NBytesDec;
        NUFixedEnc; NPackedUFixedEnc; NFixedEnc; NPackedFixedEnc; NUFixedDec; NFixedDec].
Definition fractional (c : cls) : Prop := In c [NUFixedEnc; NPackedUFixedEnc; NFixedEnc; NPackedFixedEnc; NUFixedDec; NFixedDec].
Definition numeric (c : cls) : Prop :=
  In c [NUIntEnc; NPackedUIntEnc; NIntEnc; NPackedIntEnc; NUFixedEnc; NPackedUFixedEnc; NFixedEnc; NPackedFixedEnc].
(** The properties of a class. *)
Definition named (c : cls) (k : key) : Prop :=
  match k with
  | KIsDynamic => True
  | KStrict => is_encoder_class c = false
  | KValueBitSize | KDataByteSize | KIsBigEndian => sized c
  | KEncodeFn | KTypeCheckFn => sized c /\ is_encoder_class c = true
  | KBoundsFn | KIllegalValueFn => numeric c
  | KFracPlaces => fractional c
  | KDecoderFn => (sized c /\ is_encoder_class c = false) \/ c = NByteStringDec
  | KEncoders => c = NTupleEnc
  | KItemEncoder => In c [NPackedArrayEnc; NSizedEnc; NDynEnc]
  | KArraySize => In c [NPackedArrayEnc; NSizedEnc; NSizedDec]
  | KDecoders => c = NTupleDec
  | KItemDecoder => In c [NSizedDec; NDynDec]
  | KTailDecoder => c = NHeadTailDec
  | KAbsent _ => False
  end.
(** Their values unless others are given. *)
Definition default (c : cls) (k : key) : attr :=
  match k, c with
  | KIsDynamic, (NByteStringEnc | NTextEnc | NDynEnc | NHeadTailDec | NDynDec | NByteStringDec) => ABool true
  | KIsDynamic, _ => ABool false
  | KStrict, _ => ABool true
  | KValueBitSize, (NBoolEnc | NPackedBoolEnc | NBoolDec) => AInt 8
  | KValueBitSize, (NAddrEnc | NPackedAddrEnc | NAddrDec) => AInt 160
  | KDataByteSize, NPackedBoolEnc => AInt 1
  | KDataByteSize, NPackedAddrEnc => AInt 20
  | KDataByteSize, _ => AInt 32
  | KIsBigEndian, (NBytesEnc | NPackedBytesEnc | NBytesDec) => ABool false
  | KIsBigEndian, _ => ABool true
  | (KEncodeFn | KDecoderFn | KBoundsFn), _ => AFun
  | KTypeCheckFn, (NUIntEnc | NPackedUIntEnc | NIntEnc | NPackedIntEnc) => AFun
  | (KTypeCheckFn | KIllegalValueFn), (NUFixedEnc | NPackedUFixedEnc | NFixedEnc | NPackedFixedEnc) => AFun
  | _, _ => ANone
  end.
(** The value of a property: the keyword argument, or that of the class.  Python
    allows each keyword once. *)
Inductive has (c : cls) (kw : list (key * attr)) (k : key) : attr -> Prop :=
| H_given a : In (k, a) kw -> has c kw k a
| H_class : ~ In k (map fst kw) -> named c k -> has c kw k (default c k).
(** It is the number [z]. *)
Definition has_number (c : cls) (kw : list (key * attr)) (k : key) (z : Z) : Prop :=
  has c kw k (AInt z) \/ exists b : bool, has c kw k (ABool b) /\ z = if b then 1 else 0.

(** The properties that may not be None. *)
Inductive required : cls -> key -> Prop :=
| R_size c k : sized c -> In k [KValueBitSize; KDataByteSize; KIsBigEndian] -> required c k
| R_encode c : sized c -> is_encoder_class c = true -> required c KEncodeFn
| R_decode c : sized c -> is_encoder_class c = false -> required c KDecoderFn
| R_decode_bytes : required NByteStringDec KDecoderFn
| R_number c k : numeric c -> In k [KBoundsFn; KTypeCheckFn] -> required c k
| R_places c : fractional c -> required c KFracPlaces
| R_encoders : required NTupleEnc KEncoders
| R_item c : In c [NPackedArrayEnc; NSizedEnc; NDynEnc] -> required c KItemEncoder
| R_array_size : required NSizedEnc KArraySize
| R_tail : required NHeadTailDec KTailDecoder
| R_decoders : required NTupleDec KDecoders
| R_item_decoder c : In c [NSizedDec; NDynDec] -> required c KItemDecoder.

(** [amiss c kw f]: what [f] says is true of the keyword arguments. *)
Inductive amiss (c : cls) (kw : list (key * attr)) : fault -> Prop :=
| A_unknown k : In k (map fst kw) -> ~ named c k -> amiss c kw (Unknown k)
| A_missing k : required c k -> has c kw k ANone -> amiss c kw (Missing k)
| A_bytes a z : sized c -> has c kw KValueBitSize a -> num a = Ok z -> z mod 8 <> 0 -> amiss c kw (NotBytes a)
| A_wide b d : sized c -> has_number c kw KValueBitSize b -> has_number c kw KDataByteSize d -> 8 * d < b -> amiss c kw TooWide
| A_places n : fractional c -> has_number c kw KFracPlaces n -> n <= 0 \/ 80 < n -> amiss c kw Places
| A_160 b : In c [NAddrEnc; NPackedAddrEnc] -> has_number c kw KValueBitSize b -> b <> 160 -> amiss c kw Not160.
(** [misused c kw e]: an object is used as a number or a coder, and is none. *)
Inductive misused (c : cls) (kw : list (key * attr)) : exc -> Prop :=
| M_size k a : sized c -> In k [KValueBitSize; KDataByteSize] -> has c kw k a -> (forall z, a <> AInt z) -> (forall b, a <> ABool b) ->
    misused c kw TypeError
| M_places a : fractional c -> has c kw KFracPlaces a -> (forall z, a <> AInt z) -> (forall b, a <> ABool b) -> misused c kw TypeError
| M_encoders a : c = NTupleEnc -> has c kw KEncoders a -> (forall es, a <> AEncs es) -> misused c kw TypeError
| M_decoders a : c = NTupleDec -> has c kw KDecoders a -> (forall ds, a <> ADecs ds) -> misused c kw TypeError
| M_item a : c = NSizedEnc -> has c kw KItemEncoder a -> (forall e, a = AEnc e -> enc_dyn_attr e = None) -> misused c kw AttributeError
| M_item_decoder a : In c [NSizedDec; NDynDec] -> has c kw KItemDecoder a -> (forall d, a = ADec d -> dec_dyn_attr d = None) ->
    misused c kw AttributeError.
(** The order in which faults are looked for. *)
Definition rank (f : fault) : nat :=
  match f with
  | Unknown _ => 0
  | Missing KDecoderFn => 1
  | Missing KValueBitSize => 2 | Missing KDataByteSize => 3 | Missing KEncodeFn => 4 | Missing KIsBigEndian => 5
  | NotBytes _ => 6 | TooWide => 7
  | Missing KBoundsFn => 8 | Missing KTypeCheckFn => 9 | Missing KFracPlaces => 10 | Places => 11
  | Not160 => 12
  | Missing KItemEncoder => 13 | Missing KArraySize => 14
  | Missing _ => 15
  | Elsewhere _ => 16
  end%nat.
(** The names that no class has are told apart from each other and from the rest. *)
Definition other_names (absent : N -> pystr) : Prop :=
  (forall n n', absent n = absent n' -> n = n') /\ forall n k, key_text absent k = absent n -> exists n', k = KAbsent n'.
