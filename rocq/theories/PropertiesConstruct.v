(** Coders built by hand with any keyword arguments: C47-C49, C61. *)
From Coq Require Import Lia Strings.Byte Strings.String.
From Verif Require Import Py Bytes Utf8 Address Decimals Encoding Decoding Spec EncLeafProofs Construct ConstructSpec ConstructProofs ConstructSides Samples.
Open Scope string_scope. Open Scope list_scope. Open Scope Z_scope.
Local Transparent Keccak.keccak256 Z.pow Decimals.pow10 Decimals.prec Decimals.Etop Decimals.Etiny Decimals.Emax Decimals.ndigits word be_bytes len.

(** * C47: constructors accept exactly the consistent parameters *)

Theorem C47_sizes : forall c bits dsz, sized_class c ->
  (exists b d, sizes c bits dsz b d /\ consistent c b d /\ exists o, construct c (size_kws bits dsz) = Ok o)
  \/ (~ (exists b d, sizes c bits dsz b d /\ consistent c b d) /\ construct c (size_kws bits dsz) = Err ValueError).
Proof. exact sized_construct. Qed.
Print Assumptions C47_sizes.
Theorem C47_fixed : forall c bits frac dsz, fixed_class c ->
  (exists b n d, sizes c bits dsz b d /\ value_or frac None = Some n /\ consistent c b d /\ 1 <= n <= 80
     /\ exists o, construct c (fixed_kws bits frac dsz) = Ok o)
  \/ (~ (exists b n d, sizes c bits dsz b d /\ value_or frac None = Some n /\ consistent c b d /\ 1 <= n <= 80)
      /\ construct c (fixed_kws bits frac dsz) = Err ValueError).
Proof. exact fixed_construct. Qed.
Print Assumptions C47_fixed.

(** Keywords that the class does not have. *)
Theorem C47_unknown_keyword : forall c kw n a, In (KAbsent n, a) kw -> construct c kw = Err AttributeError.
Proof. exact construct_unknown. Qed.
Print Assumptions C47_unknown_keyword.
Theorem C47_misplaced_keyword : forall c kw k a, In (k, a) kw ->
  (sized_class c /\ k = KFracPlaces)
  \/ ((sized_class c \/ fixed_class c) /\ In k [KEncoders; KItemEncoder; KArraySize; KDecoders; KItemDecoder; KTailDecoder])
  \/ (In c [NTupleEnc; NPackedArrayEnc; NSizedEnc; NDynEnc; NHeadTailDec; NTupleDec; NSizedDec; NDynDec]
      /\ In k [KValueBitSize; KDataByteSize; KFracPlaces; KIsBigEndian]) ->
  construct c kw = Err AttributeError.
Proof. exact construct_misplaced. Qed.
Print Assumptions C47_misplaced_keyword.

(** Containers: the member coders are required; is_dynamic is derived. *)
Theorem C47_container_missing : forall c kw, In (c, kw)
    [(NTupleEnc, KEncoders); (NPackedArrayEnc, KItemEncoder); (NSizedEnc, KItemEncoder); (NDynEnc, KItemEncoder);
     (NHeadTailDec, KTailDecoder); (NTupleDec, KDecoders); (NSizedDec, KItemDecoder); (NDynDec, KItemDecoder)] ->
  construct c [] = Err ValueError /\ construct c [(kw, ANone)] = Err ValueError.
Proof. exact container_missing. Qed.
Print Assumptions C47_container_missing.
Theorem C47_tuple_encoder : forall es,
  exists o, construct NTupleEnc [(KEncoders, AEncs es)] = Ok o /\ o KEncoders = AEncs es
    /\ o KIsDynamic = ABool (existsb enc_is_dyn es).
Proof. exact tuple_enc. Qed.
Print Assumptions C47_tuple_encoder.
Theorem C47_sized_array_encoder : forall e n,
  construct NSizedEnc [(KItemEncoder, AEnc e)] = Err ValueError
  /\ match enc_dyn_attr e with
     | None => construct NSizedEnc [(KItemEncoder, AEnc e); (KArraySize, AInt n)] = Err AttributeError
     | Some dyn => exists o, construct NSizedEnc [(KItemEncoder, AEnc e); (KArraySize, AInt n)] = Ok o
         /\ o KItemEncoder = AEnc e /\ o KArraySize = AInt n /\ o KIsDynamic = ABool dyn
     end.
Proof. exact sized_enc. Qed.
Print Assumptions C47_sized_array_encoder.
Theorem C47_dynamic_array_encoder : forall e,
  exists o, construct NDynEnc [(KItemEncoder, AEnc e)] = Ok o /\ o KItemEncoder = AEnc e /\ o KIsDynamic = ABool true.
Proof. exact dyn_enc. Qed.
Print Assumptions C47_dynamic_array_encoder.
Theorem C47_packed_array_encoder : forall e a,
  exists o, construct NPackedArrayEnc ((KItemEncoder, AEnc e) :: kwarg KArraySize a) = Ok o
    /\ o KItemEncoder = AEnc e /\ o KIsDynamic = ABool false
    /\ o KArraySize = match a with Given n => AInt n | Flag b => ABool b | _ => ANone end.
Proof. exact packed_array_enc. Qed.
Print Assumptions C47_packed_array_encoder.
Theorem C47_tuple_decoder : forall ds,
  exists o ds', construct NTupleDec [(KDecoders, ADecs ds)] = Ok o /\ o KDecoders = ADecs ds' /\ Forall2 wrapped ds ds'
    /\ o KIsDynamic = ABool (existsb dec_is_dyn ds).
Proof. exact tuple_dec. Qed.
Print Assumptions C47_tuple_decoder.
(** SizedArrayDecoder, unlike SizedArrayEncoder, accepts a missing array_size. *)
Theorem C47_array_decoder : forall c d, c = NSizedDec \/ c = NDynDec ->
  match dec_dyn_attr d with
  | None => construct c [(KItemDecoder, ADec d)] = Err AttributeError
  | Some dyn => exists o d', construct c [(KItemDecoder, ADec d)] = Ok o /\ o KItemDecoder = ADec d' /\ wrapped d d'
      /\ o KIsDynamic = ABool (match c with NDynDec => true | _ => dyn end)
  end.
Proof. exact array_dec. Qed.
Print Assumptions C47_array_decoder.

(** Sizes that are not numbers. *)
Theorem C47_not_a_number : forall c, sized_class c ->
  construct c [(KValueBitSize, AObj)] = Err TypeError /\ construct c [(KValueBitSize, AInt 160); (KDataByteSize, AObj)] = Err TypeError.
Proof. exact not_a_number. Qed.
Print Assumptions C47_not_a_number.

(** Functions must not be None; what else they are does not matter here. *)
Theorem C47_functions : forall c k bits dsz, required_fn c k ->
  construct c ((k, ANone) :: size_kws bits dsz) = Err ValueError
  /\ (sized_class c ->
      (exists o, construct c ((k, AObj) :: size_kws bits dsz) = Ok o) <-> (exists o, construct c (size_kws bits dsz) = Ok o)).
Proof. exact (fun c k bits dsz H => conj (missing_fn c k bits dsz H) (fun S => given_fn c k bits dsz S H)). Qed.
Print Assumptions C47_functions.
(** Whether instances count as dynamic. *)
Theorem C47_dynamic : forall c, dynamic_class c -> exists o, construct c [] = Ok o /\ o KIsDynamic = ABool true.
Proof. exact dynamic_default. Qed.
Print Assumptions C47_dynamic.
Theorem C47_static_string : forall c, static_string_class c -> exists o, construct c [] = Ok o /\ o KIsDynamic = ABool false.
Proof. exact static_default. Qed.
Print Assumptions C47_static_string.
Theorem C47_static : forall c b n d o, sized_class c /\ made c b d o \/ fixed_class c /\ made_fixed c b n d o -> o KIsDynamic = ABool false.
Proof. exact static_leaf. Qed.
Print Assumptions C47_static.
Theorem C47_dynamic_given : forall c x, dynamic_class c \/ static_string_class c ->
  exists o, construct c [(KIsDynamic, ABool x)] = Ok o /\ o KIsDynamic = ABool x.
Proof. exact dynamic_given. Qed.
Print Assumptions C47_dynamic_given.
Example C47_keywords_sample :
  required_fn NUIntEnc KBoundsFn /\ required_fn NIntDec KDecoderFn
  /\ construct NUIntEnc ((KBoundsFn, ANone) :: size_kws (Given 8) Absent) = Err ValueError
  /\ (exists o, construct NUIntEnc ((KBoundsFn, AObj) :: size_kws (Given 8) Absent) = Ok o)
  /\ dynamic_class NByteStringDec /\ static_string_class NPackedTextEnc.
Proof.
  split; [unfold required_fn; cbn; intuition|]. split; [unfold required_fn; cbn; intuition|].
  split; [lazy; reflexivity|]. split; [eexists; lazy; reflexivity|]. cbn. intuition.
Qed.

(** UnsignedIntegerEncoder(value_bit_size=24, data_byte_size=3) and
    data_byte_size=2; False and True as sizes; no size at all; fixed with frac_places=81; an AddressEncoder
    and an AddressDecoder of 168 bits; a keyword no class has. *)
Example C47_sample :
  sizes NUIntEnc (Given 24) (Given 3) 24 3 /\ consistent NUIntEnc 24 3
  /\ (exists o, construct NUIntEnc (size_kws (Given 24) (Given 3)) = Ok o)
  /\ construct NUIntEnc (size_kws (Given 24) (Given 2)) = Err ValueError
  /\ construct NUIntEnc (size_kws (Given 12) Absent) = Err ValueError
  /\ (exists o, construct NUIntEnc (size_kws (Given 8) (Flag true)) = Ok o)
  /\ construct NUIntEnc (size_kws (Flag true) Absent) = Err ValueError
  /\ construct NUIntEnc (size_kws Absent Absent) = Err ValueError
  /\ construct NFixedDec (fixed_kws (Given 128) (Given 81) Absent) = Err ValueError
  /\ (exists o, construct NFixedDec (fixed_kws (Given 128) (Given 80) Absent) = Ok o)
  /\ construct NAddrEnc (size_kws (Given 168) Absent) = Err ValueError
  /\ (exists o, construct NAddrDec (size_kws (Given 168) Absent) = Ok o)
  /\ construct NBoolEnc [(KAbsent 7, AInt 1)] = Err AttributeError.
Proof.
  split; [split; reflexivity|]. split; [split; [reflexivity|split; [lazy; discriminate|intros [H|H]; discriminate]]|].
  split; [eexists; lazy; reflexivity|]. do 2 (split; [lazy; reflexivity|]). split; [eexists; lazy; reflexivity|]. do 3 (split; [lazy; reflexivity|]).
  split; [eexists; lazy; reflexivity|]. split; [lazy; reflexivity|]. split; [eexists; lazy; reflexivity|]. reflexivity.
Qed.
Example C47_container_sample :
  exists o, construct NTupleDec [(KDecoders, ADecs [DUInt 8; DByteString (SConst true)])] = Ok o
    /\ o KDecoders = ADecs [DUInt 8; DHeadTail (DByteString (SConst true))] /\ o KIsDynamic = ABool true.
Proof. eexists. split; [reflexivity|]. split; reflexivity. Qed.

(** * C48: encoders of every size are exact *)

Theorem C48_uint : forall c b d o v, c = NUIntEnc \/ c = NPackedUIntEnc -> made c b d o -> 8 <= b ->
  (exists z, v = PInt z /\ 0 <= z < 2 ^ b /\ encode_obj c o v = Ok (be_bytes (Z.to_nat d) z))
  \/ (exists z, v = PInt z /\ ~ 0 <= z < 2 ^ b /\ encode_obj c o v = Err ValueOutOfBounds)
  \/ ((forall z, v <> PInt z) /\ encode_obj c o v = Err EncodingTypeError).
Proof. exact uint_obj. Qed.
Print Assumptions C48_uint.
Theorem C48_int : forall c b d o v, c = NIntEnc \/ c = NPackedIntEnc -> made c b d o -> 8 <= b ->
  (exists z, v = PInt z /\ - 2 ^ (b - 1) <= z < 2 ^ (b - 1) /\ encode_obj c o v = Ok (be_bytes (Z.to_nat d) z))
  \/ (exists z, v = PInt z /\ ~ - 2 ^ (b - 1) <= z < 2 ^ (b - 1) /\ encode_obj c o v = Err ValueOutOfBounds)
  \/ ((forall z, v <> PInt z) /\ encode_obj c o v = Err EncodingTypeError).
Proof. exact int_obj. Qed.
Print Assumptions C48_int.
Theorem C48_bool : forall c b d o v, c = NBoolEnc \/ c = NPackedBoolEnc -> made c b d o -> 1 <= d ->
  encode_obj c o v = match v with
                     | PBool x => Ok (be_bytes (Z.to_nat d) (if x then 1 else 0))
                     | _ => Err EncodingTypeError
                     end.
Proof. exact bool_obj. Qed.
Print Assumptions C48_bool.
Theorem C48_address : forall c b d o v, c = NAddrEnc \/ c = NPackedAddrEnc -> made c b d o ->
  (exists a, (bytes_like v a /\ len a = 20 \/ exists s, v = PStr s /\ address_text s a)
     /\ encode_obj c o v = Ok (repeat x00 (Z.to_nat (d - 20)) ++ a))
  \/ (~ (exists a, bytes_like v a /\ len a = 20 \/ exists s, v = PStr s /\ address_text s a)
      /\ encode_obj c o v = Err EncodingTypeError).
Proof. exact addr_obj. Qed.
Print Assumptions C48_address.
Theorem C48_bytes : forall c b d o v, c = NBytesEnc \/ c = NPackedBytesEnc -> made c b d o ->
  (exists a, bytes_like v a /\ 8 * len a <= b /\ encode_obj c o v = Ok (a ++ repeat x00 (Z.to_nat (d - len a))))
  \/ (exists a, bytes_like v a /\ b < 8 * len a /\ encode_obj c o v = Err ValueOutOfBounds)
  \/ (~ (exists a, bytes_like v a) /\ encode_obj c o v = Err EncodingTypeError).
Proof. exact bytes_obj. Qed.
Print Assumptions C48_bytes.
(** Numbers with at most [n] decimals, for value sizes up to 256 bits. *)
Theorem C48_fixed : forall c b n d o v z, fixed_class c -> made_fixed c b n d o -> 8 <= b <= 256 ->
  c <> NUFixedDec -> c <> NFixedDec -> num_scaled v n z ->
  encode_obj c o v =
    if (match c with NUFixedEnc | NPackedUFixedEnc => 0 | _ => - 2 ^ (b - 1) end <=? z)
       && (z <? match c with NUFixedEnc | NPackedUFixedEnc => 2 ^ b | _ => 2 ^ (b - 1) end)
    then Ok (be_bytes (Z.to_nat d) z) else Err ValueOutOfBounds.
Proof. exact fixed_obj. Qed.
Print Assumptions C48_fixed.

Example C48_sample :
  (exists o, made NIntEnc 16 5 o /\ encode_obj NIntEnc o (PInt (-2)) = Ok [xff; xff; xff; xff; xfe]
     /\ encode_obj NIntEnc o (PInt 32768) = Err ValueOutOfBounds)
  /\ (exists o, made NUIntEnc 512 64 o /\ encode_obj NUIntEnc o (PInt 7) = Ok (repeat x00 63 ++ [x07]))
  /\ (exists o, made NBytesEnc 16 4 o /\ encode_obj NBytesEnc o (PBytes [x61]) = Ok [x61; x00; x00; x00])
  /\ (exists o, made NBoolEnc 8 2 o /\ encode_obj NBoolEnc o (PBool true) = Ok [x00; x01])
  /\ (exists o, made NAddrEnc 160 21 o /\ encode_obj NAddrEnc o (PBytes (repeat x11 20)) = Ok (x00 :: repeat x11 20))
  /\ (exists o, made_fixed NFixedEnc 8 1 2 o /\ num_scaled (dec (-15) (-1)) 1 (-15)).
Proof.
  split; [eexists; split; [exists (Given 16), (Given 5); split; [split; reflexivity|lazy; reflexivity]|split; lazy; reflexivity]|].
  split; [eexists; split; [exists (Given 512), (Given 64); split; [split; reflexivity|lazy; reflexivity]|lazy; reflexivity]|].
  split; [eexists; split; [exists (Given 16), (Given 4); split; [split; reflexivity|lazy; reflexivity]|lazy; reflexivity]|].
  split; [eexists; split; [exists Absent, (Given 2); split; [split; reflexivity|lazy; reflexivity]|lazy; reflexivity]|].
  split; [eexists; split; [exists Absent, (Given 21); split; [split; reflexivity|lazy; reflexivity]|lazy; reflexivity]|].
  eexists. split; [exists (Given 8), (Given 1), (Given 2); split; [split; reflexivity|split; [reflexivity|lazy; reflexivity]]|lazy; reflexivity].
Qed.

(** * C49: decoders of every size are exact *)

(** The stream ends too early. *)
Theorem C49_short : forall c b d o buf st,
  In c [NBoolDec; NAddrDec; NUIntDec; NIntDec; NBytesDec] /\ made c b d o
  \/ In c [NUFixedDec; NFixedDec] /\ (exists n, made_fixed c b n d o) ->
  1 <= d < 2 ^ 63 -> 0 <= pos st -> len buf < pos st + d ->
  decode_obj c o buf st = Err InsufficientDataBytes.
Proof. exact dec_short. Qed.
Print Assumptions C49_short.
Theorem C49_uint : forall b d o buf st raw, made NUIntDec b d o -> 8 <= b -> d < 2 ^ 63 ->
  0 <= pos st -> next buf st raw -> len raw = d ->
  (exists z, 0 <= z < 2 ^ b /\ raw = be_bytes (Z.to_nat d) z /\ decode_obj NUIntDec o buf st = Ok (PInt z, past st d))
  \/ (~ (exists z, 0 <= z < 2 ^ b /\ raw = be_bytes (Z.to_nat d) z) /\ decode_obj NUIntDec o buf st = Err NonEmptyPaddingBytes).
Proof. exact dec_uint. Qed.
Print Assumptions C49_uint.
Theorem C49_int : forall b d o buf st raw, made NIntDec b d o -> 8 <= b -> d < 2 ^ 63 ->
  0 <= pos st -> next buf st raw -> len raw = d ->
  (exists z, - 2 ^ (b - 1) <= z < 2 ^ (b - 1) /\ raw = be_bytes (Z.to_nat d) z /\ decode_obj NIntDec o buf st = Ok (PInt z, past st d))
  \/ (~ (exists z, - 2 ^ (b - 1) <= z < 2 ^ (b - 1) /\ raw = be_bytes (Z.to_nat d) z)
      /\ decode_obj NIntDec o buf st = Err NonEmptyPaddingBytes).
Proof. exact dec_int. Qed.
Print Assumptions C49_int.
Theorem C49_ufixed : forall b n d o buf st raw, made_fixed NUFixedDec b n d o -> 8 <= b <= 256 -> d < 2 ^ 63 ->
  0 <= pos st -> next buf st raw -> len raw = d ->
  (exists z q, 0 <= z < 2 ^ b /\ raw = be_bytes (Z.to_nat d) z /\ scaled q n z
     /\ decode_obj NUFixedDec o buf st = Ok (PDec q, past st d))
  \/ (~ (exists z, 0 <= z < 2 ^ b /\ raw = be_bytes (Z.to_nat d) z) /\ decode_obj NUFixedDec o buf st = Err NonEmptyPaddingBytes).
Proof. exact dec_ufixed. Qed.
Print Assumptions C49_ufixed.
Theorem C49_fixed : forall b n d o buf st raw, made_fixed NFixedDec b n d o -> 8 <= b <= 256 -> d < 2 ^ 63 ->
  0 <= pos st -> next buf st raw -> len raw = d ->
  (exists z q, - 2 ^ (b - 1) <= z < 2 ^ (b - 1) /\ raw = be_bytes (Z.to_nat d) z /\ scaled q n z
     /\ decode_obj NFixedDec o buf st = Ok (PDec q, past st d))
  \/ (~ (exists z, - 2 ^ (b - 1) <= z < 2 ^ (b - 1) /\ raw = be_bytes (Z.to_nat d) z)
      /\ decode_obj NFixedDec o buf st = Err NonEmptyPaddingBytes).
Proof. exact dec_fixed. Qed.
Print Assumptions C49_fixed.
Theorem C49_bool : forall d o buf st raw, made NBoolDec 8 d o -> d < 2 ^ 63 ->
  0 <= pos st -> next buf st raw -> len raw = d ->
  (exists x : bool, raw = be_bytes (Z.to_nat d) (if x then 1 else 0) /\ decode_obj NBoolDec o buf st = Ok (PBool x, past st d))
  \/ (~ (exists x : bool, raw = be_bytes (Z.to_nat d) (if x then 1 else 0)) /\ decode_obj NBoolDec o buf st = Err NonEmptyPaddingBytes).
Proof. exact dec_bool. Qed.
Print Assumptions C49_bool.
Theorem C49_address : forall d o buf st raw, made NAddrDec 160 d o -> d < 2 ^ 63 ->
  0 <= pos st -> next buf st raw -> len raw = d ->
  (exists a, len a = 20 /\ raw = repeat x00 (Z.to_nat (d - 20)) ++ a
     /\ decode_obj NAddrDec o buf st = Ok (PStr (lit "0x" ++ hex_lower a), past st d))
  \/ (~ (exists a, len a = 20 /\ raw = repeat x00 (Z.to_nat (d - 20)) ++ a) /\ decode_obj NAddrDec o buf st = Err NonEmptyPaddingBytes).
Proof. exact dec_addr. Qed.
Print Assumptions C49_address.
Theorem C49_bytes : forall b d o buf st raw, made NBytesDec b d o -> 0 <= b -> d < 2 ^ 63 ->
  0 <= pos st -> next buf st raw -> len raw = d ->
  (exists a, 8 * len a = b /\ raw = a ++ repeat x00 (Z.to_nat (d - len a)) /\ decode_obj NBytesDec o buf st = Ok (PBytes a, past st d))
  \/ (~ (exists a, 8 * len a = b /\ raw = a ++ repeat x00 (Z.to_nat (d - len a))) /\ decode_obj NBytesDec o buf st = Err NonEmptyPaddingBytes).
Proof. exact dec_bytes. Qed.
Print Assumptions C49_bytes.
(** The decoder of the same sizes inverts the encoder. *)
Theorem C49_inverse : forall ce cd b d oe od v bs,
  In (ce, cd) [(NUIntEnc, NUIntDec); (NPackedUIntEnc, NUIntDec); (NIntEnc, NIntDec); (NPackedIntEnc, NIntDec);
               (NBoolEnc, NBoolDec); (NPackedBoolEnc, NBoolDec)] ->
  made ce b d oe -> made cd b d od -> 8 <= b -> d < 2 ^ 63 -> (cd = NBoolDec -> b = 8) ->
  encode_obj ce oe v = Ok bs -> decode_obj cd od bs (mkStream 0 [] 0) = Ok (v, mkStream d [] 0).
Proof. exact obj_inverse. Qed.
Print Assumptions C49_inverse.

(** A 16-bit signed integer in 5 bytes, after two other bytes; the same with
    wrong padding; three bytes of bytes2. *)
Example C49_sample :
  (exists o, made NIntDec 16 5 o
     /\ next [x01; x02; xff; xff; xff; xff; xfe; x09] (mkStream 2 [] 0) [xff; xff; xff; xff; xfe]
     /\ decode_obj NIntDec o [x01; x02; xff; xff; xff; xff; xfe; x09] (mkStream 2 [] 0) = Ok (PInt (-2), mkStream 7 [] 0)
     /\ decode_obj NIntDec o [x01; x02; xff; x00; xff; xff; xfe; x09] (mkStream 2 [] 0) = Err NonEmptyPaddingBytes
     /\ decode_obj NIntDec o [x01; x02; xff; xff; xff; xff] (mkStream 2 [] 0) = Err InsufficientDataBytes)
  /\ (exists o, made NBytesDec 16 3 o /\ decode_obj NBytesDec o [x61; x00; x00] (mkStream 0 [] 0) = Ok (PBytes [x61; x00], mkStream 3 [] 0))
  /\ (exists o, made NBoolDec 8 2 o /\ decode_obj NBoolDec o [x00; x01] (mkStream 0 [] 0) = Ok (PBool true, mkStream 2 [] 0))
  /\ (exists o, made NAddrDec 160 21 o) /\ (exists o, made_fixed NUFixedDec 8 1 2 o) /\ (exists o, made_fixed NFixedDec 8 1 2 o)
  /\ (exists o, made NUIntDec 512 64 o).
Proof.
  split.
  { eexists. split; [exists (Given 16), (Given 5); split; [split; reflexivity|lazy; reflexivity]|].
    split; [exists [x01; x02], [x09]; split; reflexivity|]. split; [lazy; reflexivity|]. split; lazy; reflexivity. }
  split; [eexists; split; [exists (Given 16), (Given 3); split; [split; reflexivity|lazy; reflexivity]|lazy; reflexivity]|].
  split; [eexists; split; [exists Absent, (Given 2); split; [split; reflexivity|lazy; reflexivity]|lazy; reflexivity]|].
  split; [eexists; exists Absent, (Given 21); split; [split; reflexivity|lazy; reflexivity]|].
  split; [eexists; exists (Given 8), (Given 1), (Given 2); split; [split; reflexivity|split; [reflexivity|lazy; reflexivity]]|].
  split; [eexists; exists (Given 8), (Given 1), (Given 2); split; [split; reflexivity|split; [reflexivity|lazy; reflexivity]]|].
  eexists; exists (Given 512), (Given 64); split; [split; reflexivity|lazy; reflexivity].
Qed.

(** * C61: is_big_endian chooses the side of the padding *)

Theorem C61_accepted : forall c bits dsz side, sized_class c ->
  (exists o, construct c (size_kws bits dsz ++ kwarg KIsBigEndian side) = Ok o)
  <-> side <> NoneArg /\ exists o, construct c (size_kws bits dsz) = Ok o.
Proof. exact sided_accepted. Qed.
Print Assumptions C61_accepted.
Theorem C61_uint : forall c b d e o v, c = NUIntEnc \/ c = NPackedUIntEnc -> made_sided c b d e o -> 8 <= b ->
  (exists z x, v = PInt z /\ 0 <= z < 2 ^ b /\ shortest z x /\ encode_obj c o v = Ok (placed e (repeat x00 (Z.to_nat (d - len x))) x))
  \/ (exists z, v = PInt z /\ ~ 0 <= z < 2 ^ b /\ encode_obj c o v = Err ValueOutOfBounds)
  \/ ((forall z, v <> PInt z) /\ encode_obj c o v = Err EncodingTypeError).
Proof. exact side_uint. Qed.
Print Assumptions C61_uint.
(** Signed integers are on the right whatever is_big_endian says. *)
Theorem C61_int : forall c b d e o v, c = NIntEnc \/ c = NPackedIntEnc -> made_sided c b d e o -> 8 <= b ->
  (exists z, v = PInt z /\ - 2 ^ (b - 1) <= z < 2 ^ (b - 1) /\ encode_obj c o v = Ok (be_bytes (Z.to_nat d) z))
  \/ (exists z, v = PInt z /\ ~ - 2 ^ (b - 1) <= z < 2 ^ (b - 1) /\ encode_obj c o v = Err ValueOutOfBounds)
  \/ ((forall z, v <> PInt z) /\ encode_obj c o v = Err EncodingTypeError).
Proof. exact side_int. Qed.
Print Assumptions C61_int.
Theorem C61_bool : forall c b d e o v, c = NBoolEnc \/ c = NPackedBoolEnc -> made_sided c b d e o ->
  encode_obj c o v = match v with
                     | PBool x => Ok (placed e (repeat x00 (Z.to_nat (d - 1))) [if x then x01 else x00])
                     | _ => Err EncodingTypeError
                     end.
Proof. exact side_bool. Qed.
Print Assumptions C61_bool.
Theorem C61_address : forall c b d e o v, c = NAddrEnc \/ c = NPackedAddrEnc -> made_sided c b d e o ->
  (exists a, (bytes_like v a /\ len a = 20 \/ exists s, v = PStr s /\ address_text s a)
     /\ encode_obj c o v = Ok (placed e (repeat x00 (Z.to_nat (d - 20))) a))
  \/ (~ (exists a, bytes_like v a /\ len a = 20 \/ exists s, v = PStr s /\ address_text s a)
      /\ encode_obj c o v = Err EncodingTypeError).
Proof. exact side_addr. Qed.
Print Assumptions C61_address.
Theorem C61_bytes : forall c b d e o v, c = NBytesEnc \/ c = NPackedBytesEnc -> made_sided c b d e o ->
  (exists a, bytes_like v a /\ 8 * len a <= b /\ encode_obj c o v = Ok (placed e (repeat x00 (Z.to_nat (d - len a))) a))
  \/ (exists a, bytes_like v a /\ b < 8 * len a /\ encode_obj c o v = Err ValueOutOfBounds)
  \/ (~ (exists a, bytes_like v a) /\ encode_obj c o v = Err EncodingTypeError).
Proof. exact side_bytes. Qed.
Print Assumptions C61_bytes.

(** Decoders look for the value on the side they are told. *)
Theorem C61_decode : forall c b d e o buf st padding data v, made_sided c b d e o -> reads c data v -> d < 2 ^ 63 -> 0 <= pos st ->
  next buf st (placed e padding data) -> 8 * len data = b -> len padding + len data = d ->
  (all_zero padding /\ decode_obj c o buf st = Ok (v, past st d))
  \/ (~ all_zero padding /\ decode_obj c o buf st = Err NonEmptyPaddingBytes).
Proof. exact side_dec. Qed.
Print Assumptions C61_decode.
Theorem C61_decode_not_bool : forall d e o buf st padding x, made_sided NBoolDec 8 d e o -> d < 2 ^ 63 -> 0 <= pos st ->
  next buf st (placed e padding [x]) -> len padding + 1 = d -> x <> x00 -> x <> x01 ->
  decode_obj NBoolDec o buf st = Err NonEmptyPaddingBytes.
Proof. exact side_dec_bool. Qed.
Print Assumptions C61_decode_not_bool.
Theorem C61_decode_int : forall b d e o buf st padding z, made_sided NIntDec b d e o -> 8 <= b -> d < 2 ^ 63 -> 0 <= pos st ->
  - 2 ^ (b - 1) <= z < 2 ^ (b - 1) -> next buf st (placed e padding (be_bytes (Z.to_nat (b / 8)) z)) -> len padding + b / 8 = d ->
  ((forall x, In x padding -> x = if z <? 0 then xff else x00) /\ decode_obj NIntDec o buf st = Ok (PInt z, past st d))
  \/ (~ (forall x, In x padding -> x = if z <? 0 then xff else x00) /\ decode_obj NIntDec o buf st = Err NonEmptyPaddingBytes).
Proof. exact side_dec_int. Qed.
Print Assumptions C61_decode_int.

(** A 16-bit unsigned integer in 4 bytes with is_big_endian=False: 1 is written
    as 01 00 00 00, which the decoder with the same arguments reads as 256.
    -1 counts as True.  Bytes on the right; a signed integer. *)
Example C61_sample :
  (exists o o', made_sided NUIntEnc 16 4 false o /\ made_sided NUIntDec 16 4 false o'
     /\ encode_obj NUIntEnc o (PInt 1) = Ok [x01; x00; x00; x00]
     /\ decode_obj NUIntDec o' [x01; x00; x00; x00] (mkStream 0 [] 0) = Ok (PInt 256, mkStream 4 [] 0))
  /\ (exists o, made_sided NUIntEnc 16 4 true o /\ construct NUIntEnc (size_kws (Given 16) (Given 4) ++ kwarg KIsBigEndian (Given (-1))) = Ok o
     /\ encode_obj NUIntEnc o (PInt 1) = Ok [x00; x00; x00; x01])
  /\ (exists o, made_sided NBytesEnc 16 4 true o /\ encode_obj NBytesEnc o (PBytes [x61]) = Ok [x00; x00; x00; x61])
  /\ (exists o, made_sided NBoolEnc 8 2 false o /\ encode_obj NBoolEnc o (PBool true) = Ok [x01; x00])
  /\ (exists o, made_sided NAddrEnc 160 21 false o)
  /\ (exists o o', made_sided NIntEnc 8 2 false o /\ encode_obj NIntEnc o (PInt (-2)) = Ok [xff; xfe]
      /\ made_sided NIntDec 8 2 false o' /\ decode_obj NIntDec o' [xfe; xff] (mkStream 0 [] 0) = Ok (PInt (-2), mkStream 2 [] 0)
      /\ decode_obj NIntDec o' [xff; xfe] (mkStream 0 [] 0) = Err NonEmptyPaddingBytes)
  /\ (exists o, made_sided NBoolDec 8 2 false o /\ decode_obj NBoolDec o [x01; x00] (mkStream 0 [] 0) = Ok (PBool true, mkStream 2 [] 0)).
Proof.
  split.
  { eexists. eexists. split; [exists (Given 16), (Given 4), (Flag false), 0; split; [split; reflexivity|split; [reflexivity|split; [split; [discriminate|lia]|lazy; reflexivity]]]|].
    split; [exists (Given 16), (Given 4), (Flag false), 0; split; [split; reflexivity|split; [reflexivity|split; [split; [discriminate|lia]|lazy; reflexivity]]]|].
    split; lazy; reflexivity. }
  split.
  { eexists. split; [exists (Given 16), (Given 4), (Given (-1)), (-1); split; [split; reflexivity|split; [reflexivity|split; [split; [lia|reflexivity]|lazy; reflexivity]]]|].
    split; lazy; reflexivity. }
  split.
  { eexists. split; [exists (Given 16), (Given 4), (Flag true), 1; split; [split; reflexivity|split; [reflexivity|split; [split; [lia|reflexivity]|lazy; reflexivity]]]|].
    lazy; reflexivity. }
  split.
  { eexists. split; [exists Absent, (Given 2), (Flag false), 0; split; [split; reflexivity|split; [reflexivity|split; [split; [discriminate|lia]|lazy; reflexivity]]]|].
    lazy; reflexivity. }
  split.
  { eexists. exists Absent, (Given 21), (Given 0), 0; split; [split; reflexivity|split; [reflexivity|split; [split; [discriminate|lia]|lazy; reflexivity]]]. }
  split.
  { eexists. eexists. split; [exists (Given 8), (Given 2), (Flag false), 0; split; [split; reflexivity|split; [reflexivity|split; [split; [discriminate|lia]|lazy; reflexivity]]]|].
    split; [lazy; reflexivity|].
    split; [exists (Given 8), (Given 2), (Flag false), 0; split; [split; reflexivity|split; [reflexivity|split; [split; [discriminate|lia]|lazy; reflexivity]]]|].
    split; lazy; reflexivity. }
  eexists. split; [exists Absent, (Given 2), (Flag false), 0; split; [split; reflexivity|split; [reflexivity|split; [split; [discriminate|lia]|lazy; reflexivity]]]|].
  lazy; reflexivity.
Qed.
