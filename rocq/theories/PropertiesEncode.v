(** Property theorems about encode, encode_packed and is_encodable:
    C02 C03 C05 C06 C07 C08 C34 C35 C36 C38 C39.

    [used pk w]: any state of the default ([pk = false]) or packed registry
    after arbitrary lookups, encodes and decodes; [fits p]: the argument's
    memory size is below 2^256 bytes. *)
From Coq Require Import Strings.Byte Strings.String.
From Verif Require Import Tac Bytes Encoding Decoding Registry Codec Histories Spec ReadSpec TypeSpec ExceptionSpec
  EncodeApi PackedProofs Samples EncodeCases.
From Verif Require KeccakSpec KeccakProofs.
Open Scope string_scope.
Open Scope list_scope.
Open Scope Z_scope.
Local Transparent Keccak.keccak256 Z.pow Decimals.pow10 Decimals.prec Decimals.Etop Decimals.Etiny Decimals.Emax Decimals.ndigits word be_bytes len.

(** * C02: encode produces exactly the Solidity ABI layout *)

Theorem C02_encode_layout : forall w types ts args a,
  used false w -> type_args types ts -> denotes (STuple ts) args a -> fits args ->
  encode_in w types args = Ok (spec_enc (STuple ts) a).
Proof. exact (encode_denoted false). Qed.
Print Assumptions C02_encode_layout.

(** Nothing else is produced. *)
Theorem C02_encode_iff : forall w types ts args b,
  used false w -> type_args types ts -> fits args -> leaves exact_leaf (STuple ts) args ->
  encode_in w types args = Ok b <-> exists a, denotes (STuple ts) args a /\ b = spec_enc (STuple ts) a.
Proof. exact (encode_iff false). Qed.
Print Assumptions C02_encode_iff.

(** f(uint256,uint32[],bytes10,bytes) with (0x123, [0x456, 0x789], "1234567890", "Hello, world!"), from the ABI
    specification. *)
Example C02_sample :
  encode_in start (types ["uint256"; "uint32[]"; "bytes10"; "bytes"])
    (PTuple [PInt 0x123; PList [PInt 0x456; PInt 0x789]; PBytes (raw "1234567890"); PByteArray (raw "Hello, world!")])
  = Ok (word 0x123 ++ word 0x80 ++ raw "1234567890" ++ repeat x00 22 ++ word 0xe0
        ++ word 2 ++ word 0x456 ++ word 0x789
        ++ word 13 ++ raw "Hello, world!" ++ repeat x00 19).
Proof.
  rewrite (C02_encode_layout start _ [SUInt 256; SArr (SUInt 32); SBytesM 10; SBytes] _
    (VSeq [VInt 0x123; VSeq [VInt 0x456; VInt 0x789]; VBytes (raw "1234567890"); VBytes (raw "Hello, world!")])).
  - reflexivity.
  - exact start_used.
  - sample_types.
  - eapply D_tuple; [right; left; reflexivity|]. constructor; [|constructor; [|constructor; [|constructor; [|constructor]]]].
    + constructor. in_range.
    + eapply D_arr; [left; reflexivity|]. constructor; [|constructor; [|constructor]]; constructor; in_range.
    + exact (D_bytesM 10 (PBytes (raw "1234567890")) (raw "1234567890") (or_introl eq_refl) ltac:(lazy; discriminate)).
    + constructor. right. reflexivity.
  - lazy. reflexivity.
Qed.

(** Arguments may be of any Sequence class, here a range in a deque. *)
Example C02_sequences :
  encode_in start (types ["uint8[]"]) (PSeq false [PSeq false [PInt 5; PInt 7]]) = Ok (word 32 ++ word 2 ++ word 5 ++ word 7)
  /\ denotes (STuple [SArr (SUInt 8)]) (PSeq false [PSeq false [PInt 5; PInt 7]]) (VSeq [VSeq [VInt 5; VInt 7]]).
Proof.
  split; [lazy; reflexivity|]. eapply D_tuple; [right; right; eexists; reflexivity|]. constructor; [|constructor].
  eapply D_arr; [right; right; eexists; reflexivity|]. constructor; [|constructor; [|constructor]]; constructor; in_range.
Qed.

(** * C03: encoded length *)

Theorem C03_encode_length : forall w types args b, used false w -> encode_in w types args = Ok b ->
  exists ts, type_args types ts /\ len b mod 32 = 0 /\ (existsb sdyn ts = false -> len b = static_size (STuple ts)).
Proof. exact encode_length. Qed.
Print Assumptions C03_encode_length.

Example C03_sample : exists b,
  encode_in start (types ["(uint8,bool)[2]"; "fixed"]) (PList [PList [PTuple [PInt 1; PBool true]; PTuple [PInt 2; PBool false]]; dec 15 (-1)]) = Ok b
  /\ len b = 160.
Proof. eexists. split; [lazy; reflexivity|lazy; reflexivity]. Qed.

(** * C05: is_encodable agrees with encode *)

(** All possible combinations of the two answers. *)
Theorem C05_is_encodable : forall w typ v, used false w -> fits (PList [v]) ->
  (exists s t, typ = PStr s /\ supported s t /\
    ((is_encodable_in w typ v = Ok true /\ exists b, encode_in w (PList [typ]) (PList [v]) = Ok b)
     \/ (is_encodable_in w typ v = Ok false
         /\ exists e, encode_in w (PList [typ]) (PList [v]) = Err e /\ is_encoding_error e = true)
     \/ (is_encodable_in w typ v = Ok true
         /\ encode_in w (PList [typ]) (PList [v]) = Err UnicodeEncodeError /\ ~ leaves scalar_leaf t v)
     \/ (is_encodable_in w typ v = Err TypeError
         /\ encode_in w (PList [typ]) (PList [v]) = Err TypeError /\ ~ leaves native_leaf t v)))
  \/ (~ (exists s t, typ = PStr s /\ supported s t) /\ is_encodable_in w typ v = Ok false
      /\ exists e, (e = NoEntriesFound \/ e = ABITypeError \/ e = ParseError \/ e = ValueError \/ e = TypeError)
                   /\ encode_in w (PList [typ]) (PList [v]) = Err e).
Proof. exact is_encodable_cases. Qed.
Print Assumptions C05_is_encodable.

(** With no lone surrogate in a string and no complex or Fraction for a
    fixed-point number, is_encodable is right. *)
Theorem C05_is_encodable_agrees : forall w s t v,
  used false w -> fits (PList [v]) -> supported s t -> leaves scalar_leaf t v -> leaves native_leaf t v ->
  (is_encodable_in w (PStr s) v = Ok true /\ exists b, encode_in w (PList [PStr s]) (PList [v]) = Ok b)
  \/ (is_encodable_in w (PStr s) v = Ok false
      /\ exists e, encode_in w (PList [PStr s]) (PList [v]) = Err e /\ is_encoding_error e = true).
Proof. exact (is_encodable_agrees false). Qed.
Print Assumptions C05_is_encodable_agrees.

Example C05_sample : is_encodable_in start (str "uint8[2]") (PList [PInt 1; PInt 255]) = Ok true
  /\ is_encodable_in start (str "uint8[2]") (PList [PInt 1; PInt 256]) = Ok false.
Proof. split; lazy; reflexivity. Qed.
Example C05_agrees_sample : supported (lit "uint8[2]") (SSized 2 (SUInt 8))
  /\ leaves scalar_leaf (SSized 2 (SUInt 8)) (PList [PInt 1; PInt 256]) /\ leaves native_leaf (SSized 2 (SUInt 8)) (PList [PInt 1; PInt 256]).
Proof. split; [sample_type|]. repeat constructor. Qed.

(** is_encodable answers True for '\ud800' although encode raises. *)
Theorem C05_is_encodable_refuted : exists w typ v,
  used false w /\ is_encodable_in w typ v = Ok true /\ encode_in w (PList [typ]) (PList [v]) = Err UnicodeEncodeError.
Proof. exact surrogate_encodable. Qed.
Print Assumptions C05_is_encodable_refuted.
(** is_encodable raises TypeError for a complex number. *)
Theorem C05_is_encodable_raises_refuted : exists w typ v, used false w /\ is_encodable_in w typ v = Err TypeError.
Proof. exact complex_encodable. Qed.
Print Assumptions C05_is_encodable_raises_refuted.

(** * C06: integers are accepted exactly in range *)

Theorem C06_uint : forall w s m v, used false w -> supported s (SUInt m) ->
  (exists z, v = PInt z /\ 0 <= z < 2 ^ m /\ encode_in w (PList [PStr s]) (PList [v]) = Ok (word z))
  \/ (exists z, v = PInt z /\ ~ 0 <= z < 2 ^ m /\ encode_in w (PList [PStr s]) (PList [v]) = Err ValueOutOfBounds)
  \/ ((forall z, v <> PInt z) /\ encode_in w (PList [PStr s]) (PList [v]) = Err EncodingTypeError).
Proof. exact encode_uint_api. Qed.
Print Assumptions C06_uint.
Theorem C06_int : forall w s m v, used false w -> supported s (SInt m) ->
  (exists z, v = PInt z /\ - 2 ^ (m - 1) <= z < 2 ^ (m - 1) /\ encode_in w (PList [PStr s]) (PList [v]) = Ok (word z))
  \/ (exists z, v = PInt z /\ ~ - 2 ^ (m - 1) <= z < 2 ^ (m - 1) /\ encode_in w (PList [PStr s]) (PList [v]) = Err ValueOutOfBounds)
  \/ ((forall z, v <> PInt z) /\ encode_in w (PList [PStr s]) (PList [v]) = Err EncodingTypeError).
Proof. exact encode_int_api. Qed.
Print Assumptions C06_int.

Example C06_sample : supported (lit "uint24") (SUInt 24) /\ supported (lit "int16") (SInt 16)
  /\ encode_in start (types ["uint24"]) (PList [PInt 16777215]) = Ok (repeat x00 29 ++ repeat xff 3)
  /\ encode_in start (types ["int16"]) (PList [PInt (-32768)]) = Ok (repeat xff 30 ++ [x80; x00])
  /\ encode_in start (types ["int16"]) (PList [PInt 32768]) = Err ValueOutOfBounds
  /\ encode_in start (types ["int16"]) (PList [PBool true]) = Err EncodingTypeError.
Proof. split; [sample_type|]. split; [sample_type|]. repeat split; lazy; reflexivity. Qed.

(** * C07: representable fixed-point numbers *)

(** [fixed_range t n lo hi]: [t] is (u)fixed<M>x<n> with scaled values [lo..hi];
    [num_scaled v n z]: v * 10^n = z. *)
Theorem C07_fixed_exact : forall w s t n lo hi v z,
  used false w -> supported s t -> fixed_range t n lo hi -> num_scaled v n z ->
  encode_in w (PList [PStr s]) (PList [v]) = if (lo <=? z) && (z <=? hi) then Ok (word z) else Err ValueOutOfBounds.
Proof. exact encode_fixed_exact. Qed.
Print Assumptions C07_fixed_exact.
Theorem C07_fixed_out_of_range : forall w s t n lo hi v,
  used false w -> supported s t -> fixed_range t n lo hi -> finite_number v -> beyond v n lo hi ->
  encode_in w (PList [PStr s]) (PList [v]) = Err ValueOutOfBounds.
Proof. exact encode_fixed_beyond. Qed.
Print Assumptions C07_fixed_out_of_range.
Theorem C07_fixed_special : forall w s t n lo hi d,
  used false w -> supported s t -> fixed_range t n lo hi -> (forall neg c e, d <> DFin neg c e) ->
  encode_in w (PList [PStr s]) (PList [PDec d]) = Err IllegalValue.
Proof. exact encode_fixed_special. Qed.
Print Assumptions C07_fixed_special.
Theorem C07_fixed_nonnumber : forall w s t n lo hi v,
  used false w -> supported s t -> fixed_range t n lo hi ->
  match v with PBool _ | PInt _ | PDec _ | PComplex _ | PFraction _ _ => False | _ => True end ->
  encode_in w (PList [PStr s]) (PList [v]) = Err EncodingTypeError.
Proof. exact encode_fixed_nonnumber. Qed.
Print Assumptions C07_fixed_nonnumber.

(** Decimal("-1.50"), Decimal("128E-1") (too large), Decimal("1E+5000000")
    (too large), a float and NaN, all as fixed8x1. *)
Example C07_sample : supported (lit "fixed8x1") (SFixed 8 1) /\ fixed_range (SFixed 8 1) 1 (-128) 127
  /\ num_scaled (dec (-150) (-2)) 1 (-15) /\ beyond (dec 1 5000000) 1 (-128) 127
  /\ encode_in start (types ["fixed8x1"]) (PList [dec (-150) (-2)]) = Ok (word (-15))
  /\ encode_in start (types ["fixed8x1"]) (PList [dec 128 (-1)]) = Err ValueOutOfBounds
  /\ encode_in start (types ["fixed8x1"]) (PList [PDec DNaN]) = Err IllegalValue
  /\ encode_in start (types ["fixed8x1"]) (PList [str "1"]) = Err EncodingTypeError.
Proof. exact fixed_sample. Qed.

(** * C08: excess precision *)

(** When a Decimal within the bounds is accepted: exact, negative, or with a
    residue that decimal arithmetic underflows to zero. *)
Theorem C08_fixed_decimal : forall w s t n lo hi neg c e,
  used false w -> supported s t -> fixed_range t n lo hi -> ~ beyond (PDec (DFin neg c e)) n lo hi ->
  ((exists b, encode_in w (PList [PStr s]) (PList [PDec (DFin neg c e)]) = Ok b)
   /\ ((exists z, scaled (DFin neg c e) n z) \/ neg = true
       \/ e < -1000997 /\ 2 * (Z.of_N c mod 10 ^ (- (e + n))) <= 10 ^ (-1000997 - e)))
  \/ (encode_in w (PList [PStr s]) (PList [PDec (DFin neg c e)]) = Err IllegalValue
      /\ ~ ((exists z, scaled (DFin neg c e) n z) \/ neg = true
            \/ e < -1000997 /\ 2 * (Z.of_N c mod 10 ^ (- (e + n))) <= 10 ^ (-1000997 - e))).
Proof. exact encode_fixed_decimal. Qed.
Print Assumptions C08_fixed_decimal.
(** The claim for non-negative numbers with exponent >= -1000997. *)
Theorem C08_excess_rejected_partial : forall w s t n lo hi c e,
  used false w -> supported s t -> fixed_range t n lo hi -> ~ beyond (PDec (DFin false c e)) n lo hi -> -1000997 <= e ->
  ~ (exists z, scaled (DFin false c e) n z) ->
  encode_in w (PList [PStr s]) (PList [PDec (DFin false c e)]) = Err IllegalValue.
Proof. exact excess_rejected_nonneg. Qed.
Print Assumptions C08_excess_rejected_partial.
Example C08_sample : ~ beyond (PDec (DFin false 15 (-2))) 1 (-128) 127 /\ ~ (exists z, scaled (DFin false 15 (-2)) 1 z)
  /\ encode_in start (types ["fixed8x1"]) (PList [PDec (DFin false 15 (-2))]) = Err IllegalValue.
Proof. exact excess_sample. Qed.
(** Decimal("-0.15") is accepted for fixed8x1 and encoded as -0.1. *)
Theorem C08_excess_refuted : exists w s t n lo hi c e,
  used false w /\ supported s t /\ fixed_range t n lo hi /\ ~ (exists z, scaled (DFin true c e) n z)
  /\ encode_in w (PList [PStr s]) (PList [PDec (DFin true c e)]) = Ok (word (-1)).
Proof. exact excess_accepted. Qed.
Print Assumptions C08_excess_refuted.
(** Decimal("-0.05") is accepted for fixed8x1 and encoded as bytes that decode
    rejects. *)
Theorem C08_malformed_refuted : exists w s v b,
  used false w /\ encode_in w (PList [PStr s]) (PList [v]) = Ok b
  /\ decode_in w (PList [PStr s]) (PBytes b) true = Err NonEmptyPaddingBytes.
Proof. exact excess_malformed. Qed.
Print Assumptions C08_malformed_refuted.

(** * C34: packed encoding is plain concatenation *)

Theorem C34_packed_layout : forall w types ts args a,
  used true w -> type_args types ts -> denotes (STuple ts) args a -> fits args ->
  encode_in w types args = Ok (spec_packed (STuple ts) a).
Proof. exact (encode_denoted true). Qed.
Print Assumptions C34_packed_layout.
Theorem C34_packed_iff : forall w types ts args b,
  used true w -> type_args types ts -> fits args -> leaves exact_leaf (STuple ts) args ->
  encode_in w types args = Ok b <-> exists a, denotes (STuple ts) args a /\ b = spec_packed (STuple ts) a.
Proof. exact (encode_iff true). Qed.
Print Assumptions C34_packed_iff.
(** Both modes accept the same arguments and fail with the same exception. *)
Theorem C34_packed_same_arguments : forall w wp types args, used false w -> used true wp -> fits args ->
  ((exists b, encode_in w types args = Ok b) /\ (exists b, encode_in wp types args = Ok b))
  \/ exists e, encode_in w types args = Err e /\ encode_in wp types args = Err e.
Proof. exact packed_same_arguments. Qed.
Print Assumptions C34_packed_same_arguments.

Example C34_sample :
  encode_in start_packed (types ["int16"; "bytes1[]"; "string"])
    (PList [PInt (-1); PList [PBytes [x42]; PBytes [x03]]; str "Hello, world!"])
  = Ok ([xff; xff; x42; x03] ++ raw "Hello, world!").
Proof.
  rewrite (C34_packed_layout start_packed _ [SInt 16; SArr (SBytesM 1); SString] _
    (VSeq [VInt (-1); VSeq [VBytes [x42]; VBytes [x03]]; VStr (lit "Hello, world!")])).
  - lazy. reflexivity.
  - exact start_packed_used.
  - sample_types.
  - eapply D_tuple; [left; reflexivity|]. constructor; [|constructor; [|constructor; [|constructor]]].
    + constructor. in_range.
    + eapply D_arr; [left; reflexivity|]. constructor; [|constructor; [|constructor]].
      * exact (D_bytesM 1 (PBytes [x42]) [x42] (or_introl eq_refl) ltac:(lazy; discriminate)).
      * exact (D_bytesM 1 (PBytes [x03]) [x03] (or_introl eq_refl) ltac:(lazy; discriminate)).
    + constructor. repeat (constructor; [left; reflexivity|]). constructor.
  - lazy. reflexivity.
Qed.

(** * C35: injectivity of packed encoding *)

Theorem C35_packed_length : forall w types ts args b,
  used true w -> type_args types ts -> existsb sdyn ts = false ->
  encode_in w types args = Ok b -> leaves exact_leaf (STuple ts) args -> len b = packed_size (STuple ts).
Proof. exact encode_packed_length. Qed.
Print Assumptions C35_packed_length.
Theorem C35_packed_injective : forall w w' types ts args args' b,
  used true w -> used true w' -> type_args types ts -> existsb sdyn ts = false ->
  encode_in w types args = Ok b -> encode_in w' types args' = Ok b -> len b < 2 ^ 256 ->
  leaves exact_leaf (STuple ts) args -> leaves exact_leaf (STuple ts) args' ->
  exists a, denotes (STuple ts) args a /\ denotes (STuple ts) args' a.
Proof. exact encode_packed_injective. Qed.
Print Assumptions C35_packed_injective.
Example C35_sample : type_args (types ["(uint16,bool)[2]"; "bytes3"]) [SSized 2 (STuple [SUInt 16; SBool]); SBytesM 3]
  /\ packed_size (STuple [SSized 2 (STuple [SUInt 16; SBool]); SBytesM 3]) = 9
  /\ encode_in start_packed (types ["(uint16,bool)[2]"; "bytes3"])
       (PList [PList [PTuple [PInt 258; PBool true]; PTuple [PInt 772; PBool false]]; PBytes [xaa]])
     = Ok [x01; x02; x01; x03; x04; x00; xaa; x00; x00].
Proof. split; [sample_types|]. split; lazy; reflexivity. Qed.
(** ("a", "bc") and ("ab", "c") collide. *)
Theorem C35_packed_collision : exists w types args args' b,
  used true w /\ encode_in w types args = Ok b /\ encode_in w types args' = Ok b
  /\ args = PList [str "a"; str "bc"] /\ args' = PList [str "ab"; str "c"].
Proof. exact packed_collision. Qed.
Print Assumptions C35_packed_collision.

(** * C36: addresses (see PropertiesDecode.v for decoding) *)

(** [address_text]: 40 hex digits with optional 0x or 0X, in one case or with
    the EIP-55 checksum. *)
Theorem C36_encode_address : forall w s v, used false w -> supported s SAddr ->
  (exists b, (bytes_like v b /\ len b = 20 \/ exists txt, v = PStr txt /\ address_text txt b)
     /\ encode_in w (PList [PStr s]) (PList [v]) = Ok (repeat x00 12 ++ b))
  \/ ((forall b, ~ (bytes_like v b /\ len b = 20 \/ exists txt, v = PStr txt /\ address_text txt b))
      /\ encode_in w (PList [PStr s]) (PList [v]) = Err EncodingTypeError).
Proof. exact encode_address. Qed.
Print Assumptions C36_encode_address.
(** The same address in mixed case (EIP-55), lower and upper case. *)
Example C36_encode_sample : forall txt,
  In txt [lit "0xfB6916095ca1df60bB79Ce92cE3Ea74c37c5d359"; lit "fb6916095ca1df60bb79ce92ce3ea74c37c5d359"; lit "0XFB6916095CA1DF60BB79CE92CE3EA74C37C5D359"] ->
  encode_in start (types ["address"]) (PList [PStr txt])
  = Ok (repeat x00 12 ++ [xfb; x69; x16; x09; x5c; xa1; xdf; x60; xbb; x79; xce; x92; xce; x3e; xa7; x4c; x37; xc5; xd3; x59]).
Proof. exact address_sample. Qed.
Example C36_bad_checksum :
  encode_in start (types ["address"]) (PList [str "0xFB6916095ca1df60bB79Ce92cE3Ea74c37c5d359"]) = Err EncodingTypeError.
Proof. exact bad_checksum_sample. Qed.
(** The hash of the checksum is Keccak-256 as the standard describes it. *)
Theorem C36_keccak : forall bs, KeccakSpec.bits (Keccak.keccak256 bs) = KeccakSpec.keccak_bits (KeccakSpec.bits bs).
Proof. exact KeccakProofs.keccak_correct. Qed.
Print Assumptions C36_keccak.
Example C36_keccak_sample : Keccak.keccak256 []
  = [xc5; xd2; x46; x01; x86; xf7; x23; x3c; x92; x7e; x7d; xb2; xdc; xc7; x03; xc0; xe5; x00; xb6; x53; xca; x82; x27; x3b; x7b; xfa; xd8; x04; x5d; x85; xa4; x70].
Proof. lazy. reflexivity. Qed.

(** * C38: encode fails only with EncodingError *)

(** The test in the statements below is [isinstance(e, EncodingError)]. *)
Theorem C38_class : forall e, is_encoding_error e = true <-> isinstance e EncodingErrorBase.
Proof. exact encoding_class. Qed.
Print Assumptions C38_class.
Example C38_class_sample : isinstance ValueOutOfBounds EncodingErrorBase /\ ~ isinstance UnicodeEncodeError EncodingErrorBase /\ isinstance UnicodeEncodeError ValueError.
Proof.
  split; [apply encoding_class; reflexivity|]. split; [intro X; apply encoding_class in X; discriminate X|apply value_class; reflexivity].
Qed.

(** All outcomes, with the escaping exceptions and the arguments that cause
    them. *)
Theorem C38_encode_outcome : forall w types ts args, used false w -> type_args types ts -> fits args ->
  (exists b, encode_in w types args = Ok b /\ leaves scalar_leaf (STuple ts) args /\ shaped (STuple ts) args)
  \/ (exists e, encode_in w types args = Err e /\ is_encoding_error e = true)
  \/ (encode_in w types args = Err TypeError /\ ((forall l, ~ seq_like args l) \/ ~ leaves native_leaf (STuple ts) args))
  \/ (encode_in w types args = Err UnicodeEncodeError /\ ~ leaves scalar_leaf (STuple ts) args).
Proof. exact (encode_outcome false). Qed.
Print Assumptions C38_encode_outcome.
Example C38_sample : type_args (types ["(string,fixed)[1]"]) [SSized 1 (STuple [SString; SFixed 128 18])]
  /\ encode_in start (types ["(string,fixed)[1]"]) (PList [PList [PTuple [PBytes []; dec 1 0]]]) = Err EncodingTypeError.
Proof. split; [sample_types|lazy; reflexivity]. Qed.
Theorem C38_encode_error_refuted :
  (exists w types args, used false w /\ encode_in w types args = Err UnicodeEncodeError)
  /\ (exists w types args, used false w /\ encode_in w types args = Err TypeError).
Proof. exact encode_other_errors. Qed.
Print Assumptions C38_encode_error_refuted.

(** * C39: arity *)

Theorem C39_encode_arity : forall w types ts args l,
  used false w -> type_args types ts -> seq_like args l -> len l <> len ts ->
  encode_in w types args = Err ValueOutOfBounds.
Proof. exact (encode_arity false). Qed.
Print Assumptions C39_encode_arity.
(** [shaped]: every tuple and fixed-size array at any depth has the size its
    type demands. *)
Theorem C39_encode_shape : forall w types ts args l,
  used false w -> type_args types ts -> seq_like args l -> leaves native_leaf (STuple ts) args -> ~ shaped (STuple ts) args ->
  exists e, encode_in w types args = Err e /\ is_encoding_error e = true.
Proof. exact (encode_shape false). Qed.
Print Assumptions C39_encode_shape.
(** Also in packed mode. *)
Theorem C39_encode_packed_arity : forall w types ts args l,
  used true w -> type_args types ts -> seq_like args l -> len l <> len ts ->
  encode_in w types args = Err ValueOutOfBounds.
Proof. exact (encode_arity true). Qed.
Print Assumptions C39_encode_packed_arity.
Theorem C39_encode_packed_shape : forall w types ts args l,
  used true w -> type_args types ts -> seq_like args l -> leaves native_leaf (STuple ts) args -> ~ shaped (STuple ts) args ->
  exists e, encode_in w types args = Err e /\ is_encoding_error e = true.
Proof. exact (encode_shape true). Qed.
Print Assumptions C39_encode_packed_shape.
Example C39_sample : ~ shaped (STuple [SArr (SSized 2 (SUInt 8))]) (PList [PList [PList [PInt 1; PInt 2]; PList [PInt 3]]])
  /\ encode_in start (types ["uint8[2][]"]) (PList [PList [PList [PInt 1; PInt 2]; PList [PInt 3]]]) = Err ValueOutOfBounds
  /\ encode_in start (types ["uint8"; "bool"]) (PList [PInt 1]) = Err ValueOutOfBounds.
Proof. exact arity_sample. Qed.
