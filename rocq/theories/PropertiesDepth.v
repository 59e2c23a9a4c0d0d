(** C80: how deeply coders call each other.

    The other property files ignore Python's recursion limit.  Here coders take
    one of [n] levels each (Depth.v: [deep_encode_in] and so on) and the two are
    compared. *)
From Coq Require Import Strings.Byte Strings.String.
From Verif Require Import Py Bytes Encoding Decoding Registry Codec Histories Spec ReadSpec TypeSpec CostSpec Samples Depth DepthSpec DepthProofs.
Open Scope string_scope.
Open Scope list_scope.
Open Scope Z_scope.
Local Transparent Keccak.keccak256 Z.pow Decimals.pow10 Decimals.prec Decimals.Etop Decimals.Etiny Decimals.Emax Decimals.ndigits word be_bytes len.

(** The levels that decoding takes are known from the types: no payload, however
    made, takes more. *)
Theorem C80_decode : forall n w types ts data b strict, used false w -> type_args types ts -> bytes_like data b ->
  (dec_levels (STuple ts) <= n)%nat -> deep_decode_in n w types data strict = decode_in w types data strict.
Proof. exact decode_levels. Qed.
Print Assumptions C80_decode.
(** Those that encoding takes are too, if it succeeds. *)
Theorem C80_encode : forall n pk w types ts args b, used pk w -> type_args types ts -> (enc_levels pk (STuple ts) <= n)%nat ->
  encode_in w types args = Ok b -> deep_encode_in n w types args = Ok b.
Proof. exact encode_levels. Qed.
Print Assumptions C80_encode.
(** If it fails the message quotes a value, and the nesting of the arguments
    counts as well. *)
Theorem C80_encode_errors : forall n pk w types ts args, used pk w -> type_args types ts -> (enc_levels pk (STuple ts) <= n)%nat ->
  (nesting args < n)%nat -> deep_encode_in n w types args = encode_in w types args.
Proof. exact encode_same. Qed.
Print Assumptions C80_encode_errors.
Theorem C80_is_encodable : forall n pk w s t arg, used pk w -> supported s t -> (enc_levels pk t <= n)%nat ->
  deep_is_encodable_in n w (PStr s) arg = is_encodable_in w (PStr s) arg
  \/ (is_encodable_in w (PStr s) arg = Ok false /\ (n <= nesting arg)%nat /\ deep_is_encodable_in n w (PStr s) arg = Err RuntimeError).
Proof. exact is_encodable_levels. Qed.
Print Assumptions C80_is_encodable.

(** With any number of levels the result is the same or RuntimeError: never
    other bytes, another value or another exception. *)
Theorem C80_decode_limited : forall n w types data strict,
  deep_decode_in n w types data strict = decode_in w types data strict \/ deep_decode_in n w types data strict = Err RuntimeError.
Proof. exact decode_limited. Qed.
Print Assumptions C80_decode_limited.
Theorem C80_encode_limited : forall n w types args,
  deep_encode_in n w types args = encode_in w types args \/ deep_encode_in n w types args = Err RuntimeError.
Proof. exact encode_limited. Qed.
Print Assumptions C80_encode_limited.

(** The numbers are exact for types without T[] and T[0], whose values have
    every part. *)
Theorem C80_decode_exact : forall n w types ts data b strict v, used false w -> type_args types ts -> bytes_like data b -> filled (STuple ts) ->
  decode_in w types data strict = Ok v ->
  deep_decode_in n w types data strict = if Nat.leb (dec_levels (STuple ts)) n then Ok v else Err RuntimeError.
Proof. exact decode_exact. Qed.
Print Assumptions C80_decode_exact.
Theorem C80_encode_exact : forall n pk w types ts args b, used pk w -> type_args types ts -> filled (STuple ts) -> encode_in w types args = Ok b ->
  deep_encode_in n w types args = if Nat.leb (enc_levels pk (STuple ts)) n then Ok b else Err RuntimeError.
Proof. exact encode_exact. Qed.
Print Assumptions C80_encode_exact.

(** No number of levels is enough for all types, not even for one word ... *)
Theorem C80_all_types_refuted : forall n, exists types ts, type_args types ts /\ len ts = 1 /\
  forall w data b strict, used false w -> bytes_like data b -> len b = 32 ->
  (exists q, decode_in w types data strict = Ok q) /\ deep_decode_in n w types data strict = Err RuntimeError.
Proof. exact decode_any. Qed.
Print Assumptions C80_all_types_refuted.
(** ... or, for type uint, to reject every value properly. *)
Theorem C80_all_values_refuted : forall n pk w, (2 <= n)%nat -> used pk w ->
  encode_in w (types ["uint"]) (wrapped n (PInt 7)) = Err EncodingTypeError
  /\ deep_encode_in n w (types ["uint"]) (wrapped n (PInt 7)) = Err RuntimeError.
Proof. exact encode_shown. Qed.
Print Assumptions C80_all_values_refuted.
Theorem C80_is_encodable_false_refuted : forall n pk w, (1 <= n)%nat -> used pk w ->
  is_encodable_in w (str "uint") (wrapped n (PInt 7)) = Ok false
  /\ deep_is_encodable_in n w (str "uint") (wrapped n (PInt 7)) = Err RuntimeError.
Proof. exact is_encodable_shown. Qed.
Print Assumptions C80_is_encodable_false_refuted.

Definition deep_types : list sty := [STuple [SString; SUInt 8]; SSized 2 SBytes].
Definition deep_args : pyval := PList [PTuple [PStr (lit "ab"); PInt 5]; PList [PBytes [x01]; PBytes []]].
Definition deep_payload : bytes := match encode_in start (types ["(string,uint8)"; "bytes[2]"]) deep_args with Ok b => b | Err _ => [] end.
Example C80_sample : type_args (types ["(string,uint8)"; "bytes[2]"]) deep_types
  /\ filled (STuple deep_types)
  /\ enc_levels false (STuple deep_types) = 4%nat /\ enc_levels true (STuple deep_types) = 3%nat /\ dec_levels (STuple deep_types) = 6%nat
  /\ len deep_payload = 352
  /\ deep_encode_in 4 start (types ["(string,uint8)"; "bytes[2]"]) deep_args = Ok deep_payload
  /\ deep_encode_in 3 start (types ["(string,uint8)"; "bytes[2]"]) deep_args = Err RuntimeError
  /\ deep_decode_in 6 start (types ["(string,uint8)"; "bytes[2]"]) (PBytes deep_payload) true
     = Ok (PTuple [PTuple [PStr (lit "ab"); PInt 5]; PTuple [PBytes [x01]; PBytes []]])
  /\ deep_decode_in 5 start (types ["(string,uint8)"; "bytes[2]"]) (PBytes deep_payload) true = Err RuntimeError
  /\ deep_decode_in 5 start (types ["(string,uint8)"; "bytes[2]"]) (PBytes (word 0)) true = Err InvalidPointer
  /\ wrapped 2 (PInt 7) = PList [PList [PInt 7]]
  /\ deep_encode_in 3 start (types ["uint"]) (wrapped 2 (PInt 7)) = Err EncodingTypeError
  /\ deep_encode_in 2 start (types ["uint"]) (wrapped 2 (PInt 7)) = Err RuntimeError.
Proof. repeat (split; [first [sample_types|lazy; reflexivity|cbn; repeat split; discriminate]|]). lazy. reflexivity. Qed.
(** An empty T[] takes fewer levels than T asks for. *)
Example C80_empty : dec_levels (STuple [SArr (SArr (SUInt 8))]) = 6%nat
  /\ decode_in start (types ["uint8[][]"]) (PBytes (word 32 ++ word 0)) true = Ok (PTuple [PTuple []])
  /\ deep_decode_in 4 start (types ["uint8[][]"]) (PBytes (word 32 ++ word 0)) true = Ok (PTuple [PTuple []])
  /\ deep_decode_in 3 start (types ["uint8[][]"]) (PBytes (word 32 ++ word 0)) true = Err RuntimeError.
Proof. repeat (split; [lazy; reflexivity|]). lazy. reflexivity. Qed.
