(** Property theorems about altered encodings: C75. *)
From Coq Require Import Strings.Byte Strings.String Bool.
From Verif Require Import Tac Bytes Encoding Decoding Registry Codec Histories Spec ReadSpec TypeSpec AlterSpec AlterProofs AlterCases Samples.
Open Scope string_scope.
Open Scope list_scope.
Open Scope Z_scope.
Local Transparent Keccak.keccak256 Z.pow Decimals.pow10 Decimals.prec Decimals.Etop Decimals.Etiny Decimals.Emax Decimals.ndigits word be_bytes len.

(** The map says of every byte of an encoding whether it belongs to a pointer;
    there are 32 such bytes for each member of dynamic type and no others. *)
Theorem C75_pointer_map : forall w types ts args a b,
  used false w -> type_args types ts -> denotes (STuple ts) args a -> fits args -> encode_in w types args = Ok b ->
  length (pointer_map (STuple ts) a) = length b
  /\ count_occ bool_dec (pointer_map (STuple ts) a) true = (32 * pointers (STuple ts) a)%nat.
Proof. exact map_covers. Qed.
Print Assumptions C75_pointer_map.

(** A payload with the same pointers that decodes to the encoded values begins
    with their encoding, byte for byte. *)
Theorem C75_prefix : forall w w' types ts args a b data b' strict q,
  used false w -> used false w' -> type_args types ts -> denotes (STuple ts) args a -> fits args ->
  encode_in w types args = Ok b -> len b <= maxsize -> bytes_like data b' -> len b' <= maxsize ->
  strict = true \/ existsb flat_bytes ts = false -> same_pointers (pointer_map (STuple ts) a) b b' ->
  decode_in w' types data strict = Ok q -> canon (STuple ts) a q -> exists rest, b' = b ++ rest.
Proof. exact alter_prefix. Qed.
Print Assumptions C75_prefix.

(** So does any payload, without a condition on pointers, of static types. *)
Theorem C75_static : forall w w' types ts args a b data b' strict q,
  used false w -> used false w' -> type_args types ts -> existsb sdyn ts = false -> denotes (STuple ts) args a -> fits args ->
  encode_in w types args = Ok b -> len b <= maxsize -> bytes_like data b' -> len b' <= maxsize ->
  decode_in w' types data strict = Ok q -> canon (STuple ts) a q -> exists rest, b' = b ++ rest.
Proof. exact alter_static. Qed.
Print Assumptions C75_static.

(** No byte outside the pointers is without meaning: with another value there,
    the payload is refused or decodes to something else. *)
Theorem C75_byte : forall w w' types ts args a b data strict i c,
  used false w -> used false w' -> type_args types ts -> denotes (STuple ts) args a -> fits args ->
  encode_in w types args = Ok b -> len b <= maxsize -> strict = true \/ existsb flat_bytes ts = false ->
  nth_error (pointer_map (STuple ts) a) i = Some false -> nth_error b i <> Some c -> bytes_like data (with_byte b i c) ->
  (exists e, decode_in w' types data strict = Err e) \/ (exists q, decode_in w' types data strict = Ok q /\ ~ canon (STuple ts) a q).
Proof. exact alter_byte. Qed.
Print Assumptions C75_byte.

(** A text of two letters and a number: the first word is a pointer, the other
    ones are the number, the length, and the letters with their padding. *)
Definition altered (i : nat) (c : byte) : result pyval :=
  match encode_in start (types ["string"; "uint8"]) (PList [str "ab"; PInt 7]) with
  | Ok b => decode_in start (types ["string"; "uint8"]) (PBytes (with_byte b i c)) true
  | Err e => Err e
  end.
Example C75_sample :
  type_args (types ["string"; "uint8"]) [SString; SUInt 8]
  /\ denotes (STuple [SString; SUInt 8]) (PList [str "ab"; PInt 7]) (VSeq [VStr (lit "ab"); VInt 7])
  /\ pointer_map (STuple [SString; SUInt 8]) (VSeq [VStr (lit "ab"); VInt 7]) = repeat true 32 ++ repeat false 96
  /\ altered 63 x08 = Ok (PTuple [str "ab"; PInt 8]) /\ altered 62 x01 = Err NonEmptyPaddingBytes
  /\ altered 95 x01 = Err NonEmptyPaddingBytes /\ altered 95 x21 = Err InsufficientDataBytes
  /\ altered 96 "c" = Ok (PTuple [str "cb"; PInt 7]) /\ altered 127 x01 = Err NonEmptyPaddingBytes.
Proof.
  split; [sample_types|]. split.
  { eapply D_tuple; [left; reflexivity|]. constructor; [constructor; repeat constructor; lazy; intuition discriminate|]. constructor; [|constructor]. constructor. in_range. }
  repeat split; lazy; reflexivity.
Qed.

(** Pointers can be altered without effect: of two equal members, both pointers
    may lead to the same one. *)
Theorem C75_pointers_refuted : ~ forall w w' types ts args a b data strict i c,
  used false w -> used false w' -> type_args types ts -> denotes (STuple ts) args a -> fits args ->
  encode_in w types args = Ok b -> len b <= maxsize -> strict = true \/ existsb flat_bytes ts = false ->
  nth_error b i <> Some c -> (i < length b)%nat -> bytes_like data (with_byte b i c) ->
  (exists e, decode_in w' types data strict = Err e) \/ (exists q, decode_in w' types data strict = Ok q /\ ~ canon (STuple ts) a q).
Proof. exact same_twice. Qed.
Print Assumptions C75_pointers_refuted.
(** Without the strict flag, neither has the padding of bytes and strings at top
    level any meaning. *)
Theorem C75_lenient_refuted : ~ forall w w' types ts args a b data strict i c,
  used false w -> used false w' -> type_args types ts -> denotes (STuple ts) args a -> fits args ->
  encode_in w types args = Ok b -> len b <= maxsize ->
  nth_error (pointer_map (STuple ts) a) i = Some false -> nth_error b i <> Some c -> bytes_like data (with_byte b i c) ->
  (exists e, decode_in w' types data strict = Err e) \/ (exists q, decode_in w' types data strict = Ok q /\ ~ canon (STuple ts) a q).
Proof. exact dirty_padding. Qed.
Print Assumptions C75_lenient_refuted.
