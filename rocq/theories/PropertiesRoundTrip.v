(** Property theorems relating encode and decode: C01, C04. *)
From Coq Require Import Strings.Byte Strings.String.
From Verif Require Import Tac Bytes Encoding Decoding Registry Codec Histories Spec ReadSpec TypeSpec DecodeApi Samples.
Open Scope string_scope.
Open Scope list_scope.
Open Scope Z_scope.
(* for evaluating the samples *)
Local Transparent Keccak.keccak256 Z.pow Decimals.pow10 Decimals.prec Decimals.Etop Decimals.Etiny Decimals.Emax Decimals.ndigits word be_bytes len.

(** * C01: decode inverts encode *)

(** [exact_leaf]: Decimals passed for fixed<M>x<N> need at most N fractional
    digits; [denotes]/[canon] (Spec.v) relate an argument and the returned value
    to the same ABI value. *)
Theorem C01_round_trip : forall w w' types args b strict,
  used false w -> used false w' -> encode_in w types args = Ok b -> len b <= maxsize ->
  (forall ts, type_args types ts -> leaves exact_leaf (STuple ts) args) ->
  exists ts a q, type_args types ts /\ denotes (STuple ts) args a /\ canon (STuple ts) a q
    /\ decode_in w' types (PBytes b) strict = Ok q.
Proof. exact round_trip. Qed.
Print Assumptions C01_round_trip.

Example C01_sample :
  let ts := types ["(string,bytes3)[]"; "address"; "int16"] in
  let args := PList [PList [PTuple [str "one"; PByteArray (raw "a")]; PList [str "two"; PBytes (raw "bcd")]]; PBytes (repeat xcd 20); PInt (-3)] in
  exists b, encode_in start ts args = Ok b /\ len b = 448
  /\ decode_in start ts (PBytes b) true
     = Ok (PTuple [PTuple [PTuple [str "one"; PBytes (raw "a" ++ [x00; x00])]; PTuple [str "two"; PBytes (raw "bcd")]];
                   str "0xcdcdcdcdcdcdcdcdcdcdcdcdcdcdcdcdcdcdcdcd"; PInt (-3)]).
Proof. eexists. split; [lazy; reflexivity|]. split; lazy; reflexivity. Qed.

(** * C04: encoding is injective *)

(** Equal encodings of two argument lists for the same types: both stand for
    the same ABI values. *)
Theorem C04_injective : forall w w' types args args' b,
  used false w -> used false w' -> encode_in w types args = Ok b -> encode_in w' types args' = Ok b -> len b <= maxsize ->
  (forall ts, type_args types ts -> leaves exact_leaf (STuple ts) args /\ leaves exact_leaf (STuple ts) args') ->
  exists ts a, type_args types ts /\ denotes (STuple ts) args a /\ denotes (STuple ts) args' a.
Proof. exact encode_injective. Qed.
Print Assumptions C04_injective.
(** No encoding is a proper prefix of another. *)
Theorem C04_prefix_free : forall w w' types args args' b post,
  used false w -> used false w' -> encode_in w types args = Ok b -> encode_in w' types args' = Ok (b ++ post) -> len (b ++ post) <= maxsize ->
  (forall ts, type_args types ts -> leaves exact_leaf (STuple ts) args /\ leaves exact_leaf (STuple ts) args') ->
  exists ts a, type_args types ts /\ denotes (STuple ts) args a /\ denotes (STuple ts) args' a /\ post = [].
Proof. exact encode_prefix_free. Qed.
Print Assumptions C04_prefix_free.
(** ("a", "bc") and ("ab", "c") have different encodings; a bytes2 value and its
    padded form have the same. *)
Example C04_sample :
  encode_in start (types ["string"; "string"]) (PList [str "a"; str "bc"]) <> encode_in start (types ["string"; "string"]) (PList [str "ab"; str "c"])
  /\ encode_in start (types ["bytes2"]) (PList [PBytes (raw "a")]) = encode_in start (types ["bytes2"]) (PTuple [PByteArray (raw "a" ++ [x00])]).
Proof. split; [lazy; discriminate|lazy; reflexivity]. Qed.
