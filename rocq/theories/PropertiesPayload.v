(** C59, C60 and C19: payloads that were cut short, and the size of decoded values. *)
From Coq Require Import Strings.Byte Strings.String.
From Verif Require Import Py Bytes Encoding Decoding Registry Codec Histories Spec ReadSpec SizeSpec TypeSpec Samples TruncProofs SizeProofs.
Open Scope string_scope.
Open Scope list_scope.
Open Scope Z_scope.
Local Transparent Keccak.keccak256 Z.pow Decimals.pow10 Decimals.prec Decimals.Etop Decimals.Etiny Decimals.Emax Decimals.ndigits word be_bytes len.

(** ** C59: truncated payloads *)
(** [encode]'s output without its last bytes never decodes.  [exact_leaf]: the
    numbers fit their decimal places, as in C01. *)
Theorem C59_truncated : forall w w' types args data b ext, used false w -> used false w' -> encode_in w types args = Ok (b ++ ext) -> ext <> [] ->
  (forall ts, type_args types ts -> leaves exact_leaf (STuple ts) args) -> len (b ++ ext) <= maxsize -> bytes_like data b ->
  decode_in w' types data true = Err InsufficientDataBytes \/ decode_in w' types data true = Err InvalidPointer.
Proof. exact decode_truncated. Qed.
Print Assumptions C59_truncated.
(** Any payload: cutting it never changes the value or raises another exception. *)
Theorem C59_any_payload : forall w w' types data data' b ext q, used false w -> used false w' -> bytes_like data (b ++ ext) -> bytes_like data' b -> len (b ++ ext) <= maxsize ->
  decode_in w types data true = Ok q ->
  decode_in w' types data' true = Ok q \/ decode_in w' types data' true = Err InsufficientDataBytes \/ decode_in w' types data' true = Err InvalidPointer.
Proof. exact decode_cut. Qed.
Print Assumptions C59_any_payload.
Definition pair_payload : bytes := word 64 ++ word 7 ++ word 2 ++ raw "ab" ++ repeat x00 30.
Example C59_sample : type_args (types ["string"; "uint8"]) [SString; SUInt 8]
  /\ encode_in start (types ["string"; "uint8"]) (PTuple [str "ab"; PInt 7]) = Ok pair_payload
  /\ leaves exact_leaf (STuple [SString; SUInt 8]) (PTuple [str "ab"; PInt 7])
  /\ decode_in start (types ["string"; "uint8"]) (PBytes (firstn 127 pair_payload)) true = Err InsufficientDataBytes
  /\ decode_in start (types ["string"; "uint8"]) (PBytes (firstn 64 pair_payload)) true = Err InvalidPointer
  /\ decode_in start (types ["string"; "uint8"]) (PBytes (firstn 31 pair_payload)) true = Err InsufficientDataBytes
  /\ decode_in start (types ["string"; "uint8"]) (PBytes (pair_payload ++ word 9)) true = Ok (PTuple [str "ab"; PInt 7])
  /\ decode_in start (types ["string"; "uint8"]) (PBytes pair_payload) true = Ok (PTuple [str "ab"; PInt 7]).
Proof. split; [sample_types|]. split; [lazy; reflexivity|]. split; [lazy; auto|]. repeat split; lazy; reflexivity. Qed.
(** With strict=False the missing end of a byte string is not noticed. *)
Example C59_lenient : decode_in start (types ["string"; "uint8"]) (PBytes (firstn 97 pair_payload)) false = Ok (PTuple [str "a"; PInt 7]).
Proof. lazy. reflexivity. Qed.

(** ** C60: the size of a decoded value *)
Theorem C60_items : forall w types ts data b strict q, used false w -> type_args types ts -> bytes_like data b -> len b <= maxsize ->
  decode_in w types data strict = Ok q -> value_items q <= max_items (len b / 32) (STuple ts).
Proof. exact decode_items. Qed.
Print Assumptions C60_items.
(** A polynomial in the payload length; its degree is how deeply T[] are nested. *)
Theorem C60_polynomial : forall w types ts data b strict q, used false w -> type_args types ts -> bytes_like data b -> len b <= maxsize ->
  decode_in w types data strict = Ok q -> value_items q <= Z.max 1 (len b / 32) ^ Z.of_nat (array_depth (STuple ts)) * max_items 1 (STuple ts).
Proof. exact decode_items_poly. Qed.
Print Assumptions C60_polynomial.
(** 42: the text of an address. *)
Theorem C60_longest : forall w types ts data b strict q, used false w -> type_args types ts -> bytes_like data b -> len b <= maxsize ->
  decode_in w types data strict = Ok q -> longest q <= Z.max 42 (len b).
Proof. exact decode_longest. Qed.
Print Assumptions C60_longest.
Example C60_sample : type_args (types ["(uint8,bytes)[2]"; "uint8[][]"]) [SSized 2 (STuple [SUInt 8; SBytes]); SArr (SArr (SUInt 8))]
  /\ max_items 10 (STuple [SSized 2 (STuple [SUInt 8; SBytes]); SArr (SArr (SUInt 8))]) = 118
  /\ array_depth (STuple [SSized 2 (STuple [SUInt 8; SBytes]); SArr (SArr (SUInt 8))]) = 2%nat
  /\ decode_in start (types ["string"; "uint8"]) (PBytes pair_payload) true = Ok (PTuple [str "ab"; PInt 7])
  /\ value_items (PTuple [str "ab"; PInt 7]) = 2 /\ longest (PTuple [str "ab"; PInt 7]) = 2.
Proof. split; [sample_types|]. repeat split; lazy; reflexivity. Qed.

(** ** C19: proportional where no T[] is inside another *)
Theorem C19_flat_partial : forall w types ts data b strict q, used false w -> type_args types ts -> (array_depth (STuple ts) <= 1)%nat -> bytes_like data b -> len b <= maxsize ->
  decode_in w types data strict = Ok q -> value_items q <= Z.max 1 (len b / 32) * max_items 1 (STuple ts).
Proof. exact decode_items_linear. Qed.
Print Assumptions C19_flat_partial.
Example C19_flat_sample : type_args (types ["uint8[]"; "string[2]"]) [SArr (SUInt 8); SSized 2 SString]
  /\ array_depth (STuple [SArr (SUInt 8); SSized 2 SString]) = 1%nat /\ max_items 1 (STuple [SArr (SUInt 8); SSized 2 SString]) = 5
  /\ decode_in start (types ["uint8[]"]) (PBytes (word 32 ++ word 2 ++ word 5 ++ word 6)) true = Ok (PTuple [PTuple [PInt 5; PInt 6]]).
Proof. split; [sample_types|]. repeat split; lazy; reflexivity. Qed.
