(** C62: how often decoding reads from the payload. *)
From Coq Require Import Strings.Byte Strings.String.
From Verif Require Import Py Bytes Encoding Decoding Registry Codec Histories Spec ReadSpec TypeSpec Cost CostSpec Samples CostProofs.
Open Scope string_scope.
Open Scope list_scope.
Open Scope Z_scope.
Local Transparent Keccak.keccak256 Z.pow Decimals.pow10 Decimals.prec Decimals.Etop Decimals.Etiny Decimals.Emax Decimals.ndigits word be_bytes len.

(** The counting version is the same program. *)
Theorem C62_same : forall types data strict w, snd (fst (api_decode_count types data strict w)) = fst (api_decode types data strict w)
  /\ snd (api_decode_count types data strict w) = snd (api_decode types data strict w).
Proof. exact api_count_result. Qed.
Print Assumptions C62_same.
(** A payload that decodes is read exactly as often as its value says. *)
Theorem C62_exact : forall w types ts data b strict vs, used false w -> type_args types ts -> bytes_like data b -> len b <= maxsize ->
  payload_holds b strict ts vs -> reads_in w types data strict = work (STuple ts) (VSeq vs).
Proof. exact reads_exact. Qed.
Print Assumptions C62_exact.
(** No payload, not even a rejected one, is read more often than a payload of
    its length filled with items can be. *)
Theorem C62_bound : forall w types ts data b strict, used false w -> type_args types ts -> bytes_like data b -> len b <= maxsize ->
  0 <= reads_in w types data strict <= max_work (len b / 32) (STuple ts).
Proof. exact reads_bounded. Qed.
Print Assumptions C62_bound.
(** One word of type ((...(uint)...)) is read twice as often for every tuple,
    the one formed by the arguments included. *)
Theorem C62_nested : forall k w data b strict, used false w -> bytes_like data b -> len b = 32 ->
  reads_in w (PList [PStr (nested_name k (lit "uint"))]) data strict = 2 ^ Z.of_nat (S k).
Proof. exact nested_reads. Qed.
Print Assumptions C62_nested.
(** So the length of the payload and the number of arguments do not bound the reads. *)
Theorem C62_length_bound_refuted : forall c, exists types ts, type_args types ts /\ len ts = 1 /\
  forall w data b strict, used false w -> bytes_like data b -> len b = 32 ->
  (exists q, decode_in w types data strict = Ok q) /\ c < reads_in w types data strict.
Proof. exact reads_grow. Qed.
Print Assumptions C62_length_bound_refuted.

Definition list_payload : bytes := word 64 ++ word 7 ++ word 2 ++ word 5 ++ word 6.
(** A count of 2^255 items is given up after the items that are there. *)
Definition endless_payload : bytes := word 64 ++ word 7 ++ word (2 ^ 255) ++ word 5 ++ word 6.
Example C62_sample : type_args (types ["uint8[]"; "uint8"]) [SArr (SUInt 8); SUInt 8]
  /\ decode_in start (types ["uint8[]"; "uint8"]) (PBytes list_payload) true = Ok (PTuple [PTuple [PInt 5; PInt 6]; PInt 7])
  /\ work (STuple [SArr (SUInt 8); SUInt 8]) (VSeq [VSeq [VInt 5; VInt 6]; VInt 7]) = 7
  /\ reads_in start (types ["uint8[]"; "uint8"]) (PBytes list_payload) true = 7
  /\ decode_in start (types ["uint8[]"; "uint8"]) (PBytes endless_payload) true = Err InsufficientDataBytes
  /\ reads_in start (types ["uint8[]"; "uint8"]) (PBytes endless_payload) true = 7
  /\ max_work (len endless_payload / 32) (STuple [SArr (SUInt 8); SUInt 8]) = 10
  /\ nested_name 2 (lit "uint") = lit "((uint))"
  /\ decode_in start (types ["((uint))"]) (PBytes (word 9)) true = Ok (PTuple [PTuple [PTuple [PInt 9]]])
  /\ reads_in start (types ["((uint))"]) (PBytes (word 9)) true = 8.
Proof. repeat (split; [first [sample_types|lazy; reflexivity]|]). lazy. reflexivity. Qed.
