(** Property theorems about the length and the order of encodings: C68 C69. *)
From Coq Require Import Strings.Byte Strings.String.
From Verif Require Import Tac Bytes Encoding Decoding Registry Codec Histories Spec ReadSpec TypeSpec LengthSpec LengthProofs OrderSpec OrderProofs OrderCases Samples.
Open Scope string_scope.
Open Scope list_scope.
Open Scope Z_scope.
Local Transparent Keccak.keccak256 Z.pow Decimals.pow10 Decimals.prec Decimals.Etop Decimals.Etiny Decimals.Emax Decimals.ndigits word be_bytes len.

(** * C68: the length of an encoding *)

Theorem C68_length : forall w types ts args b,
  used false w -> type_args types ts -> encode_in w types args = Ok b -> len b = taken (STuple ts) args.
Proof. exact (api_takes false). Qed.
Print Assumptions C68_length.
Theorem C68_packed_length : forall w types ts args b,
  used true w -> type_args types ts -> encode_in w types args = Ok b -> len b = taken_packed (STuple ts) args.
Proof. exact (api_takes true). Qed.
Print Assumptions C68_packed_length.

(** (string, bytes2)[] with a text of 2 + 3 bytes and an empty one, and a bytes *)
Example C68_sample :
  let tys := types ["(string,bytes2)[]"; "bytes"] in
  let args := PList [PList [PTuple [PStr [0xe9; 0x20ac]%N; PBytes (raw "a")]; PTuple [str ""; PBytes (raw "ab")]]; PBytes (raw "abc")] in
  type_args tys [SArr (STuple [SString; SBytesM 2]); SBytes]
  /\ taken (STuple [SArr (STuple [SString; SBytesM 2]); SBytes]) args = 32 + (32 + (32 + (32 + 32 + 32 + 32)) + (32 + (32 + 32 + 32))) + 32 + (32 + 32)
  /\ (exists b, encode_in start tys args = Ok b /\ len b = 448)
  /\ exists b, encode_in start_packed (types ["string[]"; "bytes"]) (PList [PList [PStr [0xe9; 0x20ac]%N; str ""]; PBytes (raw "abc")]) = Ok b /\ len b = 8.
Proof.
  cbv zeta. split; [sample_types|]. split; [lazy; reflexivity|].
  split; eexists; (split; [lazy; reflexivity|lazy; reflexivity]).
Qed.

(** * C69: encodings of static types are ordered like the values *)

Theorem C69_order : forall w w' types ts args args' a a',
  used false w -> used false w' -> type_args types ts ->
  denotes (STuple ts) args a -> denotes (STuple ts) args' a' -> fits args -> fits args' -> same_signs (STuple ts) a a' ->
  exists b b', encode_in w types args = Ok b /\ encode_in w' types args' = Ok b' /\ compare_bytes b b' = compare_values a a'.
Proof. exact (api_order false). Qed.
Print Assumptions C69_order.
Theorem C69_packed_order : forall w w' types ts args args' a a',
  used true w -> used true w' -> type_args types ts ->
  denotes (STuple ts) args a -> denotes (STuple ts) args' a' -> fits args -> fits args' -> same_signs (STuple ts) a a' ->
  exists b b', encode_in w types args = Ok b /\ encode_in w' types args' = Ok b' /\ compare_bytes b b' = compare_values a a'.
Proof. exact (api_order true). Qed.
Print Assumptions C69_packed_order.
(** Negative integers come after all others. *)
Theorem C69_negative : forall w s m y z,
  used false w -> supported s (SInt m) -> 0 <= y < 2 ^ (m - 1) -> - 2 ^ (m - 1) <= z < 0 ->
  exists b b', encode_in w (PList [PStr s]) (PList [PInt y]) = Ok b /\ encode_in w (PList [PStr s]) (PList [PInt z]) = Ok b'
    /\ compare_bytes b b' = Lt.
Proof. exact (negative_after false). Qed.
Print Assumptions C69_negative.
Theorem C69_packed_negative : forall w s m y z,
  used true w -> supported s (SInt m) -> 0 <= y < 2 ^ (m - 1) -> - 2 ^ (m - 1) <= z < 0 ->
  exists b b', encode_in w (PList [PStr s]) (PList [PInt y]) = Ok b /\ encode_in w (PList [PStr s]) (PList [PInt z]) = Ok b'
    /\ compare_bytes b b' = Lt.
Proof. exact (negative_after true). Qed.
Print Assumptions C69_packed_negative.

Example C69_sample :
  same_signs (STuple [SUInt 16; SInt 8; SSized 2 SBool]) (VSeq [VInt 255; VInt (-2); VSeq [VBool true; VBool false]])
    (VSeq [VInt 255; VInt (-2); VSeq [VBool true; VBool true]])
  /\ compare_values (VSeq [VInt 255; VInt (-2); VSeq [VBool true; VBool false]]) (VSeq [VInt 255; VInt (-2); VSeq [VBool true; VBool true]]) = Lt
  /\ denotes (STuple [SUInt 16; SInt 8; SSized 2 SBool]) (PList [PInt 255; PInt (-2); PList [PBool true; PBool false]])
       (VSeq [VInt 255; VInt (-2); VSeq [VBool true; VBool false]]).
Proof.
  split; [|split].
  - constructor. constructor; [constructor|]. constructor; [constructor; lia|]. constructor; [|constructor]. constructor. repeat constructor.
  - reflexivity.
  - eapply D_tuple; [left; reflexivity|]. constructor; [constructor; in_range|]. constructor; [constructor; in_range|]. constructor; [|constructor].
    eapply D_sized; [left; reflexivity|reflexivity|]. repeat constructor.
Qed.

(** Without the restriction to static types it fails: [2] is greater than
    [1, 1] but encoded below it. *)
Theorem C69_dynamic_refuted : exists w args args' b b',
  used false w /\ encode_in w (types ["uint8[]"]) args = Ok b /\ encode_in w (types ["uint8[]"]) args' = Ok b'
  /\ denotes (STuple [SArr (SUInt 8)]) args (VSeq [VSeq [VInt 2]]) /\ denotes (STuple [SArr (SUInt 8)]) args' (VSeq [VSeq [VInt 1; VInt 1]])
  /\ compare_values (VSeq [VSeq [VInt 2]]) (VSeq [VSeq [VInt 1; VInt 1]]) = Gt /\ compare_bytes b b' = Lt.
Proof. exact short_first. Qed.
Print Assumptions C69_dynamic_refuted.
(** Nor with different signs: -1 is encoded above 1. *)
Theorem C69_signs_refuted : exists w args args' b b',
  used false w /\ encode_in w (types ["int8"]) args = Ok b /\ encode_in w (types ["int8"]) args' = Ok b'
  /\ denotes (STuple [SInt 8]) args (VSeq [VInt (-1)]) /\ denotes (STuple [SInt 8]) args' (VSeq [VInt 1])
  /\ compare_values (VSeq [VInt (-1)]) (VSeq [VInt 1]) = Lt /\ compare_bytes b b' = Gt.
Proof. exact minus_one_last. Qed.
Print Assumptions C69_signs_refuted.
