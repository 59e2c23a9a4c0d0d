(** Encodings that are not ordered like the values. *)
From Coq Require Import Strings.Byte Strings.String.
From Verif Require Import Tac Bytes Encoding Decoding Registry Codec Histories Spec ReadSpec TypeSpec OrderSpec Samples.
Open Scope string_scope.
Open Scope list_scope.
Open Scope Z_scope.
Local Transparent Keccak.keccak256 Z.pow Decimals.pow10 Decimals.prec Decimals.Etop Decimals.Etiny Decimals.Emax Decimals.ndigits word be_bytes len.

Theorem short_first : exists w args args' b b',
  used false w /\ encode_in w (types ["uint8[]"]) args = Ok b /\ encode_in w (types ["uint8[]"]) args' = Ok b'
  /\ denotes (STuple [SArr (SUInt 8)]) args (VSeq [VSeq [VInt 2]]) /\ denotes (STuple [SArr (SUInt 8)]) args' (VSeq [VSeq [VInt 1; VInt 1]])
  /\ compare_values (VSeq [VSeq [VInt 2]]) (VSeq [VSeq [VInt 1; VInt 1]]) = Gt /\ compare_bytes b b' = Lt.
Proof.
  exists start, (PList [PList [PInt 2]]), (PList [PList [PInt 1; PInt 1]]). eexists. eexists.
  split; [exact start_used|]. split; [lazy; reflexivity|]. split; [lazy; reflexivity|]. split.
  { eapply D_tuple; [left; reflexivity|]. constructor; [|constructor]. eapply D_arr; [left; reflexivity|]. constructor; [constructor; in_range|]. try (constructor; [constructor; in_range|]). constructor. }
  split; [|split; lazy; reflexivity].
  eapply D_tuple; [left; reflexivity|]. constructor; [|constructor]. eapply D_arr; [left; reflexivity|]. constructor; [constructor; in_range|]. try (constructor; [constructor; in_range|]). constructor.
Qed.
Theorem minus_one_last : exists w args args' b b',
  used false w /\ encode_in w (types ["int8"]) args = Ok b /\ encode_in w (types ["int8"]) args' = Ok b'
  /\ denotes (STuple [SInt 8]) args (VSeq [VInt (-1)]) /\ denotes (STuple [SInt 8]) args' (VSeq [VInt 1])
  /\ compare_values (VSeq [VInt (-1)]) (VSeq [VInt 1]) = Lt /\ compare_bytes b b' = Gt.
Proof.
  exists start, (PList [PInt (-1)]), (PList [PInt 1]). eexists. eexists.
  split; [exact start_used|]. split; [lazy; reflexivity|]. split; [lazy; reflexivity|]. split.
  { eapply D_tuple; [left; reflexivity|]. constructor; [|constructor]. constructor. in_range. }
  split; [|split; lazy; reflexivity].
  eapply D_tuple; [left; reflexivity|]. constructor; [|constructor]. constructor. in_range.
Qed.
