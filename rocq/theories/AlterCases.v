(** Bytes of encodings that can be altered without effect. *)
From Coq Require Import Strings.Byte Strings.String.
From Verif Require Import Tac Bytes Encoding Decoding Registry Codec Histories Spec ReadSpec TypeSpec AlterSpec Samples.
Open Scope string_scope.
Open Scope list_scope.
Open Scope Z_scope.
Local Transparent Keccak.keccak256 Z.pow Decimals.pow10 Decimals.prec Decimals.Etop Decimals.Etiny Decimals.Emax Decimals.ndigits word be_bytes len.

Definition ab := PBytes (raw "ab").
Lemma ab_denotes : denotes SBytes ab (VBytes (raw "ab")).
Proof. constructor. left. reflexivity. Qed.
Theorem same_twice : ~ forall w w' types ts args a b data strict i c,
  used false w -> used false w' -> type_args types ts -> denotes (STuple ts) args a -> fits args ->
  encode_in w types args = Ok b -> len b <= maxsize -> strict = true \/ existsb flat_bytes ts = false ->
  nth_error b i <> Some c -> (i < length b)%nat -> bytes_like data (with_byte b i c) ->
  (exists e, decode_in w' types data strict = Err e) \/ (exists q, decode_in w' types data strict = Ok q /\ ~ canon (STuple ts) a q).
Proof.
  intro H.
  assert (D : denotes (STuple [SBytes; SBytes]) (PList [ab; ab]) (VSeq [VBytes (raw "ab"); VBytes (raw "ab")])).
  { eapply D_tuple; [left; reflexivity|]. constructor; [apply ab_denotes|]. constructor; [apply ab_denotes|constructor]. }
  specialize (H start start (types ["bytes"; "bytes"]) [SBytes; SBytes] (PList [ab; ab]) _
    (spec_enc (STuple [SBytes; SBytes]) (VSeq [VBytes (raw "ab"); VBytes (raw "ab")])) (PBytes (with_byte (spec_enc (STuple [SBytes; SBytes]) (VSeq [VBytes (raw "ab"); VBytes (raw "ab")])) 63 "@")) true 63%nat "@"%byte start_used start_used ltac:(sample_types) D).
  destruct H as [(e & E)|(q & E & C)].
  - apply Z.ltb_lt. lazy. reflexivity.
  - lazy. reflexivity.
  - apply Z.leb_le. lazy. reflexivity.
  - left. reflexivity.
  - lazy. discriminate.
  - apply Nat.ltb_lt. lazy. reflexivity.
  - left. reflexivity.
  - lazy in E. discriminate E.
  - apply C. assert (Q : q = PTuple [ab; ab]) by (lazy in E; injection E as <-; reflexivity). rewrite Q. repeat constructor.
Qed.
Theorem dirty_padding : ~ forall w w' types ts args a b data strict i c,
  used false w -> used false w' -> type_args types ts -> denotes (STuple ts) args a -> fits args ->
  encode_in w types args = Ok b -> len b <= maxsize ->
  nth_error (pointer_map (STuple ts) a) i = Some false -> nth_error b i <> Some c -> bytes_like data (with_byte b i c) ->
  (exists e, decode_in w' types data strict = Err e) \/ (exists q, decode_in w' types data strict = Ok q /\ ~ canon (STuple ts) a q).
Proof.
  intro H.
  assert (D : denotes (STuple [SBytes]) (PList [ab]) (VSeq [VBytes (raw "ab")])).
  { eapply D_tuple; [left; reflexivity|]. constructor; [apply ab_denotes|constructor]. }
  specialize (H start start (types ["bytes"]) [SBytes] (PList [ab]) _
    (spec_enc (STuple [SBytes]) (VSeq [VBytes (raw "ab")])) (PBytes (with_byte (spec_enc (STuple [SBytes]) (VSeq [VBytes (raw "ab")])) 66 "!")) false 66%nat "!"%byte start_used start_used ltac:(sample_types) D).
  destruct H as [(e & E)|(q & E & C)].
  - apply Z.ltb_lt. lazy. reflexivity.
  - lazy. reflexivity.
  - apply Z.leb_le. lazy. reflexivity.
  - lazy. reflexivity.
  - lazy. discriminate.
  - left. reflexivity.
  - lazy in E. discriminate E.
  - apply C. assert (Q : q = PTuple [ab]) by (lazy in E; injection E as <-; reflexivity). rewrite Q. repeat constructor.
Qed.
