(** C70: what the exceptions of decoding say. *)
From Coq Require Import Strings.Byte Strings.String.
From Verif Require Import Py Bytes Encoding Decoding Registry Codec Histories Spec ReadSpec TypeSpec LengthSpec Complaints ComplaintSpec Samples ComplaintProofs.
Open Scope string_scope.
Open Scope list_scope.
Open Scope Z_scope.
Local Transparent Keccak.keccak256 Z.pow Decimals.pow10 Decimals.prec Decimals.Etop Decimals.Etiny Decimals.Emax Decimals.ndigits word be_bytes len.

(** The version that keeps the messages is the same program. *)
Theorem C70_same : forall types data strict w, erase (fst (api_decode_told types data strict w)) = fst (api_decode types data strict w)
  /\ snd (api_decode_told types data strict w) = snd (api_decode types data strict w).
Proof. exact api_told_result. Qed.
Print Assumptions C70_same.
(** What an exception says is true of the payload. *)
Theorem C70_true : forall w types ts data b strict c, used false w -> type_args types ts -> bytes_like data b -> len b <= maxsize ->
  told_in w types data strict = Told c -> payload_defect b strict ts c.
Proof. exact told_defect. Qed.
Print Assumptions C70_true.
(** It is a reason to raise: a payload of which it is true holds no value. *)
Theorem C70_reason : forall w types ts data b strict c, used false w -> type_args types ts -> bytes_like data b -> len b <= maxsize ->
  payload_defect b strict ts c -> (forall vs, ~ payload_holds b strict ts vs) /\ exists e, decode_in w types data strict = Err e.
Proof. exact defect_none. Qed.
Print Assumptions C70_reason.
(** So decode raises exactly if something is wrong. *)
Theorem C70_iff : forall w types ts data b strict, used false w -> type_args types ts -> bytes_like data b -> len b <= maxsize ->
  (exists e, decode_in w types data strict = Err e) <-> exists c, payload_defect b strict ts c.
Proof. exact raises_defect. Qed.
Print Assumptions C70_iff.
(** The numbers and bytes that are shown make sense. *)
Theorem C70_sensible : forall w types ts data b strict c, used false w -> type_args types ts -> bytes_like data b -> len b <= maxsize ->
  told_in w types data strict = Told c -> sensible b c.
Proof. exact told_sensible. Qed.
Print Assumptions C70_sensible.

Definition short_word : bytes := zeros 31.
(** The second word of uint8[] after a bool; 300 is no uint8. *)
Definition wide_item : bytes := word 1 ++ word 64 ++ word 2 ++ word 5 ++ word 300.
(** The pointer of the second item, at byte 96, leads nowhere. *)
Definition bad_pointer : bytes := word 32 ++ word 2 ++ word 64 ++ word 4096 ++ word 0.
Definition cut_text : bytes := word 32 ++ word 40 ++ zeros 32.
Definition dirty_text : bytes := word 32 ++ word 3 ++ raw "abc" ++ zeros 28 ++ [x07].
Example C70_sample :
  told_in start (types ["uint8"]) (PBytes short_word) true = Told (CShort false 32 31)
  /\ told_in start (types ["bool"]) (PBytes (word 2)) true = Told (CBool [x02])
  /\ type_args (types ["bool"; "uint8[]"]) [SBool; SArr (SUInt 8)]
  /\ told_in start (types ["bool"; "uint8[]"]) (PBytes wide_item) true = Told (CPadding (zeros 30 ++ [x01]))
  /\ told_in start (types ["int8"]) (PBytes (zeros 31 ++ [x80])) true = Told (CPadding (zeros 31))
  /\ told_in start (types ["uint8[][]"]) (PBytes bad_pointer) true = Told (CPointer false 96)
  /\ told_in start (types ["uint8[]"]) (PBytes (word 0)) true = Told (CPointer true 0)
  /\ told_in start (types ["string"]) (PBytes cut_text) true = Told (CShort true 64 32)
  /\ told_in start (types ["string"]) (PBytes cut_text) false = Fine (PTuple [PStr (repeat 0%N 32)])
  /\ told_in start (types ["string"]) (PBytes dirty_text) true = Told (CPadding (zeros 28 ++ [x07]))
  /\ told_in start (types ["string"]) (PBytes (word 32 ++ word (2 ^ 200))) false = Told (COther OverflowError).
Proof. repeat (split; [first [sample_types|lazy; reflexivity]|]). lazy. reflexivity. Qed.
(** The defect of [bad_pointer], spelled out. *)
Example C70_defect : payload_defect bad_pointer true [SArr (SArr (SUInt 8))] (CPointer false 96).
Proof.
  assert (F : forall pre z post, 0 <= z < 2 ^ 256 -> bad_pointer = pre ++ word z ++ post -> number_at bad_pointer (len pre) z).
  { intros pre z post Hz E. split; [exact Hz|]. exists pre, post. auto. }
  apply DI_behind with (z := 32); [reflexivity| | | |].
  - apply (F [] 32 (word 2 ++ word 64 ++ word 4096 ++ word 0)); [in_range|reflexivity].
  - lazy. discriminate.
  - lazy. reflexivity.
  - apply D_arr with (n := 2).
    + apply (F (word 32) 2 (word 64 ++ word 4096 ++ word 0)); [in_range|reflexivity].
    + apply DI_next. apply DI_pointer with (z := 4096); [reflexivity| |].
      * apply (F (word 32 ++ word 2 ++ word 64) 4096 (word 0)); [in_range|reflexivity].
      * right. lazy. discriminate.
Qed.
