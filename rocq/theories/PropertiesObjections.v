(** C71: what the exceptions of encoding say. *)
From Coq Require Import Strings.Byte Strings.String.
From Verif Require Import Py Bytes Encoding Registry Codec Histories Spec TypeSpec Objections ObjectionSpec Samples ObjectionProofs.
Open Scope string_scope.
Open Scope list_scope.
Open Scope Z_scope.
Local Transparent Keccak.keccak256 Z.pow Decimals.pow10 Decimals.prec Decimals.Etop Decimals.Etiny Decimals.Emax Decimals.ndigits word be_bytes len.

(** The version that keeps the messages is the same program. *)
Theorem C71_same : forall types args r, muted (fst (api_encode_heard types args r)) = fst (api_encode types args r)
  /\ snd (api_encode_heard types args r) = snd (api_encode types args r).
Proof. exact api_heard_result. Qed.
Print Assumptions C71_same.
(** What an exception says is true of the arguments. *)
Theorem C71_true : forall packed w types ts args l o, used packed w -> type_args types ts -> seq_like args l -> fits args ->
  heard_in w types args = Says o -> flaw packed (STuple ts) args o.
Proof. exact heard_flaw. Qed.
Print Assumptions C71_true.
(** It is a reason to raise: arguments of which it is true stand for no values. *)
Theorem C71_reason : forall packed w types ts args l o, used packed w -> type_args types ts -> seq_like args l -> fits args ->
  flaw packed (STuple ts) args o -> (forall a, ~ denotes (STuple ts) args a) /\ exists e, encode_in w types args = Err e.
Proof. exact flaw_none. Qed.
Print Assumptions C71_reason.
(** So encode raises exactly if something is wrong. *)
Theorem C71_iff : forall packed w types ts args l, used packed w -> type_args types ts -> seq_like args l -> fits args ->
  (exists e, encode_in w types args = Err e) <-> exists o, flaw packed (STuple ts) args o.
Proof. exact raises_flaw. Qed.
Print Assumptions C71_iff.
(** The value that is shown is one of the values passed. *)
Theorem C71_shown : forall packed t p cls v c, flaw packed t p (Objects cls v c) -> within p v.
Proof. intros packed t p cls v c. exact (flaw_within packed t p (Objects cls v c)). Qed.
Print Assumptions C71_shown.
(** Of several unsuitable arguments the first is named, *)
Theorem C71_first_argument : forall packed w types args ss1 s ss2 ts1 t ts2 l1 x l2 cls v c, used packed w ->
  seq_like types (map PStr (ss1 ++ s :: ss2)) -> Forall2 supported ss1 ts1 -> supported s t -> Forall2 supported ss2 ts2 ->
  seq_like args (l1 ++ x :: l2) -> Forall2 (fun s y => is_encodable_in w (PStr s) y = Ok true) ss1 l1 -> len l2 = len ss2 ->
  fits (PList [x]) -> heard_in w (PList [PStr s]) (PList [x]) = Says (Objects cls v c) ->
  heard_in w types args = Says (Objects cls v c).
Proof. exact first_argument. Qed.
Print Assumptions C71_first_argument.
(** of several unsuitable items of an array the first is, even if their number is wrong too. *)
Theorem C71_first_item : forall packed w s t s' t' args l1 x l2 cls v c, used packed w ->
  supported s t -> supported s' t' -> t' = SArr t \/ (exists n, t' = SSized n t) ->
  seq_like args (l1 ++ x :: l2) -> Forall (fun y => is_encodable_in w (PStr s) y = Ok true) l1 ->
  fits (PList [x]) -> heard_in w (PList [PStr s]) (PList [x]) = Says (Objects cls v c) ->
  heard_in w (PList [PStr s']) (PList [args]) = Says (Objects cls v c).
Proof. exact first_item. Qed.
Print Assumptions C71_first_item.
(** A string with surrogates is complained of only if there is nothing else to complain of. *)
Theorem C71_last : forall packed w types ts args l o, used packed w -> type_args types ts -> seq_like args l -> fits args ->
  heard_in w types args = Says (Escapes UnicodeEncodeError) -> flaw packed (STuple ts) args o -> o = Escapes UnicodeEncodeError.
Proof. exact surrogates_last. Qed.
Print Assumptions C71_last.

Definition lone_surrogate : pyval := PStr [0xD800%N].
Definition three : pyval := PList [PInt 1; PInt 2; PInt 3].
Example C71_sample :
  heard_in start (types ["uint8"]) (PList [PInt 256]) = Says (Objects "UnsignedIntegerEncoder" (PInt 256) (OutsideInts 8 0 255))
  /\ heard_in start (types ["int8"]) (PList [PInt (-129)]) = Says (Objects "SignedIntegerEncoder" (PInt (-129)) (OutsideInts 8 (-128) 127))
  /\ heard_in start (types ["bool"]) (PList [PInt 1]) = Says (Objects "BooleanEncoder" (PInt 1) Unsuited)
  /\ heard_in start (types ["bytes3"]) (PList [PBytes (raw "abcd")]) = Says (Objects "BytesEncoder" (PBytes (raw "abcd")) (TooLong 3))
  /\ heard_in start (types ["uint8"; "bool"]) (PList [PInt 1]) = Says (Objects "TupleEncoder" (PList [PInt 1]) (Count 1 2))
  /\ heard_in start (types ["uint8[2]"]) (PTuple [three]) = Says (Objects "SizedArrayEncoder" three (Count 3 2))
  /\ type_args (types ["bool"; "int8[2][]"; "string"]) [SBool; SArr (SSized 2 (SInt 8)); SString]
  /\ heard_in start (types ["bool"; "int8[2][]"; "string"])
       (PTuple [PBool true; PList [PList [PInt 1; PInt 2]; PList [PInt 3; PInt 200; PInt 300]]; PInt 7])
     = Says (Objects "SignedIntegerEncoder" (PInt 200) (OutsideInts 8 (-128) 127))
  /\ heard_in start (types ["string"; "bool"]) (PList [lone_surrogate; PInt 5]) = Says (Objects "BooleanEncoder" (PInt 5) Unsuited)
  /\ heard_in start (types ["string"; "bool"]) (PList [lone_surrogate; PBool true]) = Says (Escapes UnicodeEncodeError).
Proof. repeat (split; [first [sample_types|lazy; reflexivity]|]). lazy. reflexivity. Qed.
(** Packed encoders say the same, but for the names of the array classes. *)
Example C71_packed_sample :
  heard_in start_packed (types ["uint8[2]"]) (PTuple [three]) = Says (Objects "ArrayEncoder" three (Count 3 2))
  /\ heard_in start_packed (types ["bytes3[]"]) (PTuple [PList [PBytes (raw "abc"); PBytes (raw "abcd")]])
     = Says (Objects "BytesEncoder" (PBytes (raw "abcd")) (TooLong 3)).
Proof. split; lazy; reflexivity. Qed.
(** 1.2345 has a residue of 0.0005 beyond three places; bounds of fixed numbers are shown as decimals. *)
Example C71_fixed_sample :
  heard_in start (types ["fixed16x3"]) (PList [dec 12345 (-4)]) = Says (Objects "SignedFixedEncoder" (dec 12345 (-4)) (Residue (DFin false 5 (-4)) 3))
  /\ heard_in start (types ["ufixed8x1"]) (PList [PInt 26])
     = Says (Objects "UnsignedFixedEncoder" (PInt 26) (OutsideDecimals 8 (DFin false 0 0) (DFin false 255 (-1))))
  /\ heard_in start (types ["fixed8x1"]) (PList [PDec DNaN]) = Says (Objects "SignedFixedEncoder" (PDec DNaN) NotFinite).
Proof. repeat (split; [lazy; reflexivity|]). lazy; reflexivity. Qed.
(** The flaw of the nested sample, spelled out; another one is that 7 is no string. *)
Example C71_flaws : let args := PTuple [PBool true; PList [PList [PInt 1; PInt 2]; PList [PInt 3; PInt 200; PInt 300]]; PInt 7] in
  flaw false (STuple [SBool; SArr (SSized 2 (SInt 8)); SString]) args (Objects "SignedIntegerEncoder" (PInt 200) (OutsideInts 8 (-128) 127))
  /\ flaw false (STuple [SBool; SArr (SSized 2 (SInt 8)); SString]) args
       (Objects "SizedArrayEncoder" (PList [PInt 3; PInt 200; PInt 300]) (Count 3 2))
  /\ flaw false (STuple [SBool; SArr (SSized 2 (SInt 8)); SString]) args (Objects "TextStringEncoder" (PInt 7) Unsuited).
Proof.
  intro args. unfold args. split; [|split].
  - eapply F_tuple; [right; left; reflexivity|right; left; reflexivity|].
    eapply F_arr; [left; reflexivity|right; left; reflexivity|].
    eapply F_sized; [left; reflexivity|right; left; reflexivity|].
    apply (F_here false (SInt 8)), (W_int 8). right. lazy. discriminate.
  - eapply F_tuple; [right; left; reflexivity|right; left; reflexivity|].
    eapply F_arr; [left; reflexivity|right; left; reflexivity|].
    apply (F_here false (SSized 2 (SInt 8))), (W_sized 2 (SInt 8) _ [PInt 3; PInt 200; PInt 300]); [left; reflexivity|lazy; discriminate].
  - eapply F_tuple; [right; left; reflexivity|right; right; left; reflexivity|].
    apply (F_here false SString), W_kind. intros [s E]. discriminate.
Qed.
