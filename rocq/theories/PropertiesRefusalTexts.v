(** C88: the texts of the messages of encoding. *)
From Coq Require Import Strings.Byte Strings.String.
From Verif Require Import Py Bytes Grammar GrammarSpec Encoding Registry Codec Histories Spec TypeSpec Objections ObjectionSpec ObjectionTexts ObjectionTextSpec Samples ObjectionTextProofs.
Open Scope string_scope.
Open Scope list_scope.
Open Scope Z_scope.
Local Transparent Keccak.keccak256 Z.pow Decimals.pow10 Decimals.prec Decimals.Etop Decimals.Etiny Decimals.Emax Decimals.ndigits word be_bytes len.

(** A Decimal is written with its own digits and exponent, *)
Theorem C88_decimal : forall neg c e, scientific (str_of_decimal (DFin neg c e)) neg c e.
Proof. exact decimal_scientific. Qed.
Print Assumptions C88_decimal.
(** so that no two are written alike, even if they are equal numbers. *)
Theorem C88_decimal_same : forall d d', str_of_decimal d = str_of_decimal d' -> d = d'.
Proof. exact decimal_same. Qed.
Print Assumptions C88_decimal_same.
(** From its text and class alone an exception tells which class of encoder
    refused a value and why, whatever repr of the value and of its type are. *)
Theorem C88_same : forall rep ty packed t v c rep' ty' packed' t' v' c' x, wrong t v c -> wrong t' v' c' ->
  objection_text rep ty packed (Objects (class_name packed t) v c) = Some x ->
  objection_text rep' ty' packed' (Objects (class_name packed' t') v' c') = Some x ->
  class_of_cause c = class_of_cause c' ->
  class_text packed (class_name packed t) = class_text packed' (class_name packed' t') /\ c = c'.
Proof. exact objection_same. Qed.
Print Assumptions C88_same.
(** What is understood is true of the arguments. *)
Theorem C88_true : forall rep ty packed w types ts args l cls v c x t' v' c', used packed w -> type_args types ts -> seq_like args l -> fits args ->
  heard_in w types args = Says (Objects cls v c) -> objection_text rep ty packed (Objects cls v c) = Some x ->
  wrong t' v' c' -> objection_text rep ty packed (Objects (class_name packed t') v' c') = Some x -> class_of_cause c = class_of_cause c' ->
  flaw packed (STuple ts) args (Objects (class_name packed t') v c').
Proof. exact objection_true. Qed.
Print Assumptions C88_true.
(** The class matters: without it a message need not tell the reason. *)
Theorem C88_class_needed_refuted : ~ forall rep ty packed t v c v' c' x, wrong t v c -> wrong t v' c' ->
  objection_text rep ty packed (Objects (class_name packed t) v c) = Some x ->
  objection_text rep ty packed (Objects (class_name packed t) v' c') = Some x -> c = c'.
Proof. exact class_needed. Qed.
Print Assumptions C88_class_needed_refuted.
(** The value is shown as repr writes it, cut to 79 characters, with its type. *)
Theorem C88_shown : forall rep ty packed cls v c, exists r y,
  objection_text rep ty packed (Objects cls v c) = Some (lit "Value `" ++ r ++ lit "` of type " ++ ty v ++ y)
  /\ len r <= 79 /\ (len (rep v) <= 79 -> r = rep v) /\ (79 < len (rep v) -> exists u, rep v = take_z 76 (rep v) ++ u /\ r = take_z 76 (rep v) ++ lit "...").
Proof. exact objection_shown. Qed.
Print Assumptions C88_shown.

Definition rep (v : pyval) : pystr :=
  match v with PInt z => str_of_Z z | PDec d => lit "Decimal('" ++ str_of_decimal d ++ lit "')" | PBytes _ => lit "b''" | _ => lit "[1]" end.
Definition ty (v : pyval) : pystr :=
  match v with PInt _ => lit "<class 'int'>" | PDec _ => lit "<class 'decimal.Decimal'>" | PBytes _ => lit "<class 'bytes'>" | _ => lit "<class 'list'>" end.
Definition message (packed : bool) (types args : pyval) : option pystr :=
  match heard_in (if packed then start_packed else start) types args with Says o => objection_text rep ty packed o | Gives _ => None end.
Example C88_sample :
  message false (types ["uint8"]) (PList [PInt 256])
    = Some (lit "Value `256` of type <class 'int'> cannot be encoded by UnsignedIntegerEncoder: Cannot be encoded in 8 bits. Must be bounded between [0, 255].")
  /\ message true (types ["bool"]) (PList [PInt 1]) = Some (lit "Value `1` of type <class 'int'> cannot be encoded by PackedBooleanEncoder")
  /\ message true (types ["(bool)"]) (PList [PInt 1])
    = Some (lit "Value `1` of type <class 'int'> cannot be encoded by TupleEncoder: must be list-like object such as array or tuple")
  /\ message false (types ["ufixed8x1"]) (PList [dec 125 (-2)])
    = Some (lit "Value `Decimal('1.25')` of type <class 'decimal.Decimal'> cannot be encoded by UnsignedFixedEncoder: residue Decimal('0.05') outside allowed fractional precision of 1")
  /\ message true (types ["uint8[2]"]) (PList [PList [PInt 1]])
    = Some (lit "Value `[1]` of type <class 'list'> cannot be encoded by PackedArrayEncoder: value has 1 items when 2 were expected")
  /\ message false (types ["fixed8x1"]) (PList [PInt 13])
    = Some (lit "Value `13` of type <class 'int'> cannot be encoded by SignedFixedEncoder: Cannot be encoded in 8 bits. Must be bounded between [-12.8, 12.7].")
  /\ message false (types ["bytes3"]) (PList [PBytes (zeros 4)])
    = Some (lit "Value `b''` of type <class 'bytes'> cannot be encoded by BytesEncoder: exceeds total byte size for bytes3 encoding")
  /\ message false (types ["fixed8x1"]) (PList [PDec DNaN])
    = Some (lit "Value `Decimal('NaN')` of type <class 'decimal.Decimal'> cannot be encoded by SignedFixedEncoder")
  /\ message false (types ["bool[]"]) (PList [PInt 1])
    = Some (lit "Value `1` of type <class 'int'> cannot be encoded by DynamicArrayEncoder: must be list-like such as array or tuple")
  /\ map str_of_decimal [DFin false 0 (-7); DFin false 0 (-6); DFin false 123 (-9); DFin false 123 (-8); DFin false 12 1; DFin true 5 0; DFin true 0 3]
    = [lit "0E-7"; lit "0.000000"; lit "1.23E-7"; lit "0.00000123"; lit "1.2E+2"; lit "-5"; lit "-0E+3"].
Proof. repeat match goal with |- _ /\ _ => split; [lazy; reflexivity|] end. lazy. reflexivity. Qed.
