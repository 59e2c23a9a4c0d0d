(** C87: the texts of the messages of decoding. *)
From Coq Require Import Strings.Byte Strings.String.
From Verif Require Import Py Bytes Grammar Texts TextSpec Decoding Registry Codec Histories Spec ReadSpec TypeSpec Complaints ComplaintSpec ComplaintTexts Samples ComplaintTextProofs.
Open Scope string_scope.
Open Scope list_scope.
Open Scope Z_scope.
Local Transparent Keccak.keccak256 Z.pow Decimals.pow10 Decimals.prec Decimals.Etop Decimals.Etiny Decimals.Emax Decimals.ndigits word be_bytes len.

(** repr of bytes is a literal that denotes these bytes. *)
Theorem C87_bytes : forall b, exists u, bytes_repr b = 98%N :: u /\ literal u (codes b).
Proof. exact bytes_literal. Qed.
Print Assumptions C87_bytes.
(** A text can be understood in one way only. *)
Theorem C87_same : forall c c' x, complaint_text c = Some x -> complaint_text c' = Some x -> c = c'.
Proof. exact complaint_same. Qed.
Print Assumptions C87_same.
(** It is one line of printable ASCII, whatever the payload. *)
Theorem C87_plain : forall c x, complaint_text c = Some x -> Forall (fun d => (32 <= d < 127)%N) x.
Proof. exact complaint_plain. Qed.
Print Assumptions C87_plain.
(** What is understood is true of the payload. *)
Theorem C87_true : forall w types ts data b strict c x c', used false w -> type_args types ts -> bytes_like data b -> len b <= maxsize ->
  told_in w types data strict = Told c -> complaint_text c = Some x -> complaint_text c' = Some x -> payload_defect b strict ts c'.
Proof. exact text_true. Qed.
Print Assumptions C87_true.
(** There is a text unless the exception is an OverflowError or UnicodeDecodeError of CPython. *)
Theorem C87_some : forall w types ts data b strict c, used false w -> type_args types ts -> bytes_like data b -> len b <= maxsize ->
  told_in w types data strict = Told c -> (exists x, complaint_text c = Some x) \/ c = COther OverflowError \/ c = COther UnicodeDecodeError.
Proof. exact told_text. Qed.
Print Assumptions C87_some.

Definition message (types data : pyval) : option pystr := match told_in start types data true with Told c => complaint_text c | Fine _ => None end.
Example C87_sample :
  message (types ["uint8"]) (PBytes (zeros 31)) = Some (lit "Tried to read 32 bytes, only got 31 bytes.")
  /\ message (types ["string"]) (PBytes (word 32 ++ word 40 ++ zeros 7)) = Some (lit "Tried to read 64 bytes, only got 7 bytes")
  /\ message (types ["uint8[]"]) (PBytes (word 0)) = Some (lit "Invalid pointer in tuple at location 0 in payload")
  /\ message (types ["string[1]"]) (PBytes (word 32 ++ word 4096)) = Some (lit "Invalid pointer in array at location 32 in payload")
  /\ message (types ["bool"]) (PBytes (word 2)) = Some (lit "Boolean must be either 0x0 or 0x1.  Got: b'\x02'")
  /\ message (types ["bytes27"]) (PBytes (zeros 27 ++ raw "a'\" ++ [xff; x0a])) = Some (lit "Padding bytes were not empty: b" ++ [34%N] ++ lit "a'\\\xff\n" ++ [34%N]).
Proof. repeat match goal with |- _ /\ _ => split; [lazy; reflexivity|] end. lazy. reflexivity. Qed.
