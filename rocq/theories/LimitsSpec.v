(** Which values and type names meet CPython's limit of 4300 digits. *)
From Verif Require Import Py Spec.
Open Scope Z_scope.

(** The repr of a value shows an integer of more than 4300 digits: the number
    itself, a part of a fraction, or an item, at any depth, of a list or tuple;
    the repr of another Sequence may or may not show such an integer. *)
Inductive long_shown : pyval -> Prop :=
| long_int_val z : 10 ^ 4300 <= Z.abs z -> long_shown (PInt z)
| long_numerator n d : 10 ^ 4300 <= Z.abs n -> long_shown (PFraction n d)
| long_denominator n d : 10 ^ 4300 <= Z.pos d -> long_shown (PFraction n d)
| long_item p l x : p = PList l \/ p = PTuple l -> In x l -> long_shown x -> long_shown p
| long_seq l : long_shown (PSeq true l).
(** Such a value somewhere inside. *)
Inductive long_inside : pyval -> Prop :=
| long_here p : long_shown p -> long_inside p
| long_within p l x : seq_like p l -> In x l -> long_inside x -> long_inside p.

(** More than 4300 digits in a row. *)
Definition long_number (s : pystr) : Prop :=
  exists a d b, s = a ++ d ++ b /\ Forall (fun c => 48 <= c <= 57)%N d /\ (4300 < Z.of_nat (length d)).
Definition short_types (types : pyval) : Prop :=
  forall l s, seq_like types l -> In (PStr s) l -> ~ long_number s.
