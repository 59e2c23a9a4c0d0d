(** Which exception class derives from which. *)
From Verif Require Import Py.

(** The direct bases, as far as they are themselves classes of the model:
    eth_abi/exceptions.py:4-115 and the hierarchy of builtin exceptions.  Between
    the two Unicode errors and ValueError there is UnicodeError. *)
Inductive derives : exc -> exc -> Prop :=
| derives_encoding_type : derives EncodingTypeError EncodingErrorBase
| derives_illegal : derives IllegalValue EncodingErrorBase
| derives_bounds : derives ValueOutOfBounds IllegalValue
| derives_insufficient : derives InsufficientDataBytes DecodingErrorBase
| derives_padding : derives NonEmptyPaddingBytes DecodingErrorBase
| derives_pointer : derives InvalidPointer DecodingErrorBase
| derives_abi_type : derives ABITypeError ValueError
| derives_no_entries : derives NoEntriesFound ValueError
| derives_multiple_entries : derives MultipleEntriesFound ValueError
| derives_unicode_decode : derives UnicodeDecodeError ValueError
| derives_unicode_encode : derives UnicodeEncodeError ValueError
| derives_key : derives KeyError LookupError
| derives_index : derives IndexError LookupError
| derives_not_implemented : derives NotImplementedError RuntimeError.
(** [isinstance(e, c)] *)
Inductive isinstance : exc -> exc -> Prop :=
| isinstance_self e : isinstance e e
| isinstance_base e b c : derives e b -> isinstance b c -> isinstance e c.

Lemma encoding_class e : is_encoding_error e = true <-> isinstance e EncodingErrorBase.
Proof.
  split.
  - destruct e; intro E; try discriminate E; repeat (first [apply isinstance_self | eapply isinstance_base; [constructor|]]).
  - intro I. remember EncodingErrorBase as c eqn:C. induction I as [e|e b c D I IH]; subst; [reflexivity|]. specialize (IH eq_refl). destruct D; (reflexivity || discriminate IH).
Qed.
Lemma value_class e : is_value_error e = true <-> isinstance e ValueError.
Proof.
  split.
  - destruct e; intro E; try discriminate E; repeat (first [apply isinstance_self | eapply isinstance_base; [constructor|]]).
  - intro I. remember ValueError as c eqn:C. induction I as [e|e b c D I IH]; subst; [reflexivity|]. specialize (IH eq_refl). destruct D; (reflexivity || discriminate IH).
Qed.
