(** C52, C53: ABIType objects. *)
From Coq Require Import Strings.Byte Strings.String.
From Verif Require Import Tac Bytes Grammar GrammarSpec Spec TypeSpec AbiTypes AbiTypesSpec AbiTypesProofs.
Open Scope string_scope.
Open Scope list_scope.
Open Scope Z_scope.

(** * C52: attributes and equality *)

Theorem C52_str : forall s o, parse_obj s = Ok o -> obj_str o = s.
Proof. exact parse_obj_str. Qed.
Print Assumptions C52_str.
(** Parsed types are equal iff the strings are. *)
Theorem C52_eq : forall s s' o o', parse_obj s = Ok o -> parse_obj s' = Ok o' -> (obj_eq o o' = true <-> s = s').
Proof. exact obj_eq_parsed. Qed.
Print Assumptions C52_eq.
(** Equality is an equivalence, also between objects a program builds. *)
Theorem C52_eq_laws : forall a b c, obj_eq a a = true /\ obj_eq a b = obj_eq b a /\ (obj_eq a b = true -> obj_eq b c = true -> obj_eq a c = true).
Proof. exact obj_eq_laws. Qed.
Print Assumptions C52_eq_laws.
(** The item type of an array type is what parsing the string without the last
    dimension gives, except that it keeps the node of the array type. *)
Theorem C52_item_type : forall item s o, array_of item s -> parse_obj s = Ok o ->
  is_array o = true
  /\ exists i i', obj_item_type o = Ok i /\ parse_obj item = Ok i' /\ strip i = strip i' /\ obj_eq i i' = true /\ o_node i = o_node o.
Proof. exact item_parsed. Qed.
Print Assumptions C52_item_type.
Theorem C52_no_item_type : forall s o, parse_obj s = Ok o -> (forall item, ~ array_of item s) -> is_array o = false /\ obj_item_type o = Err ValueError.
Proof. exact item_refused. Qed.
Print Assumptions C52_no_item_type.
Theorem C52_is_dynamic : forall s o T, parse_obj s = Ok o -> g_type s T -> (obj_is_dynamic o = true <-> dynamic_type T).
Proof. exact dynamic_parsed. Qed.
Print Assumptions C52_is_dynamic.
(** Each component knows the text it was read from. *)
Theorem C52_nodes : forall s o x, parse_obj s = Ok o -> within x o -> exists n, o_node x = Some n /\ n_full n = s /\ n_text n = obj_str x.
Proof. exact nodes_parsed. Qed.
Print Assumptions C52_nodes.
(** The objects answer as the trees from which the rest of the model makes
    coders. *)
Theorem C52_trees : forall s T o, parse s = Ok T -> parse_obj s = Ok o ->
  obj_str o = to_type_str T /\ obj_is_dynamic o = is_dynamic_type T
  /\ match obj_validate o with Valid => Ok tt | Invalid _ _ _ _ => Err ABITypeError | Raised e => Err e end = validate_type T
  /\ match item_type T with
     | Ok T' => exists i, obj_item_type o = Ok i /\ obj_str i = to_type_str T'
     | Err e => obj_item_type o = Err e
     end.
Proof. exact tree_agrees. Qed.
Print Assumptions C52_trees.
Example C52_sample :
  exists o i, parse_obj (lit "(int,bytes)[2][]") = Ok o /\ is_array o = true /\ obj_is_dynamic o = true
    /\ obj_item_type o = Ok i /\ obj_str i = lit "(int,bytes)[2]" /\ option_map n_text (o_node i) = Some (lit "(int,bytes)[2][]").
Proof. do 2 eexists. repeat (split; [lazy; reflexivity|]). lazy. reflexivity. Qed.
Example C52_array : array_of (lit "(int,bytes)[2]") (lit "(int,bytes)[2][]").
Proof.
  split; [exists (Tup [Basic (lit "int") SubNone []; Basic (lit "bytes") SubNone []] [Some 2]); apply GrammarProofs.parse_spec; lazy; reflexivity|].
  left. reflexivity.
Qed.
Example C52_not_array : exists o, parse_obj (lit "(int[2],bytes)") = Ok o /\ is_array o = false /\ obj_item_type o = Err ValueError.
Proof. eexists. repeat (split; [lazy; reflexivity|]). lazy. reflexivity. Qed.
(** Equal objects need not behave the same if a program builds them: this
    BasicType prints as "int9" but its base is not "int". *)
Example C52_hand_built : exists o, parse_obj (lit "int9") = Ok o /\ obj_eq o (OBasic (lit "int9") ANone RNone None) = true
  /\ obj_validate o = Invalid (lit "int9") 1 (lit "int9") IntMultiple /\ obj_validate (OBasic (lit "int9") ANone RNone None) = Valid.
Proof. eexists. repeat (split; [lazy; reflexivity|]). lazy. reflexivity. Qed.

(** * C53: validate *)

(** A type is valid iff each basic type in it has a size the ABI allows. *)
Theorem C53_valid : forall s o, parse_obj s = Ok o -> (obj_validate o = Valid <-> forall a t, part s a t -> part_ok t).
Proof. exact validate_valid. Qed.
Print Assumptions C53_valid.
(** Otherwise ABITypeError says where the first bad one is, and why. *)
Theorem C53_invalid : forall s o text col full r, parse_obj s = Ok o -> obj_validate o = Invalid text col full r ->
  full = s /\ exists a b sub arr, part s a text /\ col = Z.of_nat (length a) + 1 /\ g_type text (Basic b sub arr) /\ complaint b sub r
  /\ forall a' t, part s a' t -> (length a' < length a)%nat -> part_ok t.
Proof. exact validate_invalid. Qed.
Print Assumptions C53_invalid.
Theorem C53_no_other_error : forall s o e, parse_obj s = Ok o -> obj_validate o <> Raised e.
Proof. exact validate_raised. Qed.
Print Assumptions C53_no_other_error.
(** Every name with a coder is valid once its shorthands are expanded. *)
Theorem C53_named_valid : forall s t o, type_name true s t -> parse_obj (Grammar.normalize s) = Ok o -> obj_validate o = Valid.
Proof. exact supported_valid. Qed.
Print Assumptions C53_named_valid.
(** Objects that were not parsed have no node: validate raises AttributeError
    where it means to raise ABITypeError. *)
Theorem C53_hand_built : forall o, (forall x, within x o -> o_node x = None) ->
  match obj_validate o with Valid => True | Invalid _ _ _ _ => False | Raised e => e = AttributeError \/ e = ValueError end.
Proof. exact validate_no_node. Qed.
Print Assumptions C53_hand_built.
Example C53_sample : exists o, parse_obj (lit "(uint8,(bytes32,fixed8x81[3])[],int9)") = Ok o
  /\ obj_validate o = Invalid (lit "fixed8x81[3]") 17 (lit "(uint8,(bytes32,fixed8x81[3])[],int9)") FixedExponent.
Proof. eexists. split; [lazy; reflexivity|]. lazy. reflexivity. Qed.
Example C53_part : part (lit "(uint8,(bytes32,fixed8x81[3])[],int9)") (lit "(uint8,(bytes32,") (lit "fixed8x81[3]").
Proof.
  assert (G : forall s T, parse s = Ok T -> g_type s T) by (intros; apply GrammarProofs.parse_spec; assumption).
  apply (part_in (lit "uint8,(bytes32,fixed8x81[3])[],int9") [Basic (lit "uint") (SubInt 8) []; Tup [Basic (lit "bytes") (SubInt 32) []; Basic (lit "fixed") (SubPair 8 81) [Some 3]] [None]; Basic (lit "int") (SubInt 9) []] [] []).
  - apply (G_more (lit "uint8") _ (lit "(bytes32,fixed8x81[3])[],int9")); [apply G; lazy; reflexivity|].
    apply (G_more (lit "(bytes32,fixed8x81[3])[]") _ (lit "int9")); [apply G; lazy; reflexivity|]. constructor. apply G. lazy. reflexivity.
  - constructor.
  - apply (parts_more (lit "uint8") (Basic (lit "uint") (SubInt 8) []) (lit "(bytes32,fixed8x81[3])[],int9") (lit "(bytes32,")); [apply G; lazy; reflexivity|].
    apply (parts_first (lit "(bytes32,fixed8x81[3])[]") (lit "int9") [Basic (lit "int") (SubInt 9) []]); [constructor; apply G; lazy; reflexivity|].
    apply (part_in (lit "bytes32,fixed8x81[3]") [Basic (lit "bytes") (SubInt 32) []; Basic (lit "fixed") (SubPair 8 81) [Some 3]] (lit "[]") [None] (lit "bytes32,")).
    + apply (G_more (lit "bytes32") _ (lit "fixed8x81[3]")); [apply G; lazy; reflexivity|]. constructor. apply G. lazy. reflexivity.
    + apply (GA_dynamic [] []). constructor.
    + apply (parts_more (lit "bytes32") (Basic (lit "bytes") (SubInt 32) []) (lit "fixed8x81[3]") []); [apply G; lazy; reflexivity|]. constructor.
      eapply part_self. apply G. lazy. reflexivity.
Qed.
Example C53_hand_built_sample :
  obj_validate (OTuple [OBasic (lit "int") (AInt 8) RNone None; OBasic (lit "int") (AInt 9) (RTuple [[2]; []]) None] RNone None) = Raised AttributeError
  /\ obj_validate (OBasic (lit "fixed") (ATuple [128]) RNone None) = Raised ValueError.
Proof. split; lazy; reflexivity. Qed.
