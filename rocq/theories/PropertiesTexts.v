(** C83: the texts of the registry's messages say which matcher, table, label or
    type they are about. *)
From Coq Require Import Strings.Byte Strings.String Lia.
From Verif Require Import Tac Py Bytes Grammar GrammarSpec Encoding Decoding Registry Codec Histories Samples RegistryCases Notices Texts TextSpec TextProofs.
Open Scope string_scope.
Open Scope list_scope.
Open Scope N_scope.

(** repr of a string is a literal for it. *)
Theorem C83_repr : forall pr s, code_points s -> literal (repr pr s) s.
Proof. exact repr_literal. Qed.
Print Assumptions C83_repr.
(** A literal is one for one string only. *)
Theorem C83_literal : forall t s s', literal t s -> literal t s' -> s = s'.
Proof. exact literal_unique. Qed.
Print Assumptions C83_literal.
(** ab, it's, both quotes, escapes, e with acute accent, a snowman, an emoji *)
Example C83_repr_sample :
  let q := [34] in
  repr (fun _ => true) (lit "ab") = lit "'ab'"
  /\ repr (fun _ => true) (lit "it's") = q ++ lit "it's" ++ q
  /\ repr (fun _ => true) (lit "it's" ++ q) = lit "'it\'s" ++ q ++ lit "'"
  /\ repr (fun _ => true) (q ++ [92; 9; 10; 13; 0; 127; 31]) = lit "'" ++ q ++ lit "\\\t\n\r\x00\x7f\x1f'"
  /\ repr (fun _ => true) [233; 9731; 128512] = [39; 233; 9731; 128512; 39]
  /\ repr (fun _ => false) [233; 9731; 128512] = lit "'\xe9\u2603\U0001f600'"
  /\ code_points [233; 9731; 128512].
Proof. cbn zeta. repeat match goal with |- _ /\ _ => split; [lazy; reflexivity|] end. repeat (constructor; [lazy; reflexivity|]). constructor. Qed.
Example C83_literal_sample : literal (lit "'\x41B'") (lit "AB") /\ literal (lit "'AB'") (lit "AB") /\ ~ literal (lit "'AB'") (lit "A").
Proof.
  assert (A : spells 39 (lit "B") (lit "B")) by (constructor; [discriminate..|constructor]).
  assert (B : literal (lit "'AB'") (lit "AB")).
  { apply (LI 39 (lit "AB")); [auto|]. constructor; [discriminate..|exact A]. }
  split; [|split; [exact B|]].
  - apply (LI 39 (lit "\x41B")); [auto|]. apply (SP_code 39 120 2 (lit "41") 65); [cbn; auto|reflexivity| |exact A].
    change (numeral ([52] ++ [49]) (16 * 4 + 1)). constructor; [|reflexivity]. change (numeral ([] ++ [52]) (16 * 0 + 4)). constructor; [constructor|reflexivity].
  - intro C. discriminate (literal_unique _ _ _ C B).
Qed.

(** Two matchers Equals or BaseEquals have the same repr exactly if they are
    equal. *)
Theorem C83_matchers : forall pr other p p', telling p -> telling p' ->
  (matcher_repr pr other p = matcher_repr pr other p' <-> pred_eqb p p' = true).
Proof. exact matcher_repr_same. Qed.
Print Assumptions C83_matchers.
Definition nobody : pred -> pystr := fun _ => lit "<function f at 0x7f0000000000>".
Example C83_matchers_sample :
  matcher_repr (fun _ => true) nobody (mkPred (KEquals (lit "foo")) None) = lit "<Equals (== 'foo')>"
  /\ matcher_repr (fun _ => true) nobody (mkPred (KBaseEquals (lit "int") None) None) = lit "<BaseEquals (base == 'int')>"
  /\ matcher_repr (fun _ => true) nobody (mkPred (KBaseEquals (lit "int") (Some true)) None) = lit "<BaseEquals (base == 'int' and sub is not None)>"
  /\ matcher_repr (fun _ => true) nobody (mkPred (KBaseEquals (lit "int") (Some false)) None) = lit "<BaseEquals (base == 'int' and sub is None)>"
  /\ telling (mkPred (KBaseEquals (lit "int") None) None).
Proof. repeat match goal with |- _ /\ _ => split; [lazy; reflexivity|] end. cbn. repeat (constructor; [lazy; reflexivity|]). constructor. Qed.
(** Matchers of the caller may share a repr. *)
Theorem C83_matchers_refuted : exists pr other p p', matcher_repr pr other p = matcher_repr pr other p' /\ pred_eqb p p' = false.
Proof. exists (fun _ => true), nobody, (mkPred KHasArrlist None), (mkPred KIsBaseTuple None). split; reflexivity. Qed.
Print Assumptions C83_matchers_refuted.

(** Messages with the same text say the same. *)
Theorem C83_messages : forall pr other n n' x, telling_notice n -> telling_notice n' ->
  text pr other n = Some x -> text pr other n' = Some x -> same_notice n n'.
Proof. exact text_same. Qed.
Print Assumptions C83_messages.
Example C83_messages_sample :
  let text := text (fun _ => true) nobody in
  let foo := mkPred (KEquals (lit "foo")) None in
  text (MatcherTaken Encoders foo) = Some (lit "Matcher <Equals (== 'foo')> already exists in encoder registry")
  /\ text (LabelTaken Decoders foo (lit "bar")) = Some (lit "Matcher <Equals (== 'foo')> with label 'bar' already exists in decoder registry")
  /\ text (MatcherMissing Encoders foo) = Some (lit "Matcher <Equals (== 'foo')> not found in encoder registry")
  /\ text (LabelMissing Decoders (lit "bar")) = Some (lit "Label 'bar' not found in decoder registry")
  /\ text (NoMatch Encoders (lit "foo")) = Some (lit "No matching entries for 'foo' in encoder registry")
  /\ text (Misfit "BytesDecoder" (lit "function8") None (NotBase (lit "bytes")))
     = Some (lit "Cannot create BytesDecoder for type 'function8': expected type with base 'bytes'")
  /\ text (Misfit "UnsignedIntegerEncoder" (lit "int") (Some (lit "int256")) (NotBase (lit "uint")))
     = Some (lit "Cannot create UnsignedIntegerEncoder for type 'int' (normalized to 'int256'): expected type with base 'uint'")
  /\ text (Misfit "TupleEncoder" (lit "bool") None NotTuple) = Some (lit "Cannot create TupleEncoder for non-tuple type 'bool'")
  /\ text (Misfit "BooleanEncoder" (lit "(bool)") None NotBasic) = Some (lit "Cannot create BooleanEncoder for non-basic type '(bool)'")
  /\ text (Misfit "BooleanEncoder" (lit "bool[]") None HasDims) = Some (lit "Cannot create BooleanEncoder for type 'bool[]': expected type with no array dimension list")
  /\ text (Misfit "BaseArrayEncoder" (lit "bool") None LacksDims) = Some (lit "Cannot create BaseArrayEncoder for type 'bool': expected type with array dimension list")
  /\ text (ManyMatch Encoders (lit "foo") [foo; mkPred (KBaseEquals (lit "foo") None) None])
     = Some (lit "Multiple matching entries for 'foo' in encoder registry: <Equals (== 'foo')>, <BaseEquals (base == 'foo')>. This occurs when two registrations match the same type string. You may need to delete one of the registrations or modify its matching behavior to ensure it doesn't collide with other registrations. See the ""Registry"" documentation for more information.")
  /\ telling_notice (ManyMatch Encoders (lit "foo") [foo; mkPred (KBaseEquals (lit "foo") None) None]).
Proof.
  cbn zeta. repeat match goal with |- _ /\ _ => split; [lazy; reflexivity|] end. split; [intro H; discriminate H|].
  repeat first [apply Forall_nil|apply Forall_cons; [first [lazy; reflexivity|cbn; repeat first [apply Forall_nil|apply Forall_cons; [lazy; reflexivity|]]]|]].
Qed.
(** The message of a lookup that fails. *)
Example C83_lookup_sample :
  match fst (get_encoder_noted (lit "(bool,baz)") (fst start)) with Note n => text (fun _ => true) nobody n | _ => None end
  = Some (lit "No matching entries for 'baz' in encoder registry").
Proof. lazy. reflexivity. Qed.

(** The test of the message for "No matching" in registry.py:332 goes by the
    type string, unless the repr of a function contains the words. *)
Theorem C83_test : forall pr other V t (m : mapping V) ts n says x, find_noted t m ts = inr (n, says) -> text pr other n = Some x ->
  (forall p v, In (p, v) (m_values m) -> ~ library p -> ~ inside (lit "No matching") (other p)) ->
  says = Ok (contains (lit "No matching") x).
Proof. exact @find_says. Qed.
Print Assumptions C83_test.
Definition two_foo : mapping nat := mkMapping [(mkPred (KEquals (lit "foo")) None, 1%nat); (mkPred (KBaseEquals (lit "foo") None) None, 2%nat)] [].
Example C83_test_sample :
  (exists n x, find_noted Encoders two_foo (lit "foo") = inr (n, Ok false) /\ text (fun _ => true) nobody n = Some x)
  /\ (exists n x, find_noted Encoders two_foo (lit "bar") = inr (n, Ok true) /\ text (fun _ => true) nobody n = Some x)
  /\ (forall p v, In (p, v) (m_values two_foo) -> ~ library p -> ~ inside (lit "No matching") (nobody p)).
Proof.
  split; [|split].
  - eexists. eexists. split; lazy; reflexivity.
  - eexists. eexists. split; lazy; reflexivity.
  - intros p v [E|[E|[]]] L; injection E as <- <-; exfalso; apply L; unfold library; cbn; eauto.
Qed.
Theorem C83_test_refuted : exists other (m : mapping nat) ts n says x, find_noted Encoders m ts = inr (n, says) /\ text (fun _ => true) other n = Some x
  /\ says = Ok false /\ contains (lit "No matching") x = true.
Proof.
  exists (fun _ => lit "No matching"), (mkMapping [(mkPred (KEquals (lit "foo[]")) None, 1%nat); (mkPred KHasArrlist None, 2%nat)] []), (lit "foo[]").
  eexists. eexists. eexists. split; [lazy; reflexivity|]. split; [reflexivity|]. split; [reflexivity|]. lazy. reflexivity.
Qed.
Print Assumptions C83_test_refuted.

(** repr of a type string is the string between single quotes. *)
Theorem C83_type_string : forall pr s t, parse s = Ok t -> repr pr s = [39] ++ s ++ [39].
Proof. exact repr_type. Qed.
Print Assumptions C83_type_string.
(** Types that come from parse and have the same repr are the same. *)
Theorem C83_types : forall pr s s' t t', parse s = Ok t -> parse s' = Ok t' -> type_repr pr t = type_repr pr t' -> t = t'.
Proof. exact type_repr_same. Qed.
Print Assumptions C83_types.
Example C83_types_sample :
  (match parse (lit "(int8[2],bool)[]") with Ok t => Some (type_repr (fun _ => true) t) | Err _ => None end) = Some (lit "<TupleType '(int8[2],bool)[]'>")
  /\ (match parse (lit "fixed128x18[3]") with Ok t => Some (type_repr (fun _ => true) t) | Err _ => None end) = Some (lit "<BasicType 'fixed128x18[3]'>").
Proof. split; lazy; reflexivity. Qed.
