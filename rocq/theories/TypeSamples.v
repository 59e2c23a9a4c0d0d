(** Witnesses and concrete cases for PropertiesTypes.v. *)
From Coq Require Import Strings.Byte Strings.String.
From Verif Require Import Tac Bytes Grammar GrammarSpec GrammarProofs Encoding Decoding Registry Codec Histories Spec TypeSpec
  LookupProofs TypeProofs TypeCases Samples.
Open Scope string_scope.
Open Scope list_scope.
Open Scope Z_scope.
Local Transparent Keccak.keccak256 Z.pow Decimals.pow10 Decimals.prec Decimals.Etop Decimals.Etiny Decimals.Emax Decimals.ndigits word be_bytes len.

Theorem abi_types_refuted :
  (is_encodable_type_in start (str "bool8x7") = Ok true /\ ~ exists t, type_name false (lit "bool8x7") t)
  /\ (is_encodable_type_in start (str "byte") = Ok false /\ type_name false (lit "byte") (SBytesM 1)).
Proof.
  split; [split; [lazy; reflexivity|]|split; [lazy; reflexivity|constructor]].
  intros [t H]. assert (S : supported (lit "bool8x7") SBool) by sample_type.
  pose proof (type_name_fun _ _ _ (proj1 S) (proj1 type_name_weaken _ _ H)) as E. subst t.
  remember (lit "bool8x7") as s eqn:Es. remember SBool as t eqn:Et. destruct H; try discriminate.
Qed.
Theorem valid_type_samples :
  (let T := Tup [Basic (lit "ufixed") (SubPair 256 80) []; Basic (lit "bytes") (SubInt 32) [None]] [Some 2] in
   parse (normalize (lit "(ufixed256x80,bytes32[])[2]")) = Ok T /\ validate_type T = Ok tt
   /\ forall b sub, has_basic b sub T -> In b registered_names /\ b <> lit "function")
  /\ fst (get_encoder (lit "ufixed256x81") (fst start)) = Err ABITypeError
  /\ fst (get_encoder (lit "foo[]") (fst start)) = Err NoEntriesFound
  /\ fst (get_encoder (lit "function8") (fst start)) = Err ValueError.
Proof.
  split; [|repeat split; lazy; reflexivity]. intro T. split; [lazy; reflexivity|]. split; [lazy; reflexivity|].
  intros b sub H. inversion H as [|T' ts' arr' I1 H']; subst. destruct I1 as [<-|[<-|[]]]; inversion H'; subst.
  - split; [do 4 right; left; reflexivity|lazy; discriminate].
  - split; [do 6 right; left; reflexivity|lazy; discriminate].
Qed.
