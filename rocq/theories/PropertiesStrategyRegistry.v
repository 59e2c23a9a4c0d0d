(** C84: the registry of strategies is a list of entries with unique matchers and
    labels, and gives the strategy of the one entry that accepts. *)
From Coq Require Import Strings.Byte Strings.String.
From Verif Require Import Tac Py Bytes Grammar GrammarSpec GrammarProofs TypeCases Registry RaisingSpec RegistrySpec RegistryLaws Strategies StrategyUseSpec StrategyUseProofs.
Open Scope string_scope.
Open Scope list_scope.
Open Scope Z_scope.

(** Registering and unregistering, from the registry of the package or from a new
    one: same outcomes and same entries. *)
Theorem C84_start : strategy_registry = mapping_of strategy_entries.
Proof. exact (proj1 strategy_entries_ok). Qed.
Print Assumptions C84_start.
Theorem C84_history : forall es cs, es = [] \/ es = strategy_entries -> orderly cs es ->
  fst (after_calls cs (mapping_of es)) = fst (entries_after cs es)
  /\ snd (after_calls cs (mapping_of es)) = mapping_of (snd (entries_after cs es)).
Proof. exact strategy_history. Qed.
Print Assumptions C84_history.
(** A name, its label again, a taken label, a wrong lookup, removal twice, an
    entry by its matcher. *)
Definition foo_matcher : pred := mkPred (KBaseEquals (lit "foo") None) (Some 60%N).
Definition foo_calls : list strategy_call :=
  [ Register (LStr (lit "foo")) (RInst (StBinary 4 4)) None;
    Register (LStr (lit "foo")) (RInst (StBinary 5 5)) None;
    Register (LPred foo_matcher) (RInst (StBinary 6 6)) (Some (lit "uint"));
    Register LOther (RInst (StBinary 6 6)) None;
    Register (LPred foo_matcher) (RInst (StBinary 6 6)) (Some (lit "foos"));
    Unregister (LStr (lit "foo"));
    Unregister (LStr (lit "foo"));
    Unregister (LPred foo_matcher);
    Register (LStr (lit "bar")) (RInst (StBinary 7 7)) None ].
Example C84_history_sample :
  orderly foo_calls strategy_entries
  /\ fst (after_calls foo_calls strategy_registry)
     = [Ok tt; Err ValueError; Err ValueError; Err TypeError; Ok tt; Ok tt; Err KeyError; Ok tt; Ok tt]
  /\ snd (after_calls foo_calls strategy_registry) = snd (after_calls [Register (LStr (lit "bar")) (RInst (StBinary 7 7)) None] strategy_registry).
Proof.
  split; [|split; lazy; reflexivity].
  assert (F : snd (entries_after (firstn 7 foo_calls) strategy_entries) = strategy_entries ++ [mkEntry foo_matcher (Some (lit "foos")) (RInst (StBinary 6 6))]) by (lazy; reflexivity).
  cbn [orderly foo_calls held]. repeat (split; [first [exact I|discriminate|split; exact I]|]). split; [|split; exact I]. split; [discriminate|].
  match goal with |- same_object ?e _ => replace e with (snd (entries_after (firstn 7 foo_calls) strategy_entries)) by (lazy; reflexivity) end.
  rewrite F. intros x I A. right. revert x I A. apply (proj1 (Forall_forall (fun x => about foo_matcher x = true -> pred_is (e_pred x) foo_matcher = true) _)). lazy. repeat (constructor; [let H := fresh in intro H; first [discriminate H|reflexivity]|]). constructor.
Qed.
(** An equal copy of the matcher does not release the label. *)
Theorem C84_history_refuted :
  ~ (forall cs, fst (after_calls cs strategy_registry) = fst (entries_after cs strategy_entries)).
Proof.
  intro H. specialize (H [Register (LPred foo_matcher) (RInst (StBinary 6 6)) (Some (lit "foo"));
    Unregister (LPred (mkPred (KBaseEquals (lit "foo") None) (Some 61%N))); Register (LStr (lit "foo")) (RInst (StBinary 4 4)) None]).
  revert H. lazy. discriminate.
Qed.
Print Assumptions C84_history_refuted.

(** What a lookup gives. *)
Theorem C84_lookup : forall es ts r, provides es ts r -> get_strategy (mapping_of es) ts = r.
Proof. exact provides_get. Qed.
Print Assumptions C84_lookup.
Definition with_foo : list (entry strategy_reg) := snd (entries_after [Register (LStr (lit "foo")) (RInst (StBinary 4 4)) None] strategy_entries).
Lemma willing_now es ts found : forallb (fun x => negb (raising (e_pred x) ts)) es = true -> map e_value (filter (fun x => hit (e_pred x) ts) es) = found -> willing es ts found.
Proof. intros F E. split; [|exact E]. intros x I. rewrite forallb_forall in F. specialize (F x I). destruct (raising (e_pred x) ts); [discriminate F|reflexivity]. Qed.
Ltac will := apply willing_now; lazy; reflexivity.
Ltac typed := apply parse_spec; lazy; reflexivity.
Ltac norms := apply normalized_iff; lazy; reflexivity.
(** (foo[2],uint)[] and types that are not registered, or twice *)
Example C84_lookup_sample :
  provides with_foo (lit "(foo[2],uint)[]") (Ok (StLists (StTuples [StLists (StBinary 4 4) 2 (Some 2); StIntegers 0 (2 ^ 256 - 1)]) 0 None))
  /\ provides with_foo (lit "(foo,bar)") (Err NoEntriesFound)
  /\ provides (with_foo ++ [mkEntry foo_matcher None (RInst (StBinary 6 6))]) (lit "foo") (Err MultipleEntriesFound)
  /\ get_strategy (mapping_of with_foo) (lit "(foo,bar)") = Err NoEntriesFound.
Proof.
  assert (Foo : provides with_foo (lit "foo") (Ok (StBinary 4 4))) by (apply P_strategy; will).
  assert (No : provides with_foo (lit "(foo,bar)") (Err NoEntriesFound)).
  { change (Err NoEntriesFound) with (match all_of [Ok (StBinary 4 4); Err NoEntriesFound] with Ok l => Ok (StTuples l) | Err e => Err e end).
    eapply P_tuple with (ss := [lit "foo"; lit "bar"]); [will|norms|typed|constructor; [typed|constructor; [typed|constructor]]|].
    constructor; [exact Foo|]. constructor; [|constructor]. eapply P_none; [will|typed]. }
  split; [|split; [exact No|split; [|apply C84_lookup; exact No]]].
  - eapply (P_array with_foo _ _ _ _ None (lit "(foo[2],uint256)") (Ok _)); [will|norms|typed|apply (LD_tuple _ [])|typed|].
    change (Ok (StTuples [StLists (StBinary 4 4) 2 (Some 2); StIntegers 0 (2 ^ 256 - 1)]))
      with (match all_of [Ok (StLists (StBinary 4 4) 2 (Some 2)); Ok (StIntegers 0 (2 ^ 256 - 1))] with Ok l => Ok (StTuples l) | Err e => Err e end).
    eapply P_tuple with (ss := [lit "foo[2]"; lit "uint256"]); [will|norms|typed|constructor; [typed|constructor; [typed|constructor]]|].
    constructor; [|constructor; [|constructor]].
    + eapply (P_array with_foo _ _ _ _ (Some 2) (lit "foo") (Ok _)); [will|norms|typed|apply (LD_basic _ _ [])|typed|exact Foo].
    + eapply P_factory; [will|norms|typed|]. apply (MK_uint _ 256).
  - eapply P_many; [will|typed].
Qed.
