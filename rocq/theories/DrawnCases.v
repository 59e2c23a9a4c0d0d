(** Strategies for the types foo and bar of CodersCases.v, used as samples by
    PropertiesDrawn.v. *)
From Coq Require Import Strings.Byte Strings.String.
From Verif Require Import Tac Bytes BytesProofs Grammar GrammarSpec Encoding Decoding Registry Codec Histories Spec TypeSpec ReadSpec
  EncLeafProofs CustomSpec CodersSpec CodersCases RegistryCases Strategies DrawnSpec Samples.
Open Scope string_scope.
Open Scope list_scope.
Open Scope Z_scope.
Local Transparent word be_bytes len.

Definition foo_bar_strategies : list (pystr * strategy) := [(lit "bar", StBinary 0 9); (lit "foo", StBinary 32 32)].
Definition with_foo_bar_strategies : mapping strategy_reg :=
  snd (register_strategy (LStr (lit "bar")) (RInst (StBinary 0 9)) None (snd (register_strategy (LStr (lit "foo")) (RInst (StBinary 32 32)) None strategy_registry))).
Lemma foo_bar_strategies_ok : strategy_names_ok foo_bar_strategies /\ with_strategies foo_bar_strategies with_foo_bar_strategies.
Proof. split; [exact foo_bar_names|]. apply with_strategy, with_strategy, with_no_strategy. Qed.
Lemma foo_bar_suits : suits foo_bar foo_bar_strategies.
Proof.
  intros T g [H|[H|[]]]; injection H as <- <-.
  - exists bar_enc, bar_dec, true. split; [exact bar_pair|]. intros r D. inversion D; subst; [|lia]. eexists _, _. split; [reflexivity|]. split; reflexivity.
  - exists foo_enc, (foo_dec false), false. split; [exact foo_pair|]. intros r D. inversion D; subst; [|lia]. exists (PBytes b), b. split; [reflexivity|].
    unfold validate_value, encode_with, foo_enc. cbn [ve fst snd is_raw raw_encoder]. destruct (Z.eqb_spec (len b) 32); [split; reflexivity|lia].
Qed.
(** Pairs of a foo, a list of bars and a uint8. *)
Definition drawn_type : pystr := lit "(foo,bar[],uint8)[2]".
Lemma drawn_type_ok : drawn foo_bar_strategies drawn_type.
Proof.
  eapply drawn_array; [lazy; reflexivity|reflexivity|]. eapply drawn_tuple; [lazy; reflexivity|]. intros c [<-|[<-|[<-|[]]]].
  - name_str "foo". eapply drawn_name. right; left; reflexivity.
  - eapply drawn_array; [lazy; reflexivity|reflexivity|]. name_str "bar". eapply drawn_name. left; reflexivity.
  - name_str "uint8". eapply (drawn_known _ _ (SUInt 8)); [sample_type|lazy; reflexivity].
Qed.
