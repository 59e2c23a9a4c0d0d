(** Property theorems about strategies registered for further types: C77. *)
From Coq Require Import Strings.Byte Strings.String.
From Verif Require Import Tac Bytes Encoding Decoding Registry Codec Histories Spec ReadSpec TypeSpec CustomSpec CodersSpec CodersCases Strategies DrawnSpec DrawnProofs DrawnCases RegistryCases Samples.
Open Scope string_scope.
Open Scope list_scope.
Open Scope Z_scope.
Local Transparent Keccak.keccak256 Z.pow Decimals.pow10 Decimals.prec Decimals.Etop Decimals.Etiny Decimals.Emax Decimals.ndigits word be_bytes len.

(** If the strategies registered for some names draw only what the encoders
    registered for them write, all types made of the names have a strategy, and
    all that it draws has a layout, *)
Theorem C77_generates : forall lc l m s, names_ok lc -> strategy_names_ok l -> with_strategies l m -> suits lc l -> drawn l s ->
  exists g, get_strategy m s = Ok g /\ forall r, draw g r -> exists v, r = Ok v /\ (fits v -> exists p, put lc s v p).
Proof. exact drawn_generates. Qed.
Print Assumptions C77_generates.
(** is encodable, *)
Theorem C77_encodable : forall lc l m w s, names_ok lc -> strategy_names_ok l -> with_strategies l m -> suits lc l -> with_coders lc w -> drawn l s ->
  exists g, get_strategy m s = Ok g /\ forall r, draw g r -> exists v, r = Ok v /\ (fits v -> is_encodable_in w (PStr s) v = Ok true).
Proof. exact drawn_encodable. Qed.
Print Assumptions C77_encodable.
(** and is encoded and read back. *)
Theorem C77_round_trip : forall lc l m w s strict, names_ok lc -> strategy_names_ok l -> with_strategies l m -> suits lc l -> with_coders lc w -> faithful lc -> drawn l s ->
  exists g, get_strategy m s = Ok g /\ forall r, draw g r -> exists v, r = Ok v /\ (fits v -> exists p, put lc s v p /\ (len (head_tail [p]) <= maxsize ->
    exists out q, encode_in w (PList [PStr s]) (PList [v]) = Ok out /\ decode_in w (PList [PStr s]) (PBytes out) strict = Ok (PTuple [q]) /\ got lc s p q)).
Proof. exact drawn_round_trip. Qed.
Print Assumptions C77_round_trip.
Example C77_sample :
  names_ok foo_bar /\ strategy_names_ok foo_bar_strategies /\ with_strategies foo_bar_strategies with_foo_bar_strategies
  /\ suits foo_bar foo_bar_strategies /\ with_coders foo_bar with_foo_bar /\ faithful foo_bar /\ drawn foo_bar_strategies drawn_type
  /\ get_strategy with_foo_bar_strategies drawn_type
     = Ok (StLists (StTuples [StBinary 32 32; StLists (StBinary 0 9) 0 None; StIntegers 0 255]) 2 (Some 2)).
Proof.
  split; [exact foo_bar_names|]. destruct foo_bar_strategies_ok as [A B]. split; [exact A|]. split; [exact B|]. split; [exact foo_bar_suits|]. split; [exact with_foo_bar_ok|].
  split; [exact foo_bar_faithful|]. split; [exact drawn_type_ok|]. lazy. reflexivity.
Qed.

(** Types in which no registered name occurs keep their strategies. *)
Theorem C77_others : forall l m s, strategy_names_ok l -> with_strategies l m -> (forall x, within x s -> ~ In x (map fst l)) ->
  get_strategy m s = get_abi_strategy s.
Proof. exact strategies_kept. Qed.
Print Assumptions C77_others.

(** A strategy can be registered for any further name, and unregistering it
    restores the registry. *)
Theorem C77_register : forall l m T g, with_strategies l m -> strategy_names_ok ((T, g) :: l) ->
  fst (register_strategy (LStr T) (RInst g) None m) = Ok tt
  /\ unregister_strategy (LStr T) (snd (register_strategy (LStr T) (RInst g) None m)) = (Ok tt, m).
Proof. exact strategy_register. Qed.
Print Assumptions C77_register.
Example C77_register_sample :
  with_strategies [(lit "foo", StBinary 32 32)] (snd (register_strategy (LStr (lit "foo")) (RInst (StBinary 32 32)) None strategy_registry))
  /\ get_strategy (snd (unregister_strategy (LStr (lit "bar")) with_foo_bar_strategies)) (lit "bar") = Err NoEntriesFound.
Proof. split; [apply with_strategy, with_no_strategy|]. lazy. reflexivity. Qed.
