(** Strategies registered for further types. *)
From Verif Require Import Py Bytes Grammar GrammarSpec Encoding Decoding Registry Codec Histories Spec TypeSpec Strategies CustomSpec CodersSpec.
Open Scope Z_scope.

(** The strategy registry with the calls [register_strategy(T, g)] made. *)
Inductive with_strategies : list (pystr * strategy) -> mapping strategy_reg -> Prop :=
| with_no_strategy : with_strategies [] strategy_registry
| with_strategy l m T g : with_strategies l m -> with_strategies ((T, g) :: l) (snd (register_strategy (LStr T) (RInst g) None m)).
Definition strategy_names_ok (l : list (pystr * strategy)) : Prop := NoDup (map fst l) /\ Forall fresh_name (map fst l).

(** The types made of the names and of types that have a strategy already. *)
Inductive drawn (l : list (pystr * strategy)) : pystr -> Prop :=
| drawn_name T g : In (T, g) l -> drawn l T
| drawn_known s t g : supported s t -> get_abi_strategy s = Ok g -> drawn l s
| drawn_tuple s cs : parse (normalize s) = Ok (Tup cs []) -> (forall c, In c cs -> drawn l (to_type_str c)) -> drawn l s
| drawn_array s U it : parse (normalize s) = Ok U -> item_type U = Ok it -> drawn l (to_type_str it) -> drawn l s.

(** Every name that has a strategy has coders, and all that is drawn from the
    strategy is written by the encoder. *)
Definition suits (lc : list entry) (l : list (pystr * strategy)) : Prop :=
  forall T g, In (T, g) l -> exists e d x, coder_pair lc T e d x
    /\ forall r, draw g r -> exists v b, r = Ok v /\ validate_value e v = Ok tt /\ encode_with e v = Ok b.
