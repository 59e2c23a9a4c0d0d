(** Specification of the position in a ParseError. *)
From Coq Require Import Strings.String.
From Verif Require Import Py Grammar GrammarSpec.

(** The text can be completed to a type string of the grammar. *)
Definition begins (q : pystr) : Prop := exists r t, g_type (q ++ r) t.
(** Some beginning of the text is a type string. *)
Definition has_type_prefix (s : pystr) : Prop := exists q r t, s = q ++ r /\ g_type q t.
(** [q] is the longest beginning of [s] that is a type string. *)
Definition longest_type (s q : pystr) : Prop :=
  (exists r t, s = q ++ r /\ g_type q t) /\ (forall q' r' t', s = q' ++ r' -> g_type q' t' -> (length q' <= length q)%nat).

(** The three ways a text without such a beginning is wrong after [a]: *)
Inductive points_at (a : pystr) : pystr -> Prop :=
(** its next character cannot follow; *)
| At_wrong c b : ~ begins (a ++ [c]) -> points_at a (c :: b)
(** an array size follows, and after its number something else than "]"; *)
| At_size d n b : numeral d n -> begins (a ++ lit "[" ++ d) -> (forall c b', b = c :: b' -> ~ begins (a ++ lit "[" ++ d ++ [c])) ->
    points_at a (lit "[" ++ d ++ b)
(** it is too short, and no tuple member begins after [a]. *)
| At_end b : begins (a ++ b) -> Forall (fun c => [c] <> lit "(" /\ [c] <> lit ",") b -> points_at a b.
