(** Specification of type strings: the EBNF quoted in eth_abi/grammar.py:14-38,
    read as a context-free grammar, and the shorthand names.  Nothing here is
    shared with the parser or with normalize except the syntax trees and the
    table of word characters beyond ASCII. *)
From Coq Require Import Strings.String.
From Verif Require Import Py UnicodeWord Grammar.
Open Scope Z_scope.

Definition letter (c : N) : Prop := (65 <= c <= 90 \/ 97 <= c <= 122)%N.
Definition digit (c : N) : Prop := (48 <= c <= 57)%N.

(** alphas = ~"[A-Za-z]+" *)
Definition alphas (s : pystr) : Prop := s <> [] /\ Forall letter s.
(** digits = ~"[1-9][0-9]*" and the number it denotes *)
Inductive numeral : pystr -> Z -> Prop :=
| N_one c : digit c -> c <> 48%N -> numeral [c] (Z.of_N c - 48)
| N_snoc s n c : numeral s n -> digit c -> numeral (s ++ [c]) (10 * n + (Z.of_N c - 48)).
(** sub? with sub = two_size / digits *)
Inductive g_sub : pystr -> subtype -> Prop :=
| GS_none : g_sub [] SubNone
| GS_int s n : numeral s n -> g_sub s (SubInt n)
| GS_pair s1 n1 s2 n2 : numeral s1 n1 -> numeral s2 n2 -> g_sub (s1 ++ lit "x" ++ s2) (SubPair n1 n2).
(** (const_arr / dynam_arr)*, that is arrlist? *)
Inductive g_arr : pystr -> list dim -> Prop :=
| GA_nil : g_arr [] []
| GA_dynamic s ds : g_arr s ds -> g_arr (lit "[]" ++ s) (None :: ds)
| GA_const d n s ds : numeral d n -> g_arr s ds -> g_arr (lit "[" ++ d ++ lit "]" ++ s) (Some n :: ds).
(** type, and the components of a tuple type separated by commas *)
Inductive g_type : pystr -> abi_type -> Prop :=
| G_basic b ss sub sa arr : alphas b -> g_sub ss sub -> g_arr sa arr ->
    g_type (b ++ ss ++ sa) (Basic b sub arr)
| G_tuple s ts sa arr : g_components s ts -> g_arr sa arr ->
    g_type (lit "(" ++ s ++ lit ")" ++ sa) (Tup ts arr)
with g_components : pystr -> list abi_type -> Prop :=
| G_one s t : g_type s t -> g_components s [t]
| G_more s t ss ts : g_type s t -> g_components ss ts -> g_components (s ++ lit "," ++ ss) (t :: ts).

Scheme g_type_mut := Induction for g_type Sort Prop
with g_components_mut := Induction for g_components Sort Prop.
Combined Scheme g_mut from g_type_mut, g_components_mut.

(** ** Shorthand names *)

(** On syntax trees: a basic type with no size and one of six names stands for
    another type. *)
Definition alias_of (b : pystr) : option (pystr * subtype) :=
  if str_eqb b (lit "int") then Some (lit "int", SubInt 256)
  else if str_eqb b (lit "uint") then Some (lit "uint", SubInt 256)
  else if str_eqb b (lit "fixed") then Some (lit "fixed", SubPair 128 18)
  else if str_eqb b (lit "ufixed") then Some (lit "ufixed", SubPair 128 18)
  else if str_eqb b (lit "function") then Some (lit "bytes", SubInt 24)
  else if str_eqb b (lit "byte") then Some (lit "bytes", SubInt 1)
  else None.
Fixpoint expand (t : abi_type) : abi_type :=
  match t with
  | Basic b SubNone arr =>
      match alias_of b with
      | Some (b', sub) => Basic b' sub arr
      | None => t
      end
  | Basic _ _ _ => t
  | Tup ts arr => Tup (map expand ts) arr
  end.

(** On arbitrary strings: every maximal run of word characters that is one of
    the six names is replaced, and nothing else changes. *)
Definition shorthands : list (pystr * pystr) :=
  [ (lit "int", lit "int256"); (lit "uint", lit "uint256"); (lit "fixed", lit "fixed128x18");
    (lit "ufixed", lit "ufixed128x18"); (lit "function", lit "bytes24"); (lit "byte", lit "bytes1") ].
Inductive renamed : pystr -> pystr -> Prop :=
| RN_alias a b : In (a, b) shorthands -> renamed a b
| RN_same w : (forall b, ~ In (w, b) shorthands) -> renamed w w.
Definition word_char (c : N) : Prop :=
  letter c \/ digit c \/ c = 95%N (* _ *) \/ ((128 <= c)%N /\ is_word_nonascii c = true).
Inductive normalized : pystr -> pystr -> Prop :=
| NZ_nil : normalized [] []
| NZ_other c s s' : ~ word_char c -> normalized s s' -> normalized (c :: s) (c :: s')
| NZ_word w w' s s' : w <> [] -> Forall word_char w ->
    match s with [] => True | c :: _ => ~ word_char c end ->
    renamed w w' -> normalized s s' -> normalized (w ++ s) (w' ++ s').
