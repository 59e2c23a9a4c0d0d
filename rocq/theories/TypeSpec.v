(** Specification of type names, directly on strings: the types of the Solidity
    ABI with the shorthands eth_abi accepts.  Independent of the parser. *)
From Coq Require Import Strings.String.
From Verif Require Import Py Spec Grammar GrammarSpec.
Open Scope Z_scope.

(** [type_name lax s t]: the string [s] names the ABI type [t].  With [lax]
    the name "bool" may carry a numeric suffix, which the ABI does not allow
    but the code does. *)
Inductive type_name (lax : bool) : pystr -> sty -> Prop :=
| TN_uint d m : numeral d m -> int_size m -> type_name lax (lit "uint" ++ d) (SUInt m)
| TN_int d m : numeral d m -> int_size m -> type_name lax (lit "int" ++ d) (SInt m)
| TN_uint_256 : type_name lax (lit "uint") (SUInt 256)
| TN_int_256 : type_name lax (lit "int") (SInt 256)
| TN_bool : type_name lax (lit "bool") SBool
| TN_bool_lax ss sub : lax = true -> g_sub ss sub -> type_name lax (lit "bool" ++ ss) SBool
| TN_address : type_name lax (lit "address") SAddr
| TN_ufixed d1 m d2 n : numeral d1 m -> int_size m -> numeral d2 n -> frac_size n ->
    type_name lax (lit "ufixed" ++ d1 ++ lit "x" ++ d2) (SUFixed m n)
| TN_fixed d1 m d2 n : numeral d1 m -> int_size m -> numeral d2 n -> frac_size n ->
    type_name lax (lit "fixed" ++ d1 ++ lit "x" ++ d2) (SFixed m n)
| TN_ufixed_128x18 : type_name lax (lit "ufixed") (SUFixed 128 18)
| TN_fixed_128x18 : type_name lax (lit "fixed") (SFixed 128 18)
| TN_bytesM d k : numeral d k -> 1 <= k <= 32 -> type_name lax (lit "bytes" ++ d) (SBytesM k)
| TN_byte : type_name lax (lit "byte") (SBytesM 1)
| TN_function : type_name lax (lit "function") (SBytesM 24)
| TN_bytes : type_name lax (lit "bytes") SBytes
| TN_string : type_name lax (lit "string") SString
| TN_arr s t : type_name lax s t -> type_name lax (s ++ lit "[]") (SArr t)
| TN_sized s t d n : type_name lax s t -> numeral d n -> type_name lax (s ++ lit "[" ++ d ++ lit "]") (SSized n t)
| TN_tuple s ts : type_names lax s ts -> type_name lax (lit "(" ++ s ++ lit ")") (STuple ts)
with type_names (lax : bool) : pystr -> list sty -> Prop :=
| TNs_one s t : type_name lax s t -> type_names lax s [t]
| TNs_more s t ss ts : type_name lax s t -> type_names lax ss ts -> type_names lax (s ++ lit "," ++ ss) (t :: ts).

Scheme type_name_mut := Induction for type_name Sort Prop
with type_names_mut := Induction for type_names Sort Prop.
Combined Scheme tn_mut from type_name_mut, type_names_mut.

(** The names the library has coders for: all of the above except the bare
    word "byte". *)
Definition supported (s : pystr) (t : sty) : Prop := type_name true s t /\ s <> lit "byte".

(** Arguments of the API: a list or tuple of type names. *)
Definition type_args (types : pyval) (ts : list sty) : Prop :=
  exists ss, seq_like types (map PStr ss) /\ Forall2 supported ss ts.

(** The base names that have a registration. *)
Definition registered_names : list pystr :=
  [ lit "uint"; lit "int"; lit "address"; lit "bool"; lit "ufixed"; lit "fixed"; lit "bytes"; lit "function"; lit "string" ].
(** The tree contains a basic type with this base and size. *)
Inductive has_basic (b : pystr) (sub : subtype) : abi_type -> Prop :=
| HB_here arr : has_basic b sub (Basic b sub arr)
| HB_in T ts arr : In T ts -> has_basic b sub T -> has_basic b sub (Tup ts arr).
