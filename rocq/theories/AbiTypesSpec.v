(** What ABIType objects are meant to answer, said of type strings. *)
From Coq Require Import Strings.String.
From Verif Require Import Py Grammar GrammarSpec Spec AbiTypes.
Open Scope Z_scope.

(** [s] is the type string [item] followed by one array dimension. *)
Definition array_of (item s : pystr) : Prop :=
  (exists T, g_type item T) /\ (s = item ++ lit "[]" \/ exists d n, numeral d n /\ s = item ++ lit "[" ++ d ++ lit "]").

(** [part s a t]: the type string [s] has the basic type [t] as a component, at
    any depth, and [a] is the text before it.  [parts] is the same for the types
    between the parentheses of a tuple. *)
Inductive part : pystr -> pystr -> pystr -> Prop :=
| part_self s b sub arr : g_type s (Basic b sub arr) -> part s [] s
| part_in s ts sa arr a t : g_components s ts -> g_arr sa arr -> parts s a t ->
    part (lit "(" ++ s ++ lit ")" ++ sa) (lit "(" ++ a) t
with parts : pystr -> pystr -> pystr -> Prop :=
| parts_one s a t : part s a t -> parts s a t
| parts_first s ss ts a t : g_components ss ts -> part s a t -> parts (s ++ lit "," ++ ss) a t
| parts_more s T ss a t : g_type s T -> parts ss a t -> parts (s ++ lit "," ++ ss) (s ++ lit "," ++ a) t.
Scheme part_mut := Minimality for part Sort Prop
with parts_mut := Minimality for parts Sort Prop.
Combined Scheme part_mutind from part_mut, parts_mut.

(** Which sizes the ABI allows, and what is said about the others.  Names other
    than these eight are not judged. *)
Definition judged (b : pystr) : Prop :=
  In b [lit "string"; lit "bytes"; lit "int"; lit "uint"; lit "fixed"; lit "ufixed"; lit "hash"; lit "address"].
Definition whole_number (b : pystr) : Prop := b = lit "int" \/ b = lit "uint".
Definition fraction (b : pystr) : Prop := b = lit "fixed" \/ b = lit "ufixed".
Inductive size_ok : pystr -> subtype -> Prop :=
| ok_string : size_ok (lit "string") SubNone
| ok_bytes : size_ok (lit "bytes") SubNone
| ok_bytesM n : n <= 32 -> size_ok (lit "bytes") (SubInt n)
| ok_int b n : whole_number b -> int_size n -> size_ok b (SubInt n)
| ok_fixed b m n : fraction b -> int_size m -> frac_size n -> size_ok b (SubPair m n)
| ok_hash n : size_ok (lit "hash") (SubInt n)
| ok_address : size_ok (lit "address") SubNone
| ok_other b sub : ~ judged b -> size_ok b sub.
Inductive complaint : pystr -> subtype -> reason -> Prop :=
| no_string sub : sub <> SubNone -> complaint (lit "string") sub StringSuffix
| no_address sub : sub <> SubNone -> complaint (lit "address") sub AddressSuffix
| no_bytes m n : complaint (lit "bytes") (SubPair m n) BytesSuffix
| no_bytesM n : 32 < n -> complaint (lit "bytes") (SubInt n) BytesSize
| no_int b sub : whole_number b -> (forall n, sub <> SubInt n) -> complaint b sub IntSuffix
| no_int_size b n : whole_number b -> ~ 8 <= n <= 256 -> complaint b (SubInt n) IntSize
| no_int_mult b n : whole_number b -> 8 <= n <= 256 -> n mod 8 <> 0 -> complaint b (SubInt n) IntMultiple
| no_fixed b sub : fraction b -> (forall m n, sub <> SubPair m n) -> complaint b sub FixedSuffix
| no_fixed_size b m n : fraction b -> ~ 8 <= m <= 256 -> complaint b (SubPair m n) FixedSize
| no_fixed_mult b m n : fraction b -> 8 <= m <= 256 -> m mod 8 <> 0 -> complaint b (SubPair m n) FixedMultiple
| no_fixed_exp b m n : fraction b -> int_size m -> ~ frac_size n -> complaint b (SubPair m n) FixedExponent
| no_hash sub : (forall n, sub <> SubInt n) -> complaint (lit "hash") sub HashSuffix.
Definition part_ok (t : pystr) : Prop := exists b sub arr, g_type t (Basic b sub arr) /\ size_ok b sub.

(** Types without a fixed size. *)
Inductive dynamic_type : abi_type -> Prop :=
| dyn_string sub arr : dynamic_type (Basic (lit "string") sub arr)
| dyn_bytes arr : dynamic_type (Basic (lit "bytes") SubNone arr)
| dyn_basic_arr b sub arr : In None arr -> dynamic_type (Basic b sub arr)
| dyn_tuple_arr ts arr : In None arr -> dynamic_type (Tup ts arr)
| dyn_component T ts arr : In T ts -> dynamic_type T -> dynamic_type (Tup ts arr).

(** An object and its components, at any depth. *)
Inductive within : abi_obj -> abi_obj -> Prop :=
| within_self o : within o o
| within_tuple c x cs arr n : In c cs -> within x c -> within x (OTuple cs arr n).
(** The object without the places it was read from. *)
Fixpoint strip (o : abi_obj) : abi_obj :=
  match o with
  | OBasic b sub arr _ => OBasic b sub arr None
  | OTuple cs arr _ => OTuple (map strip cs) arr None
  end.
