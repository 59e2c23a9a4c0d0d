(** Declarative specification of ABI decoding: what it means for a payload to
    hold a value at a position.  Offsets may point anywhere the rules below
    allow, so a payload need not be the canonical encoding of its value. *)
From Coq Require Import Strings.Byte.
From Verif Require Import Py Spec.
Open Scope Z_scope.

(** [b] is found in [buf] at position [p]. *)
Definition found (buf : bytes) (p : Z) (b : bytes) : Prop :=
  exists pre post, buf = pre ++ b ++ post /\ len pre = p.

(** Types that occupy one word. *)
Definition one_word (t : sty) : bool :=
  match t with SBytes | SString | SArr _ | SSized _ _ | STuple _ => false | _ => true end.

(** The head words eth_abi counts for a member: one, except for a static array,
    for which it counts its items.  (For nested static members this is less
    than what the member occupies.) *)
Definition counted (t : sty) : Z :=
  if sdyn t then 1 else match t with SSized n _ => n | _ => 1 end.
Definition counted_all (ts : list sty) : Z := fold_right (fun t acc => counted t + acc) 0 ts.
Definition head_words (t : sty) : Z := if sdyn t then 32 else static_size t.

Definition heads_of (ts : list sty) : Z := fold_right (fun t acc => head_words t + acc) 0 ts.

(** The contents of a byte string at [p].  Strictly: length word, contents, zero
    padding.  Leniently: a length word and whatever there is of the contents. *)
Inductive holds_bytes (buf : bytes) : bool -> Z -> bytes -> Prop :=
| HB_strict p b : found buf p (word (len b) ++ pad_right b) -> holds_bytes buf true p b
| HB_lenient p pre n rest : buf = pre ++ word n ++ rest -> len pre = p -> 0 <= n <= 2 ^ 63 - 32 ->
    holds_bytes buf false p (firstn (Z.to_nat (Z.min n (len rest))) rest).

(** [holds buf strict t p a]: [buf] holds the value [a] of type [t] at [p].
    [holds_all buf strict start lo ts p vs]: the head section at [p] of a
    sequence that starts at [start] holds members [vs]; offsets must be at least
    [lo] and stay inside the payload.  The strictness flag is not handed down to
    the items of arrays and tuples. *)
Inductive holds (buf : bytes) : bool -> sty -> Z -> aval -> Prop :=
| H_word s t p a : one_word t = true -> has_type t a -> found buf p (spec_enc t a) -> holds buf s t p a
| H_bytes s p b : holds_bytes buf s p b -> holds buf s SBytes p (VBytes b)
| H_string s p u : Forall scalar u -> holds_bytes buf s p (utf8 u) -> holds buf s SString p (VStr u)
| H_arr s t p vs : found buf p (word (len vs)) ->
    holds_all buf true (p + 32) (32 * len vs) (repeat t (length vs)) (p + 32) vs ->
    holds buf s (SArr t) p (VSeq vs)
| H_sized s n t p vs : len vs = n ->
    holds_all buf true p (32 * n) (repeat t (length vs)) p vs ->
    holds buf s (SSized n t) p (VSeq vs)
| H_tuple s ts p vs : holds_all buf true p (32 * counted_all ts) ts p vs -> holds buf s (STuple ts) p (VSeq vs)
with holds_all (buf : bytes) : bool -> Z -> Z -> list sty -> Z -> list aval -> Prop :=
| HA_nil s start lo p : holds_all buf s start lo [] p []
| HA_static s start lo t ts p a vs : sdyn t = false -> holds buf s t p a ->
    holds_all buf s start lo ts (p + static_size t) vs -> holds_all buf s start lo (t :: ts) p (a :: vs)
| HA_dynamic s start lo t ts p z a vs : sdyn t = true -> found buf p (word z) -> lo <= z -> start + z < len buf ->
    holds buf s t (start + z) a -> holds_all buf s start lo ts (p + 32) vs ->
    holds_all buf s start lo (t :: ts) p (a :: vs).
(** The whole payload. *)
Definition payload_holds (buf : bytes) (strict : bool) (ts : list sty) (vs : list aval) : Prop :=
  holds_all buf strict 0 (32 * counted_all ts) ts 0 vs.

Scheme holds_mut := Induction for holds Sort Prop
  with holds_all_mut := Induction for holds_all Sort Prop.
Combined Scheme holds_both from holds_mut, holds_all_mut.

(** ** Classes of types and values used in statements about decoding *)
(** Types with a bytes or string (resp. string) part. *)
Fixpoint has_bytes (t : sty) : bool :=
  match t with
  | SBytes | SString => true
  | SArr t | SSized _ t => has_bytes t
  | STuple ts => existsb has_bytes ts
  | _ => false
  end.
Fixpoint has_string (t : sty) : bool :=
  match t with
  | SString => true
  | SArr t | SSized _ t => has_string t
  | STuple ts => existsb has_string ts
  | _ => false
  end.
(** bytes and string themselves. *)
Definition flat_bytes (t : sty) : bool := match t with SBytes | SString => true | _ => false end.
(** Members whose head words are counted correctly: dynamic ones, words, and
    arrays of words. *)
Definition plain (t : sty) : bool :=
  sdyn t || match t with SSized _ t' => static_size t' =? 32 | STuple ts => static_size (STuple ts) =? 32 | _ => true end.
(** No sequence in the value is longer than [n]. *)
Inductive bounded (n : Z) : pyval -> Prop :=
| B_tuple l : len l <= n -> Forall (bounded n) l -> bounded n (PTuple l)
| B_leaf q : match q with PTuple _ | PList _ | PSeq _ _ => False | _ => True end -> bounded n q.

(** What the first pass over a head section accepts for the member [t] at [p]. *)
Definition slot_ok (b : bytes) (lo : Z) (t : sty) (p : Z) : Prop :=
  if sdyn t then exists z, found b p (word z) /\ lo <= z < len b
  else exists a, has_type t a /\ found b p (spec_enc t a).

(** The number of bytes a static type occupies in packed mode. *)
Fixpoint packed_size (t : sty) : Z :=
  match t with
  | SUInt m | SInt m | SUFixed m _ | SFixed m _ => m / 8
  | SBool => 1
  | SAddr => 20
  | SBytesM k => k
  | SBytes | SString | SArr _ => 0
  | SSized n t => n * packed_size t
  | STuple ts => fold_right (fun t acc => packed_size t + acc) 0 ts
  end.

(** The number of items of all sequences in a value. *)
Fixpoint value_items (q : pyval) : Z :=
  match q with
  | PTuple l | PList l | PSeq _ l => fold_right (fun x acc => 1 + value_items x + acc) 0 l
  | _ => 0
  end.
