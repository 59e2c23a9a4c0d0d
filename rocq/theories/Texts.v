(** The texts of the messages of the registry, and repr of strings, matchers
    and ABI types.

    [pr] says which characters from U+0080 on CPython takes for printable
    (str.isprintable); [other] is the repr of matchers that are no Equals and
    no BaseEquals: functions show their address. *)
From Coq Require Import Strings.String.
From Verif Require Import Py Bytes Grammar Registry Notices.
Open Scope N_scope.

(** ** CPython's repr of a str (unicode_repr) *)

Definition hex_digit (d : N) : N := if d <? 10 then 48 + d else 87 + d.
(** [k] lower-case digits *)
Fixpoint hex_digits (k : nat) (c : N) : pystr :=
  match k with O => [] | S k' => hex_digits k' (c / 16) ++ [hex_digit (c mod 16)] end.
(** The character [c] between quotes [q]. *)
Definition escape (pr : N -> bool) (q c : N) : pystr :=
  if (c =? q) || (c =? 92) then [92; c]
  else if c =? 9 then lit "\t"
  else if c =? 10 then lit "\n"
  else if c =? 13 then lit "\r"
  else if (c <? 32) || (c =? 127) then lit "\x" ++ hex_digits 2 c
  else if c <? 127 then [c]
  else if pr c then [c]
  else if c <? 256 then lit "\x" ++ hex_digits 2 c
  else if c <? 65536 then lit "\u" ++ hex_digits 4 c
  else lit "\U" ++ hex_digits 8 c.
(** Double quotes if that saves escaping single ones. *)
Definition quote_of (s : pystr) : N :=
  if existsb (N.eqb 39) s && negb (existsb (N.eqb 34) s) then 34 else 39.
Definition repr (pr : N -> bool) (s : pystr) : pystr :=
  quote_of s :: flat_map (escape pr (quote_of s)) s ++ [quote_of s].

Section Texts.
Context (pr : N -> bool) (other : pred -> pystr).

(** ** Matchers *)

(** registry.py:203-204, 243-252: the __str__ methods, in registry.py:176-177 Predicate.__repr__ *)
Definition matcher_repr (p : pred) : pystr :=
  match pkind p with
  | KEquals v => lit "<Equals (== " ++ repr pr v ++ lit ")>"
  | KBaseEquals b w =>
      lit "<BaseEquals (base == " ++ repr pr b
      ++ match w with None => [] | Some true => lit " and sub is not None" | Some false => lit " and sub is None" end
      ++ lit ")>"
  | _ => other p
  end.

(** ** ABI types *)

(** grammar.py:158-159; to_type_str is that of the tree *)
Definition type_repr (t : abi_type) : pystr :=
  (match t with Basic _ _ _ => lit "<BasicType " | Tup _ _ => lit "<TupleType " end) ++ repr pr (to_type_str t) ++ lit ">".

(** ** Messages *)

(** registry.py:344-345 *)
Definition table_name (t : table) : pystr :=
  match t with Encoders => lit "encoder registry" | Decoders => lit "decoder registry" end.
(** [", ".join(...)] *)
Fixpoint comma (l : list pystr) : pystr :=
  match l with
  | [] => []
  | [x] => x
  | x :: l' => x ++ lit ", " ++ comma l'
  end.
(** registry.py:98-103 *)
Definition advice : pystr :=
  lit ". This occurs when two registrations match the same type string. You may need to delete one of the "
  ++ lit "registrations or modify its matching behavior to ensure it doesn't collide with other registrations. See the "
  ++ [34] ++ lit "Registry" ++ [34] ++ lit " documentation for more information.".
(** base.py:25-30 *)
Definition type_str_repr (ts : pystr) (normal : option pystr) : pystr :=
  match normal with
  | None => repr pr ts
  | Some n => repr pr ts ++ lit " (normalized to " ++ repr pr n ++ lit ")"
  end.
(** The message; [None] where it shows an object of the caller or is made
    elsewhere. *)
Definition text (n : notice) : option pystr :=
  match n with
  | MatcherTaken t p => Some (lit "Matcher " ++ matcher_repr p ++ lit " already exists in " ++ table_name t)
  | LabelTaken t p l =>
      Some (lit "Matcher " ++ matcher_repr p ++ lit " with label '" ++ l ++ lit "' already exists in " ++ table_name t)
  | NoMatch t ts => Some (lit "No matching entries for '" ++ ts ++ lit "' in " ++ table_name t)
  | ManyMatch t ts ps =>
      Some (lit "Multiple matching entries for '" ++ ts ++ lit "' in " ++ table_name t ++ lit ": "
            ++ comma (map matcher_repr ps) ++ advice)
  | MatcherMissing t p => Some (lit "Matcher " ++ matcher_repr p ++ lit " not found in " ++ table_name t)
  | LabelMissing t l => Some (lit "Label '" ++ l ++ lit "' not found in " ++ table_name t)
  | Misfit c ts normal why =>
      let shown := type_str_repr ts normal in
      Some (lit "Cannot create " ++ lit c ++
            match why with
            | NotBasic => lit " for non-basic type " ++ shown
            | NotTuple => lit " for non-tuple type " ++ shown
            | NotBase b => lit " for type " ++ shown ++ lit ": expected type with base '" ++ b ++ lit "'"
            | HasDims => lit " for type " ++ shown ++ lit ": expected type with no array dimension list"
            | LacksDims => lit " for type " ++ shown ++ lit ": expected type with array dimension list"
            end)
  | WrongLookup | Other _ => None
  end.
End Texts.
