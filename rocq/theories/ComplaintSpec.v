(** What is wrong with a payload. *)
From Coq Require Import Strings.Byte.
From Verif Require Import Py Spec ReadSpec LengthSpec Complaints.
Open Scope Z_scope.

(** The padding of a word of type [t], and the byte it should consist of. *)
Definition pad_size (t : sty) : Z :=
  match t with
  | SUInt m | SInt m | SUFixed m _ | SFixed m _ => 32 - m / 8
  | SBool => 31
  | SAddr => 12
  | SBytesM k => 32 - k
  | _ => 0
  end.
Definition padding_of (t : sty) (w : bytes) : bytes :=
  match t with
  | SBytesM k => skipn (Z.to_nat k) w
  | _ => firstn (Z.to_nat (pad_size t)) w
  end.
Definition filler (t : sty) (w : bytes) : byte :=
  match t with
  | SInt _ | SFixed _ _ => if 0x80 <=? Z.of_N (Byte.to_N (nth (Z.to_nat (pad_size t)) w x00)) then xff else x00
  | _ => x00
  end.

(** The bytes there are from [p] on. *)
Definition left_at (buf : bytes) (p : Z) : Z := Z.max 0 (len buf - p).
(** [z] is the number found in the word at [p]. *)
Definition number_at (buf : bytes) (p z : Z) : Prop := 0 <= z < 2 ^ 256 /\ found buf p (word z).

(** [defect buf s t p c]: [c] is right about the value of type [t] at [p];
    [defect_in buf s tuple start lo ts p c]: about one of the members [ts], whose
    heads begin at [p], of a sequence that begins at [start] with offsets from
    [lo] on. *)
Inductive defect (buf : bytes) : bool -> sty -> Z -> complaint -> Prop :=
(* a word is cut off *)
| D_word_short s t p : one_word t = true -> left_at buf p < 32 -> defect buf s t p (CShort false 32 (left_at buf p))
(* a word has the wrong padding *)
| D_word_padding s t p w : one_word t = true -> found buf p w -> len w = 32 -> Exists (fun b => b <> filler t w) (padding_of t w) ->
    (t = SBool -> nth 31 w x00 = x00 \/ nth 31 w x00 = x01) -> defect buf s t p (CPadding (padding_of t w))
| D_bool s p w b : found buf p (w ++ [b]) -> len w = 31 -> b <> x00 -> b <> x01 -> defect buf s SBool p (CBool [b])
(* the length of a byte string or array is cut off *)
| D_length_short s t p : flat_bytes t = true \/ (exists t', t = SArr t') -> left_at buf p < 32 -> defect buf s t p (CShort false 32 (left_at buf p))
(* a byte string is longer than any Python object, is cut off, has wrong padding, is no UTF-8 *)
| D_long s t p n : flat_bytes t = true -> number_at buf p n -> 2 ^ 63 - 1 < padded n -> defect buf s t p (COther OverflowError)
| D_cut t p n : flat_bytes t = true -> number_at buf p n -> left_at buf (p + 32) < padded n -> padded n < 2 ^ 63 ->
    defect buf true t p (CShort true (padded n) (left_at buf (p + 32)))
| D_padding t p data padding : flat_bytes t = true -> found buf p (word (len data) ++ data ++ padding) ->
    len data + len padding = padded (len data) -> Exists (fun b => b <> x00) padding -> defect buf true t p (CPadding padding)
| D_text s p b : holds_bytes buf s p b -> (forall u, Forall scalar u -> utf8 u <> b) -> defect buf s SString p (COther UnicodeDecodeError)
(* something is wrong with a member *)
| D_arr s t p n c : number_at buf p n -> defect_in buf true false (p + 32) (32 * n) (repeat t (Z.to_nat n)) (p + 32) c -> defect buf s (SArr t) p c
| D_sized s n t p c : defect_in buf true false p (32 * n) (repeat t (Z.to_nat n)) p c -> defect buf s (SSized n t) p c
| D_tuple s ts p c : defect_in buf true true p (32 * counted_all ts) ts p c -> defect buf s (STuple ts) p c
with defect_in (buf : bytes) : bool -> bool -> Z -> Z -> list sty -> Z -> complaint -> Prop :=
| DI_static s k start lo t ts p c : sdyn t = false -> defect buf s t p c -> defect_in buf s k start lo (t :: ts) p c
(* a pointer is cut off, points before [lo] or behind the end, or leads to something wrong *)
| DI_short s k start lo t ts p : sdyn t = true -> left_at buf p < 32 -> defect_in buf s k start lo (t :: ts) p (CShort false 32 (left_at buf p))
| DI_pointer s k start lo t ts p z : sdyn t = true -> number_at buf p z -> z < lo \/ len buf <= start + z ->
    defect_in buf s k start lo (t :: ts) p (CPointer k p)
| DI_behind s k start lo t ts p z c : sdyn t = true -> number_at buf p z -> lo <= z -> start + z < len buf ->
    defect buf s t (start + z) c -> defect_in buf s k start lo (t :: ts) p c
| DI_next s k start lo t ts p c : defect_in buf s k start lo ts (p + head_words t) c -> defect_in buf s k start lo (t :: ts) p c.
(** The whole payload. *)
Definition payload_defect (buf : bytes) (strict : bool) (ts : list sty) (c : complaint) : Prop :=
  defect_in buf strict true 0 (32 * counted_all ts) ts 0 c.

(** What is said makes sense: the location is that of a word of the payload, fewer
    bytes are there than wanted, padding is never empty or a whole word. *)
Definition sensible (buf : bytes) (c : complaint) : Prop :=
  match c with
  | CPointer _ l => 0 <= l /\ l + 32 <= len buf
  | CShort k n g => 0 <= g < n /\ g <= len buf /\ n mod 32 = 0 /\ (k = false -> n = 32)
  | CPadding p => p <> [] /\ len p < 32
  | CBool d => len d = 1 /\ d <> [x00] /\ d <> [x01]
  | COther e => e = OverflowError \/ e = UnicodeDecodeError
  end.

Scheme defect_mut := Induction for defect Sort Prop
  with defect_in_mut := Induction for defect_in Sort Prop.
Combined Scheme defect_both from defect_mut, defect_in_mut.
