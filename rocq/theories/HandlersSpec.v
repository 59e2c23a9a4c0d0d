(** Malformed UTF-8, after the Unicode standard (section 3.9): a byte string is cut
    into characters and maximal subparts of ill-formed sequences. *)
From Coq Require Import Strings.Byte Strings.String.
From Verif Require Import Py Spec.
Open Scope Z_scope.

(** The beginning of the encoding of some character, without its end. *)
Definition starts (p : bytes) : Prop :=
  exists c r, scalar c /\ utf8_char c = p ++ r /\ r <> [].
(** [p] is the malformed part at the beginning of [bs]: no character begins
    there, and [p] is the longest beginning of a character, or else one byte. *)
Definition malformed (bs p : bytes) : Prop :=
  (forall c r, scalar c -> bs <> utf8_char c ++ r)
  /\ (len p = 1 \/ starts p)
  /\ (exists r, bs = p ++ r)
  /\ (forall q r, bs = q ++ r -> starts q -> len q <= len p).

Inductive seg := Good (c : N) | Malformed (p : bytes).
Inductive segs : bytes -> list seg -> Prop :=
| segs_nil : segs [] []
| segs_good c bs l : scalar c -> segs bs l -> segs (utf8_char c ++ bs) (Good c :: l)
| segs_bad p bs l : p <> [] -> malformed (p ++ bs) p -> segs bs l -> segs (p ++ bs) (Malformed p :: l).

(** The text with every malformed part replaced. *)
Definition text (f : bytes -> pystr) (l : list seg) : pystr :=
  flat_map (fun s => match s with Good c => [c] | Malformed p => f p end) l.

(** "\xhh" for every byte *)
Definition escape (p : bytes) : pystr := flat_map (fun b => lit "\x" ++ hex_lower [b]) p.
(** U+DC00 + byte *)
Definition lone_surrogates (p : bytes) : pystr := map (fun b => (0xDC00 + Byte.to_N b)%N) p.
(** Back from text with lone surrogates to bytes. *)
Definition unescape (s : pystr) : bytes :=
  flat_map (fun c => if (0xDC80 <=? c)%N && (c <=? 0xDCFF)%N then [byte_val (Z.of_N c - 0xDC00)] else utf8_char c) s.

Definition not_utf8 (bs : bytes) : Prop := forall s, Forall scalar s -> bs <> utf8 s.
(** What a Python str may contain: surrogates too. *)
Definition code_point (c : N) : Prop := (c < 0x110000)%N.
(** Python's own handlers *)
Definition handler_names : list pystr :=
  map lit ["strict"; "ignore"; "replace"; "backslashreplace"; "surrogateescape"; "surrogatepass"; "xmlcharrefreplace"; "namereplace"]%string.
