(** How many bytes an argument takes. *)
From Coq Require Import Strings.Byte.
From Verif Require Import Py Spec.
Open Scope Z_scope.

(** The next multiple of 32. *)
Definition padded (n : Z) : Z := 32 * ((n + 31) / 32).
Definition byte_count (p : pyval) : Z := match p with PBytes b | PByteArray b => len b | _ => 0 end.
(** UTF-8 takes one to four bytes for a character. *)
Definition char_count (c : N) : Z :=
  if (c <? 0x80)%N then 1 else if (c <? 0x800)%N then 2 else if (c <? 0x10000)%N then 3 else 4.
Definition text_count (p : pyval) : Z :=
  match p with PStr s => fold_right (fun c acc => char_count c + acc) 0 s | _ => 0 end.

(** The bytes that the argument [p] takes as a [t]: a word for every number,
    flag, address and bytesM, for every length and for every pointer to a member
    of dynamic type. *)
Definition pointer (t : sty) : Z := if sdyn t then 32 else 0.
Fixpoint taken (t : sty) (p : pyval) {struct t} : Z :=
  match t with
  | SBytes => 32 + padded (byte_count p)
  | SString => 32 + padded (text_count p)
  | SArr t' => 32 + fold_right (fun x acc => pointer t' + taken t' x + acc) 0 (items p)
  | SSized _ t' => fold_right (fun x acc => pointer t' + taken t' x + acc) 0 (items p)
  | STuple ts =>
      (fix go (ts : list sty) (l : list pyval) : Z :=
         match ts, l with
         | t' :: ts', x :: l' => pointer t' + taken t' x + go ts' l'
         | _, _ => 0
         end) ts (items p)
  | _ => 32
  end.

(** In packed mode only the contents count. *)
Fixpoint taken_packed (t : sty) (p : pyval) {struct t} : Z :=
  match t with
  | SUInt m | SInt m | SUFixed m _ | SFixed m _ => m / 8
  | SBool => 1
  | SAddr => 20
  | SBytesM k => k
  | SBytes => byte_count p
  | SString => text_count p
  | SArr t' | SSized _ t' => fold_right (fun x acc => taken_packed t' x + acc) 0 (items p)
  | STuple ts =>
      (fix go (ts : list sty) (l : list pyval) : Z :=
         match ts, l with
         | t' :: ts', x :: l' => taken_packed t' x + go ts' l'
         | _, _ => 0
         end) ts (items p)
  end.
