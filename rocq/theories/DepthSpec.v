(** How many levels of coders a type takes. *)
From Verif Require Import Py Spec.

(** Encoders: one for the type, and those of its parts; the length of bytes and
    strings takes a second one unless packed. *)
Fixpoint enc_levels (packed : bool) (t : sty) : nat :=
  match t with
  | SBytes | SString => if packed then 1 else 2
  | SArr t | SSized _ t => S (enc_levels packed t)
  | STuple ts => S (fold_right (fun t m => Nat.max (enc_levels packed t) m) O ts)
  | _ => 1
  end.
(** Decoders: a dynamic part takes one more, for the decoder that follows its
    pointer. *)
Fixpoint dec_levels (t : sty) : nat :=
  match t with
  | SBytes | SString => 2
  | SArr t | SSized _ t => S (if sdyn t then S (dec_levels t) else dec_levels t)
  | STuple ts => S (fold_right (fun t m => Nat.max (if sdyn t then S (dec_levels t) else dec_levels t) m) O ts)
  | _ => 1
  end.
(** How deep sequences are nested in a value *)
Fixpoint nesting (v : pyval) : nat :=
  match v with
  | PList l | PTuple l | PSeq _ l => S (fold_right (fun x m => Nat.max (nesting x) m) O l)
  | _ => O
  end.
(** [[...[v]...]] *)
Fixpoint wrapped (k : nat) (v : pyval) : pyval :=
  match k with O => v | S k' => PList [wrapped k' v] end.
(** Types whose values have all the parts they can have *)
Fixpoint filled (t : sty) : Prop :=
  match t with
  | SArr _ => False
  | SSized k t => k <> 0%Z /\ filled t
  | STuple ts => fold_right (fun t P => filled t /\ P) True ts
  | _ => True
  end.
