(** Which bytes of an encoding are pointers, and what it means to alter the
    other ones. *)
From Coq Require Import Strings.Byte.
From Verif Require Import Py Spec.
Open Scope Z_scope.

(** For each byte of the encoding of [a], whether it belongs to a pointer: to
    the word that the head section of a sequence has for a member of dynamic
    type.  Each part is (is it dynamic, the map of its encoding). *)
Definition head_map (p : bool * list bool) : list bool := if fst p then repeat true 32 else snd p.
Definition tail_map (p : bool * list bool) : list bool := if fst p then snd p else [].
Definition sequence_map (ps : list (bool * list bool)) : list bool := flat_map head_map ps ++ flat_map tail_map ps.
Fixpoint pointer_map (t : sty) (a : aval) {struct t} : list bool :=
  match t, a with
  | SArr t', VSeq l => repeat false 32 ++ sequence_map (map (fun x => (sdyn t', pointer_map t' x)) l)
  | SSized _ t', VSeq l => sequence_map (map (fun x => (sdyn t', pointer_map t' x)) l)
  | STuple ts, VSeq l =>
      sequence_map
        ((fix go (ts : list sty) (l : list aval) : list (bool * list bool) :=
            match ts, l with
            | t' :: ts', x :: l' => (sdyn t', pointer_map t' x) :: go ts' l'
            | _, _ => []
            end) ts l)
  | _, _ => repeat false (length (spec_enc t a))
  end.

(** [b'] has the bytes of [b] wherever [m] says there is a pointer. *)
Definition same_pointers (m : list bool) (b b' : bytes) : Prop :=
  forall i, nth_error m i = Some true -> nth_error b' i = nth_error b i.
(** [b] with the byte [c] at position [i]. *)
Definition with_byte (b : bytes) (i : nat) (c : byte) : bytes := firstn i b ++ c :: skipn (S i) b.
(** The number of members of dynamic type in [a]. *)
Fixpoint pointers (t : sty) (a : aval) {struct t} : nat :=
  match t, a with
  | SArr t', VSeq l | SSized _ t', VSeq l => list_sum (map (fun x => (if sdyn t' then 1 else 0) + pointers t' x)%nat l)
  | STuple ts, VSeq l =>
      (fix go (ts : list sty) (l : list aval) : nat :=
         match ts, l with
         | t' :: ts', x :: l' => ((if sdyn t' then 1 else 0) + pointers t' x + go ts' l')%nat
         | _, _ => 0%nat
         end) ts l
  | _, _ => 0%nat
  end.
