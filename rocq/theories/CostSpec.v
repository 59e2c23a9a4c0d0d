(** How many reads decoding should take. *)
From Coq Require Import Strings.String.
From Verif Require Import Py Spec Grammar.
Open Scope Z_scope.

(** The reads for the value [a] of type [t].  A dynamic member of a head section
    takes two for its pointer, which is read once to check it and once to follow
    it.  A static member of a tuple is read twice, and so are, each time, the
    members of a static tuple in it. *)
Fixpoint work (t : sty) (a : aval) {struct t} : Z :=
  match t with
  | SBytes | SString => 2
  | STuple ts =>
      match a with
      | VSeq l =>
          (fix go (ts : list sty) (l : list aval) : Z :=
             match ts, l with
             | t :: ts', x :: l' => (if sdyn t then 2 + work t x else 2 * work t x) + go ts' l'
             | _, _ => 0
             end) ts l
      | _ => 0
      end
  | SSized _ t =>
      match a with
      | VSeq l => fold_right (fun x acc => (if sdyn t then 2 + work t x else work t x) + acc) 0 l
      | _ => 0
      end
  | SArr t =>
      match a with
      | VSeq l => 1 + fold_right (fun x acc => (if sdyn t then 2 + work t x else work t x) + acc) 0 l
      | _ => 0
      end
  | _ => 1
  end.
(** The same with at most [n] items in each T[], whatever the payload. *)
Fixpoint max_work (n : Z) (t : sty) : Z :=
  match t with
  | SBytes | SString => 2
  | STuple ts => fold_right (fun t acc => (if sdyn t then 2 + max_work n t else 2 * max_work n t) + acc) 0 ts
  | SSized k t => k * (if sdyn t then 2 + max_work n t else max_work n t)
  | SArr t => 1 + n * (if sdyn t then 2 + max_work n t else max_work n t)
  | _ => 1
  end.
(** A type in [k] tuples: ((...(t)...)). *)
Fixpoint nested (k : nat) (t : sty) : sty :=
  match k with O => t | S k' => STuple [nested k' t] end.
Fixpoint nested_name (k : nat) (s : pystr) : pystr :=
  match k with O => s | S k' => lit "(" ++ nested_name k' s ++ lit ")" end.
