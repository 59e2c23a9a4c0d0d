(** How large a decoded value can be. *)
From Coq Require Import Strings.Byte.
From Verif Require Import Py Spec ReadSpec.
Open Scope Z_scope.

(** The number of items of a value of type [t] whose arrays T[] have at most
    [n] items each. *)
Fixpoint max_items (n : Z) (t : sty) : Z :=
  match t with
  | SArr t => n * (1 + max_items n t)
  | SSized k t => k * (1 + max_items n t)
  | STuple ts => fold_right (fun t acc => 1 + max_items n t + acc) 0 ts
  | _ => 0
  end.
(** How deeply T[] are nested in a type. *)
Fixpoint array_depth (t : sty) : nat :=
  match t with
  | SArr t => S (array_depth t)
  | SSized _ t => array_depth t
  | STuple ts => fold_right (fun t acc => Nat.max (array_depth t) acc) 0%nat ts
  | _ => 0%nat
  end.
(** The length of the longest byte string or text in a value. *)
Fixpoint longest (q : pyval) : Z :=
  match q with
  | PTuple l | PList l | PSeq _ l => fold_right (fun x acc => Z.max (longest x) acc) 0 l
  | PBytes b => len b
  | PStr s => len s
  | _ => 0
  end.
