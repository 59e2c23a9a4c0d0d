(** The order of byte strings and of ABI values. *)
From Coq Require Import Strings.Byte.
From Verif Require Import Py Spec.
Open Scope Z_scope.

(** The first difference decides: how Python compares bytes, tuples and lists. *)
Definition lex {A} (compare : A -> A -> comparison) : list A -> list A -> comparison :=
  fix go (l l' : list A) : comparison :=
    match l, l' with
    | [], [] => Eq
    | [], _ :: _ => Lt
    | _ :: _, [] => Gt
    | x :: l1, y :: l1' => match compare x y with Eq => go l1 l1' | c => c end
    end.
Definition compare_bytes : bytes -> bytes -> comparison := lex (fun x y => N.compare (Byte.to_N x) (Byte.to_N y)).
Fixpoint compare_values (a b : aval) {struct a} : comparison :=
  match a, b with
  | VInt y, VInt z => Z.compare y z
  | VBool x, VBool y => Z.compare (if x then 1 else 0) (if y then 1 else 0)
  | VBytes x, VBytes y => compare_bytes x y
  | VSeq l, VSeq l' => lex compare_values l l'
  | _, _ => Eq
  end.

(** Two values of a static type, where no negative number of one stands against
    a non-negative one of the other. *)
Inductive same_signs : sty -> aval -> aval -> Prop :=
| SS_uint m y z : same_signs (SUInt m) (VInt y) (VInt z)
| SS_int m y z : (0 <= y <-> 0 <= z) -> same_signs (SInt m) (VInt y) (VInt z)
| SS_bool x y : same_signs SBool (VBool x) (VBool y)
| SS_addr x y : same_signs SAddr (VBytes x) (VBytes y)
| SS_ufixed m n y z : same_signs (SUFixed m n) (VInt y) (VInt z)
| SS_fixed m n y z : (0 <= y <-> 0 <= z) -> same_signs (SFixed m n) (VInt y) (VInt z)
| SS_bytesM k x y : same_signs (SBytesM k) (VBytes x) (VBytes y)
| SS_sized n t l l' : Forall2 (same_signs t) l l' -> same_signs (SSized n t) (VSeq l) (VSeq l')
| SS_tuple ts l l' : Forall3 same_signs ts l l' -> same_signs (STuple ts) (VSeq l) (VSeq l').
