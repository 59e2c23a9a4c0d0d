(** Relations between ABI types whose encodings are related. *)
From Coq Require Import Strings.Byte.
From Verif Require Import Py Spec.
Open Scope Z_scope.

(** ** Fixed-size arrays and tuples *)
(** Every [T[n]] written as a tuple of n members of type T. *)
Fixpoint expand (t : sty) : sty :=
  match t with
  | SArr t => SArr (expand t)
  | SSized n t => STuple (repeat (expand t) (Z.to_nat n))
  | STuple ts => STuple (map expand ts)
  | _ => t
  end.
(** Types that differ only in which uniform groups of members are written as
    arrays and which as tuples. *)
Definition same_layout (t t' : sty) : Prop := expand t = expand t'.

(** ** Wider numeric types *)
(** [widens t t']: the numeric leaves of [t'] hold at least the numbers those of
    [t] hold, with the same number of decimals; all else is equal. *)
Fixpoint widens (t t' : sty) {struct t} : Prop :=
  match t, t' with
  | SUInt m, SUInt m' | SInt m, SInt m' => m <= m'
  | SUInt m, SInt m' => m < m'
  | SUFixed m n, SUFixed m' n' | SFixed m n, SFixed m' n' => m <= m' /\ n = n'
  | SUFixed m n, SFixed m' n' => m < m' /\ n = n'
  | SArr t, SArr t' => widens t t'
  | SSized n t, SSized n' t' => n = n' /\ widens t t'
  | STuple ts, STuple ts' =>
      (fix go (ts ts' : list sty) : Prop :=
         match ts, ts' with
         | [], [] => True
         | t :: ts, t' :: ts' => widens t t' /\ go ts ts'
         | _, _ => False
         end) ts ts'
  | SBytesM k, SBytesM k' => k = k'
  | SBool, SBool | SAddr, SAddr | SBytes, SBytes | SString, SString => True
  | _, _ => False
  end.

(** ** Text and bytes *)
(** [bytes] for every [string]. *)
Fixpoint raw_type (t : sty) : sty :=
  match t with
  | SString => SBytes
  | SArr t => SArr (raw_type t)
  | SSized n t => SSized n (raw_type t)
  | STuple ts => STuple (map raw_type ts)
  | _ => t
  end.
(** A class of list-like objects. *)
Definition is_seq (k : list pyval -> pyval) : Prop := k = PList \/ k = PTuple \/ exists r, k = PSeq r.
(** [raw_of t p p']: [p'] is [p], with its UTF-8 for each text passed as a
    [string]. *)
Inductive raw_of : sty -> pyval -> pyval -> Prop :=
| R_string s : Forall scalar s -> raw_of SString (PStr s) (PBytes (utf8 s))
| R_leaf t p : match t with SString | SArr _ | SSized _ _ | STuple _ => False | _ => True end -> raw_of t p p
| R_arr t k l l' : is_seq k -> Forall2 (raw_of t) l l' -> raw_of (SArr t) (k l) (k l')
| R_sized n t k l l' : is_seq k -> Forall2 (raw_of t) l l' -> raw_of (SSized n t) (k l) (k l')
| R_tuple ts k l l' : is_seq k -> Forall3 raw_of ts l l' -> raw_of (STuple ts) (k l) (k l').

(** ** Types that fill their words *)
Fixpoint full (t : sty) : bool :=
  match t with
  | SUInt m | SInt m | SUFixed m _ | SFixed m _ => m =? 256
  | SBytesM k => k =? 32
  | SSized _ t => full t
  | STuple ts => forallb full ts
  | _ => false
  end.
