(** The values that the strategies of eth_abi/tools/_strategies.py are meant to
    cover: any value, with byte strings of at most 4096 bytes. *)
From Verif Require Import Py Spec.
Open Scope Z_scope.

Inductive short_bytes : sty -> aval -> Prop :=
| SB_bytes b : len b <= 4096 -> short_bytes SBytes (VBytes b)
| SB_arr t l : Forall (short_bytes t) l -> short_bytes (SArr t) (VSeq l)
| SB_sized n t l : Forall (short_bytes t) l -> short_bytes (SSized n t) (VSeq l)
| SB_tuple ts l : Forall2 short_bytes ts l -> short_bytes (STuple ts) (VSeq l)
| SB_leaf t a : match t with SBytes | SArr _ | SSized _ _ | STuple _ => False | _ => True end -> short_bytes t a.
