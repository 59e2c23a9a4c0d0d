(** How numbers and messages are read. *)
From Coq Require Import Strings.String.
From Verif Require Import Py Bytes Grammar GrammarSpec.
Open Scope Z_scope.

(** The number written with decimal digits; leading zeros do not count. *)
Fixpoint worth (s : pystr) (acc : Z) : Z :=
  match s with [] => acc | c :: s' => worth s' (10 * acc + (Z.of_N c - 48)) end.
(** [ip] "." [fp] "E" [x]: [c] with the point moved, [c * 10^e = ip.fp * 10^x].
    No point is written if no digits follow and no exponent if it is 0. *)
Definition scientific (s : pystr) (neg : bool) (c : N) (e : Z) : Prop :=
  exists ip fp x, Forall digit ip /\ Forall digit fp /\ ip <> [] /\ worth (ip ++ fp) 0 = Z.of_N c /\ e = x - len fp
    /\ s = (if neg then [45%N] else [])
           ++ ip ++ (match fp with [] => [] | _ => 46%N :: fp end)
           ++ (if x =? 0 then [] else 69%N :: (if 0 <? x then [43%N] else []) ++ str_of_Z x).
