(** Exact values of Decimals. *)
From Verif Require Import Py.
Open Scope Z_scope.

(** [y] is [x * 10^k] exactly. *)
Definition times_ten (x : decimal) (k : Z) (y : decimal) : Prop :=
  match x, y with
  | DFin nx cx ex, DFin ny cy ey =>
      let m := Z.min (ex + k) ey in
      (if nx then - Z.of_N cx else Z.of_N cx) * 10 ^ (ex + k - m) = (if ny then - Z.of_N cy else Z.of_N cy) * 10 ^ (ey - m)
  | _, _ => False
  end.
(** The Decimals of a context with 999 digits and exponents from -999999 to
    999999 (of the leading digit). *)
Definition in_context (y : decimal) : Prop :=
  match y with
  | DFin _ c e => c = 0%N \/ (Z.of_N c < 10 ^ 999 /\ -1000997 <= e /\ Z.of_N c < 10 ^ (1000000 - e))
  | _ => False
  end.

(** Rounding half to even to a context with 999 digits, exponents at least
    -1000997 and a largest adjusted exponent of 999999: [d] is the number
    [c * 10^e] with sign [neg] in that context.
    A zero keeps its sign and has its exponent moved into the range.  Any other
    number is kept as it is if it fits, and is otherwise replaced by a nearest
    multiple of [10^e'], an even one if two are equally near, where [e'] is the
    exponent that makes it 999 digits long, or the least exponent. *)
Definition rounds_to (neg : bool) (c e : Z) (d : decimal) : Prop :=
  match d with
  | DFin neg' c' e' =>
      neg' = neg
      /\ ((c = 0 /\ c' = 0%N /\ (e' = e \/ (e < -1000997 /\ e' = -1000997) \/ (999999 < e /\ e' = 999999)) /\ -1000997 <= e' <= 999999)
          \/ (0 < c < 10 ^ 999 /\ -1000997 <= e /\ Z.of_N c' = c /\ e' = e)
          \/ (0 < c /\ (10 ^ 999 <= c \/ e < -1000997) /\ e < e'
              /\ Z.of_N c' < 10 ^ 999 /\ (10 ^ 998 <= Z.of_N c' \/ e' = -1000997) /\ -1000997 <= e'
              /\ Z.abs (2 * c - 2 * Z.of_N c' * 10 ^ (e' - e)) <= 10 ^ (e' - e)
              /\ (Z.abs (2 * c - 2 * Z.of_N c' * 10 ^ (e' - e)) = 10 ^ (e' - e) -> Z.even (Z.of_N c') = true)))
  | _ => False
  end.
(** [c * 10^e] is at least half way from the largest number of the context,
    [(10^999 - 1) * 10^999001], to the next one it would have. *)
Definition overflows (c e : Z) : Prop :=
  let m := Z.min e 999001 in (2 * 10 ^ 999 - 1) * 10 ^ (999001 - m) <= 2 * c * 10 ^ (e - m).
