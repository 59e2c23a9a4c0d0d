(** C43: numeric helpers. *)
From Verif Require Import Tac Bytes BytesProofs Decimals Spec DecimalsProofs NumericSpec NumericProofs.
Open Scope Z_scope.
Local Transparent Decimals.pow10 Decimals.prec Decimals.Etop Decimals.Etiny Decimals.Emax Decimals.ndigits.

Theorem C43_ceil32 : forall x,
  ceil32 x mod 32 = 0 /\ x <= ceil32 x /\ (forall y, y mod 32 = 0 -> x <= y -> ceil32 x <= y).
Proof. exact ceil32_all. Qed.
Print Assumptions C43_ceil32.
Example C43_ceil32_33 : ceil32 33 = 64 /\ ceil32 64 = 64 /\ ceil32 (-33) = -32. Proof. repeat split; reflexivity. Qed.

(** The bounds are Decimals whose values times 10^N are the integer bounds. *)
Theorem C43_unsigned_bounds : forall m n, 1 <= m <= 256 -> 0 <= n <= 80 ->
  exists lo hi, compute_unsigned_fixed_bounds m n = Ok (lo, hi) /\ scaled lo n 0 /\ scaled hi n (2 ^ m - 1).
Proof. exact unsigned_fixed_exact. Qed.
Print Assumptions C43_unsigned_bounds.
Theorem C43_signed_bounds : forall m n, 1 <= m <= 256 -> 0 <= n <= 80 ->
  exists lo hi, compute_signed_fixed_bounds m n = Ok (lo, hi) /\ scaled lo n (- 2 ^ (m - 1)) /\ scaled hi n (2 ^ (m - 1) - 1).
Proof. exact signed_fixed_exact. Qed.
Print Assumptions C43_signed_bounds.
Example C43_bounds_8x1 :
  compute_unsigned_fixed_bounds 8 1 = Ok (DFin false 0 0, DFin false 255 (-1))
  /\ compute_signed_fixed_bounds 8 1 = Ok (DFin true 128 (-1), DFin false 127 (-1)).
Proof. exact bounds_8x1. Qed.

(** [scale_places(p)] multiplies by [10^-p] without rounding exactly when the
    context holds a Decimal of that value.  The range of [p] is the one on
    which [10^-p] is itself a Decimal of the context with an exponent of at
    most zero, as [ten_pow] (Decimals.v) models it. *)
Theorem C43_scale_places : forall p x, -998 <= p <= 1000997 ->
  (exists y, in_context y /\ times_ten x (- p) y) <-> (exists d, scale_places p x = Ok d /\ times_ten x (- p) d).
Proof. exact (fun p x _ => scale_places_exact p x). Qed.
Print Assumptions C43_scale_places.
Example C43_scale_exact : in_context (DFin false 123 (-2)) /\ times_ten (DFin false 123 0) (- 2) (DFin false 123 (-2))
  /\ scale_places 2 (DFin false 123 0) = Ok (DFin false 123 (-2)).
Proof. split; [apply in_context_small; [lazy; reflexivity|split; intro HX; discriminate HX]|]. split; [lazy; reflexivity|exact scale_123]. Qed.
(** With more than 999 digits the product is rounded. *)
Example C43_scale_rounds : forall y, in_context y -> ~ times_ten (DFin false (10 ^ 999 + 1) 0) (- 2) y.
Proof. exact scale_rounds. Qed.
(** Every product that does not fit is rounded half to even, and
    DecimalOverflow is raised exactly when it is too large to be rounded. *)
Theorem C43_scale_rounding : forall p n c e, -998 <= p <= 1000997 ->
  let C := Z.of_N c * 10 ^ Z.max 0 (- p) in
  let E := e + Z.min 0 (- p) in
  match scale_places p (DFin n c e) with
  | Ok d => rounds_to n C E d /\ ~ overflows C E
  | Err DecimalOverflow => overflows C E
  | Err _ => False
  end.
Proof. exact (fun p n c e _ => scale_places_rounds p n c e). Qed.
Print Assumptions C43_scale_rounding.
(** A tie: [10^1000 + 5 * 10^1] is half way between two numbers of 999 digits. *)
Example C43_tie : rounds_to false (10 ^ 1000 + 50) 0 (DFin false (10 ^ 998) 2)
  /\ ~ rounds_to false (10 ^ 1000 + 50) 0 (DFin false (10 ^ 998 + 1) 2).
Proof. exact tie. Qed.
Example C43_zero : scale_places 0 (DFin true 0 2000000) = Ok (DFin true 0 999999).
Proof. lazy; reflexivity. Qed.
