(** decimal.Decimal arithmetic (CPython, external to /repo) in the context used
    by eth_abi, and eth_abi/utils/numeric.py.

    Only finite operands reach the arithmetic below (special values are
    rejected by eth_abi/encoding.py:340-344 first). *)
From Verif Require Import Py.
Open Scope Z_scope.

(** eth_abi/utils/numeric.py:6-8: [decimal.Context(prec=999)]; every other
    setting is that of decimal.DefaultContext (ROUND_HALF_EVEN, Emin = -999999,
    Emax = 999999, clamp = 0, traps on Overflow and InvalidOperation). *)
Definition prec : Z := 999.
Definition Emin : Z := -999999.
Definition Emax : Z := 999999.
Definition Etiny : Z := Emin - prec + 1.
Definition Etop : Z := Emax - prec + 1.

Definition pow10 (k : Z) : Z := 10 ^ k.

(** Number of decimal digits of [z > 0] ([len(str(z))]). *)
Fixpoint ndigits_fuel (fuel : nat) (z : Z) : Z :=
  match fuel with
  | O => 1
  | S f => if z <? 10 then 1 else 1 + ndigits_fuel f (z / 10)
  end.
Definition ndigits (z : Z) : Z := ndigits_fuel (Z.to_nat (Z.log2 z)) z.

(** Signed coefficient of a finite decimal. *)
Definition dsigned (neg : bool) (c : Z) : Z := if neg then - c else c.

(** Division of a coefficient by 10^k rounding half to even. *)
Definition round_half_even (c k : Z) : Z :=
  let p := pow10 k in
  let q := c / p in
  let r := c mod p in
  if (p <? 2 * r) || ((p =? 2 * r) && Z.odd q) then q + 1 else q.

(** [Decimal._fix(context)]: round the result of an operation to the context. *)
Definition dec_fix (neg : bool) (c e : Z) : result decimal :=
  if c =? 0 then
    Ok (DFin neg 0 (Z.min (Z.max e Etiny) Emax))
  else
    let exp_min0 := ndigits c + e - prec in
    if Etop <? exp_min0 then Err DecimalOverflow
    else
      let exp_min := Z.max exp_min0 Etiny in
      if e <? exp_min then
        let q := round_half_even c (exp_min - e) in
        let '(q, exp_min) := if q =? pow10 prec then (pow10 (prec - 1), exp_min + 1) else (q, exp_min) in
        if Etop <? exp_min then Err DecimalOverflow
        else Ok (DFin neg (Z.to_N q) exp_min)
      else Ok (DFin neg (Z.to_N c) e).

(** [Decimal.__mul__] on finite operands. *)
Definition dec_mul (a b : decimal) : result decimal :=
  match a, b with
  | DFin na ca ea, DFin nb cb eb =>
      dec_fix (xorb na nb) (Z.of_N ca * Z.of_N cb) (ea + eb)
  | _, _ => Err DecimalInvalidOperation
  end.

(** [Decimal.__mod__] on finite operands with non-zero divisor: the remainder
    of truncated division (sign of the dividend); InvalidOperation when the
    integer quotient needs more than [prec] digits. *)
Definition dec_mod (a b : decimal) : result decimal :=
  match a, b with
  | DFin na ca ea, DFin nb cb eb =>
      let e := Z.min ea eb in
      let x := Z.of_N ca * pow10 (ea - e) in
      let y := Z.of_N cb * pow10 (eb - e) in
      if y =? 0 then Err DecimalInvalidOperation
      else if pow10 prec <=? x / y then Err DecimalInvalidOperation
      else dec_fix na (x mod y) e
  | _, _ => Err DecimalInvalidOperation
  end.

(** The [while exp < ideal_exp and coeff % 10 == 0] loop of [__truediv__]. *)
Fixpoint strip_zeros (fuel : nat) (c e ideal : Z) : Z * Z :=
  match fuel with
  | O => (c, e)
  | S f => if (e <? ideal) && (c mod 10 =? 0)
           then strip_zeros f (c / 10) (e + 1) ideal else (c, e)
  end.

(** [Decimal.__truediv__] on finite operands with non-zero divisor. *)
Definition dec_div (a b : decimal) : result decimal :=
  match a, b with
  | DFin na ca ea, DFin nb cb eb =>
      let n := xorb na nb in
      if (cb =? 0)%N then Err DecimalInvalidOperation
      else if (ca =? 0)%N then dec_fix n 0 (ea - eb)
      else
        let shift := ndigits (Z.of_N cb) - ndigits (Z.of_N ca) + prec + 1 in
        let e := ea - eb - shift in
        let x := if 0 <=? shift then Z.of_N ca * pow10 shift else Z.of_N ca in
        let y := if 0 <=? shift then Z.of_N cb else Z.of_N cb * pow10 (- shift) in
        let q := x / y in
        if x mod y =? 0
        then let '(q, e) := strip_zeros (Z.to_nat (ea - eb - e)) q e (ea - eb) in dec_fix n q e
        else dec_fix n (if q mod 5 =? 0 then q + 1 else q) e
  | _, _ => Err DecimalInvalidOperation
  end.

(** Exact comparison of finite decimals. *)
Definition dec_cmp (a b : decimal) : comparison :=
  match a, b with
  | DFin na ca ea, DFin nb cb eb =>
      let e := Z.min ea eb in
      Z.compare (dsigned na (Z.of_N ca) * pow10 (ea - e)) (dsigned nb (Z.of_N cb) * pow10 (eb - e))
  | _, _ => Eq
  end.
Definition dec_ltb (a b : decimal) : bool :=
  match dec_cmp a b with Lt => true | _ => false end.

(** [int(d)]: truncation towards zero. *)
Definition dec_int (d : decimal) : Z :=
  match d with
  | DFin n c e =>
      dsigned n (if 0 <=? e then Z.of_N c * pow10 e else Z.of_N c / pow10 (- e))
  | _ => 0
  end.

(** [Decimal(z)] for an int: exact. *)
Definition dec_of_Z (z : Z) : decimal := DFin (z <? 0) (Z.to_N (Z.abs z)) 0.

(** eth_abi/utils/numeric.py:10-11 *)
Definition ZERO : decimal := DFin false 0 0.
(** [TEN**f] and [TEN**-f] for f in 1..80: Decimal power is exact here, with
    exponent 0 and -f respectively. *)
Definition ten_pow (f : Z) : decimal :=
  if f <? 0 then DFin false 1 f else DFin false (Z.to_N (pow10 f)) 0.

(** eth_abi/utils/numeric.py:18-22 *)
Definition compute_unsigned_integer_bounds (num_bits : Z) : Z * Z := (0, 2 ^ num_bits - 1).
(** eth_abi/utils/numeric.py:25-29 *)
Definition compute_signed_integer_bounds (num_bits : Z) : Z * Z :=
  (-1 * 2 ^ (num_bits - 1), 2 ^ (num_bits - 1) - 1).

(** eth_abi/utils/numeric.py:32-41 *)
Definition compute_unsigned_fixed_bounds (num_bits frac_places : Z) : result (decimal * decimal) :=
  let int_upper := snd (compute_unsigned_integer_bounds num_bits) in
  upper <- dec_mul (dec_of_Z int_upper) (ten_pow (- frac_places)) ;;
  Ok (ZERO, upper).

(** eth_abi/utils/numeric.py:44-55 *)
Definition compute_signed_fixed_bounds (num_bits frac_places : Z) : result (decimal * decimal) :=
  let '(int_lower, int_upper) := compute_signed_integer_bounds num_bits in
  let exp := ten_pow (- frac_places) in
  lower <- dec_mul (dec_of_Z int_lower) exp ;;
  upper <- dec_mul (dec_of_Z int_upper) exp ;;
  Ok (lower, upper).

(** eth_abi/utils/numeric.py:58-82: [scale_places(places)(x)] for an int
    [places] (ValueError for a non-int is not modelled: the argument is a Z). *)
Definition scale_places (places : Z) (x : decimal) : result decimal :=
  dec_mul x (ten_pow (- places)).

(** Python comparison [v < d] / [v > d] of a value accepted by is_number with a
    finite Decimal: exact for bool, int, Decimal and Fraction; complex raises
    TypeError.  Floats never get here. *)
Definition num_cmp (v : pyval) (d : decimal) : result comparison :=
  match v with
  | PBool b => Ok (dec_cmp (dec_of_Z (if b then 1 else 0)) d)
  | PInt z => Ok (dec_cmp (dec_of_Z z) d)
  | PDec x => Ok (dec_cmp x d)
  | PFraction n den =>
      match d with
      | DFin nd cd ed =>
          Ok (dec_cmp (dec_of_Z n) (DFin nd (cd * Npos den)%N ed))
      | _ => Err TypeError
      end
  | _ => Err TypeError
  end.

(** Operand conversion for Decimal arithmetic ([_convert_other]): ints, bools
    and Decimals; TypeError otherwise. *)
Definition to_dec (v : pyval) : result decimal :=
  match v with
  | PBool b => Ok (dec_of_Z (if b then 1 else 0))
  | PInt z => Ok (dec_of_Z z)
  | PDec d => Ok d
  | _ => Err TypeError
  end.
