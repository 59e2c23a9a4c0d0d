(** Lemmas about Decimals.v. *)
From Verif Require Import Tac Decimals Spec.
Open Scope Z_scope.
Global Opaque Z.pow.

Lemma pow10_pos k : 0 <= k -> 0 < pow10 k.
Proof. intro. unfold pow10. apply Z.pow_pos_nonneg; lia. Qed.
Lemma pow10_add a b : 0 <= a -> 0 <= b -> pow10 (a + b) = pow10 a * pow10 b.
Proof. intros. unfold pow10. apply Z.pow_add_r; assumption. Qed.
Lemma pow10_0 : pow10 0 = 1. Proof. reflexivity. Qed.
Lemma pow10_1 : pow10 1 = 10. Proof. reflexivity. Qed.
Lemma pow10_le a b : 0 <= a <= b -> pow10 a <= pow10 b.
Proof. intro. unfold pow10. apply Z.pow_le_mono_r; lia. Qed.
Lemma pow10_lt a b : 0 <= a < b -> pow10 a < pow10 b.
Proof. intro. unfold pow10. apply Z.pow_lt_mono_r; lia. Qed.
Lemma pow10_S k : 0 <= k -> pow10 (1 + k) = 10 * pow10 k.
Proof. intro. rewrite pow10_add by lia. rewrite pow10_1. reflexivity. Qed.

Lemma pow2_pos k : 0 <= k -> 0 < 2 ^ k.
Proof. intro. apply Z.pow_pos_nonneg; lia. Qed.

(** ** Digit counts *)
Lemma ndigits_fuel_spec fuel z : 0 < z -> z < 2 ^ (Z.of_nat fuel + 1) ->
  1 <= ndigits_fuel fuel z /\ pow10 (ndigits_fuel fuel z - 1) <= z < pow10 (ndigits_fuel fuel z).
Proof.
  revert z; induction fuel as [|f IH]; intros z Hz Hf; cbn [ndigits_fuel].
  - change (2 ^ (Z.of_nat 0 + 1)) with 2 in Hf. change (1 - 1) with 0.
    rewrite pow10_0, pow10_1. lia.
  - destruct (Z.ltb_spec z 10) as [H|H].
    + change (1 - 1) with 0. rewrite pow10_0, pow10_1. lia.
    + assert (Hq : 0 < z / 10) by lia.
      destruct (IH (z / 10)) as (H1 & H2 & H3); [exact Hq| |].
      { replace (Z.of_nat (S f) + 1) with (1 + (Z.of_nat f + 1)) in Hf by lia.
        rewrite Z.pow_add_r in Hf by lia. change (2 ^ 1) with 2 in Hf. lia. }
      set (n := ndigits_fuel f (z / 10)) in *.
      split; [lia|]. replace (1 + n - 1) with (1 + (n - 1)) by lia.
      rewrite !pow10_S by lia. lia.
Qed.
Lemma ndigits_spec z : 0 < z ->
  1 <= ndigits z /\ pow10 (ndigits z - 1) <= z < pow10 (ndigits z).
Proof.
  intro H. apply ndigits_fuel_spec; [exact H|].
  rewrite Z2Nat.id by apply Z.log2_nonneg.
  pose proof (Z.log2_spec z H) as [_ Hl]. rewrite <- Z.add_1_r in Hl. exact Hl.
Qed.
Lemma ndigits_le z k : 0 < z -> 0 <= k -> z < pow10 k -> ndigits z <= k.
Proof.
  intros Hz Hk H. pose proof (ndigits_spec z Hz) as (H1 & H2 & _).
  destruct (Z.le_gt_cases (ndigits z) k) as [|Hgt]; [assumption|exfalso].
  assert (pow10 k <= pow10 (ndigits z - 1)) by (apply pow10_le; lia). lia.
Qed.
Lemma ndigits_ge z k : 0 < z -> pow10 k <= z -> k < ndigits z.
Proof.
  intros Hz H. pose proof (ndigits_spec z Hz) as (H1 & _ & H3).
  destruct (Z.lt_ge_cases k (ndigits z)) as [|Hge]; [assumption|exfalso].
  assert (pow10 (ndigits z) <= pow10 k) by (apply pow10_le; lia). lia.
Qed.
Lemma ndigits_mul_pow10 z k : 0 < z -> 0 <= k -> ndigits (z * pow10 k) = ndigits z + k.
Proof.
  intros Hz Hk. pose proof (pow10_pos k Hk) as Hp.
  pose proof (ndigits_spec z Hz) as (H1 & H2 & H3).
  apply Z.le_antisymm.
  - apply ndigits_le; [nia|lia|]. rewrite pow10_add by lia. nia.
  - assert (ndigits z - 1 + k < ndigits (z * pow10 k)); [|lia].
    apply ndigits_ge; [nia|]. rewrite pow10_add by lia. nia.
Qed.

Lemma pow2_256_lt_pow10_78 : 2 ^ 256 < pow10 78.
Proof. reflexivity. Qed.

Lemma prec_eq : prec = 999. Proof. reflexivity. Qed.
Lemma Etop_eq : Etop = 999001. Proof. reflexivity. Qed.
Lemma Etiny_eq : Etiny = -1000997. Proof. reflexivity. Qed.
Lemma Emax_eq : Emax = 999999. Proof. reflexivity. Qed.
Global Opaque prec Etop Etiny Emax ndigits pow10.
Ltac ctx := rewrite ?prec_eq, ?Etop_eq, ?Etiny_eq, ?Emax_eq in *.

(** ** Rounding *)

(** A coefficient that fits is returned unchanged. *)
Lemma dec_fix_fits neg c e : 0 < c -> ndigits c <= prec -> Etiny <= e ->
  ndigits c + e - prec <= Etop -> dec_fix neg c e = Ok (DFin neg (Z.to_N c) e).
Proof.
  intros Hc Hn He Ht. unfold dec_fix.
  destruct (Z.eqb_spec c 0); [lia|].
  destruct (Z.ltb_spec Etop (ndigits c + e - prec)); [lia|].
  destruct (Z.ltb_spec e (Z.max (ndigits c + e - prec) Etiny)); [lia|reflexivity].
Qed.
Lemma dec_fix_0 neg e : exists e', dec_fix neg 0 e = Ok (DFin neg 0 e').
Proof. unfold dec_fix. cbn [Z.eqb]. eauto. Qed.

Lemma round_half_even_exact q k : 0 <= k -> round_half_even (q * pow10 k) k = q.
Proof.
  intro Hk. unfold round_half_even. pose proof (pow10_pos k Hk) as Hp.
  rewrite Z.div_mul, Z.mod_mul by lia. cbn [Z.mul].
  destruct (Z.ltb_spec (pow10 k) 0); [lia|].
  destruct (Z.eqb_spec (pow10 k) 0); [lia|]. reflexivity.
Qed.
Lemma round_half_even_bounds c k : 0 <= k -> 0 <= c ->
  c / pow10 k <= round_half_even c k <= c / pow10 k + 1
  /\ 2 * c - pow10 k <= 2 * (round_half_even c k * pow10 k) <= 2 * c + pow10 k.
Proof.
  intros Hk Hc. unfold round_half_even. pose proof (pow10_pos k Hk) as Hp.
  pose proof (Z.div_mod c (pow10 k) ltac:(lia)) as Hd.
  pose proof (Z.mod_pos_bound c (pow10 k) Hp) as Hm.
  set (q := c / pow10 k) in *. set (r := c mod pow10 k) in *.
  assert (0 <= q) by (apply Z.div_pos; lia).
  destruct (Z.ltb_spec (pow10 k) (2 * r)); cbn [orb].
  - nia.
  - destruct (Z.eqb_spec (pow10 k) (2 * r)) as [E|E]; cbn [andb].
    + destruct (Z.odd q); nia.
    + nia.
Qed.
(** Rounding never crosses a multiple of the unit. *)
Lemma round_half_even_le c k u : 0 <= k -> 0 <= c -> c <= u * pow10 k -> round_half_even c k <= u.
Proof.
  intros Hk Hc H. pose proof (pow10_pos k Hk) as Hp.
  unfold round_half_even.
  pose proof (Z.div_mod c (pow10 k) ltac:(lia)) as Hd.
  pose proof (Z.mod_pos_bound c (pow10 k) Hp) as Hm.
  set (q := c / pow10 k) in *. set (r := c mod pow10 k) in *.
  destruct (Z.eq_dec r 0) as [E|E].
  - rewrite E. cbn [Z.mul]. destruct (Z.ltb_spec (pow10 k) 0); [lia|].
    destruct (Z.eqb_spec (pow10 k) 0); [lia|]. cbn [orb andb]. nia.
  - assert (q + 1 <= u) by nia. dm; lia.
Qed.
Lemma round_half_even_nonneg c k : 0 <= k -> 0 <= c -> 0 <= round_half_even c k.
Proof.
  intros Hk Hc. pose proof (round_half_even_bounds c k Hk Hc) as [[H _] _].
  assert (0 <= c / pow10 k) by (apply Z.div_pos; [lia|apply pow10_pos; lia]). lia.
Qed.

(** Value of a non-negative coefficient/exponent pair compared through a common
    exponent: [c * 10^e = c' * 10^e']. *)
Definition same_val (c e c' e' : Z) : Prop :=
  c * pow10 (e - Z.min e e') = c' * pow10 (e' - Z.min e e').

(** ** Comparison *)
Lemma dec_cmp_scaled na ca ea nb cb n :
  dec_cmp (DFin na ca ea) (DFin nb cb (- n)) = scaled_cmp na ca ea n (dsigned nb (Z.of_N cb)).
Proof.
  unfold dec_cmp, scaled_cmp, dsigned.
  destruct (Z.leb_spec 0 (ea + n)).
  - rewrite Z.min_r by lia. replace (- n - - n) with 0 by lia. rewrite pow10_0, Z.mul_1_r.
    replace (ea - - n) with (ea + n) by lia. reflexivity.
  - rewrite Z.min_l by lia. replace (ea - ea) with 0 by lia. rewrite pow10_0, Z.mul_1_r.
    replace (- n - ea) with (- (ea + n)) by lia. reflexivity.
Qed.

(** [num_cmp] against a bound [z * 10^-n], for the numbers Decimal arithmetic
    accepts. *)
Definition num_scaled_cmp (v : pyval) (n z : Z) : option comparison :=
  match v with
  | PBool b => Some (Z.compare ((if b then 1 else 0) * 10 ^ n) z)
  | PInt i => Some (Z.compare (i * 10 ^ n) z)
  | PDec (DFin neg c e) => Some (scaled_cmp neg c e n z)
  | PFraction a d => Some (Z.compare (a * 10 ^ n) (z * Zpos d))
  | _ => None
  end.

Lemma dec_of_Z_scaled i n : 0 <= n ->
  scaled_cmp (i <? 0) (Z.to_N (Z.abs i)) 0 n = Z.compare (i * 10 ^ n).
Proof.
  intro Hn. unfold scaled_cmp. rewrite Z.add_0_l. destruct (Z.leb_spec 0 n); [|lia].
  rewrite Z2N.id by lia.
  replace (if i <? 0 then - Z.abs i else Z.abs i) with i; [reflexivity|].
  destruct (Z.ltb_spec i 0); lia.
Qed.

Lemma num_cmp_scaled v nb cb n : 0 <= n ->
  num_cmp v (DFin nb cb (- n)) =
  match v with
  | PDec (DFin _ _ _) | PBool _ | PInt _ | PFraction _ _ =>
      match num_scaled_cmp v n (dsigned nb (Z.of_N cb)) with Some c => Ok c | None => Err TypeError end
  | PDec _ => Ok Eq
  | _ => Err TypeError
  end.
Proof.
  intro Hn. destruct v as [|b|i| | |a d|d| | | | | | |]; try reflexivity; cbn [num_cmp num_scaled_cmp].
  - unfold dec_of_Z. rewrite dec_cmp_scaled, dec_of_Z_scaled by lia. destruct b; reflexivity.
  - unfold dec_of_Z. rewrite dec_cmp_scaled, dec_of_Z_scaled by lia. reflexivity.
  - unfold dec_of_Z. rewrite dec_cmp_scaled, dec_of_Z_scaled by lia.
    do 2 f_equal. unfold dsigned. destruct nb; lia.
  - destruct d as [neg c e| |]; cbn [dec_cmp]; [|reflexivity|reflexivity].
    change (dec_cmp (DFin neg c e) (DFin nb cb (- n))) with
      (dec_cmp (DFin neg c e) (DFin nb cb (- n))).
    rewrite <- dec_cmp_scaled. reflexivity.
Qed.

Lemma num_scaled_iff v n z : num_scaled v n z ->
  num_scaled_cmp v n z = Some Eq.
Proof.
  destruct v as [|b|i| | |a d|d| | | | | | |]; cbn; try contradiction.
  - intros <-. rewrite Z.compare_refl. reflexivity.
  - intros <-. rewrite Z.compare_refl. reflexivity.
  - destruct d as [neg c e| |]; cbn; try contradiction. intros ->; reflexivity.
Qed.

(** Comparisons against two integers. *)
Lemma scaled_cmp_trans neg c e n z b : scaled_cmp neg c e n z = Eq ->
  scaled_cmp neg c e n b = Z.compare z b.
Proof.
  unfold scaled_cmp. destruct (Z.leb_spec 0 (e + n)); intro E.
  - apply Z.compare_eq in E. rewrite E. reflexivity.
  - apply Z.compare_eq in E. rewrite E.
    assert (0 < 10 ^ (- (e + n))) by (apply Z.pow_pos_nonneg; lia).
    symmetry. apply Zmult_compare_compat_r. lia.
Qed.
Lemma num_scaled_cmp_z v n z b : num_scaled v n z -> num_scaled_cmp v n b = Some (Z.compare z b).
Proof.
  destruct v as [|x|i| | |a d|d| | | | | | |]; cbn; try contradiction.
  - intros <-. reflexivity.
  - intros <-. reflexivity.
  - destruct d as [neg c e| |]; cbn; try contradiction.
    intro E. rewrite (scaled_cmp_trans _ _ _ _ _ b E). reflexivity.
Qed.

(** ** The bounds *)
Lemma pow_2_m_bound m : 0 <= m <= 256 -> 2 ^ m < pow10 78.
Proof.
  intro H. eapply Z.le_lt_trans; [|apply pow2_256_lt_pow10_78]. apply Z.pow_le_mono_r; lia.
Qed.
Lemma dec_mul_bound neg c n : 0 <= c < pow10 78 -> 1 <= n <= 80 ->
  dec_mul (DFin neg (Z.to_N c) 0) (ten_pow (- n)) = Ok (DFin neg (Z.to_N c) (- n)).
Proof.
  intros Hc Hn. unfold ten_pow. destruct (Z.ltb_spec (- n) 0); [|lia].
  unfold dec_mul. rewrite xorb_false_r, Z.add_0_l, Z2N.id, Z.mul_1_r by lia.
  destruct (Z.eq_dec c 0) as [->|Hc0].
  - unfold dec_fix. cbn [Z.eqb]. ctx. do 2 f_equal. lia.
  - assert (ndigits c <= 78) by (apply ndigits_le; lia).
    apply dec_fix_fits; ctx; lia.
Qed.

Lemma unsigned_bounds m n : 8 <= m <= 256 -> 1 <= n <= 80 ->
  compute_unsigned_fixed_bounds m n = Ok (ZERO, DFin false (Z.to_N (2 ^ m - 1)) (- n)).
Proof.
  intros Hm Hn. unfold compute_unsigned_fixed_bounds, compute_unsigned_integer_bounds; cbn [snd].
  assert (0 < 2 ^ m) by (apply pow2_pos; lia).
  unfold dec_of_Z. destruct (Z.ltb_spec (2 ^ m - 1) 0); [lia|].
  rewrite Z.abs_eq by lia. rewrite dec_mul_bound; [reflexivity| |lia].
  pose proof (pow_2_m_bound m). lia.
Qed.
Lemma signed_bounds m n : 8 <= m <= 256 -> 1 <= n <= 80 ->
  compute_signed_fixed_bounds m n =
  Ok (DFin true (Z.to_N (2 ^ (m - 1))) (- n), DFin false (Z.to_N (2 ^ (m - 1) - 1)) (- n)).
Proof.
  intros Hm Hn. unfold compute_signed_fixed_bounds, compute_signed_integer_bounds.
  assert (0 < 2 ^ (m - 1)) by (apply pow2_pos; lia).
  pose proof (pow_2_m_bound (m - 1) ltac:(lia)).
  unfold dec_of_Z. destruct (Z.ltb_spec (-1 * 2 ^ (m - 1)) 0); [|lia].
  destruct (Z.ltb_spec (2 ^ (m - 1) - 1) 0); [lia|].
  replace (Z.abs (-1 * 2 ^ (m - 1))) with (2 ^ (m - 1)) by lia. rewrite Z.abs_eq by lia.
  rewrite dec_mul_bound by lia. rewrite dec_mul_bound by lia. reflexivity.
Qed.

(** ** Remainder *)

(** |d| * 10^n < 10^k *)
Definition below (c e n k : Z) : Prop :=
  if 0 <=? e + n then c * pow10 (e + n) < pow10 k else c < pow10 (k - (e + n)).

(** The truncated integer part of [c * 10^(e+n)] and whether it is exact. *)
Definition whole (c e n : Z) : Z := if 0 <=? e + n then c * pow10 (e + n) else c / pow10 (- (e + n)).
Definition excess (c e n : Z) : Z := if 0 <=? e + n then 0 else c mod pow10 (- (e + n)).

Lemma dec_mod_value neg c e n : 1 <= n <= 80 -> whole (Z.of_N c) e n < pow10 78 ->
  dec_mod (DFin neg c e) (ten_pow (- n)) = dec_fix neg (excess (Z.of_N c) e n) (Z.min e (- n)).
Proof.
  intros Hn Hw. unfold ten_pow. destruct (Z.ltb_spec (- n) 0); [|lia].
  unfold dec_mod. cbn [Z.of_N]. rewrite Z.mul_1_l.
  assert (Hp : pow10 78 < pow10 prec) by (apply pow10_lt; ctx; lia).
  unfold whole, excess in *. destruct (Z.leb_spec 0 (e + n)) as [He|He].
  - rewrite Z.min_r by lia. replace (- n - - n) with 0 by lia. rewrite pow10_0.
    cbn [Z.eqb]. rewrite Z.div_1_r, Z.mod_1_r.
    replace (e - - n) with (e + n) by lia.
    destruct (Z.leb_spec (pow10 prec) (Z.of_N c * pow10 (e + n))); [lia|reflexivity].
  - rewrite Z.min_l by lia. replace (e - e) with 0 by lia. rewrite pow10_0, Z.mul_1_r.
    replace (- n - e) with (- (e + n)) by lia.
    pose proof (pow10_pos (- (e + n)) ltac:(lia)).
    destruct (Z.eqb_spec (pow10 (- (e + n))) 0); [lia|].
    destruct (Z.leb_spec (pow10 prec) (Z.of_N c / pow10 (- (e + n)))); [lia|reflexivity].
Qed.

Lemma dec_ltb_ZERO neg c e : dec_ltb ZERO (DFin neg c e) = negb neg && (0 <? Z.of_N c).
Proof.
  unfold dec_ltb, dec_cmp, ZERO, dsigned. cbn [Z.of_N Z.mul].
  set (k := e - Z.min 0 e). assert (0 < pow10 k) by (apply pow10_pos; lia).
  destruct neg; cbn [negb andb].
  - destruct (Z.compare_spec 0 (- Z.of_N c * pow10 k)); nia || reflexivity.
  - destruct (Z.compare_spec 0 (Z.of_N c * pow10 k)), (Z.ltb_spec 0 (Z.of_N c)); try reflexivity; nia.
Qed.
Lemma dec_ltb_lt_ZERO neg c e : dec_ltb (DFin neg c e) ZERO = neg && (0 <? Z.of_N c).
Proof.
  unfold dec_ltb, dec_cmp, ZERO, dsigned. cbn [Z.of_N Z.mul].
  set (k := e - Z.min e 0). assert (0 < pow10 k) by (apply pow10_pos; lia).
  destruct neg; cbn [negb andb].
  - destruct (Z.compare_spec (- Z.of_N c * pow10 k) 0), (Z.ltb_spec 0 (Z.of_N c)); try reflexivity; nia.
  - destruct (Z.compare_spec (Z.of_N c * pow10 k) 0); nia || reflexivity.
Qed.

(** Whether a non-zero residue r * 10^e (below 10^-n) survives rounding. *)
Definition underflows (r e : Z) : Prop := e < Etiny /\ 2 * r <= pow10 (Etiny - e).

Lemma dec_fix_residue neg r e n : 1 <= n <= 80 -> 0 <= r < pow10 (- (e + n)) -> e + n < 0 ->
  exists q e', dec_fix neg r e = Ok (DFin neg q e') /\ (q = 0%N <-> r = 0 \/ underflows r e).
Proof.
  intros Hn Hr He. destruct (Z.eq_dec r 0) as [->|Hr0].
  - destruct (dec_fix_0 neg e) as [e' H]. exists 0%N, e'. split; [exact H|]. split; auto.
  - assert (Hnd : ndigits r <= - (e + n)) by (apply ndigits_le; lia).
    pose proof (ndigits_spec r ltac:(lia)) as (Hn1 & Hlo & Hhi).
    unfold dec_fix. destruct (Z.eqb_spec r 0); [lia|].
    destruct (Z.ltb_spec Etop (ndigits r + e - prec)); [ctx; lia|].
    destruct (Z.ltb_spec e (Z.max (ndigits r + e - prec) Etiny)) as [Hlt|Hge].
    + set (em := Z.max (ndigits r + e - prec) Etiny) in *.
      assert (Hemd : em = Z.max (ndigits r + e - prec) Etiny) by reflexivity. clearbody em.
      pose proof (round_half_even_nonneg r (em - e) ltac:(lia) ltac:(lia)) as Hq0.
      destruct (Z.eqb_spec (round_half_even r (em - e)) (pow10 prec)) as [Hq|Hq].
      * destruct (Z.ltb_spec Etop (em + 1)); [ctx; lia|].
        exists (Z.to_N (pow10 (prec - 1))), (em + 1). split; [reflexivity|].
        pose proof (pow10_pos (prec - 1) ltac:(ctx; lia)). split; [lia|].
        intros [|[Hu1 Hu2]]; [lia|]. exfalso.
        assert (Hem : em = Etiny \/ em = ndigits r + e - prec /\ Etiny < em) by lia.
        destruct Hem as [Hem|[Hem Hem']].
        -- pose proof (round_half_even_bounds r (em - e) ltac:(lia) ltac:(lia)) as [_ [_ Hb]].
           rewrite Hem in Hb, Hq. rewrite Hq in Hb.
           pose proof (pow10_pos (Etiny - e) ltac:(lia)).
           assert (1 < pow10 prec) by (rewrite <- pow10_0; apply pow10_lt; ctx; lia). nia.
        -- assert (Hx : pow10 (Etiny - e + 1) <= r).
           { etransitivity; [|exact Hlo]. apply pow10_le. ctx; lia. }
           rewrite Z.add_comm, pow10_S in Hx by lia. pose proof (pow10_pos (Etiny - e) ltac:(lia)). lia.
      * destruct (Z.ltb_spec Etop em); [ctx; lia|].
        exists (Z.to_N (round_half_even r (em - e))), em. split; [reflexivity|].
        assert (Hem : em = Etiny \/ em = ndigits r + e - prec /\ Etiny < em) by lia.
        destruct Hem as [Hem|[Hem Hem']].
        -- rewrite Hem in *. unfold underflows.
           pose proof (pow10_pos (Etiny - e) ltac:(lia)) as Hp.
           unfold round_half_even in *.
           pose proof (Z.div_mod r (pow10 (Etiny - e)) ltac:(lia)) as Hd.
           pose proof (Z.mod_pos_bound r (pow10 (Etiny - e)) Hp) as Hm.
           set (q := r / pow10 (Etiny - e)) in *. set (s := r mod pow10 (Etiny - e)) in *.
           assert (0 <= q) by (apply Z.div_pos; lia).
           split.
           ++ intro Hz. right. split; [lia|].
              destruct (Z.ltb_spec (pow10 (Etiny - e)) (2 * s)); cbn [orb] in *; [lia|].
              destruct (Z.eqb_spec (pow10 (Etiny - e)) (2 * s)); cbn [andb] in *.
              ** destruct (Z.odd q) eqn:Ho; [lia|]. assert (q = 0) by lia. nia.
              ** assert (q = 0) by lia. nia.
           ++ intros [|[_ Hu]]; [lia|].
              assert (q = 0) by nia.
              destruct (Z.ltb_spec (pow10 (Etiny - e)) (2 * s)); cbn [orb] in *; [nia|].
              replace q with 0 by lia. cbn [Z.odd]. rewrite andb_false_r. reflexivity.
        -- assert (Hpos : pow10 (prec - 1) <= round_half_even r (em - e)).
           { pose proof (round_half_even_bounds r (em - e) ltac:(lia) ltac:(lia)) as [[Hb _] _].
             etransitivity; [|exact Hb]. apply Z.div_le_lower_bound; [apply pow10_pos; lia|].
             rewrite <- pow10_add by (ctx; lia). etransitivity; [|exact Hlo].
             apply pow10_le. ctx; lia. }
           pose proof (pow10_pos (prec - 1) ltac:(ctx; lia)). split; [lia|].
           intros [|[Hu1 Hu2]]; [lia|]. exfalso.
           assert (Hx : pow10 (Etiny - e + 1) <= r).
           { etransitivity; [|exact Hlo]. apply pow10_le. ctx; lia. }
           rewrite Z.add_comm, pow10_S in Hx by lia. pose proof (pow10_pos (Etiny - e) ltac:(lia)). lia.
    + exists (Z.to_N r), e. split; [reflexivity|]. split; [lia|]. intros [|[Hu _]]; lia.
Qed.

(** ** Scaling *)
Lemma dec_int_DFin neg c e : dec_int (DFin neg c e) = dsigned neg (whole (Z.of_N c) e 0).
Proof.
  unfold dec_int, whole. rewrite Z.add_0_r.
  destruct (Z.leb_spec 0 e); reflexivity.
Qed.

Lemma whole_le c e n u : 0 <= c ->
  c * pow10 (Z.max 0 (e + n)) <= u * pow10 (Z.max 0 (- (e + n))) -> whole c e n <= u.
Proof.
  intros Hc H. unfold whole. destruct (Z.leb_spec 0 (e + n)).
  - rewrite Z.max_r in H by lia. rewrite Z.max_l, pow10_0, Z.mul_1_r in H by lia. exact H.
  - rewrite Z.max_l, pow10_0, Z.mul_1_r in H by lia. rewrite Z.max_r in H by lia.
    rewrite <- (Z.div_mul u (pow10 (- (e + n)))) by (pose proof (pow10_pos (- (e + n))); lia).
    apply Z.div_le_mono; [apply pow10_pos; lia|exact H].
Qed.
Lemma whole_nonneg c e n : 0 <= c -> 0 <= whole c e n.
Proof.
  intro Hc. unfold whole. destruct (Z.leb_spec 0 (e + n)).
  - pose proof (pow10_pos (e + n) ltac:(lia)). nia.
  - apply Z.div_pos; [lia|apply pow10_pos; lia].
Qed.
Lemma whole_excess c e n : 0 <= c ->
  c * pow10 (Z.max 0 (e + n)) = whole c e n * pow10 (Z.max 0 (- (e + n))) + excess c e n
  /\ 0 <= excess c e n < pow10 (Z.max 0 (- (e + n))).
Proof.
  intro Hc. unfold whole, excess. destruct (Z.leb_spec 0 (e + n)).
  - rewrite (Z.max_r 0 (e + n)), (Z.max_l 0 (- (e + n))), pow10_0 by lia. lia.
  - rewrite (Z.max_l 0 (e + n)), (Z.max_r 0 (- (e + n))), pow10_0 by lia.
    pose proof (pow10_pos (- (e + n)) ltac:(lia)) as Hp.
    pose proof (Z.div_mod c (pow10 (- (e + n))) ltac:(lia)).
    pose proof (Z.mod_pos_bound c (pow10 (- (e + n))) Hp). lia.
Qed.

(** The scaled integer of a value whose scaled absolute value is below 10^78:
    the truncated value, or its rounding up to an integer not above any integer
    bound of the value. *)
Lemma scaled_mul neg c e n : 1 <= n <= 80 -> whole (Z.of_N c) e n < pow10 78 ->
  exists i, (d <- dec_mul (DFin neg c e) (ten_pow n) ;; Ok (dec_int d)) = Ok (dsigned neg i)
    /\ whole (Z.of_N c) e n <= i
    /\ (forall u, 0 <= u ->
          Z.of_N c * pow10 (Z.max 0 (e + n)) <= u * pow10 (Z.max 0 (- (e + n))) -> i <= u).
Proof.
  intros Hn Hw. set (w := whole (Z.of_N c) e n) in *.
  unfold ten_pow. destruct (Z.ltb_spec n 0); [lia|].
  unfold dec_mul. rewrite xorb_false_r, Z.add_0_r.
  pose proof (pow10_pos n ltac:(lia)) as Hpn. rewrite Z2N.id by lia.
  destruct (N.eq_dec c 0) as [->|Hc].
  - cbn [Z.of_N Z.mul]. destruct (dec_fix_0 neg e) as [e' ->]. cbn [bind].
    rewrite dec_int_DFin. exists 0. cbn [Z.of_N].
    assert (whole 0 e' 0 = 0) as ->.
    { unfold whole. destruct (0 <=? e' + 0) eqn:?; [reflexivity|].
      apply Z.div_0_l. pose proof (pow10_pos (- (e' + 0))); lia. }
    split; [reflexivity|]. split; [|auto].
    unfold w, whole. cbn [Z.of_N]. destruct (Z.leb_spec 0 (e + n)); [reflexivity|].
    rewrite Z.div_0_l; [lia|]. pose proof (pow10_pos (- (e + n))); lia.
  - assert (Hcp : 0 < Z.of_N c) by lia.
    assert (Hnd : ndigits (Z.of_N c) + e + n <= 78).
    { unfold w, whole in Hw. destruct (Z.leb_spec 0 (e + n)).
      - rewrite <- Z.add_assoc, <- ndigits_mul_pow10 by lia. apply ndigits_le; [|lia|lia].
        pose proof (pow10_pos (e + n) ltac:(lia)). nia.
      - assert (ndigits (Z.of_N c) <= 78 - (e + n)); [|lia].
        apply ndigits_le; [lia|lia|].
        replace (78 - (e + n)) with (78 + - (e + n)) by lia. rewrite pow10_add by lia.
        pose proof (pow10_pos (- (e + n)) ltac:(lia)) as Hp.
        pose proof (Z.div_mod (Z.of_N c) (pow10 (- (e + n))) ltac:(lia)).
        pose proof (Z.mod_pos_bound (Z.of_N c) (pow10 (- (e + n))) Hp). nia. }
    set (C := Z.of_N c * pow10 n) in *.
    assert (HC : 0 < C) by (unfold C; nia).
    assert (HndC : ndigits C = ndigits (Z.of_N c) + n) by (apply ndigits_mul_pow10; lia).
    unfold dec_fix. destruct (Z.eqb_spec C 0); [lia|].
    destruct (Z.ltb_spec Etop (ndigits C + e - prec)); [ctx; lia|].
    destruct (Z.ltb_spec e (Z.max (ndigits C + e - prec) Etiny)) as [Hlt|Hge].
    + set (em := Z.max (ndigits C + e - prec) Etiny) in *.
      assert (Hem : em <= -900) by (unfold em; ctx; lia).
      assert (Hemt : em + 1 <= Etop) by (ctx; lia).
      clearbody em.
      set (q := round_half_even C (em - e)) in *.
      assert (Hq : 0 <= q) by (apply round_half_even_nonneg; lia).
      assert (Hfix : exists q' em',
        (let '(q0, exp_min) := if q =? pow10 prec then (pow10 (prec - 1), em + 1) else (q, em) in
         if Etop <? exp_min then Err DecimalOverflow else Ok (DFin neg (Z.to_N q0) exp_min))
        = Ok (DFin neg (Z.to_N q') em') /\ 0 <= q' /\ em' < 0 /\ q' / pow10 (- em') = q / pow10 (- em)).
      { destruct (Z.eqb_spec q (pow10 prec)) as [E|E].
        - destruct (Z.ltb_spec Etop (em + 1)); [lia|].
          exists (pow10 (prec - 1)), (em + 1). split; [reflexivity|].
          pose proof (pow10_pos (prec - 1) ltac:(ctx; lia)).
          split; [lia|]. split; [lia|]. rewrite E.
          replace prec with (1 + (prec - 1)) at 2 by lia.
          replace (- em) with (1 + - (em + 1)) by lia.
          rewrite !pow10_S by (ctx; lia). symmetry. apply Z.div_mul_cancel_l; [|lia].
          pose proof (pow10_pos (- (em + 1))); lia.
        - destruct (Z.ltb_spec Etop em); [lia|].
          exists q, em. auto with zarith. }
      destruct Hfix as (q' & em' & -> & Hq' & Hem' & Hdiv). cbn [bind].
      exists (q / pow10 (- em)).
      assert (Hen : e + n < 0) by lia.
      split; [|split].
      * rewrite dec_int_DFin, Z2N.id by lia. unfold whole. rewrite Z.add_0_r.
        destruct (Z.leb_spec 0 em'); [lia|]. rewrite Hdiv. reflexivity.
      * unfold w, whole. destruct (Z.leb_spec 0 (e + n)); [lia|].
        pose proof (round_half_even_bounds C (em - e) ltac:(lia) ltac:(lia)) as [[Hb _] _].
        fold q in Hb.
        assert (Hmono : C / pow10 (em - e) / pow10 (- em) <= q / pow10 (- em)).
        { apply Z.div_le_mono; [apply pow10_pos; lia|exact Hb]. }
        rewrite Z.div_div in Hmono by (pose proof (pow10_pos (em - e)); pose proof (pow10_pos (- em)); lia).
        rewrite <- pow10_add in Hmono by lia. replace (em - e + - em) with (n + - (e + n)) in Hmono by lia.
        rewrite pow10_add in Hmono by lia. unfold C in Hmono.
        rewrite (Z.mul_comm (pow10 n)) in Hmono.
        rewrite Z.div_mul_cancel_r in Hmono by (pose proof (pow10_pos (- (e + n))); lia).
        exact Hmono.
      * intros u Hu Hle. rewrite Z.max_l, pow10_0, Z.mul_1_r in Hle by lia.
        rewrite Z.max_r in Hle by lia.
        assert (Hqu : q <= u * pow10 (- em)).
        { apply round_half_even_le; [lia|lia|].
          rewrite <- Z.mul_assoc, <- pow10_add by lia.
          replace (- em + (em - e)) with (- (e + n) + n) by lia.
          rewrite pow10_add by lia. unfold C. nia. }
        rewrite <- (Z.div_mul u (pow10 (- em))) by (pose proof (pow10_pos (- em)); lia).
        apply Z.div_le_mono; [apply pow10_pos; lia|exact Hqu].
    + cbn [bind]. exists w.
      split; [|split; [lia|intros u Hu Hle; apply whole_le; lia]].
      rewrite dec_int_DFin, Z2N.id by lia. do 2 f_equal.
      unfold w, whole, C. rewrite Z.add_0_r.
      destruct (Z.leb_spec 0 e), (Z.leb_spec 0 (e + n)); try lia.
      * rewrite pow10_add by lia. ring.
      * replace (Z.of_N c * pow10 n) with (Z.of_N c * pow10 (e + n) * pow10 (- e)).
        -- apply Z.div_mul. pose proof (pow10_pos (- e)); lia.
        -- rewrite <- Z.mul_assoc, <- pow10_add by lia. do 2 f_equal. lia.
      * replace (- e) with (- (e + n) + n) by lia. rewrite pow10_add by lia.
        apply Z.div_mul_cancel_r; [pose proof (pow10_pos (- (e + n)))|]; lia.
Qed.

(** ** Division by 10^n: what the decoder does *)
Lemma strip_zeros_spec fuel c e ideal c' e' : 0 < c -> e <= ideal ->
  (Z.to_nat (ideal - e) <= fuel)%nat ->
  strip_zeros fuel c e ideal = (c', e') ->
  0 < c' /\ e <= e' <= ideal /\ c = c' * pow10 (e' - e) /\ (e' = ideal \/ c' mod 10 <> 0).
Proof.
  revert c e; induction fuel as [|f IH]; intros c e Hc He Hf H; cbn [strip_zeros] in H.
  - inv H. replace (e' - e') with 0 by lia. rewrite pow10_0. lia.
  - destruct (Z.ltb_spec e ideal); cbn [andb] in H.
    + destruct (Z.eqb_spec (c mod 10) 0) as [E|E].
      * apply IH in H; [|lia|lia|lia]. destruct H as (H1 & H2 & H3 & H4).
        split; [exact H1|]. split; [lia|]. split; [|exact H4].
        replace (e' - e) with (1 + (e' - (e + 1))) by lia. rewrite pow10_S by lia. lia.
      * inv H. replace (e' - e') with 0 by lia. rewrite pow10_0. lia.
    + inv H. replace (e' - e') with 0 by lia. rewrite pow10_0. lia.
Qed.

Lemma dec_div_exact z n : 1 <= n <= 80 -> Z.abs z < pow10 78 ->
  exists d, dec_div (dec_of_Z z) (ten_pow n) = Ok d /\ scaled d n z
    /\ match d with DFin neg c _ => neg = (z <? 0) /\ (c = 0%N <-> z = 0) | _ => False end.
Proof.
  intros Hn Hz. unfold dec_of_Z, ten_pow. destruct (Z.ltb_spec n 0); [lia|].
  pose proof (pow10_pos n ltac:(lia)) as Hpn.
  unfold dec_div. destruct (N.eqb_spec (Z.to_N (pow10 n)) 0); [lia|].
  destruct (N.eqb_spec (Z.to_N (Z.abs z)) 0) as [E|E].
  - assert (z = 0) as -> by lia. exists (DFin false 0 0).
    split; [unfold dec_fix; cbn [Z.eqb]; ctx; reflexivity|].
    split; [|cbn; lia]. unfold scaled, scaled_cmp. cbn [Z.of_N].
    destruct (Z.leb_spec 0 (0 + n)); [reflexivity|lia].
  - rewrite !Z2N.id by lia. rewrite xorb_false_r.
    assert (Hz0 : 0 < Z.abs z) by lia.
    assert (Hd : ndigits (Z.abs z) <= 78) by (apply ndigits_le; lia).
    pose proof (ndigits_spec (Z.abs z) Hz0) as (Hd1 & _).
    assert (Hn10 : ndigits (pow10 n) = 1 + n).
    { rewrite <- (Z.mul_1_l (pow10 n)), ndigits_mul_pow10 by lia. reflexivity. }
    rewrite Hn10.
    set (shift := 1 + n - ndigits (Z.abs z) + prec + 1).
    assert (Hs : n < shift) by (unfold shift; ctx; lia).
    destruct (Z.leb_spec 0 shift); [|lia].
    replace (Z.abs z * pow10 shift) with (Z.abs z * pow10 (shift - n) * pow10 n)
      by (rewrite <- Z.mul_assoc, <- pow10_add by lia; do 2 f_equal; lia).
    rewrite Z.mod_mul, Z.div_mul by lia. cbn [Z.eqb].
    destruct (strip_zeros _ _ _ _) as [c' e'] eqn:Es.
    pose proof (pow10_pos (shift - n) ltac:(lia)) as Hps.
    apply strip_zeros_spec in Es; [|nia|lia|lia].
    destruct Es as (Hc' & He' & Hval & Hend).
    replace (0 - 0) with 0 in * by lia. replace (0 - shift) with (- shift) in * by lia.
    assert (Hle : c' <= Z.abs z /\ - n <= e').
    { destruct (Z.le_gt_cases (- n) e') as [Hge|Hlt].
      - split; [|exact Hge]. assert (pow10 (shift - n) <= pow10 (e' - - shift)) by (apply pow10_le; lia). nia.
      - exfalso. destruct Hend as [->|Hend]; [lia|]. apply Hend.
        assert (Heq : c' = Z.abs z * pow10 (- n - e')).
        { assert (Hx : shift - n = (- n - e') + (e' - - shift)) by lia.
          rewrite Hx, pow10_add in Hval by lia.
          pose proof (pow10_pos (e' - - shift) ltac:(lia)). nia. }
        rewrite Heq. replace (- n - e') with (1 + (- n - e' - 1)) by lia.
        rewrite pow10_S by lia. rewrite (Z.mul_comm 10), Z.mul_assoc. apply Z.mod_mul. lia. }
    destruct Hle as [Hle Hge].
    assert (Hnd : ndigits c' <= 78) by (apply ndigits_le; lia).
    rewrite dec_fix_fits by (ctx; lia).
    eexists; split; [reflexivity|]. split.
    + unfold scaled, scaled_cmp. rewrite Z2N.id by lia. destruct (Z.leb_spec 0 (e' + n)); [|lia].
      assert (Habs : c' * pow10 (e' + n) = Z.abs z).
      { replace (e' - - shift) with ((e' + n) + (shift - n)) in Hval by lia.
        rewrite pow10_add in Hval by lia. nia. }
      change (10 ^ (e' + n)) with (pow10 (e' + n)).
      apply Z.compare_eq_iff. destruct (Z.ltb_spec z 0); lia.
    + split; [reflexivity|]. lia.
Qed.
