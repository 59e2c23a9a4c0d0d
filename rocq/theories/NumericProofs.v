(** eth_abi/utils/numeric.py: exactness. *)
From Verif Require Import Tac Bytes BytesProofs Decimals Spec DecimalsProofs NumericSpec.
Open Scope Z_scope.

Lemma ceil32_all x : ceil32 x mod 32 = 0 /\ x <= ceil32 x /\ (forall y, y mod 32 = 0 -> x <= y -> ceil32 x <= y).
Proof.
  unfold ceil32. pose proof (Z.mod_pos_bound x 32 ltac:(lia)). destruct (Z.eqb_spec (x mod 32) 0).
  - repeat split; lia.
  - split; [lia|]. split; [lia|]. intros y Hy L. lia.
Qed.

Lemma pow10_def k : 10 ^ k = pow10 k. Proof. Local Transparent pow10. reflexivity. Qed.
Local Opaque pow10.
Ltac p10 := repeat match goal with |- context [10 ^ ?k] => rewrite (pow10_def k) | H : context [10 ^ ?k] |- _ => rewrite (pow10_def k) in H end.

Lemma dec_fix_exact neg c e c' e' : 0 < c -> 0 < c' ->
  c * pow10 (e - Z.min e e') = c' * pow10 (e' - Z.min e e') -> ndigits c' <= prec -> Etiny <= e' -> ndigits c' + e' - prec <= Etop ->
  exists q r, dec_fix neg c e = Ok (DFin neg (Z.to_N q) r) /\ 0 < q /\ q * pow10 (r - Z.min e r) = c * pow10 (e - Z.min e r).
Proof.
  intros Hc Hc' V D T P.
  assert (Nd : ndigits c + e = ndigits c' + e').
  { pose proof (ndigits_mul_pow10 c (e - Z.min e e') Hc ltac:(lia)) as A. rewrite V, ndigits_mul_pow10 in A by lia. lia. }
  unfold dec_fix. destruct (Z.eqb_spec c 0); [lia|]. destruct (Z.ltb_spec Etop (ndigits c + e - prec)); [lia|].
  set (x := Z.max (ndigits c + e - prec) Etiny). assert (X : x <= e') by lia. destruct (Z.ltb_spec e x) as [L|L].
  - assert (M : Z.min e e' = e) by lia. rewrite M, Z.sub_diag, pow10_0, Z.mul_1_r in V.
    assert (Q : c = (c' * pow10 (e' - x)) * pow10 (x - e)) by (rewrite <- Z.mul_assoc, <- pow10_add by lia; replace (e' - x + (x - e)) with (e' - e) by lia; exact V).
    rewrite Q, round_half_even_exact by lia. set (q := c' * pow10 (e' - x)). assert (Hq : 0 < q) by (pose proof (pow10_pos (e' - x) ltac:(lia)); unfold q; nia).
    assert (Dq : ndigits q <= prec) by (unfold q; rewrite ndigits_mul_pow10 by lia; lia).
    assert (Lq : q < pow10 prec).
    { pose proof (ndigits_spec q Hq) as (_ & _ & B). eapply Z.lt_le_trans; [exact B|]. apply pow10_le. pose proof (ndigits_spec q Hq). lia. }
    destruct (Z.eqb_spec q (pow10 prec)); [lia|]. destruct (Z.ltb_spec Etop x); [unfold x in *; ctx; lia|].
    exists q, x. split; [reflexivity|]. split; [exact Hq|]. replace (Z.min e x) with e by lia. rewrite Z.sub_diag, pow10_0, Z.mul_1_r. reflexivity.
  - exists c, e. split; [reflexivity|]. split; [exact Hc|]. reflexivity.
Qed.
Lemma dec_fix_in_context neg c e d : 0 <= c -> dec_fix neg c e = Ok d -> in_context d.
Proof.
  intros Hc H. unfold dec_fix in H. destruct (Z.eqb_spec c 0); [inv H; left; reflexivity|].
  assert (Hc1 : 0 < c) by lia. pose proof (ndigits_spec c Hc1) as (N1 & N2 & N3).
  destruct (Z.ltb_spec Etop (ndigits c + e - prec)); [discriminate|]. set (x := Z.max (ndigits c + e - prec) Etiny) in H.
  assert (Hx1 : ndigits c + e - prec <= x) by lia. assert (Hx2 : Etiny <= x) by lia. clearbody x.
  assert (Fin : forall q r, 0 <= q -> q < pow10 prec -> Etiny <= r -> r <= Etop -> in_context (DFin neg (Z.to_N q) r)).
  { intros q r Q1 Q2 R1 R2. right. rewrite Z2N.id by lia. p10. ctx. split; [exact Q2|]. split; [exact R1|].
    eapply Z.lt_le_trans; [exact Q2|]. apply pow10_le. lia. }
  destruct (Z.ltb_spec e x) as [L|L].
  - pose proof (round_half_even_nonneg c (x - e) ltac:(lia) ltac:(lia)) as Rn.
    assert (Ru : round_half_even c (x - e) <= pow10 prec).
    { apply round_half_even_le; [lia|lia|]. pose proof prec_eq. rewrite <- pow10_add by lia. pose proof (pow10_le (ndigits c) (prec + (x - e)) ltac:(lia)). lia. }
    destruct (Z.eqb_spec (round_half_even c (x - e)) (pow10 prec)).
    + destruct (Z.ltb_spec Etop (x + 1)); inv H. apply Fin; [pose proof (pow10_pos (prec - 1) ltac:(ctx; lia)); lia|apply pow10_lt; ctx; lia|lia|lia].
    + destruct (Z.ltb_spec Etop x); inv H. apply Fin; lia.
  - inv H. right. rewrite Z2N.id by lia. p10. ctx. split; [|split].
    + eapply Z.lt_le_trans; [exact N3|]. apply pow10_le. lia.
    + lia.
    + eapply Z.lt_le_trans; [exact N3|]. apply pow10_le. lia.
Qed.

(** ** scale_places *)
Lemma mul_ten_pow neg c e p : exists cp ep, ten_pow (- p) = DFin false (Z.to_N cp) ep /\ 0 < cp /\ ep <= 0
  /\ dec_mul (DFin neg c e) (ten_pow (- p)) = dec_fix neg (Z.of_N c * cp) (e + ep)
  /\ ((0 < p /\ cp = 1 /\ ep = - p) \/ (p <= 0 /\ cp = pow10 (- p) /\ ep = 0)).
Proof.
  unfold ten_pow. destruct (Z.ltb_spec (- p) 0).
  - exists 1, (- p). split; [reflexivity|]. split; [lia|]. split; [lia|]. split; [cbn [dec_mul]; rewrite xorb_false_r; reflexivity|left; lia].
  - pose proof (pow10_pos (- p) ltac:(lia)). exists (pow10 (- p)), 0. split; [reflexivity|]. split; [lia|]. split; [lia|].
    split; [cbn [dec_mul]; rewrite xorb_false_r, Z2N.id by lia; reflexivity|right; lia].
Qed.
Theorem scale_places_exact p x : (exists y, in_context y /\ times_ten x (- p) y) <->
  (exists d, scale_places p x = Ok d /\ times_ten x (- p) d).
Proof.
  unfold scale_places. destruct x as [neg c e| |]; [|split; [intros (y & _ & [])|intros (d & _ & [])]..].
  destruct (mul_ten_pow neg c e p) as (cp & ep & _ & Hcp & Hep & -> & K). split.
  - intros ([ny cy ey| |] & Cx & V); try contradiction. cbn [times_ten] in V. cbv zeta in V. p10.
    destruct (N.eq_dec c 0) as [->|Nz].
    + cbn [Z.of_N Z.mul]. destruct (dec_fix_0 neg (e + ep)) as [e' ->]. eexists. split; [reflexivity|]. cbn. destruct neg; reflexivity.
    + assert (Hc : 0 < Z.of_N c) by lia. set (m := Z.min (e + - p) ey) in *.
      pose proof (pow10_pos (e + - p - m) ltac:(lia)) as P1. pose proof (pow10_pos (ey - m) ltac:(lia)) as P2.
      assert (E : ny = neg /\ Z.of_N c * pow10 (e + - p - m) = Z.of_N cy * pow10 (ey - m)) by (destruct neg, ny; [split; [reflexivity|nia]|exfalso; nia|exfalso; nia|split; [reflexivity|nia]]).
      destruct E as [-> E]. assert (Hy : 0 < Z.of_N cy) by nia. destruct Cx as [->|(A & B & D)]; [cbn in Hy; lia|].
      p10. assert (L : ey <= 1000000).
      { destruct (Z.le_gt_cases ey 1000000); [assumption|]. exfalso. rewrite <- pow10_def, Z.pow_neg_r in D by lia. lia. }
      assert (V' : Z.of_N c * cp * pow10 (e + ep - Z.min (e + ep) ey) = Z.of_N cy * pow10 (ey - Z.min (e + ep) ey)).
      { destruct K as [(K1 & -> & ->)|(K1 & -> & ->)]; [rewrite Z.mul_1_r; exact E|].
        (* e + ep = e <= e - p *)
        destruct (Z.le_gt_cases (e + - p) ey) as [Q|Q].
        - rewrite !Z.min_l by lia. unfold m in E. rewrite Z.min_l in E by lia. rewrite Z.sub_diag, pow10_0 in *. rewrite Z.mul_1_r in *.
          replace (e + 0) with e by lia. replace (ey - e) with (ey - (e + - p) + - p) by lia. rewrite pow10_add by lia. rewrite E. ring.
        - unfold m in E. rewrite Z.min_r in E by lia. rewrite Z.sub_diag, pow10_0, Z.mul_1_r in E. rewrite <- E.
          rewrite <- !Z.mul_assoc, <- !pow10_add by lia. do 2 f_equal. lia. }
      destruct (dec_fix_exact neg (Z.of_N c * cp) (e + ep) (Z.of_N cy) ey ltac:(nia) Hy V') as (q & r & -> & Hq & Vq).
      * apply ndigits_le; [exact Hy|ctx; lia|ctx; exact A].
      * ctx. exact B.
      * pose proof (ndigits_le (Z.of_N cy) (1000000 - ey) Hy ltac:(lia) D). ctx. lia.
      * eexists. split; [reflexivity|]. cbn [times_ten]. rewrite Z2N.id by lia. p10.
        assert (W : Z.of_N c * pow10 (e + - p - Z.min (e + - p) r) = q * pow10 (r - Z.min (e + - p) r)); [|destruct neg; lia].
        destruct K as [(K1 & -> & ->)|(K1 & -> & ->)]; [rewrite Z.mul_1_r in Vq; symmetry; exact Vq|]. rewrite Z.add_0_r in Vq.
        destruct (Z.le_gt_cases (e + - p) r) as [Q|Q].
        -- rewrite !(Z.min_l (e + - p)) by lia. rewrite (Z.min_l e) in Vq by lia. rewrite Z.sub_diag, pow10_0, Z.mul_1_r in *.
           replace (r - e) with (r - (e + - p) + - p) in Vq by lia. rewrite pow10_add in Vq by lia. pose proof (pow10_pos (- p) ltac:(lia)). nia.
        -- rewrite (Z.min_r (e + - p)) by lia. rewrite Z.sub_diag, pow10_0, Z.mul_1_r. destruct (Z.le_gt_cases e r) as [Q'|Q'].
           ++ rewrite (Z.min_l e) in Vq by lia. rewrite Z.sub_diag, pow10_0, Z.mul_1_r in Vq. 
              replace (- p) with ((e + - p - r) + (r - e)) in Vq by lia. rewrite pow10_add in Vq by lia. pose proof (pow10_pos (r - e) ltac:(lia)). nia.
           ++ rewrite (Z.min_r e) in Vq by lia. rewrite Z.sub_diag, pow10_0, Z.mul_1_r in Vq. rewrite Vq, <- Z.mul_assoc, <- pow10_add by lia. do 2 f_equal. lia.
  - intros (d & H & V). exists d. split; [|exact V]. eapply dec_fix_in_context; [|exact H]. nia.
Qed.

(** ** Bounds *)
Lemma dec_mul_bound0 neg c n : 0 <= c < pow10 78 -> 0 <= n <= 80 ->
  dec_mul (DFin neg (Z.to_N c) 0) (ten_pow (- n)) = Ok (DFin neg (Z.to_N c) (- n)).
Proof.
  intros Hc Hn. destruct (Z.eq_dec n 0) as [->|]; [|apply dec_mul_bound; lia].
  change (ten_pow (- 0)) with (DFin false (Z.to_N (pow10 0)) 0). rewrite pow10_0. cbn [dec_mul]. rewrite xorb_false_r, Z2N.id by lia. change (Z.of_N (Z.to_N 1)) with 1. rewrite Z.mul_1_r.
  change (0 + 0) with 0. change (- 0) with 0. destruct (Z.eq_dec c 0) as [->|Hc0].
  - unfold dec_fix. cbn [Z.eqb]. ctx. reflexivity.
  - assert (ndigits c <= 78) by (apply ndigits_le; lia). apply dec_fix_fits; ctx; lia.
Qed.
(** The bounds, as the integers they scale to. *)
Theorem unsigned_fixed_exact m n : 1 <= m <= 256 -> 0 <= n <= 80 ->
  exists lo hi, compute_unsigned_fixed_bounds m n = Ok (lo, hi) /\ scaled lo n 0 /\ scaled hi n (2 ^ m - 1).
Proof.
  intros Hm Hn. unfold compute_unsigned_fixed_bounds, compute_unsigned_integer_bounds. cbn [snd].
  assert (0 < 2 ^ m) by (apply pow2_pos; lia). pose proof (pow_2_m_bound m ltac:(lia)).
  unfold dec_of_Z. destruct (Z.ltb_spec (2 ^ m - 1) 0); [lia|]. rewrite Z.abs_eq by lia. rewrite dec_mul_bound0 by lia.
  exists ZERO, (DFin false (Z.to_N (2 ^ m - 1)) (- n)). split; [reflexivity|]. split.
  - cbn [scaled ZERO]. unfold scaled_cmp. rewrite Z.add_0_l. destruct (Z.leb_spec 0 n); [|lia]. cbn [Z.of_N Z.mul]. reflexivity.
  - cbn [scaled]. unfold scaled_cmp. rewrite Z.add_opp_diag_l. cbn [Z.leb Z.compare]. change (10 ^ 0) with 1. rewrite Z.mul_1_r, Z2N.id by lia. apply Z.compare_refl.
Qed.
Theorem signed_fixed_exact m n : 1 <= m <= 256 -> 0 <= n <= 80 ->
  exists lo hi, compute_signed_fixed_bounds m n = Ok (lo, hi) /\ scaled lo n (- 2 ^ (m - 1)) /\ scaled hi n (2 ^ (m - 1) - 1).
Proof.
  intros Hm Hn. unfold compute_signed_fixed_bounds, compute_signed_integer_bounds.
  assert (0 < 2 ^ (m - 1)) by (apply pow2_pos; lia). pose proof (pow_2_m_bound (m - 1) ltac:(lia)).
  unfold dec_of_Z. destruct (Z.ltb_spec (-1 * 2 ^ (m - 1)) 0); [|lia]. destruct (Z.ltb_spec (2 ^ (m - 1) - 1) 0); [lia|].
  replace (Z.abs (-1 * 2 ^ (m - 1))) with (2 ^ (m - 1)) by lia. rewrite Z.abs_eq by lia. rewrite !dec_mul_bound0 by lia.
  eexists _, _. split; [reflexivity|]. cbn [scaled]. unfold scaled_cmp. rewrite Z.add_opp_diag_l. cbn [Z.leb Z.compare]. change (10 ^ 0) with 1.
  rewrite !Z.mul_1_r, !Z2N.id by lia. split; apply Z.compare_refl.
Qed.
Lemma scale_rounds y : in_context y -> ~ times_ten (DFin false (10 ^ 999 + 1) 0) (- 2) y.
Proof.
  destruct y as [neg c e| |]; [|intros []..]. intros C V. cbn [times_ten] in V. cbv zeta in V.
  rewrite N2Z.inj_add, N2Z.inj_pow in V. change (Z.of_N 10) with 10 in V. change (Z.of_N 999) with 999 in V. change (Z.of_N 1) with 1 in V. p10.
  assert (P : pow10 999 = 10 * pow10 998) by (rewrite <- pow10_1, <- (pow10_add 1 998) by lia; reflexivity).
  pose proof (pow10_pos 998 ltac:(lia)) as P0. change (0 + -2) with (-2) in V.
  destruct (Z.le_gt_cases e (-2)).
  - (* c = (10^999 + 1) * 10^(-2-e) > 10^999 *)
    rewrite Z.min_r in V by lia. rewrite Z.sub_diag, pow10_0, Z.mul_1_r in V. pose proof (pow10_pos (-2 - e) ltac:(lia)).
    assert (0 < (pow10 999 + 1) * pow10 (-2 - e)) by nia. destruct C as [->|(A & _)]; [exfalso; change (Z.of_N 0) with 0 in V; destruct neg; lia|]. rewrite pow10_def in A. destruct neg; nia.
  - rewrite Z.min_l in V by lia. rewrite Z.sub_diag, pow10_0, Z.mul_1_r in V.
    replace (e - -2) with (1 + (e + 1)) in V by lia. rewrite pow10_add in V by lia. rewrite P in V.
    rewrite pow10_1 in V. assert (Q : exists t, 10 * pow10 998 + 1 = 10 * t) by (exists ((if neg then - Z.of_N c else Z.of_N c) * pow10 (e + 1)); rewrite V; ring).
    destruct Q. lia.
Qed.
Lemma in_context_small neg c e : Z.of_N c < 10 ^ 999 -> -1000997 <= e <= 999001 -> in_context (DFin neg c e).
Proof. intros. right. split; [assumption|]. split; [lia|]. p10. pose proof (pow10_le 999 (1000000 - e) ltac:(lia)). lia. Qed.
Lemma bounds_8x1 : compute_unsigned_fixed_bounds 8 1 = Ok (DFin false 0 0, DFin false 255 (-1))
  /\ compute_signed_fixed_bounds 8 1 = Ok (DFin true 128 (-1), DFin false 127 (-1)).
Proof.
  assert (P : 255 < pow10 78) by (rewrite <- pow10_def; lazy; reflexivity).
  unfold compute_unsigned_fixed_bounds, compute_signed_fixed_bounds, compute_unsigned_integer_bounds, compute_signed_integer_bounds. cbn [snd].
  change (2 ^ 8 - 1) with 255. change (-1 * 2 ^ (8 - 1)) with (-128). change (2 ^ (8 - 1) - 1) with 127. unfold dec_of_Z. cbn [Z.ltb Z.compare Z.abs].
  rewrite !dec_mul_bound by lia. split; reflexivity.
Qed.
Lemma scale_123 : scale_places 2 (DFin false 123 0) = Ok (DFin false 123 (-2)).
Proof.
  assert (P : 123 < pow10 78) by (rewrite <- pow10_def; lazy; reflexivity).
  unfold scale_places. change 123%N with (Z.to_N 123). rewrite dec_mul_bound by lia. reflexivity.
Qed.

(** ** Rounding *)
Lemma round_half_even_tie c k : 0 < k -> 0 <= c ->
  Z.abs (2 * c - 2 * round_half_even c k * pow10 k) = pow10 k -> Z.even (round_half_even c k) = true.
Proof.
  intros Hk Hc H. unfold round_half_even in *. pose proof (pow10_pos k ltac:(lia)) as Hp.
  pose proof (Z.div_mod c (pow10 k) ltac:(lia)) as Hd. pose proof (Z.mod_pos_bound c (pow10 k) Hp) as Hm.
  set (q := c / pow10 k) in *. set (r := c mod pow10 k) in *. set (p := pow10 k) in *.
  destruct (Z.ltb_spec p (2 * r)) as [A|A]; cbn [orb] in *.
  - exfalso. replace (2 * c - 2 * (q + 1) * p) with (2 * r - 2 * p) in H by nia. lia.
  - destruct (Z.eqb_spec p (2 * r)) as [B|B]; cbn [andb] in *.
    + destruct (Z.odd q) eqn:O; rewrite <- Z.negb_odd; [rewrite Z.add_1_r, Z.odd_succ, <- Z.negb_odd, O; reflexivity|rewrite O; reflexivity].
    + exfalso. replace (2 * c - 2 * q * p) with (2 * r) in H by nia. lia.
Qed.
Lemma pow10_even k : 0 < k -> Z.even (pow10 k) = true.
Proof. intro. replace k with (1 + (k - 1)) by lia. rewrite pow10_S by lia. rewrite Z.even_mul. reflexivity. Qed.

Lemma dec_fix_rounds neg c e : 0 <= c ->
  match dec_fix neg c e with
  | Ok d => rounds_to neg c e d /\ ~ overflows c e
  | Err DecimalOverflow => overflows c e
  | Err _ => False
  end.
Proof.
  intro Hc. unfold dec_fix. destruct (Z.eqb_spec c 0) as [->|Nz].
  { split.
    - cbn [rounds_to]. split; [reflexivity|]. left. ctx. repeat split; lia.
    - unfold overflows. cbv zeta. p10. pose proof (pow10_pos (999001 - Z.min e 999001) ltac:(lia)).
      pose proof (pow10_pos 999 ltac:(lia)). nia. }
  assert (Hc1 : 0 < c) by lia. pose proof (ndigits_spec c Hc1) as (N1 & N2 & N3).
  pose proof (pow10_pos 998 ltac:(lia)) as P998. assert (P999 : pow10 999 = 10 * pow10 998) by (apply (pow10_S 998); lia).
  destruct (Z.ltb_spec Etop (ndigits c + e - prec)) as [T|T].
  { unfold overflows. cbv zeta. p10. ctx. set (m := Z.min e 999001).
    assert (B : pow10 999 * pow10 (999001 - m) <= c * pow10 (e - m)).
    { rewrite <- pow10_add by lia. transitivity (pow10 (ndigits c - 1) * pow10 (e - m)).
      - rewrite <- pow10_add by lia. apply pow10_le. lia.
      - apply Z.mul_le_mono_nonneg_r; [|exact N2]. pose proof (pow10_pos (e - m) ltac:(lia)). lia. }
    pose proof (pow10_pos (999001 - m) ltac:(lia)). nia. }
  set (x := Z.max (ndigits c + e - prec) Etiny).
  assert (Hx1 : ndigits c + e - prec <= x) by lia. assert (Hx2 : Etiny <= x) by lia.
  assert (Hx3 : x = ndigits c + e - prec \/ (x = Etiny /\ ndigits c + e - prec <= Etiny)) by lia.
  assert (Hx4 : x <= Etop) by (ctx; lia). clearbody x. ctx.
  destruct (Z.ltb_spec e x) as [L|L].
  2:{ split.
      - cbn [rounds_to]. split; [reflexivity|]. right; left. rewrite Z2N.id by lia. p10. split; [|lia].
        split; [lia|]. eapply Z.lt_le_trans; [exact N3|]. apply pow10_le. lia.
      - unfold overflows. cbv zeta. p10. set (m := Z.min e 999001). intro O.
        assert (C9 : c < pow10 999) by (eapply Z.lt_le_trans; [exact N3|]; apply pow10_le; lia).
        assert (B : c * pow10 (e - m) < pow10 999).
        { destruct (Z.le_gt_cases e 999001) as [Le|Le].
          - replace (e - m) with 0 by lia. rewrite pow10_0. lia.
          - apply Z.lt_le_trans with (pow10 (ndigits c) * pow10 (e - m)).
            + apply Z.mul_lt_mono_pos_r; [apply pow10_pos; lia|exact N3].
            + rewrite <- pow10_add by lia. apply pow10_le. lia. }
        pose proof (pow10_pos (999001 - m) ltac:(lia)) as P. clear - B O P P999 P998. nia. }
  pose proof (round_half_even_bounds c (x - e) ltac:(lia) Hc) as [[R1 R2] [R3 R4]].
  pose proof (round_half_even_nonneg c (x - e) ltac:(lia) Hc) as R0.
  pose proof (round_half_even_tie c (x - e) ltac:(lia) Hc) as R5.
  assert (R6 : round_half_even c (x - e) <= pow10 999).
  { apply round_half_even_le; [lia|lia|]. rewrite <- pow10_add by lia. pose proof (pow10_le (ndigits c) (999 + (x - e)) ltac:(lia)). lia. }
  assert (R7 : x = -1000997 \/ pow10 998 <= round_half_even c (x - e)).
  { destruct Hx3 as [E|[E _]]; [right|left; exact E]. etransitivity; [|exact R1].
    apply Z.div_le_lower_bound; [apply pow10_pos; lia|]. rewrite Z.mul_comm, <- pow10_add by lia.
    replace (998 + (x - e)) with (ndigits c - 1) by lia. exact N2. }
  assert (K : pow10 999 <= c \/ e < -1000997).
  { destruct Hx3 as [E|[E _]]; [left|right; lia]. etransitivity; [|exact N2]. apply pow10_le. lia. }
  assert (NO : x < 999001 -> ~ overflows c e).
  { intros X O. unfold overflows in O. cbv zeta in O. p10. replace (Z.min e 999001) with e in O by lia. rewrite Z.sub_diag, pow10_0 in O.
    assert (B : c < pow10 998 * pow10 (999001 - e)).
    { rewrite <- pow10_add by lia. eapply Z.lt_le_trans; [exact N3|]. apply pow10_le. lia. }
    pose proof (pow10_pos (999001 - e) ltac:(lia)) as P. clear - O B P P998 P999. nia. }
  pose proof (pow10_pos (x - e) ltac:(lia)) as P. set (q := round_half_even c (x - e)) in *. clearbody q.
  destruct (Z.eqb_spec q (pow10 999)) as [Q|Q].
  - change (999 - 1) with 998. destruct (Z.ltb_spec 999001 (x + 1)) as [T2|T2].
    + unfold overflows. cbv zeta. p10. replace (Z.min e 999001) with e by lia. rewrite Z.sub_diag, pow10_0.
      replace 999001 with x by lia. rewrite Q in *. clear - R4. nia.
    + split; [|apply NO; lia]. cbn [rounds_to]. split; [reflexivity|]. right; right. rewrite Z2N.id by lia. p10.
      split; [lia|]. split; [exact K|]. split; [lia|]. split; [lia|]. split; [left; lia|]. split; [lia|].
      replace (x + 1 - e) with (1 + (x - e)) by lia. rewrite (pow10_S (x - e)) by lia. rewrite Q, P999 in *. split.
      * clear - R3 R4 P P998. apply Z.abs_le. nia.
      * intros _. apply pow10_even. lia.
  - destruct (Z.ltb_spec 999001 x); [lia|]. split.
    + cbn [rounds_to]. split; [reflexivity|]. right; right. rewrite Z2N.id by lia. p10.
      split; [lia|]. split; [exact K|]. split; [lia|]. split; [lia|]. split; [destruct R7; [right|left]; assumption|]. split; [lia|].
      split; [clear - R3 R4; apply Z.abs_le; nia|exact R5].
    + destruct (Z.eq_dec x 999001) as [X|X]; [|apply NO; lia]. intro O. unfold overflows in O. cbv zeta in O. p10.
      replace (Z.min e 999001) with e in O by lia. rewrite Z.sub_diag, pow10_0, <- X in O.
      assert (Q1 : q = pow10 999 - 1) by (clear - R4 R3 R6 Q O P; nia).
      assert (T0 : Z.abs (2 * c - 2 * q * pow10 (x - e)) = pow10 (x - e)) by (clear - R3 R4 Q1 O P; nia).
      apply R5 in T0. rewrite Q1, Z.even_sub, pow10_even in T0 by lia. discriminate T0.
Qed.
Theorem scale_places_rounds p n c e :
  let C := Z.of_N c * 10 ^ Z.max 0 (- p) in
  let E := e + Z.min 0 (- p) in
  match scale_places p (DFin n c e) with
  | Ok d => rounds_to n C E d /\ ~ overflows C E
  | Err DecimalOverflow => overflows C E
  | Err _ => False
  end.
Proof.
  cbv zeta. unfold scale_places. destruct (mul_ten_pow n c e p) as (cp & ep & _ & Hcp & Hep & -> & K).
  assert (E1 : Z.of_N c * cp = Z.of_N c * 10 ^ Z.max 0 (- p)).
  { p10. destruct K as [(A & -> & _)|(A & -> & _)]; [replace (Z.max 0 (- p)) with 0 by lia; rewrite pow10_0|replace (Z.max 0 (- p)) with (- p) by lia]; reflexivity. }
  assert (E2 : ep = Z.min 0 (- p)) by lia. rewrite <- E1, <- E2. apply dec_fix_rounds. nia.
Qed.
Lemma tie : rounds_to false (10 ^ 1000 + 50) 0 (DFin false (10 ^ 998) 2)
  /\ ~ rounds_to false (10 ^ 1000 + 50) 0 (DFin false (10 ^ 998 + 1) 2).
Proof.
  assert (A : Z.of_N (10 ^ 998) = 10 ^ 998) by (rewrite N2Z.inj_pow; reflexivity).
  assert (B : Z.of_N (10 ^ 998 + 1) = 10 ^ 998 + 1) by (rewrite N2Z.inj_add, A; reflexivity).
  pose proof (pow10_pos 998 ltac:(lia)) as P. pose proof (pow10_S 998 ltac:(lia)) as P9. pose proof (pow10_S 999 ltac:(lia)) as P10.
  change (1 + 998) with 999 in P9. change (1 + 999) with 1000 in P10.
  assert (P2 : 10 ^ (2 - 0) = 100) by reflexivity.
  split; cbn [rounds_to]; [rewrite A|rewrite B]; rewrite P2; p10.
  - split; [reflexivity|]. right; right. rewrite P10, P9 in *.
    replace (2 * (10 * (10 * pow10 998) + 50) - 2 * pow10 998 * 100) with 100 by lia.
    split; [lia|]. split; [lia|]. split; [lia|]. split; [lia|]. split; [left; lia|]. split; [lia|]. split; [lia|]. intros _. apply pow10_even. lia.
  - intros [_ H]. destruct H as [H|[H|H]]; [lia|lia|]. destruct H as (_ & _ & _ & _ & _ & _ & _ & H).
    rewrite P10, P9 in *. replace (2 * (10 * (10 * pow10 998) + 50) - 2 * (pow10 998 + 1) * 100) with (-100) in H by lia.
    specialize (H eq_refl). rewrite Z.even_add, pow10_even in H by lia. discriminate H.
Qed.
