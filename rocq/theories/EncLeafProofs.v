(** The leaf encoders of Encoding.v. *)
From Coq Require Import Strings.Byte.
From Verif Require Import Tac Bytes BytesProofs Utf8 Decimals DecimalsProofs Encoding Spec.
Open Scope Z_scope.

(** ** Big-endian words *)
Lemma byte_at_eq z i : byte_at z i = byte_of_Z (z / 256 ^ Z.of_nat i).
Proof. unfold byte_at, byte_of_Z. rewrite pow256_pow2 by lia. reflexivity. Qed.
Lemma byte_val_eq z : byte_val z = byte_of_Z z.
Proof. unfold byte_val. rewrite byte_at_eq. cbn [Z.of_nat]. change (256 ^ 0) with 1. rewrite Z.div_1_r. reflexivity. Qed.
Lemma be_bytes_eq k z : be_bytes k z = to_be k z.
Proof.
  unfold be_bytes. revert z; induction k as [|k IH]; intro z; [reflexivity|].
  cbn [to_be]. rewrite <- IH.
  rewrite <- cons_seq, <- seq_shift. cbn [rev]. rewrite map_app. f_equal.
  - rewrite <- map_rev, map_map. apply map_ext. intro i. rewrite !byte_at_eq.
    rewrite Z.div_div by (pose proof (pow256_pos (Z.of_nat i)); lia).
    rewrite <- pow256_S by lia. f_equal. do 2 f_equal. lia.
  - cbn [map]. rewrite byte_at_eq. cbn [Z.of_nat]. change (256 ^ 0) with 1.
    rewrite Z.div_1_r. reflexivity.
Qed.
Lemma word_eq z : word z = to_be 32 z.
Proof. apply be_bytes_eq. Qed.
Lemma word_length z : length (word z) = 32%nat.
Proof. rewrite word_eq; apply to_be_length. Qed.
Lemma word_len z : len (word z) = 32.
Proof. rewrite word_eq; apply to_be_len. Qed.
Lemma pow2_256 : 256 ^ Z.of_nat 32 = 2 ^ 256.
Proof. reflexivity. Qed.
Lemma from_be_word z : from_be (word z) = z mod 2 ^ 256.
Proof. rewrite word_eq, from_be_to_be, pow2_256. reflexivity. Qed.
Lemma pow2_mono a b : 0 <= a <= b -> 2 ^ a <= 2 ^ b.
Proof. intro. apply Z.pow_le_mono_r; lia. Qed.
Lemma pow2_S a : 0 <= a -> 2 ^ (a + 1) = 2 * 2 ^ a.
Proof. intro. rewrite Z.pow_add_r by lia. change (2 ^ 1) with 2. ring. Qed.
Lemma pow2_pred m : 1 <= m -> 2 ^ m = 2 * 2 ^ (m - 1).
Proof. intro. rewrite <- pow2_S by lia. f_equal. lia. Qed.
Global Opaque word be_bytes.

(** ** Integers *)
Lemma encode_uint_be m n z : int_size m -> (1 <= n)%nat -> m <= 8 * Z.of_nat n -> 0 <= z < 2 ^ m ->
  encode_uint m (Z.of_nat n) (PInt z) = Ok (to_be n z).
Proof.
  intros [Hm _] Hn Hmn Hz. unfold encode_uint, validate_uint, compute_unsigned_integer_bounds, validate_int.
  destruct (Z.ltb_spec z 0); [lia|]. destruct (Z.ltb_spec (2 ^ m - 1) z); [lia|].
  cbn [orb raise_if bind int_of]. rewrite int_to_big_endian_Ok by lia. cbn [bind].
  rewrite zpad_int_to_big_endian; [reflexivity| |exact Hn].
  rewrite pow256_pow2 by lia. pose proof (pow2_mono m (8 * Z.of_nat n)). lia.
Qed.
Lemma encode_uint_256_word z : 0 <= z < 2 ^ 256 -> encode_uint_256 z = Ok (word z).
Proof.
  intro H. unfold encode_uint_256. rewrite word_eq. change 32 with (Z.of_nat 32).
  apply encode_uint_be; [split; [lia|reflexivity]|lia|lia|exact H].
Qed.
Lemma encode_uint_256_Err z : ~ (0 <= z < 2 ^ 256) -> encode_uint_256 z = Err ValueOutOfBounds.
Proof.
  intro H. unfold encode_uint_256, encode_uint, validate_uint, compute_unsigned_integer_bounds, validate_int.
  destruct (Z.ltb_spec z 0); [reflexivity|]. destruct (Z.ltb_spec (2 ^ 256 - 1) z); [reflexivity|lia].
Qed.

Lemma twos_pad m n z : int_size m -> (1 <= n)%nat -> m <= 8 * Z.of_nat n ->
  - 2 ^ (m - 1) <= z < 2 ^ (m - 1) ->
  (let b := to_be (be_size (z mod 2 ^ m)) (z mod 2 ^ m) in
   if 0 <=? z then zpad b (Z.of_nat n) else fpad b (Z.of_nat n)) = to_be n z.
Proof.
  intros [Hm Hm8] Hn Hmn Hz. cbn zeta.
  assert (0 < 2 ^ (m - 1)) by (apply pow2_pos; lia).
  assert (2 ^ m = 2 * 2 ^ (m - 1)) by (apply pow2_pred; lia).
  destruct (Z.leb_spec 0 z).
  - rewrite Z.mod_small by lia. apply zpad_int_to_big_endian; [|exact Hn].
    rewrite pow256_pow2 by lia. pose proof (pow2_mono m (8 * Z.of_nat n)). lia.
  - assert (Hk : 2 ^ m = 256 ^ Z.of_nat (Z.to_nat (m / 8))).
    { rewrite pow256_pow2 by lia. f_equal. lia. }
    rewrite Hk. apply fpad_twos; [lia|]. rewrite <- Hk. lia.
Qed.
Lemma encode_sint_be m n z : int_size m -> (1 <= n)%nat -> m <= 8 * Z.of_nat n ->
  - 2 ^ (m - 1) <= z < 2 ^ (m - 1) ->
  encode_sint m (Z.of_nat n) (PInt z) = Ok (to_be n z).
Proof.
  intros Hm Hn Hmn Hz. pose proof Hm as [Hm1 Hm8].
  unfold encode_sint, validate_sint, compute_signed_integer_bounds, validate_int.
  destruct (Z.ltb_spec z (-1 * 2 ^ (m - 1))); [lia|].
  destruct (Z.ltb_spec (2 ^ (m - 1) - 1) z); [lia|].
  cbn [orb raise_if bind int_of].
  rewrite int_to_big_endian_Ok by (apply Z.mod_pos_bound; apply pow2_pos; lia). cbn [bind].
  rewrite <- (twos_pad m n z Hm Hn Hmn Hz). reflexivity.
Qed.

Lemma encode_bool_be n b : (1 <= n)%nat ->
  encode_bool (Z.of_nat n) (PBool b) = Ok (to_be n (if b then 1 else 0)).
Proof.
  intro Hn. unfold encode_bool; cbn [validate_bool is_boolean bind].
  assert (H : forall z, 0 <= z < 256 -> zpad [byte_of_Z z] (Z.of_nat n) = to_be n z).
  { intros z Hz. change [byte_of_Z z] with (to_be 1 z). apply rjust_00_to_be; [lia|].
    change (256 ^ Z.of_nat 1) with 256. lia. }
  destruct b.
  - rewrite <- H by lia. reflexivity.
  - rewrite <- H by lia. reflexivity.
Qed.

(** ** Fixed point *)

(** Range test of a Python number against scaled bounds, [None] when the
    comparison is a TypeError. *)
Definition out_of_range (v : pyval) (n lo hi : Z) : option bool :=
  match num_scaled_cmp v n lo, num_scaled_cmp v n hi with
  | Some a, Some b => Some (match a with Lt => true | _ => false end || match b with Gt => true | _ => false end)
  | _, _ => None
  end.
(** Does the code reject the value for excess precision? *)
Definition underflowsb (r e : Z) : bool := (e <? Etiny) && (2 * r <=? pow10 (Etiny - e)).
Lemma underflowsb_spec r e : underflowsb r e = true <-> underflows r e.
Proof. unfold underflowsb, underflows. rewrite andb_true_iff, Z.ltb_lt, Z.leb_le. reflexivity. Qed.
Definition excess_rejected (v : pyval) (n : Z) : bool :=
  match v with
  | PDec (DFin neg c e) =>
      negb neg && (0 <? excess (Z.of_N c) e n) && negb (underflowsb (excess (Z.of_N c) e n) e)
  | _ => false
  end.

(** Everything validate_fixed can answer. *)
Definition fixed_verdict (n lo hi : Z) (v : pyval) : result unit :=
  match v with
  | PBool _ | PInt _ | PDec (DFin _ _ _) =>
      match out_of_range v n lo hi with
      | Some false => if excess_rejected v n then Err IllegalValue else Ok tt
      | _ => Err ValueOutOfBounds
      end
  | PFraction _ _ =>
      match out_of_range v n lo hi with
      | Some false => Err TypeError
      | _ => Err ValueOutOfBounds
      end
  | PDec _ => Err IllegalValue
  | PComplex _ => Err TypeError
  | _ => Err EncodingTypeError
  end.

Lemma scaled_cmp_lower neg c e n z : scaled_cmp neg c e n z <> Lt ->
  z * pow10 (Z.max 0 (- (e + n))) <= dsigned neg (Z.of_N c) * pow10 (Z.max 0 (e + n)).
Proof.
  unfold scaled_cmp, dsigned. change (10 ^ (e + n)) with (pow10 (e + n)).
  change (10 ^ (- (e + n))) with (pow10 (- (e + n))).
  destruct (Z.leb_spec 0 (e + n)); intro Hc.
  - rewrite (Z.max_l 0 (- (e + n))), (Z.max_r 0 (e + n)), pow10_0 by lia.
    destruct (Z.compare_spec ((if neg then - Z.of_N c else Z.of_N c) * pow10 (e + n)) z); lia || congruence.
  - rewrite (Z.max_r 0 (- (e + n))), (Z.max_l 0 (e + n)), pow10_0 by lia.
    destruct (Z.compare_spec (if neg then - Z.of_N c else Z.of_N c) (z * pow10 (- (e + n)))); lia || congruence.
Qed.
Lemma scaled_cmp_upper neg c e n z : scaled_cmp neg c e n z <> Gt ->
  dsigned neg (Z.of_N c) * pow10 (Z.max 0 (e + n)) <= z * pow10 (Z.max 0 (- (e + n))).
Proof.
  unfold scaled_cmp, dsigned. change (10 ^ (e + n)) with (pow10 (e + n)).
  change (10 ^ (- (e + n))) with (pow10 (- (e + n))).
  destruct (Z.leb_spec 0 (e + n)); intro Hc.
  - rewrite (Z.max_l 0 (- (e + n))), (Z.max_r 0 (e + n)), pow10_0 by lia.
    destruct (Z.compare_spec ((if neg then - Z.of_N c else Z.of_N c) * pow10 (e + n)) z); lia || congruence.
  - rewrite (Z.max_r 0 (- (e + n))), (Z.max_l 0 (e + n)), pow10_0 by lia.
    destruct (Z.compare_spec (if neg then - Z.of_N c else Z.of_N c) (z * pow10 (- (e + n)))); lia || congruence.
Qed.

(** A decimal in range: the magnitude bound needed by the arithmetic lemmas. *)
Lemma in_range_whole neg c e n lo hi : lo <= 0 <= hi -> - pow10 78 < lo -> hi < pow10 78 ->
  out_of_range (PDec (DFin neg c e)) n lo hi = Some false ->
  whole (Z.of_N c) e n < pow10 78
  /\ lo * pow10 (Z.max 0 (- (e + n))) <= dsigned neg (Z.of_N c) * pow10 (Z.max 0 (e + n))
  /\ dsigned neg (Z.of_N c) * pow10 (Z.max 0 (e + n)) <= hi * pow10 (Z.max 0 (- (e + n))).
Proof.
  intros H0 Hlo Hhi H. unfold out_of_range in H. cbn [num_scaled_cmp] in H.
  assert (HL : scaled_cmp neg c e n lo <> Lt) by (intro E; rewrite E in H; discriminate).
  assert (HG : scaled_cmp neg c e n hi <> Gt)
    by (intro E; rewrite E in H; destruct (scaled_cmp neg c e n lo); discriminate).
  apply scaled_cmp_lower in HL. apply scaled_cmp_upper in HG.
  split; [|auto].
  pose proof (pow10_pos (Z.max 0 (- (e + n))) ltac:(lia)).
  assert (whole (Z.of_N c) e n <= Z.max (- lo) hi); [|lia].
  apply whole_le; [lia|]. unfold dsigned in *. destruct neg; nia.
Qed.

Lemma excess_lt c e n : 0 <= c -> e + n < 0 -> 0 <= excess c e n < pow10 (- (e + n)).
Proof.
  intros Hc He. unfold excess. destruct (Z.leb_spec 0 (e + n)); [lia|].
  apply Z.mod_pos_bound, pow10_pos; lia.
Qed.
Lemma excess_0 c e n : 0 <= e + n -> excess c e n = 0.
Proof. intro. unfold excess. destruct (Z.leb_spec 0 (e + n)); [reflexivity|lia]. Qed.

Definition bound_dec (n z : Z) : decimal := DFin (z <? 0) (Z.to_N (Z.abs z)) (- n).
Lemma dsigned_abs z : dsigned (z <? 0) (Z.of_N (Z.to_N (Z.abs z))) = z.
Proof. unfold dsigned. destruct (Z.ltb_spec z 0); lia. Qed.

Lemma int_in_range_whole v i n lo hi : 1 <= n <= 80 -> lo <= 0 <= hi -> - pow10 78 < lo -> hi < pow10 78 ->
  num_scaled_cmp v n = (fun z => Some (Z.compare (i * 10 ^ n) z)) ->
  out_of_range v n lo hi = Some false -> whole (Z.abs i) 0 n < pow10 78 /\ lo <= i * 10 ^ n <= hi.
Proof.
  intros Hn H0 Hlo Hhi Hv H. unfold out_of_range in H. rewrite Hv in H.
  destruct (Z.compare_spec (i * 10 ^ n) lo); cbn [orb] in H; try discriminate;
  destruct (Z.compare_spec (i * 10 ^ n) hi); cbn [orb] in H; try discriminate;
  (split; [|lia]; unfold whole; rewrite Z.add_0_l; destruct (Z.leb_spec 0 n); [|lia];
   change (pow10 n) with (10 ^ n); assert (0 < 10 ^ n) by (apply Z.pow_pos_nonneg; lia); nia).
Qed.

(** validate_value of the fixed-point encoders, completely. *)
Lemma validate_fixed_verdict n lo hi v lod hid :
  1 <= n <= 80 -> lo <= 0 <= hi -> - pow10 78 < lo -> hi < pow10 78 ->
  (forall v', num_cmp v' lod = num_cmp v' (bound_dec n lo)) ->
  (forall v', num_cmp v' hid = num_cmp v' (bound_dec n hi)) ->
  validate_fixed (Ok (lod, hid)) n v = fixed_verdict n lo hi v.
Proof.
  intros Hn H0 Hlo Hhi Hlod Hhid. unfold validate_fixed.
  assert (Hcmp : forall v', num_cmp v' lod =
            match num_cmp v' (bound_dec n lo) with Ok c => Ok c | Err e => Err e end)
    by (intro v'; rewrite Hlod; destruct (num_cmp v' (bound_dec n lo)); reflexivity).
  destruct v as [|b|i|f|cx|a d|d|b|b|s|l|l|sr l|o]; cbn [is_number negb orb];
    try reflexivity.
  - (* bool *)
    cbn [bind]. rewrite Hlod, Hhid. unfold bound_dec. rewrite !num_cmp_scaled by lia.
    rewrite !dsigned_abs. cbn [num_scaled_cmp bind fixed_verdict].
    destruct (out_of_range (PBool b) n lo hi) as [r|] eqn:Er; [|discriminate].
    pose proof Er as Er'. unfold out_of_range in Er'. cbn [num_scaled_cmp] in Er'. inv Er'.
    destruct (_ || _) eqn:Eo; cbn [raise_if bind]; [reflexivity|].
    destruct (int_in_range_whole (PBool b) (if b then 1 else 0) n lo hi) as [Hw _]; try assumption.
    { reflexivity. }
    cbn [to_dec bind excess_rejected]. unfold dec_of_Z.
    rewrite dec_mod_value; [|lia|rewrite Z2N.id by lia; exact Hw].
    rewrite excess_0 by lia. destruct (dec_fix_0 ((if b then 1 else 0) <? 0) (Z.min 0 (- n))) as [e' ->].
    cbn [bind]. rewrite dec_ltb_ZERO. cbn [Z.of_N Z.ltb Z.compare]. rewrite andb_false_r. reflexivity.
  - (* int *)
    cbn [bind]. rewrite Hlod, Hhid. unfold bound_dec. rewrite !num_cmp_scaled by lia.
    rewrite !dsigned_abs. cbn [num_scaled_cmp bind fixed_verdict].
    destruct (out_of_range (PInt i) n lo hi) as [r|] eqn:Er; [|discriminate].
    pose proof Er as Er'. unfold out_of_range in Er'. cbn [num_scaled_cmp] in Er'. inv Er'.
    destruct (_ || _) eqn:Eo; cbn [raise_if bind]; [reflexivity|].
    destruct (int_in_range_whole (PInt i) i n lo hi) as [Hw _]; try assumption.
    { reflexivity. }
    cbn [to_dec bind excess_rejected]. unfold dec_of_Z.
    rewrite dec_mod_value; [|lia|rewrite Z2N.id by lia; exact Hw].
    rewrite excess_0 by lia. destruct (dec_fix_0 (i <? 0) (Z.min 0 (- n))) as [e' ->].
    cbn [bind]. rewrite dec_ltb_ZERO. cbn [Z.of_N Z.ltb Z.compare]. rewrite andb_false_r. reflexivity.
  - (* Fraction *)
    cbn [bind]. rewrite Hlod, Hhid. unfold bound_dec. rewrite !num_cmp_scaled by lia.
    rewrite !dsigned_abs. cbn [num_scaled_cmp bind fixed_verdict to_dec].
    unfold out_of_range. cbn [num_scaled_cmp].
    destruct (_ || _) eqn:Eo; cbn [raise_if bind]; reflexivity.
  - (* Decimal *)
    destruct d as [neg c e|neg|]; [|reflexivity|reflexivity].
    cbn [bind]. rewrite Hlod, Hhid. unfold bound_dec. rewrite !num_cmp_scaled by lia.
    rewrite !dsigned_abs. cbn [num_scaled_cmp bind fixed_verdict].
    destruct (out_of_range (PDec (DFin neg c e)) n lo hi) as [r|] eqn:Er; [|discriminate].
    pose proof Er as Er'. unfold out_of_range in Er'. cbn [num_scaled_cmp] in Er'. inv Er'.
    destruct (_ || _) eqn:Eo; cbn [raise_if bind]; [reflexivity|].
    destruct (in_range_whole neg c e n lo hi H0 Hlo Hhi Er) as (Hw & _ & _).
    cbn [to_dec bind excess_rejected]. rewrite dec_mod_value by (lia || exact Hw).
    destruct (Z.le_gt_cases 0 (e + n)) as [He|He].
    + rewrite excess_0 by lia. destruct (dec_fix_0 neg (Z.min e (- n))) as [e' ->]. cbn [bind].
      rewrite dec_ltb_ZERO. cbn [Z.of_N Z.ltb Z.compare]. rewrite !andb_false_r. reflexivity.
    + pose proof (excess_lt (Z.of_N c) e n ltac:(lia) He) as Hx.
      rewrite Z.min_l by lia.
      destruct (dec_fix_residue neg (excess (Z.of_N c) e n) e n Hn Hx He) as (q & e' & -> & Hq).
      cbn [bind]. rewrite dec_ltb_ZERO.
      rewrite <- underflowsb_spec in Hq.
      destruct neg; cbn [negb andb]; [reflexivity|].
      destruct (Z.ltb_spec 0 (Z.of_N q)), (Z.ltb_spec 0 (excess (Z.of_N c) e n));
        destruct (underflowsb (excess (Z.of_N c) e n) e); cbn [negb andb raise_if]; try reflexivity;
        exfalso; lia || (assert (q = 0%N) by (apply Hq; auto); lia)
                 || (assert (q = 0%N) by lia; apply Hq in H2; destruct H2; lia || discriminate).
Qed.

(** [num_cmp v ZERO] for accepted values *)
Lemma num_cmp_ZERO v : num_cmp v ZERO = num_cmp v (DFin false 0 (- 0)).
Proof. reflexivity. Qed.

Lemma scaled_cmp_0 neg c e n : scaled_cmp neg c e n 0 = Z.compare (dsigned neg (Z.of_N c)) 0.
Proof.
  unfold scaled_cmp, dsigned. rewrite Z.mul_0_l. destruct (Z.leb_spec 0 (e + n)); [|reflexivity].
  assert (0 < 10 ^ (e + n)) by (apply Z.pow_pos_nonneg; lia).
  set (x := if neg then - Z.of_N c else Z.of_N c). clearbody x.
  destruct (Z.compare_spec x 0); destruct (Z.compare_spec (x * 10 ^ (e + n)) 0); nia || reflexivity.
Qed.

(** What the accepted fixed-point values look like once scaled. *)
Lemma fixed_ok_scaled n lo hi v :
  1 <= n <= 80 -> lo <= 0 <= hi -> - pow10 78 < lo -> hi < pow10 78 ->
  fixed_verdict n lo hi v = Ok tt ->
  exists i c, scaled_int n v = Ok i /\ lo <= i <= hi
    /\ num_cmp v ZERO = Ok c /\ (c = Lt -> i <= 0) /\ (c <> Lt -> 0 <= i)
    /\ (forall z, num_scaled v n z -> i = z /\ c = Z.compare z 0).
Proof.
  intros Hn H0 Hlo Hhi Hv.
  assert (Hint : forall i, (v = PInt i \/ exists b, v = PBool b /\ i = if b then 1 else 0) ->
            exists i' c, scaled_int n v = Ok i' /\ lo <= i' <= hi
    /\ num_cmp v ZERO = Ok c /\ (c = Lt -> i' <= 0) /\ (c <> Lt -> 0 <= i')
    /\ (forall z, num_scaled v n z -> i' = z /\ c = Z.compare z 0)).
  { intros i Hi.
    assert (Hs : num_scaled_cmp v n = (fun z => Some (Z.compare (i * 10 ^ n) z)))
      by (destruct Hi as [->|(b & -> & ->)]; reflexivity).
    assert (Hor : out_of_range v n lo hi = Some false).
    { destruct (out_of_range v n lo hi) as [[]|] eqn:E; [..|];
        destruct Hi as [->|(b & -> & ->)]; cbn [fixed_verdict] in Hv; rewrite E in Hv; discriminate || reflexivity. }
    destruct (int_in_range_whole v i n lo hi Hn H0 Hlo Hhi Hs Hor) as [Hw Hr].
    destruct (scaled_mul (i <? 0) (Z.to_N (Z.abs i)) 0 n Hn) as (j & Hj & Hj1 & Hj2).
    { rewrite Z2N.id by lia; exact Hw. }
    assert (Hwj : whole (Z.abs i) 0 n = Z.abs i * pow10 n).
    { unfold whole. rewrite Z.add_0_l. destruct (Z.leb_spec 0 n); [reflexivity|lia]. }
    rewrite Z2N.id in Hj1, Hj2 by lia.
    pose proof (pow10_pos n ltac:(lia)) as Hp.
    assert (j = Z.abs i * pow10 n).
    { specialize (Hj2 (Z.abs i * pow10 n) ltac:(nia)).
      rewrite Z.add_0_l, (Z.max_r 0 n), (Z.max_l 0 (- n)), pow10_0 in Hj2 by lia. lia. }
    assert (Hsi : scaled_int n v = Ok (i * 10 ^ n)).
    { unfold scaled_int. replace (to_dec v) with (Ok (dec_of_Z i)) by (destruct Hi as [->|(b & -> & ->)]; reflexivity).
      cbn [bind]. unfold dec_of_Z. rewrite Hj. f_equal. change (10 ^ n) with (pow10 n). unfold dsigned.
      destruct (Z.ltb_spec i 0); lia. }
    assert (Hc : num_cmp v ZERO = Ok (Z.compare i 0)).
    { replace (num_cmp v ZERO) with (num_cmp (PInt i) ZERO) by (destruct Hi as [->|(b & -> & ->)]; reflexivity).
      rewrite num_cmp_ZERO, num_cmp_scaled by lia. cbn [num_scaled_cmp dsigned Z.of_N].
      change (10 ^ 0) with 1. rewrite Z.mul_1_r. reflexivity. }
    exists (i * 10 ^ n), (Z.compare i 0). change (10 ^ n) with (pow10 n) in *.
    split; [exact Hsi|]. split; [exact Hr|]. split; [exact Hc|].
    split; [|split].
    - destruct (Z.compare_spec i 0); intro; nia || discriminate.
    - destruct (Z.compare_spec i 0); intro; nia || congruence.
    - intros z Hz.
      assert (i * pow10 n = z) as <- by (destruct Hi as [->|(b & -> & ->)]; exact Hz).
      split; [reflexivity|].
      destruct (Z.compare_spec i 0), (Z.compare_spec (i * pow10 n) 0); nia || reflexivity. }
  destruct v as [|b|i|f|cx|a d|d|b|b|s|l|l|sr l|o]; cbn [fixed_verdict] in Hv; try discriminate.
  - apply (Hint (if b then 1 else 0)). right. exists b. auto.
  - apply (Hint i). left. reflexivity.
  - destruct (out_of_range (PFraction a d) n lo hi) as [[]|]; discriminate.
  - clear Hint. destruct d as [neg c e|neg|]; [|discriminate|discriminate].
    destruct (out_of_range (PDec (DFin neg c e)) n lo hi) as [[]|] eqn:Er; try discriminate.
    destruct (in_range_whole neg c e n lo hi H0 Hlo Hhi Er) as (Hw & Hl & Hu).
    destruct (scaled_mul neg c e n Hn Hw) as (i & Hi & Hi1 & Hi2).
    pose proof (whole_nonneg (Z.of_N c) e n ltac:(lia)).
    pose proof (pow10_pos (Z.max 0 (e + n)) ltac:(lia)).
    pose proof (pow10_pos (Z.max 0 (- (e + n))) ltac:(lia)).
    exists (dsigned neg i), (Z.compare (dsigned neg (Z.of_N c)) 0).
    assert (Hneg0 : c = 0%N -> i = 0).
    { intro Hc. specialize (Hi2 0 ltac:(lia)). rewrite Hc in Hi2. cbn [Z.of_N] in Hi2. lia. }
    split; [unfold scaled_int; cbn [to_dec bind]; exact Hi|].
    split; [|split; [|split; [|split]]].
    + unfold dsigned in *. destruct neg.
      * specialize (Hi2 (- lo) ltac:(lia)). lia.
      * specialize (Hi2 hi ltac:(lia)). lia.
    + rewrite num_cmp_ZERO, num_cmp_scaled by lia. cbn [num_scaled_cmp dsigned Z.of_N].
      rewrite scaled_cmp_0. reflexivity.
    + intro Hc. rewrite Z.compare_lt_iff in Hc. unfold dsigned in *. destruct neg; lia.
    + intro Hc. destruct (N.eq_dec c 0) as [Hz|Hz].
      * rewrite (Hneg0 Hz). destruct neg; cbn; lia.
      * unfold dsigned in *. destruct neg; [|lia].
        exfalso; apply Hc. apply Z.compare_lt_iff. lia.
    + intros z Hz. cbn [num_scaled scaled] in Hz.
      pose proof (scaled_cmp_trans _ _ _ _ _ 0 Hz) as Hz0. rewrite scaled_cmp_0 in Hz0.
      split; [|exact Hz0].
      assert (Hz1 := scaled_cmp_lower neg c e n z ltac:(congruence)).
      assert (Hz2 := scaled_cmp_upper neg c e n z ltac:(congruence)).
      assert (Hzz : dsigned neg (Z.of_N c) * pow10 (Z.max 0 (e + n)) = z * pow10 (Z.max 0 (- (e + n)))) by lia.
      destruct (whole_excess (Z.of_N c) e n ltac:(lia)) as [Hwe Hex].
      assert (Hza : Z.of_N c * pow10 (Z.max 0 (e + n)) = dsigned neg z * pow10 (Z.max 0 (- (e + n))))
        by (unfold dsigned in *; destruct neg; lia).
      assert (Hzn : 0 <= dsigned neg z) by nia.
      specialize (Hi2 (dsigned neg z) Hzn ltac:(lia)).
      assert (dsigned neg z <= whole (Z.of_N c) e n) by nia.
      unfold dsigned in *. destruct neg; lia.
Qed.

Lemma fixed_verdict_exact n lo hi v z : num_scaled v n z ->
  fixed_verdict n lo hi v = if (lo <=? z) && (z <=? hi) then Ok tt else Err ValueOutOfBounds.
Proof.
  intro Hz.
  assert (Ho : out_of_range v n lo hi = Some (negb ((lo <=? z) && (z <=? hi)))).
  { unfold out_of_range. rewrite !(num_scaled_cmp_z v n z _ Hz). f_equal.
    destruct (Z.compare_spec z lo), (Z.compare_spec z hi), (Z.leb_spec lo z), (Z.leb_spec z hi); cbn; lia || reflexivity. }
  assert (Hx : excess_rejected v n = false).
  { destruct v as [|b|i|f|cx|a d|d|b|b|s|l|l|sr l|o]; try reflexivity.
    destruct d as [neg c e|neg|]; try reflexivity. cbn [excess_rejected].
    cbn [num_scaled scaled] in Hz.
    assert (Hz1 := scaled_cmp_lower neg c e n z ltac:(congruence)).
    assert (Hz2 := scaled_cmp_upper neg c e n z ltac:(congruence)).
    destruct (whole_excess (Z.of_N c) e n ltac:(lia)) as [Hwe Hex].
    destruct neg; [reflexivity|]. unfold dsigned in *.
    assert (excess (Z.of_N c) e n = 0).
    { assert (Hd : excess (Z.of_N c) e n = (z - whole (Z.of_N c) e n) * pow10 (Z.max 0 (- (e + n)))) by lia.
      assert (z - whole (Z.of_N c) e n = 0) by nia. nia. }
    rewrite H. reflexivity. }
  destruct v as [|b|i|f|cx|a d|d|b|b|s|l|l|sr l|o]; try contradiction; cbn [fixed_verdict].
  - rewrite Ho, Hx. destruct (_ && _); reflexivity.
  - rewrite Ho, Hx. destruct (_ && _); reflexivity.
  - destruct d as [neg c e|neg|]; try contradiction. rewrite Ho, Hx. destruct (_ && _); reflexivity.
Qed.

(** Is there excess precision at all? *)
Definition inexact (v : pyval) (n : Z) : Prop :=
  match v with PDec (DFin _ c e) => excess (Z.of_N c) e n <> 0 | _ => False end.
Lemma fixed_verdict_converse n lo hi v : 1 <= n <= 80 ->
  fixed_verdict n lo hi v = Ok tt -> ~ inexact v n -> exists z, num_scaled v n z /\ lo <= z <= hi.
Proof.
  intros Hn Hv Hx.
  assert (Hz : exists z, num_scaled v n z).
  { destruct v as [|b|i|f|cx|a d|d|b|b|s|l|l|sr l|o]; cbn [fixed_verdict] in Hv; try discriminate.
    - eexists; reflexivity.
    - eexists; reflexivity.
    - destruct (out_of_range _ n lo hi) as [[]|]; discriminate.
    - destruct d as [neg c e|neg|]; try discriminate.
      exists (dsigned neg (whole (Z.of_N c) e n)). cbn [num_scaled scaled]. cbn [inexact] in Hx.
      destruct (whole_excess (Z.of_N c) e n ltac:(lia)) as [Hwe Hex].
      assert (excess (Z.of_N c) e n = 0) by lia.
      unfold scaled_cmp, dsigned. change (10 ^ (e + n)) with (pow10 (e + n)).
      change (10 ^ (- (e + n))) with (pow10 (- (e + n))).
      destruct (Z.leb_spec 0 (e + n)).
      + rewrite (Z.max_l 0 (- (e + n))), (Z.max_r 0 (e + n)), pow10_0 in Hwe by lia.
        apply Z.compare_eq_iff. destruct neg; lia.
      + rewrite (Z.max_r 0 (- (e + n))), (Z.max_l 0 (e + n)), pow10_0 in Hwe by lia.
        apply Z.compare_eq_iff. destruct neg; lia. }
  destruct Hz as [z Hz]. exists z. split; [exact Hz|].
  rewrite (fixed_verdict_exact n lo hi v z Hz) in Hv.
  destruct (Z.leb_spec lo z), (Z.leb_spec z hi); discriminate || lia.
Qed.

(** *** The encoders *)
Lemma pow2_lt_78 m : 0 <= m <= 256 -> 2 ^ m < pow10 78.
Proof. apply pow_2_m_bound. Qed.

Lemma validate_ufixed_verdict m n v : int_size m -> frac_size n ->
  validate_ufixed m n v = fixed_verdict n 0 (2 ^ m - 1) v.
Proof.
  intros [Hm _] Hn. unfold validate_ufixed. rewrite unsigned_bounds by assumption.
  pose proof (pow2_pos m ltac:(lia)). pose proof (pow2_lt_78 m ltac:(lia)).
  pose proof (pow10_pos 78 ltac:(lia)).
  apply validate_fixed_verdict; try assumption; try lia.
  - intro v'. unfold ZERO, bound_dec. cbn [Z.ltb Z.compare Z.abs Z.to_N].
    destruct v' as [|b|i|f|cx|a d|d|b|b|s|l|l|sr l|o]; cbn [num_cmp]; try reflexivity;
      try (unfold dec_cmp, dec_of_Z, dsigned; cbn [Z.of_N]; rewrite ?Z.opp_0, !Z.mul_0_l; f_equal).
    + pose proof (pow10_pos (0 - Z.min 0 0) ltac:(lia)). pose proof (pow10_pos (0 - Z.min 0 (- n)) ltac:(lia)).
      destruct b; cbn [Z.ltb Z.compare Z.abs Z.to_N Z.of_N];
      [destruct (Z.compare_spec (1 * pow10 (0 - Z.min 0 0)) 0), (Z.compare_spec (1 * pow10 (0 - Z.min 0 (- n))) 0); nia || reflexivity
      |rewrite !Z.mul_0_l; reflexivity].
    + set (x := if i <? 0 then _ else _).
      pose proof (pow10_pos (0 - Z.min 0 0) ltac:(lia)). pose proof (pow10_pos (0 - Z.min 0 (- n)) ltac:(lia)).
      destruct (Z.compare_spec (x * pow10 (0 - Z.min 0 0)) 0), (Z.compare_spec (x * pow10 (0 - Z.min 0 (- n))) 0); nia || reflexivity.
    + set (x := if a <? 0 then _ else _).
      pose proof (pow10_pos (0 - Z.min 0 0) ltac:(lia)). pose proof (pow10_pos (0 - Z.min 0 (- n)) ltac:(lia)).
      destruct (Z.compare_spec (x * pow10 (0 - Z.min 0 0)) 0), (Z.compare_spec (x * pow10 (0 - Z.min 0 (- n))) 0); nia || reflexivity.
    + destruct d as [neg c e|neg|]; try reflexivity.
      unfold dec_cmp; cbn [dsigned Z.of_N]; rewrite !Z.mul_0_l; f_equal; set (x := dsigned neg (Z.of_N c)); change (if neg then - Z.of_N c else Z.of_N c) with x.
      pose proof (pow10_pos (e - Z.min e 0) ltac:(lia)). pose proof (pow10_pos (e - Z.min e (- n)) ltac:(lia)).
      destruct (Z.compare_spec (x * pow10 (e - Z.min e 0)) 0), (Z.compare_spec (x * pow10 (e - Z.min e (- n))) 0); nia || reflexivity.
  - intro v'. unfold bound_dec. destruct (Z.ltb_spec (2 ^ m - 1) 0); [lia|].
    rewrite Z.abs_eq by lia. reflexivity.
Qed.
Lemma validate_sfixed_verdict m n v : int_size m -> frac_size n ->
  validate_sfixed m n v = fixed_verdict n (- 2 ^ (m - 1)) (2 ^ (m - 1) - 1) v.
Proof.
  intros [Hm _] Hn. unfold validate_sfixed. rewrite signed_bounds by assumption.
  pose proof (pow2_pos (m - 1) ltac:(lia)). pose proof (pow2_lt_78 (m - 1) ltac:(lia)).
  apply validate_fixed_verdict; try assumption; try lia.
  - intro v'. unfold bound_dec. destruct (Z.ltb_spec (- 2 ^ (m - 1)) 0); [|lia].
    rewrite Z.abs_neq, Z.opp_involutive by lia. reflexivity.
  - intro v'. unfold bound_dec. destruct (Z.ltb_spec (2 ^ (m - 1) - 1) 0); [lia|].
    rewrite Z.abs_eq by lia. reflexivity.
Qed.

Lemma encode_ufixed_ok m n k v : int_size m -> frac_size n -> (1 <= k)%nat -> m <= 8 * Z.of_nat k ->
  validate_ufixed m n v = Ok tt ->
  exists b, encode_ufixed m n (Z.of_nat k) v = Ok b /\ len b = Z.of_nat k
    /\ (forall z, num_scaled v n z -> b = to_be k z).
Proof.
  intros Hm Hn Hk Hmk Hv. unfold encode_ufixed. rewrite Hv. cbn [bind].
  rewrite validate_ufixed_verdict in Hv by assumption. destruct Hm as [Hm _].
  pose proof (pow2_pos m ltac:(lia)). pose proof (pow2_lt_78 m ltac:(lia)). pose proof (pow10_pos 78 ltac:(lia)).
  destruct (fixed_ok_scaled n 0 (2 ^ m - 1) v Hn ltac:(lia) ltac:(lia) ltac:(lia) Hv)
    as (i & c & Hi & Hr & _ & _ & _ & Hz).
  rewrite Hi. cbn [bind]. rewrite int_to_big_endian_Ok by lia. cbn [bind].
  rewrite zpad_int_to_big_endian; [|rewrite pow256_pow2 by lia; pose proof (pow2_mono m (8 * Z.of_nat k)); lia|exact Hk].
  eexists; split; [reflexivity|]. split; [apply to_be_len|].
  intros z Hzz. destruct (Hz z Hzz) as [-> _]. reflexivity.
Qed.

Lemma rjust_len f b n : len b <= n -> len (rjust f b n) = n.
Proof. intro. unfold rjust. lens. lia. Qed.

Lemma encode_sfixed_ok m n k v : int_size m -> frac_size n -> (1 <= k)%nat -> m <= 8 * Z.of_nat k ->
  validate_sfixed m n v = Ok tt ->
  exists b, encode_sfixed m n (Z.of_nat k) v = Ok b /\ len b = Z.of_nat k
    /\ (forall z, num_scaled v n z -> b = to_be k z).
Proof.
  intros Hm Hn Hk Hmk Hv. unfold encode_sfixed. rewrite Hv. cbn [bind].
  rewrite validate_sfixed_verdict in Hv by assumption. pose proof Hm as [Hm1 Hm8].
  pose proof (pow2_pos (m - 1) ltac:(lia)). pose proof (pow2_lt_78 (m - 1) ltac:(lia)).
  pose proof (pow2_pos m ltac:(lia)).
  destruct (fixed_ok_scaled n (- 2 ^ (m - 1)) (2 ^ (m - 1) - 1) v Hn ltac:(lia) ltac:(lia) ltac:(lia) Hv)
    as (i & c & Hi & Hr & Hc & Hc1 & Hc2 & Hz).
  rewrite Hi. cbn [bind].
  pose proof (Z.mod_pos_bound i (2 ^ m) ltac:(lia)) as Hmod.
  rewrite int_to_big_endian_Ok by lia. cbn [bind]. rewrite Hc. cbn [bind].
  assert (Hl : len (to_be (be_size (i mod 2 ^ m)) (i mod 2 ^ m)) <= Z.of_nat k).
  { rewrite to_be_len. enough (be_size (i mod 2 ^ m) <= k)%nat by lia.
    apply be_size_le; [|exact Hk]. rewrite pow256_pow2 by lia.
    pose proof (pow2_mono m (8 * Z.of_nat k)). lia. }
  eexists; split; [reflexivity|]. split.
  - destruct c; apply rjust_len; exact Hl.
  - intros z Hzz. destruct (Hz z Hzz) as [-> Hcz]. rewrite <- (twos_pad m k z Hm Hk Hmk) by lia.
    cbn zeta. rewrite Hcz. destruct (Z.compare_spec z 0), (Z.leb_spec 0 z); lia || reflexivity.
Qed.
