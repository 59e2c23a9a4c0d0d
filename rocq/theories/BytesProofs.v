(** Lemmas about Bytes.v. *)
From Coq Require Import Strings.Byte.
From Verif Require Import Tac Bytes.
Open Scope Z_scope.

Lemma Z_of_byte_range b : 0 <= Z_of_byte b < 256.
Proof.
  unfold Z_of_byte. pose proof (Byte.to_N_bounded b) as H. lia.
Qed.
Lemma byte_of_Z_of_byte b : byte_of_Z (Z_of_byte b) = b.
Proof.
  unfold byte_of_Z. rewrite Z.mod_small by apply Z_of_byte_range.
  unfold Z_of_byte. rewrite N2Z.id, Byte.of_to_N. reflexivity.
Qed.
Lemma Z_of_byte_of_Z z : Z_of_byte (byte_of_Z z) = z mod 256.
Proof.
  unfold byte_of_Z, Z_of_byte.
  assert (0 <= z mod 256 < 256) by (apply Z.mod_pos_bound; lia).
  destruct (Byte.of_N (Z.to_N (z mod 256))) as [b|] eqn:E.
  - apply Byte.to_of_N in E. rewrite E. lia.
  - apply Byte.of_N_None_iff in E. lia.
Qed.
Lemma Z_of_byte_inj a b : Z_of_byte a = Z_of_byte b -> a = b.
Proof. intro H. rewrite <- (byte_of_Z_of_byte a), <- (byte_of_Z_of_byte b), H. reflexivity. Qed.
Lemma byte_of_Z_mod z : byte_of_Z (z mod 256) = byte_of_Z z.
Proof. unfold byte_of_Z. rewrite Z.mod_mod by lia. reflexivity. Qed.

Lemma to_be_length n z : length (to_be n z) = n.
Proof.
  revert z; induction n as [|n IH]; intro z; cbn [to_be]; [reflexivity|].
  rewrite app_length, IH; cbn [length]; lia.
Qed.
Lemma to_be_len n z : len (to_be n z) = Z.of_nat n.
Proof. change (len (to_be n z)) with (Z.of_nat (length (to_be n z))). rewrite to_be_length; reflexivity. Qed.

Lemma from_be_app_acc bs acc :
  fold_left (fun acc b => acc * 256 + Z_of_byte b) bs acc = acc * 256 ^ len bs + from_be bs.
Proof.
  unfold from_be. revert acc; induction bs as [|b bs IH]; intro acc.
  - cbn [fold_left]. lens. rewrite Z.pow_0_r. lia.
  - cbn [fold_left]. rewrite IH. rewrite (IH (0 * 256 + Z_of_byte b)). lens.
    rewrite Z.pow_add_r by (pose proof (len_nonneg bs); lia). change (256 ^ 1) with 256. ring.
Qed.
Lemma from_be_nil : from_be [] = 0. Proof. reflexivity. Qed.
Lemma from_be_cons b bs : from_be (b :: bs) = Z_of_byte b * 256 ^ len bs + from_be bs.
Proof. unfold from_be; cbn [fold_left]. rewrite from_be_app_acc. unfold from_be; ring. Qed.
Lemma from_be_app a b : from_be (a ++ b) = from_be a * 256 ^ len b + from_be b.
Proof. unfold from_be. rewrite fold_left_app, from_be_app_acc. reflexivity. Qed.
Lemma from_be_snoc a b : from_be (a ++ [b]) = from_be a * 256 + Z_of_byte b.
Proof. rewrite from_be_app, from_be_cons. lens. change (256 ^ (1 + 0)) with 256. change (256^0) with 1. rewrite from_be_nil. ring. Qed.

Lemma pow256_pos n : 0 <= n -> 0 < 256 ^ n.
Proof. intro; apply Z.pow_pos_nonneg; lia. Qed.
Lemma pow256_S n : 0 <= n -> 256 ^ (1 + n) = 256 * 256 ^ n.
Proof. intro; rewrite Z.pow_add_r by lia; reflexivity. Qed.

Lemma from_be_range bs : 0 <= from_be bs < 256 ^ len bs.
Proof.
  induction bs as [|b bs IH].
  - lens. rewrite from_be_nil. change (256 ^ 0) with 1. lia.
  - rewrite from_be_cons. lens. pose proof (len_nonneg bs).
    rewrite pow256_S by lia. pose proof (Z_of_byte_range b). nia.
Qed.

Lemma from_be_to_be n z : from_be (to_be n z) = z mod 256 ^ Z.of_nat n.
Proof.
  revert z; induction n as [|n IH]; intro z; cbn [to_be].
  - rewrite from_be_nil, Z.mod_1_r. reflexivity.
  - rewrite from_be_snoc, IH, Z_of_byte_of_Z.
    replace (Z.of_nat (S n)) with (1 + Z.of_nat n) by lia.
    rewrite pow256_S by lia.
    rewrite (Z.mul_comm 256), Z.mul_comm.
    pose proof (pow256_pos (Z.of_nat n) ltac:(lia)) as Hp.
    rewrite (Z.mul_comm _ 256).
    rewrite Z.rem_mul_r by lia. ring.
Qed.

Lemma to_be_from_be bs : to_be (length bs) (from_be bs) = bs.
Proof.
  induction bs as [|b bs IH] using rev_ind; [reflexivity|].
  rewrite app_length, Nat.add_comm; cbn [length Nat.add to_be].
  rewrite from_be_snoc. pose proof (Z_of_byte_range b).
  rewrite Z.div_add_l, Z.div_small, Z.add_0_r by lia. rewrite IH. f_equal. f_equal.
  apply Z_of_byte_inj. rewrite Z_of_byte_of_Z.
  rewrite Z.add_comm, Z.mod_add, Z.mod_small by lia. reflexivity.
Qed.

Lemma from_be_inj a b : length a = length b -> from_be a = from_be b -> a = b.
Proof.
  intros Hl H. rewrite <- (to_be_from_be a), <- (to_be_from_be b), Hl, H. reflexivity.
Qed.

Lemma length_len {A} (l : list A) n : len l = Z.of_nat n -> length l = n.
Proof. change (len l) with (Z.of_nat (length l)). lia. Qed.
Lemma len_length {A} (l : list A) : len l = Z.of_nat (length l).
Proof. reflexivity. Qed.

Lemma to_be_mod n z : to_be n (z mod 256 ^ Z.of_nat n) = to_be n z.
Proof.
  apply from_be_inj; [rewrite !to_be_length; reflexivity|].
  rewrite !from_be_to_be. apply Z.mod_mod. pose proof (pow256_pos (Z.of_nat n)); lia.
Qed.

Lemma to_be_inj n y z : 0 <= y < 256 ^ Z.of_nat n -> 0 <= z < 256 ^ Z.of_nat n ->
  to_be n y = to_be n z -> y = z.
Proof.
  intros Hy Hz H. apply (f_equal from_be) in H. rewrite !from_be_to_be in H.
  rewrite !Z.mod_small in H by assumption. exact H.
Qed.

Lemma to_be_app n m z : to_be (n + m) z = to_be n (z / 256 ^ Z.of_nat m) ++ to_be m z.
Proof.
  apply from_be_inj; [rewrite app_length, !to_be_length; reflexivity|].
  rewrite from_be_app, !from_be_to_be, to_be_len.
  rewrite Nat2Z.inj_add, Z.pow_add_r by lia.
  pose proof (pow256_pos (Z.of_nat n) ltac:(lia)). pose proof (pow256_pos (Z.of_nat m) ltac:(lia)).
  rewrite (Z.mul_comm (256 ^ Z.of_nat n)). rewrite Z.rem_mul_r by lia. ring.
Qed.

Lemma to_be_0 n : to_be n 0 = repeat x00 n.
Proof.
  induction n as [|n IH]; [reflexivity|]. cbn [to_be]. rewrite Z.div_0_l by lia. rewrite IH.
  change (byte_of_Z 0) with x00. rewrite <- repeat_cons. reflexivity.
Qed.
Lemma to_be_m1 n : to_be n (-1) = repeat xff n.
Proof.
  induction n as [|n IH]; [reflexivity|]. cbn [to_be]. change (-1 / 256) with (-1). rewrite IH.
  change (byte_of_Z (-1)) with xff. rewrite <- repeat_cons. reflexivity.
Qed.
Lemma from_be_repeat_00 n : from_be (repeat x00 n) = 0.
Proof. rewrite <- to_be_0, from_be_to_be. apply Z.mod_0_l. pose proof (pow256_pos (Z.of_nat n)); lia. Qed.
Lemma from_be_repeat_ff n : from_be (repeat xff n) = 256 ^ Z.of_nat n - 1.
Proof.
  rewrite <- to_be_m1, from_be_to_be. pose proof (pow256_pos (Z.of_nat n) ltac:(lia)) as H.
  symmetry. apply (Z.mod_unique_pos _ _ (-1)); lia.
Qed.

Lemma pow256_pow2 n : 0 <= n -> 256 ^ n = 2 ^ (8 * n).
Proof. intro. change 256 with (2 ^ 8). rewrite <- Z.pow_mul_r by lia. reflexivity. Qed.

(** Padding a shorter big-endian form up to n bytes. *)
Lemma rjust_00_to_be k n z : (k <= n)%nat -> 0 <= z < 256 ^ Z.of_nat k ->
  rjust x00 (to_be k z) (Z.of_nat n) = to_be n z.
Proof.
  intros Hk Hz. unfold rjust. rewrite to_be_len.
  replace (Z.to_nat (Z.of_nat n - Z.of_nat k)) with (n - k)%nat by lia.
  replace n with ((n - k) + k)%nat at 2 by lia.
  rewrite to_be_app, Z.div_small, to_be_0 by lia. reflexivity.
Qed.
Lemma rjust_ff_to_be k n z : (k <= n)%nat -> - 256 ^ Z.of_nat k <= z < 0 ->
  rjust xff (to_be k z) (Z.of_nat n) = to_be n z.
Proof.
  intros Hk Hz. unfold rjust. rewrite to_be_len.
  replace (Z.to_nat (Z.of_nat n - Z.of_nat k)) with (n - k)%nat by lia.
  replace n with ((n - k) + k)%nat at 2 by lia.
  rewrite to_be_app. pose proof (pow256_pos (Z.of_nat k) ltac:(lia)).
  replace (z / 256 ^ Z.of_nat k) with (-1).
  - rewrite to_be_m1. reflexivity.
  - apply (Z.div_unique_pos z (256 ^ Z.of_nat k) (-1) (z + 256 ^ Z.of_nat k)); lia.
Qed.

(** How many bytes int_to_big_endian produces. *)
Definition be_size (z : Z) : nat :=
  let n := (bit_length z + 7) / 8 in Z.to_nat (if n =? 0 then 1 else n).
Lemma int_to_big_endian_Ok z : 0 <= z -> int_to_big_endian z = Ok (to_be (be_size z) z).
Proof.
  intro H. unfold int_to_big_endian, be_size.
  destruct (Z.ltb_spec z 0); [lia|reflexivity].
Qed.
Lemma be_size_bound z : 0 <= z -> z < 256 ^ Z.of_nat (be_size z).
Proof.
  intro H. unfold be_size, bit_length.
  destruct (Z.eqb_spec z 0) as [->|Hz]; [reflexivity|].
  assert (0 <= Z.log2 z) by apply Z.log2_nonneg.
  assert (Hs : z < 2 ^ Z.succ (Z.log2 z)) by (apply Z.log2_spec; lia).
  set (n := (Z.log2 z + 1 + 7) / 8).
  assert (Hn : 1 <= n /\ Z.log2 z + 1 <= 8 * n) by (unfold n; lia).
  destruct (Z.eqb_spec n 0); [lia|].
  rewrite Z2Nat.id by lia. rewrite pow256_pow2 by lia.
  eapply Z.lt_le_trans; [exact Hs|]. apply Z.pow_le_mono_r; lia.
Qed.
Lemma be_size_le z n : 0 <= z < 256 ^ Z.of_nat n -> (1 <= n)%nat -> (be_size z <= n)%nat.
Proof.
  intros H Hn. unfold be_size, bit_length.
  destruct (Z.eqb_spec z 0) as [->|Hz]; [cbn; lia|].
  assert (Z.log2 z < 8 * Z.of_nat n).
  { apply Z.log2_lt_pow2; [lia|]. rewrite <- pow256_pow2 by lia. lia. }
  assert (0 <= Z.log2 z) by apply Z.log2_nonneg.
  destruct (Z.eqb_spec ((Z.log2 z + 1 + 7) / 8) 0); lia.
Qed.
Lemma zpad_int_to_big_endian z n : 0 <= z < 256 ^ Z.of_nat n -> (1 <= n)%nat ->
  zpad (to_be (be_size z) z) (Z.of_nat n) = to_be n z.
Proof.
  intros Hz Hn. apply rjust_00_to_be; [apply be_size_le; assumption|].
  split; [lia|apply be_size_bound; lia].
Qed.

(** A short, non-minimal form padded with ff is the two's complement. *)
Lemma fpad_twos z n k : (1 <= k <= n)%nat -> - 256 ^ Z.of_nat k <= 2 * z < 0 ->
  fpad (to_be (be_size (z mod 256 ^ Z.of_nat k)) (z mod 256 ^ Z.of_nat k)) (Z.of_nat n) = to_be n z.
Proof.
  intros Hk Hz. pose proof (pow256_pos (Z.of_nat k) ltac:(lia)) as Hp.
  set (u := z mod 256 ^ Z.of_nat k).
  assert (Hu : u = z + 256 ^ Z.of_nat k).
  { unfold u. symmetry. apply (Z.mod_unique_pos _ _ (-1)); lia. }
  assert (Hb : be_size u = k).
  { apply Nat.le_antisymm; [apply be_size_le; lia|].
    assert (~ (be_size u < k)%nat) as Hn; [|lia]. intro Hlt.
    pose proof (be_size_bound u ltac:(lia)) as Hub.
    assert (256 ^ Z.of_nat (be_size u) <= 256 ^ (Z.of_nat k - 1)) by (apply Z.pow_le_mono_r; lia).
    assert (256 ^ Z.of_nat k = 256 * 256 ^ (Z.of_nat k - 1)).
    { rewrite <- pow256_S by lia. f_equal. lia. }
    lia. }
  rewrite Hb. unfold u. rewrite to_be_mod. apply rjust_ff_to_be; lia.
Qed.

(** ** Slices *)
Lemma take_z_firstn {A} n (l : list A) : 0 <= n -> take_z n l = firstn (Z.to_nat n) l.
Proof.
  intro H. unfold take_z. destruct (Z.leb_spec (len l) n); [|reflexivity].
  rewrite firstn_all2; [reflexivity|]. rewrite len_length in *. lia.
Qed.
Lemma drop_z_skipn {A} n (l : list A) : 0 <= n -> drop_z n l = skipn (Z.to_nat n) l.
Proof.
  intro H. unfold drop_z. destruct (Z.leb_spec (len l) n); [|reflexivity].
  rewrite skipn_all2; [reflexivity|]. rewrite len_length in *. lia.
Qed.
Lemma take_drop_z {A} n (l : list A) : 0 <= n -> take_z n l ++ drop_z n l = l.
Proof. intro. rewrite take_z_firstn, drop_z_skipn by lia. apply firstn_skipn. Qed.
Lemma len_take_z {A} n (l : list A) : 0 <= n -> len (take_z n l) = Z.min n (len l).
Proof. intro. rewrite take_z_firstn by lia. lens. lia. Qed.
Lemma len_drop_z {A} n (l : list A) : 0 <= n -> len (drop_z n l) = Z.max 0 (len l - n).
Proof. intro. rewrite drop_z_skipn by lia. lens. lia. Qed.
Lemma take_z_app {A} n (a b : list A) : n = len a -> take_z n (a ++ b) = a.
Proof.
  intros ->. pose proof (len_nonneg a). rewrite take_z_firstn by lia.
  rewrite (len_length a), Nat2Z.id, firstn_app, firstn_all, Nat.sub_diag. cbn. apply app_nil_r.
Qed.
Lemma drop_z_app {A} n (a b : list A) : n = len a -> drop_z n (a ++ b) = b.
Proof.
  intros ->. pose proof (len_nonneg a). rewrite drop_z_skipn by lia.
  rewrite (len_length a), Nat2Z.id, skipn_app, skipn_all, Nat.sub_diag. reflexivity.
Qed.
Lemma take_z_all {A} n (l : list A) : len l <= n -> take_z n l = l.
Proof. intro. unfold take_z. destruct (Z.leb_spec (len l) n); [reflexivity|lia]. Qed.
Lemma drop_z_all {A} n (l : list A) : len l <= n -> drop_z n l = [].
Proof. intro. unfold drop_z. destruct (Z.leb_spec (len l) n); [reflexivity|lia]. Qed.
Lemma drop_z_0 {A} (l : list A) : drop_z 0 l = l.
Proof. rewrite drop_z_skipn by lia. reflexivity. Qed.
Lemma drop_z_drop_z {A} a b (l : list A) : 0 <= a -> 0 <= b -> drop_z a (drop_z b l) = drop_z (a + b) l.
Proof.
  intros. rewrite !drop_z_skipn by lia. rewrite Z2Nat.inj_add by lia.
  generalize (Z.to_nat a), (Z.to_nat b). clear. intros n m.
  revert n l; induction m as [|m IH]; intros n l; [rewrite Nat.add_0_r; reflexivity|].
  destruct l as [|x l]; [rewrite !skipn_nil; reflexivity|].
  rewrite Nat.add_succ_r. cbn [skipn]. apply IH.
Qed.
Lemma take_z_drop_z_app {A} a b (l : list A) : 0 <= a -> 0 <= b ->
  take_z a l ++ take_z b (drop_z a l) = take_z (a + b) l.
Proof.
  intros. rewrite !take_z_firstn, drop_z_skipn by lia. rewrite Z2Nat.inj_add by lia.
  generalize (Z.to_nat a), (Z.to_nat b). clear. intros n m.
  revert l; induction n as [|n IH]; intros l; [reflexivity|].
  destruct l as [|x l]; [cbn; rewrite firstn_nil; reflexivity|]. cbn. f_equal. apply IH.
Qed.

Lemma ceil32_spec x : 0 <= x -> x <= ceil32 x < x + 32 /\ ceil32 x mod 32 = 0.
Proof. intro H. unfold ceil32. destruct (Z.eqb_spec (x mod 32) 0); lia. Qed.
Lemma ceil32_least x : 0 <= x ->
  ceil32 x mod 32 = 0 /\ x <= ceil32 x /\ (forall y, y mod 32 = 0 -> x <= y -> ceil32 x <= y).
Proof. intro H. pose proof (ceil32_spec x H). repeat split; try lia. Qed.
Lemma zeros_len n : 0 <= n -> len (zeros n) = n.
Proof. intro. unfold zeros. lens. lia. Qed.
Lemma ones_len n : 0 <= n -> len (ones n) = n.
Proof. intro. unfold ones. lens. lia. Qed.
