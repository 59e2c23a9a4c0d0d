(** The lane-wise Keccak of Keccak.v agrees with KeccakSpec.v. *)
From Coq Require Import Strings.Byte List Arith NArith ZArith Bool Lia.
Import ListNotations.
From Verif Require Import Bytes Keccak KeccakSpec.
Open Scope nat_scope.

Definition bit (x : N) (z : nat) : bool := N.testbit x (N.of_nat z).
Definition small (x : N) : Prop := forall z, 64 <= z -> bit x z = false.
Definition rel (st : list N) (A : array) : Prop :=
  length st = 25 /\ Forall small st /\ forall x y z, x < 5 -> y < 5 -> z < 64 -> bit (lane st (x + 5 * y)) z = A x y z.

Lemma bit_lxor a b z : bit (N.lxor a b) z = xorb (bit a z) (bit b z).
Proof. apply N.lxor_spec. Qed.
Lemma bit_land a b z : bit (N.land a b) z = bit a z && bit b z.
Proof. apply N.land_spec. Qed.
Lemma bit_0 z : bit 0 z = false.
Proof. apply N.bits_0. Qed.
Lemma bit_mask z : bit lane_mask z = (z <? 64).
Proof.
  unfold bit. change lane_mask with (N.ones 64). destruct (Nat.ltb_spec z 64); [apply N.ones_spec_low|apply N.ones_spec_high]; lia.
Qed.
Lemma bit_rotl x n z : small x -> n < 64 -> z < 64 -> bit (rotl x (N.of_nat n)) z = bit x ((z + (64 - n)) mod 64).
Proof.
  intros S Hn Hz. unfold rotl. rewrite bit_land, bit_mask. destruct (Nat.ltb_spec z 64); [|lia]. rewrite andb_true_r. unfold small, bit in *. rewrite N.lor_spec.
  replace (64 - N.of_nat n)%N with (N.of_nat (64 - n)) by lia. rewrite N.shiftr_spec by lia. replace (N.of_nat z + N.of_nat (64 - n))%N with (N.of_nat (z + (64 - n))) by lia.
  destruct (le_lt_dec n z) as [L|L].
  - rewrite N.shiftl_spec_high by lia. rewrite (S (z + (64 - n))) by lia. rewrite orb_false_r. f_equal. replace (z + (64 - n)) with (z - n + 1 * 64) by lia. rewrite Nat.mod_add by lia. rewrite Nat.mod_small; lia.
  - rewrite N.shiftl_spec_low by lia. cbn [orb]. f_equal. rewrite Nat.mod_small; lia.
Qed.
Lemma small_rotl x n : small (rotl x n).
Proof. intros z Hz. unfold rotl. rewrite bit_land, bit_mask. destruct (Nat.ltb_spec z 64); [lia|]. apply andb_false_r. Qed.
Lemma small_lxor a b : small a -> small b -> small (N.lxor a b).
Proof. intros A B z Hz. rewrite bit_lxor, A, B by exact Hz. reflexivity. Qed.
Lemma small_land a b : small b -> small (N.land a b).
Proof. intros B z Hz. rewrite bit_land, B by exact Hz. apply andb_false_r. Qed.
Lemma small_0 : small 0.
Proof. intros z _. apply bit_0. Qed.
Lemma small_lane st i : Forall small st -> small (lane st i).
Proof. intro F. unfold lane. destruct (nth_in_or_default i st 0%N) as [I| ->]; [|exact small_0]. rewrite Forall_forall in F. apply F. exact I. Qed.

Lemma lane_map n f i : i < n -> lane (map f (seq 0 n)) i = f i.
Proof. intro H. unfold lane. rewrite (nth_indep _ _ (f 0)) by (rewrite map_length, seq_length; exact H). rewrite map_nth, seq_nth by exact H. reflexivity. Qed.
Lemma lane_25 f i : i < 25 -> lane (map f range25) i = f i.
Proof. apply lane_map. Qed.
Lemma lane_5 f i : i < 5 -> lane (map f range5) i = f i.
Proof. apply (lane_map 5). Qed.
Lemma mod5 n : n mod 5 < 5.
Proof. apply Nat.mod_upper_bound. lia. Qed.
Lemma split25 x y : x < 5 -> y < 5 -> x + 5 * y < 25 /\ (x + 5 * y) mod 5 = x /\ (x + 5 * y) / 5 = y.
Proof. intros Hx Hy. split; [lia|]. split; [rewrite Nat.mul_comm, Nat.mod_add by lia; apply Nat.mod_small; exact Hx|rewrite Nat.mul_comm, Nat.div_add by lia; rewrite Nat.div_small by exact Hx; lia]. Qed.
(** A state given lane by lane. *)
Lemma rel_map f A : (forall i, i < 25 -> small (f i)) -> (forall x y z, x < 5 -> y < 5 -> z < 64 -> bit (f (x + 5 * y)) z = A x y z) -> rel (map f range25) A.
Proof.
  intros S H. split; [rewrite map_length; reflexivity|]. split; [apply Forall_forall; intros a I; apply in_map_iff in I; destruct I as (i & <- & I); apply S; unfold range25 in I; apply in_seq in I; lia|].
  intros x y z Hx Hy Hz. destruct (split25 x y Hx Hy) as (L & _). rewrite lane_25 by exact L. apply H; assumption.
Qed.
Lemma rel_idx st A x y z : rel st A -> z < 64 -> bit (lane st (idx x y)) z = A (x mod 5) (y mod 5) z.
Proof. intros (_ & _ & H) Hz. unfold idx. apply H; [apply mod5|apply mod5|exact Hz]. Qed.

Lemma rel_theta st A : rel st A ->
  let c := map (fun x => fold_left N.lxor (map (fun y => lane st (idx x y)) range5) 0%N) range5 in
  let d := map (fun x => N.lxor (lane c (Nat.modulo (x + 4) 5)) (rotl (lane c (Nat.modulo (x + 1) 5)) 1)) range5 in
  rel (map (fun i => N.lxor (lane st i) (lane d (Nat.modulo i 5))) range25) (theta A).
Proof.
  intros R c d. pose proof R as (_ & F & H).
  assert (C : forall x z, x < 5 -> z < 64 -> bit (lane c x) z = parity A x z).
  { intros x z Hx Hz. unfold c. rewrite lane_5 by exact Hx. cbn [map range5 fold_left]. rewrite !bit_lxor, bit_0, !(rel_idx st A) by assumption.
    rewrite (Nat.mod_small x 5) by exact Hx. unfold parity. rewrite xorb_false_l, !xorb_assoc. reflexivity. }
  assert (Sc : forall x, x < 5 -> small (lane c x)).
  { intros x Hx. unfold c. rewrite lane_5 by exact Hx. cbn [map range5 fold_left]. repeat apply small_lxor; try (apply small_lane; exact F). exact small_0. }
  assert (D : forall x z, x < 5 -> z < 64 -> bit (lane d x) z = xorb (parity A ((x + 4) mod 5) z) (parity A ((x + 1) mod 5) ((z + 63) mod 64))).
  { intros x z Hx Hz. unfold d. rewrite lane_5 by exact Hx. rewrite bit_lxor, C by (try apply mod5; exact Hz). change 1%N with (N.of_nat 1). rewrite bit_rotl by (try lia; apply Sc, mod5).
    rewrite C by (try apply mod5; apply Nat.mod_upper_bound; lia). reflexivity. }
  assert (Sd : forall x, x < 5 -> small (lane d x)).
  { intros x Hx. unfold d. rewrite lane_5 by exact Hx. apply small_lxor; [apply Sc, mod5|apply small_rotl]. }
  apply rel_map.
  - intros i Hi. apply small_lxor; [apply small_lane; exact F|apply Sd, mod5].
  - intros x y z Hx Hy Hz. destruct (split25 x y Hx Hy) as (_ & E & _). rewrite bit_lxor, E, D, H by assumption. reflexivity.
Qed.
Lemma offsets x y : x < 5 -> y < 5 -> lane rho_offsets (x + 5 * y) = N.of_nat (offset x y) /\ offset x y < 64.
Proof.
  intros Hx Hy. destruct x as [|[|[|[|[|x]]]]]; [| | | | |lia]; (destruct y as [|[|[|[|[|y]]]]]; [| | | | |lia]); (split; [lazy; reflexivity|apply Nat.ltb_lt; lazy; reflexivity]).
Qed.
Lemma rel_rho_pi st A : rel st A ->
  rel (map (fun i => let X := Nat.modulo i 5 in let Y := Nat.div i 5 in let src := idx (X + 3 * Y) X in rotl (lane st src) (lane rho_offsets src)) range25) (pi (rho A)).
Proof.
  intros (_ & F & H). apply rel_map; cbv zeta.
  - intros i _. apply small_rotl.
  - intros x y z Hx Hy Hz. destruct (split25 x y Hx Hy) as (_ & -> & ->). unfold idx. rewrite (Nat.mod_small x 5) by exact Hx.
    destruct (offsets ((x + 3 * y) mod 5) x (mod5 _) Hx) as [-> L]. rewrite bit_rotl by (try assumption; apply small_lane; exact F).
    unfold pi, rho. apply H; [apply mod5|exact Hx|apply Nat.mod_upper_bound; lia].
Qed.
Lemma rel_chi st A : rel st A ->
  rel (map (fun i => let x := Nat.modulo i 5 in let y := Nat.div i 5 in
    N.lxor (lane st i) (N.land (N.lxor (lane st (idx (x + 1) y)) lane_mask) (lane st (idx (x + 2) y)))) range25) (chi A).
Proof.
  intros R. pose proof R as (_ & F & H). apply rel_map; cbv zeta.
  - intros i _. apply small_lxor; [|apply small_land]; apply small_lane; exact F.
  - intros x y z Hx Hy Hz. destruct (split25 x y Hx Hy) as (_ & -> & ->). rewrite bit_lxor, bit_land, bit_lxor, bit_mask, !(rel_idx st A), H by assumption.
    rewrite (Nat.mod_small y 5) by exact Hy. destruct (Nat.ltb_spec z 64); [|lia]. unfold chi. rewrite xorb_true_r. reflexivity.
Qed.
Lemma rel_iota st A r k : rel st A -> small k -> (forall z, z < 64 -> bit k z = round_bit r z) ->
  rel (match st with h :: t => N.lxor h k :: t | [] => [] end) (iota r A).
Proof.
  intros (L & F & H) S K. destruct st as [|h t]; [discriminate L|]. split; [exact L|]. inversion F as [|h' t' Sh St]; subst. split; [constructor; [apply small_lxor; assumption|exact St]|].
  intros x y z Hx Hy Hz. specialize (H x y z Hx Hy Hz). unfold iota, lane in *. destruct (Nat.eqb_spec x 0) as [->|Nx]; [destruct (Nat.eqb_spec y 0) as [->|Ny]|]; cbn [andb].
  - cbn [Nat.mul Nat.add nth] in *. rewrite bit_lxor, H, K by exact Hz. reflexivity.
  - destruct (0 + 5 * y) as [|i] eqn:E; [lia|]. exact H.
  - destruct (x + 5 * y) as [|i] eqn:E; [lia|]. exact H.
Qed.
Lemma rel_round st A r k : rel st A -> small k -> (forall z, z < 64 -> bit k z = round_bit r z) -> rel (keccak_round st k) (round r A).
Proof. intros R S K. unfold keccak_round, round. apply rel_iota; [|exact S|exact K]. apply rel_chi, rel_rho_pi, rel_theta, R. Qed.
Lemma constants : Forall2 (fun k r => small k /\ forall z, z < 64 -> bit k z = round_bit r z) round_constants (seq 0 24).
Proof.
  assert (T : forallb (fun kr => (fst kr <? 2 ^ 64)%N && forallb (fun z => Bool.eqb (bit (fst kr) z) (round_bit (snd kr) z)) (seq 0 64)) (combine round_constants (seq 0 24)) = true) by (lazy; reflexivity).
  change (Forall2 (fun k r => small k /\ forall z, z < 64 -> bit k z = round_bit r z) round_constants (seq 0 24)).
  assert (L : length round_constants = length (seq 0 24)) by reflexivity. revert L T. generalize round_constants (seq 0 24). induction l as [|k ks IH]; intros [|r rs] L T; try discriminate L; [constructor|].
  cbn [combine forallb fst snd] in T. apply andb_true_iff in T. destruct T as [T1 T2]. apply andb_true_iff in T1. destruct T1 as [T0 T1]. constructor; [|apply IH; [injection L as L; exact L|exact T2]].
  apply N.ltb_lt in T0. rewrite forallb_forall in T1. split.
  - intros z Hz. unfold bit. destruct (N.eq_dec k 0) as [->|Nz]; [apply N.bits_0|]. apply N.bits_above_log2. apply N.log2_lt_pow2; [lia|]. eapply N.lt_le_trans; [exact T0|]. apply N.pow_le_mono_r; lia.
  - intros z Hz. apply eqb_prop, T1, in_seq. lia.
Qed.
Lemma rel_permutation st A : rel st A -> rel (keccak_f st) (permutation A).
Proof.
  unfold keccak_f, permutation. generalize constants. generalize round_constants (seq 0 24). intros l l' F. revert st A. induction F as [|k r ks rs [S K] F IH]; intros st A R; [exact R|].
  cbn [fold_left]. apply IH, rel_round; assumption.
Qed.

(** ** Bytes and bits *)
Lemma byte_bits_length b : length (byte_bits b) = 8.
Proof. reflexivity. Qed.
Lemma bits_cons b bs : bits (b :: bs) = byte_bits b ++ bits bs.
Proof. reflexivity. Qed.
Lemma bits_app a b : bits (a ++ b) = bits a ++ bits b.
Proof. unfold bits. apply flat_map_app. Qed.
Lemma bits_length bs : length (bits bs) = 8 * length bs.
Proof. induction bs as [|b bs IH]; [reflexivity|]. rewrite bits_cons, app_length, byte_bits_length, IH. cbn [length]. lia. Qed.
Lemma bits_firstn n bs : bits (firstn n bs) = firstn (8 * n) (bits bs).
Proof.
  revert bs. induction n as [|n IH]; intro bs; [reflexivity|]. destruct bs as [|b bs]; [cbn [firstn bits flat_map]; rewrite firstn_nil; reflexivity|].
  cbn [firstn]. rewrite !bits_cons, IH. replace (8 * S n) with (length (byte_bits b) + 8 * n) by (rewrite byte_bits_length; lia). rewrite firstn_app_2. reflexivity.
Qed.
Lemma skipn_app_2 {X} (a b : list X) n : skipn (length a + n) (a ++ b) = skipn n b.
Proof. induction a as [|x a IH]; [reflexivity|]. exact IH. Qed.
Lemma bits_skipn n bs : bits (skipn n bs) = skipn (8 * n) (bits bs).
Proof.
  revert bs. induction n as [|n IH]; intro bs; [reflexivity|]. destruct bs as [|b bs]; [cbn [skipn bits flat_map]; rewrite skipn_nil; reflexivity|].
  cbn [skipn]. rewrite bits_cons, IH. replace (8 * S n) with (length (byte_bits b) + 8 * n) by (rewrite byte_bits_length; lia). rewrite skipn_app_2. reflexivity.
Qed.
Lemma byte_bits_nth b z : z < 8 -> nth z (byte_bits b) false = bit (Byte.to_N b) z.
Proof.
  intro H. unfold byte_bits. rewrite (nth_indep _ _ ((fun i => N.testbit (Byte.to_N b) (N.of_nat i)) 0)) by (rewrite map_length, seq_length; exact H).
  rewrite (map_nth (fun i => N.testbit (Byte.to_N b) (N.of_nat i))), seq_nth by exact H. reflexivity.
Qed.
Lemma bit_cons_low a c z : (a < 256)%N -> z < 8 -> bit (a + 256 * c) z = bit a z.
Proof.
  intros Ha Hz. unfold bit. rewrite <- (N.mod_pow2_bits_low (a + 256 * c) 8) by lia. change (2 ^ 8)%N with 256%N. rewrite N.mul_comm, N.mod_add by lia. rewrite N.mod_small by exact Ha. reflexivity.
Qed.
Lemma bit_cons_high a c z : (a < 256)%N -> bit (a + 256 * c) (8 + z) = bit c z.
Proof.
  intros Ha. unfold bit. replace (N.of_nat (8 + z)) with (N.of_nat z + 8)%N by lia. rewrite <- N.div_pow2_bits. change (2 ^ 8)%N with 256%N. rewrite N.mul_comm, N.div_add by lia. rewrite N.div_small by exact Ha. reflexivity.
Qed.
Lemma byte_small b : (Byte.to_N b < 256)%N.
Proof. pose proof (Byte.to_N_bounded b). lia. Qed.
Lemma bit_lane bs z : bit (lane_of_bytes bs) z = nth z (bits bs) false.
Proof.
  revert z. induction bs as [|b bs IH]; intro z; [rewrite bit_0; destruct z; reflexivity|]. change (lane_of_bytes (b :: bs)) with (Byte.to_N b + 256 * lane_of_bytes bs)%N. rewrite bits_cons.
  destruct (le_lt_dec 8 z) as [L|L].
  - rewrite app_nth2 by (rewrite byte_bits_length; exact L). rewrite byte_bits_length, <- IH. replace z with (8 + (z - 8)) at 1 by lia. apply bit_cons_high, byte_small.
  - rewrite app_nth1 by (rewrite byte_bits_length; exact L). rewrite byte_bits_nth by exact L. apply bit_cons_low; [apply byte_small|exact L].
Qed.
Lemma nth_firstn_lt {X} n : forall k (l : list X) d, k < n -> nth k (firstn n l) d = nth k l d.
Proof. induction n as [|n IH]; intros k l d H; [lia|]. destruct l as [|x l]; [destruct k; reflexivity|]. destruct k as [|k]; [reflexivity|]. cbn [firstn nth]. apply IH. lia. Qed.
Lemma nth_skipn_add {X} n : forall k (l : list X) d, nth k (skipn n l) d = nth (n + k) l d.
Proof. induction n as [|n IH]; intros k l d; [reflexivity|]. destruct l as [|x l]; [destruct k; reflexivity|]. apply IH. Qed.
(** The lanes of a block. *)
Lemma block_lane f : forall bs i z, i < f -> z < 64 -> bit (lane (map lane_of_bytes (chunks f 8 bs)) i) z = nth (64 * i + z) (bits bs) false.
Proof.
  induction f as [|f IH]; intros bs i z Hi Hz; [lia|]. destruct bs as [|b bs].
  - cbn [chunks map]. unfold lane. replace (nth i [] 0%N) with 0%N by (destruct i; reflexivity). rewrite bit_0. destruct (64 * i + z); reflexivity.
  - change (chunks (S f) 8 (b :: bs)) with (firstn 8 (b :: bs) :: chunks f 8 (skipn 8 (b :: bs))). cbn [map]. unfold lane in *. destruct i as [|i]; cbn [nth].
    + rewrite bit_lane, bits_firstn, nth_firstn_lt by lia. reflexivity.
    + rewrite IH by lia. rewrite bits_skipn, nth_skipn_add. f_equal. lia.
Qed.
Lemma lane_bytes_small bs : length bs <= 8 -> small (lane_of_bytes bs).
Proof. intros L z Hz. rewrite bit_lane. apply nth_overflow. rewrite bits_length. lia. Qed.
Lemma chunks_facts f k : forall bs, length (chunks f k bs) <= f /\ Forall (fun c => length c <= k) (chunks f k bs).
Proof.
  induction f as [|f IH]; intro bs; [split; [reflexivity|constructor]|]. destruct bs as [|b bs]; [split; [cbn; lia|constructor]|].
  change (chunks (S f) k (b :: bs)) with (firstn k (b :: bs) :: chunks f k (skipn k (b :: bs))). destruct (IH (skipn k (b :: bs))) as [L F]. split; [cbn [length]; lia|]. constructor; [apply firstn_le_length|exact F].
Qed.
Definition put_block (P : list bool) (A : array) (i : nat) : array :=
  fun x y z => if 64 * (5 * y + x) + z <? 1088 then xorb (A x y z) (nth (1088 * i + (64 * (5 * y + x) + z)) P false) else A x y z.
Lemma rel_absorb st A P i block : rel st A -> (forall k, k < 1088 -> nth k (bits block) false = nth (1088 * i + k) P false) -> rel (absorb st block) (absorbed P A i).
Proof.
  intros (L & F & H) B. unfold absorb, absorbed. apply rel_permutation, rel_map; cbv zeta.
  - intros j Hj. apply small_lxor; [apply small_lane; exact F|]. apply small_lane, Forall_forall. intros a I. apply in_map_iff in I. destruct I as (c & <- & I).
    apply lane_bytes_small. destruct (chunks_facts 17 8 block) as [_ Fc]. rewrite Forall_forall in Fc. apply Fc. exact I.
  - intros x y z Hx Hy Hz. rewrite bit_lxor, H by assumption. destruct (Nat.ltb_spec (64 * (5 * y + x) + z) 1088) as [Lt|Ge].
    + rewrite block_lane by lia. replace (64 * (x + 5 * y) + z) with (64 * (5 * y + x) + z) by lia. rewrite B by exact Lt. reflexivity.
    + assert (E : lane (map lane_of_bytes (chunks 17 8 block)) (x + 5 * y) = 0%N).
      { apply nth_overflow. rewrite map_length. destruct (chunks_facts 17 8 block) as [Lc _]. lia. }
      rewrite E, bit_0. apply xorb_false_r.
Qed.

(** ** The sponge *)
Lemma rel_blocks P : forall n st A i bs, rel st A -> length bs = 136 * n -> bits bs = skipn (1088 * i) P ->
  forall f, n <= f -> rel (fold_left absorb (chunks f 136 bs) st) (fold_left (absorbed P) (seq i n) A).
Proof.
  induction n as [|n IH]; intros st A i bs R L E f Hf.
  - destruct bs as [|b bs]; [|discriminate L]. destruct f; exact R.
  - destruct f as [|f]; [lia|]. destruct bs as [|b bs]; [cbn [length] in L; lia|]. change (chunks (S f) 136 (b :: bs)) with (firstn 136 (b :: bs) :: chunks f 136 (skipn 136 (b :: bs))).
    cbn [seq fold_left]. apply IH; [| | |lia].
    + apply rel_absorb; [exact R|]. intros k Hk. rewrite bits_firstn, nth_firstn_lt by lia. rewrite E, nth_skipn_add. reflexivity.
    + rewrite skipn_length, L. lia.
    + rewrite bits_skipn, E. replace (1088 * S i) with (8 * 136 + 1088 * i) by lia. generalize (8 * 136) (1088 * i). clear. intros a b. revert P. induction b as [|b IHb]; intro P; [rewrite Nat.add_0_r; reflexivity|].
      destruct P as [|p P]; [rewrite !skipn_nil; reflexivity|]. rewrite <- plus_n_Sm. cbn [skipn]. apply IHb.
Qed.
Lemma zero_bits n : bits (repeat x00 n) = repeat false (8 * n).
Proof. induction n as [|n IH]; [reflexivity|]. cbn [repeat]. rewrite bits_cons, IH. replace (8 * S n) with (8 + 8 * n) by lia. reflexivity. Qed.
Lemma pad_bits bs : bits (keccak_pad bs) = bits bs ++ padding (length (bits bs)) /\ exists n, length (keccak_pad bs) = 136 * S n.
Proof.
  unfold keccak_pad, padding. rewrite bits_length. change rate with 136. pose proof (Nat.div_mod_eq (length bs) 136) as D. pose proof (Nat.mod_upper_bound (length bs) 136 ltac:(lia)) as U.
  set (q := length bs / 136) in *. set (r := length bs mod 136) in *. cbv zeta.
  assert (J : Z.to_nat ((- Z.of_nat (8 * length bs) - 2) mod 1088) = 8 * (136 - r) - 2).
  { replace (- Z.of_nat (8 * length bs) - 2)%Z with (Z.of_nat (8 * (136 - r) - 2) + (- Z.of_nat q - 1) * 1088)%Z by lia. rewrite Z.mod_add by lia. rewrite Z.mod_small by lia. apply Nat2Z.id. }
  rewrite J. destruct (Nat.eqb_spec (136 - r) 1) as [E|E].
  - rewrite E, bits_app. split; [reflexivity|]. exists q. rewrite app_length. cbn [length]. lia.
  - rewrite bits_app. split.
    + f_equal. rewrite bits_cons, bits_app, zero_bits. replace (8 * (136 - r) - 2) with (7 + (8 * (136 - r - 2) + 7)) by lia. rewrite !repeat_app, <- !app_assoc. reflexivity.
    + exists q. rewrite app_length. cbn [length]. rewrite app_length, repeat_length. cbn [length]. lia.
Qed.
Lemma rel_zero : rel (repeat 0%N 25) (fun _ _ _ => false).
Proof.
  split; [reflexivity|]. split; [apply Forall_forall; intros x I; apply repeat_spec in I; subst x; exact small_0|]. intros x y z _ _ _. unfold lane. rewrite nth_repeat. apply bit_0.
Qed.
Lemma seq_add a m : seq a m = map (Nat.add a) (seq 0 m).
Proof. revert a. induction m as [|m IH]; intro a; [reflexivity|]. cbn [seq map]. rewrite Nat.add_0_r. f_equal. rewrite (IH (S a)), (IH 1), map_map. apply map_ext. intro k. lia. Qed.
Lemma bits_of_lane n : forall x, bits (bytes_of_lane n x) = map (bit x) (seq 0 (8 * n)).
Proof.
  induction n as [|n IH]; intro x; [reflexivity|]. cbn [bytes_of_lane]. rewrite bits_cons, IH. replace (8 * S n) with (8 + 8 * n) by lia. rewrite seq_app, map_app. f_equal.
  - unfold byte_bits. apply map_ext_in. intros i I. apply in_seq in I.
    assert (E : Byte.to_N (byte_of_Z (Z.of_N (x mod 256))) = (x mod 256)%N).
    { pose proof (N.mod_upper_bound x 256 ltac:(lia)) as U. generalize dependent (x mod 256)%N. intros r U. unfold byte_of_Z. rewrite Z.mod_small by lia. rewrite N2Z.id. destruct (Byte.of_N r) as [b|] eqn:Q; [apply Byte.to_of_N; exact Q|].
      apply Byte.of_N_None_iff in Q. lia. }
    rewrite E. unfold bit. change 256%N with (2 ^ 8)%N. apply N.mod_pow2_bits_low. lia.
  - cbn [Nat.add]. rewrite (seq_add 8), map_map. apply map_ext. intro k. unfold bit. change 256%N with (2 ^ 8)%N. rewrite N.div_pow2_bits. f_equal. lia.
Qed.
Theorem keccak_correct bs : bits (keccak256 bs) = keccak_bits (bits bs).
Proof.
  unfold keccak256, keccak_bits, sponge. cbv zeta. destruct (pad_bits bs) as [E (n & L)]. set (P := bits bs ++ padding (length (bits bs))) in *.
  assert (LP : length P / 1088 = S n) by (rewrite <- E, bits_length, L; replace (8 * (136 * S n)) with (S n * 1088) by lia; apply Nat.div_mul; lia).
  rewrite LP. change rate with 136. pose proof (rel_blocks P (S n) _ _ 0 (keccak_pad bs) rel_zero L E (length (keccak_pad bs)) ltac:(lia)) as R.
  set (st := fold_left absorb _ _) in *. set (A := fold_left (absorbed P) _ _) in *. destruct R as (Ls & _ & H). clearbody st A. clear -Ls H.
  destruct st as [|l0 [|l1 [|l2 [|l3 st]]]]; try discriminate Ls. cbn [firstn flat_map]. rewrite app_nil_r, !bits_app, !bits_of_lane.
  assert (Q : forall i z, i < 4 -> z < 64 -> A ((64 * i + z) / 64 mod 5) ((64 * i + z) / 64 / 5) ((64 * i + z) mod 64) = bit (lane (l0 :: l1 :: l2 :: l3 :: st) i) z).
  { intros i z Hi Hz. rewrite (Nat.mul_comm 64 i), Nat.div_add_l, (Nat.div_small z), Nat.add_0_r by lia. rewrite (Nat.add_comm (i * 64)), Nat.mod_add, (Nat.mod_small z) by lia.
    rewrite (Nat.mod_small i), (Nat.div_small i) by lia. rewrite <- H by lia. f_equal. f_equal. lia. }
  change (seq 0 256) with (seq 0 64 ++ seq 64 64 ++ seq 128 64 ++ seq 192 64). rewrite !map_app.
  assert (G : forall i, i < 4 -> map (bit (lane (l0 :: l1 :: l2 :: l3 :: st) i)) (seq 0 64) = map (fun k => A (k / 64 mod 5) (k / 64 / 5) (k mod 64)) (seq (64 * i) 64)).
  { intros i Hi. rewrite (seq_add (64 * i)), map_map. apply map_ext_in. intros z I. apply in_seq in I. symmetry. apply Q; lia. }
  f_equal; [exact (G 0 ltac:(lia))|]. f_equal; [exact (G 1 ltac:(lia))|]. f_equal; [exact (G 2 ltac:(lia))|exact (G 3 ltac:(lia))].
Qed.
