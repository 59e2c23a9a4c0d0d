(** The UTF-8 codec against the specification [utf8]. *)
From Coq Require Import Strings.Byte.
From Verif Require Import Tac Bytes BytesProofs Utf8 Decimals DecimalsProofs Encoding Spec EncLeafProofs.
Open Scope Z_scope.

Lemma utf8_char_1 c : (c < 0x80)%N -> utf8_char c = [byte_of_Z (Z.of_N c)].
Proof.
  intro H. unfold utf8_char, utf8_len. destruct (N.ltb_spec c 0x80); [|lia].
  cbn [seq rev map Z.of_nat]. rewrite byte_val_eq. change (64 ^ 0) with 1. rewrite Z.div_1_r. reflexivity.
Qed.
Lemma utf8_char_2 c : (0x80 <= c < 0x800)%N ->
  utf8_char c = [byte_of_Z (0xC0 + Z.of_N c / 64); byte_of_Z (0x80 + Z.of_N c mod 64)].
Proof.
  intro H. unfold utf8_char, utf8_len. destruct (N.ltb_spec c 0x80); [lia|]. destruct (N.ltb_spec c 0x800); [|lia].
  cbn [seq rev map app]. rewrite !byte_val_eq. change (64 ^ Z.of_nat 1) with 64. change (64 ^ Z.of_nat 0) with 1.
  rewrite Z.div_1_r. reflexivity.
Qed.
Lemma utf8_char_3 c : (0x800 <= c < 0x10000)%N ->
  utf8_char c = [byte_of_Z (0xE0 + Z.of_N c / 4096); byte_of_Z (0x80 + (Z.of_N c / 64) mod 64);
                 byte_of_Z (0x80 + Z.of_N c mod 64)].
Proof.
  intro H. unfold utf8_char, utf8_len. destruct (N.ltb_spec c 0x80); [lia|]. destruct (N.ltb_spec c 0x800); [lia|].
  destruct (N.ltb_spec c 0x10000); [|lia].
  cbn [seq rev map app]. rewrite !byte_val_eq. change (64 ^ Z.of_nat 2) with 4096.
  change (64 ^ Z.of_nat 1) with 64. change (64 ^ Z.of_nat 0) with 1.
  rewrite Z.div_1_r. reflexivity.
Qed.
Lemma utf8_char_4 c : (0x10000 <= c)%N ->
  utf8_char c = [byte_of_Z (0xF0 + Z.of_N c / 262144); byte_of_Z (0x80 + (Z.of_N c / 4096) mod 64);
                 byte_of_Z (0x80 + (Z.of_N c / 64) mod 64); byte_of_Z (0x80 + Z.of_N c mod 64)].
Proof.
  intro H. unfold utf8_char, utf8_len. destruct (N.ltb_spec c 0x80); [lia|]. destruct (N.ltb_spec c 0x800); [lia|].
  destruct (N.ltb_spec c 0x10000); [lia|].
  cbn [seq rev map app]. rewrite !byte_val_eq. change (64 ^ Z.of_nat 3) with 262144. change (64 ^ Z.of_nat 2) with 4096.
  change (64 ^ Z.of_nat 1) with 64. change (64 ^ Z.of_nat 0) with 1.
  rewrite Z.div_1_r. reflexivity.
Qed.

Lemma utf8_encode_cp_ok c : scalar c -> utf8_encode_cp c = Ok (utf8_char c).
Proof.
  unfold scalar, utf8_encode_cp. intro H.
  destruct (Z.ltb_spec (Z.of_N c) 0x80); [rewrite utf8_char_1 by lia; reflexivity|].
  destruct (Z.ltb_spec (Z.of_N c) 0x800); [rewrite utf8_char_2 by lia; reflexivity|].
  destruct (Z.ltb_spec (Z.of_N c) 0x10000).
  - destruct (Z.leb_spec 0xD800 (Z.of_N c)), (Z.leb_spec (Z.of_N c) 0xDFFF); cbn [andb];
      try lia; rewrite utf8_char_3 by lia; reflexivity.
  - destruct (Z.ltb_spec (Z.of_N c) 0x110000); [|lia]. rewrite utf8_char_4 by lia; reflexivity.
Qed.
Lemma utf8_encode_cp_err c : ~ scalar c -> utf8_encode_cp c = Err UnicodeEncodeError.
Proof.
  unfold scalar, utf8_encode_cp. intro H.
  destruct (Z.ltb_spec (Z.of_N c) 0x80); [lia|].
  destruct (Z.ltb_spec (Z.of_N c) 0x800); [lia|].
  destruct (Z.ltb_spec (Z.of_N c) 0x10000).
  - destruct (Z.leb_spec 0xD800 (Z.of_N c)), (Z.leb_spec (Z.of_N c) 0xDFFF); cbn [andb]; lia || reflexivity.
  - destruct (Z.ltb_spec (Z.of_N c) 0x110000); [lia|reflexivity].
Qed.
Definition scalarb (c : N) : bool := ((c <? 0xD800) || ((0xDFFF <? c) && (c <? 0x110000)))%N.
Lemma scalarb_spec c : scalarb c = true <-> scalar c.
Proof. unfold scalarb, scalar. lia. Qed.
Lemma scalar_dec c : scalar c \/ ~ scalar c.
Proof. unfold scalar. lia. Qed.
Lemma utf8_encode_ok s : Forall scalar s -> utf8_encode s = Ok (utf8 s).
Proof.
  induction 1 as [|c s Hc _ IH]; [reflexivity|]. cbn [utf8_encode utf8 flat_map].
  rewrite utf8_encode_cp_ok by assumption. cbn [bind]. rewrite IH. reflexivity.
Qed.
Lemma utf8_encode_err s : ~ Forall scalar s -> utf8_encode s = Err UnicodeEncodeError.
Proof.
  induction s as [|c s IH]; intro H; [exfalso; apply H; constructor|]. cbn [utf8_encode].
  destruct (scalar_dec c) as [Hc|Hc].
  - rewrite utf8_encode_cp_ok by assumption. cbn [bind]. rewrite IH; [reflexivity|].
    intro; apply H; constructor; assumption.
  - rewrite utf8_encode_cp_err by assumption. reflexivity.
Qed.
Lemma scalars_dec s : Forall scalar s \/ ~ Forall scalar s.
Proof.
  induction s as [|c s IH]; [left; constructor|].
  destruct (scalar_dec c), IH; [left; constructor; assumption|right..]; intro F; inv F; contradiction.
Qed.
Lemma utf8_encode_cases s :
  utf8_encode s = Ok (utf8 s) /\ Forall scalar s \/ utf8_encode s = Err UnicodeEncodeError /\ ~ Forall scalar s.
Proof. destruct (scalars_dec s); [left|right]; auto using utf8_encode_ok, utf8_encode_err. Qed.

(** ** Decoding *)
Ltac zb := rewrite ?Z_of_byte_of_Z.
Ltac bool_lia :=
  repeat match goal with
  | |- context [?a <? ?b] => destruct (Z.ltb_spec a b)
  | |- context [?a <=? ?b] => destruct (Z.leb_spec a b)
  | |- context [?a =? ?b] => destruct (Z.eqb_spec a b)
  end; cbn [andb]; try lia.
Lemma split64 z : exists q r, z = q * 64 + r /\ 0 <= r < 64 /\ z / 64 = q /\ z mod 64 = r.
Proof. exists (z / 64), (z mod 64). repeat split; lia. Qed.
Lemma digits64 z : exists a b c d, z = a * 262144 + b * 4096 + c * 64 + d
  /\ 0 <= b < 64 /\ 0 <= c < 64 /\ 0 <= d < 64
  /\ z / 262144 = a /\ z / 4096 = a * 64 + b /\ (z / 4096) mod 64 = b
  /\ z / 64 = a * 4096 + b * 64 + c /\ (z / 64) mod 64 = c /\ z mod 64 = d.
Proof.
  destruct (split64 z) as (q1 & d & E1 & R1 & D1 & M1).
  destruct (split64 q1) as (q2 & c & E2 & R2 & D2 & M2).
  destruct (split64 q2) as (a & b & E3 & R3 & D3 & M3).
  assert (H4096 : z / 4096 = q2) by (change 4096 with (64 * 64); rewrite <- Z.div_div, D1, D2 by lia; reflexivity).
  assert (H262 : z / 262144 = a)
    by (change 262144 with (4096 * 64); rewrite <- Z.div_div, H4096, D3 by lia; reflexivity).
  exists a, b, c, d. rewrite H4096, H262, D1. repeat split; try assumption; try lia.
Qed.
Lemma digits_at x y z w : 0 <= y < 64 -> 0 <= z < 64 -> 0 <= w < 64 ->
  let n := x * 262144 + y * 4096 + z * 64 + w in
  n / 262144 = x /\ n / 4096 = x * 64 + y /\ (n / 4096) mod 64 = y
  /\ (n / 64) mod 64 = z /\ n mod 64 = w.
Proof.
  intros Hy Hz Hw n.
  destruct (digits64 n) as (a & b & c & d & E & Rb & Rc & Rd & D3 & D2 & M2 & D1 & M1 & M0).
  unfold n in E at 1. rewrite D3, D2, M1, M0.
  assert (a = x /\ b = y /\ c = z /\ d = w) as (-> & -> & -> & ->) by lia.
  repeat split. rewrite <- D2. exact M2.
Qed.
Ltac small := rewrite !(Z.mod_small _ 256) by lia.
Ltac Zify.zify_post_hook ::= idtac.
Lemma utf8_decode_char c bs : scalar c ->
  utf8_decode (utf8_char c ++ bs) = (s <- utf8_decode bs ;; Ok (c :: s)).
Proof.
  unfold scalar. intro H.
  assert (Hc : (c < 0x80 \/ 0x80 <= c < 0x800 \/ 0x800 <= c < 0x10000 \/ 0x10000 <= c < 0x110000)%N) by lia.
  destruct (digits64 (Z.of_N c)) as (x & y & z & w & E & Ry & Rz & Rw & D3 & D2 & M2 & D1 & M1 & M0).
  destruct Hc as [Hc|[Hc|[Hc|Hc]]].
  - rewrite utf8_char_1 by lia. cbn [app utf8_decode]. zb. rewrite Z.mod_small by lia.
    destruct (Z.ltb_spec (Z.of_N c) 0x80); [|lia]. rewrite N2Z.id. reflexivity.
  - rewrite utf8_char_2 by lia. cbn [app utf8_decode]. unfold is_cont. zb. rewrite D1, M0.
    assert (x = 0) by lia. assert (y = 0) by lia. clear D3 D2 M2. subst x y. small.
    bool_lia. replace (Z.to_N _) with c by lia. reflexivity.
  - rewrite utf8_char_3 by lia. cbn [app utf8_decode]. unfold is_cont. zb. rewrite D2, M1, M0.
    assert (x = 0) by lia. clear D3. subst x. small.
    destruct (Z.ltb_spec (224 + (0 * 64 + y)) 128); [lia|].
    destruct (Z.ltb_spec (224 + (0 * 64 + y)) 194); [lia|].
    destruct (Z.ltb_spec (224 + (0 * 64 + y)) 224); [lia|].
    destruct (Z.ltb_spec (224 + (0 * 64 + y)) 240); [|lia].
    match goal with |- (if ?b then _ else _) = _ => replace b with true end; [replace (Z.to_N _) with c by lia; reflexivity|].
    symmetry. rewrite !andb_true_iff, !Z.leb_le.
    destruct (Z.eqb_spec (224 + (0 * 64 + y)) 224), (Z.eqb_spec (224 + (0 * 64 + y)) 237);
      rewrite ?Z.leb_le; repeat split; lia.
  - rewrite utf8_char_4 by lia. cbn [app utf8_decode]. unfold is_cont. zb. rewrite D3, M2, M1, M0.
    assert (0 <= x <= 4) by lia. small.
    destruct (Z.ltb_spec (240 + x) 128); [lia|].
    destruct (Z.ltb_spec (240 + x) 194); [lia|].
    destruct (Z.ltb_spec (240 + x) 224); [lia|].
    destruct (Z.ltb_spec (240 + x) 240); [lia|].
    destruct (Z.ltb_spec (240 + x) 245); [|lia].
    match goal with |- (if ?b then _ else _) = _ => replace b with true end; [replace (Z.to_N _) with c by lia; reflexivity|].
    symmetry. rewrite !andb_true_iff, !Z.leb_le.
    destruct (Z.eqb_spec (240 + x) 240), (Z.eqb_spec (240 + x) 244);
      rewrite ?Z.leb_le; repeat split; lia.
Qed.
Lemma utf8_decode_utf8 s : Forall scalar s -> utf8_decode (utf8 s) = Ok s.
Proof.
  induction 1 as [|c s Hc _ IH]; [reflexivity|]. cbn [utf8 flat_map].
  rewrite utf8_decode_char by assumption. fold (utf8 s). rewrite IH. reflexivity.
Qed.

Lemma byte_of_Z_eq z b : Z_of_byte b = z -> byte_of_Z z = b.
Proof. intros <-. apply byte_of_Z_of_byte. Qed.

(** One step of the decoder: either an error or one character. *)
Lemma utf8_decode_step b0 r :
  utf8_decode (b0 :: r) = Err UnicodeDecodeError
  \/ exists c r', scalar c /\ b0 :: r = utf8_char c ++ r' /\ (length r' < length (b0 :: r))%nat.
Proof.
  assert (R : forall b, 0 <= Z_of_byte b < 256) by apply Z_of_byte_range.
  cbn [utf8_decode].
  pose proof (R b0) as R0.
  destruct (Z.ltb_spec (Z_of_byte b0) 0x80).
  { right. exists (Z.to_N (Z_of_byte b0)), r. split; [unfold scalar; lia|]. split; [|cbn; lia].
    rewrite utf8_char_1 by lia. cbn [app]. f_equal. symmetry. apply byte_of_Z_eq. lia. }
  destruct (Z.ltb_spec (Z_of_byte b0) 0xC2); [left; reflexivity|].
  destruct r as [|b1 r1]; [left; reflexivity|]. pose proof (R b1) as R1.
  destruct (Z.ltb_spec (Z_of_byte b0) 0xE0).
  { unfold is_cont. destruct (Z.leb_spec 0x80 (Z_of_byte b1)), (Z.leb_spec (Z_of_byte b1) 0xBF); cbn [andb];
      try (left; reflexivity).
    right. exists (Z.to_N ((Z_of_byte b0 - 0xC0) * 64 + (Z_of_byte b1 - 0x80))), r1.
    split; [unfold scalar; lia|]. split; [|cbn; lia].
    rewrite utf8_char_2 by lia. cbn [app]. rewrite Z2N.id by lia.
    set (u := Z_of_byte b0 - 0xC0) in *. set (v := Z_of_byte b1 - 0x80) in *.
    rewrite (Z.div_add_l u 64), (Z.add_comm (u * 64)), Z.mod_add, (Z.div_small v 64), (Z.mod_small v 64) by lia.
    f_equal; [symmetry; apply byte_of_Z_eq; lia|]. f_equal. symmetry. apply byte_of_Z_eq. lia. }
  destruct r1 as [|b2 r2]; [left; reflexivity|]. pose proof (R b2) as R2.
  destruct (Z.ltb_spec (Z_of_byte b0) 0xF0).
  { destruct (_ && _) eqn:E; [right|left; reflexivity]. unfold is_cont in E.
    exists (Z.to_N ((Z_of_byte b0 - 0xE0) * 4096 + (Z_of_byte b1 - 0x80) * 64 + (Z_of_byte b2 - 0x80))), r2.
    assert (0x80 <= Z_of_byte b1 <= 0xBF /\ 0x80 <= Z_of_byte b2 <= 0xBF
            /\ (Z_of_byte b0 = 0xE0 -> 0xA0 <= Z_of_byte b1)
            /\ (Z_of_byte b0 = 0xED -> Z_of_byte b1 <= 0x9F)) as (Hb1 & Hb2 & He0 & Hed).
    { rewrite !andb_true_iff in E. destruct E as [[[[] []] E3] E4].
      destruct (Z.eqb_spec (Z_of_byte b0) 0xE0), (Z.eqb_spec (Z_of_byte b0) 0xED); lia. }
    split; [unfold scalar; lia|]. split; [|cbn; lia].
    rewrite utf8_char_3 by lia. cbn [app]. rewrite Z2N.id by lia.
    destruct (digits_at 0 (Z_of_byte b0 - 0xE0) (Z_of_byte b1 - 0x80) (Z_of_byte b2 - 0x80)) as (_ & E2 & _ & E1 & E0);
      [lia..|]. rewrite Z.mul_0_l, Z.add_0_l in *. rewrite E2, E1, E0.
    f_equal; [symmetry; apply byte_of_Z_eq; lia|]. f_equal; [symmetry; apply byte_of_Z_eq; lia|].
    f_equal. symmetry. apply byte_of_Z_eq. lia. }
  destruct r2 as [|b3 r3]; [left; reflexivity|]. pose proof (R b3) as R3.
  destruct (Z.ltb_spec (Z_of_byte b0) 0xF5); [|left; reflexivity].
  destruct (_ && _) eqn:E; [right|left; reflexivity]. unfold is_cont in E.
  exists (Z.to_N ((Z_of_byte b0 - 0xF0) * 262144 + (Z_of_byte b1 - 0x80) * 4096
                             + (Z_of_byte b2 - 0x80) * 64 + (Z_of_byte b3 - 0x80))), r3.
  assert (0x80 <= Z_of_byte b1 <= 0xBF /\ 0x80 <= Z_of_byte b2 <= 0xBF /\ 0x80 <= Z_of_byte b3 <= 0xBF
            /\ (Z_of_byte b0 = 0xF0 -> 0x90 <= Z_of_byte b1)
            /\ (Z_of_byte b0 = 0xF4 -> Z_of_byte b1 <= 0x8F)) as (Hb1 & Hb2 & Hb3 & He0 & Hed).
  { rewrite !andb_true_iff in E. destruct E as [[[[[] []] []] E3] E4].
    destruct (Z.eqb_spec (Z_of_byte b0) 0xF0), (Z.eqb_spec (Z_of_byte b0) 0xF4); lia. }
  split; [unfold scalar; lia|]. split; [|cbn; lia].
  rewrite utf8_char_4 by lia. cbn [app]. rewrite Z2N.id by lia.
  destruct (digits_at (Z_of_byte b0 - 0xF0) (Z_of_byte b1 - 0x80) (Z_of_byte b2 - 0x80) (Z_of_byte b3 - 0x80))
    as (E3 & _ & E2 & E1 & E0); [lia..|]. rewrite E3, E2, E1, E0.
  f_equal; [symmetry; apply byte_of_Z_eq; lia|]. f_equal; [symmetry; apply byte_of_Z_eq; lia|].
  f_equal; [symmetry; apply byte_of_Z_eq; lia|]. f_equal. symmetry. apply byte_of_Z_eq. lia.
Qed.

(** The decoder accepts exactly the well-formed sequences. *)
Lemma utf8_decode_cases bs :
  utf8_decode bs = Err UnicodeDecodeError
  \/ exists s, utf8_decode bs = Ok s /\ Forall scalar s /\ bs = utf8 s.
Proof.
  remember (length bs) as k eqn:Hk.
  assert (Hle : (length bs <= k)%nat) by lia. clear Hk. revert bs Hle.
  induction k as [|k IH]; intros bs Hle.
  - destruct bs; [|cbn in Hle; lia]. right. exists []. auto.
  - destruct bs as [|b0 r]; [right; exists []; auto|].
    destruct (utf8_decode_step b0 r) as [E|(c & r' & Hc & E & Hl)]; [left; exact E|].
    rewrite E, utf8_decode_char by assumption.
    destruct (IH r' ltac:(lia)) as [->|(s & -> & Hs & ->)]; [left; reflexivity|right].
    exists (c :: s). cbn [bind utf8 flat_map]. auto.
Qed.
Lemma utf8_decode_Ok bs s : utf8_decode bs = Ok s -> Forall scalar s /\ bs = utf8 s.
Proof.
  intro H. destruct (utf8_decode_cases bs) as [E|(s' & E & Hs & Hb)]; [congruence|].
  assert (s' = s) as -> by congruence. auto.
Qed.
Lemma utf8_inj s1 s2 : Forall scalar s1 -> Forall scalar s2 -> utf8 s1 = utf8 s2 -> s1 = s2.
Proof.
  intros H1 H2 E. apply utf8_decode_utf8 in H1, H2. rewrite E in H1. congruence.
Qed.
Ltac Zify.zify_post_hook ::= Z.div_mod_to_equations.
