(** The address functions against the specification [address_text]. *)
From Coq Require Import Strings.Byte Strings.String.
From Verif Require Import Tac Bytes BytesProofs Keccak Address Decimals DecimalsProofs Encoding Spec EncLeafProofs.
Open Scope Z_scope.
Global Opaque keccak256.

Lemma hex_char_digit z : 0 <= z < 16 -> hex_digit z = hex_char z.
Proof.
  intro H. unfold hex_char.
  assert (E : z = 0 \/ z = 1 \/ z = 2 \/ z = 3 \/ z = 4 \/ z = 5 \/ z = 6 \/ z = 7 \/ z = 8 \/ z = 9
    \/ z = 10 \/ z = 11 \/ z = 12 \/ z = 13 \/ z = 14 \/ z = 15) by lia.
  repeat destruct E as [->|E]; [reflexivity..|subst; reflexivity].
Qed.
Lemma hex_digit_cases z : 0 <= z < 16 ->
  (0 <= z < 10 /\ hex_digit z = Z.to_N (48 + z)) \/ (10 <= z < 16 /\ hex_digit z = Z.to_N (87 + z)).
Proof. intro H. unfold hex_digit. destruct (Z.ltb_spec z 10); [left|right]; split; lia || reflexivity. Qed.
Lemma unhex_hex_digit z : 0 <= z < 16 -> unhex_digit (hex_digit z) = z.
Proof.
  intro H. unfold unhex_digit, is_digit, is_lower_hex, in_range.
  destruct (hex_digit_cases z H) as [[Hz ->]|[Hz ->]];
    rewrite Z2N.id by lia;
    repeat match goal with |- context [N.leb ?a ?b] => destruct (N.leb_spec a b) end; cbn [andb]; lia.
Qed.
Lemma hex_of_bytes_eq b : hex_of_bytes b = hex_lower b.
Proof.
  unfold hex_of_bytes, hex_lower, nibbles. induction b as [|x b IH]; [reflexivity|].
  cbn [flat_map app map]. unfold hex_of_byte. cbn [app map].
  pose proof (Z_of_byte_range x). unfold Z_of_byte in *.
  rewrite <- !hex_char_digit by lia. cbn [app]. do 2 f_equal. exact IH.
Qed.

Lemma hex_value_digit c h : hex_value c = Some h ->
  is_hex_digit c = true /\ unhex_digit c = h /\ 0 <= h < 16 /\ lower_cp c = hex_digit h
  /\ (is_upper_hex c = true <-> upper_letter c) /\ (is_lower_hex c = true <-> lower_letter c).
Proof.
  unfold hex_value, is_hex_digit, unhex_digit, lower_cp, is_digit, is_lower_hex, is_upper_hex, in_range,
    hex_digit, upper_letter, lower_letter.
  intro H.
  destruct (N.leb_spec 48 c), (N.leb_spec c 57), (N.leb_spec 97 c), (N.leb_spec c 102),
    (N.leb_spec 65 c), (N.leb_spec c 70), (N.leb_spec c 90); cbn [andb orb] in *; try discriminate; try lia;
    injection H as <-;
    (split; [reflexivity|]; split; [lia|]; split; [lia|]; split; [|split; split; intro; lia || discriminate || reflexivity]);
    match goal with |- context [?a <? ?b] => destruct (Z.ltb_spec a b) end; lia.
Qed.
Lemma hex_value_total c : is_hex_digit c = true -> exists h, hex_value c = Some h.
Proof.
  unfold is_hex_digit, is_digit, is_lower_hex, is_upper_hex, in_range, hex_value. intro H.
  destruct ((48 <=? c) && (c <=? 57))%N eqn:E1; [eauto|].
  destruct ((97 <=? c) && (c <=? 102))%N eqn:E2; [eauto|].
  destruct ((65 <=? c) && (c <=? 70))%N eqn:E3; [eauto|]. discriminate.
Qed.

Lemma hex_pairs_facts d b : hex_pairs d b ->
  bytes_of_hex d = b /\ forallb is_hex_digit d = true /\ len d = 2 * len b /\ lower d = hex_lower b
  /\ Forall (fun c => (is_upper_hex c = true <-> upper_letter c) /\ (is_lower_hex c = true <-> lower_letter c)) d.
Proof.
  induction 1 as [|c0 c1 h l x s bs H0 H1 Hx _ (IH1 & IH2 & IH3 & IH4 & IH5)].
  - repeat split; try reflexivity. constructor.
  - apply hex_value_digit in H0, H1.
    destruct H0 as (H01 & H02 & H03 & H04 & H05 & H06), H1 as (H11 & H12 & H13 & H14 & H15 & H16).
    cbn [bytes_of_hex forallb lower map]. rewrite H01, H11, H02, H12, H04, H14, IH1, IH2.
    split; [|split; [reflexivity|split; [lens; lia|split]]].
    + f_equal. rewrite Z.mul_comm, <- Hx. apply byte_of_Z_of_byte.
    + unfold hex_lower, nibbles in *. cbn [flat_map app map].
      rewrite Hx. replace ((16 * h + l) / 16) with h by lia. replace ((16 * h + l) mod 16) with l by lia.
      rewrite <- !hex_char_digit by lia.
      do 2 f_equal. exact IH4.
    + constructor; [auto|]. constructor; auto.
Qed.
Lemma hex_pairs_total k : forall d, length d = (2 * k)%nat -> forallb is_hex_digit d = true ->
  exists b, hex_pairs d b /\ len b = Z.of_nat k.
Proof.
  induction k as [|k IH]; intros d Hl Hd.
  - destruct d; [|discriminate]. exists []. split; [constructor|reflexivity].
  - destruct d as [|c0 [|c1 d]]; cbn [length] in Hl; try lia.
    cbn [forallb] in Hd. rewrite !andb_true_iff in Hd. destruct Hd as (H0 & H1 & Hd).
    destruct (IH d ltac:(lia) Hd) as (b & Hb & Hlb).
    destruct (hex_value_total c0 H0) as [h Hh], (hex_value_total c1 H1) as [l Hl'].
    pose proof (proj1 (proj2 (proj2 (hex_value_digit _ _ Hh)))).
    pose proof (proj1 (proj2 (proj2 (hex_value_digit _ _ Hl')))).
    exists (byte_of_Z (16 * h + l) :: b). split; [|lens; lia].
    econstructor; eauto.
    pose proof (Z_of_byte_of_Z (16 * h + l)) as E. unfold Z_of_byte in E.
    etransitivity; [exact E|]. apply Z.mod_small; lia.
Qed.

(** ** Prefixes *)
Lemma hex_digits_no_prefix d : forallb is_hex_digit d = true -> is_0x_prefixed d = false.
Proof.
  destruct d as [|c0 [|c1 d]]; try reflexivity. cbn [forallb is_0x_prefixed]. rewrite !andb_true_iff.
  intros (_ & H & _). unfold is_hex_digit, is_digit, is_lower_hex, is_upper_hex, in_range in H.
  destruct (N.eqb_spec c1 120), (N.eqb_spec c1 88); subst; cbn in H; try discriminate.
  rewrite andb_false_r. reflexivity.
Qed.
Lemma remove_prefix_cases s :
  (is_0x_prefixed s = false /\ remove_0x_prefix s = s)
  \/ (s = lit "0x" ++ remove_0x_prefix s) \/ (s = lit "0X" ++ remove_0x_prefix s).
Proof.
  unfold remove_0x_prefix. destruct (is_0x_prefixed s) eqn:E; [right|left; auto].
  destruct s as [|c0 [|c1 s]]; try discriminate. cbn [is_0x_prefixed] in E.
  destruct (N.eqb_spec c0 48); [|discriminate]. subst.
  destruct (N.eqb_spec c1 120); [left; subst; reflexivity|].
  destruct (N.eqb_spec c1 88); [right; subst; reflexivity|discriminate].
Qed.
Definition is_pre (pre : pystr) : Prop := pre = [] \/ pre = lit "0x" \/ pre = lit "0X".
Lemma remove_prefix_app pre d : is_pre pre -> forallb is_hex_digit d = true -> remove_0x_prefix (pre ++ d) = d.
Proof.
  intros [->|[->| ->]] Hd; [|reflexivity..]. cbn [app]. unfold remove_0x_prefix.
  rewrite hex_digits_no_prefix by exact Hd. reflexivity.
Qed.
Lemma remove_prefix_split s : exists pre, is_pre pre /\ s = pre ++ remove_0x_prefix s.
Proof.
  destruct (remove_prefix_cases s) as [[_ ->]|[E|E]].
  - exists []. split; [left; reflexivity|reflexivity].
  - exists (lit "0x"). split; [right; left; reflexivity|exact E].
  - exists (lit "0X"). split; [right; right; reflexivity|exact E].
Qed.

Lemma lower_prefix pre : is_pre pre -> lower pre = [] \/ lower pre = lit "0x".
Proof. intros [->|[->| ->]]; [left|right|right]; reflexivity. Qed.
Lemma lower_hex_digits d : forallb is_hex_digit d = true -> forallb is_hex_digit (lower d) = true.
Proof.
  unfold lower. induction d as [|c d IH]; [reflexivity|]. cbn [forallb map]. rewrite !andb_true_iff.
  intros [Hc Hd]. split; [|auto].
  unfold is_hex_digit, is_digit, is_lower_hex, is_upper_hex, lower_cp, in_range in *.
  destruct (N.leb_spec 65 c), (N.leb_spec c 90); cbn [andb]; lia.
Qed.
Lemma normalize_hex_app pre d : is_pre pre -> forallb is_hex_digit d = true ->
  normalize_hex (pre ++ d) = lit "0x" ++ lower d.
Proof.
  intros Hp Hd. unfold normalize_hex, lower. rewrite map_app. fold (lower pre) (lower d).
  destruct (lower_prefix pre Hp) as [->| ->]; cbn [app].
  - unfold add_0x_prefix. rewrite hex_digits_no_prefix by (apply lower_hex_digits; exact Hd). reflexivity.
  - reflexivity.
Qed.

(** ** Case *)
Definition no_upper (d : pystr) : Prop := Forall (fun c => ~ upper_letter c) d.
Definition no_lower (d : pystr) : Prop := Forall (fun c => ~ lower_letter c) d.
Lemma existsb_upper d : existsb is_cased_upper d = false <-> no_upper d.
Proof.
  unfold no_upper. induction d as [|c d IH]; [split; [constructor|reflexivity]|].
  cbn [existsb]. rewrite orb_false_iff, IH. unfold is_cased_upper, in_range, upper_letter.
  split; [intros [H1 H2]; constructor; [lia|exact H2]|intro F; inv F; split; [lia|assumption]].
Qed.
Lemma existsb_lower d : existsb is_cased_lower d = false <-> no_lower d.
Proof.
  unfold no_lower. induction d as [|c d IH]; [split; [constructor|reflexivity]|].
  cbn [existsb]. rewrite orb_false_iff, IH. unfold is_cased_lower, in_range, lower_letter.
  split; [intros [H1 H2]; constructor; [lia|exact H2]|intro F; inv F; split; [lia|assumption]].
Qed.
Lemma numeric_no_case d : forallb is_hex_digit d = true -> no_upper d -> no_lower d -> forallb is_digit d = true.
Proof.
  unfold no_upper, no_lower, upper_letter, lower_letter.
  induction d as [|c d IH]; [reflexivity|]. cbn [forallb]. rewrite !andb_true_iff.
  intros [H1 H2] H3 H4. inv H3. inv H4. split; [|auto].
  unfold is_hex_digit, is_digit, is_lower_hex, is_upper_hex, in_range in *. lia.
Qed.
Lemma numeric_no_case_inv d : forallb is_digit d = true -> no_upper d /\ no_lower d.
Proof.
  unfold no_upper, no_lower, upper_letter, lower_letter.
  induction d as [|c d IH]; [split; constructor|]. cbn [forallb]. rewrite !andb_true_iff.
  intros [H1 H2]. destruct (IH H2). unfold is_digit, in_range in H1. split; constructor; auto; lia.
Qed.
Lemma not_checksum_formatted s d : remove_0x_prefix s = d -> d <> [] -> forallb is_hex_digit d = true ->
  is_checksum_formatted s = false <-> no_upper d \/ no_lower d.
Proof.
  intros Hs Hne Hd. unfold is_checksum_formatted. rewrite Hs.
  unfold str_islower, str_isupper, str_isnumeric.
  rewrite <- existsb_upper, <- existsb_lower.
  destruct (existsb is_cased_upper d) eqn:Eu, (existsb is_cased_lower d) eqn:El; cbn [andb negb].
  - split; [|intros [H|H]; discriminate]. intro H. exfalso.
    destruct d; [congruence|]. destruct (forallb is_digit (n :: d)) eqn:E; [|discriminate].
    apply numeric_no_case_inv in E. destruct E as [E _]. apply existsb_upper in E. congruence.
  - split; auto.
  - split; auto.
  - split; auto. intros _. destruct d; [congruence|].
    rewrite numeric_no_case; [reflexivity|exact Hd|apply existsb_upper; exact Eu|apply existsb_lower; exact El].
Qed.

(** ** The checksum *)
Lemma checksum_eq b : checksum_of_normalized (lit "0x" ++ hex_lower b) = lit "0x" ++ eip55 b.
Proof.
  unfold checksum_of_normalized. change (remove_0x_prefix (lit "0x" ++ hex_lower b)) with (hex_lower b).
  f_equal. unfold eip55.
  assert (Ha : map (fun c => byte_of_Z (Z.of_N c)) (hex_lower b) = ascii_bytes (hex_lower b)).
  { unfold ascii_bytes. apply map_ext. intro c. symmetry. apply byte_val_eq. }
  rewrite Ha. generalize (keccak256 (ascii_bytes (hex_lower b))). intro k.
  rewrite hex_of_bytes_eq. unfold hex_lower at 2.
  assert (Hn : Forall (fun z => 0 <= z < 16) (nibbles k)).
  { unfold nibbles. induction k as [|x k IH]; [constructor|]. cbn [flat_map app].
    pose proof (Z_of_byte_range x). unfold Z_of_byte in *. constructor; [lia|]. constructor; [lia|exact IH]. }
  assert (Hh : Forall (fun c => (48 <= c <= 57 \/ 97 <= c <= 102)%N) (hex_lower b)).
  { unfold hex_lower, nibbles. clear. induction b as [|x b IH]; [constructor|]. cbn [flat_map app map].
    pose proof (Z_of_byte_range x). unfold Z_of_byte in *.
    constructor; [|constructor; [|exact IH]]; rewrite <- hex_char_digit by lia.
    - destruct (hex_digit_cases (Z.of_N (Byte.to_N x) / 16)) as [[? ->]|[? ->]]; lia.
    - destruct (hex_digit_cases (Z.of_N (Byte.to_N x) mod 16)) as [[? ->]|[? ->]]; lia. }
  generalize dependent (nibbles k). revert Hh. generalize (hex_lower b). clear.
  intro l; induction l as [|c l IH]; intros Hl ns Hn; [reflexivity|].
  destruct ns as [|n ns]; [reflexivity|]. inv Hl. inv Hn.
  cbn [map combine fst snd]. f_equal; [|apply IH; assumption].
  rewrite <- hex_char_digit, unhex_hex_digit by assumption.
  unfold upper_cp, in_range.
  destruct (Z.ltb_spec 7 n), (Z.leb_spec 8 n), (N.leb_spec 97 c), (N.leb_spec c 122); cbn [andb]; try lia; reflexivity.
Qed.

(** ** Main results *)
Lemma is_hex_address_spec s : is_hex_address s = true <->
  exists pre d b, s = pre ++ d /\ is_pre pre /\ len b = 20 /\ hex_pairs d b.
Proof.
  unfold is_hex_address. rewrite andb_true_iff, Z.eqb_eq. split.
  - intros [Hl Hd]. destruct (remove_prefix_split s) as (pre & Hp & Hs).
    destruct (hex_pairs_total 20 (remove_0x_prefix s)) as (b & Hb & Hlb).
    { apply length_len. exact Hl. }
    { exact Hd. }
    exists pre, (remove_0x_prefix s), b. auto.
  - intros (pre & d & b & -> & Hp & Hl & Hd).
    destruct (hex_pairs_facts d b Hd) as (_ & Hh & Hld & _).
    rewrite remove_prefix_app by assumption. split; [lia|exact Hh].
Qed.

Lemma address_text_unique s b1 b2 : address_text s b1 -> address_text s b2 -> b1 = b2.
Proof.
  intros (p1 & d1 & E1 & Hp1 & _ & Hd1 & _) (p2 & d2 & E2 & Hp2 & _ & Hd2 & _).
  apply hex_pairs_facts in Hd1, Hd2. destruct Hd1 as (<- & Hh1 & _), Hd2 as (<- & Hh2 & _).
  f_equal. rewrite <- (remove_prefix_app p1 d1), <- (remove_prefix_app p2 d2) by assumption. congruence.
Qed.

Lemma is_address_text s : is_address (PStr s) = true <-> exists b, address_text s b.
Proof.
  cbn [is_address]. destruct (is_hex_address s) eqn:Eh.
  2:{ split; [discriminate|]. intros (b & pre & d & Hs & Hp & Hl & Hd & _).
      assert (is_hex_address s = true); [|congruence]. apply is_hex_address_spec. exists pre, d, b. auto. }
  pose proof Eh as Eh'. apply is_hex_address_spec in Eh'. destruct Eh' as (pre & d & b & Hs & Hp & Hl & Hd).
  destruct (hex_pairs_facts d b Hd) as (Hb & Hh & Hld & Hlow & _).
  assert (Hrm : remove_0x_prefix s = d) by (rewrite Hs; apply remove_prefix_app; assumption).
  assert (Hne : d <> []) by (intros ->; lens; lia).
  destruct (is_checksum_formatted s) eqn:Ec.
  - unfold is_checksum_address. rewrite Eh. cbn [andb].
    rewrite Hs at 2. rewrite normalize_hex_app, Hlow, checksum_eq by assumption.
    rewrite str_eqb_eq. split.
    + intro E. exists b. exists (lit "0x"), d.
      assert (d = eip55 b) as Hde.
      { rewrite <- Hrm, E. reflexivity. }
      split; [rewrite Hde; exact E|]. split; [right; left; reflexivity|]. auto 10.
    + intros (b' & pre' & d' & Hs' & Hp' & Hl' & Hd' & Hcase).
      destruct (hex_pairs_facts d' b' Hd') as (Hb' & Hh' & _).
      assert (d' = d) as -> by (rewrite <- Hrm, Hs'; symmetry; apply remove_prefix_app; assumption).
      assert (b' = b) as -> by congruence.
      assert (N1 : ~ (no_upper d \/ no_lower d))
        by (rewrite <- (not_checksum_formatted s d Hrm Hne Hh); congruence).
      destruct Hcase as [H|[H|[-> H]]]; [exfalso; apply N1; auto..|]. rewrite Hs'. congruence.
  - split; [intros _|reflexivity]. exists b, pre, d. repeat split; try assumption.
    apply (not_checksum_formatted s d Hrm Hne Hh) in Ec. destruct Ec; auto.
Qed.

Lemma lower_hex_lower_no_upper b : no_upper (hex_lower b).
Proof.
  unfold no_upper, hex_lower, nibbles, upper_letter. induction b as [|x b IH]; [constructor|]. cbn [flat_map app map].
  pose proof (Z_of_byte_range x). unfold Z_of_byte in *.
  constructor; [|constructor; [|exact IH]]; rewrite <- hex_char_digit by lia.
  - destruct (hex_digit_cases (Z.of_N (Byte.to_N x) / 16)) as [[? ->]|[? ->]]; lia.
  - destruct (hex_digit_cases (Z.of_N (Byte.to_N x) mod 16)) as [[? ->]|[? ->]]; lia.
Qed.
Lemma hex_value_hex_char z : 0 <= z < 16 -> hex_value (hex_char z) = Some z.
Proof.
  intro H. rewrite <- hex_char_digit by exact H. unfold hex_value.
  destruct (hex_digit_cases z H) as [[? ->]|[? ->]];
  repeat match goal with |- context [N.leb ?a ?b] => destruct (N.leb_spec a b) end; cbn [andb]; try lia; f_equal; lia.
Qed.
Lemma hex_pairs_hex_lower b : hex_pairs (hex_lower b) b.
Proof.
  unfold hex_lower, nibbles. induction b as [|x b IH]; [constructor|]. cbn [flat_map app map].
  pose proof (Z_of_byte_range x). unfold Z_of_byte in *.
  econstructor; [apply hex_value_hex_char; lia|apply hex_value_hex_char; lia|lia|exact IH].
Qed.
Lemma address_text_hex_lower b : len b = 20 -> address_text (lit "0x" ++ hex_lower b) b.
Proof.
  intro H. exists (lit "0x"), (hex_lower b). split; [reflexivity|]. split; [auto|]. split; [exact H|].
  split; [apply hex_pairs_hex_lower|]. left. apply lower_hex_lower_no_upper.
Qed.

Lemma to_normalized_bytes b : len b = 20 -> to_normalized_address (PBytes b) = Ok (lit "0x" ++ hex_lower b).
Proof.
  intro H. unfold to_normalized_address. rewrite hex_of_bytes_eq.
  replace (is_address _) with true; [reflexivity|]. symmetry. apply is_address_text.
  exists b. apply address_text_hex_lower. exact H.
Qed.
Lemma to_canonical_bytes p b : bytes_like p b -> len b = 20 -> to_canonical_address p = Ok b.
Proof.
  intros Hp H. unfold to_canonical_address.
  assert (E : to_normalized_address p = Ok (lit "0x" ++ hex_lower b)).
  { destruct Hp as [->| ->]; [|change (to_normalized_address (PByteArray b)) with (to_normalized_address (PBytes b))];
      apply to_normalized_bytes; exact H. }
  rewrite E. cbn [bind]. f_equal. change (remove_0x_prefix (lit "0x" ++ hex_lower b)) with (hex_lower b).
  apply hex_pairs_facts, hex_pairs_hex_lower.
Qed.
Lemma to_canonical_text s b : address_text s b -> to_canonical_address (PStr s) = Ok b.
Proof.
  intros (pre & d & -> & Hp & Hl & Hd & _).
  destruct (hex_pairs_facts d b Hd) as (Hb & Hh & Hld & Hlow & _).
  unfold to_canonical_address, to_normalized_address.
  rewrite normalize_hex_app, Hlow by assumption.
  replace (is_address _) with true by (symmetry; apply is_address_text; exists b; apply address_text_hex_lower; exact Hl).
  cbn [bind]. f_equal. change (remove_0x_prefix (lit "0x" ++ hex_lower b)) with (hex_lower b).
  apply hex_pairs_facts, hex_pairs_hex_lower.
Qed.

Lemma encode_addr_be n p b : (20 <= n)%nat -> (exists s, p = PStr s /\ address_text s b) \/ (bytes_like p b /\ len b = 20) ->
  encode_addr (Z.of_nat n) p = Ok (repeat x00 (n - 20) ++ b).
Proof.
  intros Hn Hp. unfold encode_addr, validate_addr.
  assert (Hl : len b = 20) by (destruct Hp as [(s & _ & pre & d & _ & _ & Hl & _)|[_ Hl]]; exact Hl).
  replace (is_address p) with true.
  2:{ symmetry. destruct Hp as [(s & -> & Hs)|[[->| ->] _]].
      - apply is_address_text. exists b. exact Hs.
      - cbn [is_address]. lia.
      - cbn [is_address]. lia. }
  cbn [bind].
  replace (to_canonical_address p) with (@Ok bytes b).
  2:{ symmetry. destruct Hp as [(s & -> & Hs)|[Hb _]]; [apply to_canonical_text; exact Hs|apply to_canonical_bytes; assumption]. }
  cbn [bind]. unfold zpad, rjust. do 2 f_equal. f_equal. lia.
Qed.
(** Everything else is an EncodingTypeError. *)
Lemma validate_addr_cases p :
  (exists b, validate_addr p = Ok tt /\ ((exists s, p = PStr s /\ address_text s b) \/ (bytes_like p b /\ len b = 20)))
  \/ validate_addr p = Err EncodingTypeError.
Proof.
  unfold validate_addr. destruct (is_address p) eqn:E; [left|right; reflexivity].
  destruct p as [|b|i|f|cx|a d|d|b|b|s|l|l|sr l|o]; try discriminate.
  - exists b. split; [reflexivity|]. right. split; [left; reflexivity|]. cbn [is_address] in E. lia.
  - exists b. split; [reflexivity|]. right. split; [right; reflexivity|]. cbn [is_address] in E. lia.
  - apply is_address_text in E. destruct E as [b Hb]. exists b. split; [reflexivity|]. left. exists s. auto.
Qed.
