(** Coders built by hand with the keywords other than sizes. *)
From Coq Require Import Strings.Byte Strings.String.
From Verif Require Import Tac Bytes BytesProofs Utf8 Address Decimals DecimalsProofs Encoding Decoding Spec EncLeafProofs
  Utf8Proofs AddressProofs EncodeProofs AcceptProofs DecLeafProofs EncodeApi Construct ConstructSpec ConstructProofs.
Open Scope Z_scope.

(** ** Functions and is_dynamic *)

Ltac each_required H :=
  let Hc := fresh "Hc" in let Hk := fresh "Hk" in
  destruct H as [[Hc ->]|[[Hc ->]|[Hc Hk]]]; each_class Hc; try each_class Hk.
Ltac each_check :=
  unfold construct; cbn -[Z.modulo Z.mul Z.ltb Z.eqb]; try reflexivity; unfold validate, validate_number, validate_sizes;
  cbn -[Z.modulo Z.mul Z.ltb Z.eqb];
  try (destruct (_ mod 8 =? 0); cbn -[Z.mul Z.ltb Z.eqb]; [|reflexivity]);
  try (destruct (_ * 8 <? _); cbn -[Z.mul Z.ltb Z.eqb]; [reflexivity|]);
  try (destruct (_ =? 160)); try reflexivity.

Theorem missing_fn c k bits dsz : required_fn c k -> construct c ((k, ANone) :: size_kws bits dsz) = Err ValueError.
Proof.
  intro H. each_required H; destruct bits as [| |b|[]]; destruct dsz as [| |d|[]]; try reflexivity; each_check.
Qed.
Definition made_at_all {A} (r : result A) : bool := match r with Ok _ => true | Err _ => false end.
Lemma made_at_all_iff {A} (r : result A) : made_at_all r = true <-> exists x, r = Ok x.
Proof. destruct r; cbn; split; eauto; try discriminate. intros [x H]. discriminate. Qed.
Theorem given_fn c k bits dsz : sized_class c -> required_fn c k ->
  (exists o, construct c ((k, AObj) :: size_kws bits dsz) = Ok o) <-> (exists o, construct c (size_kws bits dsz) = Ok o).
Proof.
  intros Hc H. rewrite <- !made_at_all_iff. match goal with |- ?a = true <-> ?b = true => cut (a = b); [intros ->; reflexivity|] end.
  rewrite sized_construct_eq by exact Hc. unfold ok_sizes.
  each_required H; try (exfalso; clear - Hc; cbn in Hc; repeat (destruct Hc as [Hc|Hc]; [discriminate|]); exact Hc); clear Hc; destruct bits as [| |b|[]]; destruct dsz as [| |d|[]]; try reflexivity; each_check.
Qed.
Theorem no_side c bits dsz : sized_class c -> construct c (size_kws bits dsz ++ [(KIsBigEndian, ANone)]) = Err ValueError.
Proof. intro Hc. each_class Hc; destruct bits as [| |b|[]]; destruct dsz as [| |d|[]]; reflexivity. Qed.

Theorem dynamic_default c : dynamic_class c -> exists o, construct c [] = Ok o /\ o KIsDynamic = ABool true.
Proof. intro Hc. each_class Hc; eexists; split; reflexivity. Qed.
Theorem static_default c : static_string_class c -> exists o, construct c [] = Ok o /\ o KIsDynamic = ABool false.
Proof. intro Hc. each_class Hc; eexists; split; reflexivity. Qed.
Theorem static_sized c b d o : sized_class c -> made c b d o -> o KIsDynamic = ABool false.
Proof.
  intros Hc (bits & dsz & [H1 H2] & H). rewrite sized_construct_eq, H1, H2 in H by exact Hc.
  destruct (ok_sizes c b d) eqn:E; [|discriminate]. inv H. clear E H1 H2.
  each_class Hc; destruct bits; destruct dsz; reflexivity.
Qed.
Theorem static_fixed c b n d o : fixed_class c -> made_fixed c b n d o -> o KIsDynamic = ABool false.
Proof.
  intros Hc (bits & frac & dsz & _ & _ & H). rewrite fixed_construct_eq in H by exact Hc.
  destruct (value_or bits None); [|discriminate]. destruct (value_or dsz _); [|discriminate]. destruct (value_or frac _); [|discriminate].
  destruct (_ && _); [|discriminate]. inv H. each_class Hc; destruct bits; destruct dsz; destruct frac; reflexivity.
Qed.
Theorem static_leaf c b n d o : sized_class c /\ made c b d o \/ fixed_class c /\ made_fixed c b n d o -> o KIsDynamic = ABool false.
Proof. intros [[Hc M]|[Hc M]]; [exact (static_sized c b d o Hc M)|exact (static_fixed c b n d o Hc M)]. Qed.
(** The caller's own choice wins. *)
Theorem dynamic_given c x : dynamic_class c \/ static_string_class c ->
  exists o, construct c [(KIsDynamic, ABool x)] = Ok o /\ o KIsDynamic = ABool x.
Proof. intros [Hc|Hc]; each_class Hc; eexists; split; reflexivity. Qed.

(** ** is_big_endian *)

Lemma truthy_side a def z : value_or a (Some def) = Some z ->
  forall x, truthy x = negb (def =? 0) -> truthy (match a with Absent => x | NoneArg => ANone | Given i => AInt i | Flag b => ABool b end) = negb (z =? 0).
Proof. intros H x Hx. destruct a as [| |i|[]]; cbn in H; inv H; [exact Hx|reflexivity|reflexivity|reflexivity]. Qed.

Lemma sided_construct_eq c bits dsz side : sized_class c ->
  construct c (size_kws bits dsz ++ kwarg KIsBigEndian side) =
  match value_or bits (default_bits c), value_or dsz (Some (default_size c)), value_or side (Some (default_side c)) with
  | Some b, Some d, Some _ => if ok_sizes c b d then Ok (overlay c (size_kws bits dsz ++ kwarg KIsBigEndian side)) else Err ValueError
  | _, _, _ => Err ValueError
  end.
Proof.
  intro Hc. unfold ok_sizes.
  each_class Hc; destruct bits as [| |b|[]]; destruct dsz as [| |d|[]]; destruct side as [| |s|[]]; try reflexivity; each_check.
Qed.
Lemma sided_shape c b d e o : sized_class c -> made_sided c b d e o ->
  consistent c b d /\ num (o KValueBitSize) = Ok b /\ num (o KDataByteSize) = Ok d /\ truthy (o KIsBigEndian) = e.
Proof.
  intros Hc (bits & dsz & side & z & [H1 H2] & H3 & He & H). rewrite sided_construct_eq, H1, H2, H3 in H by exact Hc.
  destruct (ok_sizes c b d) eqn:E; [|discriminate]. inv H. split; [apply ok_sizes_consistent; exact E|].
  assert (Z : e = negb (z =? 0)).
  { destruct (Z.eqb_spec z 0); destruct e; cbn; try reflexivity; intuition congruence. }
  clear E He.
  each_class Hc; destruct bits as [| |i|[]]; cbn in H1; inv H1; destruct dsz as [| |j|[]]; cbn in H2; inv H2;
    destruct side as [| |s|[]]; cbn in H3; inv H3; repeat split.
Qed.
Theorem sided_accepted c bits dsz side : sized_class c ->
  (exists o, construct c (size_kws bits dsz ++ kwarg KIsBigEndian side) = Ok o)
  <-> side <> NoneArg /\ exists o, construct c (size_kws bits dsz) = Ok o.
Proof.
  intro Hc. rewrite sided_construct_eq, sized_construct_eq by exact Hc.
  destruct (value_or bits _); [|split; [intros [o H]|intros [_ [o H]]]; discriminate].
  destruct (value_or dsz _); [|split; [intros [o H]|intros [_ [o H]]]; discriminate].
  destruct (value_or side _) eqn:S.
  - assert (side <> NoneArg) by (intros ->; discriminate).
    destruct (ok_sizes _ _ _); split; [|eauto|intros [o E]; discriminate|intros (_ & o & E); discriminate]. eauto.
  - assert (side = NoneArg) by (destruct side; cbn in S; congruence). split; [intros [o E]; discriminate|tauto].
Qed.

Lemma shortest_be z : 0 <= z -> shortest z (to_be (be_size z) z).
Proof.
  intro H. exists (be_size z). rewrite be_bytes_eq.
  assert (B : (1 <= be_size z)%nat).
  { unfold be_size. destruct (Z.eqb_spec ((bit_length z + 7) / 8) 0); [lia|]. unfold bit_length in *.
    destruct (Z.eqb_spec z 0); [cbn in *; lia|]. pose proof (Z.log2_nonneg z). lia. }
  split; [exact B|]. split; [pose proof (be_size_bound z H); lia|]. split; [|reflexivity].
  destruct (Nat.eq_dec (be_size z) 1) as [E|E]; [left; exact E|right].
  destruct (Z.leb_spec (256 ^ (Z.of_nat (be_size z) - 1)) z); [lia|].
  exfalso. assert ((be_size z <= be_size z - 1)%nat); [|lia].
  apply be_size_le; [|lia]. replace (Z.of_nat (be_size z - 1)) with (Z.of_nat (be_size z) - 1) by lia. lia.
Qed.

Lemma pad_sided o d e x : num (o KDataByteSize) = Ok d -> truthy (o KIsBigEndian) = e ->
  pad_obj o x = Ok (placed e (repeat x00 (Z.to_nat (d - len x))) x).
Proof. intros Hd He. unfold pad_obj. rewrite Hd, He. cbn [bind]. destruct e; reflexivity. Qed.

Ltac sided Hc M :=
  let HC := fresh "HC" in let Hb := fresh "Hb" in let Hd := fresh "Hd" in let He := fresh "He" in
  destruct (sided_shape _ _ _ _ _ Hc M) as (HC & Hb & Hd & He).

Theorem side_uint c b d e o v : c = NUIntEnc \/ c = NPackedUIntEnc -> made_sided c b d e o -> 8 <= b ->
  (exists z x, v = PInt z /\ 0 <= z < 2 ^ b /\ shortest z x /\ encode_obj c o v = Ok (placed e (repeat x00 (Z.to_nat (d - len x))) x))
  \/ (exists z, v = PInt z /\ ~ 0 <= z < 2 ^ b /\ encode_obj c o v = Err ValueOutOfBounds)
  \/ ((forall z, v <> PInt z) /\ encode_obj c o v = Err EncodingTypeError).
Proof.
  intros Hc M H8. assert (Sc : sized_class c) by (destruct Hc as [->| ->]; cbn; tauto). sided Sc M.
  assert (E : encode_obj c o v = (validate_uint b v ;;; x <- int_to_big_endian (int_of v) ;; pad_obj o x)).
  { destruct Hc as [->| ->]; cbn [encode_obj]; rewrite Hb; reflexivity. }
  rewrite E. destruct (uint_cases b v) as [(z & -> & R & V)|[(z & -> & R & V)|(N & V)]]; rewrite V; cbn [bind].
  - left. exists z, (to_be (be_size z) z). split; [reflexivity|]. split; [exact R|]. split; [apply shortest_be; lia|].
    cbn [int_of]. rewrite int_to_big_endian_Ok by lia. cbn [bind]. apply pad_sided; assumption.
  - right. left. eauto.
  - right. right. auto.
Qed.
Theorem side_int c b d e o v : c = NIntEnc \/ c = NPackedIntEnc -> made_sided c b d e o -> 8 <= b ->
  (exists z, v = PInt z /\ - 2 ^ (b - 1) <= z < 2 ^ (b - 1) /\ encode_obj c o v = Ok (be_bytes (Z.to_nat d) z))
  \/ (exists z, v = PInt z /\ ~ - 2 ^ (b - 1) <= z < 2 ^ (b - 1) /\ encode_obj c o v = Err ValueOutOfBounds)
  \/ ((forall z, v <> PInt z) /\ encode_obj c o v = Err EncodingTypeError).
Proof.
  intros Hc M H8. assert (Sc : sized_class c) by (destruct Hc as [->| ->]; cbn; tauto).
  sided Sc M. destruct HC as (H1 & H2 & _).
  assert (E : encode_obj c o v = (validate_sint b v ;;; x <- int_to_big_endian (int_of v mod 2 ^ b) ;;
                Ok (if int_of v <? 0 then fpad x d else zpad x d))).
  { destruct Hc as [->| ->]; cbn [encode_obj]; unfold pad_signed; rewrite Hb, Hd; reflexivity. }
  rewrite E. destruct (sint_cases b v) as [(z & -> & R & V)|[(z & -> & R & V)|(N & V)]]; rewrite V; cbn [bind].
  - left. exists z. split; [reflexivity|]. split; [exact R|]. cbn [int_of].
    rewrite int_to_big_endian_Ok by (apply Z.mod_pos_bound; apply pow2_pos; lia).
    cbn [bind]. rewrite be_bytes_eq. f_equal. apply (sint_pad b); assumption.
  - right. left. eauto.
  - right. right. auto.
Qed.
Theorem side_bool c b d e o v : c = NBoolEnc \/ c = NPackedBoolEnc -> made_sided c b d e o ->
  encode_obj c o v = match v with
                     | PBool x => Ok (placed e (repeat x00 (Z.to_nat (d - 1))) [if x then x01 else x00])
                     | _ => Err EncodingTypeError
                     end.
Proof.
  intros Hc M. assert (Sc : sized_class c) by (destruct Hc as [->| ->]; cbn; tauto). sided Sc M.
  assert (E : encode_obj c o v = (validate_bool v ;;; pad_obj o (match v with PBool true => [x01] | _ => [x00] end))).
  { destruct Hc as [->| ->]; reflexivity. }
  rewrite E. destruct v as [|x|i|f|cx|n a|n|x|x|x|l|l|sr l|x]; try reflexivity.
  cbn [validate_bool bind]. rewrite (pad_sided o d e) by assumption. destruct x; reflexivity.
Qed.
Theorem side_addr c b d e o v : c = NAddrEnc \/ c = NPackedAddrEnc -> made_sided c b d e o ->
  (exists a, (bytes_like v a /\ len a = 20 \/ exists s, v = PStr s /\ address_text s a)
     /\ encode_obj c o v = Ok (placed e (repeat x00 (Z.to_nat (d - 20))) a))
  \/ (~ (exists a, bytes_like v a /\ len a = 20 \/ exists s, v = PStr s /\ address_text s a)
      /\ encode_obj c o v = Err EncodingTypeError).
Proof.
  intros Hc M. assert (Sc : sized_class c) by (destruct Hc as [->| ->]; cbn; tauto). sided Sc M.
  assert (E : encode_obj c o v = (validate_addr v ;;; x <- to_canonical_address v ;; pad_obj o x)).
  { destruct Hc as [->| ->]; reflexivity. }
  rewrite E. destruct (is_address v) eqn:A.
  - destruct (validate_addr_cases v) as [(a & V & Ha)|X].
    2: { unfold validate_addr in X. rewrite A in X. discriminate. }
    left. exists a. split; [destruct Ha as [[s [? ?]]|?]; [right; eauto|left; assumption]|].
    assert (La : len a = 20) by (destruct Ha as [(s & _ & pre & y & _ & _ & Hl & _)|[_ Hl]]; exact Hl).
    rewrite V. cbn [bind]. replace (to_canonical_address v) with (@Ok bytes a).
    2:{ symmetry. destruct Ha as [(s & -> & Hs)|[Hs _]]; [apply to_canonical_text; exact Hs|apply to_canonical_bytes; assumption]. }
    cbn [bind]. rewrite (pad_sided o d e) by assumption. rewrite La. reflexivity.
  - right. split; [|unfold validate_addr; rewrite A; reflexivity].
    intros [a [[[->| ->] L]|(s & -> & T)]].
    + cbn [is_address] in A. lia.
    + cbn [is_address] in A. lia.
    + assert (is_address (PStr s) = true) by (apply is_address_text; eauto). congruence.
Qed.
Theorem side_bytes c b d e o v : c = NBytesEnc \/ c = NPackedBytesEnc -> made_sided c b d e o ->
  (exists a, bytes_like v a /\ 8 * len a <= b /\ encode_obj c o v = Ok (placed e (repeat x00 (Z.to_nat (d - len a))) a))
  \/ (exists a, bytes_like v a /\ b < 8 * len a /\ encode_obj c o v = Err ValueOutOfBounds)
  \/ (~ (exists a, bytes_like v a) /\ encode_obj c o v = Err EncodingTypeError).
Proof.
  intros Hc M. assert (Sc : sized_class c) by (destruct Hc as [->| ->]; cbn; tauto). sided Sc M. destruct HC as (H1 & H2 & _).
  assert (E : encode_obj c o v = (validate_bytesM b v ;;; pad_obj o (bytes_of v))).
  { destruct Hc as [->| ->]; cbn [encode_obj]; rewrite Hb; reflexivity. }
  assert (X : forall a, is_bytes v = true -> bytes_of v = a -> bytes_like v a ->
    (exists a, bytes_like v a /\ 8 * len a <= b /\ encode_obj c o v = Ok (placed e (repeat x00 (Z.to_nat (d - len a))) a))
    \/ (exists a, bytes_like v a /\ b < 8 * len a /\ encode_obj c o v = Err ValueOutOfBounds)).
  { intros a B1 B2 L. rewrite E. unfold validate_bytesM. rewrite B1, B2.
    destruct (Z.ltb_spec (b / 8) (len a)); [right|left]; exists a; (split; [exact L|]); (split; [lia|]); [reflexivity|].
    cbn [negb raise_if bind]. apply pad_sided; assumption. }
  destruct v as [|x|i|f|cx|n a|n|a|a|x|l|l|sr l|x];
    try (right; right; split; [intros [a' [A|A]]; discriminate|rewrite E; reflexivity]).
  - destruct (X a eq_refl eq_refl (or_introl eq_refl)); tauto.
  - destruct (X a eq_refl eq_refl (or_intror eq_refl)); tauto.
Qed.

(** ** Decoding *)

Lemma sized_fn_placed e b d fn check padding data : 8 * len data = b -> len padding + len data = d ->
  sized_fn e b d fn check (placed e padding data) = (v <- fn data ;; check v padding (len padding) ;;; Ok v).
Proof.
  intros H1 H2. unfold sized_fn, placed. replace (b / 8) with (len data) by lia.
  replace (d - len data) with (len padding) by lia.
  destruct e; rewrite take_z_app, drop_z_app by reflexivity; reflexivity.
Qed.
Lemma decode_sided o b d e fn check buf st padding data : num (o KValueBitSize) = Ok b -> num (o KDataByteSize) = Ok d ->
  truthy (o KIsBigEndian) = e -> 0 <= pos st -> d < 2 ^ 63 -> next buf st (placed e padding data) ->
  8 * len data = b -> len padding + len data = d ->
  decode_sized o fn check buf st = (v <- fn b data ;; check v padding (len padding) ;;; Ok (v, past st d)).
Proof.
  intros Hb Hd He P D N H1 H2.
  rewrite (decode_next o b d fn check buf st _ Hb Hd P D N).
  2: { unfold placed. destruct e; lens; lia. }
  rewrite He, sized_fn_placed by assumption. destruct (fn b data); [|reflexivity]. cbn [bind].
  destruct (check _ _ _); reflexivity.
Qed.
Lemma zero_padding v padding : (all_zero padding /\ check_zero_padding v padding (len padding) = Ok tt)
  \/ (~ all_zero padding /\ check_zero_padding v padding (len padding) = Err NonEmptyPaddingBytes).
Proof.
  unfold check_zero_padding. destruct (bytes_eqb padding _) eqn:E; [apply bytes_eqb_eq in E; left|apply bytes_eqb_neq in E; right];
    (split; [|reflexivity]).
  - intros x Hx. rewrite E in Hx. apply repeat_spec in Hx. exact Hx.
  - intro Z. apply E. unfold zeros. rewrite len_length, Nat2Z.id. clear E. induction padding as [|x l IH]; [reflexivity|].
    cbn. f_equal; [apply Z; left; reflexivity|]. apply IH. intros y Hy. apply Z. right. exact Hy.
Qed.
Theorem side_dec c b d e o buf st padding data v : made_sided c b d e o -> reads c data v -> d < 2 ^ 63 -> 0 <= pos st ->
  next buf st (placed e padding data) -> 8 * len data = b -> len padding + len data = d ->
  (all_zero padding /\ decode_obj c o buf st = Ok (v, past st d))
  \/ (~ all_zero padding /\ decode_obj c o buf st = Err NonEmptyPaddingBytes).
Proof.
  intros M R D P N H1 H2. assert (Sc : sized_class c) by (destruct R; cbn; tauto). sided Sc M.
  pose proof (fun fn check => decode_sided o b d e fn check buf st padding data Hb Hd He P D N H1 H2) as E.
  destruct R as [z data Rz Ez| |data x Ex|data La]; cbn [decode_obj]; rewrite E; cbn [bind]; clear E.
  - replace (from_be data) with z.
    2: { rewrite Ez, be_bytes_eq, from_be_to_be. rewrite <- len_length. symmetry. apply Z.mod_small. exact Rz. }
    destruct (zero_padding (PInt z) padding) as [[Z ->]|[Z ->]]; cbn [bind]; tauto.
  - destruct (zero_padding (PBytes data) padding) as [[Z ->]|[Z ->]]; cbn [bind]; tauto.
  - subst data. replace (bool_fn [if x then x01 else x00]) with (@Ok pyval (PBool x)) by (destruct x; reflexivity). cbn [bind].
    destruct (zero_padding (PBool x) padding) as [[Z ->]|[Z ->]]; cbn [bind]; tauto.
  - rewrite to_normalized_bytes by exact La. cbn [bind].
    destruct (zero_padding (PStr (lit "0x" ++ hex_lower data)) padding) as [[Z ->]|[Z ->]]; cbn [bind]; tauto.
Qed.
(** A byte other than 0 and 1 is no bool. *)
Theorem side_dec_bool d e o buf st padding x : made_sided NBoolDec 8 d e o -> d < 2 ^ 63 -> 0 <= pos st ->
  next buf st (placed e padding [x]) -> len padding + 1 = d -> x <> x00 -> x <> x01 ->
  decode_obj NBoolDec o buf st = Err NonEmptyPaddingBytes.
Proof.
  intros M D P N H2 N0 N1. assert (Sc : sized_class NBoolDec) by (cbn; tauto). sided Sc M. cbn [decode_obj].
  assert (L1 : len [x] = 1) by reflexivity.
  rewrite (decode_sided o 8 d e _ _ buf st padding [x] Hb Hd He P D N) by lia.
  unfold bool_fn. destruct (bytes_eqb [x] [x00]) eqn:E; [apply bytes_eqb_eq in E; congruence|].
  destruct (bytes_eqb [x] [x01]) eqn:E'; [apply bytes_eqb_eq in E'; congruence|]. reflexivity.
Qed.
Theorem side_dec_int b d e o buf st padding z : made_sided NIntDec b d e o -> 8 <= b -> d < 2 ^ 63 -> 0 <= pos st ->
  - 2 ^ (b - 1) <= z < 2 ^ (b - 1) -> next buf st (placed e padding (be_bytes (Z.to_nat (b / 8)) z)) -> len padding + b / 8 = d ->
  ((forall x, In x padding -> x = if z <? 0 then xff else x00) /\ decode_obj NIntDec o buf st = Ok (PInt z, past st d))
  \/ (~ (forall x, In x padding -> x = if z <? 0 then xff else x00) /\ decode_obj NIntDec o buf st = Err NonEmptyPaddingBytes).
Proof.
  intros M H8 D P R N H2. assert (Sc : sized_class NIntDec) by (cbn; tauto). sided Sc M. destruct HC as (H1 & H3 & _). cbn [decode_obj].
  assert (L : len (be_bytes (Z.to_nat (b / 8)) z) = b / 8) by (rewrite be_bytes_len; lia).
  rewrite (decode_sided o b d e _ _ buf st padding _ Hb Hd He P D N) by lia. cbn [bind].
  replace (signed_of b (from_be (be_bytes (Z.to_nat (b / 8)) z))) with z.
  2: { rewrite be_bytes_eq, from_be_to_be. rewrite pow256_pow2 by lia. replace (8 * Z.of_nat (Z.to_nat (b / 8))) with b by lia.
       symmetry. apply signed_of_unique; [lia|exact R]. }
  unfold check_sign_padding.
  assert (Q : (if z <? 0 then ones (len padding) else zeros (len padding)) = repeat (if z <? 0 then xff else x00) (length padding)).
  { unfold ones, zeros. rewrite len_length, Nat2Z.id. destruct (z <? 0); reflexivity. }
  rewrite Q. set (f := if z <? 0 then xff else x00).
  destruct (bytes_eqb padding _) eqn:E; [apply bytes_eqb_eq in E; left|apply bytes_eqb_neq in E; right]; (split; [|reflexivity]).
  - intros x Hx. rewrite E in Hx. apply repeat_spec in Hx. exact Hx.
  - intro Z. apply E. clear - Z. induction padding as [|x l IH]; [reflexivity|].
    cbn. f_equal; [apply Z; left; reflexivity|]. apply IH. intros y Hy. apply Z. right. exact Hy.
Qed.
