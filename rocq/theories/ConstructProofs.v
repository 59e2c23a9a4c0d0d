(** Coders built by hand. *)
From Coq Require Import Strings.Byte Strings.String.
From Verif Require Import Tac Bytes BytesProofs Utf8 Address Decimals DecimalsProofs Encoding Decoding Spec EncLeafProofs
  Utf8Proofs AddressProofs EncodeProofs AcceptProofs DecLeafProofs EncodeApi Construct ConstructSpec.
Open Scope Z_scope.

(** ** Construction *)

Ltac each_class H := cbn in H; repeat (destruct H as [<-|H]); [..|contradiction H].

Definition overlay (c : cls) (kw : list (key * attr)) : instance :=
  fold_left (fun o ka => setattr o (fst ka) (snd ka)) kw (fresh c).
Definition address_enc (c : cls) : bool := match c with NAddrEnc | NPackedAddrEnc => true | _ => false end.
Definition ok_sizes (c : cls) (b d : Z) : bool :=
  (b mod 8 =? 0) && negb (d * 8 <? b) && (negb (address_enc c) || (b =? 160)).

Lemma ok_sizes_consistent c b d : ok_sizes c b d = true <-> consistent c b d.
Proof.
  unfold ok_sizes, consistent. rewrite !andb_true_iff, Z.eqb_eq, negb_true_iff, Z.ltb_ge.
  assert (A : negb (address_enc c) || (b =? 160) = true <-> (c = NAddrEnc \/ c = NPackedAddrEnc -> b = 160)).
  { rewrite orb_true_iff, negb_true_iff, Z.eqb_eq. destruct c; cbn [address_enc]; intuition congruence. }
  rewrite A. split.
  - intros [[H1 H2] H3]. repeat split; [exact H1|lia|exact H3].
  - intros (H1 & H2 & H3). repeat split; [exact H1|lia|exact H3].
Qed.

Lemma sized_construct_eq c bits dsz : sized_class c ->
  construct c (size_kws bits dsz) =
  match value_or bits (default_bits c), value_or dsz (Some (default_size c)) with
  | Some b, Some d => if ok_sizes c b d then Ok (overlay c (size_kws bits dsz)) else Err ValueError
  | _, _ => Err ValueError
  end.
Proof.
  intro Hc. unfold construct, ok_sizes.
  each_class Hc; destruct bits as [| |b|[]]; destruct dsz as [| |d|[]];
    unfold validate, validate_number, validate_sizes; cbn -[Z.modulo Z.mul Z.ltb Z.eqb]; try reflexivity;
    try (destruct (_ mod 8 =? 0); cbn -[Z.mul Z.ltb Z.eqb]; [|reflexivity]);
    try (destruct (_ * 8 <? _); cbn -[Z.mul Z.ltb Z.eqb]; [reflexivity|]);
    try (destruct (_ =? 160)); reflexivity.
Qed.
Lemma fixed_construct_eq c bits frac dsz : fixed_class c ->
  construct c (fixed_kws bits frac dsz) =
  match value_or bits None, value_or dsz (Some 32), value_or frac None with
  | Some b, Some d, Some n =>
      if ok_sizes c b d && ((1 <=? n) && (n <=? 80)) then Ok (overlay c (fixed_kws bits frac dsz)) else Err ValueError
  | _, _, _ => Err ValueError
  end.
Proof.
  intro Hc. unfold construct, ok_sizes.
  assert (F : forall n, (1 <=? n) && (n <=? 80) = negb ((n <=? 0) || (80 <? n))).
  { intro n. destruct (Z.leb_spec 1 n), (Z.leb_spec n 80), (Z.leb_spec n 0), (Z.ltb_spec 80 n); reflexivity || lia. }
  each_class Hc; destruct bits as [| |b|[]]; destruct dsz as [| |d|[]]; destruct frac as [| |n|[]];
    unfold validate, validate_number, validate_sizes, validate_frac; cbn -[Z.modulo Z.mul Z.ltb Z.eqb Z.leb]; rewrite ?F; try reflexivity;
    try (destruct (_ mod 8 =? 0); cbn -[Z.mul Z.ltb Z.eqb Z.leb]; [|reflexivity]);
    try (destruct (_ * 8 <? _); cbn -[Z.mul Z.ltb Z.eqb Z.leb]; [reflexivity|]);
    try (destruct (_ || _)); reflexivity.
Qed.

Theorem sized_construct c bits dsz : sized_class c ->
  (exists b d, sizes c bits dsz b d /\ consistent c b d /\ exists o, construct c (size_kws bits dsz) = Ok o)
  \/ (~ (exists b d, sizes c bits dsz b d /\ consistent c b d) /\ construct c (size_kws bits dsz) = Err ValueError).
Proof.
  intro Hc. rewrite sized_construct_eq by exact Hc. unfold sizes.
  destruct (value_or bits _) as [b|]; [|right; split; [intros (b & d & [? _] & _); discriminate|reflexivity]].
  destruct (value_or dsz _) as [d|]; [|right; split; [intros (b' & d & [_ ?] & _); discriminate|reflexivity]].
  destruct (ok_sizes c b d) eqn:E.
  - left. exists b, d. apply ok_sizes_consistent in E. eauto.
  - right. split; [|reflexivity]. intros (b' & d' & [H1 H2] & H3). inv H1. inv H2.
    apply ok_sizes_consistent in H3. congruence.
Qed.
Theorem fixed_construct c bits frac dsz : fixed_class c ->
  (exists b n d, sizes c bits dsz b d /\ value_or frac None = Some n /\ consistent c b d /\ 1 <= n <= 80
     /\ exists o, construct c (fixed_kws bits frac dsz) = Ok o)
  \/ (~ (exists b n d, sizes c bits dsz b d /\ value_or frac None = Some n /\ consistent c b d /\ 1 <= n <= 80)
      /\ construct c (fixed_kws bits frac dsz) = Err ValueError).
Proof.
  intro Hc. rewrite fixed_construct_eq by exact Hc. unfold sizes.
  assert (D : default_bits c = None /\ default_size c = 32) by (each_class Hc; split; reflexivity).
  destruct D as [-> ->].
  destruct (value_or bits _) as [b|]; [|right; split; [intros (b & n & d & [? _] & _); discriminate|reflexivity]].
  destruct (value_or dsz _) as [d|]; [|right; split; [intros (b' & n & d & [_ ?] & _); discriminate|reflexivity]].
  destruct (value_or frac _) as [n|]; [|right; split; [intros (b' & n & d' & _ & ? & _); discriminate|reflexivity]].
  destruct (ok_sizes c b d && _) eqn:E.
  - left. exists b, n, d. apply andb_true_iff in E. destruct E as [E1 E2]. apply ok_sizes_consistent in E1.
    repeat split; try apply E1; try lia. eauto.
  - right. split; [|reflexivity]. intros (b' & n' & d' & [H1 H2] & H3 & H4 & H5). inv H1. inv H2. inv H3.
    apply ok_sizes_consistent in H4. rewrite H4 in E. cbn [andb] in E. lia.
Qed.

Lemma made_shape c b d o : sized_class c -> made c b d o ->
  consistent c b d /\ num (o KValueBitSize) = Ok b /\ num (o KDataByteSize) = Ok d /\ o KIsBigEndian = fresh c KIsBigEndian.
Proof.
  intros Hc (bits & dsz & [H1 H2] & H). rewrite sized_construct_eq, H1, H2 in H by exact Hc.
  destruct (ok_sizes c b d) eqn:E; [|discriminate]. inv H. split; [apply ok_sizes_consistent; exact E|].
  clear E. each_class Hc; destruct bits; destruct dsz; cbn in H1, H2; inv H1; inv H2; repeat split.
Qed.
Lemma made_fixed_shape c b n d o : fixed_class c -> made_fixed c b n d o ->
  consistent c b d /\ 1 <= n <= 80 /\ num (o KValueBitSize) = Ok b /\ num (o KDataByteSize) = Ok d /\ num (o KFracPlaces) = Ok n
  /\ o KIsBigEndian = fresh c KIsBigEndian.
Proof.
  intros Hc (bits & frac & dsz & [H1 H2] & H3 & H). rewrite fixed_construct_eq in H by exact Hc.
  assert (D : default_bits c = None /\ default_size c = 32) by (each_class Hc; split; reflexivity).
  destruct D as [D1 D2]. rewrite D1 in H1. rewrite D2 in H2. rewrite H1, H2, H3 in H.
  destruct (ok_sizes c b d && _) eqn:E; [|discriminate]. inv H.
  apply andb_true_iff in E. destruct E as [E1 E2]. apply ok_sizes_consistent in E1.
  split; [exact E1|]. split; [lia|]. clear E1 E2 D1 D2.
  each_class Hc; destruct bits; destruct dsz; destruct frac; cbn in H1, H2, H3; inv H1; inv H2; inv H3; repeat split.
Qed.

Theorem not_a_number c : sized_class c ->
  construct c [(KValueBitSize, AObj)] = Err TypeError /\ construct c [(KValueBitSize, AInt 160); (KDataByteSize, AObj)] = Err TypeError.
Proof. intro Hc. each_class Hc; split; reflexivity. Qed.

(** Unknown keywords. *)
Lemma set_kwargs_unknown c kw k a o : In (k, a) kw -> class_attr c k = None -> set_kwargs c kw o = Err AttributeError.
Proof.
  intros Hin Hk. revert o. induction kw as [|[k' a'] kw IH]; intro o; [contradiction|].
  cbn [set_kwargs]. destruct Hin as [E|Hin].
  - inv E. rewrite Hk. reflexivity.
  - destruct (class_attr c k'); [apply IH; exact Hin|reflexivity].
Qed.
Theorem construct_unknown c kw n a : In (KAbsent n, a) kw -> construct c kw = Err AttributeError.
Proof.
  intro H. unfold construct. rewrite (set_kwargs_unknown c kw (KAbsent n) a); [reflexivity|exact H|].
  destruct c; reflexivity.
Qed.
Theorem construct_misplaced c kw k a : In (k, a) kw ->
  (sized_class c /\ k = KFracPlaces)
  \/ ((sized_class c \/ fixed_class c) /\ In k [KEncoders; KItemEncoder; KArraySize; KDecoders; KItemDecoder; KTailDecoder])
  \/ (In c [NTupleEnc; NPackedArrayEnc; NSizedEnc; NDynEnc; NHeadTailDec; NTupleDec; NSizedDec; NDynDec]
      /\ In k [KValueBitSize; KDataByteSize; KFracPlaces; KIsBigEndian]) ->
  construct c kw = Err AttributeError.
Proof.
  intros H P. unfold construct. rewrite (set_kwargs_unknown c kw k a); [reflexivity|exact H|].
  destruct P as [[Hc ->]|[[[Hc|Hc] Hk]|[Hc Hk]]].
  - each_class Hc; reflexivity.
  - each_class Hc; each_class Hk; reflexivity.
  - each_class Hc; each_class Hk; reflexivity.
  - each_class Hc; each_class Hk; reflexivity.
Qed.

(** ** Encoding *)

Ltac shape Hc M :=
  let HC := fresh "HC" in let Hb := fresh "Hb" in let Hd := fresh "Hd" in let He := fresh "He" in
  destruct (made_shape _ _ _ _ Hc M) as (HC & Hb & Hd & He).

Lemma uint_pad m d z : 8 <= m -> m <= 8 * d -> 0 <= z < 2 ^ m ->
  zpad (to_be (be_size z) z) d = to_be (Z.to_nat d) z.
Proof.
  intros Hm Hd Hz. assert (D : exists n, d = Z.of_nat n) by (exists (Z.to_nat d); lia). destruct D as [n ->].
  rewrite Nat2Z.id. apply zpad_int_to_big_endian; [|lia]. rewrite pow256_pow2 by lia.
  pose proof (pow2_mono m (8 * Z.of_nat n)). lia.
Qed.
Lemma sint_pad m d z : 8 <= m -> m mod 8 = 0 -> m <= 8 * d -> - 2 ^ (m - 1) <= z < 2 ^ (m - 1) ->
  (let b := to_be (be_size (z mod 2 ^ m)) (z mod 2 ^ m) in if z <? 0 then fpad b d else zpad b d) = to_be (Z.to_nat d) z.
Proof.
  intros Hm Hm8 Hd Hz. cbn zeta. assert (D : exists n, d = Z.of_nat n) by (exists (Z.to_nat d); lia). destruct D as [n ->].
  rewrite Nat2Z.id.
  assert (0 < 2 ^ (m - 1)) by (apply pow2_pos; lia).
  assert (2 ^ m = 2 * 2 ^ (m - 1)) by (apply pow2_pred; lia).
  destruct (Z.ltb_spec z 0).
  - assert (Hk : 2 ^ m = 256 ^ Z.of_nat (Z.to_nat (m / 8))).
    { rewrite pow256_pow2 by lia. f_equal. lia. }
    rewrite Hk. apply fpad_twos; [lia|]. rewrite <- Hk. lia.
  - rewrite Z.mod_small by lia. apply zpad_int_to_big_endian; [|lia].
    rewrite pow256_pow2 by lia. pose proof (pow2_mono m (8 * Z.of_nat n)). lia.
Qed.

Theorem uint_obj c b d o v : c = NUIntEnc \/ c = NPackedUIntEnc -> made c b d o -> 8 <= b ->
  (exists z, v = PInt z /\ 0 <= z < 2 ^ b /\ encode_obj c o v = Ok (be_bytes (Z.to_nat d) z))
  \/ (exists z, v = PInt z /\ ~ 0 <= z < 2 ^ b /\ encode_obj c o v = Err ValueOutOfBounds)
  \/ ((forall z, v <> PInt z) /\ encode_obj c o v = Err EncodingTypeError).
Proof.
  intros Hc M H8. assert (Sc : sized_class c) by (destruct Hc as [->| ->]; cbn; tauto).
  shape Sc M. destruct HC as (H1 & H2 & _).
  assert (E : encode_obj c o v = (validate_uint b v ;;; x <- int_to_big_endian (int_of v) ;; Ok (zpad x d))).
  { destruct Hc as [->| ->]; cbn [encode_obj]; unfold pad_obj; rewrite Hb, Hd, He; reflexivity. }
  rewrite E. destruct (uint_cases b v) as [(z & -> & R & V)|[(z & -> & R & V)|(N & V)]]; rewrite V; cbn [bind].
  - left. exists z. split; [reflexivity|]. split; [exact R|]. cbn [int_of]. rewrite int_to_big_endian_Ok by lia.
    cbn [bind]. rewrite be_bytes_eq. f_equal. apply (uint_pad b); assumption.
  - right. left. eauto.
  - right. right. auto.
Qed.
Theorem int_obj c b d o v : c = NIntEnc \/ c = NPackedIntEnc -> made c b d o -> 8 <= b ->
  (exists z, v = PInt z /\ - 2 ^ (b - 1) <= z < 2 ^ (b - 1) /\ encode_obj c o v = Ok (be_bytes (Z.to_nat d) z))
  \/ (exists z, v = PInt z /\ ~ - 2 ^ (b - 1) <= z < 2 ^ (b - 1) /\ encode_obj c o v = Err ValueOutOfBounds)
  \/ ((forall z, v <> PInt z) /\ encode_obj c o v = Err EncodingTypeError).
Proof.
  intros Hc M H8. assert (Sc : sized_class c) by (destruct Hc as [->| ->]; cbn; tauto).
  shape Sc M. destruct HC as (H1 & H2 & _).
  assert (E : encode_obj c o v = (validate_sint b v ;;; x <- int_to_big_endian (int_of v mod 2 ^ b) ;;
                Ok (if int_of v <? 0 then fpad x d else zpad x d))).
  { destruct Hc as [->| ->]; cbn [encode_obj]; unfold pad_signed; rewrite Hb, Hd; reflexivity. }
  rewrite E. destruct (sint_cases b v) as [(z & -> & R & V)|[(z & -> & R & V)|(N & V)]]; rewrite V; cbn [bind].
  - left. exists z. split; [reflexivity|]. split; [exact R|]. cbn [int_of].
    rewrite int_to_big_endian_Ok by (apply Z.mod_pos_bound; apply pow2_pos; lia).
    cbn [bind]. rewrite be_bytes_eq. f_equal. apply (sint_pad b); assumption.
  - right. left. eauto.
  - right. right. auto.
Qed.
Theorem bool_obj c b d o v : c = NBoolEnc \/ c = NPackedBoolEnc -> made c b d o -> 1 <= d ->
  encode_obj c o v = match v with
                     | PBool x => Ok (be_bytes (Z.to_nat d) (if x then 1 else 0))
                     | _ => Err EncodingTypeError
                     end.
Proof.
  intros Hc M H1. assert (Sc : sized_class c) by (destruct Hc as [->| ->]; cbn; tauto).
  shape Sc M.
  assert (E : encode_obj c o v = (validate_bool v ;;; Ok (zpad (match v with PBool true => [x01] | _ => [x00] end) d))).
  { destruct Hc as [->| ->]; cbn [encode_obj]; unfold pad_obj; rewrite Hd, He; reflexivity. }
  rewrite E. destruct v as [|x|i|f|cx|n a|n|x|x|x|l|l|sr l|x]; try reflexivity.
  rewrite be_bytes_eq. rewrite <- encode_bool_be by lia. unfold encode_bool.
  replace (Z.of_nat (Z.to_nat d)) with d by lia. destruct x; reflexivity.
Qed.
Theorem addr_obj c b d o v : c = NAddrEnc \/ c = NPackedAddrEnc -> made c b d o ->
  (exists a, (bytes_like v a /\ len a = 20 \/ exists s, v = PStr s /\ address_text s a)
     /\ encode_obj c o v = Ok (repeat x00 (Z.to_nat (d - 20)) ++ a))
  \/ (~ (exists a, bytes_like v a /\ len a = 20 \/ exists s, v = PStr s /\ address_text s a)
      /\ encode_obj c o v = Err EncodingTypeError).
Proof.
  intros Hc M. assert (Sc : sized_class c) by (destruct Hc as [->| ->]; cbn; tauto).
  shape Sc M. destruct HC as (H1 & H2 & H3). specialize (H3 Hc). subst b.
  assert (E : encode_obj c o v = encode_addr d v).
  { destruct Hc as [->| ->]; cbn [encode_obj]; unfold pad_obj, encode_addr; rewrite Hd, He; reflexivity. }
  rewrite E. destruct (is_address v) eqn:A.
  - destruct (validate_addr_cases v) as [(a & _ & Ha)|X].
    2: { unfold validate_addr in X. rewrite A in X. discriminate. }
    left. exists a. split; [destruct Ha as [[s [? ?]]|?]; [right; eauto|left; assumption]|].
    replace d with (Z.of_nat (Z.to_nat d)) at 1 by lia.
    rewrite (encode_addr_be (Z.to_nat d) v a) by (assumption || lia).
    do 3 f_equal. lia.
  - right. split; [|unfold encode_addr, validate_addr; rewrite A; reflexivity].
    intros [a [[[->| ->] L]|(s & -> & T)]].
    + cbn [is_address] in A. lia.
    + cbn [is_address] in A. lia.
    + assert (is_address (PStr s) = true) by (apply is_address_text; eauto). congruence.
Qed.
Theorem bytes_obj c b d o v : c = NBytesEnc \/ c = NPackedBytesEnc -> made c b d o ->
  (exists a, bytes_like v a /\ 8 * len a <= b /\ encode_obj c o v = Ok (a ++ repeat x00 (Z.to_nat (d - len a))))
  \/ (exists a, bytes_like v a /\ b < 8 * len a /\ encode_obj c o v = Err ValueOutOfBounds)
  \/ (~ (exists a, bytes_like v a) /\ encode_obj c o v = Err EncodingTypeError).
Proof.
  intros Hc M. assert (Sc : sized_class c) by (destruct Hc as [->| ->]; cbn; tauto).
  shape Sc M. destruct HC as (H1 & H2 & _).
  assert (E : encode_obj c o v = encode_bytesM b d v).
  { destruct Hc as [->| ->]; cbn [encode_obj]; unfold pad_obj, encode_bytesM; rewrite Hb, Hd, He; reflexivity. }
  assert (X : forall a, is_bytes v = true -> bytes_of v = a -> bytes_like v a ->
    (exists a, bytes_like v a /\ 8 * len a <= b /\ encode_obj c o v = Ok (a ++ repeat x00 (Z.to_nat (d - len a))))
    \/ (exists a, bytes_like v a /\ b < 8 * len a /\ encode_obj c o v = Err ValueOutOfBounds)).
  { intros a B1 B2 L. rewrite E. unfold encode_bytesM, validate_bytesM. rewrite B1, B2.
    destruct (Z.ltb_spec (b / 8) (len a)); [right|left]; exists a; (split; [exact L|]); (split; [lia|]); reflexivity. }
  destruct v as [|x|i|f|cx|n a|n|a|a|x|l|l|sr l|x];
    try (right; right; split; [intros [a' [A|A]]; discriminate|rewrite E; reflexivity]).
  - destruct (X a eq_refl eq_refl (or_introl eq_refl)); tauto.
  - destruct (X a eq_refl eq_refl (or_intror eq_refl)); tauto.
Qed.

(** The bounds of a fixed-point class with [b] bits. *)
Theorem fixed_obj c b n d o v z : fixed_class c -> made_fixed c b n d o -> 8 <= b <= 256 ->
  c <> NUFixedDec -> c <> NFixedDec -> num_scaled v n z ->
  encode_obj c o v =
    if (match c with NUFixedEnc | NPackedUFixedEnc => 0 | _ => - 2 ^ (b - 1) end <=? z)
       && (z <? match c with NUFixedEnc | NPackedUFixedEnc => 2 ^ b | _ => 2 ^ (b - 1) end)
    then Ok (be_bytes (Z.to_nat d) z) else Err ValueOutOfBounds.
Proof.
  intros Hc M H8 N1 N2 S. destruct (made_fixed_shape _ _ _ _ _ Hc M) as (HC & Hn & Hb & Hd & Hf & He).
  destruct HC as (H1 & H2 & _). assert (I : int_size b) by (split; assumption).
  pose proof (pow2_pos b ltac:(lia)). pose proof (pow2_pos (b - 1) ltac:(lia)).
  assert (U : forall lo hi, (lo <=? z) && (z <? hi) = ((lo <=? z) && (z <=? hi - 1))).
  { intros lo hi. f_equal. destruct (Z.ltb_spec z hi), (Z.leb_spec z (hi - 1)); reflexivity || lia. }
  rewrite U, be_bytes_eq.
  assert (Cu : c = NUFixedEnc \/ c = NPackedUFixedEnc -> encode_obj c o v = encode_ufixed b n d v).
  { intros [->| ->]; cbn [encode_obj]; unfold encode_ufixed, pad_obj; rewrite Hb, Hd, Hf, He; reflexivity. }
  assert (Cs : c = NFixedEnc \/ c = NPackedFixedEnc -> encode_obj c o v = encode_sfixed b n d v).
  { intros [->| ->]; cbn [encode_obj]; unfold encode_sfixed, pad_signed; rewrite Hb, Hd, Hf; cbn [num bind];
      (destruct (validate_sfixed b n v); [|reflexivity]); cbn [bind]; (destruct (scaled_int n v); [|reflexivity]); cbn [bind];
      (destruct (int_to_big_endian _); [|reflexivity]); cbn [bind]; (destruct (num_cmp v ZERO) as [[]|]; reflexivity). }
  assert (Eu : encode_ufixed b n d v = if (0 <=? z) && (z <=? 2 ^ b - 1) then Ok (to_be (Z.to_nat d) z) else Err ValueOutOfBounds).
  { pose proof (validate_ufixed_verdict b n v I Hn) as V. rewrite (fixed_verdict_exact n 0 (2 ^ b - 1) v z S) in V.
    destruct ((0 <=? z) && (z <=? 2 ^ b - 1)).
    - destruct (encode_ufixed_ok b n (Z.to_nat d) v I Hn ltac:(lia) ltac:(lia) V) as (x & E & _ & X).
      replace (Z.of_nat (Z.to_nat d)) with d in E by lia. rewrite E, (X z S). reflexivity.
    - unfold encode_ufixed. rewrite V. reflexivity. }
  assert (Es : encode_sfixed b n d v = if (- 2 ^ (b - 1) <=? z) && (z <=? 2 ^ (b - 1) - 1) then Ok (to_be (Z.to_nat d) z) else Err ValueOutOfBounds).
  { pose proof (validate_sfixed_verdict b n v I Hn) as V. rewrite (fixed_verdict_exact n (- 2 ^ (b - 1)) (2 ^ (b - 1) - 1) v z S) in V.
    destruct ((- 2 ^ (b - 1) <=? z) && (z <=? 2 ^ (b - 1) - 1)).
    - destruct (encode_sfixed_ok b n (Z.to_nat d) v I Hn ltac:(lia) ltac:(lia) V) as (x & E & _ & X).
      replace (Z.of_nat (Z.to_nat d)) with d in E by lia. rewrite E, (X z S). reflexivity.
    - unfold encode_sfixed. rewrite V. reflexivity. }
  clear Hb Hd Hf He M U. cbn in Hc. destruct Hc as [<-|[<-|[<-|[<-|[<-|[<-|[]]]]]]]; try congruence.
  - rewrite Cu by tauto. exact Eu.
  - rewrite Cu by tauto. exact Eu.
  - rewrite Cs by tauto. exact Es.
  - rewrite Cs by tauto. exact Es.
Qed.

(** ** Decoding *)

Definition sized_fn (big : bool) (b d : Z) (fn : bytes -> result pyval) (check : pyval -> bytes -> Z -> result unit)
    (raw : bytes) : result pyval :=
  let psz := d - b / 8 in
  let '(data, padding) :=
    if big then (drop_z psz raw, take_z psz raw) else (take_z (b / 8) raw, drop_z (b / 8) raw) in
  v <- fn data ;; check v padding psz ;;; Ok v.
Lemma read_fixed_any buf d st : 0 <= pos st -> 0 <= d <= maxsize ->
  read_fixed buf d st = if pos st + d <=? Z.max (pos st) (len buf) then Ok (slice buf (pos st) d, adv d st) else Err InsufficientDataBytes.
Proof.
  intros H D. unfold read_fixed, read. destruct (Z.ltb_spec maxsize d); [lia|]. cbn [bind].
  change (take_z d (drop_z (pos st) buf)) with (slice buf (pos st) d).
  rewrite slice_len_le by lia. pose proof (len_nonneg buf).
  destruct (Z.leb_spec (pos st + d) (Z.max (pos st) (len buf))).
  - replace (Z.min d _) with d by lia. rewrite Z.eqb_refl. reflexivity.
  - destruct (Z.eqb_spec (Z.min d (Z.max 0 (len buf - pos st))) d); [lia|reflexivity].
Qed.
Lemma decode_sized_eq o b d fn check buf st : num (o KValueBitSize) = Ok b -> num (o KDataByteSize) = Ok d ->
  0 <= pos st -> 0 <= d <= maxsize ->
  (pos st + d <= len buf -> decode_sized o fn check buf st =
     (v <- sized_fn (truthy (o KIsBigEndian)) b d (fn b) check (slice buf (pos st) d) ;; Ok (v, past st d)))
  /\ (len buf < pos st + d -> 1 <= d -> decode_sized o fn check buf st = Err InsufficientDataBytes).
Proof.
  intros Hb Hd P D. unfold decode_sized, sized_fn. rewrite Hb, Hd. cbn [num bind].
  rewrite read_fixed_any by assumption. split.
  - intro L. destruct (Z.leb_spec (pos st + d) (Z.max (pos st) (len buf))); [|lia]. cbn [bind].
    destruct (truthy _); (destruct (fn _ _); [|reflexivity]); cbn [bind]; (destruct (check _ _ _); reflexivity).
  - intros L D1. destruct (Z.leb_spec (pos st + d) (Z.max (pos st) (len buf))); [lia|reflexivity].
Qed.
Lemma next_slice buf st raw : next buf st raw -> pos st + len raw <= len buf /\ slice buf (pos st) (len raw) = raw.
Proof.
  intros (pre & post & -> & L). split; [lens; pose proof (len_nonneg post); lia|].
  unfold slice. rewrite drop_z_app by lia. apply take_z_app. reflexivity.
Qed.

Lemma canonical_any T k pad data z : 0 <= k <= T -> len pad = T - k -> len data = k ->
  z mod 256 ^ k = from_be data -> - 256 ^ k <= z < 256 ^ k ->
  bytes_eqb (to_be (Z.to_nat T) z) (pad ++ data) = bytes_eqb pad (if z <? 0 then ones (T - k) else zeros (T - k)).
Proof.
  intros Hk Hp Hd Hz Hr.
  replace (Z.to_nat T) with (Z.to_nat (T - k) + Z.to_nat k)%nat by lia.
  rewrite to_be_app, app_eqb by (rewrite to_be_len; lia).
  assert (E : to_be (Z.to_nat k) z = data).
  { rewrite <- to_be_mod. replace (Z.of_nat (Z.to_nat k)) with k by lia. rewrite Hz.
    replace (Z.to_nat k) with (length data) by (rewrite len_length in Hd; lia). apply to_be_from_be. }
  rewrite E, bytes_eqb_refl, andb_true_r, bytes_eqb_sym. f_equal.
  replace (Z.of_nat (Z.to_nat k)) with k by lia. pose proof (pow256_pos k ltac:(lia)).
  destruct (Z.ltb_spec z 0).
  - replace (z / 256 ^ k) with (-1). 2: { apply (Z.div_unique_pos _ _ _ (z + 256 ^ k)); lia. }
    apply to_be_m1.
  - rewrite Z.div_small by lia. apply to_be_0.
Qed.

(** Unsigned and signed words of any size. *)
Lemma split_any n d (raw : bytes) : 0 <= n <= d -> len raw = d ->
  exists pad data, raw = pad ++ data /\ len pad = n /\ len data = d - n /\ take_z n raw = pad /\ drop_z n raw = data.
Proof.
  intros Hn Hl. exists (take_z n raw), (drop_z n raw). rewrite take_drop_z by lia.
  rewrite len_take_z, len_drop_z by lia. repeat split; lia.
Qed.
Lemma unsigned_any b d raw (v : Z -> result pyval) : 8 <= b -> b mod 8 = 0 -> b <= 8 * d -> len raw = d ->
  (forall z, 0 <= z < 2 ^ b -> exists x, v z = Ok x) ->
  (exists z, 0 <= z < 2 ^ b /\ raw = be_bytes (Z.to_nat d) z
     /\ sized_fn true b d (fun x => v (from_be x)) check_zero_padding raw = v z)
  \/ (~ (exists z, 0 <= z < 2 ^ b /\ raw = be_bytes (Z.to_nat d) z)
      /\ sized_fn true b d (fun x => v (from_be x)) check_zero_padding raw = Err NonEmptyPaddingBytes).
Proof.
  intros H8 Hm Hd Hl Hv. unfold sized_fn.
  set (k := b / 8). assert (Hb : b = 8 * k) by lia.
  destruct (split_any (d - k) d raw ltac:(lia) Hl) as (pad & data & Hraw & Lp & Ld & -> & ->).
  replace (d - (d - k)) with k in Ld by lia.
  pose proof (from_be_range data) as R. rewrite Ld, pow256_pow2, <- Hb in R by lia.
  destruct (Hv (from_be data) R) as [x Hx]. rewrite Hx. cbn [bind]. unfold check_zero_padding.
  assert (P : 256 ^ k = 2 ^ b) by (rewrite pow256_pow2 by lia; f_equal; lia).
  pose proof (canonical_any d k pad data (from_be data) ltac:(lia) Lp Ld) as C. rewrite P in C.
  specialize (C (Z.mod_small _ _ R) ltac:(lia)). destruct (Z.ltb_spec (from_be data) 0); [lia|].
  rewrite <- C, <- Hraw. destruct (bytes_eqb (to_be (Z.to_nat d) (from_be data)) raw) eqn:E; cbn [negb raise_if bind].
  - left. exists (from_be data). split; [exact R|]. rewrite be_bytes_eq. apply bytes_eqb_eq in E. rewrite E. auto.
  - right. split; [|reflexivity]. intros (z & Rz & Ez). apply bytes_eqb_neq in E. apply E.
    rewrite be_bytes_eq in Ez. replace (from_be data) with z; [symmetry; exact Ez|].
    replace data with (drop_z (d - k) raw) by (rewrite Hraw; apply drop_z_app; lia).
    rewrite Ez. replace (Z.to_nat d) with (Z.to_nat (d - k) + Z.to_nat k)%nat by lia.
    rewrite to_be_app, drop_z_app by (rewrite to_be_len; lia). rewrite from_be_to_be.
    replace (Z.of_nat (Z.to_nat k)) with k by lia. rewrite P. symmetry. apply Z.mod_small. exact Rz.
Qed.
Lemma signed_any b d raw (v : Z -> result pyval) : 8 <= b -> b mod 8 = 0 -> b <= 8 * d -> len raw = d ->
  (forall z, - 2 ^ (b - 1) <= z < 2 ^ (b - 1) -> exists x, v z = Ok x
     /\ forall p n, check_sign_padding x p n = raise_if (negb (bytes_eqb p (if z <? 0 then ones n else zeros n))) NonEmptyPaddingBytes) ->
  (exists z, - 2 ^ (b - 1) <= z < 2 ^ (b - 1) /\ raw = be_bytes (Z.to_nat d) z
     /\ sized_fn true b d (fun x => v (signed_of b (from_be x))) check_sign_padding raw = v z)
  \/ (~ (exists z, - 2 ^ (b - 1) <= z < 2 ^ (b - 1) /\ raw = be_bytes (Z.to_nat d) z)
      /\ sized_fn true b d (fun x => v (signed_of b (from_be x))) check_sign_padding raw = Err NonEmptyPaddingBytes).
Proof.
  intros H8 Hm Hd Hl Hv. unfold sized_fn.
  set (k := b / 8). assert (Hb : b = 8 * k) by lia.
  destruct (split_any (d - k) d raw ltac:(lia) Hl) as (pad & data & Hraw & Lp & Ld & -> & ->).
  replace (d - (d - k)) with k in Ld by lia.
  pose proof (from_be_range data) as R. rewrite Ld, pow256_pow2, <- Hb in R by lia.
  destruct (signed_of_mod b (from_be data) ltac:(lia) R) as [S1 S2].
  destruct (Hv _ S1) as (x & Hx & Hp). rewrite Hx. cbn [bind]. rewrite Hp.
  assert (P : 256 ^ k = 2 ^ b) by (rewrite pow256_pow2 by lia; f_equal; lia).
  pose proof (pow2_pred b ltac:(lia)). pose proof (pow2_pos (b - 1) ltac:(lia)).
  pose proof (canonical_any d k pad data (signed_of b (from_be data)) ltac:(lia) Lp Ld) as C. rewrite P in C.
  specialize (C S2 ltac:(lia)).
  rewrite <- C, <- Hraw. destruct (bytes_eqb (to_be (Z.to_nat d) (signed_of b (from_be data))) raw) eqn:E; cbn [negb raise_if bind].
  - left. exists (signed_of b (from_be data)). split; [exact S1|]. rewrite be_bytes_eq. apply bytes_eqb_eq in E. rewrite E. auto.
  - right. split; [|reflexivity]. intros (z & Rz & Ez). apply bytes_eqb_neq in E. apply E.
    rewrite be_bytes_eq in Ez. replace (signed_of b (from_be data)) with z; [symmetry; exact Ez|].
    replace data with (drop_z (d - k) raw) by (rewrite Hraw; apply drop_z_app; lia).
    rewrite Ez. replace (Z.to_nat d) with (Z.to_nat (d - k) + Z.to_nat k)%nat by lia.
    rewrite to_be_app, drop_z_app by (rewrite to_be_len; lia). rewrite from_be_to_be.
    replace (Z.of_nat (Z.to_nat k)) with k by lia. rewrite P. symmetry. apply signed_of_unique; [lia|exact Rz].
Qed.

Definition int_decoder (c : cls) : Prop := c = NUIntDec \/ c = NIntDec.
Lemma maxsize_pow : maxsize = 2 ^ 63 - 1.
Proof. Local Transparent Z.pow. reflexivity. Qed.
Local Opaque Z.pow maxsize.

Theorem dec_short c b d o buf st :
  In c [NBoolDec; NAddrDec; NUIntDec; NIntDec; NBytesDec] /\ made c b d o
  \/ In c [NUFixedDec; NFixedDec] /\ (exists n, made_fixed c b n d o) ->
  1 <= d < 2 ^ 63 -> 0 <= pos st -> len buf < pos st + d ->
  decode_obj c o buf st = Err InsufficientDataBytes.
Proof.
  intros Hc D P L. assert (D' : 0 <= d <= maxsize) by (rewrite maxsize_pow; lia).
  assert (X : num (o KValueBitSize) = Ok b /\ num (o KDataByteSize) = Ok d).
  { destruct Hc as [[Hc M]|[Hc [n M]]].
    - assert (Sc : sized_class c) by (cbn in *; tauto). shape Sc M. auto.
    - assert (Sc : fixed_class c) by (cbn in *; tauto). apply made_fixed_shape in M; [|exact Sc]. tauto. }
  destruct X as [Hb Hd].
  pose proof (fun fn check => proj2 (decode_sized_eq o b d fn check buf st Hb Hd P D') L ltac:(lia)) as E.
  destruct Hc as [[Hc _]|[Hc _]]; each_class Hc; apply E.
Qed.

Lemma decode_next o b d fn check buf st raw : num (o KValueBitSize) = Ok b -> num (o KDataByteSize) = Ok d ->
  0 <= pos st -> d < 2 ^ 63 -> next buf st raw -> len raw = d ->
  decode_sized o fn check buf st =
    (v <- sized_fn (truthy (o KIsBigEndian)) b d (fn b) check raw ;; Ok (v, past st d)).
Proof.
  intros Hb Hd P D N L. destruct (next_slice buf st raw N) as [N1 N2]. rewrite L in N1, N2.
  pose proof (len_nonneg raw).
  destruct (decode_sized_eq o b d fn check buf st Hb Hd P ltac:(rewrite maxsize_pow; lia)) as [E _].
  rewrite E by lia. rewrite N2. reflexivity.
Qed.

Theorem dec_uint b d o buf st raw : made NUIntDec b d o -> 8 <= b -> d < 2 ^ 63 ->
  0 <= pos st -> next buf st raw -> len raw = d ->
  (exists z, 0 <= z < 2 ^ b /\ raw = be_bytes (Z.to_nat d) z /\ decode_obj NUIntDec o buf st = Ok (PInt z, past st d))
  \/ (~ (exists z, 0 <= z < 2 ^ b /\ raw = be_bytes (Z.to_nat d) z) /\ decode_obj NUIntDec o buf st = Err NonEmptyPaddingBytes).
Proof.
  intros M H8 D P N L. assert (Sc : sized_class NUIntDec) by (cbn; tauto). shape Sc M. destruct HC as (H1 & H2 & _).
  cbn [decode_obj]. rewrite (decode_next o b d _ _ buf st raw Hb Hd P D N L), He.
  change (truthy (fresh NUIntDec KIsBigEndian)) with true.
  destruct (unsigned_any b d raw (fun z => Ok (PInt z)) H8 H1 H2 L ltac:(eauto)) as [(z & R & E & X)|[E X]];
    cbv beta in X; rewrite X; [left; eauto|right; auto].
Qed.
Theorem dec_int b d o buf st raw : made NIntDec b d o -> 8 <= b -> d < 2 ^ 63 ->
  0 <= pos st -> next buf st raw -> len raw = d ->
  (exists z, - 2 ^ (b - 1) <= z < 2 ^ (b - 1) /\ raw = be_bytes (Z.to_nat d) z /\ decode_obj NIntDec o buf st = Ok (PInt z, past st d))
  \/ (~ (exists z, - 2 ^ (b - 1) <= z < 2 ^ (b - 1) /\ raw = be_bytes (Z.to_nat d) z)
      /\ decode_obj NIntDec o buf st = Err NonEmptyPaddingBytes).
Proof.
  intros M H8 D P N L. assert (Sc : sized_class NIntDec) by (cbn; tauto). shape Sc M. destruct HC as (H1 & H2 & _).
  cbn [decode_obj]. rewrite (decode_next o b d _ _ buf st raw Hb Hd P D N L), He.
  change (truthy (fresh NIntDec KIsBigEndian)) with true.
  destruct (signed_any b d raw (fun z => Ok (PInt z)) H8 H1 H2 L ltac:(intros; eexists; split; reflexivity)) as [(z & R & E & X)|[E X]];
    cbv beta in X; rewrite X; [left; eauto|right; auto].
Qed.
Theorem dec_ufixed b n d o buf st raw : made_fixed NUFixedDec b n d o -> 8 <= b <= 256 -> d < 2 ^ 63 ->
  0 <= pos st -> next buf st raw -> len raw = d ->
  (exists z q, 0 <= z < 2 ^ b /\ raw = be_bytes (Z.to_nat d) z /\ scaled q n z
     /\ decode_obj NUFixedDec o buf st = Ok (PDec q, past st d))
  \/ (~ (exists z, 0 <= z < 2 ^ b /\ raw = be_bytes (Z.to_nat d) z) /\ decode_obj NUFixedDec o buf st = Err NonEmptyPaddingBytes).
Proof.
  intros M H8 D P N L. assert (Sc : fixed_class NUFixedDec) by (cbn; tauto).
  destruct (made_fixed_shape _ _ _ _ _ Sc M) as (HC & Hn & Hb & Hd & Hf & He). destruct HC as (H1 & H2 & _).
  cbn [decode_obj]. rewrite (decode_next o b d _ _ buf st raw Hb Hd P D N L), He, Hf.
  change (truthy (fresh NUFixedDec KIsBigEndian)) with true. cbn [num bind].
  pose proof (pow2_mono b 256 ltac:(lia)).
  assert (V : forall z, 0 <= z < 2 ^ b -> exists q, unscale n z = Ok (PDec q) /\ scaled q n z).
  { intros z R. destruct (dec_of_word n z Hn ltac:(lia)) as (q & E & S & _). exists q. unfold unscale. rewrite E. auto. }
  destruct (unsigned_any b d raw (unscale n) ltac:(lia) H1 H2 L) as [(z & R & E & X)|[E X]].
  - intros z R. destruct (V z R) as (q & Hq & _). eauto.
  - left. destruct (V z R) as (q & Hq & S). exists z, q. rewrite X, Hq. auto.
  - right. rewrite X. auto.
Qed.
Theorem dec_fixed b n d o buf st raw : made_fixed NFixedDec b n d o -> 8 <= b <= 256 -> d < 2 ^ 63 ->
  0 <= pos st -> next buf st raw -> len raw = d ->
  (exists z q, - 2 ^ (b - 1) <= z < 2 ^ (b - 1) /\ raw = be_bytes (Z.to_nat d) z /\ scaled q n z
     /\ decode_obj NFixedDec o buf st = Ok (PDec q, past st d))
  \/ (~ (exists z, - 2 ^ (b - 1) <= z < 2 ^ (b - 1) /\ raw = be_bytes (Z.to_nat d) z)
      /\ decode_obj NFixedDec o buf st = Err NonEmptyPaddingBytes).
Proof.
  intros M H8 D P N L. assert (Sc : fixed_class NFixedDec) by (cbn; tauto).
  destruct (made_fixed_shape _ _ _ _ _ Sc M) as (HC & Hn & Hb & Hd & Hf & He). destruct HC as (H1 & H2 & _).
  cbn [decode_obj]. rewrite (decode_next o b d _ _ buf st raw Hb Hd P D N L), He, Hf.
  change (truthy (fresh NFixedDec KIsBigEndian)) with true. cbn [num bind].
  pose proof (pow2_mono b 256 ltac:(lia)). pose proof (pow2_pred b ltac:(lia)). pose proof (pow2_pos (b - 1) ltac:(lia)).
  assert (V : forall z, - 2 ^ (b - 1) <= z < 2 ^ (b - 1) ->
    exists q, unscale n z = Ok (PDec q) /\ scaled q n z /\ dec_ltb q ZERO = (z <? 0)).
  { intros z R. destruct (dec_of_word n z Hn ltac:(lia)) as (q & E & S & S'). exists q. unfold unscale. rewrite E. auto. }
  destruct (signed_any b d raw (unscale n) ltac:(lia) H1 H2 L) as [(z & R & E & X)|[E X]].
  - intros z R. destruct (V z R) as (q & Hq & _ & S). exists (PDec q). split; [exact Hq|].
    intros p m. unfold check_sign_padding. rewrite S. reflexivity.
  - left. destruct (V z R) as (q & Hq & S & _). exists z, q. rewrite X, Hq. auto.
  - right. rewrite X. auto.
Qed.
Lemma bool_any d raw : 1 <= d -> len raw = d ->
  (exists x : bool, raw = be_bytes (Z.to_nat d) (if x then 1 else 0) /\ sized_fn true 8 d bool_fn check_zero_padding raw = Ok (PBool x))
  \/ (~ (exists x : bool, raw = be_bytes (Z.to_nat d) (if x then 1 else 0))
      /\ sized_fn true 8 d bool_fn check_zero_padding raw = Err NonEmptyPaddingBytes).
Proof.
  intros D L. unfold sized_fn. change (8 / 8) with 1.
  destruct (split_any (d - 1) d raw ltac:(lia) L) as (pad & data & Hraw & Lp & Ld & -> & ->).
  replace (d - (d - 1)) with 1 in Ld by lia.
  assert (W : forall z, 0 <= z < 256 -> (raw = be_bytes (Z.to_nat d) z <-> pad = zeros (d - 1) /\ data = [byte_of_Z z])).
  { intros z Hz. rewrite be_bytes_eq. replace (Z.to_nat d) with (Z.to_nat (d - 1) + 1)%nat by lia.
    rewrite to_be_app. change (256 ^ Z.of_nat 1) with 256. rewrite Z.div_small, to_be_0 by lia.
    change (to_be 1 z) with [byte_of_Z z]. rewrite Hraw. split.
    - intro E. apply app_inj_len in E; [exact E|]. rewrite len_repeat. lia.
    - intros [-> ->]. reflexivity. }
  unfold bool_fn, check_zero_padding.
  destruct (bytes_eqb data [x00]) eqn:E0; [apply bytes_eqb_eq in E0|apply bytes_eqb_neq in E0; destruct (bytes_eqb data [x01]) eqn:E1; [apply bytes_eqb_eq in E1|apply bytes_eqb_neq in E1]];
    cbn [bind].
  - destruct (bytes_eqb pad (zeros (d - 1))) eqn:Ep; [apply bytes_eqb_eq in Ep|apply bytes_eqb_neq in Ep]; cbn [negb raise_if bind].
    + left. exists false. split; [|reflexivity]. apply W; [lia|]. auto.
    + right. split; [|reflexivity]. intros [x Hx]. apply W in Hx; [|destruct x; lia]. tauto.
  - destruct (bytes_eqb pad (zeros (d - 1))) eqn:Ep; [apply bytes_eqb_eq in Ep|apply bytes_eqb_neq in Ep]; cbn [negb raise_if bind].
    + left. exists true. split; [|reflexivity]. apply W; [lia|]. auto.
    + right. split; [|reflexivity]. intros [x Hx]. apply W in Hx; [|destruct x; lia]. tauto.
  - right. split; [|reflexivity]. intros [x Hx]. apply W in Hx; [|destruct x; lia]. destruct Hx as [_ Hx].
    destruct x; contradiction.
Qed.
Theorem dec_bool d o buf st raw : made NBoolDec 8 d o -> d < 2 ^ 63 ->
  0 <= pos st -> next buf st raw -> len raw = d ->
  (exists x : bool, raw = be_bytes (Z.to_nat d) (if x then 1 else 0) /\ decode_obj NBoolDec o buf st = Ok (PBool x, past st d))
  \/ (~ (exists x : bool, raw = be_bytes (Z.to_nat d) (if x then 1 else 0)) /\ decode_obj NBoolDec o buf st = Err NonEmptyPaddingBytes).
Proof.
  intros M D P N L. assert (Sc : sized_class NBoolDec) by (cbn; tauto). shape Sc M. destruct HC as (_ & H2 & _).
  cbn [decode_obj]. rewrite (decode_next o 8 d _ _ buf st raw Hb Hd P D N L), He.
  change (truthy (fresh NBoolDec KIsBigEndian)) with true.
  destruct (bool_any d raw ltac:(lia) L) as [(z & E & X)|[E X]]; cbv beta in X; rewrite X; [left; eauto|right; auto].
Qed.
Theorem dec_addr d o buf st raw : made NAddrDec 160 d o -> d < 2 ^ 63 ->
  0 <= pos st -> next buf st raw -> len raw = d ->
  (exists a, len a = 20 /\ raw = repeat x00 (Z.to_nat (d - 20)) ++ a
     /\ decode_obj NAddrDec o buf st = Ok (PStr (lit "0x" ++ hex_lower a), past st d))
  \/ (~ (exists a, len a = 20 /\ raw = repeat x00 (Z.to_nat (d - 20)) ++ a) /\ decode_obj NAddrDec o buf st = Err NonEmptyPaddingBytes).
Proof.
  intros M D P N L. assert (Sc : sized_class NAddrDec) by (cbn; tauto). shape Sc M. destruct HC as (_ & H2 & _).
  cbn [decode_obj]. rewrite (decode_next o 160 d _ _ buf st raw Hb Hd P D N L), He.
  change (truthy (fresh NAddrDec KIsBigEndian)) with true. unfold sized_fn. change (160 / 8) with 20.
  destruct (split_any (d - 20) d raw ltac:(lia) L) as (pad & data & Hraw & Lp & Ld & -> & ->).
  rewrite to_normalized_bytes by lia. cbn [bind]. unfold check_zero_padding.
  destruct (bytes_eqb pad (zeros (d - 20))) eqn:E; [apply bytes_eqb_eq in E|apply bytes_eqb_neq in E]; cbn [negb raise_if bind].
  - left. exists data. split; [lia|]. split; [|reflexivity]. rewrite Hraw, E. reflexivity.
  - right. split; [|reflexivity]. intros (a & La & Ha). rewrite Hraw in Ha. apply app_inj_len in Ha; [tauto|]. rewrite len_repeat. lia.
Qed.
Theorem dec_bytes b d o buf st raw : made NBytesDec b d o -> 0 <= b -> d < 2 ^ 63 ->
  0 <= pos st -> next buf st raw -> len raw = d ->
  (exists a, 8 * len a = b /\ raw = a ++ repeat x00 (Z.to_nat (d - len a)) /\ decode_obj NBytesDec o buf st = Ok (PBytes a, past st d))
  \/ (~ (exists a, 8 * len a = b /\ raw = a ++ repeat x00 (Z.to_nat (d - len a))) /\ decode_obj NBytesDec o buf st = Err NonEmptyPaddingBytes).
Proof.
  intros M H8 D P N L. assert (Sc : sized_class NBytesDec) by (cbn; tauto). shape Sc M. destruct HC as (H1 & H2 & _).
  cbn [decode_obj]. rewrite (decode_next o b d _ _ buf st raw Hb Hd P D N L), He.
  change (truthy (fresh NBytesDec KIsBigEndian)) with false. unfold sized_fn.
  destruct (split_any (b / 8) d raw ltac:(lia) L) as (data & pad & Hraw & Ld & Lp & -> & ->).
  cbn [bind]. unfold check_zero_padding.
  destruct (bytes_eqb pad (zeros (d - b / 8))) eqn:E; [apply bytes_eqb_eq in E|apply bytes_eqb_neq in E]; cbn [negb raise_if bind].
  - left. exists data. split; [lia|]. split; [|reflexivity]. rewrite Hraw, E, Ld. reflexivity.
  - right. split; [|reflexivity]. intros (a & La & Ha). rewrite Hraw in Ha. apply app_inj_len in Ha; [|lia].
    destruct Ha as [-> Ha]. apply E. rewrite Ha. unfold zeros. do 2 f_equal. lia.
Qed.

(** The decoder of the same sizes inverts the encoder. *)
Lemma next_whole b : next b (mkStream 0 [] 0) b.
Proof. exists [], []. rewrite app_nil_r. split; reflexivity. Qed.
Lemma be_bytes_len n z : len (be_bytes n z) = Z.of_nat n.
Proof. rewrite be_bytes_eq. apply to_be_len. Qed.
Lemma be_bytes_range_inj n y z lo : 0 <= y - lo < 256 ^ Z.of_nat n -> 0 <= z - lo < 256 ^ Z.of_nat n -> be_bytes n y = be_bytes n z -> y = z.
Proof.
  intros Hy Hz E. rewrite !be_bytes_eq in E. apply (f_equal from_be) in E. rewrite !from_be_to_be in E.
  pose proof (pow256_pos (Z.of_nat n) ltac:(lia)). set (m := 256 ^ Z.of_nat n) in *.
  assert (X : (y - lo) mod m = (z - lo) mod m) by (rewrite (Zminus_mod y), (Zminus_mod z), E; reflexivity).
  rewrite !Z.mod_small in X by lia. lia.
Qed.
Theorem obj_inverse ce cd b d oe od v bs :
  In (ce, cd) [(NUIntEnc, NUIntDec); (NPackedUIntEnc, NUIntDec); (NIntEnc, NIntDec); (NPackedIntEnc, NIntDec);
               (NBoolEnc, NBoolDec); (NPackedBoolEnc, NBoolDec)] ->
  made ce b d oe -> made cd b d od -> 8 <= b -> d < 2 ^ 63 -> (cd = NBoolDec -> b = 8) ->
  encode_obj ce oe v = Ok bs -> decode_obj cd od bs (mkStream 0 [] 0) = Ok (v, mkStream d [] 0).
Proof.
  intros Hc Me Md H8 D B8 E.
  assert (C : b mod 8 = 0 /\ b <= 8 * d).
  { assert (Sc : sized_class cd) by (cbn in Hc; cbn; intuition congruence). shape Sc Md. destruct HC as (? & ? & _). auto. }
  destruct C as [C1 C2].
  assert (Pw : 2 ^ b <= 256 ^ Z.of_nat (Z.to_nat d)).
  { rewrite pow256_pow2 by lia. apply pow2_mono. lia. }
  pose proof (pow2_pred b ltac:(lia)) as Pp. pose proof (pow2_pos (b - 1) ltac:(lia)) as P0.
  assert (U : ce = NUIntEnc \/ ce = NPackedUIntEnc -> made NUIntDec b d od -> decode_obj NUIntDec od bs (mkStream 0 [] 0) = Ok (v, mkStream d [] 0)).
  { intros Hce M. destruct (uint_obj ce b d oe v Hce Me H8) as [(z & -> & R & X)|[(z & _ & _ & X)|[_ X]]]; rewrite X in E; inv E.
    destruct (dec_uint b d od (be_bytes (Z.to_nat d) z) (mkStream 0 [] 0) _ M H8 D ltac:(cbn; lia) (next_whole _)) as [(y & Ry & Ey & Xy)|[Ey _]].
    - rewrite be_bytes_len. lia.
    - assert (y = z) by (apply (be_bytes_range_inj (Z.to_nat d) y z 0); [lia|lia|congruence]). subst y. exact Xy.
    - exfalso. apply Ey. eauto. }
  assert (S : ce = NIntEnc \/ ce = NPackedIntEnc -> made NIntDec b d od -> decode_obj NIntDec od bs (mkStream 0 [] 0) = Ok (v, mkStream d [] 0)).
  { intros Hce M. destruct (int_obj ce b d oe v Hce Me H8) as [(z & -> & R & X)|[(z & _ & _ & X)|[_ X]]]; rewrite X in E; inv E.
    destruct (dec_int b d od (be_bytes (Z.to_nat d) z) (mkStream 0 [] 0) _ M H8 D ltac:(cbn; lia) (next_whole _)) as [(y & Ry & Ey & Xy)|[Ey _]].
    - rewrite be_bytes_len. lia.
    - assert (y = z) by (apply (be_bytes_range_inj (Z.to_nat d) y z (- 2 ^ (b - 1))); [lia|lia|congruence]). subst y. exact Xy.
    - exfalso. apply Ey. eauto. }
  assert (B : ce = NBoolEnc \/ ce = NPackedBoolEnc -> b = 8 -> made NBoolDec b d od -> decode_obj NBoolDec od bs (mkStream 0 [] 0) = Ok (v, mkStream d [] 0)).
  { intros Hce -> M. rewrite (bool_obj ce 8 d oe v Hce Me ltac:(lia)) in E. destruct v as [|x| | | | | | | | | | | |]; try discriminate. inv E.
    destruct (dec_bool d od _ (mkStream 0 [] 0) _ M D ltac:(cbn; lia) (next_whole (be_bytes (Z.to_nat d) (if x then 1 else 0)))) as [(y & Ey & Xy)|[Ey _]].
    - rewrite be_bytes_len. lia.
    - assert (2 ^ 8 <= 2 ^ (8 * d)) by (apply pow2_mono; lia).
      assert (Z1 : (if x then 1 else 0) = (if y then 1 else 0)).
      { apply (be_bytes_range_inj (Z.to_nat d) _ _ 0); [| |congruence]; [destruct x|destruct y];
          change (2 ^ 8) with 256 in *; lia. }
      assert (y = x) by (destruct x, y; congruence). subst y. exact Xy.
    - exfalso. apply Ey. eauto. }
  clear E. cbn in Hc. destruct Hc as [X|[X|[X|[X|[X|[X|[]]]]]]]; inv X; auto.
Qed.

(** ** The instances of Encoding.v and Decoding.v *)

(** A coder built by [from_type_str] behaves as the instance its constructor
    gives. *)
Definition mk_sized_enc (c : cls) (b d : Z) : option (result encoder) :=
  match c with
  | NUIntEnc | NPackedUIntEnc => Some (mk_uint b d)
  | NIntEnc | NPackedIntEnc => Some (mk_sint b d)
  | NBytesEnc | NPackedBytesEnc => Some (mk_bytesM b d)
  | _ => None
  end.
Lemma mk_sized_enc_construct c b d r : sized_class c -> mk_sized_enc c b d = Some r ->
  match r with
  | Ok e => exists o, construct c (size_kws (Given b) (Given d)) = Ok o /\ forall v, encode_obj c o v = encode_with e v
  | Err x => construct c (size_kws (Given b) (Given d)) = Err x
  end.
Proof.
  intros Hc Hr. rewrite sized_construct_eq by exact Hc. cbn [value_or]. unfold ok_sizes.
  each_class Hc; cbn [mk_sized_enc] in Hr; inv Hr; unfold mk_uint, mk_sint, mk_bytesM, check_sizes; cbn [address_enc negb orb];
    (destruct (b mod 8 =? 0); cbn [negb andb raise_if bind]; [|reflexivity]);
    (destruct (d * 8 <? b); cbn [negb andb raise_if bind]; [reflexivity|]);
    eexists; (split; [reflexivity|]); intro v; try reflexivity;
    cbn -[validate_sint int_to_big_endian fpad zpad Z.ltb Z.leb]; unfold encode_sint, pad_signed;
    (destruct (validate_sint b v); [|reflexivity]); cbn -[int_to_big_endian fpad zpad Z.ltb Z.leb];
    (destruct (int_to_big_endian _); [|reflexivity]); cbn -[fpad zpad Z.ltb Z.leb];
    (destruct (Z.ltb_spec (int_of v) 0), (Z.leb_spec 0 (int_of v)); reflexivity || lia).
Qed.
Lemma mk_fixed_enc_construct c b n d : In c [NUFixedEnc; NPackedUFixedEnc; NFixedEnc; NPackedFixedEnc] ->
  match (match c with NUFixedEnc | NPackedUFixedEnc => mk_ufixed b n d | _ => mk_sfixed b n d end) with
  | Ok e => exists o, construct c (fixed_kws (Given b) (Given n) (Given d)) = Ok o /\ forall v, encode_obj c o v = encode_with e v
  | Err x => construct c (fixed_kws (Given b) (Given n) (Given d)) = Err x
  end.
Proof.
  intro Hc. assert (Fc : fixed_class c) by (cbn in *; tauto). rewrite fixed_construct_eq by exact Fc. cbn [value_or]. unfold ok_sizes.
  assert (F : (1 <=? n) && (n <=? 80) = negb ((n <=? 0) || (80 <? n))).
  { destruct (Z.leb_spec 1 n), (Z.leb_spec n 80), (Z.leb_spec n 0), (Z.ltb_spec 80 n); reflexivity || lia. }
  rewrite F. clear Fc F.
  each_class Hc; unfold mk_ufixed, mk_sfixed, check_sizes, check_frac; cbn [address_enc negb orb];
    (destruct (b mod 8 =? 0); cbn [negb andb raise_if bind]; [|reflexivity]);
    (destruct (d * 8 <? b); cbn [negb andb raise_if bind]; [reflexivity|]);
    (destruct ((n <=? 0) || (80 <? n)); cbn [negb andb raise_if bind]; [reflexivity|]);
    eexists; (split; [reflexivity|]); intro v; try reflexivity;
    cbn -[validate_sfixed scaled_int int_to_big_endian num_cmp fpad zpad]; unfold encode_sfixed, pad_signed;
    (destruct (validate_sfixed b n v); [|reflexivity]); cbn [bind]; (destruct (scaled_int n v); [|reflexivity]); cbn [bind];
    (destruct (int_to_big_endian _); [|reflexivity]); cbn [bind]; (destruct (num_cmp v ZERO) as [[]|]; reflexivity).
Qed.
Lemma default_enc_construct c e : In (c, e) [(NBoolEnc, EBool 32); (NPackedBoolEnc, EBool 1); (NAddrEnc, EAddr 32); (NPackedAddrEnc, EAddr 20)] ->
  exists o, construct c [] = Ok o /\ forall v, encode_obj c o v = encode_with e v.
Proof.
  intro Hc. cbn in Hc. destruct Hc as [X|[X|[X|[X|[]]]]]; inv X; eexists; (split; [lazy; reflexivity|]); intro v;
    try reflexivity; destruct v as [|[]| | | | | | | | | | | |]; reflexivity.
Qed.
Lemma mk_dec_construct h c b : In c [NUIntDec; NIntDec; NBytesDec] ->
  match (match c with NUIntDec => mk_duint b | NIntDec => mk_dint b | _ => mk_dbytesM b end) with
  | Ok d => exists o, construct c (size_kws (Given b) Absent) = Ok o /\ forall buf st, decode_obj c o buf st = decode_with h d buf st
  | Err x => construct c (size_kws (Given b) Absent) = Err x
  end.
Proof.
  intro Hc. assert (Sc : sized_class c) by (cbn in *; tauto). rewrite sized_construct_eq by exact Sc. cbn [value_or]. unfold ok_sizes.
  clear Sc. each_class Hc; unfold mk_duint, mk_dint, mk_dbytesM, check_dec_sizes; cbn [address_enc negb orb default_size];
    (destruct (b mod 8 =? 0); cbn [negb andb raise_if bind]; [|reflexivity]);
    (destruct (32 * 8 <? b); cbn [negb andb raise_if bind]; [reflexivity|]);
    eexists; (split; [reflexivity|]); intros buf st; reflexivity.
Qed.
Lemma mk_fixed_dec_construct h c b n : In c [NUFixedDec; NFixedDec] ->
  match (match c with NUFixedDec => mk_dufixed b n | _ => mk_dfixed b n end) with
  | Ok d => exists o, construct c (fixed_kws (Given b) (Given n) Absent) = Ok o /\ forall buf st, decode_obj c o buf st = decode_with h d buf st
  | Err x => construct c (fixed_kws (Given b) (Given n) Absent) = Err x
  end.
Proof.
  intro Hc. assert (Fc : fixed_class c) by (cbn in *; tauto). rewrite fixed_construct_eq by exact Fc. cbn [value_or]. unfold ok_sizes.
  assert (F : (1 <=? n) && (n <=? 80) = negb ((n <=? 0) || (80 <? n))).
  { destruct (Z.leb_spec 1 n), (Z.leb_spec n 80), (Z.leb_spec n 0), (Z.ltb_spec 80 n); reflexivity || lia. }
  rewrite F. clear Fc F.
  each_class Hc; unfold mk_dufixed, mk_dfixed, check_dec_sizes, check_dec_frac; cbn [address_enc negb orb];
    (destruct (b mod 8 =? 0); cbn [negb andb raise_if bind]; [|reflexivity]);
    (destruct (32 * 8 <? b); cbn [negb andb raise_if bind]; [reflexivity|]);
    (destruct ((n <=? 0) || (80 <? n)); cbn [negb andb raise_if bind]; [reflexivity|]);
    eexists; (split; [reflexivity|]); intros buf st; reflexivity.
Qed.
Lemma default_dec_construct h c d : In (c, d) [(NBoolDec, DBool); (NAddrDec, DAddr)] ->
  exists o, construct c [] = Ok o /\ forall buf st, decode_obj c o buf st = decode_with h d buf st.
Proof.
  intro Hc. cbn in Hc. destruct Hc as [X|[X|[]]]; inv X; eexists; (split; [lazy; reflexivity|]); intros buf st; reflexivity.
Qed.

(** ** Containers *)
Theorem container_missing c kw : In (c, kw)
    [(NTupleEnc, KEncoders); (NPackedArrayEnc, KItemEncoder); (NSizedEnc, KItemEncoder); (NDynEnc, KItemEncoder);
     (NHeadTailDec, KTailDecoder); (NTupleDec, KDecoders); (NSizedDec, KItemDecoder); (NDynDec, KItemDecoder)] ->
  construct c [] = Err ValueError /\ construct c [(kw, ANone)] = Err ValueError.
Proof. intro Hc. cbn in Hc. repeat (destruct Hc as [X|Hc]; [inv X; split; reflexivity|]). contradiction. Qed.
Theorem tuple_enc es :
  exists o, construct NTupleEnc [(KEncoders, AEncs es)] = Ok o /\ o KEncoders = AEncs es
    /\ o KIsDynamic = ABool (existsb enc_is_dyn es).
Proof. eexists. split; [reflexivity|]. split; reflexivity. Qed.
Theorem sized_enc e n :
  construct NSizedEnc [(KItemEncoder, AEnc e)] = Err ValueError
  /\ match enc_dyn_attr e with
     | None => construct NSizedEnc [(KItemEncoder, AEnc e); (KArraySize, AInt n)] = Err AttributeError
     | Some dyn => exists o, construct NSizedEnc [(KItemEncoder, AEnc e); (KArraySize, AInt n)] = Ok o
         /\ o KItemEncoder = AEnc e /\ o KArraySize = AInt n /\ o KIsDynamic = ABool dyn
     end.
Proof.
  split; [reflexivity|]. destruct (enc_dyn_attr e) eqn:E.
  - eexists. split; [unfold construct; cbn -[enc_dyn_attr]; rewrite E; reflexivity|]. repeat split.
  - unfold construct; cbn -[enc_dyn_attr]; rewrite E; reflexivity.
Qed.
Theorem dyn_enc e :
  exists o, construct NDynEnc [(KItemEncoder, AEnc e)] = Ok o /\ o KItemEncoder = AEnc e /\ o KIsDynamic = ABool true.
Proof. eexists. split; [reflexivity|]. split; reflexivity. Qed.
Theorem packed_array_enc e a :
  exists o, construct NPackedArrayEnc ((KItemEncoder, AEnc e) :: kwarg KArraySize a) = Ok o
    /\ o KItemEncoder = AEnc e /\ o KIsDynamic = ABool false
    /\ o KArraySize = match a with Given n => AInt n | Flag b => ABool b | _ => ANone end.
Proof. destruct a; (eexists; split; [reflexivity|]; repeat split). Qed.

Lemma wrap_wrapped d : wrapped d (wrap d).
Proof. unfold wrapped, wrap, dec_is_dyn. destruct (dec_dyn_attr d) as [[]|]; [left; auto|right; split; [discriminate|reflexivity]..]. Qed.
Lemma wrapped_dyn d d' : wrapped d d' -> dec_dyn_attr d' = dec_dyn_attr d.
Proof. intros [[E ->]|[_ ->]]; [rewrite E|]; reflexivity. Qed.
Theorem tuple_dec ds :
  exists o ds', construct NTupleDec [(KDecoders, ADecs ds)] = Ok o /\ o KDecoders = ADecs ds' /\ Forall2 wrapped ds ds'
    /\ o KIsDynamic = ABool (existsb dec_is_dyn ds).
Proof.
  eexists. exists (map wrap ds). split; [reflexivity|]. split; [reflexivity|]. split.
  - induction ds as [|d ds IH]; constructor; [apply wrap_wrapped|exact IH].
  - cbn. f_equal. induction ds as [|d ds IH]; [reflexivity|]. cbn [map existsb]. rewrite IH. f_equal.
    unfold dec_is_dyn. rewrite (wrapped_dyn d (wrap d) (wrap_wrapped d)). reflexivity.
Qed.
Theorem array_dec c d : c = NSizedDec \/ c = NDynDec ->
  match dec_dyn_attr d with
  | None => construct c [(KItemDecoder, ADec d)] = Err AttributeError
  | Some dyn => exists o d', construct c [(KItemDecoder, ADec d)] = Ok o /\ o KItemDecoder = ADec d' /\ wrapped d d'
      /\ o KIsDynamic = ABool (match c with NDynDec => true | _ => dyn end)
  end.
Proof.
  intros Hc. destruct (dec_dyn_attr d) as [dyn|] eqn:E.
  - destruct Hc as [->| ->]; unfold construct; cbn -[dec_dyn_attr]; unfold mk_item; rewrite E; cbn -[dec_dyn_attr].
    + destruct dyn; cbn -[dec_dyn_attr]; rewrite ?E; [|]; (eexists; eexists; split; [cbn; rewrite ?E; reflexivity|]; split; [reflexivity|]; split; [|reflexivity]).
      * left. auto.
      * right. split; [congruence|reflexivity].
    + eexists. eexists. split; [reflexivity|]. split; [reflexivity|]. split; [|reflexivity].
      destruct dyn; [left; auto|right; split; [congruence|reflexivity]].
  - destruct Hc as [->| ->]; unfold construct; cbn -[dec_dyn_attr]; unfold mk_item; rewrite E; reflexivity.
Qed.
