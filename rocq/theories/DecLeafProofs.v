(** Leaf decoders: the value of one 32-byte word. *)
From Coq Require Import Strings.Byte Strings.String.
From Verif Require Import Tac Bytes BytesProofs Utf8 Address Decimals DecimalsProofs Decoding Spec EncLeafProofs
  Utf8Proofs AddressProofs EncodeProofs.
Open Scope Z_scope.

(** ** Leaf words *)
Definition slice (buf : bytes) (p n : Z) : bytes := take_z n (drop_z p buf).
Lemma slice_len buf p n : 0 <= p -> 0 <= n -> p + n <= len buf -> len (slice buf p n) = n.
Proof. intros. unfold slice. rewrite len_take_z, len_drop_z by lia. lia. Qed.
Lemma slice_len_le buf p n : 0 <= p -> 0 <= n -> len (slice buf p n) = Z.min n (Z.max 0 (len buf - p)).
Proof. intros. unfold slice. rewrite len_take_z, len_drop_z by lia. lia. Qed.

Definition adv (n : Z) (st : stream) : stream := mkStream (pos st + n) (frames st) (total st).
Lemma maxsize_eq : maxsize = 9223372036854775807. Proof. reflexivity. Qed.

Lemma read_fixed_eq buf st : 0 <= pos st ->
  read_fixed buf 32 st = if pos st + 32 <=? len buf then Ok (slice buf (pos st) 32, adv 32 st) else Err InsufficientDataBytes.
Proof.
  intro H. unfold read_fixed, read. rewrite maxsize_eq. cbn [Z.ltb Z.compare Pos.compare Pos.compare_cont bind].
  change (take_z 32 (drop_z (pos st) buf)) with (slice buf (pos st) 32).
  rewrite slice_len_le by lia. pose proof (len_nonneg buf).
  destruct (Z.leb_spec (pos st + 32) (len buf)).
  - replace (Z.min 32 _) with 32 by lia. reflexivity.
  - destruct (Z.eqb_spec (Z.min 32 (Z.max 0 (len buf - pos st))) 32); [lia|reflexivity].
Qed.
Definition word_at (buf : bytes) (p : Z) : result Z :=
  if p + 32 <=? len buf then Ok (from_be (slice buf p 32)) else Err InsufficientDataBytes.
Lemma decode_uint_256_eq buf st : 0 <= pos st ->
  decode_uint_256 buf st = (z <- word_at buf (pos st) ;; Ok (z, adv 32 st)).
Proof.
  intro H. unfold decode_uint_256, word_at. rewrite read_fixed_eq by exact H.
  destruct (_ <=? _); reflexivity.
Qed.
Lemma word_at_ok buf p z : word_at buf p = Ok z -> p + 32 <= len buf /\ z = from_be (slice buf p 32).
Proof. unfold word_at. destruct (Z.leb_spec (p + 32) (len buf)); [|discriminate]. intro E. inv E. auto. Qed.
Lemma word_at_range buf p z : 0 <= p -> word_at buf p = Ok z -> 0 <= z < 2 ^ 256.
Proof.
  intros Hp E. apply word_at_ok in E. destruct E as [H ->].
  pose proof (from_be_range (slice buf p 32)) as R. rewrite slice_len in R by lia.
  rewrite pow256_pow2 in R by lia. exact R.
Qed.
Lemma word_at_err buf p e : word_at buf p = Err e -> e = InsufficientDataBytes.
Proof. unfold word_at. destruct (_ <=? _); congruence. Qed.

(** A 32-byte word read as a leaf. *)
Definition word_fn (big : bool) (bits : Z) (fn : bytes -> result pyval) (check : pyval -> bytes -> Z -> result unit)
    (raw : bytes) : result pyval :=
  let vsz := bits / 8 in
  let psz := 32 - vsz in
  let '(data, padding) :=
    if big then (drop_z psz raw, take_z psz raw) else (take_z vsz raw, drop_z vsz raw) in
  v <- fn data ;; check v padding psz ;;; Ok v.
Lemma decode_word_eq big bits fn check buf st : 0 <= pos st ->
  decode_word big bits fn check buf st =
  if pos st + 32 <=? len buf then v <- word_fn big bits fn check (slice buf (pos st) 32) ;; Ok (v, adv 32 st)
  else Err InsufficientDataBytes.
Proof.
  intro H. unfold decode_word, word_fn. rewrite read_fixed_eq by exact H.
  destruct (_ <=? _); [|reflexivity]. cbn [bind]. destruct big.
  - destruct (fn _); [|reflexivity]. cbn [bind]. destruct (check _ _ _); reflexivity.
  - destruct (fn _); [|reflexivity]. cbn [bind]. destruct (check _ _ _); reflexivity.
Qed.

(** The value of an m-bit leaf whose word is canonical. *)
Definition canonical (raw : bytes) (z : Z) : result Z :=
  if bytes_eqb (to_be 32 z) raw then Ok z else Err NonEmptyPaddingBytes.
Definition leaf_val (t : sty) (raw : bytes) : result aval :=
  match t with
  | SUInt m | SUFixed m _ => z <- canonical raw (from_be (drop_z (32 - m / 8) raw)) ;; Ok (VInt z)
  | SInt m | SFixed m _ => z <- canonical raw (signed_of m (from_be (drop_z (32 - m / 8) raw))) ;; Ok (VInt z)
  | SBool => if bytes_eqb raw (to_be 32 0) then Ok (VBool false)
             else if bytes_eqb raw (to_be 32 1) then Ok (VBool true) else Err NonEmptyPaddingBytes
  | SAddr => if bytes_eqb (take_z 12 raw) (zeros 12) then Ok (VBytes (drop_z 12 raw)) else Err NonEmptyPaddingBytes
  | SBytesM k => if bytes_eqb (drop_z k raw) (zeros (32 - k)) then Ok (VBytes (take_z k raw)) else Err NonEmptyPaddingBytes
  | _ => Err NotImplementedError
  end.

(** The Python value decode returns for an ABI value. *)
Fixpoint py_of (t : sty) (a : aval) {struct t} : pyval :=
  match t, a with
  | SUInt _, VInt z | SInt _, VInt z => PInt z
  | SBool, VBool b => PBool b
  | SAddr, VBytes b => PStr (lit "0x" ++ hex_lower b)
  | SUFixed _ n, VInt z | SFixed _ n, VInt z =>
      PDec (match dec_div (dec_of_Z z) (ten_pow n) with Ok d => d | Err _ => DNaN end)
  | SBytesM _, VBytes b | SBytes, VBytes b => PBytes b
  | SString, VStr s => PStr s
  | SArr t', VSeq l | SSized _ t', VSeq l => PTuple (map (py_of t') l)
  | STuple ts, VSeq l =>
      PTuple ((fix go (ts : list sty) (l : list aval) : list pyval :=
                 match ts, l with
                 | t' :: ts', x :: l' => py_of t' x :: go ts' l'
                 | _, _ => []
                 end) ts l)
  | _, _ => PNone
  end.

Lemma split_raw n (raw : bytes) : 0 <= n <= 32 -> len raw = 32 ->
  exists pad data, raw = pad ++ data /\ len pad = n /\ len data = 32 - n /\ take_z n raw = pad /\ drop_z n raw = data.
Proof.
  intros Hn Hl. exists (take_z n raw), (drop_z n raw). rewrite take_drop_z by lia.
  rewrite len_take_z, len_drop_z by lia. repeat split; lia.
Qed.
Lemma app_inj_len {A} (a b c d : list A) : len a = len c -> a ++ b = c ++ d -> a = c /\ b = d.
Proof.
  revert c. induction a as [|x a IH]; intros [|y c] H E; lens.
  - auto.
  - pose proof (len_nonneg c). lia.
  - pose proof (len_nonneg a). lia.
  - cbn [app] in E. inv E. destruct (IH c) as [-> ->]; [lia|assumption|auto].
Qed.
Lemma app_eqb (a b c d : bytes) : len a = len c -> bytes_eqb (a ++ b) (c ++ d) = bytes_eqb a c && bytes_eqb b d.
Proof.
  intro H. apply eq_iff_eq_true. rewrite andb_true_iff, !bytes_eqb_eq. split.
  - apply app_inj_len. exact H.
  - intros [-> ->]. reflexivity.
Qed.
Lemma bytes_eqb_sym a b : bytes_eqb a b = bytes_eqb b a.
Proof. apply eq_iff_eq_true. rewrite !bytes_eqb_eq. split; congruence. Qed.

Lemma canonical_padding k pad data z : 0 <= k <= 32 -> len pad = 32 - k -> len data = k ->
  z mod 256 ^ k = from_be data -> - 256 ^ k <= z < 256 ^ k ->
  bytes_eqb (to_be 32 z) (pad ++ data) = bytes_eqb pad (if z <? 0 then ones (32 - k) else zeros (32 - k)).
Proof.
  intros Hk Hp Hd Hz Hr.
  replace 32%nat with (Z.to_nat (32 - k) + Z.to_nat k)%nat by lia.
  rewrite to_be_app, app_eqb by (rewrite to_be_len; lia).
  assert (E : to_be (Z.to_nat k) z = data).
  { rewrite <- to_be_mod. replace (Z.of_nat (Z.to_nat k)) with k by lia. rewrite Hz.
    replace (Z.to_nat k) with (length data) by (rewrite len_length in Hd; lia). apply to_be_from_be. }
  rewrite E, bytes_eqb_refl, andb_true_r, bytes_eqb_sym. f_equal.
  replace (Z.of_nat (Z.to_nat k)) with k by lia. pose proof (pow256_pos k ltac:(lia)).
  destruct (Z.ltb_spec z 0).
  - replace (z / 256 ^ k) with (-1). 2: { apply (Z.div_unique_pos _ _ _ (z + 256 ^ k)); lia. }
    apply to_be_m1.
  - rewrite Z.div_small by lia. apply to_be_0.
Qed.

Lemma int_size_bytes m : int_size m -> exists k, m = 8 * k /\ 1 <= k <= 32 /\ m / 8 = k.
Proof. intros [H1 H2]. exists (m / 8). lia. Qed.

Lemma signed_of_mod m d : 1 <= m -> 0 <= d < 2 ^ m ->
  - 2 ^ (m - 1) <= signed_of m d < 2 ^ (m - 1) /\ signed_of m d mod 2 ^ m = d.
Proof.
  intros Hm Hd. unfold signed_of. pose proof (pow2_pred m ltac:(lia)). pose proof (pow2_pos (m - 1) ltac:(lia)).
  destruct (Z.leb_spec (2 ^ (m - 1)) d).
  - split; [lia|]. symmetry. apply (Z.mod_unique_pos _ _ (-1)); lia.
  - split; [lia|]. apply Z.mod_small. lia.
Qed.
Lemma signed_of_unique m z : 1 <= m -> - 2 ^ (m - 1) <= z < 2 ^ (m - 1) -> signed_of m (z mod 2 ^ m) = z.
Proof.
  intros Hm Hz. unfold signed_of. pose proof (pow2_pred m ltac:(lia)). pose proof (pow2_pos (m - 1) ltac:(lia)).
  destruct (Z.ltb_spec z 0).
  - assert (E : z mod 2 ^ m = z + 2 ^ m) by (symmetry; apply (Z.mod_unique_pos _ _ (-1)); lia).
    rewrite E. destruct (Z.leb_spec (2 ^ (m - 1)) (z + 2 ^ m)); lia.
  - rewrite Z.mod_small by lia. destruct (Z.leb_spec (2 ^ (m - 1)) z); lia.
Qed.

(** The model's leaf decoders compute [leaf_val]. *)
Lemma uint_word m raw : int_size m -> len raw = 32 -> forall (v : Z -> pyval),
  word_fn true m (fun b => Ok (v (from_be b))) check_zero_padding raw =
  (z <- canonical raw (from_be (drop_z (32 - m / 8) raw)) ;; Ok (v z)).
Proof.
  intros Hm Hl v. destruct (int_size_bytes m Hm) as (k & -> & Hk & E). unfold word_fn. rewrite E.
  destruct (split_raw (32 - k) raw ltac:(lia) Hl) as (pad & data & Hraw & Lp & Ld & -> & ->).
  cbn [bind]. unfold canonical, check_zero_padding. subst raw.
  pose proof (from_be_range data) as R. rewrite Ld in R. replace (32 - (32 - k)) with k in R by lia.
  rewrite (canonical_padding k) by (try lia; apply Z.mod_small; lia).
  destruct (Z.ltb_spec (from_be data) 0); [lia|].
  destruct (bytes_eqb pad _); reflexivity.
Qed.
Lemma sint_word m raw : int_size m -> len raw = 32 ->
  word_fn true m (fun b => Ok (PInt (signed_of m (from_be b)))) check_sign_padding raw =
  (z <- canonical raw (signed_of m (from_be (drop_z (32 - m / 8) raw))) ;; Ok (PInt z)).
Proof.
  intros Hm Hl. destruct (int_size_bytes m Hm) as (k & -> & Hk & E). unfold word_fn. rewrite E.
  destruct (split_raw (32 - k) raw ltac:(lia) Hl) as (pad & data & Hraw & Lp & Ld & -> & ->).
  cbn [bind]. unfold canonical, check_sign_padding. subst raw.
  pose proof (from_be_range data) as R. rewrite Ld in R. replace (32 - (32 - k)) with k in R by lia.
  rewrite pow256_pow2 in R by lia.
  destruct (signed_of_mod (8 * k) (from_be data) ltac:(lia) R) as [S1 S2].
  pose proof (pow2_pred (8 * k) ltac:(lia)).
  rewrite (canonical_padding k) by (rewrite ?pow256_pow2 by lia; lia).
  destruct (bytes_eqb pad _); reflexivity.
Qed.
Lemma dec_of_word n z : frac_size n -> Z.abs z <= 2 ^ 256 ->
  exists d, dec_div (dec_of_Z z) (ten_pow n) = Ok d /\ scaled d n z /\ dec_ltb d ZERO = (z <? 0).
Proof.
  intros Hn Hz. pose proof pow2_256_lt_pow10_78. destruct (dec_div_exact z n Hn ltac:(lia)) as (d & E & S & Hd).
  exists d. split; [exact E|]. split; [exact S|]. destruct d as [neg c e| |]; try contradiction.
  destruct Hd as [-> Hc]. rewrite dec_ltb_lt_ZERO. destruct (Z.ltb_spec z 0); [|reflexivity].
  cbn [andb]. destruct (Z.ltb_spec 0 (Z.of_N c)); [reflexivity|]. lia.
Qed.
Lemma ufixed_word m n raw : int_size m -> frac_size n -> len raw = 32 ->
  word_fn true m (fun b => unscale n (from_be b)) check_zero_padding raw =
  (z <- canonical raw (from_be (drop_z (32 - m / 8) raw)) ;; Ok (py_of (SUFixed m n) (VInt z))).
Proof.
  intros Hm Hn Hl.
  rewrite <- (uint_word m raw Hm Hl (fun z => py_of (SUFixed m n) (VInt z))).
  unfold word_fn. cbn [py_of]. unfold unscale.
  pose proof (from_be_range (drop_z (32 - m / 8) raw)) as R.
  destruct (dec_of_word n (from_be (drop_z (32 - m / 8) raw)) Hn) as (d & E & _).
  { destruct (int_size_bytes m Hm) as (k & -> & Hk & E). rewrite E in *. rewrite len_drop_z, pow256_pow2 in R by lia.
    pose proof (pow2_mono (8 * Z.max 0 (len raw - (32 - k))) 256 ltac:(lia)). lia. }
  rewrite E. reflexivity.
Qed.
Lemma sfixed_word m n raw : int_size m -> frac_size n -> len raw = 32 ->
  word_fn true m (fun b => unscale n (signed_of m (from_be b))) check_sign_padding raw =
  (z <- canonical raw (signed_of m (from_be (drop_z (32 - m / 8) raw))) ;; Ok (py_of (SFixed m n) (VInt z))).
Proof.
  intros Hm Hn Hl. destruct (int_size_bytes m Hm) as (k & -> & Hk & E). unfold word_fn. rewrite E.
  destruct (split_raw (32 - k) raw ltac:(lia) Hl) as (pad & data & Hraw & Lp & Ld & -> & ->).
  unfold canonical, check_sign_padding, unscale. subst raw.
  pose proof (from_be_range data) as R. rewrite Ld in R. replace (32 - (32 - k)) with k in R by lia.
  rewrite pow256_pow2 in R by lia.
  destruct (signed_of_mod (8 * k) (from_be data) ltac:(lia) R) as [S1 S2].
  pose proof (pow2_pred (8 * k) ltac:(lia)). pose proof (pow2_mono (8 * k) 256 ltac:(lia)).
  rewrite (canonical_padding k) by (rewrite ?pow256_pow2 by lia; lia).
  destruct (dec_of_word n (signed_of (8 * k) (from_be data)) Hn ltac:(lia)) as (d & Hd & _ & Hs).
  cbn [py_of]. rewrite Hd. cbn [bind]. rewrite Hs.
  destruct (bytes_eqb pad _); [|reflexivity]. cbn [negb raise_if bind]. rewrite Hd. reflexivity.
Qed.
Lemma bool_word raw : len raw = 32 ->
  word_fn true 8 bool_fn check_zero_padding raw = (a <- leaf_val SBool raw ;; Ok (py_of SBool a)).
Proof.
  intro Hl. unfold word_fn. change (8 / 8) with 1. change (32 - 1) with 31.
  destruct (split_raw 31 raw ltac:(lia) Hl) as (pad & data & Hraw & Lp & Ld & -> & ->).
  cbn [leaf_val]. subst raw.
  change (to_be 32 0) with (zeros 31 ++ [x00]). change (to_be 32 1) with (zeros 31 ++ [x01]).
  rewrite !app_eqb by (rewrite Lp; reflexivity). unfold bool_fn, check_zero_padding.
  destruct (bytes_eqb data [x00]) eqn:E0.
  - cbn [bind]. destruct (bytes_eqb pad (zeros 31)); [reflexivity|]. reflexivity.
  - rewrite andb_false_r. destruct (bytes_eqb data [x01]).
    + cbn [bind]. destruct (bytes_eqb pad (zeros 31)); reflexivity.
    + rewrite andb_false_r. reflexivity.
Qed.
Lemma addr_word raw : len raw = 32 ->
  word_fn true 160 (fun b => s <- to_normalized_address (PBytes b) ;; Ok (PStr s)) check_zero_padding raw =
  (a <- leaf_val SAddr raw ;; Ok (py_of SAddr a)).
Proof.
  intro Hl. unfold word_fn. change (160 / 8) with 20. change (32 - 20) with 12.
  destruct (split_raw 12 raw ltac:(lia) Hl) as (pad & data & Hraw & Lp & Ld & E1 & E2).
  cbn [leaf_val]. rewrite E1, E2. rewrite to_normalized_bytes by lia. cbn [bind].
  unfold check_zero_padding. destruct (bytes_eqb pad (zeros 12)); reflexivity.
Qed.
Lemma bytesM_word k raw : 1 <= k <= 32 -> len raw = 32 ->
  word_fn false (k * 8) (fun b => Ok (PBytes b)) check_zero_padding raw =
  (a <- leaf_val (SBytesM k) raw ;; Ok (py_of (SBytesM k) a)).
Proof.
  intros Hk Hl. unfold word_fn. rewrite Z.div_mul by lia. cbn [leaf_val bind]. unfold check_zero_padding.
  destruct (bytes_eqb _ (zeros (32 - k))); reflexivity.
Qed.

(** What the words mean. *)
Lemma canonical_ok raw z z' : canonical raw z = Ok z' <-> z' = z /\ to_be 32 z = raw.
Proof.
  unfold canonical. destruct (bytes_eqb (to_be 32 z) raw) eqn:E.
  - apply bytes_eqb_eq in E. split; [intro H; inv H; auto|intros [-> _]; reflexivity].
  - apply bytes_eqb_neq in E. split; [discriminate|]. intros [_ H]. contradiction.
Qed.
Lemma drop_to_be k z : 0 <= k <= 32 -> drop_z (32 - k) (to_be 32 z) = to_be (Z.to_nat k) z.
Proof.
  intro Hk. replace 32%nat with (Z.to_nat (32 - k) + Z.to_nat k)%nat by lia. rewrite to_be_app.
  apply drop_z_app. rewrite to_be_len. lia.
Qed.
Definition leaf (t : sty) : bool :=
  match t with SBytes | SString | SArr _ | SSized _ _ | STuple _ => false | _ => true end.
Theorem leaf_val_spec t raw a : wf t -> leaf t = true -> len raw = 32 ->
  leaf_val t raw = Ok a <-> has_type t a /\ spec_enc t a = raw.
Proof.
  intros W L Hl. destruct t as [m|m| | |m n|m n|k| | |t|n t|ts]; try discriminate; inv W; cbn [leaf_val].
  - take (int_size m) as Hm. destruct (int_size_bytes m Hm) as (k & Em & Hk & E). rewrite E. split.
    + intro H. bok H. inv H. apply canonical_ok in Hx. destruct Hx as [Ez Er].
      pose proof (from_be_range (drop_z (32 - k) raw)) as R. rewrite len_drop_z, Hl in R by lia.
      replace (Z.max 0 (32 - (32 - k))) with k in R by lia. rewrite pow256_pow2 in R by lia.
      split; [constructor; lia|]. cbn [spec_enc]. rewrite word_eq. congruence.
    + intros [T Er]. inv T. cbn [spec_enc]. rewrite word_eq, drop_to_be, from_be_to_be by lia.
      replace (Z.of_nat (Z.to_nat k)) with k by lia. rewrite pow256_pow2, Z.mod_small by lia.
      unfold canonical. rewrite bytes_eqb_refl. reflexivity.
  - take (int_size m) as Hm. destruct (int_size_bytes m Hm) as (k & Em & Hk & E). rewrite E. split.
    + intro H. bok H. inv H. apply canonical_ok in Hx. destruct Hx as [Ez Er].
      pose proof (from_be_range (drop_z (32 - k) raw)) as R. rewrite len_drop_z, Hl in R by lia.
      replace (Z.max 0 (32 - (32 - k))) with k in R by lia. rewrite pow256_pow2 in R by lia.
      destruct (signed_of_mod (8 * k) _ ltac:(lia) R) as [S1 _].
      split; [constructor; lia|]. cbn [spec_enc]. rewrite word_eq. congruence.
    + intros [T Er]. inv T. cbn [spec_enc]. rewrite word_eq, drop_to_be, from_be_to_be by lia.
      replace (Z.of_nat (Z.to_nat k)) with k by lia. rewrite pow256_pow2, signed_of_unique by lia.
      unfold canonical. rewrite bytes_eqb_refl. reflexivity.
  - split.
    + destruct (bytes_eqb raw (to_be 32 0)) eqn:E0; [|destruct (bytes_eqb raw (to_be 32 1)) eqn:E1];
        intro H; inv H; (split; [constructor|]); cbn [spec_enc]; rewrite word_eq; symmetry; apply bytes_eqb_eq; assumption.
    + intros [T Er]. inv T. cbn [spec_enc]. rewrite word_eq. destruct b.
      * replace (bytes_eqb (to_be 32 1) (to_be 32 0)) with false by reflexivity. rewrite bytes_eqb_refl. reflexivity.
      * rewrite bytes_eqb_refl. reflexivity.
  - split.
    + destruct (bytes_eqb _ _) eqn:E0; [|discriminate]. intro H; inv H. apply bytes_eqb_eq in E0.
      split; [constructor; rewrite len_drop_z by lia; lia|]. cbn [spec_enc].
      change (repeat x00 12) with (zeros 12). rewrite <- E0. apply take_drop_z. lia.
    + intros [T Er]. inv T. cbn [spec_enc]. change (repeat x00 12) with (zeros 12).
      rewrite take_z_app, drop_z_app by reflexivity. rewrite bytes_eqb_refl. reflexivity.
  - take (int_size m) as Hm. destruct (int_size_bytes m Hm) as (k & Em & Hk & E). rewrite E. split.
    + intro H. bok H. inv H. apply canonical_ok in Hx. destruct Hx as [Ez Er].
      pose proof (from_be_range (drop_z (32 - k) raw)) as R. rewrite len_drop_z, Hl in R by lia.
      replace (Z.max 0 (32 - (32 - k))) with k in R by lia. rewrite pow256_pow2 in R by lia.
      split; [constructor; lia|]. cbn [spec_enc]. rewrite word_eq. congruence.
    + intros [T Er]. inv T. cbn [spec_enc]. rewrite word_eq, drop_to_be, from_be_to_be by lia.
      replace (Z.of_nat (Z.to_nat k)) with k by lia. rewrite pow256_pow2, Z.mod_small by lia.
      unfold canonical. rewrite bytes_eqb_refl. reflexivity.
  - take (int_size m) as Hm. destruct (int_size_bytes m Hm) as (k & Em & Hk & E). rewrite E. split.
    + intro H. bok H. inv H. apply canonical_ok in Hx. destruct Hx as [Ez Er].
      pose proof (from_be_range (drop_z (32 - k) raw)) as R. rewrite len_drop_z, Hl in R by lia.
      replace (Z.max 0 (32 - (32 - k))) with k in R by lia. rewrite pow256_pow2 in R by lia.
      destruct (signed_of_mod (8 * k) _ ltac:(lia) R) as [S1 _].
      split; [constructor; lia|]. cbn [spec_enc]. rewrite word_eq. congruence.
    + intros [T Er]. inv T. cbn [spec_enc]. rewrite word_eq, drop_to_be, from_be_to_be by lia.
      replace (Z.of_nat (Z.to_nat k)) with k by lia. rewrite pow256_pow2, signed_of_unique by lia.
      unfold canonical. rewrite bytes_eqb_refl. reflexivity.
  - split.
    + destruct (bytes_eqb _ _) eqn:E0; [|discriminate]. intro H; inv H. apply bytes_eqb_eq in E0.
      assert (Lk : len (take_z k raw) = k) by (rewrite len_take_z by lia; lia).
      split; [constructor; exact Lk|]. cbn [spec_enc]. unfold pad_right. rewrite Lk.
      transitivity (take_z k raw ++ drop_z k raw); [|apply take_drop_z; lia].
      rewrite E0. unfold zeros. do 2 f_equal. lia.
    + intros [T Er]. inv T. cbn [spec_enc]. unfold pad_right. rewrite take_z_app, drop_z_app by reflexivity.
      replace (repeat x00 _) with (zeros (32 - len b)); [rewrite bytes_eqb_refl; reflexivity|].
      unfold zeros. f_equal. lia.
Qed.
Lemma leaf_val_err t raw e : leaf t = true -> leaf_val t raw = Err e -> e = NonEmptyPaddingBytes.
Proof.
  intros L H. destruct t; try discriminate; cbn [leaf_val] in H; unfold canonical in H;
    repeat (destruct (bytes_eqb _ _); cbn [bind] in H; try discriminate); congruence.
Qed.
