(** The messages of decoding are right. *)
From Coq Require Import Strings.Byte Strings.String.
From Verif Require Import Tac Bytes BytesProofs DecimalsProofs Utf8 Utf8Proofs Address AddressProofs Decimals Encoding Decoding Spec GrammarSpec TypeSpec Registry Codec Histories EncLeafProofs EncodeProofs
  DecLeafProofs DecodeProofs ReaderProofs DecodeFacts DecodeFacts2 CacheProofs LookupProofs ApiProofs HistoryProofs DecodeApi ReadSpec ReadProofs LengthSpec Complaints ComplaintSpec.
Open Scope Z_scope.

(** ** The same results *)
Lemma erase_tbind {A B} (m : told A) (f : A -> told B) : erase (tbind m f) = (a <- erase m ;; erase (f a)).
Proof. destruct m; reflexivity. Qed.
Lemma erase_plainly {A} (r : result A) : erase (plainly r) = r.
Proof. destruct r; reflexivity. Qed.
Lemma erase_tloop {S} n (f : S -> told S) (g : S -> result S) s : (forall s, erase (f s) = g s) -> erase (tloop n f s) = loop_Z n g s.
Proof.
  intro H. destruct n as [|p|p]; try reflexivity. cbn [tloop loop_Z]. revert s.
  induction p as [p IH|p IH|]; intro s; cbn [tloop_pos loop_pos].
  - rewrite erase_tbind, H. destruct (g s) as [s0|]; [|reflexivity]. cbn [bind]. rewrite erase_tbind, IH.
    destruct (loop_pos p g s0); [|reflexivity]. apply IH.
  - rewrite erase_tbind, IH. destruct (loop_pos p g s); [|reflexivity]. apply IH.
  - apply H.
Qed.
Lemma erase_fixed buf n st : erase (fixed_told buf n st) = read_fixed buf n st.
Proof.
  unfold fixed_told, read_fixed. rewrite erase_tbind, erase_plainly. destruct (read buf n st) as [[x st']|]; [|reflexivity].
  cbn [bind]. destruct (_ =? _); reflexivity.
Qed.
Lemma erase_uint buf st : erase (uint_256_told buf st) = decode_uint_256 buf st.
Proof. unfold uint_256_told, decode_uint_256. rewrite erase_tbind, erase_fixed. destruct (read_fixed _ _ _) as [[x st']|]; reflexivity. Qed.
Lemma zero_check v p n e : check_zero_padding v p n = Err e -> e = NonEmptyPaddingBytes.
Proof. unfold check_zero_padding, raise_if. destruct (negb _); congruence. Qed.
Lemma sign_check v p n e : check_sign_padding v p n = Err e -> e = NonEmptyPaddingBytes.
Proof. unfold check_sign_padding, raise_if. destruct (negb _); congruence. Qed.
Lemma erase_word big bits fn gn check buf st : (forall b, erase (fn b) = gn b) ->
  (forall v p n e, check v p n = Err e -> e = NonEmptyPaddingBytes) ->
  erase (word_told big bits fn check buf st) = decode_word big bits gn check buf st.
Proof.
  intros F C. unfold word_told, decode_word. rewrite erase_tbind, erase_fixed. destruct (read_fixed _ _ _) as [[x st']|]; [|reflexivity].
  cbn [bind]. destruct big; rewrite erase_tbind, F; (destruct (gn _) as [v|]; [|reflexivity]); cbn [bind];
    destruct (check v _ _) as [|e] eqn:E; try reflexivity; apply C in E; subst; reflexivity.
Qed.
Lemma erase_bytestring strict buf st : erase (bytestring_told strict buf st) = read_bytestring strict buf st.
Proof.
  unfold bytestring_told, read_bytestring. rewrite erase_tbind, erase_uint. destruct (decode_uint_256 buf st) as [[n st1]|]; [|reflexivity].
  cbn [bind]. rewrite erase_tbind, erase_plainly. destruct (read _ _ _) as [[x st2]|]; [|reflexivity]. cbn [bind].
  destruct strict; [|reflexivity]. destruct (_ <? _); [reflexivity|]. cbn zeta. destruct (negb _); reflexivity.
Qed.
Lemma erase_pointer k buf start hi st : erase (pointer_told k buf start hi st) = check_pointer buf start hi st.
Proof.
  unfold pointer_told, check_pointer. rewrite erase_tbind, erase_uint. destruct (decode_uint_256 buf st) as [[n st1]|]; [|reflexivity].
  cbn [bind]. destruct (_ || _); reflexivity.
Qed.
Lemma erase_pointers ht n buf st : erase (pointers_told ht n buf st) = array_validate_pointers ht n buf st.
Proof.
  unfold pointers_told, array_validate_pointers. destruct ht; [|reflexivity]. rewrite erase_tbind.
  rewrite (erase_tloop n _ (check_pointer buf (pos st) (pos st + 32 * n))) by apply erase_pointer.
  destruct (loop_Z _ _ _); [|reflexivity]. apply erase_plainly.
Qed.
Lemma erase_items n f g st : (forall st, erase (f st) = g st) -> erase (items_told n f st) = loop_items n g st.
Proof.
  intro H. unfold items_told, loop_items. rewrite erase_tbind.
  rewrite (erase_tloop n _ (fun s : list pyval * stream => ' (v, st') <- g (snd s) ;; Ok (v :: fst s, st'))).
  - destruct (loop_Z _ _ _) as [[acc st']|]; reflexivity.
  - intro s. rewrite erase_tbind, H. destruct (g (snd s)) as [[v st']|]; reflexivity.
Qed.

Section Told.
Variables (h : heap) (buf : bytes).
Section Check.
Variables (k : bool) (start hi : Z).
Fixpoint vpt (ds : list decoder) (st : stream) : told stream :=
  match ds with
  | [] => Fine st
  | d :: ds' =>
      st' <~ (if is_headtail d then pointer_told k buf start hi st
              else ' (_, st') <~ decode_told h d buf st ;; Fine st') ;;
      vpt ds' st'
  end.
End Check.
Fixpoint got (ds : list decoder) (st : stream) : told (list pyval * stream) :=
  match ds with
  | [] => Fine ([], st)
  | d :: ds' =>
      ' (v, st') <~ decode_told h d buf st ;;
      ' (vs, st'') <~ got ds' st' ;;
      Fine (v :: vs, st'')
  end.
Lemma told_tuple_eq ds st : decode_told h (DTuple ds) buf st =
  (st1 <~ vpt true (pos st) (pos st + 32 * fold_right (fun d acc => array_size_attr d + acc) 0 ds) ds st ;;
   st2 <~ plainly (seek (pos st) st1) ;;
   ' (vs, st3) <~ got ds st2 ;;
   Fine (PTuple vs, st3)).
Proof. reflexivity. Qed.
Lemma erase_vpt k start hi ds st : Forall (fun d => forall st, erase (decode_told h d buf st) = decode_with h d buf st) ds ->
  erase (vpt k start hi ds st) = vp h buf start hi ds st.
Proof.
  intro F. revert st. induction F as [|d ds Hd F IH]; intro st; [reflexivity|]. cbn [vpt vp]. rewrite erase_tbind.
  destruct (is_headtail d).
  - rewrite erase_pointer. destruct (check_pointer _ _ _ _); [|reflexivity]. apply IH.
  - rewrite erase_tbind, Hd. destruct (decode_with h d buf st) as [[v st']|]; [|reflexivity]. apply IH.
Qed.
Lemma erase_got ds st : Forall (fun d => forall st, erase (decode_told h d buf st) = decode_with h d buf st) ds ->
  erase (got ds st) = go h buf ds st.
Proof.
  intro F. revert st. induction F as [|d ds Hd F IH]; intro st; [reflexivity|]. cbn [got go]. rewrite erase_tbind, Hd.
  destruct (decode_with h d buf st) as [[v st']|]; [|reflexivity]. cbn [bind]. rewrite erase_tbind, IH.
  destruct (go _ _ ds st') as [[vs st'']|]; reflexivity.
Qed.
Theorem told_result d : forall st, erase (decode_told h d buf st) = decode_with h d buf st.
Proof.
  induction d as [b|b| | |b n|b n|b|s|s f|d IH|ds IH|n d IH|d IH|f|b s f] using decoder_ind'; intro st.
  - apply erase_word; [reflexivity|exact zero_check].
  - apply erase_word; [reflexivity|exact sign_check].
  - apply erase_word; [|exact zero_check]. intro b. unfold bool_told, bool_fn. destruct (bytes_eqb b [x00]); [reflexivity|]. destruct (bytes_eqb b [x01]); reflexivity.
  - apply erase_word; [|exact zero_check]. intro b. rewrite erase_tbind, erase_plainly. destruct (to_normalized_address _); reflexivity.
  - apply erase_word; [|exact zero_check]. intro x. apply erase_plainly.
  - apply erase_word; [|exact sign_check]. intro x. apply erase_plainly.
  - apply erase_word; [reflexivity|exact zero_check].
  - cbn [decode_told decode_with]. rewrite erase_tbind, erase_bytestring. destruct (read_bytestring _ _ _) as [[x st']|]; reflexivity.
  - cbn [decode_told decode_with]. rewrite erase_tbind, erase_bytestring. destruct (read_bytestring _ _ _) as [[x st']|]; [|reflexivity].
    cbn [bind]. rewrite erase_tbind, erase_plainly. destruct (f x); reflexivity.
  - cbn [decode_told decode_with]. rewrite erase_tbind, erase_uint. destruct (decode_uint_256 _ _) as [[z st1]|]; [|reflexivity].
    cbn [bind]. rewrite erase_tbind, erase_plainly. destruct (push_frame _ _); [|reflexivity]. cbn [bind].
    rewrite erase_tbind, IH. destruct (decode_with h d buf _) as [[v st3]|]; [|reflexivity]. cbn [bind].
    rewrite erase_tbind, erase_plainly. destruct (pop_frame _); reflexivity.
  - rewrite told_tuple_eq, decode_tuple_eq, erase_tbind, erase_vpt by exact IH. destruct (vp _ _ _ _ _ _); [|reflexivity].
    cbn [bind]. rewrite erase_tbind, erase_plainly. destruct (seek _ _); [|reflexivity]. cbn [bind].
    rewrite erase_tbind, erase_got by exact IH. destruct (go _ _ _ _) as [[vs st3]|]; reflexivity.
  - cbn [decode_told decode_with]. rewrite erase_tbind, erase_pointers. destruct (array_validate_pointers _ _ _ _); [|reflexivity].
    cbn [bind]. rewrite erase_tbind, (erase_items n _ _ _ IH). destruct (loop_items _ _ _) as [[vs st2]|]; reflexivity.
  - cbn [decode_told decode_with]. rewrite erase_tbind, erase_uint. destruct (decode_uint_256 _ _) as [[n st1]|]; [|reflexivity].
    cbn [bind]. rewrite erase_tbind, erase_plainly. destruct (push_frame _ _); [|reflexivity]. cbn [bind].
    rewrite erase_tbind, erase_pointers. destruct (array_validate_pointers _ _ _ _); [|reflexivity].
    cbn [bind]. rewrite erase_tbind, (erase_items n _ _ _ IH). destruct (loop_items _ _ _) as [[vs st2]|]; [|reflexivity].
    cbn [bind]. rewrite erase_tbind, erase_plainly. destruct (pop_frame _); reflexivity.
  - apply erase_plainly.
  - apply erase_plainly.
Qed.
Lemma vpt_result k start hi ds st : erase (vpt k start hi ds st) = vp h buf start hi ds st.
Proof. apply erase_vpt. apply Forall_forall. intros d _. apply told_result. Qed.
Lemma got_result ds st : erase (got ds st) = go h buf ds st.
Proof. apply erase_got. apply Forall_forall. intros d _. apply told_result. Qed.
Lemma fine_ok {A} (m : told A) a : m = Fine a -> erase m = Ok a.
Proof. intros ->. reflexivity. Qed.
Lemma told_err {A} (m : told A) c : m = Told c -> erase m = Err (class_of c).
Proof. intros ->. reflexivity. Qed.
Lemma tbind_Told {A B} (m : told A) (f : A -> told B) c : tbind m f = Told c -> m = Told c \/ exists a, m = Fine a /\ f a = Told c.
Proof. destruct m as [a|e]; cbn [tbind]; intro H; [right; eauto|left; congruence]. Qed.

(** ** Padding *)
Lemma all_repeat (x : byte) (l : bytes) : l = repeat x (length l) <-> Forall (fun b => b = x) l.
Proof.
  induction l as [|y l IH]; [split; [constructor|reflexivity]|]. cbn [length repeat]. split.
  - intro H. injection H as E1 E2. constructor; [exact E1|]. apply IH. exact E2.
  - intro H. inv H. f_equal. apply IH. assumption.
Qed.
Lemma eqb_fill (x : byte) (l : bytes) n : len l = n -> bytes_eqb l (repeat x (Z.to_nat n)) = true <-> Forall (fun b => b = x) l.
Proof. intro H. rewrite bytes_eqb_eq, <- all_repeat, <- H, len_length, Nat2Z.id. reflexivity. Qed.
Lemma not_all (x : byte) (l : bytes) : ~ Forall (fun b => b = x) l <-> Exists (fun b => b <> x) l.
Proof.
  split; intro H.
  - apply Exists_Forall_neg; [intro b; destruct (Byte.byte_eq_dec b x); auto|exact H].
  - intro F. rewrite Forall_forall in F. apply Exists_exists in H. destruct H as (b & Hb & N). exact (N (F b Hb)).
Qed.
Lemma Z_of_byte_eq b : Z_of_byte b = Z.of_N (Byte.to_N b).
Proof. reflexivity. Qed.
(** The sign of two's complement is the highest bit. *)
Lemma top_bit k data : 1 <= k -> len data = k ->
  (signed_of (8 * k) (from_be data) <? 0) = (0x80 <=? Z.of_N (Byte.to_N (nth 0 data x00))).
Proof.
  intros Hk Hl. destruct data as [|b data]; [change (len []) with 0 in Hl; lia|]. rewrite len_cons in Hl. cbn [nth].
  pose proof (from_be_range (b :: data)) as R. rewrite len_cons, Hl, pow256_pow2 in R by lia.
  destruct (signed_of_mod (8 * k) _ ltac:(lia) R) as [S1 S2]. unfold signed_of in *. rewrite from_be_cons in *. rewrite <- Z_of_byte_eq.
  pose proof (from_be_range data) as Rd. replace (len data) with (k - 1) in * by lia.
  pose proof (pow2_pos (8 * (k - 1)) ltac:(lia)) as P.
  assert (E : 2 ^ (8 * k - 1) = 128 * 2 ^ (8 * (k - 1))) by (replace (8 * k - 1) with (7 + 8 * (k - 1)) by lia; rewrite Z.pow_add_r by lia; reflexivity).
  rewrite pow256_pow2 in * by lia. pose proof (pow2_pred (8 * k) ltac:(lia)) as E2. rewrite E in *.
  set (w := 2 ^ (8 * (k - 1))) in *. clearbody w. set (y := from_be data) in *. clearbody y. set (z := Z_of_byte b) in *. clearbody z.
  destruct (Z.leb_spec (128 * w) (z * w + y)).
  - destruct (Z.leb_spec 128 z); [|nia]. destruct (Z.ltb_spec (z * w + y - 2 ^ (8 * k)) 0); [reflexivity|lia].
  - destruct (Z.leb_spec 128 z); [nia|]. destruct (Z.ltb_spec (z * w + y) 0); [lia|reflexivity].
Qed.
Lemma nth_drop n (l : bytes) : 0 <= n -> nth 0 (drop_z n l) x00 = nth (Z.to_nat n) l x00.
Proof.
  intro H. rewrite drop_z_skipn by exact H. generalize (Z.to_nat n) as m. clear. intro m. revert l.
  induction m as [|m IH]; intros [|x l]; try reflexivity. cbn [skipn nth]. apply IH.
Qed.
Lemma nth_last (w : bytes) : len w = 32 -> drop_z 31 w = [nth 31 w x00].
Proof.
  intro H. assert (L : len (drop_z 31 w) = 1) by (rewrite len_drop_z; lia). pose proof (nth_drop 31 w ltac:(lia)) as E.
  destruct (drop_z 31 w) as [|x [|y l]]; [discriminate| |rewrite !len_cons in L; pose proof (len_nonneg l); lia].
  cbn [nth] in E. change (Z.to_nat 31) with 31%nat in E. congruence.
Qed.
Lemma unsigned_padding m w : int_size m -> len w = 32 ->
  (exists z, canonical w (from_be (drop_z (32 - m / 8) w)) = Ok z) <-> Forall (fun b => b = x00) (firstn (Z.to_nat (32 - m / 8)) w).
Proof.
  intros Hm Hl. destruct (int_size_bytes m Hm) as (k & -> & Hk & E). rewrite E, <- take_z_firstn by lia.
  destruct (split_raw (32 - k) w ltac:(lia) Hl) as (pad & data & Hw & Lp & Ld & E1 & E2). rewrite E1, E2.
  unfold canonical. rewrite Hw. pose proof (from_be_range data) as R. rewrite Ld in R. replace (32 - (32 - k)) with k in R by lia.
  rewrite (canonical_padding k) by (try lia; apply Z.mod_small; lia). destruct (Z.ltb_spec (from_be data) 0); [lia|].
  rewrite <- (eqb_fill x00 pad (32 - k) Lp). fold (zeros (32 - k)). destruct (bytes_eqb _ _); split; eauto; [intros [z Hz]|]; discriminate.
Qed.
Lemma signed_padding m w : int_size m -> len w = 32 ->
  (exists z, canonical w (signed_of m (from_be (drop_z (32 - m / 8) w))) = Ok z) <->
  Forall (fun b => b = if 0x80 <=? Z.of_N (Byte.to_N (nth (Z.to_nat (32 - m / 8)) w x00)) then xff else x00) (firstn (Z.to_nat (32 - m / 8)) w).
Proof.
  intros Hm Hl. destruct (int_size_bytes m Hm) as (k & -> & Hk & E). rewrite E, <- take_z_firstn, <- nth_drop by lia.
  destruct (split_raw (32 - k) w ltac:(lia) Hl) as (pad & data & Hw & Lp & Ld & E1 & E2). rewrite E1, E2.
  rewrite <- (top_bit k) by lia.
  unfold canonical. rewrite Hw. pose proof (from_be_range data) as R. rewrite Ld in R. replace (32 - (32 - k)) with k in R by lia.
  rewrite pow256_pow2 in R by lia. destruct (signed_of_mod (8 * k) (from_be data) ltac:(lia) R) as [S1 S2]. pose proof (pow2_pred (8 * k) ltac:(lia)).
  rewrite (canonical_padding k) by (rewrite ?pow256_pow2 by lia; lia).
  destruct (_ <? 0); rewrite <- (eqb_fill _ pad (32 - k) Lp); fold (zeros (32 - k)) (ones (32 - k));
    (destruct (bytes_eqb _ _); split; eauto; [intros [z Hz]|]; discriminate).
Qed.
(** A word is canonical exactly if its padding consists of the right byte. *)
Lemma leaf_padding t w : wf t -> one_word t = true -> len w = 32 -> (t = SBool -> nth 31 w x00 = x00 \/ nth 31 w x00 = x01) ->
  (exists a, leaf_val t w = Ok a) <-> Forall (fun b => b = filler t w) (padding_of t w).
Proof.
  intros W O Hl Hb. destruct t as [m|m| | |m n|m n|k| | |t|n t|ts]; try discriminate O; inv W; cbn [leaf_val padding_of pad_size filler].
  - rewrite <- unsigned_padding by assumption. destruct (canonical _ _); split; intros [x Hx]; inv Hx; cbn [bind]; eauto.
  - rewrite <- signed_padding by assumption. destruct (canonical _ _); split; intros [x Hx]; inv Hx; cbn [bind]; eauto.
  - specialize (Hb eq_refl). rewrite <- take_z_firstn by lia. rewrite <- (eqb_fill x00 (take_z 31 w) 31) by (rewrite len_take_z; lia).
    fold (zeros 31). change (to_be 32 0) with (zeros 31 ++ [x00]). change (to_be 32 1) with (zeros 31 ++ [x01]).
    assert (Q : forall b, bytes_eqb w (zeros 31 ++ [b]) = bytes_eqb (take_z 31 w) (zeros 31) && bytes_eqb [nth 31 w x00] [b]).
    { intro b. rewrite <- nth_last by exact Hl. rewrite <- app_eqb by (rewrite len_take_z by lia; rewrite Hl; reflexivity). rewrite take_drop_z by lia. reflexivity. }
    rewrite !Q.
    destruct (bytes_eqb (take_z 31 w) (zeros 31)); cbn [andb].
    + split; [reflexivity|]. intros _. destruct Hb as [-> | ->]; [exists (VBool false)|exists (VBool true)]; reflexivity.
    + split; [intros [a Ha]|]; discriminate.
  - rewrite <- take_z_firstn by lia. rewrite <- (eqb_fill x00 (take_z 12 w) 12) by (rewrite len_take_z; lia).
    fold (zeros 12). destruct (bytes_eqb _ _); split; eauto; [intros [a Ha]|]; discriminate.
  - rewrite <- unsigned_padding by assumption. destruct (canonical _ _); split; intros [x Hx]; inv Hx; cbn [bind]; eauto.
  - rewrite <- signed_padding by assumption. destruct (canonical _ _); split; intros [x Hx]; inv Hx; cbn [bind]; eauto.
  - rewrite <- drop_z_skipn by lia. rewrite <- (eqb_fill x00 (drop_z k w) (32 - k)) by (rewrite len_drop_z; lia).
    fold (zeros (32 - k)). destruct (bytes_eqb _ _); split; eauto; [intros [a Ha]|]; discriminate.
Qed.
Lemma leaf_wrong t w : wf t -> one_word t = true -> len w = 32 -> (t = SBool -> nth 31 w x00 = x00 \/ nth 31 w x00 = x01) ->
  (exists e, leaf_val t w = Err e) <-> Exists (fun b => b <> filler t w) (padding_of t w).
Proof.
  intros W O Hl Hb. rewrite <- not_all, <- leaf_padding by assumption.
  destruct (leaf_val t w) as [a|e]; split; eauto; intros H; try (intros [a' Ha]; discriminate); [destruct H; discriminate|destruct H; eauto].
Qed.

(** ** What is told is wrong *)
Hypothesis Hbuf : len buf <= maxsize.

Lemma fixed_told_eq st : 0 <= pos st ->
  fixed_told buf 32 st = if pos st + 32 <=? len buf then Fine (slice buf (pos st) 32, adv 32 st) else Told (CShort false 32 (left_at buf (pos st))).
Proof.
  intro H. unfold fixed_told, read. rewrite maxsize_eq. cbn [Z.ltb Z.compare Pos.compare Pos.compare_cont plainly tbind].
  change (take_z 32 (drop_z (pos st) buf)) with (slice buf (pos st) 32).
  rewrite slice_len_le by lia. pose proof (len_nonneg buf).
  destruct (Z.leb_spec (pos st + 32) (len buf)).
  - replace (Z.min 32 _) with 32 by lia. reflexivity.
  - destruct (Z.eqb_spec (Z.min 32 (Z.max 0 (len buf - pos st))) 32); [lia|]. unfold left_at. do 2 f_equal. lia.
Qed.
Lemma uint_told_eq st : 0 <= pos st ->
  uint_256_told buf st = match word_at buf (pos st) with Ok z => Fine (z, adv 32 st) | Err _ => Told (CShort false 32 (left_at buf (pos st))) end.
Proof. intro H. unfold uint_256_told, word_at. rewrite fixed_told_eq by exact H. destruct (_ <=? _); reflexivity. Qed.
Lemma word_number p z : 0 <= p -> word_at buf p = Ok z -> number_at buf p z.
Proof. intros Hp H. split; [eapply word_at_range; eassumption|apply word_located; assumption]. Qed.
Lemma word_none p e : word_at buf p = Err e -> left_at buf p < 32.
Proof. unfold word_at, left_at. destruct (Z.leb_spec (p + 32) (len buf)); [discriminate|]. lia. Qed.

Definition reports (t : sty) : Prop := forall s st c, 0 <= pos st <= maxsize -> (sdyn t = true -> total st = pos st) ->
  decode_told h (dec_of s t) buf st = Told c -> defect buf s t (pos st) c.

Lemma word_reports t s big bits fn check : wf t -> one_word t = true ->
  (forall st, decode_told h (dec_of s t) buf st = word_told big bits fn check buf st) ->
  (forall raw, len raw = 32 -> (if big then take_z (32 - bits / 8) raw else drop_z (bits / 8) raw) = padding_of t raw) ->
  (forall raw c, len raw = 32 -> fn (if big then drop_z (32 - bits / 8) raw else take_z (bits / 8) raw) = Told c -> t = SBool /\ c = CBool [nth 31 raw x00] /\ nth 31 raw x00 <> x00 /\ nth 31 raw x00 <> x01) ->
  (forall raw v, t = SBool -> len raw = 32 -> fn (if big then drop_z (32 - bits / 8) raw else take_z (bits / 8) raw) = Fine v -> nth 31 raw x00 = x00 \/ nth 31 raw x00 = x01) ->
  forall st c, 0 <= pos st <= maxsize -> decode_told h (dec_of s t) buf st = Told c -> defect buf s t (pos st) c.
Proof.
  intros W O E P F1 F2 st c Hp H. pose proof (told_err _ _ H) as He. rewrite told_result in He.
  pose proof (pd_refines h buf Hbuf t W s st Hp) as A.
  assert (D : sdyn t = false) by (destruct t; try discriminate O; reflexivity). specialize (A ltac:(congruence)). unfold agrees in A.
  rewrite E in H. unfold word_told in H. rewrite fixed_told_eq in H by lia.
  destruct (Z.leb_spec (pos st + 32) (len buf)) as [L|L].
  - cbn [tbind] in H. set (raw := slice buf (pos st) 32) in *. assert (Hr : len raw = 32) by (apply slice_len; lia).
    assert (X : exists e, leaf_val t raw = Err e).
    { assert (Q : pd buf s t (pos st) = leaf_val t raw).
      { destruct t; try discriminate O; cbn [pd]; (destruct (Z.leb_spec (pos st + 32) (len buf)); [reflexivity|lia]). }
      rewrite Q in A. destruct (leaf_val t raw) as [a|e]; [destruct A as (p' & A & _); congruence|eauto]. }
    assert (Fd : found buf (pos st) raw) by (apply slice_located; lia).
    assert (G : forall data pad, data = (if big then drop_z (32 - bits / 8) raw else take_z (bits / 8) raw) ->
      pad = (if big then take_z (32 - bits / 8) raw else drop_z (bits / 8) raw) ->
      (v <~ fn data ;; match check v pad (32 - bits / 8) with Ok _ => Fine (v, adv 32 st) | Err _ => Told (CPadding pad) end) = Told c ->
      defect buf s t (pos st) c).
    { intros data pad -> -> Q. rewrite (P raw Hr) in Q. apply tbind_Told in Q. destruct Q as [Q|(v & Q1 & Q2)].
      - destruct (F1 raw c Hr Q) as (-> & -> & N0 & N1). apply D_bool with (w := take_z 31 raw); auto.
        + rewrite <- nth_last by exact Hr. rewrite take_drop_z by lia. exact Fd.
        + rewrite len_take_z; lia.
      - destruct (check _ _ _); [discriminate|]. injection Q2 as <-.
        assert (B : t = SBool -> nth 31 raw x00 = x00 \/ nth 31 raw x00 = x01) by (intro; eapply F2; eauto).
        apply D_word_padding; auto. apply leaf_wrong; auto. }
    destruct big; (eapply G; [reflexivity|reflexivity|exact H]).
  - cbn [tbind] in H. injection H as <-. apply D_word_short; [exact O|]. unfold left_at. lia.
Qed.
Lemma padded_ceil n : 0 <= n -> padded n = ceil32 n.
Proof. intro H. unfold padded. pose proof (ceil32_spec n H). lia. Qed.
Lemma bytes_report s t st c : flat_bytes t = true -> 0 <= pos st -> bytestring_told s buf st = Told c -> defect buf s t (pos st) c.
Proof.
  intros Ft Hp H. unfold bytestring_told in H. rewrite uint_told_eq in H by exact Hp. destruct (word_at buf (pos st)) as [n|e] eqn:Wd.
  - cbn [tbind] in H. pose proof (word_number _ _ Hp Wd) as N. pose proof (word_at_range _ _ _ Hp Wd) as R. apply word_at_ok in Wd. destruct Wd as [L _].
    pose proof (ceil32_spec n (proj1 R)) as C. rewrite <- padded_ceil in * by lia. unfold read in H.
    destruct (Z.ltb_spec maxsize (padded n)) as [M|M].
    + cbn [plainly tbind] in H. injection H as <-. apply D_long with (n := n); auto.
    + cbn [plainly tbind adv pos] in H. change (take_z (padded n) (drop_z (pos st + 32) buf)) with (slice buf (pos st + 32) (padded n)) in H.
      destruct s; [|discriminate]. rewrite slice_len_le in H by lia.
      destruct (Z.ltb_spec (Z.min (padded n) (Z.max 0 (len buf - (pos st + 32)))) (padded n)) as [Q|Q].
      * injection H as <-. replace (Z.min _ _) with (left_at buf (pos st + 32)) by (unfold left_at; lia).
        apply D_cut with (n := n); auto; [unfold left_at; lia|rewrite maxsize_eq in M; lia].
      * cbn zeta in H. rewrite slice_drop in H by lia. destruct (bytes_eqb _ _) eqn:E; [discriminate|]. cbn [negb] in H. injection H as <-.
        assert (Ls : len (slice buf (pos st + 32) n) = n) by (apply slice_len; lia).
        assert (Lp : len (slice buf (pos st + 32 + n) (padded n - n)) = padded n - n) by (apply slice_len; lia).
        apply D_padding with (data := slice buf (pos st + 32) n); [exact Ft| |rewrite Ls, Lp; lia|].
        -- rewrite Ls. apply located_app; [apply N|]. rewrite word_len. apply located_app; [apply slice_located; lia|]. rewrite Ls. apply slice_located; lia.
        -- apply not_all. rewrite <- (eqb_fill x00 _ _ Lp). fold (zeros (padded n - n)). rewrite E. discriminate.
  - cbn [tbind] in H. injection H as <-. apply D_length_short; [auto|eapply word_none; exact Wd].
Qed.

(** Members. *)
Lemma member_told s t : wf t -> reports t -> forall start st c lo ts k, 0 <= pos st <= maxsize -> 0 <= start ->
  (sdyn t = true -> total st = start /\ forall z, word_at buf (pos st) = Ok z -> lo <= z /\ start + z < len buf) ->
  decode_told h (wrap (dec_of s t)) buf st = Told c -> defect_in buf s k start lo (t :: ts) (pos st) c.
Proof.
  intros W R start st c lo ts k Hp Hs Hd H. rewrite wrap_of in H. destruct (sdyn t) eqn:D.
  - destruct (Hd eq_refl) as [Ht Hz]. cbn [decode_told] in H. rewrite uint_told_eq in H by lia.
    destruct (word_at buf (pos st)) as [z|e] eqn:Wd.
    + cbn [tbind] in H. destruct (Hz z eq_refl) as [Hl Hb]. pose proof (word_number _ _ (proj1 Hp) Wd) as N. pose proof (word_at_range _ _ _ (proj1 Hp) Wd) as Zr.
      apply word_at_ok in Wd. destruct Wd as [L _].
      unfold push_frame, seek_in_frame in H. cbn [total adv pos frames] in H. rewrite Ht, seek_ok, Z.add_0_r in H by lia. cbn [plainly tbind frames total] in H.
      apply DI_behind with (z := z); auto.
      match type of H with context [decode_told h _ buf ?x] => set (st2 := x) in H end.
      apply tbind_Told in H. destruct H as [H|([v st3] & H1 & H2)].
      * apply R in H; [exact H|cbn; lia|reflexivity].
      * exfalso. apply fine_ok in H1. rewrite told_result in H1.
        pose proof (pd_refines h buf Hbuf t W s st2 ltac:(cbn; lia) ltac:(reflexivity)) as A. unfold agrees in A.
        destruct (pd buf s t (pos st2)) as [a|e]; [|congruence]. destruct A as (p' & A & B & _). rewrite A in H1. inversion H1 as [[E1 E2]]. subst st3.
        unfold pop_frame in H2. cbn [frames total st2] in H2. rewrite seek_ok in H2 by lia. discriminate.
    + cbn [tbind] in H. injection H as <-. apply DI_short; [exact D|eapply word_none; exact Wd].
  - apply DI_static; [exact D|]. apply R; [exact Hp|congruence|exact H].
Qed.
Definition okc (s : bool) (start hi : Z) (ts : list sty) (p : Z) : Prop :=
  existsb sdyn ts = true -> tcheck buf start hi (map (rdr_of buf s) ts) p = Ok tt.
Lemma pointer_reports k s t ts start lo st c : sdyn t = true -> 0 <= pos st -> pointer_told k buf start (start + lo) st = Told c ->
  defect_in buf s k start lo (t :: ts) (pos st) c.
Proof.
  intros D Hp H. unfold pointer_told in H. rewrite uint_told_eq in H by exact Hp. destruct (word_at buf (pos st)) as [z|e] eqn:Wd.
  - cbn [tbind adv pos] in H. destruct (_ || _) eqn:O; [|discriminate]. injection H as <-. apply orb_true_iff in O.
    replace (pos st + 32 - 32) with (pos st) by lia. apply DI_pointer with (z := z); [exact D|apply word_number; assumption|lia].
  - cbn [tbind] in H. injection H as <-. apply DI_short; [exact D|eapply word_none; exact Wd].
Qed.
Lemma pointer_fine k start hi st st' : 0 <= pos st -> pointer_told k buf start hi st = Fine st' -> st' = adv 32 st /\ pos st + 32 <= len buf.
Proof.
  intros Hp H. unfold pointer_told in H. rewrite uint_told_eq in H by exact Hp. destruct (word_at buf (pos st)) as [z|e] eqn:Wd; [|discriminate].
  cbn [tbind] in H. destruct (_ || _); [discriminate|]. injection H as <-. apply word_at_ok in Wd. split; [reflexivity|apply Wd].
Qed.
Lemma member_fine s t start st v st' : wf t -> 0 <= pos st <= maxsize -> 0 <= start ->
  (sdyn t = true -> total st = start /\ forall z, word_at buf (pos st) = Ok z -> start + z < len buf) ->
  decode_told h (wrap (dec_of s t)) buf st = Fine (v, st') ->
  st' = mkStream (pos st + head_words t) (frames st) (total st) /\ 0 <= pos st + head_words t <= maxsize.
Proof.
  intros W Hp Hs Hd H. apply fine_ok in H. rewrite told_result in H.
  pose proof (member_refines h buf Hbuf s t (pd buf s t) (pd_refines h buf Hbuf t W s) start st Hp Hs Hd) as M. unfold magrees in M.
  destruct (member _ _ _ _ _) as [a|e]; [|congruence]. destruct M as [M B]. rewrite M in H. inversion H. split; [reflexivity|exact B].
Qed.
Lemma vpt_reports k s start lo ts : 0 <= start -> Forall wf ts -> Forall reports ts -> forall st c, 0 <= pos st <= maxsize ->
  vpt k start (start + lo) (map wrap (map (dec_of s) ts)) st = Told c -> defect_in buf s k start lo ts (pos st) c.
Proof.
  intros Hs W F. revert W. induction F as [|t ts Rt F IH]; intros W st c Hp H; cbn [map vpt] in H; [discriminate|]. inversion W as [|? ? Wt Ws]; subst; clear W. rewrite is_headtail_of in H.
  destruct (sdyn t) eqn:D.
  - apply tbind_Told in H. destruct H as [H|(st' & H1 & H2)]; [apply pointer_reports; [exact D|lia|exact H]|].
    apply pointer_fine in H1; [|lia]. destruct H1 as [-> L]. apply DI_next. unfold head_words. rewrite D.
    apply (IH ltac:(assumption) (adv 32 st)); [cbn; lia|exact H2].
  - apply tbind_Told in H. destruct H as [H|(st' & H1 & H2)].
    + apply tbind_Told in H. destruct H as [H|([v st2] & _ & H)]; [|discriminate]. eapply member_told; eauto; congruence.
    + destruct (decode_told h (wrap (dec_of s t)) buf st) as [[v st2]|] eqn:E; [|discriminate]. cbn [tbind] in H1. injection H1 as <-.
      apply (member_fine s t start) in E; auto; [|congruence]. destruct E as [-> B]. apply DI_next.
      apply (IH ltac:(assumption) (mkStream (pos st + head_words t) (frames st) (total st))); [exact B|exact H2].
Qed.
Lemma got_reports k s start lo ts : 0 <= start -> Forall wf ts -> Forall reports ts -> forall st c, 0 <= pos st <= maxsize ->
  (existsb sdyn ts = true -> total st = start) -> okc s start (start + lo) ts (pos st) ->
  got (map wrap (map (dec_of s) ts)) st = Told c -> defect_in buf s k start lo ts (pos st) c.
Proof.
  intros Hs W F. revert W. induction F as [|t ts Rt F IH]; intros W st c Hp Ht C H; cbn [map got] in H; [discriminate|]. inversion W as [|? ? Wt Ws]; subst; clear W.
  assert (Pt : sdyn t = true -> total st = start /\ forall z, word_at buf (pos st) = Ok z -> lo <= z /\ start + z < len buf).
  { intro D. split; [apply Ht; cbn [existsb]; rewrite D; reflexivity|]. intros z Hz. unfold okc in C. cbn [existsb map tcheck] in C.
    change (rdr_of buf s t) with (mkR (sdyn t) (static_size t) (pd buf s t)) in C. cbn [r_dyn] in C. rewrite D in C. specialize (C eq_refl). rewrite Hz in C. cbn [bind] in C.
    destruct (_ || _) eqn:O; [discriminate|]. apply orb_false_iff in O. lia. }
  apply tbind_Told in H. destruct H as [H|([v st'] & H1 & H2)]; [eapply member_told; eauto|].
  apply tbind_Told in H2. destruct H2 as [H2|([vs st2] & _ & H2)]; [|discriminate].
  apply (member_fine s t start) in H1; auto. 2: { intro D. destruct (Pt D) as [P1 P2]. split; [exact P1|]. intros z Hz. apply P2. exact Hz. }
  destruct H1 as [-> B]. apply DI_next. apply (IH ltac:(assumption) (mkStream (pos st + head_words t) (frames st) (total st))); auto.
  - cbn [total]. intro Q. apply Ht. cbn [existsb]. rewrite Q. apply orb_true_r.
  - intro Q. cbn [pos]. unfold okc in C. cbn [existsb map tcheck] in C. rewrite Q, orb_true_r in C. specialize (C eq_refl).
    change (rdr_of buf s t) with (mkR (sdyn t) (static_size t) (pd buf s t)) in C. cbn [r_dyn r_fn r_size] in C. unfold head_words. destruct (sdyn t).
    + bok C. destruct (_ || _); [discriminate|exact C].
    + bok C. exact C.
Qed.

(** Loops. *)
Fixpoint titer {S} (n : nat) (f : S -> told S) (s : S) : told S :=
  match n with O => Fine s | S n' => s' <~ f s ;; titer n' f s' end.
Lemma titer_add {S} a b (f : S -> told S) s : titer (a + b) f s = (s' <~ titer a f s ;; titer b f s').
Proof.
  revert s. induction a as [|a IH]; intro s; [reflexivity|]. cbn [Nat.add titer].
  destruct (f s); [|reflexivity]. cbn [tbind]. apply IH.
Qed.
Lemma tloop_titer {S} n (f : S -> told S) s : tloop n f s = titer (Z.to_nat n) f s.
Proof.
  destruct n as [|p|p]; [reflexivity| |reflexivity]. cbn [tloop Z.to_nat]. revert s. induction p as [p IH|p IH|]; intro s; cbn [tloop_pos].
  - replace (Pos.to_nat p~1) with (1 + (Pos.to_nat p + Pos.to_nat p))%nat by lia.
    cbn [Nat.add titer]. destruct (f s) as [a|]; [|reflexivity]. cbn [tbind]. rewrite titer_add, IH.
    destruct (titer _ f a); [|reflexivity]. cbn [tbind]. apply IH.
  - replace (Pos.to_nat p~0) with (Pos.to_nat p + Pos.to_nat p)%nat by lia.
    rewrite titer_add, IH. destruct (titer _ f s); [|reflexivity]. cbn [tbind]. apply IH.
  - change (Pos.to_nat 1) with 1%nat. cbn [titer]. destruct (f s); reflexivity.
Qed.
Lemma titer_pointers k start hi d n st : is_headtail d = true ->
  titer n (pointer_told k buf start hi) st = vpt k start hi (repeat d n) st.
Proof.
  intro H. revert st. induction n as [|n IH]; intro st; [reflexivity|].
  cbn [titer repeat vpt]. rewrite H. destruct (pointer_told _ _ _ _ st); [|reflexivity]. apply IH.
Qed.
Lemma items_got d n st : items_told n (decode_told h d buf) st = got (repeat d (Z.to_nat n)) st.
Proof.
  unfold items_told. rewrite tloop_titer.
  assert (G : forall k acc st,
    titer k (fun s : list pyval * stream => ' (v, st') <~ decode_told h d buf (snd s) ;; Fine (v :: fst s, st')) (acc, st)
    = (' (vs, st') <~ got (repeat d k) st ;; Fine (rev vs ++ acc, st'))).
  { clear. induction k as [|k IH]; intros acc st; [reflexivity|].
    cbn [titer repeat got fst snd]. destruct (decode_told h d buf st) as [[v st']|]; [|reflexivity].
    cbn [tbind]. rewrite IH. destruct (got _ st') as [[vs st'']|]; [|reflexivity].
    cbn [tbind rev]. rewrite <- app_assoc. reflexivity. }
  rewrite G. destruct (got _ st) as [[vs st']|]; [|reflexivity]. cbn [tbind].
  rewrite app_nil_r, rev_involutive. reflexivity.
Qed.
Lemma repeat_map {A B} (f : A -> B) x n : repeat (f x) n = map f (repeat x n).
Proof. induction n; cbn; congruence. Qed.
Lemma vpt_okc k s start hi ts st st' : 0 <= start -> Forall wf ts -> 0 <= pos st <= maxsize ->
  vpt k start hi (map wrap (map (dec_of s) ts)) st = Fine st' ->
  tcheck buf start hi (map (rdr_of buf s) ts) (pos st) = Ok tt /\ frames st' = frames st /\ total st' = total st.
Proof.
  intros Hs W Hp H. apply fine_ok in H. rewrite vpt_result in H.
  assert (MR : mrefines h buf ts (map wrap (map (dec_of s) ts)) (map (rdr_of buf s) ts)).
  { apply mrefines_tuple. intros t Hi. apply pd_refines; [exact Hbuf|]. rewrite Forall_forall in W. auto. }
  pose proof (vp_refines h buf Hbuf start hi _ _ _ Hs MR st Hp) as V. destruct (tcheck _ _ _ _ _) as [[]|e]; [|congruence].
  destruct V as [p' V]. rewrite V in H. inversion H. auto.
Qed.
Lemma array_reports t n st c : wf t -> reports t -> 0 <= n -> 0 <= pos st <= maxsize -> (sdyn t = true -> total st = pos st) ->
  (st1 <~ pointers_told (is_headtail (wrap (dec_of true t))) n buf st ;;
   ' (vs, st2) <~ items_told n (decode_told h (wrap (dec_of true t)) buf) st1 ;; Fine (PTuple vs, st2)) = Told c ->
  defect_in buf true false (pos st) (32 * n) (repeat t (Z.to_nat n)) (pos st) c.
Proof.
  intros W R Hn Hp Ht H. set (ts := repeat t (Z.to_nat n)).
  assert (E : repeat (wrap (dec_of true t)) (Z.to_nat n) = map wrap (map (dec_of true) ts)) by (unfold ts; rewrite <- !repeat_map; reflexivity).
  assert (Wt : Forall wf ts) by (apply Forall_repeat; exact W). assert (Rt : Forall reports ts) by (apply Forall_repeat; exact R).
  assert (G : okc true (pos st) (pos st + 32 * n) ts (pos st) ->
    (' (vs, st2) <~ items_told n (decode_told h (wrap (dec_of true t)) buf) st ;; Fine (PTuple vs, st2)) = Told c ->
    defect_in buf true false (pos st) (32 * n) ts (pos st) c).
  { intros C Q. apply tbind_Told in Q. destruct Q as [Q|([vs st2] & _ & Q)]; [|discriminate]. rewrite items_got, E in Q.
    eapply got_reports; eauto; try lia. intro X. apply existsb_repeat in X. auto. }
  rewrite is_headtail_of in H. unfold pointers_told in H. destruct (sdyn t) eqn:D.
  - rewrite tloop_titer, (titer_pointers false _ _ (wrap (dec_of true t))), E in H by (rewrite is_headtail_of; exact D).
    apply tbind_Told in H. destruct H as [H|(st1 & H1 & H2)].
    + apply tbind_Told in H. destruct H as [H|(st1 & H1 & H2)].
      * eapply vpt_reports; eauto; lia.
      * rewrite seek_ok in H2 by exact Hp. discriminate.
    + destruct (vpt _ _ _ _ _) as [st0|] eqn:V; [|discriminate]. cbn [tbind] in H1. rewrite seek_ok in H1 by exact Hp. cbn [plainly] in H1. injection H1 as <-.
      apply vpt_okc in V; auto; [|lia]. destruct V as (C & Ef & Et). apply G; [intros _; exact C|]. rewrite Ef, Et in H2. destruct st; exact H2.
  - cbn [tbind] in H. apply G; [|exact H]. intro Q. apply existsb_repeat in Q. congruence.
Qed.
Lemma tuple_reports s ts st c : Forall wf ts -> Forall reports ts -> 0 <= pos st <= maxsize -> (existsb sdyn ts = true -> total st = pos st) ->
  decode_told h (mk_dtuple (map (dec_of s) ts)) buf st = Told c -> defect_in buf s true (pos st) (32 * counted_all ts) ts (pos st) c.
Proof.
  intros W R Hp Ht H. unfold mk_dtuple in H. rewrite told_tuple_eq, slots_fold, <- counted_slots in H.
  apply tbind_Told in H. destruct H as [H|(st1 & H1 & H2)]; [eapply vpt_reports; eauto; lia|].
  apply vpt_okc in H1; auto; [|lia]. destruct H1 as (C & Ef & Et). rewrite seek_ok in H2 by exact Hp. cbn [plainly tbind] in H2. rewrite Ef, Et in H2.
  apply tbind_Told in H2. destruct H2 as [H2|([vs st2] & _ & H2)]; [|discriminate].
  eapply got_reports; eauto; [lia|intros _; exact C|]. destruct st; exact H2.
Qed.
Theorem told_reports t : wf t -> reports t.
Proof.
  induction t as [m|m| | |m n|m n|k| | |t IH|n t IH|ts IH] using sty_ind'; intros W s st c Hp Ht H.
  - inversion W; subst. take (int_size m) as Hm. destruct (int_size_bytes m Hm) as (k & Em & Hk & E).
    eapply word_reports; try exact H; try exact Hp; try exact W; try reflexivity; try discriminate.
    intros raw Hr. cbn [padding_of pad_size]. apply take_z_firstn. lia.
  - inversion W; subst. take (int_size m) as Hm. destruct (int_size_bytes m Hm) as (k & Em & Hk & E).
    eapply word_reports; try exact H; try exact Hp; try exact W; try reflexivity; try discriminate.
    intros raw Hr. cbn [padding_of pad_size]. apply take_z_firstn. lia.
  - eapply word_reports; try exact H; try exact Hp; try exact W; try reflexivity; cbn beta iota; change (32 - 8 / 8) with 31.
    + intros raw Hr. apply take_z_firstn. reflexivity || lia || discriminate.
    + intros raw c' Hr. rewrite nth_last by exact Hr. unfold bool_told. destruct (bytes_eqb _ [x00]) eqn:E0; [discriminate|]. destruct (bytes_eqb _ [x01]) eqn:E1; [discriminate|].
      intro Q. injection Q as <-. apply bytes_eqb_neq in E0, E1. repeat split; congruence.
    + intros raw v _ Hr. rewrite nth_last by exact Hr. unfold bool_told. destruct (bytes_eqb _ [x00]) eqn:E0; [apply bytes_eqb_eq in E0; injection E0 as E0; auto|].
      destruct (bytes_eqb _ [x01]) eqn:E1; [apply bytes_eqb_eq in E1; injection E1 as E1; auto|discriminate].
  - eapply word_reports; try exact H; try exact Hp; try exact W; try reflexivity; try discriminate; cbn beta iota; change (32 - 160 / 8) with 12.
    + intros raw Hr. apply take_z_firstn. reflexivity || lia || discriminate.
    + intros raw c' Hr. rewrite to_normalized_bytes by (rewrite len_drop_z; lia). discriminate.
  - inversion W; subst. take (int_size m) as Hm. take (frac_size n) as Hf. destruct (int_size_bytes m Hm) as (k & Em & Hk & E).
    eapply word_reports; try exact H; try exact Hp; try exact W; try reflexivity; try discriminate; cbn beta iota; rewrite E.
    + intros raw Hr. cbn [padding_of pad_size]. rewrite E. apply take_z_firstn. lia.
    + intros raw c' Hr. pose proof (from_be_range (drop_z (32 - k) raw)) as R. rewrite len_drop_z, pow256_pow2 in R by lia.
      pose proof (pow2_mono (8 * Z.max 0 (len raw - (32 - k))) 256 ltac:(lia)).
      destruct (dec_of_word n (from_be (drop_z (32 - k) raw)) Hf ltac:(lia)) as (d & Ed & _). unfold unscale. rewrite Ed. discriminate.
  - inversion W; subst. take (int_size m) as Hm. take (frac_size n) as Hf. destruct (int_size_bytes m Hm) as (k & Em & Hk & E).
    eapply word_reports; try exact H; try exact Hp; try exact W; try reflexivity; try discriminate; cbn beta iota; rewrite E.
    + intros raw Hr. cbn [padding_of pad_size]. rewrite E. apply take_z_firstn. lia.
    + intros raw c' Hr. pose proof (from_be_range (drop_z (32 - k) raw)) as R. rewrite len_drop_z, pow256_pow2, Hr in R by lia.
      replace (8 * Z.max 0 (32 - (32 - k))) with m in R by lia. destruct (signed_of_mod m _ ltac:(lia) R) as [S1 _].
      pose proof (pow2_pred m ltac:(lia)). pose proof (pow2_mono m 256 ltac:(lia)).
      destruct (dec_of_word n (signed_of m (from_be (drop_z (32 - k) raw))) Hf ltac:(lia)) as (d & Ed & _). unfold unscale. rewrite Ed. discriminate.
  - inversion W; subst. eapply word_reports; try exact H; try exact Hp; try exact W; try reflexivity; try discriminate.
    intros raw Hr. cbn [padding_of]. rewrite Z.div_mul by lia. apply drop_z_skipn. lia.
  - cbn [dec_of decode_told strict_val] in H. apply tbind_Told in H. destruct H as [H|([b st'] & _ & H)]; [|discriminate]. apply bytes_report; [reflexivity|lia|exact H].
  - cbn [dec_of decode_told strict_val] in H. apply tbind_Told in H. destruct H as [H|([b st'] & H1 & H2)]; [apply bytes_report; [reflexivity|lia|exact H]|].
    apply tbind_Told in H2. destruct H2 as [H2|(u & _ & H2)]; [|discriminate]. apply fine_ok in H1. rewrite erase_bytestring in H1.
    pose proof (read_bytestring_eq buf s st ltac:(lia)) as Q. destruct (rd_bytes buf s (pos st)) as [b'|e] eqn:Rb; [|congruence].
    destruct Q as (p' & Q & _). rewrite Q in H1. injection H1 as -> _. apply rd_bytes_holds in Rb; [|exact Hbuf|lia].
    destruct (utf8_decode_cases b) as [U|(u & U & _)]; rewrite U in H2; [|discriminate]. cbn [plainly] in H2. injection H2 as <-.
    eapply D_text; [exact Rb|]. intros u Hu Eu. subst b. rewrite utf8_decode_utf8 in U by exact Hu. discriminate.
  - assert (Wt : wf t) by (inversion W; assumption). specialize (Ht eq_refl). cbn [dec_of decode_told] in H. rewrite uint_told_eq in H by lia.
    destruct (word_at buf (pos st)) as [n|e] eqn:Wd.
    + cbn [tbind] in H. pose proof (word_number _ _ (proj1 Hp) Wd) as N. pose proof (word_at_range _ _ _ (proj1 Hp) Wd) as Rn. apply word_at_ok in Wd. destruct Wd as [L _].
      unfold push_frame, seek_in_frame in H. cbn [adv pos frames total] in H. rewrite Ht, Z.add_0_r, seek_ok in H by lia. cbn [plainly tbind frames total] in H.
      set (st2 := mkStream (pos st + 32) ((32, pos st + 32) :: frames st) (pos st + 32)) in H.
      apply D_arr with (n := n); [exact N|]. change (pos st + 32) with (pos st2).
      apply array_reports; [assumption|auto|lia|cbn; lia|reflexivity|].
      apply tbind_Told in H. destruct H as [H|(st3 & H1 & H2)]; [rewrite H; reflexivity|]. rewrite H1. cbn [tbind].
      apply tbind_Told in H2. destruct H2 as [H2|([vs st4] & H2 & H3)]; [rewrite H2; reflexivity|]. exfalso.
      pose proof (array_refines h buf Hbuf t (pd buf true t) n (pos st + 32) st2 (proj1 Rn) (pd_refines h buf Hbuf t ltac:(assumption) true) ltac:(cbn; lia) eq_refl ltac:(reflexivity)) as A.
      cbn zeta in A. apply fine_ok in H1, H2. rewrite erase_pointers in H1. rewrite (erase_items n _ _ _ (told_result _)) in H2. rewrite H1 in A. cbn [bind] in A. rewrite H2 in A. cbn [bind] in A.
      destruct (rd_array _ _ _ _ _); [|discriminate]. destruct A as (l & _ & A & _). inversion A as [[E1 E2]]. rewrite E2 in H3.
      unfold pop_frame in H3. cbn [frames total st2] in H3. rewrite seek_ok in H3 by lia. discriminate.
    + cbn [tbind] in H. injection H as <-. apply D_length_short; [eauto|eapply word_none; exact Wd].
  - inversion W; subst. apply D_sized. apply array_reports; auto. lia.
  - inversion W; subst. take (Forall wf ts) as Wt. apply D_tuple. apply tuple_reports; auto. clear -IH Wt. induction IH; inv Wt; constructor; auto.
Qed.

(** ** What is told rules out any value *)
Theorem defect_genuine :
  (forall s t p c, defect buf s t p c -> wf t -> 0 <= p -> forall a, ~ holds buf s t p a)
  /\ (forall s k start lo ts p c, defect_in buf s k start lo ts p c -> Forall wf ts -> 0 <= p -> 0 <= start -> 0 <= lo -> forall vs, ~ holds_all buf s start lo ts p vs).
Proof.
  assert (Q : forall s t p, wf t -> 0 <= p -> (forall a, pd buf s t p <> Ok a) -> forall a, ~ holds buf s t p a).
  { intros s t p W Hp H a Ha. apply (H a). eapply holds_pd_both; eauto. }
  assert (S : forall p, left_at buf p < 32 -> exists e, word_at buf p = Err e).
  { intros p Hp. unfold left_at in Hp. unfold word_at. destruct (Z.leb_spec (p + 32) (len buf)); [lia|eauto]. }
  apply (defect_both buf (fun s t p c _ => wf t -> 0 <= p -> forall a, ~ holds buf s t p a)
    (fun s k start lo ts p c _ => Forall wf ts -> 0 <= p -> 0 <= start -> 0 <= lo -> forall vs, ~ holds_all buf s start lo ts p vs)).
  - intros s t p O L W Hp. apply Q; auto. intros a H. unfold left_at in L.
    destruct t; try discriminate O; cbn [pd] in H; (destruct (Z.leb_spec (p + 32) (len buf)); [lia|discriminate]).
  - intros s t p w O F Lw X B W Hp. apply Q; auto. intros a H. apply leaf_wrong in X; auto. destruct X as [e X].
    pose proof (located_bounds _ _ _ F) as Bd. apply located_slice in F. rewrite Lw in *.
    destruct t; try discriminate O; cbn [pd] in H; (destruct (Z.leb_spec (p + 32) (len buf)); [|lia]); rewrite F, X in H; discriminate.
  - intros s p w b F Lw N0 N1 W Hp. apply Q; auto. intros a H. pose proof (located_bounds _ _ _ F) as Bd. apply located_slice in F. rewrite len_app in *. change (len [b]) with 1 in *.
    rewrite Lw in *. cbn [pd] in H. destruct (Z.leb_spec (p + 32) (len buf)); [|lia]. change (31 + 1) with 32 in F. rewrite F in H. cbn [leaf_val] in H.
    change (to_be 32 0) with (zeros 31 ++ [x00]) in H. change (to_be 32 1) with (zeros 31 ++ [x01]) in H.
    rewrite !app_eqb in H by (rewrite Lw; reflexivity).
    assert (E0 : bytes_eqb [b] [x00] = false) by (apply bytes_eqb_neq; congruence). assert (E1 : bytes_eqb [b] [x01] = false) by (apply bytes_eqb_neq; congruence).
    rewrite E0, E1, !andb_false_r in H. discriminate.
  - intros s t p Ht L W Hp. apply Q; auto. intros a H. destruct (S p L) as [e E].
    destruct Ht as [Ft|[t' ->]]; [destruct t; try discriminate Ft; cbn [pd] in H; unfold rd_bytes in H|cbn [pd] in H]; rewrite E in H; discriminate.
  - intros s t p n Ft [R N] L W Hp. apply Q; auto. intros a H. apply located_word in N; [|exact R]. rewrite padded_ceil in L by lia.
    destruct t; try discriminate Ft; cbn [pd] in H; unfold rd_bytes in H; rewrite N in H; cbn [bind] in H; rewrite maxsize_eq in H; (destruct (Z.ltb_spec 9223372036854775807 (ceil32 n)); [discriminate|lia]).
  - intros t p n Ft [R N] L M W Hp. apply Q; auto. intros a H. apply located_word in N; [|exact R]. rewrite padded_ceil in * by lia. unfold left_at in L.
    destruct t; try discriminate Ft; cbn [pd] in H; unfold rd_bytes in H; rewrite N in H; cbn [bind] in H; rewrite maxsize_eq in H; (destruct (Z.ltb_spec 9223372036854775807 (ceil32 n)); [discriminate|]);
      (destruct (Z.ltb_spec (len buf) (p + 32 + ceil32 n)); [discriminate|lia]).
  - intros t p x pad Ft F Lp X W Hp. apply Q; auto. intros a H. pose proof (located_bounds _ _ _ F) as Bd. rewrite !len_app, word_len in Bd. pose proof (len_nonneg x). pose proof (len_nonneg pad). pose proof maxsize_lt.
    pose proof (located_word _ _ _ (located_app_l _ _ _ _ F) ltac:(lia)) as N. apply located_app_r in F. rewrite word_len in F. apply located_app_r in F. apply located_slice in F.
    rewrite padded_ceil in Lp by lia. apply not_all in X. rewrite <- (eqb_fill x00 pad (ceil32 (len x) - len x) ltac:(lia)) in X. fold (zeros (ceil32 (len x) - len x)) in X.
    replace (len pad) with (ceil32 (len x) - len x) in F by lia. apply not_true_is_false in X.
    destruct t; try discriminate Ft; cbn [pd] in H; unfold rd_bytes in H; rewrite N in H; cbn [bind] in H; (destruct (Z.ltb_spec maxsize (ceil32 (len x))); [discriminate|]);
      (destruct (Z.ltb_spec (len buf) (p + 32 + ceil32 (len x))); [discriminate|]); rewrite F, X in H; discriminate.
  - intros s p b Hb U W Hp. apply Q; auto. intros a H. apply rd_bytes_holds in Hb; auto. cbn [pd] in H. rewrite Hb in H. cbn [bind] in H. bok H.
    apply utf8_decode_Ok in Hx. destruct Hx as [Hs ->]. exact (U x Hs eq_refl).
  - intros s t p n c [R N] X IH W Hp. inversion W; subst. apply Q; auto. intros a H. apply located_word in N; [|exact R]. cbn [pd] in H. rewrite N in H. cbn [bind] in H.
    apply array_holds in H; auto using pd_holds; [|lia]. destruct H as (vs & _ & Ln & H). rewrite Ln in H. eapply IH; [apply Forall_repeat; assumption| | | |exact H]; lia.
  - intros s n t p c X IH W Hp. inversion W; subst. apply Q; auto. intros a H. cbn [pd] in H.
    apply array_holds in H; auto using pd_holds. destruct H as (vs & _ & Ln & H). rewrite Ln in H. eapply IH; [apply Forall_repeat; assumption| | | |exact H]; lia.
  - intros s ts p c X IH W Hp a H. inversion W; subst. inv H; [discriminate|]. take (Forall wf ts) as Wt. pose proof (slots_nonneg ts Wt). rewrite counted_slots in *. eapply IH; [| | | |eassumption]; try assumption; lia.
  - intros s k start lo t ts p c D X IH W Hp Hs Hl vs H. inv W. inv H; [|congruence]. eapply IH; eauto.
  - intros s k start lo t ts p D L W Hp Hs Hl vs H. inv H; [congruence|]. take (found buf p (word _)) as F. apply located_bounds in F. rewrite word_len in F. unfold left_at in L. lia.
  - intros s k start lo t ts p z D [R N] L W Hp Hs Hl vs H. inv H; [congruence|]. take (lo <= _) as Hz. take (start + _ < len buf) as Hb. take (found buf p (word _)) as F. pose proof maxsize_lt.
    apply located_word in N; [|exact R]. apply located_word in F; [|lia]. rewrite N in F. inv F. lia.
  - intros s k start lo t ts p z c D [R N] Hz1 Hb1 X IH W Hp Hs Hl vs H. inv W. inv H; [congruence|]. take (lo <= z0) as Hz. take (start + z0 < len buf) as Hb. take (found buf p (word z0)) as F. pose proof maxsize_lt.
    apply located_word in N; [|exact R]. apply located_word in F; [|lia]. rewrite N in F. inv F. eapply IH; [assumption| |eassumption]. lia.
  - intros s k start lo t ts p c X IH W Hp Hs Hl vs H. inv W. take (wf t) as Wt. pose proof (static_size_ge t Wt). unfold head_words in *.
    inv H; (eapply IH; [assumption| |assumption|assumption|]; [|take (sdyn t = _) as D; rewrite D; eassumption]); take (sdyn t = _) as D; rewrite D; lia.
Qed.
End Told.

(** ** Calls *)
Theorem api_told_result types data strict w : erase (fst (api_decode_told types data strict w)) = fst (api_decode types data strict w)
  /\ snd (api_decode_told types data strict w) = snd (api_decode types data strict w).
Proof.
  unfold api_decode_told, api_decode. destruct (validate_list_like_param types) as [ts|]; [|split; reflexivity].
  destruct (validate_bytes_param data) as [b|]; [|split; reflexivity].
  destruct (sequenceM _ _ _) as [[ds|] w1]; [|split; reflexivity]. cbn [fst snd]. split; [|reflexivity].
  rewrite erase_tbind, told_result. destruct (decode_with _ _ _ _) as [[v st]|]; reflexivity.
Qed.
Theorem told_same w types data strict : erase (told_in w types data strict) = decode_in w types data strict.
Proof. apply api_told_result. Qed.
Lemma told_args w types ts data b strict : used false w -> type_args types ts -> bytes_like data b ->
  exists h, told_in w types data strict = (' (v, _) <~ decode_told h (mk_dtuple (map (dec_of strict) ts)) b new_stream ;; Fine v).
Proof.
  intros U T B. apply used_spec in U. destruct U as (_ & D & [_ C]).
  pose proof (pure_decoders_args types ts data b strict T B) as P. unfold pure_decoders in P.
  unfold told_in, api_decode_told. destruct (validate_list_like_param types) as [l|]; [|discriminate P].
  destruct (validate_bytes_param data) as [b'|]; [|discriminate P]. cbn [bind] in P.
  destruct (seq_decoders (Some strict) l w C) as (w' & -> & _). rewrite D. change (decs_of false) with decs.
  destruct (mapM _ l) as [ds|]; [|discriminate P]. inv P. exists (snd w'). reflexivity.
Qed.
Theorem told_defect w types ts data b strict c : used false w -> type_args types ts -> bytes_like data b -> len b <= maxsize ->
  told_in w types data strict = Told c -> payload_defect b strict ts c.
Proof.
  intros U T B L H. destruct (told_args w types ts data b strict U T B) as [h E]. rewrite E in H. assert (Wt := type_args_wf _ _ T).
  apply tbind_Told in H. destruct H as [H|([v st] & _ & H)]; [|discriminate]. apply (tuple_reports h b L strict ts new_stream c Wt); auto.
  - apply Forall_forall. intros t Hi. apply told_reports; [exact L|]. rewrite Forall_forall in Wt. auto.
  - cbn. rewrite maxsize_eq. lia.
Qed.
Theorem defect_none w types ts data b strict c : used false w -> type_args types ts -> bytes_like data b -> len b <= maxsize ->
  payload_defect b strict ts c -> (forall vs, ~ payload_holds b strict ts vs) /\ exists e, decode_in w types data strict = Err e.
Proof.
  intros U T B L H. assert (Wt := type_args_wf _ _ T). pose proof (slots_nonneg ts Wt).
  assert (N : forall vs, ~ payload_holds b strict ts vs).
  { intros vs. eapply (proj2 (defect_genuine b L)); eauto; try lia; rewrite counted_slots; lia. }
  split; [exact N|]. destruct (decode_in w types data strict) as [q|e] eqn:E; [|eauto].
  destruct (decode_holds w types ts data b strict q U T B L E) as (vs & Hv & _). destruct (N vs Hv).
Qed.

(** ** What can be told *)
Theorem defect_sensible buf :
  (forall s t p c, defect buf s t p c -> wf t -> 0 <= p -> sensible buf c)
  /\ (forall s k start lo ts p c, defect_in buf s k start lo ts p c -> Forall wf ts -> 0 <= p -> 0 <= start -> 0 <= lo -> sensible buf c).
Proof.
  pose proof (len_nonneg buf) as Lb.
  assert (S : forall k p n, 0 <= p -> left_at buf p < n -> n mod 32 = 0 -> (k = false -> n = 32) -> sensible buf (CShort k n (left_at buf p))).
  { intros k p n Hp Hn Hm Hk. cbn [sensible]. unfold left_at in *. repeat split; try lia; exact Hk. }
  assert (Z32 : 32 mod 32 = 0) by reflexivity.
  apply (defect_both buf (fun s t p c _ => wf t -> 0 <= p -> sensible buf c)
    (fun s k start lo ts p c _ => Forall wf ts -> 0 <= p -> 0 <= start -> 0 <= lo -> sensible buf c)); intros; auto.
  - cbn [sensible]. split; [intro E; take (Exists _ _) as X; rewrite E in X; inversion X|].
    take (wf t) as W. take (len w = 32) as Lw. take (one_word t = true) as O.
    destruct t; try discriminate O; inversion W; subst; cbn [padding_of pad_size];
      try (match goal with H : int_size ?m |- _ => destruct (int_size_bytes m H) as (k & -> & Hk & E); rewrite E end);
      rewrite <- ?take_z_firstn, <- ?drop_z_skipn, ?len_take_z, ?len_drop_z by lia; lia.
  - cbn [sensible]. repeat split; congruence.
  - cbn [sensible]. auto.
  - apply S; [lia|assumption| |discriminate]. take (number_at _ _ _) as N. destruct N as [[N _] _]. unfold padded. lia.
  - cbn [sensible]. split; [intro E; take (Exists _ _) as X; rewrite E in X; inversion X|].
    pose proof (len_nonneg data). take (_ = padded _) as E. unfold padded in E. lia.
  - cbn [sensible]. auto.
  - take (number_at _ _ _) as N. destruct N as [[N _] _]. take (wf _) as W. inversion W; subst. take (Forall wf _ -> _) as IH. apply IH; try lia. apply Forall_repeat. assumption.
  - take (wf _) as W. inversion W; subst. take (Forall wf _ -> _) as IH. apply IH; try lia. apply Forall_repeat. assumption.
  - take (wf _) as W. inversion W; subst. take (Forall wf ts) as Wt. pose proof (slots_nonneg ts Wt). take (Forall wf _ -> _) as IH. rewrite counted_slots in IH. apply IH; auto. lia.
  - take (Forall wf (_ :: _)) as W. inversion W; subst. auto.
  - cbn [sensible]. take (number_at _ _ _) as N. destruct N as [_ N]. apply located_bounds in N. rewrite word_len in N. lia.
  - take (Forall wf (_ :: _)) as W. inversion W; subst. take (wf _ -> _) as IH. apply IH; [assumption|lia].
  - take (Forall wf (_ :: _)) as W. inversion W; subst. take (wf t) as Wt. pose proof (static_size_ge t Wt). take (Forall wf _ -> _) as IH. apply IH; auto. unfold head_words. destruct (sdyn t); lia.
Qed.
Theorem told_sensible w types ts data b strict c : used false w -> type_args types ts -> bytes_like data b -> len b <= maxsize ->
  told_in w types data strict = Told c -> sensible b c.
Proof.
  intros U T B L H. assert (Wt := type_args_wf _ _ T). pose proof (slots_nonneg ts Wt).
  eapply (proj2 (defect_sensible b)); [eapply told_defect; eassumption|assumption|lia|lia|rewrite counted_slots; lia].
Qed.
Theorem raises_defect w types ts data b strict : used false w -> type_args types ts -> bytes_like data b -> len b <= maxsize ->
  (exists e, decode_in w types data strict = Err e) <-> exists c, payload_defect b strict ts c.
Proof.
  intros U T B L. split.
  - intros [e E]. rewrite <- told_same in E. destruct (told_in w types data strict) as [v|c] eqn:Q; [discriminate|]. exists c. eapply told_defect; eassumption.
  - intros [c H]. eapply defect_none; eassumption.
Qed.
