(** The concrete cases of PropertiesLimits.v. *)
From Coq Require Import Strings.Byte Strings.String.
From Verif Require Import Tac Bytes BytesProofs Grammar GrammarSpec GrammarProofs Decimals Encoding Decoding Registry Codec Histories Spec TypeSpec
  EncodeProofs ApiProofs HistoryProofs EncodeApi Samples Limits LimitsSpec LimitsProofs.
Open Scope string_scope.
Open Scope list_scope.
Open Scope Z_scope.

Lemma le_abs z : z <= Z.abs z. Proof. lia. Qed.
Lemma lt_big m : 0 < m -> 256 < 1000 * m - 1. Proof. lia. Qed.
Lemma lt_pred a m : a < m - 1 -> a < m. Proof. lia. Qed.
Lemma abs_pred m : 0 < m -> Z.abs (m - 1) < m. Proof. lia. Qed.
Lemma inside_list : long_shown (PList [PInt 1; PTuple [PFraction (10 ^ 4300) 3]]).
Proof.
  eapply long_item; [left; reflexivity|right; left; reflexivity|]. eapply long_item; [right; reflexivity|left; reflexivity|].
  apply long_numerator, le_abs.
Qed.
Lemma other_sequences : long_shown (PSeq true [PInt (10 ^ 4300)]) /\ ~ long_shown (PSeq false [PInt (10 ^ 4300)])
  /\ long_inside (PSeq false [PInt (10 ^ 4300)]).
Proof.
  split; [constructor|]. split.
  - intro H. inversion H as [| | |p l x S|]. destruct S as [S|S]; discriminate S.
  - eapply long_within; [right; right; eexists; reflexivity|left; reflexivity|]. apply long_here. exact long_10.
Qed.
Lemma numeral_zeros n : numeral (49%N :: repeat 48%N n) (10 ^ Z.of_nat n).
Proof.
  induction n as [|n IH]; [apply (N_one 49%N); unfold digit; lia|].
  replace (49%N :: repeat 48%N (S n)) with ((49%N :: repeat 48%N n) ++ [48%N]) by (cbn [app repeat]; rewrite <- repeat_cons; reflexivity).
  replace (10 ^ Z.of_nat (S n)) with (10 * 10 ^ Z.of_nat n + (Z.of_N 48 - 48)) by (rewrite Nat2Z.inj_succ, Z.pow_succ_r by lia; lia).
  apply N_snoc; [exact IH|unfold digit; lia].
Qed.
Lemma long_name :
  let name n := lit "bool[" ++ 49%N :: repeat 48%N n ++ lit "]" in
  (exists T, g_type (name (Z.to_nat 4300)) T) /\ long_number (name (Z.to_nat 4300)) /\ ~ long_number (name (Z.to_nat 4299)).
Proof.
  cbv zeta. split; [|split].
  - eexists. change (lit "bool[" ++ 49%N :: repeat 48%N (Z.to_nat 4300) ++ lit "]")
      with (lit "bool" ++ [] ++ (lit "[" ++ (49%N :: repeat 48%N (Z.to_nat 4300)) ++ lit "]" ++ [])).
    apply G_basic; [|apply GS_none|].
    + split; [discriminate|]. change (Forall letter [98; 111; 111; 108]%N). unfold letter. do 4 (constructor; [lia|]). constructor.
    + apply GA_const; [apply numeral_zeros|apply GA_nil].
  - apply long_run_iff. lazy. reflexivity.
  - intro H. apply long_run_iff in H. revert H. apply not_true_iff_false. lazy. reflexivity.
Qed.
Lemma big_int : 2 ^ 8 < 10 ^ 4300 - 1.
Proof.
  change 4300 with (3 + 4297). rewrite Z.pow_add_r by lia. change (2 ^ 8) with 256. change (10 ^ 3) with 1000.
  apply lt_big, Z.pow_pos_nonneg; [reflexivity|discriminate].
Qed.
Lemma uint8_type : supported (lit "uint8") (SUInt 8).
Proof. split; [|discriminate]. change (lit "uint8") with (lit "uint" ++ [56%N]). apply TN_uint; [apply (N_one 56%N); unfold digit; lia|unfold int_size; lia]. Qed.
Lemma uint8_short : ~ long_number (lit "uint8").
Proof. intro H. apply long_run_iff in H. revert H. apply not_true_iff_false. lazy. reflexivity. Qed.
Lemma uint8_types : type_args (types ["uint8"]) [SUInt 8].
Proof. exists [lit "uint8"]. split; [left; reflexivity|]. constructor; [apply uint8_type|constructor]. Qed.
Lemma uint8_types_short : short_types (types ["uint8"]).
Proof. intros l s [H|[H|(? & H)]] I1; inv H. destruct I1 as [E|[]]. inv E. apply uint8_short. Qed.
Lemma uint8_rejects z : 2 ^ 8 < z -> validate_uint 8 (PInt z) = Err ValueOutOfBounds.
Proof. intro H. destruct (uint_cases 8 (PInt z)) as [(y & E & R & _)|[(y & E & R & V)|(N & _)]]; [inv E; lia|exact V|exfalso; exact (N z eq_refl)]. Qed.
Lemma uint8_is_encodable z : 2 ^ 8 < z -> is_encodable_in start (str "uint8") (PInt z) = Ok false.
Proof.
  intro H. rewrite (is_encodable_used false start _ _ start_used). unfold pure_is_encodable, str. cbn [find_py].
  rewrite (find_enc_supported false _ _ uint8_type). unfold check_encodable, validate_value. cbn [enc_of ve fst]. rewrite uint8_rejects by exact H. reflexivity.
Qed.
Lemma uint8_narrow : long_int (snd (Decimals.compute_unsigned_integer_bounds 8)) = false.
Proof. apply not_long. unfold Decimals.compute_unsigned_integer_bounds. cbn [snd]. change (2 ^ 8) with 256. change (Z.abs (256 - 1)) with 255.
  apply (Z.lt_trans _ 256); [reflexivity|]. apply lt_pred. exact big_int. Qed.
Lemma limit_encode z : 2 ^ 8 < z ->
  encode_in start (types ["uint8"]) (PList [PInt z]) = Err ValueOutOfBounds
  /\ limited_encode_in start (types ["uint8"]) (PList [PInt z]) = Err (if long_int z then ValueError else ValueOutOfBounds).
Proof.
  intro H. rewrite (encode_args false start _ _ _ _ start_used uint8_types (or_introl eq_refl)).
  rewrite (limited_encode_args false start _ _ _ _ start_used uint8_types uint8_types_short (or_introl eq_refl)).
  unfold encode_with. cbn [enc_of map ve snd limited_ve fst]. unfold tuple_validate, limited_tuple_validate. cbn [is_list_like negb items].
  replace (len [PInt z] =? len [(validate_uint 8, encode_uint 8 (dsz false 8))]) with true by reflexivity.
  match goal with |- context [negb (?a =? ?b)] => replace (a =? b) with true by reflexivity end.
  cbn [negb tuple_validate_items]. rewrite uint8_narrow, (uint8_rejects z H). split; [reflexivity|].
  cbn [limited is_encoding_error invalidate_value andb orb repr_fails]. unfold invalidate_value. cbn [andb orb repr_fails]. destruct (long_int z); reflexivity.
Qed.
Lemma limit_8 :
  used false start
  /\ is_encodable_in start (str "uint8") (PInt (10 ^ 4300)) = Ok false
  /\ limited_is_encodable_in start (str "uint8") (PInt (10 ^ 4300)) = Err ValueError
  /\ limited_is_encodable_in start (str "uint8") (PInt (10 ^ 4300 - 1)) = Ok false
  /\ encode_in start (types ["uint8"]) (PList [PInt (10 ^ 4300)]) = Err ValueOutOfBounds
  /\ limited_encode_in start (types ["uint8"]) (PList [PInt (10 ^ 4300)]) = Err ValueError
  /\ limited_encode_in start (types ["uint8"]) (PList [PInt (10 ^ 4300 - 1)]) = Err ValueOutOfBounds.
Proof.
  pose proof big_int as B. assert (B' : 2 ^ 8 < 10 ^ 4300) by (eapply lt_pred; exact B).
  assert (L1 : long_int (10 ^ 4300) = true) by (apply (proj2 (repr_fails_iff (PInt (10 ^ 4300))) long_10)).
  assert (L2 : long_int (10 ^ 4300 - 1) = false) by (apply not_long, abs_pred, Z.pow_pos_nonneg; [reflexivity|discriminate]).
  generalize dependent (10 ^ 4300). intros z B B' L1 L2.
  split; [exact start_used|]. split; [apply uint8_is_encodable; exact B'|].
  split; [apply (limited_leaf false start _ _ (PInt z) start_used uint8_type uint8_short I (uint8_is_encodable z B')); apply repr_fails_iff; exact L1|].
  split.
  - destruct (limited_is_encodable_near false start (str "uint8") (PInt (z - 1)) start_used) as [->|(p & _)].
    + intros (s & E & L). inv E. apply uint8_short. exact L.
    + apply uint8_is_encodable. exact B.
    + inversion p as [q p'|q l x S]; subst; [|destruct S as [S|[S|(? & S)]]; discriminate S]. apply repr_fails_iff in p'. cbn [repr_fails] in p'. congruence.
  - split; [exact (proj1 (limit_encode z B'))|]. split; [rewrite (proj2 (limit_encode z B')), L1; reflexivity|].
    rewrite (proj2 (limit_encode (z - 1) B)), L2. reflexivity.
Qed.

(** ** Encoders wider than any type *)
Lemma long_top m : 10 ^ 4300 <= m -> long_int m = true /\ long_int (-1 * m) = true.
Proof.
  intro H. unfold long_int. change max_digits with 4300. assert (P : 0 < 10 ^ 4300) by (apply Z.pow_pos_nonneg; [reflexivity|discriminate]).
  generalize dependent (10 ^ 4300). intros z H P. split; apply Z.leb_le; lia.
Qed.
Lemma short_top m : 0 <= m < 10 ^ 4300 -> long_int m = false /\ long_int (-1 * m) = false.
Proof. intro H. unfold long_int. change max_digits with 4300. generalize dependent (10 ^ 4300). intros z H. split; apply Z.leb_gt; lia. Qed.
Theorem limited_wide signed bits dsz v : let e := if signed : bool then EInt bits dsz else EUInt bits dsz in
  let top := if signed then 2 ^ (bits - 1) else 2 ^ bits - 1 in ~ long_shown v -> 0 <= top ->
  fst (limited_ve e) v = match fst (ve e) v with
    | Err ValueOutOfBounds => Err (if 10 ^ 4300 <=? top then ValueError else ValueOutOfBounds)
    | r => r
    end.
Proof.
  cbv zeta. intros N T. assert (R : repr_fails v = false) by (destruct (repr_fails v) eqn:R; [exfalso; apply N, repr_fails_iff, R|reflexivity]).
  assert (G : forall m msg lo hi, (10 ^ 4300 <=? m) = msg ->
    limited msg v (validate_int lo hi v) = match validate_int lo hi v with Err ValueOutOfBounds => Err (if 10 ^ 4300 <=? m then ValueError else ValueOutOfBounds) | r => r end).
  { intros m msg lo hi ->. unfold validate_int, raise_if. destruct v; try (cbn [limited is_encoding_error andb orb]; unfold invalidate_value; rewrite R, andb_false_r; reflexivity).
    destruct ((z <? lo) || (hi <? z)); [|reflexivity]. cbn [limited is_encoding_error]. unfold invalidate_value. rewrite R, andb_true_r, orb_false_r. reflexivity. }
  assert (L : forall m, 0 <= m -> (10 ^ 4300 <=? m) = long_int m /\ (10 ^ 4300 <=? m) = long_int (-1 * m)).
  { intros m M. destruct (Z.leb_spec (10 ^ 4300) m) as [H|H]; [destruct (long_top m H) as [-> ->]|destruct (short_top m (conj M H)) as [-> ->]]; auto. }
  destruct signed; cbn [limited_ve ve fst snd]; unfold validate_uint, validate_sint, compute_signed_integer_bounds, compute_unsigned_integer_bounds;
    cbn [fst snd]; apply G, L, T.
Qed.
Lemma wide_top : 10 ^ 4300 <= 2 ^ 17201 - 1.
Proof.
  assert (A : 10 ^ 4300 <= 16 ^ 4300) by (apply Z.pow_le_mono_l; split; discriminate).
  assert (B : 16 ^ 4300 = 2 ^ 17200) by (change 16 with (2 ^ 4); rewrite <- Z.pow_mul_r by discriminate; reflexivity).
  assert (C : 2 ^ 17201 = 2 * 2 ^ 17200) by (change 17201 with (Z.succ 17200); apply Z.pow_succ_r; discriminate).
  assert (D : 0 < 2 ^ 17200) by (apply Z.pow_pos_nonneg; [reflexivity|discriminate]).
  rewrite B in A. rewrite C. generalize dependent (2 ^ 17200). generalize (10 ^ 4300). intros. lia.
Qed.
Lemma wide_case : 10 ^ 4300 <= 2 ^ 17201 - 1 /\ fst (ve (EUInt 17201 2160)) (PInt (-1)) = Err ValueOutOfBounds /\ ~ long_shown (PInt (-1)).
Proof.
  split; [exact wide_top|]. split; [reflexivity|]. intro L. inversion L as [z H E| | |p l x [P|P] I S|]; subst; [|discriminate P|discriminate P]. revert H. apply Z.lt_nge.
  change (Z.abs (-1)) with (10 ^ 0). apply Z.pow_lt_mono_r; [reflexivity|discriminate|reflexivity].
Qed.
