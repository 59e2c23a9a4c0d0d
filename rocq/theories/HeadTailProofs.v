(** HeadTailDecoder over any tail decoder. *)
From Coq Require Import Lia.
From Verif Require Import Tac Py Bytes BytesProofs Spec Decoding EncLeafProofs DecLeafProofs Stream StreamSpec StreamProofs.
Open Scope Z_scope.

Lemma pointer_read a z b st : 0 <= z < 2 ^ 256 -> pos st = len a ->
  decode_uint_256 (a ++ word z ++ b) st = Ok (z, mkStream (len a + 32) (frames st) (total st)).
Proof.
  intros Z P. pose proof (len_nonneg a). unfold decode_uint_256. rewrite read_fixed_eq by lia. rewrite P.
  rewrite !len_app, word_len. pose proof (len_nonneg b). replace (len a + 32 <=? len a + (32 + len b)) with true by lia. cbn [bind].
  replace (slice (a ++ word z ++ b) (len a) 32) with (word z).
  - rewrite from_be_word, Z.mod_small by exact Z. unfold adv. rewrite P. reflexivity.
  - unfold slice. rewrite drop_z_app, take_z_app by (symmetry; apply word_len || reflexivity). reflexivity.
Qed.
Theorem headtail_short h d buf st : 0 <= pos st -> len buf < pos st + 32 -> decode_with h (DHeadTail d) buf st = Err InsufficientDataBytes.
Proof.
  intros P H. cbn [decode_with]. unfold decode_uint_256. rewrite read_fixed_eq by exact P. replace (pos st + 32 <=? len buf) with false by lia. reflexivity.
Qed.
Theorem headtail_far h d a z b st : 0 <= z < 2 ^ 256 -> pos st = len a -> maxsize < total st + z ->
  decode_with h (DHeadTail d) (a ++ word z ++ b) st = Err OverflowError.
Proof.
  intros Z P F. cbn [decode_with]. rewrite pointer_read by assumption. cbn [bind]. unfold push_frame, seek_in_frame, seek. cbn [total].
  pose proof maxsize_pos. replace (total st + z + 0 <? 0) with false by lia. replace (maxsize <? total st + z + 0) with true by lia. reflexivity.
Qed.
Theorem headtail_near h d a z b st : 0 <= z < 2 ^ 256 -> pos st = len a -> len a + 32 <= maxsize -> 0 <= total st + z <= maxsize ->
  decode_with h (DHeadTail d) (a ++ word z ++ b) st =
  match decode_with h d (a ++ word z ++ b) (mkStream (total st + z) ((z, len a + 32) :: frames st) (total st + z)) with
  | Err x => Err x
  | Ok (v, st1) => st2 <- pop_frame st1 ;; Ok (v, st2)
  end.
Proof.
  intros Z P M F. cbn [decode_with]. rewrite pointer_read by assumption. cbn [bind]. unfold push_frame, seek_in_frame, seek. cbn [total pos frames].
  rewrite Z.add_0_r. replace (total st + z <? 0) with false by lia. replace (maxsize <? total st + z) with false by lia. cbn [bind].
  destruct (decode_with h d _ _) as [[v st1]|x]; reflexivity.
Qed.
(** With a tail decoder that leaves the frames as they were. *)
Theorem headtail_result h d a z b st v q : 0 <= z < 2 ^ 256 -> pos st = len a -> len a + 32 <= maxsize -> 0 <= total st + z <= maxsize ->
  decode_with h d (a ++ word z ++ b) (mkStream (total st + z) ((z, len a + 32) :: frames st) (total st + z))
    = Ok (v, mkStream q ((z, len a + 32) :: frames st) (total st + z)) ->
  decode_with h (DHeadTail d) (a ++ word z ++ b) st = Ok (v, mkStream (len a + 32) (frames st) (total st)).
Proof.
  intros Z P M F E. rewrite headtail_near by assumption. rewrite E. pose proof (len_nonneg a). unfold pop_frame. cbn [frames pos total]. unfold seek.
  replace (len a + 32 <? 0) with false by lia. replace (maxsize <? len a + 32) with false by lia. cbn [bind frames total].
  replace (total st + z - z) with (total st) by lia. reflexivity.
Qed.
Theorem headtail_error h d a z b st x : 0 <= z < 2 ^ 256 -> pos st = len a -> len a + 32 <= maxsize -> 0 <= total st + z <= maxsize ->
  decode_with h d (a ++ word z ++ b) (mkStream (total st + z) ((z, len a + 32) :: frames st) (total st + z)) = Err x ->
  decode_with h (DHeadTail d) (a ++ word z ++ b) st = Err x.
Proof. intros Z P M F E. rewrite headtail_near by assumption. rewrite E. reflexivity. Qed.
