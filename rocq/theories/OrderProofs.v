(** The order of encodings. *)
From Coq Require Import Strings.Byte Strings.String.
From Verif Require Import Tac Bytes BytesProofs Encoding Registry Codec Histories Spec ReadSpec TypeSpec EncLeafProofs EncodeProofs AcceptProofs EncOkProofs
  DecLeafProofs DecodeProofs TypeProofs ApiProofs HistoryProofs ArgsProofs EncodeApi PackedProofs OrderSpec.
Open Scope Z_scope.

Lemma compare_from_be : forall x y, len x = len y -> compare_bytes x y = Z.compare (from_be x) (from_be y).
Proof.
  induction x as [|b x IH]; intros [|c y] L; lens; try (pose proof (len_nonneg x)); try (pose proof (len_nonneg y)); try lia; [reflexivity|].
  unfold compare_bytes. cbn [lex]. change (lex _ x y) with (compare_bytes x y). rewrite IH by lia. rewrite !from_be_cons.
  replace (len y) with (len x) by lia. pose proof (from_be_range x) as Rx. pose proof (from_be_range y) as Ry. replace (len y) with (len x) in Ry by lia.
  unfold Z_of_byte. set (b' := Byte.to_N b). set (c' := Byte.to_N c). generalize dependent (256 ^ len x). intros w Rx Ry.
  symmetry. destruct (N.compare_spec b' c') as [E|E|E].
  - rewrite E. destruct (Z.compare_spec (from_be x) (from_be y)); [apply Z.compare_eq_iff|apply Z.compare_lt_iff|apply Z.compare_gt_iff]; lia.
  - apply Z.compare_lt_iff. nia.
  - apply Z.compare_gt_iff. nia.
Qed.
Lemma lex_app {A} (c : A -> A -> comparison) x y x' y' : len x = len x' ->
  lex c (x ++ y) (x' ++ y') = match lex c x x' with Eq => lex c y y' | r => r end.
Proof.
  revert x'. induction x as [|a x IH]; intros [|b x'] L; lens; try (pose proof (len_nonneg x)); try (pose proof (len_nonneg x')); try lia; [reflexivity|].
  cbn [app lex]. destruct (c a b); try reflexivity. apply IH. lia.
Qed.
Lemma compare_refl x : compare_bytes x x = Eq.
Proof. rewrite compare_from_be by reflexivity. apply Z.compare_refl. Qed.
Lemma compare_app x y x' y' : len x = len x' ->
  compare_bytes (x ++ y) (x' ++ y') = match compare_bytes x x' with Eq => compare_bytes y y' | r => r end.
Proof. apply lex_app. Qed.

Lemma compare_to_be k y z : 0 <= y < 256 ^ Z.of_nat k -> 0 <= z < 256 ^ Z.of_nat k -> compare_bytes (to_be k y) (to_be k z) = Z.compare y z.
Proof. intros Hy Hz. rewrite compare_from_be by (rewrite !to_be_len; reflexivity). rewrite !from_be_to_be, !Z.mod_small by assumption. reflexivity. Qed.
Lemma compare_to_be_signed k y z : (0 <= y <-> 0 <= z) -> - 256 ^ Z.of_nat k <= y < 256 ^ Z.of_nat k -> - 256 ^ Z.of_nat k <= z < 256 ^ Z.of_nat k ->
  compare_bytes (to_be k y) (to_be k z) = Z.compare y z.
Proof.
  intros S Hy Hz. destruct (Z_lt_dec y 0).
  - rewrite <- (to_be_mod k y), <- (to_be_mod k z).
    assert (M : forall x, - 256 ^ Z.of_nat k <= x < 0 -> x mod 256 ^ Z.of_nat k = x + 256 ^ Z.of_nat k).
    { intros x Hx. symmetry. apply (Z.mod_unique _ _ (-1)); lia. }
    rewrite !M by lia. rewrite compare_to_be by lia. apply Zcompare_plus_compat_r || (rewrite !(Z.add_comm _ (256 ^ _)); apply Zcompare_plus_compat).
  - apply compare_to_be; lia.
Qed.

Definition width (pk : bool) (m : Z) : nat := if pk then Z.to_nat (m / 8) else 32%nat.
Lemma width_pow pk m : int_size m -> 2 ^ m <= 256 ^ Z.of_nat (width pk m).
Proof.
  intro H. destruct (int_size_bytes m H) as (k & -> & Hk & Dk). change 256 with (2 ^ 8). rewrite <- Z.pow_mul_r by lia.
  apply Z.pow_le_mono_r; [lia|]. unfold width. destruct pk; [rewrite Dk|]; lia.
Qed.
Lemma pow_half m : 1 <= m -> 2 ^ m = 2 * 2 ^ (m - 1).
Proof. intro. rewrite <- (Z.pow_succ_r 2 (m - 1)) by lia. f_equal. lia. Qed.
Lemma out_len pk t a b : wf t -> sdyn t = false -> has_type t a -> has_type t b -> len (out pk t a) = len (out pk t b).
Proof.
  intros W D Ha Hb. destruct pk; cbn [out].
  - destruct (packed_static t W a a Ha Ha D) as [-> _]. destruct (packed_static t W b b Hb Hb D) as [-> _]. reflexivity.
  - rewrite !spec_enc_static by assumption. reflexivity.
Qed.
Lemma same_signs_static : forall t a b, same_signs t a b -> wf t -> has_type t a -> sdyn t = false.
Proof.
  intro t. induction t as [m|m| | |m n|m n|k| | |t IH|n t IH|ts IH] using sty_ind'; intros a b S W T; try reflexivity; inversion S; subst.
  - inv W. inv T. cbn [sdyn]. take (Forall2 (same_signs t) l l') as F. destruct F as [|x y l l' Hx F]; [lens; lia|]. take (Forall _ (x :: l)) as G. inv G.
    eapply IH; eassumption.
  - inv W. inv T. cbn [sdyn]. take (Forall3 _ ts l l') as F. take (Forall2 _ ts l) as G. take (Forall wf ts) as Ws. clear -IH F G Ws.
    induction F as [|t x y ts xs ys Hx F IHF]; [reflexivity|]. inv IH. inv G. inv Ws. cbn [existsb]. apply orb_false_iff. split; [eauto|]. apply IHF; assumption.
Qed.
Lemma static_parts pk ts vs : existsb sdyn ts = false -> Forall (fun p : bool * bytes => fst p = false) (parts (opart pk) ts vs).
Proof.
  revert vs. induction ts as [|t ts IH]; intros [|v vs] D; try constructor; cbn [existsb] in D; apply orb_false_iff in D; destruct D as [D D'].
  - cbn [combine fst snd]. unfold opart. cbn [fst]. rewrite D. apply andb_false_r.
  - exact (IH vs D').
Qed.
Lemma head_tail_concat ps : Forall (fun p : bool * bytes => fst p = false) ps -> head_tail ps = concat (map snd ps).
Proof.
  intro F. unfold head_tail. generalize (heads_size ps). intro off. revert off. induction F as [|[d b] ps E F IH]; intro off; [reflexivity|].
  cbn [fst] in E. subst d. cbn [heads tails map concat snd]. rewrite <- app_assoc, IH. reflexivity.
Qed.
Lemma out_cons pk t ts v vs : sdyn t = false -> existsb sdyn ts = false -> out pk (STuple (t :: ts)) (VSeq (v :: vs)) = out pk t v ++ out pk (STuple ts) (VSeq vs).
Proof.
  intros D Ds. rewrite !out_tuple, !head_tail_concat by (apply static_parts; cbn [existsb]; rewrite ?D, ?Ds; reflexivity). reflexivity.
Qed.
Lemma out_item pk n t v vs : sdyn t = false -> out pk (SSized n t) (VSeq (v :: vs)) = out pk t v ++ out pk (SSized n t) (VSeq vs).
Proof. intro D. rewrite !out_sized, D, andb_false_r, !head_tail_static. reflexivity. Qed.

Theorem same_order pk : forall t a b, wf t -> has_type t a -> has_type t b -> same_signs t a b ->
  compare_bytes (out pk t a) (out pk t b) = compare_values a b.
Proof.
  intro t. induction t as [m|m| | |m n|m n|k| | |t IH|n t IH|ts IH] using sty_ind'; intros a b W Ha Hb S; pose proof (same_signs_static _ a b S W Ha) as D;
    try discriminate D; inversion S; subst; inversion Ha; inversion Hb; subst; cbn [compare_values].
  - inv W. take (int_size m) as Hm. pose proof (width_pow pk m Hm). unfold out. cbn [spec_packed spec_enc]. rewrite !out_word by assumption.
    apply compare_to_be; fold (width pk m); lia.
  - inv W. take (int_size m) as Hm. pose proof (width_pow pk m Hm). unfold out. cbn [spec_packed spec_enc]. rewrite !out_word by assumption.
    pose proof (pow_half m ltac:(unfold int_size in *; lia)).
    apply compare_to_be_signed; fold (width pk m); try assumption; lia.
  - unfold out. cbn [spec_packed spec_enc]. destruct pk, x, y; reflexivity.
  - unfold out. cbn [spec_packed spec_enc]. destruct pk; [reflexivity|]. rewrite compare_app by reflexivity. rewrite compare_refl. reflexivity.
  - inv W. take (int_size m) as Hm. pose proof (width_pow pk m Hm). unfold out. cbn [spec_packed spec_enc]. rewrite !out_word by assumption.
    apply compare_to_be; fold (width pk m); lia.
  - inv W. take (int_size m) as Hm. pose proof (width_pow pk m Hm). unfold out. cbn [spec_packed spec_enc]. rewrite !out_word by assumption.
    pose proof (pow_half m ltac:(unfold int_size in *; lia)).
    apply compare_to_be_signed; fold (width pk m); try assumption; lia.
  - unfold out. cbn [spec_packed spec_enc]. destruct pk; [reflexivity|]. unfold pad_right. take (len y = len x) as L. rewrite L.
    rewrite compare_app by (symmetry; exact L). rewrite compare_refl. destruct (compare_bytes x y); reflexivity.
  - inv W. take (wf t) as Wt. cbn [sdyn] in D. take (Forall2 (same_signs t) l l') as F. take (Forall (has_type t) l) as Hl. take (Forall (has_type t) l') as Hl'.
    clear -F Hl Hl' IH Wt D. generalize (len l) as k. intro k.
    induction F as [|x y l l' Hx F IHF]; [rewrite compare_refl; reflexivity|].
    inv Hl. inv Hl'. rewrite !out_item by assumption. rewrite compare_app by (apply out_len; assumption). cbn [lex].
    rewrite IH by assumption. destruct (compare_values x y); try reflexivity. apply IHF; assumption.
  - inv W. take (Forall wf ts) as Ws. cbn [sdyn] in D. take (Forall3 same_signs ts l l') as F. take (Forall2 has_type ts l) as Hl. take (Forall2 has_type ts l') as Hl'.
    clear -F Hl Hl' IH Ws D. induction F as [|t x y ts xs ys Hx F IHF]; [rewrite compare_refl; reflexivity|].
    inv Hl. inv Hl'. inv IH. inv Ws. cbn [existsb] in D. apply orb_false_iff in D. destruct D as [D D'].
    rewrite !out_cons by assumption. rewrite compare_app by (apply out_len; assumption). cbn [lex].
    take (forall a b, wf t -> _) as IHt. rewrite IHt by assumption. destruct (compare_values x y); try reflexivity. apply IHF; assumption.
Qed.
Theorem api_order pk w w' types ts args args' a a' : used pk w -> used pk w' -> type_args types ts ->
  denotes (STuple ts) args a -> denotes (STuple ts) args' a' -> fits args -> fits args' -> same_signs (STuple ts) a a' ->
  exists b b', encode_in w types args = Ok b /\ encode_in w' types args' = Ok b' /\ compare_bytes b b' = compare_values a a'.
Proof.
  intros U U' T D D' F F' S. exists (out pk (STuple ts) a), (out pk (STuple ts) a').
  split; [exact (encode_denoted pk w types ts args a U T D F)|]. split; [exact (encode_denoted pk w' types ts args' a' U' T D' F')|].
  destruct (wf_args ts (type_args_wf _ _ T)) as [->|W].
  - inv D. inv D'. take (Forall3 _ [] l vs) as X. take (Forall3 _ [] l0 vs0) as Y. inv X. inv Y. destruct pk; reflexivity.
  - apply same_order; [exact W|..|exact S]; eapply denotes_has_type; eassumption.
Qed.

(** ** Negative numbers *)
Lemma compare_negative k y z : 0 <= y < 256 ^ Z.of_nat k -> - (256 ^ Z.of_nat k - y) < z < 0 -> compare_bytes (to_be k y) (to_be k z) = Lt.
Proof.
  intros Hy Hz. rewrite <- (to_be_mod k z). assert (M : z mod 256 ^ Z.of_nat k = z + 256 ^ Z.of_nat k) by (symmetry; apply (Z.mod_unique _ _ (-1)); lia).
  rewrite M, compare_to_be by lia. apply Z.compare_lt_iff. lia.
Qed.
Theorem negative_after pk w s m y z : used pk w -> supported s (SInt m) -> 0 <= y < 2 ^ (m - 1) -> - 2 ^ (m - 1) <= z < 0 ->
  exists b b', encode_in w (PList [PStr s]) (PList [PInt y]) = Ok b /\ encode_in w (PList [PStr s]) (PList [PInt z]) = Ok b' /\ compare_bytes b b' = Lt.
Proof.
  intros U S Hy Hz.
  exists (out pk (STuple [SInt m]) (VSeq [VInt y])), (out pk (STuple [SInt m]) (VSeq [VInt z])).
  assert (D : forall x, - 2 ^ (m - 1) <= x < 2 ^ (m - 1) -> denotes (STuple [SInt m]) (PList [PInt x]) (VSeq [VInt x])).
  { intros x Hx. apply (D_tuple [SInt m] (PList [PInt x]) [PInt x]); [left; reflexivity|]. constructor; [|constructor]. constructor. exact Hx. }
  assert (F : forall x, fits (PList [PInt x])) by (intro x; unfold fits; cbn; lia).
  split; [apply (encode_denoted pk w _ [SInt m] _ _ U (one_args s _ S) (D y ltac:(lia)) (F y))|].
  split; [apply (encode_denoted pk w _ [SInt m] _ _ U (one_args s _ S) (D z ltac:(lia)) (F z))|].
  rewrite !out_one by reflexivity. pose proof (supported_wf s _ S) as W. inv W. take (int_size m) as Hm. pose proof (width_pow pk m Hm).
  pose proof (pow_half m ltac:(unfold int_size in *; lia)). unfold out. cbn [spec_packed spec_enc]. rewrite !out_word by assumption.
  apply compare_negative; fold (width pk m); lia.
Qed.
