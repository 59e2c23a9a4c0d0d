(** Facts about encode, encode_packed and is_encodable. *)
From Coq Require Import Strings.Byte Strings.String.
From Verif Require Import Tac Bytes BytesProofs Address AddressProofs Decimals DecimalsProofs Grammar Encoding Decoding Registry Codec Histories Spec TypeSpec
  EncLeafProofs EncodeProofs AcceptProofs EncOkProofs DecLeafProofs DecodeProofs CacheProofs LookupProofs TypeProofs ApiProofs HistoryProofs ArgsProofs.
Open Scope Z_scope.

(** ** Layout *)
Theorem encode_layout pk w types ts args a : used pk w -> type_args types ts -> denotes (STuple ts) args a ->
  len (out pk (STuple ts) a) < 2 ^ 256 -> encode_in w types args = Ok (out pk (STuple ts) a).
Proof.
  intros U T D L. destruct (args_denotes_seq ts args a D) as (l & vs & S & _). rewrite (encode_args pk w types ts args l U T S).
  apply args_encodes; auto. eapply type_args_wf; eassumption.
Qed.
Theorem encode_layout_inv pk w types ts args b : used pk w -> type_args types ts -> encode_in w types args = Ok b ->
  leaves exact_leaf (STuple ts) args ->
  exists a, denotes (STuple ts) args a /\ len b = len (out pk (STuple ts) a) /\ (len b < 2 ^ 256 -> b = out pk (STuple ts) a).
Proof.
  intros U T E X. destruct (encode_ok_inv pk w types args b U E) as (ts' & l & T' & S & E').
  assert (ts' = ts) by (eapply type_args_fun; eassumption). subst ts'. apply args_encoded; auto. eapply type_args_wf; eassumption.
Qed.

(** ** Lengths *)
Lemma sum_parts (P : Z -> Prop) ps : P 0 -> (forall x y, P x -> P y -> P (x + y)) -> P 32 -> Forall (fun p : bool * bytes => P (len (snd p))) ps -> P (len (head_tail ps)).
Proof.
  intros P0 Pa P32 F. rewrite len_head_tail. apply Pa.
  - induction F as [|[d b] ps Hp F IH]; [exact P0|]. cbn [heads_size]. apply Pa; [|exact IH]. unfold head_size. cbn [fst snd] in *. destruct d; assumption.
  - induction F as [|[d b] ps Hp F IH]; [exact P0|]. cbn [tails snd] in *. destruct d; [|exact IH]. rewrite len_app. apply Pa; assumption.
Qed.
Definition words (z : Z) : Prop := z mod 32 = 0.
Lemma words_0 : words 0. Proof. reflexivity. Qed.
Lemma words_32 : words 32. Proof. reflexivity. Qed.
Lemma words_add x y : words x -> words y -> words (x + y). Proof. unfold words. lia. Qed.
Definition sized_ok (t : sty) (b : bytes) : Prop := words (len b) /\ (sdyn t = false -> len b = static_size t).
Lemma elements_sized t n l bs : (forall p b, encode_with (enc_of false t) p = Ok b -> sized_ok t b) -> len l = n ->
  Forall2 (fun x y => encode_with (enc_of false t) x = Ok y) l bs ->
  words (len (head_tail (map (pair (sdyn t)) bs))) /\ (sdyn t = false -> len (head_tail (map (pair (sdyn t)) bs)) = n * static_size t).
Proof.
  intros H L F. split.
  - apply sum_parts; auto using words_0, words_32, words_add. clear L. induction F as [|x y l bs E F IH]; constructor; [apply (H x y E)|exact IH].
  - intro S. rewrite S. rewrite head_tail_static. subst n. induction F as [|x y l bs E F IH]; [reflexivity|]. cbn [concat]. lens.
    destruct (H x y E) as [_ Hy]. rewrite (Hy S). rewrite IH. lia.
Qed.
Lemma int_cases lo hi p :
  (exists z, p = PInt z /\ lo <= z <= hi /\ validate_int lo hi p = Ok tt)
  \/ (exists z, p = PInt z /\ ~ lo <= z <= hi /\ validate_int lo hi p = Err ValueOutOfBounds)
  \/ ((forall z, p <> PInt z) /\ validate_int lo hi p = Err EncodingTypeError).
Proof.
  destruct p as [|b|z|f|cx|a d|d|b|b|s|l|l|sr l|o]; try (right; right; split; [discriminate|reflexivity]).
  unfold validate_int, raise_if. destruct ((z <? lo) || (hi <? z)) eqn:C; [right; left|left]; exists z; (split; [reflexivity|]; split; [lia|reflexivity]).
Qed.
Lemma uint_cases m p :
  (exists z, p = PInt z /\ 0 <= z < 2 ^ m /\ validate_uint m p = Ok tt)
  \/ (exists z, p = PInt z /\ ~ 0 <= z < 2 ^ m /\ validate_uint m p = Err ValueOutOfBounds)
  \/ ((forall z, p <> PInt z) /\ validate_uint m p = Err EncodingTypeError).
Proof.
  unfold validate_uint, compute_unsigned_integer_bounds. destruct (int_cases 0 (2 ^ m - 1) p) as [(z & -> & R & V)|[(z & -> & R & V)|N]].
  - left. exists z. repeat split; auto; lia.
  - right. left. exists z. repeat split; auto; lia.
  - right. right. exact N.
Qed.
Lemma sint_cases m p :
  (exists z, p = PInt z /\ - 2 ^ (m - 1) <= z < 2 ^ (m - 1) /\ validate_sint m p = Ok tt)
  \/ (exists z, p = PInt z /\ ~ - 2 ^ (m - 1) <= z < 2 ^ (m - 1) /\ validate_sint m p = Err ValueOutOfBounds)
  \/ ((forall z, p <> PInt z) /\ validate_sint m p = Err EncodingTypeError).
Proof.
  unfold validate_sint, compute_signed_integer_bounds. destruct (int_cases (-1 * 2 ^ (m - 1)) (2 ^ (m - 1) - 1) p) as [(z & -> & R & V)|[(z & -> & R & V)|N]].
  - left. exists z. repeat split; auto; lia.
  - right. left. exists z. repeat split; auto; lia.
  - right. right. exact N.
Qed.
Lemma static_leaf_sized t p b : wf t -> word_leaf t = true -> encode_with (enc_of false t) p = Ok b -> len b = 32.
Proof.
  intros W L E. unfold encode_with in E. destruct t as [m|m| | |m n|m n|k| | |t|n t|ts]; try discriminate L; cbn [enc_of ve snd dsz] in E.
  - inv W. assert (V : validate_uint m p = Ok tt) by (unfold encode_uint in E; bok E; destruct x; exact Hx).
    destruct (uint_cases m p) as [(z & -> & R & _)|[(z & -> & R & V')|(_ & V')]]; try congruence.
    destruct (encode_good false (SUInt m) ltac:(constructor; assumption) (PInt z) b) as (_ & _ & G); [exact E|].
    rewrite (G (VInt z)); [apply word_len|constructor; exact R].
  - inv W. assert (V : validate_sint m p = Ok tt) by (unfold encode_sint in E; bok E; destruct x; exact Hx).
    destruct (sint_cases m p) as [(z & -> & R & _)|[(z & -> & R & V')|(_ & V')]]; try congruence.
    destruct (encode_good false (SInt m) ltac:(constructor; assumption) (PInt z) b) as (_ & _ & G); [exact E|].
    rewrite (G (VInt z)); [apply word_len|constructor; exact R].
  - unfold encode_bool in E. bok E. destruct p as [|[]| | | | | | | | | | | |]; inv E; reflexivity.
  - assert (V : validate_addr p = Ok tt) by (unfold encode_addr in E; bok E; destruct x; exact Hx).
    destruct (validate_addr_denotes p V) as [a D]. destruct (encode_good false SAddr wf_addr p b) as (_ & _ & G); [exact E|].
    rewrite (G _ D). pose proof (denotes_has_type _ _ _ wf_addr D) as T. unfold out. apply (spec_enc_static SAddr _ wf_addr T eq_refl).
  - inv W. assert (V : validate_ufixed m n p = Ok tt) by (unfold encode_ufixed in E; bok E; destruct x; exact Hx).
    destruct (encode_ufixed_ok m n 32 p) as (b' & E' & L' & _); auto; try lia. { unfold int_size in *; lia. }
    change (Z.of_nat 32) with 32 in *. congruence.
  - inv W. assert (V : validate_sfixed m n p = Ok tt) by (unfold encode_sfixed in E; bok E; destruct x; exact Hx).
    destruct (encode_sfixed_ok m n 32 p) as (b' & E' & L' & _); auto; try lia. { unfold int_size in *; lia. }
    change (Z.of_nat 32) with 32 in *. congruence.
  - inv W. unfold encode_bytesM in E. bok E. destruct x.
    destruct (encode_good false (SBytesM k) ltac:(constructor; assumption) p b) as (_ & _ & G).
    { unfold encode_with. cbn [enc_of ve snd]. unfold encode_bytesM. rewrite Hx. exact E. }
    unfold validate_bytesM in Hx. destruct (is_bytes p) eqn:Ib; [|discriminate]. unfold raise_if in Hx.
    destruct (_ <? _) eqn:C; [discriminate|].
    assert (D : denotes (SBytesM k) p (VBytes (bytes_of p ++ repeat x00 (Z.to_nat (k - len (bytes_of p)))))).
    { constructor; [|lia]. destruct p; try discriminate Ib; [left|right]; reflexivity. }
    rewrite (G _ D). assert (W : wf (SBytesM k)) by (constructor; assumption). pose proof (denotes_has_type _ _ _ W D) as T. unfold out.
    apply (spec_enc_static (SBytesM k) _ W T eq_refl).
Qed.
Theorem encode_sized : forall t, wf t -> forall p b, encode_with (enc_of false t) p = Ok b -> sized_ok t b.
Proof.
  intro t. induction t as [m|m| | |m n|m n|k| | |t IH|n t IH|ts IH] using sty_ind'; intros W p b E.
  1-7: (pose proof (static_leaf_sized _ p b W eq_refl E) as L; split; [unfold words; rewrite L; reflexivity|intros _; exact L]).
  - unfold encode_with in E. cbn [enc_of ve snd] in E. unfold encode_bytestring in E. bok E. apply prefixed_ok in E. subst b.
    split; [|discriminate]. lens. rewrite word_len. apply words_add; [reflexivity|]. apply pad_right_len.
  - unfold encode_with in E. cbn [enc_of ve snd] in E. unfold encode_text in E. bok E. bok E. apply prefixed_ok in E. subst b.
    split; [|discriminate]. lens. rewrite word_len. apply words_add; [reflexivity|]. apply pad_right_len.
  - inv W. unfold encode_with in E. cbn [enc_of ve snd] in E. bok E. bok E. bok E. inv E. apply uint_256_len in Hx0. apply elements_len in Hx1.
    destruct Hx1 as (V & bs & M & L). rewrite enc_is_dyn_of in L. cbn [negb andb] in L. apply mapM_Forall in M. split; [|discriminate]. lens. rewrite L. apply words_add; [destruct Hx0 as [-> _]; reflexivity|].
    apply (elements_sized t _ (items p) bs (IH ltac:(assumption)) eq_refl M).
  - inv W. unfold encode_with in E. cbn [enc_of ve snd] in E. apply elements_len in E.
    destruct E as (V & bs & M & L). rewrite enc_is_dyn_of in L. cbn [negb andb] in L. apply mapM_Forall in M.
    change (validate_value (enc_of false (SSized n t)) p = Ok tt) in V. apply validate_sized_ok in V.
    unfold sized_ok. rewrite L. cbn [sdyn static_size]. apply (elements_sized t n (items p) bs (IH ltac:(assumption))); [apply V|exact M].
  - inv W. take (Forall wf ts) as Wt. unfold encode_with in E. cbn [enc_of ve snd] in E. bok E. bok E. destruct x.
    assert (V : validate_value (enc_of false (STuple ts)) p = Ok tt) by exact Hx. apply (validate_tuple_ok false ts p Wt) in V as V'. destruct V' as [S V'].
    apply Forall2_len in V'. apply chunks_len in Hx0; [|rewrite len_combine; lens; lia].
    destruct Hx0 as (bs & -> & F). apply join_len in E. apply Forall3_chunks in F.
    assert (G : Forall2 (fun t b => sized_ok t b) ts bs).
    { clear -F IH Wt. induction F as [|t v b ts vs bs E F IHF]; constructor; inv IH; inv Wt; auto. eauto. }
    split; rewrite E.
    + apply sum_parts; auto using words_0, words_32, words_add. clear -G. induction G as [|t b ts bs H G IH]; cbn [map combine]; constructor; [apply H|exact IH].
    + clear -G. cbn [sdyn]. intro S. rewrite len_head_tail.
      replace (tails _) with (@nil byte). 2:{ clear -G S. induction G as [|t b ts bs H G IH]; [reflexivity|]. cbn [existsb] in S. apply orb_false_iff in S. destruct S as [S S'].
        cbn [map combine tails fst]. rewrite enc_is_dyn_of, S. cbn [negb andb]. apply IH. exact S'. }
      lens. rewrite Z.add_0_r. induction G as [|t b ts bs H G IH]; [reflexivity|]. cbn [existsb] in S. apply orb_false_iff in S. destruct S as [S S'].
      cbn [map combine heads_size static_size fold_right]. rewrite (IH S'). unfold head_size. cbn [fst snd]. rewrite enc_is_dyn_of, S. cbn [negb andb].
      destruct H as [_ H]. rewrite (H S). reflexivity.
Qed.

Theorem encode_length w types args b : used false w -> encode_in w types args = Ok b ->
  exists ts, type_args types ts /\ len b mod 32 = 0 /\ (existsb sdyn ts = false -> len b = static_size (STuple ts)).
Proof.
  intros U E. destruct (encode_ok_inv false w types args b U E) as (ts & l & T & S & E'). exists ts. split; [exact T|].
  destruct (wf_args ts (type_args_wf _ _ T)) as [->|W].
  - destruct (empty_args false args) as [(_ & _ & E2)|(_ & N)].
    + rewrite E2 in E'. inv E'. split; [reflexivity|intros _; reflexivity].
    + destruct (args_good false [] args b (Forall_nil _) E') as (V & _). destruct N as [[N _]|N]; congruence.
  - exact (encode_sized _ W args b E').
Qed.

(** ** One argument *)
Lemma one_encode pk w s t v : used pk w -> supported s t ->
  encode_in w (PList [PStr s]) (PList [v]) = encode_with (enc_of pk (STuple [t])) (PList [v]).
Proof. intros U S. apply (encode_args pk w _ [t] _ [v] U (one_args s t S)). left. reflexivity. Qed.
Lemma one_err pk w s t v e : used pk w -> supported s t -> validate_value (enc_of pk t) v = Err e ->
  encode_in w (PList [PStr s]) (PList [v]) = Err e.
Proof.
  intros U S V. rewrite (one_encode pk w s t v U S). apply encode_validate_err. rewrite validate_one; [exact V|eapply supported_wf; exact S].
Qed.
Lemma out_one pk t a : sdyn t = false -> out pk (STuple [t]) (VSeq [a]) = out pk t a.
Proof.
  intro S. rewrite out_tuple. unfold parts, opart, head_tail. cbn [map combine fst snd heads heads_size tails].
  rewrite S, andb_false_r. cbn [heads heads_size tails]. rewrite !app_nil_r. reflexivity.
Qed.
Lemma one_ok pk w s t v a : used pk w -> supported s t -> word_leaf t = true -> denotes t v a ->
  encode_in w (PList [PStr s]) (PList [v]) = Ok (out pk t a).
Proof.
  intros U S L D. assert (W := supported_wf s t S). assert (Sd : sdyn t = false) by (destruct t; try discriminate L; reflexivity).
  rewrite <- (out_one pk t a Sd). apply (encode_layout pk w _ [t] _ (VSeq [a]) U (one_args s t S)); [apply denotes_one; eauto|].
  rewrite (out_one pk t a Sd). pose proof (word_leaf_len pk t a W L (denotes_has_type t v a W D)). lia.
Qed.

Theorem encode_uint_api w s m v : used false w -> supported s (SUInt m) ->
  (exists z, v = PInt z /\ 0 <= z < 2 ^ m /\ encode_in w (PList [PStr s]) (PList [v]) = Ok (word z))
  \/ (exists z, v = PInt z /\ ~ 0 <= z < 2 ^ m /\ encode_in w (PList [PStr s]) (PList [v]) = Err ValueOutOfBounds)
  \/ ((forall z, v <> PInt z) /\ encode_in w (PList [PStr s]) (PList [v]) = Err EncodingTypeError).
Proof.
  intros U S. destruct (uint_cases m v) as [(z & -> & R & _)|[(z & -> & R & V)|(N & V)]].
  - left. exists z. split; [reflexivity|]. split; [exact R|]. apply (one_ok false w s (SUInt m) (PInt z) (VInt z) U S eq_refl). constructor. exact R.
  - right. left. exists z. split; [reflexivity|]. split; [exact R|]. apply (one_err false w s (SUInt m) _ _ U S). exact V.
  - right. right. split; [exact N|]. apply (one_err false w s (SUInt m) _ _ U S). exact V.
Qed.
Theorem encode_int_api w s m v : used false w -> supported s (SInt m) ->
  (exists z, v = PInt z /\ - 2 ^ (m - 1) <= z < 2 ^ (m - 1) /\ encode_in w (PList [PStr s]) (PList [v]) = Ok (word z))
  \/ (exists z, v = PInt z /\ ~ - 2 ^ (m - 1) <= z < 2 ^ (m - 1) /\ encode_in w (PList [PStr s]) (PList [v]) = Err ValueOutOfBounds)
  \/ ((forall z, v <> PInt z) /\ encode_in w (PList [PStr s]) (PList [v]) = Err EncodingTypeError).
Proof.
  intros U S. destruct (sint_cases m v) as [(z & -> & R & _)|[(z & -> & R & V)|(N & V)]].
  - left. exists z. split; [reflexivity|]. split; [exact R|]. apply (one_ok false w s (SInt m) (PInt z) (VInt z) U S eq_refl). constructor. exact R.
  - right. left. exists z. split; [reflexivity|]. split; [exact R|]. apply (one_err false w s (SInt m) _ _ U S). exact V.
  - right. right. split; [exact N|]. apply (one_err false w s (SInt m) _ _ U S). exact V.
Qed.

(** ** Fixed point *)
Lemma fixed_validate pk t n lo hi v : wf t -> fixed_range t n lo hi -> validate_value (enc_of pk t) v = fixed_verdict n lo hi v.
Proof.
  intros W R. inv R; inv W; unfold validate_value; cbn [enc_of ve fst]; [apply validate_ufixed_verdict|apply validate_sfixed_verdict]; assumption.
Qed.
Lemma fixed_wf t n lo hi : wf t -> fixed_range t n lo hi -> 1 <= n <= 80 /\ word_leaf t = true.
Proof. intros W R. inv R; inv W; (split; [assumption|reflexivity]). Qed.
Lemma fixed_denotes_iff t n lo hi v z : fixed_range t n lo hi -> num_scaled v n z -> lo <= z <= hi -> denotes t v (VInt z).
Proof. intros R N B. inv R; constructor; auto; lia. Qed.
Lemma fixed_out t n lo hi z : fixed_range t n lo hi -> spec_enc t (VInt z) = word z.
Proof. intro R. inv R; reflexivity. Qed.

Theorem encode_fixed_exact w s t n lo hi v z : used false w -> supported s t -> fixed_range t n lo hi -> num_scaled v n z ->
  encode_in w (PList [PStr s]) (PList [v]) = if (lo <=? z) && (z <=? hi) then Ok (word z) else Err ValueOutOfBounds.
Proof.
  intros U S R N. assert (W := supported_wf s t S). destruct (fixed_wf t n lo hi W R) as [Hn L].
  destruct ((lo <=? z) && (z <=? hi)) eqn:B.
  - rewrite <- (fixed_out t n lo hi z R). apply (one_ok false w s t v (VInt z) U S L). eapply fixed_denotes_iff; eauto. lia.
  - apply (one_err false w s t v _ U S). rewrite (fixed_validate false t n lo hi v W R). rewrite (fixed_verdict_exact n lo hi v z N), B. reflexivity.
Qed.
Lemma beyond_out_of_range v n lo hi : finite_number v -> (beyond v n lo hi <-> out_of_range v n lo hi = Some true) /\ (~ beyond v n lo hi <-> out_of_range v n lo hi = Some false).
Proof.
  intro F. assert (X : forall a b : comparison, ((a = Lt \/ b = Gt) <-> Some (match a with Lt => true | _ => false end || match b with Gt => true | _ => false end) = Some true)
    /\ (~ (a = Lt \/ b = Gt) <-> Some (match a with Lt => true | _ => false end || match b with Gt => true | _ => false end) = Some false)).
  { intros [] []; cbn; (split; split); intuition congruence. }
  assert (Y : forall i, (i < lo \/ hi < i) <-> (Z.compare i lo = Lt \/ Z.compare i hi = Gt)).
  { intro i. rewrite Z.compare_lt_iff, Z.compare_gt_iff. reflexivity. }
  destruct v as [|b|i|f|cx|a d|[neg c e|b|]|b|b|s|l|l|sr l|o]; try contradiction F; unfold out_of_range; cbn [num_scaled_cmp beyond].
  - rewrite Y. apply X.
  - rewrite Y. apply X.
  - apply X.
Qed.
Theorem encode_fixed_beyond w s t n lo hi v : used false w -> supported s t -> fixed_range t n lo hi -> finite_number v -> beyond v n lo hi ->
  encode_in w (PList [PStr s]) (PList [v]) = Err ValueOutOfBounds.
Proof.
  intros U S R F B. assert (W := supported_wf s t S). apply (one_err false w s t v _ U S). rewrite (fixed_validate false t n lo hi v W R).
  apply (proj1 (beyond_out_of_range v n lo hi F)) in B. destruct v as [|b|i|f|cx|a d|[neg c e|b|]|b|b|str|l|l|sr l|o]; try contradiction F; cbn [fixed_verdict]; rewrite B; reflexivity.
Qed.
Theorem encode_fixed_special w s t n lo hi d : used false w -> supported s t -> fixed_range t n lo hi -> (forall neg c e, d <> DFin neg c e) ->
  encode_in w (PList [PStr s]) (PList [PDec d]) = Err IllegalValue.
Proof.
  intros U S R N. assert (W := supported_wf s t S). apply (one_err false w s t _ _ U S). rewrite (fixed_validate false t n lo hi _ W R).
  destruct d as [neg c e|b|]; [exfalso; eapply N; reflexivity| |]; reflexivity.
Qed.
Theorem encode_fixed_nonnumber w s t n lo hi v : used false w -> supported s t -> fixed_range t n lo hi ->
  match v with PBool _ | PInt _ | PDec _ | PComplex _ | PFraction _ _ => False | _ => True end ->
  encode_in w (PList [PStr s]) (PList [v]) = Err EncodingTypeError.
Proof.
  intros U S R N. assert (W := supported_wf s t S). apply (one_err false w s t _ _ U S). rewrite (fixed_validate false t n lo hi _ W R).
  destruct v; try contradiction N; reflexivity.
Qed.

(** Whether a Decimal within the bounds is accepted. *)
Lemma exact_excess neg c e n : (exists z, scaled (DFin neg c e) n z) <-> excess (Z.of_N c) e n = 0.
Proof.
  split.
  - intros [z Z]. apply not_inexact in Z. cbn [inexact] in Z. lia.
  - intro H. exists (dsigned neg (whole (Z.of_N c) e n)). cbn [scaled]. 
    destruct (whole_excess (Z.of_N c) e n ltac:(lia)) as [Hwe Hex].
    unfold scaled_cmp, dsigned. change (10 ^ (e + n)) with (pow10 (e + n)). change (10 ^ (- (e + n))) with (pow10 (- (e + n))).
    destruct (Z.leb_spec 0 (e + n)).
    + rewrite (Z.max_l 0 (- (e + n))), (Z.max_r 0 (e + n)), pow10_0 in Hwe by lia. apply Z.compare_eq_iff. destruct neg; lia.
    + rewrite (Z.max_r 0 (- (e + n))), (Z.max_l 0 (e + n)), pow10_0 in Hwe by lia. apply Z.compare_eq_iff. destruct neg; lia.
Qed.
Theorem encode_fixed_decimal w s t n lo hi neg c e : used false w -> supported s t -> fixed_range t n lo hi -> ~ beyond (PDec (DFin neg c e)) n lo hi ->
  ((exists b, encode_in w (PList [PStr s]) (PList [PDec (DFin neg c e)]) = Ok b)
   /\ ((exists z, scaled (DFin neg c e) n z) \/ neg = true
       \/ e < -1000997 /\ 2 * (Z.of_N c mod 10 ^ (- (e + n))) <= 10 ^ (-1000997 - e)))
  \/ (encode_in w (PList [PStr s]) (PList [PDec (DFin neg c e)]) = Err IllegalValue
      /\ ~ ((exists z, scaled (DFin neg c e) n z) \/ neg = true
            \/ e < -1000997 /\ 2 * (Z.of_N c mod 10 ^ (- (e + n))) <= 10 ^ (-1000997 - e))).
Proof.
  intros U S R B. assert (W := supported_wf s t S). destruct (fixed_wf t n lo hi W R) as [Hn L].
  apply (proj2 (beyond_out_of_range (PDec (DFin neg c e)) n lo hi I)) in B.
  assert (V : validate_value (enc_of false t) (PDec (DFin neg c e)) = if excess_rejected (PDec (DFin neg c e)) n then Err IllegalValue else Ok tt).
  { rewrite (fixed_validate false t n lo hi _ W R). cbn [fixed_verdict]. rewrite B. reflexivity. }
  assert (Tiny : Etiny = -1000997) by reflexivity.
  assert (X : excess_rejected (PDec (DFin neg c e)) n = false <-> ((exists z, scaled (DFin neg c e) n z) \/ neg = true
       \/ e < -1000997 /\ 2 * (Z.of_N c mod 10 ^ (- (e + n))) <= 10 ^ (-1000997 - e))).
  { rewrite exact_excess. cbn [excess_rejected]. unfold underflowsb. rewrite Tiny. change (pow10 (-1000997 - e)) with (10 ^ (-1000997 - e)).
    destruct neg; cbn [negb andb]; [split; auto|].
    destruct (Z.leb_spec 0 (e + n)) as [H|H].
    - rewrite (excess_0 (Z.of_N c) e n H). rewrite Z.ltb_irrefl. cbn [andb]. split; auto.
    - pose proof (excess_lt (Z.of_N c) e n ltac:(lia) H) as Hlt. assert (Ex : Z.of_N c mod 10 ^ (- (e + n)) = excess (Z.of_N c) e n).
      { unfold excess. destruct (Z.leb_spec 0 (e + n)); [lia|reflexivity]. }
      rewrite Ex. clear Ex. generalize dependent (excess (Z.of_N c) e n). intros x Hlt. generalize (10 ^ (-1000997 - e)). intro y.
      rewrite !andb_false_iff, !negb_false_iff, !andb_true_iff, Z.ltb_ge, Z.ltb_lt, Z.leb_le. intuition (try lia; try discriminate). }
  destruct (excess_rejected (PDec (DFin neg c e)) n) eqn:Ex.
  - right. split; [apply (one_err false w s t _ _ U S); exact V|]. intro Y. apply X in Y. discriminate.
  - left. split; [|apply X; reflexivity].
    assert (V1 : validate_value (enc_of false (STuple [t])) (PList [PDec (DFin neg c e)]) = Ok tt) by (rewrite validate_one by exact W; exact V).
    destruct (args_outcome false [t] _ (Forall_cons _ W (Forall_nil _)) V1) as [(b & E & _)|(_ & N)].
    + unfold fits. cbn. reflexivity.
    + exists b. rewrite (one_encode false w s t _ U S). exact E.
    + exfalso. apply N. destruct t; try discriminate L; cbn; auto.
Qed.

(** ** Failures *)
Theorem encode_outcome pk w types ts args : used pk w -> type_args types ts -> fits args ->
  (exists b, encode_in w types args = Ok b /\ leaves scalar_leaf (STuple ts) args /\ shaped (STuple ts) args)
  \/ (exists e, encode_in w types args = Err e /\ is_encoding_error e = true)
  \/ (encode_in w types args = Err TypeError /\ ((forall l, ~ seq_like args l) \/ ~ leaves native_leaf (STuple ts) args))
  \/ (encode_in w types args = Err UnicodeEncodeError /\ ~ leaves scalar_leaf (STuple ts) args).
Proof.
  intros U T F. assert (W := type_args_wf _ _ T).
  destruct (validate_list_like_param args) as [l|e] eqn:L.
  2:{ apply list_like_err in L. destruct L as [_ N]. right. right. left. split; [|left; exact N].
      rewrite (encode_used pk w _ _ U). unfold pure_encode. destruct T as (ss & S & _). apply list_like in S. rewrite S. cbn [bind].
      destruct args; try reflexivity; exfalso; eapply N; [left|right; left|right; right; eexists]; reflexivity. }
  apply list_like in L. rewrite (encode_args pk w types ts args l U T L).
  destruct (args_validate_class pk ts args W) as [V|(e & V & X)].
  - destruct (args_outcome pk ts args W V F) as [(b & E & _ & S)|(E & S)].
    + left. exists b. split; [exact E|]. split; [exact S|].
      destruct (wf_args ts W) as [->|W']; [|eapply validate_shaped; eassumption].
      destruct (empty_args pk args) as [(Sl & _)|(_ & [[N _]|N])]; [|congruence|congruence]. econstructor; [exact Sl|constructor].
    + right. right. right. auto.
  - rewrite (encode_validate_err pk ts args e V). destruct X as [->|[->|[->| ->]]]; [right; left; eauto..|].
    right. right. left. split; [reflexivity|]. right. intro Na.
    destruct (wf_args ts W) as [->|W']; [|exact (validate_native pk _ args W' Na V)].
    destruct (empty_args pk args) as [(_ & N & _)|(_ & [[N _]|N])]; congruence.
Qed.

Theorem encode_arity pk w types ts args l : used pk w -> type_args types ts -> seq_like args l -> len l <> len ts ->
  encode_in w types args = Err ValueOutOfBounds.
Proof.
  intros U T L N. rewrite (encode_args pk w types ts args l U T L). apply encode_validate_err.
  change (enc_of pk (STuple ts)) with (ETuple (map (enc_of pk) ts)). rewrite validate_tuple by (eapply type_args_wf; eassumption).
  unfold tuple_val. destruct (seq_like_items args l L) as (-> & -> & _). cbn [negb]. rewrite len_map.
  replace (len l =? len ts) with false by lia. reflexivity.
Qed.
Theorem encode_shape pk w types ts args l : used pk w -> type_args types ts -> seq_like args l -> leaves native_leaf (STuple ts) args ->
  ~ shaped (STuple ts) args -> exists e, encode_in w types args = Err e /\ is_encoding_error e = true.
Proof.
  intros U T L Na N. assert (W := type_args_wf _ _ T). rewrite (encode_args pk w types ts args l U T L).
  destruct (wf_args ts W) as [->|W'].
  { destruct (empty_args pk args) as [(S & _)|(_ & [[V _]|V])].
    - exfalso. apply N. econstructor; [exact S|constructor].
    - exists EncodingTypeError. split; [apply encode_validate_err; exact V|reflexivity].
    - exists ValueOutOfBounds. split; [apply encode_validate_err; exact V|reflexivity]. }
  destruct (validate_class pk _ args W') as [V|(e & V & X)]; [exfalso; apply N; eapply validate_shaped; eassumption|].
  exists e. split; [apply encode_validate_err; exact V|]. pose proof (validate_native pk _ args W' Na).
  destruct X as [->|[->|[->| ->]]]; try reflexivity. congruence.
Qed.

(** ** is_encodable *)
Lemma check_encodable_of pk t v : wf t -> check_encodable (enc_of pk t) v =
  match validate_value (enc_of pk t) v with Ok _ => Ok true | Err e => if is_encoding_error e then Ok false else Err e end.
Proof.
  intro W. unfold check_encodable. destruct (validate_class pk t v W) as [->|(e & -> & X)]; [reflexivity|].
  destruct X as [->|[->|[->| ->]]]; reflexivity.
Qed.
Lemma leaves_one P t v : leaves P (STuple [t]) (PList [v]) <-> leaves P t v.
Proof. rewrite leaves_tuple. cbn [items]. split; [intro H; inv H; assumption|intro H; repeat constructor; exact H]. Qed.
Lemma fits_one v : fits (PList [v]) -> fits v.
Proof. unfold fits. cbn [py_size fold_right]. lia. Qed.
Theorem is_encodable_spec pk w typ v :
  used pk w -> fits (PList [v]) ->
  (exists s t, typ = PStr s /\ supported s t /\
    ((is_encodable_in w typ v = Ok true /\ exists b, encode_in w (PList [typ]) (PList [v]) = Ok b)
     \/ (is_encodable_in w typ v = Ok false /\ exists e, encode_in w (PList [typ]) (PList [v]) = Err e /\ is_encoding_error e = true)
     \/ (is_encodable_in w typ v = Ok true /\ encode_in w (PList [typ]) (PList [v]) = Err UnicodeEncodeError /\ ~ leaves scalar_leaf t v)
     \/ (is_encodable_in w typ v = Err TypeError /\ encode_in w (PList [typ]) (PList [v]) = Err TypeError /\ ~ leaves native_leaf t v)))
  \/ (~ (exists s t, typ = PStr s /\ supported s t) /\ is_encodable_in w typ v = Ok false
      /\ exists e, (type_exc e \/ e = TypeError) /\ encode_in w (PList [typ]) (PList [v]) = Err e).
Proof.
  intros U F. rewrite (is_encodable_used pk w typ v U). destruct (pure_is_encodable_std pk typ v) as [(s & t & -> & S & ->)|(N & ->)].
  - left. exists s, t. split; [reflexivity|]. split; [exact S|]. assert (W := supported_wf s t S). rewrite (check_encodable_of pk t v W).
    destruct (validate_class pk t v W) as [V|(e & V & X)].
    + rewrite V. assert (V1 : validate_value (enc_of pk (STuple [t])) (PList [v]) = Ok tt) by (rewrite validate_one by exact W; exact V).
      rewrite (one_encode pk w s t v U S).
      destruct (args_outcome pk [t] _ (Forall_cons _ W (Forall_nil _)) V1 F) as [(b & E & _)|(E & Ns)].
      * left. eauto.
      * right. right. left. rewrite leaves_one in Ns. auto.
    + rewrite V. rewrite (one_err pk w s t v e U S V). destruct X as [->|[->|[->| ->]]]; cbn [is_encoding_error]; try (right; left; split; [reflexivity|eauto]; fail).
      right. right. right. split; [reflexivity|]. split; [reflexivity|]. intro Na. exact (validate_native pk t v W Na V).
  - right. split; [exact N|]. split; [reflexivity|]. apply (encode_bad pk w _ _ U). intros (ts & l & (ss & [Hs|[Hs|(? & Hs)]] & F2) & _); [|discriminate Hs|discriminate Hs].
    destruct ss as [|s [|s2 ss]]; inv Hs. inv F2. eauto.
Qed.

(** ** Packed mode *)
Lemma args_validate_mode ts p : Forall wf ts -> validate_value (enc_of true (STuple ts)) p = validate_value (enc_of false (STuple ts)) p.
Proof. intro W. destruct (wf_args ts W) as [->|W']; [reflexivity|apply validate_mode; exact W']. Qed.
Theorem packed_same_arguments w wp types args : used false w -> used true wp -> fits args ->
  ((exists b, encode_in w types args = Ok b) /\ (exists b, encode_in wp types args = Ok b))
  \/ exists e, encode_in w types args = Err e /\ encode_in wp types args = Err e.
Proof.
  intros U Up F. rewrite (encode_used true wp _ _ Up), (encode_used false w _ _ U).
  destruct (validate_list_like_param types) as [tl|e] eqn:Tl; [|right; exists e; unfold pure_encode; rewrite Tl; auto].
  destruct (validate_list_like_param args) as [al|e] eqn:Al; [|right; exists e; unfold pure_encode; rewrite Tl, Al; auto].
  destruct (mapM_unsupported _ (find_encoder (encs false)) tl (encs_total false)) as [(ss & ts & -> & Fs)|(N & e & X & E)].
  { intros s t S. eexists. apply find_enc_supported. exact S. }
  - apply list_like in Tl, Al. assert (T : type_args types ts) by (exists ss; auto). assert (W := type_args_wf _ _ T).
    rewrite (pure_encode_args true types ts args al T Al), (pure_encode_args false types ts args al T Al).
    destruct (args_validate_class false ts args W) as [V|(e & V & X)].
    + assert (Vp := V). rewrite <- args_validate_mode in Vp by exact W.
      destruct (args_outcome false ts args W V F) as [(b & E & _ & S)|(E & S)], (args_outcome true ts args W Vp F) as [(b' & E' & _ & S')|(E' & S')];
        try contradiction; [left; eauto|right; eauto].
    + right. exists e. assert (Vp := V). rewrite <- args_validate_mode in Vp by exact W. split; apply encode_validate_err; assumption.
  - right. assert (G : forall l, mapM (find_py (find_encoder (encs true))) l = (match mapM (find_py (find_encoder (encs false))) l with Err x => Err x | Ok _ => mapM (find_py (find_encoder (encs true))) l end)).
    { clear. induction l as [|t l IH]; [reflexivity|]. cbn [mapM].
      assert (H : match find_py (find_encoder (encs false)) t with Err x => find_py (find_encoder (encs true)) t = Err x | Ok _ => exists a, find_py (find_encoder (encs true)) t = Ok a end).
      { destruct t; cbn [find_py]; lazymatch goal with |- context [find_encoder] => idtac | _ => reflexivity end.
        rewrite !find_encoder_std. destruct (parse s) as [T|x]; [|reflexivity]. unfold enc_ok. destruct (lookup_sty T); cbn [bind]; eauto. }
      destruct (find_py (find_encoder (encs false)) t) as [x|x]; [|rewrite H; reflexivity]. destruct H as [a ->]. cbn [bind].
      rewrite IH. destruct (mapM (find_py (find_encoder (encs false))) l); reflexivity. }
    exists e. unfold pure_encode. rewrite Tl, Al. cbn [bind]. rewrite E. cbn [bind]. split; [reflexivity|]. rewrite G, E. reflexivity.
Qed.

(** ** Addresses *)
Theorem encode_address w s v : used false w -> supported s SAddr ->
  (exists b, (bytes_like v b /\ len b = 20 \/ exists txt, v = PStr txt /\ address_text txt b)
     /\ encode_in w (PList [PStr s]) (PList [v]) = Ok (repeat x00 12 ++ b))
  \/ ((forall b, ~ (bytes_like v b /\ len b = 20 \/ exists txt, v = PStr txt /\ address_text txt b))
      /\ encode_in w (PList [PStr s]) (PList [v]) = Err EncodingTypeError).
Proof.
  intros U S. destruct (validate_addr_cases v) as [(b & V & H)|V].
  - left. exists b. split; [tauto|]. apply (one_ok false w s SAddr v (VBytes b) U S eq_refl).
    destruct H as [(txt & -> & A)|[B L]]; [apply D_addr_text|apply D_addr_bytes]; assumption.
  - right. split; [|apply (one_err false w s SAddr v _ U S); exact V]. intros b H.
    assert (D : denotes SAddr v (VBytes b)) by (destruct H as [[B L]|(txt & -> & A)]; [apply D_addr_bytes|apply D_addr_text]; assumption).
    destruct (denotes_encodes false SAddr v _ wf_addr D) as [V' _]. change (validate_addr v = Ok tt) in V'. congruence.
Qed.

(** ** Strings *)
Theorem encode_string w s v : used false w -> supported s SString -> fits (PList [v]) ->
  (exists txt, v = PStr txt /\ Forall scalar txt
     /\ encode_in w (PList [PStr s]) (PList [v]) = Ok (word 32 ++ word (len (utf8 txt)) ++ pad_right (utf8 txt)))
  \/ (exists txt, v = PStr txt /\ ~ Forall scalar txt /\ encode_in w (PList [PStr s]) (PList [v]) = Err UnicodeEncodeError)
  \/ ((forall txt, v <> PStr txt) /\ encode_in w (PList [PStr s]) (PList [v]) = Err EncodingTypeError).
Proof.
  intros U S F. assert (D : (exists txt, v = PStr txt) \/ forall txt, v <> PStr txt) by (destruct v; eauto; right; discriminate).
  destruct D as [[txt ->]|N].
  - assert (V1 : validate_value (enc_of false (STuple [SString])) (PList [PStr txt]) = Ok tt) by (rewrite validate_one by constructor; reflexivity).
    destruct (args_outcome false [SString] _ (Forall_cons _ wf_string (Forall_nil _)) V1 F) as [(b & E & L & Sc)|(E & Sc)];
      rewrite leaves_one in Sc; cbn in Sc.
    + left. exists txt. split; [reflexivity|]. split; [exact Sc|].
      assert (D : denotes (STuple [SString]) (PList [PStr txt]) (VSeq [VStr txt])) by (apply denotes_one; eexists; split; [reflexivity|constructor; exact Sc]).
      assert (O : out false (STuple [SString]) (VSeq [VStr txt]) = word 32 ++ word (len (utf8 txt)) ++ pad_right (utf8 txt)).
      { rewrite out_tuple. unfold parts, opart, head_tail. cbn [map combine fst snd negb andb sdyn heads heads_size tails]. unfold head_size. cbn [fst].
        rewrite Z.add_0_r, !app_nil_r. reflexivity. }
      rewrite <- O. apply (encode_layout false w _ [SString] _ _ U (one_args s _ S) D).
      destruct (args_good false [SString] _ b (Forall_cons _ wf_string (Forall_nil _)) E) as (_ & _ & Lg). rewrite <- (Lg _ D).
      unfold fits in F. lia.
    + right. left. exists txt. split; [reflexivity|]. split; [exact Sc|]. rewrite (one_encode false w s SString _ U S). exact E.
  - right. right. split; [exact N|]. apply (one_err false w s SString v _ U S). unfold validate_value. cbn [enc_of ve fst].
    destruct v; try reflexivity. exfalso. eapply N. reflexivity.
Qed.

(** ** Arguments that fit in memory *)
Theorem encode_denoted pk w types ts args a : used pk w -> type_args types ts -> denotes (STuple ts) args a -> fits args ->
  encode_in w types args = Ok (out pk (STuple ts) a).
Proof.
  intros U T D F. assert (W := type_args_wf _ _ T). apply (encode_layout pk w types ts args a U T D).
  destruct (args_encodes pk ts args a W D) as [V _]. destruct (args_outcome pk ts args W V F) as [(b & E & L & _)|(_ & N)].
  - destruct (args_good pk ts args b W E) as (_ & _ & G). rewrite <- (G a D). unfold fits in F. lia.
  - exfalso. apply N. apply (denotes_leaves _ _ _ D).
Qed.
Theorem encode_iff pk w types ts args b : used pk w -> type_args types ts -> fits args -> leaves exact_leaf (STuple ts) args ->
  encode_in w types args = Ok b <-> exists a, denotes (STuple ts) args a /\ b = out pk (STuple ts) a.
Proof.
  intros U T F X. split.
  - intro E. destruct (encode_layout_inv pk w types ts args b U T E X) as (a & D & _). exists a. split; [exact D|].
    rewrite (encode_denoted pk w types ts args a U T D F) in E. congruence.
  - intros (a & D & ->). apply encode_denoted; assumption.
Qed.
Theorem is_encodable_agrees pk w s t v : used pk w -> fits (PList [v]) -> supported s t -> leaves scalar_leaf t v -> leaves native_leaf t v ->
  (is_encodable_in w (PStr s) v = Ok true /\ exists b, encode_in w (PList [PStr s]) (PList [v]) = Ok b)
  \/ (is_encodable_in w (PStr s) v = Ok false /\ exists e, encode_in w (PList [PStr s]) (PList [v]) = Err e /\ is_encoding_error e = true).
Proof.
  intros U F S Sc Na. destruct (is_encodable_spec pk w (PStr s) v U F) as [(s' & t' & E & S' & H)|(N & _)]; [|exfalso; apply N; eauto].
  assert (s' = s) by congruence. subst s'. assert (t' = t) by (eapply supported_fun; eassumption). subst t'.
  destruct H as [H|[H|[(_ & _ & H)|(_ & _ & H)]]]; [left; exact H|right; exact H|contradiction|contradiction].
Qed.
