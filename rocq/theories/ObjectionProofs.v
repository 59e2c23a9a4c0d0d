(** Objections are the exceptions of Encoding.v, and what they say is true. *)
From Coq Require Import Strings.Byte Strings.String.
From Verif Require Import Tac Bytes BytesProofs Utf8 Address Decimals DecimalsProofs Encoding Registry Codec Histories Spec TypeSpec ReadSpec
  EncLeafProofs AddressProofs EncodeProofs AcceptProofs CacheProofs LookupProofs TypeProofs ArgsProofs ApiProofs HistoryProofs EncodeApi LimitsProofs Objections ObjectionSpec.
Open Scope Z_scope.

(** ** The same results *)
Lemma muted_bind {A B} (m : heard A) (f : A -> heard B) : muted (hbind m f) = bind (muted m) (fun a => muted (f a)).
Proof. destruct m; reflexivity. Qed.
Lemma muted_quoted {A} (r : result A) : muted (quoted r) = r.
Proof. destruct r; reflexivity. Qed.
Lemma muted_object b cls v c : muted (object_if b cls v c) = raise_if b (class_of_cause c).
Proof. destruct b; reflexivity. Qed.
Lemma muted_map {A B} (f : A -> heard B) (g : A -> result B) l : (forall x, muted (f x) = g x) -> muted (hmap f l) = mapM g l.
Proof.
  intro H. induction l as [|x l IH]; [reflexivity|]. cbn [hmap mapM]. rewrite muted_bind, H. destruct (g x); [|reflexivity]. cbn [bind].
  rewrite muted_bind, IH. destruct (mapM g l); reflexivity.
Qed.
Lemma muted_int cls bits bounds v : muted (int_heard cls bits bounds v) = validate_int (fst bounds) (snd bounds) v.
Proof. destruct v; try reflexivity. cbn [int_heard]. rewrite muted_object. reflexivity. Qed.
Lemma muted_fixed cls bits bounds frac v : muted (fixed_heard cls bits bounds frac v) = validate_fixed bounds frac v.
Proof.
  unfold fixed_heard, validate_fixed. rewrite muted_bind, muted_object. destruct (negb (is_number v) || _); [reflexivity|]. cbn [raise_if bind].
  rewrite muted_bind, muted_object. destruct (match v with PDec DNaN | PDec (DInf _) => true | _ => false end); [reflexivity|]. cbn [raise_if bind].
  rewrite muted_bind, muted_quoted. destruct bounds as [[lo hi]|]; [|reflexivity]. cbn [bind].
  rewrite muted_bind, muted_quoted. destruct (num_cmp v lo) as [cl|]; [|reflexivity]. cbn [bind].
  rewrite muted_bind, muted_quoted. destruct (num_cmp v hi) as [cu|]; [|reflexivity]. cbn [bind].
  rewrite muted_bind, muted_object. cbn [class_of_cause]. destruct (raise_if _ _) as [[]|]; [|reflexivity]. cbn [bind].
  rewrite muted_bind, muted_quoted. destruct (to_dec v) as [d|]; [|reflexivity]. cbn [bind].
  rewrite muted_bind, muted_quoted. destruct (dec_mod _ _) as [r|]; [|reflexivity]. cbn [bind].
  rewrite muted_object. reflexivity.
Qed.
Lemma muted_flag ok cls v : muted (flag_heard ok cls v) = if ok v then Ok tt else Err EncodingTypeError.
Proof. unfold flag_heard. rewrite muted_object. destruct (ok v); reflexivity. Qed.
Lemma muted_bytesM bits v : muted (bytesM_heard bits v) = validate_bytesM bits v.
Proof.
  unfold bytesM_heard, validate_bytesM. rewrite muted_bind, muted_object. destruct (is_bytes v); [|reflexivity]. cbn [negb raise_if bind].
  apply muted_object.
Qed.

Definition same (h : (pyval -> heard unit) * (pyval -> heard bytes)) (p : (pyval -> result unit) * (pyval -> result bytes)) : Prop :=
  (forall v, muted (fst h v) = fst p v) /\ (forall v, muted (snd h v) = snd p v).
Lemma same_leaf val enc validate : (forall v, muted (val v) = validate v) -> (forall v e, validate v = Err e -> enc v = Err e) ->
  same (leaf_heard val enc) (validate, enc).
Proof.
  intros H E. split; intro v; cbn [leaf_heard fst snd]; [apply H|]. rewrite muted_bind, H. destruct (validate v) as [u|e] eqn:V; cbn [bind].
  - apply muted_quoted.
  - symmetry. apply E, V.
Qed.
Lemma muted_uint_256 z : muted (uint_256_heard z) = encode_uint_256 z.
Proof.
  unfold uint_256_heard. rewrite muted_bind, muted_int. rewrite muted_quoted. unfold encode_uint_256, encode_uint, validate_uint.
  destruct (compute_unsigned_integer_bounds 256) as [lo hi]. cbn [fst snd]. destruct (validate_int lo hi (PInt z)) as [[]|]; reflexivity.
Qed.
Lemma muted_tuple_items hs : forall ps xs, Forall2 same hs ps -> muted (tuple_items_heard hs xs) = tuple_validate_items ps xs.
Proof.
  induction hs as [|[hv he] hs IH]; intros ps xs F; inv F; [reflexivity|]. destruct y as [pv pe]. take (same _ _) as S. destruct S as [Sv Se]. cbn [fst snd] in *.
  destruct xs as [|x xs]; [reflexivity|]. cbn [tuple_items_heard tuple_validate_items]. rewrite <- Sv. destruct (hv x) as [u|o]; cbn [muted]; [apply IH; assumption|].
  destruct (exc_of o) eqn:E; try (cbn [muted]; rewrite E; reflexivity). rewrite muted_bind, Se. destruct (pe x); [|reflexivity]. cbn [bind]. apply IH. assumption.
Qed.
Lemma same_len hs ps : Forall2 same hs ps -> len hs = len ps.
Proof. apply Forall2_len. Qed.
Lemma muted_tuple hs ps v : Forall2 same hs ps -> muted (tuple_heard hs v) = tuple_validate ps v.
Proof.
  intro F. unfold tuple_heard, tuple_validate. rewrite muted_bind, muted_object. destruct (is_list_like v); [|reflexivity]. cbn [negb raise_if bind].
  rewrite muted_bind, muted_object, (same_len _ _ F). destruct (negb (_ =? _)); [reflexivity|]. cbn [raise_if bind]. apply muted_tuple_items, F.
Qed.
Lemma muted_validate_all val pval l : (forall v, muted (val v) = pval v) -> forall (k : heard unit) k', muted k = k' ->
  muted (hmap val l ;! k) = (validate_all pval l ;;; k').
Proof.
  intros H k k' K. induction l as [|x l IH]; [exact K|]. cbn [hmap validate_all]. rewrite !muted_bind. rewrite muted_bind in IH. rewrite H. destruct (pval x) as [[]|]; [|reflexivity]. cbn [bind].
  rewrite muted_bind. destruct (muted (hmap val l)) as [us|]; cbn [bind] in *; [exact IH|]. exact IH.
Qed.
Lemma muted_array cls n val pval v : (forall v, muted (val v) = pval v) -> muted (array_heard cls n val v) = sized_validate n pval v.
Proof.
  intro H. unfold array_heard, sized_validate, array_validate. rewrite muted_bind, muted_object. destruct (is_list_like v); [|reflexivity]. cbn [negb raise_if bind].
  apply muted_validate_all; [exact H|]. destruct n; [apply muted_object|reflexivity].
Qed.
Lemma muted_chunks ds hs : forall ps xs, Forall2 same hs ps ->
  muted (chunks_heard (combine ds (map snd hs)) xs) = tuple_chunks (combine ds (map snd ps)) xs.
Proof.
  revert hs. induction ds as [|d ds IH]; intros hs ps xs F; [reflexivity|]. inv F; [reflexivity|]. take (same _ _) as S. destruct S as [_ Se].
  cbn [map combine]. destruct xs as [|x' xs]; [reflexivity|]. cbn [chunks_heard tuple_chunks]. rewrite muted_bind, Se. destruct (snd y x'); [|reflexivity]. cbn [bind].
  rewrite muted_bind, (IH _ _ _ ltac:(eassumption)). destruct (tuple_chunks _ xs); [|reflexivity]. reflexivity.
Qed.
Lemma muted_join chunks : muted (join_heard chunks) = join_chunks chunks.
Proof.
  unfold join_heard, join_chunks. rewrite muted_bind. cbn zeta. set (h := fold_right _ _ _).
  rewrite (muted_map _ (fun co => match fst co with None => encode_uint_256 (h + snd co) | Some b => Ok b end)).
  - destruct (mapM _ _); reflexivity.
  - intros [[b|] off]; cbn [fst snd]; [reflexivity|apply muted_uint_256].
Qed.
Lemma muted_elements val pval dyn enc penc v : (forall v, muted (val v) = pval v) -> (forall v, muted (enc v) = penc v) ->
  muted (elements_heard val dyn enc v) = encode_elements pval dyn penc v.
Proof.
  intros Hv He. unfold elements_heard, encode_elements. rewrite muted_bind, Hv. destruct (pval v) as [[]|]; [|reflexivity]. cbn [bind].
  rewrite muted_bind, (muted_map _ _ _ He). destruct (mapM penc (items v)) as [bs|]; [|reflexivity]. cbn [bind].
  destruct (negb dyn || _); [reflexivity|]. rewrite muted_bind, (muted_map _ _ _ (fun off => muted_uint_256 _)). destruct (mapM _ _); reflexivity.
Qed.
Lemma leaf_err {A} (val : result unit) (k : result A) e : val = Err e -> (val ;;; k) = Err e.
Proof. intros ->. reflexivity. Qed.
Lemma same_map es : Forall (fun e => same (ve_heard e) (ve e)) es -> Forall2 same (map ve_heard es) (map ve es).
Proof. induction 1; constructor; assumption. Qed.
Theorem heard_result e : same (ve_heard e) (ve e).
Proof.
  induction e as [e L|es IH|n e IH|e IH|n e IH] using encoder_ind'.
  - destruct e; try contradiction; cbn [ve_heard ve].
    + apply same_leaf; [|intros v e; apply leaf_err]. intro v. rewrite muted_int. reflexivity.
    + apply same_leaf; [|intros v e; apply leaf_err]. intro v. rewrite muted_int. reflexivity.
    + apply same_leaf; [|intros v e; apply leaf_err]. intro v. apply muted_flag.
    + apply same_leaf; [|intros v e; apply leaf_err]. intro v. apply muted_flag.
    + apply same_leaf; [|intros v e; apply leaf_err]. intro v. apply muted_fixed.
    + apply same_leaf; [|intros v e; apply leaf_err]. intro v. apply muted_fixed.
    + apply same_leaf; [|intros v e; apply leaf_err]. intro v. apply muted_bytesM.
    + apply same_leaf; [|intros v e; apply leaf_err]. intro v. apply muted_flag.
    + apply same_leaf; [|intros v e; apply leaf_err]. intro v. apply muted_flag.
    + split; intro v; cbn [fst snd]; [reflexivity|apply muted_quoted].
    + split; intro v; cbn [fst snd]; apply muted_quoted.
  - apply same_map in IH. cbn [ve_heard ve]. split; intro v; cbn [fst snd]; [apply muted_tuple, IH|].
    rewrite muted_bind, (muted_tuple _ _ _ IH). destruct (tuple_validate _ v) as [[]|]; [|reflexivity]. cbn [bind].
    rewrite muted_bind, (muted_chunks _ _ _ _ IH). destruct (tuple_chunks _ _); [|reflexivity]. apply muted_join.
  - destruct IH as [Hv He]. cbn [ve_heard ve]. split; intro v; cbn [fst snd]; [apply muted_array, Hv|].
    apply muted_elements; [|exact He]. intro v'. apply muted_array, Hv.
  - destruct IH as [Hv He]. cbn [ve_heard ve].
    assert (V : forall v, muted (array_heard "DynamicArrayEncoder" None (fst (ve_heard e)) v) = array_validate (fst (ve e)) v).
    { intro v. rewrite (muted_array _ _ _ _ _ Hv). unfold sized_validate. destruct (array_validate _ v) as [[]|]; reflexivity. }
    split; intro v; cbn [fst snd]; [apply V|]. rewrite muted_bind, muted_quoted. destruct (py_len v); [|reflexivity]. cbn [bind].
    rewrite muted_bind, muted_uint_256. destruct (encode_uint_256 _); [|reflexivity]. cbn [bind].
    rewrite muted_bind, (muted_elements _ _ _ _ _ _ V He). destruct (encode_elements _ _ _ _); reflexivity.
  - destruct IH as [Hv He]. cbn [ve_heard ve]. split; intro v; cbn [fst snd]; [apply muted_array, Hv|].
    apply muted_elements; [|exact He]. intro v'. apply muted_array, Hv.
Qed.
Theorem api_heard_result types args r : muted (fst (api_encode_heard types args r)) = fst (api_encode types args r)
  /\ snd (api_encode_heard types args r) = snd (api_encode types args r).
Proof.
  unfold api_encode_heard, api_encode. destruct (validate_list_like_param types); [|split; reflexivity]. destruct (validate_list_like_param args); [|split; reflexivity].
  destruct (sequenceM _ _ _) as [[es|] r1]; split; try reflexivity. apply heard_result.
Qed.

(** ** What is said is true *)
Lemma num_cmp_err v d e : num_cmp v d = Err e -> e = TypeError.
Proof. destruct v; cbn [num_cmp]; try destruct d; congruence. Qed.
Lemma to_dec_err v e : to_dec v = Err e -> e = TypeError.
Proof. destruct v; cbn [to_dec]; congruence. Qed.
Lemma dec_fix_err neg c x e : dec_fix neg c x = Err e -> e = DecimalOverflow.
Proof.
  unfold dec_fix. destruct (c =? 0); [discriminate|]. destruct (_ <? _); [congruence|]. destruct (_ <? _); [|discriminate].
  destruct (_ =? _); destruct (_ <? _); congruence.
Qed.
Lemma dec_mod_err a b e : dec_mod a b = Err e -> e = DecimalOverflow \/ e = DecimalInvalidOperation.
Proof.
  unfold dec_mod. destruct a; try (right; congruence). destruct b; try (right; congruence). 
  repeat match goal with |- context [if ?b then _ else _] => destruct b end; intro H; try (right; congruence); left; eapply dec_fix_err; eassumption.
Qed.
Lemma too_far_out p n lo hi : fixed_verdict n lo hi p = Err ValueOutOfBounds -> too_far p n lo hi.
Proof.
  destruct p as [|b|i|f|cx|a d|[neg c e|b|]|b|b|s|l|l|sr l|o]; cbn [fixed_verdict]; try discriminate; intro H; cbn [too_far].
  1, 2, 4: refine ((fun F => proj2 (proj1 (beyond_out_of_range _ n lo hi F))) _ _); [exact I|];
    destruct (out_of_range _ n lo hi) as [[]|] eqn:E; [reflexivity|destruct (excess_rejected _ _); discriminate|discriminate E].
  unfold out_of_range in H. cbn [num_scaled_cmp] in H. destruct (Z.compare_spec (a * 10 ^ n) (lo * Z.pos d)); cbn [orb] in H; auto;
    (destruct (Z.compare_spec (a * 10 ^ n) (hi * Z.pos d)); try discriminate H; auto).
Qed.

Lemma surplus_excess c e n : e + n < 0 -> excess (Z.of_N c) e n = surplus c e n.
Proof. intro H. unfold excess, surplus. destruct (Z.leb_spec 0 (e + n)); [lia|reflexivity]. Qed.
Lemma residue_exact r e n : 1 <= n -> 0 < r < pow10 (- (e + n)) -> e + n < 0 -> -999 <= e -> dec_fix false r e = Ok (DFin false (Z.to_N r) e).
Proof.
  intros Hn Hr He Hl. assert (Hd : ndigits r <= - (e + n)) by (apply ndigits_le; lia). pose proof (ndigits_spec r ltac:(lia)) as (H1 & _ & _).
  assert (P : prec = 999) by reflexivity. assert (E : Etiny = -1000997) by reflexivity. assert (T : Etop = 999001) by reflexivity.
  unfold dec_fix. destruct (Z.eqb_spec r 0); [lia|]. rewrite P, E, T. destruct (Z.ltb_spec 999001 (ndigits r + e - 999)); [lia|].
  destruct (Z.ltb_spec e (Z.max (ndigits r + e - 999) (-1000997))); [lia|reflexivity].
Qed.
Lemma fixed_says pk t n lo hi lod hid v o : wf t -> fixed_range t n lo hi -> scaled lod n lo -> scaled hid n hi ->
  (forall v, validate_fixed (Ok (lod, hid)) n v = fixed_verdict n lo hi v) ->
  fixed_heard (class_name pk t) (bits_of t) (Ok (lod, hid)) n v = Says o -> flaw pk t v o.
Proof.
  intros W R Sl Sh V H. assert (M : fixed_verdict n lo hi v = Err (exc_of o)).
  { rewrite <- V, <- (muted_fixed (class_name pk t) (bits_of t)), H. reflexivity. }
  destruct (fixed_wf t n lo hi W R) as [Hn _]. unfold fixed_heard, object_if in H.
  destruct (negb (is_number v) || _) eqn:E1.
  { inv H. apply F_here, W_kind. inv R; cbn [suits]; destruct v; try exact (fun f => f); discriminate E1. }
  cbn [hbind] in H. destruct (match v with PDec DNaN | PDec (DInf _) => true | _ => false end) eqn:E2.
  { inv H. destruct v as [|b|i|f|cx|a d|d|b|b|s|l|l|sr l|o]; try discriminate E2. apply F_here. eapply W_special; [exact R|].
    intros neg c e ->. discriminate E2. }
  cbn [hbind quoted] in H.
  assert (X : forall e, (e = TypeError \/ e = DecimalOverflow \/ e = DecimalInvalidOperation) -> Says (Escapes e) = @Says unit o -> flaw pk t v o).
  { intros e He Q. inv Q. cbn [exc_of] in M.
    destruct v as [|b|i|f|cx|a d|[neg c x|b|]|b|b|s|l|l|sr l|o]; try discriminate E1; try discriminate E2; cbn [fixed_verdict] in M.
    - destruct (out_of_range _ n lo hi) as [[]|]; try destruct (excess_rejected _ _); exfalso; destruct He as [->|[->| ->]]; discriminate.
    - destruct (out_of_range _ n lo hi) as [[]|]; try destruct (excess_rejected _ _); exfalso; destruct He as [->|[->| ->]]; discriminate.
    - inv M. eapply F_complex; exact R.
    - destruct (out_of_range _ n lo hi) as [[]|] eqn:O; try (exfalso; destruct He as [->|[->| ->]]; discriminate). inv M.
      eapply F_fraction; [exact R|]. unfold out_of_range in O. cbn [num_scaled_cmp] in O. cbn [too_far].
      destruct (Z.compare_spec (a * 10 ^ n) (lo * Z.pos d)); try discriminate O; (destruct (Z.compare_spec (a * 10 ^ n) (hi * Z.pos d)); try discriminate O; lia).
    - destruct (out_of_range _ n lo hi) as [[]|]; try destruct (excess_rejected _ _); exfalso; destruct He as [->|[->| ->]]; discriminate. }
  destruct (num_cmp v lod) as [cl|e] eqn:C1; cbn [quoted hbind] in H; [|eapply X; [left; eapply num_cmp_err; exact C1|exact H]].
  destruct (num_cmp v hid) as [cu|e] eqn:C2; cbn [quoted hbind] in H; [|eapply X; [left; eapply num_cmp_err; exact C2|exact H]].
  destruct (_ || _) eqn:E3 in H; cbn [hbind] in H.
  { inv H. apply F_here. eapply W_beyond; [exact R| |exact Sl|exact Sh]. apply too_far_out, M. }
  destruct (to_dec v) as [d|e] eqn:C3; cbn [quoted hbind] in H; [|eapply X; [left; eapply to_dec_err; exact C3|exact H]].
  destruct (dec_mod d (ten_pow (- n))) as [r|e] eqn:C4; cbn [quoted hbind] in H; [|eapply X; [right; eapply dec_mod_err; exact C4|exact H]].
  destruct (dec_ltb ZERO r) eqn:E4; [|discriminate H]. inv H. cbn [exc_of class_of_cause] in M.
  destruct v as [|b|i|f|cx|a d'|[neg c e|b|]|b|b|s|l|l|sr l|o]; try discriminate E1; try discriminate E2; cbn [fixed_verdict] in M.
  1, 2: destruct (out_of_range _ n lo hi) as [[]|]; discriminate M.
  - discriminate M.
  - destruct (out_of_range _ n lo hi) as [[]|]; discriminate M.
  - destruct (out_of_range _ n lo hi) as [[]|] eqn:O; try discriminate M. destruct (excess_rejected _ _) eqn:Ex; [|discriminate M].
    cbn [excess_rejected] in Ex. rewrite !andb_true_iff, negb_true_iff, negb_true_iff in Ex. destruct Ex as [[-> Ex1] Ex2]. apply Z.ltb_lt in Ex1.
    assert (He : e + n < 0) by (destruct (Z.lt_ge_cases (e + n) 0); [assumption|rewrite excess_0 in Ex1 by lia; lia]).
    assert (Hlo : lo <= 0 <= hi /\ - pow10 78 < lo /\ hi < pow10 78).
    { inv R; inversion W; subst; take (int_size _) as Hm; destruct Hm as [Hm _].
      - pose proof (pow2_pos m ltac:(lia)). pose proof (pow2_lt_78 m ltac:(lia)). pose proof (pow10_pos 78 ltac:(lia)). lia.
      - pose proof (pow2_pos (m - 1) ltac:(lia)). pose proof (pow2_lt_78 (m - 1) ltac:(lia)). lia. }
    destruct Hlo as (Hlo & Hl & Hh). destruct (in_range_whole false c e n lo hi Hlo Hl Hh O) as (Hw & _ & _).
    cbn [to_dec] in C3. inv C3. rewrite dec_mod_value in C4 by (lia || exact Hw). rewrite Z.min_l in C4 by lia.
    pose proof (excess_lt (Z.of_N c) e n ltac:(lia) He) as Hlt. rewrite (surplus_excess c e n He) in *.
    destruct (dec_fix_residue false (surplus c e n) e n Hn Hlt He) as (q & e' & Q & Hq). rewrite Q in C4. inv C4.
    rewrite dec_ltb_ZERO in E4. cbn [negb andb] in E4. apply Z.ltb_lt in E4.
    apply F_here. eapply W_residue; [exact R|exact He|exact Ex1| |lia|].
    + unfold underflowsb in Ex2. assert (T : Etiny = -1000997) by reflexivity. rewrite T in Ex2. change (pow10 (-1000997 - e)) with (10 ^ (-1000997 - e)) in Ex2.
      apply andb_false_iff in Ex2. rewrite Z.ltb_ge, Z.leb_gt in Ex2. exact Ex2.
    + intro Hl9. rewrite (residue_exact (surplus c e n) e n (proj1 Hn) (conj Ex1 (proj2 Hlt)) He Hl9) in Q. inv Q. split; [|reflexivity]. lia.
Qed.

(** What validation says. *)
Lemma says_bind {A B} (m : heard A) (f : A -> heard B) o : hbind m f = Says o -> m = Says o \/ exists a, m = Gives a /\ f a = Says o.
Proof. destruct m; cbn [hbind]; intro H; [right; eauto|left; congruence]. Qed.
Lemma hmap_says {A B} (f : A -> heard B) l o : hmap f l = Says o -> exists x, In x l /\ f x = Says o.
Proof.
  induction l as [|x l IH]; [discriminate|]. cbn [hmap]. intro H. apply says_bind in H. destruct H as [H|(a & _ & H)]; [exists x; split; [left; reflexivity|exact H]|].
  apply says_bind in H. destruct H as [H|(a' & _ & H)]; [|discriminate]. destruct (IH H) as (y & Hy & E). exists y. split; [right; exact Hy|exact E].
Qed.
Lemma object_says b cls v c o : object_if b cls v c = Says o -> b = true /\ o = Objects cls v c.
Proof. destruct b; cbn [object_if]; intro H; [split; congruence|discriminate]. Qed.
Lemma not_list p : is_list_like p = false -> ~ exists l, seq_like p l.
Proof. intros H [l [->|[->|(r & ->)]]]; discriminate. Qed.
Lemma not_bytes p : is_bytes p = false -> ~ exists b, bytes_like p b.
Proof. intros H [l [->| ->]]; discriminate. Qed.
Definition reports (pk : bool) (t : sty) : Prop := forall v o, fst (ve_heard (enc_of pk t)) v = Says o -> flaw pk t v o.
Lemma array_says pk cls n t t' v o : cls = class_name pk t' -> (forall p l x o, seq_like p l -> In x l -> flaw pk t x o -> flaw pk t' p o) ->
  (forall p, is_list_like p = false -> wrong t' p Unsuited) ->
  (forall n' p l, n = Some n' -> seq_like p l -> len l <> n' -> wrong t' p (Count (len l) n')) -> reports pk t ->
  array_heard cls n (fst (ve_heard (enc_of pk t))) v = Says o -> flaw pk t' v o.
Proof.
  intros -> Fi Fk Fc R H. unfold array_heard in H. apply says_bind in H. destruct H as [H|(u & G & H)].
  { apply object_says in H. destruct H as [H ->]. apply F_here, Fk. apply negb_true_iff, H. }
  assert (L : is_list_like v = true) by (destruct (is_list_like v); [reflexivity|discriminate G]). apply list_like_seq in L.
  apply says_bind in H. destruct H as [H|(us & _ & H)].
  - apply hmap_says in H. destruct H as (x & Hx & H). eapply Fi; [exact L|exact Hx|apply R, H].
  - destruct n as [n|]; [|discriminate]. apply object_says in H. destruct H as [H ->]. apply F_here. eapply Fc; [reflexivity|exact L|lia].
Qed.
Lemma tuple_items_says pk ts : Forall wf ts -> Forall (reports pk) ts -> forall l o, tuple_items_heard (map ve_heard (map (enc_of pk) ts)) l = Says o ->
  exists t x, In (t, x) (combine ts l) /\ flaw pk t x o.
Proof.
  intros W R. induction R as [|t ts Rt R IH]; intros l o H; [discriminate H|]; inversion W as [|? ? Wt Ws]; subst.
  cbn [map tuple_items_heard] in H. destruct (ve_heard (enc_of pk t)) as [hv he] eqn:E. destruct l as [|x l]; [discriminate H|]. destruct (hv x) as [u|o'] eqn:Hx.
  - destruct (IH Ws l o H) as (t' & x' & Hi & F). exists t', x'. split; [right; exact Hi|exact F].
  - assert (Q : fst (ve_heard (enc_of pk t)) x = Says o') by (rewrite E; exact Hx).
    assert (N : exc_of o' <> AttributeError).
    { intro X. apply (vclass_not_attr (validate_value (enc_of pk t) x)); [apply validate_class; exact Wt|]. unfold validate_value.
      rewrite <- (proj1 (heard_result (enc_of pk t)) x), Q. cbn [muted]. rewrite X. reflexivity. }
    exists t, x. split; [left; reflexivity|]. replace o with o'; [apply Rt, Q|]. destruct (exc_of o'); congruence.
Qed.
Lemma tuple_says pk ts v o : Forall wf ts -> Forall (reports pk) ts -> fst (ve_heard (enc_of pk (STuple ts))) v = Says o -> flaw pk (STuple ts) v o.
Proof.
  intros W R H. cbn [enc_of ve_heard fst] in H. unfold tuple_heard in H. apply says_bind in H. destruct H as [H|(u & G & H)].
  { apply object_says in H. destruct H as [H ->]. apply (F_here pk (STuple ts)), W_kind, not_list. apply negb_true_iff, H. }
  assert (L : is_list_like v = true) by (destruct (is_list_like v); [reflexivity|discriminate G]). apply list_like_seq in L.
  apply says_bind in H. destruct H as [H|(us & _ & H)].
  - apply object_says in H. rewrite !len_map in H. destruct H as [H ->]. apply (F_here pk (STuple ts)), W_tuple; [exact L|lia].
  - apply tuple_items_says in H; auto. destruct H as (t & x & Hi & F). eapply F_tuple; eassumption.
Qed.
Theorem validate_says pk t : wf t -> reports pk t.
Proof.
  induction t as [m|m| | |m n|m n|k| | |t IH|n t IH|ts IH] using sty_ind'; intros W v o H; inversion W; subst.
  - cbn [enc_of ve_heard leaf_heard fst] in H. unfold compute_unsigned_integer_bounds in H. destruct v; cbn [int_heard fst snd] in H;
      try (inv H; apply (F_here pk (SUInt m)), W_kind; intros [? ?]; discriminate).
    apply object_says in H. destruct H as [H ->]. apply (F_here pk (SUInt m)), W_uint. lia.
  - cbn [enc_of ve_heard leaf_heard fst] in H. unfold compute_signed_integer_bounds in H. destruct v; cbn [int_heard fst snd] in H;
      try (inv H; apply (F_here pk (SInt m)), W_kind; intros [? ?]; discriminate).
    apply object_says in H. destruct H as [H ->]. apply (F_here pk (SInt m)), W_int. lia.
  - cbn [enc_of ve_heard leaf_heard fst] in H. apply object_says in H. destruct H as [H ->]. apply (F_here pk SBool), W_kind. intros [b ->]. discriminate.
  - cbn [enc_of ve_heard leaf_heard fst] in H. apply object_says in H. destruct H as [H ->]. apply (F_here pk SAddr), W_kind. intros [a D].
    assert (V : validate_addr v = Ok tt).
    { destruct (denotes_encodes pk SAddr v a wf_addr D) as [V _]. exact V. }
    unfold validate_addr in V. destruct (is_address v); discriminate.
  - cbn [enc_of ve_heard leaf_heard fst] in H. take (int_size m) as Hm. take (frac_size n) as Hn. assert (Hm' := Hm). destruct Hm' as [Hm' _].
    assert (V := fun v => validate_ufixed_verdict m n v Hm Hn). unfold validate_ufixed in V. rewrite unsigned_bounds in H, V by assumption.
    eapply (fixed_says pk (SUFixed m n)); [exact W|constructor| | |exact V|exact H].
    + unfold ZERO. cbn [scaled scaled_cmp]. unfold scaled_cmp. destruct (Z.leb_spec 0 (0 + n)); reflexivity.
    + cbn [scaled]. pose proof (pow2_pos m ltac:(lia)). unfold scaled_cmp. rewrite Z2N.id by lia. replace (- n + n) with 0 by lia. cbn. rewrite Z.mul_1_r. apply Z.compare_refl.
  - cbn [enc_of ve_heard leaf_heard fst] in H. take (int_size m) as Hm. take (frac_size n) as Hn. assert (Hm' := Hm). destruct Hm' as [Hm' _].
    assert (V := fun v => validate_sfixed_verdict m n v Hm Hn). unfold validate_sfixed in V. rewrite signed_bounds in H, V by assumption.
    pose proof (pow2_pos (m - 1) ltac:(lia)).
    eapply (fixed_says pk (SFixed m n)); [exact W|constructor| | |exact V|exact H].
    + cbn [scaled]. unfold scaled_cmp. rewrite Z2N.id by lia. replace (- n + n) with 0 by lia. cbn. rewrite Z.mul_1_r. apply Z.compare_refl.
    + cbn [scaled]. unfold scaled_cmp. rewrite Z2N.id by lia. replace (- n + n) with 0 by lia. cbn. rewrite Z.mul_1_r. apply Z.compare_refl.
  - cbn [enc_of ve_heard leaf_heard fst] in H. unfold bytesM_heard in H. rewrite Z.div_mul in H by lia. apply says_bind in H. destruct H as [H|(u & G & H)].
    + apply object_says in H. destruct H as [H ->]. apply (F_here pk (SBytesM k)), W_kind, not_bytes. apply negb_true_iff, H.
    + apply object_says in H. destruct H as [H ->]. apply (F_here pk (SBytesM k)). apply W_long with (b := bytes_of v); [|lia].
      destruct v; try discriminate G; [left|right]; reflexivity.
  - cbn [enc_of ve_heard leaf_heard fst] in H. apply object_says in H. destruct H as [H ->]. apply (F_here pk SBytes), W_kind, not_bytes. apply negb_true_iff, H.
  - cbn [enc_of ve_heard leaf_heard fst] in H. apply object_says in H. destruct H as [H ->]. apply (F_here pk SString), W_kind. intros [s ->]. discriminate.
  - cbn [enc_of] in H. assert (Q : array_heard (class_name pk (SArr t)) None (fst (ve_heard (enc_of pk t))) v = Says o) by (destruct pk; exact H).
    eapply array_says; [reflexivity| | | |apply IH; assumption|exact Q]; [intros; eapply F_arr; eassumption|intros p Hp; apply W_kind, not_list, Hp|discriminate].
  - cbn [enc_of] in H. assert (Q : array_heard (class_name pk (SSized n t)) (Some n) (fst (ve_heard (enc_of pk t))) v = Says o) by (destruct pk; exact H).
    eapply array_says; [reflexivity| | | |apply IH; assumption|exact Q]; [intros; eapply F_sized; eassumption|intros p Hp; apply W_kind, not_list, Hp|].
    intros n' p l E Hl N. inv E. apply W_sized; assumption.
  - take (Forall wf ts) as Wt. apply tuple_says in H; auto. clear - IH Wt. induction IH as [|t ts Ht IH IHl]; constructor; inversion Wt; subst; auto.
Qed.

(** ** What is said is a reason to raise *)
Lemma validate_suits pk t p : wf t -> validate_value (enc_of pk t) p = Ok tt -> suits t p.
Proof.
  intros W V. destruct t; cbn [suits]; inversion W; subst.
  1, 2, 3, 7, 8, 9: unfold validate_value in V; cbn [enc_of ve fst] in V.
  - unfold validate_uint, compute_unsigned_integer_bounds, validate_int in V. destruct p; try discriminate V. eauto.
  - unfold validate_sint, compute_signed_integer_bounds, validate_int in V. destruct p; try discriminate V. eauto.
  - unfold validate_bool in V. destruct p; try discriminate V. eauto.
  - unfold validate_bytesM in V. exists (bytes_of p). destruct p; try discriminate V; [left|right]; reflexivity.
  - unfold validate_bytestring in V. exists (bytes_of p). destruct p; try discriminate V; [left|right]; reflexivity.
  - unfold validate_text in V. destruct p; try discriminate V. eauto.
  - unfold validate_value in V. cbn [enc_of ve fst] in V. destruct (validate_addr_denotes p V) as [b D]. eauto.
  - rewrite (fixed_validate pk _ _ _ _ p W (FR_unsigned m n)) in V. destruct p; try discriminate V; exact I.
  - rewrite (fixed_validate pk _ _ _ _ p W (FR_signed m n)) in V. destruct p; try discriminate V; exact I.
  - apply validate_arr_ok in V. exists (items p). apply V.
  - apply validate_sized_ok in V. exists (items p). apply V.
  - take (Forall wf ts) as Wt. apply (validate_tuple_ok pk ts p Wt) in V. exists (items p). apply V.
Qed.
Lemma seq_like_eq p l : seq_like p l -> items p = l.
Proof. intro H. apply (seq_like_items p l H). Qed.
Lemma too_far_verdict p n lo hi : fixed_verdict n lo hi p = Ok tt -> ~ too_far p n lo hi.
Proof.
  destruct p as [|b|i|f|cx|a d|[neg c e|b|]|b|b|s|l|l|sr l|o]; cbn [fixed_verdict]; try discriminate; intro H; cbn [too_far].
  1, 2, 4: intro B; apply (fun F => proj1 (proj1 (beyond_out_of_range _ n lo hi F))) in B; [rewrite B in H; discriminate|exact I].
  destruct (out_of_range _ n lo hi) as [[]|]; discriminate.
Qed.
Lemma wrong_rejected pk t p c : wf t -> wrong t p c -> validate_value (enc_of pk t) p <> Ok tt.
Proof.
  intros W H V. destruct H as [t p K|m z K|m z K|t n lo hi d R K|t n lo hi p dlo dhi R K _ _|t n lo hi c e q e' R K S T _ _|k p b B K|n t p l L K|ts p l L K].
  - apply K. eapply validate_suits; eassumption.
  - unfold validate_value in V. cbn [enc_of ve fst] in V. unfold validate_uint, compute_unsigned_integer_bounds, validate_int in V. apply raise_if_Ok in V. lia.
  - unfold validate_value in V. cbn [enc_of ve fst] in V. unfold validate_sint, compute_signed_integer_bounds, validate_int in V. apply raise_if_Ok in V. lia.
  - rewrite (fixed_validate pk t n lo hi _ W R) in V. destruct d; [eapply K; reflexivity|discriminate|discriminate].
  - rewrite (fixed_validate pk t n lo hi _ W R) in V. apply too_far_verdict in V. auto.
  - rewrite (fixed_validate pk t n lo hi _ W R) in V. cbn [fixed_verdict] in V. destruct (out_of_range _ n lo hi) as [[]|]; try discriminate V.
    destruct (excess_rejected _ _) eqn:X; [discriminate V|]. cbn [excess_rejected negb andb] in X. rewrite (surplus_excess c e n K) in X.
    unfold underflowsb in X. assert (Ty : Etiny = -1000997) by reflexivity. rewrite Ty in X. change (pow10 (-1000997 - e)) with (10 ^ (-1000997 - e)) in X.
    apply andb_false_iff in X. destruct X as [X|X]; [apply Z.ltb_ge in X; lia|]. apply negb_false_iff, andb_true_iff in X. destruct X as [X1 X2].
    apply Z.ltb_lt in X1. apply Z.leb_le in X2. destruct T as [T|T]; [lia|]. revert X2 T. generalize (10 ^ (-1000997 - e)). intros; lia.
  - unfold validate_value in V. cbn [enc_of ve fst] in V. unfold validate_bytesM in V. destruct (bytes_like_of p b B) as [E E2]. rewrite E2, E, Z.div_mul in V by lia.
    apply raise_if_Ok in V. lia.
  - apply validate_sized_ok in V. rewrite (seq_like_eq p l L) in V. lia.
  - inversion W; subst. take (Forall wf ts) as Wt. apply (validate_tuple_ok pk ts p Wt) in V. rewrite (seq_like_eq p l L) in V. destruct V as [_ F].
    apply Forall2_len in F. lia.
Qed.
Lemma In_combine_Forall2 {A B} (R : A -> B -> Prop) l l' x y : Forall2 R l l' -> In (x, y) (combine l l') -> R x y.
Proof. induction 1; cbn [combine]; intros Hi; [destruct Hi|]. destruct Hi as [E|Hi]; [congruence|auto]. Qed.
Lemma In_combine_all2 R ts l t x : In (t, x) (combine ts l) -> all2 R ts l -> R t x.
Proof. revert l. induction ts as [|t' ts IH]; intros [|y l] Hi; try contradiction Hi. cbn [combine all2] in *. destruct Hi as [E|Hi]; [intros [H _]; congruence|intros [_ H']; eauto]. Qed.
Definition surrogates (t : sty) (p : pyval) (o : objection) : Prop := o = Escapes UnicodeEncodeError /\ ~ leaves scalar_leaf t p.
Theorem flaw_rejected pk t p o : flaw pk t p o -> wf t -> validate_value (enc_of pk t) p = Ok tt -> surrogates t p o.
Proof.
  induction 1 as [t p c K|t p l x o L Hx F IH|n t p l x o L Hx F IH|ts p l t x o L Hx F IH|s K|t n lo hi z R|t n lo hi a d R K]; intros W V.
  - exfalso. eapply wrong_rejected; eassumption.
  - inversion W; subst. apply validate_arr_ok in V. destruct V as [_ V]. rewrite (seq_like_eq p l L) in V. rewrite Forall_forall in V. destruct IH as [-> N]; auto.
    split; [reflexivity|]. cbn [leaves]. rewrite (seq_like_eq p l L), Forall_forall. auto.
  - inversion W; subst. apply validate_sized_ok in V. destruct V as (_ & _ & V). rewrite (seq_like_eq p l L) in V. rewrite Forall_forall in V. destruct IH as [-> N]; auto.
    split; [reflexivity|]. cbn [leaves]. rewrite (seq_like_eq p l L), Forall_forall. auto.
  - inversion W; subst. take (Forall wf ts) as Wt. apply (validate_tuple_ok pk ts p Wt) in V. rewrite (seq_like_eq p l L) in V. destruct V as [_ V].
    assert (Ht := in_combine_l _ _ _ _ Hx). rewrite Forall_forall in Wt.
    destruct IH as [-> N]; [auto|exact (In_combine_Forall2 _ _ _ _ _ V Hx)|]. split; [reflexivity|]. rewrite leaves_tuple, (seq_like_eq p l L). intro S.
    apply N. exact (In_combine_all2 _ _ _ _ _ Hx S).
  - split; [reflexivity|exact K].
  - rewrite (fixed_validate pk t n lo hi _ W R) in V. discriminate.
  - rewrite (fixed_validate pk t n lo hi _ W R) in V. cbn [fixed_verdict] in V. destruct (out_of_range _ n lo hi) as [[]|]; discriminate.
Qed.
(** A surrogate in an accepted argument is found. *)
Lemma scalar_or s : Forall scalar s \/ ~ Forall scalar s.
Proof.
  induction s as [|c s IH]; [left; constructor|]. destruct (Utf8Proofs.scalar_dec c) as [H|H]; [|right; intro F; inversion F; auto].
  destruct IH as [IH|IH]; [left; constructor; assumption|right; intro F; inversion F; auto].
Qed.
Lemma Forall_or {A} (P : A -> Prop) l (R : A -> Prop) : (forall x, In x l -> P x \/ R x) -> Forall P l \/ exists x, In x l /\ R x.
Proof.
  induction l as [|x l IH]; intro H; [left; constructor|]. destruct (H x (or_introl eq_refl)) as [Hx|Hx]; [|right; exists x; split; [left; reflexivity|exact Hx]].
  destruct IH as [IH|(y & Hy & IH)]; [intros y Hy; apply H; right; exact Hy|left; constructor; assumption|right; exists y; split; [right; exact Hy|exact IH]].
Qed.
Lemma all2_or P R ts : forall l, (forall t x, In (t, x) (combine ts l) -> P t x \/ R t x) -> all2 P ts l \/ exists t x, In (t, x) (combine ts l) /\ R t x.
Proof.
  induction ts as [|t ts IH]; intros [|x l] H; try (left; exact I). cbn [combine all2] in *.
  destruct (H t x (or_introl eq_refl)) as [Hx|Hx]; [|right; exists t, x; split; [left; reflexivity|exact Hx]].
  destruct (IH l) as [G|(t' & y & Hy & G)]; [intros t' y Hy; apply H; right; exact Hy|left; split; assumption|right; exists t', y; split; [right; exact Hy|exact G]].
Qed.
Lemma surrogate_flaw pk t : wf t -> forall p, validate_value (enc_of pk t) p = Ok tt -> leaves scalar_leaf t p \/ flaw pk t p (Escapes UnicodeEncodeError).
Proof.
  induction t as [m|m| | |m n|m n|k| | |t IH|n t IH|ts IH] using sty_ind'; intros W p V; try (left; exact I); inversion W; subst.
  - destruct p; try (left; exact I). cbn [leaves scalar_leaf]. destruct (scalar_or s); [left; assumption|right; constructor; assumption].
  - apply validate_arr_ok in V. destruct V as [L V]. cbn [leaves]. rewrite Forall_forall in V.
    destruct (Forall_or (leaves scalar_leaf t) (items p) (fun x => flaw pk t x (Escapes UnicodeEncodeError))) as [G|(x & Hx & G)]; [auto|left; exact G|].
    right. eapply F_arr; eassumption.
  - apply validate_sized_ok in V. destruct V as (L & _ & V). cbn [leaves]. rewrite Forall_forall in V.
    destruct (Forall_or (leaves scalar_leaf t) (items p) (fun x => flaw pk t x (Escapes UnicodeEncodeError))) as [G|(x & Hx & G)]; [auto|left; exact G|].
    right. eapply F_sized; eassumption.
  - take (Forall wf ts) as Wt. apply (validate_tuple_ok pk ts p Wt) in V. destruct V as [L V]. rewrite leaves_tuple.
    destruct (all2_or (leaves scalar_leaf) (fun t x => flaw pk t x (Escapes UnicodeEncodeError)) ts (items p)) as [G|(t & x & Hx & G)]; [|left; exact G|].
    + intros t x Hx. assert (Ht := in_combine_l _ _ _ _ Hx). rewrite Forall_forall in IH, Wt. apply IH; auto. exact (In_combine_Forall2 _ _ _ _ _ V Hx).
    + right. eapply F_tuple; eassumption.
Qed.

(** ** Calls *)
Lemma heard_same w types args : muted (heard_in w types args) = encode_in w types args.
Proof. apply api_heard_result. Qed.
Lemma heard_args pk w types ts args l : used pk w -> type_args types ts -> seq_like args l ->
  heard_in w types args = snd (ve_heard (enc_of pk (STuple ts))) args.
Proof.
  intros U T L. apply used_spec in U. destruct U as (E & _ & [C _]). unfold heard_in, api_encode_heard.
  destruct T as (ss & S & F). apply list_like in S, L. rewrite S, L.
  destruct (seq_encoders (map PStr ss) (fst w) C) as (r' & -> & _). rewrite E.
  rewrite (mapM_supported _ (find_encoder (encs pk)) (enc_of pk) ss ts (find_enc_supported pk) F). reflexivity.
Qed.
(** Types and arguments of a call make a tuple, maybe an empty one. *)
Lemma args_flaw_rejected pk ts p o : Forall wf ts -> flaw pk (STuple ts) p o -> validate_value (enc_of pk (STuple ts)) p = Ok tt -> surrogates (STuple ts) p o.
Proof.
  intros W H V. destruct (wf_args ts W) as [->|W']; [|eapply flaw_rejected; eassumption]. apply (validate_tuple_ok pk [] p (Forall_nil _)) in V. destruct V as [L V].
  assert (E : items p = []) by (inversion V; reflexivity). exfalso. inversion H as [t p' c K| | |ts p' l t x o' L' Hx| | |]; subst.
  - inversion K as [t p' K'| | | | | | | |ts p' l L' K']; subst; try (match goal with R : fixed_range _ _ _ _ |- _ => inversion R end).
    + apply K'. exists (items p). exact L.
    + rewrite <- (seq_like_eq p l L'), E in K'. apply K'. reflexivity.
  - destruct Hx.
  - match goal with R : fixed_range _ _ _ _ |- _ => inversion R end.
  - match goal with R : fixed_range _ _ _ _ |- _ => inversion R end.
Qed.
Lemma args_surrogate_flaw pk ts p : Forall wf ts -> validate_value (enc_of pk (STuple ts)) p = Ok tt ->
  leaves scalar_leaf (STuple ts) p \/ flaw pk (STuple ts) p (Escapes UnicodeEncodeError).
Proof. intros W V. destruct (wf_args ts W) as [->|W']; [|apply surrogate_flaw; assumption]. left. rewrite leaves_tuple. exact I. Qed.
Lemma args_reports pk ts : Forall wf ts -> Forall (reports pk) ts.
Proof. induction 1; constructor; [apply validate_says|]; assumption. Qed.
Lemma args_validated pk ts args : fst (ve_heard (enc_of pk (STuple ts))) args = Gives tt <-> validate_value (enc_of pk (STuple ts)) args = Ok tt.
Proof.
  unfold validate_value. rewrite <- (proj1 (heard_result (enc_of pk (STuple ts))) args). destruct (fst _ args) as [[]|]; split; intro; try reflexivity; discriminate.
Qed.
(** Either validation says it, or it is a surrogate. *)
Lemma args_says pk ts args o : Forall wf ts -> fits args -> snd (ve_heard (enc_of pk (STuple ts))) args = Says o ->
  fst (ve_heard (enc_of pk (STuple ts))) args = Says o
  \/ validate_value (enc_of pk (STuple ts)) args = Ok tt /\ surrogates (STuple ts) args o.
Proof.
  intros W F H. destruct (fst (ve_heard (enc_of pk (STuple ts))) args) as [[]|o'] eqn:V.
  - right. apply args_validated in V. split; [exact V|]. assert (E := proj2 (heard_result (enc_of pk (STuple ts))) args). rewrite H in E. cbn [muted] in E.
    destruct (args_outcome pk ts args W V F) as [(b & X & _)|(X & N)]; unfold encode_with in X; rewrite X in E; [discriminate|]. split; [|exact N].
    destruct o as [cls v c|e]; cbn [exc_of] in E; [destruct c; discriminate|congruence].
  - left. cbn [enc_of ve_heard fst] in V. cbn [enc_of ve_heard snd] in H. rewrite V in H. cbn [hbind] in H. inv H. reflexivity.
Qed.
Theorem heard_flaw pk w types ts args l o : used pk w -> type_args types ts -> seq_like args l -> fits args ->
  heard_in w types args = Says o -> flaw pk (STuple ts) args o.
Proof.
  intros U T L F H. rewrite (heard_args pk w types ts args l U T L) in H. assert (W := type_args_wf _ _ T).
  destruct (args_says pk ts args o W F H) as [V|(V & -> & N)]; [apply tuple_says; auto using args_reports|].
  destruct (args_surrogate_flaw pk ts args W V); [contradiction|assumption].
Qed.
Theorem flaw_none pk w types ts args l o : used pk w -> type_args types ts -> seq_like args l -> fits args ->
  flaw pk (STuple ts) args o -> (forall a, ~ denotes (STuple ts) args a) /\ exists e, encode_in w types args = Err e.
Proof.
  intros U T L F H. assert (W := type_args_wf _ _ T). split.
  - intros a D. assert (V : validate_value (enc_of pk (STuple ts)) args = Ok tt) by (apply (args_encodes pk ts args a W D)).
    destruct (args_flaw_rejected pk ts args o W H V) as [_ N]. apply N. eapply denotes_leaves, D.
  - rewrite (encode_args pk w types ts args l U T L). destruct (args_validate_class pk ts args W) as [V|(e & V & _)].
    + destruct (args_flaw_rejected pk ts args o W H V) as [_ N]. destruct (args_outcome pk ts args W V F) as [(b & _ & _ & X)|(X & _)]; [contradiction|eauto].
    + exists e. apply encode_validate_err, V.
Qed.
Theorem raises_flaw pk w types ts args l : used pk w -> type_args types ts -> seq_like args l -> fits args ->
  (exists e, encode_in w types args = Err e) <-> exists o, flaw pk (STuple ts) args o.
Proof.
  intros U T L F. split.
  - intros [e E]. rewrite <- heard_same in E. destruct (heard_in w types args) as [b|o] eqn:Q; [discriminate|]. exists o. eapply heard_flaw; eassumption.
  - intros [o H]. eapply flaw_none; eassumption.
Qed.
(** Surrogates are found last. *)
Theorem surrogates_last pk w types ts args l o : used pk w -> type_args types ts -> seq_like args l -> fits args ->
  heard_in w types args = Says (Escapes UnicodeEncodeError) -> flaw pk (STuple ts) args o -> o = Escapes UnicodeEncodeError.
Proof.
  intros U T L F H X. rewrite (heard_args pk w types ts args l U T L) in H. assert (W := type_args_wf _ _ T).
  destruct (args_says pk ts args _ W F H) as [V|(V & _)].
  - exfalso. destruct (args_validate_class pk ts args W) as [E|(e & E & K)]; [apply args_validated in E; congruence|].
    unfold validate_value in E. rewrite <- (proj1 (heard_result (enc_of pk (STuple ts))) args), V in E. cbn [muted exc_of] in E. inv E. 
    destruct K as [K|[K|[K|K]]]; discriminate.
  - apply (args_flaw_rejected pk ts args o W X V).
Qed.
(** The value shown is a part of the arguments. *)
Theorem flaw_within pk t p o : flaw pk t p o -> match o with Objects _ v _ => within p v | Escapes _ => True end.
Proof.
  induction 1 as [t p c K|t p l x o L Hx F IH|n t p l x o L Hx F IH|ts p l t x o L Hx F IH|s K|t n lo hi z R|t n lo hi a d R K]; auto.
  - constructor.
  - destruct o; [|exact I]. econstructor; eassumption.
  - destruct o; [|exact I]. econstructor; eassumption.
  - destruct o; [|exact I]. econstructor; [exact L|eapply in_combine_r; exact Hx|exact IH].
Qed.

(** ** Which flaw is named *)
Definition speaks (pk : bool) (t : sty) (x : pyval) : heard unit := fst (ve_heard (enc_of pk t)) x.
Lemma speaks_muted pk t x : muted (speaks pk t x) = validate_value (enc_of pk t) x.
Proof. apply heard_result. Qed.
Lemma speaks_valid pk t x : validate_value (enc_of pk t) x = Ok tt -> speaks pk t x = Gives tt.
Proof. rewrite <- speaks_muted. destruct (speaks pk t x) as [[]|]; [reflexivity|discriminate]. Qed.
Lemma encodable_speaks pk w s t x : used pk w -> supported s t -> is_encodable_in w (PStr s) x = Ok true -> speaks pk t x = Gives tt.
Proof.
  intros U S H. apply speaks_valid. rewrite (is_encodable_used pk w _ x U) in H. destruct (pure_is_encodable_std pk (PStr s) x) as [(s' & t' & E & S' & Q)|(N & _)].
  - inv E. rewrite Q in H. assert (t' = t).
    { eapply supported_fun; eassumption. }
    subst t'. rewrite (check_encodable_of pk t x (supported_wf s' t S)) in H. destruct (validate_class pk t x (supported_wf s' t S)) as [V|(e & V & _)]; [exact V|].
    rewrite V in H. destruct (is_encoding_error e); discriminate.
  - destruct N. eauto.
Qed.
Lemma tuple_items_first pk ts1 t ts2 l1 x l2 cls v c : Forall2 (fun t y => speaks pk t y = Gives tt) ts1 l1 -> speaks pk t x = Says (Objects cls v c) ->
  tuple_items_heard (map ve_heard (map (enc_of pk) (ts1 ++ t :: ts2))) (l1 ++ x :: l2) = Says (Objects cls v c).
Proof.
  intros F H. unfold speaks in *. induction F as [|t' y ts1 l1 Hy F IH]; cbn [app map tuple_items_heard].
  - destruct (ve_heard (enc_of pk t)) as [hv he]. cbn [fst] in H. rewrite H. destruct c; reflexivity.
  - destruct (ve_heard (enc_of pk t')) as [hv he]. cbn [fst] in Hy. rewrite Hy. exact IH.
Qed.
Lemma hmap_first pk t l1 x l2 o : Forall (fun y => speaks pk t y = Gives tt) l1 -> speaks pk t x = Says o -> hmap (speaks pk t) (l1 ++ x :: l2) = Says o.
Proof.
  intros F H. induction F as [|y l1 Hy F IH]; cbn [app hmap]; [rewrite H; reflexivity|]. rewrite Hy. cbn [hbind]. rewrite IH. reflexivity.
Qed.
(** The first of several arguments at which validation fails *)
Lemma args_first pk w types args ts1 t ts2 l1 x l2 cls v c : used pk w -> type_args types (ts1 ++ t :: ts2) -> seq_like args (l1 ++ x :: l2) ->
  Forall2 (fun t y => speaks pk t y = Gives tt) ts1 l1 -> len l2 = len ts2 -> speaks pk t x = Says (Objects cls v c) ->
  heard_in w types args = Says (Objects cls v c).
Proof.
  intros U T L F E H. rewrite (heard_args pk w _ _ _ _ U T L). cbn [enc_of ve_heard snd]. unfold tuple_heard.
  destruct (seq_like_items _ _ L) as (-> & -> & _). rewrite !len_map, !len_app. lens. assert (E1 := Forall2_len _ _ _ F).
  cbn [negb object_if hbind]. replace (len l1 + (1 + len l2) =? len ts1 + (1 + len ts2)) with true by lia. cbn [negb object_if hbind].
  rewrite (tuple_items_first pk ts1 t ts2 l1 x l2 cls v c F H). reflexivity.
Qed.
Lemma one_speaks pk w s t x cls v c : used pk w -> supported s t -> fits (PList [x]) ->
  heard_in w (PList [PStr s]) (PList [x]) = Says (Objects cls v c) -> speaks pk t x = Says (Objects cls v c).
Proof.
  intros U S F H. assert (T := one_args s t S).
  assert (W := type_args_wf _ _ T).
  rewrite (heard_args pk w _ _ (PList [x]) [x] U T (or_introl eq_refl)) in H. destruct (args_says pk [t] _ _ W F H) as [V|(_ & N & _)]; [|discriminate].
  cbn [enc_of map ve_heard fst] in V. unfold tuple_heard in V. cbn [is_list_like negb object_if hbind items] in V. change (len [x] =? len [ve_heard (enc_of pk t)]) with true in V.
  cbn [negb object_if hbind tuple_items_heard] in V. unfold speaks. destruct (ve_heard (enc_of pk t)) as [hv he] eqn:E. cbn [fst].
  destruct (hv x) as [u|o] eqn:Q; [discriminate V|]. assert (N : exc_of o <> AttributeError).
  { intro X. apply (vclass_not_attr (validate_value (enc_of pk t) x)); [apply validate_class; inversion W; assumption|]. rewrite <- speaks_muted. unfold speaks. rewrite E. cbn [fst]. rewrite Q. cbn [muted]. rewrite X. reflexivity. }
  destruct (exc_of o); congruence.
Qed.
Theorem first_argument pk w types args ss1 s ss2 ts1 t ts2 l1 x l2 cls v c : used pk w ->
  seq_like types (map PStr (ss1 ++ s :: ss2)) -> Forall2 supported ss1 ts1 -> supported s t -> Forall2 supported ss2 ts2 ->
  seq_like args (l1 ++ x :: l2) -> Forall2 (fun s y => is_encodable_in w (PStr s) y = Ok true) ss1 l1 -> len l2 = len ss2 -> fits (PList [x]) ->
  heard_in w (PList [PStr s]) (PList [x]) = Says (Objects cls v c) -> heard_in w types args = Says (Objects cls v c).
Proof.
  intros U T S1 S S2 L E Ln F H. assert (Q : Forall2 supported (ss1 ++ s :: ss2) (ts1 ++ t :: ts2)) by (apply Forall2_app; [exact S1|constructor; assumption]).
  apply (args_first pk w types args ts1 t ts2 l1 x l2); auto.
  - exists (ss1 ++ s :: ss2). auto.
  - clear - U S1 E. revert l1 E. induction S1 as [|s' t' ss1 ts1 S' S1 IH]; intros l1 E; inversion E; subst; constructor; [eapply encodable_speaks; eassumption|auto].
  - rewrite Ln. apply Forall2_len in S2. exact S2.
  - eapply one_speaks; eassumption.
Qed.
Theorem first_item pk w s t s' t' args l1 x l2 cls v c : used pk w -> supported s t -> supported s' t' -> t' = SArr t \/ (exists n, t' = SSized n t) ->
  seq_like args (l1 ++ x :: l2) -> Forall (fun y => is_encodable_in w (PStr s) y = Ok true) l1 -> fits (PList [x]) ->
  heard_in w (PList [PStr s]) (PList [x]) = Says (Objects cls v c) -> heard_in w (PList [PStr s']) (PList [args]) = Says (Objects cls v c).
Proof.
  intros U S S' K L E F H. apply (args_first pk w (PList [PStr s']) (PList [args]) [] t' [] [] args [] cls v c); auto.
  - exact (one_args s' t' S').
  - left. reflexivity.
  - assert (M : hmap (speaks pk t) (l1 ++ x :: l2) = Says (Objects cls v c)).
    { apply hmap_first; [|eapply one_speaks; eassumption]. eapply Forall_impl; [|exact E]. intros y Hy. eapply encodable_speaks; eassumption. }
    assert (A : forall cls' n, array_heard cls' n (fst (ve_heard (enc_of pk t))) args = Says (Objects cls v c)).
    { intros cls' n. unfold array_heard. destruct (seq_like_items _ _ L) as (-> & -> & _). cbn [negb object_if hbind]. change (fst (ve_heard (enc_of pk t))) with (speaks pk t). rewrite M. reflexivity. }
    destruct K as [->|[n ->]]; unfold speaks; cbn [enc_of]; destruct pk; apply A.
Qed.
