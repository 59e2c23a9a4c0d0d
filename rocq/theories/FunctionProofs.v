(** Lemmas for the functions of the package and the classes behind types. *)
From Coq Require Import Lia.
From Verif Require Import Tac Py Bytes Decimals Encoding Decoding Registry Codec Histories Spec TypeSpec EncodeProofs DecodeProofs ApiProofs HistoryProofs HeapProofs
  Construct ConstructSpec ConstructProofs FunctionSpec.
Open Scope Z_scope.

(** ** The functions of the package *)
Lemma encode_fn w types args : used false w -> encode_in w types args = encode types args.
Proof. intro U. rewrite (encode_used false w types args U), encode_module, (encode_used false _ types args (used_fresh false)). reflexivity. Qed.
Lemma encode_packed_fn w types args : used true w -> encode_in w types args = encode_packed types args.
Proof. intro U. rewrite (encode_used true w types args U), encode_packed_module, (encode_used true _ types args (used_fresh true)). reflexivity. Qed.
Lemma is_encodable_fn w typ arg : used false w -> is_encodable_in w typ arg = is_encodable typ arg.
Proof. intro U. rewrite (is_encodable_used false w typ arg U), is_encodable_module, (is_encodable_used false _ typ arg (used_fresh false)). reflexivity. Qed.
Lemma is_encodable_packed_fn w typ arg : used true w -> is_encodable_in w typ arg = is_encodable_packed typ arg.
Proof.
  intro U. rewrite (is_encodable_used true w typ arg U).
  assert (E : is_encodable_packed typ arg = is_encodable_in (standard_registry true, []) typ arg) by (unfold is_encodable_packed, is_encodable_in; cbn [fst standard_registry]; reflexivity).
  rewrite E. clear E.
  rewrite (is_encodable_used true _ typ arg (used_fresh true)). reflexivity.
Qed.
Lemma is_encodable_type_fn w typ : used false w -> is_encodable_type_in w typ = is_encodable_type typ.
Proof.
  intro U. rewrite (is_encodable_type_used false w typ U).
  assert (E : is_encodable_type typ = is_encodable_type_in (standard_registry false, []) typ) by (unfold is_encodable_type, is_encodable_type_in; cbn [fst standard_registry]; reflexivity).
  rewrite E. clear E.
  rewrite (is_encodable_type_used false _ typ (used_fresh false)). reflexivity.
Qed.
Lemma decode_fn w types data strict : used false w -> decode_in w types data strict = decode types data strict.
Proof. intro U. rewrite (decode_used w types data strict U), decode_module, (decode_used _ types data strict (used_fresh false)). reflexivity. Qed.

(** ** The class behind a basic type *)
Lemma one_leaf pk t v : enc_class pk t <> None ->
  encode_with (enc_of pk (STuple [t])) (PList [v]) = encode_with (enc_of pk t) v.
Proof.
  intro L. unfold encode_with. cbn [enc_of map ve snd combine]. unfold tuple_validate. cbn [is_list_like negb items].
  assert (N : len [v] = len [ve (enc_of pk t)]) by (lens; reflexivity). rewrite N, Z.eqb_refl. clear N. cbn [negb].
  assert (D : enc_is_dyn (enc_of pk t) = false).
  { rewrite enc_is_dyn_of. destruct t; cbn in *; try (rewrite Bool.andb_false_r; reflexivity); contradiction. }
  rewrite D. cbn [tuple_validate_items tuple_chunks].
  assert (E : forall e, fst (ve (enc_of pk t)) v = Err e -> snd (ve (enc_of pk t)) v = Err e).
  { intros e F. destruct t; try (cbn in L; contradiction); cbn [enc_of ve fst snd] in *;
      unfold encode_uint, encode_sint, encode_bool, encode_addr, encode_ufixed, encode_sfixed, encode_bytesM; rewrite F; reflexivity. }
  destruct (ve (enc_of pk t)) as [val enc]. cbn [fst snd] in *. clear D. destruct (val v) as [[]|e].
  - cbn [bind]. destruct (enc v) as [b|e]; [|reflexivity]. cbn [bind].
    unfold join_chunks. cbn. rewrite !app_nil_r. reflexivity.
  - rewrite (E e eq_refl). destruct e; reflexivity.
Qed.
Lemma int_size_ok m d : int_size m -> d = 32 \/ d = m / 8 -> (m mod 8 =? 0) && negb (d * 8 <? m) = true.
Proof.
  intros [A B] D. rewrite B. cbn [andb Z.eqb]. apply Bool.negb_true_iff, Z.ltb_ge. destruct D as [-> | ->]; [lia|].
  pose proof (Z.div_mod m 8). lia.
Qed.
Lemma bytes_size k : 1 <= k <= 32 -> int_size (k * 8).
Proof. intro H. split; [lia|]. apply Z.mod_mul. lia. Qed.
Lemma bytes_data k : k = 32 \/ k = k * 8 / 8.
Proof. right. symmetry. apply Z.div_mul. lia. Qed.
Lemma enc_class_obj pk t c kw : wf t -> enc_class pk t = Some (c, kw) ->
  exists o, construct c kw = Ok o /\ forall v, encode_obj c o v = encode_with (enc_of pk t) v.
Proof.
  intros W E. destruct t; try discriminate E; inversion W; subst; cbn [enc_class enc_of] in *; destruct pk; inv E; cbn [dsz].
  all: try (apply default_enc_construct; cbn; tauto).
  all: try (rewrite sized_construct_eq by (cbn; tauto); cbn [value_or default_size default_bits]; unfold ok_sizes; cbn [address_enc negb orb]).
  all: try (rewrite fixed_construct_eq by (cbn; tauto); cbn [value_or]; unfold ok_sizes; cbn [address_enc negb orb]).
  all: try (rewrite int_size_ok by (auto using bytes_size, bytes_data)).
  all: try match goal with H : frac_size ?n |- _ =>
    replace ((1 <=? n) && (n <=? 80)) with true by (destruct H; destruct (Z.leb_spec 1 n), (Z.leb_spec n 80); reflexivity || lia) end.
  all: cbn [andb].
  all: eexists; (split; [reflexivity|]); intro v; try reflexivity.
  all: cbn -[validate_sint validate_sfixed scaled_int int_to_big_endian num_cmp fpad zpad Z.ltb Z.leb Z.div].
  all: unfold encode_sint, encode_sfixed, pad_signed.
  1-2: destruct (validate_sint m v); [|reflexivity]; cbn [bind]; destruct (int_to_big_endian _); [|reflexivity]; cbn [bind];
    cbn -[fpad zpad Z.ltb Z.leb Z.div]; destruct (Z.ltb_spec (int_of v) 0), (Z.leb_spec 0 (int_of v)); reflexivity || lia.
  all: destruct (validate_sfixed m n v); [|reflexivity]; cbn [bind]; destruct (scaled_int n v); [|reflexivity]; cbn [bind];
    destruct (int_to_big_endian _); [|reflexivity]; cbn [bind]; destruct (num_cmp v ZERO) as [[]|]; reflexivity.
Qed.
Theorem encode_class pk w s t c kw : used pk w -> supported s t -> enc_class pk t = Some (c, kw) ->
  exists o, construct c kw = Ok o /\ forall v, encode_in w (PList [PStr s]) (PList [v]) = encode_obj c o v.
Proof.
  intros U S E. assert (T : type_args (PList [PStr s]) [t]) by (exists [s]; split; [left; reflexivity|constructor; [exact S|constructor]]).
  destruct (enc_class_obj pk t c kw) as (o & C & V); [|exact E|].
  - pose proof (type_args_wf _ _ T) as W. inversion W; assumption.
  - exists o. split; [exact C|]. intro v. rewrite V, (encode_args pk w _ [t] (PList [v]) [v] U T) by (left; reflexivity).
    apply one_leaf. rewrite E. discriminate.
Qed.

(** ** Decoding *)
Lemma dec_class_obj h s t c kw : wf t -> dec_class t = Some (c, kw) ->
  exists o, construct c kw = Ok o /\ forall buf st, decode_obj c o buf st = decode_with h (dec_of s t) buf st.
Proof.
  intros W E. destruct t; try discriminate E; inversion W; subst; cbn [dec_class dec_of] in *; inv E.
  all: try (apply default_dec_construct; cbn; tauto).
  all: try (rewrite sized_construct_eq by (cbn; tauto); cbn [value_or default_size default_bits]; unfold ok_sizes; cbn [address_enc negb orb]).
  all: try (rewrite fixed_construct_eq by (cbn; tauto); cbn [value_or]; unfold ok_sizes; cbn [address_enc negb orb]).
  all: try (rewrite int_size_ok by (auto using bytes_size)).
  all: try match goal with H : frac_size ?n |- _ =>
    replace ((1 <=? n) && (n <=? 80)) with true by (destruct H; destruct (Z.leb_spec 1 n), (Z.leb_spec n 80); reflexivity || lia) end.
  all: cbn [andb].
  all: eexists; (split; [reflexivity|]); intros buf st; reflexivity.
Qed.
Lemma word_keeps be bits fn check buf st v st' : decode_word be bits fn check buf st = Ok (v, st') ->
  frames st' = frames st /\ total st' = total st.
Proof.
  unfold decode_word, read_fixed, read. destruct (maxsize <? 32); [discriminate|]. cbn [bind]. destruct (_ =? 32); [|discriminate]. cbn [bind].
  destruct (if be then _ else _) as [d p]. destruct (fn d); [|discriminate]. cbn [bind]. destruct (check _ _ _); [|discriminate]. cbn [bind].
  intro E. inv E. split; reflexivity.
Qed.
Lemma one_word h s t buf : dec_class t <> None ->
  (' (v, _) <- decode_with h (mk_dtuple [dec_of s t]) buf new_stream ;; Ok v)
  = (' (v, _) <- decode_with h (dec_of s t) buf new_stream ;; Ok (PTuple [v])).
Proof.
  intro L. unfold mk_dtuple. cbn [map]. rewrite wrap_of.
  assert (D : sdyn t = false) by (destruct t; cbn in *; reflexivity || contradiction). rewrite D.
  assert (H : is_headtail (dec_of s t) = false) by (destruct t; cbn in *; reflexivity || contradiction).
  assert (K : forall v st, decode_with h (dec_of s t) buf new_stream = Ok (v, st) -> frames st = [] /\ total st = 0).
  { intros v st E. destruct t; try (cbn in L; contradiction); cbn [dec_of decode_with] in E; apply word_keeps in E; exact E. }
  cbn [decode_with]. rewrite H. destruct (decode_with h (dec_of s t) buf new_stream) as [[v st]|e] eqn:E; [|reflexivity].
  cbn [bind]. destruct (K v st eq_refl) as [F T].
  assert (S : seek (pos new_stream) st = Ok new_stream) by (unfold seek; rewrite F, T; reflexivity). rewrite S. cbn [bind]. rewrite E. reflexivity.
Qed.
Theorem decode_class w s t c kw : used false w -> supported s t -> dec_class t = Some (c, kw) ->
  exists o, construct c kw = Ok o /\ forall data b strict, bytes_like data b ->
    decode_in w (PList [PStr s]) data strict = (' (v, _) <- decode_obj c o b new_stream ;; Ok (PTuple [v])).
Proof.
  intros U S E. assert (T : type_args (PList [PStr s]) [t]) by (exists [s]; split; [left; reflexivity|constructor; [exact S|constructor]]).
  destruct (dec_class_obj [] true t c kw) as (o & C & V); [|exact E|].
  - pose proof (type_args_wf _ _ T) as W. inversion W; assumption.
  - exists o. split; [exact C|]. intros data b strict B. rewrite V, (decode_used w _ _ _ U). unfold pure_decode.
    rewrite (pure_decoders_args _ [t] data b strict T B). cbn [bind map].
    replace (dec_of true t) with (dec_of strict t) by (destruct t; try discriminate E; reflexivity).
    apply one_word. rewrite E. discriminate.
Qed.
