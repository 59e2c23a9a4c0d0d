(** Lemmas for coders supplied by the caller. *)
From Coq Require Import Lia.
From Verif Require Import Samples Tac Py Bytes BytesProofs Encoding Decoding Registry Codec Histories RegistrySpec RegistryProofs RegistryLaws ExceptionSpec RaisingSpec Spec
  EncLeafProofs DecLeafProofs DecodeProofs CacheProofs ApiProofs HeapProofs HistoryProofs SuppliedSpec.
Open Scope Z_scope.

Lemma supplied_encoder T e w : with_encoder T e w -> ecache_ok (fst w) /\ find_encoder (r_encs (fst w)) T = Ok e.
Proof.
  intros (w0 & w1 & l & p & label & qs & R & M & H & Q & C & N & F & ->).
  pose proof (R_run (ORegisterEncoder l (EInst e) label) w0 R) as R'. rewrite H in R'. cbn [snd] in R'. apply reachable_caches in R'.
  destruct (after_keeps qs F w1 R') as (A & _ & [Ce _]). split; [exact Ce|]. rewrite A.
  cbn [run] in H. unfold on_registry, register_encoder in H. cbn [set_ecache r_encs] in H.
  destruct (base_register (r_encs (fst w0)) l (EInst e) label) as [x m] eqn:E. inv H. cbn [fst set_encs set_ecache r_encs] in *.
  destruct (base_register_find _ _ l p _ label T M E Q C) as [X _]. exact (find_direct_encoder m T _ _ (X N) eq_refl).
Qed.
Lemma supplied_decoder T d k w : with_decoder T d w -> dcache_ok (fst w) /\ find_decoder (r_decs (fst w)) k T = Ok (flagged (match k with Some b => b | None => true end) d).
Proof.
  intros (w0 & w1 & l & p & label & qs & R & M & H & Q & C & N & F & ->).
  pose proof (R_run (ORegisterDecoder l (DInst d) label) w0 R) as R'. rewrite H in R'. cbn [snd] in R'. apply reachable_caches in R'.
  destruct (after_keeps qs F w1 R') as (_ & A & [_ Cd]). split; [exact Cd|]. rewrite A.
  cbn [run] in H. unfold on_registry, register_decoder in H. cbn [set_dcache r_decs] in H.
  destruct (base_register (r_decs (fst w0)) l (DInst d) label) as [x m] eqn:E. inv H. cbn [fst set_decs set_dcache r_decs] in *.
  destruct (base_register_find _ _ l p _ label T M E Q C) as [X _]. exact (find_direct_decoder m k T _ _ (X N) eq_refl).
Qed.

Lemma weigh {A} (r : result A) : weighed r (match r with Ok _ => Ok true | Err x => if is_encoding_error x then Ok false else Err x end).
Proof.
  destruct r as [a|x]; [constructor|]. destruct (is_encoding_error x) eqn:E; constructor; [apply encoding_class, E|].
  intro I. apply encoding_class in I. congruence.
Qed.
Lemma asked_of T e w v : with_encoder T e w -> is_encodable_in w (PStr T) v = check_encodable e v.
Proof.
  intro W. destruct (supplied_encoder T e w W) as [C F]. unfold is_encodable_in.
  destruct (api_is_encodable_pure (PStr T) v (fst w) C) as (r & -> & _). cbn [fst]. unfold pure_is_encodable. cbn [find_py]. rewrite F. reflexivity.
Qed.
Theorem callable_encodable T f w v : with_encoder T (ECallable f) w -> weighed (f v) (is_encodable_in w (PStr T) v).
Proof. intro W. rewrite (asked_of T _ w v W). unfold check_encodable, validate_value, encode_with. cbn [ve fst snd]. apply weigh. Qed.
Theorem object_encodable T dyn val enc w v : with_encoder T (ECustom dyn val enc) w ->
  exists r, checked (val v) (enc v) r /\ weighed r (is_encodable_in w (PStr T) v).
Proof.
  intro W. rewrite (asked_of T _ w v W). unfold check_encodable, validate_value, encode_with. cbn [ve fst snd].
  destruct (val v) as [[]|x]; [exists (Ok tt); split; [apply K_checked; congruence|apply (weigh (Ok tt))]|].
  assert (D : x = AttributeError \/ x <> AttributeError) by (destruct x; (left; reflexivity) || (right; discriminate)). destruct D as [->|X].
  - destruct (enc v) as [b|y]; [exists (Ok tt)|exists (Err y)]; (split; [econstructor; reflexivity|]); [apply (weigh (Ok tt))|apply (weigh (A:=unit) (Err y))].
  - exists (Err x). split; [apply K_checked; congruence|]. destruct x; try (exfalso; apply X; reflexivity); apply (weigh (A:=unit) (Err _)).
Qed.

Lemma alone_call T e w v : with_encoder T e w -> encode_in w (PList [PStr T]) (PList [v]) = encode_with (ETuple [e]) (PList [v]).
Proof.
  intro W. destruct (supplied_encoder T e w W) as [C F]. unfold encode_in.
  destruct (api_encode_pure (PList [PStr T]) (PList [v]) (fst w) C) as (r & -> & _). cbn [fst]. unfold pure_encode.
  cbn [validate_list_like_param bind mapM find_py]. rewrite F. reflexivity.
Qed.
Lemma alone_tuple e v : encode_with (ETuple [e]) (PList [v]) =
  (match validate_value e v with Err AttributeError => encode_with e v ;;; Ok tt | Err x => Err x | Ok _ => Ok tt end) ;;; 
  (b <- encode_with e v ;; Ok (alone_chunk (enc_is_dyn e) b)).
Proof.
  unfold encode_with, validate_value. cbn [ve snd map combine tuple_chunks items]. unfold tuple_validate. cbn [is_list_like negb items].
  replace (len [v] =? len [ve e]) with true by reflexivity. cbn [negb tuple_validate_items]. destruct (ve e) as [val enc]. cbn [fst snd].
  assert (J : forall b, join_chunks [if enc_is_dyn e then (None, b) else (Some b, [])] = Ok (alone_chunk (enc_is_dyn e) b)).
  { intro b. unfold join_chunks, alone_chunk. destruct (enc_is_dyn e); cbn [map fst snd fold_right tail_offsets combine mapM bind].
    - rewrite encode_uint_256_word by lia. cbn [bind concat]. rewrite !app_nil_r. reflexivity.
    - cbn [concat]. rewrite !app_nil_r. reflexivity. }
  destruct (val v) as [[]|x]; cbn [bind].
  - destruct (enc v) as [b|y]; cbn [bind]; [apply J|reflexivity].
  - destruct x; try reflexivity. destruct (enc v) as [b|y]; cbn [bind]; [apply J|reflexivity].
Qed.
Theorem callable_encode T f w v : with_encoder T (ECallable f) w -> encode_in w (PList [PStr T]) (PList [v]) = f v.
Proof.
  intro W. rewrite (alone_call T _ w v W), alone_tuple. unfold encode_with, validate_value. cbn [ve fst snd].
  destruct (f v) as [b|x]; reflexivity.
Qed.
Theorem object_encode T dyn val enc w v : with_encoder T (ECustom dyn val enc) w ->
  exists r, checked (val v) (enc v) r
    /\ encode_in w (PList [PStr T]) (PList [v]) = match r, enc v with Err x, _ => Err x | Ok _, Err x => Err x | Ok _, Ok b => Ok (alone_chunk dyn b) end.
Proof.
  intro W. rewrite (alone_call T _ w v W), alone_tuple. unfold encode_with, validate_value. cbn [ve fst snd].
  change (enc_is_dyn (ECustom dyn val enc)) with dyn.
  destruct (val v) as [[]|x].
  - exists (Ok tt). split; [apply K_checked; congruence|]. destruct (enc v); reflexivity.
  - assert (D : x = AttributeError \/ x <> AttributeError) by (destruct x; (left; reflexivity) || (right; discriminate)). destruct D as [->|X].
    + destruct (enc v) as [b|y]; [exists (Ok tt)|exists (Err y)]; (split; [econstructor; reflexivity|reflexivity]).
    + exists (Err x). split; [apply K_checked; congruence|]. destruct x; try reflexivity. exfalso. apply X. reflexivity.
Qed.

(** The decoder is called twice: first to check the pointers, then for the value. *)
Theorem callable_decode T g w b strict : with_decoder T (DCallable g) w ->
  decode_in w (PList [PStr T]) (PBytes b) strict =
  match g b new_stream with
  | Err x => Err x
  | Ok (_, st) => match g b (mkStream 0 (frames st) (total st)) with Err x => Err x | Ok (v, _) => Ok (PTuple [v]) end
  end.
Proof.
  intro W. destruct (supplied_decoder T _ (Some strict) w W) as [C F]. unfold decode_in.
  destruct (api_decode_pure (PList [PStr T]) (PBytes b) strict w C) as (w' & -> & _). cbn [fst]. unfold pure_decoders.
  cbn [validate_list_like_param validate_bytes_param bind mapM find_py]. rewrite F. cbn [bind flagged].
  unfold mk_dtuple. cbn [map]. change (wrap (DCallable g)) with (DCallable g). rewrite decode_tuple_eq. cbn [vp is_headtail].
  cbn [decode_with go]. destruct (g b new_stream) as [[v0 st]|x]; [|reflexivity]. cbn [bind].
  change (pos new_stream) with 0. rewrite seek_ok by (unfold maxsize; lia). cbn [bind]. destruct (g b _) as [[v st2]|x]; reflexivity.
Qed.
