(** A registered StringDecoder with an error handler, through decode. *)
From Coq Require Import Strings.Byte Strings.String.
From Verif Require Import Samples Tac Bytes BytesProofs Utf8 Decoding Registry RaisingSpec Codec Histories Spec ReadSpec TypeSpec
  DecLeafProofs DecodeProofs CacheProofs LookupProofs TypeProofs DecodeFacts2 ApiProofs HistoryProofs ArgsProofs RegistrySpec RegistryProofs RegistryLaws Handlers HandlersSpec HandlersProofs.
Open Scope Z_scope.

(** The text of a decoded byte string. *)
Definition as_text (name : pystr) (q : pyval) : result pyval :=
  match q with PTuple [PBytes b] => t <- decode_utf8 name b ;; Ok (PTuple [PStr t]) | _ => Err TypeError end.

Lemma one_string h h' s s' name buf : len buf <= maxsize -> strict_val h s = strict_val h' s' ->
  (' (v, _) <- decode_with h (mk_dtuple [string_decoder s name]) buf new_stream ;; Ok v)
  = (q <- (' (v, _) <- decode_with h' (mk_dtuple [DByteString s']) buf new_stream ;; Ok v) ;; as_text name q).
Proof.
  intros L E. unfold mk_dtuple. cbn [map]. change (wrap (string_decoder s name)) with (DHeadTail (string_decoder s name)).
  change (wrap (DByteString s')) with (DHeadTail (DByteString s')). rewrite !decode_tuple_eq. cbn [vp is_headtail fold_right array_size_attr].
  unfold check_pointer. rewrite decode_uint_256_eq by (cbn; lia). destruct (word_at buf (pos new_stream)) as [z|e] eqn:W; [|reflexivity]. cbn [bind].
  pose proof (word_at_range _ _ _ (Z.le_refl 0) W) as Zr. pose proof W as W0. apply word_at_ok in W0. destruct W0 as [W0 _]. cbn [pos new_stream] in *.
  destruct (_ || _); [reflexivity|]. cbn [bind]. destruct (seek 0 _) as [st2|]eqn:S2; [|reflexivity]. cbn [bind].
  assert (P2 : pos st2 = 0) by (unfold seek in S2; cbn in S2; inv S2; reflexivity).
  cbn [go]. unfold string_decoder. cbn [decode_with]. rewrite decode_uint_256_eq by lia. rewrite P2, W. cbn [bind].
  destruct (push_frame z (adv 32 st2)) as [st3|] eqn:P3; [|reflexivity]. cbn [bind]. rewrite E.
  destruct (read_bytestring (strict_val h' s') buf st3) as [[b st4]|] eqn:RB; [|reflexivity]. cbn [bind].
  assert (F : exists st5, pop_frame st4 = Ok st5).
  { destruct (bytestring_frames _ _ _ _ _ RB) as [F _]. unfold push_frame, seek_in_frame, seek in P3. cbn [frames total pos adv] in P3.
    destruct (_ <? 0); [discriminate|]. destruct (maxsize <? _); [discriminate|]. inv P3. cbn [frames] in F. unfold pop_frame. rewrite F.
    rewrite seek_ok by lia. eauto. }
  destruct F as (st5 & F). rewrite F. cbn [bind as_text]. destruct (decode_utf8 name b); cbn [bind]; [rewrite F|]; reflexivity.
Qed.

Lemma bytes_supported : supported (lit "bytes") SBytes.
Proof. apply Samples.type_of_ok. lazy. reflexivity. Qed.
Theorem registered_string T i name w w' w0 data strict : reachable w -> none_raises (r_decs (fst w)) T -> ~ matches (r_decs (fst w)) T ->
  run (ORegisterDecoder (LStr T) (DInst (string_decoder (SRef i) name)) None) w = (ADone (Ok tt), w') -> used false w0 ->
  (forall b, bytes_like data b -> len b <= maxsize) ->
  decode_in w' (PList [PStr T]) data strict = (q <- decode_in w0 (PList [PStr (lit "bytes")]) data strict ;; as_text name q).
Proof.
  intros R Qt N H U L. apply used_spec in U. destruct U as (_ & D & [_ C]). unfold decode_in at 2.
  destruct (api_decode_pure (PList [PStr (lit "bytes")]) data strict w0 C) as (w1 & -> & _). cbn [fst]. rewrite D. change (decs_of false) with decs.
  cbn [run] in H. unfold on_registry, register_decoder in H. cbn [set_dcache r_decs] in H.
  destruct (base_register (r_decs (fst w)) _ _ None) as [x m] eqn:E. inv H.
  destruct (base_register_find _ _ (LStr T) _ _ None T eq_refl E Qt ltac:(cbn; rewrite str_eqb_refl; reflexivity)) as [A _]. specialize (A N).
  unfold decode_in, api_decode. cbn [validate_list_like_param].
  destruct (validate_bytes_param data) as [b|e] eqn:B.
  2:{ unfold pure_decoders. cbn [validate_list_like_param bind]. rewrite B. reflexivity. }
  apply bytes_param in B. assert (TA : type_args (PList [PStr (lit "bytes")]) [SBytes]).
  { exists [lit "bytes"]. split; [left; reflexivity|]. constructor; [exact bytes_supported|constructor]. }
  rewrite (pure_decoders_args _ _ data b strict TA B). cbn [bind map dec_of].
  unfold string_decoder.
  cbn [sequenceM get_decoder_py]. unfold get_decoder. cbn [get_decoder_fuel dcache_get r_dcache fst set_dcache set_decs].
  assert (G : base_get_registration (r_decs (set_decs (set_dcache (fst w) []) m)) T = Ok (DInst (string_decoder (SRef i) name)))
    by (unfold base_get_registration; cbn [set_decs r_decs]; rewrite A; reflexivity).
  rewrite G. unfold string_decoder at 1 2. cbn [dec_is_dyn dec_dyn_attr set_strict snd fst].
  apply one_string; [exact (L b B)|]. cbn [strict_val heap_set heap_get]. rewrite N.eqb_refl. reflexivity.
Qed.
Theorem registered_string_cases T i name w w' w0 data strict : reachable w -> none_raises (r_decs (fst w)) T -> ~ matches (r_decs (fst w)) T ->
  run (ORegisterDecoder (LStr T) (DInst (string_decoder (SRef i) name)) None) w = (ADone (Ok tt), w') -> used false w0 ->
  (forall b, bytes_like data b -> len b <= maxsize) ->
  (forall e, decode_in w0 (PList [PStr (lit "bytes")]) data strict = Err e -> decode_in w' (PList [PStr T]) data strict = Err e)
  /\ (forall b, decode_in w0 (PList [PStr (lit "bytes")]) data strict = Ok (PTuple [PBytes b]) ->
      decode_in w' (PList [PStr T]) data strict = (t <- decode_utf8 name b ;; Ok (PTuple [PStr t]))).
Proof.
  intros R Qt N H U L. pose proof (registered_string T i name w w' w0 data strict R Qt N H U L) as Q. split; intros x E; rewrite E in Q; exact Q.
Qed.
Theorem all_parts bs : exists l, segs bs l /\ forall l', segs bs l' -> l' = l.
Proof. destruct (segs_exist bs) as (l & H). exists l. split; [exact H|]. intros l' H'. exact (segs_unique bs l' l H' H). Qed.
Theorem well_formed_parts bs s : segs bs (map Good s) <-> Forall scalar s /\ bs = utf8 s.
Proof. split; [apply segs_good_utf8|]. intros (H & ->). exact (segs_utf8 s H). Qed.
Theorem ignore_text bs l : segs bs l -> decode_utf8 (lit "ignore") bs = Ok (text (fun _ => []) l).
Proof. apply decode_utf8_text; reflexivity. Qed.
Theorem replace_text bs l : segs bs l -> decode_utf8 (lit "replace") bs = Ok (text (fun _ => [0xFFFD%N]) l).
Proof. apply decode_utf8_text; reflexivity. Qed.
Theorem backslash_text bs l : segs bs l -> decode_utf8 (lit "backslashreplace") bs = Ok (text escape l).
Proof. apply decode_utf8_text; [reflexivity|]. exact handle_backslash. Qed.
Theorem surrogate_text bs l : segs bs l -> decode_utf8 (lit "surrogateescape") bs = Ok (text lone_surrogates l).
Proof. apply decode_utf8_text; [reflexivity|]. exact handle_escape. Qed.
Theorem surrogate_lossless bs : exists s, decode_utf8 (lit "surrogateescape") bs = Ok s /\ unescape s = bs.
Proof. destruct (segs_exist bs) as (l & H). exists (text lone_surrogates l). split; [exact (surrogate_text bs l H)|exact (unescape_text bs l H)]. Qed.
Theorem strict_raises bs : not_utf8 bs -> decode_utf8 (lit "strict") bs = Err UnicodeDecodeError.
Proof. intro N. apply raises; [reflexivity..|]. intros (s & Hs & E). exact (N s Hs E). Qed.
Theorem wrong_direction_raises name bs : In name [lit "xmlcharrefreplace"; lit "namereplace"] -> not_utf8 bs -> decode_utf8 name bs = Err TypeError.
Proof. intros I N. apply raises; [destruct I as [<-|[<-|[]]]; reflexivity..|]. intros (s & Hs & E). exact (N s Hs E). Qed.
Theorem unknown_raises name bs : ~ In name handler_names -> not_utf8 bs -> decode_utf8 name bs = Err LookupError.
Proof.
  intros I N. assert (K : forall x, In x handler_names -> str_eqb name x = false).
  { intros x Hx. destruct (str_eqb name x) eqn:E; [|reflexivity]. apply str_eqb_eq in E. subst. contradiction. }
  apply raises; [apply K; cbn; tauto| |intros (s & Hs & E); exact (N s Hs E)]. intro p. unfold handle.
  rewrite !K by (cbn; tauto). reflexivity.
Qed.
