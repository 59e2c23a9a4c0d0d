(** Lemmas for registered decoder objects. *)
From Coq Require Import Strings.Byte Strings.String.
From Verif Require Import Samples Tac Bytes BytesProofs Utf8 Decoding Registry RaisingSpec Codec Histories Spec ReadSpec TypeSpec
  DecLeafProofs DecodeProofs CacheProofs LookupProofs TypeProofs DecodeFacts2 ApiProofs HistoryProofs ArgsProofs RegistrySpec RegistryProofs RegistryLaws
  Handlers HandlersSpec HandlersProofs HandlersApi InstanceSpec.
Open Scope Z_scope.

Lemma one_bytes h h' s s' buf : strict_val h s = strict_val h' s' ->
  (' (v, _) <- decode_with h (mk_dtuple [DByteString s]) buf new_stream ;; Ok v)
  = (' (v, _) <- decode_with h' (mk_dtuple [DByteString s']) buf new_stream ;; Ok v).
Proof.
  intro E. unfold mk_dtuple. cbn [map]. change (wrap (DByteString s)) with (DHeadTail (DByteString s)).
  change (wrap (DByteString s')) with (DHeadTail (DByteString s')). rewrite !decode_tuple_eq. cbn [vp is_headtail fold_right array_size_attr].
  destruct (check_pointer _ _ _ _) as [z|]; [|reflexivity]. cbn [bind]. destruct (seek _ _) as [st2|]; [|reflexivity]. cbn [bind].
  cbn [go]. cbn [decode_with]. rewrite E. reflexivity.
Qed.

Lemma reads_bytes h s buf v : (' (v, _) <- decode_with h (mk_dtuple [DByteString s]) buf new_stream ;; Ok v) = Ok v -> exists b, v = PTuple [PBytes b].
Proof.
  unfold mk_dtuple. cbn [map]. change (wrap (DByteString s)) with (DHeadTail (DByteString s)). rewrite !decode_tuple_eq. cbn [vp is_headtail fold_right array_size_attr].
  destruct (check_pointer _ _ _ _) as [z|]; [|discriminate]. cbn [bind]. destruct (seek _ _) as [st2|]; [|discriminate]. cbn [bind].
  cbn [go]. cbn [decode_with].
  destruct (decode_uint_256 buf st2) as [[p st3]|]; [|discriminate]. cbn [bind]. destruct (push_frame p st3) as [st4|]; [|discriminate]. cbn [bind].
  destruct (read_bytestring _ _ _) as [[b st5]|]; [|discriminate]. cbn [bind]. destruct (pop_frame st5) as [st6|]; [|discriminate]. cbn [bind].
  intro H. injection H as <-. exists b. reflexivity.
Qed.
Section Instance.
Variables (T : pystr) (i : N) (handler : option pystr) (m : mapping dec_reg).
Hypothesis found : base_get_registration m T = Ok (DInst (instance i handler)).
Definition holds (w : world) (st : list (option bool) * bool) : Prop :=
  r_decs (fst w) = m
  /\ (forall k, dcache_get (r_dcache (fst w)) (T, k) = if existsb (opt_bool_eqb k) (fst st) then Some (instance i handler) else None)
  /\ (fst st <> [] -> heap_get (snd w) i = snd st).
Lemma asks w st k : holds w st -> exists w1, get_decoder k T w = (Ok (instance i handler), w1) /\ holds w1 (hear st k) /\ fst (hear st k) <> [].
Proof.
  intros (R & C & H). unfold get_decoder. cbn [get_decoder_fuel]. rewrite C. unfold hear. destruct (existsb (opt_bool_eqb k) (fst st)) eqn:E.
  - exists w. split; [reflexivity|]. split; [exact (conj R (conj C H))|]. intro N. rewrite N in E. discriminate E.
  - rewrite R, found.
    assert (S : forall b, (if dec_is_dyn (instance i handler) then set_strict (instance i handler) b (snd w) else (instance i handler, snd w)) = (instance i handler, heap_set (snd w) i b)).
    { intro b. destruct handler; reflexivity. }
    rewrite S. eexists. split; [reflexivity|]. split; [|discriminate]. split; [exact R|]. cbn [fst snd set_dcache r_dcache]. split.
    + intro k'. cbn [dcache_get dkey_eqb existsb]. unfold dkey_eqb. cbn [fst snd]. rewrite str_eqb_refl. cbn [andb].
      replace (opt_bool_eqb k' k) with (opt_bool_eqb k k') by (destruct k as [[]|], k' as [[]|]; reflexivity).
      destruct (opt_bool_eqb k k'); [reflexivity|apply C].
    + intros _. cbn [heap_set heap_get]. rewrite N.eqb_refl. reflexivity.
Qed.
Lemma decodes w st b s : holds w st -> exists w1, holds w1 (hear st (Some s)) /\ fst (hear st (Some s)) <> []
  /\ api_decode (PList [PStr T]) (PBytes b) s w = (' (v, _) <- decode_with (snd w1) (mk_dtuple [instance i handler]) b new_stream ;; Ok v, w1).
Proof.
  intro H. destruct (asks w st (Some s) H) as (w1 & E & H1 & N). exists w1. split; [exact H1|]. split; [exact N|].
  unfold api_decode. cbn [validate_list_like_param validate_bytes_param sequenceM get_decoder_py]. rewrite E. reflexivity.
Qed.
Lemma history_holds rs : forall w st, holds w st -> holds (after (map (op_of T) rs) w) (fold_left hear (map argument rs) st).
Proof.
  induction rs as [|r rs IH]; intros w st H; [exact H|]. cbn [map]. change (after (?o :: ?l) w) with (after l (snd (run o w))). cbn [fold_left]. apply IH.
  destruct r as [k|b s]; cbn [op_of argument run]; unfold on_world.
  - destruct (asks w st k H) as (w1 & -> & H1 & _). exact H1.
  - destruct (decodes w st b s H) as (w1 & H1 & _ & ->). exact H1.
Qed.
End Instance.

Theorem instance_history T i handler w w' w0 rs b s : reachable w -> none_raises (r_decs (fst w)) T -> ~ matches (r_decs (fst w)) T ->
  run (ORegisterDecoder (LStr T) (DInst (instance i handler)) None) w = (ADone (Ok tt), w') -> used false w0 -> len b <= maxsize ->
  read_as handler (decode_in w0 (PList [PStr (lit "bytes")]) (PBytes b) (flag_after (map argument rs ++ [Some s])))
          (decode_in (after (map (op_of T) rs) w') (PList [PStr T]) (PBytes b) s).
Proof.
  intros R Qt N H U L. apply used_spec in U. destruct U as (_ & D & [_ C]). unfold decode_in at 1.
  destruct (api_decode_pure (PList [PStr (lit "bytes")]) (PBytes b) (flag_after (map argument rs ++ [Some s])) w0 C) as (w1 & -> & _). cbn [fst]. rewrite D. change (decs_of false) with decs.
  cbn [run] in H. unfold on_registry, register_decoder in H. cbn [set_dcache r_decs] in H.
  destruct (base_register (r_decs (fst w)) _ _ None) as [x m] eqn:E. inv H.
  destruct (base_register_find _ _ (LStr T) _ _ None T eq_refl E Qt ltac:(cbn; rewrite str_eqb_refl; reflexivity)) as [A _]. specialize (A N).
  assert (G : base_get_registration m T = Ok (DInst (instance i handler))) by (unfold base_get_registration; rewrite A; reflexivity).
  assert (I : holds T i handler m (set_decs (set_dcache (fst w) []) m, snd w) ([], true)).
  { split; [reflexivity|]. split; [reflexivity|]. cbn [fst]. congruence. }
  pose proof (history_holds T i handler m G rs _ _ I) as I'. destruct (decodes T i handler m G _ _ b s I') as (w2 & (_ & _ & F) & Nn & X).
  unfold decode_in. rewrite X. cbn [fst]. specialize (F Nn). unfold flag_after. rewrite fold_left_app. cbn [fold_left]. rewrite <- F. clear F X I' I Nn.
  assert (TA : type_args (PList [PStr (lit "bytes")]) [SBytes]).
  { exists [lit "bytes"]. split; [left; reflexivity|]. constructor; [exact bytes_supported|constructor]. }
  rewrite (pure_decoders_args _ _ (PBytes b) b _ TA) by (left; reflexivity). cbn [bind map dec_of].
  destruct handler as [name|]; cbn [instance].
  - rewrite (one_string (snd w2) (snd w1) (SRef i) (SConst (heap_get (snd w2) i)) name b L eq_refl).
    match goal with |- read_as _ ?q _ => destruct q as [v|e] eqn:Q end; [|constructor]. apply reads_bytes in Q. destruct Q as (c & ->).
    cbn [bind as_text]. destruct (decode_utf8 name c) eqn:X; cbn [bind]; constructor; exact X.
  - rewrite (one_bytes (snd w2) (snd w1) (SRef i) (SConst (heap_get (snd w2) i)) b eq_refl). constructor.
Qed.

(** What the flag is. *)
Theorem flag_first k : flag_after [k] = match k with Some b => b | None => true end.
Proof. destruct k as [[]|]; reflexivity. Qed.
Lemma flag_seen l k : In k l -> flag_after (l ++ [k]) = flag_after l.
Proof.
  intro I. unfold flag_after. rewrite fold_left_app. cbn [fold_left]. unfold hear at 1.
  assert (S : forall l st, (forall k, In k (fst st) -> In k (fst (fold_left hear l st))) /\ (forall k, In k l -> In k (fst (fold_left hear l st)))).
  { clear. induction l as [|x l IH]; intro st; [split; [auto|intros k []]|]. cbn [fold_left]. destruct (IH (hear st x)) as [A B].
    assert (K : forall k, In k (fst st) -> In k (fst (hear st x))) by (intros k J; unfold hear; destruct (existsb _ _); [exact J|right; exact J]).
    split; [intros k J; apply A, K, J|]. intros k [->|J]; [|apply B, J]. apply A. unfold hear. destruct (existsb (opt_bool_eqb k) (fst st)) eqn:E; [|left; reflexivity].
    apply existsb_exists in E. destruct E as (y & J & E). replace k with y; [exact J|]. destruct k as [[]|], y as [[]|]; try reflexivity; discriminate E. }
  destruct (S l ([], true)) as [_ B]. specialize (B k I).
  replace (existsb (opt_bool_eqb k) (fst (fold_left hear l ([], true)))) with true; [reflexivity|]. symmetry. apply existsb_exists. exists k. split; [exact B|].
  destruct k as [[]|]; reflexivity.
Qed.
Lemma flag_new l k : ~ In k l -> flag_after (l ++ [k]) = match k with Some b => b | None => true end.
Proof.
  intro I. unfold flag_after. rewrite fold_left_app. cbn [fold_left]. unfold hear at 1.
  assert (S : forall l st k, In k (fst (fold_left hear l st)) -> In k l \/ In k (fst st)).
  { clear. induction l as [|x l IH]; intros st k J; [right; exact J|]. cbn [fold_left] in J. apply IH in J. destruct J as [J|J]; [left; right; exact J|].
    unfold hear in J. destruct (existsb _ _); [right; exact J|]. destruct J as [<-|J]; [left; left; reflexivity|right; exact J]. }
  destruct (existsb (opt_bool_eqb k) (fst (fold_left hear l ([], true)))) eqn:E; [|reflexivity]. exfalso. apply I. apply existsb_exists in E. destruct E as (y & J & E).
  replace k with y; [destruct (S _ _ _ J) as [?|[]]; assumption|]. destruct k as [[]|], y as [[]|]; try reflexivity; discriminate E.
Qed.
Lemma flag_same s l : Forall (fun k => match k with Some b => b | None => true end = s) l -> l <> [] -> flag_after l = s.
Proof.
  induction l as [|x l IH] using rev_ind; [congruence|]. intros F _. apply Forall_app in F. destruct F as [F Fx]. inv Fx.
  destruct (in_dec (fun a b : option bool => ltac:(repeat decide equality)) x l) as [I|I]; [|rewrite (flag_new l x I); reflexivity].
  rewrite (flag_seen l x I). apply IH; [exact F|]. intros ->. destruct I.
Qed.
Theorem flag_kept l s : Forall (fun k => match k with Some b => b | None => true end = s) l -> flag_after (l ++ [Some s]) = s.
Proof. intro F. apply flag_same; [apply Forall_app; split; [exact F|constructor; [reflexivity|constructor]]|]. intro E. destruct l; discriminate E. Qed.
Theorem flag_stuck l s : In (Some true) l -> In (Some false) l -> flag_after (l ++ [Some s]) = flag_after l.
Proof. intros A B. apply flag_seen. destruct s; assumption. Qed.

(** ** Classes of the caller *)
Theorem class_decoder w w' l p f label k s : reachable w -> matcher l = Some p -> run (ORegisterDecoder l (DClass (CUserDec f)) label) w = (ADone (Ok tt), w') ->
  none_raises (r_decs (fst w)) s -> pred_call p s = Done true -> ~ matches (r_decs (fst w)) s ->
  fst (get_decoder k s w') = match f s with Ok d => Ok (flagged (match k with Some b => b | None => true end) d) | Err e => Err e end.
Proof.
  intros R M H Q C N. destruct (register_lookup_decoder w w' l p _ label k s R M H Q C) as [A _]. apply (A N). cbn [direct_decoder]. cbn [dec_leaf_from_type_str].
  destruct (f s); reflexivity.
Qed.
Theorem class_encoder w w' l p f label s : reachable w -> matcher l = Some p -> run (ORegisterEncoder l (EClass (CUserEnc f)) label) w = (ADone (Ok tt), w') ->
  none_raises (r_encs (fst w)) s -> pred_call p s = Done true -> ~ matches (r_encs (fst w)) s -> fst (get_encoder s (fst w')) = f s.
Proof.
  intros R M H Q C N. destruct (register_lookup w w' l p _ label s R M H Q C) as [A _]. apply (A N). reflexivity.
Qed.
