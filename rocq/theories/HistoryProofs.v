(** Cache consistency along histories of calls. *)
From Coq Require Import Strings.Byte Strings.String.
From Verif Require Import Tac Bytes Grammar Encoding Decoding Registry Codec Histories Spec TypeSpec
  EncodeProofs DecLeafProofs DecodeProofs ReaderProofs CacheProofs LookupProofs TypeProofs ApiProofs.
Open Scope Z_scope.

Definition caches_ok (r : registry) : Prop := ecache_ok r /\ dcache_ok r.

Lemma ecache_transport r r' : same_but_dcache r r' -> ecache_ok r -> ecache_ok r'.
Proof. intros (A & B & C) H ts e. rewrite A, C. apply H. Qed.
Lemma dcache_transport r r' : same_but_ecache r r' -> dcache_ok r -> dcache_ok r'.
Proof. intros (A & B & C) H ts k d. rewrite B, C. apply H. Qed.
Lemma ecache_nil r : r_ecache r = [] -> ecache_ok r.
Proof. intros E ts e. rewrite E. discriminate. Qed.
Lemma dcache_nil r : r_dcache r = [] -> dcache_ok r.
Proof. intros E ts k d. rewrite E. discriminate. Qed.

Lemma register_encoder_ok l v label r : caches_ok r -> caches_ok (snd (register_encoder l v label r)).
Proof.
  intros [_ D]. unfold register_encoder. destruct (base_register _ l v label) as [res m]. cbn [snd].
  split; [apply ecache_nil; reflexivity|]. intros ts k d. exact (D ts k d).
Qed.
Lemma unregister_encoder_ok l r : caches_ok r -> caches_ok (snd (unregister_encoder l r)).
Proof.
  intros [_ D]. unfold unregister_encoder. destruct (base_unregister _ l) as [res m]. cbn [snd].
  split; [apply ecache_nil; reflexivity|]. intros ts k d. exact (D ts k d).
Qed.
Lemma register_decoder_ok l v label r : caches_ok r -> caches_ok (snd (register_decoder l v label r)).
Proof.
  intros [D _]. unfold register_decoder. destruct (base_register _ l v label) as [res m]. cbn [snd].
  split; [|apply dcache_nil; reflexivity]. intros ts e. exact (D ts e).
Qed.
Lemma unregister_decoder_ok l r : caches_ok r -> caches_ok (snd (unregister_decoder l r)).
Proof.
  intros [D _]. unfold unregister_decoder. destruct (base_unregister _ l) as [res m]. cbn [snd].
  split; [|apply dcache_nil; reflexivity]. intros ts e. exact (D ts e).
Qed.
Lemma register_ok l e d label r : caches_ok r -> caches_ok (snd (register l e d label r)).
Proof.
  intro H. unfold register. pose proof (register_encoder_ok l e label r H) as H1.
  destruct (register_encoder l e label r) as [[[]|x] r1]; [apply register_decoder_ok|]; exact H1.
Qed.
Lemma unregister_ok l r : caches_ok r -> caches_ok (snd (unregister l r)).
Proof.
  intro H. unfold unregister. pose proof (unregister_encoder_ok l r H) as H1.
  destruct (unregister_encoder l r) as [[[]|x] r1]; [apply unregister_decoder_ok|]; exact H1.
Qed.

(** What a query answers, from the registrations alone. *)
Definition has_of (r : result encoder) : result bool :=
  match r with Ok _ => Ok true | Err MultipleEntriesFound => Err MultipleEntriesFound | Err _ => Ok false end.
Lemma has_encoder_pure ts r : ecache_ok r ->
  exists r', has_encoder ts r = (has_of (find_encoder (r_encs r) ts), r') /\ same_but_ecache r r' /\ ecache_ok r'.
Proof.
  intro H. unfold has_encoder. destruct (get_encoder_pure r ts H) as (r' & E & S). rewrite E. exists r'. split; [|exact S].
  destruct (find_encoder (r_encs r) ts) as [e|[]]; reflexivity.
Qed.

(** A query keeps the registrations, and keeps the caches consistent. *)
Definition keeps (w w' : world) : Prop := r_encs (fst w') = r_encs (fst w) /\ r_decs (fst w') = r_decs (fst w) /\ caches_ok (fst w').
Lemma keeps_e r r' h : caches_ok r -> same_but_ecache r r' -> ecache_ok r' -> keeps (r, h) (r', h).
Proof. intros [E D] (A & B & C) H. repeat split; auto. apply (dcache_transport r r'); [repeat split|]; auto. Qed.
Lemma keeps_d w w' : caches_ok (fst w) -> same_but_dcache (fst w) (fst w') -> dcache_ok (fst w') -> keeps w w'.
Proof. intros [E D] (A & B & C) H. repeat split; auto. apply (ecache_transport (fst w) (fst w')); [repeat split|]; auto. Qed.
Lemma query_keeps o w : query o -> caches_ok (fst w) -> keeps w (snd (run o w)).
Proof.
  intros Q C. pose proof (proj1 C) as E. pose proof (proj2 C) as D. destruct w as [r h]. cbn [fst] in *.
  destruct o; try contradiction Q; cbn [run]; unfold on_registry, on_world; cbn [fst snd].
  - destruct (get_encoder_pure r ts E) as (r' & -> & S & O). apply keeps_e; auto.
  - destruct (has_encoder_pure ts r E) as (r' & -> & S & O). apply keeps_e; auto.
  - destruct (get_decoder_pure (r, h) k ts D) as (w' & -> & S & O). apply keeps_d; auto.
  - destruct (api_encode_pure types args r E) as (r' & -> & S & O). apply keeps_e; auto.
  - destruct (api_is_encodable_pure typ arg r E) as (r' & -> & S & O). apply keeps_e; auto.
  - destruct (api_is_encodable_type_pure typ r E) as (r' & -> & S & O). apply keeps_e; auto.
  - destruct (api_decode_pure types data strict (r, h) D) as (w' & -> & S & O). apply keeps_d; auto.
Qed.
Lemma run_caches o w : caches_ok (fst w) -> caches_ok (fst (snd (run o w))).
Proof.
  intro C. assert (X : query o -> caches_ok (fst (snd (run o w)))) by (intro Q; apply (query_keeps o w Q C)).
  destruct w as [r h]. cbn [fst] in *. destruct o; try (apply X; exact I); cbn [run]; unfold on_registry; cbn [fst snd].
  - pose proof (register_encoder_ok l v label r C). destruct (register_encoder l v label r). assumption.
  - pose proof (unregister_encoder_ok l r C). destruct (unregister_encoder l r). assumption.
  - pose proof (register_decoder_ok l v label r C). destruct (register_decoder l v label r). assumption.
  - pose proof (unregister_decoder_ok l r C). destruct (unregister_decoder l r). assumption.
  - pose proof (register_ok l e d label r C). destruct (register l e d label r). assumption.
  - pose proof (unregister_ok l r C). destruct (unregister l r). assumption.
Qed.
Lemma after_caches ops : forall w, caches_ok (fst w) -> caches_ok (fst (after ops w)).
Proof. induction ops as [|o ops IH]; intros w C; [exact C|]. cbn [after fold_left]. apply IH. apply run_caches. exact C. Qed.
Lemma after_keeps ops : Forall query ops -> forall w, caches_ok (fst w) -> keeps w (after ops w).
Proof.
  induction 1 as [|o ops Q F IH]; intros w C; [repeat split; apply C|].
  change (after (o :: ops) w) with (after ops (snd (run o w))).
  destruct (query_keeps o w Q C) as (A & B & C'). destruct (IH _ C') as (A' & B' & C''). repeat split; try apply C''; congruence.
Qed.

Definition decs_of (pk : bool) : mapping dec_reg := r_decs (standard_registry pk).
Lemma standard_caches pk : caches_ok (standard_registry pk).
Proof. split; [apply ecache_nil|apply dcache_nil]; destruct pk; reflexivity. Qed.
Lemma used_spec pk w : used pk w -> r_encs (fst w) = encs pk /\ r_decs (fst w) = decs_of pk /\ caches_ok (fst w).
Proof.
  intros (ops & Q & ->). destruct (after_keeps ops Q (standard_registry pk, []) (standard_caches pk)) as (A & B & C).
  split; [rewrite A; destruct pk; reflexivity|]. split; [exact B|exact C].
Qed.
Lemma used_fresh pk : used pk (standard_registry pk, []).
Proof. exists []. split; [constructor|reflexivity]. Qed.
Lemma used_after pk o w : query o -> used pk w -> used pk (snd (run o w)).
Proof.
  intros Q (ops & F & ->). exists (ops ++ [o]). split; [apply Forall_app; auto|]. unfold after. rewrite fold_left_app. reflexivity.
Qed.

(** ** Codec calls in such states *)
Lemma encode_used pk w types args : used pk w -> encode_in w types args = pure_encode (encs pk) types args.
Proof.
  intro U. apply used_spec in U. destruct U as (E & _ & [C _]). unfold encode_in.
  destruct (api_encode_pure types args (fst w) C) as (r' & -> & _). rewrite E. reflexivity.
Qed.
Lemma is_encodable_used pk w typ arg : used pk w -> is_encodable_in w typ arg = pure_is_encodable (encs pk) typ arg.
Proof.
  intro U. apply used_spec in U. destruct U as (E & _ & [C _]). unfold is_encodable_in.
  destruct (api_is_encodable_pure typ arg (fst w) C) as (r' & -> & _). rewrite E. reflexivity.
Qed.
Lemma is_encodable_type_used pk w typ : used pk w -> is_encodable_type_in w typ = pure_has (encs pk) typ.
Proof.
  intro U. apply used_spec in U. destruct U as (E & _ & [C _]). unfold is_encodable_type_in.
  destruct (api_is_encodable_type_pure typ (fst w) C) as (r' & -> & _). rewrite E. reflexivity.
Qed.
Theorem encode_args pk w types ts args l : used pk w -> type_args types ts -> seq_like args l ->
  encode_in w types args = encode_with (enc_of pk (STuple ts)) args.
Proof. intros U T L. rewrite (encode_used pk w _ _ U). eapply pure_encode_args; eassumption. Qed.
Theorem encode_bad pk w types args : used pk w -> ~ (exists ts l, type_args types ts /\ seq_like args l) ->
  exists e, (type_exc e \/ e = TypeError) /\ encode_in w types args = Err e.
Proof. intros U N. rewrite (encode_used pk w _ _ U). destruct (pure_encode_cases pk types args) as [H|[_ H]]; [contradiction|exact H]. Qed.
Lemma encode_ok_inv pk w types args b : used pk w -> encode_in w types args = Ok b ->
  exists ts l, type_args types ts /\ seq_like args l /\ encode_with (enc_of pk (STuple ts)) args = Ok b.
Proof.
  intros U H. destruct (pure_encode_cases pk types args) as [(ts & l & T & L)|(_ & e & _ & E)].
  - exists ts, l. split; [exact T|]. split; [exact L|]. rewrite <- (encode_args pk w types ts args l U T L). exact H.
  - rewrite (encode_used pk w _ _ U) in H. congruence.
Qed.
Theorem decode_args w types ts data b strict : used false w -> type_args types ts -> bytes_like data b -> len b <= maxsize ->
  decode_in w types data strict = (a <- pd_args b strict ts ;; Ok (py_of (STuple ts) a)).
Proof.
  intros U T B L. apply used_spec in U. destruct U as (_ & D & [_ C]). unfold decode_in.
  destruct (api_decode_pure types data strict w C) as (w' & -> & _). cbn [fst]. rewrite D. change (decs_of false) with decs.
  rewrite (pure_decoders_args types ts data b strict T B). cbn [bind].
  rewrite <- (pd_args_refines (snd w') b L strict ts (type_args_wf _ _ T)). reflexivity.
Qed.
Theorem decode_bad w types data strict : used false w -> ~ (exists ts b, type_args types ts /\ bytes_like data b) ->
  exists e, (type_exc e \/ e = TypeError) /\ decode_in w types data strict = Err e.
Proof.
  intros U N. apply used_spec in U. destruct U as (_ & D & [_ C]). unfold decode_in.
  destruct (api_decode_pure types data strict w C) as (w' & -> & _). cbn [fst]. rewrite D. change (decs_of false) with decs.
  destruct (pure_decoders_cases types data strict) as [H|(_ & e & X & E)]; [contradiction|]. exists e. rewrite E. auto.
Qed.

(** The module-level functions are the calls in the initial state. *)
Lemma encode_module types args : encode types args = encode_in (standard_registry false, []) types args.
Proof. unfold encode, encode_packed, decode, is_encodable, encode_in, decode_in, is_encodable_in. cbn [fst standard_registry]. reflexivity. Qed.
Lemma encode_packed_module types args : encode_packed types args = encode_in (standard_registry true, []) types args.
Proof. unfold encode, encode_packed, decode, is_encodable, encode_in, decode_in, is_encodable_in. cbn [fst standard_registry]. reflexivity. Qed.
Lemma decode_module types data strict : decode types data strict = decode_in (standard_registry false, []) types data strict.
Proof. unfold encode, encode_packed, decode, is_encodable, encode_in, decode_in, is_encodable_in. cbn [fst standard_registry]. reflexivity. Qed.
Lemma is_encodable_module typ arg : is_encodable typ arg = is_encodable_in (standard_registry false, []) typ arg.
Proof. unfold encode, encode_packed, decode, is_encodable, encode_in, decode_in, is_encodable_in. cbn [fst standard_registry]. reflexivity. Qed.
