(** Lookups in a registry with matchers that raise. *)
From Coq Require Import Permutation Strings.String.
From Verif Require Import Tac Bytes Grammar Encoding Decoding Registry RaisingSpec Codec Histories RegistrySpec CacheProofs LookupProofs ApiProofs HistoryProofs
  HeapProofs RegistryProofs RegistryLaws CustomProofs RegistryCases Samples.
Open Scope string_scope.
Open Scope list_scope.
Open Scope Z_scope.

Lemma first_raise_first {V} (l : list (pred * V)) s p e says : first_to_raise l s p e says -> first_raise l s = Some (e, says).
Proof.
  intros (l1 & v & l2 & -> & N & E). rewrite first_raise_app, (proj2 (first_raise_none l1 s) N). cbn [first_raise]. rewrite E. reflexivity.
Qed.
Lemma first_raise_exists {V} (l : list (pred * V)) s e says : first_raise l s = Some (e, says) -> exists p, first_to_raise l s p e says.
Proof.
  induction l as [|[q v] l IH]; [discriminate|]. cbn [first_raise]. destruct (pred_call q s) as [b|e' says'] eqn:E; intro H.
  - destruct (IH H) as (p & l1 & u & l2 & -> & N & X). exists p, ((q, v) :: l1), u, l2. split; [reflexivity|]. split; [|exact X].
    intros q' u' [I|I]; [|exact (N q' u' I)]. inv I. unfold raising. rewrite E. reflexivity.
  - inv H. exists q, [], v, l. split; [reflexivity|]. split; [intros ? ? []|exact E].
Qed.
Lemma surfaces_total s e says : exists x, surfaces s e says x /\ forall V, @reparsed V s (Raised e says) = Err x.
Proof.
  unfold reparsed. destruct (is_value_error e) eqn:V; [|exists e; split; [apply S_other; exact V|reflexivity]]. destruct says as [[]|x]; cbn [bind].
  - destruct (parse s) as [t|x] eqn:P; [exists e; split; [eapply S_parsed; eauto|reflexivity]|exists x; split; [apply S_malformed; auto|reflexivity]].
  - exists e. split; [apply S_silent; auto|reflexivity].
  - exists x. split; [apply S_odd; auto|reflexivity].
Qed.
Theorem surfaces_unique s e says x y : surfaces s e says x -> surfaces s e says y -> x = y.
Proof. destruct 1; destruct 1; congruence. Qed.

Lemma find_first {V} (m : mapping V) s p e says : first_to_raise (m_values m) s p e says -> exists x, surfaces s e says x /\ base_get_registration m s = Err x.
Proof.
  intro F. destruct (surfaces_total s e says) as (x & X & R). exists x. split; [exact X|]. unfold base_get_registration. rewrite m_find_spec, (first_raise_first _ _ _ _ _ F). apply R.
Qed.
Theorem raising_encoder w s p e says : reachable w -> first_to_raise (m_values (r_encs (fst w))) s p e says ->
  exists x, surfaces s e says x /\ fst (get_encoder s (fst w)) = Err x
  /\ fst (has_encoder s (fst w)) = (match x with MultipleEntriesFound => Err MultipleEntriesFound | _ => Ok false end).
Proof.
  intros R F. apply reachable_caches in R. destruct R as [Ce _]. destruct (find_first _ _ _ _ _ F) as (x & X & B). exists x. split; [exact X|].
  destruct (get_encoder_pure (fst w) s Ce) as (r & E & _). unfold has_encoder. rewrite E. cbn [fst]. rewrite find_encoder_eq, B. split; [reflexivity|]. destruct x; reflexivity.
Qed.
Theorem raising_decoder w k s p e says : reachable w -> first_to_raise (m_values (r_decs (fst w))) s p e says ->
  exists x, surfaces s e says x /\ fst (get_decoder k s w) = Err x.
Proof.
  intros R F. apply reachable_caches in R. destruct R as [_ Cd]. destruct (find_first _ _ _ _ _ F) as (x & X & B). exists x. split; [exact X|].
  destruct (get_decoder_pure w k s Cd) as (r & E & _). rewrite E. cbn [fst]. rewrite find_decoder_eq, B. reflexivity.
Qed.
(** A lookup that answers made no matcher raise. *)
Lemma answered {V} (m : mapping V) s v : base_get_registration m s = Ok v -> none_raises m s.
Proof.
  intro H. refine (proj1 (first_raise_none (m_values m) s) _). destruct (first_raise (m_values m) s) as [[e says]|] eqn:F; [|reflexivity]. exfalso.
  destruct (surfaces_total s e says) as (x & _ & X). unfold base_get_registration in H. rewrite m_find_spec, F, X in H. discriminate.
Qed.
Theorem answered_encoder w s e : reachable w -> fst (get_encoder s (fst w)) = Ok e -> none_raises (r_encs (fst w)) s.
Proof.
  intros R H. apply reachable_caches in R. destruct R as [Ce _]. destruct (get_encoder_pure (fst w) s Ce) as (r & E & _). rewrite E in H. cbn [fst] in H.
  rewrite find_encoder_eq in H. destruct (base_get_registration (r_encs (fst w)) s) as [v|] eqn:B; [|discriminate]. exact (answered _ _ _ B).
Qed.
Theorem answered_decoder w k s d : reachable w -> fst (get_decoder k s w) = Ok d -> none_raises (r_decs (fst w)) s.
Proof.
  intros R H. apply reachable_caches in R. destruct R as [_ Cd]. destruct (get_decoder_pure w k s Cd) as (r & E & _). rewrite E in H. cbn [fst] in H.
  rewrite find_decoder_eq in H. destruct (base_get_registration (r_decs (fst w)) s) as [v|] eqn:B; [|discriminate]. exact (answered _ _ _ B).
Qed.
(** The calls of a codec. *)
Theorem raising_encode w s ts args vs p e says : reachable w -> first_to_raise (m_values (r_encs (fst w))) s p e says ->
  validate_list_like_param args = Ok vs ->
  exists x, surfaces s e says x /\ encode_in w (PList (PStr s :: ts)) args = Err x
  /\ is_encodable_type_in w (PStr s) = (match x with MultipleEntriesFound => Err MultipleEntriesFound | _ => Ok false end)
  /\ forall v, is_encodable_in w (PStr s) v = is_encodable_type_in w (PStr s).
Proof.
  intros R F A. destruct (raising_encoder w s p e says R F) as (x & X & G & H). exists x. split; [exact X|]. unfold encode_in, is_encodable_type_in, is_encodable_in, api_encode, api_is_encodable.
  cbn [validate_list_like_param sequenceM get_encoder_py api_is_encodable_type]. rewrite A. split; [destruct (get_encoder s (fst w)) as [[?|?] ?]; cbn [fst] in *; congruence|].
  split; [exact H|]. intro v. destruct (has_encoder s (fst w)) as [[[]|y] r]; cbn [fst] in *; try reflexivity. destruct x; discriminate.
Qed.
Theorem raising_decode w s ts data b strict p e says : reachable w -> first_to_raise (m_values (r_decs (fst w))) s p e says ->
  validate_bytes_param data = Ok b ->
  exists x, surfaces s e says x /\ decode_in w (PList (PStr s :: ts)) data strict = Err x.
Proof.
  intros R F A. destruct (raising_decoder w (Some strict) s p e says R F) as (x & X & G). exists x. split; [exact X|]. unfold decode_in, api_decode.
  cbn [validate_list_like_param sequenceM get_decoder_py]. rewrite A. destruct (get_decoder (Some strict) s w) as [[?|?] ?]; cbn [fst] in *; congruence.
Qed.
(** Nothing of a failed lookup stays behind. *)
Theorem raising_removed w w' qs p v l s : reachable w -> pid p <> None -> run (ORegisterEncoder (LPred p) v (Some l)) w = (ADone (Ok tt), w') -> Forall query qs ->
  let w'' := snd (run (OUnregisterEncoder (LStr l)) (after qs w')) in
  fst (run (OUnregisterEncoder (LStr l)) (after qs w')) = ADone (Ok tt) /\ same_registrations w w'' /\ fst (get_encoder s (fst w'')) = fst (get_encoder s (fst w)).
Proof.
  intros R Hp H Q w''. destruct (register_unregister_label w w' p v l Hp H) as (A & B & C). pose proof (R_run (ORegisterEncoder (LPred p) v (Some l)) w R) as R'. rewrite H in R'. cbn [snd] in R'.
  pose proof (reachable_caches _ R') as C'. destruct (after_keeps qs Q w' C') as (Ke & Kd & _).
  assert (U : fst (run (OUnregisterEncoder (LStr l)) (after qs w')) = fst (run (OUnregisterEncoder (LStr l)) w')
    /\ r_encs (fst w'') = r_encs (fst (snd (run (OUnregisterEncoder (LStr l)) w'))) /\ r_decs (fst w'') = r_decs (fst (snd (run (OUnregisterEncoder (LStr l)) w')))).
  { unfold w''. cbn [run]. unfold on_registry, unregister_encoder. cbn [set_ecache r_encs]. rewrite Ke. destruct (base_unregister _ _) as [res m]. cbn [fst snd set_encs set_ecache r_encs r_decs]. auto. }
  destruct U as (U1 & U2 & U3). rewrite U1. split; [exact A|]. unfold same_registrations. rewrite U2, U3. split; [split; [exact B|exact C]|].
  assert (R2 : reachable w'') by (apply R_run, reachable_after, R'). apply reachable_caches in R2. destruct R2 as [Ce2 _]. apply reachable_caches in R. destruct R as [Ce _].
  destruct (get_encoder_pure (fst w) s Ce) as (? & -> & _), (get_encoder_pure (fst w'') s Ce2) as (? & -> & _). cbn [fst]. rewrite U2, B. reflexivity.
Qed.
(** Registering calls no matcher. *)
Theorem not_called w f g i v label : fst (run (ORegisterEncoder (LPred (mkPred (KFun f) (Some i))) v label) w) = fst (run (ORegisterEncoder (LPred (mkPred (KFun g) (Some i))) v label) w).
Proof.
  cbn [run]. unfold on_registry, register_encoder. cbn [set_ecache r_encs base_register].
  assert (P : has_pred (r_encs (fst w)) (mkPred (KFun f) (Some i)) = has_pred (r_encs (fst w)) (mkPred (KFun g) (Some i))).
  { unfold has_pred. induction (m_values (r_encs (fst w))) as [|[q u] l IH]; [reflexivity|]. cbn [existsb fst]. rewrite IH. f_equal. }
  unfold m_add. rewrite P. destruct (has_pred _ _); [reflexivity|]. destruct label as [l|]; [destruct (has_label _ l)|]; reflexivity.
Qed.

(** ** The witnesses *)
(** [lambda s: s[8] == "_"] *)
Definition ninth (ts : pystr) : outcome bool := match nth_error ts 8 with Some c => Done (N.eqb c 95) | None => Raised IndexError (Ok false) end.
Definition marked : pred := mkPred (KFun ninth) (Some 60%N).
(** [lambda s: "uint" in table[s]] with a dict that lacks the string *)
Definition listed : pred := mkPred (KFun (fun _ => Raised KeyError (Ok false))) (Some 61%N).
Theorem unmatched_refuted :
  ~ (forall w w' p v label s, reachable w -> run (ORegisterEncoder (LPred p) v label) w = (ADone (Ok tt), w') -> hit p s = false ->
     fst (get_encoder s (fst w')) = fst (get_encoder s (fst w))).
Proof.
  intro H. specialize (H start (snd (run (ORegisterEncoder (LPred marked) (EClass CBool) None) start)) marked (EClass CBool) None (lit "uint256") start_reachable).
  assert (E : Err IndexError = Ok (EUInt 256 32)); [|discriminate E]. etransitivity; [|etransitivity; [apply H|]]; lazy; reflexivity.
Qed.
Definition in_order (p q : pred) : world := after [ORegisterEncoder (LPred p) (EClass CBool) None; ORegisterEncoder (LPred q) (EClass CBool) None] start.
Theorem order_refuted :
  ~ (forall w w' s, reachable w -> reachable w' -> Permutation (m_values (r_encs (fst w))) (m_values (r_encs (fst w'))) ->
     fst (get_encoder s (fst w)) = fst (get_encoder s (fst w'))).
Proof.
  intro H. specialize (H (in_order marked listed) (in_order listed marked) (lit "uint8") (reachable_after _ _ start_reachable) (reachable_after _ _ start_reachable)).
  assert (E : @Err encoder IndexError = Err KeyError); [|discriminate E]. etransitivity; [|etransitivity; [apply H|]]; [lazy; reflexivity| |lazy; reflexivity].
  assert (A : m_values (r_encs (fst (in_order marked listed))) = m_values (r_encs (fst start)) ++ [(marked, EClass CBool); (listed, EClass CBool)]) by (lazy; reflexivity).
  assert (B : m_values (r_encs (fst (in_order listed marked))) = m_values (r_encs (fst start)) ++ [(listed, EClass CBool); (marked, EClass CBool)]) by (lazy; reflexivity).
  rewrite A, B. apply Permutation_app_head, perm_swap.
Qed.
