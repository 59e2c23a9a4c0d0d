(** Lookups depend only on the registrations that match a type inside the type
    looked up; callables in tuples and arrays. *)
From Coq Require Import Permutation Strings.Byte Strings.String.
From Verif Require Import Tac Bytes BytesProofs Grammar GrammarSpec GrammarProofs NormalizeProofs Encoding Decoding Registry RaisingSpec CacheProofs
  Codec Histories HistoryProofs HeapProofs Spec TypeSpec TypeProofs TypeCases EncLeafProofs DecLeafProofs EncodeProofs DecodeProofs ReaderProofs ReadSpec LookupProofs ApiProofs
  DecodeFacts DecodeFacts2 ArgsProofs RegistrySpec RegistryProofs Threads ThreadProofs CustomSpec.
Open Scope Z_scope.

(** ** What a lookup depends on *)
Lemma plan_within_tuple ts cs : parse_tuple_type_str ts = Ok cs -> forall x c, In c cs -> within x (to_type_str c) -> within x ts.
Proof.
  unfold parse_tuple_type_str. destruct (parse (normalize ts)) as [t|e] eqn:P; [|discriminate]. cbn [bind]. destruct t as [|cs' arr]; [discriminate|].
  intro H. bok H. inv H. intros y c Hc Hy. eapply within_component; eassumption.
Qed.
Lemma plan_within_item ts t it : (t <- parse_type_str None true ts;; it <- item_type t;; Ok (t, it)) = Ok (t, it) ->
  forall x, within x (to_type_str it) -> within x ts.
Proof.
  intros H y Hy. bok H. rename Hx into P. bok H. inv H. unfold parse_type_str in P. destruct (parse (normalize ts)) as [u|e] eqn:Q; [|discriminate]. cbn [bind] in P.
  repeat (bok P). inv P. eapply within_item; eassumption.
Qed.
Lemma enc_plan_within c ts l build : enc_plan c ts = Ok (l, build) -> forall s x, In s l -> within x s -> within x ts.
Proof.
  unfold enc_plan. destruct (enc_leaf_from_type_str c ts); [intro H; inv H; contradiction|].
  assert (Arr : forall b : abi_type -> list encoder -> result encoder,
    (' (t, it) <- (t <- parse_type_str None true ts;; it <- item_type t;; Ok (t, it));; Ok ([to_type_str it], b t)) = Ok (l, build) -> forall s x, In s l -> within x s -> within x ts).
  { intro b. destruct (t <- parse_type_str None true ts;; it <- item_type t;; Ok (t, it)) as [[t it]|e] eqn:P; [|discriminate]. cbn [bind]. intro H. inv H.
    intros s x [<-|[]] Hx. eapply plan_within_item; eassumption. }
  destruct c; try exact (Arr (fun t es => match es with [ie] => _ | _ => _ end)).
  destruct (parse_tuple_type_str ts) as [cs|e] eqn:P; [|discriminate]. cbn [bind]. intro H. inv H. intros s x Hs Hx. apply in_map_iff in Hs. destruct Hs as (c & <- & Hc).
  eapply plan_within_tuple; eassumption.
Qed.
Lemma dec_plan_within c ts l build : dec_plan c ts = Ok (l, build) -> forall s x, In s l -> within x s -> within x ts.
Proof.
  unfold dec_plan. destruct (dec_leaf_from_type_str c ts); [intro H; inv H; contradiction|].
  assert (Arr : forall b : abi_type -> list decoder -> result decoder,
    (' (t, it) <- (t <- parse_type_str None true ts;; it <- item_type t;; Ok (t, it));; Ok ([to_type_str it], b t)) = Ok (l, build) -> forall s x, In s l -> within x s -> within x ts).
  { intro b. destruct (t <- parse_type_str None true ts;; it <- item_type t;; Ok (t, it)) as [[t it]|e] eqn:P; [|discriminate]. cbn [bind]. intro H. inv H.
    intros s x [<-|[]] Hx. eapply plan_within_item; eassumption. }
  destruct c; try exact (Arr (fun t es => match es with [ie] => _ | _ => _ end)).
  destruct (parse_tuple_type_str ts) as [cs|e] eqn:P; [|discriminate]. cbn [bind]. intro H. inv H. intros s x Hs Hx. apply in_map_iff in Hs. destruct Hs as (c & <- & Hc).
  eapply plan_within_tuple; eassumption.
Qed.
Lemma sequence_ext {A} (f f' : pystr -> result A) l : (forall s, In s l -> f s = f' s) -> sequenceM (lift f) l tt = sequenceM (lift f') l tt.
Proof.
  induction l as [|s l IH]; intro H; [reflexivity|]. cbn [sequenceM]. unfold lift at 1 3. rewrite (H s) by (left; reflexivity).
  destruct (f' s); [|reflexivity]. rewrite IH by (intros s' H'; apply H; right; exact H'). reflexivity.
Qed.
Theorem find_encoder_local m m' s : (forall x, within x s -> m_find m x = m_find m' x) -> find_encoder m s = find_encoder m' s.
Proof.
  remember (opens s) as n eqn:En. revert s En. induction n as [n IH] using lt_wf_ind. intros s En H. rewrite !find_encoder_eq.
  assert (B : base_get_registration m s = base_get_registration m' s) by (unfold base_get_registration; rewrite H by constructor; reflexivity).
  rewrite B. destruct (base_get_registration m' s) as [[c|e]|e]; try reflexivity. rewrite !enc_plan_ok. destruct (enc_plan c s) as [[l build]|e] eqn:P; [|reflexivity].
  rewrite (sequence_ext (find_encoder m) (find_encoder m')); [reflexivity|]. intros s' Hs'. pose proof (enc_plan_opens _ _ _ _ P) as O. rewrite Forall_forall in O.
  specialize (O s' Hs'). apply (IH (opens s')); [lia|reflexivity|]. intros x Hx. apply H. eapply enc_plan_within; eassumption.
Qed.
Theorem find_decoder_local m m' s : (forall x, within x s -> m_find m x = m_find m' x) -> forall k, find_decoder m k s = find_decoder m' k s.
Proof.
  remember (opens s) as n eqn:En. revert s En. induction n as [n IH] using lt_wf_ind. intros s En H k. rewrite !find_decoder_eq.
  assert (B : base_get_registration m s = base_get_registration m' s) by (unfold base_get_registration; rewrite H by constructor; reflexivity).
  rewrite B. destruct (base_get_registration m' s) as [[c|e]|e]; try reflexivity. rewrite !dec_plan_ok. destruct (dec_plan c s) as [[l build]|e] eqn:P; [|reflexivity].
  rewrite (sequence_ext (find_decoder m None) (find_decoder m' None)); [reflexivity|]. intros s' Hs'. pose proof (dec_plan_opens _ _ _ _ P) as O. rewrite Forall_forall in O.
  specialize (O s' Hs'). apply (IH (opens s')); [lia|reflexivity|]. intros x Hx. apply H. eapply dec_plan_within; eassumption.
Qed.
(** The registrations whose matcher does not answer no. *)
Definition speaks (x : pystr) (p : pred) : bool := match pred_call p x with Done false => false | _ => true end.
Definition matching {V} (m : mapping V) (x : pystr) : list (pred * V) := filter (fun pv => speaks x (fst pv)) (m_values m).
Lemma scan_matching {V} (m : mapping V) x : m_scan (matching m x) x = m_scan (m_values m) x.
Proof.
  unfold matching. induction (m_values m) as [|[p v] l IH]; [reflexivity|]. cbn [filter fst m_scan]. unfold speaks at 1.
  destruct (pred_call p x) as [[]|] eqn:E; cbn [m_scan]; rewrite ?E, ?IH; try reflexivity. destruct (m_scan l x); reflexivity.
Qed.
Lemma matching_find {V} (m m' : mapping V) x : matching m x = matching m' x -> m_find m x = m_find m' x.
Proof. intro H. unfold m_find. rewrite <- (scan_matching m x), <- (scan_matching m' x), H. reflexivity. Qed.
Theorem lookup_local w w' s : reachable w -> reachable w' ->
  (forall x, within x s -> matching (r_encs (fst w)) x = matching (r_encs (fst w')) x) ->
  fst (get_encoder s (fst w)) = fst (get_encoder s (fst w')).
Proof.
  intros R R' H. apply reachable_caches in R, R'. destruct R as [Ce _], R' as [Ce' _].
  destruct (get_encoder_pure (fst w) s Ce) as (? & -> & _), (get_encoder_pure (fst w') s Ce') as (? & -> & _). cbn [fst].
  apply find_encoder_local. intros y Hy. exact (matching_find _ _ y (H y Hy)).
Qed.
Theorem lookup_local_decoder w w' k s : reachable w -> reachable w' ->
  (forall x, within x s -> matching (r_decs (fst w)) x = matching (r_decs (fst w')) x) ->
  fst (get_decoder k s w) = fst (get_decoder k s w').
Proof.
  intros R R' H. apply reachable_caches in R, R'. destruct R as [_ Cd], R' as [_ Cd'].
  destruct (get_decoder_pure w k s Cd) as (? & -> & _), (get_decoder_pure w' k s Cd') as (? & -> & _). cbn [fst].
  apply find_decoder_local. intros y Hy. exact (matching_find _ _ y (H y Hy)).
Qed.
(** The order of registrations does not matter, unless a matcher raises. *)
Theorem order_irrelevant w w' s : reachable w -> reachable w' -> (forall x, within x s -> none_raises (r_encs (fst w)) x /\ none_raises (r_decs (fst w)) x) ->
  Permutation (m_values (r_encs (fst w))) (m_values (r_encs (fst w'))) -> Permutation (m_values (r_decs (fst w))) (m_values (r_decs (fst w'))) ->
  fst (get_encoder s (fst w)) = fst (get_encoder s (fst w')) /\ (forall k, fst (get_decoder k s w) = fst (get_decoder k s w')).
Proof.
  intros R R' Q Pe Pd. apply reachable_caches in R, R'. destruct R as [Ce Cd], R' as [Ce' Cd']. split.
  - destruct (get_encoder_pure (fst w) s Ce) as (? & -> & _), (get_encoder_pure (fst w') s Ce') as (? & -> & _). cbn [fst].
    apply find_encoder_local. intros t Ht. apply m_find_perm; [apply Q; exact Ht|exact Pe].
  - intro k. destruct (get_decoder_pure w k s Cd) as (? & -> & _), (get_decoder_pure w' k s Cd') as (? & -> & _). cbn [fst].
    apply find_decoder_local. intros t Ht. apply m_find_perm; [apply Q; exact Ht|exact Pd].
Qed.
Lemma matching_add {V} (m : mapping V) p v label x : matching (snd (m_add m p v label)) x =
  matching m x ++ match fst (m_add m p v label) with Ok _ => if speaks x p then [(p, v)] else [] | Err _ => [] end.
Proof.
  destruct (m_add_cases m p v label) as [[E _]|[E _]]; rewrite E; cbn [fst snd]; [rewrite app_nil_r; reflexivity|].
  unfold matching. cbn [m_values]. rewrite filter_app. cbn [filter fst]. reflexivity.
Qed.
Definition lookup_pred (l : lookup) : option pred := match l with LPred p => Some p | LStr s => Some (mkPred (KEquals s) None) | LOther => None end.
Theorem register_elsewhere w l v label s : reachable w ->
  (forall p x, lookup_pred l = Some p -> within x s -> pred_call p x = Done false) ->
  fst (get_encoder s (fst (snd (run (ORegisterEncoder l v label) w)))) = fst (get_encoder s (fst w)).
Proof.
  intros R H. apply lookup_local; [apply (R_run (ORegisterEncoder l v label)); exact R|exact R|]. intros x Hx.
  cbn [run]. unfold on_registry, register_encoder. cbn [set_ecache r_encs].
  assert (M : matching (snd (base_register (r_encs (fst w)) l v label)) x = matching (r_encs (fst w)) x).
  { destruct l as [t|p|]; cbn [base_register lookup_pred] in *; [| |reflexivity]; rewrite matching_add; unfold speaks; rewrite (H _ _ eq_refl Hx);
      match goal with |- _ ++ match ?a with _ => _ end = _ => destruct a end; apply app_nil_r. }
  destruct (base_register (r_encs (fst w)) l v label) as [r m']. exact M.
Qed.
Theorem register_decoder_elsewhere w l v label k s : reachable w ->
  (forall p x, lookup_pred l = Some p -> within x s -> pred_call p x = Done false) ->
  fst (get_decoder k s (snd (run (ORegisterDecoder l v label) w))) = fst (get_decoder k s w).
Proof.
  intros R H. apply lookup_local_decoder; [apply (R_run (ORegisterDecoder l v label)); exact R|exact R|]. intros x Hx.
  cbn [run]. unfold on_registry, register_decoder. cbn [set_dcache r_decs].
  assert (M : matching (snd (base_register (r_decs (fst w)) l v label)) x = matching (r_decs (fst w)) x).
  { destruct l as [t|p|]; cbn [base_register lookup_pred] in *; [| |reflexivity]; rewrite matching_add; unfold speaks; rewrite (H _ _ eq_refl Hx);
      match goal with |- _ ++ match ?a with _ => _ end = _ => destruct a end; apply app_nil_r. }
  destruct (base_register (r_decs (fst w)) l v label) as [r m']. exact M.
Qed.
Lemma matching_del {V} (m : mapping V) labels p x : (forall q v, In (q, v) (m_values m) -> pred_eqb q p = true -> pred_call q x = Done false) ->
  matching (mkMapping (del_value m p) labels) x = matching m x.
Proof.
  unfold matching, del_value. cbn [m_values]. intro H. induction (m_values m) as [|[q v] l IH]; [reflexivity|]. cbn [filter fst].
  rewrite <- IH by (intros q' v' I; apply (H q' v'); right; exact I).
  destruct (pred_eqb q p) eqn:E; cbn [negb filter fst]; [unfold speaks at 2; rewrite (H q v (or_introl eq_refl) E); reflexivity|]. destruct (speaks x q); reflexivity.
Qed.
(** The matchers an unregister call can remove. *)
Definition removes {V} (m : mapping V) (l : lookup) (q : pred) : Prop :=
  match l with
  | LPred p => pred_eqb q p = true
  | LStr t => exists p, find (fun lp => str_eqb (fst lp) t) (m_labels m) = Some (t, p) /\ pred_eqb q p = true
  | LOther => False
  end.
Lemma matching_unregister {V} (m : mapping V) l x : (forall q v, In (q, v) (m_values m) -> removes m l q -> pred_call q x = Done false) ->
  matching (snd (base_unregister m l)) x = matching m x.
Proof.
  intro H. destruct l as [t|p|]; cbn [base_unregister]; [| |reflexivity].
  - unfold m_remove_by_label. cbn [removes] in H. destruct (find _ (m_labels m)) as [[t' p]|] eqn:F; [|reflexivity].
    assert (t' = t) by (apply find_some in F; cbn [fst] in F; apply str_eqb_eq, F). subst t'.
    destruct (has_pred _ p); [|reflexivity]. cbn [snd m_labels]. apply (matching_del (mkMapping (m_values m) _)). cbn [m_values]. intros q v I E. eapply H; [exact I|eauto].
  - unfold m_remove_by_equality. cbn [removes] in H. destruct (has_pred m p); [|reflexivity]. destruct (find _ (m_labels m)) as [[t q]|]; cbn [snd]; apply matching_del; exact H.
Qed.
Theorem unregister_elsewhere w l s : reachable w ->
  (forall q v x, In (q, v) (m_values (r_encs (fst w))) -> removes (r_encs (fst w)) l q -> within x s -> pred_call q x = Done false) ->
  fst (get_encoder s (fst (snd (run (OUnregisterEncoder l) w)))) = fst (get_encoder s (fst w)).
Proof.
  intros R H. apply lookup_local; [apply (R_run (OUnregisterEncoder l)); exact R|exact R|]. intros x Hx.
  cbn [run]. unfold on_registry, unregister_encoder. cbn [set_ecache r_encs].
  pose proof (matching_unregister (r_encs (fst w)) l x (fun q v I E => H q v x I E Hx)) as M. destruct (base_unregister (r_encs (fst w)) l) as [r m']. exact M.
Qed.
Theorem unregister_decoder_elsewhere w l k s : reachable w ->
  (forall q v x, In (q, v) (m_values (r_decs (fst w))) -> removes (r_decs (fst w)) l q -> within x s -> pred_call q x = Done false) ->
  fst (get_decoder k s (snd (run (OUnregisterDecoder l) w))) = fst (get_decoder k s w).
Proof.
  intros R H. apply lookup_local_decoder; [apply (R_run (OUnregisterDecoder l)); exact R|exact R|]. intros x Hx.
  cbn [run]. unfold on_registry, unregister_decoder. cbn [set_dcache r_decs].
  pose proof (matching_unregister (r_decs (fst w)) l x (fun q v I E => H q v x I E Hx)) as M. destruct (base_unregister (r_decs (fst w)) l) as [r m']. exact M.
Qed.

(** ** Supported types are made of supported types *)
Lemma map_result_in {A B} (f : A -> result B) l ys x : map_result f l = Ok ys -> In x l -> exists y, f x = Ok y.
Proof.
  revert ys. induction l as [|a l IH]; intros ys H; [contradiction|]. change (map_result f (a :: l)) with (y <- f a ;; ys <- map_result f l ;; Ok (y :: ys)) in H.
  bok H. rename Hx into E. bok H. intros [<-|I]; [eauto|]. eapply IH; eassumption.
Qed.
Lemma supported_tree s t : supported s t -> exists U, parse (normalize s) = Ok U /\ resolve U = Ok t /\ ast_ok U /\ expand U = U.
Proof.
  intro S. apply supported_iff in S. destruct S as (U & P & L). exists (expand U). rewrite (parse_normalize s U P). split; [reflexivity|].
  unfold lookup_sty in L. destruct (bare_byte U); [discriminate|]. split; [exact L|]. split; [apply expand_ok; apply parse_iff in P; apply P|apply expand_idem].
Qed.
Lemma tree_supported U t : ast_ok U -> expand U = U -> resolve U = Ok t -> supported (to_type_str U) t.
Proof.
  intros A E R. apply supported_iff. exists U. rewrite (parse_print_ast U A). split; [reflexivity|]. unfold lookup_sty. rewrite (bare_byte_expanded U E), E. exact R.
Qed.
Lemma normalized_tree s U : parse (normalize s) = Ok U -> ast_ok U /\ expand U = U.
Proof.
  intro P. destruct (parse s) as [U0|e] eqn:P0; [|rewrite (parse_normalize_err s e P0) in P; discriminate]. rewrite (parse_normalize s U0 P0) in P. inv P.
  split; [apply expand_ok; apply parse_iff in P0; apply P0|apply expand_idem].
Qed.
Lemma component_tree cs arr c : ast_ok (Tup cs arr) -> expand (Tup cs arr) = Tup cs arr -> In c cs -> ast_ok c /\ expand c = c.
Proof.
  intros A E I. split; [inv A; take (Forall ast_ok cs) as F; rewrite Forall_forall in F; auto|]. cbn [expand] in E. inversion E as [M]. clear E.
  clear -M I. induction cs as [|x l IH]; [contradiction|].
  cbn [map] in M. injection M as M1 M2. destruct I as [<-|I]; [exact M1|]. apply IH; assumption.
Qed.
Lemma item_tree U it : ast_ok U -> expand U = U -> item_type U = Ok it -> ast_ok it /\ expand it = it.
Proof.
  intros A E I. split; [eapply item_type_facts; eassumption|]. assert (Ne : arrlist_of U <> []) by (intro N; destruct U as [b sub arr|ts arr]; cbn in N; subst arr; discriminate I).
  rewrite (item_set_arr U Ne) in I. inv I. rewrite expand_set_arr, E. reflexivity.
Qed.
Theorem supported_within s t x : supported s t -> within x s -> exists t', supported x t'.
Proof.
  intros S W. revert t S. induction W as [|s cs arr c P I W IH|s U it P I W IH]; intros t S; [eauto| |].
  - destruct (supported_tree s t S) as (U & P' & R & A & E). rewrite P in P'. inv P'. cbn [resolve] in R. bok R. clear Hx. bok R.
    destruct (map_result_in _ _ _ c Hx I) as [t' Rc]. destruct (component_tree _ _ _ A E I) as [Ac Ec]. exact (IH t' (tree_supported c t' Ac Ec Rc)).
  - destruct (supported_tree s t S) as (U' & P' & R & A & E). rewrite P in P'. inv P'. destruct (item_tree _ _ A E I) as [Ai Ei].
    assert (Ne : arrlist_of U' <> []) by (intro N; destruct U' as [b sub arr|ts arr]; cbn in N; subst arr; discriminate I).
    rewrite (item_set_arr U' Ne) in I. inv I. rewrite (resolve_arr U' Ne) in R. bok R. clear Hx. bok R. exact (IH _ (tree_supported _ _ Ai Ei Hx)).
Qed.

(** ** The default registry with a pair of callables *)
Definition std_labels : list pystr :=
  [lit "uint"; lit "int"; lit "address"; lit "bool"; lit "ufixed"; lit "fixed"; lit "bytes<M>"; lit "bytes"; lit "function"; lit "string";
   lit "has_arrlist"; lit "is_base_tuple"].
Lemma std_labels_of : map fst (m_labels (encs false)) = std_labels /\ map fst (m_labels decs) = std_labels.
Proof. split; reflexivity. Qed.
Lemma fresh_label T : fresh_name T -> ~ In T std_labels.
Proof.
  intros (b & sub & P & _ & _ & N) I. unfold std_labels in I. cbn [In] in I.
  repeat (destruct I as [<-|I]; [vm_compute in P; first [discriminate P|injection P as <- <-; apply N; cbn [registered_names In]; tauto]|]). exact I.
Qed.
Lemma has_label_in {V} (m : mapping V) T : ~ In T (map fst (m_labels m)) -> has_label m T = false.
Proof.
  intro N. destruct (has_label m T) eqn:E; [|reflexivity]. destruct N. unfold has_label in E. apply existsb_exists in E. destruct E as (x & I & E).
  apply str_eqb_eq in E. subst T. apply in_map. exact I.
Qed.
Lemma fresh_class T : fresh_name T -> exists b sub, parse T = Ok (Basic b sub []) /\ class_of (Basic b sub []) = None.
Proof.
  intros (b & sub & P & _ & _ & N). exists b, sub. split; [exact P|]. cbn [class_of]. unfold std_class.
  base_cases b; try (exfalso; apply N; cbn [registered_names In]; tauto).
  repeat match goal with E : str_eqb b ?x = false |- _ => rewrite E; clear E end. reflexivity.
Qed.
Lemma no_equals {V} off (vs : list V) labels T i : length vs = 12%nat -> has_pred (mkMapping (combine (std_preds off) vs) labels) (mkPred (KEquals T) i) = false.
Proof. intro L. do 12 (destruct vs as [|? vs]; [discriminate|]). reflexivity. Qed.
Lemma fresh_add_enc T v : fresh_name T -> exists m, m_add (encs false) (mkPred (KEquals T) None) v (Some T) = (Ok tt, m).
Proof.
  intro F. unfold m_add. assert (H : has_pred (encs false) (mkPred (KEquals T) None) = false).
  { pose proof (encs_values false) as E. destruct (encs false) as [values labels]. cbn [m_values] in E. subst values. apply no_equals. reflexivity. }
  rewrite H, has_label_in by (rewrite (proj1 std_labels_of); apply fresh_label; exact F). eauto.
Qed.
Lemma fresh_add_dec T v : fresh_name T -> exists m, m_add decs (mkPred (KEquals T) None) v (Some T) = (Ok tt, m).
Proof.
  intro F. unfold m_add. assert (H : has_pred decs (mkPred (KEquals T) None) = false).
  { pose proof decs_values as E. destruct decs as [values labels]. cbn [m_values] in E. subst values. apply no_equals. reflexivity. }
  rewrite H, has_label_in by (rewrite (proj2 std_labels_of); apply fresh_label; exact F). eauto.
Qed.
Theorem callables_register T f g w0 : fresh_name T -> used false w0 ->
  fst (run (ORegister (LStr T) (EInst (ECallable f)) (DInst (DCallable g)) None) w0) = ADone (Ok tt).
Proof.
  intros F U. destruct (used_spec _ _ U) as (Ee & Ed & _). rewrite run_register. cbn [run]. unfold on_registry, register_encoder, register_decoder.
  cbn [set_ecache r_encs base_register]. rewrite Ee. destruct (fresh_add_enc T (EInst (ECallable f)) F) as [m ->]. cbn [done fst snd set_encs set_dcache set_ecache r_decs base_register].
  rewrite Ed. change (decs_of false) with decs. destruct (fresh_add_dec T (DInst (DCallable g)) F) as [m' ->]. reflexivity.
Qed.
Definition extends_enc (T : pystr) (v : enc_reg) (m : mapping enc_reg) : Prop :=
  m_find m T = Done v /\ forall x, x <> T -> m_find m x = m_find (encs false) x.
Definition extends_dec (T : pystr) (v : dec_reg) (m : mapping dec_reg) : Prop :=
  m_find m T = Done v /\ forall x, x <> T -> m_find m x = m_find decs x.
Theorem callables_state T f g w : fresh_name T -> with_callables T f g w ->
  extends_enc T (EInst (ECallable f)) (r_encs (fst w)) /\ extends_dec T (DInst (DCallable g)) (r_decs (fst w)) /\ caches_ok (fst w).
Proof.
  intros F (w0 & qs & U & Q & ->). destruct (used_spec _ _ U) as (Ee & Ed & C). set (o := ORegister (LStr T) (EInst (ECallable f)) (DInst (DCallable g)) None).
  assert (C1 : caches_ok (fst (snd (run o w0)))) by (apply run_caches; exact C).
  destruct (after_keeps qs Q (snd (run o w0)) C1) as (Ke & Kd & Kc). rewrite Ke, Kd. split; [|split; [|exact Kc]]; clear Ke Kd Kc C1;
    unfold o; rewrite run_register; cbn [run]; unfold on_registry, register_encoder, register_decoder; cbn [set_ecache r_encs base_register];
    rewrite Ee; destruct (fresh_add_enc T (EInst (ECallable f)) F) as [m Em]; rewrite Em; cbn [done fst snd set_encs set_dcache set_ecache r_decs base_register];
    rewrite Ed; change (decs_of false) with decs; destruct (fresh_add_dec T (DInst (DCallable g)) F) as [m' Em']; rewrite Em'; cbn [fst snd set_decs set_dcache set_encs set_ecache r_encs r_decs].
  - split.
    + unfold m_find. rewrite (add_scan _ _ _ _ _ T Em), scan_encs. cbn [pred_call pkind]. rewrite str_eqb_refl. destruct (fresh_class T F) as (b & sub & P & N). rewrite P, N. reflexivity.
    + intros x Nx. unfold m_find. rewrite (add_scan _ _ _ _ _ x Em), scan_encs. cbn [pred_call pkind]. destruct (str_eqb T x) eqn:E; [apply str_eqb_eq in E; congruence|]. rewrite app_nil_r. reflexivity.
  - split.
    + unfold m_find. rewrite (add_scan _ _ _ _ _ T Em'), scan_decs. cbn [pred_call pkind]. rewrite str_eqb_refl. destruct (fresh_class T F) as (b & sub & P & N). rewrite P, N. reflexivity.
    + intros x Nx. unfold m_find. rewrite (add_scan _ _ _ _ _ x Em'), scan_decs. cbn [pred_call pkind]. destruct (str_eqb T x) eqn:E; [apply str_eqb_eq in E; congruence|]. rewrite app_nil_r. reflexivity.
Qed.
Lemma fresh_unsupported T t : fresh_name T -> ~ supported T t.
Proof.
  intros F S. destruct (fresh_class T F) as (b & sub & P & N). pose proof (find_enc_supported false T t S) as E. rewrite find_encoder_eq, registration_encs, P, N in E. discriminate.
Qed.
Lemma known_enc T v m s t : fresh_name T -> extends_enc T v m -> supported s t -> find_encoder m s = Ok (enc_of false t).
Proof.
  intros F [_ H] S. rewrite <- (find_enc_supported false s t S). apply find_encoder_local. intros x W. apply H. intros ->.
  destruct (supported_within s t T S W) as [t' S']. exact (fresh_unsupported T t' F S').
Qed.
Lemma known_dec T v m k s t : fresh_name T -> extends_dec T v m -> supported s t -> find_decoder m k s = Ok (dec_of (strict_of k) t).
Proof.
  intros F [_ H] S. rewrite <- (find_dec_supported k s t S). apply find_decoder_local. intros x W. apply H. intros ->.
  destruct (supported_within s t T S W) as [t' S']. exact (fresh_unsupported T t' F S').
Qed.
Lemma name_enc T f m : extends_enc T (EInst (ECallable f)) m -> find_encoder m T = Ok (ECallable f).
Proof. intros [H _]. rewrite find_encoder_eq. unfold base_get_registration. rewrite H. reflexivity. Qed.
Lemma name_dec T g m k : extends_dec T (DInst (DCallable g)) m -> find_decoder m k T = Ok (DCallable g).
Proof. intros [H _]. rewrite find_decoder_eq. unfold base_get_registration. rewrite H. reflexivity. Qed.

(** *** Compound types *)
Lemma tree_parse s U : parse (normalize s) = Ok U -> exists U0, parse s = Ok U0 /\ U = expand U0.
Proof.
  intro P. destruct (parse s) as [U0|e] eqn:P0; [|rewrite (parse_normalize_err s e P0) in P; discriminate]. rewrite (parse_normalize s U0 P0) in P. inv P. eauto.
Qed.
Lemma tuple_registration T v u m m' s cs : fresh_name T -> extends_enc T v m -> extends_dec T u m' -> parse (normalize s) = Ok (Tup cs []) ->
  base_get_registration m s = Ok (EClass CTuple) /\ base_get_registration m' s = Ok (DClass CDTuple).
Proof.
  intros (b & sub & _ & P & _) [_ H] [_ H'] Ps. assert (N : s <> T) by (intros ->; congruence). unfold base_get_registration. rewrite (H s N), (H' s N).
  destruct (tree_parse s _ Ps) as (U0 & P0 & E). destruct U0 as [b0 sub0 arr0|cs0 arr0]; cbn [expand] in E.
  - destruct sub0; try discriminate E. destruct (alias_of b0) as [[b1 sub1]|]; discriminate E.
  - inversion E as [[Ec Ea]]. subst arr0. rewrite (find_encs false s _ P0), (find_decs s _ P0). split; reflexivity.
Qed.
Lemma array_registration T v u m m' s U : fresh_name T -> extends_enc T v m -> extends_dec T u m' -> parse (normalize s) = Ok U -> arrlist_of U <> [] ->
  base_get_registration m s = Ok (EClass CBaseArray) /\ base_get_registration m' s = Ok (DClass CDBaseArray).
Proof.
  intros (b & sub & _ & P & _) [_ H] [_ H'] Ps Ne. assert (N : s <> T) by (intros ->; rewrite P in Ps; inv Ps; apply Ne; reflexivity).
  unfold base_get_registration. rewrite (H s N), (H' s N). destruct (tree_parse s _ Ps) as (U0 & P0 & E).
  assert (C : class_of U0 = Some (CBaseArray, CDBaseArray)).
  { subst U. rewrite arrlist_expand in Ne. destruct U0 as [b0 sub0 [|d arr0]|cs0 [|d arr0]]; cbn [arrlist_of] in Ne; try congruence; reflexivity. }
  rewrite (find_encs false s _ P0), (find_decs s _ P0), C. split; reflexivity.
Qed.
Definition valid_tree (s : pystr) : Prop := exists U, parse (normalize s) = Ok U /\ validate_type U = Ok tt.
Lemma validate_components cs : Forall (fun c => validate_type c = Ok tt) cs -> forall arr, validate_type (Tup cs arr) = Ok tt.
Proof.
  intros F arr. cbn [validate_type]. induction F as [|c cs H F IH]; [reflexivity|]. rewrite H. exact IH.
Qed.
Lemma resolve_valid U t : resolve U = Ok t -> validate_type U = Ok tt.
Proof.
  destruct U as [b sub [|d arr]|ts arr]; cbn [resolve validate_type]; intro R.
  - unfold resolve_basic in R. destruct (std_class b sub); [|discriminate]. destruct (str_eqb b (lit "function")); [discriminate|]. bok R. destruct x. exact Hx.
  - bok R. destruct x. exact Hx.
  - bok R. destruct x. exact Hx.
Qed.
Lemma supported_valid s t : supported s t -> valid_tree s.
Proof. intro S. destruct (supported_tree s t S) as (U & P & R & _). exists U. split; [exact P|eapply resolve_valid; exact R]. Qed.
Lemma tuple_valid s cs : parse (normalize s) = Ok (Tup cs []) -> Forall valid_tree (map to_type_str cs) -> valid_tree s /\ parse_tuple_type_str s = Ok cs.
Proof.
  intros P F. assert (V : validate_type (Tup cs []) = Ok tt).
  { apply validate_components. destruct (normalized_tree s _ P) as [A E]. apply Forall_forall. intros c I. destruct (component_tree _ _ _ A E I) as [Ac Ec].
    rewrite Forall_forall in F. destruct (F (to_type_str c)) as (U & Pc & V); [apply in_map; exact I|].
    rewrite (parse_normalize _ _ (parse_print_ast c Ac)), Ec in Pc. inv Pc. exact V. }
  split; [eexists; eauto|]. unfold parse_tuple_type_str. rewrite P. cbn [bind]. rewrite V. reflexivity.
Qed.
Lemma piece_valid T f : fresh_name T -> (forall s v p, piece T f s v p -> valid_tree s) /\ (forall ss l ps, pieces T f ss l ps -> Forall valid_tree ss).
Proof.
  intro F. assert (VT : valid_tree T) by (destruct F as (b & sub & _ & P & V & _); eexists; eauto).
  apply (piece_pieces_ind T f (fun s v p => valid_tree s) (fun ss l ps => Forall valid_tree ss)); auto.
  - intros s t v a S _. eapply supported_valid; exact S.
  - intros s cs v l ps P _ _ IH. exact (proj1 (tuple_valid s cs P IH)).
Qed.

(** *** Encoding *)
Section EncodePieces.
Variables (T : pystr) (f : pyval -> result bytes) (m : mapping enc_reg).
Hypotheses (F : fresh_name T) (X : extends_enc T (EInst (ECallable f)) m).
Definition enc_does (e : encoder) (v : pyval) (p : bool * bytes) : Prop :=
  enc_is_dyn e = fst p /\ (validate_value e v = Ok tt \/ (validate_value e v = Err AttributeError /\ exists b, encode_with e v = Ok b))
  /\ (len (snd p) < 2 ^ 256 -> encode_with e v = Ok (snd p)).
Lemma tuple_does es l ps v : Forall3 enc_does es l ps -> seq_like v l -> enc_does (ETuple es) v (existsb fst ps, head_tail ps).
Proof.
  intros D S. destruct (seq_like_items v l S) as (I & L & _).
  assert (V : validate_value (ETuple es) v = Ok tt).
  { unfold validate_value. cbn [ve fst]. unfold tuple_validate. rewrite L, I. cbn [negb]. rewrite len_map. destruct (Forall3_len _ _ _ _ D) as [E1 E2].
    destruct (Z.eqb_spec (len l) (len es)); [|lia]. cbn [negb]. clear -D. induction D as [|e u p es l ps (_ & [V|[V [b B]]] & _) D IH]; [reflexivity| |]; cbn [map tuple_validate_items].
    - unfold validate_value in V. destruct (ve e) as [val enc]. cbn [fst] in V. rewrite V. exact IH.
    - unfold validate_value, encode_with in *. destruct (ve e) as [val enc]. cbn [fst snd] in *. rewrite V, B. exact IH. }
  split; [|split; [left; exact V|]].
  - unfold enc_is_dyn. cbn [enc_dyn_attr fst]. clear -D. induction D as [|e u p es l ps (E & _) D IH]; [reflexivity|]. cbn [existsb]. rewrite IH. f_equal. exact E.
  - cbn [snd]. intro Hl. unfold encode_with. cbn [ve snd]. change (tuple_validate (map ve es) v) with (validate_value (ETuple es) v). rewrite V. cbn [bind]. rewrite I.
    assert (B : Forall (fun p : bool * bytes => len (snd p) < 2 ^ 256) ps) by (apply Forall_forall; intros p Ip; pose proof (part_len_le p ps Ip); lia).
    replace (tuple_chunks _ l) with (@Ok (list (option bytes * bytes)) (map chunk ps)); [cbn [bind]; apply join_chunks_head_tail; exact Hl|]. clear -D B. symmetry.
    induction D as [|e u p es l ps (E & _ & C) D IH]; [reflexivity|]. inv B. cbn [map combine tuple_chunks].
    rewrite E. unfold encode_with in C. destruct (ve e) as [val enc]. cbn [snd] in *. rewrite C by assumption. cbn [bind]. rewrite IH by assumption. cbn [bind].
    destruct p as [[] b]; reflexivity.
Qed.
Lemma seq_find ss es : Forall2 (fun s e => find_encoder m s = Ok e) ss es -> sequenceM (lift (find_encoder m)) ss tt = (Ok es, tt).
Proof. induction 1 as [|s e ss es H Q IH]; [reflexivity|]. cbn [sequenceM]. unfold lift at 1. rewrite H, IH. reflexivity. Qed.
Lemma piece_encodes :
  (forall s v p, piece T f s v p -> exists e, find_encoder m s = Ok e /\ enc_does e v p)
  /\ (forall ss l ps, pieces T f ss l ps -> exists es, Forall2 (fun s e => find_encoder m s = Ok e) ss es /\ Forall3 enc_does es l ps).
Proof.
  apply (piece_pieces_ind T f (fun s v p => exists e, find_encoder m s = Ok e /\ enc_does e v p)
    (fun ss l ps => exists es, Forall2 (fun s e => find_encoder m s = Ok e) ss es /\ Forall3 enc_does es l ps)).
  - intros v b H. exists (ECallable f). split; [apply (name_enc T); exact X|]. split; [reflexivity|]. split; [right; split; [reflexivity|exists b; exact H]|intros _; exact H].
  - intros s t v a S D. exists (enc_of false t). split; [eapply known_enc; eassumption|]. split; [apply (enc_is_dyn_of false t)|].
    destruct (denotes_encodes false t v a (supported_wf s t S) D) as [V E]. split; [left; exact V|exact E].
  - intros s cs v l ps P S Ps (es & Fe & D). exists (ETuple es). split; [|apply (tuple_does es l); assumption].
    destruct (tuple_valid s cs P (proj2 (piece_valid T f F) _ _ _ Ps)) as [_ PT].
    rewrite find_encoder_eq. assert (R : base_get_registration m s = Ok (EClass CTuple)).
    { destruct F as (b & sub & _ & P' & _). destruct X as [_ H]. assert (N : s <> T) by (intros ->; congruence). unfold base_get_registration. rewrite (H s N).
      destruct (tree_parse s _ P) as (U0 & P0 & E). destruct U0 as [b0 sub0 arr0|cs0 arr0]; cbn [expand] in E.
      - destruct sub0; try discriminate E. destruct (alias_of b0) as [[b1 sub1]|]; discriminate E.
      - inversion E as [[Ec Ea]]. subst arr0. rewrite (find_encs false s _ P0). reflexivity. }
    rewrite R. unfold enc_from_type_str. cbn [enc_leaf_from_type_str]. rewrite PT, (seq_find _ _ Fe). reflexivity.
  - exists []. split; constructor.
  - intros s ss v l p ps _ (e & He & D) _ (es & Fe & Ds). exists (e :: es). split; constructor; assumption.
Qed.
End EncodePieces.
Theorem callables_encode T f g w types ss args l ps : fresh_name T -> with_callables T f g w -> seq_like types (map PStr ss) -> seq_like args l ->
  pieces T f ss l ps -> len (head_tail ps) < 2 ^ 256 -> encode_in w types args = Ok (head_tail ps).
Proof.
  intros F W St Sa P L. destruct (callables_state T f g w F W) as (X & _ & C & _). destruct (proj2 (piece_encodes T f _ F X) _ _ _ P) as (es & Fe & D).
  unfold encode_in. destruct (api_encode_pure types args (fst w) C) as (r & -> & _). cbn [fst]. unfold pure_encode. rewrite (proj2 (list_like types _) St). cbn [bind].
  rewrite (proj2 (list_like args _) Sa). cbn [bind]. replace (mapM (find_py (find_encoder (r_encs (fst w)))) (map PStr ss)) with (@Ok (list encoder) es).
  - cbn [bind]. apply (tuple_does es l ps args D Sa). exact L.
  - clear -Fe. symmetry. induction Fe as [|s e ss es H Q IH]; [reflexivity|]. cbn [map mapM find_py]. rewrite H. cbn [bind]. rewrite IH. reflexivity.
Qed.
Theorem callables_encodable T f g w s v p : fresh_name T -> with_callables T f g w -> piece T f s v p -> len (snd p) < 2 ^ 256 ->
  is_encodable_type_in w (PStr s) = Ok true /\ is_encodable_in w (PStr s) v = Ok true.
Proof.
  intros F W P L. destruct (callables_state T f g w F W) as (X & _ & C & _). destruct (proj1 (piece_encodes T f _ F X) _ _ _ P) as (e & He & _ & V & E). split.
  - unfold is_encodable_type_in. destruct (api_is_encodable_type_pure (PStr s) (fst w) C) as (r & -> & _). cbn [fst]. unfold pure_has. cbn [find_py]. rewrite He. reflexivity.
  - unfold is_encodable_in. destruct (api_is_encodable_pure (PStr s) v (fst w) C) as (r & -> & _). cbn [fst]. unfold pure_is_encodable. cbn [find_py]. rewrite He.
    unfold check_encodable. destruct V as [->|[-> _]]; [reflexivity|]. rewrite (E L). reflexivity.
Qed.

(** *** Decoding *)
Section DecodePieces.
Variables (h : heap) (buf : bytes).
Hypothesis Hbuf : len buf <= maxsize.
Definition dec_does (d : decoder) (p : bool * bytes) (q : pyval) : Prop :=
  dec_is_dyn d = fst p /\ is_headtail d = false /\ 32 * array_size_attr (wrap d) <= head_size p /\ (32 <= head_size p /\ 1 <= len (snd p))
  /\ forall st, located buf (pos st) (snd p) -> (fst p = true -> total st = pos st) ->
     exists p', decode_with h d buf st = Ok (q, mkStream p' (frames st) (total st)) /\ (fst p = false -> p' = pos st + len (snd p)).
Lemma wrap_does d p q : dec_does d p q -> is_headtail (wrap d) = fst p.
Proof. intros (D & N & _). unfold wrap. rewrite D. destruct (fst p); [reflexivity|exact N]. Qed.
Lemma member_does d p q start off st : dec_does d p q -> 0 <= start -> 0 <= off -> 0 <= pos st ->
  (fst p = true -> total st = start /\ located buf (pos st) (word off) /\ located buf (start + off) (snd p)) ->
  (fst p = false -> located buf (pos st) (snd p)) ->
  decode_with h (wrap d) buf st = Ok (q, mkStream (pos st + head_size p) (frames st) (total st)).
Proof.
  intros (D & _ & _ & L & E) Hs Ho Hp Hd Hn. unfold wrap, head_size. rewrite D. destruct (fst p) eqn:Dp.
  - destruct (Hd eq_refl) as (Ht & Lw & Lb). clear Hd Hn. pose proof (located_bounds _ _ _ Lw) as B1. pose proof (located_bounds _ _ _ Lb) as B2. rewrite word_len in B1.
    cbn [decode_with]. rewrite decode_uint_256_eq by lia. rewrite (located_word buf (pos st) off Lw) by (pose proof maxsize_lt; lia). cbn [bind].
    unfold push_frame, seek_in_frame. cbn [total adv pos frames]. rewrite Ht, seek_ok by lia. cbn [bind frames total]. rewrite Z.add_0_r.
    match goal with |- context [decode_with h d buf ?x] => destruct (E x) as (p' & -> & _) end; [exact Lb|reflexivity|]. cbn [bind].
    unfold pop_frame. cbn [frames total]. rewrite seek_ok by lia. cbn [bind frames total]. do 3 f_equal. lia.
  - destruct (E st (Hn eq_refl) ltac:(discriminate)) as (p' & -> & Hp'). rewrite (Hp' eq_refl). reflexivity.
Qed.
Lemma members_does start hi ds ps qs : Forall3 dec_does ds ps qs -> 0 <= start ->
  forall off st, 0 <= off -> 0 <= pos st -> (existsb fst ps = true -> total st = start) ->
  located buf (pos st) (heads off ps) -> located buf (start + off) (tails ps) ->
  go h buf (map wrap ds) st = Ok (qs, mkStream (pos st + heads_size ps) (frames st) (total st))
  /\ (hi <= start + off -> vp h buf start hi (map wrap ds) st = Ok (mkStream (pos st + heads_size ps) (frames st) (total st))).
Proof.
  intros F Hs. induction F as [|d p q ds ps qs D F IH]; intros off st Ho Hp Ht Lh Lt.
  - cbn. rewrite Z.add_0_r. destruct st; auto.
  - cbn [map go vp heads_size existsb] in *. rewrite (wrap_does d p q D). destruct p as [dyn b].
    assert (M : decode_with h (wrap d) buf st = Ok (q, mkStream (pos st + head_size (dyn, b)) (frames st) (total st))).
    { apply (member_does d (dyn, b) q start off st D Hs Ho Hp); cbn [fst snd] in *; intros ->; cbn [heads tails orb] in *.
      - split; [apply Ht; reflexivity|]. split; eapply located_app_l; eassumption.
      - eapply located_app_l; eassumption. }
    rewrite M. cbn [bind]. pose proof D as (_ & _ & _ & Ls & _). cbn [fst snd] in *.
    set (st' := mkStream (pos st + head_size (dyn, b)) (frames st) (total st)).
    assert (Lh' : located buf (pos st') (heads (if dyn then off + len b else off) ps) /\ located buf (start + (if dyn then off + len b else off)) (tails ps)).
    { unfold st', head_size. cbn [pos fst snd]. destruct dyn; cbn [heads tails] in Lh, Lt.
      - apply located_app_r in Lh, Lt. rewrite word_len in Lh. rewrite Z.add_assoc. auto.
      - apply located_app_r in Lh. auto. }
    destruct Lh' as [Lh' Lt']. assert (Hh : 0 <= head_size (dyn, b)) by (unfold head_size; cbn [fst snd]; destruct dyn; lia).
    destruct (IH (if dyn then off + len b else off) st') as [G V]; [destruct dyn; lia|unfold st'; cbn [pos]; lia|unfold st'; cbn [total]; intro Q; apply Ht; rewrite Q; apply orb_true_r|exact Lh'|exact Lt'|].
    rewrite G. cbn [bind]. assert (A : pos st + (head_size (dyn, b) + heads_size ps) = pos st' + heads_size ps) by (unfold st'; cbn [pos]; lia). rewrite A. split; [reflexivity|].
    intro Hhi. specialize (V ltac:(destruct dyn; lia)). destruct dyn.
    + cbn [heads tails] in Lh, Lt. pose proof (located_bounds _ _ _ (located_app_l _ _ _ _ Lh)) as B1. pose proof (located_bounds _ _ _ (located_app_l _ _ _ _ Lt)) as B2. rewrite word_len in B1.
      unfold check_pointer. rewrite decode_uint_256_eq by lia. rewrite (located_word buf (pos st) off) by (try (pose proof maxsize_lt; lia); eapply located_app_l; exact Lh). cbn [bind].
      destruct (Z.ltb_spec (start + off) hi); [lia|]. destruct (Z.leb_spec (len buf) (start + off)); [lia|]. cbn [orb bind].
      unfold adv. exact V.
    + exact V.
Qed.
Lemma dtuple_does ds ps qs : ds <> [] -> Forall3 dec_does ds ps qs -> dec_does (mk_dtuple ds) (existsb fst ps, head_tail ps) (PTuple qs).
Proof.
  intros Ne F. unfold dec_does. cbn [fst snd]. assert (Hge : Forall (fun p : bool * bytes => 32 <= head_size p) ps).
  { clear -F. induction F as [|d p q ds ps qs (_ & _ & _ & (L & _) & _) F IH]; constructor; [exact L|exact IH]. }
  apply heads_size_ge in Hge. assert (Lp : 32 <= len (head_tail ps)).
  { rewrite len_head_tail. pose proof (len_nonneg (tails ps)). destruct F as [|d p q ds ps qs]; [congruence|]. lens. pose proof (len_nonneg ps). lia. }
  split; [|split; [reflexivity|split; [|split; [split; [unfold head_size; cbn [fst snd]; destruct (existsb fst ps); lia|lia]|]]]].
  - unfold dec_is_dyn, mk_dtuple. cbn [dec_dyn_attr]. clear -F. induction F as [|d p q ds ps qs D F IH]; [reflexivity|]. cbn [map existsb]. rewrite IH. f_equal.
    destruct D as (D & _). fold (dec_is_dyn (wrap d)). unfold wrap. destruct (dec_is_dyn d) eqn:Q; [cbn; congruence|congruence].
  - unfold wrap. destruct (dec_is_dyn (mk_dtuple ds)); cbn [array_size_attr mk_dtuple]; unfold head_size; cbn [fst snd]; destruct (existsb fst ps); lia.
  - intros st L Ht. pose proof (located_bounds _ _ _ L) as B. unfold head_tail in L. pose proof (located_app_l _ _ _ _ L) as Lh. apply located_app_r in L. rewrite len_heads in L.
    unfold mk_dtuple. rewrite decode_tuple_eq. set (n := fold_right _ 0 _).
    assert (Hn : 32 * n <= heads_size ps).
    { unfold n. clear -F. induction F as [|d p q ds ps qs (_ & _ & A & _) F IH]; [reflexivity|]. cbn [map fold_right heads_size]. lia. }
    destruct (members_does (pos st) (pos st + 32 * n) ds ps qs F (proj1 B) (heads_size ps) st (heads_size_nonneg ps) (proj1 B) Ht Lh L) as [G V].
    rewrite V by lia. cbn [bind]. rewrite seek_ok by lia. cbn [bind frames total]. replace (mkStream (pos st) (frames st) (total st)) with st by (destruct st; reflexivity).
    rewrite G. cbn [bind]. eexists. split; [reflexivity|]. intro S. rewrite len_head_tail. rewrite tails_all_static; [cbn [len]; change (len (@nil byte)) with 0; lia|].
    clear -S. induction ps as [|p ps IH]; constructor; cbn [existsb] in S; apply orb_false_iff in S; [apply S|apply IH; apply S].
Qed.
End DecodePieces.
Lemma known_does h buf s t a : len buf <= maxsize -> wf t -> has_type t a -> dec_does h buf (dec_of s t) (sdyn t, spec_enc t a) (py_of t a).
Proof.
  intros Hb W H. unfold dec_does. cbn [fst snd]. split; [apply dec_is_dyn_of|]. split; [destruct t; reflexivity|].
  split; [rewrite array_size_of; exact (slots_le t a W H)|]. split; [pose proof (spec_enc_len_ge t a W H); unfold head_size; cbn [fst snd]; destruct (sdyn t); lia|].
  intros st L Ht. pose proof (located_bounds _ _ _ L) as B. pose proof (pd_refines h buf Hb t W s st ltac:(pose proof (len_nonneg (spec_enc t a)); lia) Ht) as R.
  rewrite (pd_complete buf Hb t W s a (pos st) H L) in R. destruct R as (p' & -> & _ & Q). exists p'. split; [reflexivity|]. intro D. rewrite (Q D), spec_enc_static by assumption. reflexivity.
Qed.
Lemma with_strict_tuple k ds : with_strict k (mk_dtuple ds) = mk_dtuple ds.
Proof. unfold with_strict. destruct (dec_is_dyn (mk_dtuple ds)); reflexivity. Qed.
Section DecodeBack.
Variables (T : pystr) (g : bytes -> stream -> result (pyval * stream)) (m : mapping dec_reg).
Hypotheses (F : fresh_name T) (X : extends_dec T (DInst (DCallable g)) m).
Lemma back_valid : (forall s p q, back T g s p q -> valid_tree s) /\ (forall ss ps qs, backs T g ss ps qs -> Forall valid_tree ss).
Proof.
  assert (VT : valid_tree T) by (destruct F as (b & sub & _ & P & V & _); eexists; eauto).
  apply (back_backs_ind T g (fun s p q => valid_tree s) (fun ss ps qs => Forall valid_tree ss)); auto.
  - intros s t a q S _ _. eapply supported_valid; exact S.
  - intros s cs ps qs P _ IH. exact (proj1 (tuple_valid s cs P IH)).
Qed.
Lemma seq_find_dec ss ds : Forall2 (fun s d => find_decoder m None s = Ok d) ss ds -> sequenceM (lift (find_decoder m None)) ss tt = (Ok ds, tt).
Proof. induction 1 as [|s e ss es H Q IH]; [reflexivity|]. cbn [sequenceM]. unfold lift at 1. rewrite H, IH. reflexivity. Qed.
Lemma back_decodes h buf : len buf <= maxsize ->
  (forall s p q, back T g s p q -> exists q', back T g s p q' /\ forall k, exists d, find_decoder m k s = Ok d /\ dec_does h buf d p q')
  /\ (forall ss ps qs, backs T g ss ps qs -> exists qs', backs T g ss ps qs' /\ forall k, exists ds, Forall2 (fun s d => find_decoder m k s = Ok d) ss ds /\ Forall3 (dec_does h buf) ds ps qs').
Proof.
  intro Hb. apply (back_backs_ind T g
    (fun s p q => exists q', back T g s p q' /\ forall k, exists d, find_decoder m k s = Ok d /\ dec_does h buf d p q')
    (fun ss ps qs => exists qs', backs T g ss ps qs' /\ forall k, exists ds, Forall2 (fun s d => find_decoder m k s = Ok d) ss ds /\ Forall3 (dec_does h buf) ds ps qs')).
  - intros b q L H. exists q. split; [constructor; assumption|]. intro k. exists (DCallable g). split; [apply (name_dec T); exact X|].
    unfold dec_does. cbn. split; [reflexivity|]. split; [reflexivity|]. split; [unfold head_size; cbn [fst snd]; lia|]. split; [unfold head_size; cbn [fst snd]; lia|].
    intros st Lo _. exists (pos st + len b). split; [apply H; exact Lo|reflexivity].
  - intros s t a q S H C. pose proof (supported_wf s t S) as W. exists (py_of t a). split; [apply back_known; [assumption..|apply py_of_canon; assumption]|].
    intro k. exists (dec_of (strict_of k) t). split; [eapply known_dec; eassumption|apply known_does; assumption].
  - intros s cs ps qs P B (qs' & B' & D). exists (PTuple qs'). split; [eapply back_tuple; eassumption|]. intro k. destruct (D None) as (ds & Fd & Do).
    exists (mk_dtuple ds). split.
    + destruct (tuple_valid s cs P (proj2 back_valid _ _ _ B)) as [_ PT]. rewrite find_decoder_eq.
      assert (R : base_get_registration m s = Ok (DClass CDTuple)).
      { destruct F as (b & sub & _ & P' & _). destruct X as [_ H]. assert (N : s <> T) by (intros ->; congruence). unfold base_get_registration. rewrite (H s N).
        destruct (tree_parse s _ P) as (U0 & P0 & E). destruct U0 as [b0 sub0 arr0|cs0 arr0]; cbn [expand] in E.
        - destruct sub0; try discriminate E. destruct (alias_of b0) as [[b1 sub1]|]; discriminate E.
        - inversion E as [[Ec Ea]]. subst arr0. rewrite (find_decs s _ P0). reflexivity. }
      rewrite R. unfold dec_from_type_str. cbn [dec_leaf_from_type_str]. rewrite PT, (seq_find_dec _ _ Fd). cbn [fst]. rewrite with_strict_tuple. reflexivity.
    + apply dtuple_does; [exact Hb| |exact Do]. destruct (normalized_tree s _ P) as [A _]. inv A. take (cs <> []) as Ne. clear -Ne Fd. intros ->. inv Fd. destruct cs; [congruence|discriminate].
  - exists []. split; [constructor|]. intro k. exists []. split; constructor.
  - intros s ss p ps q qs _ (q' & B & D) _ (qs' & Bs & Ds). exists (q' :: qs'). split; [constructor; assumption|]. intro k.
    destruct (D k) as (d & Hd & Dd), (Ds k) as (ds & Hds & Dds). exists (d :: ds). split; constructor; assumption.
Qed.
End DecodeBack.
Theorem callables_decode T f g w types ss data b ps qs post strict : fresh_name T -> with_callables T f g w -> seq_like types (map PStr ss) ->
  backs T g ss ps qs -> bytes_like data b -> b = head_tail ps ++ post -> len b <= maxsize ->
  exists qs', decode_in w types data strict = Ok (PTuple qs') /\ backs T g ss ps qs'.
Proof.
  intros F W St B Sd Eb L. destruct (callables_state T f g w F W) as (_ & X & _ & C). unfold decode_in.
  destruct (api_decode_pure types data strict w C) as (w' & -> & _). cbn [fst]. unfold pure_decoders. rewrite (proj2 (list_like types _) St), (proj2 (bytes_param data b) Sd). cbn [bind].
  destruct (proj2 (back_decodes T g _ F X (snd w') b L) _ _ _ B) as (qs' & B' & D). destruct (D (Some strict)) as (ds & Fd & Do). exists qs'. split; [|exact B'].
  replace (mapM (find_py (find_decoder (r_decs (fst w)) (Some strict))) (map PStr ss)) with (@Ok (list decoder) ds)
    by (clear -Fd; symmetry; induction Fd as [|s e ss es H Q IH]; [reflexivity|]; cbn [map mapM find_py]; rewrite H; cbn [bind]; rewrite IH; reflexivity).
  cbn [bind]. destruct ds as [|d ds].
  - inv Fd. inv B'. inv Do. reflexivity.
  - destruct (dtuple_does (snd w') b L (d :: ds) ps qs' ltac:(discriminate) Do) as (_ & _ & _ & _ & E). cbn [fst snd] in E.
    destruct (E new_stream) as (p' & -> & _); [exists [], post; auto|reflexivity|]. reflexivity.
Qed.

(** *** Arrays of callables *)
Lemma array_parse T s d : fresh_name T -> array_of T s d ->
  (t <- parse_type_str None true s;; it <- item_type t;; Ok (t, it)) = (t <- parse (normalize s) ;; t' <- parse T ;; Ok (t, t'))
  /\ (exists t t', parse (normalize s) = Ok t /\ last (arrlist_of t) None = d /\ parse T = Ok t' /\ to_type_str t' = T /\ arrlist_of t <> []).
Proof.
  intros (b0 & sub0 & P0 & _ & V & _) (b & sub & P & Ps). rewrite P in P0. inv P0. split.
  - unfold parse_type_str. rewrite Ps, P. cbn [bind arrlist_of negb andb raise_if validate_type]. cbn [validate_type] in V. rewrite V. reflexivity.
  - exists (Basic b0 sub0 [d]), (Basic b0 sub0 []). rewrite Ps, P. split; [reflexivity|]. split; [reflexivity|]. split; [reflexivity|]. split; [symmetry; apply parse_iff; exact P|discriminate].
Qed.
Lemma array_encoder T f m s d : fresh_name T -> extends_enc T (EInst (ECallable f)) m -> array_of T s d ->
  find_encoder m s = match d with Some _ => Err AttributeError | None => Ok (EDyn (ECallable f)) end.
Proof.
  intros F X A. destruct (array_parse T s d F A) as [E (t & t' & Pt & Ld & P' & E' & Ne)]. rewrite find_encoder_eq.
  assert (R : base_get_registration m s = Ok (EClass CBaseArray)).
  { destruct X as [_ H]. assert (N : s <> T) by (intros ->; destruct F as (b & sub & _ & P & _); rewrite P in Pt; inv Pt; apply Ne; reflexivity).
    unfold base_get_registration. rewrite (H s N). destruct (tree_parse s _ Pt) as (U0 & P0 & Q). rewrite (find_encs false s _ P0).
    subst t. rewrite arrlist_expand in Ne. destruct U0 as [b0 sub0 [|d0 arr0]|cs0 [|d0 arr0]]; cbn [arrlist_of] in Ne; try congruence; reflexivity. }
  rewrite R. unfold enc_from_type_str. cbn [enc_leaf_from_type_str]. rewrite E, Pt, P'. cbn [bind]. unfold lift. rewrite E', (name_enc T f m X), Ld.
  destruct d; reflexivity.
Qed.
Lemma array_decoder T g m k s d : fresh_name T -> extends_dec T (DInst (DCallable g)) m -> array_of T s d -> find_decoder m k s = Err AttributeError.
Proof.
  intros F X A. destruct (array_parse T s d F A) as [E (t & t' & Pt & Ld & P' & E' & Ne)]. rewrite find_decoder_eq.
  assert (R : base_get_registration m s = Ok (DClass CDBaseArray)).
  { destruct X as [_ H]. assert (N : s <> T) by (intros ->; destruct F as (b & sub & _ & P & _); rewrite P in Pt; inv Pt; apply Ne; reflexivity).
    unfold base_get_registration. rewrite (H s N). destruct (tree_parse s _ Pt) as (U0 & P0 & Q). rewrite (find_decs s _ P0).
    subst t. rewrite arrlist_expand in Ne. destruct U0 as [b0 sub0 [|d0 arr0]|cs0 [|d0 arr0]]; cbn [arrlist_of] in Ne; try congruence; reflexivity. }
  rewrite R. unfold dec_from_type_str. cbn [dec_leaf_from_type_str]. rewrite E, Pt, P'. cbn [bind]. unfold lift. rewrite E', (name_dec T g m None X), Ld.
  destruct d; reflexivity.
Qed.
Theorem callables_arrays T f g w s d : fresh_name T -> with_callables T f g w -> array_of T s d ->
  is_encodable_type_in w (PStr s) = Ok (match d with None => true | Some _ => false end)
  /\ (forall v vs, len (v :: vs) < 2 ^ 256 -> encode_in w (PList [PStr s]) (PList [PList (v :: vs)]) = Err AttributeError)
  /\ (forall data b strict, bytes_like data b -> decode_in w (PList [PStr s]) data strict = Err AttributeError).
Proof.
  intros F W A. destruct (callables_state T f g w F W) as (Xe & Xd & Ce & Cd). pose proof (array_encoder T f _ s d F Xe A) as E. split; [|split].
  - unfold is_encodable_type_in. destruct (api_is_encodable_type_pure (PStr s) (fst w) Ce) as (r & -> & _). cbn [fst]. unfold pure_has. cbn [find_py]. rewrite E. destruct d; reflexivity.
  - intros v vs Lv. unfold encode_in. destruct (api_encode_pure (PList [PStr s]) (PList [PList (v :: vs)]) (fst w) Ce) as (r & -> & _). cbn [fst]. unfold pure_encode.
    cbn [validate_list_like_param bind mapM find_py]. rewrite E. destruct d; [reflexivity|]. cbn [bind]. unfold encode_with. cbn [ve fst snd map]. unfold tuple_validate.
    cbn [is_list_like items negb]. replace (len [PList (v :: vs)] =? len [_]) with true by reflexivity. cbn [negb tuple_validate_items].
    unfold array_validate. cbn [is_list_like negb items validate_all bind]. cbn [py_len bind]. unfold encode_elements, array_validate. cbn [is_list_like negb items validate_all bind].
    rewrite encode_uint_256_word by (pose proof (len_nonneg (v :: vs)); lia). reflexivity.
  - intros data b strict B. unfold decode_in. destruct (api_decode_pure (PList [PStr s]) data strict w Cd) as (w' & -> & _). cbn [fst]. unfold pure_decoders.
    cbn [validate_list_like_param bind mapM find_py]. rewrite (proj2 (bytes_param data b) B). cbn [bind mapM find_py]. rewrite (array_decoder T g _ _ s d F Xd A). reflexivity.
Qed.
