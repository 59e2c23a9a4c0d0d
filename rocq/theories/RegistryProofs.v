(** Registrations: the two tables of PredicateMapping against lists of entries,
    and the laws of registration. *)
From Coq Require Import Permutation Strings.String.
From Verif Require Import Tac Bytes Address Grammar Encoding Decoding Registry RaisingSpec Codec Histories RegistrySpec
  CacheProofs LookupProofs ApiProofs HistoryProofs HeapProofs.
Open Scope Z_scope.

(** ** Equality of matchers *)
Lemma opt_bool_eqb_eq a b : opt_bool_eqb a b = true <-> a = b.
Proof. destruct a as [[]|], b as [[]|]; cbn; split; congruence. Qed.
Lemma pid_eqb_eq a b : pid_eqb a b = true <-> a = b /\ a <> None.
Proof.
  destruct a as [x|], b as [y|]; cbn; try (split; [discriminate|intros [H H']; congruence]).
  rewrite N.eqb_eq. split; [intros ->; split; congruence|intros [H _]; congruence].
Qed.
Lemma str_eqb_refl s : str_eqb s s = true.
Proof. apply str_eqb_eq. reflexivity. Qed.
Lemma str_eqb_sym a b : str_eqb a b = str_eqb b a.
Proof. destruct (str_eqb a b) eqn:E, (str_eqb b a) eqn:F; try reflexivity; [apply str_eqb_eq in E|apply str_eqb_eq in F]; subst; rewrite str_eqb_refl in *; congruence. Qed.
Lemma pred_eqb_sym p q : pred_eqb p q = pred_eqb q p.
Proof.
  destruct p as [[a|a wa| | |f] i], q as [[b|b wb| | |g] j]; cbn; try reflexivity; try apply str_eqb_sym.
  - rewrite str_eqb_sym. f_equal. destruct wa as [[]|], wb as [[]|]; reflexivity.
  - destruct i, j; cbn; try reflexivity. apply N.eqb_sym.
Qed.
Lemma pred_eqb_trans p q r : pred_eqb p q = true -> pred_eqb q r = true -> pred_eqb p r = true.
Proof.
  destruct p as [[a|a wa| | |f] i], q as [[b|b wb| | |g] j], r as [[c|c wc| | |h] k]; cbn; try discriminate; try reflexivity;
    rewrite ?andb_true_iff, ?str_eqb_eq, ?opt_bool_eqb_eq, ?pid_eqb_eq; intuition congruence.
Qed.
Definition real (p : pred) : Prop := pred_eqb p p = true.
Lemma held_real p : pid p <> None -> real p.
Proof. unfold real. destruct p as [[a|a wa| | |f] i]; cbn; intro H; rewrite ?str_eqb_refl; try reflexivity; [destruct wa as [[]|]; reflexivity|]. apply pid_eqb_eq. split; congruence. Qed.
Lemma equals_real s i : real (mkPred (KEquals s) i).
Proof. apply str_eqb_refl. Qed.
Lemma pred_is_eqb p q : pred_is p q = true -> pred_eqb p q = true.
Proof. unfold pred_is. rewrite andb_true_iff. tauto. Qed.

(** ** Entry lists *)
Section Entries.
Context {V : Type}.
Implicit Types es : list (entry V).
Definition distinct es : Prop :=
  ForallOrdPairs (fun x y => pred_eqb (e_pred x) (e_pred y) = false /\ (e_label x = None \/ e_label x <> e_label y)) es
  /\ Forall (fun x => real (e_pred x)) es.

Lemma has_pred_of es p : has_pred (mapping_of es) p = existsb (about p) es.
Proof. unfold has_pred, mapping_of. cbn [m_values]. induction es as [|x es IH]; [reflexivity|]. cbn. rewrite IH. reflexivity. Qed.
Lemma has_label_of es l : has_label (mapping_of es) l = existsb (labelled l) es.
Proof.
  unfold has_label, mapping_of. cbn [m_labels]. induction es as [|x es IH]; [reflexivity|]. cbn [flat_map]. rewrite existsb_app, IH. cbn [existsb].
  f_equal. unfold labelled. destruct (e_label x); cbn; [rewrite orb_false_r|]; reflexivity.
Qed.
Lemma mapping_app es es' : mapping_of (es ++ es') = mkMapping (m_values (mapping_of es) ++ m_values (mapping_of es')) (m_labels (mapping_of es) ++ m_labels (mapping_of es')).
Proof. unfold mapping_of. cbn [m_values m_labels]. rewrite map_app, flat_map_app. reflexivity. Qed.
Lemma add_of es p v label : m_add (mapping_of es) p v label = let '(r, es') := s_add es p label v in (r, mapping_of es').
Proof.
  unfold m_add, s_add. rewrite has_pred_of. destruct (existsb (about p) es); [reflexivity|]. cbn [orb]. destruct label as [l|].
  - rewrite has_label_of. destruct (existsb (labelled l) es); [reflexivity|]. rewrite mapping_app. reflexivity.
  - rewrite mapping_app. cbn [m_values m_labels mapping_of map flat_map e_label e_pred e_value app]. rewrite app_nil_r. reflexivity.
Qed.
Lemma fop_snoc {A} (R : A -> A -> Prop) l x : ForallOrdPairs R l -> Forall (fun y => R y x) l -> ForallOrdPairs R (l ++ [x]).
Proof.
  induction 1 as [|a l F O IH]; intro H; [repeat constructor|]. inv H. cbn. constructor; [apply Forall_app; split; [assumption|repeat constructor; assumption]|auto].
Qed.
Lemma add_distinct es p v label : distinct es -> real p -> distinct (snd (s_add es p label v)).
Proof.
  intros [O R] H. unfold s_add. destruct (_ || _) eqn:E; [split; assumption|]. cbn [snd]. apply orb_false_iff in E. destruct E as [E1 E2].
  split; [|apply Forall_app; split; [exact R|constructor; [exact H|constructor]]]. apply fop_snoc; [exact O|]. apply Forall_forall. intros x I. cbn [e_pred e_label].
  split.
  - destruct (pred_eqb (e_pred x) p) eqn:Q; [|reflexivity]. rewrite <- E1. symmetry. apply existsb_exists. exists x. split; [exact I|exact Q].
  - destruct label as [l|]; [|destruct (e_label x); [right; discriminate|left; reflexivity]].
    destruct (e_label x) as [l'|] eqn:L; [|left; reflexivity]. right. intro Q. injection Q as ->.
    assert (existsb (labelled l) es = true) by (apply existsb_exists; exists x; split; [exact I|unfold labelled; rewrite L; apply str_eqb_refl]). congruence.
Qed.
Lemma fop_filter {A} (R : A -> A -> Prop) f l : ForallOrdPairs R l -> ForallOrdPairs R (filter f l).
Proof.
  induction 1 as [|a l F O IH]; [constructor|]. cbn. destruct (f a); [|exact IH]. constructor; [|exact IH].
  rewrite Forall_forall in *. intros x I. apply filter_In in I. apply F. apply I.
Qed.
Lemma remove_distinct sel es : distinct es -> distinct (snd (s_remove sel es)).
Proof.
  intros [O R]. unfold s_remove. destruct (existsb sel es); [|split; assumption]. cbn [snd]. split; [apply fop_filter; exact O|].
  rewrite Forall_forall in *. intros x I. apply filter_In in I. apply R. apply I.
Qed.
Lemma del_value_of es p : del_value (mapping_of es) p = m_values (mapping_of (filter (fun x => negb (about p x)) es)).
Proof.
  unfold del_value, mapping_of. cbn [m_values]. induction es as [|x es IH]; [reflexivity|]. cbn [map filter fst]. unfold about at 1.
  destruct (pred_eqb (e_pred x) p); cbn [negb map]; rewrite IH; reflexivity.
Qed.
Lemma del_label_of es l : del_label (mapping_of es) l = flat_map (fun x => match e_label x with Some l' => if str_eqb l' l then [] else [(l', e_pred x)] | None => [] end) es.
Proof.
  unfold del_label, mapping_of. cbn [m_labels]. induction es as [|x es IH]; [reflexivity|]. cbn [flat_map]. rewrite filter_app, IH.
  f_equal. destruct (e_label x); [|reflexivity]. cbn. destruct (str_eqb p l); reflexivity.
Qed.
Lemma flat_map_ext_in {A B} (f g : A -> list B) l : (forall x, In x l -> f x = g x) -> flat_map f l = flat_map g l.
Proof. intro H. induction l as [|x l IH]; [reflexivity|]. cbn. rewrite H by (left; reflexivity). rewrite IH; [reflexivity|]. intros y I. apply H. right. exact I. Qed.
Lemma labels_filter es f : m_labels (mapping_of (filter f es)) =
  flat_map (fun x => if f x then match e_label x with Some l => [(l, e_pred x)] | None => [] end else []) es.
Proof. unfold mapping_of. cbn [m_labels]. induction es as [|x es IH]; [reflexivity|]. cbn. destruct (f x); cbn; rewrite IH; reflexivity. Qed.
Lemma distinct_pred es x y : distinct es -> In x es -> In y es -> pred_eqb (e_pred x) (e_pred y) = true -> x = y.
Proof.
  intros [O _] I J E. destruct (ForallOrdPairs_In O x y I J) as [->|[[H _]|[H _]]]; [reflexivity|congruence|rewrite pred_eqb_sym in H; congruence].
Qed.
Lemma distinct_label es x y l : distinct es -> In x es -> In y es -> e_label x = Some l -> e_label y = Some l -> x = y.
Proof.
  intros [O _] I J E F. destruct (ForallOrdPairs_In O x y I J) as [->|[[_ H]|[_ H]]]; [reflexivity|intuition congruence..].
Qed.
Lemma find_label es l : match find (fun lp => str_eqb (fst lp) l) (m_labels (mapping_of es)) with
  | Some (l', p) => exists x, In x es /\ e_label x = Some l /\ e_pred x = p
  | None => existsb (labelled l) es = false
  end.
Proof.
  unfold mapping_of. cbn [m_labels]. induction es as [|x es IH]; [reflexivity|]. cbn [flat_map existsb]. unfold labelled at 1.
  destruct (e_label x) as [l'|] eqn:L; cbn [app find fst].
  - destruct (str_eqb l' l) eqn:Q.
    + apply str_eqb_eq in Q. subst l'. exists x. split; [left; reflexivity|]. split; [exact L|reflexivity].
    + destruct (find _ _) as [[l2 p]|]; [|exact IH]. destruct IH as (y & I & H). exists y. split; [right; exact I|exact H].
  - destruct (find _ _) as [[l2 p]|]; [|exact IH]. destruct IH as (y & I & H). exists y. split; [right; exact I|exact H].
Qed.
Lemma mapping_ext a b es : a = m_values (mapping_of es) -> b = m_labels (mapping_of es) -> mkMapping a b = mapping_of es.
Proof. intros -> ->. reflexivity. Qed.
Lemma remove_label_of es l : distinct es -> m_remove_by_label (mapping_of es) l = let '(r, es') := s_remove (labelled l) es in (r, mapping_of es').
Proof.
  intro D. unfold m_remove_by_label, s_remove. pose proof (find_label es l) as F. destruct (find _ _) as [[l' p]|].
  - destruct F as (x & I & L & <-). assert (E : existsb (labelled l) es = true) by (apply existsb_exists; exists x; split; [exact I|unfold labelled; rewrite L; apply str_eqb_refl]).
    rewrite E. unfold has_pred. cbn [m_values m_labels]. fold (has_pred (mapping_of es) (e_pred x)). rewrite has_pred_of.
    assert (Ep : existsb (about (e_pred x)) es = true).
    { apply existsb_exists. exists x. split; [exact I|]. unfold about. destruct D as [_ R]. rewrite Forall_forall in R. exact (R x I). }
    rewrite Ep. f_equal. apply mapping_ext.
    + change (del_value (mkMapping (m_values (mapping_of es)) (del_label (mapping_of es) l)) (e_pred x)) with (del_value (mapping_of es) (e_pred x)).
      rewrite del_value_of. cbn [mapping_of m_values]. f_equal. apply filter_ext_in. intros y J. f_equal. unfold about, labelled.
      destruct (pred_eqb (e_pred y) (e_pred x)) eqn:Q.
      * apply (distinct_pred es y x D J I) in Q. subst y. rewrite L, str_eqb_refl. reflexivity.
      * destruct (e_label y) as [ly|] eqn:Ly; [|reflexivity]. destruct (str_eqb ly l) eqn:Ql; [|reflexivity]. apply str_eqb_eq in Ql. subst ly.
        rewrite (distinct_label es y x l D J I Ly L) in Q. destruct D as [_ R]. rewrite Forall_forall in R. pose proof (R x I) as Rx. unfold real in Rx. congruence.
    + rewrite del_label_of, labels_filter.
      apply flat_map_ext_in. intros y J. unfold labelled. destruct (e_label y) as [ly|]; [|reflexivity]. destruct (str_eqb ly l); reflexivity.
  - rewrite F. reflexivity.
Qed.
Lemma find_is es p : match find (fun lp => pred_is (snd lp) p) (m_labels (mapping_of es)) with
  | Some (l, _) => exists x, In x es /\ e_label x = Some l /\ pred_is (e_pred x) p = true
  | None => forall x, In x es -> pred_is (e_pred x) p = true -> e_label x = None
  end.
Proof.
  unfold mapping_of. cbn [m_labels]. induction es as [|x es IH]; [intros x []|]. cbn [flat_map].
  destruct (e_label x) as [l'|] eqn:L; cbn [app find snd].
  - destruct (pred_is (e_pred x) p) eqn:Q; [exists x; split; [left; reflexivity|]; split; [exact L|exact Q]|].
    destruct (find _ _) as [[l2 q]|].
    + destruct IH as (y & I & H). exists y. split; [right; exact I|exact H].
    + intros y [<-|I] H; [congruence|]. apply IH; assumption.
  - destruct (find _ _) as [[l2 q]|].
    + destruct IH as (y & I & H). exists y. split; [right; exact I|exact H].
    + intros y [<-|I] H; [exact L|]. apply IH; assumption.
Qed.
Lemma remove_pred_of es p : distinct es -> same_object es (LPred p) ->
  m_remove_by_equality (mapping_of es) p = let '(r, es') := s_remove (about p) es in (r, mapping_of es').
Proof.
  intros D S. cbn [same_object] in S. unfold m_remove_by_equality, s_remove. rewrite has_pred_of. destruct (existsb (about p) es) eqn:E; [|reflexivity].
  rewrite del_value_of. pose proof (find_is es p) as F. destruct (find _ _) as [[l q]|].
  - destruct F as (x & I & L & Q). f_equal. apply mapping_ext; [reflexivity|]. rewrite del_label_of, labels_filter.
    apply flat_map_ext_in. intros y J. unfold about. apply pred_is_eqb in Q.
    destruct (e_label y) as [ly|] eqn:Ly; [|destruct (negb _); reflexivity]. destruct (str_eqb ly l) eqn:Ql.
    + apply str_eqb_eq in Ql. subst ly. rewrite (distinct_label es y x l D J I Ly L), Q. reflexivity.
    + destruct (pred_eqb (e_pred y) p) eqn:Qy; [|reflexivity]. exfalso.
      assert (y = x) by (apply (distinct_pred es y x D J I); eapply pred_eqb_trans; [exact Qy|rewrite pred_eqb_sym; exact Q]). subst y.
      rewrite Ly in L. inv L. rewrite str_eqb_refl in Ql. discriminate.
  - f_equal. apply mapping_ext; [reflexivity|]. rewrite labels_filter.
    unfold mapping_of. cbn [m_labels]. apply flat_map_ext_in. intros y J. destruct (about p y) eqn:A; [|reflexivity]. cbn [negb].
    destruct (S y J A) as [->|H]; [reflexivity|]. rewrite (F y J H). reflexivity.
Qed.
Lemma register_of es l v label : base_register (mapping_of es) l v label = let '(r, es') := s_register es l v label in (r, mapping_of es').
Proof. destruct l as [s|p|]; cbn [base_register s_register]; [apply add_of|apply add_of|reflexivity]. Qed.
Lemma unregister_of es l : distinct es -> same_object es l -> base_unregister (mapping_of es) l = let '(r, es') := s_unregister es l in (r, mapping_of es').
Proof. intros D S. destruct l as [s|p|]; cbn [base_unregister s_unregister]; [apply remove_label_of; exact D|apply remove_pred_of; assumption|reflexivity]. Qed.
Lemma register_distinct es l v label : distinct es -> held l -> distinct (snd (s_register es l v label)).
Proof. intros D H. destruct l as [s|p|]; cbn [s_register]; [apply add_distinct; [exact D|apply equals_real]|apply add_distinct; [exact D|apply held_real; exact H]|exact D]. Qed.
Lemma unregister_distinct es l : distinct es -> distinct (snd (s_unregister es l)).
Proof. intros D. destruct l as [s|p|]; cbn [s_unregister]; [apply remove_distinct; exact D..|exact D]. Qed.
End Entries.

(** ** Registries *)
Definition fits (st : spec_state) : Prop := distinct (fst st) /\ distinct (snd st).
Lemma same_registrations_refl w : same_registrations w w.
Proof. split; reflexivity. Qed.
Lemma query_same o w : query o -> caches_ok (fst w) -> same_registrations w (snd (run o w)).
Proof. intros Q C. destruct (query_keeps o w Q C) as (A & B & _). split; assumption. Qed.
Lemma spec_query o st : query o -> spec_update o st = (Ok tt, st).
Proof. destruct o; cbn; intro H; try contradiction; reflexivity. Qed.

Lemma run_register_encoder w l v label es : r_encs (fst w) = mapping_of es ->
  run (ORegisterEncoder l v label) w = (ADone (fst (s_register es l v label)),
    (mkRegistry (mapping_of (snd (s_register es l v label))) (r_decs (fst w)) [] (r_dcache (fst w)), snd w)).
Proof.
  intro E. cbn [run]. unfold on_registry, register_encoder. cbn [set_ecache r_encs]. rewrite E, register_of.
  destruct (s_register es l v label); reflexivity.
Qed.
Lemma run_unregister_encoder w l es : r_encs (fst w) = mapping_of es -> distinct es -> same_object es l ->
  run (OUnregisterEncoder l) w = (ADone (fst (s_unregister es l)),
    (mkRegistry (mapping_of (snd (s_unregister es l))) (r_decs (fst w)) [] (r_dcache (fst w)), snd w)).
Proof.
  intros E D S. cbn [run]. unfold on_registry, unregister_encoder. cbn [set_ecache r_encs]. rewrite E, unregister_of by assumption.
  destruct (s_unregister es l); reflexivity.
Qed.
Lemma run_register_decoder w l v label es : r_decs (fst w) = mapping_of es ->
  run (ORegisterDecoder l v label) w = (ADone (fst (s_register es l v label)),
    (mkRegistry (r_encs (fst w)) (mapping_of (snd (s_register es l v label))) (r_ecache (fst w)) [], snd w)).
Proof.
  intro E. cbn [run]. unfold on_registry, register_decoder. cbn [set_dcache r_decs]. rewrite E, register_of.
  destruct (s_register es l v label); reflexivity.
Qed.
Lemma run_unregister_decoder w l es : r_decs (fst w) = mapping_of es -> distinct es -> same_object es l ->
  run (OUnregisterDecoder l) w = (ADone (fst (s_unregister es l)),
    (mkRegistry (r_encs (fst w)) (mapping_of (snd (s_unregister es l))) (r_ecache (fst w)) [], snd w)).
Proof.
  intros E D S. cbn [run]. unfold on_registry, unregister_decoder. cbn [set_dcache r_decs]. rewrite E, unregister_of by assumption.
  destruct (s_unregister es l); reflexivity.
Qed.
(** The two-sided calls are the one-sided ones in sequence. *)
Definition done (a : answer) : result unit := match a with ADone r => r | _ => Ok tt end.
Lemma run_register w l e d label : run (ORegister l e d label) w =
  let '(a, w1) := run (ORegisterEncoder l e label) w in
  match done a with Ok _ => run (ORegisterDecoder l d label) w1 | Err x => (ADone (Err x), w1) end.
Proof.
  cbn [run]. unfold on_registry, register. destruct (register_encoder l e label (fst w)) as [[[]|x] r1]; cbn [fst snd done]; reflexivity.
Qed.
Lemma run_unregister w l : run (OUnregister l) w =
  let '(a, w1) := run (OUnregisterEncoder l) w in
  match done a with Ok _ => run (OUnregisterDecoder l) w1 | Err x => (ADone (Err x), w1) end.
Proof.
  cbn [run]. unfold on_registry, unregister. destruct (unregister_encoder l (fst w)) as [[[]|x] r1]; cbn [fst snd done]; reflexivity.
Qed.

Ltac fin := split; [reflexivity|]; split; [split; (assumption || reflexivity)|
  split; cbn [fst snd]; (assumption || (apply register_distinct; assumption) || (apply unregister_distinct; assumption))].
Theorem update_refines o w st : ~ query o -> represents w st -> fits st -> disciplined_op o st ->
  fst (run o w) = ADone (fst (spec_update o st)) /\ represents (snd (run o w)) (snd (spec_update o st)) /\ fits (snd (spec_update o st)).
Proof.
  intros Q [Re Rd] [De Dd] [H S]. destruct o; cbn in Q; try tauto; cbn [held_op] in H.
  - rewrite (run_register_encoder w l v label (fst st) Re). cbn [spec_update on_encs fst snd]. fin.
  - rewrite (run_unregister_encoder w l (fst st) Re De S). cbn [spec_update on_encs fst snd]. fin.
  - rewrite (run_register_decoder w l v label (snd st) Rd). cbn [spec_update on_decs fst snd]. fin.
  - rewrite (run_unregister_decoder w l (snd st) Rd Dd S). cbn [spec_update on_decs fst snd]. fin.
  - rewrite run_register, (run_register_encoder w l e label (fst st) Re). cbn [done spec_update]. unfold andThen, on_encs. cbn [fst snd].
    pose proof (register_distinct (fst st) l e label De H) as De'. destruct (s_register (fst st) l e label) as [[[]|x] es]; cbn [fst snd] in *.
    + rewrite (fun w1 H1 => run_register_decoder w1 l d label (snd st) H1) by exact Rd. unfold on_decs. cbn [fst snd]. fin.
    + fin.
  - destruct S as [Se Sd]. rewrite run_unregister, (run_unregister_encoder w l (fst st) Re De Se). cbn [done spec_update]. unfold andThen, on_encs. cbn [fst snd].
    pose proof (unregister_distinct (fst st) l De) as De'. destruct (s_unregister (fst st) l) as [[[]|x] es]; cbn [fst snd] in *.
    + rewrite (fun w1 H1 => run_unregister_decoder w1 l (snd st) H1 Dd Sd) by exact Rd. unfold on_decs. cbn [fst snd]. fin.
    + fin.
Qed.
Lemma query_dec o : {query o} + {~ query o}.
Proof. destruct o; cbn; (left; exact I) || (right; tauto). Qed.
Lemma query_answer o w r : query o -> fst (run o w) <> ADone r.
Proof.
  destruct o; cbn [query run]; intro Q; try contradiction; unfold on_registry, on_world;
    match goal with |- context[let '(_, _) := ?x in _] => destruct x end; discriminate.
Qed.
Theorem history_refines ops : forall w st, caches_ok (fst w) -> represents w st -> fits st -> disciplined ops st ->
  represents (after ops w) (spec_after ops st) /\ update_outcomes (answers ops w) = spec_outcomes ops st.
Proof.
  induction ops as [|o ops IH]; intros w st C R F D; [split; [exact R|reflexivity]|]. destruct D as [Do D].
  change (after (o :: ops) w) with (after ops (snd (run o w))). change (spec_after (o :: ops) st) with (spec_after ops (snd (spec_update o st))).
  pose proof (run_caches o w C) as C'. destruct (query_dec o) as [Q|Q].
  - pose proof (query_same o w Q C) as [A B]. rewrite (spec_query o st Q) in *. cbn [snd] in *.
    assert (R' : represents (snd (run o w)) st) by (destruct R; split; congruence). destruct (IH _ st C' R' F D) as [H1 H2]. split; [exact H1|].
    cbn [answers spec_outcomes]. rewrite (spec_query o st Q). destruct (run o w) as [a w'] eqn:E. cbn [snd] in *.
    pose proof (fun r => query_answer o w r Q) as Na. rewrite E in Na. cbn [fst] in Na.
    destruct a; [exfalso; eapply Na; reflexivity|..]; cbn [update_outcomes]; rewrite H2; destruct o; cbn in Q; try contradiction; reflexivity.
  - destruct (update_refines o w st Q R F Do) as (A & R' & F'). destruct (IH _ _ C' R' F' D) as [H1 H2]. split; [exact H1|].
    cbn [answers spec_outcomes]. destruct (run o w) as [a w'] eqn:E. cbn [fst snd] in *. subst a. cbn [update_outcomes]. rewrite H2.
    destruct (spec_update o st) as [r st'] eqn:Es. cbn [fst snd]. destruct o; cbn in Q; try tauto; reflexivity.
Qed.
Theorem fresh_registry h : represents (new_registry, h) ([], []) /\ fits ([], []).
Proof. repeat split; constructor. Qed.

(** ** Laws *)
Theorem register_taken w l v label : match l with LPred p => has_pred (r_encs (fst w)) p = true \/ (exists s, label = Some s /\ has_label (r_encs (fst w)) s = true)
                                 | LStr s => has_pred (r_encs (fst w)) (mkPred (KEquals s) None) = true \/ has_label (r_encs (fst w)) s = true
                                 | LOther => False end ->
  fst (run (ORegisterEncoder l v label) w) = ADone (Err ValueError) /\ same_registrations w (snd (run (ORegisterEncoder l v label) w)).
Proof.
  intro H. destruct l as [s|p|]; [| |contradiction]; cbn [run]; unfold on_registry, register_encoder; cbn [set_ecache r_encs base_register]; unfold m_add;
    cbn [set_ecache r_encs].
  - destruct H as [->| ->]; [repeat split; reflexivity|]. destruct (has_pred _ _); repeat split; reflexivity.
  - destruct H as [->|(s & -> & H)]; [repeat split; reflexivity|]. rewrite H. destruct (has_pred _ _); repeat split; reflexivity.
Qed.
Lemma m_add_cases {V} (m : mapping V) p v label :
  (m_add m p v label = (Err ValueError, m) /\ (has_pred m p = true \/ exists l, label = Some l /\ has_label m l = true))
  \/ (m_add m p v label = (Ok tt, mkMapping (m_values m ++ [(p, v)]) (m_labels m ++ match label with Some l => [(l, p)] | None => [] end))
      /\ has_pred m p = false /\ forall l, label = Some l -> has_label m l = false).
Proof.
  unfold m_add. destruct (has_pred m p) eqn:P; [left; auto|]. destruct label as [l|].
  - destruct (has_label m l) eqn:L; [left; split; [reflexivity|right; eauto]|]. right. split; [reflexivity|]. split; [reflexivity|]. intros l' E. inv E. exact L.
  - right. rewrite app_nil_r. split; [reflexivity|]. split; [reflexivity|discriminate].
Qed.
(** What the matchers answer, after adding one. *)
Lemma scan_app {V} (l l' : list (pred * V)) s : m_scan (l ++ l') s =
  match m_scan l s with
  | Raised e says => Raised e says
  | Done vs => match m_scan l' s with Raised e says => Raised e says | Done vs' => Done (vs ++ vs') end
  end.
Proof.
  induction l as [|[p v] l IH]; [cbn; destruct (m_scan l' s); reflexivity|]. cbn [app m_scan]. destruct (pred_call p s) as [b|]; [|reflexivity]. rewrite IH.
  destruct (m_scan l s) as [vs|]; [|reflexivity]. destruct (m_scan l' s) as [vs'|]; [|reflexivity]. destruct b; reflexivity.
Qed.
Theorem add_scan {V} (m m' : mapping V) p v label s : m_add m p v label = (Ok tt, m') ->
  m_scan (m_values m') s =
  match m_scan (m_values m) s with
  | Raised e says => Raised e says
  | Done vs => match pred_call p s with Raised e says => Raised e says | Done b => Done (vs ++ if b then [v] else []) end
  end.
Proof.
  intro H. destruct (m_add_cases m p v label) as [[E _]|[E _]]; rewrite E in H; inv H. cbn [m_values]. rewrite scan_app. cbn [m_scan].
  destruct (m_scan (m_values m) s); [|reflexivity]. destruct (pred_call p s) as [[]|]; reflexivity.
Qed.
Lemma del_fresh {A} (f : A -> bool) l x : existsb f l = false -> f x = true -> filter (fun y => negb (f y)) (l ++ [x]) = l.
Proof.
  intros H X. rewrite filter_app. cbn. rewrite X. cbn. rewrite app_nil_r. induction l as [|y l IH]; [reflexivity|]. cbn in H |- *.
  apply orb_false_iff in H. destruct H as [-> H]. cbn. rewrite IH by exact H. reflexivity.
Qed.
Lemma find_fresh {A} (f : A -> bool) l x : existsb f l = false -> f x = true -> find f (l ++ [x]) = Some x.
Proof.
  intros H X. induction l as [|y l IH]; cbn; [rewrite X; reflexivity|]. cbn in H. apply orb_false_iff in H. destruct H as [-> H]. apply IH. exact H.
Qed.
Theorem add_remove_label {V} (m m' : mapping V) p v l : real p -> m_add m p v (Some l) = (Ok tt, m') -> m_remove_by_label m' l = (Ok tt, m).
Proof.
  intros Rp H. destruct (m_add_cases m p v (Some l)) as [[E _]|(E & P & L)]; rewrite E in H; inv H. specialize (L l eq_refl). unfold m_remove_by_label. cbn [m_labels m_values].
  rewrite (find_fresh (fun lp => str_eqb (fst lp) l) (m_labels m) (l, p) L (str_eqb_refl l)).
  unfold has_pred, del_value, del_label. cbn [m_values m_labels]. rewrite existsb_app. cbn [existsb fst]. rewrite Rp, orb_true_r. cbn [orb].
  rewrite (del_fresh (fun pv => pred_eqb (fst pv) p) (m_values m) (p, v) P Rp), (del_fresh (fun lp => str_eqb (fst lp) l) (m_labels m) (l, p) L (str_eqb_refl l)).
  destruct m; reflexivity.
Qed.
Theorem register_unregister_label w w' p v l : pid p <> None -> run (ORegisterEncoder (LPred p) v (Some l)) w = (ADone (Ok tt), w') ->
  fst (run (OUnregisterEncoder (LStr l)) w') = ADone (Ok tt) /\ same_registrations w (snd (run (OUnregisterEncoder (LStr l)) w')).
Proof.
  intros Hp. cbn [run]. unfold on_registry, register_encoder, unregister_encoder. cbn [set_ecache r_encs base_register base_unregister].
  destruct (m_add (r_encs (fst w)) p v (Some l)) as [[[]|x] m'] eqn:E; intro H; inv H. cbn [fst set_encs set_ecache r_encs].
  rewrite (add_remove_label _ _ _ _ _ (held_real p Hp) E). repeat split; reflexivity.
Qed.
Theorem register_unregister_string w w' s v label : run (ORegisterEncoder (LStr s) v label) w = (ADone (Ok tt), w') ->
  fst (run (OUnregisterEncoder (LStr s)) w') = ADone (Ok tt) /\ same_registrations w (snd (run (OUnregisterEncoder (LStr s)) w')).
Proof.
  cbn [run]. unfold on_registry, register_encoder, unregister_encoder. cbn [set_ecache r_encs base_register base_unregister].
  destruct (m_add (r_encs (fst w)) (mkPred (KEquals s) None) v (Some s)) as [[[]|x] m'] eqn:E; intro H; inv H. cbn [fst set_encs set_ecache r_encs].
  rewrite (add_remove_label _ _ _ _ _ (equals_real s None) E). repeat split; reflexivity.
Qed.

(** Order of registration, if no matcher raises. *)
Lemma quiet_perm {V} (m m' : mapping V) s : Permutation (m_values m) (m_values m') -> none_raises m s -> none_raises m' s.
Proof. intros P Q p v I. apply (Q p v). eapply Permutation_in; [apply Permutation_sym, P|exact I]. Qed.
Lemma m_find_perm {V} (m m' : mapping V) s : none_raises m s -> Permutation (m_values m) (m_values m') -> m_find m s = m_find m' s.
Proof.
  intros Qm P. rewrite (quiet_find m s Qm), (quiet_find m' s (quiet_perm _ _ _ P Qm)).
  assert (Q : Permutation (map snd (filter (fun pv => hit (fst pv) s) (m_values m))) (map snd (filter (fun pv => hit (fst pv) s) (m_values m')))).
  { apply Permutation_map. clear -P. induction P as [|x l l' P IH|x y l|l l' l'' P IH P' IH']; cbn.
    - constructor.
    - destruct (hit (fst x) s); [constructor|]; exact IH.
    - destruct (hit (fst x) s), (hit (fst y) s); repeat constructor; apply Permutation_refl.
    - eapply Permutation_trans; eassumption. }
  destruct (map snd (filter _ (m_values m))) as [|x [|y l]].
  - apply Permutation_nil in Q. rewrite Q. reflexivity.
  - apply Permutation_length_1_inv in Q. rewrite Q. reflexivity.
  - pose proof (Permutation_length Q) as L. destruct (map snd (filter _ (m_values m'))) as [|x' [|y' l']]; cbn in L; try lia. reflexivity.
Qed.

(** ** All or nothing *)
Lemma s_register_err {V} (es : list (entry V)) l v label e : fst (s_register es l v label) = Err e -> snd (s_register es l v label) = es.
Proof. destruct l as [s|p|]; cbn [s_register]; unfold s_add; try (destruct (_ || _); cbn; congruence). reflexivity. Qed.
Lemma s_unregister_err {V} (es : list (entry V)) l e : fst (s_unregister es l) = Err e -> snd (s_unregister es l) = es.
Proof. destruct l as [s|p|]; cbn [s_unregister]; unfold s_remove; try (destruct (existsb _ _); cbn; congruence). reflexivity. Qed.
Lemma names_about {V W} (es : list (entry V)) (ds : list (entry W)) p : names es = names ds -> existsb (about p) es = existsb (about p) ds.
Proof.
  revert ds. induction es as [|x es IH]; intros [|y ds] H; try discriminate; [reflexivity|]. cbn in H |- *. inv H. unfold about at 1 3.
  rewrite H1. f_equal. apply IH. assumption.
Qed.
Lemma names_labelled {V W} (es : list (entry V)) (ds : list (entry W)) l : names es = names ds -> existsb (labelled l) es = existsb (labelled l) ds.
Proof.
  revert ds. induction es as [|x es IH]; intros [|y ds] H; try discriminate; [reflexivity|]. cbn in H |- *. inv H. unfold labelled at 1 3.
  rewrite H2. f_equal. apply IH. assumption.
Qed.
Lemma names_filter {V W} (es : list (entry V)) (ds : list (entry W)) f g : names es = names ds ->
  (forall x y, e_pred x = e_pred y -> e_label x = e_label y -> f x = g y) -> names (filter f es) = names (filter g ds).
Proof.
  intros H E. revert ds H. induction es as [|x es IH]; intros [|y ds] H; try discriminate; [reflexivity|]. cbn in H. inv H. cbn.
  rewrite (E x y H1 H2). destruct (g y); cbn; [f_equal; [congruence|]|]; apply IH; assumption.
Qed.
Lemma s_register_paired {V W} (es : list (entry V)) (ds : list (entry W)) l v u label : names es = names ds ->
  fst (s_register es l v label) = fst (s_register ds l u label) /\ names (snd (s_register es l v label)) = names (snd (s_register ds l u label)).
Proof.
  intro H. assert (A : forall p lab, fst (s_add es p lab v) = fst (s_add ds p lab u) /\ names (snd (s_add es p lab v)) = names (snd (s_add ds p lab u))).
  { intros p lab. unfold s_add. rewrite (names_about es ds p H).
    replace (match lab with Some l0 => existsb (labelled l0) es | None => false end) with (match lab with Some l0 => existsb (labelled l0) ds | None => false end)
      by (destruct lab; [symmetry; apply names_labelled; exact H|reflexivity]).
    destruct (_ || _); cbn; [split; [reflexivity|exact H]|]. split; [reflexivity|]. unfold names. rewrite !map_app. cbn. unfold names in H. rewrite H. reflexivity. }
  destruct l as [s|p|]; cbn [s_register]; [apply A|apply A|split; [reflexivity|exact H]].
Qed.
Lemma s_unregister_paired {V W} (es : list (entry V)) (ds : list (entry W)) l : names es = names ds ->
  fst (s_unregister es l) = fst (s_unregister ds l) /\ names (snd (s_unregister es l)) = names (snd (s_unregister ds l)).
Proof.
  intro H. destruct l as [s|p|]; cbn [s_unregister]; [| |split; [reflexivity|exact H]]; unfold s_remove.
  - rewrite (names_labelled es ds s H). destruct (existsb _ _); cbn; [split; [reflexivity|]|split; [reflexivity|exact H]].
    apply names_filter; [exact H|]. intros x y E F. unfold labelled. rewrite F. reflexivity.
  - rewrite (names_about es ds p H). destruct (existsb _ _); cbn; [split; [reflexivity|]|split; [reflexivity|exact H]].
    apply names_filter; [exact H|]. intros x y E F. unfold about. rewrite E. reflexivity.
Qed.
Theorem one_sided_atomic o w st e : represents w st -> fits st -> disciplined_op o st ->
  match o with ORegister _ _ _ _ | OUnregister _ => False | _ => ~ query o end ->
  fst (run o w) = ADone (Err e) -> same_registrations w (snd (run o w)).
Proof.
  intros R F D S E. assert (Q : ~ query o) by (destruct o; cbn in *; tauto). destruct (update_refines o w st Q R F D) as (A & [Re Rd] & _).
  rewrite A in E. injection E as E. destruct R as [Re0 Rd0]. unfold same_registrations. rewrite Re, Rd, Re0, Rd0.
  destruct o; try contradiction; try (cbn in Q; tauto); cbn [spec_update] in *; unfold on_encs, on_decs in *; cbn [fst snd] in *.
  - rewrite (s_register_err _ _ _ _ _ E). split; reflexivity.
  - rewrite (s_unregister_err _ _ _ E). split; reflexivity.
  - rewrite (s_register_err _ _ _ _ _ E). split; reflexivity.
  - rewrite (s_unregister_err _ _ _ E). split; reflexivity.
Qed.
Theorem paired_atomic o w st e : represents w st -> fits st -> paired st -> disciplined_op o st ->
  match o with ORegister _ _ _ _ | OUnregister _ => True | _ => False end ->
  fst (run o w) = ADone (Err e) -> same_registrations w (snd (run o w)).
Proof.
  intros R F P D S E. assert (Q : ~ query o) by (destruct o; cbn in *; tauto). destruct (update_refines o w st Q R F D) as (A & [Re Rd] & _).
  rewrite A in E. injection E as E. destruct R as [Re0 Rd0]. unfold same_registrations. rewrite Re, Rd, Re0, Rd0. unfold paired in P.
  destruct o; try contradiction; cbn [spec_update] in *; unfold andThen, on_encs, on_decs in *; cbn [fst snd] in *.
  - destruct (s_register_paired (fst st) (snd st) l e0 d label P) as [H _]. pose proof (s_register_err (fst st) l e0 label) as Er.
    destruct (s_register (fst st) l e0 label) as [[[]|x] es]; cbn [fst snd] in *; [congruence|]. rewrite (Er x eq_refl). split; reflexivity.
  - destruct (s_unregister_paired (fst st) (snd st) l P) as [H _]. pose proof (s_unregister_err (fst st) l) as Er.
    destruct (s_unregister (fst st) l) as [[[]|x] es]; cbn [fst snd] in *; [congruence|]. rewrite (Er x eq_refl). split; reflexivity.
Qed.
Theorem paired_kept o st : paired st -> both_sided o -> paired (snd (spec_update o st)).
Proof.
  intros P B. destruct o; cbn in B; try contradiction; try exact P; cbn [spec_update]; unfold andThen, on_encs, on_decs, paired in *; cbn [fst snd].
  - destruct (s_register_paired (fst st) (snd st) l e d label P) as [H N]. pose proof (s_register_err (fst st) l e label) as Er.
    destruct (s_register (fst st) l e label) as [[[]|x] es]; cbn [fst snd] in *; [exact N|]. rewrite (Er x eq_refl). exact P.
  - destruct (s_unregister_paired (fst st) (snd st) l P) as [H N]. pose proof (s_unregister_err (fst st) l) as Er.
    destruct (s_unregister (fst st) l) as [[[]|x] es]; cbn [fst snd] in *; [exact N|]. rewrite (Er x eq_refl). exact P.
Qed.

(** ** Labels *)
Theorem label_freed w st p x l : represents w st -> fits st -> same_object (fst st) (LPred p) ->
  In x (fst st) -> about p x = true -> e_label x = Some l ->
  fst (run (OUnregisterEncoder (LPred p)) w) = ADone (Ok tt)
  /\ (forall p' v, (forall y, In y (fst st) -> about p y = false -> about p' y = false) ->
      fst (run (ORegisterEncoder (LPred p') v (Some l)) (snd (run (OUnregisterEncoder (LPred p)) w))) = ADone (Ok tt)).
Proof.
  intros [Re Rd] [De Dd] S I A L. rewrite (run_unregister_encoder w (LPred p) (fst st) Re De S). cbn [s_unregister]. unfold s_remove.
  assert (E : existsb (about p) (fst st) = true) by (apply existsb_exists; eauto). rewrite E. cbn [fst snd]. split; [reflexivity|]. intros p' v H.
  rewrite (run_register_encoder _ (LPred p') v (Some l) (filter (fun x => negb (about p x)) (fst st))) by reflexivity. cbn [fst s_register]. unfold s_add.
  destruct (existsb (about p') _) eqn:E1.
  { apply existsb_exists in E1. destruct E1 as (y & Iy & Ay). apply filter_In in Iy. destruct Iy as [Iy Ny]. rewrite H in Ay; [discriminate|exact Iy|]. apply negb_true_iff. exact Ny. }
  destruct (existsb (labelled l) _) eqn:E2; [|reflexivity].
  apply existsb_exists in E2. destruct E2 as (y & Iy & Ly). apply filter_In in Iy. destruct Iy as [Iy Ny]. unfold labelled in Ly.
  destruct (e_label y) as [l'|] eqn:L'; [|discriminate]. apply str_eqb_eq in Ly. subst l'. rewrite (distinct_label (fst st) y x l De Iy I L' L), A in Ny. discriminate.
Qed.

(** ** Caches *)
Definition agree (w w' : world) : Prop := same_registrations w w' /\ caches_ok (fst w) /\ caches_ok (fst w').
Lemma forget_caches r : caches_ok (forget r).
Proof. split; [apply ecache_nil|apply dcache_nil]; reflexivity. Qed.
Lemma run_agree o w w' : agree w w' -> unshared_registry (fst w) ->
  fst (run o w) = fst (run o w') /\ agree (snd (run o w)) (snd (run o w')).
Proof.
  intros [[A B] [C C']] U. pose proof (run_caches o w C) as D. pose proof (run_caches o w' C') as D'.
  assert (Q : query o -> agree (snd (run o w)) (snd (run o w'))).
  { intro Q. destruct (query_same o w Q C) as [A1 B1], (query_same o w' Q C') as [A2 B2]. repeat split; try apply D; try apply D'; congruence. }
  assert (U' : unshared_registry (fst w')) by (unfold unshared_registry; rewrite B; exact U).
  pose proof C as [Ce Cd]. pose proof C' as [Ce' Cd']. destruct w as [r h], w' as [r' h']. cbn [fst snd] in *.
  destruct o; try (split; [|apply Q; exact I]); cbn [run] in *; unfold on_registry, on_world in *; cbn [fst snd] in *.
  - unfold agree, same_registrations. unfold register_encoder in *. cbn [set_ecache r_encs] in *. rewrite A in *. destruct (base_register _ _ _ _) as [x m]. cbn [fst snd] in *. repeat split; try apply D; try apply D'; assumption.
  - unfold agree, same_registrations. unfold unregister_encoder in *. cbn [set_ecache r_encs] in *. rewrite A in *. destruct (base_unregister _ _) as [x m]. cbn [fst snd] in *. repeat split; try apply D; try apply D'; assumption.
  - unfold agree, same_registrations. unfold register_decoder in *. cbn [set_dcache r_decs] in *. rewrite B in *. destruct (base_register _ _ _ _) as [x m]. cbn [fst snd] in *. repeat split; try apply D; try apply D'; assumption.
  - unfold agree, same_registrations. unfold unregister_decoder in *. cbn [set_dcache r_decs] in *. rewrite B in *. destruct (base_unregister _ _) as [x m]. cbn [fst snd] in *. repeat split; try apply D; try apply D'; assumption.
  - unfold agree, same_registrations. unfold register, register_encoder in *. cbn [set_ecache r_encs] in *. rewrite A in *. destruct (base_register (r_encs r) l e label) as [[[]|x] m]; cbn [fst snd] in *.
    + unfold register_decoder in *. cbn [set_encs set_ecache set_dcache r_decs] in *. rewrite B in *. destruct (base_register _ _ _ _) as [x2 m2]. cbn [fst snd] in *. repeat split; try apply D; try apply D'; assumption.
    + repeat split; try apply D; try apply D'; assumption.
  - unfold agree, same_registrations. unfold unregister, unregister_encoder in *. cbn [set_ecache r_encs] in *. rewrite A in *. destruct (base_unregister (r_encs r) l) as [[[]|x] m]; cbn [fst snd] in *.
    + unfold unregister_decoder in *. cbn [set_encs set_ecache set_dcache r_decs] in *. rewrite B in *. destruct (base_unregister _ _) as [x2 m2]. cbn [fst snd] in *. repeat split; try apply D; try apply D'; assumption.
    + repeat split; try apply D; try apply D'; assumption.
  - destruct (get_encoder_pure r ts Ce) as (? & -> & _), (get_encoder_pure r' ts Ce') as (? & -> & _). cbn. rewrite A. reflexivity.
  - destruct (has_encoder_pure ts r Ce) as (? & -> & _), (has_encoder_pure ts r' Ce') as (? & -> & _). cbn. rewrite A. reflexivity.
  - destruct (get_decoder_pure (r, h) k ts Cd) as (? & -> & _), (get_decoder_pure (r', h') k ts Cd') as (? & -> & _). cbn. rewrite B. reflexivity.
  - destruct (api_encode_pure types args r Ce) as (? & -> & _), (api_encode_pure types args r' Ce') as (? & -> & _). cbn. rewrite A. reflexivity.
  - destruct (api_is_encodable_pure typ arg r Ce) as (? & -> & _), (api_is_encodable_pure typ arg r' Ce') as (? & -> & _). cbn. rewrite A. reflexivity.
  - destruct (api_is_encodable_type_pure typ r Ce) as (? & -> & _), (api_is_encodable_type_pure typ r' Ce') as (? & -> & _). cbn. rewrite A. reflexivity.
  - destruct (api_decode_value types data strict (r, h) Cd U) as (? & -> & _), (api_decode_value types data strict (r', h') Cd' U') as (? & -> & _).
    cbn [fst]. rewrite B. reflexivity.
Qed.
Lemma run_unshared o w : caches_ok (fst w) -> unshared_registry (fst w) -> unshared_op o -> unshared_registry (fst (snd (run o w))).
Proof.
  intros C U Uo. destruct (query_dec o) as [Q|Q]; [destruct (query_same o w Q C) as [_ B]; unfold unshared_registry; rewrite B; exact U|].
  assert (Add : forall (m : mapping dec_reg) p v label, clean m -> unshared v -> clean (snd (m_add m p v label))).
  { intros m p v label Hm Hv. destruct (m_add_cases m p v label) as [[-> _]|[-> _]]; [exact Hm|]. unfold clean. cbn [snd m_values]. apply Forall_app. split; [exact Hm|].
    constructor; [exact Hv|constructor]. }
  assert (Reg : forall (m : mapping dec_reg) l v label, clean m -> unshared v -> clean (snd (base_register m l v label))).
  { intros m l v label Hm Hv. destruct l; cbn [base_register]; [apply Add; assumption|apply Add; assumption|exact Hm]. }
  assert (Sub : forall (m : mapping dec_reg) f, clean m -> Forall (fun pv => unshared (snd pv)) (filter f (m_values m))).
  { intros m f Hm. unfold clean in Hm. rewrite Forall_forall in *. intros x I. apply filter_In in I. apply Hm. apply I. }
  assert (Unreg : forall (m : mapping dec_reg) l, clean m -> clean (snd (base_unregister m l))).
  { intros m l Hm. destruct l as [s|p|]; cbn [base_unregister]; [| |exact Hm].
    - unfold m_remove_by_label. destruct (find _ _) as [[l' p]|]; [|exact Hm]. destruct (has_pred _ p); [unfold clean; cbn; apply Sub; exact Hm|exact Hm].
    - unfold m_remove_by_equality. destruct (has_pred m p); [|exact Hm]. destruct (find _ _) as [[l' p']|]; unfold clean; cbn; apply Sub; exact Hm. }
  destruct w as [r h]. cbn [fst] in *. unfold unshared_registry in *. destruct o; try (cbn in Q; tauto); cbn [run unshared_op] in *; unfold on_registry; cbn [fst snd].
  - unfold register_encoder. cbn [set_ecache r_encs]. destruct (base_register _ _ _ _). exact U.
  - unfold unregister_encoder. cbn [set_ecache r_encs]. destruct (base_unregister _ _). exact U.
  - unfold register_decoder. cbn [set_dcache r_decs]. specialize (Reg (r_decs r) l v label U Uo). destruct (base_register _ _ _ _). exact Reg.
  - unfold unregister_decoder. cbn [set_dcache r_decs]. specialize (Unreg (r_decs r) l U). destruct (base_unregister _ _). exact Unreg.
  - unfold register, register_encoder. cbn [set_ecache r_encs]. destruct (base_register (r_encs r) l e label) as [[[]|x] m]; [|exact U].
    unfold register_decoder. cbn [set_encs set_ecache set_dcache r_decs]. specialize (Reg (r_decs r) l d label U Uo). destruct (base_register _ _ _ _). exact Reg.
  - unfold unregister, unregister_encoder. cbn [set_ecache r_encs]. destruct (base_unregister (r_encs r) l) as [[[]|x] m]; [|exact U].
    unfold unregister_decoder. cbn [set_encs set_ecache set_dcache r_decs]. specialize (Unreg (r_decs r) l U). destruct (base_unregister _ _). exact Unreg.
Qed.
Lemma answers_agree ops : forall w w', agree w w' -> unshared_registry (fst w) -> Forall unshared_op ops -> answers ops w = answers_uncached ops w'.
Proof.
  induction ops as [|o ops IH]; intros w w' A U F; [reflexivity|]. inv F. cbn [answers answers_uncached].
  assert (A0 : agree w (forget (fst w'), snd w')) by (destruct A as [[A1 A2] [C C']]; repeat split; try apply C; try apply (forget_caches (fst w')); assumption).
  destruct (run_agree o w _ A0 U) as [E A']. pose proof (run_unshared o w (proj1 (proj2 A)) U H1) as U'.
  destruct (run o w) as [a1 w1], (run o (forget (fst w'), snd w')) as [a2 w2]. cbn [fst snd] in *. subst a2. f_equal. apply IH; assumption.
Qed.
Theorem caching_unobservable ops w : reachable w -> unshared_registry (fst w) -> Forall unshared_op ops -> answers ops w = answers_uncached ops w.
Proof. intros R U F. apply answers_agree; [|exact U|exact F]. apply reachable_caches in R. repeat split; apply R. Qed.
(** Lookups need no assumption about instances. *)
Theorem lookups_fresh w s k : reachable w ->
  fst (get_encoder s (fst w)) = fst (get_encoder s (forget (fst w)))
  /\ fst (get_decoder k s w) = fst (get_decoder k s (forget (fst w), []))
  /\ fst (has_encoder s (fst w)) = fst (has_encoder s (forget (fst w))).
Proof.
  intro R. apply reachable_caches in R. destruct R as [Ce Cd]. destruct (forget_caches (fst w)) as [Fe Fd]. repeat split.
  - destruct (get_encoder_pure _ s Ce) as (? & -> & _), (get_encoder_pure _ s Fe) as (? & -> & _). reflexivity.
  - destruct (get_decoder_pure w k s Cd) as (? & -> & _), (get_decoder_pure (forget (fst w), []) k s Fd) as (? & -> & _). reflexivity.
  - destruct (has_encoder_pure s _ Ce) as (? & -> & _), (has_encoder_pure s _ Fe) as (? & -> & _). reflexivity.
Qed.

(** ** The strict flag *)
Theorem strict_per_call w w' types data strict : reachable w -> reachable w' -> unshared_registry (fst w) -> r_decs (fst w') = r_decs (fst w) ->
  decode_in w types data strict = decode_in w' types data strict.
Proof.
  intros R R' U E. apply reachable_caches in R, R'. destruct R as [_ C], R' as [_ C']. unfold decode_in.
  destruct (api_decode_value types data strict w C U) as (? & -> & _).
  destruct (api_decode_value types data strict w' C') as (? & -> & _); [unfold unshared_registry; rewrite E; exact U|]. cbn [fst]. rewrite E. reflexivity.
Qed.
