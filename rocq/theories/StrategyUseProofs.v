(** Lemmas for the registry of strategies. *)
From Coq Require Import Strings.String Lia.
From Verif Require Import Tac Bytes Grammar GrammarSpec GrammarProofs NormalizeProofs TypeCases Registry RaisingSpec CacheProofs LookupProofs Histories
  RegistrySpec RegistryProofs RegistryLaws Strategies StrategyUseSpec DrawnProofs.
Open Scope Z_scope.

Definition strategy_entries : list (entry strategy_reg) :=
  map (fun x => let '(l, v, lab) := x in mkEntry (lookup_pred0 l) (Some lab) v) strategy_registrations.
Lemma strategy_entries_ok : strategy_registry = mapping_of strategy_entries /\ distinct strategy_entries.
Proof. split; [lazy; reflexivity|]. apply distinctb_ok. lazy. reflexivity. Qed.
Theorem calls_refine cs : forall es, distinct es -> orderly cs es ->
  fst (after_calls cs (mapping_of es)) = fst (entries_after cs es)
  /\ snd (after_calls cs (mapping_of es)) = mapping_of (snd (entries_after cs es)) /\ distinct (snd (entries_after cs es)).
Proof.
  induction cs as [|c cs IH]; intros es D O; [auto|]. destruct O as [Oc O]. cbn [after_calls entries_after].
  assert (S : called c (mapping_of es) = (fst (specified c es), mapping_of (snd (specified c es))) /\ distinct (snd (specified c es))).
  { destruct c as [l v label|l]; cbn [called specified].
    - split; [|apply register_distinct; assumption]. unfold register_strategy. rewrite register_of. destruct (s_register es l v label); reflexivity.
    - split; [|apply unregister_distinct; assumption]. unfold unregister_strategy. rewrite unregister_of by (try exact D; apply Oc). destruct (s_unregister es l); reflexivity. }
  destruct S as [-> D']. specialize (IH _ D' O). destruct (specified c es) as [r es1]. cbn [fst snd] in *.
  destruct (after_calls cs (mapping_of es1)) as [rs m2], (entries_after cs es1) as [rs' es2]. cbn [fst snd] in *. destruct IH as (-> & A & B). auto.
Qed.
Theorem strategy_history es cs : es = [] \/ es = strategy_entries -> orderly cs es ->
  fst (after_calls cs (mapping_of es)) = fst (entries_after cs es)
  /\ snd (after_calls cs (mapping_of es)) = mapping_of (snd (entries_after cs es)).
Proof.
  intros S O. destruct (calls_refine cs es) as (A & B & _); auto. destruct S as [->| ->]; [split; constructor|apply strategy_entries_ok].
Qed.

(** ** Lookups *)
Lemma item_opens ts t it : parse (normalize ts) = Ok t -> item_type t = Ok it -> (opens (to_type_str it) < opens ts)%nat.
Proof. intros P I. destruct (opens_parse ts t P) as [-> A]. destruct (item_type_facts t it A I) as [B D]. rewrite (opens_print it B). exact D. Qed.
Lemma component_opens ts cs arr c : parse (normalize ts) = Ok (Tup cs arr) -> In c cs -> (opens (to_type_str c) < opens ts)%nat.
Proof.
  intros P I. destruct (opens_parse ts _ P) as [-> A]. inv A. take (Forall ast_ok cs) as F. rewrite Forall_forall in F. rewrite opens_print by auto. cbn [depth].
  pose proof (depth_component cs c I). lia.
Qed.
Lemma strategy_fuel m f1 : forall f2 ts, (opens ts < f1)%nat -> (opens ts < f2)%nat -> get_strategy_fuel f1 m ts = get_strategy_fuel f2 m ts.
Proof.
  induction f1 as [|f1 IH]; intros f2 ts H1 H2; [lia|]. destruct f2 as [|f2]; [lia|]. cbn [get_strategy_fuel].
  destruct (base_get_registration m ts) as [[s|f]|e]; try reflexivity. destruct (parse (normalize ts)) as [t|e] eqn:P; [|reflexivity]. cbn [bind].
  destruct (opens_parse ts t P) as [O A]. destruct f; try reflexivity; cbn [call_factory].
  - destruct (item_type t) as [it|e] eqn:I; [|reflexivity]. cbn [bind].
    assert (L : (opens (to_type_str it) < opens ts)%nat) by (eapply item_opens; eassumption). rewrite (IH f2) by lia. reflexivity.
  - destruct t as [b sub arr|cs arr]; [reflexivity|]. rewrite (mapM_ext _ (fun c => get_strategy_fuel f2 m (to_type_str c))); [reflexivity|].
    intros c I. assert (L : (opens (to_type_str c) < opens ts)%nat) by (eapply component_opens; eassumption). apply IH; lia.
Qed.
Lemma strategy_eq m ts : get_strategy m ts =
  match base_get_registration m ts with
  | Err e => Err e
  | Ok (RInst s) => Ok s
  | Ok (RFactory f) => t <- parse (normalize ts) ;; call_factory (get_strategy m) f t
  end.
Proof.
  unfold get_strategy at 1. cbn [get_strategy_fuel]. destruct (base_get_registration m ts) as [[s|f]|e]; try reflexivity.
  destruct (parse (normalize ts)) as [t|e] eqn:P; [|reflexivity]. cbn [bind]. destruct (opens_parse ts t P) as [O A]. pose proof (opens_length ts) as L0.
  destruct f; try reflexivity; cbn [call_factory].
  - destruct (item_type t) as [it|e] eqn:I; [|reflexivity]. cbn [bind].
    assert (L : (opens (to_type_str it) < opens ts)%nat) by (eapply item_opens; eassumption). pose proof (opens_length (to_type_str it)).
    unfold get_strategy. rewrite (strategy_fuel m (length ts) (S (length (to_type_str it)))) by lia. reflexivity.
  - destruct t as [b sub arr|cs arr]; [reflexivity|]. rewrite (mapM_ext _ (fun c => get_strategy m (to_type_str c))); [reflexivity|].
    intros c I. assert (L : (opens (to_type_str c) < opens ts)%nat) by (eapply component_opens; eassumption). pose proof (opens_length (to_type_str c)).
    unfold get_strategy. apply strategy_fuel; lia.
Qed.
Lemma willing_scan es ts found : willing es ts found -> m_scan (m_values (mapping_of es)) ts = Done found.
Proof.
  intros [Q F]. rewrite scan_spec. rewrite (proj2 (first_raise_none (m_values (mapping_of es)) ts)).
  - f_equal. rewrite <- F. cbn [mapping_of m_values]. clear. induction es as [|x es IH]; [reflexivity|]. cbn [map filter fst].
    destruct (hit (e_pred x) ts); cbn [map snd]; rewrite IH; reflexivity.
  - intros p v I. cbn [mapping_of m_values] in I. apply in_map_iff in I. destruct I as (x & E & I). injection E as <- <-. apply Q, I.
Qed.
Theorem provides_get es : forall ts r, provides es ts r -> get_strategy (mapping_of es) ts = r.
Proof.
  fix IH 3. intros ts r H. rewrite strategy_eq. unfold base_get_registration, m_find. destruct H as [ts T W G|ts T v v' vs W G|ts s W|ts f n T r W N G M|ts n T item d s r W N G L Gs P|ts n cs arr ss rs W N G Gs Ps];
    rewrite (willing_scan es ts _ W); cbn [chosen reparsed]; try (apply normalized_iff in N; subst n; apply parse_spec in G; rewrite G; cbn [bind]).
  - cbn. apply parse_spec in G. rewrite G. reflexivity.
  - cbn. apply parse_spec in G. destruct (contains _ _); [rewrite G|]; reflexivity.
  - reflexivity.
  - destruct M; reflexivity.
  - cbn [call_factory]. apply IH in P. apply parse_spec, parse_print in Gs. subst s.
    destruct L; cbn [item_type arrlist_of]; rewrite removelast_last, last_last; (destruct (arr ++ [d]) as [|x l] eqn:E; [destruct arr; discriminate E|]); cbn [bind];
      rewrite P; destruct r, d; reflexivity.
  - cbn [call_factory]. assert (M : mapM (fun c => get_strategy (mapping_of es) (to_type_str c)) cs = all_of rs).
    { clear -IH Gs Ps. revert cs Gs. induction Ps as [|s r ss rs P Ps IHs]; intros cs Gs; inv Gs; [reflexivity|]. cbn [mapM all_of].
      match goal with G : g_type s ?c |- _ => apply parse_spec, parse_print in G; rewrite G end. rewrite (IH _ _ P), IHs by assumption. destruct r; [|reflexivity]. cbn [bind]. destruct (all_of rs); reflexivity. }
    rewrite M. destruct (all_of rs); reflexivity.
Qed.
