(** Strategies for types built of names with registered strategies. *)
From Coq Require Import Strings.Byte Strings.String.
From Verif Require Import Tac Bytes BytesProofs Grammar GrammarSpec GrammarProofs NormalizeProofs Encoding Decoding Registry RaisingSpec CacheProofs
  Codec Histories HistoryProofs HeapProofs Spec TypeSpec TypeProofs TypeCases EncLeafProofs DecLeafProofs EncodeProofs DecodeProofs ReaderProofs ReadSpec LookupProofs ApiProofs
  DecodeFacts DecodeFacts2 ArgsProofs RegistrySpec RegistryProofs Threads ThreadProofs CustomSpec CustomProofs AcceptProofs CodersSpec CodersProofs Strategies StrategySpec StrategyProofs DrawnSpec.
Open Scope Z_scope.

(** ** The registry *)
Lemma strategy_labels : map fst (m_labels strategy_registry) = std_labels.
Proof. reflexivity. Qed.
Lemma fresh_strategy T : fresh_name T ->
  ~ In T (map fst (m_labels strategy_registry)) /\ has_pred strategy_registry (mkPred (KEquals T) None) = false /\ m_scan (m_values strategy_registry) T = Done [].
Proof.
  intro F. split; [rewrite strategy_labels; apply fresh_label; exact F|]. split; [reflexivity|]. destruct F as (b & sub & P & _ & _ & N).
  change (m_values strategy_registry) with
    (map (fun x => let '(l, v, _) := x in (match l with LPred p => p | _ => mkPred KHasArrlist None end, v)) strategy_registrations).
  unfold strategy_registrations. cbn [map m_scan fst pred_call pkind be l_has_arrlist l_is_base_tuple]. unfold base_equals, has_arrlist, is_base_tuple. rewrite P.
  base_cases b; try (exfalso; apply N; cbn [registered_names In]; tauto).
  repeat match goal with E : str_eqb b ?x = false |- _ => rewrite E; clear E end. destruct sub; reflexivity.
Qed.
Definition strategy_list (l : list (pystr * strategy)) : list (pystr * strategy_reg) := map (fun t => (fst t, RInst (snd t))) l.
Lemma strategy_names l : map fst (strategy_list l) = map fst l.
Proof. unfold strategy_list. rewrite map_map. reflexivity. Qed.
Lemma strategies_grown l m : with_strategies l m -> strategy_names_ok l -> grown strategy_registry (strategy_list l) m.
Proof.
  induction 1 as [|l m T g W IH]; intros [N F]; [apply grown_nil|]. cbn [map fst] in N, F. apply NoDup_cons_iff in N. destruct N as [N N']. pose proof (Forall_inv F) as FT. apply Forall_inv_tail in F.
  destruct (fresh_strategy T FT) as (A & B & C). destruct (grown_add _ (strategy_list l) m T (RInst g) (IH (conj N' F)) ltac:(rewrite strategy_names; exact N) A B C) as (m' & E & G).
  unfold register_strategy. cbn [base_register]. rewrite E. exact G.
Qed.
Theorem strategy_register l m T g : with_strategies l m -> strategy_names_ok ((T, g) :: l) ->
  fst (register_strategy (LStr T) (RInst g) None m) = Ok tt /\ unregister_strategy (LStr T) (snd (register_strategy (LStr T) (RInst g) None m)) = (Ok tt, m).
Proof.
  intros W [N F]. cbn [map fst] in N, F. apply NoDup_cons_iff in N. destruct N as [N N']. pose proof (Forall_inv F) as FT. apply Forall_inv_tail in F.
  destruct (fresh_strategy T FT) as (A & B & C). pose proof (strategies_grown l m W (conj N' F)) as (_ & _ & Gl & Gp). rewrite strategy_names in *.
  assert (NL : ~ In T (map fst (m_labels m))) by (intro I; destruct (Gl T I); contradiction).
  assert (NP : has_pred m (mkPred (KEquals T) None) = false) by (destruct (has_pred m (mkPred (KEquals T) None)) eqn:Q; [destruct (Gp T Q); [congruence|contradiction]|reflexivity]).
  unfold register_strategy, unregister_strategy. cbn [base_register base_unregister]. unfold m_add. rewrite NP, has_label_in by exact NL. split; [reflexivity|]. cbn [snd].
  assert (FL : find (fun lp => str_eqb (fst lp) T) (m_labels m ++ [(T, mkPred (KEquals T) None)]) = Some (T, mkPred (KEquals T) None)).
  { clear -NL. induction (m_labels m) as [|[x p] ls IH]; cbn [app find fst]; [rewrite str_eqb_refl; reflexivity|].
    destruct (str_eqb x T) eqn:E; [apply str_eqb_eq in E; subst x; destruct NL; left; reflexivity|]. apply IH. intro I. apply NL. right. exact I. }
  unfold m_remove_by_label. cbn [m_labels]. rewrite FL. unfold has_pred, del_value, del_label. cbn [m_values m_labels]. rewrite existsb_app. cbn [existsb fst]. unfold pred_eqb at 2. cbn [pkind].
  rewrite str_eqb_refl, orb_true_r. cbn [orb]. do 2 f_equal. rewrite !filter_app. cbn [filter fst]. unfold pred_eqb at 2. cbn [pkind]. rewrite !str_eqb_refl. cbn [negb]. rewrite !app_nil_r.
  assert (FV : filter (fun pv => negb (pred_eqb (fst pv) (mkPred (KEquals T) None))) (m_values m) = m_values m).
  { unfold has_pred in NP. clear -NP. induction (m_values m) as [|pv vs IH]; [reflexivity|]. cbn [existsb] in NP. apply orb_false_iff in NP. destruct NP as [X Y]. cbn [filter]. rewrite X. cbn [negb]. f_equal. apply IH, Y. }
  assert (FB : filter (fun lp => negb (str_eqb (fst lp) T)) (m_labels m) = m_labels m).
  { clear -NL. induction (m_labels m) as [|[x p] ls IH]; [reflexivity|]. cbn [filter fst]. destruct (str_eqb x T) eqn:E; [apply str_eqb_eq in E; subst x; destruct NL; left; reflexivity|].
    cbn [negb]. f_equal. apply IH. intro I. apply NL. right. exact I. }
  rewrite FV, FB. destruct m; reflexivity.
Qed.

(** ** Lookups *)
Lemma mapM_ext {A B} (f g : A -> result B) l : (forall x, In x l -> f x = g x) -> mapM f l = mapM g l.
Proof. induction l as [|x l IH]; intro H; [reflexivity|]. cbn [mapM]. rewrite (H x) by (left; reflexivity). rewrite IH by (intros y I; apply H; right; exact I). reflexivity. Qed.
Lemma strategy_local m m' fuel : forall s, (forall x, within x s -> m_find m x = m_find m' x) -> get_strategy_fuel fuel m s = get_strategy_fuel fuel m' s.
Proof.
  induction fuel as [|fuel IH]; intros s H; [reflexivity|]. cbn [get_strategy_fuel].
  assert (B : base_get_registration m s = base_get_registration m' s) by (unfold base_get_registration; rewrite H by constructor; reflexivity).
  rewrite B. destruct (base_get_registration m' s) as [[g|f]|e]; try reflexivity. destruct (parse (normalize s)) as [t|e] eqn:P; [|reflexivity]. cbn [bind].
  destruct f; try reflexivity; cbn [call_factory].
  - destruct (item_type t) as [it|e] eqn:It; [|reflexivity]. cbn [bind]. rewrite IH; [reflexivity|]. intros x W. apply H. eapply within_item; eassumption.
  - destruct t as [b sub arr|cs arr]; [reflexivity|]. rewrite (mapM_ext _ (fun c => get_strategy_fuel fuel m' (to_type_str c))); [reflexivity|].
    intros c I. apply IH. intros x W. apply H. eapply within_component; eassumption.
Qed.
Section Drawn.
Variables (l : list (pystr * strategy)) (m : mapping strategy_reg).
Hypotheses (N : strategy_names_ok l) (G : grown strategy_registry (strategy_list l) m).
Lemma other_strategy x : ~ In x (map fst l) -> m_find m x = m_find strategy_registry x.
Proof. intro H. unfold m_find. destruct G as (A & _). rewrite A by (rewrite strategy_names; exact H). reflexivity. Qed.
Lemma strategy_fresh x : In x (map fst l) -> fresh_name x.
Proof. intro I. destruct N as [_ F]. rewrite Forall_forall in F. apply F. exact I. Qed.
Lemma strategies_elsewhere s : (forall x, within x s -> ~ In x (map fst l)) -> get_strategy m s = get_abi_strategy s.
Proof. intro H. apply strategy_local. intros x W. apply other_strategy, H, W. Qed.
Lemma name_strategy T g fuel : In (T, g) l -> get_strategy_fuel (S fuel) m T = Ok g.
Proof.
  intro I. cbn [get_strategy_fuel]. unfold base_get_registration, m_find. destruct G as (_ & B & _). rewrite (B T (RInst g)); [reflexivity|].
  unfold strategy_list. apply in_map_iff. exists (T, g). auto.
Qed.
Lemma compound_strategy s U : parse (normalize s) = Ok U -> (forall b sub, U <> Basic b sub []) ->
  exists U0, expand U0 = U /\ base_get_registration m s = match strat_reg U0 with Some r => Ok r | None => Err NoEntriesFound end.
Proof.
  intros P H. destruct (tree_parse s _ P) as (U0 & P0 & E). exists U0. split; [auto|]. rewrite <- (find_strategy s U0 P0). unfold base_get_registration. rewrite other_strategy; [reflexivity|].
  intro I. destruct (strategy_fresh s I) as (b & sub & _ & P' & _). eapply (H b sub). congruence.
Qed.
Lemma tuple_strategy s cs : parse (normalize s) = Ok (Tup cs []) -> base_get_registration m s = Ok (RFactory FTuple).
Proof.
  intro P. destruct (compound_strategy s _ P ltac:(discriminate)) as (U0 & E & ->). destruct U0 as [b0 sub0 arr0|cs0 arr0]; cbn [expand] in E.
  - destruct sub0; try discriminate E. destruct (alias_of b0) as [[b1 sub1]|]; discriminate E.
  - inversion E as [[Ec Ea]]. reflexivity.
Qed.
Lemma array_strategy s U it : parse (normalize s) = Ok U -> item_type U = Ok it -> base_get_registration m s = Ok (RFactory FArray).
Proof.
  intros P It. assert (Ne : arrlist_of U <> []) by (intro X; destruct U as [b sub arr|ts arr]; cbn in X; subst arr; discriminate It).
  destruct (compound_strategy s U P) as (U0 & E & ->); [intros b sub ->; apply Ne; reflexivity|]. subst U. rewrite arrlist_expand in Ne.
  destruct U0 as [b0 sub0 [|d arr0]|cs0 [|d arr0]]; cbn [arrlist_of] in Ne; try congruence; reflexivity.
Qed.
Lemma known_strategy s t g fuel : supported s t -> get_abi_strategy s = Ok g -> (opens s < fuel)%nat -> get_strategy_fuel fuel m s = Ok g.
Proof.
  intros S E Hf. rewrite (strategy_local m strategy_registry).
  - pose proof S as [H B]. apply type_name_iff in H. destruct H as (T & P & A).
    assert (Bb : bare_byte T = false) by (destruct (bare_byte T) eqn:Q; [apply (byte_tree s T P) in Q; congruence|reflexivity]).
    rewrite (get_fuel fuel s T t P Bb A Hf). unfold get_abi_strategy, get_strategy in E. rewrite (get_fuel _ s T t P Bb A) in E by (pose proof (opens_length s); lia). exact E.
  - intros x W. apply other_strategy. intro I. destruct (supported_within s t x S W) as [t' S']. exact (fresh_unsupported x t' (strategy_fresh x I) S').
Qed.

(** ** What is drawn *)
Variable lc : list entry.
Hypotheses (Nc : names_ok lc) (Su : suits lc l).
Definition serves (s : pystr) (g : strategy) : Prop :=
  (forall fuel, (opens s < fuel)%nat -> get_strategy_fuel fuel m s = Ok g)
  /\ (forall r, draw g r -> exists v, r = Ok v /\ (Spec.fits v -> exists p, put lc s v p)).
Lemma fits_item p vs v : seq_like p vs -> In v vs -> Spec.fits p -> Spec.fits v.
Proof.
  unfold Spec.fits. intros S I F. assert (Q : items p = vs) by (destruct S as [->|[->|(r & ->)]]; reflexivity).
  rewrite py_size_seq in F by (rewrite Q; exact S). rewrite Q in F. clear -I F. assert (py_size v <= sizes vs); [|lia]. clear F.
  induction vs as [|x vs IH]; [contradiction|]. rewrite sizes_cons. destruct I as [->|I]; [pose proof (sizes_nonneg vs); lia|]. specialize (IH I). pose proof (py_size_ge x). lia.
Qed.
Lemma puts_all ss vs : Forall2 (fun s v => exists p, put lc s v p) ss vs -> exists ps, puts lc ss vs ps.
Proof. induction 1 as [|s v ss vs [p P] _ [ps IH]]; [eexists; constructor|]. exists (p :: ps). constructor; assumption. Qed.
Lemma drawn_made s : drawn l s -> made lc s.
Proof.
  induction 1 as [T g I|s t g S _|s cs P _ IH|s U it P It _ IH].
  - destruct (Su T g I) as (e & d & x & C & _). eapply made_name. exact C.
  - eapply made_known. exact S.
  - eapply made_tuple; eassumption.
  - eapply made_array; eassumption.
Qed.
Lemma drawn_serves s : drawn l s -> exists g, serves s g.
Proof.
  induction 1 as [T g I|s t g S E|s cs P D IH|s U it P It D IH].
  - exists g. split; [intros [|fuel] Hf; [lia|]; apply name_strategy; exact I|]. intros r Dr. destruct (Su T g I) as (e & d & x & C & H).
    destruct (H r Dr) as (v & b & -> & V & En). exists v. split; [reflexivity|]. intros _. exists (x, b). eapply put_name; eassumption.
  - exists g. split; [intros fuel Hf; eapply known_strategy; eassumption|]. intros r Dr. destruct (strategy_generates s t g r S E Dr) as (v & a & -> & Dn & _).
    exists v. split; [reflexivity|]. intros _. eexists. eapply put_known; eassumption.
  - assert (X : exists gs, Forall2 (fun c g => serves (to_type_str c) g) cs gs).
    { clear P D. induction cs as [|c cs IHc]; [exists []; constructor|]. destruct (IH c) as [g Hg]; [left; reflexivity|]. destruct IHc as [gs Hs]; [intros c' I; apply IH; right; exact I|].
      exists (g :: gs). constructor; assumption. }
    destruct X as [gs F]. exists (StTuples gs). split.
    + intros [|fuel] Hf; [lia|]. cbn [get_strategy_fuel]. rewrite (tuple_strategy s cs P), P. cbn [bind call_factory].
      destruct (opens_parse s _ P) as [Ho Ha]. cbn [depth] in Ho. inv Ha. take (Forall ast_ok cs) as Fa. rewrite Forall_forall in Fa.
      assert (M : mapM (fun c => get_strategy_fuel fuel m (to_type_str c)) cs = Ok gs); [|rewrite M; reflexivity].
      assert (O : forall c, In c cs -> (opens (to_type_str c) < fuel)%nat) by (intros c I; rewrite opens_print by (apply Fa; exact I); pose proof (depth_component _ _ I); lia).
      clear -F O. induction F as [|c g cs gs [A _] F IHF]; [reflexivity|]. cbn [mapM]. rewrite A by (apply O; left; reflexivity). cbn [bind].
      rewrite IHF by (intros c' I; apply O; right; exact I). reflexivity.
    + intros r Dr. inv Dr.
      * take (Forall2 (fun s v => draw s (Ok v)) gs _) as Fd. rename l0 into vs. exists (PTuple vs). split; [reflexivity|]. intro Fi.
        destruct (puts_all (map to_type_str cs) vs) as [ps Ps]; [|eexists; eapply put_tuple; [exact P|right; left; reflexivity|exact Ps]].
        assert (Fv : forall v, In v vs -> Spec.fits v) by (intros v I; apply (fits_item (PTuple vs) vs v); [right; left; reflexivity|exact I|exact Fi]).
        clear -F Fd Fv. revert vs Fd Fv. induction F as [|c g cs gs [_ B] F IHF]; intros vs Fd Fv; inv Fd; [constructor|]. cbn [map]. constructor.
        -- destruct (B (Ok y)) as (v & Q & H); [assumption|]. inv Q. apply H, Fv. left. reflexivity.
        -- apply IHF; [assumption|]. intros v I. apply Fv. right. exact I.
      * exfalso. take (In _ gs) as I. take (draw _ (Err e)) as De. clear -F I De. induction F as [|c g cs gs [_ B] F IHF]; [contradiction|]. destruct I as [->|I]; [|auto].
        destruct (B _ De) as (v & Q & _). discriminate Q.
  - destruct IH as (g & A & B). set (n := last (arrlist_of U) None).
    exists (match n with None => StLists g 0 None | Some n => StLists g n (Some n) end). split.
    + intros [|fuel] Hf; [lia|]. cbn [get_strategy_fuel]. rewrite (array_strategy s U it P It), P. cbn [bind call_factory]. rewrite It. cbn [bind].
      destruct (opens_parse s _ P) as [Ho Ha]. destruct (item_type_facts U it Ha It) as [Ia Id]. rewrite A by (rewrite opens_print by exact Ia; lia). cbn [bind]. fold n. destruct n; reflexivity.
    + assert (L : forall vs, Forall (fun v => draw g (Ok v)) vs -> Spec.fits (PList vs) -> exists ps, puts lc (repeat (to_type_str it) (length vs)) vs ps).
      { intros vs Fd Fi. apply puts_all. assert (Fv : forall v, In v vs -> Spec.fits v) by (intros v I; apply (fits_item (PList vs) vs v); [left; reflexivity|exact I|exact Fi]).
        clear Fi. induction Fd as [|v vs Dv Fd IHF]; [constructor|]. cbn [length repeat]. constructor.
        - destruct (B _ Dv) as (v' & Q & H). inv Q. apply H, Fv. left. reflexivity.
        - apply IHF. intros v' I. apply Fv. right. exact I. }
      intros r Dr. unfold n in Dr. clear n. destruct (last (arrlist_of U) None) as [n|] eqn:Hn.
      * pose proof (sized_pos s U n P Hn) as Np. inv Dr; try lia.
        -- take (Forall _ _) as Fd. rename l0 into vs. exists (PList vs). split; [reflexivity|]. intro Fi. destruct (L vs Fd Fi) as [ps Ps].
           eexists. eapply put_sized; [exact P|exact It|exact Hn|left; reflexivity| |exact Ps]. take (forall k, Some n = Some k -> _) as Le. specialize (Le n eq_refl). lia.
        -- exfalso. take (draw g (Err e)) as De. destruct (B _ De) as (v & Q & _). discriminate Q.
      * inv Dr.
        -- take (Forall _ _) as Fd. rename l0 into vs. exists (PList vs). split; [reflexivity|]. intro Fi. destruct (L vs Fd Fi) as [ps Ps].
           eexists. eapply put_dyn; [exact P|exact It|exact Hn|apply drawn_made; exact D|left; reflexivity| |exact Ps].
           unfold Spec.fits in Fi. rewrite (py_size_seq (PList vs)) in Fi by (left; reflexivity). cbn [items] in Fi. pose proof (sizes_len vs). pose proof (len_nonneg vs). lia.
        -- exfalso. take (draw g (Err e)) as De. destruct (B _ De) as (v & Q & _). discriminate Q.
Qed.
End Drawn.

(** ** The API *)
Theorem drawn_generates lc l m s : names_ok lc -> strategy_names_ok l -> with_strategies l m -> suits lc l -> drawn l s ->
  exists g, get_strategy m s = Ok g /\ forall r, draw g r -> exists v, r = Ok v /\ (Spec.fits v -> exists p, put lc s v p).
Proof.
  intros Nc N W Su D. destruct (drawn_serves l m N (strategies_grown l m W N) lc Su s D) as (g & A & B). exists g. split; [|exact B].
  apply A. pose proof (opens_length s). lia.
Qed.
Theorem drawn_encodable lc l m w s : names_ok lc -> strategy_names_ok l -> with_strategies l m -> suits lc l -> with_coders lc w -> drawn l s ->
  exists g, get_strategy m s = Ok g /\ forall r, draw g r -> exists v, r = Ok v /\ (Spec.fits v -> is_encodable_in w (PStr s) v = Ok true).
Proof.
  intros Nc N W Su C D. destruct (drawn_generates lc l m s Nc N W Su D) as (g & E & H). exists g. split; [exact E|]. intros r Dr.
  destruct (H r Dr) as (v & -> & F). exists v. split; [reflexivity|]. intro Fi. destruct (F Fi) as [p P]. eapply coders_encodable; eassumption.
Qed.
Theorem drawn_round_trip lc l m w s strict : names_ok lc -> strategy_names_ok l -> with_strategies l m -> suits lc l -> with_coders lc w -> faithful lc -> drawn l s ->
  exists g, get_strategy m s = Ok g /\ forall r, draw g r -> exists v, r = Ok v /\ (Spec.fits v -> exists p, put lc s v p /\ (len (head_tail [p]) <= maxsize ->
    exists out q, encode_in w (PList [PStr s]) (PList [v]) = Ok out /\ decode_in w (PList [PStr s]) (PBytes out) strict = Ok (PTuple [q]) /\ got lc s p q)).
Proof.
  intros Nc N W Su C Fa D. destruct (drawn_generates lc l m s Nc N W Su D) as (g & E & H). exists g. split; [exact E|]. intros r Dr.
  destruct (H r Dr) as (v & -> & F). exists v. split; [reflexivity|]. intro Fi. destruct (F Fi) as [p P]. exists p. split; [exact P|]. intro L.
  destruct (coders_round_trip lc w (PList [PStr s]) [s] (PList [v]) [v] [p] strict Nc C Fa) as (out & qs & A & B & G); [left; reflexivity|left; reflexivity|constructor; [exact P|constructor]|exact L|].
  inv G. take (gots _ [] [] _) as G0. inv G0. eauto 6.
Qed.
Theorem strategies_kept l m s : strategy_names_ok l -> with_strategies l m -> (forall x, within x s -> ~ In x (map fst l)) -> get_strategy m s = get_abi_strategy s.
Proof. intros N W. apply strategies_elsewhere, strategies_grown; assumption. Qed.
