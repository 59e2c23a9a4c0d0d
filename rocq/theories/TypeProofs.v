(** Type names and syntax trees. *)
From Coq Require Import Strings.String.
From Verif Require Import Tac Address Grammar GrammarSpec GrammarProofs NormalizeProofs Registry Spec TypeSpec CacheProofs LookupProofs.
Open Scope Z_scope.

(** ** resolve and ast_sty *)
Definition lookup_exc (e : exc) : Prop := e = NoEntriesFound \/ e = ABITypeError \/ e = ValueError.
Lemma validate_basic_err b sub e : validate_basic b sub = Err e -> e = ABITypeError.
Proof.
  unfold validate_basic, raise_if. intro H.
  repeat (match type of H with
    | (if ?c then _ else _) = _ => destruct c
    | (match sub with _ => _ end) = _ => destruct sub
    | (_ ;;; _) = _ => apply bind_Err in H; destruct H as [H|(? & _ & H)]
    | _ => idtac
    end; try (inv H; reflexivity)); try discriminate.
Qed.
Lemma basic_none b sub : sub_ok sub -> validate_basic b sub = Ok tt -> str_eqb b (lit "function") = false ->
  std_class b sub <> None -> basic_sty b sub <> None.
Proof.
  intros Hs V F C. base_cases b; try discriminate F.
  - destruct sub as [|m|m n]; try discriminate V. destruct (basic_int (lit "uint") m ltac:(auto)) as [[H _]|[_ H]]; [|congruence].
    apply int_sizeb_spec in H. cbn -[int_sizeb]. rewrite H. discriminate.
  - destruct sub as [|m|m n]; try discriminate V. destruct (basic_int (lit "int") m ltac:(auto)) as [[H _]|[_ H]]; [|congruence].
    apply int_sizeb_spec in H. cbn -[int_sizeb]. rewrite H. discriminate.
  - destruct sub; try discriminate V. discriminate.
  - discriminate.
  - destruct sub as [|m|m n]; try discriminate V. destruct (basic_fixed (lit "ufixed") m n ltac:(auto)) as [(H & H' & _)|[_ H]]; [|congruence].
    apply int_sizeb_spec in H. apply frac_sizeb_spec in H'. cbn -[int_sizeb frac_sizeb]. rewrite H, H'. discriminate.
  - destruct sub as [|m|m n]; try discriminate V. destruct (basic_fixed (lit "fixed") m n ltac:(auto)) as [(H & H' & _)|[_ H]]; [|congruence].
    apply int_sizeb_spec in H. apply frac_sizeb_spec in H'. cbn -[int_sizeb frac_sizeb]. rewrite H, H'. discriminate.
  - destruct sub as [|m|m n]; try discriminate V; [discriminate|]. destruct (basic_bytes m Hs) as [[H _]|[_ H]]; [|congruence].
    cbn [sub_ok] in Hs. cbn -[Z.leb]. replace ((1 <=? m) && (m <=? 32)) with true by lia. discriminate.
  - destruct sub; try discriminate V. discriminate.
  - exfalso. apply C. unfold std_class. repeat match goal with E : str_eqb b ?x = false |- _ => rewrite E; clear E end. reflexivity.
Qed.
Lemma basic_valid b sub t : basic_sty b sub = Some t ->
  validate_basic b sub = Ok tt /\ str_eqb b (lit "function") = false /\ std_class b sub <> None.
Proof.
  intro H. base_cases b; try discriminate H.
  - destruct sub as [|m|m n]; try discriminate H. destruct (basic_int (lit "uint") m ltac:(auto)) as [[H1 H2]|[H1 H2]].
    + rewrite H2. repeat split; discriminate.
    + cbn -[int_sizeb] in H. rewrite H1 in H. discriminate.
  - destruct sub as [|m|m n]; try discriminate H. destruct (basic_int (lit "int") m ltac:(auto)) as [[H1 H2]|[H1 H2]].
    + rewrite H2. repeat split; discriminate.
    + cbn -[int_sizeb] in H. rewrite H1 in H. discriminate.
  - destruct sub; try discriminate H. repeat split; discriminate.
  - repeat split; discriminate.
  - destruct sub as [|m|m n]; try discriminate H. destruct (basic_fixed (lit "ufixed") m n ltac:(auto)) as [(H1 & _ & H2)|[H1 H2]].
    + rewrite H2. repeat split; discriminate.
    + cbn -[int_sizeb frac_sizeb] in H. rewrite H1 in H. discriminate.
  - destruct sub as [|m|m n]; try discriminate H. destruct (basic_fixed (lit "fixed") m n ltac:(auto)) as [(H1 & _ & H2)|[H1 H2]].
    + rewrite H2. repeat split; discriminate.
    + cbn -[int_sizeb frac_sizeb] in H. rewrite H1 in H. discriminate.
  - destruct sub as [|m|m n]; try discriminate H; [repeat split; discriminate|]. cbn -[Z.leb] in H.
    destruct ((1 <=? m) && (m <=? 32)) eqn:E; [|discriminate]. destruct (basic_bytes m ltac:(lia)) as [[_ H2]|[H2 _]]; [|lia].
    rewrite H2. repeat split; discriminate.
  - destruct sub; try discriminate H. repeat split; discriminate.
  - exfalso. unfold basic_sty in H. repeat match goal with E : str_eqb b ?x = false |- _ => rewrite E in H; clear E end. discriminate H.
Qed.
Lemma resolve_basic_spec b sub : sub_ok sub ->
  match resolve_basic b sub with
  | Ok t => basic_sty b sub = Some t /\ validate_basic b sub = Ok tt
  | Err e => basic_sty b sub = None /\ lookup_exc e
  end.
Proof.
  intro Hs. unfold resolve_basic, lookup_exc. destruct (std_class b sub) as [c|] eqn:SC.
  - destruct (str_eqb b (lit "function")) eqn:F.
    + split; [|auto]. destruct (basic_sty b sub) as [t|] eqn:E; [|reflexivity]. apply basic_valid in E. intuition congruence.
    + destruct (validate_basic b sub) as [[]|e] eqn:V; cbn [bind].
      * pose proof (basic_none b sub Hs V F ltac:(congruence)). destruct (basic_sty b sub); [auto|congruence].
      * apply validate_basic_err in V as E. subst e. split; [|auto]. destruct (basic_sty b sub) as [t|] eqn:E; [|reflexivity].
        apply basic_valid in E. intuition congruence.
  - split; [|auto]. destruct (basic_sty b sub) as [t|] eqn:E; [|reflexivity]. apply basic_valid in E. intuition congruence.
Qed.
Lemma validate_type_tup ts arr : validate_type (Tup ts arr) = (map_result validate_type ts ;;; Ok tt).
Proof.
  cbn [validate_type]. induction ts as [|t ts IH]; [reflexivity|].
  change (map_result validate_type (t :: ts)) with (y <- validate_type t ;; ys <- map_result validate_type ts ;; Ok (y :: ys)).
  destruct (validate_type t) as [[]|e]; cbn [bind]; [|reflexivity]. rewrite IH. destruct (map_result validate_type ts); reflexivity.
Qed.
Lemma map_result_Ok {A B} (f : A -> result B) l l' : map_result f l = Ok l' <-> Forall2 (fun x y => f x = Ok y) l l'.
Proof.
  revert l'. induction l as [|x l IH]; intro l'.
  - cbn. split; intro H; inv H; constructor.
  - change (map_result f (x :: l)) with (y <- f x ;; ys <- map_result f l ;; Ok (y :: ys)). split.
    + intro H. bok H. bok H. inv H. constructor; [assumption|]. apply IH. assumption.
    + intro H. inv H. take (f x = _) as E. rewrite E. cbn [bind]. take (Forall2 _ l _) as F. apply IH in F. rewrite F. reflexivity.
Qed.
Lemma map_result_Err {A B} (f : A -> result B) l e : map_result f l = Err e -> exists x, In x l /\ f x = Err e.
Proof.
  induction l as [|x l IH]; [discriminate|].
  change (map_result f (x :: l)) with (y <- f x ;; ys <- map_result f l ;; Ok (y :: ys)). intro H.
  apply bind_Err in H. destruct H as [H|(y & _ & H)]; [exists x; split; [left; reflexivity|exact H]|].
  apply bind_Err in H. destruct H as [H|(ys & _ & H)]; [|discriminate]. destruct (IH H) as (x' & I' & E). exists x'. split; [right; exact I'|exact E].
Qed.
Lemma resolve_spec T : ast_ok T ->
  match resolve T with
  | Ok t => ast_sty T = Some t /\ validate_type T = Ok tt
  | Err e => ast_sty T = None /\ lookup_exc e
  end.
Proof.
  induction T as [b sub arr|ts arr IH] using abi_type_ind'; intro A; inv A.
  - take (sub_ok sub) as Hs. pose proof (resolve_basic_spec b sub Hs) as R. cbn [ast_sty].
    assert (Q : match (t <- resolve_basic b sub ;; Ok (dims_sty arr t)) with
                | Ok t => option_map (dims_sty arr) (basic_sty b sub) = Some t /\ validate_basic b sub = Ok tt
                | Err e => option_map (dims_sty arr) (basic_sty b sub) = None /\ lookup_exc e
                end).
    { destruct (resolve_basic b sub); cbn [bind]; destruct R as [-> R]; split; auto. }
    destruct arr as [|d arr]; cbn [resolve validate_type].
    + destruct (resolve_basic b sub); cbn [bind] in Q; exact Q.
    + destruct (validate_basic b sub) as [[]|e] eqn:V; cbn [bind]; [exact Q|].
      destruct (basic_sty b sub) as [t|] eqn:E; [apply basic_valid in E; intuition congruence|].
      split; [reflexivity|]. apply validate_basic_err in V. right. left. exact V.
  - take (Forall ast_ok ts) as A. cbn [ast_sty resolve].
    assert (IH' : Forall (fun T => match resolve T with Ok t => ast_sty T = Some t /\ validate_type T = Ok tt | Err e => ast_sty T = None /\ lookup_exc e end) ts).
    { apply Forall_forall. intros T HT. rewrite Forall_forall in IH, A. apply IH; auto. }
    clear IH A. rewrite Forall_forall in IH'. rewrite validate_type_tup.
    destruct (map_result validate_type ts) as [us|e] eqn:V; cbn [bind].
    + destruct (map_result resolve ts) as [l|e] eqn:R; cbn [bind].
      * split; [|reflexivity]. apply map_result_Ok in R.
        replace (all_some (map ast_sty ts)) with (Some l); [reflexivity|]. symmetry. apply all_some_Forall2.
        clear -R IH'. induction R as [|T t ts l E R IHR]; cbn [map]; constructor.
        -- pose proof (IH' T (or_introl eq_refl)) as Q. rewrite E in Q. apply Q.
        -- apply IHR. intros x Hx. apply IH'. right. exact Hx.
      * apply map_result_Err in R. destruct R as (T & I1 & R). pose proof (IH' T I1) as Q. rewrite R in Q. destruct Q as [Q1 Q2].
        split; [|exact Q2]. replace (all_some (map ast_sty ts)) with (@None (list sty)); [reflexivity|]. symmetry. apply all_some_none.
        rewrite <- Q1. apply in_map. exact I1.
    + apply map_result_Err in V. destruct V as (T & I1 & V). pose proof (IH' T I1) as Q. destruct (resolve T) as [t|e'].
      * destruct Q. congruence.
      * split; [|right; left].
        -- replace (all_some (map ast_sty ts)) with (@None (list sty)); [reflexivity|]. symmetry. apply all_some_none.
           rewrite <- (proj1 Q). apply in_map. exact I1.
        -- clear -V. induction T as [b sub arr|ts arr IH] using abi_type_ind'; [eapply validate_basic_err; exact V|].
           rewrite validate_type_tup in V. apply bind_Err in V. destruct V as [V|(? & _ & V)]; [|discriminate].
           apply map_result_Err in V. destruct V as (T & I1 & V). rewrite Forall_forall in IH. apply (IH T I1 V).
Qed.

(** ** Names and trees *)
Lemma g_arr_snoc sa ds : g_arr sa ds -> g_arr (sa ++ lit "[]") (ds ++ [None])
  /\ forall d n, numeral d n -> g_arr (sa ++ lit "[" ++ d ++ lit "]") (ds ++ [Some n]).
Proof.
  intro A. split.
  - induction A as [|s ds A IH|d n s ds N A IH]; [exact (GA_dynamic [] [] GA_nil)| |]; rewrite <- ?app_assoc; cbn [app]; constructor; assumption.
  - intros d0 n0 N0. induction A as [|s ds A IH|d n s ds N A IH]; [exact (GA_const d0 n0 [] [] N0 GA_nil)| |]; rewrite <- ?app_assoc in *; cbn [app] in *; constructor; assumption.
Qed.
Lemma g_type_snoc s T : g_type s T -> g_type (s ++ lit "[]") (set_arr (arrlist_of T ++ [None]) T)
  /\ forall d n, numeral d n -> g_type (s ++ lit "[" ++ d ++ lit "]") (set_arr (arrlist_of T ++ [Some n]) T).
Proof.
  intro G. destruct G as [b ss sub sa arr B S A|s ts sa arr C A]; destruct (g_arr_snoc _ _ A) as [A1 A2]; cbn [arrlist_of set_arr].
  - split; [|intros d n N]; rewrite <- !app_assoc; constructor; auto.
  - split; [|intros d n N]; rewrite <- !app_assoc; constructor; auto.
Qed.
Lemma ast_sty_snoc T d : ast_sty (expand (set_arr (arrlist_of T ++ [d]) T)) = option_map (fun t => dim_sty t d) (ast_sty (expand T)).
Proof.
  rewrite expand_set_arr, <- (arrlist_expand T). destruct (expand T) as [b sub arr|ts arr]; cbn [arrlist_of set_arr ast_sty].
  - destruct (basic_sty b sub); cbn [option_map]; [|reflexivity]. unfold dims_sty. rewrite fold_left_app. reflexivity.
  - destruct (all_some (map ast_sty ts)); cbn [option_map]; [|reflexivity]. unfold dims_sty. rewrite fold_left_app. reflexivity.
Qed.
Definition named (s : pystr) (t : sty) : Prop := exists T, parse s = Ok T /\ ast_sty (expand T) = Some t.
Lemma g_basic b ss sub : alphas b -> g_sub ss sub -> g_type (b ++ ss) (Basic b sub []).
Proof. intros B S. rewrite <- (app_nil_r (b ++ ss)), <- app_assoc. constructor; auto. constructor. Qed.
Ltac alpha := split; [discriminate|cbn; repeat constructor; unfold letter; lia].
Lemma named_basic b ss sub t : alphas b -> g_sub ss sub -> ast_sty (expand (Basic b sub [])) = Some t -> named (b ++ ss) t.
Proof. intros B S E. eexists. split; [apply parse_spec; apply g_basic; eassumption|exact E]. Qed.
Lemma type_name_named :
  (forall s t, type_name true s t -> named s t)
  /\ (forall s ts, type_names true s ts -> exists Ts, g_components s Ts /\ Forall2 (fun T t => ast_sty (expand T) = Some t) Ts ts).
Proof.
  assert (N0 : forall b t, alphas b -> ast_sty (expand (Basic b SubNone [])) = Some t -> named b t).
  { intros b t B E. rewrite <- (app_nil_r b). eapply named_basic; [exact B|constructor|exact E]. }
  assert (Snoc : forall s t, named s t -> named (s ++ lit "[]") (SArr t) /\ forall d n, numeral d n -> named (s ++ lit "[" ++ d ++ lit "]") (SSized n t)).
  { intros s t (T & P & E). apply parse_spec in P. destruct (g_type_snoc _ _ P) as [G1 G2]. split.
    - eexists. split; [apply parse_spec; exact G1|]. rewrite ast_sty_snoc, E. reflexivity.
    - intros d n N. eexists. split; [apply parse_spec; apply (G2 d n N)|]. rewrite ast_sty_snoc, E. reflexivity. }
  apply tn_mut.
  - intros d m N I. eapply named_basic; [alpha|apply GS_int; exact N|]. apply int_sizeb_spec in I. cbn -[int_sizeb]. rewrite I. reflexivity.
  - intros d m N I. eapply named_basic; [alpha|apply GS_int; exact N|]. apply int_sizeb_spec in I. cbn -[int_sizeb]. rewrite I. reflexivity.
  - apply N0; [alpha|reflexivity].
  - apply N0; [alpha|reflexivity].
  - apply N0; [alpha|reflexivity].
  - intros ss sub _ S. eapply named_basic; [alpha|exact S|]. destruct sub; reflexivity.
  - apply N0; [alpha|reflexivity].
  - intros d1 m d2 n N1 I1 N2 I2. eapply named_basic; [alpha|apply GS_pair; eassumption|]. apply int_sizeb_spec in I1. apply frac_sizeb_spec in I2.
    cbn -[int_sizeb frac_sizeb]. rewrite I1, I2. reflexivity.
  - intros d1 m d2 n N1 I1 N2 I2. eapply named_basic; [alpha|apply GS_pair; eassumption|]. apply int_sizeb_spec in I1. apply frac_sizeb_spec in I2.
    cbn -[int_sizeb frac_sizeb]. rewrite I1, I2. reflexivity.
  - apply N0; [alpha|reflexivity].
  - apply N0; [alpha|reflexivity].
  - intros d k N I. eapply named_basic; [alpha|apply GS_int; exact N|]. cbn -[Z.leb]. replace ((1 <=? k) && (k <=? 32)) with true by lia. reflexivity.
  - apply N0; [alpha|reflexivity].
  - apply N0; [alpha|reflexivity].
  - apply N0; [alpha|reflexivity].
  - apply N0; [alpha|reflexivity].
  - intros s t _ N. apply Snoc. exact N.
  - intros s t d n _ N D. apply Snoc; assumption.
  - intros s ts _ (Ts & C & F). exists (Tup Ts []). split.
    + apply parse_spec. exact (G_tuple s Ts [] [] C GA_nil).
    + cbn [expand ast_sty]. replace (all_some (map ast_sty (map expand Ts))) with (Some ts); [reflexivity|]. symmetry. apply all_some_Forall2.
      clear C. induction F; constructor; auto.
  - intros s t _ (T & P & E). exists [T]. split; [constructor; apply parse_spec; exact P|]. constructor; [exact E|constructor].
  - intros s t ss ts _ (T & P & E) _ (Ts & C & F). exists (T :: Ts). split; [constructor; [apply parse_spec; exact P|exact C]|].
    constructor; assumption.
Qed.
Lemma basic_named b ss sub t : alphas b -> g_sub ss sub -> ast_sty (expand (Basic b sub [])) = Some t -> type_name true (b ++ ss) t.
Proof.
  intros B S E. assert (Hs := g_sub_ok _ _ S).
  destruct (str_eqb b (lit "byte")) eqn:Bb.
  { apply str_eqb_eq in Bb. subst b. inv S; try discriminate E. cbn in E. inv E. rewrite app_nil_r. apply TN_byte. }
  base_cases b.
  - inv S; try discriminate E; [cbn in E; inv E; rewrite app_nil_r; apply TN_uint_256|]. cbn -[int_sizeb] in E.
    destruct (int_sizeb n) eqn:I; inv E. apply int_sizeb_spec in I. constructor; assumption.
  - inv S; try discriminate E; [cbn in E; inv E; rewrite app_nil_r; apply TN_int_256|]. cbn -[int_sizeb] in E.
    destruct (int_sizeb n) eqn:I; inv E. apply int_sizeb_spec in I. constructor; assumption.
  - inv S; try discriminate E. cbn in E. inv E. rewrite app_nil_r. apply TN_address.
  - assert (t = SBool) by (inv S; cbn in E; congruence). subst t. eapply TN_bool_lax; [reflexivity|exact S].
  - inv S; try discriminate E; [cbn in E; inv E; rewrite app_nil_r; apply TN_ufixed_128x18|]. cbn -[int_sizeb frac_sizeb] in E.
    destruct (int_sizeb n1 && frac_sizeb n2) eqn:I; inv E. apply andb_true_iff in I. destruct I as [I1 I2].
    apply int_sizeb_spec in I1. apply frac_sizeb_spec in I2. constructor; assumption.
  - inv S; try discriminate E; [cbn in E; inv E; rewrite app_nil_r; apply TN_fixed_128x18|]. cbn -[int_sizeb frac_sizeb] in E.
    destruct (int_sizeb n1 && frac_sizeb n2) eqn:I; inv E. apply andb_true_iff in I. destruct I as [I1 I2].
    apply int_sizeb_spec in I1. apply frac_sizeb_spec in I2. constructor; assumption.
  - inv S; try discriminate E; [cbn in E; inv E; rewrite app_nil_r; apply TN_bytes|]. cbn -[Z.leb] in E.
    destruct ((1 <=? n) && (n <=? 32)) eqn:I; inv E. constructor; [assumption|lia].
  - inv S; try discriminate E. cbn in E. inv E. rewrite app_nil_r. apply TN_function.
  - inv S; try discriminate E. cbn in E. inv E. rewrite app_nil_r. apply TN_string.
  - exfalso. assert (X : expand (Basic b sub []) = Basic b sub []).
    { destruct sub; try reflexivity. cbn [expand]. unfold alias_of.
      repeat match goal with E : str_eqb b ?x = false |- _ => rewrite E; clear E end. reflexivity. }
    rewrite X in E. cbn [ast_sty] in E. unfold basic_sty in E.
    repeat match goal with Q : str_eqb b ?x = false |- _ => rewrite Q in E; clear Q end. discriminate E.
Qed.
(** A type with dimensions is its last dimension on the rest. *)
Lemma arr_named s0 (T0 : abi_type) : arrlist_of T0 = [] ->
  (forall t, ast_sty (expand T0) = Some t -> type_name true s0 t) ->
  forall arr, Forall dim_ok arr -> forall t, ast_sty (expand (set_arr arr T0)) = Some t -> type_name true (s0 ++ flat_map dim_str arr) t.
Proof.
  intros E0 H0 arr. induction arr as [|d arr IH] using rev_ind; intros F t E.
  - rewrite app_nil_r. apply H0. destruct T0; cbn [arrlist_of] in E0; subst; exact E.
  - apply Forall_app in F. destruct F as [F1 F2]. inv F2. take (dim_ok d) as D.
    assert (Q : set_arr (arr ++ [d]) T0 = set_arr (arrlist_of (set_arr arr T0) ++ [d]) (set_arr arr T0)) by (destruct T0; reflexivity).
    rewrite Q, ast_sty_snoc in E. destruct (ast_sty (expand (set_arr arr T0))) as [t0|] eqn:E1; [|discriminate]. inv E.
    specialize (IH F1 t0 eq_refl). rewrite flat_map_app. cbn [flat_map]. rewrite app_nil_r, app_assoc.
    destruct d as [n|]; cbn [dim_sty dim_str].
    + apply TN_sized; [exact IH|]. apply str_numeral. exact D.
    + apply TN_arr. exact IH.
Qed.
Lemma ast_named T : ast_ok T -> forall t, ast_sty (expand T) = Some t -> type_name true (to_type_str T) t.
Proof.
  induction T as [b sub arr|ts arr IH] using abi_type_ind'; intros A t E; inv A.
  - take (alphas b) as B. take (sub_ok sub) as S. apply sub_ok_g in S. take (Forall dim_ok arr) as F. cbn [to_type_str]. rewrite app_assoc.
    apply (arr_named (b ++ sub_str sub) (Basic b sub []) eq_refl); [|exact F|exact E]. intros t0 E0. eapply basic_named; eassumption.
  - take (Forall ast_ok ts) as A. take (ts <> []) as Ne. take (Forall dim_ok arr) as F. cbn [to_type_str].
    change (lit "(" ++ join_comma (map to_type_str ts) ++ lit ")" ++ flat_map dim_str arr)
      with (lit "(" ++ (join_comma (map to_type_str ts) ++ (lit ")" ++ flat_map dim_str arr))). rewrite !app_assoc.
    apply (arr_named _ (Tup ts []) eq_refl); [|exact F|exact E]. clear t E F arr. intros t E. cbn [expand ast_sty] in E.
    destruct (all_some (map ast_sty (map expand ts))) as [l|] eqn:L; [|discriminate]. inv E. apply all_some_Forall2 in L.
    rewrite <- app_assoc. apply TN_tuple. revert l L Ne. induction IH as [|T ts HT IH IHts]; intros l L Ne; [congruence|]. inv A. inv L.
    destruct ts as [|T' ts].
    + take (Forall2 _ (map ast_sty (map expand [])) _) as L. inv L. cbn. constructor. auto.
    + change (join_comma (map to_type_str (T :: T' :: ts))) with (to_type_str T ++ lit "," ++ join_comma (map to_type_str (T' :: ts))).
      constructor; [auto|]. apply IHts; [assumption|assumption|discriminate].
Qed.
Theorem type_name_iff s t : type_name true s t <-> named s t.
Proof.
  split; [apply type_name_named|]. intros (T & P & E). apply parse_iff in P. destruct P as [A ->]. apply ast_named; assumption.
Qed.
Lemma byte_tree s T : parse s = Ok T -> (bare_byte T = true <-> s = lit "byte").
Proof.
  intro P. split.
  - intro H. apply parse_print in P. destruct T as [b [|m|m n] [|d a]|ts a]; try discriminate H. cbn in H. apply str_eqb_eq in H. subst b.
    subst s. reflexivity.
  - intros ->. vm_compute in P. inv P. reflexivity.
Qed.
Theorem supported_iff s t : supported s t <-> exists T, parse s = Ok T /\ lookup_sty T = Ok t.
Proof.
  unfold supported. rewrite type_name_iff. unfold named, lookup_sty. split.
  - intros [(T & P & E) B]. exists T. split; [exact P|]. destruct (bare_byte T) eqn:Bb; [apply (byte_tree s T P) in Bb; congruence|].
    pose proof (resolve_spec (expand T)) as R. apply parse_iff in P. specialize (R (expand_ok T (proj1 P))).
    destruct (resolve (expand T)); destruct R; congruence.
  - intros (T & P & E). destruct (bare_byte T) eqn:Bb; [discriminate|].
    pose proof (resolve_spec (expand T)) as R. pose proof P as P'. apply parse_iff in P'. specialize (R (expand_ok T (proj1 P'))).
    rewrite E in R. split; [exists T; intuition|]. intro Hs. apply (byte_tree s T P) in Hs. congruence.
Qed.
Lemma supported_wf s t : supported s t -> wf t.
Proof.
  intro H. destruct H as [H _]. apply type_name_iff in H. destruct H as (T & P & E). apply parse_iff in P.
  eapply ast_wf; [|exact E]. apply expand_ok. apply P.
Qed.
Lemma supported_fun s t t' : supported s t -> supported s t' -> t = t'.
Proof. intros [H _] [H' _]. apply type_name_iff in H, H'. destruct H as (T & P & E), H' as (T' & P' & E'). congruence. Qed.
(** Strict names are lax names, and differ only in "bool". *)
Lemma type_name_weaken : (forall s t, type_name false s t -> type_name true s t) /\ (forall s ts, type_names false s ts -> type_names true s ts).
Proof. apply tn_mut; intros; try (constructor; assumption). discriminate. Qed.
