(** Proofs about ABIType objects. *)
From Coq Require Import Strings.String.
From Verif Require Import Tac Bytes BytesProofs Grammar GrammarSpec GrammarProofs NormalizeProofs LookupProofs TypeProofs TypeCases Spec TypeSpec AbiTypes AbiTypesSpec.
Open Scope Z_scope.

(** ** Objects of trees *)
Fixpoint locate_list (full : pystr) (pos : nat) (l : list abi_type) : list abi_obj :=
  match l with
  | [] => []
  | c :: l' => locate full pos c :: locate_list full (pos + length (to_type_str c) + 1) l'
  end.
Lemma locate_tup full pos cs arr : locate full pos (Tup cs arr) =
  OTuple (locate_list full (pos + 1) cs) (arr_obj arr) (Some (mkNode full pos (pos + length (to_type_str (Tup cs arr))))).
Proof.
  cbn [locate]. f_equal. generalize (pos + 1)%nat. induction cs as [|c cs IH]; intro p; [reflexivity|]. cbn [locate_list]. f_equal. apply IH.
Qed.
Fixpoint validate_list (l : list abi_obj) : verdict :=
  match l with [] => Valid | c :: l' => match obj_validate c with Valid => validate_list l' | v => v end end.
Lemma validate_tuple cs a n : obj_validate (OTuple cs a n) = validate_list cs.
Proof. cbn [obj_validate]. induction cs as [|c cs IH]; [reflexivity|]. cbn [validate_list]. rewrite IH. reflexivity. Qed.
Lemma join_commas l : join (lit ",") l = join_comma l.
Proof. induction l as [|x [|y l] IH]; [reflexivity|reflexivity|]. cbn [join join_comma] in *. rewrite IH. reflexivity. Qed.
Lemma arr_obj_text arr : arr_text (arr_obj arr) = flat_map dim_str arr.
Proof.
  assert (H : flat_map repr_ints (map (fun d => match d with None => [] | Some n => [n] end) arr) = flat_map dim_str arr).
  { induction arr as [|[n|] arr IH]; [reflexivity| |]; cbn [map flat_map]; rewrite IH; reflexivity. }
  destruct arr; [reflexivity|exact H].
Qed.
Lemma sub_obj_text sub : sub_text (sub_obj sub) = sub_str sub.
Proof. destruct sub; reflexivity. Qed.
Lemma locate_str T : forall full pos, obj_str (locate full pos T) = to_type_str T.
Proof.
  induction T as [b sub arr|ts arr IH] using abi_type_ind'; intros full pos.
  - cbn [locate obj_str to_type_str]. rewrite sub_obj_text, arr_obj_text. reflexivity.
  - rewrite locate_tup. cbn [obj_str to_type_str]. rewrite arr_obj_text, join_commas. do 3 f_equal.
    generalize (pos + 1)%nat. induction IH as [|t ts Ht IH IHts]; intro p; [reflexivity|]. cbn [locate_list map]. rewrite Ht. f_equal. apply IHts.
Qed.
Lemma parse_obj_iff s o : parse_obj s = Ok o <-> exists T, g_type s T /\ o = locate s 0 T.
Proof.
  unfold parse_obj. rewrite bind_Ok. split.
  - intros (T & P & H). apply parse_spec in P. inv H. eauto.
  - intros (T & P & ->). exists T. apply parse_spec in P. auto.
Qed.
Theorem parse_obj_str s o : parse_obj s = Ok o -> obj_str o = s.
Proof. intro H. apply parse_obj_iff in H. destruct H as (T & G & ->). rewrite locate_str. apply g_type_str. exact G. Qed.
Theorem parse_obj_err s e : parse_obj s = Err e <-> parse s = Err e.
Proof. unfold parse_obj. destruct (parse s); cbn [bind]; split; congruence. Qed.

(** ** Equality *)
Lemma obj_eq_same a b : obj_eq a b = true <->
  obj_str a = obj_str b /\ match a, b with OBasic _ _ _ _, OBasic _ _ _ _ | OTuple _ _ _, OTuple _ _ _ => True | _, _ => False end.
Proof. destruct a, b; cbn [obj_eq]; rewrite ?str_eqb_eq; intuition discriminate. Qed.
Theorem obj_eq_laws a b c : obj_eq a a = true /\ obj_eq a b = obj_eq b a /\ (obj_eq a b = true -> obj_eq b c = true -> obj_eq a c = true).
Proof.
  split; [apply obj_eq_same; split; [reflexivity|destruct a; exact I]|]. split.
  - assert (H : forall x y, obj_eq x y = true -> obj_eq y x = true).
    { intros x y H. apply obj_eq_same in H. apply obj_eq_same. destruct H as [H C]. split; [auto|]. destruct x, y; auto. }
    destruct (obj_eq a b) eqn:E, (obj_eq b a) eqn:F; auto.
    + apply H in E. congruence.
    + apply H in F. congruence.
  - rewrite !obj_eq_same. intros [E C] [F D]. split; [congruence|]. destruct a, b, c; auto.
Qed.
Theorem obj_eq_parsed s s' o o' : parse_obj s = Ok o -> parse_obj s' = Ok o' -> (obj_eq o o' = true <-> s = s').
Proof.
  intros P P'. rewrite obj_eq_same, (parse_obj_str s o P), (parse_obj_str s' o' P'). split; [intuition|]. intros ->. split; [reflexivity|].
  replace o' with o by congruence. destruct o; exact I.
Qed.

(** ** Items *)
Lemma arr_obj_item arr d : arr_item (arr_obj (arr ++ [d])) = arr_obj arr /\ arr_obj (arr ++ [d]) <> RNone.
Proof.
  unfold arr_obj. destruct (arr ++ [d]) as [|x l] eqn:E; [destruct arr; discriminate|]. rewrite <- E. split; [|discriminate]. cbn [arr_item].
  rewrite map_app. cbn [map]. rewrite removelast_last. destruct arr; reflexivity.
Qed.
Lemma strip_locate T : forall full pos full' pos', strip (locate full pos T) = strip (locate full' pos' T).
Proof.
  induction T as [b sub arr|ts arr IH] using abi_type_ind'; intros; [reflexivity|]. rewrite !locate_tup. cbn [strip]. f_equal.
  generalize (pos + 1)%nat, (pos' + 1)%nat. induction IH as [|t ts Ht IH IHts]; intros p p'; [reflexivity|]. cbn [locate_list map].
  f_equal; [apply Ht|apply IHts].
Qed.
Lemma locate_node T full pos : o_node (locate full pos T) = Some (mkNode full pos (pos + length (to_type_str T))).
Proof. destruct T; [reflexivity|]. rewrite locate_tup. reflexivity. Qed.
Lemma item_locate T d full pos :
  is_array (locate full pos (set_arr (arrlist_of T ++ [d]) T)) = true
  /\ exists i, obj_item_type (locate full pos (set_arr (arrlist_of T ++ [d]) T)) = Ok i
     /\ o_node i = o_node (locate full pos (set_arr (arrlist_of T ++ [d]) T))
     /\ strip i = strip (locate full pos T).
Proof.
  destruct T as [b sub arr|ts arr]; cbn [arrlist_of set_arr]; destruct (arr_obj_item arr d) as [A N].
  - cbn [locate]. unfold obj_item_type, is_array. cbn [o_arr]. destruct (arr_obj (arr ++ [d])) eqn:E; [congruence| |]; (split; [reflexivity|]);
      eexists; (split; [reflexivity|]); (split; [reflexivity|]); rewrite A; reflexivity.
  - rewrite !locate_tup. unfold obj_item_type, is_array. cbn [o_arr]. destruct (arr_obj (arr ++ [d])) eqn:E; [congruence| |]; (split; [reflexivity|]);
      eexists; (split; [reflexivity|]); (split; [reflexivity|]); rewrite A; reflexivity.
Qed.
Lemma array_of_tree item s : array_of item s -> exists T d, g_type item T /\ g_type s (set_arr (arrlist_of T ++ [d]) T).
Proof.
  intros [[T G] H]. destruct (g_type_snoc _ _ G) as [G1 G2]. destruct H as [->|(d & n & N & ->)]; exists T.
  - exists None. auto.
  - exists (Some n). auto.
Qed.
Lemma strip_str o : obj_str (strip o) = obj_str o.
Proof.
  revert o. fix IH 1. intros [b sub arr n|cs arr n]; [reflexivity|]. cbn [strip obj_str]. do 3 f_equal.
  induction cs as [|c cs IHcs]; [reflexivity|]. cbn [map]. rewrite IH, IHcs. reflexivity.
Qed.
Lemma strip_eq a b : strip a = strip b -> obj_eq a b = true.
Proof.
  intro H. apply obj_eq_same. split; [rewrite <- (strip_str a), H; apply strip_str|]. destruct a, b; cbn [strip] in H; (exact I || discriminate).
Qed.
Theorem item_parsed item s o : array_of item s -> parse_obj s = Ok o ->
  is_array o = true
  /\ exists i i', obj_item_type o = Ok i /\ parse_obj item = Ok i' /\ strip i = strip i' /\ obj_eq i i' = true /\ o_node i = o_node o.
Proof.
  intros A P. apply parse_obj_iff in P. destruct P as (T' & G' & ->). destruct (array_of_tree item s A) as (T & d & G & G2).
  rewrite (g_type_unique _ _ _ G' G2). destruct (item_locate T d s 0) as (Y & i & E & Nd & S). split; [exact Y|].
  exists i, (locate item 0 T). split; [exact E|]. split; [apply parse_obj_iff; eauto|].
  rewrite (strip_locate T s 0%nat item 0%nat) in S. split; [exact S|]. split; [apply strip_eq; exact S|exact Nd].
Qed.
Lemma g_arr_last sa ds : g_arr sa ds -> ds <> [] -> exists sb db d, g_arr sb db /\ ds = db ++ [d]
  /\ (sa = sb ++ lit "[]" \/ exists x n, numeral x n /\ sa = sb ++ lit "[" ++ x ++ lit "]").
Proof.
  induction 1 as [|s ds A IH|x n s ds N A IH]; intro Ne; [congruence| |].
  - destruct ds as [|d0 ds].
    + inv A. exists [], [], None. split; [constructor|]. split; [reflexivity|]. left. reflexivity.
    + destruct IH as (sb & db & d & G & E & H); [discriminate|]. exists (lit "[]" ++ sb), (None :: db), d. split; [constructor; exact G|]. split; [rewrite E; reflexivity|].
      destruct H as [->|(y & m & M & ->)]; [left|right; exists y, m; split; [exact M|]]; rewrite <- ?app_assoc; reflexivity.
  - destruct ds as [|d0 ds].
    + inv A. exists [], [], (Some n). split; [constructor|]. split; [reflexivity|]. right. exists x, n. split; [exact N|]. rewrite app_nil_r. reflexivity.
    + destruct IH as (sb & db & d & G & E & H); [discriminate|]. exists (lit "[" ++ x ++ lit "]" ++ sb), (Some n :: db), d.
      split; [constructor; assumption|]. split; [rewrite E; reflexivity|].
      destruct H as [->|(y & m & M & ->)]; [left|right; exists y, m; split; [exact M|]]; rewrite <- ?app_assoc; reflexivity.
Qed.
Lemma tree_array s T : g_type s T -> arrlist_of T <> [] -> exists item, array_of item s.
Proof.
  intros G Ne. destruct G as [b ss sub sa arr B S A|s ts sa arr C A]; cbn [arrlist_of] in Ne; destruct (g_arr_last _ _ A Ne) as (sb & db & d & Gb & -> & H).
  - exists (b ++ ss ++ sb). split; [eexists; constructor; eassumption|]. destruct H as [->|(y & m & M & ->)]; [left|right; exists y, m; split; [exact M|]]; rewrite <- ?app_assoc; reflexivity.
  - exists (lit "(" ++ s ++ lit ")" ++ sb). split; [eexists; constructor; eassumption|].
    destruct H as [->|(y & m & M & ->)]; [left|right; exists y, m; split; [exact M|]]; rewrite <- ?app_assoc; reflexivity.
Qed.
Theorem item_refused s o : parse_obj s = Ok o -> (forall item, ~ array_of item s) -> is_array o = false /\ obj_item_type o = Err ValueError.
Proof.
  intros P H. apply parse_obj_iff in P. destruct P as (T & G & ->).
  assert (E : arrlist_of T = []). { destruct (arrlist_of T) eqn:E; [reflexivity|]. destruct (tree_array s T G) as (i & A); [congruence|]. destruct (H i A). }
  assert (Y : is_array (locate s 0 T) = false). { destruct T; cbn [arrlist_of] in E; subst; [reflexivity|]. rewrite locate_tup. reflexivity. }
  split; [exact Y|]. unfold obj_item_type. rewrite Y. reflexivity.
Qed.

(** ** Dynamic types *)
Lemma arr_obj_dynamic arr : arr_dynamic (arr_obj arr) = has_dynamic_arrlist arr.
Proof.
  assert (H : existsb (fun d : list Z => match d with [] => true | _ => false end) (map (fun d => match d with None => [] | Some n => [n] end) arr) = has_dynamic_arrlist arr).
  { induction arr as [|[n|] arr IH]; [reflexivity| |]; cbn [map existsb has_dynamic_arrlist]; rewrite ?IH; reflexivity. }
  destruct arr; [reflexivity|exact H].
Qed.
Lemma locate_dynamic T : forall full pos, obj_is_dynamic (locate full pos T) = is_dynamic_type T.
Proof.
  induction T as [b sub arr|ts arr IH] using abi_type_ind'; intros full pos.
  - cbn [locate obj_is_dynamic is_dynamic_type]. rewrite arr_obj_dynamic. destruct sub; reflexivity.
  - rewrite locate_tup. cbn [obj_is_dynamic is_dynamic_type]. rewrite arr_obj_dynamic. f_equal.
    generalize (pos + 1)%nat. induction IH as [|t ts Ht IH IHts]; intro p; [reflexivity|]. cbn [locate_list existsb]. rewrite Ht, IHts. reflexivity.
Qed.
Lemma has_dynamic_iff arr : has_dynamic_arrlist arr = true <-> In None arr.
Proof.
  unfold has_dynamic_arrlist. rewrite existsb_exists. split.
  - intros ([n|] & I1 & H); [discriminate|exact I1].
  - intro H. exists None. auto.
Qed.
Lemma is_dynamic_iff T : is_dynamic_type T = true <-> dynamic_type T.
Proof.
  induction T as [b sub arr|ts arr IH] using abi_type_ind'; cbn [is_dynamic_type]; rewrite ?orb_true_iff, has_dynamic_iff.
  - rewrite andb_true_iff, !str_eqb_eq. split.
    + intros [[H| ->]|[-> H]]; [apply dyn_basic_arr; exact H|constructor|]. destruct sub; [constructor|discriminate|discriminate].
    + intro H. inv H; auto.
  - rewrite existsb_exists. rewrite Forall_forall in IH. split.
    + intros [H|(T & I1 & D)]; [apply dyn_tuple_arr; exact H|]. eapply dyn_component; [exact I1|]. apply IH; assumption.
    + intro H. inv H; [auto|]. right. exists T. split; [assumption|]. apply IH; assumption.
Qed.
Theorem dynamic_parsed s o T : parse_obj s = Ok o -> g_type s T -> (obj_is_dynamic o = true <-> dynamic_type T).
Proof.
  intros P G. apply parse_obj_iff in P. destruct P as (T' & G' & ->). rewrite (g_type_unique _ _ _ G' G), locate_dynamic. apply is_dynamic_iff.
Qed.

(** ** Nodes *)
Lemma node_slice a s c : n_text (mkNode (a ++ s ++ c) (length a) (length a + length s)) = s.
Proof.
  unfold n_text. cbn [n_full n_start n_end]. replace (length a + length s - length a)%nat with (length s) by lia.
  rewrite skipn_app, skipn_all, Nat.sub_diag. cbn [skipn app]. rewrite firstn_app, firstn_all, Nat.sub_diag. cbn [firstn]. apply app_nil_r.
Qed.
Definition node_right (full : pystr) (x : abi_obj) : Prop := exists n, o_node x = Some n /\ n_full n = full /\ n_text n = obj_str x.
Lemma within_list x full pos cs arr n : within x (OTuple (locate_list full pos cs) arr n) ->
  x = OTuple (locate_list full pos cs) arr n \/ exists c, In c (locate_list full pos cs) /\ within x c.
Proof. intro H. inv H; eauto. Qed.
Lemma locate_nodes :
  (forall s T, g_type s T -> forall full a c, full = a ++ s ++ c -> forall x, within x (locate full (length a) T) -> node_right full x)
  /\ (forall s Ts, g_components s Ts -> forall full a c, full = a ++ s ++ c -> forall o x, In o (locate_list full (length a) Ts) -> within x o -> node_right full x).
Proof.
  assert (Self : forall s T, g_type s T -> forall full a c, full = a ++ s ++ c -> node_right full (locate full (length a) T)).
  { intros s T G full a c ->. exists (mkNode (a ++ s ++ c) (length a) (length a + length (to_type_str T))). rewrite locate_node, locate_str.
    replace (to_type_str T) with s by (symmetry; apply g_type_str; exact G). split; [reflexivity|]. split; [reflexivity|]. apply node_slice. }
  apply g_mut.
  - intros b ss sub sa arr B S A full a c E x W.
    assert (G : g_type (b ++ ss ++ sa) (Basic b sub arr)) by (constructor; assumption). pose proof (Self _ _ G full a c E) as X. cbn [locate] in *. inv W. exact X.
  - intros s ts sa arr C IH A full a c E x W.
    assert (G : g_type (lit "(" ++ s ++ lit ")" ++ sa) (Tup ts arr)) by (constructor; assumption). pose proof (Self _ _ G full a c E) as X.
    rewrite locate_tup in *. apply within_list in W. destruct W as [->|(o & I1 & W)]; [exact X|].
    apply (IH full (a ++ lit "(") (lit ")" ++ sa ++ c)) with (o := o); [rewrite E, <- !app_assoc; reflexivity| |exact W].
    rewrite app_length. exact I1.
  - intros s T G IH full a c E o x I1 W. cbn [locate_list] in I1. destruct I1 as [<-|[]]. eapply IH; eassumption.
  - intros s T ss ts G IH C IHc full a c E o x I1 W. cbn [locate_list] in I1. destruct I1 as [<-|I1].
    + eapply (IH full a (lit "," ++ ss ++ c)); [rewrite E, <- !app_assoc; reflexivity|exact W].
    + apply (IHc full (a ++ s ++ lit ",") c) with (o := o); [rewrite E, <- !app_assoc; reflexivity| |exact W].
      rewrite !app_length. replace (length s) with (length (to_type_str T)) by (f_equal; apply g_type_str; exact G).
      rewrite Nat.add_assoc. exact I1.
Qed.
Theorem nodes_parsed s o x : parse_obj s = Ok o -> within x o -> exists n, o_node x = Some n /\ n_full n = s /\ n_text n = obj_str x.
Proof.
  intros P W. apply parse_obj_iff in P. destruct P as (T & G & ->). apply (proj1 locate_nodes s T G s [] []); [rewrite app_nil_r; reflexivity|exact W].
Qed.

(** ** Parts *)
Lemma part_typed : (forall s a t, part s a t -> (exists T, g_type s T) /\ (exists b sub arr, g_type t (Basic b sub arr)) /\ exists c, s = a ++ t ++ c)
  /\ (forall s a t, parts s a t -> (exists Ts, g_components s Ts) /\ (exists b sub arr, g_type t (Basic b sub arr)) /\ exists c, s = a ++ t ++ c).
Proof.
  apply part_mutind.
  - intros s b sub arr G. split; [eauto|]. split; [eauto|]. exists []. rewrite app_nil_r. reflexivity.
  - intros s ts sa arr a t C A _ (_ & G & c & E). split; [eexists; constructor; eassumption|]. split; [exact G|]. exists (c ++ lit ")" ++ sa).
    rewrite E, <- !app_assoc. reflexivity.
  - intros s a t _ ((T & G) & H). split; [eexists; constructor; exact G|exact H].
  - intros s ss ts a t C _ ((T & G) & G' & c & E). split; [eexists; apply G_more; eassumption|]. split; [exact G'|]. exists (c ++ lit "," ++ ss).
    rewrite E, <- !app_assoc. reflexivity.
  - intros s T ss a t G _ ((Ts & C) & G' & c & E). split; [eexists; apply G_more; eassumption|]. split; [exact G'|]. exists c.
    rewrite E, <- !app_assoc. reflexivity.
Qed.
Lemma components_unique s Ts Ts' : g_components s Ts -> g_components s Ts' -> Ts = Ts'.
Proof.
  intros C C'. pose proof (G_tuple s Ts [] [] C GA_nil) as G. pose proof (G_tuple s Ts' [] [] C' GA_nil) as G'.
  pose proof (g_type_unique _ _ _ G G') as E. congruence.
Qed.
Lemma components_str s Ts : g_components s Ts -> s = join_comma (map to_type_str Ts).
Proof. intro C. symmetry. apply (proj2 g_type_str). exact C. Qed.
Lemma part_basic s b sub arr a t : g_type s (Basic b sub arr) -> part s a t -> a = [] /\ t = s.
Proof.
  intros G P. destruct P as [s b' sub' arr' G'|s ts sa arr' a t C A P]; [auto|].
  pose proof (g_type_unique _ _ _ G (G_tuple s ts sa arr' C A)). discriminate.
Qed.
Lemma tuple_same s ts sa arr s' ts' sa' arr' : g_components s ts -> g_arr sa arr -> g_components s' ts' -> g_arr sa' arr' ->
  lit "(" ++ s ++ lit ")" ++ sa = lit "(" ++ s' ++ lit ")" ++ sa' -> s = s'.
Proof.
  intros C A C' A' E. pose proof (G_tuple s ts sa arr C A) as G. rewrite E in G. pose proof (g_type_unique _ _ _ G (G_tuple s' ts' sa' arr' C' A')) as X.
  inv X. rewrite (components_str _ _ C), (components_str _ _ C'). reflexivity.
Qed.
Lemma part_tuple s ts sa arr a t : g_components s ts -> g_arr sa arr -> part (lit "(" ++ s ++ lit ")" ++ sa) a t -> exists a', a = lit "(" ++ a' /\ parts s a' t.
Proof.
  intros C A P. remember (lit "(" ++ s ++ lit ")" ++ sa) as w eqn:E. destruct P as [w b' sub' arr' G'|s' ts' sa' arr' a t C' A' P].
  - subst w. pose proof (g_type_unique _ _ _ G' (G_tuple s ts sa arr C A)). discriminate.
  - pose proof (tuple_same _ _ _ _ _ _ _ _ C' A' C A E). subst s'. eauto.
Qed.
Lemma parts_single s T a t : g_type s T -> parts s a t -> part s a t.
Proof.
  intros G P. destruct P as [s a t P|s ss ts a t C P|s T' ss a t G' P]; [exact P| |].
  - destruct (proj1 part_typed _ _ _ P) as ((T0 & G0) & _). pose proof (components_unique _ _ _ (G_more _ _ _ _ G0 C) (G_one _ _ G)) as X.
    inv X. inv C.
  - destruct (proj2 part_typed _ _ _ P) as ((Ts & C) & _). pose proof (components_unique _ _ _ (G_more _ _ _ _ G' C) (G_one _ _ G)) as X.
    inv X. inv C.
Qed.
Lemma more_same s T ss ts s' T' ss' ts' : g_type s T -> g_components ss ts -> g_type s' T' -> g_components ss' ts' ->
  s ++ lit "," ++ ss = s' ++ lit "," ++ ss' -> s = s' /\ ss = ss'.
Proof.
  intros G C G' C' E. pose proof (G_more _ _ _ _ G C) as X. rewrite E in X. pose proof (components_unique _ _ _ X (G_more _ _ _ _ G' C')) as Y.
  inv Y. split; [|rewrite (components_str _ _ C), (components_str _ _ C'); reflexivity].
  rewrite <- (proj1 g_type_str _ _ G), <- (proj1 g_type_str _ _ G'). reflexivity.
Qed.
Lemma parts_cons s T ss ts a t : g_type s T -> g_components ss ts -> parts (s ++ lit "," ++ ss) a t ->
  part s a t \/ exists a', a = s ++ lit "," ++ a' /\ parts ss a' t.
Proof.
  intros G C P. remember (s ++ lit "," ++ ss) as w eqn:E. destruct P as [w a t P|s' ss' ts' a t C' P|s' T' ss' a t G' P].
  - destruct (proj1 part_typed _ _ _ P) as ((T0 & G0) & _). subst w.
    pose proof (components_unique _ _ _ (G_more _ _ _ _ G C) (G_one _ _ G0)) as X. inv X. inv C.
  - destruct (proj1 part_typed _ _ _ P) as ((T0 & G0) & _). destruct (more_same _ _ _ _ _ _ _ _ G0 C' G C E) as [-> _]. auto.
  - destruct (proj2 part_typed _ _ _ P) as ((Ts & C') & _). destruct (more_same _ _ _ _ _ _ _ _ G' C' G C E) as [-> ->]. eauto.
Qed.

(** ** Validation *)
Lemma basic_verdict b sub n : match obj_validate_basic b (sub_obj sub) (Some n) with
  | Valid => size_ok b sub
  | Invalid text col full r => text = n_text n /\ col = Z.of_nat (n_start n) + 1 /\ full = n_full n /\ complaint b sub r
  | Raised _ => False
  end.
Proof.
  unfold obj_validate_basic.
  destruct (str_eqb b (lit "string")) eqn:B1; [apply str_eqb_eq in B1; subst b; destruct sub; cbn; [constructor| |]; repeat split; constructor; discriminate|].
  destruct (str_eqb b (lit "bytes")) eqn:B2.
  { apply str_eqb_eq in B2; subst b. destruct sub as [|z|x y]; cbn [sub_obj]; [constructor| |cbn; repeat split; constructor].
    destruct (32 <? z) eqn:L; cbn [invalidate]; [repeat split; constructor; lia|constructor; lia]. }
  destruct (str_eqb b (lit "int") || str_eqb b (lit "uint")) eqn:B3.
  { assert (W : whole_number b) by (apply orb_true_iff in B3; rewrite !str_eqb_eq in B3; exact B3).
    destruct sub as [|z|x y]; cbn [sub_obj]; [cbn; repeat split; apply no_int; [exact W|discriminate]| |cbn; repeat split; apply no_int; [exact W|discriminate]].
    destruct ((z <? 8) || (256 <? z)) eqn:L; cbn [invalidate]; [repeat split; apply no_int_size; [exact W|lia]|].
    destruct (negb (z mod 8 =? 0)) eqn:M; cbn [invalidate]; [repeat split; apply no_int_mult; [exact W|lia|lia]|].
    apply ok_int; [exact W|]. split; lia. }
  destruct (str_eqb b (lit "fixed") || str_eqb b (lit "ufixed")) eqn:B4.
  { assert (W : fraction b) by (apply orb_true_iff in B4; rewrite !str_eqb_eq in B4; exact B4).
    destruct sub as [|z|x y]; cbn [sub_obj]; [cbn; repeat split; apply no_fixed; [exact W|discriminate]|cbn; repeat split; apply no_fixed; [exact W|discriminate]|].
    destruct ((x <? 8) || (256 <? x)) eqn:L; cbn [invalidate]; [repeat split; apply no_fixed_size; [exact W|lia]|].
    destruct (negb (x mod 8 =? 0)) eqn:M; cbn [invalidate]; [repeat split; apply no_fixed_mult; [exact W|lia|lia]|].
    destruct ((y <? 1) || (80 <? y)) eqn:K; cbn [invalidate]; [repeat split; apply no_fixed_exp; [exact W|split; lia|unfold frac_size; lia]|].
    apply ok_fixed; [exact W|split; lia|unfold frac_size; lia]. }
  destruct (str_eqb b (lit "hash")) eqn:B5; [apply str_eqb_eq in B5; subst b; destruct sub; cbn; [|constructor|]; repeat split; constructor; discriminate|].
  destruct (str_eqb b (lit "address")) eqn:B6; [apply str_eqb_eq in B6; subst b; destruct sub; cbn; [constructor| |]; repeat split; constructor; discriminate|].
  apply ok_other. intro J. apply orb_false_iff in B3, B4. destruct B3 as [B3 B3'], B4 as [B4 B4'].
  cbn [judged In] in J. unfold judged in J. cbn [In] in J.
  repeat (destruct J as [J|J]; [subst b; match goal with H : str_eqb ?x ?x = false |- _ => rewrite (proj2 (str_eqb_eq x x) eq_refl) in H; discriminate end|]).
  exact J.
Qed.
Lemma complaint_bad b sub r : complaint b sub r -> ~ size_ok b sub.
Proof.
  assert (N : forall x, whole_number x \/ fraction x -> judged x).
  { intros x [[->| ->]|[->| ->]]; unfold judged; cbn [In]; auto 10. }
  assert (J : forall b sub, size_ok b sub -> judged b ->
    (b = lit "string" -> sub = SubNone) /\ (b = lit "address" -> sub = SubNone) /\ (b = lit "hash" -> exists n, sub = SubInt n)
    /\ (b = lit "bytes" -> sub = SubNone \/ exists n, sub = SubInt n /\ n <= 32)
    /\ (whole_number b -> exists n, sub = SubInt n /\ int_size n) /\ (fraction b -> exists m n, sub = SubPair m n /\ int_size m /\ frac_size n)).
  { intros x y H Jx. unfold whole_number, fraction in *. destruct H; try tauto;
      repeat split; intros; repeat match goal with
        | H : whole_number _ |- _ => destruct H; subst | H : fraction _ |- _ => destruct H; subst | H : _ \/ _ |- _ => destruct H end;
      try discriminate; subst; try discriminate; eauto 6. }
  intros C K. destruct C.
  all: match type of K with size_ok ?x _ => assert (Jx : judged x) by (try (apply N; solve [auto]); unfold judged; cbn [In]; auto 10) end.
  all: destruct (J _ _ K Jx) as (J1 & J2 & J3 & J4 & J5 & J6).
  - auto.
  - auto.
  - destruct (J4 eq_refl) as [X|(k & X & _)]; discriminate.
  - destruct (J4 eq_refl) as [X|(k & X & L)]; [discriminate|]. inv X. lia.
  - destruct (J5 H) as (k & X & _). destruct (H0 k X).
  - destruct (J5 H) as (k & X & L & _). inv X. lia.
  - destruct (J5 H) as (k & X & _ & L). inv X. lia.
  - destruct (J6 H) as (k & l & X & _). destruct (H0 k l X).
  - destruct (J6 H) as (k & l & X & (L & _) & _). inv X. lia.
  - destruct (J6 H) as (k & l & X & (_ & L) & _). inv X. lia.
  - destruct (J6 H) as (k & l & X & _ & L). inv X. auto.
  - destruct (J3 eq_refl) as (k & X). destruct (H k X).
Qed.
Definition judgement (s full a : pystr) (P : pystr -> pystr -> pystr -> Prop) (v : verdict) : Prop :=
  match v with
  | Valid => forall a' t, P s a' t -> part_ok t
  | Invalid text col f r => f = full /\ exists a' b sub arr, P s a' text /\ col = Z.of_nat (length (a ++ a')) + 1 /\ g_type text (Basic b sub arr)
      /\ complaint b sub r /\ forall a'' t, P s a'' t -> (length a'' < length a')%nat -> part_ok t
  | Raised _ => False
  end.
Lemma locate_validate :
  (forall s T, g_type s T -> forall full a c, full = a ++ s ++ c -> judgement s full a part (obj_validate (locate full (length a) T)))
  /\ (forall s Ts, g_components s Ts -> forall full a c, full = a ++ s ++ c -> judgement s full a parts (validate_list (locate_list full (length a) Ts))).
Proof.
  apply g_mut.
  - intros b ss sub sa arr B S A full a c E. assert (G : g_type (b ++ ss ++ sa) (Basic b sub arr)) by (constructor; assumption).
    pose proof (proj1 g_type_str _ _ G) as St. cbn [locate obj_validate]. rewrite St.
    set (s := b ++ ss ++ sa) in *. set (n := mkNode full (length a) (length a + length s)).
    pose proof (basic_verdict b sub n) as V. destruct (obj_validate_basic b (sub_obj sub) (Some n)); cbn [judgement].
    + intros a' t P. destruct (part_basic _ _ _ _ _ _ G P) as [-> ->]. exists b, sub, arr. auto.
    + destruct V as (-> & -> & -> & V). split; [reflexivity|]. exists [], b, sub, arr.
      assert (Tx : n_text n = s) by (unfold n; rewrite E; apply node_slice). rewrite Tx, app_nil_r.
      split; [eapply part_self; exact G|]. split; [reflexivity|]. split; [exact G|]. split; [exact V|]. intros a'' t _ L. cbn [length] in L. lia.
    + exact V.
  - intros s ts sa arr C IH A full a c E. rewrite locate_tup, validate_tuple.
    specialize (IH full (a ++ lit "(") (lit ")" ++ sa ++ c)). rewrite app_length in IH. change (length (lit "(")) with 1%nat in IH.
    assert (E' : full = (a ++ lit "(") ++ s ++ lit ")" ++ sa ++ c) by (rewrite E, <- !app_assoc; reflexivity). specialize (IH E').
    destruct (validate_list _); cbn [judgement] in *.
    + intros a' t P. destruct (part_tuple _ _ _ _ _ _ C A P) as (a1 & -> & P'). apply (IH a1 t P').
    + destruct IH as (-> & a' & b & sub & arr' & P & Hc & G & K & L). split; [reflexivity|]. exists (lit "(" ++ a'), b, sub, arr'.
      split; [eapply part_in; eassumption|]. split; [rewrite Hc, <- app_assoc; reflexivity|]. split; [exact G|]. split; [exact K|].
      intros a'' t P2 Lt. destruct (part_tuple _ _ _ _ _ _ C A P2) as (a1 & -> & P'). apply (L a1 t P'). rewrite !app_length in Lt. lia.
    + exact IH.
  - intros s T G IH full a c E. cbn [locate_list validate_list]. specialize (IH full a c E). destruct (obj_validate _); cbn [judgement] in *.
    + intros a' t P. apply (IH a' t). eapply parts_single; eassumption.
    + destruct IH as (-> & a' & b & sub & arr' & P & Hc & G' & K & L). split; [reflexivity|]. exists a', b, sub, arr'.
      split; [constructor; exact P|]. split; [exact Hc|]. split; [exact G'|]. split; [exact K|]. intros a'' t P2. apply (L a'' t).
      eapply parts_single; eassumption.
    + exact IH.
  - intros s T ss ts G IH C IHc full a c E. cbn [locate_list validate_list].
    specialize (IH full a (lit "," ++ ss ++ c)). assert (E1 : full = a ++ s ++ lit "," ++ ss ++ c) by (rewrite E, <- !app_assoc; reflexivity). specialize (IH E1).
    specialize (IHc full (a ++ s ++ lit ",") c). assert (E2 : full = (a ++ s ++ lit ",") ++ ss ++ c) by (rewrite E, <- !app_assoc; reflexivity). specialize (IHc E2).
    rewrite !app_length in IHc. change (length (lit ",")) with 1%nat in IHc. rewrite (proj1 g_type_str _ _ G), <- Nat.add_assoc.
    destruct (obj_validate _) as [|tx cl fl r|e] eqn:V; cbn [judgement] in IH.
    + destruct (validate_list _); cbn [judgement] in *.
      * intros a' t P. destruct (parts_cons _ _ _ _ _ _ G C P) as [P'|(a1 & -> & P')]; [apply (IH a' t P')|apply (IHc a1 t P')].
      * destruct IHc as (-> & a' & b & sub & arr' & P & Hc & G' & K & L). split; [reflexivity|]. exists (s ++ lit "," ++ a'), b, sub, arr'.
        split; [eapply parts_more; eassumption|]. split; [rewrite Hc, <- !app_assoc; reflexivity|]. split; [exact G'|]. split; [exact K|].
        intros a'' t P2 Lt. destruct (parts_cons _ _ _ _ _ _ G C P2) as [P'|(a1 & -> & P')]; [apply (IH a'' t P')|].
        apply (L a1 t P'). rewrite !app_length in Lt. lia.
      * exact IHc.
    + cbn [judgement]. destruct IH as (-> & a' & b & sub & arr' & P & Hc & G' & K & L). split; [reflexivity|]. exists a', b, sub, arr'.
      split; [eapply parts_first; eassumption|]. split; [exact Hc|]. split; [exact G'|]. split; [exact K|].
      intros a'' t P2 Lt. destruct (parts_cons _ _ _ _ _ _ G C P2) as [P'|(a1 & -> & P')]; [apply (L a'' t P' Lt)|].
      destruct (proj1 part_typed _ _ _ P) as (_ & _ & q & Q). apply (f_equal (@length N)) in Q. rewrite !app_length in Q, Lt. lia.
    + destruct IH.
Qed.
Lemma parsed_judgement s o : parse_obj s = Ok o -> judgement s s [] part (obj_validate o).
Proof.
  intro P. apply parse_obj_iff in P. destruct P as (T & G & ->). apply (proj1 locate_validate s T G s [] []). rewrite app_nil_r. reflexivity.
Qed.
Lemma complaint_part t b sub arr r : g_type t (Basic b sub arr) -> complaint b sub r -> ~ part_ok t.
Proof. intros G C (b' & sub' & arr' & G' & K). pose proof (g_type_unique _ _ _ G G') as E. inv E. eapply complaint_bad; eassumption. Qed.
Theorem validate_valid s o : parse_obj s = Ok o -> (obj_validate o = Valid <-> forall a t, part s a t -> part_ok t).
Proof.
  intro P. pose proof (parsed_judgement s o P) as J. destruct (obj_validate o) as [|tx cl fl r|e]; cbn [judgement] in J.
  - intuition.
  - split; [discriminate|]. intro H. destruct J as (_ & a & b & sub & arr & Q & _ & G & K & _). destruct (complaint_part _ _ _ _ _ G K (H a tx Q)).
  - destruct J.
Qed.
Theorem validate_invalid s o text col full r : parse_obj s = Ok o -> obj_validate o = Invalid text col full r ->
  full = s /\ exists a b sub arr, part s a text /\ col = Z.of_nat (length a) + 1 /\ g_type text (Basic b sub arr) /\ complaint b sub r
  /\ forall a' t, part s a' t -> (length a' < length a)%nat -> part_ok t.
Proof. intros P V. pose proof (parsed_judgement s o P) as J. rewrite V in J. exact J. Qed.
Theorem validate_raised s o e : parse_obj s = Ok o -> obj_validate o <> Raised e.
Proof. intros P V. pose proof (parsed_judgement s o P) as J. rewrite V in J. exact J. Qed.

(** ** Agreement with the trees the coders are made from *)
Definition as_result (v : verdict) : result unit :=
  match v with Valid => Ok tt | Invalid _ _ _ _ => Err ABITypeError | Raised e => Err e end.
Lemma basic_agrees b sub n : as_result (obj_validate_basic b (sub_obj sub) (Some n)) = validate_basic b sub.
Proof.
  unfold obj_validate_basic, validate_basic.
  destruct (str_eqb b (lit "string")); [destruct sub; reflexivity|].
  destruct (str_eqb b (lit "bytes")); [destruct sub as [|z|x y]; cbn [sub_obj]; [reflexivity|destruct (32 <? z); reflexivity|reflexivity]|].
  destruct (_ || _).
  { destruct sub as [|z|x y]; cbn [sub_obj]; [reflexivity| |reflexivity]. destruct ((z <? 8) || (256 <? z)); [reflexivity|].
    destruct (negb _); reflexivity. }
  destruct (_ || _).
  { destruct sub as [|z|x y]; cbn [sub_obj]; [reflexivity|reflexivity|]. destruct ((x <? 8) || (256 <? x)); [reflexivity|].
    destruct (negb _); [reflexivity|]. destruct ((y <? 1) || (80 <? y)); reflexivity. }
  destruct (str_eqb b (lit "hash")); [destruct sub; reflexivity|].
  destruct (str_eqb b (lit "address")); [destruct sub; reflexivity|]. reflexivity.
Qed.
Lemma validate_agrees T : forall full pos, as_result (obj_validate (locate full pos T)) = validate_type T.
Proof.
  induction T as [b sub arr|ts arr IH] using abi_type_ind'; intros full pos; [apply basic_agrees|].
  rewrite locate_tup, validate_tuple, validate_type_tup. generalize (pos + 1)%nat. induction IH as [|t ts Ht IH IHts]; intro p; [reflexivity|].
  cbn [locate_list validate_list map_result]. specialize (Ht full p). destruct (obj_validate (locate full p t)); cbn [as_result] in Ht; rewrite <- Ht; cbn [bind].
  - rewrite IHts. destruct (map_result validate_type ts); reflexivity.
  - reflexivity.
  - reflexivity.
Qed.
Lemma item_agrees T full pos : match item_type T with
  | Ok T' => exists i, obj_item_type (locate full pos T) = Ok i /\ strip i = strip (locate full pos T')
  | Err e => obj_item_type (locate full pos T) = Err e
  end.
Proof.
  assert (S : forall arr : list dim, arr <> [] -> exists l d, arr = l ++ [d] /\ removelast arr = l).
  { intros arr Ne. destruct (exists_last Ne) as (l & d & ->). exists l, d. rewrite removelast_last. auto. }
  destruct T as [b sub arr|ts arr]; (assert (D : arr = [] \/ arr <> []) by (destruct arr; [left; reflexivity|right; discriminate]); destruct D as [->|Ne]).
  - reflexivity.
  - destruct (S arr Ne) as (l & d & -> & R). cbn [item_type]. rewrite R.
    destruct (item_locate (Basic b sub l) d full pos) as (_ & i & E & _ & X). cbn [arrlist_of set_arr] in *. destruct (l ++ [d]) eqn:Z; [congruence|]. eauto.
  - reflexivity.
  - destruct (S arr Ne) as (l & d & -> & R). cbn [item_type]. rewrite R.
    destruct (item_locate (Tup ts l) d full pos) as (_ & i & E & _ & X). cbn [arrlist_of set_arr] in *. destruct (l ++ [d]) eqn:Z; [congruence|]. eauto.
Qed.
Theorem tree_agrees s T o : parse s = Ok T -> parse_obj s = Ok o ->
  obj_str o = to_type_str T /\ obj_is_dynamic o = is_dynamic_type T /\ as_result (obj_validate o) = validate_type T
  /\ match item_type T with
     | Ok T' => exists i, obj_item_type o = Ok i /\ obj_str i = to_type_str T'
     | Err e => obj_item_type o = Err e
     end.
Proof.
  intros P Po. unfold parse_obj in Po. rewrite P in Po. cbn [bind] in Po. inv Po. split; [apply locate_str|]. split; [apply locate_dynamic|].
  split; [apply validate_agrees|]. pose proof (item_agrees T s 0) as H. destruct (item_type T); [|exact H]. destruct H as (i & E & X). exists i.
  split; [exact E|]. rewrite <- strip_str, X, strip_str. apply locate_str.
Qed.
Lemma ast_sty_valid T : forall t, ast_sty T = Some t -> validate_type T = Ok tt.
Proof.
  induction T as [b sub arr|ts arr IH] using abi_type_ind'; intros t H; cbn [ast_sty] in H.
  - destruct (basic_sty b sub) as [u|] eqn:B; [|discriminate]. apply basic_valid in B. apply B.
  - destruct (all_some (map ast_sty ts)) as [l|] eqn:A; [|discriminate]. rewrite validate_type_tup. apply all_some_Forall2 in A. clear H.
    revert l A. induction IH as [|T ts HT IH IHts]; intros l A; [reflexivity|]. cbn [map] in A. inv A. cbn [map_result].
    take (ast_sty T = Some _) as X. rewrite (HT _ X). cbn [bind]. specialize (IHts _ ltac:(eassumption)).
    destruct (map_result validate_type ts); [reflexivity|discriminate IHts].
Qed.
Theorem supported_valid s t o : type_name true s t -> parse_obj (normalize s) = Ok o -> obj_validate o = Valid.
Proof.
  intros N P. apply type_name_iff in N. destruct N as (T & Ps & A). apply NormalizeProofs.parse_normalize in Ps.
  pose proof (validate_agrees (expand T) (normalize s) 0) as V. rewrite (ast_sty_valid _ _ A) in V.
  unfold parse_obj in P. rewrite Ps in P. cbn [bind] in P. inv P. destruct (obj_validate _); [reflexivity|discriminate|discriminate].
Qed.

(** ** Objects without nodes *)
Lemma basic_no_node b sub : match obj_validate_basic b sub None with
  | Valid => True | Invalid _ _ _ _ => False | Raised e => e = AttributeError \/ e = ValueError /\ exists l, sub = ATuple l /\ length l <> 2%nat end.
Proof.
  unfold obj_validate_basic.
  destruct (str_eqb b (lit "string")); [destruct sub; cbn; auto|].
  destruct (str_eqb b (lit "bytes")); [destruct sub as [|z| |]; cbn; auto; destruct (32 <? z); cbn; auto|].
  destruct (_ || _); [destruct sub as [|z| |]; cbn; auto; destruct (_ || _); cbn; auto; destruct (negb _); cbn; auto|].
  destruct (_ || _).
  { destruct sub as [| |[|x [|y [|u l]]]|]; cbn [invalidate]; auto; try (right; split; [reflexivity|]; eexists; split; [reflexivity|]; discriminate).
    destruct (_ || _); cbn; auto. destruct (negb _); cbn; auto. destruct (_ || _); cbn; auto. }
  destruct (str_eqb b (lit "hash")); [destruct sub; cbn; auto|].
  destruct (str_eqb b (lit "address")); [destruct sub; cbn; auto|]. exact I.
Qed.
Theorem validate_no_node o : (forall x, within x o -> o_node x = None) ->
  match obj_validate o with Valid => True | Invalid _ _ _ _ => False | Raised e => e = AttributeError \/ e = ValueError end.
Proof.
  revert o. fix IH 1. intros [b sub arr n|cs arr n] H.
  - pose proof (H _ (within_self _)) as E. cbn [o_node] in E. subst n. cbn [obj_validate]. pose proof (basic_no_node b sub) as V.
    destruct (obj_validate_basic b sub None); [exact V|exact V|]. destruct V as [->|[-> _]]; auto.
  - rewrite validate_tuple. assert (H' : forall c x, In c cs -> within x c -> o_node x = None) by (intros c x I1 W; apply H; econstructor; eassumption).
    clear H. induction cs as [|c cs IHcs]; [exact I|]. cbn [validate_list]. pose proof (IH c (fun x W => H' c x (or_introl eq_refl) W)) as V.
    destruct (obj_validate c); [|exact V|exact V]. apply IHcs. intros c' x I1. apply H'. right. exact I1.
Qed.
