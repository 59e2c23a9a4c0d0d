(** Registered coders inside compound types. *)
From Coq Require Import Strings.Byte Strings.String.
From Verif Require Import Tac Bytes BytesProofs Grammar GrammarSpec GrammarProofs NormalizeProofs Encoding Decoding Registry RaisingSpec CacheProofs
  Codec Histories HistoryProofs HeapProofs Spec TypeSpec TypeProofs TypeCases EncLeafProofs DecLeafProofs EncodeProofs DecodeProofs ReaderProofs ReadSpec LookupProofs ApiProofs
  DecodeFacts DecodeFacts2 ArgsProofs RegistrySpec RegistryProofs Threads ThreadProofs CustomSpec CustomProofs CodersSpec.
Open Scope Z_scope.

Lemma map_repeat {A B} (f : A -> B) x n : map f (repeat x n) = repeat (f x) n.
Proof. induction n as [|n IH]; [reflexivity|]. cbn [repeat map]. rewrite IH. reflexivity. Qed.

(** ** The state of the registry *)
Section Grown.
Context {V : Type} (m0 : mapping V).
Definition grown (l : list (pystr * V)) (m : mapping V) : Prop :=
  (forall x, ~ In x (map fst l) -> m_scan (m_values m) x = m_scan (m_values m0) x)
  /\ (forall T v, In (T, v) l -> m_scan (m_values m) T = Done [v])
  /\ (forall x, In x (map fst (m_labels m)) -> In x (map fst (m_labels m0)) \/ In x (map fst l))
  /\ (forall T, has_pred m (mkPred (KEquals T) None) = true -> has_pred m0 (mkPred (KEquals T) None) = true \/ In T (map fst l)).
Lemma grown_nil : grown [] m0.
Proof. split; [reflexivity|]. split; [contradiction|]. split; auto. Qed.
Lemma grown_add l m T v : grown l m -> ~ In T (map fst l) -> ~ In T (map fst (m_labels m0)) -> has_pred m0 (mkPred (KEquals T) None) = false ->
  m_scan (m_values m0) T = Done [] -> exists m', m_add m (mkPred (KEquals T) None) v (Some T) = (Ok tt, m') /\ grown ((T, v) :: l) m'.
Proof.
  intros (A & B & C & D) N NL NP S. unfold m_add.
  destruct (has_pred m (mkPred (KEquals T) None)) eqn:HP; [destruct (D T HP); [congruence|contradiction]|].
  rewrite has_label_in by (intro I; destruct (C T I); contradiction). eexists. split; [reflexivity|]. cbn [map fst].
  assert (AS : forall x, m_scan (m_values m ++ [(mkPred (KEquals T) None, v)]) x =
    match m_scan (m_values m) x with Done vs => Done (vs ++ if str_eqb T x then [v] else []) | r => r end).
  { intro x. clear. induction (m_values m) as [|[p u] vs IH]; cbn [app m_scan].
    - cbn [pred_call pkind]. destruct (str_eqb T x); reflexivity.
    - destruct (pred_call p x) as [b|]; [|reflexivity]. rewrite IH. destruct (m_scan vs x); [|reflexivity]. destruct b; reflexivity. }
  split; [|split; [|split]]; cbn [m_values m_labels].
  - intros x Nx. rewrite AS, A by (intro I; apply Nx; right; exact I). destruct (str_eqb T x) eqn:E; [apply str_eqb_eq in E; subst x; destruct Nx; left; reflexivity|].
    destruct (m_scan (m_values m0) x); [rewrite app_nil_r|]; reflexivity.
  - intros x u [E|I]; rewrite AS.
    + inv E. rewrite A, S, str_eqb_refl by exact N. reflexivity.
    + rewrite (B _ _ I). destruct (str_eqb T x) eqn:E; [|reflexivity]. apply str_eqb_eq in E. subst x. destruct N. apply (in_map fst) in I. exact I.
  - intros x I. rewrite map_app in I. apply in_app_or in I. destruct I as [I|[<-|[]]]; [destruct (C x I); auto; right; right; assumption|right; left; reflexivity].
  - intros x. unfold has_pred. cbn [m_values]. rewrite existsb_app. intro H. apply orb_prop in H. destruct H as [H|H]; [destruct (D x H); auto; right; right; assumption|].
    cbn [existsb fst pred_eqb pkind] in H. rewrite orb_false_r in H. apply str_eqb_eq in H. right; left; exact H.
Qed.
End Grown.
Definition enc_list (l : list entry) : list (pystr * enc_reg) := map (fun t => (fst t, fst (snd t))) l.
Definition dec_list (l : list entry) : list (pystr * dec_reg) := map (fun t => (fst t, snd (snd t))) l.
Lemma enc_names l : map fst (enc_list l) = map fst l.
Proof. unfold enc_list. rewrite map_map. reflexivity. Qed.
Lemma dec_names l : map fst (dec_list l) = map fst l.
Proof. unfold dec_list. rewrite map_map. reflexivity. Qed.
Lemma fresh_base T : fresh_name T ->
  (~ In T (map fst (m_labels (encs false))) /\ has_pred (encs false) (mkPred (KEquals T) None) = false /\ m_scan (m_values (encs false)) T = Done [])
  /\ (~ In T (map fst (m_labels decs)) /\ has_pred decs (mkPred (KEquals T) None) = false /\ m_scan (m_values decs) T = Done []).
Proof.
  intro F. destruct (fresh_class T F) as (b & sub & P & N). split; (split; [|split]).
  - rewrite (proj1 std_labels_of). apply fresh_label. exact F.
  - pose proof (encs_values false) as E. destruct (encs false) as [values labels]. cbn [m_values] in E. subst values. apply no_equals. reflexivity.
  - rewrite scan_encs, P, N. reflexivity.
  - rewrite (proj2 std_labels_of). apply fresh_label. exact F.
  - pose proof decs_values as E. destruct decs as [values labels]. cbn [m_values] in E. subst values. apply no_equals. reflexivity.
  - rewrite scan_decs, P, N. reflexivity.
Qed.
Definition coders_state (l : list entry) (w : world) : Prop :=
  grown (encs false) (enc_list l) (r_encs (fst w)) /\ grown decs (dec_list l) (r_decs (fst w)) /\ caches_ok (fst w).
Lemma state_register l w T er dr : coders_state l w -> names_ok ((T, (er, dr)) :: l) ->
  let o := ORegister (LStr T) er dr None in fst (run o w) = ADone (Ok tt) /\ coders_state ((T, (er, dr)) :: l) (snd (run o w)).
Proof.
  intros (Ge & Gd & C) [N F]. cbn [map fst] in N, F. apply NoDup_cons_iff in N. destruct N as [N _]. apply Forall_inv in F. destruct (fresh_base T F) as [(E1 & E2 & E3) (D1 & D2 & D3)].
  cbv zeta. set (o := ORegister (LStr T) er dr None). assert (C' : caches_ok (fst (snd (run o w)))) by (apply run_caches; exact C).
  destruct (grown_add _ (enc_list l) _ T er Ge ltac:(rewrite enc_names; exact N) E1 E2 E3) as (m & Am & Gm).
  destruct (grown_add _ (dec_list l) _ T dr Gd ltac:(rewrite dec_names; exact N) D1 D2 D3) as (m' & Am' & Gm').
  unfold coders_state. cbn [enc_list dec_list map fst snd].
  assert (R : fst (run o w) = ADone (Ok tt) /\ r_encs (fst (snd (run o w))) = m /\ r_decs (fst (snd (run o w))) = m').
  { unfold o. rewrite run_register. cbn [run]. unfold on_registry, register_encoder, register_decoder. cbn [set_ecache r_encs base_register].
    rewrite Am. cbn [done fst snd set_encs set_dcache set_ecache r_decs base_register]. rewrite Am'. cbn. auto. }
  destruct R as (R & -> & ->). auto.
Qed.
Lemma with_state l w : with_coders l w -> names_ok l -> coders_state l w.
Proof.
  induction 1 as [w U|l w T er dr W IH|l w q W IH Q]; intro N.
  - destruct (used_spec _ _ U) as (Ee & Ed & C). unfold coders_state. rewrite Ee, Ed. split; [apply grown_nil|]. split; [apply grown_nil|exact C].
  - apply state_register; [|exact N]. apply IH. destruct N as [N F]. cbn [map] in N, F. split; [eapply NoDup_cons_iff; exact N|eapply Forall_inv_tail; exact F].
  - destruct (IH N) as (Ge & Gd & C). destruct (query_keeps q w Q C) as (Ke & Kd & Kc). unfold coders_state. rewrite Ke, Kd. auto.
Qed.
Theorem coders_register l w T er dr : with_coders l w -> names_ok ((T, (er, dr)) :: l) -> fst (run (ORegister (LStr T) er dr None) w) = ADone (Ok tt).
Proof.
  intros W N. apply (state_register l w T er dr); [|exact N]. apply with_state; [exact W|]. destruct N as [N F]. cbn [map] in N, F.
  split; [eapply NoDup_cons_iff; exact N|eapply Forall_inv_tail; exact F].
Qed.

(** ** Lookups *)
Lemma sized_pos s U n : parse (normalize s) = Ok U -> last (arrlist_of U) None = Some n -> 1 <= n.
Proof.
  intros P L. destruct (normalized_tree s _ P) as [A _]. apply arr_ok in A. change (dim_ok (Some n)). rewrite <- L. rewrite Forall_forall in A. apply A.
  destruct (arrlist_of U) as [|a l0]; [discriminate L|]. destruct (@exists_last _ (a :: l0) ltac:(discriminate)) as (l1 & z & ->). rewrite last_last. apply in_or_app. right; left; reflexivity.
Qed.
Section Lookups.
Variables (l : list entry) (me : mapping enc_reg) (md : mapping dec_reg).
Hypotheses (N : names_ok l) (Ge : grown (encs false) (enc_list l) me) (Gd : grown decs (dec_list l) md).
Lemma other_enc x : ~ In x (map fst l) -> m_find me x = m_find (encs false) x.
Proof. intro H. unfold m_find. destruct Ge as (A & _). rewrite A by (rewrite enc_names; exact H). reflexivity. Qed.
Lemma other_dec x : ~ In x (map fst l) -> m_find md x = m_find decs x.
Proof. intro H. unfold m_find. destruct Gd as (A & _). rewrite A by (rewrite dec_names; exact H). reflexivity. Qed.
Lemma name_fresh x : In x (map fst l) -> fresh_name x.
Proof. intro I. destruct N as [_ F]. rewrite Forall_forall in F. apply F. exact I. Qed.
Lemma pair_found T e d x : coder_pair l T e d x -> find_encoder me T = Ok e /\ forall k, find_decoder md k T = Ok (with_strict k d).
Proof.
  intros (er & dr & I & E & D & _). split.
  - rewrite find_encoder_eq. unfold base_get_registration, m_find. destruct Ge as (_ & B & _). rewrite (B T er).
    + cbn. destruct E as [->|(f & -> & E)]; [reflexivity|]. unfold enc_from_type_str. cbn [enc_leaf_from_type_str]. exact E.
    + unfold enc_list. apply in_map_iff. exists (T, (er, dr)). auto.
  - intro k. rewrite find_decoder_eq. unfold base_get_registration, m_find. destruct Gd as (_ & B & _). rewrite (B T dr).
    + cbn. destruct D as [->|(f & -> & D)]; [reflexivity|]. unfold dec_from_type_str. cbn [dec_leaf_from_type_str]. cbn [fst]. rewrite D. reflexivity.
    + unfold dec_list. apply in_map_iff. exists (T, (er, dr)). auto.
Qed.
Lemma known_found s t : supported s t -> find_encoder me s = Ok (enc_of false t) /\ forall k, find_decoder md k s = Ok (dec_of (strict_of k) t).
Proof.
  intro S. assert (O : forall x, within x s -> ~ In x (map fst l)).
  { intros x W I. destruct (supported_within s t x S W) as [t' S']. exact (fresh_unsupported x t' (name_fresh x I) S'). }
  split; [|intro k].
  - rewrite <- (find_enc_supported false s t S). apply find_encoder_local. intros x W. apply other_enc, O, W.
  - rewrite <- (find_dec_supported k s t S). apply find_decoder_local. intros x W. apply other_dec, O, W.
Qed.
Lemma tuple_found s cs : parse (normalize s) = Ok (Tup cs []) ->
  base_get_registration me s = Ok (EClass CTuple) /\ base_get_registration md s = Ok (DClass CDTuple).
Proof.
  intro P. assert (O : ~ In s (map fst l)) by (intro I; destruct (name_fresh s I) as (b & sub & _ & P' & _); congruence).
  unfold base_get_registration. rewrite (other_enc s O), (other_dec s O). destruct (tree_parse s _ P) as (U0 & P0 & E).
  destruct U0 as [b0 sub0 arr0|cs0 arr0]; cbn [expand] in E.
  - destruct sub0; try discriminate E. destruct (alias_of b0) as [[b1 sub1]|]; discriminate E.
  - inversion E as [[Ec Ea]]. subst arr0. rewrite (find_encs false s _ P0), (find_decs s _ P0). split; reflexivity.
Qed.
Lemma array_found s U it : parse (normalize s) = Ok U -> item_type U = Ok it ->
  base_get_registration me s = Ok (EClass CBaseArray) /\ base_get_registration md s = Ok (DClass CDBaseArray).
Proof.
  intros P It. assert (Ne : arrlist_of U <> []) by (intro X; destruct U as [b sub arr|ts arr]; cbn in X; subst arr; discriminate It).
  assert (O : ~ In s (map fst l)) by (intro I; destruct (name_fresh s I) as (b & sub & _ & P' & _); rewrite P' in P; inv P; apply Ne; reflexivity).
  unfold base_get_registration. rewrite (other_enc s O), (other_dec s O). destruct (tree_parse s _ P) as (U0 & P0 & E).
  assert (C : class_of U0 = Some (CBaseArray, CDBaseArray)).
  { subst U. rewrite arrlist_expand in Ne. destruct U0 as [b0 sub0 [|d arr0]|cs0 [|d arr0]]; cbn [arrlist_of] in Ne; try congruence; reflexivity. }
  rewrite (find_encs false s _ P0), (find_decs s _ P0), C. split; reflexivity.
Qed.
Lemma made_valid s : made l s -> valid_tree s.
Proof.
  induction 1 as [T e d x (er & dr & I & _)|s t S|s cs P _ IH|s U it P It _ IH].
  - apply (in_map fst) in I. destruct (name_fresh T I) as (b & sub & _ & P & V & _). eexists; eauto.
  - eapply supported_valid; exact S.
  - apply (tuple_valid s cs P). apply Forall_forall. intros c I. apply in_map_iff in I. destruct I as (c' & <- & I). apply IH. exact I.
  - destruct (normalized_tree s _ P) as [A E]. destruct (item_tree _ _ A E It) as [Ai Ei].
    destruct IH as (U' & P' & V). rewrite (parse_normalize _ _ (parse_print_ast it Ai)), Ei in P'. inv P'.
    assert (Ne : arrlist_of U <> []) by (intro X; destruct U as [b sub arr|ts arr]; cbn in X; subst arr; discriminate It).
    rewrite (item_set_arr U Ne) in It. inv It. rewrite validate_set_arr in V. exists U. auto.
Qed.
Lemma array_parses s U it : parse (normalize s) = Ok U -> item_type U = Ok it -> made l (to_type_str it) ->
  (t <- parse_type_str None true s;; it <- item_type t;; Ok (t, it)) = Ok (U, it).
Proof.
  intros P It M. destruct (made_valid s (made_array l s U it P It M)) as (U' & P' & V). rewrite P in P'. inv P'.
  assert (Ne : arrlist_of U' <> []) by (intro X; destruct U' as [b sub arr|ts arr]; cbn in X; subst arr; discriminate It).
  unfold parse_type_str. rewrite P. cbn [bind]. replace (true && _) with false by (destruct (arrlist_of U'); [congruence|reflexivity]).
  cbn. rewrite V. cbn. rewrite It. reflexivity.
Qed.
Lemma tuple_find s cs es : parse (normalize s) = Ok (Tup cs []) -> (forall c, In c cs -> made l (to_type_str c)) ->
  Forall2 (fun s e => find_encoder me s = Ok e) (map to_type_str cs) es -> find_encoder me s = Ok (ETuple es).
Proof.
  intros P M F. destruct (tuple_valid s cs P) as [_ PT]; [apply Forall_forall; intros c I; apply in_map_iff in I; destruct I as (c' & <- & I); apply made_valid, M, I|].
  rewrite find_encoder_eq, (proj1 (tuple_found s cs P)). unfold enc_from_type_str. cbn [enc_leaf_from_type_str]. rewrite PT, (seq_find me _ _ F). reflexivity.
Qed.
Lemma tuple_find_dec s cs ds k : parse (normalize s) = Ok (Tup cs []) -> (forall c, In c cs -> made l (to_type_str c)) ->
  Forall2 (fun s d => find_decoder md None s = Ok d) (map to_type_str cs) ds -> find_decoder md k s = Ok (mk_dtuple ds).
Proof.
  intros P M F. destruct (tuple_valid s cs P) as [_ PT]; [apply Forall_forall; intros c I; apply in_map_iff in I; destruct I as (c' & <- & I); apply made_valid, M, I|].
  rewrite find_decoder_eq, (proj2 (tuple_found s cs P)). unfold dec_from_type_str. cbn [dec_leaf_from_type_str]. rewrite PT, (seq_find_dec md _ _ F). cbn [fst]. rewrite with_strict_tuple. reflexivity.
Qed.
Lemma array_find s U it e x : parse (normalize s) = Ok U -> item_type U = Ok it -> made l (to_type_str it) ->
  find_encoder me (to_type_str it) = Ok e -> enc_dyn_attr e = Some x ->
  find_encoder me s = Ok (match last (arrlist_of U) None with Some n => ESized n e | None => EDyn e end).
Proof.
  intros P It M F X. rewrite find_encoder_eq, (proj1 (array_found s U it P It)). unfold enc_from_type_str. cbn [enc_leaf_from_type_str].
  rewrite (array_parses s U it P It M). unfold lift. rewrite F. destruct (last (arrlist_of U) None); [|reflexivity]. unfold mk_sized. rewrite X. reflexivity.
Qed.
Lemma array_find_dec s U it d x k : parse (normalize s) = Ok U -> item_type U = Ok it -> made l (to_type_str it) ->
  find_decoder md None (to_type_str it) = Ok d -> dec_dyn_attr d = Some x ->
  find_decoder md k s = Ok (match last (arrlist_of U) None with Some n => DSized n (wrap d) | None => DDyn (wrap d) end).
Proof.
  intros P It M F X. rewrite find_decoder_eq, (proj2 (array_found s U it P It)). unfold dec_from_type_str. cbn [dec_leaf_from_type_str].
  rewrite (array_parses s U it P It M). unfold lift. rewrite F.
  assert (W : (if x then DHeadTail d else d) = wrap d) by (unfold wrap, dec_is_dyn; rewrite X; reflexivity).
  destruct (last (arrlist_of U) None) as [n|]; unfold mk_dsized, mk_ddyn, mk_item; rewrite X; cbn [bind fst]; rewrite W; unfold with_strict.
  - destruct (dec_is_dyn (DSized n (wrap d))); reflexivity.
  - destruct (dec_is_dyn (DDyn (wrap d))); reflexivity.
Qed.
Lemma made_found s : made l s -> exists e x, find_encoder me s = Ok e /\ enc_dyn_attr e = Some x
  /\ forall k, exists d, find_decoder md k s = Ok d /\ dec_dyn_attr d = Some x /\ is_headtail d = false.
Proof.
  induction 1 as [T e d x H|s t S|s cs P M IH|s U it P It M IH].
  - destruct (pair_found T e d x H) as [F D]. exists e, x. split; [exact F|]. destruct H as (er & dr & _ & _ & _ & X & Y & Z & _). split; [exact X|]. intro k. eexists. split; [apply D|].
    clear -Y Z. unfold with_strict. destruct (dec_is_dyn d); [|auto].
    destruct d; try (split; assumption); cbn [set_strict fst]; try match goal with s : strict_ref |- _ => destruct s end; try (split; assumption).
    all: cbn [dec_dyn_attr] in Y; inv Y; destruct x; cbn; auto.
  - destruct (known_found s t S) as [F D]. exists (enc_of false t), (sdyn t). split; [exact F|]. split; [apply enc_dyn_attr_of|]. intro k. eexists. split; [apply D|].
    split; [apply dec_dyn_attr_of|destruct t; reflexivity].
  - assert (L : exists es ds xs, Forall2 (fun s e => find_encoder me s = Ok e) (map to_type_str cs) es /\ Forall2 (fun s d => find_decoder md None s = Ok d) (map to_type_str cs) ds
      /\ Forall2 (fun e x => enc_dyn_attr e = Some x) es xs /\ Forall2 (fun d x => dec_dyn_attr d = Some x) ds xs).
    { clear -IH. induction cs as [|c cs IHcs]; [exists [], [], []; repeat split; constructor|].
      destruct IHcs as (es & ds & xs & A & B & C & D); [intros c' I; apply IH; right; exact I|].
      destruct (IH c (or_introl eq_refl)) as (e & x & F & X & Hd). destruct (Hd None) as (d & F' & X' & _).
      exists (e :: es), (d :: ds), (x :: xs). repeat split; constructor; assumption. }
    destruct L as (es & ds & xs & A & B & C & D). exists (ETuple es), (existsb (fun b => b) xs). split; [eapply tuple_find; eassumption|]. split.
    + cbn [enc_dyn_attr]. f_equal. clear -C. induction C as [|e x es xs E C IH]; [reflexivity|]. cbn [existsb]. rewrite IH, E. reflexivity.
    + intro k. exists (mk_dtuple ds). split; [eapply tuple_find_dec; eassumption|]. split; [|reflexivity]. unfold mk_dtuple. cbn [dec_dyn_attr]. f_equal.
      clear -D. induction D as [|d x ds xs E D IH]; [reflexivity|]. cbn [map existsb]. rewrite IH. f_equal. unfold wrap, dec_is_dyn. rewrite E. destruct x; [reflexivity|rewrite E; reflexivity].
  - destruct IH as (e & x & F & X & Hd). destruct (Hd None) as (d & F' & X' & _). eexists. eexists. split; [eapply array_find; eassumption|].
    assert (W : dec_dyn_attr (wrap d) = Some x) by (unfold wrap, dec_is_dyn; rewrite X'; destruct x; [reflexivity|exact X']).
    split; [|intro k; eexists; split; [eapply array_find_dec; eassumption|]].
    + instantiate (1 := match last (arrlist_of U) None with Some _ => x | None => true end). destruct (last (arrlist_of U) None); [exact X|reflexivity].
    + destruct (last (arrlist_of U) None); split; try reflexivity. exact W.
Qed.
Lemma put_made : (forall s v p, put l s v p -> made l s) /\ (forall ss vs ps, puts l ss vs ps -> Forall (made l) ss).
Proof.
  apply (put_puts_ind l (fun s v p => made l s) (fun ss vs ps => Forall (made l) ss)).
  - intros T e d x v b H _ _. eapply made_name; exact H.
  - intros s t v a S _. eapply made_known; exact S.
  - intros s cs v vs ps P _ _ F. eapply made_tuple; [exact P|]. intros c I. rewrite Forall_forall in F. apply F, in_map, I.
  - intros s U it n v vs ps P It L _ E _ F. eapply made_array; [exact P|exact It|]. pose proof (sized_pos s U n P L).
    destruct vs as [|v0 vs]; [change (len (@nil pyval)) with 0 in E; lia|]. cbn [length repeat] in F. inv F. assumption.
  - intros s U it v vs ps P It _ M _ _ _ _. eapply made_array; eassumption.
  - constructor.
  - intros. constructor; assumption.
Qed.
Lemma put_puts_ind' (P : pystr -> pyval -> bool * bytes -> Prop) (Q : list pystr -> list pyval -> list (bool * bytes) -> Prop) :
  (forall T e d x v b, coder_pair l T e d x -> validate_value e v = Ok tt -> encode_with e v = Ok b -> P T v (x, b)) ->
  (forall s t v a, supported s t -> denotes t v a -> P s v (sdyn t, spec_enc t a)) ->
  (forall s cs v vs ps, parse (normalize s) = Ok (Tup cs []) -> seq_like v vs -> (forall c, In c cs -> made l (to_type_str c)) -> Q (map to_type_str cs) vs ps -> P s v (existsb fst ps, head_tail ps)) ->
  (forall s U it n v vs ps, parse (normalize s) = Ok U -> item_type U = Ok it -> last (arrlist_of U) None = Some n -> seq_like v vs -> len vs = n ->
     made l (to_type_str it) -> Q (repeat (to_type_str it) (length vs)) vs ps -> P s v (existsb fst ps, head_tail ps)) ->
  (forall s U it v vs ps, parse (normalize s) = Ok U -> item_type U = Ok it -> last (arrlist_of U) None = None -> made l (to_type_str it) -> seq_like v vs -> len vs < 2 ^ 256 ->
     Q (repeat (to_type_str it) (length vs)) vs ps -> P s v (true, word (len vs) ++ head_tail ps)) ->
  Q [] [] [] ->
  (forall s ss v vs p ps, P s v p -> Q ss vs ps -> Q (s :: ss) (v :: vs) (p :: ps)) ->
  (forall s v p, put l s v p -> P s v p) /\ (forall ss vs ps, puts l ss vs ps -> Q ss vs ps).
Proof.
  intros H1 H2 H3 H4 H5 H6 H7. apply (put_puts_ind l P Q); eauto.
  - intros s cs v vs ps Pa S Ps IH. apply (H3 s cs v vs ps Pa S); [|exact IH]. intros c I. pose proof (proj2 put_made _ _ _ Ps) as F. rewrite Forall_forall in F. apply F, in_map, I.
  - intros s U it n v vs ps Pa It L S E Ps IH. apply (H4 s U it n v vs ps Pa It L S E); [|exact IH]. pose proof (sized_pos s U n Pa L).
    pose proof (proj2 put_made _ _ _ Ps) as F. destruct vs as [|v0 vs]; [change (len (@nil pyval)) with 0 in E; lia|]. cbn [length repeat] in F. inv F. assumption.
Qed.
Lemma got_made : (forall s p q, got l s p q -> made l s) /\ (forall ss ps qs, gots l ss ps qs -> Forall (made l) ss).
Proof.
  apply (got_gots_ind l (fun s p q => made l s) (fun ss ps qs => Forall (made l) ss)).
  - intros T e d x b q H _ _. eapply made_name; exact H.
  - intros s t a q S _ _. eapply made_known; exact S.
  - intros s cs ps qs P _ F. eapply made_tuple; [exact P|]. intros c I. rewrite Forall_forall in F. apply F, in_map, I.
  - intros s U it n ps qs P It L E _ F. eapply made_array; [exact P|exact It|]. pose proof (sized_pos s U n P L).
    destruct ps as [|p0 ps]; [change (len (@nil (bool * bytes))) with 0 in E; lia|]. cbn [length repeat] in F. inv F. assumption.
  - intros s U it ps qs P It _ M _ _. eapply made_array; eassumption.
  - constructor.
  - intros. constructor; assumption.
Qed.

(** ** Encoding *)
Definition puts_with (e : encoder) (v : pyval) (p : bool * bytes) : Prop :=
  enc_dyn_attr e = Some (fst p) /\ validate_value e v = Ok tt /\ (len (snd p) < 2 ^ 256 -> encode_with e v = Ok (snd p)).
Lemma puts_does e v p : puts_with e v p -> enc_does e v p.
Proof. intros (X & V & E). split; [unfold enc_is_dyn; rewrite X; reflexivity|]. auto. Qed.
Lemma tuple_puts es vs ps v : Forall3 puts_with es vs ps -> seq_like v vs -> puts_with (ETuple es) v (existsb fst ps, head_tail ps).
Proof.
  intros D S. assert (D' : Forall3 enc_does es vs ps) by (clear -D; induction D; constructor; auto using puts_does).
  destruct (tuple_does es vs ps v D' S) as (X & _ & E). destruct (seq_like_items v vs S) as (I & L & _). split; [cbn [enc_dyn_attr fst]; f_equal; exact X|]. split; [|exact E].
  unfold validate_value. cbn [ve fst]. unfold tuple_validate. rewrite L, I. cbn [negb]. rewrite len_map. destruct (Forall3_len _ _ _ _ D) as [E1 E2].
  destruct (Z.eqb_spec (len vs) (len es)); [|lia]. cbn [negb]. clear -D. induction D as [|e u p es l ps (_ & V & _) D IH]; [reflexivity|]. cbn [map tuple_validate_items].
  unfold validate_value in V. destruct (ve e) as [val enc]. cbn [fst] in V. rewrite V. exact IH.
Qed.
Lemma same_encoder s e vs ps es : find_encoder me s = Ok e -> Forall2 (fun s e => find_encoder me s = Ok e) (repeat s (length vs)) es -> Forall3 puts_with es vs ps ->
  Forall2 (puts_with e) vs ps.
Proof.
  intros F A D. revert A. induction D as [|e' v p es vs ps H D IH]; intro A; [constructor|]. cbn [length repeat] in A. inv A. constructor; [|apply IH; assumption]. congruence.
Qed.
Lemma items_put e vs ps x : enc_dyn_attr e = Some x -> Forall2 (puts_with e) vs ps -> ps = map (pair x) (map snd ps) /\ validate_all (fst (ve e)) vs = Ok tt
  /\ (len (head_tail ps) < 2 ^ 256 -> mapM (snd (ve e)) vs = Ok (map snd ps)).
Proof.
  intros X F. assert (Q : ps = map (pair x) (map snd ps)).
  { induction F as [|v p vs ps (Y & _) F IH]; [reflexivity|]. cbn [map]. rewrite <- IH. f_equal. destruct p as [y b]. cbn [fst snd] in *. congruence. }
  split; [exact Q|]. split.
  - clear Q. induction F as [|v p vs ps (_ & V & _) F IH]; [reflexivity|]. cbn [validate_all]. unfold validate_value in V. rewrite V. exact IH.
  - intro Hl. assert (B : Forall (fun p : bool * bytes => len (snd p) < 2 ^ 256) ps) by (apply Forall_forall; intros p Ip; pose proof (part_len_le p ps Ip); lia).
    clear Hl Q. induction F as [|v p vs ps (_ & _ & E) F IH]; [reflexivity|]. inv B. cbn [mapM map]. unfold encode_with in E. rewrite E by assumption. cbn [bind]. rewrite IH by assumption. reflexivity.
Qed.
Lemma sized_puts e v vs ps x n : enc_dyn_attr e = Some x -> Forall2 (puts_with e) vs ps -> seq_like v vs -> len vs = n -> 1 <= n -> puts_with (ESized n e) v (existsb fst ps, head_tail ps).
Proof.
  intros X F S L P. destruct (seq_like_items v vs S) as (I & Ll & _). destruct (items_put e vs ps x X F) as (Q & V & M).
  assert (Hav : sized_validate (Some n) (fst (ve e)) v = Ok tt).
  { unfold sized_validate, array_validate. rewrite Ll, I. cbn [negb]. rewrite V. cbn [bind]. rewrite L, Z.eqb_refl. reflexivity. }
  split; [|split].
  - cbn [enc_dyn_attr fst]. rewrite X. f_equal. pose proof (Forall2_len _ _ _ F) as E. destruct ps as [|p ps]; [change (len (@nil (bool * bytes))) with 0 in E; lia|].
    rewrite Q. cbn [map existsb fst]. clear. destruct x; [reflexivity|]. cbn [orb]. induction (map snd ps); [reflexivity|]. cbn [map existsb fst orb]. assumption.
  - unfold validate_value. cbn [ve fst]. exact Hav.
  - cbn [snd]. intro Hl. unfold encode_with. cbn [ve snd]. rewrite Q. replace (enc_is_dyn e) with x by (unfold enc_is_dyn; rewrite X; reflexivity).
    apply encode_elements_head_tail; [exact Hav|rewrite I; apply M; exact Hl|rewrite <- Q; exact Hl].
Qed.
Lemma dyn_puts e v vs ps x : enc_dyn_attr e = Some x -> Forall2 (puts_with e) vs ps -> seq_like v vs -> len vs < 2 ^ 256 -> puts_with (EDyn e) v (true, word (len vs) ++ head_tail ps).
Proof.
  intros X F S L. destruct (seq_like_items v vs S) as (I & Ll & Pl). destruct (items_put e vs ps x X F) as (Q & V & M).
  assert (Hav : array_validate (fst (ve e)) v = Ok tt).
  { unfold array_validate. rewrite Ll, I. cbn [negb]. exact V. }
  split; [reflexivity|]. split; [unfold validate_value; cbn [ve fst]; exact Hav|].
  cbn [snd]. intro Hl. lens. rewrite word_len in Hl. unfold encode_with. cbn [ve snd]. rewrite Pl. cbn [bind]. pose proof (len_nonneg vs). rewrite encode_uint_256_word by lia. cbn [bind].
  rewrite Q. replace (enc_is_dyn e) with x by (unfold enc_is_dyn; rewrite X; reflexivity).
  rewrite (encode_elements_head_tail _ _ _ _ (map snd ps)); [reflexivity|exact Hav|rewrite I; apply M; lia|rewrite <- Q; lia].
Qed.
Lemma put_encodes :
  (forall s v p, put l s v p -> exists e, find_encoder me s = Ok e /\ puts_with e v p)
  /\ (forall ss vs ps, puts l ss vs ps -> exists es, Forall2 (fun s e => find_encoder me s = Ok e) ss es /\ Forall3 puts_with es vs ps).
Proof.
  apply (put_puts_ind' (fun s v p => exists e, find_encoder me s = Ok e /\ puts_with e v p)
    (fun ss vs ps => exists es, Forall2 (fun s e => find_encoder me s = Ok e) ss es /\ Forall3 puts_with es vs ps)).
  - intros T e d x v b H V E. exists e. split; [eapply pair_found; exact H|]. destruct H as (er & dr & _ & _ & _ & X & _). split; [exact X|]. auto.
  - intros s t v a S D. exists (enc_of false t). split; [apply known_found; exact S|]. destruct (denotes_encodes false t v a (supported_wf s t S) D) as [V E].
    split; [apply (enc_dyn_attr_of false t)|]. auto.
  - intros s cs v vs ps P S M (es & F & D). exists (ETuple es). split; [eapply tuple_find; eassumption|]. apply (tuple_puts es vs); assumption.
  - intros s U it n v vs ps P It L S E M (es & F & D). destruct (made_found _ M) as (e & x & Fe & X & _). exists (ESized n e). split.
    + rewrite (array_find s U it e x P It M Fe X), L. reflexivity.
    + eapply sized_puts; [exact X|eapply same_encoder; eassumption|exact S|exact E|eapply sized_pos; eassumption].
  - intros s U it v vs ps P It L M S B (es & F & D). destruct (made_found _ M) as (e & x & Fe & X & _). exists (EDyn e). split.
    + rewrite (array_find s U it e x P It M Fe X), L. reflexivity.
    + eapply dyn_puts; [exact X|eapply same_encoder; eassumption|exact S|exact B].
  - exists []. split; constructor.
  - intros s ss v vs p ps (e & He & D) (es & Fe & Ds). exists (e :: es). split; constructor; assumption.
Qed.

(** ** Decoding *)
Section Reading.
Variables (h : heap) (buf : bytes).
Hypothesis Hbuf : len buf <= maxsize.
Lemma pair_does T e d x b q k : coder_pair l T e d x -> room x b -> reads d x b q -> dec_does h buf (with_strict k d) (x, b) q.
Proof.
  intros (er & dr & _ & _ & _ & _ & Y & Z & A) R H.
  assert (Sd : with_strict k d = fst (set_strict d (strict_of k) [])).
  { unfold with_strict. destruct (dec_is_dyn d) eqn:Q; [reflexivity|]. destruct d; try reflexivity; try discriminate Q. destruct dyn; [discriminate Q|reflexivity]. }
  assert (K : dec_dyn_attr (with_strict k d) = Some x /\ is_headtail (with_strict k d) = false /\ array_size_attr (with_strict k d) = 1).
  { rewrite Sd. clear -Y Z A. destruct d; try (repeat split; assumption); cbn [set_strict fst]; try match goal with s : strict_ref |- _ => destruct s end; try (repeat split; assumption).
    all: destruct dyn; repeat split; assumption. }
  destruct K as (K1 & K2 & K3). unfold dec_does. cbn [fst snd]. split; [unfold dec_is_dyn; rewrite K1; reflexivity|]. split; [exact K2|].
  unfold room in R. assert (D : dec_is_dyn (with_strict k d) = x) by (unfold dec_is_dyn; rewrite K1; reflexivity).
  split; [unfold wrap; rewrite D; unfold head_size; cbn [fst snd]; destruct x; [cbn [array_size_attr]; lia|rewrite K3; lia]|].
  split; [unfold head_size; cbn [fst snd]; destruct x; lia|]. intros st L Ht. rewrite Sd. apply H; assumption.
Qed.
Lemma item_parts d ps qs : Forall2 (dec_does h buf d) ps qs -> Forall3 (dec_does h buf) (repeat d (length ps)) ps qs /\ 32 * len ps <= heads_size ps
  /\ existsb fst ps = negb (len ps =? 0) && dec_is_dyn d /\ length qs = length ps.
Proof.
  intro F. split; [clear -F; induction F; constructor; assumption|]. split; [|split].
  - apply heads_size_ge. clear -F. induction F as [|p q ps qs (_ & _ & _ & (L & _) & _) F IH]; constructor; assumption.
  - clear -F. induction F as [|p q ps qs (D & _) F IH]; [reflexivity|]. cbn [existsb]. rewrite IH, <- D. lens. pose proof (len_nonneg ps).
    destruct (Z.eqb_spec (1 + len ps) 0); [lia|]. cbn [negb andb]. destruct (dec_is_dyn d), (len ps =? 0); reflexivity.
  - clear -F. induction F; cbn [length]; congruence.
Qed.
Lemma array_reads d ps qs st : Forall2 (dec_does h buf d) ps qs -> is_headtail d = false -> located buf (pos st) (head_tail ps) -> (existsb fst ps = true -> total st = pos st) ->
  (st1 <- array_validate_pointers (is_headtail (wrap d)) (len ps) buf st ;; loop_items (len ps) (decode_with h (wrap d) buf) st1)
  = Ok (qs, mkStream (pos st + heads_size ps) (frames st) (total st)).
Proof.
  intros F Hd L Ht. destruct (item_parts d ps qs F) as (F3 & Hh & Hx & _). pose proof (located_bounds _ _ _ L) as B. unfold head_tail in L.
  pose proof (located_app_l _ _ _ _ L) as Lh. apply located_app_r in L. rewrite len_heads in L. pose proof (len_nonneg ps) as Np. pose proof (len_nonneg (head_tail ps)).
  destruct (members_does h buf Hbuf (pos st) (pos st + 32 * len ps) (repeat d (length ps)) ps qs F3 (proj1 B) (heads_size ps) st (heads_size_nonneg ps) (proj1 B) Ht Lh L) as [G V].
  specialize (V ltac:(lia)). rewrite map_repeat in G, V.
  assert (Q : forall st0, loop_items (len ps) (decode_with h (wrap d) buf) st0 = go h buf (repeat (wrap d) (length ps)) st0).
  { intro st0. rewrite loop_items_eq. rewrite len_length, Nat2Z.id. reflexivity. }
  unfold array_validate_pointers. destruct (is_headtail (wrap d)) eqn:W.
  - rewrite loop_Z_iterM, (loop_check_eq h buf _ _ (wrap d)) by exact W. rewrite len_length in V |- *. rewrite Nat2Z.id. rewrite V. cbn [bind]. rewrite seek_ok by lia. cbn [bind frames total].
    replace (mkStream (pos st) (frames st) (total st)) with st by (destruct st; reflexivity). rewrite len_length in Q. rewrite Q, G. reflexivity.
  - cbn [bind]. rewrite Q, G. reflexivity.
Qed.
Lemma sized_does d ps qs n : Forall2 (dec_does h buf d) ps qs -> is_headtail d = false -> len ps = n -> 1 <= n -> dec_does h buf (DSized n (wrap d)) (existsb fst ps, head_tail ps) (PTuple qs).
Proof.
  intros F Hd E P. destruct (item_parts d ps qs F) as (F3 & Hh & Hx & _). destruct (Z.eqb_spec (len ps) 0); [lia|]. cbn [negb andb] in Hx.
  assert (W : dec_is_dyn (wrap d) = dec_is_dyn d) by (unfold wrap; destruct (dec_is_dyn d) eqn:Q; [reflexivity|exact Q]).
  assert (Lp : 32 <= len (head_tail ps)) by (rewrite len_head_tail; pose proof (len_nonneg (tails ps)); lia).
  unfold dec_does. cbn [fst snd]. change (dec_is_dyn (DSized n (wrap d))) with (dec_is_dyn (wrap d)). split; [congruence|]. split; [reflexivity|]. split; [|split].
  - unfold wrap at 1. change (dec_is_dyn (DSized n (wrap d))) with (dec_is_dyn (wrap d)). rewrite W, <- Hx. unfold head_size. cbn [fst snd].
    destruct (existsb fst ps); cbn [array_size_attr]; [lia|]. rewrite len_head_tail. pose proof (len_nonneg (tails ps)). lia.
  - unfold head_size. cbn [fst snd]. destruct (existsb fst ps); lia.
  - intros st L Ht. cbn [decode_with]. pose proof (array_reads d ps qs st F Hd L Ht) as R. rewrite E in R.
    destruct (array_validate_pointers (is_headtail (wrap d)) n buf st) as [st1|]; [|discriminate R]. cbn [bind] in *. rewrite R. cbn [bind]. eexists. split; [reflexivity|].
    cbn [pos]. intro S. rewrite len_head_tail, tails_all_static; [change (len (@nil byte)) with 0; lia|].
    clear -S. induction ps as [|p ps IH]; constructor; cbn [existsb] in S; apply orb_false_iff in S; [apply S|apply IH; apply S].
Qed.
Lemma dyn_does d ps qs : Forall2 (dec_does h buf d) ps qs -> is_headtail d = false -> dec_does h buf (DDyn (wrap d)) (true, word (len ps) ++ head_tail ps) (PTuple qs).
Proof.
  intros F Hd. destruct (item_parts d ps qs F) as (F3 & Hh & _). unfold dec_does. cbn [fst snd]. split; [reflexivity|]. split; [reflexivity|]. split; [unfold wrap, head_size; cbn; lia|].
  pose proof (len_nonneg (head_tail ps)). pose proof (len_nonneg ps). split; [unfold head_size; cbn [fst]; lens; rewrite word_len; lia|].
  intros st L Ht. specialize (Ht eq_refl). pose proof (located_bounds _ _ _ L) as B. pose proof (located_app_l _ _ _ _ L) as Lw. apply located_app_r in L. rewrite word_len in L. lens. rewrite word_len in B.
  pose proof (located_bounds _ _ _ L) as B'. rewrite len_head_tail in B'. pose proof (len_nonneg (tails ps)).
  cbn [decode_with]. rewrite decode_uint_256_eq by lia. rewrite (located_word buf (pos st) (len ps) Lw) by (pose proof maxsize_lt; lia). cbn [bind].
  unfold push_frame, seek_in_frame. cbn [total adv pos frames]. rewrite seek_ok by lia. cbn [bind frames total].
  match goal with |- context [array_validate_pointers _ _ buf ?x] => pose proof (array_reads d ps qs x F Hd) as R end. cbn [pos frames total] in R.
  match type of R with located buf ?p _ -> _ => replace p with (pos st + 32) in * by lia end.
  specialize (R L ltac:(intros _; lia)).
  match goal with |- context [array_validate_pointers ?a ?b buf ?x] => destruct (array_validate_pointers a b buf x) as [st1|]; [|discriminate R] end. cbn [bind] in *. rewrite R. cbn [bind].
  unfold pop_frame. cbn [frames total]. rewrite seek_ok by lia. cbn [bind frames total]. eexists. split; [|discriminate]. do 3 f_equal. lia.
Qed.
Lemma same_decoder s d ps qs ds : find_decoder md None s = Ok d -> Forall2 (fun s d => find_decoder md None s = Ok d) (repeat s (length ps)) ds ->
  Forall3 (dec_does h buf) ds ps qs -> Forall2 (dec_does h buf d) ps qs.
Proof.
  intros F A D. revert A. induction D as [|d' p q ds ps qs H D IH]; intro A; [constructor|]. cbn [length repeat] in A. inv A. constructor; [|apply IH; assumption]. congruence.
Qed.
Lemma got_decodes :
  (forall s p q, got l s p q -> exists q', got l s p q' /\ forall k, exists d, find_decoder md k s = Ok d /\ dec_does h buf d p q')
  /\ (forall ss ps qs, gots l ss ps qs -> exists qs', gots l ss ps qs' /\ forall k, exists ds, Forall2 (fun s d => find_decoder md k s = Ok d) ss ds /\ Forall3 (dec_does h buf) ds ps qs').
Proof.
  apply (got_gots_ind l
    (fun s p q => exists q', got l s p q' /\ forall k, exists d, find_decoder md k s = Ok d /\ dec_does h buf d p q')
    (fun ss ps qs => exists qs', gots l ss ps qs' /\ forall k, exists ds, Forall2 (fun s d => find_decoder md k s = Ok d) ss ds /\ Forall3 (dec_does h buf) ds ps qs')).
  - intros T e d x b q H R Hr. exists q. split; [eapply got_name; eassumption|]. intro k. exists (with_strict k d). split; [eapply pair_found; exact H|eapply pair_does; eassumption].
  - intros s t a q S H C. pose proof (supported_wf s t S) as W. exists (py_of t a). split; [apply got_known; [assumption..|apply py_of_canon; assumption]|].
    intro k. exists (dec_of (strict_of k) t). split; [apply known_found; exact S|apply known_does; assumption].
  - intros s cs ps qs P B (qs' & B' & D). exists (PTuple qs'). split; [eapply got_tuple; eassumption|]. intro k. destruct (D None) as (ds & Fd & Do).
    exists (mk_dtuple ds). split.
    + eapply tuple_find_dec; [exact P| |exact Fd]. intros c I. pose proof (proj2 got_made _ _ _ B) as F. rewrite Forall_forall in F. apply F, in_map, I.
    + apply dtuple_does; [exact Hbuf| |exact Do]. destruct (normalized_tree s _ P) as [A _]. inv A. take (cs <> []) as Ne. clear -Ne Fd. intros ->. inv Fd. destruct cs; [congruence|discriminate].
  - intros s U it n ps qs P It L E B (qs' & B' & D). exists (PTuple qs'). split; [eapply got_sized; eassumption|]. intro k. destruct (D None) as (ds & Fd & Do).
    pose proof (sized_pos s U n P L) as Hn. assert (M : made l (to_type_str it)).
    { pose proof (proj2 got_made _ _ _ B) as F. destruct ps as [|p0 ps]; [change (len (@nil (bool * bytes))) with 0 in E; lia|]. cbn [length repeat] in F. inv F. assumption. }
    destruct (made_found _ M) as (e & x & _ & _ & Hd). destruct (Hd None) as (d & F & X & Y). exists (DSized n (wrap d)). split.
    + rewrite (array_find_dec s U it d x k P It M F X), L. reflexivity.
    + apply sized_does; [eapply same_decoder; eassumption|exact Y|exact E|exact Hn].
  - intros s U it ps qs P It L M B (qs' & B' & D). exists (PTuple qs'). split; [eapply got_dyn; eassumption|]. intro k. destruct (D None) as (ds & Fd & Do).
    destruct (made_found _ M) as (e & x & _ & _ & Hd). destruct (Hd None) as (d & F & X & Y). exists (DDyn (wrap d)). split.
    + rewrite (array_find_dec s U it d x k P It M F X), L. reflexivity.
    + apply dyn_does; [eapply same_decoder; eassumption|exact Y].
  - exists []. split; [constructor|]. intro k. exists []. split; constructor.
  - intros s ss p ps q qs _ (q' & B & D) _ (qs' & Bs & Ds). exists (q' :: qs'). split; [constructor; assumption|]. intro k.
    destruct (D k) as (d & Hd & Dd), (Ds k) as (ds & Hds & Dds). exists (d :: ds). split; constructor; assumption.
Qed.
End Reading.
Lemma puts_length ss vs ps : puts l ss vs ps -> length ps = length vs.
Proof. induction 1; cbn [length]; congruence. Qed.
Lemma put_got : faithful l ->
  (forall s v p, put l s v p -> exists q, got l s p q) /\ (forall ss vs ps, puts l ss vs ps -> (exists qs, gots l ss ps qs) /\ length ps = length vs).
Proof.
  intro H. apply (put_puts_ind' (fun s v p => exists q, got l s p q) (fun ss vs ps => (exists qs, gots l ss ps qs) /\ length ps = length vs)).
  - intros T e d x v b C V E. destruct (H T e d x v b C V E) as (R & q & Q). exists q. eapply got_name; eassumption.
  - intros s t v a S D. pose proof (supported_wf s t S) as W. pose proof (denotes_has_type t v a W D) as Ha. exists (py_of t a). apply got_known; [assumption..|apply py_of_canon; assumption].
  - intros s cs v vs ps P S _ ((qs & G) & _). exists (PTuple qs). eapply got_tuple; eassumption.
  - intros s U it n v vs ps P It L S E _ ((qs & G) & Lp). exists (PTuple qs). eapply got_sized; try eassumption; [rewrite len_length, Lp, <- len_length; exact E|rewrite Lp; exact G].
  - intros s U it v vs ps P It L M S B ((qs & G) & Lp). exists (PTuple qs). replace (len vs) with (len ps) by (rewrite !len_length; congruence).
    eapply got_dyn; try eassumption. rewrite Lp; exact G.
  - split; [exists []; constructor|reflexivity].
  - intros s ss v vs p ps (q & G) ((qs & Gs) & Lp). split; [exists (q :: qs); constructor; assumption|cbn [length]; congruence].
Qed.
End Lookups.

(** ** The calls *)
Theorem coders_encode l w types ss args vs ps : names_ok l -> with_coders l w -> seq_like types (map PStr ss) -> seq_like args vs ->
  puts l ss vs ps -> len (head_tail ps) < 2 ^ 256 -> encode_in w types args = Ok (head_tail ps).
Proof.
  intros N W St Sa P L. destruct (with_state l w W N) as (Ge & Gd & C & _). destruct (proj2 (put_encodes l _ _ N Ge Gd) _ _ _ P) as (es & Fe & D).
  unfold encode_in. destruct (api_encode_pure types args (fst w) C) as (r & -> & _). cbn [fst]. unfold pure_encode. rewrite (proj2 (list_like types _) St). cbn [bind].
  rewrite (proj2 (list_like args _) Sa). cbn [bind]. replace (mapM (find_py (find_encoder (r_encs (fst w)))) (map PStr ss)) with (@Ok (list encoder) es).
  - cbn [bind]. apply (tuple_puts es vs ps args D Sa). exact L.
  - clear -Fe. symmetry. induction Fe as [|s e ss es H Q IH]; [reflexivity|]. cbn [map mapM find_py]. rewrite H. cbn [bind]. rewrite IH. reflexivity.
Qed.
Theorem coders_encodable l w s : names_ok l -> with_coders l w ->
  (made l s -> is_encodable_type_in w (PStr s) = Ok true) /\ (forall v p, put l s v p -> is_encodable_in w (PStr s) v = Ok true).
Proof.
  intros N W. destruct (with_state l w W N) as (Ge & Gd & C & _). split.
  - intro M. destruct (made_found l _ _ N Ge Gd s M) as (e & x & He & _).
    unfold is_encodable_type_in. destruct (api_is_encodable_type_pure (PStr s) (fst w) C) as (r & -> & _). cbn [fst]. unfold pure_has. cbn [find_py]. rewrite He. reflexivity.
  - intros v p P. destruct (proj1 (put_encodes l _ _ N Ge Gd) _ _ _ P) as (e & He & _ & V & _).
    unfold is_encodable_in. destruct (api_is_encodable_pure (PStr s) v (fst w) C) as (r & -> & _). cbn [fst]. unfold pure_is_encodable. cbn [find_py]. rewrite He.
    unfold check_encodable. rewrite V. reflexivity.
Qed.
Theorem coders_decode l w types ss data b ps qs post strict : names_ok l -> with_coders l w -> seq_like types (map PStr ss) ->
  gots l ss ps qs -> bytes_like data b -> b = head_tail ps ++ post -> len b <= maxsize ->
  exists qs', decode_in w types data strict = Ok (PTuple qs') /\ gots l ss ps qs'.
Proof.
  intros N W St B Sd Eb L. destruct (with_state l w W N) as (Ge & Gd & _ & C). unfold decode_in.
  destruct (api_decode_pure types data strict w C) as (w' & -> & _). cbn [fst]. unfold pure_decoders. rewrite (proj2 (list_like types _) St), (proj2 (bytes_param data b) Sd). cbn [bind].
  destruct (proj2 (got_decodes l _ _ N Ge Gd (snd w') b L) _ _ _ B) as (qs' & B' & D). destruct (D (Some strict)) as (ds & Fd & Do). exists qs'. split; [|exact B'].
  replace (mapM (find_py (find_decoder (r_decs (fst w)) (Some strict))) (map PStr ss)) with (@Ok (list decoder) ds)
    by (clear -Fd; symmetry; induction Fd as [|s e ss es H Q IH]; [reflexivity|]; cbn [map mapM find_py]; rewrite H; cbn [bind]; rewrite IH; reflexivity).
  cbn [bind]. destruct ds as [|d ds].
  - inv Fd. inv B'. inv Do. reflexivity.
  - destruct (dtuple_does (snd w') b L (d :: ds) ps qs' ltac:(discriminate) Do) as (_ & _ & _ & _ & E). cbn [fst snd] in E.
    destruct (E new_stream) as (p' & -> & _); [exists [], post; auto|reflexivity|]. reflexivity.
Qed.
Theorem coders_round_trip l w types ss args vs ps strict : names_ok l -> with_coders l w -> faithful l -> seq_like types (map PStr ss) -> seq_like args vs ->
  puts l ss vs ps -> len (head_tail ps) <= maxsize ->
  exists out qs, encode_in w types args = Ok out /\ decode_in w types (PBytes out) strict = Ok (PTuple qs) /\ gots l ss ps qs.
Proof.
  intros N W H St Sa P L. destruct (proj2 (put_got l H) _ _ _ P) as ((qs0 & G) & _).
  destruct (coders_decode l w types ss (PBytes (head_tail ps)) (head_tail ps) ps qs0 [] strict N W St G) as (qs & D & G'); [left; reflexivity|rewrite app_nil_r; reflexivity|exact L|].
  exists (head_tail ps), qs. split; [|split; [exact D|exact G']]. eapply coders_encode; try eassumption. pose proof maxsize_lt. lia.
Qed.
