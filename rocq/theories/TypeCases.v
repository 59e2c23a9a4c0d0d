(** Facts about type strings, lookups and lookup errors used by
    PropertiesTypes.v. *)
From Coq Require Import Strings.Byte Strings.String.
From Verif Require Import Tac Bytes Address Grammar GrammarSpec GrammarProofs NormalizeProofs Encoding Decoding Registry RaisingSpec Codec Histories
  Spec TypeSpec EncodeProofs DecodeProofs CacheProofs LookupProofs TypeProofs ApiProofs HistoryProofs HeapProofs.
Open Scope Z_scope.

(** ** normalize on arbitrary strings *)
Lemma shorthands_alias w b : In (w, b) shorthands <-> lookup_alias TYPE_ALIASES w = Some b.
Proof.
  change TYPE_ALIASES with shorthands. split.
  - intro H. cbn in H. repeat (destruct H as [H|H]; [inv H; reflexivity|]). contradiction.
  - intro H. cbn [lookup_alias shorthands] in H.
    repeat match type of H with (if str_eqb ?a ?b then _ else _) = _ =>
      destruct (str_eqb a b) eqn:Q; [apply str_eqb_eq in Q; injection H as <-; rewrite <- Q; cbn; tauto|clear Q] end.
    discriminate H.
Qed.
Lemma renamed_alias w w' : renamed w w' <-> w' = alias w.
Proof.
  unfold alias. split.
  - intros [a b H|x H]; [apply shorthands_alias in H; rewrite H; reflexivity|].
    destruct (lookup_alias TYPE_ALIASES x) as [b|] eqn:L; [|reflexivity]. apply shorthands_alias in L. destruct (H _ L).
  - intros ->. destruct (lookup_alias TYPE_ALIASES w) as [b|] eqn:L.
    + constructor. apply shorthands_alias. exact L.
    + apply RN_same. intros b H. apply shorthands_alias in H. congruence.
Qed.
Lemma words w : Forall (fun c => is_word c = true) w <-> forallb is_word w = true.
Proof. rewrite forallb_forall, Forall_forall. reflexivity. Qed.
(** [normalized] with the test of the model *)
Inductive scanned : pystr -> pystr -> Prop :=
| SC_nil : scanned [] []
| SC_other c s s' : is_word c = false -> scanned s s' -> scanned (c :: s) (c :: s')
| SC_word w w' s s' : w <> [] -> Forall (fun c => is_word c = true) w ->
    match s with [] => True | c :: _ => is_word c = false end ->
    renamed w w' -> scanned s s' -> scanned (w ++ s) (w' ++ s').
Lemma normalized_norm s s' : scanned s s' -> s' = norm false s.
Proof.
  induction 1 as [|c s s' W N IH|w w' s s' Ne F E R N IH]; [reflexivity|rewrite norm_nonword by exact W; congruence|].
  rewrite norm_word; [|exact Ne|apply words; exact F|exact E]. apply renamed_alias in R. rewrite (norm_edge s E). congruence.
Qed.
Lemma norm_normalized n : forall s, (length s <= n)%nat -> scanned s (norm false s).
Proof.
  induction n as [|n IH]; intros s Hn; [destruct s; [constructor|cbn in Hn; lia]|].
  destruct s as [|c s]; [constructor|]. destruct (is_word c) eqn:W.
  - destruct (span is_word (c :: s)) as [w r] eqn:S. apply span_spec in S. destruct S as (E & F & R).
    assert (Ne : w <> []) by (intro; subst w; cbn in E; subst r; cbn in R; congruence).
    assert (L : (length (c :: s) = length w + length r)%nat) by (rewrite E; apply app_length). rewrite E.
    rewrite norm_word by assumption. rewrite (norm_edge r R).
    apply SC_word; [exact Ne|apply words; exact F|exact R|apply renamed_alias; reflexivity|].
    apply IH. destruct w; [congruence|]. cbn in L, Hn. lia.
  - rewrite norm_nonword by exact W. apply SC_other; [exact W|]. apply IH. cbn in Hn. lia.
Qed.
Lemma scanned_iff s s' : scanned s s' <-> s' = normalize s.
Proof. rewrite normalize_norm. split; [apply normalized_norm|intros ->; eapply norm_normalized; reflexivity]. Qed.

Lemma is_word_char c : is_word c = true <-> word_char c.
Proof.
  unfold word_char, is_word. rewrite <- is_digit_digit, <- is_alpha_letter. destruct (c <? 128)%N eqn:H.
  - rewrite !Bool.orb_true_iff, N.eqb_eq. assert ((c < 128)%N) by lia. intuition lia.
  - assert (~ letter c /\ ~ digit c) as [L D] by (unfold letter, digit; lia). rewrite <- is_alpha_letter in L. rewrite <- is_digit_digit in D. intuition lia.
Qed.
Lemma not_word_char c : is_word c = false <-> ~ word_char c.
Proof. rewrite <- is_word_char. destruct (is_word c); split; congruence. Qed.
Lemma normalized_scanned s s' : normalized s s' <-> scanned s s'.
Proof.
  split; induction 1; constructor; auto; try (apply not_word_char; assumption);
    try (eapply Forall_impl; [|eassumption]; intro; apply is_word_char); destruct s; auto; apply not_word_char; assumption.
Qed.
Theorem normalized_iff s s' : normalized s s' <-> s' = normalize s.
Proof. rewrite normalized_scanned. apply scanned_iff. Qed.

(** ** From the scanned string back *)
Lemma renamed_word w w' : w <> [] -> Forall (fun c => is_word c = true) w -> renamed w w' ->
  w' <> [] /\ Forall (fun c => is_word c = true) w'.
Proof.
  intros Ne F R. apply renamed_alias in R. subst w'. destruct (alias_fix w) as (_ & A & B). split; [auto|]. apply words, A, words, F.
Qed.
Lemma normalized_nil s : scanned s [] -> s = [].
Proof.
  intro N. remember [] as z eqn:Z in N. destruct N as [| |w w' r r' Ne F E R N']; [reflexivity|discriminate|].
  destruct (renamed_word _ _ Ne F R) as [X _]. destruct w'; [congruence|discriminate].
Qed.
Lemma normalized_split s s' : scanned s s' -> forall a c b, s' = a ++ c :: b -> is_word c = false ->
  exists s1 s2, s = s1 ++ c :: s2 /\ scanned s1 a /\ scanned s2 b.
Proof.
  induction 1 as [|d s s' W N IH|w w' s s' Ne F E R N IH]; intros a c b Q C.
  - destruct a; discriminate.
  - destruct a as [|x a]; cbn in Q; injection Q as -> Q.
    + exists [], s. rewrite Q in N. split; [reflexivity|]. split; [constructor|exact N].
    + destruct (IH a c b Q C) as (s1 & s2 & -> & N1 & N2). exists (x :: s1), s2. split; [reflexivity|]. split; [constructor; assumption|exact N2].
  - destruct (renamed_word _ _ Ne F R) as [Ne' F'].
    assert (X : exists l, a = w' ++ l /\ s' = l ++ c :: b).
    { clear -Q C F'. revert a Q. induction F' as [|x w' Hx F' IH]; intros a Q; [exists a; auto|]. destruct a as [|y a]; cbn in Q; injection Q as -> Q.
      - congruence.
      - destruct (IH a Q) as (l & -> & ->). exists l. auto. }
    destruct X as (l & -> & Q'). destruct (IH l c b Q' C) as (s1 & s2 & -> & N1 & N2). exists (w ++ s1), s2.
    split; [rewrite <- app_assoc; reflexivity|]. split; [|exact N2]. apply SC_word; auto. destruct s1; [exact I|exact E].
Qed.
Lemma normalized_cons s c b : scanned s (c :: b) -> is_word c = false -> exists s2, s = c :: s2 /\ scanned s2 b.
Proof.
  intros N C. destruct (normalized_split _ _ N [] c b eq_refl C) as (s1 & s2 & -> & N1 & N2). apply normalized_nil in N1. subst s1. exists s2. split; [reflexivity|exact N2].
Qed.
Lemma normalized_word s w : scanned s w -> w <> [] -> Forall (fun c => is_word c = true) w -> renamed s w.
Proof.
  intros N Ne F. inversion N as [|c r r' W N' E1 E2|x w' r r' Ne' F' E R N' E1 E2].
  - congruence.
  - subst w. inv F. congruence.
  - subst s w. assert (Z : r' = []).
    { destruct r' as [|c r']; [reflexivity|]. apply Forall_app in F. destruct F as [_ F]. inv F.
      inversion N' as [|c' q q' W' N2 E1 E2|y y' q q' Ney Fy Ey Ry N2 E1 E2]; [congruence|].
      destruct r as [|d r]; [destruct y; [congruence|discriminate]|]. destruct y as [|d' y]; [congruence|]. cbn in E1. injection E1 as -> _. inv Fy. congruence. }
    subst r'. apply normalized_nil in N'. subst r. rewrite !app_nil_r. exact R.
Qed.
Lemma normalized_arr sa ds : g_arr sa ds -> forall s, scanned s sa -> s = sa.
Proof.
  induction 1 as [|sa ds A IH|d n sa ds N A IH]; intros s H.
  - apply normalized_nil. exact H.
  - apply normalized_cons in H; [|reflexivity]. destruct H as (s2 & -> & H). apply normalized_cons in H; [|reflexivity].
    destruct H as (s3 & -> & H). rewrite (IH _ H). reflexivity.
  - apply normalized_cons in H; [|reflexivity]. destruct H as (s2 & -> & H). cbn [app] in H.
    destruct (normalized_split _ _ H d 93%N sa eq_refl eq_refl) as (s3 & s4 & -> & H1 & H2). rewrite (IH _ H2).
    destruct (numeral_word d n N) as [W Ne]. apply words in W. pose proof (normalized_word _ _ H1 Ne W) as R.
    destruct (numeral_digits d n N) as (c & ds' & Ed & D & _).
    inversion R as [a b I1 E1 E2|]; [exfalso|subst; reflexivity]. subst a b. cbn in I1.
    repeat (destruct I1 as [I1|I1]; [rewrite Ed in I1; injection I1 as _ <- _; discriminate D|]). contradiction.
Qed.
Lemma normalized_parses :
  (forall s' T', g_type s' T' -> forall s, scanned s s' -> exists T, g_type s T)
  /\ (forall s' Ts', g_components s' Ts' -> forall s, scanned s s' -> exists Ts, g_components s Ts).
Proof.
  assert (Base : forall b ss sub, alphas b -> g_sub ss sub -> forall s, scanned s (b ++ ss) ->
    exists b' ss' sub', alphas b' /\ g_sub ss' sub' /\ s = b' ++ ss').
  { intros b ss sub B S s N. destruct B as [B1 B2].
    assert (W : Forall (fun c => is_word c = true) (b ++ ss)).
    { apply Forall_app. split; [eapply Forall_impl; [|exact B2]; intros; apply letter_word; assumption|apply words; eapply g_sub_word; eassumption]. }
    apply normalized_word in N; [|destruct b; [congruence|discriminate]|exact W].
    inversion N as [a b0 I1 E1 E2|].
    - subst a b0. exists s, [], SubNone. split; [|split; [constructor|rewrite app_nil_r; reflexivity]]. cbn in I1.
      repeat (destruct I1 as [I1|I1]; [injection I1 as <- _; split; [discriminate|cbn; repeat constructor; unfold letter; lia]|]). contradiction.
    - exists b, ss, sub. repeat split; assumption. }
  apply g_mut.
  - intros b ss sub sa arr B S A s N. destruct (g_arr_head _ _ A) as [->|[sa' E]].
    + rewrite app_nil_r in N. destruct (Base b ss sub B S s N) as (b' & ss' & sub' & B' & S' & ->).
      exists (Basic b' sub' []). rewrite <- (app_nil_r ss'). apply G_basic; auto. constructor.
    + rewrite E, app_assoc in N. destruct (normalized_split _ _ N (b ++ ss) c_lbrack sa' eq_refl eq_refl) as (s1 & s2 & -> & N1 & N2).
      destruct (Base b ss sub B S s1 N1) as (b' & ss' & sub' & B' & S' & ->).
      assert (X : c_lbrack :: s2 = sa) by (apply (normalized_arr sa arr A); rewrite E; constructor; [reflexivity|exact N2]).
      rewrite X, <- app_assoc. exists (Basic b' sub' arr). apply G_basic; auto.
  - intros c Ts sa arr G IH A s N. apply normalized_cons in N; [|reflexivity]. destruct N as (s1 & -> & N). cbn [app] in N.
    destruct (normalized_split _ _ N c c_rparen sa eq_refl eq_refl) as (s2 & s3 & -> & N1 & N2).
    destruct (IH _ N1) as [Ts' G']. rewrite (normalized_arr sa arr A _ N2). exists (Tup Ts' arr). exact (G_tuple s2 Ts' sa arr G' A).
  - intros s' T G IH s N. destruct (IH s N) as [T' G']. exists [T']. constructor. exact G'.
  - intros s' T ss Ts G IH C IHc s N. destruct (normalized_split _ _ N s' c_comma ss eq_refl eq_refl) as (s1 & s2 & -> & N1 & N2).
    destruct (IH _ N1) as [T' G']. destruct (IHc _ N2) as [Ts' C']. exists (T' :: Ts'). exact (G_more _ _ _ _ G' C').
Qed.
Lemma empty_tuple_normalized s : (exists a b, s = a ++ lit "()" ++ b) <-> (exists a b, normalize s = a ++ lit "()" ++ b).
Proof.
  assert (N : scanned s (normalize s)) by (apply scanned_iff; reflexivity). split; intros (a & b & E).
  - revert a E. induction N as [|c s s' W N IH|w w' s s' Ne F E R N IH]; intros a Q.
    + destruct a; discriminate.
    + destruct a as [|x a]; cbn in Q; injection Q as -> Q.
      * subst s. inversion N as [|c' q q' W' N2 E1 E2|y y' q q' Ney Fy Ey Ry N2 E1 E2].
        -- subst. exists [], q'. reflexivity.
        -- destruct y as [|d y]; [congruence|]. cbn in E1. injection E1 as -> _. inv Fy. discriminate.
      * destruct (IH a Q) as (a' & b' & ->). exists (x :: a'), b'. reflexivity.
    + assert (X : exists l, a = w ++ l /\ s = l ++ lit "()" ++ b).
      { clear -Q F. revert a Q. induction F as [|x w' Hx F' IH]; intros a Q; [exists a; auto|]. destruct a as [|y a]; cbn in Q; injection Q as -> Q.
        - discriminate.
        - destruct (IH a Q) as (l & -> & ->). exists l. auto. }
      destruct X as (l & -> & X). destruct (IH l X) as (a' & b' & ->). exists (w' ++ a'), b'. rewrite app_assoc. reflexivity.
  - rewrite E in N. destruct (normalized_split _ _ N a c_lparen (c_rparen :: b) eq_refl eq_refl) as (s1 & s2 & -> & N1 & N2).
    apply normalized_cons in N2; [|reflexivity]. destruct N2 as (s3 & -> & _). exists s1, s3. reflexivity.
Qed.
Theorem parse_normalize_err s e : parse s = Err e -> parse (normalize s) = Err e.
Proof.
  intro H. destruct (parse_err s e H) as [G X]. destruct (parse (normalize s)) as [T|e'] eqn:P.
  - exfalso. apply parse_spec in P. apply G. apply (proj1 normalized_parses _ _ P). apply scanned_iff. reflexivity.
  - destruct (parse_err _ _ P) as [_ Y]. rewrite <- empty_tuple_normalized in Y. f_equal. tauto || (destruct X as [[-> X]|[-> X]], Y as [[-> Y]|[-> Y]]; tauto).
Qed.

(** ** Aliases *)
Lemma find_normalize s : s <> lit "byte" ->
  (forall pk, find_encoder (encs pk) (normalize s) = find_encoder (encs pk) s)
  /\ (forall k, find_decoder decs k (normalize s) = find_decoder decs k s).
Proof.
  intro Nb. destruct (parse s) as [T|e] eqn:P.
  - assert (L : lookup_sty (expand T) = lookup_sty T).
    { unfold lookup_sty. rewrite expand_idem, (bare_byte_expanded (expand T) (expand_idem T)).
      destruct (bare_byte T) eqn:B; [apply (byte_tree s T P) in B; contradiction|reflexivity]. }
    split; intro x; rewrite ?find_encoder_std, ?find_decoder_std, P, (parse_normalize s T P), L; reflexivity.
  - split; intro x; rewrite ?find_encoder_std, ?find_decoder_std, P, (parse_normalize_err s e P); reflexivity.
Qed.
Lemma mapM_normalize {A} (f : pystr -> result A) ss : (forall s, s <> lit "byte" -> f (normalize s) = f s) -> ~ In (lit "byte") ss ->
  mapM (find_py f) (map PStr (map normalize ss)) = mapM (find_py f) (map PStr ss).
Proof.
  intros H N. induction ss as [|s ss IH]; [reflexivity|]. cbn [map mapM find_py]. rewrite H by (intros ->; apply N; left; reflexivity).
  rewrite IH by (intro; apply N; right; assumption). reflexivity.
Qed.
Theorem encode_alias pk w w' types types' ss args : used pk w -> used pk w' ->
  seq_like types (map PStr ss) -> seq_like types' (map PStr (map normalize ss)) -> ~ In (lit "byte") ss ->
  encode_in w types args = encode_in w' types' args.
Proof.
  intros U U' T T' N. rewrite (encode_used pk w _ _ U), (encode_used pk w' _ _ U'). unfold pure_encode. apply list_like in T, T'. rewrite T, T'.
  cbn [bind]. destruct (validate_list_like_param args); [|reflexivity]. cbn [bind].
  rewrite (mapM_normalize (find_encoder (encs pk)) ss (fun s Hs => proj1 (find_normalize s Hs) pk) N). reflexivity.
Qed.
Theorem decode_alias w w' types types' ss data strict : used false w -> used false w' ->
  seq_like types (map PStr ss) -> seq_like types' (map PStr (map normalize ss)) -> ~ In (lit "byte") ss ->
  decode_in w types data strict = decode_in w' types' data strict.
Proof.
  intros U U' T T' N. rewrite (decode_used w _ _ _ U), (decode_used w' _ _ _ U'). unfold pure_decode, pure_decoders. apply list_like in T, T'. rewrite T, T'.
  cbn [bind]. destruct (validate_bytes_param data); [|reflexivity]. cbn [bind].
  rewrite (mapM_normalize (find_decoder decs (Some strict)) ss (fun s Hs => proj2 (find_normalize s Hs) (Some strict)) N). reflexivity.
Qed.
Theorem is_encodable_alias pk w w' s arg : used pk w -> used pk w' -> s <> lit "byte" ->
  is_encodable_in w (PStr s) arg = is_encodable_in w' (PStr (normalize s)) arg
  /\ is_encodable_type_in w (PStr s) = is_encodable_type_in w' (PStr (normalize s)).
Proof.
  intros U U' N. rewrite (is_encodable_used pk w _ _ U), (is_encodable_used pk w' _ _ U'), (is_encodable_type_used pk w _ U), (is_encodable_type_used pk w' _ U').
  unfold pure_is_encodable, pure_has. cbn [find_py]. rewrite (proj1 (find_normalize s N)). split; reflexivity.
Qed.

(** ** The supported types *)
Theorem is_encodable_type_cases pk w typ : used pk w ->
  (exists s t, typ = PStr s /\ supported s t /\ is_encodable_type_in w typ = Ok true)
  \/ (~ (exists s t, typ = PStr s /\ supported s t) /\ is_encodable_type_in w typ = Ok false).
Proof.
  intro U. rewrite (is_encodable_type_used pk w typ U). destruct (pure_has_std pk typ) as [[(s & t & E & S) H]|H]; [left; eauto|right; exact H].
Qed.
Theorem strict_supported pk w s t : used pk w -> type_name false s t -> s <> lit "byte" -> is_encodable_type_in w (PStr s) = Ok true.
Proof.
  intros U T N. destruct (is_encodable_type_cases pk w (PStr s) U) as [(s' & t' & _ & _ & H)|[H _]]; [exact H|].
  exfalso. apply H. exists s, t. split; [reflexivity|]. split; [apply type_name_weaken; exact T|exact N].
Qed.
Lemma type_name_fun s t t' : type_name true s t -> type_name true s t' -> t = t'.
Proof. intros A B. apply type_name_iff in A, B. destruct A as (T & P & A), B as (T' & P' & B). congruence. Qed.

(** ** Coders *)
Lemma get_encoder_used pk w s : used pk w -> fst (get_encoder s (fst w)) = find_encoder (encs pk) s.
Proof. intro U. apply used_spec in U. destruct U as (E & _ & [C _]). destruct (get_encoder_pure (fst w) s C) as (r & -> & _). rewrite E. reflexivity. Qed.
Lemma get_decoder_std k w s : used false w -> fst (get_decoder k s w) = find_decoder decs k s.
Proof. intro U. apply used_spec in U. destruct U as (_ & E & [_ C]). destruct (get_decoder_pure w k s C) as (r & -> & _). rewrite E. reflexivity. Qed.
Lemma has_dynamic_app a b : has_dynamic_arrlist (a ++ b) = has_dynamic_arrlist a || has_dynamic_arrlist b.
Proof. apply existsb_app. Qed.
Lemma sdyn_dims arr t : sdyn (dims_sty arr t) = has_dynamic_arrlist arr || sdyn t.
Proof.
  revert t. induction arr as [|d arr IH]; intro t; [reflexivity|]. cbn [dims_sty fold_left]. fold (dims_sty arr (dim_sty t d)). rewrite IH.
  destruct d; cbn [dim_sty sdyn has_dynamic_arrlist existsb]; [reflexivity|]. rewrite orb_true_r. reflexivity.
Qed.
Lemma sdyn_basic b sub t : basic_sty b sub = Some t ->
  sdyn t = str_eqb b (lit "string") || (str_eqb b (lit "bytes") && match sub with SubNone => true | _ => false end).
Proof.
  unfold basic_sty. intro Q. revert Q.
  base_cases b;
  repeat match goal with |- context[str_eqb (lit ?x) (lit ?y)] => let r := eval lazy in (str_eqb (lit x) (lit y)) in change (str_eqb (lit x) (lit y)) with r end;
  try (intro H; destruct sub; try discriminate H; repeat match type of H with (if ?c then _ else _) = _ => destruct c end; try discriminate H; inv H; reflexivity).
  repeat match goal with E : str_eqb b ?x = false |- _ => rewrite E; clear E end. discriminate.
Qed.
Lemma sdyn_tree T : forall t, ast_sty T = Some t -> is_dynamic_type T = sdyn t.
Proof.
  induction T as [b sub arr|ts arr IH] using abi_type_ind'; intros t H; cbn [ast_sty] in H.
  - destruct (basic_sty b sub) as [t0|] eqn:B; [|discriminate]. inv H. rewrite sdyn_dims, (sdyn_basic _ _ _ B). cbn [is_dynamic_type].
    rewrite orb_assoc. reflexivity.
  - destruct (all_some (map ast_sty ts)) as [l|] eqn:A; [|discriminate]. inv H. rewrite sdyn_dims. cbn [is_dynamic_type sdyn]. f_equal.
    apply all_some_Forall2 in A. clear -IH A. revert l A. induction IH as [|T ts HT IH IHts]; intros l A; inv A; [reflexivity|].
    cbn [existsb]. rewrite (HT y) by assumption. f_equal. auto.
Qed.
Lemma is_dynamic_expand T : is_dynamic_type (expand T) = is_dynamic_type T.
Proof.
  induction T as [b sub arr|ts arr IH] using abi_type_ind'.
  - destruct sub; [|reflexivity..]. cbn [expand]. unfold alias_of.
    base_cases b; try (cbn; destruct (has_dynamic_arrlist arr); reflexivity).
    repeat match goal with E : str_eqb b ?x = false |- _ => rewrite E; clear E end.
    destruct (str_eqb b (lit "byte")) eqn:E; [apply str_eqb_eq in E; subst b; cbn; destruct (has_dynamic_arrlist arr)|]; reflexivity.
  - cbn [expand is_dynamic_type]. f_equal. induction IH as [|T ts HT IH IHts]; [reflexivity|]. cbn [map existsb]. congruence.
Qed.
Lemma lookup_tree s T t : parse s = Ok T -> supported s t -> ast_sty (expand T) = Some t.
Proof.
  intros P S. apply supported_iff in S. destruct S as (T' & P' & L). rewrite P in P'. inv P'. unfold lookup_sty in L. destruct (bare_byte T'); [discriminate|].
  apply parse_iff in P. pose proof (resolve_spec (expand T') (expand_ok T' (proj1 P))) as R. rewrite L in R. apply R.
Qed.
Theorem coders_agree w k s : used false w ->
  (exists t T T' e d, supported s t /\ fst (get_encoder s (fst w)) = Ok e /\ fst (get_decoder k s w) = Ok d
     /\ parse s = Ok T /\ parse (normalize s) = Ok T'
     /\ is_dynamic_type T = sdyn t /\ is_dynamic_type T' = sdyn t /\ enc_dyn_attr e = Some (sdyn t) /\ dec_dyn_attr d = Some (sdyn t))
  \/ (exists x, fst (get_encoder s (fst w)) = Err x /\ fst (get_decoder k s w) = Err x).
Proof.
  intro U. rewrite (get_encoder_used false w s U), (get_decoder_std k w s U). destruct (unsupported s) as [[t S]|(_ & e & _ & E & D)].
  - left. pose proof S as S'. apply supported_iff in S'. destruct S' as (T & P & _). exists t, T, (expand T), (enc_of false t), (dec_of (strict_of k) t).
    pose proof (sdyn_tree _ _ (lookup_tree s T t P S)) as Dy.
    split; [exact S|]. split; [apply find_enc_supported; exact S|]. split; [apply find_dec_supported; exact S|]. split; [exact P|].
    split; [apply parse_normalize; exact P|]. split; [rewrite <- is_dynamic_expand; exact Dy|]. split; [exact Dy|].
    split; [rewrite enc_dyn_attr_of; reflexivity|apply dec_dyn_attr_of].
  - right. exists e. auto.
Qed.

(** ** One registration at most *)
Lemma select_le T : (length (select (hits T) (combine std_encs std_decs)) <= 1)%nat.
Proof.
  pose proof (select_class (fun c => c) T) as H. rewrite map_id in H. rewrite H. destruct (class_of T); cbn; lia.
Qed.
Lemma select_length {V W} bs (vs : list V) (ws : list W) : length vs = length ws -> length (select bs vs) = length (select bs ws).
Proof.
  revert vs ws. induction bs as [|b bs IH]; intros [|v vs] [|u ws] E; try discriminate E; try reflexivity.
  cbn in E |- *. injection E as E. destruct b; cbn; rewrite (IH vs ws E); reflexivity.
Qed.
Lemma matches_le {V} off (vs : list V) ts : length vs = 12%nat ->
  (length (filter (fun pv => hit (fst pv) ts) (combine (std_preds off) vs)) <= 1)%nat.
Proof.
  intro L. rewrite <- (map_length snd), filter_select by (rewrite L; reflexivity). destruct (parse ts) as [T|e] eqn:P.
  - rewrite (hit_done _ _ _ (preds_hits off ts T P)). rewrite (select_length _ vs (combine std_encs std_decs)) by (rewrite L; reflexivity). apply select_le.
  - rewrite (hit_done _ _ _ (preds_miss off ts e P)). do 13 (destruct vs as [|? vs]; [cbn; lia|]). discriminate L.
Qed.
Theorem one_registration pk ts :
  (length (filter (fun pv => hit (fst pv) ts) (m_values (r_encs (standard_registry pk)))) <= 1)%nat
  /\ (length (filter (fun pv => hit (fst pv) ts) (m_values (r_decs (standard_registry pk)))) <= 1)%nat.
Proof.
  split.
  - change (r_encs (standard_registry pk)) with (encs pk). rewrite encs_values. apply matches_le. rewrite map_length. reflexivity.
  - change (r_decs (standard_registry pk)) with (decs_of pk). destruct pk.
    + assert (E : m_values (decs_of true) = []) by reflexivity. rewrite E. cbn. lia.
    + change (decs_of false) with decs. rewrite decs_values. apply matches_le. rewrite map_length. reflexivity.
Qed.
Theorem lookup_unambiguous pk w s : used pk w ->
  fst (get_encoder s (fst w)) <> Err MultipleEntriesFound /\ fst (has_encoder s (fst w)) <> Err MultipleEntriesFound
  /\ forall k, fst (get_decoder k s w) <> Err MultipleEntriesFound.
Proof.
  intro U. pose proof (get_encoder_used pk w s U) as G.
  assert (E : fst (get_encoder s (fst w)) <> Err MultipleEntriesFound).
  { rewrite G. destruct (encs_total pk s) as [[t S]|(e & X & E)]; [rewrite (find_enc_supported pk s t S); discriminate|].
    rewrite E. unfold type_exc in X. intuition congruence. }
  split; [exact E|]. split.
  - unfold has_encoder. destruct (get_encoder s (fst w)) as [[e|[]] r]; cbn [fst] in *; try discriminate. congruence.
  - intro k. destruct pk.
    + apply used_spec in U. destruct U as (_ & D & [_ C]). destruct (get_decoder_pure w k s C) as (r & -> & _). rewrite D. cbn [fst].
      rewrite find_decoder_eq. unfold base_get_registration. assert (F : m_find (decs_of true) s = Raised NoEntriesFound (Ok true)) by reflexivity. rewrite F. cbn [reparsed is_value_error bind].
      destruct (parse s) as [T|e] eqn:P; cbn [bind]; [discriminate|]. destruct (parse_err s e P) as (_ & X). intro H. inv H. intuition discriminate.
    + rewrite (get_decoder_std k w s U). destruct (decs_total k s) as [[t S]|(e & X & F)]; [rewrite (find_dec_supported k s t S); discriminate|].
      rewrite F. unfold type_exc in X. intuition congruence.
Qed.

(** ** Why a lookup fails *)
Lemma std_class_none b sub : std_class b sub = None -> ~ In b registered_names.
Proof.
  unfold std_class. intros H I. cbn in I. repeat (destruct I as [<-|I]; [destruct sub; discriminate H|]). contradiction.
Qed.
Definition fails (T : abi_type) (e : exc) : Prop :=
  (e = ABITypeError /\ validate_type T <> Ok tt)
  \/ (e = NoEntriesFound /\ exists b sub, has_basic b sub T /\ ~ In b registered_names)
  \/ (e = ValueError /\ exists sub, has_basic (lit "function") sub T).
Lemma validate_err T e : validate_type T = Err e -> e = ABITypeError.
Proof.
  induction T as [b sub arr|ts arr IH] using abi_type_ind'; intro V; [eapply validate_basic_err; exact V|].
  rewrite validate_type_tup in V. apply bind_Err in V. destruct V as [V|(? & _ & V)]; [|discriminate].
  apply map_result_Err in V. destruct V as (T & I1 & V). rewrite Forall_forall in IH. apply (IH T I1 V).
Qed.
Lemma resolve_fails T e : ast_ok T -> resolve T = Err e -> fails T e.
Proof.
  revert e. induction T as [b sub arr|ts arr IH] using abi_type_ind'; intros e A R; inv A.
  - assert (X : forall x, resolve_basic b sub = Err x -> fails (Basic b sub arr) x).
    { take (sub_ok sub) as Hs. pose proof (resolve_basic_spec b sub Hs) as Q. intros x F. unfold resolve_basic in *.
      destruct (std_class b sub) eqn:S; [|inv F; right; left; split; [reflexivity|]; exists b, sub; split; [constructor|eapply std_class_none; exact S]].
      destruct (str_eqb b (lit "function")) eqn:Fn.
      - apply str_eqb_eq in Fn. subst b. inv F. right. right. split; [reflexivity|]. exists sub. constructor.
      - destruct (validate_basic b sub) as [[]|v] eqn:V; cbn [bind] in *.
        + destruct (basic_sty b sub); [discriminate F|]. inv F. destruct Q as [_ Q]. unfold lookup_exc in Q. intuition discriminate.
        + inv F. left. split; [eapply validate_basic_err; exact V|]. cbn [validate_type]. congruence. }
    destruct arr as [|d arr]; cbn [resolve] in R; [apply X; exact R|].
    destruct (validate_basic b sub) as [[]|v] eqn:V; cbn [bind] in R.
    + destruct (resolve_basic b sub); cbn [bind] in R; [discriminate|]. inv R. apply X. reflexivity.
    + inv R. left. split; [eapply validate_basic_err; exact V|]. cbn [validate_type]. congruence.
  - cbn [resolve] in R. destruct (validate_type (Tup ts arr)) as [[]|v] eqn:V; cbn [bind] in R.
    + destruct (map_result resolve ts) as [l|x] eqn:M; cbn [bind] in R; [discriminate|]. inv R. apply map_result_Err in M.
      destruct M as (T & I1 & R). rewrite Forall_forall in IH. take (Forall ast_ok ts) as A. rewrite Forall_forall in A.
      destruct (IH T I1 e (A T I1) R) as [[-> F]|[(-> & b & sub & H & N)|(-> & sub & H)]].
      * exfalso. apply F. rewrite validate_type_tup in V. destruct (map_result validate_type ts) as [us|] eqn:Mv; [|discriminate].
        apply map_result_Ok in Mv. clear -Mv I1. induction Mv as [|x y l l' E F IH]; [contradiction|]. destruct I1 as [->|I1]; [destruct y; exact E|auto].
      * right. left. split; [reflexivity|]. exists b, sub. split; [eapply HB_in; eassumption|exact N].
      * right. right. split; [reflexivity|]. exists sub. eapply HB_in; eassumption.
    + inv R. left. split; [eapply validate_err; exact V|congruence].
Qed.
Lemma expand_function T sub : has_basic (lit "function") sub (expand T) -> sub <> SubNone.
Proof.
  induction T as [b sub' arr|ts arr IH] using abi_type_ind'; intros H E; subst sub.
  - destruct sub'; [|inv H..]. cbn [expand] in H. destruct (alias_of b) as [[b' s']|] eqn:A.
    + unfold alias_of in A. repeat match type of A with (if ?c then _ else _) = _ => destruct c; [inv A; inv H|] end. discriminate A.
    + inv H. discriminate A.
  - cbn [expand] in H. inv H. take (In _ _) as I1. apply in_map_iff in I1. destruct I1 as (T' & <- & I1). rewrite Forall_forall in IH.
    eapply (IH T' I1); eauto.
Qed.
Theorem lookup_fails pk w s T e : used pk w -> parse (normalize s) = Ok T -> s <> lit "byte" ->
  (fst (get_encoder s (fst w)) = Err e \/ (pk = false /\ exists k, fst (get_decoder k s w) = Err e)) ->
  (e = ABITypeError /\ validate_type T <> Ok tt)
  \/ (e = NoEntriesFound /\ exists b sub, has_basic b sub T /\ ~ In b registered_names)
  \/ (e = ValueError /\ exists sub, has_basic (lit "function") sub T /\ sub <> SubNone).
Proof.
  intros U P Nb H. destruct (parse s) as [T0|x] eqn:P0; [|rewrite (parse_normalize_err s x P0) in P; discriminate].
  rewrite (parse_normalize s T0 P0) in P. inv P.
  assert (L : lookup_sty T0 = Err e).
  { destruct H as [H|(-> & k & H)].
    - rewrite (get_encoder_used pk w s U), find_encoder_std, P0 in H. destruct (lookup_sty T0); [discriminate|]. unfold enc_ok in H. cbn in H. congruence.
    - rewrite (get_decoder_std k w s U), find_decoder_std, P0 in H. destruct (lookup_sty T0); [discriminate|]. unfold dec_ok in H. cbn in H. congruence. }
  unfold lookup_sty in L. destruct (bare_byte T0) eqn:B; [apply (byte_tree s T0 P0) in B; contradiction|].
  assert (F : fails (expand T0) e) by (apply resolve_fails; [|exact L]; apply expand_ok; apply parse_iff in P0; apply P0).
  destruct F as [F|[F|(-> & sub & F)]]; [left; exact F|right; left; exact F|]. right. right. split; [reflexivity|]. exists sub.
  split; [exact F|eapply expand_function; exact F].
Qed.
Theorem valid_type_coders w k s T : used false w -> parse (normalize s) = Ok T -> s <> lit "byte" -> validate_type T = Ok tt ->
  (forall b sub, has_basic b sub T -> In b registered_names /\ b <> lit "function") ->
  (exists e, fst (get_encoder s (fst w)) = Ok e) /\ (exists d, fst (get_decoder k s w) = Ok d).
Proof.
  intros U P Nb V H.
  assert (N : forall e, ~ ((e = ABITypeError /\ validate_type T <> Ok tt) \/ (e = NoEntriesFound /\ exists b sub, has_basic b sub T /\ ~ In b registered_names)
    \/ (e = ValueError /\ exists sub, has_basic (lit "function") sub T /\ sub <> SubNone)))
    by (intros e [[_ F]|[(_ & b & sub & F & X)|(_ & sub & F & _)]]; [congruence|apply X; exact (proj1 (H b sub F))|exact (proj2 (H _ sub F) eq_refl)]).
  split.
  - destruct (fst (get_encoder s (fst w))) as [e|e] eqn:E; [eauto|]. destruct (N e). eapply lookup_fails; [exact U|exact P|exact Nb|left; exact E].
  - destruct (fst (get_decoder k s w)) as [e|e] eqn:E; [eauto|]. destruct (N e). eapply lookup_fails; [exact U|exact P|exact Nb|right; eauto].
Qed.
Theorem packed_valid_type w s T : used true w -> parse (normalize s) = Ok T -> s <> lit "byte" -> validate_type T = Ok tt ->
  (forall b sub, has_basic b sub T -> In b registered_names /\ b <> lit "function") ->
  exists e, fst (get_encoder s (fst w)) = Ok e.
Proof.
  intros U P Nb V H. destruct (fst (get_encoder s (fst w))) as [e|e] eqn:E; [eauto|].
  destruct (lookup_fails true w s T e U P Nb (or_introl E)) as [[_ F]|[(_ & b & sub & F & X)|(_ & sub & F & _)]];
    [congruence|destruct X; exact (proj1 (H b sub F))|destruct (proj2 (H _ sub F) eq_refl)].
Qed.

(** ** Lookups in any registry *)
Lemma no_match_find {V} (m : mapping V) ts : (forall p v, In (p, v) (m_values m) -> pred_call p ts = Done false) -> m_find m ts = Raised NoEntriesFound (Ok true).
Proof.
  intro H. unfold m_find. assert (E : m_scan (m_values m) ts = Done []); [|rewrite E; reflexivity].
  induction (m_values m) as [|[p v] l IH]; [reflexivity|]. cbn [m_scan]. rewrite (H p v (or_introl eq_refl)), IH; [reflexivity|]. intros q u I. apply (H q u). right. exact I.
Qed.
Theorem unregistered w s k : reachable w ->
  ((forall p v, In (p, v) (m_values (r_encs (fst w))) -> pred_call p s = Done false) ->
   fst (get_encoder s (fst w)) = match parse s with Ok _ => Err NoEntriesFound | Err e => Err e end)
  /\ ((forall p v, In (p, v) (m_values (r_decs (fst w))) -> pred_call p s = Done false) ->
   fst (get_decoder k s w) = match parse s with Ok _ => Err NoEntriesFound | Err e => Err e end).
Proof.
  intro R. apply reachable_caches in R. destruct R as [Ce Cd]. split; intro H.
  - destruct (get_encoder_pure (fst w) s Ce) as (r & -> & _). cbn [fst]. rewrite find_encoder_eq. unfold base_get_registration.
    rewrite (no_match_find _ _ H). cbn. destruct (parse s); reflexivity.
  - destruct (get_decoder_pure w k s Cd) as (r & -> & _). cbn [fst]. rewrite find_decoder_eq. unfold base_get_registration.
    rewrite (no_match_find _ _ H). cbn. destruct (parse s); reflexivity.
Qed.
(** No type string contains a space. *)
Lemma numeral_digits s n : numeral s n -> Forall digit s.
Proof. induction 1; [constructor; [assumption|constructor]|]. apply Forall_app. split; [assumption|]. constructor; [assumption|constructor]. Qed.
Definition no_space (s : pystr) : Prop := ~ In 32%N s.
Lemma no_space_app a b : no_space (a ++ b) <-> no_space a /\ no_space b.
Proof. unfold no_space. rewrite in_app_iff. tauto. Qed.
Lemma numeral_space s n : numeral s n -> no_space s.
Proof. intros H I. apply numeral_digits in H. rewrite Forall_forall in H. specialize (H _ I). unfold digit in H. lia. Qed.
Lemma alphas_space s : alphas s -> no_space s.
Proof. intros [_ H] I. rewrite Forall_forall in H. specialize (H _ I). unfold letter in H. lia. Qed.
Lemma g_sub_space s t : g_sub s t -> no_space s.
Proof.
  destruct 1 as [|s n N|s n s' n' N N']; [intros []|eapply numeral_space; exact N|].
  apply no_space_app. split; [eapply numeral_space; exact N|]. apply no_space_app. split; [cbn; intros [H|[]]; discriminate|eapply numeral_space; exact N'].
Qed.
Lemma g_arr_space s t : g_arr s t -> no_space s.
Proof.
  induction 1 as [|s ds H IH|d n s ds N H IH]; [intros []| |].
  - apply no_space_app. split; [cbn; intros [E|[E|[]]]; discriminate|exact IH].
  - apply no_space_app. split; [cbn; intros [E|[]]; discriminate|]. apply no_space_app. split; [eapply numeral_space; exact N|].
    apply no_space_app. split; [cbn; intros [E|[]]; discriminate|exact IH].
Qed.
Lemma g_space : (forall s t, g_type s t -> no_space s) /\ (forall s ts, g_components s ts -> no_space s).
Proof.
  apply g_mut.
  - intros b ss sub sa arr A S R. apply no_space_app. split; [apply alphas_space; exact A|]. apply no_space_app.
    split; [eapply g_sub_space; exact S|eapply g_arr_space; exact R].
  - intros s ts sa arr G IH R. apply no_space_app. split; [cbn; intros [E|[]]; discriminate|]. apply no_space_app. split; [exact IH|].
    apply no_space_app. split; [cbn; intros [E|[]]; discriminate|eapply g_arr_space; exact R].
  - auto.
  - intros s t ss ts G IH Gs IHs. apply no_space_app. split; [exact IH|]. apply no_space_app. split; [cbn; intros [E|[]]; discriminate|exact IHs].
Qed.
Theorem ambiguous {V} (m : mapping V) s : none_raises m s -> (2 <= length (filter (fun pv => hit (fst pv) s) (m_values m)))%nat ->
  base_get_registration m s = Err MultipleEntriesFound /\ ~ (exists a b, s = a ++ lit "No matching" ++ b)
  \/ (exists a b, s = a ++ lit "No matching" ++ b) /\ exists e, parse s = Err e /\ base_get_registration m s = Err e.
Proof.
  intros Q L. unfold base_get_registration. rewrite (quiet_find m s Q). rewrite <- (map_length snd) in L. destruct (map snd _) as [|v [|u l]]; cbn in L; try lia. cbn [chosen reparsed is_value_error bind].
  destruct (contains (lit "No matching") s) eqn:C.
  - right. apply contains_spec in C. split; [exact C|]. destruct (parse s) as [T|e] eqn:P; [|exists e; split; reflexivity].
    exfalso. apply parse_spec, (proj1 g_space) in P. destruct C as (a & b & ->). apply P. apply in_app_iff. right. right. right. left. reflexivity.
  - left. split; [reflexivity|]. intro H. apply contains_spec in H. congruence.
Qed.
Theorem ambiguous_lookup w s k : reachable w -> ~ (exists a b, s = a ++ lit "No matching" ++ b) ->
  (none_raises (r_encs (fst w)) s -> (2 <= length (filter (fun pv => hit (fst pv) s) (m_values (r_encs (fst w)))))%nat ->
    fst (get_encoder s (fst w)) = Err MultipleEntriesFound /\ fst (has_encoder s (fst w)) = Err MultipleEntriesFound)
  /\ (none_raises (r_decs (fst w)) s -> (2 <= length (filter (fun pv => hit (fst pv) s) (m_values (r_decs (fst w)))))%nat -> fst (get_decoder k s w) = Err MultipleEntriesFound).
Proof.
  intros R N. apply reachable_caches in R. destruct R as [Ce Cd]. split; intros Q L; destruct (ambiguous _ s Q L) as [[B _]|[X _]]; try contradiction.
  - destruct (get_encoder_pure (fst w) s Ce) as (r & E & _). unfold has_encoder. rewrite E. cbn [fst]. rewrite find_encoder_eq, B. split; reflexivity.
  - destruct (get_decoder_pure w k s Cd) as (r & E & _). rewrite E. cbn [fst]. rewrite find_decoder_eq, B. reflexivity.
Qed.
Theorem has_encoder_cases s r : fst (has_encoder s r) =
  match fst (get_encoder s r) with
  | Ok _ => Ok true
  | Err MultipleEntriesFound => Err MultipleEntriesFound
  | Err _ => Ok false
  end.
Proof. unfold has_encoder. destruct (get_encoder s r) as [[e|[]] r']; reflexivity. Qed.
Theorem g_type_unique s T T' : g_type s T -> g_type s T' -> T = T'.
Proof. intros A B. apply parse_spec in A, B. congruence. Qed.
