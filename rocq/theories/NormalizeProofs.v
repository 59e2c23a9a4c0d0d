(** Normalization of type strings (grammar.py:399-424). *)
From Coq Require Import Strings.String.
From Verif Require Import Tac Address Grammar GrammarSpec GrammarProofs.
Open Scope Z_scope.

(** ** The scan *)
Lemma str_eqb_sym a b : str_eqb a b = str_eqb b a.
Proof.
  destruct (str_eqb a b) eqn:E.
  - apply str_eqb_eq in E. subst. symmetry. apply str_eqb_refl.
  - destruct (str_eqb b a) eqn:F; [|reflexivity]. apply str_eqb_eq in F. subst. rewrite str_eqb_refl in E. discriminate.
Qed.
Lemma match_alias_some al s b rest : match_alias al s = Some (b, rest) ->
  exists a, In (a, b) al /\ s = a ++ rest /\ match rest with [] => True | c :: _ => is_word c = false end.
Proof.
  induction al as [|[a b0] al IH]; [discriminate|]. cbn [match_alias]. destruct (prefixb a s) eqn:P; cbn [andb].
  - apply prefixb_spec in P. destruct P as [r ->]. rewrite skipn_app, skipn_all, Nat.sub_diag. cbn [app skipn].
    destruct r as [|c r].
    + intro H. inv H. exists a. split; [left; reflexivity|]. auto.
    + destruct (is_word c) eqn:W; cbn [negb].
      * intro H. destruct (IH H) as (a' & I' & E). exists a'. split; [right; exact I'|exact E].
      * intro H. inv H. exists a. split; [left; reflexivity|]. auto.
  - intro H. destruct (IH H) as (a' & I' & E). exists a'. split; [right; exact I'|exact E].
Qed.
Lemma alias_nonempty a b : In (a, b) TYPE_ALIASES -> (0 < length a)%nat.
Proof. intro H. cbn in H. repeat (destruct H as [H|H]; [inv H; cbn; lia|]). contradiction. Qed.
Lemma normalize_fuel f1 : forall f2 p s, (length s <= f1)%nat -> (length s <= f2)%nat -> normalize_from f1 p s = normalize_from f2 p s.
Proof.
  induction f1 as [|f1 IH]; intros f2 p s H1 H2.
  - destruct s; [|cbn in H1; lia]. destruct f2; reflexivity.
  - destruct s as [|c s]; [destruct f2; reflexivity|]. destruct f2 as [|f2]; [cbn in H2; lia|]. cbn [normalize_from].
    destruct (if p then None else match_alias TYPE_ALIASES (c :: s)) as [[b rest]|] eqn:M.
    + destruct p; [discriminate|]. apply match_alias_some in M. destruct M as (a & Ia & E & _). apply alias_nonempty in Ia.
      assert (L : (length (c :: s) = length a + length rest)%nat) by (rewrite E; apply app_length).
      f_equal. apply IH; lia.
    + cbn [length] in H1, H2. f_equal. apply IH; lia.
Qed.
Definition norm (p : bool) (s : pystr) : pystr := normalize_from (length s) p s.
Lemma normalize_norm s : normalize s = norm false s.
Proof. unfold normalize, norm. apply normalize_fuel; lia. Qed.
Lemma norm_cons p c s : norm p (c :: s) =
  match (if p then None else match_alias TYPE_ALIASES (c :: s)) with
  | Some (b, rest) => b ++ norm true rest
  | None => c :: norm (is_word c) s
  end.
Proof.
  unfold norm at 1. cbn [normalize_from length].
  destruct (if p then None else match_alias TYPE_ALIASES (c :: s)) as [[b rest]|] eqn:M; [|reflexivity].
  destruct p; [discriminate|]. apply match_alias_some in M. destruct M as (a & Ia & E & _). apply alias_nonempty in Ia.
  assert (L : (length (c :: s) = length a + length rest)%nat) by (rewrite E; apply app_length). cbn [length] in L.
  f_equal. apply normalize_fuel; lia.
Qed.
(** The rest of the text after a maximal word. *)
Definition edge (r : pystr) : Prop := match r with [] => True | c :: _ => is_word c = false end.
Lemma alias_word a b : In (a, b) TYPE_ALIASES -> forallb is_word a = true.
Proof. intro H. cbn in H. repeat (destruct H as [H|H]; [inv H; reflexivity|]). contradiction. Qed.
Lemma match_alias_nonword c s : is_word c = false -> match_alias TYPE_ALIASES (c :: s) = None.
Proof.
  intro W. destruct (match_alias TYPE_ALIASES (c :: s)) as [[b rest]|] eqn:M; [|reflexivity].
  apply match_alias_some in M. destruct M as (a & Ia & E & _). pose proof (alias_nonempty _ _ Ia). apply alias_word in Ia.
  destruct a as [|c' a]; [cbn in *; lia|]. inv E. cbn in Ia. rewrite W in Ia. discriminate.
Qed.
Lemma norm_nonword p c s : is_word c = false -> norm p (c :: s) = c :: norm false s.
Proof. intro W. rewrite norm_cons, match_alias_nonword by exact W. destruct p; rewrite W; reflexivity. Qed.
Lemma norm_edge r : edge r -> norm true r = norm false r.
Proof. destruct r as [|c r]; [reflexivity|]. intro E. rewrite !norm_nonword by exact E. reflexivity. Qed.
Lemma norm_inside w r : forallb is_word w = true -> norm true (w ++ r) = w ++ norm true r.
Proof.
  induction w as [|c w IH]; [reflexivity|]. intro F. cbn in F. apply andb_true_iff in F. destruct F as [F1 F2].
  cbn [app]. rewrite norm_cons, F1, IH by exact F2. reflexivity.
Qed.
Fixpoint lookup_alias (al : list (pystr * pystr)) (w : pystr) : option pystr :=
  match al with
  | [] => None
  | (a, b) :: rest => if str_eqb a w then Some b else lookup_alias rest w
  end.
Lemma prefix_word a w r : forallb is_word a = true -> forallb is_word w = true -> edge r ->
  (prefixb a (w ++ r) && match skipn (length a) (w ++ r) with [] => true | c :: _ => negb (is_word c) end)%bool = str_eqb a w.
Proof.
  intros A W E. destruct (str_eqb a w) eqn:Q.
  - apply str_eqb_eq in Q. subst w. replace (prefixb a (a ++ r)) with true by (symmetry; apply prefixb_spec; exists r; reflexivity).
    rewrite skipn_app, skipn_all, Nat.sub_diag. cbn [app skipn]. destruct r as [|c r]; [reflexivity|]. cbn in E. rewrite E. reflexivity.
  - destruct (prefixb a (w ++ r)) eqn:P; [|reflexivity]. cbn [andb]. apply prefixb_spec in P. destruct P as [q P].
    rewrite P, skipn_app, skipn_all, Nat.sub_diag. cbn [app skipn].
    revert w W Q P. induction a as [|c a IH]; intros w W Q P.
    + cbn in P. subst q. destruct w as [|c w]; [discriminate Q|]. cbn in W. apply andb_true_iff in W. destruct W as [W _]. cbn [app]. rewrite W. reflexivity.
    + cbn in A. apply andb_true_iff in A. destruct A as [A1 A2]. destruct w as [|d w].
      * cbn in P. subst r. cbn in E. congruence.
      * cbn [app] in P. inv P. cbn in W. apply andb_true_iff in W. destruct W as [W1 W2].
        apply (IH A2 w); auto. destruct (str_eqb a w) eqn:K; [|reflexivity]. apply str_eqb_eq in K. subst.
        rewrite str_eqb_refl in Q. discriminate.
Qed.
Lemma match_alias_word al w r : Forall (fun ab => forallb is_word (fst ab) = true) al -> forallb is_word w = true -> edge r ->
  match_alias al (w ++ r) = option_map (fun b => (b, r)) (lookup_alias al w).
Proof.
  intros F W E. induction F as [|[a b] al A F IH]; [reflexivity|]. cbn [match_alias lookup_alias fst] in *.
  rewrite prefix_word by assumption. destruct (str_eqb a w) eqn:Q; [|exact IH]. apply str_eqb_eq in Q. subst.
  rewrite skipn_app, skipn_all, Nat.sub_diag. reflexivity.
Qed.
Definition alias (w : pystr) : pystr := match lookup_alias TYPE_ALIASES w with Some b => b | None => w end.
Lemma norm_word w r : w <> [] -> forallb is_word w = true -> edge r -> norm false (w ++ r) = alias w ++ norm true r.
Proof.
  intros Ne W E. destruct w as [|c w]; [congruence|]. pose proof (match_alias_word TYPE_ALIASES (c :: w) r) as M.
  cbn [app] in *. rewrite norm_cons. rewrite M; [|repeat constructor|exact W|exact E]. unfold alias.
  destruct (lookup_alias TYPE_ALIASES (c :: w)) as [b|]; cbn [option_map]; [reflexivity|].
  cbn in W. apply andb_true_iff in W. destruct W as [W1 W2]. rewrite W1, norm_inside by exact W2. reflexivity.
Qed.
Lemma alias_fix w : alias (alias w) = alias w /\ (forallb is_word w = true -> forallb is_word (alias w) = true) /\ (w <> [] -> alias w <> []).
Proof.
  unfold alias at 2 3 4 5. destruct (lookup_alias TYPE_ALIASES w) as [b|] eqn:L.
  - cbn [lookup_alias TYPE_ALIASES] in L.
    repeat match type of L with (if ?c then _ else _) = _ => destruct c end; inv L; repeat split; discriminate.
  - unfold alias. rewrite L. auto.
Qed.
(** ** Idempotence, for every string *)
Lemma edge_norm r : edge r -> edge (norm true r).
Proof. destruct r as [|c r]; [reflexivity|]. intro E. rewrite norm_nonword by exact E. exact E. Qed.
Lemma norm_idem n : forall s, (length s <= n)%nat -> norm false (norm false s) = norm false s.
Proof.
  induction n as [|n IH]; intros s Hn; [destruct s; [reflexivity|cbn in Hn; lia]|].
  destruct s as [|c s]; [reflexivity|]. destruct (is_word c) eqn:W.
  - destruct (span is_word (c :: s)) as [w r] eqn:S. apply span_spec in S. destruct S as (E & F & R).
    assert (Ne : w <> []) by (intro; subst w; cbn in E; subst r; cbn in R; congruence).
    assert (L : (length (c :: s) = length w + length r)%nat) by (rewrite E; apply app_length).
    destruct w as [|c' w'] eqn:Ew; [congruence|]. rewrite <- Ew in *. rewrite E.
    rewrite norm_word by assumption. destruct (alias_fix w) as (A1 & A2 & A3).
    rewrite norm_word; [|auto|auto|apply edge_norm; exact R]. rewrite A1. f_equal.
    rewrite (norm_edge r R). rewrite norm_edge by (rewrite <- norm_edge by exact R; apply edge_norm; exact R).
    apply IH. rewrite Ew in L. cbn in L, Hn. lia.
  - rewrite !norm_nonword by exact W. f_equal. apply IH. cbn in Hn. lia.
Qed.
Theorem normalize_idem s : normalize (normalize s) = normalize s.
Proof. rewrite !normalize_norm. apply (norm_idem (length s)). lia. Qed.

(** ** On type strings *)
Lemma letter_word c : letter c -> is_word c = true.
Proof.
  intro L. pose proof L as L'. apply is_alpha_letter in L. unfold is_word, letter in *. rewrite L.
  destruct (N.ltb_spec c 128); [|lia]. rewrite orb_true_r. reflexivity.
Qed.
Lemma digit_word c : is_digit c = true -> is_word c = true.
Proof.
  intro L. pose proof L as L'. apply is_digit_digit in L'. unfold is_word, digit in *. rewrite L.
  destruct (N.ltb_spec c 128); [|lia]. reflexivity.
Qed.
Lemma numeral_word d n : numeral d n -> forallb is_word d = true /\ d <> [].
Proof.
  intro N. apply numeral_digits in N. destruct N as (c & ds & -> & H & F & _). split; [|discriminate].
  cbn. rewrite digit_word; [cbn|]; [|apply is_digit_digit; apply is_digit19_digit in H; apply H].
  apply forallb_forall. intros x Hx. apply digit_word. rewrite forallb_forall in F. auto.
Qed.
Lemma alias_digit c w : is_digit c = true -> alias (c :: w) = c :: w.
Proof.
  intro D. unfold alias. destruct (lookup_alias TYPE_ALIASES (c :: w)) as [b|] eqn:L; [|reflexivity]. exfalso.
  cbn [lookup_alias TYPE_ALIASES] in L.
  repeat match type of L with (if ?x then _ else _) = _ => destruct x eqn:Q; [apply str_eqb_eq in Q; inv Q; discriminate D|clear Q] end.
  discriminate L.
Qed.
Lemma norm_arr sa ds r p : g_arr sa ds -> edge r -> norm p (sa ++ r) = sa ++ norm (match sa with [] => p | _ => false end) r.
Proof.
  intros A E. revert p. induction A as [|s ds A IH|d n s ds N A IH]; intro p.
  - reflexivity.
  - change ((lit "[]" ++ s) ++ r) with (c_lbrack :: c_rbrack :: (s ++ r)). rewrite !norm_nonword by reflexivity. rewrite IH.
    destruct s; reflexivity.
  - rewrite <- !app_assoc. change (lit "[" ++ d ++ lit "]" ++ s ++ r) with (c_lbrack :: (d ++ c_rbrack :: s ++ r)).
    rewrite norm_nonword by reflexivity. pose proof (numeral_word d n N) as [W Ne].
    rewrite norm_word by (assumption || reflexivity). pose proof (numeral_digits d n N) as (c & ds' & -> & H & _).
    rewrite alias_digit by (apply is_digit_digit; apply is_digit19_digit in H; apply H).
    rewrite norm_nonword by reflexivity. rewrite IH. destruct s; reflexivity.
Qed.
Lemma g_sub_word ss sub : g_sub ss sub -> forallb is_word ss = true.
Proof.
  destruct 1 as [|s n N|s1 n1 s2 n2 N1 N2]; [reflexivity|apply (numeral_word s n N)|].
  rewrite !forallb_app. destruct (numeral_word _ _ N1) as [-> _]. destruct (numeral_word _ _ N2) as [-> _]. reflexivity.
Qed.
Lemma alpha_app_inj a b c d : Forall letter a -> Forall letter c ->
  match b with [] => True | x :: _ => is_alpha x = false end -> match d with [] => True | x :: _ => is_alpha x = false end ->
  a ++ b = c ++ d -> a = c /\ b = d.
Proof.
  revert c. induction a as [|x a IH]; intros c A C B D E.
  - destruct c as [|y c]; [auto|]. cbn in E. subst b. inv C. take (letter y) as L. apply is_alpha_letter in L. congruence.
  - inv A. destruct c as [|y c].
    + cbn in E. subst d. take (letter x) as L. apply is_alpha_letter in L. congruence.
    + cbn in E. inv E. inv C. destruct (IH c) as [-> ->]; auto.
Qed.
Lemma alias_basic b ss sub : alphas b -> g_sub ss sub ->
  alias (b ++ ss) = match sub with
                    | SubNone => match alias_of b with Some (b', sub') => b' ++ sub_str sub' | None => b end
                    | _ => b ++ ss
                    end.
Proof.
  intros [B1 B2] S. assert (K : match sub with SubNone => ss = [] | _ => ss <> [] end).
  { destruct S as [|s n N|s1 n1 s2 n2 N1 N2]; [reflexivity|apply (numeral_word _ _ N)|].
    destruct (numeral_word _ _ N1) as [_ Ne]. destruct s1; [congruence|discriminate]. }
  assert (H : sub = SubNone \/ sub <> SubNone) by (destruct sub; [left; reflexivity|right; discriminate..]).
  destruct H as [->|H].
  - subst ss. rewrite app_nil_r. unfold alias, alias_of. cbn [lookup_alias TYPE_ALIASES].
    repeat match goal with |- context[str_eqb ?a b] => rewrite (str_eqb_sym a b); destruct (str_eqb b a); [reflexivity|] end.
    reflexivity.
  - transitivity (b ++ ss); [|destruct sub; [congruence|reflexivity..]]. assert (Ne : ss <> []) by (destruct sub; [congruence|exact K..]).
    unfold alias. destruct (lookup_alias TYPE_ALIASES (b ++ ss)) as [w|] eqn:L; [|reflexivity]. exfalso.
    assert (D : match ss with [] => True | c :: _ => is_alpha c = false end).
    { pose proof (sub_not_alpha ss sub [] S I) as Q. rewrite app_nil_r in Q. exact Q. }
    assert (Al : forall a, Forall letter a -> b ++ ss = a ++ [] -> False).
    { intros a Fa E. apply alpha_app_inj in E; auto. destruct E as [_ E]. congruence. }
    cbn [lookup_alias TYPE_ALIASES] in L.
    repeat match type of L with (if ?x then _ else _) = _ =>
      destruct x eqn:Q; [apply str_eqb_eq in Q; eapply Al; [|rewrite app_nil_r; symmetry; exact Q]; cbn; repeat constructor; unfold letter; lia|clear Q] end.
    discriminate L.
Qed.
Lemma stop_edge r : stop r -> edge r.
Proof. destruct r as [|c r]; [reflexivity|]. intros [-> | ->]; reflexivity. Qed.
Lemma arr_edge sa ds r : g_arr sa ds -> edge r -> edge (sa ++ r).
Proof. intros A E. destruct (g_arr_head _ _ A) as [->|[sa' ->]]; [exact E|reflexivity]. Qed.
Lemma norm_type :
  (forall s t, g_type s t -> forall r, stop r -> norm false (s ++ r) = to_type_str (expand t) ++ norm false r)
  /\ (forall s ts, g_components s ts -> forall r, stop r -> norm false (s ++ r) = join_comma (map to_type_str (map expand ts)) ++ norm false r).
Proof.
  apply g_mut.
  - intros b ss sub sa arr B S A r R. pose proof (stop_edge r R) as E. rewrite <- app_assoc. rewrite <- app_assoc.
    rewrite (app_assoc b ss).
    rewrite norm_word; [|destruct B as [B _]; destruct b; [congruence|discriminate]| |eapply arr_edge; eassumption].
    2:{ rewrite forallb_app, (g_sub_word _ _ S), andb_true_r. apply forallb_forall. intros x Hx. apply letter_word.
        destruct B as [_ B]. rewrite Forall_forall in B. auto. }
    rewrite (norm_arr sa arr) by assumption.
    replace (norm (match sa with [] => true | _ :: _ => false end) r) with (norm false r) by (destruct sa; [symmetry; apply norm_edge; exact E|reflexivity]).
    rewrite (alias_basic b ss sub) by assumption. rewrite app_assoc. f_equal.
    rewrite <- (g_arr_str _ _ A) at 1.
    destruct sub; cbn [expand to_type_str]; rewrite <- ?(g_sub_str _ _ S); cbn [sub_str]; [|rewrite <- ?app_assoc; reflexivity..].
    destruct (alias_of b) as [[b' sub']|]; cbn [to_type_str sub_str app]; rewrite <- ?app_assoc; reflexivity.
  - intros s ts sa arr C IH A r R. pose proof (stop_edge r R) as E. rewrite <- !app_assoc.
    change (lit "(" ++ s ++ lit ")" ++ sa ++ r) with (c_lparen :: (s ++ lit ")" ++ sa ++ r)).
    rewrite norm_nonword by reflexivity. rewrite IH by (right; reflexivity).
    change (lit ")" ++ sa ++ r) with (c_rparen :: (sa ++ r)). rewrite norm_nonword by reflexivity.
    rewrite (norm_arr sa arr) by assumption. cbn [expand to_type_str]. rewrite (g_arr_str _ _ A), <- !app_assoc.
    destruct sa; reflexivity.
  - intros s t G IH r R. cbn [map join_comma]. apply IH. exact R.
  - intros s t ss ts G IH C IHc r R. rewrite <- !app_assoc. rewrite IH by (left; reflexivity).
    change (lit "," ++ ss ++ r) with (c_comma :: (ss ++ r)). rewrite norm_nonword by reflexivity. rewrite IHc by exact R.
    destruct ts as [|t' ts]; [inv C|]. cbn [map join_comma]. rewrite <- !app_assoc. reflexivity.
Qed.
Theorem normalize_type s t : parse s = Ok t -> normalize s = to_type_str (expand t).
Proof.
  intro H. apply parse_spec in H. rewrite normalize_norm. pose proof (proj1 norm_type s t H [] I) as E.
  rewrite !app_nil_r in E. exact E.
Qed.
Lemma alias_of_ok b b' sub : alias_of b = Some (b', sub) -> alphas b' /\ sub_ok sub /\ sub <> SubNone.
Proof.
  unfold alias_of. intro H. repeat match type of H with (if ?x then _ else _) = _ => destruct x end; inv H;
    (split; [split; [discriminate|cbn; repeat constructor; unfold letter; lia]|]; split; [cbn; lia|discriminate]).
Qed.
Lemma expand_ok t : ast_ok t -> ast_ok (expand t).
Proof.
  induction t as [b sub arr|ts arr IH] using abi_type_ind'; intro H; inv H.
  - cbn [expand]. destruct sub; [|constructor; assumption..]. destruct (alias_of b) as [[b' sub']|] eqn:E; [|constructor; assumption].
    apply alias_of_ok in E. constructor; intuition.
  - cbn [expand]. constructor; [destruct ts; [congruence|discriminate]| |assumption].
    take (Forall ast_ok ts) as A. clear -IH A. induction IH; inv A; constructor; auto.
Qed.
Theorem parse_normalize s t : parse s = Ok t -> parse (normalize s) = Ok (expand t).
Proof.
  intro H. rewrite (normalize_type s t H). apply parse_iff. split; [|reflexivity]. apply expand_ok. apply parse_iff in H. apply H.
Qed.
Lemma expand_idem t : expand (expand t) = expand t.
Proof.
  induction t as [b sub arr|ts arr IH] using abi_type_ind'.
  - destruct sub; [|reflexivity..]. cbn [expand]. destruct (alias_of b) as [[b' sub']|] eqn:E.
    + apply alias_of_ok in E. destruct E as (_ & _ & E). destruct sub'; [congruence|reflexivity..].
    + cbn [expand]. rewrite E. reflexivity.
  - cbn [expand]. f_equal. induction IH as [|t ts Ht F IHts]; [reflexivity|]. cbn [map]. rewrite Ht, IHts. reflexivity.
Qed.

