(** The position in a ParseError. *)
From Coq Require Import Strings.String Lia.
From Verif Require Import Py Address Grammar GrammarSpec GrammarProofs Peg PegProofs PegSpec ScanProofs.
Open Scope nat_scope.

Lemma begins_scan q : begins q <-> exists ph d, scan Want 0 q = Some (ph, d).
Proof. symmetry. apply scan_begins. Qed.
Lemma dead q c ph d : scan Want 0 q = Some (ph, d) -> step ph d c = None -> ~ begins (q ++ [c]).
Proof. intros H S. rewrite begins_scan. intros (ph' & d' & E). rewrite scan_app, H in E. cbn [scan] in E. rewrite S in E. discriminate. Qed.

(** ** Agreement with the parser of Grammar.v *)

Theorem peg_ok s t : peg_parse s = Parsed (VType t) <-> parse s = Ok t.
Proof.
  rewrite peg_parse_eq. unfold parse, stopped. destruct (p_type (S (length s)) s) as [[t' r]|]; [destruct r|].
  - split; intro H; injection H as <-; reflexivity.
  - destruct (contains (lit "()") s); split; discriminate.
  - destruct (contains (lit "()") s); split; discriminate.
Qed.
Theorem peg_zero s : peg_parse s = ZeroSized <-> parse s = Err ValueError.
Proof.
  rewrite peg_parse_eq. unfold parse, stopped. destruct (p_type (S (length s)) s) as [[t' r]|]; [destruct r|].
  - split; discriminate.
  - destruct (contains (lit "()") s); split; try discriminate; reflexivity.
  - destruct (contains (lit "()") s); split; try discriminate; reflexivity.
Qed.
Theorem peg_stopped s : (exists pos, peg_parse s = Stopped pos) <-> parse s = Err ParseError.
Proof.
  rewrite peg_parse_eq. unfold parse, stopped. destruct (p_type (S (length s)) s) as [[t' r]|]; [destruct r|].
  - split; [intros (? & ?)|]; discriminate.
  - destruct (contains (lit "()") s); (split; [intros (? & ?)|]); try discriminate; eauto.
  - destruct (contains (lit "()") s); (split; [intros (? & ?)|]); try discriminate; eauto.
Qed.
Theorem peg_total s : (exists t, peg_parse s = Parsed (VType t)) \/ peg_parse s = ZeroSized \/ exists pos, peg_parse s = Stopped pos.
Proof.
  rewrite peg_parse_eq. unfold stopped. destruct (p_type (S (length s)) s) as [[t' r]|]; [destruct r|].
  - eauto.
  - destruct (contains (lit "()") s); eauto.
  - destruct (contains (lit "()") s); eauto.
Qed.

(** ** Some beginning is a type *)

Lemma open_num_stays x b0 : forallb is_digit x = true -> unclosed b0 -> forall d b b' ph d',
  x ++ b0 = b ++ b' -> scan OpenNum d b = Some (ph, d') -> ph = OpenNum.
Proof.
  intros X U. induction x as [|c x IH]; intros d b b' ph d' E S.
  - destruct b as [|c b]; [now injection S as <- _|]. cbn [app] in E. subst b0. cbn [unclosed] in U. destruct U as [U1 U2].
    cbn [scan step] in S. rewrite U1 in S. apply N.eqb_neq in U2. rewrite U2 in S. discriminate.
  - destruct b as [|c' b]; [now injection S as <- _|]. injection E as <- E. cbn [forallb] in X. apply andb_true_iff in X as [X1 X2].
    cbn [scan step] in S. rewrite X1 in S. eapply IH; eassumption.
Qed.
Lemma no_final ph r b b' ph' d' : final ph -> rest_ok ph r -> p_dim r = None -> r = b ++ b' -> b <> [] ->
  scan ph 0 b = Some (ph', d') -> ~ final ph'.
Proof.
  intros F R D E Hb S. destruct b as [|c b]; [contradiction|]. cbn [app] in E. subst r. cbn [scan] in S.
  destruct (N.eqb c c_lbrack) eqn:B.
  - apply N.eqb_eq in B. subst c. rewrite step_bracket in S by exact F. unfold p_dim in D.
    change (p_char c_lbrack (c_lbrack :: b ++ b')) with (Some (b ++ b')) in D. cbn iota in D.
    destruct b as [|c b]; [injection S as <- _; intros [|[|[|]]]; discriminate|]. cbn [app] in D.
    cbn [scan step] in S. destruct (p_digits (c :: b ++ b')) as [[n b0]|] eqn:Dg.
    + destruct (p_digits_text _ _ _ Dg) as (x & Ex & X & _ & Hd). destruct (numeral_split _ _ X) as (c0 & x' & -> & Hc & Hx).
      injection Ex as <- Ex. destruct (N.eqb c c_rbrack) eqn:B; [apply N.eqb_eq in B; subst c; discriminate Hc|]. rewrite Hc in S.
      assert (ph' = OpenNum) as ->.
      { eapply open_num_stays; [exact Hx| |symmetry; exact Ex|exact S]. destruct b0 as [|c0 b0]; [exact I|]. split; [exact Hd|].
        intros ->. discriminate D. }
      intros [|[|[|]]]; discriminate.
    + destruct (N.eqb c c_rbrack) eqn:B; [apply N.eqb_eq in B; subst c; discriminate D|].
      rewrite (p_digits_none _ _ Dg) in S. discriminate.
  - assert (Af : after 0 c = None) by (unfold after; now rewrite B).
    destruct F as [->|[->|[->| ->]]]; cbn [step] in S.
    + destruct R as (R1 & R2). rewrite R1, R2, Af in S. discriminate.
    + destruct R as (R1 & R2). rewrite R1 in S. destruct (N.eqb c c_x) eqn:X; [|rewrite Af in S; discriminate].
      apply N.eqb_eq in X. specialize (R2 X). destruct b as [|c2 b]; [injection S as <- _; intros [|[|[|]]]; discriminate|].
      cbn [scan step] in S. cbn [app] in R2. rewrite (p_digits_none _ _ R2) in S. discriminate.
    + cbn [rest_ok] in R. rewrite R, Af in S. discriminate.
    + rewrite Af in S. discriminate.
Qed.
(** What the parser takes is the longest type. *)
Lemma p_type_longest s t r : p_type (S (length s)) s = Some (t, r) -> exists q, s = q ++ r /\ longest_type s q.
Proof.
  intro H. pose proof (proj1 (peg_err (S (length s))) s 0 0 0 ltac:(lia) ltac:(lia)) as T. rewrite H in T.
  destruct T as (a & ph & Es & Sa & F & R & D & _). exists a. split; [exact Es|]. split.
  - destruct (scan_reading _ _ _ Sa) as (q0 & q1 & E & C & Rd). inversion C; subst q0.
    cbn [app] in E. subst q1. destruct (final_type ph a F Rd) as (t' & T). eauto.
  - intros q' r' t' E T. destruct (Nat.le_gt_cases (length q') (length a)) as [L|L]; [exact L|exfalso].
    assert (Q : exists b, q' = a ++ b /\ r = b ++ r').
    { exists (skipn (length a) q'). assert (E2 : a ++ r = q' ++ r') by congruence.
      pose proof (f_equal (firstn (length a)) E2) as X. rewrite firstn_app, Nat.sub_diag, firstn_all, firstn_O, app_nil_r in X.
      rewrite firstn_app in X. replace (length a - length q') with 0 in X by lia. rewrite firstn_O, app_nil_r in X.
      pose proof (firstn_skipn (length a) q') as Y. rewrite <- X in Y. split; [now symmetry|].
      rewrite <- Y, <- app_assoc in E2. now apply app_inv_head in E2. }
    destruct Q as (b & -> & ->). rewrite app_length in L.
    destruct (proj1 scan_type _ _ T 0) as (ph' & S' & F'). rewrite scan_app, Sa in S'.
    refine (no_final ph (b ++ r') b r' ph' 0 F R D eq_refl _ S' F'). intros ->. cbn in L. lia.
Qed.
Lemma p_next_complete s ts x : g_next s ts -> forall f, length s < f -> p_next f (s ++ lit ")" ++ x) = (ts, lit ")" ++ x).
Proof.
  induction 1 as [|s t ss ts H N IH]; intros f L; [destruct f; reflexivity|]. destruct f as [|f]; [lia|].
  rewrite !app_length in L. change (length (lit ",")) with 1 in L.
  rewrite <- !app_assoc. change (lit "," ++ s ++ ss ++ lit ")" ++ x) with (c_comma :: (s ++ ss ++ lit ")" ++ x)).
  cbn [p_next]. assert (P : forall y, p_char c_comma (c_comma :: y) = Some y) by reflexivity. rewrite P.
  rewrite (p_type_complete (length s) s t); [|lia|exact H|lia|eapply stop_next; [exact N|right; reflexivity]].
  rewrite IH by lia. reflexivity.
Qed.
Lemma type_prefix_parsed s : has_type_prefix s <-> exists t r, p_type (S (length s)) s = Some (t, r).
Proof.
  split.
  - intros (q & r & t & -> & T). destruct T as [b ss sub sa arr B Sb A|x ts sa arr C A].
    + cbn [p_type]. rewrite <- !app_assoc. rewrite alphas_no_paren by exact B.
      destruct (alphas_split b B) as (c & b' & -> & Hc & Hb). unfold p_alphas. cbn [app span]. rewrite Hc.
      destruct (span is_alpha (b' ++ ss ++ sa ++ r)) as [y z]. destruct (p_sub z) as [sb s2].
      destruct (p_arrlist (length s2) s2) as [ds s3]. eauto.
    + destruct (components_next _ _ C) as (s1 & t & s2 & ts' & -> & -> & H1 & N).
      rewrite <- !app_assoc.
      change (lit "(" ++ s1 ++ s2 ++ lit ")" ++ sa ++ r) with (c_lparen :: (s1 ++ s2 ++ lit ")" ++ sa ++ r)).
      remember (length (c_lparen :: (s1 ++ s2 ++ lit ")" ++ sa ++ r))) as F eqn:EF. cbn [length] in EF. rewrite !app_length in EF.
      cbn [p_type]. assert (P : forall x, p_char c_lparen (c_lparen :: x) = Some x) by reflexivity. rewrite P.
      rewrite (p_type_complete (length s1) s1 t);
        [|lia|exact H1|lia|eapply stop_next; [exact N|right; reflexivity]].
      rewrite (p_next_complete s2 ts' (sa ++ r) N) by lia.
      assert (Q : forall x, p_char c_rparen (lit ")" ++ x) = Some x) by reflexivity. rewrite Q.
      destruct (p_arrlist (length (sa ++ r)) (sa ++ r)) as [ds s3]. eauto.
  - intros (t & r & H). destruct (p_type_longest _ _ _ H) as (q & _ & (r' & t' & E & T) & _). exists q, r', t'. auto.
Qed.

Lemma stopped_inv s e pos : stopped s e = Stopped pos -> e = pos.
Proof. unfold stopped. destruct (contains _ s); [discriminate|]. now intros [= ->]. Qed.
Theorem stops_after_type s pos : peg_parse s = Stopped pos -> has_type_prefix s ->
  pos < length s /\ longest_type s (firstn pos s).
Proof.
  intros H P. apply type_prefix_parsed in P as (t & r & E). rewrite peg_parse_eq, E in H.
  destruct (p_type_longest _ _ _ E) as (q & Es & L).
  destruct r as [|c r]; [discriminate|]. apply stopped_inv in H.
  assert (Hq : length q = pos) by (rewrite <- H, Es, app_length; lia).
  split; [rewrite Es, app_length, Hq; cbn [length]; lia|].
  replace (firstn pos s) with q; [exact L|]. rewrite Es, <- Hq, firstn_app, Nat.sub_diag, firstn_all, firstn_O. now rewrite app_nil_r.
Qed.

(** ** No beginning is a type *)

Lemma no_break_spec b : no_break b <-> Forall (fun c => [c] <> lit "(" /\ [c] <> lit ",") b.
Proof.
  split; intro H; (eapply Forall_impl; [|exact H]); intros c (H1 & H2); change (lit "(") with [c_lparen] in *; change (lit ",") with [c_comma] in *.
  - split; intro E; injection E as E; auto.
  - split; intros ->; auto.
Qed.
Lemma pointer_points s i : pointer Want 0 s i -> exists a b, s = a ++ b /\ length a = i /\ begins a /\ points_at a b.
Proof.
  intros [a c b ph d E S N|a x n b ph d E S F X U|a b st E S N].
  - exists a, (c :: b). split; [exact E|]. split; [reflexivity|]. split; [apply begins_scan; eauto|].
    apply At_wrong. eapply dead; eassumption.
  - exists a, (lit "[" ++ x ++ b). split; [exact E|]. split; [reflexivity|]. split; [apply begins_scan; eauto|].
    assert (S2 : scan Want 0 (a ++ lit "[" ++ x) = Some (OpenNum, d)).
    { eapply scan_go; [exact S|]. change (lit "[" ++ x) with (c_lbrack :: x). cbn [scan]. rewrite step_bracket by exact F.
      eapply open_num; exact X. }
    apply (At_size a x n); [exact X|apply begins_scan; eauto|].
    intros c b' ->. destruct U as (U1 & U2). rewrite !app_assoc. rewrite <- (app_assoc a (lit "[") x).
    eapply dead; [exact S2|]. cbn [step]. rewrite U1. apply N.eqb_neq in U2. now rewrite U2.
  - exists a, b. split; [exact E|]. split; [reflexivity|]. subst s. destruct st as [ph d]. split.
    + apply begins_scan. rewrite scan_app in S. destruct (scan Want 0 a) as [[ph' d']|]; [eauto|discriminate].
    + apply At_end; [apply begins_scan; eauto|now apply no_break_spec].
Qed.
Lemma stops_pointer s pos : peg_parse s = Stopped pos -> ~ has_type_prefix s -> pointer Want 0 s pos.
Proof.
  intros H P. rewrite type_prefix_parsed in P. rewrite peg_parse_eq in H.
  pose proof (proj1 (peg_err (S (length s))) s 0 0 0 ltac:(lia) ltac:(lia)) as T.
  destruct (p_type (S (length s)) s) as [[t r]|]; [contradiction P; eauto|].
  apply stopped_inv in H. subst pos. destruct T as (i & -> & T). exact T.
Qed.
Theorem stops_where s pos : peg_parse s = Stopped pos -> ~ has_type_prefix s ->
  exists a b, s = a ++ b /\ length a = pos /\ points_at a b.
Proof. intros H P. destruct (pointer_points s pos (stops_pointer s pos H P)) as (a & b & E & L & _ & Q). eauto. Qed.
Theorem stops_begins s pos : peg_parse s = Stopped pos -> pos <= length s /\ begins (firstn pos s).
Proof.
  intro H. assert (D : has_type_prefix s \/ ~ has_type_prefix s).
  { rewrite type_prefix_parsed. destruct (p_type (S (length s)) s) as [[t r]|]; [left; eauto|right]. intros (? & ? & ?). discriminate. }
  destruct D as [D|D].
  - destruct (stops_after_type s pos H D) as (L & (r & t & E & T) & _). split; [lia|]. exists [], t. now rewrite app_nil_r.
  - destruct (pointer_points s pos (stops_pointer s pos H D)) as (a & b & E & L & B & _).
    split; [rewrite E, app_length; lia|]. rewrite E, <- L, firstn_app, Nat.sub_diag, firstn_all, firstn_O, app_nil_r. exact B.
Qed.

(** ** The message *)

Lemma step_newline ph d : step ph d 10%N = None.
Proof. destruct ph, d; reflexivity. Qed.
Lemma scan_no_newline s : forall ph d st, scan ph d s = Some st -> ~ In 10%N s.
Proof.
  induction s as [|c s IH]; intros ph d st H; [auto|]. cbn [scan] in H. intros [->|Hin].
  - rewrite step_newline in H. discriminate.
  - destruct (step ph d c) as [[ph' d']|]; [|discriminate]. eapply IH; eassumption.
Qed.
Lemma last_newline_none s : ~ In 10%N s -> forall i found, last_newline s i found = found.
Proof.
  induction s as [|c s IH]; intros H i found; [reflexivity|]. cbn [last_newline].
  destruct (N.eqb c 10) eqn:E; [apply N.eqb_eq in E; subst; exfalso; apply H; now left|]. apply IH. intro Hin. apply H. now right.
Qed.
Theorem stops_column s pos : peg_parse s = Stopped pos -> column s pos = pos + 1.
Proof.
  intro H. destruct (stops_begins s pos H) as (_ & B). apply begins_scan in B as (ph & d & S).
  unfold column. rewrite last_newline_none; [reflexivity|]. eapply scan_no_newline; exact S.
Qed.
Theorem stops_message s pos : peg_parse s = Stopped pos ->
  parse_error_str s pos = lit "Parse error at '" ++ firstn 5 (skipn pos s) ++ lit "' (column " ++ str_of_Z (Z.of_nat (pos + 1))
    ++ lit ") in type string '" ++ s ++ lit "'".
Proof. intro H. unfold parse_error_str. now rewrite (stops_column s pos H). Qed.
