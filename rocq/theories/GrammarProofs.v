(** The parser, the printer and the normalizer against the grammar. *)
From Coq Require Import Strings.String.
From Verif Require Import Tac Address Grammar GrammarSpec.
Open Scope Z_scope.

(** ** Characters *)
Lemma is_alpha_letter c : is_alpha c = true <-> letter c.
Proof. unfold is_alpha, letter, in_range. lia. Qed.
Lemma is_digit_digit c : is_digit c = true <-> digit c.
Proof. unfold is_digit, digit, in_range. lia. Qed.
Lemma is_digit19_digit c : is_digit19 c = true <-> digit c /\ c <> 48%N.
Proof. unfold is_digit19, digit, in_range. lia. Qed.

(** ** Numerals *)
Lemma int_of_digits_snoc s c : int_of_digits (s ++ [c]) = int_of_digits s * 10 + (Z.of_N c - 48).
Proof. unfold int_of_digits. rewrite fold_left_app. reflexivity. Qed.
Lemma numeral_digits s n : numeral s n ->
  exists c ds, s = c :: ds /\ is_digit19 c = true /\ forallb is_digit ds = true /\ n = int_of_digits s.
Proof.
  induction 1 as [c D H|s n c H (c0 & ds & -> & H1 & H2 & ->) D].
  - exists c, []. split; [reflexivity|]. split; [apply is_digit19_digit; auto|]. split; [reflexivity|]. cbn. lia.
  - exists c0, (ds ++ [c]). split; [reflexivity|]. split; [exact H1|]. split.
    + rewrite forallb_app, H2. cbn. rewrite andb_true_r. apply is_digit_digit. exact D.
    + change (c0 :: ds ++ [c]) with ((c0 :: ds) ++ [c]). rewrite int_of_digits_snoc. lia.
Qed.
Lemma digits_numeral c ds : is_digit19 c = true -> forallb is_digit ds = true -> numeral (c :: ds) (int_of_digits (c :: ds)).
Proof.
  intro H. apply is_digit19_digit in H. induction ds as [|d ds IH] using rev_ind; intro F.
  - cbn. replace (0 * 10 + (Z.of_N c - 48)) with (Z.of_N c - 48) by lia. apply N_one; apply H.
  - rewrite forallb_app in F. apply andb_true_iff in F. destruct F as [F1 F2]. cbn in F2. rewrite andb_true_r in F2.
    change (c :: ds ++ [d]) with ((c :: ds) ++ [d]). rewrite int_of_digits_snoc.
    replace (int_of_digits (c :: ds) * 10) with (10 * int_of_digits (c :: ds)) by lia.
    apply N_snoc; [apply IH; exact F1|apply is_digit_digit; exact F2].
Qed.
Lemma numeral_pos s n : numeral s n -> 1 <= n.
Proof. induction 1 as [c D H|s n c H IH D]; unfold digit in *; lia. Qed.
Lemma numeral_str s n : numeral s n -> str_of_Z n = s.
Proof.
  intro H. pose proof (numeral_pos s n H). unfold str_of_Z. destruct (Z.ltb_spec n 0); [lia|].
  assert (G : forall fuel acc, Z.log2 n < Z.of_nat fuel -> digits_of fuel n acc = s ++ acc).
  { clear H0 H1. induction H as [c D H|s n c H IH D]; intros fuel acc Hf.
    - unfold digit in D. pose proof (Z.log2_nonneg (Z.of_N c - 48)). destruct fuel as [|f]; [lia|]. cbn [digits_of].
      destruct (Z.ltb_spec (Z.of_N c - 48) 10); [|lia]. rewrite Z.mod_small by lia. cbn [app]. f_equal. lia.
    - unfold digit in D. pose proof (numeral_pos s n H).
      assert (L : Z.log2 n < Z.log2 (10 * n + (Z.of_N c - 48))).
      { apply Z.lt_le_trans with (Z.log2 (2 * n)); [rewrite Z.log2_double by lia; lia|]. apply Z.log2_le_mono. lia. }
      pose proof (Z.log2_nonneg n). destruct fuel as [|f]; [lia|]. cbn [digits_of].
      destruct (Z.ltb_spec (10 * n + (Z.of_N c - 48)) 10); [lia|].
      replace ((10 * n + (Z.of_N c - 48)) / 10) with n by lia.
      replace ((10 * n + (Z.of_N c - 48)) mod 10) with (Z.of_N c - 48) by lia.
      rewrite IH by lia. rewrite <- app_assoc. cbn [app]. do 2 f_equal. lia. }
  rewrite G; [apply app_nil_r|]. pose proof (Z.log2_nonneg n). lia.
Qed.
Lemma str_numeral n : 1 <= n -> numeral (str_of_Z n) n.
Proof.
  intro H. assert (G : exists s, numeral s n).
  { revert H. induction n as [n IH] using (well_founded_induction (Z.lt_wf 0)). intro H.
    destruct (Z.ltb_spec n 10).
    - exists [Z.to_N (n + 48)]. replace n with (Z.of_N (Z.to_N (n + 48)) - 48) at 2 by lia. constructor; unfold digit; lia.
    - destruct (IH (n / 10)) as [s Hs]; [lia|lia|]. exists (s ++ [Z.to_N (n mod 10 + 48)]).
      replace n with (10 * (n / 10) + (Z.of_N (Z.to_N (n mod 10 + 48)) - 48)) at 2 by lia.
      constructor; [exact Hs|unfold digit; lia]. }
  destruct G as [s G]. rewrite (numeral_str s n G). exact G.
Qed.

(** ** The parser is sound *)
Lemma span_spec f s a r : span f s = (a, r) -> s = a ++ r /\ forallb f a = true /\ (match r with [] => True | c :: _ => f c = false end).
Proof.
  revert a r. induction s as [|c s IH]; intros a r H; cbn [span] in H; [inv H; auto|].
  destruct (f c) eqn:E; [|inv H; auto]. destruct (span f s) as [a0 b0]. inv H.
  destruct (IH _ _ eq_refl) as (-> & F & R). cbn. rewrite E, F. auto.
Qed.
Lemma span_complete f a r : forallb f a = true -> match r with [] => True | c :: _ => f c = false end -> span f (a ++ r) = (a, r).
Proof.
  intros F R. induction a as [|c a IH]; cbn [app span].
  - destruct r as [|c r]; [reflexivity|]. cbn [span]. rewrite R. reflexivity.
  - cbn in F. apply andb_true_iff in F. destruct F as [F1 F2]. rewrite F1, IH by exact F2. reflexivity.
Qed.
Lemma p_char_spec c s r : p_char c s = Some r <-> s = c :: r.
Proof.
  unfold p_char. destruct s as [|c' s]; [split; discriminate|]. destruct (N.eqb_spec c c').
  - subst. split; intro H; inv H; reflexivity.
  - split; intro H; inv H; congruence.
Qed.
Lemma p_digits_sound s n r : p_digits s = Some (n, r) -> exists d, s = d ++ r /\ numeral d n.
Proof.
  unfold p_digits. destruct s as [|c s]; [discriminate|]. destruct (is_digit19 c) eqn:E; [|discriminate].
  destruct (span is_digit s) as [ds r0] eqn:S. intro H. inv H. apply span_spec in S. destruct S as (-> & F & _).
  exists (c :: ds). split; [reflexivity|]. apply digits_numeral; assumption.
Qed.
Definition no_digit (r : pystr) : Prop := match r with [] => True | c :: _ => is_digit c = false end.
Lemma p_digits_complete d n r : numeral d n -> no_digit r -> p_digits (d ++ r) = Some (n, r).
Proof.
  intros H R. apply numeral_digits in H. destruct H as (c & ds & -> & H1 & H2 & ->). cbn [app p_digits]. rewrite H1.
  rewrite span_complete by assumption. reflexivity.
Qed.
Lemma p_digits_none r : no_digit r -> p_digits r = None.
Proof.
  destruct r as [|c r]; [reflexivity|]. cbn. intro H. replace (is_digit19 c) with false; [reflexivity|].
  symmetry. destruct (is_digit19 c) eqn:E; [|reflexivity]. apply is_digit19_digit in E. destruct E as [E _].
  apply is_digit_digit in E. congruence.
Qed.
Lemma p_sub_sound s sub r : p_sub s = (sub, r) -> exists d, s = d ++ r /\ g_sub d sub.
Proof.
  unfold p_sub. destruct (p_digits s) as [[a s1]|] eqn:D1.
  - apply p_digits_sound in D1. destruct D1 as (d1 & -> & N1).
    destruct (p_char c_x s1) as [s2|] eqn:X.
    + apply p_char_spec in X. subst s1. destruct (p_digits s2) as [[b s3]|] eqn:D2.
      * apply p_digits_sound in D2. destruct D2 as (d2 & -> & N2). intro H. inv H.
        exists (d1 ++ lit "x" ++ d2). split; [rewrite <- !app_assoc; reflexivity|constructor; assumption].
      * intro H. inv H. exists d1. split; [reflexivity|constructor; assumption].
    + intro H. inv H. exists d1. split; [reflexivity|constructor; assumption].
  - intro H. inv H. exists []. split; [reflexivity|constructor].
Qed.
Lemma p_dim_sound s d r : p_dim s = Some (d, r) -> forall sa ds, g_arr sa ds -> exists q, s = q ++ r /\ g_arr (q ++ sa) (d :: ds).
Proof.
  unfold p_dim. destruct (p_char c_lbrack s) as [s1|] eqn:L; [|discriminate]. apply p_char_spec in L. subst s.
  destruct (p_digits s1) as [[n s2]|] eqn:D.
  - apply p_digits_sound in D. destruct D as (q & -> & N). destruct (p_char c_rbrack s2) as [s3|] eqn:R; [|discriminate].
    apply p_char_spec in R. subst s2. intros H sa ds A. inv H. exists (lit "[" ++ q ++ lit "]").
    split; [rewrite <- !app_assoc; reflexivity|]. rewrite <- !app_assoc. constructor; assumption.
  - destruct (p_char c_rbrack s1) as [s2|] eqn:R; [|discriminate]. apply p_char_spec in R. subst s1.
    intros H sa ds A. inv H. exists (lit "[]"). split; [reflexivity|]. constructor. assumption.
Qed.
Lemma p_arrlist_sound fuel s ds r : p_arrlist fuel s = (ds, r) -> exists q, s = q ++ r /\ g_arr q ds.
Proof.
  revert s ds r. induction fuel as [|f IH]; intros s ds r H; cbn [p_arrlist] in H.
  - inv H. exists []. split; [reflexivity|constructor].
  - destruct (p_dim s) as [[d s']|] eqn:D; [|inv H; exists []; split; [reflexivity|constructor]].
    destruct (p_arrlist f s') as [ds0 r0] eqn:A. inv H. apply IH in A. destruct A as (q & -> & A).
    destruct (p_dim_sound _ _ _ D q ds0 A) as (q0 & -> & G). exists (q0 ++ q). split; [apply app_assoc|exact G].
Qed.
Lemma p_alphas_sound s a r : p_alphas s = Some (a, r) -> s = a ++ r /\ alphas a.
Proof.
  unfold p_alphas. destruct (span is_alpha s) as [a0 r0] eqn:S. apply span_spec in S. destruct S as (-> & F & _).
  destruct a0 as [|c a0]; [discriminate|]. intro H. inv H. split; [reflexivity|]. split; [discriminate|].
  apply Forall_forall. intros x Hx. apply is_alpha_letter. rewrite forallb_forall in F. auto.
Qed.
(** "," type, repeated *)
Inductive g_next : pystr -> list abi_type -> Prop :=
| GN_nil : g_next [] []
| GN_cons s t ss ts : g_type s t -> g_next ss ts -> g_next (lit "," ++ s ++ ss) (t :: ts).
Lemma next_components s t ss ts : g_type s t -> g_next ss ts -> g_components (s ++ ss) (t :: ts).
Proof.
  intros H N. revert s t H. induction N as [|s0 t0 ss ts H0 N IH]; intros s t H.
  - rewrite app_nil_r. constructor. exact H.
  - apply G_more; [exact H|]. apply IH. exact H0.
Qed.
Lemma components_next s ts : g_components s ts -> exists s1 t s2 ts', s = s1 ++ s2 /\ ts = t :: ts' /\ g_type s1 t /\ g_next s2 ts'.
Proof.
  induction 1 as [s t H|s t ss ts H _ (s1 & t1 & s2 & ts' & -> & -> & H1 & N)].
  - exists s, t, [], []. rewrite app_nil_r. repeat split; auto. constructor.
  - exists s, t, (lit "," ++ s1 ++ s2), (t1 :: ts'). repeat split; auto. constructor; assumption.
Qed.
Lemma p_sound fuel :
  (forall s t r, p_type fuel s = Some (t, r) -> exists q, s = q ++ r /\ g_type q t)
  /\ (forall s ts r, p_next fuel s = (ts, r) -> exists q, s = q ++ r /\ g_next q ts).
Proof.
  induction fuel as [|f [IHt IHn]]; split.
  - intros s t r H. discriminate H.
  - intros s ts r H. inv H. exists []. split; [reflexivity|constructor].
  - intros s t r H. cbn [p_type] in H. destruct (p_char c_lparen s) as [s1|] eqn:L.
    + apply p_char_spec in L. subst s. destruct (p_type f s1) as [[t0 s2]|] eqn:T; [|discriminate].
      apply IHt in T. destruct T as (q & -> & G). destruct (p_next f s2) as [ts s3] eqn:N. apply IHn in N.
      destruct N as (q2 & -> & N). destruct (p_char c_rparen s3) as [s4|] eqn:R; [|discriminate]. apply p_char_spec in R. subst s3.
      destruct (p_arrlist (length s4) s4) as [arr s5] eqn:A. apply p_arrlist_sound in A. destruct A as (q3 & -> & A). inv H.
      exists (lit "(" ++ (q ++ q2) ++ lit ")" ++ q3). split; [rewrite <- !app_assoc; reflexivity|].
      constructor; [apply next_components; assumption|exact A].
    + destruct (p_alphas s) as [[b s1]|] eqn:B; [|discriminate]. apply p_alphas_sound in B. destruct B as [-> B].
      destruct (p_sub s1) as [sub s2] eqn:S. apply p_sub_sound in S. destruct S as (q2 & -> & S).
      destruct (p_arrlist (length s2) s2) as [arr s3] eqn:A. apply p_arrlist_sound in A. destruct A as (q3 & -> & A). inv H.
      exists (b ++ q2 ++ q3). split; [rewrite <- !app_assoc; reflexivity|]. constructor; assumption.
  - intros s ts r H. cbn [p_next] in H. destruct (p_char c_comma s) as [s1|] eqn:C; [|inv H; exists []; split; [reflexivity|constructor]].
    apply p_char_spec in C. subst s. destruct (p_type f s1) as [[t s2]|] eqn:T; [|inv H; exists []; split; [reflexivity|constructor]].
    apply IHt in T. destruct T as (q & -> & G). destruct (p_next f s2) as [ts0 s3] eqn:N. apply IHn in N. destruct N as (q2 & -> & N).
    inv H. exists (lit "," ++ q ++ q2). split; [rewrite <- !app_assoc; reflexivity|]. constructor; assumption.
Qed.

(** ** The parser is complete *)
Definition stop (r : pystr) : Prop := match r with [] => True | c :: _ => c = c_comma \/ c = c_rparen end.
Definition starts (c : N) (r : pystr) : Prop := exists r', r = c :: r'.

Lemma g_arr_head sa ds : g_arr sa ds -> sa = [] \/ starts c_lbrack sa.
Proof. destruct 1; [left; reflexivity|right; eexists; reflexivity..]. Qed.
Lemma p_dim_complete_none r : p_dim (lit "[]" ++ r) = Some (None, r).
Proof. reflexivity. Qed.
Lemma p_dim_complete_some d n r : numeral d n -> p_dim (lit "[" ++ d ++ lit "]" ++ r) = Some (Some n, r).
Proof.
  intro N. change (lit "[" ++ d ++ lit "]" ++ r) with (c_lbrack :: (d ++ lit "]" ++ r)). unfold p_dim.
  change (p_char c_lbrack (c_lbrack :: d ++ lit "]" ++ r)) with (Some (d ++ lit "]" ++ r)). cbn iota.
  rewrite (p_digits_complete d n) by (exact N || reflexivity). reflexivity.
Qed.
Lemma p_dim_stop r : stop r -> p_dim r = None.
Proof. destruct r as [|c r]; [reflexivity|]. intros [-> | ->]; reflexivity. Qed.
Lemma p_arrlist_complete sa ds r : g_arr sa ds -> stop r -> forall fuel, (length ds <= fuel)%nat -> p_arrlist fuel (sa ++ r) = (ds, r).
Proof.
  intros A R. induction A as [|s ds A IH|d n s ds N A IH]; intros fuel Hf.
  - cbn [app]. destruct fuel; cbn [p_arrlist]; [reflexivity|]. rewrite p_dim_stop by exact R. reflexivity.
  - destruct fuel as [|f]; [cbn in Hf; lia|]. rewrite <- app_assoc. cbn [p_arrlist]. rewrite p_dim_complete_none.
    rewrite IH by (cbn in Hf; lia). reflexivity.
  - destruct fuel as [|f]; [cbn in Hf; lia|]. rewrite <- !app_assoc. cbn [p_arrlist]. rewrite (p_dim_complete_some d n) by exact N.
    rewrite IH by (cbn in Hf; lia). reflexivity.
Qed.
Lemma g_arr_length sa ds : g_arr sa ds -> (length ds <= length sa)%nat.
Proof. induction 1; cbn [length app]; rewrite ?app_length; cbn; lia. Qed.
Lemma p_arrlist_full sa ds r : g_arr sa ds -> stop r -> p_arrlist (length (sa ++ r)) (sa ++ r) = (ds, r).
Proof.
  intros A R. apply p_arrlist_complete; auto. pose proof (g_arr_length _ _ A). rewrite app_length. lia.
Qed.
(** What may follow a basic type's base or sub. *)
Definition stop_arr (r : pystr) : Prop := match r with [] => True | c :: _ => c = c_comma \/ c = c_rparen \/ c = c_lbrack end.
Lemma arr_stop sa ds r : g_arr sa ds -> stop r -> stop_arr (sa ++ r).
Proof.
  intros A R. destruct (g_arr_head _ _ A) as [->|[sa' ->]]; cbn; [|auto]. destruct r; cbn in *; [exact I|intuition].
Qed.
Lemma p_sub_complete ss sub r : g_sub ss sub -> stop_arr r -> p_sub (ss ++ r) = (sub, r).
Proof.
  intros S R. assert (ND : no_digit r) by (destruct r as [|c r]; [exact I|]; destruct R as [-> |[-> | ->]]; reflexivity).
  assert (NX : p_char c_x r = None) by (destruct r as [|c r]; [reflexivity|]; destruct R as [-> |[-> | ->]]; reflexivity).
  destruct S as [|s n N|s1 n1 s2 n2 N1 N2]; unfold p_sub.
  - cbn [app]. rewrite p_digits_none by exact ND. reflexivity.
  - rewrite (p_digits_complete s n) by assumption. rewrite NX. reflexivity.
  - rewrite <- !app_assoc. rewrite (p_digits_complete s1 n1) by (assumption || reflexivity).
    change (p_char c_x (lit "x" ++ s2 ++ r)) with (Some (s2 ++ r)). cbn iota.
    rewrite (p_digits_complete s2 n2) by assumption. reflexivity.
Qed.
Lemma sub_not_alpha ss sub r : g_sub ss sub -> stop_arr r -> match ss ++ r with [] => True | c :: _ => is_alpha c = false end.
Proof.
  assert (D : forall s n r', numeral s n -> match s ++ r' with [] => True | c :: _ => is_alpha c = false end).
  { intros s n r' N. apply numeral_digits in N. destruct N as (c & ds & -> & H & _). cbn. apply is_digit19_digit in H.
    destruct (is_alpha c) eqn:E; [|reflexivity]. apply is_alpha_letter in E. unfold letter, digit in *. lia. }
  intros S R. destruct S as [|s n N|s1 n1 s2 n2 N1 N2].
  - cbn [app]. destruct r as [|c r]; [exact I|]. destruct R as [-> |[-> | ->]]; reflexivity.
  - eapply D; exact N.
  - rewrite <- app_assoc. eapply D; exact N1.
Qed.
Lemma p_alphas_complete b r : alphas b -> match r with [] => True | c :: _ => is_alpha c = false end -> p_alphas (b ++ r) = Some (b, r).
Proof.
  intros [B1 B2] R. unfold p_alphas. rewrite span_complete; [destruct b; [congruence|reflexivity]| |exact R].
  apply forallb_forall. intros x Hx. apply is_alpha_letter. rewrite Forall_forall in B2. auto.
Qed.
Lemma alphas_no_paren b r : alphas b -> p_char c_lparen (b ++ r) = None.
Proof.
  intros [B1 B2]. destruct b as [|c b]; [congruence|]. cbn [app]. inv B2. take (letter c) as L.
  unfold p_char, c_lparen. destruct (N.eqb_spec 40 c); [subst; unfold letter in L; lia|reflexivity].
Qed.
Lemma stop_next ss ts r : g_next ss ts -> stop r -> stop (ss ++ r).
Proof. intros N R. destruct N; [exact R|left; reflexivity]. Qed.

Lemma g_type_nonempty s t : g_type s t -> (0 < length s)%nat.
Proof. destruct 1 as [b ss sub sa arr [B _]|]; [destruct b; [congruence|cbn; lia]|cbn; lia]. Qed.

(** Structural size, to recurse through components. *)
Lemma p_type_complete n : forall s t, (length s <= n)%nat -> g_type s t ->
  forall fuel r, (length s < fuel)%nat -> stop r -> p_type fuel (s ++ r) = Some (t, r).
Proof.
  induction n as [|n IH]; intros s t Hn G fuel r Hf R.
  - pose proof (g_type_nonempty s t G). lia.
  - destruct fuel as [|f]; [lia|]. destruct G as [b ss sub sa arr B S A|s ts sa arr C A].
    + cbn [p_type]. rewrite <- !app_assoc. rewrite alphas_no_paren by exact B.
      pose proof (arr_stop _ _ _ A R) as Q.
      rewrite p_alphas_complete; [|exact B|eapply sub_not_alpha; eassumption].
      rewrite (p_sub_complete ss sub) by assumption. rewrite (p_arrlist_full sa arr) by assumption. reflexivity.
    + rewrite !app_length in Hn, Hf. cbn [length lit] in Hn, Hf.
      change (length (lit "(")) with 1%nat in *. change (length (lit ")")) with 1%nat in *.
      destruct (components_next _ _ C) as (s1 & t & s2 & ts' & -> & -> & H1 & N). rewrite app_length in *.
      rewrite <- !app_assoc. change (lit "(" ++ s1 ++ s2 ++ lit ")" ++ sa ++ r) with (c_lparen :: (s1 ++ s2 ++ lit ")" ++ sa ++ r)).
      cbn [p_type].
      assert (P : forall x, p_char c_lparen (c_lparen :: x) = Some x) by reflexivity. rewrite P.
      assert (R' : stop (lit ")" ++ sa ++ r)) by (right; reflexivity).
      rewrite (IH s1 t) by (try lia; try assumption; apply (stop_next _ _ _ N); exact R').
      assert (PN : forall k s2 ts', (length s2 <= k)%nat -> (k <= n)%nat -> g_next s2 ts' -> forall f, (length s2 < f)%nat ->
                p_next f (s2 ++ lit ")" ++ sa ++ r) = (ts', lit ")" ++ sa ++ r)).
      { clear -IH R'. induction k as [|k IHk]; intros s2 ts' Hk Hkn N f Hf.
        - destruct N; [|cbn in Hk; lia]. destruct f; reflexivity.
        - destruct N as [|s t ss ts H N]; [destruct f; reflexivity|]. destruct f as [|f]; [lia|].
          rewrite !app_length in Hk, Hf. change (length (lit ",")) with 1%nat in *.
          rewrite <- !app_assoc. change (lit "," ++ s ++ ss ++ lit ")" ++ sa ++ r) with (c_comma :: (s ++ ss ++ lit ")" ++ sa ++ r)).
          cbn [p_next]. assert (P : forall x, p_char c_comma (c_comma :: x) = Some x) by reflexivity. rewrite P.
          rewrite (IH s t) by (try lia; try assumption; apply (stop_next _ _ _ N); exact R').
          rewrite (IHk ss ts) by (try lia; assumption). reflexivity. }
      rewrite (PN n s2 ts') by (try lia; assumption).
      assert (Q : forall x, p_char c_rparen (lit ")" ++ x) = Some x) by reflexivity. rewrite Q.
      rewrite (p_arrlist_full sa arr) by assumption. reflexivity.
Qed.

Lemma prefixb_spec p s : prefixb p s = true <-> exists r, s = p ++ r.
Proof.
  revert s. induction p as [|c p IH]; intros s; cbn [prefixb].
  - split; [exists s; reflexivity|reflexivity].
  - destruct s as [|d s]; [split; [discriminate|intros [r H]; discriminate]|].
    rewrite andb_true_iff, N.eqb_eq, IH. split.
    + intros [-> [r ->]]. exists r. reflexivity.
    + intros [r H]. cbn in H. inv H. split; [reflexivity|]. exists r. reflexivity.
Qed.
Lemma contains_spec needle s : contains needle s = true <-> exists a b, s = a ++ needle ++ b.
Proof.
  induction s as [|c s IH]; cbn [contains]; rewrite orb_true_iff, prefixb_spec.
  - split.
    + intros [[r H]|H]; [exists [], r; exact H|discriminate].
    + intros (a & b & H). left. destruct a; [exists b; exact H|discriminate].
  - rewrite IH. split.
    + intros [[r H]|(a & b & ->)]; [exists [], r; exact H|exists (c :: a), b; reflexivity].
    + intros (a & b & H). destruct a as [|d a]; [left; exists b; exact H|]. inv H. right. exists a, b. reflexivity.
Qed.

(** ** parse *)
Theorem parse_spec s t : parse s = Ok t <-> g_type s t.
Proof.
  unfold parse. split.
  - destruct (p_type (S (length s)) s) as [[t0 [|c r]]|] eqn:E; try (destruct (contains _ _); discriminate).
    intro H. inv H. apply p_sound in E. destruct E as (q & -> & G). rewrite app_nil_r. exact G.
  - intro G. pose proof (p_type_complete (length s) s t ltac:(lia) G (S (length s)) [] ltac:(lia) I) as E.
    rewrite app_nil_r in E. rewrite E. reflexivity.
Qed.
Theorem parse_err s e : parse s = Err e ->
  (~ exists t, g_type s t) /\ (e = ValueError /\ (exists a b, s = a ++ lit "()" ++ b) \/ e = ParseError /\ ~ (exists a b, s = a ++ lit "()" ++ b)).
Proof.
  intro H. split; [intros [t G]; apply parse_spec in G; congruence|]. unfold parse in H.
  destruct (p_type _ _) as [[t0 [|c r]]|]; try discriminate;
    (destruct (contains (lit "()") s) eqn:C; inv H; [left; split; [reflexivity|apply contains_spec; exact C]|];
     right; split; [reflexivity|]; intro K; apply contains_spec in K; congruence).
Qed.

(** ** Printing *)
Lemma g_sub_str ss sub : g_sub ss sub -> sub_str sub = ss.
Proof. destruct 1; cbn [sub_str]; rewrite ?(numeral_str _ _ H), ?(numeral_str _ _ H0); reflexivity. Qed.
Lemma g_arr_str sa ds : g_arr sa ds -> flat_map dim_str ds = sa.
Proof.
  induction 1 as [|s ds A IH|d n s ds N A IH]; cbn [flat_map dim_str]; [reflexivity|rewrite IH; reflexivity|].
  rewrite IH, (numeral_str _ _ N), <- !app_assoc. reflexivity.
Qed.
Lemma g_type_str : (forall s t, g_type s t -> to_type_str t = s)
  /\ (forall s ts, g_components s ts -> join_comma (map to_type_str ts) = s).
Proof.
  apply g_mut.
  - intros b ss sub sa arr B S A. cbn [to_type_str]. rewrite (g_sub_str _ _ S), (g_arr_str _ _ A). reflexivity.
  - intros s ts sa arr C IH A. cbn [to_type_str]. rewrite IH, (g_arr_str _ _ A). reflexivity.
  - intros s t G IH. cbn. exact IH.
  - intros s t ss ts G IH C IHc. cbn [map]. rewrite IH. destruct ts as [|t' ts]; [inv C|]. cbn [map join_comma] in *.
    rewrite IHc. reflexivity.
Qed.
Theorem parse_print s t : parse s = Ok t -> to_type_str t = s.
Proof. intro H. apply parse_spec in H. apply g_type_str. exact H. Qed.

(** Trees the grammar can produce. *)
Definition dim_ok (d : dim) : Prop := match d with None => True | Some n => 1 <= n end.
Definition sub_ok (s : subtype) : Prop :=
  match s with SubNone => True | SubInt n => 1 <= n | SubPair a b => 1 <= a /\ 1 <= b end.
Inductive ast_ok : abi_type -> Prop :=
| A_basic b sub arr : alphas b -> sub_ok sub -> Forall dim_ok arr -> ast_ok (Basic b sub arr)
| A_tup ts arr : ts <> [] -> Forall ast_ok ts -> Forall dim_ok arr -> ast_ok (Tup ts arr).
Lemma sub_ok_g sub : sub_ok sub -> g_sub (sub_str sub) sub.
Proof.
  destruct sub; cbn [sub_str]; intro H; [constructor|constructor; apply str_numeral; exact H|].
  destruct H. constructor; apply str_numeral; assumption.
Qed.
Lemma arr_ok_g arr : Forall dim_ok arr -> g_arr (flat_map dim_str arr) arr.
Proof.
  induction 1 as [|[n|] arr D F IH]; cbn [flat_map dim_str]; [constructor| |constructor; exact IH].
  rewrite <- !app_assoc. constructor; [apply str_numeral; exact D|exact IH].
Qed.
Lemma abi_type_ind' (P : abi_type -> Prop) :
  (forall b sub arr, P (Basic b sub arr)) -> (forall ts arr, Forall P ts -> P (Tup ts arr)) -> forall t, P t.
Proof.
  intros H1 H2. fix IH 1. intros [b sub arr|ts arr]; [apply H1|]. apply H2. induction ts; constructor; auto.
Qed.
Theorem print_g t : ast_ok t -> g_type (to_type_str t) t.
Proof.
  induction t as [b sub arr|ts arr IH] using abi_type_ind'; intro H; inv H.
  - cbn [to_type_str]. constructor; auto using sub_ok_g, arr_ok_g.
  - cbn [to_type_str]. constructor; [|apply arr_ok_g; assumption]. take (Forall ast_ok ts) as A. take (ts <> []) as Ne.
    clear -IH A Ne. induction IH as [|t ts Ht IH IHts]; [congruence|]. inv A. destruct ts as [|t' ts].
    + cbn. constructor. auto.
    + change (join_comma (map to_type_str (t :: t' :: ts))) with (to_type_str t ++ lit "," ++ join_comma (map to_type_str (t' :: ts))).
      constructor; [auto|]. apply IHts; (assumption || discriminate).
Qed.
Lemma g_sub_ok ss sub : g_sub ss sub -> sub_ok sub.
Proof. destruct 1; cbn; eauto using numeral_pos. Qed.
Lemma g_arr_ok sa ds : g_arr sa ds -> Forall dim_ok ds.
Proof. induction 1; constructor; cbn; eauto using numeral_pos. Qed.
Lemma g_type_ok : (forall s t, g_type s t -> ast_ok t) /\ (forall s ts, g_components s ts -> ts <> [] /\ Forall ast_ok ts).
Proof.
  apply g_mut.
  - intros. constructor; eauto using g_sub_ok, g_arr_ok.
  - intros s ts sa arr C [H1 H2] A. constructor; eauto using g_arr_ok.
  - intros s t G H. split; [discriminate|]. constructor; [exact H|constructor].
  - intros s t ss ts G H C [_ H2]. split; [discriminate|]. constructor; assumption.
Qed.
Theorem parse_iff s t : parse s = Ok t <-> ast_ok t /\ s = to_type_str t.
Proof.
  split.
  - intro H. split; [|symmetry; apply parse_print; exact H]. apply parse_spec in H. eapply g_type_ok. exact H.
  - intros [H ->]. apply parse_spec, print_g. exact H.
Qed.
