(** Lemmas for the texts of messages. *)
From Coq Require Import Strings.String Lia.
From Verif Require Import Tac Py Bytes Grammar GrammarSpec GrammarProofs Registry Notices Texts TextSpec.
Open Scope N_scope.

(** ** Numerals *)
Lemma hex_digit_value d : d < 16 -> digit_value (hex_digit d) = Some d.
Proof.
  intro H. unfold hex_digit. destruct (N.ltb_spec d 10).
  - unfold digit_value. replace (48 <=? 48 + d) with true by lia. replace (48 + d <=? 57) with true by lia. cbn [andb]. f_equal. lia.
  - unfold digit_value. replace (87 + d <=? 57) with false by lia. rewrite Bool.andb_false_r.
    replace (87 + d <=? 70) with false by lia. rewrite Bool.andb_false_r.
    replace (97 <=? 87 + d) with true by lia. replace (87 + d <=? 102) with true by lia. cbn [andb]. f_equal. lia.
Qed.
Lemma hex_length k c : length (hex_digits k c) = k.
Proof. revert c. induction k as [|k IH]; intro c; [reflexivity|]. cbn [hex_digits]. rewrite app_length, IH. cbn. lia. Qed.
Lemma hex_numeral k : forall c, c < 16 ^ N.of_nat k -> TextSpec.numeral (hex_digits k c) c.
Proof.
  induction k as [|k IH]; intros c H.
  - cbn in H. replace c with 0 by lia. constructor.
  - cbn [hex_digits]. replace (TextSpec.numeral (hex_digits k (c / 16) ++ [hex_digit (c mod 16)]) c)
      with (TextSpec.numeral (hex_digits k (c / 16) ++ [hex_digit (c mod 16)]) (16 * (c / 16) + c mod 16)) by (rewrite <- N.div_mod'; reflexivity).
    constructor.
    + apply IH. apply N.div_lt_upper_bound; [lia|]. rewrite Nat2N.inj_succ, N.pow_succ_r' in H. exact H.
    + apply hex_digit_value. apply N.mod_lt. lia.
Qed.
Lemma numeral_unique ds c : TextSpec.numeral ds c -> forall c', TextSpec.numeral ds c' -> c = c'.
Proof.
  induction 1 as [|ds c d v H IH D]; intros c' H'.
  - inversion H' as [|ds' c0 d0 v0 A B C]; subst; [reflexivity|]. destruct ds'; discriminate.
  - inversion H' as [E|ds' c0 d0 v0 A B C]; subst; [destruct ds; discriminate|].
    match goal with E : ds' ++ [d0] = ds ++ [d] |- _ => apply app_inj_tail in E; destruct E; subst end.
    rewrite D in B. inv B. rewrite (IH _ A). reflexivity.
Qed.

(** ** repr is a literal *)
Lemma quote_cases s : quote_of s = 39 \/ quote_of s = 34.
Proof. unfold quote_of. destruct (_ && _); auto. Qed.
Lemma escape_spells pr q c t s : q = 39 \/ q = 34 -> c < 1114112 -> spells q t s -> spells q (escape pr q c ++ t) (c :: s).
Proof.
  intros Q H S. unfold escape.
  destruct (N.eqb_spec c q) as [->|Nq]; cbn [orb].
  { cbn [app]. apply SP_sign; [|exact S]. destruct Q as [-> | ->]; cbn; tauto. }
  destruct (N.eqb_spec c 92) as [->|N92]; [cbn [app]; apply SP_sign; [cbn; tauto|exact S]|].
  destruct (N.eqb_spec c 9) as [->|N9]; [change (lit "\t") with [92; 116]; cbn [app]; apply SP_sign; [cbn; tauto|exact S]|].
  destruct (N.eqb_spec c 10) as [->|N10]; [change (lit "\n") with [92; 110]; cbn [app]; apply SP_sign; [cbn; tauto|exact S]|].
  destruct (N.eqb_spec c 13) as [->|N13]; [change (lit "\r") with [92; 114]; cbn [app]; apply SP_sign; [cbn; tauto|exact S]|].
  change (lit "\x") with [92; 120]. change (lit "\u") with [92; 117]. change (lit "\U") with [92; 85].
  assert (X : c < 256 -> spells q (([92; 120] ++ hex_digits 2 c) ++ t) (c :: s)).
  { intro L. cbn [app]. apply (SP_code q 120 2 (hex_digits 2 c)); [cbn; tauto|apply hex_length|apply hex_numeral; exact L|exact S]. }
  destruct ((c <? 32) || (c =? 127)) eqn:B; [apply X; lia|].
  assert (P : spells q ([c] ++ t) (c :: s)) by (apply SP_char; assumption).
  destruct (c <? 127); [exact P|]. destruct (pr c); [exact P|].
  destruct (N.ltb_spec c 256); [apply X; assumption|].
  destruct (N.ltb_spec c 65536).
  - cbn [app]. apply (SP_code q 117 4 (hex_digits 4 c)); [cbn; tauto|apply hex_length|apply hex_numeral; assumption|exact S].
  - cbn [app]. apply (SP_code q 85 8 (hex_digits 8 c)); [cbn; tauto|apply hex_length|apply hex_numeral; cbn; lia|exact S].
Qed.
Lemma escapes_spell pr q s : q = 39 \/ q = 34 -> code_points s -> spells q (flat_map (escape pr q) s) s.
Proof. intros Q H. induction H as [|c s Hc Hs IH]; [constructor|]. cbn [flat_map]. apply escape_spells; assumption. Qed.
Theorem repr_literal pr s : code_points s -> literal (repr pr s) s.
Proof. intro H. constructor; [apply quote_cases|]. apply escapes_spell; [apply quote_cases|exact H]. Qed.

(** Literals are read in one way only. *)
Lemma app_same_length {A} (a a' b b' : list A) : length a = length a' -> a ++ b = a' ++ b' -> a = a' /\ b = b'.
Proof.
  revert a'. induction a as [|x a IH]; intros [|y a'] L E; try discriminate L; [auto|]. inv E. destruct (IH a') as [-> ->]; auto.
Qed.
Lemma spells_unique q : q = 39 \/ q = 34 -> forall t s, spells q t s -> forall t' s' r r', spells q t' s' ->
  t ++ q :: r = t' ++ q :: r' -> s = s' /\ t = t' /\ r = r'.
Proof.
  intro Q. induction 1 as [|c t s Nq N92 N10 H IH|e c t s I H IH|x k ds c t s I L U H IH]; intros t' s' r r' H' E.
  - inversion H'; subst; cbn [app] in E.
    + inv E. auto.
    + exfalso. congruence.
    + exfalso. destruct Q as [-> | ->]; discriminate E.
    + exfalso. destruct Q as [-> | ->]; discriminate E.
  - inversion H'; subst; cbn [app] in E.
    + exfalso. congruence.
    + injection E as -> E. destruct (IH _ _ _ _ ltac:(eassumption) E) as (-> & -> & ->). auto.
    + exfalso. congruence.
    + exfalso. congruence.
  - inversion H' as [|c0 t0 s0 A1 A2 A3 A4|e0 c0 t0 s0 I0 A|x0 k0 ds0 c0 t0 s0 I0 L0 U0 A]; subst; cbn [app] in E.
    + exfalso. destruct Q as [-> | ->]; discriminate E.
    + exfalso. congruence.
    + injection E as -> E. destruct (IH _ _ _ _ A E) as (-> & -> & ->). split; [|auto]. f_equal.
      cbn in I, I0. clear - I I0. intuition congruence.
    + exfalso. injection E as -> E. cbn in I, I0. clear - I I0. intuition congruence.
  - inversion H' as [|c0 t0 s0 A1 A2 A3 A4|e0 c0 t0 s0 I0 A|x0 k0 ds0 c0 t0 s0 I0 L0 U0 A]; subst; cbn [app] in E.
    + exfalso. destruct Q as [-> | ->]; discriminate E.
    + exfalso. congruence.
    + exfalso. injection E as -> E. cbn in I, I0. clear - I I0. intuition congruence.
    + injection E as -> E. rewrite <- !app_assoc in E. apply app_same_length in E.
      * destruct E as [-> E]. destruct (IH _ _ _ _ A E) as (-> & -> & ->). rewrite (numeral_unique _ _ U _ U0). auto.
      * cbn in I, I0. clear - I I0. intuition congruence.
Qed.
Lemma literal_inv t s : literal t s -> exists q u, t = q :: u ++ [q] /\ (q = 39 \/ q = 34) /\ spells q u s.
Proof. intros [q u s1 Q H]. exists q, u. auto. Qed.
Theorem literal_unique t s s' : literal t s -> literal t s' -> s = s'.
Proof.
  intros L L'. apply literal_inv in L, L'. destruct L as (q & u & E & Q & H), L' as (q' & u' & E' & Q' & H').
  rewrite E in E'. injection E' as X E'. rewrite <- X in *. apply (spells_unique q Q u s H u' s' [] [] H' E').
Qed.

(** ** Matchers, from the left *)
Lemma repr_left pr s s' r r' : code_points s -> code_points s' -> repr pr s ++ r = repr pr s' ++ r' -> s = s' /\ r = r'.
Proof.
  intros H H' E. unfold repr in E. cbn [app] in E. rewrite <- !app_assoc in E. cbn [app] in E. injection E as Q E. rewrite <- Q in E.
  destruct (spells_unique (quote_of s) (quote_cases s) _ _ (escapes_spell pr _ s (quote_cases s) H) _ s' r r'
              (escapes_spell pr _ s' (quote_cases s) H') E) as (A & _ & B). auto.
Qed.
Ltac strings := unfold lit in *; cbn [list_ascii_of_string map app] in *.
Lemma repr_head pr s : exists q r, repr pr s = q :: r /\ (q = 39 \/ q = 34).
Proof. eexists _, _. split; [reflexivity|apply quote_cases]. Qed.
(** ** From the right *)
Lemma hex_in k c x : In x (hex_digits k c) -> 48 <= x.
Proof.
  revert c. induction k as [|k IH]; intros c; cbn [hex_digits]; [contradiction|]. rewrite in_app_iff. intros [I|[<-|[]]]; [eapply IH; exact I|].
  unfold hex_digit. destruct (_ <? 10); lia.
Qed.
Lemma escape_quote pr q c a b : q = 39 \/ q = 34 -> escape pr q c = a ++ q :: b -> exists a', a = a' ++ [92].
Proof.
  intros Q. unfold escape. destruct (N.eqb_spec c q) as [->|Nq]; cbn [orb].
  { destruct a as [|x [|y [|z a]]]; cbn [app]; intro E; try (injection E; intros; subst; destruct Q; discriminate); try (exists []; injection E as ->; reflexivity).
  }
  assert (H : forall l, ~ In q l -> l = a ++ q :: b -> exists a', a = a' ++ [92]).
  { intros l N ->. exfalso. apply N. apply in_or_app. right. left. reflexivity. }
  assert (X : forall k, ~ In q (lit "\x" ++ hex_digits k c) /\ ~ In q (lit "\u" ++ hex_digits k c) /\ ~ In q (lit "\U" ++ hex_digits k c)).
  { intro k. repeat split; rewrite in_app_iff; intros [I|I]; try (apply hex_in in I; lia); strings; cbn in I; lia. }
  repeat match goal with |- context [if ?x then _ else _] => destruct x end; apply H; try apply X; strings; cbn; try lia; intuition congruence || lia.
Qed.
Lemma escapes_quote pr q s : q = 39 \/ q = 34 -> forall a b, flat_map (escape pr q) s = a ++ q :: b -> exists a', a = a' ++ [92].
Proof.
  intros Q. induction s as [|c s IH]; intros a b E; cbn [flat_map] in E; [destruct a; discriminate|].
  apply app_eq_app in E. destruct E as (l & [[E1 E2]|[E1 E2]]).
  - destruct l as [|x l].
    + rewrite app_nil_r in E1. symmetry in E2. destruct (IH [] b E2) as (a' & X). destruct a'; discriminate.
    + injection E2 as <- E2. eapply escape_quote; [exact Q|exact E1].
  - destruct (IH l b E2) as (a' & ->). exists (escape pr q c ++ a'). rewrite E1, app_assoc. reflexivity.
Qed.
Lemma repr_right pr s s' x x' r : code_points s -> code_points s' ->
  x ++ 32 :: repr pr s ++ r = x' ++ 32 :: repr pr s' ++ r -> s = s' /\ x = x'.
Proof.
  intros H H' E. rewrite !app_comm_cons, !app_assoc in E. apply app_inv_tail in E. unfold repr in E.
  assert (E2 : (x ++ 32 :: quote_of s :: flat_map (escape pr (quote_of s)) s) ++ [quote_of s]
             = (x' ++ 32 :: quote_of s' :: flat_map (escape pr (quote_of s')) s') ++ [quote_of s']).
  { rewrite <- !app_assoc. cbn [app] in *. exact E. }
  apply app_inj_tail in E2. destruct E2 as [E2 Q]. clear E. rewrite <- Q in E2.
  pose proof (quote_cases s) as Qs. set (q := quote_of s) in *.
  assert (G : forall u v l, q :: flat_map (escape pr q) u = l ++ 32 :: q :: v -> False).
  { intros u v [|y l] L; cbn [app] in L; injection L as L1 L2; [destruct Qs; congruence|].
    change (flat_map (escape pr q) u = l ++ [32] ++ q :: v) in L2. rewrite app_assoc in L2.
    apply (escapes_quote pr q u Qs) in L2. destruct L2 as (a' & L2). apply app_inj_tail in L2. destruct L2. discriminate. }
  assert (X : x = x' /\ flat_map (escape pr q) s = flat_map (escape pr q) s').
  { apply app_eq_app in E2. destruct E2 as (l & [[E1 E2]|[E1 E2]]); destruct l as [|y l]; cbn [app] in E2.
    - rewrite app_nil_r in E1. split; congruence.
    - exfalso. injection E2 as _ E2. exact (G _ _ _ E2).
    - rewrite app_nil_r in E1. split; congruence.
    - exfalso. injection E2 as _ E2. exact (G _ _ _ E2). }
  destruct X as [X F]. split; [|exact X].
  destruct (spells_unique q Qs _ _ (escapes_spell pr q s Qs H) _ s' [] [] (escapes_spell pr q s' Qs H')) as [A _]; [rewrite F; reflexivity|exact A].
Qed.
Lemma repr_last pr s : exists q r, repr pr s = r ++ [q] /\ (q = 39 \/ q = 34).
Proof. exists (quote_of s), (quote_of s :: flat_map (escape pr (quote_of s)) s). split; [reflexivity|apply quote_cases]. Qed.
Section Texts.
Context (pr : N -> bool) (other : pred -> pystr).
Notation mr := (matcher_repr pr other).
Lemma matcher_left p p' r r' : telling p -> telling p' -> mr p ++ r = mr p' ++ r' -> alike p p' /\ r = r'.
Proof.
  unfold telling, alike, matcher_repr. destruct (pkind p) as [v|b w| | |]; try contradiction; destruct (pkind p') as [v'|b' w'| | |]; try contradiction;
    intros H H' E; rewrite <- !app_assoc in E.
  - apply app_inv_head in E. apply repr_left in E; [|assumption..]. destruct E as [-> E]. apply app_inv_head in E. auto.
  - exfalso. strings. discriminate E.
  - exfalso. strings. discriminate E.
  - apply app_inv_head in E. apply repr_left in E; [|assumption..]. destruct E as [-> E].
    destruct w as [[]|], w' as [[]|]; strings; try discriminate E; injection E as ->; auto.
Qed.
Ltac backwards E := apply (f_equal (@rev N)) in E; rewrite ?rev_app_distr in E; strings; cbn [rev app] in E; rewrite <- ?app_assoc in E; cbn [app] in E.
Definition endings : list pystr := [lit ")>"; lit " and sub is not None)>"; lit " and sub is None)>"].
Lemma same_ending x x' v v' e e' : In e endings -> In e' endings -> x ++ repr pr v ++ e = x' ++ repr pr v' ++ e' -> e = e'.
Proof.
  intros I I' E. destruct (repr_last pr v) as (q & t & R & Q), (repr_last pr v') as (q' & t' & R' & Q'). rewrite R, R' in E. clear R R'.
  cbn in I, I'. repeat (destruct I as [<-|I]); try contradiction; repeat (destruct I' as [<-|I']); try contradiction; try reflexivity; exfalso;
    backwards E; injection E; intros; destruct Q, Q'; subst; discriminate.
Qed.
(** The repr of these matchers, cut around the string. *)
Definition start_of (p : pred) : pystr := match pkind p with KEquals _ => lit "<Equals (==" | _ => lit "<BaseEquals (base ==" end.
Definition string_of (p : pred) : pystr := match pkind p with KEquals v => v | KBaseEquals b _ => b | _ => [] end.
Definition end_of (p : pred) : pystr :=
  match pkind p with
  | KBaseEquals _ (Some true) => lit " and sub is not None)>"
  | KBaseEquals _ (Some false) => lit " and sub is None)>"
  | _ => lit ")>"
  end.
Lemma matcher_parts p : telling p -> mr p = start_of p ++ 32 :: repr pr (string_of p) ++ end_of p
  /\ code_points (string_of p) /\ In (end_of p) endings.
Proof.
  unfold telling, matcher_repr, start_of, string_of, end_of. destruct (pkind p) as [v|b w| | |]; try contradiction; intro H.
  - split; [reflexivity|]. split; [exact H|left; reflexivity].
  - split; [destruct w as [[]|]; reflexivity|]. split; [exact H|]. destruct w as [[]|]; cbn; tauto.
Qed.
Lemma matcher_right p p' x x' : telling p -> telling p' -> x ++ mr p = x' ++ mr p' -> alike p p' /\ x = x'.
Proof.
  intros T T' E. destruct (matcher_parts p T) as (R & C & I), (matcher_parts p' T') as (R' & C' & I'). rewrite R, R' in E.
  assert (E2 : (x ++ start_of p) ++ 32 :: repr pr (string_of p) ++ end_of p = (x' ++ start_of p') ++ 32 :: repr pr (string_of p') ++ end_of p')
    by (rewrite <- !app_assoc; exact E).
  assert (Z : end_of p = end_of p').
  { apply (same_ending ((x ++ start_of p) ++ [32]) ((x' ++ start_of p') ++ [32]) (string_of p) (string_of p') _ _ I I').
    rewrite <- !app_assoc in *. exact E2. }
  rewrite <- Z in E2. apply repr_right in E2; [|assumption..]. destruct E2 as [V E2]. clear R R' E.
  unfold alike, telling, start_of, string_of, end_of in *.
  destruct (pkind p) as [v|b w| | |]; try contradiction; destruct (pkind p') as [v'|b' w'| | |]; try contradiction.
  - apply app_inv_tail in E2. subst. auto.
  - exfalso. backwards E2. discriminate E2.
  - exfalso. backwards E2. discriminate E2.
  - apply app_inv_tail in E2. subst. split; [|reflexivity]. destruct w as [[]|], w' as [[]|]; strings; try discriminate Z; reflexivity.
Qed.
Lemma comma_cons x l : l <> [] -> comma (x :: l) = x ++ lit ", " ++ comma l.
Proof. destruct l; [contradiction|reflexivity]. Qed.
Lemma comma_snoc l x : l <> [] -> comma (l ++ [x]) = comma l ++ lit ", " ++ x.
Proof.
  induction l as [|y l IH]; intro N; [contradiction|]. destruct l as [|z l]; [reflexivity|].
  change ((y :: z :: l) ++ [x]) with (y :: ((z :: l) ++ [x])).
  rewrite (comma_cons y ((z :: l) ++ [x])) by (cbn; discriminate). rewrite IH by discriminate. rewrite (comma_cons y (z :: l)) by discriminate. rewrite <- !app_assoc. reflexivity.
Qed.
Lemma commas_right ps : forall ps' x x', ps <> [] -> ps' <> [] -> Forall telling ps -> Forall telling ps' ->
  x ++ lit ": " ++ comma (map mr ps) = x' ++ lit ": " ++ comma (map mr ps') -> x = x' /\ Forall2 alike ps ps'.
Proof.
  induction ps as [|p ps IH] using rev_ind; intros ps' x x' N N' T T' E; [contradiction|]. clear N.
  destruct ps' as [|p' ps'] using rev_ind; [contradiction|]. clear IHps' N'.
  rewrite Forall_app in T, T'. destruct T as [T Tp], T' as [T' Tp']. inversion Tp as [|? ? Hp _]; inversion Tp' as [|? ? Hp' _]; subst.
  rewrite !map_app in E. cbn [map] in E.
  assert (S : forall y qs q, exists z, y ++ lit ": " ++ comma (map mr qs ++ [mr q]) = z ++ mr q
              /\ (qs = [] /\ z = y ++ lit ": " \/ qs <> [] /\ z = (y ++ lit ": " ++ comma (map mr qs)) ++ lit ", ")).
  { intros y qs q. destruct qs as [|q0 qs].
    - exists (y ++ lit ": "). split; [cbn [map app comma]; rewrite <- app_assoc; reflexivity|left; auto].
    - eexists. split; [rewrite comma_snoc by discriminate; rewrite !app_assoc; reflexivity|]. right. split; [discriminate|]. rewrite !app_assoc. reflexivity. }
  destruct (S x ps p) as (z & Z & CZ), (S x' ps' p') as (z' & Z' & CZ'). rewrite Z, Z' in E.
  apply matcher_right in E; [|assumption..]. destruct E as [A E]. clear S Z Z'.
  destruct CZ as [[-> ->]|[N ->]], CZ' as [[-> ->]|[N' ->]].
  - apply app_inv_tail in E. split; [exact E|]. constructor; [exact A|constructor].
  - exfalso. backwards E. discriminate E.
  - exfalso. backwards E. discriminate E.
  - apply app_inv_tail in E. destruct (IH ps' x x' N N' T T' E) as [X F]. split; [exact X|]. apply Forall2_app; [exact F|]. constructor; [exact A|constructor].
Qed.

(** ** Messages *)
Lemma table_right t t' x x' : x ++ table_name t = x' ++ table_name t' -> t = t' /\ x = x'.
Proof.
  destruct t, t'; cbn [table_name]; intro E.
  - apply app_inv_tail in E. auto.
  - exfalso. backwards E. discriminate E.
  - exfalso. backwards E. discriminate E.
  - apply app_inv_tail in E. auto.
Qed.
Lemma named_right t t' x x' y : x ++ y ++ table_name t = x' ++ y ++ table_name t' -> t = t' /\ x = x'.
Proof. rewrite !app_assoc. intro E. apply table_right in E. destruct E as [-> E]. apply app_inv_tail in E. auto. Qed.
Lemma cut_blank a a' r r' : ~ In 32 a -> ~ In 32 a' -> a ++ 32 :: r = a' ++ 32 :: r' -> a = a' /\ r = r'.
Proof.
  revert a'. induction a as [|c a IH]; intros [|c' a'] N N' E; cbn [app] in E.
  - injection E as ->. auto.
  - exfalso. injection E as E _. apply N'. left. auto.
  - exfalso. injection E as E _. apply N. left. auto.
  - injection E as -> E. destruct (IH a') as [-> ->]; auto; [intro I; apply N; right; exact I|intro I; apply N'; right; exact I].
Qed.
Definition after_type (r : pystr) : Prop := match r with [] => True | c :: _ => c = 58 end.
Definition opt_points (n : option pystr) : Prop := match n with Some n => code_points n | None => True end.
Lemma shown_left ts ts' n n' r r' : code_points ts -> code_points ts' -> opt_points n -> opt_points n' -> after_type r -> after_type r' ->
  type_str_repr pr ts n ++ r = type_str_repr pr ts' n' ++ r' -> ts = ts' /\ n = n' /\ r = r'.
Proof.
  intros C C' N N' R R' E. destruct n as [n|], n' as [n'|]; cbn [type_str_repr opt_points] in *; rewrite <- ?app_assoc in E;
    apply repr_left in E; try assumption; destruct E as [-> E].
  - apply app_inv_head in E. apply repr_left in E; [|assumption..]. destruct E as [-> E]. apply app_inv_head in E. auto.
  - exfalso. subst r'. strings. cbn [after_type] in R'. discriminate R'.
  - exfalso. subst r. strings. cbn [after_type] in R. discriminate R.
  - auto.
Qed.
Lemma some_inj (a b : pystr) : Some a = Some b -> a = b.
Proof. congruence. Qed.
Notation text := (text pr other).
Theorem text_same n n' x : telling_notice n -> telling_notice n' -> text n = Some x -> text n' = Some x -> same_notice n n'.
Proof.
  intros T T' E E'.
  destruct n as [t p|t p l|t ts|t ts ps|t p|t l| |c ts n why|e]; try discriminate E;
  destruct n' as [t' p'|t' p' l'|t' ts'|t' ts' ps'|t' p'|t' l'| |c' ts' n' why'|e']; try discriminate E';
  rewrite <- E' in E; clear E' x; cbn [Texts.text telling_notice same_notice] in *; apply some_inj in E.
  all: try (exfalso; strings; discriminate E).
  all: try (apply app_inv_head in E; apply matcher_left in E; [|assumption..]; destruct E as [A E]; try (exfalso; strings; discriminate E);
            apply app_inv_head in E).
  - apply (table_right t t' [] []) in E. tauto.
  - apply named_right in E. tauto.
  - apply app_inv_head in E. apply named_right in E. exact E.
  - apply app_inv_head in E. destruct T as [N T], T' as [N' T'].
    assert (E2 : (ts ++ lit "' in " ++ table_name t) ++ lit ": " ++ comma (map mr ps) = (ts' ++ lit "' in " ++ table_name t') ++ lit ": " ++ comma (map mr ps')).
    { apply (app_inv_tail advice). rewrite <- !app_assoc. exact E. }
    apply commas_right in E2; [|assumption..]. destruct E2 as [E2 F]. apply named_right in E2. tauto.
  - apply (table_right t t' [] []) in E. tauto.
  - apply app_inv_head in E. apply named_right in E. exact E.
  - destruct T as (Nc & C & N), T' as (Nc' & C' & N'). apply app_inv_head in E.
    assert (E2 : exists r r', (lit c ++ 32 :: r = lit c' ++ 32 :: r') /\
      let say ts n why := match why with
            | NotBasic => lit "for non-basic type " ++ type_str_repr pr ts n
            | NotTuple => lit "for non-tuple type " ++ type_str_repr pr ts n
            | NotBase b => lit "for type " ++ type_str_repr pr ts n ++ lit ": expected type with base '" ++ b ++ lit "'"
            | HasDims => lit "for type " ++ type_str_repr pr ts n ++ lit ": expected type with no array dimension list"
            | LacksDims => lit "for type " ++ type_str_repr pr ts n ++ lit ": expected type with array dimension list"
            end in r = say ts n why /\ r' = say ts' n' why').
    { eexists _, _. split; [|split; reflexivity]. destruct why, why'; exact E. }
    destruct E2 as (r & r' & E2 & -> & ->). apply cut_blank in E2; [|assumption..]. destruct E2 as [-> E2]. split; [reflexivity|]. clear E.
    assert (Q : forall a a', type_str_repr pr ts n ++ a = type_str_repr pr ts' n' ++ a' -> after_type a -> after_type a' ->
                ts = ts' /\ n = n' /\ a = a') by (intros a a' X Y Y'; apply shown_left; assumption).
    destruct why, why'; try (exfalso; strings; discriminate E2); apply app_inv_head in E2;
      try (destruct (Q [] []) as (-> & -> & _); [rewrite !app_nil_r; exact E2|exact I|exact I|]; auto; fail);
      (apply Q in E2; [|reflexivity|reflexivity]); destruct E2 as (-> & -> & E2);
      try (exfalso; strings; discriminate E2); try (auto; fail).
    apply app_inv_head, app_inv_tail in E2. rewrite E2. auto.
Qed.

(** ** "No matching" in a message *)
Notation nm := (lit "No matching").
Lemma inside_iff w s : contains w s = true <-> inside w s.
Proof. apply contains_spec. Qed.
Lemma inside_left w x y : inside w x -> inside w (x ++ y).
Proof. intros (a & b & ->). exists a, (b ++ y). rewrite <- !app_assoc. reflexivity. Qed.
Lemma inside_right w x y : inside w y -> inside w (x ++ y).
Proof. intros (a & b & ->). exists (x ++ a), b. rewrite <- !app_assoc. reflexivity. Qed.
Lemma inside_cut w c x y : w <> [] -> ~ In c w -> inside w (x ++ c :: y) -> inside w x \/ inside w y.
Proof.
  intros W N (a & b & E). apply app_eq_app in E. destruct E as (l & [[-> E]|[-> E]]).
  - apply app_eq_app in E. destruct E as (k & [[-> E]|[-> E]]).
    + destruct k as [|d k]; [left; exists a, []; rewrite !app_nil_r; reflexivity|]. exfalso. injection E as <- _. apply N. apply in_or_app. right. left. reflexivity.
    + left. exists a, k. reflexivity.
  - destruct l as [|d l]; cbn [app] in E.
    + destruct w as [|d w]; [contradiction|]. exfalso. injection E as <- _. apply N. left. reflexivity.
    + right. injection E as _ ->. exists l, b. reflexivity.
Qed.
Lemma escape_plain q c d r : escape pr q c = d :: r -> d = 92 \/ d = c /\ r = [].
Proof.
  unfold escape. strings. repeat match goal with |- context [if ?x then _ else _] => destruct x end; intro E; injection E; auto.
Qed.
Lemma escape_some q c : escape pr q c <> [].
Proof. unfold escape. strings. repeat match goal with |- context [if ?x then _ else _] => destruct x end; discriminate. Qed.
Lemma escapes_start q u s b : ~ In 92 u -> flat_map (escape pr q) s = u ++ b -> exists s', s = u ++ s'.
Proof.
  revert s. induction u as [|d u IH]; intros s N E; [exists s; reflexivity|]. destruct s as [|c s]; [discriminate|]. cbn [flat_map app] in E.
  destruct (escape pr q c) as [|x r] eqn:X; [destruct (escape_some _ _ X)|]. cbn [app] in E. injection E as <- E.
  destruct (escape_plain _ _ _ _ X) as [->|[-> ->]]; [exfalso; apply N; left; reflexivity|]. cbn [app] in E.
  destruct (IH s) as (s' & ->); [intro I; apply N; right; exact I|exact E|]. exists s'. reflexivity.
Qed.
Lemma escape_upper q c a b : q = 39 \/ q = 34 -> escape pr q c = a ++ 78 :: b -> a = [] /\ c = 78.
Proof.
  intro Q. unfold escape. destruct ((c =? q) || (c =? 92)) eqn:B.
  { intro E. destruct a as [|x [|y a]]; cbn [app] in E; injection E; intros; subst; try discriminate; try lia. destruct a; discriminate. }
  assert (H : forall l, ~ In 78 l -> l = a ++ 78 :: b -> a = [] /\ c = 78).
  { intros l N ->. exfalso. apply N. apply in_or_app. right. left. reflexivity. }
  assert (D : forall k, ~ In 78 (hex_digits k c)).
  { intro k. generalize c. clear. induction k as [|k IH]; intro c; cbn [hex_digits]; [auto|]. rewrite in_app_iff. intros [I|[I|[]]]; [exact (IH _ I)|].
    unfold hex_digit in I. pose proof (N.mod_lt c 16). destruct (N.ltb_spec (c mod 16) 10); lia. }
  assert (X : forall k, ~ In 78 (lit "\x" ++ hex_digits k c) /\ ~ In 78 (lit "\u" ++ hex_digits k c) /\ ~ In 78 (lit "\U" ++ hex_digits k c)).
  { intro k. repeat split; rewrite in_app_iff; intros [I|I]; try (apply D in I; exact I); strings; cbn in I; lia. }
  assert (C : [c] = a ++ 78 :: b -> a = [] /\ c = 78).
  { destruct a as [|y a]; cbn [app]; intro E; [injection E; auto|]. injection E as _ E. destruct a; discriminate. }
  repeat match goal with |- context [if ?x then _ else _] => destruct x end; try exact C; apply H; try apply X; strings; cbn; lia.
Qed.
Lemma escapes_inside q s : q = 39 \/ q = 34 -> inside nm (flat_map (escape pr q) s) -> inside nm s.
Proof.
  intros Q (a & b & E). change nm with (78 :: lit "o matching") in *. cbn [app] in E. revert a E.
  induction s as [|c s IH]; intros a E; cbn [flat_map] in E; [destruct a; discriminate|].
  apply app_eq_app in E. destruct E as (l & [[E1 E2]|[E1 E2]]).
  - destruct l as [|x l].
    + cbn [app] in E2. destruct (IH [] (eq_sym E2)) as (a' & b' & ->). exists (c :: a'), b'. reflexivity.
    + injection E2 as <- E2. destruct (escape_upper _ _ _ _ Q E1) as [-> ->]. cbn [app] in E1.
      assert (l = []).
      { destruct (escape_plain _ _ _ _ E1) as [X|[_ X]]; [discriminate|exact X]. }
      subst l. cbn [app] in E2. symmetry in E2.
      apply (escapes_start q (lit "o matching") s b) in E2; [|strings; cbn; lia]. destruct E2 as (s' & ->). exists [], s'. reflexivity.
  - destruct (IH l E2) as (a' & b' & ->). exists (c :: a'), b'. reflexivity.
Qed.
Lemma nm_some : nm <> []. Proof. discriminate. Qed.
Lemma nm_not c : ~ In c [78; 111; 32; 109; 97; 116; 99; 104; 105; 110; 103] -> ~ In c nm.
Proof. strings. cbn. tauto. Qed.
Ltac cuts H c := apply (inside_cut nm c) in H; [|exact nm_some|apply nm_not; cbn; lia].
Ltac closed H := exfalso; apply inside_iff in H; revert H; lazy; discriminate.
Lemma repr_inside s x y : inside nm (x ++ repr pr s ++ y) -> inside nm x \/ inside nm s \/ inside nm y.
Proof.
  intro H. unfold repr in H. pose proof (quote_cases s) as Q. set (q := quote_of s) in *. cbn [app] in H. rewrite <- app_assoc in H. cbn [app] in H.
  apply (inside_cut nm q) in H; [|exact nm_some|apply nm_not; cbn; lia]. destruct H as [H|H]; [auto|].
  apply (inside_cut nm q) in H; [|exact nm_some|apply nm_not; cbn; lia]. destruct H as [H|H]; [|auto].
  right. left. eapply escapes_inside; [exact Q|exact H].
Qed.
Lemma base_prefix b ss arr : parse ss = Ok (Basic b SubNone arr) \/ (exists sub, parse ss = Ok (Basic b sub arr)) -> exists r, ss = b ++ r.
Proof.
  intros [H|[sub H]]; apply parse_spec in H; inversion H; subst; eexists; reflexivity.
Qed.
(** What a library matcher that matched shows contains the words only if the
    type string does. *)
Lemma library_inside p ts : pred_call p ts = Done true -> (exists v, pkind p = KEquals v) \/ (exists b w, pkind p = KBaseEquals b w) ->
  inside nm (mr p) -> inside nm ts.
Proof.
  unfold matcher_repr, pred_call. intros M [[v K]|(b & w & K)] H; rewrite K in *.
  - injection M as M. apply str_eqb_eq in M. subst v. apply repr_inside in H. destruct H as [H|[H|H]]; [closed H|exact H|closed H].
  - assert (B : exists r, ts = b ++ r).
    { injection M as M. unfold base_equals in M. destruct (parse ts) as [[b' sub [|]|]|] eqn:P; try discriminate M.
      apply andb_prop in M. destruct M as [_ M]. apply str_eqb_eq in M. subst b'. apply (base_prefix b ts []). right. exists sub. exact P. }
    destruct B as (r & ->). apply repr_inside in H. destruct H as [H|[H|H]]; [closed H|apply inside_left; exact H|].
    destruct w as [[]|]; closed H.
Qed.
Lemma library_dec p : library p \/ ~ library p /\ mr p = other p.
Proof.
  unfold library, matcher_repr. destruct (pkind p) as [v|b w| | |]; eauto 6; right; (split; [|reflexivity]); intros [[v E]|(b & w & E)]; discriminate E.
Qed.
Lemma commas_inside l : inside nm (comma l) -> exists x, In x l /\ inside nm x.
Proof.
  induction l as [|x l IH]; intro H; [closed H|]. destruct l as [|y l]; [exists x; split; [left; reflexivity|exact H]|].
  rewrite comma_cons in H by discriminate. change (lit ", ") with (44 :: [32]) in H. cbn [app] in H. cuts H 44.
  destruct H as [H|H]; [exists x; split; [left; reflexivity|exact H]|].
  destruct H as (a & b & E). destruct a as [|c a]; cbn [app] in E; [strings; discriminate E|]. injection E as _ E.
  destruct IH as (z & I & Z); [exists a, b; exact E|]. exists z. split; [right; exact I|exact Z].
Qed.
Lemma many_inside t ts ps x : text (ManyMatch t ts ps) = Some x -> inside nm x -> inside nm ts \/ exists p, In p ps /\ inside nm (mr p).
Proof.
  cbn [Texts.text]. intros E H. apply some_inj in E. subst x.
  change (lit "Multiple matching entries for '") with (lit "Multiple matching entries for " ++ [39]) in H. rewrite <- app_assoc in H. cbn [app] in H.
  cuts H 39. destruct H as [H|H]; [closed H|].
  change (lit "' in ") with (39 :: lit " in ") in H. cbn [app] in H. cuts H 39. destruct H as [H|H]; [auto|].
  change (lit ": ") with (58 :: [32]) in H. cbn [app] in H. rewrite app_assoc in H. cuts H 58.
  destruct H as [H|H]; [destruct t; closed H|].
  unfold advice in H. strings. apply (inside_cut nm 46 (32 :: comma (map mr ps))) in H; [|exact nm_some|apply nm_not; cbn; lia].
  destruct H as [H|H]; [|closed H].
  destruct H as (a & b & E). destruct a as [|c a]; cbn [app] in E; [strings; discriminate E|]. injection E as _ E.
  right. destruct (commas_inside (map mr ps)) as (x & I & X); [exists a, b; exact E|]. apply in_map_iff in I. destruct I as (p & <- & I). exists p. auto.
Qed.
Lemma scan_matched {V} (l : list (pred * V)) ts found : scan_noted l ts = Done found ->
  Forall (fun pv => In pv l /\ pred_call (fst pv) ts = Done true) found.
Proof.
  revert found. induction l as [|[p v] l IH]; intros found E; cbn [scan_noted] in E; [inv E; constructor|].
  destruct (pred_call p ts) as [b|] eqn:P; [|discriminate]. destruct (scan_noted l ts) as [f|]; [|discriminate]. inv E.
  assert (F : Forall (fun pv => In pv ((p, v) :: l) /\ pred_call (fst pv) ts = Done true) f).
  { eapply Forall_impl; [|apply (IH f eq_refl)]. cbn beta. intros pv [A B]. split; [right; exact A|exact B]. }
  destruct b; [constructor; [split; [left; reflexivity|exact P]|exact F]|exact F].
Qed.
Theorem find_says {V} t (m : mapping V) ts n says x : find_noted t m ts = inr (n, says) -> text n = Some x ->
  (forall p v, In (p, v) (m_values m) -> ~ library p -> ~ inside nm (other p)) -> says = Ok (contains nm x).
Proof.
  intros F X O. unfold find_noted in F. destruct (scan_noted (m_values m) ts) as [found|] eqn:S; [|inv F; discriminate X].
  apply scan_matched in S. destruct found as [|[p v] [|q found]].
  - inv F. cbn [Texts.text] in X. apply some_inj in X. subst x. reflexivity.
  - discriminate F.
  - injection F as <- <-. f_equal. apply Bool.eq_true_iff_eq. rewrite !inside_iff. split; intro H.
    + cbn [Texts.text] in X. apply some_inj in X. subst x. apply inside_right, inside_left. exact H.
    + destruct (many_inside _ _ _ _ X H) as [H'|(r & I & H')]; [exact H'|].
      change (In r (map fst ((p, v) :: q :: found))) in I. apply in_map_iff in I. destruct I as ([r' w] & E & I). cbn [fst] in E. subst r'.
      rewrite Forall_forall in S. destruct (S _ I) as [J P]. cbn [fst] in P.
      destruct (library_dec r) as [L|[L R]]; [eapply library_inside; eassumption|]. exfalso. rewrite R in H'. exact (O r w J L H').
Qed.

(** ** ABI types *)
Definition type_char (c : N) : Prop := letter c \/ digit c \/ In c [40; 41; 44; 91; 93].
Lemma numeral_chars s n : GrammarSpec.numeral s n -> Forall type_char s.
Proof.
  induction 1 as [c D _|s n c H IH D]; [constructor; [right; left; exact D|constructor]|].
  apply Forall_app. split; [exact IH|]. constructor; [right; left; exact D|constructor].
Qed.
Lemma sub_chars s sub : g_sub s sub -> Forall type_char s.
Proof.
  intros [|s' n H|s1 n1 s2 n2 H1 H2]; [constructor|eapply numeral_chars; exact H|].
  apply Forall_app. split; [eapply numeral_chars; exact H1|]. constructor; [left; unfold letter; cbn; lia|eapply numeral_chars; exact H2].
Qed.
Lemma arr_chars s arr : g_arr s arr -> Forall type_char s.
Proof.
  assert (B : type_char 91 /\ type_char 93) by (unfold type_char; cbn; tauto). destruct B as [B1 B2].
  induction 1 as [|s ds H IH|d n s ds D H IH]; [constructor| |].
  - strings. constructor; [exact B1|]. constructor; [exact B2|exact IH].
  - strings. constructor; [exact B1|]. apply Forall_app. split; [eapply numeral_chars; exact D|]. constructor; [exact B2|exact IH].
Qed.
Lemma type_chars : (forall s t, g_type s t -> Forall type_char s) /\ (forall s ts, g_components s ts -> Forall type_char s).
Proof.
  assert (P : type_char 40 /\ type_char 41 /\ type_char 44) by (unfold type_char; cbn; tauto). destruct P as (P1 & P2 & P3).
  apply g_mut.
  - intros b ss sub sa arr [_ A] S R. apply Forall_app. split; [eapply Forall_impl; [|exact A]; intros c L; left; exact L|].
    apply Forall_app. split; [eapply sub_chars; exact S|eapply arr_chars; exact R].
  - intros s ts sa arr _ IH R. strings. constructor; [exact P1|]. apply Forall_app. split; [exact IH|]. constructor; [exact P2|eapply arr_chars; exact R].
  - auto.
  - intros s t ss ts _ IH _ IH'. strings. apply Forall_app. split; [exact IH|]. constructor; [exact P3|exact IH'].
Qed.
Lemma type_char_plain c : type_char c -> 33 < c < 127 /\ c <> 39 /\ c <> 34 /\ c <> 92.
Proof. unfold type_char, letter, digit. cbn. lia. Qed.
Theorem repr_type s t : parse s = Ok t -> repr pr s = [39] ++ s ++ [39].
Proof.
  intro P. apply parse_spec in P. apply type_chars in P.
  assert (Q : quote_of s = 39).
  { unfold quote_of. replace (existsb (N.eqb 39) s) with false; [reflexivity|]. symmetry. rewrite <- Bool.not_true_iff_false, existsb_exists.
    intros (c & I & E). apply N.eqb_eq in E. subst c. rewrite Forall_forall in P. apply P, type_char_plain in I. lia. }
  unfold repr. rewrite Q. cbn [app]. f_equal. f_equal. clear Q. induction P as [|c s C P IH]; [reflexivity|]. cbn [flat_map]. rewrite IH.
  apply type_char_plain in C. unfold escape.
  replace ((c =? 39) || (c =? 92)) with false by lia. replace (c =? 9) with false by lia. replace (c =? 10) with false by lia. replace (c =? 13) with false by lia.
  replace ((c <? 32) || (c =? 127)) with false by lia. replace (c <? 127) with true by lia. reflexivity.
Qed.
Theorem type_repr_same s s' t t' : parse s = Ok t -> parse s' = Ok t' -> type_repr pr t = type_repr pr t' -> t = t'.
Proof.
  intros P P' E. assert (C : forall s t, parse s = Ok t -> code_points s).
  { intros u v H. apply parse_spec in H. apply type_chars in H. eapply Forall_impl; [|exact H]. intros c X. apply type_char_plain in X. cbn beta. lia. }
  unfold type_repr in E. rewrite (parse_print s t P), (parse_print s' t' P') in E.
  assert (S : s = s').
  { destruct t, t'; rewrite <- ?app_assoc in E; try (exfalso; strings; discriminate E); apply app_inv_head in E;
      apply repr_left in E; eauto; destruct E; assumption. }
  subst s'. congruence.
Qed.
(** ** Matchers that are equal *)
Lemma alike_eqb p p' : telling p -> telling p' -> (alike p p' <-> pred_eqb p p' = true).
Proof.
  unfold telling, alike, pred_eqb. destruct (pkind p) as [v|b w| | |]; try contradiction; destruct (pkind p') as [v'|b' w'| | |]; try contradiction; intros _ _.
  - rewrite str_eqb_eq. split; [intro H; injection H; auto|intros ->; reflexivity].
  - split; [intro H; discriminate H|intro H; discriminate H].
  - split; [intro H; discriminate H|intro H; discriminate H].
  - rewrite Bool.andb_true_iff, str_eqb_eq. split.
    + intro H. injection H as -> ->. split; [reflexivity|]. destruct w' as [[]|]; reflexivity.
    + intros [-> H]. f_equal. destruct w as [[]|], w' as [[]|]; try reflexivity; discriminate H.
Qed.
Theorem matcher_repr_same p p' : telling p -> telling p' -> (mr p = mr p' <-> pred_eqb p p' = true).
Proof.
  intros T T'. rewrite <- alike_eqb by assumption. split.
  - intro E. apply (matcher_left p p' [] []); [assumption|assumption|rewrite E; reflexivity].
  - intro A. unfold alike in A. unfold telling in T. unfold matcher_repr. rewrite <- A. destruct (pkind p); [reflexivity|reflexivity|contradiction..].
Qed.
End Texts.
