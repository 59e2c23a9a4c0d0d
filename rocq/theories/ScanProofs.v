(** Where the error of a type string is found: a one-pass scanner that reads
    exactly the beginnings of type strings, and the recorded position in its
    terms. *)
From Coq Require Import Strings.String Lia.
From Verif Require Import Py Address Grammar GrammarSpec GrammarProofs Peg PegProofs.
Open Scope nat_scope.

(** ** The scanner *)

Inductive phase := Want | Name | Num | Cross | Num2 | Open | OpenNum | Done.
Definition after (d : nat) (c : N) : option (phase * nat) :=
  if N.eqb c c_lbrack then Some (Open, d)
  else match d with
       | O => None
       | S d' => if N.eqb c c_comma then Some (Want, d) else if N.eqb c c_rparen then Some (Done, d') else None
       end.
Definition step (ph : phase) (d : nat) (c : N) : option (phase * nat) :=
  match ph with
  | Want => if N.eqb c c_lparen then Some (Want, S d) else if is_alpha c then Some (Name, d) else None
  | Name => if is_alpha c then Some (Name, d) else if is_digit19 c then Some (Num, d) else after d c
  | Num => if is_digit c then Some (Num, d) else if N.eqb c c_x then Some (Cross, d) else after d c
  | Cross => if is_digit19 c then Some (Num2, d) else None
  | Num2 => if is_digit c then Some (Num2, d) else after d c
  | Open => if N.eqb c c_rbrack then Some (Done, d) else if is_digit19 c then Some (OpenNum, d) else None
  | OpenNum => if is_digit c then Some (OpenNum, d) else if N.eqb c c_rbrack then Some (Done, d) else None
  | Done => after d c
  end.
Fixpoint scan (ph : phase) (d : nat) (s : pystr) : option (phase * nat) :=
  match s with
  | [] => Some (ph, d)
  | c :: s' => match step ph d c with Some (ph', d') => scan ph' d' s' | None => None end
  end.
Definition final (ph : phase) : Prop := ph = Name \/ ph = Num \/ ph = Num2 \/ ph = Done.

Lemma scan_app ph d a b : scan ph d (a ++ b) = match scan ph d a with Some (ph', d') => scan ph' d' b | None => None end.
Proof. revert ph d. induction a as [|c a IH]; intros ph d; cbn; [reflexivity|]. destruct (step ph d c) as [[ph' d']|]; auto. Qed.
Lemma scan_go ph d a b ph' d' x : scan ph d a = Some (ph', d') -> scan ph' d' b = x -> scan ph d (a ++ b) = x.
Proof. intros H E. rewrite scan_app, H. exact E. Qed.

(** Characters. *)
Ltac chars := unfold step, after, is_alpha, is_digit19, is_digit, in_range, c_lparen, c_rparen, c_comma, c_lbrack, c_rbrack, c_x in *.
Ltac bools := repeat match goal with
  | H : (_ || _)%bool = true |- _ => apply orb_true_iff in H
  | H : (_ || _)%bool = false |- _ => apply orb_false_iff in H as [? ?]
  | H : (_ && _)%bool = true |- _ => apply andb_true_iff in H as [? ?]
  | H : (_ && _)%bool = false |- _ => apply andb_false_iff in H
  | H : N.eqb _ _ = true |- _ => apply N.eqb_eq in H
  | H : N.eqb _ _ = false |- _ => apply N.eqb_neq in H
  | H : N.leb _ _ = true |- _ => apply N.leb_le in H
  | H : N.leb _ _ = false |- _ => apply N.leb_gt in H
  | H : _ \/ _ |- _ => destruct H
  end.
Lemma digit19_digit c : is_digit19 c = true -> is_digit c = true.
Proof. chars. intro H. bools. apply andb_true_iff. split; apply N.leb_le; lia. Qed.
Lemma digit_not_alpha c : is_digit c = true -> is_alpha c = false.
Proof.
  chars. intro H. bools. apply orb_false_iff. split; apply andb_false_iff; left; apply N.leb_gt; lia.
Qed.

Lemma scan_same ph d (f : N -> bool) (a : pystr) : (forall c, f c = true -> step ph d c = Some (ph, d)) -> forallb f a = true -> scan ph d a = Some (ph, d).
Proof. intros H. induction a as [|c a IH]; cbn; [reflexivity|]. intro E. apply andb_true_iff in E as [E1 E2]. rewrite (H c E1). auto. Qed.
Lemma num_same ph d a : ph = Num \/ ph = Num2 \/ ph = OpenNum -> forallb is_digit a = true -> scan ph d a = Some (ph, d).
Proof. intros P. apply scan_same. intros c H. destruct P as [->|[->| ->]]; cbn [step]; now rewrite H. Qed.
Lemma name_same d a : forallb is_alpha a = true -> scan Name d a = Some (Name, d).
Proof. apply scan_same. intros c H. cbn [step]. now rewrite H. Qed.

(** Texts of the grammar. *)
Lemma alphas_split b : alphas b -> exists c b', b = c :: b' /\ is_alpha c = true /\ forallb is_alpha b' = true.
Proof.
  intros (Hne & F). destruct b as [|c b]; [contradiction|]. inversion F as [|? ? H1 H2]; subst.
  exists c, b. split; [reflexivity|]. split; [now apply is_alpha_letter|].
  apply forallb_forall. intros x Hx. apply is_alpha_letter. eapply Forall_forall in H2; eassumption.
Qed.
Lemma numeral_split s n : numeral s n -> exists c s', s = c :: s' /\ is_digit19 c = true /\ forallb is_digit s' = true.
Proof.
  induction 1 as [c Hd Hz|s n c H (c0 & s' & -> & H1 & H2) Hd].
  - exists c, []. split; [reflexivity|]. split; [|reflexivity]. apply is_digit19_digit. auto.
  - exists c0, (s' ++ [c]). split; [reflexivity|]. split; [exact H1|]. rewrite forallb_app, H2. cbn.
    rewrite (proj2 (is_digit_digit c) Hd). reflexivity.
Qed.
Lemma want_name d b : alphas b -> scan Want d b = Some (Name, d).
Proof.
  intro H. apply alphas_split in H as (c & b' & -> & Hc & Hb). cbn [scan step].
  destruct (N.eqb c c_lparen) eqn:E; [exfalso; chars; bools; subst; lia|]. rewrite Hc. now apply name_same.
Qed.
Lemma name_num d s n : numeral s n -> scan Name d s = Some (Num, d).
Proof.
  intro H. apply numeral_split in H as (c & s' & -> & Hc & Hs). cbn [scan step].
  rewrite (digit_not_alpha c (digit19_digit c Hc)), Hc. apply num_same; auto.
Qed.
Lemma cross_num d s n : numeral s n -> scan Cross d s = Some (Num2, d).
Proof. intro H. apply numeral_split in H as (c & s' & -> & Hc & Hs). cbn [scan step]. rewrite Hc. apply num_same; auto. Qed.
Lemma open_num d s n : numeral s n -> scan Open d s = Some (OpenNum, d).
Proof.
  intro H. apply numeral_split in H as (c & s' & -> & Hc & Hs). cbn [scan step].
  destruct (N.eqb c c_rbrack) eqn:E; [exfalso; chars; bools; subst; lia|]. rewrite Hc. apply num_same; auto.
Qed.
Lemma scan_sub d s b : g_sub s b -> exists ph, scan Name d s = Some (ph, d) /\ (ph = Name \/ ph = Num \/ ph = Num2).
Proof.
  intros [|s1 n H|s1 n1 s2 n2 H1 H2].
  - exists Name. auto.
  - exists Num. split; [eapply name_num; eassumption|auto].
  - exists Num2. split; [|auto]. eapply scan_go; [eapply name_num; eassumption|].
    change (lit "x" ++ s2) with (c_x :: s2). cbn [scan]. change (step Num d c_x) with (Some (Cross, d)). cbn iota. eapply cross_num; eassumption.
Qed.
Lemma step_bracket ph d : final ph -> step ph d c_lbrack = Some (Open, d).
Proof. intros [->|[->|[->| ->]]]; reflexivity. Qed.
Lemma scan_arr d s ds : g_arr s ds -> forall ph, final ph -> exists ph', scan ph d s = Some (ph', d) /\ final ph'.
Proof.
  induction 1 as [|s ds H IH|x n s ds Hx H IH]; intros ph F.
  - exists ph. auto.
  - change (lit "[]" ++ s) with (c_lbrack :: c_rbrack :: s). cbn [scan]. rewrite step_bracket by exact F.
    change (step Open d c_rbrack) with (Some (Done, d)). apply IH. unfold final. auto.
  - change (lit "[" ++ x ++ lit "]" ++ s) with (c_lbrack :: x ++ c_rbrack :: s). cbn [scan]. rewrite step_bracket by exact F.
    destruct (IH Done) as (ph' & E & F'); [unfold final; auto|]. exists ph'. split; [|exact F'].
    eapply scan_go; [eapply open_num; eassumption|]. cbn [scan]. change (step OpenNum d c_rbrack) with (Some (Done, d)). exact E.
Qed.
Lemma step_comma ph d : final ph -> step ph (S d) c_comma = Some (Want, S d).
Proof. intros [->|[->|[->| ->]]]; reflexivity. Qed.
Lemma step_close ph d : final ph -> step ph (S d) c_rparen = Some (Done, d).
Proof. intros [->|[->|[->| ->]]]; reflexivity. Qed.
Lemma scan_type :
  (forall s t, g_type s t -> forall d, exists ph, scan Want d s = Some (ph, d) /\ final ph)
  /\ (forall s ts, g_components s ts -> forall d, exists ph, scan Want (S d) s = Some (ph, S d) /\ final ph).
Proof.
  apply g_mut.
  - intros b ss sub sa arr Hb Hs Ha d. destruct (scan_sub d _ _ Hs) as (ph & E & P).
    destruct (scan_arr d _ _ Ha ph) as (ph' & E' & F'); [unfold final; tauto|].
    exists ph'. split; [|exact F']. eapply scan_go; [now apply want_name|]. eapply scan_go; eassumption.
  - intros s ts sa arr Hs IH Ha d. destruct (IH d) as (ph & E & F).
    destruct (scan_arr d _ _ Ha Done) as (ph' & E' & F'); [unfold final; auto|].
    exists ph'. split; [|exact F']. change (lit "(" ++ s ++ lit ")" ++ sa) with (c_lparen :: s ++ c_rparen :: sa).
    cbn [scan]. change (step Want d c_lparen) with (Some (Want, S d)). cbn iota. eapply scan_go; [exact E|].
    cbn [scan]. now rewrite step_close.
  - intros s t H IH d. apply IH.
  - intros s t ss ts H IH Hs IHs d. destruct (IH (S d)) as (ph & E & F). destruct (IHs d) as (ph' & E' & F').
    exists ph'. split; [|exact F']. eapply scan_go; [exact E|]. change (lit "," ++ ss) with (c_comma :: ss). cbn [scan].
    now rewrite step_comma.
Qed.

(** ** What the scanner reads can be completed *)

Inductive context : nat -> pystr -> Prop :=
| C_none : context 0 []
| C_open d q : context d q -> context (S d) (q ++ [c_lparen])
| C_more d q s t : context (S d) q -> g_type s t -> context (S d) (q ++ s ++ [c_comma]).
Definition based (q : pystr) : Prop := exists b, q = b /\ alphas b.
(** The text of a type read so far. *)
Definition reading (ph : phase) (q : pystr) : Prop :=
  match ph with
  | Want => q = []
  | Name => alphas q
  | Num => exists b d n, q = b ++ d /\ alphas b /\ numeral d n
  | Cross => exists b d n, q = b ++ d ++ [c_x] /\ alphas b /\ numeral d n
  | Num2 => exists b d n d2 n2, q = b ++ d ++ [c_x] ++ d2 /\ alphas b /\ numeral d n /\ numeral d2 n2
  | Open => exists s t, q = s ++ [c_lbrack] /\ g_type s t
  | OpenNum => exists s t d n, q = s ++ [c_lbrack] ++ d /\ g_type s t /\ numeral d n
  | Done => exists t, g_type q t
  end.
Lemma g_arr_app a ds b ds' : g_arr a ds -> g_arr b ds' -> g_arr (a ++ b) (ds ++ ds').
Proof.
  induction 1 as [|s l H IH|x n s l Hx H IH]; intro B; [exact B| |].
  - rewrite <- app_assoc. cbn [app]. apply GA_dynamic. auto.
  - rewrite <- !app_assoc. cbn [app]. apply GA_const; auto.
Qed.
Lemma g_type_arr s t b ds : g_type s t -> g_arr b ds -> exists t', g_type (s ++ b) t'.
Proof.
  intros H B. destruct H as [x ss sub sa arr Hx Hs Ha|x ts sa arr Hx Ha].
  - exists (Basic x sub (arr ++ ds)). rewrite <- !app_assoc. apply G_basic; auto. now apply g_arr_app.
  - exists (Tup ts (arr ++ ds)). rewrite <- !app_assoc. apply G_tuple; auto. now apply g_arr_app.
Qed.
Lemma g_simple b : alphas b -> g_type b (Basic b SubNone []).
Proof. intro H. rewrite <- (app_nil_r b) at 1. rewrite <- (app_nil_r (b ++ [])). rewrite <- app_assoc. apply G_basic; [exact H|constructor|constructor]. Qed.
Lemma g_sized b d n : alphas b -> numeral d n -> g_type (b ++ d) (Basic b (SubInt n) []).
Proof. intros H D. rewrite <- (app_nil_r d). apply G_basic; [exact H|constructor; exact D|constructor]. Qed.
Lemma g_sized2 b d n d2 n2 : alphas b -> numeral d n -> numeral d2 n2 -> g_type (b ++ d ++ [c_x] ++ d2) (Basic b (SubPair n n2) []).
Proof.
  intros H D D2. rewrite <- (app_nil_r (d ++ [c_x] ++ d2)). apply G_basic; [exact H| |constructor].
  change [c_x] with (lit "x"). now constructor.
Qed.
Lemma final_type ph q : final ph -> reading ph q -> exists t, g_type q t.
Proof.
  intros [->|[->|[->| ->]]]; cbn [reading].
  - intro H. eexists. now apply g_simple.
  - intros (b & d & n & -> & H & D). eexists. eapply g_sized; eassumption.
  - intros (b & d & n & d2 & n2 & -> & H & D & D2). eexists. eapply g_sized2; eassumption.
  - auto.
Qed.
Lemma one : numeral [49%N] 1.
Proof. apply (N_one 49); [unfold digit; lia|lia]. Qed.
Lemma reading_completes ph q : reading ph q -> exists r t, g_type (q ++ r) t.
Proof.
  intro H. destruct ph; cbn [reading] in H.
  - subst q. exists [97%N]. eexists. apply g_simple. split; [discriminate|]. constructor; [unfold letter; lia|constructor].
  - exists []. rewrite app_nil_r. apply (final_type Name); unfold final; auto.
  - exists []. rewrite app_nil_r. apply (final_type Num); unfold final; auto.
  - destruct H as (b & d & n & -> & H & D). exists [49%N]. eexists. rewrite <- !app_assoc. eapply g_sized2; [exact H|exact D|exact one].
  - exists []. rewrite app_nil_r. apply (final_type Num2); unfold final; auto.
  - destruct H as (s & t & -> & H). exists [c_rbrack]. rewrite <- app_assoc. eapply g_type_arr; [exact H|].
    apply (GA_dynamic [] []). constructor.
  - destruct H as (s & t & d & n & -> & H & D). exists [c_rbrack]. rewrite <- app_assoc. eapply g_type_arr; [exact H|].
    rewrite <- app_assoc. apply (GA_const d n [] []); [exact D|constructor].
  - exists []. rewrite app_nil_r. exact H.
Qed.
Lemma context_completes d q : context d q -> forall s ts, g_components s ts ->
  exists r t, match d with O => ts = ts /\ r = [] | _ => g_type (q ++ s ++ r) t end.
Proof.
  induction 1 as [|d q H IH|d q s0 t0 H IH H0]; intros s ts G.
  - exists [], (Basic [] SubNone []). auto.
  - assert (T : g_type (lit "(" ++ s ++ lit ")" ++ []) (Tup ts [])) by (apply G_tuple; [exact G|constructor]).
    destruct (IH (lit "(" ++ s ++ lit ")" ++ []) [Tup ts []]) as (r & t & E); [now constructor|].
    destruct d as [|d].
    + exists (lit ")"). eexists. inversion H; subst. rewrite !app_nil_r in *. cbn [app] in *. exact T.
    + exists (lit ")" ++ r), t. rewrite !app_nil_r in E. rewrite <- !app_assoc in *. exact E.
  - destruct (IH (s0 ++ lit "," ++ s) (t0 :: ts)) as (r & t & E); [now constructor|].
    exists r, t. rewrite <- !app_assoc in *. exact E.
Qed.
Lemma alphas_snoc b c : alphas b -> is_alpha c = true -> alphas (b ++ [c]).
Proof.
  intros (_ & F) H. split; [now destruct b|]. apply Forall_app. split; [exact F|]. constructor; [now apply is_alpha_letter|constructor].
Qed.
Lemma numeral_snoc d n c : numeral d n -> is_digit c = true -> exists n', numeral (d ++ [c]) n'.
Proof. intros D H. eexists. apply N_snoc; [exact D|now apply is_digit_digit]. Qed.
Lemma numeral_first c : is_digit19 c = true -> numeral [c] (Z.of_N c - 48).
Proof. intro H. apply is_digit19_digit in H as (H1 & H2). now apply N_one. Qed.
Lemma after_reading d q0 ph q1 c ph' d' : context d q0 -> final ph -> reading ph q1 -> after d c = Some (ph', d') ->
  exists q0' q1', q0 ++ q1 ++ [c] = q0' ++ q1' /\ context d' q0' /\ reading ph' q1'.
Proof.
  intros C F R E. destruct (final_type ph q1 F R) as (t & T). unfold after in E.
  destruct (N.eqb c c_lbrack) eqn:E1.
  { apply N.eqb_eq in E1. subst. injection E as <- <-. exists q0, (q1 ++ [c_lbrack]). split; [reflexivity|]. split; [exact C|]. cbn. eauto. }
  destruct d as [|d]; [discriminate|]. destruct (N.eqb c c_comma) eqn:E2.
  { apply N.eqb_eq in E2. subst. injection E as <- <-. exists (q0 ++ q1 ++ [c_comma]), []. rewrite app_nil_r. split; [reflexivity|].
    split; [|reflexivity]. eapply C_more; eassumption. }
  destruct (N.eqb c c_rparen) eqn:E3; [|discriminate]. apply N.eqb_eq in E3. subst. injection E as <- <-.
  (* the tuple that is closed *)
  assert (Q : forall d0 q, context d0 q -> forall k s ts, d0 = S k -> g_components s ts ->
      exists q0' q1', q ++ s ++ [c_rparen] = q0' ++ q1' /\ context k q0' /\ exists t', g_type q1' t').
  { clear. induction 1 as [|d q H IH|d q s0 t0 H IH H0]; intros k s ts Ek G; [discriminate| |].
    - injection Ek as <-. exists q, (lit "(" ++ s ++ lit ")" ++ []). split; [now rewrite <- app_assoc|]. split; [exact H|].
      eexists. apply G_tuple; [exact G|constructor].
    - destruct (IH k (s0 ++ lit "," ++ s) (t0 :: ts)) as (a & b & E & Ca & Tb); [exact Ek|now constructor|].
      exists a, b. split; [|auto]. rewrite <- E, <- !app_assoc. reflexivity. }
  destruct (Q (S d) q0 C d q1 [t] eq_refl) as (a & b & Ea & Ca & Tb); [now constructor|]. exists a, b. auto.
Qed.
Lemma step_reading d q0 ph q1 c ph' d' : context d q0 -> reading ph q1 -> step ph d c = Some (ph', d') ->
  exists q0' q1', q0 ++ q1 ++ [c] = q0' ++ q1' /\ context d' q0' /\ reading ph' q1'.
Proof.
  intros C R E. destruct ph; cbn [step] in E; try (destruct (is_alpha c) eqn:Al).
  - destruct (N.eqb c c_lparen) eqn:P.
    + apply N.eqb_eq in P. subst. injection E as <- <-. cbn in R. subst q1. exists (q0 ++ [c_lparen]), []. rewrite app_nil_r.
      split; [reflexivity|]. split; [now constructor|reflexivity].
    + injection E as <- <-. cbn in R. subst q1. exists q0, [c]. split; [reflexivity|]. split; [exact C|]. cbn.
      split; [discriminate|]. constructor; [now apply is_alpha_letter|constructor].
  - destruct (N.eqb c c_lparen) eqn:P; [|discriminate]. apply N.eqb_eq in P. subst. injection E as <- <-. cbn in R. subst q1.
    exists (q0 ++ [c_lparen]), []. rewrite app_nil_r. split; [reflexivity|]. split; [now constructor|reflexivity].
  - injection E as <- <-. exists q0, (q1 ++ [c]). split; [reflexivity|]. split; [exact C|]. cbn in *. now apply alphas_snoc.
  - destruct (is_digit19 c) eqn:D; [|eapply after_reading; [exact C| |exact R|exact E]; unfold final; auto].
    injection E as <- <-. exists q0, (q1 ++ [c]). split; [reflexivity|]. split; [exact C|]. cbn in *. exists q1, [c]. eexists.
    split; [reflexivity|]. split; [exact R|now apply numeral_first].
  - destruct (is_digit c) eqn:D; [|destruct (N.eqb c c_x) eqn:X; [|eapply after_reading; [exact C| |exact R|exact E]; unfold final; auto]].
    + injection E as <- <-. destruct R as (b & x & n & -> & Hb & Hx). destruct (numeral_snoc _ _ _ Hx D) as (n' & Hn).
      exists q0, ((b ++ x) ++ [c]). split; [reflexivity|]. split; [exact C|]. exists b, (x ++ [c]), n'. now rewrite <- app_assoc.
    + apply N.eqb_eq in X. subst. injection E as <- <-. destruct R as (b & x & n & -> & Hb & Hx).
      exists q0, ((b ++ x) ++ [c_x]). split; [reflexivity|]. split; [exact C|]. exists b, x, n. now rewrite <- app_assoc.
  - destruct (is_digit c) eqn:D; [|destruct (N.eqb c c_x) eqn:X; [|eapply after_reading; [exact C| |exact R|exact E]; unfold final; auto]].
    + injection E as <- <-. destruct R as (b & x & n & -> & Hb & Hx). destruct (numeral_snoc _ _ _ Hx D) as (n' & Hn).
      exists q0, ((b ++ x) ++ [c]). split; [reflexivity|]. split; [exact C|]. exists b, (x ++ [c]), n'. now rewrite <- app_assoc.
    + apply N.eqb_eq in X. subst. injection E as <- <-. destruct R as (b & x & n & -> & Hb & Hx).
      exists q0, ((b ++ x) ++ [c_x]). split; [reflexivity|]. split; [exact C|]. exists b, x, n. now rewrite <- app_assoc.
  - exfalso. destruct (is_digit19 c) eqn:D; [|discriminate]. rewrite (digit_not_alpha c (digit19_digit c D)) in Al. discriminate.
  - destruct (is_digit19 c) eqn:D; [|discriminate]. injection E as <- <-. destruct R as (b & x & n & -> & Hb & Hx).
    exists q0, ((b ++ x ++ [c_x]) ++ [c]). split; [reflexivity|]. split; [exact C|]. exists b, x, n, [c]. eexists.
    rewrite <- !app_assoc. split; [reflexivity|]. split; [exact Hb|]. split; [exact Hx|now apply numeral_first].
  - destruct (is_digit c) eqn:D; [|eapply after_reading; [exact C| |exact R|exact E]; unfold final; auto].
    rewrite (digit_not_alpha c D) in Al. discriminate.
  - destruct (is_digit c) eqn:D; [|eapply after_reading; [exact C| |exact R|exact E]; unfold final; auto].
    injection E as <- <-. destruct R as (b & x & n & x2 & n2 & -> & Hb & Hx & Hx2). destruct (numeral_snoc _ _ _ Hx2 D) as (n' & Hn).
    exists q0, ((b ++ x ++ [c_x] ++ x2) ++ [c]). split; [reflexivity|]. split; [exact C|]. exists b, x, n, (x2 ++ [c]), n'.
    rewrite <- !app_assoc. auto.
  - exfalso. destruct (N.eqb c c_rbrack) eqn:B; [chars; bools; subst; lia|].
    destruct (is_digit19 c) eqn:D; [|discriminate]. rewrite (digit_not_alpha c (digit19_digit c D)) in Al. discriminate.
  - destruct R as (s & t & -> & T). destruct (N.eqb c c_rbrack) eqn:B.
    + apply N.eqb_eq in B. subst. injection E as <- <-. exists q0, (s ++ [c_lbrack; c_rbrack]). rewrite <- app_assoc. split; [reflexivity|].
      split; [exact C|]. cbn. eapply g_type_arr; [exact T|]. apply (GA_dynamic [] []). constructor.
    + destruct (is_digit19 c) eqn:D; [|discriminate]. injection E as <- <-. exists q0, ((s ++ [c_lbrack]) ++ [c]). split; [reflexivity|].
      split; [exact C|]. exists s, t, [c]. eexists. rewrite <- app_assoc. split; [reflexivity|]. split; [exact T|now apply numeral_first].
  - exfalso. destruct (is_digit c) eqn:D; [rewrite (digit_not_alpha c D) in Al; discriminate|].
    destruct (N.eqb c c_rbrack) eqn:B; [chars; bools; subst; lia|discriminate].
  - destruct R as (s & t & x & n & -> & T & Hx). destruct (is_digit c) eqn:D.
    + injection E as <- <-. destruct (numeral_snoc _ _ _ Hx D) as (n' & Hn).
      exists q0, ((s ++ [c_lbrack] ++ x) ++ [c]). split; [reflexivity|]. split; [exact C|]. exists s, t, (x ++ [c]), n'. rewrite <- !app_assoc. auto.
    + destruct (N.eqb c c_rbrack) eqn:B; [|discriminate]. apply N.eqb_eq in B. subst. injection E as <- <-.
      exists q0, ((s ++ [c_lbrack] ++ x) ++ [c_rbrack]). split; [reflexivity|]. split; [exact C|]. cbn [reading].
      rewrite <- app_assoc. eapply g_type_arr; [exact T|]. rewrite <- app_assoc. apply (GA_const x n [] []); [exact Hx|constructor].
  - eapply after_reading; [exact C| |exact R|exact E]; unfold final; auto.
  - eapply after_reading; [exact C| |exact R|exact E]; unfold final; auto.
Qed.
Lemma scan_reading q : forall ph d, scan Want 0 q = Some (ph, d) ->
  exists q0 q1, q = q0 ++ q1 /\ context d q0 /\ reading ph q1.
Proof.
  induction q as [|c q IH] using rev_ind; intros ph d H.
  - injection H as <- <-. exists [], []. split; [reflexivity|]. split; [constructor|reflexivity].
  - rewrite scan_app in H. destruct (scan Want 0 q) as [[ph1 d1]|]; [|discriminate].
    destruct (IH ph1 d1 eq_refl) as (q0 & q1 & -> & C & R). cbn [scan] in H.
    destruct (step ph1 d1 c) as [[ph' d']|] eqn:E; [|discriminate]. injection H as <- <-.
    rewrite <- app_assoc. eapply step_reading; eassumption.
Qed.
(** The beginnings of type strings are what the scanner reads. *)
Theorem scan_begins q : (exists ph d, scan Want 0 q = Some (ph, d)) <-> (exists r t, g_type (q ++ r) t).
Proof.
  split.
  - intros (ph & d & H). destruct (scan_reading q ph d H) as (q0 & q1 & -> & C & R).
    destruct (reading_completes ph q1 R) as (r & t & T).
    destruct (context_completes d q0 C (q1 ++ r) [t]) as (r' & t' & E); [now constructor|].
    destruct d as [|d].
    + inversion C; subst. exists r, t. exact T.
    + exists (r ++ r'), t'. rewrite <- !app_assoc in *. exact E.
  - intros (r & t & T). destruct (proj1 scan_type _ _ T 0) as (ph & E & _). rewrite scan_app in E.
    destruct (scan Want 0 q) as [[ph' d']|]; [eauto|discriminate].
Qed.

(** ** The recorded position *)

Definition no_break (a : pystr) : Prop := Forall (fun c => c <> c_lparen /\ c <> c_comma) a.
Definition unclosed (b : pystr) : Prop := match b with [] => True | c :: _ => is_digit c = false /\ c <> c_rbrack end.
(** The error in [s], read from a state of the scanner: a wrong character, a
    dimension whose number is not followed by "]", or the end of the text. *)
Inductive pointer (ph : phase) (d : nat) (s : pystr) : nat -> Prop :=
| P_wrong a c b ph' d' : s = a ++ c :: b -> scan ph d a = Some (ph', d') -> step ph' d' c = None -> pointer ph d s (length a)
| P_dim a x n b ph' d' : s = a ++ c_lbrack :: x ++ b -> scan ph d a = Some (ph', d') -> final ph' -> numeral x n -> unclosed b ->
    pointer ph d s (length a)
| P_end a b st : s = a ++ b -> scan ph d s = Some st -> no_break b -> pointer ph d s (length a).
Lemma pointer_app ph d a r ph' d' i : scan ph d a = Some (ph', d') -> pointer ph' d' r i -> pointer ph d (a ++ r) (length a + i).
Proof.
  intros E [a1 c b p1 d1 -> H N|a1 x n b p1 d1 -> H F X U|a1 b st -> H N]; rewrite <- app_length.
  - eapply P_wrong; [now rewrite <- app_assoc| |exact N]. eapply scan_go; eassumption.
  - eapply P_dim; [now rewrite <- app_assoc| |exact F|exact X|exact U]. eapply scan_go; eassumption.
  - eapply P_end; [now rewrite <- app_assoc| |exact N]. eapply scan_go; eassumption.
Qed.
Lemma pointer_step ph d c r ph' d' i : step ph d c = Some (ph', d') -> pointer ph' d' r i -> pointer ph d (c :: r) (S i).
Proof. intros E P. apply (pointer_app ph d [c] r ph' d' i); [cbn [scan]; now rewrite E|exact P]. Qed.

Definition x_bump (ph : phase) (r : pystr) : nat :=
  match ph, r with Num, c :: _ => if N.eqb c c_x then 1 else 0 | _, _ => 0 end.
Definition bump (ph : phase) (r : pystr) : nat :=
  match r with
  | [] => 0
  | c :: r' => if N.eqb c c_lbrack then match p_digits r' with None => 1 | Some _ => 0 end else x_bump ph r
  end.
Definition rest_ok (ph : phase) (r : pystr) : Prop :=
  match r with
  | [] => True
  | c :: r' =>
      match ph with
      | Name => is_alpha c = false /\ is_digit19 c = false
      | Num => is_digit c = false /\ (c = c_x -> p_digits r' = None)
      | Num2 => is_digit c = false
      | _ => True
      end
  end.
Lemma p_digits_none c s : p_digits (c :: s) = None -> is_digit19 c = false.
Proof. unfold p_digits. destruct (is_digit19 c); [destruct (span is_digit s); discriminate|reflexivity]. Qed.
Lemma numeral_break x n : numeral x n -> no_break x.
Proof.
  induction 1 as [c D H|s n c H IH D].
  - constructor; [|constructor]. unfold digit in D. unfold c_lparen, c_comma. lia.
  - apply Forall_app. split; [exact IH|]. constructor; [|constructor]. unfold digit in D. unfold c_lparen, c_comma. lia.
Qed.
Lemma alphas_break x : alphas x -> no_break x.
Proof.
  intros (_ & F). eapply Forall_impl; [|exact F]. intros c H. unfold letter in H. cbn beta. unfold c_lparen, c_comma. lia.
Qed.
Lemma p_digits_text s n r : p_digits s = Some (n, r) ->
  exists x, s = x ++ r /\ numeral x n /\ no_break x /\ match r with [] => True | c :: _ => is_digit c = false end.
Proof.
  intro H. destruct (p_digits_sound _ _ _ H) as (x & E & X). exists x. split; [exact E|]. split; [exact X|].
  split; [eapply numeral_break; exact X|].
  unfold p_digits in H. destruct s as [|c s]; [discriminate|]. destruct (is_digit19 c); [|discriminate].
  destruct (span is_digit s) as [ds r'] eqn:S1. injection H as _ <-. apply span_spec in S1. tauto.
Qed.
Ltac fin := unfold final; auto.
Lemma dim_scan ph d s x r : final ph -> p_dim s = Some (x, r) ->
  exists a, s = c_lbrack :: a ++ r /\ scan ph d (c_lbrack :: a) = Some (Done, d) /\ no_break a /\ a <> [].
Proof.
  intros F H. unfold p_dim in H. destruct (p_char c_lbrack s) as [s1|] eqn:A; [|discriminate]. apply p_char_spec in A. subst s.
  assert (S0 : forall a, scan ph d (c_lbrack :: a) = scan Open d a) by (intro a; cbn [scan]; now rewrite step_bracket).
  destruct (p_digits s1) as [[n s2]|] eqn:D.
  - destruct (p_char c_rbrack s2) as [s3|] eqn:B; [|discriminate]. apply p_char_spec in B. subst s2. injection H as <- <-.
    destruct (p_digits_text _ _ _ D) as (y & -> & Y & NB & _). exists (y ++ [c_rbrack]). rewrite <- app_assoc. split; [reflexivity|].
    split; [|split].
    + rewrite S0. eapply scan_go; [eapply open_num; exact Y|]. reflexivity.
    + apply Forall_app. split; [exact NB|]. constructor; [split; discriminate|constructor].
    + now destruct y.
  - destruct (p_char c_rbrack s1) as [s2|] eqn:B; [|discriminate]. apply p_char_spec in B. subst s1. injection H as <- <-.
    exists [c_rbrack]. split; [reflexivity|]. split; [rewrite S0; reflexivity|]. split; [|discriminate].
    constructor; [split; discriminate|constructor].
Qed.
Lemma m_dim_bound s p e x r : p_dim s = Some (x, r) -> e <= p -> e <= m_dim s p e <= p + 1.
Proof.
  unfold p_dim, m_dim. destruct (p_char c_lbrack s) as [s1|]; [|discriminate].
  destruct (p_digits s1) as [[n s2]|]; [destruct (p_char c_rbrack s2); [|discriminate]|]; intros; lia.
Qed.
Lemma p_dim_open s x r : p_dim s = Some (x, r) -> exists s1, s = c_lbrack :: s1.
Proof. unfold p_dim. destruct (p_char c_lbrack s) as [s1|] eqn:A; [|discriminate]. apply p_char_spec in A. eauto. Qed.
Lemma x_bump_bracket ph s : x_bump ph (c_lbrack :: s) = 0.
Proof. destruct ph; reflexivity. Qed.
Lemma no_break_app a b : no_break a -> no_break b -> no_break (a ++ b).
Proof. intros A B. apply Forall_app. auto. Qed.

Lemma arr_err k : forall s p e ph d, length s <= k -> final ph -> rest_ok ph s ->
  e <= p + x_bump ph s -> (x_bump ph s = 1 -> e = p + 1) ->
  let '(_, r) := p_arrlist k s in
  exists a ph', s = a ++ r /\ scan ph d a = Some (ph', d) /\ final ph' /\ rest_ok ph' r /\ p_dim r = None /\ no_break a
    /\ e <= m_arr k s p e
    /\ (r = [] -> m_arr k s p e <= p + length a) /\ (r <> [] -> m_arr k s p e = p + length a + bump ph' r).
Proof.
  assert (Nil : forall p e ph d, final ph -> e <= p + 0 ->
    exists a ph', [] = a ++ [] /\ scan ph d a = Some (ph', d) /\ final ph' /\ rest_ok ph' [] /\ p_dim [] = None /\ no_break a
    /\ e <= e /\ (@nil N = [] -> e <= p + length a) /\ (@nil N <> [] -> e = p + length a + bump ph' [])).
  { intros p e ph d F L. exists [], ph. repeat split; auto; try (constructor); cbn; try lia. intro C. now contradiction C. }
  induction k as [|k IH]; intros s p e ph d K F R E E1.
  - destruct s; [|cbn in K; lia]. apply Nil; [exact F|]. destruct ph; exact E.
  - destruct s as [|c s]; [apply Nil; [exact F|]; destruct ph; exact E|].
    cbn [p_arrlist m_arr]. destruct (p_dim (c :: s)) as [[x s2]|] eqn:D.
    + pose proof (p_dim_len _ _ _ D) as L. destruct (p_dim_open _ _ _ D) as (s1 & Es). rewrite Es, x_bump_bracket in E.
      pose proof (m_dim_bound _ p e _ _ D ltac:(lia)) as M.
      destruct (dim_scan ph d _ _ _ F D) as (a & Ea & Sa & NB & NE).
      assert (O : off (c :: s) s2 = S (length a)) by (rewrite Ea; unfold off; cbn [length]; rewrite app_length; lia).
      assert (La : 0 < length a) by (destruct a; [contradiction|cbn; lia]).
      specialize (IH s2 (p + off (c :: s) s2) (m_dim (c :: s) p e) Done d ltac:(lia) ltac:(fin)).
      assert (Rd : rest_ok Done s2) by (destruct s2; exact I).
      specialize (IH Rd ltac:(cbn [x_bump]; lia) ltac:(discriminate)).
      destruct (p_arrlist k s2) as [ds r].
      destruct IH as (a2 & ph' & E2 & S2 & F2 & R2 & D2 & N2 & M2 & B1 & B2).
      exists ((c_lbrack :: a) ++ a2), ph'. split; [rewrite Ea, E2; now rewrite <- app_assoc|].
      split; [eapply scan_go; eassumption|]. split; [exact F2|]. split; [exact R2|]. split; [exact D2|].
      split; [apply no_break_app; [|exact N2]; constructor; [split; discriminate|exact NB]|].
      split; [lia|]. rewrite app_length. cbn [length]. split; intro Hr.
      * specialize (B1 Hr). lia.
      * rewrite (B2 Hr). lia.
    + exists [], ph. split; [reflexivity|]. split; [reflexivity|]. split; [exact F|]. split; [exact R|]. split; [exact D|].
      split; [constructor|]. cbn [length].
      unfold p_dim in D. unfold m_dim. cbn [p_char] in *.
      destruct (N.eqb c_lbrack c) eqn:B.
      * apply N.eqb_eq in B. subst c. rewrite x_bump_bracket in E. unfold bump. rewrite N.eqb_refl.
        destruct (p_digits s) as [[n s2]|].
        -- destruct (p_char c_rbrack s2); [discriminate|]. split; [lia|]. split; [discriminate|lia].
        -- split; [lia|]. split; [discriminate|lia].
      * split; [lia|]. split; [discriminate|]. intros _. unfold bump. rewrite N.eqb_sym, B.
        destruct (Nat.eq_dec (x_bump ph (c :: s)) 1) as [X|X]; [rewrite (E1 X); lia|].
        assert (x_bump ph (c :: s) = 0) by (destruct ph; cbn in *; auto; destruct (N.eqb c c_x); lia). lia.
Qed.
Lemma x_bump_le ph s : x_bump ph s <= 1.
Proof. destruct ph, s; cbn; try lia. destruct (N.eqb _ _); lia. Qed.
Lemma sub_err s p e d : match s with [] => True | c :: _ => is_alpha c = false end -> e <= p ->
  let '(_, r) := p_sub s in
  exists a ph, s = a ++ r /\ scan Name d a = Some (ph, d) /\ final ph /\ rest_ok ph r /\ no_break a
    /\ e <= m_sub s p e <= p + length a + x_bump ph r /\ (x_bump ph r = 1 -> m_sub s p e = p + length a + 1).
Proof.
  intros A E. unfold p_sub, m_sub. destruct s as [|c s].
  { exists [], Name. repeat split; try fin; cbn; try lia. constructor. }
  destruct (p_digits (c :: s)) as [[n s1]|] eqn:D.
  - destruct (p_digits_text _ _ _ D) as (x & Ex & X & NB & Hd).
    assert (O : off (c :: s) s1 = length x) by (rewrite Ex; apply off_app).
    assert (Go : forall e', e <= e' <= p + length x + x_bump Num s1 -> (x_bump Num s1 = 1 -> e' = p + length x + 1) ->
       (match s1 with c1 :: s2 => c1 = c_x -> p_digits s2 = None | [] => True end) ->
       exists a ph, c :: s = a ++ s1 /\ scan Name d a = Some (ph, d) /\ final ph /\ rest_ok ph s1 /\ no_break a
        /\ e <= e' <= p + length a + x_bump ph s1 /\ (x_bump ph s1 = 1 -> e' = p + length a + 1)).
    { intros e' L1 L2 L3. exists x, Num. split; [exact Ex|]. split; [eapply name_num; exact X|]. split; [fin|].
      split; [destruct s1; [exact I|split; assumption]|]. split; [exact NB|]. split; [exact L1|exact L2]. }
    destruct (p_char c_x s1) as [s2|] eqn:Cx.
    + apply p_char_spec in Cx. subst s1. destruct (p_digits s2) as [[n2 r]|] eqn:D2.
      * destruct (p_digits_text _ _ _ D2) as (x2 & Ex2 & X2 & NB2 & Hd2).
        exists (x ++ c_x :: x2), Num2. split; [rewrite Ex, Ex2; now rewrite <- app_assoc|].
        split; [eapply scan_go; [eapply name_num; exact X|]; cbn [scan]; change (step Num d c_x) with (Some (Cross, d)); cbn iota; eapply cross_num; exact X2|].
        split; [fin|]. split; [destruct r; [exact I|exact Hd2]|].
        split; [apply no_break_app; [exact NB|constructor; [split; discriminate|exact NB2]]|].
        split; [cbn [x_bump]; lia|discriminate].
      * apply Go; [| |reflexivity].
        -- cbn [x_bump]. rewrite N.eqb_refl. assert (off (c :: s) s2 = S (length x)) by (rewrite Ex; unfold off; rewrite app_length; cbn [length]; lia). lia.
        -- intros _. assert (off (c :: s) s2 = S (length x)) by (rewrite Ex; unfold off; rewrite app_length; cbn [length]; lia). lia.
    + assert (Xb : x_bump Num s1 = 0).
      { destruct s1 as [|c1 s2]; [reflexivity|]. cbn [p_char] in Cx. cbn [x_bump]. rewrite N.eqb_sym. destruct (N.eqb c_x c1); [discriminate|reflexivity]. }
      apply Go; [rewrite Xb; lia|rewrite Xb; discriminate|]. destruct s1 as [|c1 s2]; [exact I|]. intros ->. cbn [p_char] in Cx. rewrite N.eqb_refl in Cx. discriminate.
  - exists [], Name. split; [reflexivity|]. split; [reflexivity|]. split; [fin|]. split; [split; [exact A|eapply p_digits_none; exact D]|].
    split; [constructor|]. cbn [length x_bump]. split; [lia|discriminate].
Qed.

(** A type that ended before a character that cannot follow it. *)
Lemma stuck ph d c r : final ph -> rest_ok ph (c :: r) -> p_dim (c :: r) = None -> (d = 0 \/ c <> c_comma /\ c <> c_rparen) ->
  pointer ph d (c :: r) (bump ph (c :: r)).
Proof.
  intros F R D S. unfold bump. destruct (N.eqb c c_lbrack) eqn:B.
  - apply N.eqb_eq in B. subst c. unfold p_dim in D. change (p_char c_lbrack (c_lbrack :: r)) with (Some r) in D. cbn iota in D.
    destruct (p_digits r) as [[n b]|] eqn:Dg.
    + destruct (p_digits_text _ _ _ Dg) as (x & -> & X & _ & Hd). apply (P_dim ph d _ [] x n b ph d); auto.
      destruct b as [|c b]; [exact I|]. split; [exact Hd|]. intros ->. discriminate D.
    + apply (pointer_step ph d c_lbrack r Open d 0); [now apply step_bracket|].
      destruct r as [|c r].
      * apply (P_end Open d [] [] [] (Open, d)); auto. constructor.
      * apply (P_wrong Open d (c :: r) [] c r Open d); auto. cbn [step]. rewrite (p_digits_none _ _ Dg).
        destruct (N.eqb c c_rbrack) eqn:B; [|reflexivity]. apply N.eqb_eq in B. subst c. discriminate D.
  - assert (Af : after d c = None).
    { unfold after. rewrite B. destruct d as [|d]; [reflexivity|]. destruct S as [S|[S1 S2]]; [discriminate|].
      apply N.eqb_neq in S1, S2. now rewrite S1, S2. }
    assert (W : step ph d c = None -> pointer ph d (c :: r) 0) by (intro W; apply (P_wrong ph d (c :: r) [] c r ph d); auto).
    destruct F as [->|[->|[->| ->]]]; cbn [x_bump].
    + apply W. cbn [step rest_ok] in *. destruct R as (-> & ->). exact Af.
    + destruct R as (R1 & R2). destruct (N.eqb c c_x) eqn:X.
      * apply N.eqb_eq in X. subst c. specialize (R2 eq_refl). apply (pointer_step Num d c_x r Cross d 0); [reflexivity|].
        destruct r as [|c r].
        -- apply (P_end Cross d [] [] [] (Cross, d)); auto. constructor.
        -- apply (P_wrong Cross d (c :: r) [] c r Cross d); auto. cbn [step]. now rewrite (p_digits_none _ _ R2).
      * apply W. cbn [step]. rewrite R1, X. exact Af.
    + apply W. cbn [step rest_ok] in *. rewrite R. exact Af.
    + apply W. exact Af.
Qed.

(** ** Types *)

Lemma skip_plus (a b : pystr) n : skipn (length a + n) (a ++ b) = skipn n b.
Proof. induction a as [|c a IH]; cbn; auto. Qed.
Lemma pointer_end ph d s st i : i <= length s -> scan ph d s = Some st -> no_break (skipn i s) -> pointer ph d s i.
Proof.
  intros L H N. rewrite <- (firstn_length_le s L) at 1. eapply P_end; [symmetry; apply firstn_skipn|exact H|exact N].
Qed.
Definition read_type ph p d s r m : Prop :=
  exists a ph', s = a ++ r /\ scan ph d a = Some (ph', d) /\ final ph' /\ rest_ok ph' r /\ p_dim r = None /\ p <= m
    /\ (r <> [] -> m = p + length a + bump ph' r)
    /\ (r = [] -> m <= p + length a /\ no_break (skipn (m - p) s)).
Definition type_err k : Prop := forall s p e d, length s < k -> e <= p ->
  match p_type k s with
  | None => exists i, m_type k s p e = p + i /\ pointer Want d s i
  | Some (_, r) => read_type Want p d s r (m_type k s p e)
  end.
Definition next_err k : Prop := forall s p e ph d, length s < k -> final ph -> rest_ok ph s -> p_dim s = None ->
  (s <> [] -> e = p + bump ph s) ->
  let '(_, r) := p_next k s in let m := m_next k s p e in
  exists a ph', s = a ++ r /\ scan ph (S d) a = Some (ph', S d) /\ final ph'
    /\ ((r = [] /\ ((a = [] /\ m = e) \/ (p <= m <= p + length a /\ no_break (skipn (m - p) s))))
        \/ (r <> [] /\ p_char c_comma r = None /\ rest_ok ph' r /\ p_dim r = None /\ m = p + length a + bump ph' r)
        \/ (p_char c_comma r <> None /\ exists i, m = p + length a + i /\ pointer ph' (S d) r i)).
Lemma app_off (a r : pystr) s : s = a ++ r -> off s r = length a.
Proof. intros ->. apply off_app. Qed.
Lemma peg_err k : type_err k /\ next_err k.
Proof.
  induction k as [|k [IHt IHn]]; [split; intros ?; intros; lia|]. split.
  - intros s p e d K E. cbn [p_type m_type]. destruct (p_char c_lparen s) as [s1|] eqn:P.
    + apply p_char_spec in P. subst s. cbn [length] in K.
      pose proof (IHt s1 (p + 1) e (S d) ltac:(lia) ltac:(lia)) as T.
      assert (St : step Want d c_lparen = Some (Want, S d)) by reflexivity.
      destruct (p_type k s1) as [[t s2]|].
      * destruct T as (a & ph & Es & Sa & F & R & D & L & B1 & B2). set (e1 := m_type k s1 (p + 1) e) in *.
        assert (O2 : off (c_lparen :: s1) s2 = S (length a)) by (rewrite Es; unfold off; cbn [length]; rewrite app_length; lia).
        pose proof (IHn s2 (p + off (c_lparen :: s1) s2) e1 ph d ltac:(rewrite Es, app_length in K; lia) F R D) as N.
        rewrite O2 in *. specialize (N ltac:(intro H; rewrite (B1 H); lia)).
        destruct (p_next k s2) as [ts s3]. cbn zeta in N. set (e2 := m_next k s2 (p + S (length a)) e1) in *.
        destruct N as (a2 & ph2 & E2 & S2 & F2 & C).
        assert (Sc : scan Want d (c_lparen :: a ++ a2) = Some (ph2, S d)).
        { cbn [scan]. rewrite St. eapply scan_go; eassumption. }
        assert (Es' : c_lparen :: s1 = (c_lparen :: a ++ a2) ++ s3) by (rewrite Es, E2; cbn [app]; now rewrite <- app_assoc).
        destruct (p_char c_rparen s3) as [s4|] eqn:Q.
        -- apply p_char_spec in Q. subst s3.
           destruct C as [(C & _)|[(_ & _ & R2 & D2 & M2)|(C & _)]]; [discriminate| |contradiction C; reflexivity].
           assert (B0 : bump ph2 (c_rparen :: s4) = 0) by (unfold bump; destruct ph2; reflexivity). rewrite B0 in M2.
           assert (O4 : off (c_lparen :: s1) s4 = S (length a + length a2 + 1)).
           { rewrite Es'. unfold off. cbn [length app]. rewrite !app_length. cbn [length]. lia. }
           rewrite O4. rewrite M2.
           pose proof (arr_err (length s4) s4 (p + S (length a + length a2 + 1)) (p + S (length a) + length a2 + 0) Done d
             ltac:(lia) ltac:(fin) ltac:(destruct s4; exact I) ltac:(cbn [x_bump]; lia) ltac:(discriminate)) as Ar.
           destruct (p_arrlist (length s4) s4) as [arr r]. destruct Ar as (a3 & ph3 & E3 & S3 & F3 & R3 & D3 & N3 & L3 & X1 & X2).
           set (m := m_arr (length s4) s4 (p + S (length a + length a2 + 1)) (p + S (length a) + length a2 + 0)) in *.
           exists ((c_lparen :: a ++ a2) ++ c_rparen :: a3), ph3.
           assert (Eall : c_lparen :: s1 = ((c_lparen :: a ++ a2) ++ c_rparen :: a3) ++ r) by (rewrite Es', E3; now rewrite <- app_assoc).
           split; [exact Eall|]. split; [eapply scan_go; [exact Sc|]; cbn [scan]; rewrite step_close by exact F2; exact S3|].
           split; [exact F3|]. split; [exact R3|]. split; [exact D3|]. split; [lia|].
           rewrite !app_length. cbn [length]. rewrite !app_length. split; intro Hr.
           ++ rewrite (X2 Hr). lia.
           ++ specialize (X1 Hr). split; [lia|]. rewrite Eall, Hr, app_nil_r.
              replace (m - p) with (length (c_lparen :: a ++ a2) + (m - p - S (length a + length a2))) by (cbn [length]; rewrite app_length; lia).
              rewrite skip_plus. assert (NB : no_break (c_rparen :: a3)) by (constructor; [split; discriminate|exact N3]).
              clear - NB. revert NB. generalize (m - p - S (length a + length a2)) as j, (c_rparen :: a3) as l.
              induction j as [|j IH]; intros l H; [exact H|]. destruct l; [exact H|]. apply IH. now inversion H.
        -- destruct C as [(-> & C)|[(Hne & Hc & R2 & D2 & M2)|(Hc & i & M2 & Pt)]].
           ++ rewrite app_nil_r in Es'. destruct C as [(-> & M2)|((L1 & L2) & NB)].
              ** rewrite app_nil_r in E2. cbn in E2. subst s2. specialize (B2 eq_refl) as (L2 & NB). rewrite app_nil_r in *. cbn [app] in Es.
                 exists (e2 - p). split; [lia|]. eapply pointer_end; [rewrite Es'; cbn [length]; lia|rewrite Es'; exact Sc|].
                 replace (e2 - p) with (S (e2 - (p + 1))) by lia. cbn [skipn]. rewrite M2. exact NB.
              ** rewrite app_nil_r in E2. subst a2. exists (e2 - p). split; [lia|].
                 eapply pointer_end; [rewrite Es'; cbn [length]; rewrite app_length; lia|rewrite Es'; exact Sc|].
                 replace (e2 - p) with (S (length a + (e2 - (p + S (length a))))) by lia. cbn [skipn]. rewrite Es, skip_plus. exact NB.
           ++ exists (length (c_lparen :: a ++ a2) + bump ph2 s3). split; [rewrite M2; cbn [length]; rewrite app_length; lia|].
              rewrite Es'. eapply pointer_app; [exact Sc|]. destruct s3 as [|c s3]; [contradiction|]. apply stuck; auto. right.
              cbn [p_char] in Hc, Q. split; intros ->; [rewrite N.eqb_refl in Hc|rewrite N.eqb_refl in Q]; discriminate.
           ++ exists (length (c_lparen :: a ++ a2) + i). split; [rewrite M2; cbn [length]; rewrite app_length; lia|].
              rewrite Es'. eapply pointer_app; [exact Sc|exact Pt].
      * destruct T as (i & M & Pt). exists (S i). split; [rewrite M; lia|]. eapply pointer_step; [exact St|exact Pt].
    + assert (Hc : match s with [] => True | c :: _ => N.eqb c c_lparen = false end).
      { destruct s as [|c s]; [exact I|]. cbn [p_char] in P. rewrite N.eqb_sym. destruct (N.eqb c_lparen c); [discriminate|reflexivity]. }
      destruct (p_alphas s) as [[b s1]|] eqn:A.
      * destruct (p_alphas_sound _ _ _ A) as (Es & Hb).
        assert (Hs1 : match s1 with [] => True | c :: _ => is_alpha c = false end).
        { unfold p_alphas in A. destruct (span is_alpha s) as [[|c0 b0] r0] eqn:Sp; [discriminate|]. injection A as <- <-. apply span_spec in Sp. tauto. }
        assert (O1 : off s s1 = length b) by now apply app_off. rewrite O1.
        pose proof (sub_err s1 (p + length b) (max e p) d Hs1 ltac:(lia)) as Sb.
        destruct (p_sub s1) as [sb s2]. set (e1 := m_sub s1 (p + length b) (max e p)) in *.
        destruct Sb as (a & ph & E1 & S1 & F & R & NB & M1 & M2).
        assert (O2 : off s s2 = length b + length a) by (rewrite Es, E1, app_assoc, off_app, app_length; reflexivity). rewrite O2.
        pose proof (arr_err (length s2) s2 (p + (length b + length a)) e1 ph d ltac:(lia) F R ltac:(lia) ltac:(intro H; rewrite (M2 H); lia)) as Ar.
        destruct (p_arrlist (length s2) s2) as [arr r]. destruct Ar as (a3 & ph3 & E3 & S3 & F3 & R3 & D3 & N3 & L3 & X1 & X2).
        set (m := m_arr (length s2) s2 (p + (length b + length a)) e1) in *.
        exists (b ++ a ++ a3), ph3.
        assert (Eall : s = (b ++ a ++ a3) ++ r) by (rewrite Es, E1, E3, <- !app_assoc; reflexivity).
        split; [exact Eall|]. split; [eapply scan_go; [now apply want_name|]; eapply scan_go; eassumption|].
        split; [exact F3|]. split; [exact R3|]. split; [exact D3|]. split; [lia|]. rewrite !app_length. split; intro Hr.
        -- rewrite (X2 Hr). lia.
        -- specialize (X1 Hr). split; [lia|]. rewrite Eall, Hr, app_nil_r.
           assert (NBs : no_break (b ++ a ++ a3)) by (apply no_break_app; [now apply alphas_break|]; now apply no_break_app).
           clear - NBs. revert NBs. generalize (m - p) as j, (b ++ a ++ a3) as l.
           induction j as [|j IH]; intros l H; [exact H|]. destruct l; [exact H|]. apply IH. now inversion H.
      * exists 0. split; [lia|]. destruct s as [|c s].
        -- apply (P_end Want d [] [] [] (Want, d)); auto. constructor.
        -- apply (P_wrong Want d (c :: s) [] c s Want d); auto. cbn [step]. rewrite Hc.
           unfold p_alphas in A. cbn [span] in A. destruct (is_alpha c); [destruct (span is_alpha s); discriminate|reflexivity].
  - intros s p e ph d K F R D E. cbn [p_next m_next]. destruct s as [|c s].
    { cbn [p_char]. exists [], ph. split; [reflexivity|]. split; [reflexivity|]. split; [exact F|]. left. auto. }
    specialize (E ltac:(discriminate)). destruct (p_char c_comma (c :: s)) as [s1|] eqn:P.
    + apply p_char_spec in P. injection P as -> <-. cbn [length] in K.
      assert (B0 : bump ph (c_comma :: s) = 0) by (unfold bump; destruct ph; reflexivity). rewrite B0 in E.
      pose proof (step_comma ph d F) as St.
      pose proof (IHt s (p + 1) e (S d) ltac:(lia) ltac:(lia)) as T. set (e1 := m_type k s (p + 1) e) in *.
      destruct (p_type k s) as [[t s2]|].
      * destruct T as (a & ph1 & Es & Sa & F1 & R1 & D1 & L & B1 & B2).
        assert (O2 : off (c_comma :: s) s2 = S (length a)) by (rewrite Es; unfold off; cbn [length]; rewrite app_length; lia).
        rewrite O2.
        pose proof (IHn s2 (p + S (length a)) e1 ph1 d ltac:(rewrite Es, app_length in K; lia) F1 R1 D1 ltac:(intro H; rewrite (B1 H); lia)) as N.
        destruct (p_next k s2) as [ts r]. cbn zeta in *. set (e2 := m_next k s2 (p + S (length a)) e1) in *.
        destruct N as (a2 & ph2 & E2 & S2 & F2 & C).
        exists (c_comma :: a ++ a2), ph2. split; [rewrite Es, E2; cbn [app]; now rewrite <- app_assoc|].
        split; [cbn [scan]; rewrite St; eapply scan_go; eassumption|]. split; [exact F2|].
        cbn [length]. rewrite app_length.
        destruct C as [(-> & C)|[(Hne & Hc & R2 & D2 & M2)|(Hc & i & M2 & Pt)]].
        -- left. split; [reflexivity|]. right. destruct C as [(-> & M2)|((L1 & L2) & NB)].
           ++ cbn in E2. subst s2. specialize (B2 eq_refl) as (L2 & NB). split; [cbn [length]; lia|].
              replace (e2 - p) with (S (e2 - (p + 1))) by lia. cbn [skipn]. rewrite M2. exact NB.
           ++ split; [lia|]. replace (e2 - p) with (S (length a + (e2 - (p + S (length a))))) by lia. cbn [skipn]. rewrite Es, skip_plus. exact NB.
        -- right. left. split; [exact Hne|]. split; [exact Hc|]. split; [exact R2|]. split; [exact D2|]. rewrite M2. lia.
        -- right. right. split; [exact Hc|]. exists i. split; [rewrite M2; lia|exact Pt].
      * destruct T as (i & M & Pt). exists [], ph. split; [reflexivity|]. split; [reflexivity|]. split; [exact F|]. right. right.
        split; [discriminate|]. exists (S i). split; [cbn [length]; rewrite M; lia|]. eapply pointer_step; [exact St|exact Pt].
    + exists [], ph. split; [reflexivity|]. split; [reflexivity|]. split; [exact F|]. right. left. split; [discriminate|].
      split; [exact P|]. split; [exact R|]. split; [exact D|]. cbn [length]. rewrite E. lia.
Qed.
