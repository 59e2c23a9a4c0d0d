(** Matchers as objects and keys of a dict. *)
From Coq Require Import Lia.
From Verif Require Import Tac Py Grammar Encoding Decoding Registry RaisingSpec RegistryProofs LookupProofs Matchers MatchersSpec.
Open Scope Z_scope.

Section Hashes.
Context (ht : list attr -> Z) (hf : N -> Z).
Notation hash := (hash_of ht hf).
Notation lookss := (looks ht hf).

(** ** Equal matchers have equal hashes *)
Lemma equal_attributes a b i j : has_attributes a -> has_attributes b -> pred_eqb (mkPred a i) (mkPred b j) = true -> attributes a = attributes b.
Proof.
  destruct a, b; cbn; intros; try contradiction; try discriminate.
  - apply str_eqb_eq in H1. congruence.
  - apply andb_true_iff in H1. destruct H1 as [H1 H2]. apply str_eqb_eq in H1. apply opt_bool_eqb_eq in H2. subst. reflexivity.
Qed.
Lemma equal_hash st a b : singles st -> pred_eqb (matcher st a) (matcher st b) = true -> hash st a = hash st b.
Proof.
  intros S E. pose proof (S a) as [A1 A2]. pose proof (S b) as [B1 B2]. unfold hash_of, matcher in *.
  destruct (st a) eqn:Ka, (st b) eqn:Kb; cbn in E; try discriminate.
  - f_equal. apply (equal_attributes _ _ (Some a) (Some b)); [exact I|exact I|exact E].
  - f_equal. apply (equal_attributes _ _ (Some a) (Some b)); [exact I|exact I|exact E].
  - rewrite A1, B1 by reflexivity. reflexivity.
  - rewrite A2, B2 by reflexivity. reflexivity.
  - apply N.eqb_eq in E. congruence.
Qed.
Lemma self_equal st o : pred_eqb (matcher st o) (matcher st o) = true.
Proof. apply held_real. discriminate. Qed.
Lemma same_is st a b : singles st -> pred_is (matcher st a) (matcher st b) = N.eqb a b.
Proof.
  intro S. unfold pred_is. destruct (N.eqb a b) eqn:E.
  - apply N.eqb_eq in E. subst b. rewrite self_equal. cbn. destruct (st a); try reflexivity; apply N.eqb_refl.
  - destruct (pred_eqb (matcher st a) (matcher st b)) eqn:Q; [|reflexivity]. cbn.
    pose proof (S a) as [A1 A2]. pose proof (S b) as [B1 B2]. unfold matcher in Q. apply N.eqb_neq in E.
    destruct (st a) eqn:Ka, (st b) eqn:Kb; cbn in Q; try discriminate; try (apply N.eqb_neq; exact E).
    + exfalso. apply E. rewrite A1, B1 by reflexivity. reflexivity.
    + exfalso. apply E. rewrite A2, B2 by reflexivity. reflexivity.
Qed.

(** ** Every lookup has a result *)
Lemma looks_total {V} st (d : list (slot V)) o : exists x, lookss st d o x.
Proof.
  set (f := fun s : slot V => N.eqb (s_key s) o || Z.eqb (s_hash s) (hash st o) && pred_eqb (matcher st (s_key s)) (matcher st o)).
  destruct (existsb f d) eqn:E.
  - apply existsb_exists in E. destruct E as (s & I & F). apply In_nth_error in I. destruct I as [i I]. exists (Some i). apply (Hit _ _ _ _ _ i s I).
    unfold f in F. apply orb_true_iff in F. rewrite andb_true_iff, N.eqb_eq, Z.eqb_eq in F. exact F.
  - exists None. constructor. intros s I H. assert (F : f s = false).
    { destruct (f s) eqn:F; [|reflexivity]. rewrite <- E. symmetry. apply existsb_exists. exists s. auto. }
    unfold f in F. rewrite H, Z.eqb_refl in F. apply orb_false_iff in F. destruct F as [F G]. apply N.eqb_neq in F. auto.
Qed.
Lemma step_total {V} (s : state V) c : exists a s', step ht hf s c a s'.
Proof.
  destruct s as [st t]. destruct c as [o v label|o|l|ts|o k].
  - destruct (looks_total st (t_values t) o) as [[i|] L].
    + eexists _, _. constructor. apply add_known with (i := i). exact L.
    + destruct label as [l|].
      * destruct (label_known (t_labels t) l) eqn:K; eexists _, _; constructor; [eapply add_taken|eapply add_labelled]; eauto.
      * eexists _, _. constructor. apply add_plain; auto.
  - destruct (looks_total st (t_values t) o) as [[i|] L]; eexists _, _; constructor; [eapply remove_known|eapply remove_unknown]; eauto.
  - destruct (find (fun x => str_eqb (fst x) l) (t_labels t)) as [[l' o]|] eqn:F.
    + destruct (looks_total st (t_values t) o) as [[i|] L]; eexists _, _; constructor; [eapply label_removed|eapply label_dangling]; eauto.
    + eexists _, _. constructor. apply label_unknown. exact F.
  - eexists _, _. constructor.
  - eexists _, _. constructor.
Qed.

(** ** Tables whose matchers stay as they are *)
Definition settled {V} (st : objects) (t : table V) : Prop :=
  (forall s, In s (t_values t) -> s_hash s = hash st (s_key s))
  /\ (forall i j s s', nth_error (t_values t) i = Some s -> nth_error (t_values t) j = Some s' ->
        pred_eqb (matcher st (s_key s)) (matcher st (s_key s')) = true -> i = j).

Lemma looks_seen {V} st (t : table V) o x : singles st -> settled st t -> lookss st (t_values t) o x ->
  has_pred (seen st t) (matcher st o) = match x with Some _ => true | None => false end
  /\ forall i, x = Some i -> exists s, nth_error (t_values t) i = Some s /\ pred_eqb (matcher st (s_key s)) (matcher st o) = true.
Proof.
  intros S [H D] L. unfold has_pred, seen. cbn [m_values]. destruct L as [i s N C|M].
  - assert (E : pred_eqb (matcher st (s_key s)) (matcher st o) = true) by (destruct C as [->|[_ C]]; [apply self_equal|exact C]). split.
    + apply existsb_exists. exists (matcher st (s_key s), s_value s). split; [|exact E]. apply in_map_iff. exists s. split; [reflexivity|]. eapply nth_error_In. exact N.
    + intros j Q. injection Q as <-. exists s. auto.
  - split; [|discriminate]. destruct (existsb _ _) eqn:E; [|reflexivity]. exfalso. apply existsb_exists in E. destruct E as ([p v] & I & E).
    apply in_map_iff in I. destruct I as (s & Q & I). injection Q as <- <-. cbn [fst] in E.
    destruct (M s I) as [_ F]; [|congruence]. rewrite (H s I). apply equal_hash; assumption.
Qed.
Lemma without_map {A B} (f : A -> B) i l : without i (map f l) = map f (without i l).
Proof. unfold without. rewrite map_app, firstn_map, skipn_map. reflexivity. Qed.
Lemma filter_without {A} (f : A -> bool) l : forall i x, nth_error l i = Some x -> f x = false ->
  (forall j y, nth_error l j = Some y -> f y = false -> j = i) -> filter f l = without i l.
Proof.
  induction l as [|a l IH]; intros i x N F U; [destruct i; discriminate|]. destruct i as [|i].
  - cbn in N. injection N as ->. cbn. rewrite F. change (filter f l = l). assert (G : forall y, In y l -> f y = true).
    { intros y I. destruct (f y) eqn:E; [reflexivity|]. apply In_nth_error in I. destruct I as [j I]. specialize (U (S j) y I E). discriminate. }
    clear - G. induction l as [|a l IH]; [reflexivity|]. cbn. rewrite G by (left; reflexivity). f_equal. apply IH. intros y I. apply G. right. exact I.
  - cbn in N. cbn [filter]. destruct (f a) eqn:E; [|specialize (U O a eq_refl E); discriminate].
    change (without (S i) (a :: l)) with (a :: without i l). f_equal. apply (IH i x N F). intros j y J Y. specialize (U (S j) y J Y). lia.
Qed.
Lemma del_seen {V} st (t : table V) o i ls : singles st -> settled st t -> lookss st (t_values t) o (Some i) ->
  del_value (mkMapping (m_values (seen st t)) ls) (matcher st o) = m_values (seen st (mkTable (without i (t_values t)) [])).
Proof.
  intros S P L. destruct (looks_seen st t o _ S P L) as [_ Q]. destruct (Q i eq_refl) as (s & N & E). destruct P as [_ D].
  unfold del_value, seen. cbn [m_values t_values]. rewrite <- without_map.
  apply filter_without with (x := (matcher st (s_key s), s_value s)).
  - rewrite nth_error_map, N. reflexivity.
  - cbn [fst]. rewrite E. reflexivity.
  - intros j [p v] J F. rewrite nth_error_map in J. destruct (nth_error (t_values t) j) as [s'|] eqn:N'; [|discriminate]. injection J as <- <-. cbn [fst] in F.
    apply (D j i s' s N' N). apply negb_false_iff in F. eapply pred_eqb_trans; [exact F|]. rewrite pred_eqb_sym. exact E.
Qed.
Lemma known_seen {V} st (t : table V) l : has_label (seen st t) l = label_known (t_labels t) l.
Proof. unfold has_label, seen, label_known. cbn [m_labels]. induction (t_labels t) as [|x ls IH]; [reflexivity|]. cbn. rewrite IH. reflexivity. Qed.
Lemma unlabel_seen {V} st (vs : list (pred * V)) ls l : del_label (mkMapping vs (map (fun x => (fst x, matcher st (snd x))) ls)) l = map (fun x => (fst x, matcher st (snd x))) (unlabel ls l).
Proof. unfold del_label, unlabel. cbn [m_labels]. induction ls as [|x ls IH]; [reflexivity|]. cbn. destruct (str_eqb (fst x) l); cbn; rewrite IH; reflexivity. Qed.
Lemma unlabel_seen' {V} st (t : table V) l : del_label (seen st t) l = map (fun x => (fst x, matcher st (snd x))) (unlabel (t_labels t) l).
Proof. apply unlabel_seen. Qed.
Lemma find_is_seen st (ls : list (pystr * N)) o : singles st -> find (fun lp => pred_is (snd lp) (matcher st o)) (map (fun x => (fst x, matcher st (snd x))) ls)
  = option_map (fun x => (fst x, matcher st (snd x))) (find (fun x => N.eqb (snd x) o) ls).
Proof. intro S. induction ls as [|x ls IH]; [reflexivity|]. cbn. rewrite same_is by exact S. destruct (N.eqb (snd x) o); [reflexivity|exact IH]. Qed.
Lemma find_label_seen st (ls : list (pystr * N)) l : find (fun lp : pystr * pred => str_eqb (fst lp) l) (map (fun x => (fst x, matcher st (snd x))) ls)
  = option_map (fun x => (fst x, matcher st (snd x))) (find (fun x => str_eqb (fst x) l) ls).
Proof. induction ls as [|x ls IH]; [reflexivity|]. cbn. destruct (str_eqb (fst x) l); [reflexivity|exact IH]. Qed.

Lemma without_nth {A} (l : list A) : forall i j, nth_error (without i l) j = nth_error l (if Nat.ltb j i then j else S j).
Proof.
  induction l as [|a l IH]; intros i j.
  - replace (without i (@nil A)) with (@nil A) by (unfold without; destruct i; reflexivity). destruct (if Nat.ltb j i then j else S j), j; reflexivity.
  - destruct i as [|i]; [reflexivity|]. change (without (S i) (a :: l)) with (a :: without i l). destruct j as [|j]; [reflexivity|]. cbn [nth_error]. rewrite IH.
    replace (Nat.ltb (S j) (S i)) with (Nat.ltb j i) by reflexivity. destruct (Nat.ltb j i); reflexivity.
Qed.
Lemma without_In {A} (l : list A) i x : In x (without i l) -> In x l.
Proof. intro I. apply In_nth_error in I. destruct I as [j I]. rewrite without_nth in I. eapply nth_error_In. exact I. Qed.
Lemma settled_without {V} st (t : table V) i ls : settled st t -> settled st (mkTable (without i (t_values t)) ls).
Proof.
  intros [H D]. split; cbn [t_values].
  - intros s I. apply H. eapply without_In. exact I.
  - intros a b s s' A B E. rewrite without_nth in A, B. specialize (D _ _ _ _ A B E).
    destruct (Nat.ltb_spec a i), (Nat.ltb_spec b i); lia.
Qed.
Lemma settled_labels {V} st (t : table V) ls : settled st t -> settled st (mkTable (t_values t) ls).
Proof. intro H. exact H. Qed.
Lemma settled_add {V} st (t : table V) o v ls : singles st -> settled st t -> lookss st (t_values t) o None ->
  settled st (mkTable (t_values t ++ [mkSlot (hash st o) o v]) ls).
Proof.
  intros S P L. destruct (looks_seen st t o _ S P L) as [Q _]. destruct P as [H D]. split; cbn [t_values].
  - intros s I. apply in_app_iff in I. destruct I as [I|[<-|[]]]; [auto|reflexivity].
  - assert (F : forall k x, nth_error (t_values t) k = Some x -> pred_eqb (matcher st (s_key x)) (matcher st o) = false).
    { intros k x N. destruct (pred_eqb _ _) eqn:E; [|reflexivity]. rewrite <- Q. symmetry. unfold has_pred, seen. cbn [m_values]. apply existsb_exists.
      exists (matcher st (s_key x), s_value x). split; [|exact E]. apply in_map_iff. exists x. split; [reflexivity|]. eapply nth_error_In. exact N. }
    assert (G : forall k x, nth_error (t_values t ++ [mkSlot (hash st o) o v]) k = Some x -> nth_error (t_values t) k = Some x \/ k = length (t_values t) /\ s_key x = o).
    { intros k x N. destruct (Nat.lt_ge_cases k (length (t_values t))) as [C|C]; [left; rewrite nth_error_app1 in N by exact C; exact N|].
      right. rewrite nth_error_app2 in N by exact C. destruct (k - length (t_values t))%nat as [|[|?]] eqn:Z; [|discriminate..]. injection N as <-. split; [lia|reflexivity]. }
    intros i j s s' A B E. destruct (G i s A) as [A'|[A' A2]], (G j s' B) as [B'|[B' B2]].
    + exact (D i j s s' A' B' E).
    + rewrite B2 in E. rewrite (F i s A') in E. discriminate.
    + rewrite A2, pred_eqb_sym in E. rewrite (F j s' B') in E. discriminate.
    + congruence.
Qed.

(** ** One call *)
Lemma seen_snoc {V} st (vs : list (slot V)) o v ls ls' : map (fun x => (fst x, matcher st (snd x))) ls = ls' ->
  seen st (mkTable (vs ++ [mkSlot (hash st o) o v]) ls) = mkMapping (map (fun s => (matcher st (s_key s), s_value s)) vs ++ [(matcher st o, v)]) ls'.
Proof. intros <-. unfold seen. cbn [t_values t_labels]. rewrite map_app. reflexivity. Qed.
Lemma step_seen {V} (s s' : state V) c a : singles (fst s) -> settled (fst s) (snd s) -> (forall o k, c <> CAssign o k) -> step ht hf s c a s' ->
  plain_step (fst s) (seen (fst s) (snd s)) c = (a, (fst s', seen (fst s') (snd s'))) /\ fst s' = fst s /\ settled (fst s') (snd s').
Proof.
  intros S P C H. destruct H as [st t o v label r t' H|st t o r t' H|st t l r t' H|st t ts|st t o k]; cbn [fst snd] in *.
  - cbn [plain_step]. unfold m_add. destruct H as [i L|l L -> K|l L -> K|L ->]; destruct (looks_seen st t o _ S P L) as [-> _].
    + auto.
    + rewrite known_seen, K. auto.
    + rewrite known_seen, K. split; [|split; [reflexivity|apply settled_add; assumption]]. do 2 f_equal. symmetry. rewrite seen_snoc with (ls' := m_labels (seen st t) ++ [(l, matcher st o)]); [reflexivity|].
      rewrite map_app. reflexivity.
    + split; [|split; [reflexivity|apply settled_add; assumption]]. do 2 f_equal. symmetry. apply seen_snoc. reflexivity.
  - cbn [plain_step]. unfold m_remove_by_equality. destruct H as [L|i L]; destruct (looks_seen st t o _ S P L) as [-> _]; [auto|].
    cbn zeta. change (del_value (seen st t) (matcher st o)) with (del_value (mkMapping (m_values (seen st t)) (m_labels (seen st t))) (matcher st o)).
    rewrite (del_seen st t o i _ S P L). cbn [seen m_labels]. rewrite find_is_seen by exact S.
    split; [|split; [reflexivity|apply settled_without; exact P]]. destruct (find (fun x => N.eqb (snd x) o) (t_labels t)) as [[l o']|]; cbn [option_map fst snd]; [|reflexivity].
    rewrite unlabel_seen'. reflexivity.
  - cbn [plain_step]. unfold m_remove_by_label. cbn [seen m_labels]. rewrite find_label_seen. destruct H as [F|l' o F L|l' o i F L]; rewrite F; cbn [option_map fst snd].
    + auto.
    + destruct (looks_seen st t o _ S P L) as [Q _]. cbn zeta. rewrite unlabel_seen'.
      match goal with |- context [has_pred ?m (matcher st o)] => change (has_pred m (matcher st o)) with (has_pred (seen st t) (matcher st o)) end.
      rewrite Q. split; [reflexivity|]. split; [reflexivity|]. apply settled_labels. exact P.
    + destruct (looks_seen st t o _ S P L) as [Q _]. cbn zeta. rewrite unlabel_seen'.
      match goal with |- context [has_pred ?m (matcher st o)] => change (has_pred m (matcher st o)) with (has_pred (seen st t) (matcher st o)) end.
      rewrite Q. rewrite (del_seen st t o i _ S P L).
      split; [reflexivity|]. split; [reflexivity|]. apply settled_without. exact P.
  - auto.
  - exfalso. exact (C o k eq_refl).
Qed.

(** ** Programs *)
Definition within_used {V} (used : list N) (t : table V) : Prop :=
  (forall s, In s (t_values t) -> In (s_key s) used) /\ (forall x, In x (t_labels t) -> In (snd x) used).
Lemma assign_other st o k i : i <> o -> assign st o k i = st i.
Proof. intro H. unfold assign. apply N.eqb_neq in H. rewrite H. reflexivity. Qed.
Lemma assign_same st o k : assign st o k o = k.
Proof. unfold assign. rewrite N.eqb_refl. reflexivity. Qed.
Lemma matcher_other st o k i : i <> o -> matcher (assign st o k) i = matcher st i.
Proof. intro H. unfold matcher. rewrite assign_other by exact H. reflexivity. Qed.
Lemma hash_other st o k i : i <> o -> hash (assign st o k) i = hash st i.
Proof. intro H. unfold hash_of. rewrite assign_other by exact H. reflexivity. Qed.
Lemma singles_assign st o k : singles st -> single o k -> singles (assign st o k).
Proof. intros S H i. unfold assign. destruct (N.eqb i o) eqn:E; [apply N.eqb_eq in E; subst i; exact H|apply S]. Qed.
Lemma seen_assign {V} st (t : table V) used o k : within_used used t -> ~ In o used -> seen (assign st o k) t = seen st t.
Proof.
  intros [A B] H. unfold seen. f_equal; apply map_ext_in; intros x I; (rewrite matcher_other; [reflexivity|]); intro E; apply H; rewrite <- E; [apply A|apply B]; exact I.
Qed.
Lemma settled_assign {V} st (t : table V) used o k : within_used used t -> ~ In o used -> settled st t -> settled (assign st o k) t.
Proof.
  intros [A _] H [P D]. assert (U : forall s, In s (t_values t) -> s_key s <> o) by (intros s I E; apply H; rewrite <- E; auto). split.
  - intros s I. rewrite hash_other by auto. auto.
  - intros i j s s' I J E. rewrite !matcher_other in E by (apply U; eapply nth_error_In; eassumption). eapply D; eassumption.
Qed.
Lemma unlabel_In ls l x : In x (unlabel ls l) -> In x ls.
Proof. unfold unlabel. intro I. apply filter_In in I. apply I. Qed.
Lemma step_used {V} (s s' : state V) c a used : within_used used (snd s) -> step ht hf s c a s' ->
  within_used (match c with CAdd o _ _ => o :: used | _ => used end) (snd s').
Proof.
  intros [A B] H. assert (Wk : forall o, within_used (o :: used) (snd s)) by (intro o; split; intros x I; right; auto).
  destruct H as [st t o v label r t' H|st t o r t' H|st t l r t' H|st t ts|st t o k]; cbn [snd] in *.
  - destruct H as [i L|l L -> K|l L -> K|L ->]; try apply Wk; split; cbn [t_values t_labels]; intros x I; try apply in_app_iff in I; try (right; auto; fail).
    + destruct I as [I|[<-|[]]]; [right; auto|left; reflexivity].
    + destruct I as [I|[<-|[]]]; [right; auto|left; reflexivity].
    + destruct I as [I|[<-|[]]]; [right; auto|left; reflexivity].
  - destruct H as [L|i L]; [split; assumption|]. split; cbn [t_values t_labels]; intros x I.
    + apply A. eapply without_In. exact I.
    + apply B. destruct (find _ _) as [[l' o']|]; [eapply unlabel_In; exact I|exact I].
  - destruct H as [F|l' o F L|l' o i F L]; [split; assumption|..]; split; cbn [t_values t_labels]; intros x I; auto.
    + apply B. eapply unlabel_In. exact I.
    + apply A. eapply without_In. exact I.
    + apply B. eapply unlabel_In. exact I.
  - split; assumption.
  - split; assumption.
Qed.
Lemma steps_seen {V} (s s' : state V) cs as' : steps ht hf s cs as' s' -> forall used,
  singles (fst s) -> settled (fst s) (snd s) -> within_used used (snd s) -> Forall proper cs -> keeps_matchers used cs ->
  plain_steps (fst s) (seen (fst s) (snd s)) cs = (as', (fst s', seen (fst s') (snd s'))) /\ singles (fst s') /\ settled (fst s') (snd s').
Proof.
  induction 1 as [s|s c a s1 cs as' s2 H R IH]; intros used S P U F K; [auto|]. inv F. cbn [plain_steps].
  pose proof (step_used s s1 c a used U H) as U1.
  assert (Nc : (forall o k, c <> CAssign o k) \/ exists o k, c = CAssign o k) by (destruct c; [left; intros; discriminate..|right; eauto]).
  destruct Nc as [Nc|(o & k & ->)].
  { destruct (step_seen s s1 c a S P Nc H) as (-> & E & P1). rewrite <- E in S.
    assert (K' : keeps_matchers (match c with CAdd o _ _ => o :: used | _ => used end) cs) by (destruct c; try exact K; exfalso; eapply Nc; reflexivity).
    destruct (IH _ S P1 U1 ltac:(assumption) K') as (-> & S2 & P2). auto. }
  destruct K as [K1 K2]. inversion H as [| | | |st t o' k']; subst. cbn [fst snd] in *. cbn [plain_step].
  pose proof (singles_assign st o k S ltac:(assumption)) as S1. pose proof (settled_assign st t used o k U K1 P) as P1.
  destruct (IH used S1 P1 U ltac:(assumption) K2) as (E & S2 & P2). rewrite (seen_assign st t used o k U K1) in E. rewrite E. auto.
Qed.
Lemma program {V} st cs as' (s : state V) : singles st -> Forall proper cs -> keeps_matchers [] cs -> steps ht hf (st, mkTable [] []) cs as' s ->
  plain_steps st empty_mapping cs = (as', (fst s, seen (fst s) (snd s))).
Proof.
  intros S F K R. refine (proj1 (steps_seen _ _ _ _ R [] S _ _ F K)).
  - split; [intros ? []|]. intros i j x y H. destruct i; discriminate.
  - split; intros ? [].
Qed.
Lemma reached_settled {V} st (t : table V) : reached ht hf st t -> singles st /\ settled st t.
Proof.
  intros (st0 & cs & as' & S & F & K & R). refine (proj2 (steps_seen _ _ _ _ R [] S _ _ F K)).
  - split; [intros ? []|]. intros i j x y H. destruct i; discriminate.
  - split; intros ? [].
Qed.

(** ** After an assignment to a registered matcher *)
Section Changed.
Context {V : Type} (st : objects) (t : table V) (i : nat) (s : slot V) (k : pred_kind).
Context (R : reached ht hf st t) (N : nth_error (t_values t) i = Some s) (A : has_attributes k).
Let o := s_key s.
Let st' := assign st o k.
Context (C : hash st' o <> s_hash s).

Lemma other_key j x : nth_error (t_values t) j = Some x -> j <> i -> s_key x <> o.
Proof.
  intros J D E. destruct (reached_settled _ _ R) as [_ [_ U]]. apply D. apply (U j i x s J N). rewrite E. apply self_equal.
Qed.
Lemma new_hash : hash st' o = ht (attributes k).
Proof. unfold st', hash_of. rewrite assign_same. destruct k; try contradiction; reflexivity. Qed.
Lemma equal_new j x : nth_error (t_values t) j = Some x -> pred_eqb (matcher st (s_key x)) (mkPred k (Some o)) = true -> s_hash x = hash st' o /\ j <> i.
Proof.
  intros J E. destruct (reached_settled _ _ R) as [_ [H _]]. rewrite new_hash.
  assert (G : s_hash x = ht (attributes k)).
  { rewrite (H x) by (eapply nth_error_In; exact J). unfold hash_of, matcher in *. 
    destruct (st (s_key x)) eqn:K; try (destruct k; cbn in E; try contradiction; discriminate);
      f_equal; apply (equal_attributes _ _ (Some (s_key x)) (Some o)); try exact I; try exact A; exact E. }
  split; [exact G|]. intros ->. rewrite N in J. injection J as J. rewrite new_hash in C. congruence.
Qed.
Lemma found_changed x : lookss st' (t_values t) o x <->
  match x with
  | Some j => j = i \/ exists y, nth_error (t_values t) j = Some y /\ pred_eqb (matcher st (s_key y)) (mkPred k (Some o)) = true
  | None => forall y, In y (t_values t) -> pred_eqb (matcher st (s_key y)) (mkPred k (Some o)) = false
  end.
Proof.
  assert (M : matcher st' o = mkPred k (Some o)) by (unfold matcher, st'; rewrite assign_same; reflexivity).
  split.
  - intros [j y J Q|Q].
    + destruct (Nat.eq_dec j i) as [->|D]; [left; reflexivity|]. right. exists y. split; [exact J|]. pose proof (other_key j y J D) as O.
      destruct Q as [Q|[_ Q]]; [contradiction|]. rewrite M in Q. unfold st' in Q. rewrite matcher_other in Q by exact O. exact Q.
    + intros y I. destruct (pred_eqb _ _) eqn:E; [|reflexivity]. exfalso. apply In_nth_error in I. destruct I as [j J].
      destruct (equal_new j y J E) as [H D]. destruct (Q y (nth_error_In _ _ J) H) as [O F]. rewrite M in F. unfold st' in F. rewrite matcher_other in F by exact O. congruence.
  - destruct x as [j|].
    + intros [->|(y & J & E)]; [apply Hit with (s := s); [exact N|left; reflexivity]|]. destruct (equal_new j y J E) as [H D].
      apply Hit with (s := y); [exact J|]. right. split; [exact H|]. rewrite M. unfold st'. rewrite matcher_other by (apply (other_key j); assumption). exact E.
    + intro Q. constructor. intros y I H. pose proof I as I'. apply In_nth_error in I'. destruct I' as [j J].
      assert (D : j <> i) by (intros ->; rewrite N in J; injection J as J; congruence).
      split; [apply (other_key j); assumption|]. rewrite M. unfold st'. rewrite matcher_other by (apply (other_key j); assumption). apply Q. exact I.
Qed.
Lemma unregister_changed l r t' : find (fun x => str_eqb (fst x) l) (t_labels t) = Some (l, o) ->
  removes_label ht hf st' t l r t' <->
  t_labels t' = unlabel (t_labels t) l
  /\ (r = Ok tt /\ (exists j, t_values t' = without j (t_values t)
        /\ (j = i \/ exists y, nth_error (t_values t) j = Some y /\ pred_eqb (matcher st (s_key y)) (mkPred k (Some o)) = true))
      \/ r = Err KeyError /\ t_values t' = t_values t
        /\ forall y, In y (t_values t) -> pred_eqb (matcher st (s_key y)) (mkPred k (Some o)) = false).
Proof.
  intro F. split.
  - intros [G|l' o' G L|l' o' j G L]; rewrite F in G; try discriminate; injection G as <- <-; cbn [t_labels t_values]; (split; [reflexivity|]).
    + right. split; [reflexivity|]. split; [reflexivity|]. exact (proj1 (found_changed None) L).
    + left. split; [reflexivity|]. exists j. split; [reflexivity|]. exact (proj1 (found_changed (Some j)) L).
  - destruct t' as [vs ls]. cbn [t_labels t_values]. intros [-> [[-> (j & -> & H)]|[-> [-> H]]]].
    + apply (label_removed _ _ _ _ _ l o j F). apply found_changed. exact H.
    + apply (label_dangling _ _ _ _ _ l o F). apply found_changed. exact H.
Qed.
(** Registering an equal matcher is not refused. *)
Lemma register_changed o2 v label r t' : o2 <> o -> st o2 = k -> ~ In o2 (map s_key (t_values t)) ->
  (forall y, In y (t_values t) -> pred_eqb (matcher st (s_key y)) (mkPred k (Some o)) = false) ->
  (forall l, label = Some l -> label_known (t_labels t) l = false) ->
  adds ht hf st' t o2 v label r t' -> r = Ok tt /\ t_values t' = t_values t ++ [mkSlot (ht (attributes k)) o2 v].
Proof.
  intros D K U Q Lb H.
  assert (G : lookss st' (t_values t) o2 None /\ forall j, ~ lookss st' (t_values t) o2 (Some j)).
  { assert (Hs : hash st' o2 = ht (attributes k)) by (unfold st', hash_of; rewrite assign_other, K by exact D; destruct k; try contradiction; reflexivity).
    assert (W : forall y, In y (t_values t) -> s_key y <> o2 /\ (s_hash y = hash st' o2 -> pred_eqb (matcher st' (s_key y)) (matcher st' o2) = false)).
    { intros y I. split; [intros E; apply U; apply in_map_iff; exists y; auto|]. intro E. pose proof I as I'. apply In_nth_error in I'. destruct I' as [j J].
      assert (D' : j <> i) by (intros ->; rewrite N in J; injection J as J; rewrite new_hash in C; congruence).
      unfold st'. rewrite matcher_other by (apply (other_key j); assumption). rewrite matcher_other by exact D. unfold matcher at 2. rewrite K.
      specialize (Q y I). destruct (matcher st (s_key y)) as [ky iy]. destruct ky, k; try contradiction; exact Q. }
    split.
    - constructor. intros y I E. destruct (W y I) as [W1 W2]. auto.
    - intros j L. inversion L as [j' y J [E|[E1 E2]]|]; subst; destruct (W y (nth_error_In _ _ J)) as [W1 W2]; [contradiction|]. rewrite (W2 E1) in E2. discriminate. }
  destruct G as [G1 G2]. assert (Hs : hash st' o2 = ht (attributes k)) by (unfold st', hash_of; rewrite assign_other, K by exact D; destruct k; try contradiction; reflexivity).
  destruct H as [j L|l L -> W|l L -> W|L ->].
  - exfalso. exact (G2 j L).
  - rewrite (Lb l eq_refl) in W. discriminate.
  - rewrite Hs. split; reflexivity.
  - rewrite Hs. split; reflexivity.
Qed.
End Changed.

(** ** An entry whose label is lost *)
Lemma without_keeps {A} (l : list A) : forall i j x y, nth_error l i = Some x -> nth_error l j = Some y -> i <> j -> In x (without j l).
Proof.
  intros i j x y I J D. destruct (Nat.lt_ge_cases i j) as [L|L].
  - apply nth_error_In with (n := i). rewrite without_nth. apply Nat.ltb_lt in L. rewrite L. exact I.
  - apply nth_error_In with (n := Nat.pred i). rewrite without_nth. replace (Nat.ltb (Nat.pred i) j) with false by (symmetry; apply Nat.ltb_ge; lia).
    replace (S (Nat.pred i)) with i by lia. exact I.
Qed.
Lemma looks_other {V} st (d : list (slot V)) s o j : In s d -> s_hash s <> hash st (s_key s) -> o <> s_key s -> singles st -> lookss st d o (Some j) -> In s (without j d).
Proof.
  intros I H D S L. inversion L as [j' y J C|]; subst. apply In_nth_error in I. destruct I as [i I]. apply (without_keeps d i j s y I J).
  intros ->. rewrite I in J. injection J as ->. destruct C as [C|[C1 C2]]; [congruence|]. apply H. rewrite C1. symmetry. apply equal_hash; assumption.
Qed.
Definition bound {V} (t : table V) (o : N) : Prop := exists l, In (l, o) (t_labels t).
Lemma step_stuck {V} (x y : state V) c a s : singles (fst x) -> proper c -> In s (t_values (snd x)) -> s_hash s <> hash (fst x) (s_key s) -> leaves (s_key s) c -> ~ bound (snd x) (s_key s) ->
  step ht hf x c a y -> singles (fst y) /\ In s (t_values (snd y)) /\ fst y (s_key s) = fst x (s_key s) /\ ~ bound (snd y) (s_key s).
Proof.
  intros S Pr I H Lv B R. destruct R as [st t o v label r t' R|st t o r t' R|st t l r t' R|st t ts|st t o k]; cbn [fst snd] in *.
  - split; [exact S|]. cbn [leaves] in Lv. destruct R as [i L|l L -> K|l L -> K|L ->]; cbn [t_values t_labels]; try (split; [exact I|]; split; [reflexivity|exact B]).
    + split; [apply in_app_iff; left; exact I|]. split; [reflexivity|]. intros [l' J]. cbn [t_labels] in J. apply in_app_iff in J. destruct J as [J|[J|[]]]; [apply B; exists l'; exact J|congruence].
    + split; [apply in_app_iff; left; exact I|]. split; [reflexivity|]. exact B.
  - split; [exact S|]. cbn [leaves] in Lv. destruct R as [L|i L]; cbn [t_values]; [split; [exact I|]; split; [reflexivity|exact B]|].
    split; [eapply looks_other; eauto|]. split; [reflexivity|]. intros [l' J]. cbn [t_labels] in J. apply B. exists l'. destruct (find _ _) as [[l2 o2]|]; [eapply unlabel_In; exact J|exact J].
  - split; [exact S|]. destruct R as [F|l' o F L|l' o i F L]; cbn [t_values]; [split; [exact I|]; split; [reflexivity|exact B]| |].
    + split; [exact I|]. split; [reflexivity|]. intros [l2 J]. apply B. exists l2. eapply unlabel_In. exact J.
    + split; [|split; [reflexivity|intros [l2 J]; apply B; exists l2; eapply unlabel_In; exact J]].
      eapply looks_other; eauto. intro E. apply B. apply find_some in F. destruct F as [F _]. exists l'. rewrite <- E. exact F.
  - auto.
  - cbn [leaves proper] in *. split; [apply singles_assign; assumption|]. split; [exact I|]. split; [apply assign_other; congruence|exact B].
Qed.
Lemma steps_stuck {V} (x y : state V) cs as' : steps ht hf x cs as' y -> forall s, singles (fst x) -> Forall proper cs -> In s (t_values (snd x)) -> s_hash s <> hash (fst x) (s_key s) ->
  Forall (leaves (s_key s)) cs -> ~ bound (snd x) (s_key s) -> In s (t_values (snd y)) /\ fst y (s_key s) = fst x (s_key s).
Proof.
  induction 1 as [x|x c a x1 cs as' x2 H R IH]; intros s S Pr I Hs L B; [auto|]. inv L. inv Pr.
  destruct (step_stuck x x1 c a s S ltac:(assumption) I Hs ltac:(assumption) B H) as (S1 & I1 & E1 & B1).
  assert (Hs1 : s_hash s <> hash (fst x1) (s_key s)) by (unfold hash_of in *; rewrite E1; exact Hs).
  destruct (IH s S1 ltac:(assumption) I1 Hs1 ltac:(assumption) B1) as [A1 A2]. split; [exact A1|congruence].
Qed.
End Hashes.

(** ** The caches of a registry *)
Lemma cached_encoder o k ts e r : ecache_get (r_ecache r) ts = Some e -> get_encoder ts (reassigned o k r) = (Ok e, reassigned o k r).
Proof. intro H. unfold get_encoder. cbn [get_encoder_fuel]. unfold reassigned at 1. cbn [r_ecache]. rewrite H. reflexivity. Qed.
