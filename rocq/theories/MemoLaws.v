(** The theorems about the memo of [grammar.parse]. *)
From Coq Require Import Strings.String Lia.
From Verif Require Import Tac Bytes BytesProofs Grammar GrammarSpec GrammarProofs AbiTypes AbiTypesSpec AbiTypesProofs Registry Memo MemoSpec MemoProofs.
Open Scope Z_scope.

(** ** Parsing *)
Lemma perform_parse s m : perform (Parse s) m = (said (fst (memo_parse s m)), snd (memo_parse s m)).
Proof. cbn [perform]. destruct (memo_parse s m). reflexivity. Qed.
Lemma parse_hits s m r : recall (memo m) s = Some r -> perform (Parse s) m = (Ref r, m).
Proof. intro R. rewrite perform_parse. unfold memo_parse. rewrite R. reflexivity. Qed.
Lemma perform_over s m : perform (Overtaken s) m = (said (fst (parse_anew s m)), snd (parse_anew s m)).
Proof. cbn [perform]. destruct (parse_anew s m). reflexivity. Qed.
Lemma anew_ref s m r m' : anew s m (Ok r) m' -> recall (memo m') s = Some r.
Proof. intro A. inversion A; subst. cbn [memo recall]. rewrite str_refl. reflexivity. Qed.
Lemma parse_ref s m r m1 : perform (Parse s) m = (Ref r, m1) -> recall (memo m1) s = Some r.
Proof.
  rewrite perform_parse. destruct (memo_parse s m) as [x m'] eqn:E. cbn [fst snd]. intro H. inv H. apply memo_parsing in E.
  destruct E as [r' R|x m' R P]; cbn [said] in *; [congruence|]. destruct x; [|discriminate]. injection H1 as ->. exact (anew_ref _ _ _ _ P).
Qed.
Lemma over_ref s m r m1 : perform (Overtaken s) m = (Ref r, m1) -> recall (memo m1) s = Some r.
Proof.
  rewrite perform_over. destruct (parse_anew s m) as [x m'] eqn:E. cbn [fst snd]. intro H. inv H. apply parse_anews in E.
  destruct x; [|discriminate]. injection H1 as ->. exact (anew_ref _ _ _ _ E).
Qed.
Lemma anew_first s m o : parse_obj s = Ok o ->
  exists r m', parse_anew s m = (Ok r, m') /\ shows (objects m') r o
    /\ (forall x, belongs (objects m') r x -> (length (objects m) <= x)%nat)
    /\ (forall x, (x < length (objects m))%nat -> at_ref m' x = at_ref m x).
Proof.
  intros P. destruct (parse_anew s m) as [x m'] eqn:E. pose proof (parse_anews _ _ _ _ E) as Q.
  destruct Q as [e P'|o' r' e m' P' -> S G]; [congruence|]. rewrite P in P'. injection P' as <-.
  exists r', (mkMemory (objects m ++ e) ((s, r') :: memo m)). split; [reflexivity|]. split; [exact S|]. split.
  - intros x B. apply (G x B).
  - intros x L. unfold at_ref. cbn [objects]. apply nth_error_app1, L.
Qed.
Theorem over_first s m o : parse_obj s = Ok o ->
  exists r m', perform (Overtaken s) m = (Ref r, m') /\ shows (objects m') r o
    /\ (forall x, belongs (objects m') r x -> (length (objects m) <= x)%nat)
    /\ (forall x, (x < length (objects m))%nat -> at_ref m' x = at_ref m x)
    /\ perform (Parse s) m' = (Ref r, m').
Proof.
  intro P. destruct (anew_first s m o P) as (r & m' & E & S & F & O). exists r, m'.
  assert (X : perform (Overtaken s) m = (Ref r, m')) by (rewrite perform_over, E; reflexivity).
  split; [exact X|]. split; [exact S|]. split; [exact F|]. split; [exact O|]. apply parse_hits. exact (over_ref _ _ _ _ X).
Qed.
Theorem parse_first s m o : recall (memo m) s = None -> parse_obj s = Ok o ->
  exists r m', perform (Parse s) m = (Ref r, m') /\ shows (objects m') r o
    /\ (forall x, belongs (objects m') r x -> (length (objects m) <= x)%nat)
    /\ (forall x, (x < length (objects m))%nat -> at_ref m' x = at_ref m x).
Proof.
  intros R P. destruct (anew_first s m o P) as (r & m' & E & H). exists r, m'. split; [|exact H].
  rewrite perform_parse. unfold memo_parse. rewrite R, E. reflexivity.
Qed.
Theorem parse_again s m r m1 l : perform (Parse s) m = (Ref r, m1) -> ~ In (Overtaken s) l -> perform (Parse s) (after l m1) = (Ref r, after l m1).
Proof. intros E N. apply parse_hits. apply keeps_recall; [exact N|]. exact (parse_ref _ _ _ _ E). Qed.
Lemma parse_sound s m a m1 : sound m -> perform (Parse s) m = (a, m1) -> sound m1.
Proof. intros G E. pose proof (perform_sound (Parse s) m G) as H. rewrite E in H. exact H. Qed.
Theorem parse_apart s s' m r r' m1 m2 l : reached m -> perform (Parse s) m = (Ref r, m1) -> perform (Parse s') (after l m1) = (Ref r', m2) ->
  r = r' -> s = s'.
Proof.
  intros G E E' <-. apply reached_sound in G. pose proof (parse_sound _ _ _ _ G E) as G1. pose proof (perform_all_sound l _ G1) as G1'.
  pose proof (parse_sound _ _ _ _ G1' E') as G2. pose proof (parse_ref _ _ _ _ E') as R'.
  assert (R : In (s, r) (memo m2)).
  { pose proof (perform_effect (Parse s') (after l m1)) as F. rewrite E' in F. apply (effect_entry _ _ _ _ _ F).
    apply keeps_entry. apply recall_entry. exact (parse_ref _ _ _ _ E). }
  exact (sound_apart _ G2 _ _ _ R (recall_entry _ _ _ R')).
Qed.
Theorem parse_total s m : reached m ->
  match parse_obj s with
  | Ok _ => exists r m', perform (Parse s) m = (Ref r, m')
  | Err e => perform (Parse s) m = (Fails e, m)
  end.
Proof.
  intro G. apply reached_sound in G. destruct (recall (memo m) s) as [r|] eqn:R.
  - destruct (sound_memo _ G _ _ (recall_entry _ _ _ R)) as (_ & o & ->). exists r, m. apply parse_hits, R.
  - destruct (parse_obj s) as [o|e] eqn:P.
    + destruct (parse_first s m o R P) as (r & m' & E & _). eauto.
    + rewrite perform_parse. unfold memo_parse, parse_anew. rewrite R, P. reflexivity.
Qed.
Theorem parse_contained s m o r m1 l : recall (memo m) s = None -> parse_obj s = Ok o -> perform (Parse s) m = (Ref r, m1) ->
  (forall x, belongs (objects m1) r x -> ~ assigned l x) -> shows (objects (after l m1)) r o.
Proof.
  intros R P E A. destruct (parse_first s m o R P) as (r' & m' & E' & S & _). rewrite E in E'. inv E'. apply keeps_shown; assumption.
Qed.

(** Without assignments nothing is spoiled. *)
Lemma perform_unspoiled x m : (forall r, ~ is_assign x r) -> (forall s, unspoiled s m) -> forall s, unspoiled s (snd (perform x m)).
Proof.
  intros A U s r R. pose proof (perform_effect x m) as E. remember (snd (perform x m)) as m' eqn:M. clear M.
  assert (K : forall s' y, anew s' m y m' -> exists o, parse_obj s = Ok o /\ shows (objects m') r o).
  { intros s' y P. destruct P as [e P'|o' r' e m' P' -> S G]; [exact (U s r R)|]. cbn [memo recall] in R. destruct (str_eqb s s') eqn:D.
    - apply str_eqb_eq in D. subst. inv R. eauto.
    - destruct (U s r R) as (o & P & S'). exists o. split; [exact P|]. cbn [objects]. apply shows_grow, S'. }
  destruct E as [|x s' y m' P|s' y m' P|x c F|x r' c c' N Q|r' g c c' N Q F].
  - exact (U s r R).
  - destruct P as [r' R'|x' m' R' P]; [exact (U s r R)|exact (K _ _ P)].
  - exact (K _ _ P).
  - destruct (U s r R) as (o & P & S'). exists o. split; [exact P|]. apply shows_grow, S'.
  - destruct (U s r R) as (o & P & S'). exists o. split; [exact P|]. apply shows_grow, S'.
  - destruct (A r'). eexists. reflexivity.
Qed.
Theorem never_spoiled l : forall m, (forall r, ~ assigned l r) -> (forall s, unspoiled s m) -> forall s, unspoiled s (after l m).
Proof.
  induction l as [|x l IH]; intros m A U; [exact U|]. unfold after. rewrite perform_all_cons. apply IH.
  - intros r (g & I). apply (A r). exists g. right. exact I.
  - apply perform_unspoiled; [|exact U]. intros r (g & ->). apply (A r). exists g. left. reflexivity.
Qed.
Lemma unspoiled_parse s m : unspoiled s m ->
  match parse_obj s with
  | Ok o => exists r m', memo_parse s m = (Ok r, m') /\ shows (objects m') r o
  | Err e => memo_parse s m = (Err e, m)
  end.
Proof.
  intro U. destruct (recall (memo m) s) as [r|] eqn:R.
  - destruct (U r R) as (o & -> & S). exists r, m. unfold memo_parse. rewrite R. auto.
  - destruct (memo_parse s m) as [x m'] eqn:E. pose proof (memo_parsing _ _ _ _ E) as Q.
    destruct Q as [r' R'|x m' R' P]; [congruence|]. destruct P as [e P'|o' r' e m' P' -> S G]; rewrite P'; [reflexivity|eauto].
Qed.
Theorem parse_faithful l s : (forall r, ~ assigned l r) ->
  match parse_obj s with
  | Ok o => exists r m', perform (Parse s) (after l blank) = (Ref r, m') /\ shows (objects m') r o
  | Err e => perform (Parse s) (after l blank) = (Fails e, after l blank)
  end.
Proof.
  intro A. assert (U : unspoiled s (after l blank)) by (apply never_spoiled; [exact A|intros s' r R; discriminate]).
  apply unspoiled_parse in U. rewrite perform_parse. destruct (parse_obj s) as [o|e].
  - destruct U as (r & m' & -> & S). exists r, m'. split; [reflexivity|exact S].
  - rewrite U. reflexivity.
Qed.
Theorem parse_unshared s m r m1 r0 x : reached m -> recall (memo m) s = None -> perform (Parse s) m = (Ref r, m1) ->
  (r0 < length (objects m))%nat -> belongs (objects m1) r x -> ~ belongs (objects m1) r0 x.
Proof.
  intros G R E L B B0. pose proof (reached_sound _ G) as K.
  destruct (parse_obj s) as [o|e] eqn:P; [|pose proof (parse_total s m G) as T; rewrite P in T; congruence].
  destruct (parse_first s m o R P) as (r' & m' & E' & S & F & O). rewrite E in E'. inv E'.
  assert (B1 : belongs (objects m) r0 x).
  { apply (belongs_frame_iff (objects m) (objects m')) in B0; [exact B0|]. intros y B'. apply O. exact (sound_belongs _ _ _ K L B'). }
  pose proof (sound_belongs _ _ _ K L B1). pose proof (F x B). lia.
Qed.

(** ** Methods *)
Theorem str_shown m r o : shows (objects m) r o -> perform (ToTypeStr r) m = (Text (obj_str o), m).
Proof. intro S. cbn [perform]. apply view_shows in S. rewrite S. reflexivity. Qed.
Lemma nth_new {A} (h : list A) c : nth_error (h ++ [c]) (length h) = Some c.
Proof. rewrite nth_error_app2, Nat.sub_diag by lia. reflexivity. Qed.
Theorem item_shown m r o : shows (objects m) r o ->
  match obj_item_type o with
  | Err e => perform (ItemType r) m = (Fails e, m)
  | Ok i => exists m', perform (ItemType r) m = (Ref (length (objects m)), m') /\ shows (objects m') (length (objects m)) i
      /\ (forall x, (x < length (objects m))%nat -> at_ref m' x = at_ref m x) /\ memo m' = memo m
      /\ (forall x, belongs (objects m') (length (objects m)) x <-> x = length (objects m) \/ (x <> r /\ belongs (objects m) r x))
  end.
Proof.
  intro S. pose proof (proj2 (view_shows m r o) S) as V. cbn [perform]. unfold at_ref.
  assert (K : forall c, (forall y, belongs (objects m) r y -> nth_error (objects m ++ [c]) y = nth_error (objects m) y)).
  { intros c y B. apply nth_error_app1. exact (shows_exists _ _ _ _ S B). }
  assert (D : forall c rs a n, nth_error (objects m) r = Some (CTuple rs a n) -> In c rs -> ~ belongs (objects m) c r).
  { assert (Z : forall r' o', shows (objects m) r' o' -> forall x ox, belongs (objects m) r' x -> shows (objects m) x ox -> (osize ox <= osize o')%nat).
    { intros r' o' S' x ox B. revert o' S'. induction B as [r'|r' rs a n c x N I B IH]; intros o' S' Sx.
      - rewrite (shows_det _ _ _ S' _ Sx). lia.
      - inversion S' as [|r1 rs1 cs a1 n1 N1 F]; subst; [congruence|]. rewrite N in N1. injection N1 as <- <- <-.
        assert (exists oc, shows (objects m) c oc /\ In oc cs) as (oc & Sc & Ic).
        { clear - F I. induction F as [|y d rs cs H F IH]; [destruct I|]. destruct I as [<-|I]; [exists d; cbn; auto|].
          destruct (IH I) as (oc & A & B). exists oc. cbn. auto. }
        pose proof (osize_in oc cs a n Ic). pose proof (IH oc Sc Sx). lia. }
    intros c rs a n N I B. inversion S as [|r1 rs1 cs a1 n1 N1 F]; subst; [congruence|]. rewrite N in N1. injection N1 as <- <- <-.
    assert (exists oc, shows (objects m) c oc /\ In oc cs) as (oc & Sc & Ic).
    { clear - F I. induction F as [|y d rs cs H F IH]; [destruct I|]. destruct I as [<-|I]; [exists d; cbn; auto|].
      destruct (IH I) as (oc & A & B). exists oc. cbn. auto. }
    pose proof (osize_in oc cs a n Ic). pose proof (Z _ _ Sc _ _ B S). lia. }
  inversion S as [r1 b s a n N|r1 rs cs a n N F]; subst; rewrite N; unfold obj_item_type, is_array; cbn [o_arr].
  - assert (X : forall c, (forall x, belongs (objects m ++ [CBasic b s c n]) (length (objects m)) x <-> x = length (objects m) \/ (x <> r /\ belongs (objects m) r x))).
    { intros c x. split.
      - intro B. inversion B as [|r2 rs2 a2 n2 c2 y N2 I2 B2]; subst; [left; reflexivity|]. rewrite nth_new in N2. discriminate.
      - intros [->|[Y B]]; [constructor|]. inversion B; subst; congruence. }
    destruct a as [|l|l]; [rewrite V; reflexivity| |]; unfold make;
      (eexists; split; [reflexivity|]; cbn [objects memo]; split; [constructor; apply nth_new|];
       split; [intros x L; apply nth_error_app1, L|]; split; [reflexivity|apply X]).
  - assert (X : forall c, (forall x, belongs (objects m ++ [CTuple rs c n]) (length (objects m)) x <-> x = length (objects m) \/ (x <> r /\ belongs (objects m) r x))).
    { intros c x. split.
      - intro B. inversion B as [|r2 rs2 a2 n2 c2 y N2 I2 B2]; subst; [left; reflexivity|]. rewrite nth_new in N2. injection N2 as <- <- <-.
        apply (belongs_frame_iff (objects m)) in B2; [|intros y By; apply K; econstructor; eauto].
        right. split; [intros ->; exact (D _ _ _ _ N I2 B2)|econstructor; eauto].
      - intros [->|[Y B]]; [constructor|]. inversion B as [|r2 rs2 a2 n2 c2 y N2 I2 B2]; subst; [congruence|]. rewrite N in N2. injection N2 as <- <- <-.
        econstructor; [apply nth_new|exact I2|]. apply (belongs_frame (objects m)); [exact B2|]. intros y By. apply K. econstructor; eauto. }
    destruct a as [|l|l]; [rewrite V; reflexivity| |]; unfold make;
      (eexists; split; [reflexivity|]; cbn [objects memo]; split; [econstructor; [apply nth_new|apply shows_grow_all, F]|];
       split; [intros x L; apply nth_error_app1, L|]; split; [reflexivity|apply X]).
Qed.

(** ** Assignments *)
Lemma alters_iff g c c' : alters g c c' <-> assign g c = Some c'.
Proof.
  split; [intros []; reflexivity|]. destruct g, c; cbn [assign]; intro E; try discriminate E; injection E as <-; constructor.
Qed.
Lemma lacks_iff g c : lacks g c <-> assign g c = None.
Proof.
  split.
  - destruct c; cbn [lacks]; [intros (rs' & ->); reflexivity|intros [(b & ->)|(s & ->)]; reflexivity].
  - destruct g, c; cbn [assign lacks]; intro E; try discriminate E; eauto.
Qed.
Lemma assign_runs m r g c : at_ref m r = Some c -> (forall x, In x (refs_to g) -> (x < length (objects m))%nat) ->
  perform (Assign r g) m = match assign g c with Some c' => (Nothing, mkMemory (put (objects m) r c') (memo m)) | None => (Fails AttributeError, m) end.
Proof.
  intros N F. cbn [perform]. replace (forallb (exists_in m) (refs_to g)) with true; [rewrite N; reflexivity|].
  symmetry. apply forallb_forall. intros x I. unfold exists_in. apply Nat.ltb_lt, F, I.
Qed.
Theorem assign_local m r g c c' : at_ref m r = Some c -> alters g c c' -> (forall x, In x (refs_to g) -> (x < length (objects m))%nat) ->
  exists m', perform (Assign r g) m = (Nothing, m') /\ at_ref m' r = Some c' /\ (forall x, x <> r -> at_ref m' x = at_ref m x) /\ memo m' = memo m.
Proof.
  intros N A F. apply alters_iff in A. rewrite (assign_runs _ _ _ _ N F), A. eexists. split; [reflexivity|]. unfold at_ref in *. cbn [objects memo].
  split; [apply put_same; exact (nth_some_lt _ _ _ N)|]. split; [intros x D; apply put_other; congruence|reflexivity].
Qed.
Theorem assign_lacks m r g c : at_ref m r = Some c -> lacks g c -> (forall x, In x (refs_to g) -> (x < length (objects m))%nat) ->
  perform (Assign r g) m = (Fails AttributeError, m).
Proof. intros N A F. apply lacks_iff in A. rewrite (assign_runs _ _ _ _ N F), A. reflexivity. Qed.
Theorem alters_or_lacks g c : (exists c', alters g c c') <-> ~ lacks g c.
Proof.
  rewrite lacks_iff. split; [intros (c' & A); apply alters_iff in A; congruence|]. intro A. destruct (assign g c) as [c'|] eqn:E; [|congruence].
  exists c'. apply alters_iff. exact E.
Qed.
Theorem assign_spoils s m r m1 g c c' : perform (Parse s) m = (Ref r, m1) -> at_ref m1 r = Some c -> alters g c c' ->
  (forall x, In x (refs_to g) -> (x < length (objects m1))%nat) ->
  exists m2, perform (Assign r g) m1 = (Nothing, m2) /\ perform (Parse s) m2 = (Ref r, m2) /\ at_ref m2 r = Some c'.
Proof.
  intros E N A F. destruct (assign_local m1 r g c c' N A F) as (m2 & P & Q & _ & M). exists m2. split; [exact P|].
  split; [|exact Q]. apply parse_hits. rewrite M. exact (parse_ref _ _ _ _ E).
Qed.

(** ** validate *)
Fixpoint checked_all (n : nat) (h : list cell) (l : list ref) : option verdict :=
  match l with
  | [] => Some Valid
  | c :: l' => match checked_in n h c with Some Valid => checked_all n h l' | v => v end
  end.
Lemma checked_step n h r : checked_in (S n) h r = match nth_error h r with
  | None => None | Some (CBasic b s _ nd) => Some (obj_validate_basic b s nd) | Some (CTuple rs _ _) => checked_all n h rs end.
Proof.
  cbn [checked_in]. destruct (nth_error h r) as [[b s a nd|rs a nd]|]; try reflexivity.
  induction rs as [|c rs IH]; [reflexivity|]. cbn [checked_all]. rewrite IH. reflexivity.
Qed.
Lemma checked_all_more n n' h : (forall r v, checked_in n h r = Some v -> checked_in n' h r = Some v) ->
  forall l v, checked_all n h l = Some v -> checked_all n' h l = Some v.
Proof.
  intros M. induction l as [|c l IH]; intros v E; [exact E|]. cbn [checked_all] in *. destruct (checked_in n h c) as [x|] eqn:C; [|discriminate E].
  rewrite (M _ _ C). destruct x; auto.
Qed.
Lemma checked_next n h : forall r v, checked_in n h r = Some v -> checked_in (S n) h r = Some v.
Proof.
  induction n as [|n IH]; intros r v E; [discriminate E|]. rewrite checked_step in E |- *. destruct (nth_error h r) as [[b s a nd|rs a nd]|]; try exact E.
  revert E. apply checked_all_more. exact IH.
Qed.
Lemma checked_more n n' h r v : (n <= n')%nat -> checked_in n h r = Some v -> checked_in n' h r = Some v.
Proof. intros L E. induction L as [|n' L IH]; [exact E|]. apply checked_next, IH. Qed.
Definition settled (n : nat) (h : list cell) : Prop := forall r, checked_in (S n) h r = checked_in n h r.
Lemma checked_all_same n n' h : (forall r, checked_in n' h r = checked_in n h r) -> forall l, checked_all n' h l = checked_all n h l.
Proof. intros M l. induction l as [|c l IH]; [reflexivity|]. cbn [checked_all]. rewrite M, IH. reflexivity. Qed.
Lemma settled_next n h : settled n h -> settled (S n) h.
Proof.
  intros T r. rewrite (checked_step (S n)), (checked_step n). destruct (nth_error h r) as [[b s a nd|rs a nd]|]; try reflexivity.
  apply checked_all_same. exact T.
Qed.
Lemma settled_for_good n h k : settled n h -> forall r, checked_in (k + n) h r = checked_in n h r.
Proof.
  intros T. assert (A : forall j, settled (j + n) h) by (induction j as [|j IH]; [exact T|exact (settled_next _ _ IH)]).
  induction k as [|k IH]; intro r; [reflexivity|]. cbn [Nat.add]. rewrite (A k r). apply IH.
Qed.
Definition decided (n : nat) (h : list cell) (r : ref) : bool := match checked_in n h r with Some _ => true | None => false end.
Definition number (n : nat) (h : list cell) : nat := length (filter (decided n h) (seq 0 (length h))).
Lemma filter_more {A} (p q : A -> bool) l : (forall x, p x = true -> q x = true) ->
  (length (filter p l) <= length (filter q l))%nat /\ (length (filter p l) = length (filter q l) -> forall x, In x l -> p x = q x).
Proof.
  intro I. induction l as [|x l [IH1 IH2]]; [split; [reflexivity|intros _ ? []]|]. cbn [filter]. specialize (I x).
  destruct (p x) eqn:P; [rewrite I by reflexivity|destruct (q x) eqn:Q]; cbn [length]; (split; [lia|]).
  - intros E y [->|J]; [rewrite P, I; reflexivity|apply IH2; [lia|exact J]].
  - intro E. lia.
  - intros E y [->|J]; [congruence|apply IH2; [exact E|exact J]].
Qed.
Lemma settled_or_more n h : settled n h \/ (number n h < number (S n) h)%nat.
Proof.
  assert (I : forall x, decided n h x = true -> decided (S n) h x = true).
  { intro x. unfold decided. destruct (checked_in n h x) as [v|] eqn:E; [|discriminate]. rewrite (checked_next _ _ _ _ E). reflexivity. }
  destruct (filter_more _ _ (seq 0 (length h)) I) as [L M]. unfold number.
  destruct (Nat.eq_dec (length (filter (decided n h) (seq 0 (length h)))) (length (filter (decided (S n) h) (seq 0 (length h))))) as [E|E]; [|right; unfold ref in *; lia].
  left. intro r. destruct (checked_in n h r) as [v|] eqn:C; [apply checked_next, C|].
  destruct (nth_error h r) as [c|] eqn:N; [|rewrite checked_step, N; reflexivity].
  specialize (M E r (proj2 (in_seq _ _ _) (conj (Nat.le_0_l _) (nth_some_lt _ _ _ N)))). unfold decided in M. rewrite C in M.
  destruct (checked_in (S n) h r); [discriminate M|reflexivity].
Qed.
Lemma settles n h : (exists k, (k < n)%nat /\ settled k h) \/ (n <= number n h)%nat.
Proof.
  induction n as [|n [(k & L & T)|IH]]; [right; lia|left; exists k; split; [lia|exact T]|].
  destruct (settled_or_more n h) as [T|M]; [left; exists n; split; [lia|exact T]|right; lia].
Qed.
Lemma filter_everything {A} (l : list A) : filter (fun _ => true) l = l.
Proof. induction l as [|x l IH]; [reflexivity|]. cbn [filter]. rewrite IH. reflexivity. Qed.
Lemma checked_enough n h r v : checked_in n h r = Some v -> checked_in (S (length h)) h r = Some v.
Proof.
  intro E. destruct (settles (S (length h)) h) as [(k & L & T)|B].
  - assert (Q : checked_in k h r = Some v).
    { destruct (Nat.le_gt_cases n k) as [X|X]; [exact (checked_more _ _ _ _ _ X E)|].
      rewrite <- (settled_for_good k h (n - k) T r). replace (n - k + k)%nat with n by lia. exact E. }
    revert Q. apply checked_more. lia.
  - unfold number in B. pose proof (proj1 (filter_more (decided (S (length h)) h) (fun _ => true) (seq 0 (length h)) ltac:(reflexivity))) as F.
    rewrite filter_everything, seq_length in F. lia.
Qed.
Lemma checked_all_valid n h l : checked_all n h l = Some Valid <-> Forall (fun c => checked_in n h c = Some Valid) l.
Proof.
  induction l as [|c l IH]; cbn [checked_all]; [split; [constructor|reflexivity]|].
  destruct (checked_in n h c) as [[]|] eqn:C; (split; [intro E; try discriminate E; try (constructor; [exact C|apply IH, E])|intro F; inversion F; subst; try congruence; try (apply IH; assumption)]).
Qed.
Lemma checked_all_fault n h l v : checked_all n h l = Some v -> v <> Valid ->
  exists good c rest, l = good ++ c :: rest /\ Forall (fun c => checked_in n h c = Some Valid) good /\ checked_in n h c = Some v.
Proof.
  induction l as [|c l IH]; cbn [checked_all]; [congruence|]. intros E N. destruct (checked_in n h c) as [x|] eqn:C; [|discriminate E].
  destruct x; [|exists [], c, l; repeat split; [constructor|congruence]..].
  destruct (IH E N) as (good & c' & rest & -> & F & D). exists (c :: good), c', rest. repeat split; [constructor; assumption|exact D].
Qed.
Lemma checked_finds n h : forall r v, checked_in n h r = Some v -> finds h r v.
Proof.
  induction n as [|n IH]; intros r v E; [discriminate E|]. rewrite checked_step in E. destruct (nth_error h r) as [[b s a nd|rs a nd]|] eqn:N; [| |discriminate E].
  - injection E as <-. exact (finds_basic h r b s a nd N).
  - destruct v as [|tx cl fl rn|e] eqn:V.
    + apply checked_all_valid in E. apply (finds_sound h r rs a nd N). eapply Forall_impl; [|exact E]. intros c C. exact (IH _ _ C).
    + destruct (checked_all_fault _ _ _ _ E ltac:(discriminate)) as (good & c & rest & -> & F & C).
      apply (finds_fault h r good c rest a nd _ N); [eapply Forall_impl; [|exact F]; intros x X; exact (IH _ _ X)|exact (IH _ _ C)|discriminate].
    + destruct (checked_all_fault _ _ _ _ E ltac:(discriminate)) as (good & c & rest & -> & F & C).
      apply (finds_fault h r good c rest a nd _ N); [eapply Forall_impl; [|exact F]; intros x X; exact (IH _ _ X)|exact (IH _ _ C)|discriminate].
Qed.
Section Finds.
  Variable h : list cell.
  Variable P : ref -> verdict -> Prop.
  Hypothesis basic : forall r b s a n, nth_error h r = Some (CBasic b s a n) -> P r (obj_validate (OBasic b s a n)).
  Hypothesis sound : forall r rs a n, nth_error h r = Some (CTuple rs a n) -> Forall (fun c => P c Valid) rs -> P r Valid.
  Hypothesis fault : forall r good c rest a n v, nth_error h r = Some (CTuple (good ++ c :: rest) a n) ->
    Forall (fun c => P c Valid) good -> P c v -> v <> Valid -> P r v.
  Fixpoint finds_deep r v (F : finds h r v) {struct F} : P r v :=
    match F in finds _ r v return P r v with
    | finds_basic _ r b s a n N => basic r b s a n N
    | finds_sound _ r rs a n N Fs =>
        sound r rs a n N ((fix go l (G : Forall (fun c => finds h c Valid) l) : Forall (fun c => P c Valid) l :=
          match G with
          | Forall_nil _ => Forall_nil _
          | Forall_cons x g G' => Forall_cons x (finds_deep x Valid g) (go _ G')
          end) rs Fs)
    | finds_fault _ r good c rest a n v N Fs Fc D =>
        fault r good c rest a n v N ((fix go l (G : Forall (fun c => finds h c Valid) l) : Forall (fun c => P c Valid) l :=
          match G with
          | Forall_nil _ => Forall_nil _
          | Forall_cons x g G' => Forall_cons x (finds_deep x Valid g) (go _ G')
          end) good Fs) (finds_deep c v Fc) D
    end.
End Finds.
Lemma Forall_deep {A} (P : nat -> A -> Prop) l : (forall n n' x, (n <= n')%nat -> P n x -> P n' x) -> Forall (fun x => exists n, P n x) l -> exists n, Forall (P n) l.
Proof.
  intros M F. induction F as [|x l (n & X) F (n' & IH)]; [exists 0%nat; constructor|]. exists (Nat.max n n'). constructor; [revert X; apply M; lia|].
  eapply Forall_impl; [|exact IH]. intros y. apply M. lia.
Qed.
Lemma checked_all_app n h good l : Forall (fun c => checked_in n h c = Some Valid) good -> checked_all n h (good ++ l) = checked_all n h l.
Proof. intro F. induction F as [|c good C F IH]; [reflexivity|]. cbn [checked_all app]. rewrite C. exact IH. Qed.
Lemma finds_checked h r v : finds h r v -> exists n, checked_in n h r = Some v.
Proof.
  revert r v. apply finds_deep.
  - intros r b s a n N. exists 1%nat. rewrite checked_step, N. reflexivity.
  - intros r rs a n N F. apply (Forall_deep (fun n c => checked_in n h c = Some Valid)) in F; [|intros i j x L; apply checked_more, L].
    destruct F as (k & F). exists (S k). rewrite checked_step, N. apply checked_all_valid, F.
  - intros r good c rest a n v N F (k' & C) D. apply (Forall_deep (fun n c => checked_in n h c = Some Valid)) in F; [|intros i j x L; apply checked_more, L].
    destruct F as (k & F). exists (S (Nat.max k k')). rewrite checked_step, N, checked_all_app.
    + cbn [checked_all]. rewrite (checked_more k' (Nat.max k k') h c v ltac:(lia) C). destruct v; [congruence|reflexivity..].
    + eapply Forall_impl; [|exact F]. intros x. apply checked_more. lia.
Qed.
Theorem checked_iff m r v : checked m r = Some v <-> finds (objects m) r v.
Proof.
  split; [apply checked_finds|]. intro F. apply finds_checked in F. destruct F as (n & E). exact (checked_enough _ _ _ _ E).
Qed.
Theorem validate_finds m r v : finds (objects m) r v -> perform (Validate r) m = (told v, m).
Proof. intro F. apply checked_iff in F. cbn [perform]. unfold memo_validate. rewrite F. destruct v; reflexivity. Qed.
Theorem validate_endless m r : (forall v, ~ finds (objects m) r v) -> perform (Validate r) m = (Fails RuntimeError, m).
Proof.
  intro F. cbn [perform]. unfold memo_validate. destruct (checked m r) as [v|] eqn:E; [|reflexivity]. apply checked_iff in E. destruct (F _ E).
Qed.
Lemma validate_cons c cs a n : obj_validate (OTuple (c :: cs) a n) = match obj_validate c with Valid => obj_validate (OTuple cs a n) | v => v end.
Proof. reflexivity. Qed.
Theorem finds_shown h : forall o r, shows h r o -> finds h r (obj_validate o).
Proof.
  induction o as [b s a n|cs a n IH] using obj_ind; intros r S.
  - inversion S; subst. econstructor. eassumption.
  - inversion S as [|r' rs cs' a' n' N F]; subst.
    assert (Q : (obj_validate (OTuple cs a n) = Valid /\ Forall (fun c => finds h c Valid) rs)
      \/ exists good c rest, rs = good ++ c :: rest /\ Forall (fun c => finds h c Valid) good /\ finds h c (obj_validate (OTuple cs a n)) /\ obj_validate (OTuple cs a n) <> Valid).
    { clear N S. induction F as [|c o rs cs C F IHF]; [left; split; [reflexivity|constructor]|]. inversion IH as [|o' cs' Ho Hs]; subst. specialize (IHF Hs). specialize (Ho _ C).
      rewrite validate_cons. destruct (obj_validate o) as [|tx cl fl rn|e].
      - destruct IHF as [[E G]|(good & c' & rest & -> & G & C' & D)]; [left; split; [exact E|constructor; assumption]|].
        right. exists (c :: good), c', rest. repeat split; [constructor; assumption|exact C'|exact D].
      - right. exists [], c, rs. repeat split; [constructor|exact Ho|discriminate].
      - right. exists [], c, rs. repeat split; [constructor|exact Ho|discriminate]. }
    destruct Q as [[-> G]|(good & c & rest & E & G & C & D)]; [eapply finds_sound; eassumption|]. subst rs. eapply finds_fault; eassumption.
Qed.

(** ** Predicates and the decorators of from_type_str *)
Lemma parse_obj_tree s : parse_obj s = match parse s with Ok T => Ok (locate s 0 T) | Err e => Err e end.
Proof. unfold parse_obj. destruct (parse s); reflexivity. Qed.
Lemma arr_obj_none arr : match arr_obj arr with RNone => arr = [] | _ => arr <> [] end.
Proof. destruct arr; cbn; congruence. Qed.
Lemma shows_located m full pos T r : shows (objects m) r (locate full pos T) ->
  match T with
  | Basic b sub arr => exists n, at_ref m r = Some (CBasic b (sub_obj sub) (arr_obj arr) n)
  | Tup cs arr => exists rs n, at_ref m r = Some (CTuple rs (arr_obj arr) n)
  end.
Proof. unfold at_ref. destruct T as [b sub arr|cs arr]; intro S; inversion S; subst; eauto. Qed.
Theorem matches_same b w s m : unspoiled s m -> fst (memo_base_equals b w s m) = base_equals b w s.
Proof.
  intro U. apply unspoiled_parse in U. rewrite parse_obj_tree in U. unfold memo_base_equals, base_equals. destruct (parse s) as [T|e].
  - destruct U as (r & m' & -> & S). apply shows_located in S. destruct T as [b' sub arr|cs arr].
    + destruct S as (n & ->). cbn [fst]. destruct arr; cbn [arr_obj]; [|reflexivity]. f_equal. destruct w as [[]|], sub; reflexivity.
    + destruct S as (rs & n & ->). reflexivity.
  - rewrite U. reflexivity.
Qed.
Theorem has_arrlist_same s m : unspoiled s m -> fst (memo_has_arrlist s m) = has_arrlist s.
Proof.
  intro U. apply unspoiled_parse in U. rewrite parse_obj_tree in U. unfold memo_has_arrlist, has_arrlist. destruct (parse s) as [T|e].
  - destruct U as (r & m' & -> & S). apply shows_located in S. destruct T as [b' sub arr|cs arr].
    + destruct S as (n & ->). cbn [fst]. destruct arr; reflexivity.
    + destruct S as (rs & n & ->). destruct arr; reflexivity.
  - rewrite U. reflexivity.
Qed.
Theorem is_base_tuple_same s m : unspoiled s m -> fst (memo_is_base_tuple s m) = is_base_tuple s.
Proof.
  intro U. apply unspoiled_parse in U. rewrite parse_obj_tree in U. unfold memo_is_base_tuple, is_base_tuple. destruct (parse s) as [T|e].
  - destruct U as (r & m' & -> & S). apply shows_located in S. destruct T as [b' sub arr|cs arr].
    + destruct S as (n & ->). destruct arr; reflexivity.
    + destruct S as (rs & n & ->). destruct arr; reflexivity.
  - rewrite U. reflexivity.
Qed.
Lemma validate_same m r s T : shows (objects m) r (locate s 0 T) -> memo_validate m r = validate_type T.
Proof.
  intro S. unfold memo_validate. rewrite (proj2 (checked_iff _ _ _) (finds_shown _ _ _ S)). rewrite <- (validate_agrees T s 0). unfold as_result. reflexivity.
Qed.
Theorem type_str_same b w s m : unspoiled (normalize s) m ->
  match parse_type_str b w s with
  | Ok T => exists r m', memo_type_str b w s m = (Ok r, m') /\ shows (objects m') r (locate (normalize s) 0 T)
  | Err e => fst (memo_type_str b w s m) = Err e
  end.
Proof.
  intro U. apply unspoiled_parse in U. rewrite parse_obj_tree in U. unfold memo_type_str, parse_type_str. destruct (parse (normalize s)) as [T|e].
  - destruct U as (r & m' & -> & S). cbn [bind fst]. rewrite (validate_same _ _ _ _ S). pose proof (shows_located _ _ _ _ _ S) as L.
    assert (Q : forall (x : result unit), match x ;;; Ok T with
      | Ok T0 => exists r0 m0, (x ;;; Ok r, m') = (Ok r0, m0) /\ shows (objects m0) r0 (locate (normalize s) 0 T0)
      | Err e => (x ;;; Ok r) = Err e end).
    { intros [[]|e]; cbn [bind]; [eauto|reflexivity]. }
    destruct T as [b' sub arr|cs arr].
    + destruct L as (n & ->). cbn [arrlist_of]. specialize (Q (
        (match b with None => Ok tt | Some b0 => raise_if (negb (str_eqb b' b0)) ValueError end) ;;;
        raise_if (negb w && match arr with [] => false | _ => true end) ValueError ;;;
        raise_if (w && negb (match arr with [] => false | _ => true end)) ValueError ;;;
        validate_type (Basic b' sub arr))).
      destruct b as [b|]; [destruct (raise_if (negb (str_eqb b' b)) ValueError)|]; cbn [bind] in *; try exact Q;
        (destruct arr as [|d arr], w; cbn [arr_obj negb andb raise_if bind] in *; try exact Q; destruct (validate_type _); exact Q).
    + destruct L as (rs & n & ->). cbn [arrlist_of]. specialize (Q (
        (match b with None => Ok tt | Some b0 => Err ValueError end) ;;;
        raise_if (negb w && match arr with [] => false | _ => true end) ValueError ;;;
        raise_if (w && negb (match arr with [] => false | _ => true end)) ValueError ;;;
        validate_type (Tup cs arr))).
      destruct b as [b|]; cbn [bind] in *; [exact Q|].
      destruct arr as [|d arr], w; cbn [arr_obj negb andb raise_if bind] in *; try exact Q; destruct (validate_type _); exact Q.
  - rewrite U. reflexivity.
Qed.
Theorem tuple_type_str_same s m : unspoiled (normalize s) m ->
  match parse_tuple_type_str s with
  | Ok cs => exists r m' arr, parse (normalize s) = Ok (Tup cs arr) /\ memo_tuple_type_str s m = (Ok r, m')
      /\ shows (objects m') r (locate (normalize s) 0 (Tup cs arr))
  | Err e => fst (memo_tuple_type_str s m) = Err e
  end.
Proof.
  intro U. apply unspoiled_parse in U. rewrite parse_obj_tree in U. unfold memo_tuple_type_str, parse_tuple_type_str. destruct (parse (normalize s)) as [T|e].
  - destruct U as (r & m' & -> & S). cbn [bind]. pose proof (validate_same _ _ _ _ S) as V. pose proof (shows_located _ _ _ _ _ S) as L. destruct T as [b' sub arr|cs arr].
    + destruct L as (n & ->). reflexivity.
    + destruct L as (rs & n & L). rewrite L, V. destruct (validate_type (Tup cs arr)) as [[]|e]; cbn [bind fst]; [|reflexivity].
      exists r, m', arr. split; [reflexivity|]. split; [reflexivity|exact S].
  - rewrite U. reflexivity.
Qed.
