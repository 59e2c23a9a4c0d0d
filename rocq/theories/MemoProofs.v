(** Proofs about the memo of [grammar.parse]. *)
From Coq Require Import Strings.String Lia.
From Verif Require Import Tac Bytes BytesProofs Grammar GrammarSpec GrammarProofs AbiTypes AbiTypesSpec AbiTypesProofs Registry Memo MemoSpec.
Open Scope Z_scope.

(** ** Induction over objects *)
Section ObjInd.
  Variable P : abi_obj -> Prop.
  Hypothesis HB : forall b s a n, P (OBasic b s a n).
  Hypothesis HT : forall cs a n, Forall P cs -> P (OTuple cs a n).
  Fixpoint obj_ind (o : abi_obj) : P o :=
    match o with
    | OBasic b s a n => HB b s a n
    | OTuple cs a n => HT cs a n ((fix go (l : list abi_obj) : Forall P l :=
        match l with [] => Forall_nil P | c :: l' => Forall_cons c (obj_ind c) (go l') end) cs)
    end.
End ObjInd.
Lemma shows_mut h (P : ref -> abi_obj -> Prop)
  (HB : forall r b s a n, nth_error h r = Some (CBasic b s a n) -> P r (OBasic b s a n))
  (HT : forall r rs cs a n, nth_error h r = Some (CTuple rs a n) -> Forall2 (shows h) rs cs -> Forall2 P rs cs -> P r (OTuple cs a n)) :
  forall r o, shows h r o -> P r o.
Proof.
  fix IH 3. intros r o S. destruct S as [r b s a n N|r rs cs a n N F].
  - exact (HB _ _ _ _ _ N).
  - refine (HT _ _ _ _ _ N F _). revert rs cs F N. fix G 3. intros rs cs F N. destruct F as [|x o rs cs S F]; constructor; [exact (IH _ _ S)|].
    clear N. revert rs cs F. fix G2 3. intros rs cs F. destruct F as [|y p rs cs S' F]; constructor; [exact (IH _ _ S')|exact (G2 _ _ F)].
Qed.

(** ** Lists of cells *)
Lemma nth_app_old {A} (h : list A) e r c : nth_error h r = Some c -> nth_error (h ++ e) r = Some c.
Proof. intro N. rewrite nth_error_app1; [exact N|]. apply nth_error_Some. congruence. Qed.
Lemma nth_some_lt {A} (h : list A) r c : nth_error h r = Some c -> (r < length h)%nat.
Proof. intro N. apply nth_error_Some. congruence. Qed.
Lemma put_length h : forall r c, length (put h r c) = length h.
Proof. induction h as [|x h IH]; intros [|r] c; cbn; auto. Qed.
Lemma put_same h : forall r c, (r < length h)%nat -> nth_error (put h r c) r = Some c.
Proof. induction h as [|x h IH]; intros [|r] c L; cbn in *; [lia|lia|reflexivity|]. apply IH. lia. Qed.
Lemma put_other h : forall r x c, r <> x -> nth_error (put h r c) x = nth_error h x.
Proof. induction h as [|y h IH]; intros [|r] [|x] c N; cbn; auto; congruence. Qed.

(** ** What an object shows *)
Lemma shows_det h r o : shows h r o -> forall o', shows h r o' -> o = o'.
Proof.
  intro S. revert r o S. apply (shows_mut h (fun r o => forall o', shows h r o' -> o = o')).
  - intros r b s a n N o' S'. inversion S'; congruence.
  - intros r rs cs a n N F G o' S'. inversion S' as [|r' rs' cs' a' n' N' F']; [congruence|]. subst.
    rewrite N in N'. injection N' as <- <- <-. f_equal. clear N S' F. revert cs' F'. induction G as [|x c rs cs E G IH]; intros cs' F'; inversion F'; subst; [reflexivity|].
    f_equal; auto.
Qed.
Lemma shows_frame h h' r o : shows h r o -> (forall x, belongs h r x -> nth_error h' x = nth_error h x) -> shows h' r o.
Proof.
  intro S. revert r o S. apply (shows_mut h (fun r o => (forall x, belongs h r x -> nth_error h' x = nth_error h x) -> shows h' r o)).
  - intros r b s a n N K. constructor. rewrite K; [exact N|constructor].
  - intros r rs cs a n N F G K. econstructor; [rewrite K; [exact N|constructor]|].
    assert (K' : forall c x, In c rs -> belongs h c x -> nth_error h' x = nth_error h x) by (intros; apply K; econstructor; eauto).
    clear N K F. induction G as [|x c rs cs E G IH]; constructor.
    + apply E. intros. eapply K'; [left; reflexivity|assumption].
    + apply IH. intros. eapply K'; [right; eassumption|assumption].
Qed.
Lemma shows_exists h r o x : shows h r o -> belongs h r x -> (x < length h)%nat.
Proof.
  intros S. revert r o S x. apply (shows_mut h (fun r o => forall x, belongs h r x -> (x < length h)%nat)).
  - intros r b s a n N x B. inversion B; subst; [exact (nth_some_lt _ _ _ N)|congruence].
  - intros r rs cs a n N F G x B. inversion B; subst; [exact (nth_some_lt _ _ _ N)|]. rewrite N in H. injection H as <- <- <-.
    clear N F B. induction G as [|y c' rs cs E G IH]; [destruct H0|]. destruct H0 as [<-|I]; auto.
Qed.
Lemma shows_grow h e r o : shows h r o -> shows (h ++ e) r o.
Proof.
  intro S. apply (shows_frame h); [exact S|]. intros x B. apply nth_error_app1. exact (shows_exists _ _ _ _ S B).
Qed.
Lemma shows_grow_all h e rs cs : Forall2 (shows h) rs cs -> Forall2 (shows (h ++ e)) rs cs.
Proof. induction 1; constructor; [apply shows_grow|]; assumption. Qed.
Lemma belongs_frame h h' r x : belongs h r x -> (forall y, belongs h r y -> nth_error h' y = nth_error h y) -> belongs h' r x.
Proof.
  induction 1 as [r|r rs a n c x N I B IH]; intro K; [constructor|]. econstructor; [rewrite K; [exact N|constructor]|exact I|].
  apply IH. intros y B'. apply K. econstructor; eauto.
Qed.
Lemma belongs_frame_iff h h' r x : (forall y, belongs h r y -> nth_error h' y = nth_error h y) -> (belongs h' r x <-> belongs h r x).
Proof.
  intro K. split; intro B; [|exact (belongs_frame _ _ _ _ B K)].
  revert K. induction B as [r|r rs a n c x N I B IH]; intro K; [constructor|].
  rewrite (K r) in N by constructor. econstructor; [exact N|exact I|]. apply IH. intros y B'. apply K. econstructor; eauto.
Qed.
Lemma belongs_trans h r x y : belongs h r x -> belongs h x y -> belongs h r y.
Proof. induction 1; intro B; [exact B|]. econstructor; eauto. Qed.

(** ** The view of an object *)
Fixpoint osize (o : abi_obj) : nat :=
  match o with OBasic _ _ _ _ => 1 | OTuple cs _ _ => S (fold_right (fun c k => osize c + k)%nat 0%nat cs) end.
Lemma osize_in c cs a n : In c cs -> (osize c < osize (OTuple cs a n))%nat.
Proof.
  cbn [osize]. induction cs as [|d cs IH]; [intros []|]. intros [->|I]; cbn [fold_right]; [lia|]. specialize (IH I). lia.
Qed.
Lemma all_some_map {A B} (f : A -> option B) l xs : Forall2 (fun a b => f a = Some b) l xs -> all_some (map f l) = Some xs.
Proof. induction 1 as [|a b l xs E F IH]; [reflexivity|]. cbn [map all_some]. rewrite E, IH. reflexivity. Qed.
Lemma all_some_inv {A B} (f : A -> option B) l : forall xs, all_some (map f l) = Some xs -> Forall2 (fun a b => f a = Some b) l xs.
Proof.
  induction l as [|a l IH]; cbn [map all_some]; intros xs E; [inv E; constructor|].
  destruct (f a) eqn:F; [|discriminate]. destruct (all_some (map f l)) eqn:G; [|discriminate]. inv E. constructor; auto.
Qed.
Lemma view_in_shows n h : forall r o, view_in n h r = Some o -> shows h r o.
Proof.
  induction n as [|n IH]; intros r o V; [discriminate|]. cbn [view_in] in V. destruct (nth_error h r) as [[b s a nd|rs a nd]|] eqn:N; [| |discriminate].
  - inv V. constructor. exact N.
  - destruct (all_some (map (view_in n h) rs)) as [cs|] eqn:E; [|discriminate]. inv V. econstructor; [exact N|].
    apply all_some_inv in E. clear N. induction E; constructor; auto.
Qed.
Lemma shows_view_in h : forall o r n vs, shows h r o -> NoDup vs ->
  (forall v, In v vs -> (v < length h)%nat /\ exists ov, shows h v ov /\ (osize o < osize ov)%nat) -> (length h < length vs + n)%nat -> view_in n h r = Some o.
Proof.
  induction o as [b s a nd|cs a nd IH] using obj_ind; intros r n vs S D V L.
  - inversion S as [r' b' s' a' n' N|]; subst. destruct n as [|n].
    + exfalso. assert (length vs <= length (seq 0 (length h)))%nat; [|rewrite seq_length in *; lia].
      apply NoDup_incl_length; [exact D|]. intros v I. apply in_seq. destruct (V v I). lia.
    + cbn [view_in]. rewrite N. reflexivity.
  - inversion S as [|r' rs cs' a' n' N F]; subst. destruct n as [|n].
    + exfalso. assert (length vs <= length (seq 0 (length h)))%nat; [|rewrite seq_length in *; lia].
      apply NoDup_incl_length; [exact D|]. intros v I. apply in_seq. destruct (V v I). lia.
    + cbn [view_in]. rewrite N. rewrite (all_some_map _ _ cs); [reflexivity|].
      assert (D' : NoDup (r :: vs)).
      { constructor; [|exact D]. intro I. destruct (V r I) as (_ & ov & Sv & Z). rewrite (shows_det _ _ _ S _ Sv) in Z. lia. }
      assert (V' : forall c, In c cs -> forall v, In v (r :: vs) -> (v < length h)%nat /\ exists ov, shows h v ov /\ (osize c < osize ov)%nat).
      { intros c Ic v [<-|I].
        - split; [exact (nth_some_lt _ _ _ N)|]. eexists. split; [exact S|]. apply osize_in, Ic.
        - destruct (V v I) as (Lv & ov & Sv & Z). split; [exact Lv|]. exists ov. split; [exact Sv|]. pose proof (osize_in c cs a nd Ic). lia. }
      assert (L' : (length h < length (r :: vs) + n)%nat) by (unfold ref in *; cbn [length]; lia).
      clear S N V L D. induction F as [|x c rs cs Sx F IHF]; constructor.
      * inversion IH; subst. apply (H1 _ _ (r :: vs)); auto. apply V'. left. reflexivity.
      * inversion IH; subst. apply IHF; auto. intros c' I'. apply V'. right. exact I'.
Qed.
Theorem view_shows m r o : view m r = Some o <-> shows (objects m) r o.
Proof.
  split; [apply view_in_shows|]. intro S. apply (shows_view_in _ _ _ _ [] S); [constructor|intros ? []|cbn; lia].
Qed.

(** ** New objects *)
Fixpoint place_list (l : list abi_obj) (h : list cell) : list ref * list cell :=
  match l with
  | [] => ([], h)
  | c :: l' => let '(r, h1) := place c h in let '(rs, h2) := place_list l' h1 in (r :: rs, h2)
  end.
Lemma place_tuple cs a n h : place (OTuple cs a n) h = let '(rs, h1) := place_list cs h in make (CTuple rs a n) h1.
Proof. reflexivity. Qed.
Definition range (h h' : list cell) (r : ref) : Prop := forall x, belongs h' r x -> (length h <= x < length h')%nat.
Lemma place_shows o : forall h r h', place o h = (r, h') -> (exists e, h' = h ++ e) /\ shows h' r o /\ range h h' r.
Proof.
  induction o as [b s a n|cs a n IH] using obj_ind; intros h r h' E.
  - cbn [place make] in E. unfold make in E. inv E. split; [eauto|].
    assert (N : nth_error (h ++ [CBasic b s a n]) (length h) = Some (CBasic b s a n)) by (rewrite nth_error_app2, Nat.sub_diag by lia; reflexivity).
    split; [constructor; exact N|]. intros x B. rewrite app_length. cbn [length]. inversion B; subst; [lia|congruence].
  - rewrite place_tuple in E. destruct (place_list cs h) as [rs h1] eqn:E1. unfold make in E. inv E.
    assert (K : forall h rs h1, place_list cs h = (rs, h1) -> (exists e, h1 = h ++ e) /\ Forall2 (shows h1) rs cs /\ (forall c x, In c rs -> belongs h1 c x -> (length h <= x < length h1)%nat)).
    { clear h rs h1 E1. induction cs as [|c cs IHc]; intros h rs h1 E1; cbn [place_list] in E1.
      - inv E1. split; [exists []; symmetry; apply app_nil_r|]. split; [constructor|intros c x []].
      - destruct (place c h) as [r0 h0] eqn:P. destruct (place_list cs h0) as [rs0 h2] eqn:Q. inv E1. inversion IH; subst.
        destruct (H1 _ _ _ P) as ((e & ->) & S0 & R0). destruct (IHc H2 _ _ _ Q) as ((e' & ->) & S1 & R1).
        split; [exists (e ++ e'); rewrite app_assoc; reflexivity|].
        assert (K0 : forall y, belongs (h ++ e) r0 y -> nth_error ((h ++ e) ++ e') y = nth_error (h ++ e) y).
        { intros y B. apply nth_error_app1. apply (shows_exists _ _ _ _ S0 B). }
        split; [constructor; [apply shows_grow, S0|exact S1]|].
        intros d x [<-|I] B.
        + apply (belongs_frame_iff _ _ _ _ K0) in B. apply R0 in B. rewrite (app_length (h ++ e)). lia.
        + pose proof (R1 d x I B). rewrite app_length in H at 1. lia. }
    destruct (K _ _ _ E1) as ((e & ->) & F & R). clear K E1.
    assert (N : nth_error ((h ++ e) ++ [CTuple rs a n]) (length (h ++ e)) = Some (CTuple rs a n)) by (rewrite nth_error_app2, Nat.sub_diag by lia; reflexivity).
    assert (K : forall c, In c rs -> forall y, belongs (h ++ e) c y -> nth_error ((h ++ e) ++ [CTuple rs a n]) y = nth_error (h ++ e) y).
    { intros c I y B. apply nth_error_app1. apply (R c y I B). }
    split; [exists (e ++ [CTuple rs a n]); rewrite app_assoc; reflexivity|]. split.
    + econstructor; [exact N|]. apply shows_grow_all, F.
    + intros x B. inversion B as [|r0 rs0 a0 n0 c y N0 I B']; subst.
      * rewrite !app_length. cbn [length]. lia.
      * rewrite N in N0. injection N0 as <- <- <-. apply (belongs_frame_iff _ _ _ _ (K c I)) in B'. apply (R c x I) in B'.
        rewrite (app_length (h ++ e)). cbn [length]. lia.
Qed.

(** ** The memo *)
Lemma str_refl s : str_eqb s s = true.
Proof. apply str_eqb_eq. reflexivity. Qed.
(** What a parse does to the memory. *)
Inductive anew (s : pystr) (m : memory) : result ref -> memory -> Prop :=
| anew_fail e : parse_obj s = Err e -> anew s m (Err e) m
| anew_new o r e m' : parse_obj s = Ok o -> m' = mkMemory (objects m ++ e) ((s, r) :: memo m) ->
    shows (objects m') r o -> range (objects m) (objects m') r -> anew s m (Ok r) m'.
Inductive parsing (s : pystr) (m : memory) : result ref -> memory -> Prop :=
| parse_hit r : recall (memo m) s = Some r -> parsing s m (Ok r) m
| parse_miss x m' : recall (memo m) s = None -> anew s m x m' -> parsing s m x m'.
Lemma parse_anews s m x m' : parse_anew s m = (x, m') -> anew s m x m'.
Proof.
  unfold parse_anew. destruct (parse_obj s) as [o|e] eqn:P; intro E; [|inv E; constructor; assumption].
  destruct (place o (objects m)) as [r h] eqn:Q. inv E. destruct (place_shows _ _ _ _ Q) as ((e & ->) & S & G). eapply anew_new; eauto.
Qed.
Lemma memo_parsing s m x m' : memo_parse s m = (x, m') -> parsing s m x m'.
Proof.
  unfold memo_parse. destruct (recall (memo m) s) as [r|] eqn:R; intro E; [inv E; constructor; exact R|].
  apply parse_miss; [exact R|]. apply parse_anews, E.
Qed.

(** What any action does. *)
Definition is_assign (x : action) (r : ref) : Prop := exists g, x = Assign r g.
Lemma type_str_memory b w s m : snd (memo_type_str b w s m) = snd (memo_parse (normalize s) m).
Proof. unfold memo_type_str. destruct (memo_parse (normalize s) m) as [[r|e] m']; reflexivity. Qed.
Lemma tuple_type_str_memory s m : snd (memo_tuple_type_str s m) = snd (memo_parse (normalize s) m).
Proof. unfold memo_tuple_type_str. destruct (memo_parse (normalize s) m) as [[r|e] m']; reflexivity. Qed.
Lemma base_equals_memory b w s m : snd (memo_base_equals b w s m) = snd (memo_parse s m).
Proof. unfold memo_base_equals. destruct (memo_parse s m) as [[r|e] m']; reflexivity. Qed.
Lemma has_arrlist_memory s m : snd (memo_has_arrlist s m) = snd (memo_parse s m).
Proof. unfold memo_has_arrlist. destruct (memo_parse s m) as [[r|e] m']; reflexivity. Qed.
Lemma is_base_tuple_memory s m : snd (memo_is_base_tuple s m) = snd (memo_parse s m).
Proof. unfold memo_is_base_tuple. destruct (memo_parse s m) as [[r|e] m']; reflexivity. Qed.

Inductive effect (m : memory) : action -> memory -> Prop :=
| eff_none x : effect m x m
| eff_parse x s y m' : parsing s m y m' -> effect m x m'
| eff_over s y m' : anew s m y m' -> effect m (Overtaken s) m'
| eff_new x c : Forall (fun r => (r < length (objects m))%nat) (refs_of c) -> effect m x (mkMemory (objects m ++ [c]) (memo m))
| eff_item x r c c' : nth_error (objects m) r = Some c -> refs_of c' = refs_of c -> effect m x (mkMemory (objects m ++ [c']) (memo m))
| eff_assign r g c c' : nth_error (objects m) r = Some c -> assign g c = Some c' -> Forall (fun r => (r < length (objects m))%nat) (refs_to g) ->
    effect m (Assign r g) (mkMemory (put (objects m) r c') (memo m)).
Lemma all_exist m l : forallb (exists_in m) l = true -> Forall (fun r => (r < length (objects m))%nat) l.
Proof.
  intro H. apply Forall_forall. intros r I. rewrite forallb_forall in H. specialize (H r I). unfold exists_in in H. apply Nat.ltb_lt in H. exact H.
Qed.
Lemma parse_effect x s m : effect m x (snd (memo_parse s m)).
Proof. destruct (memo_parse s m) as [y m'] eqn:E. eapply eff_parse. exact (memo_parsing _ _ _ _ E). Qed.
Lemma perform_effect x m : effect m x (snd (perform x m)).
Proof.
  destruct x as [s|s|b w s|s|s|b w s|s|r|r|r i|r|c|r g]; cbn [perform].
  - pose proof (parse_effect (Parse s) s m). destruct (memo_parse s m). exact H.
  - destruct (parse_anew s m) as [y m'] eqn:E. eapply eff_over. exact (parse_anews _ _ _ _ E).
  - pose proof (parse_effect (Matches b w s) s m). rewrite <- (base_equals_memory b w) in H. destruct (memo_base_equals b w s m). exact H.
  - pose proof (parse_effect (HasArrlist s) s m). rewrite <- has_arrlist_memory in H. destruct (memo_has_arrlist s m). exact H.
  - pose proof (parse_effect (IsBaseTuple s) s m). rewrite <- is_base_tuple_memory in H. destruct (memo_is_base_tuple s m). exact H.
  - pose proof (parse_effect (TypeStr b w s) (normalize s) m). rewrite <- (type_str_memory b w) in H. destruct (memo_type_str b w s m). exact H.
  - pose proof (parse_effect (TupleTypeStr s) (normalize s) m). rewrite <- tuple_type_str_memory in H. destruct (memo_tuple_type_str s m). exact H.
  - constructor.
  - constructor.
  - constructor.
  - unfold at_ref. destruct (nth_error (objects m) r) as [[b s a n|rs a n]|] eqn:N; [| |constructor];
      (destruct a; [constructor| |]; cbn [make snd]; unfold make; (eapply eff_item; [exact N|reflexivity])).
  - destruct (forallb (exists_in m) (refs_of c)) eqn:F; [|constructor]. unfold make. cbn [snd]. apply eff_new, all_exist, F.
  - destruct (forallb (exists_in m) (refs_to g)) eqn:F; [|constructor]. unfold at_ref. destruct (nth_error (objects m) r) as [c|] eqn:N; [|constructor].
    destruct (assign g c) as [c'|] eqn:A; [|constructor]. cbn [snd]. eapply eff_assign; eauto using all_exist.
Qed.
Lemma perform_all_cons x l m : snd (perform_all (x :: l) m) = snd (perform_all l (snd (perform x m))).
Proof. cbn [perform_all]. destruct (perform x m) as [a m1]. cbn [snd]. destruct (perform_all l m1). reflexivity. Qed.
Lemma perform_all_app l1 l2 m : snd (perform_all (l1 ++ l2) m) = snd (perform_all l2 (snd (perform_all l1 m))).
Proof.
  revert m. induction l1 as [|x l1 IH]; intro m; [reflexivity|]. cbn [app]. rewrite !perform_all_cons. apply IH.
Qed.
Lemma perform_all_ind (P : memory -> Prop) : (forall x m, P m -> P (snd (perform x m))) -> forall l m, P m -> P (snd (perform_all l m)).
Proof. intros H l. induction l as [|x l IH]; intros m M; [exact M|]. rewrite perform_all_cons. apply IH, H, M. Qed.

(** ** What stays *)
Lemma anew_recall s m y m' s' r : anew s m y m' -> s' <> s -> recall (memo m) s' = Some r -> recall (memo m') s' = Some r.
Proof.
  intros P D R. destruct P as [|o r' e m' _ -> _ _]; [exact R|]. cbn [memo recall]. destruct (str_eqb s' s) eqn:Q; [|exact R].
  apply str_eqb_eq in Q. congruence.
Qed.
Lemma effect_recall m x m' s r : effect m x m' -> x <> Overtaken s -> recall (memo m) s = Some r -> recall (memo m') s = Some r.
Proof.
  intros E D R. destruct E as [|x s' y m' P|s' y m' P| | |]; try exact R.
  - destruct P as [|x' m' N P]; [exact R|]. apply (anew_recall _ _ _ _ _ _ P); [intros ->; congruence|exact R].
  - apply (anew_recall _ _ _ _ _ _ P); [congruence|exact R].
Qed.
Lemma anew_longer s m y m' : anew s m y m' -> (length (objects m) <= length (objects m'))%nat.
Proof. intros [|o r' e m2 _ -> _ _]; cbn [objects]; try rewrite app_length; lia. Qed.
Lemma anew_cell s m y m' r : anew s m y m' -> (r < length (objects m))%nat -> nth_error (objects m') r = nth_error (objects m) r.
Proof. intros [|o r' e m2 _ -> _ _] L; [reflexivity|]. cbn [objects]. apply nth_error_app1, L. Qed.
Lemma effect_longer m x m' : effect m x m' -> (length (objects m) <= length (objects m'))%nat.
Proof.
  intro E. destruct E as [|x s' y m' P|s' y m' P| | |]; cbn [objects]; try rewrite app_length; try rewrite put_length; try lia.
  - destruct P as [|x' m' N P]; [lia|]. exact (anew_longer _ _ _ _ P).
  - exact (anew_longer _ _ _ _ P).
Qed.
Lemma effect_cell m x m' r : effect m x m' -> (r < length (objects m))%nat -> ~ is_assign x r -> nth_error (objects m') r = nth_error (objects m) r.
Proof.
  intros E L A. destruct E as [|x s' y m' P|s' y m' P| | |r0 g c c' N G F]; cbn [objects]; try (apply nth_error_app1; exact L); try reflexivity.
  - destruct P as [|x' m' N P]; [reflexivity|]. exact (anew_cell _ _ _ _ _ P L).
  - exact (anew_cell _ _ _ _ _ P L).
  - apply put_other. intros ->. apply A. exists g. reflexivity.
Qed.
Lemma effect_entry m x m' s r : effect m x m' -> In (s, r) (memo m) -> In (s, r) (memo m').
Proof.
  assert (K : forall s' y, anew s' m y m' -> In (s, r) (memo m) -> In (s, r) (memo m')).
  { intros s' y [|o r' e m2 _ -> _ _] I; [exact I|]. right. exact I. }
  intros E R. destruct E as [|x s' y m' P|s' y m' P| | |]; try exact R; [|exact (K _ _ P R)]. destruct P as [|x' m' N P]; [exact R|exact (K _ _ P R)].
Qed.
Lemma keeps_entry l : forall m s r, In (s, r) (memo m) -> In (s, r) (memo (snd (perform_all l m))).
Proof.
  induction l as [|x l IH]; intros m s r R; [exact R|]. rewrite perform_all_cons. apply IH. exact (effect_entry _ _ _ _ _ (perform_effect x m) R).
Qed.
Lemma recall_entry l s r : recall l s = Some r -> In (s, r) l.
Proof.
  induction l as [|[s' r'] l IH]; cbn [recall]; [discriminate|]. destruct (str_eqb s s') eqn:E; intro R; [|right; auto].
  apply str_eqb_eq in E. inv R. left. reflexivity.
Qed.
Lemma keeps_recall l : forall m s r, ~ In (Overtaken s) l -> recall (memo m) s = Some r -> recall (memo (snd (perform_all l m))) s = Some r.
Proof.
  induction l as [|x l IH]; intros m s r N R; [exact R|]. rewrite perform_all_cons. apply IH; [intro I; apply N; right; exact I|].
  apply (effect_recall _ _ _ _ _ (perform_effect x m)); [intros ->; apply N; left; reflexivity|exact R].
Qed.
Lemma keeps_cell l : forall m r, (r < length (objects m))%nat -> ~ assigned l r -> nth_error (objects (snd (perform_all l m))) r = nth_error (objects m) r.
Proof.
  induction l as [|x l IH]; intros m r L A; [reflexivity|]. rewrite perform_all_cons. pose proof (perform_effect x m) as E. rewrite IH.
  - apply (effect_cell _ _ _ _ E L). intros (g & ->). apply A. exists g. left. reflexivity.
  - pose proof (effect_longer _ _ _ E). lia.
  - intros (g & I). apply A. exists g. right. exact I.
Qed.
Theorem keeps_shown l m r o : shows (objects m) r o -> (forall x, belongs (objects m) r x -> ~ assigned l x) ->
  shows (objects (snd (perform_all l m))) r o.
Proof.
  intros S A. apply (shows_frame _ _ _ _ S). intros x B. apply keeps_cell; [exact (shows_exists _ _ _ _ S B)|exact (A x B)].
Qed.

(** ** Memories a program gets to *)
Record sound (m : memory) : Prop := {
  sound_cells : forall r c x, nth_error (objects m) r = Some c -> In x (refs_of c) -> (x < length (objects m))%nat;
  sound_memo : forall s r, In (s, r) (memo m) -> (r < length (objects m))%nat /\ exists o, parse_obj s = Ok o;
  sound_apart : forall s s' r, In (s, r) (memo m) -> In (s', r) (memo m) -> s = s' }.
Lemma blank_sound : sound blank.
Proof. constructor; cbn; try contradiction. intros [|r]; discriminate. Qed.
Lemma shows_refs h r o c x : shows h r o -> nth_error h r = Some c -> In x (refs_of c) -> exists o', shows h x o'.
Proof.
  intros S N I. inversion S as [|r' rs cs a n N' F]; subst; rewrite N in *.
  - inv H. destruct I.
  - inv N'. cbn [refs_of] in I. clear - F I. induction F as [|y o rs cs H F IH]; [destruct I|]. destruct I as [<-|I]; eauto.
Qed.
Lemma shows_root h r o : shows h r o -> (r < length h)%nat.
Proof. intro S. exact (shows_exists _ _ _ _ S (belongs_self h r)). Qed.
Lemma assign_refs g c c' x : assign g c = Some c' -> In x (refs_of c') -> In x (refs_of c) \/ In x (refs_to g).
Proof. destruct g, c; cbn; intro E; inv E; cbn; auto. Qed.
Lemma place_cells o : forall h r h', place o h = (r, h') -> forall y c x, nth_error h' y = Some c -> (length h <= y)%nat -> In x (refs_of c) -> (x < length h')%nat.
Proof.
  induction o as [b s a n|cs a n IH] using obj_ind; intros h r h' E y c x N L I.
  - cbn [place] in E. unfold make in E. inv E. rewrite nth_error_app2 in N by lia. destruct (y - length h)%nat as [|k]; [inv N; destruct I|destruct k; discriminate].
  - rewrite place_tuple in E. destruct (place_list cs h) as [rs h1] eqn:E1. unfold make in E. inv E.
    assert (K : forall h rs h1, place_list cs h = (rs, h1) -> (length h <= length h1)%nat /\ (forall y, In y rs -> (y < length h1)%nat)
      /\ forall y c x, nth_error h1 y = Some c -> (length h <= y)%nat -> In x (refs_of c) -> (x < length h1)%nat).
    { clear - IH. induction cs as [|c cs IHc]; intros h rs h1 E1; cbn [place_list] in E1.
      - inv E1. split; [lia|]. split; [intros y []|]. intros y c x N L. apply nth_some_lt in N. lia.
      - destruct (place c h) as [r0 h0] eqn:P. destruct (place_list cs h0) as [rs0 h2] eqn:Q. inv E1. inversion IH; subst.
        destruct (place_shows _ _ _ _ P) as ((e & ->) & S0 & _). destruct (IHc H2 _ _ _ Q) as (L1 & L2 & L3).
        assert (e' : exists e', h1 = (h ++ e) ++ e').
        { clear - Q. revert Q. generalize (h ++ e). revert rs0 h1. induction cs as [|d cs IHd]; intros rs0 h1 h0 Q; cbn [place_list] in Q; [inv Q; exists []; symmetry; apply app_nil_r|].
          destruct (place d h0) as [r1 h2] eqn:P. destruct (place_list cs h2) as [rs2 h3] eqn:Q'. inv Q.
          destruct (place_shows _ _ _ _ P) as ((e1 & ->) & _). destruct (IHd _ _ _ Q') as (e2 & ->). exists (e1 ++ e2). rewrite app_assoc. reflexivity. }
        destruct e' as (e' & ->).
        split; [rewrite app_length in L1; lia|]. split.
        + intros y [<-|I]; [|auto]. apply shows_root in S0. lia.
        + intros y c' x N L I. destruct (Nat.lt_ge_cases y (length (h ++ e))) as [Y|Y].
          * rewrite nth_error_app1 in N by exact Y. pose proof (H1 _ _ _ P _ _ _ N L I). lia.
          * exact (L3 _ _ _ N Y I). }
    destruct (K _ _ _ E1) as (L1 & L2 & L3). rewrite app_length. cbn [length].
    destruct (Nat.lt_ge_cases y (length h1)) as [Y|Y].
    + rewrite nth_error_app1 in N by exact Y. pose proof (L3 _ _ _ N L I). lia.
    + rewrite nth_error_app2 in N by exact Y. destruct (y - length h1)%nat as [|k]; [inv N|destruct k; discriminate]. pose proof (L2 x I). lia.
Qed.
Lemma parse_anew_sound s m : sound m -> sound (snd (parse_anew s m)).
Proof.
  intro G. unfold parse_anew. destruct (parse_obj s) as [o|e] eqn:P; [|exact G].
  destruct (place o (objects m)) as [r h] eqn:Q. cbn [snd]. pose proof (place_cells _ _ _ _ Q) as C. destruct (place_shows _ _ _ _ Q) as ((e & ->) & S & B).
  pose proof (B r (belongs_self _ r)) as Br. destruct G as [G1 G2 G3]. constructor; cbn [objects memo].
  - intros y c x N I. destruct (Nat.lt_ge_cases y (length (objects m))) as [Y|Y]; [|exact (C _ _ _ N Y I)].
    rewrite nth_error_app1 in N by exact Y. pose proof (G1 _ _ _ N I). rewrite app_length. lia.
  - intros s' r' [E|R']; [inv E; split; [lia|eauto]|]. destruct (G2 _ _ R') as (L & o' & P'). split; [rewrite app_length; lia|eauto].
  - intros s1 s2 r' [E1|R1] [E2|R2].
    + congruence.
    + inv E1. destruct (G2 _ _ R2). lia.
    + inv E2. destruct (G2 _ _ R1). lia.
    + exact (G3 _ _ _ R1 R2).
Qed.
Lemma memo_parse_sound s m : sound m -> sound (snd (memo_parse s m)).
Proof. intro G. unfold memo_parse. destruct (recall (memo m) s) as [r|]; [exact G|apply parse_anew_sound, G]. Qed.
Lemma perform_sound x m : sound m -> sound (snd (perform x m)).
Proof.
  intro G. assert (GP : forall s, sound (snd (memo_parse s m))) by (intro; apply memo_parse_sound, G).
  assert (GN : forall c, (forall x, In x (refs_of c) -> (x < length (objects m))%nat) -> sound (mkMemory (objects m ++ [c]) (memo m))).
  { intros c H. destruct G as [G1 G2 G3]. constructor; cbn [objects memo]; [| |exact G3].
    - intros y c' z N I. rewrite app_length. cbn [length]. destruct (Nat.lt_ge_cases y (length (objects m))) as [Y|Y].
      + rewrite nth_error_app1 in N by exact Y. pose proof (G1 _ _ _ N I). lia.
      + rewrite nth_error_app2 in N by exact Y. destruct (y - length (objects m))%nat as [|k]; [inv N|destruct k; discriminate]. pose proof (H z I). lia.
    - intros s r R. destruct (G2 _ _ R) as (L & O). split; [rewrite app_length; lia|exact O]. }
  assert (GF : forall c, Forall (fun r => (r < length (objects m))%nat) (refs_of c) -> sound (mkMemory (objects m ++ [c]) (memo m))).
  { intros c F. apply GN. rewrite Forall_forall in F. exact F. }
  destruct x as [s|s|b w s|s|s|b w s|s|r|r|r i|r|c|r g]; cbn [perform].
  - specialize (GP s). destruct (memo_parse s m). exact GP.
  - pose proof (parse_anew_sound s m G) as H. destruct (parse_anew s m). exact H.
  - specialize (GP s). rewrite <- (base_equals_memory b w) in GP. destruct (memo_base_equals b w s m). exact GP.
  - specialize (GP s). rewrite <- has_arrlist_memory in GP. destruct (memo_has_arrlist s m). exact GP.
  - specialize (GP s). rewrite <- is_base_tuple_memory in GP. destruct (memo_is_base_tuple s m). exact GP.
  - specialize (GP (normalize s)). rewrite <- (type_str_memory b w) in GP. destruct (memo_type_str b w s m). exact GP.
  - specialize (GP (normalize s)). rewrite <- tuple_type_str_memory in GP. destruct (memo_tuple_type_str s m). exact GP.
  - exact G.
  - exact G.
  - exact G.
  - unfold at_ref. destruct (nth_error (objects m) r) as [[b s a n|rs a n]|] eqn:N; [| |exact G];
      (destruct a; [exact G| |]; cbn [make snd]; unfold make; (apply GN; intros z I; exact (sound_cells _ G _ _ _ N I))).
  - destruct (forallb (exists_in m) (refs_of c)) eqn:F; [|exact G]. unfold make. cbn [snd]. apply GF, all_exist, F.
  - destruct (forallb (exists_in m) (refs_to g)) eqn:F; [|exact G]. unfold at_ref. destruct (nth_error (objects m) r) as [c|] eqn:N; [|exact G].
    destruct (assign g c) as [c'|] eqn:A; [|exact G]. cbn [snd]. apply all_exist in F. rewrite Forall_forall in F. destruct G as [G1 G2 G3].
    constructor; cbn [objects memo]; [| |exact G3].
    + intros y d z N' I. rewrite put_length. destruct (Nat.eq_dec r y) as [<-|Y].
      * rewrite put_same in N' by exact (nth_some_lt _ _ _ N). inv N'. destruct (assign_refs _ _ _ _ A I) as [I'|I']; [exact (G1 _ _ _ N I')|exact (F z I')].
      * rewrite put_other in N' by exact Y. exact (G1 _ _ _ N' I).
    + intros s0 r0 R. rewrite put_length. exact (G2 _ _ R).
Qed.
Lemma perform_all_sound l m : sound m -> sound (snd (perform_all l m)).
Proof. apply (perform_all_ind sound). exact perform_sound. Qed.
Lemma reached_sound m : reached m -> sound m.
Proof. intros (l & ->). apply perform_all_sound, blank_sound. Qed.
Lemma sound_belongs m r x : sound m -> (r < length (objects m))%nat -> belongs (objects m) r x -> (x < length (objects m))%nat.
Proof.
  intros G L B. induction B as [r|r rs a n c x N I B IH]; [exact L|]. apply IH. exact (sound_cells _ G _ _ _ N I).
Qed.
