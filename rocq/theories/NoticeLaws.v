(** What helps against the troubles the messages of the registry name (C73). *)
From Coq Require Import Strings.String Lia.
From Verif Require Import Tac Bytes Grammar GrammarSpec GrammarProofs Encoding Decoding Registry RaisingSpec Codec Histories CustomSpec
  RegistrySpec NormalizeProofs CustomProofs TypeCases CacheProofs LookupProofs HistoryProofs HeapProofs RegistryProofs RegistryLaws Notices NoticeSpec NoticeProofs.
Open Scope Z_scope.

(** ** Tables without double entries *)
Definition apart {V} (x y : pred * V) : Prop := pred_eqb (fst x) (fst y) = false.
Definition tidy {V} (m : mapping V) : Prop := NoDup (map fst (m_labels m)) /\ ForallOrdPairs apart (m_values m).
Lemma nodup_filter_fst {A B} (f : A * B -> bool) (l : list (A * B)) : NoDup (map fst l) -> NoDup (map fst (filter f l)).
Proof.
  induction l as [|x l IH]; intro D; [exact D|]. cbn [map] in D. apply NoDup_cons_iff in D. destruct D as [N D]. cbn [filter]. destruct (f x); [|exact (IH D)].
  cbn [map]. apply NoDup_cons; [|exact (IH D)]. intro I. apply N. apply in_map_iff in I. destruct I as (y & E & I). apply filter_In in I. rewrite <- E. apply in_map. apply I.
Qed.
Lemma nodup_snoc {A} (l : list A) x : NoDup l -> ~ In x l -> NoDup (l ++ [x]).
Proof.
  induction l as [|y l IH]; intros D N; [repeat constructor; intros []|]. apply NoDup_cons_iff in D. destruct D as [M D]. cbn [app]. apply NoDup_cons.
  - intro I. apply in_app_iff in I. destruct I as [I|[I|[]]]; [exact (M I)|]. apply N. left. symmetry. exact I.
  - apply IH; [exact D|]. intro I. apply N. right. exact I.
Qed.
Lemma tidy_add {V} (m : mapping V) p v label : tidy m -> tidy (snd (m_add m p v label)).
Proof.
  intros [D O]. unfold m_add. destruct (has_pred m p) eqn:H; [split; assumption|]. pose proof (proj1 (has_pred_false m p) H) as N.
  assert (O' : ForallOrdPairs apart (m_values m ++ [(p, v)])).
  { apply fop_snoc; [exact O|]. apply Forall_forall. intros [q u] I. exact (N q u I). }
  destruct label as [l|]; [|split; assumption]. destruct (has_label m l) eqn:L; [split; assumption|]. split; [|exact O']. cbn [snd m_labels]. rewrite map_app. apply nodup_snoc; [exact D|].
  intro I. apply in_map_iff in I. destruct I as ([l' q] & E & I). cbn [fst] in E. subst l'. rewrite (proj2 (has_label_true m l) (ex_intro _ q I)) in L. discriminate.
Qed.
Lemma tidy_register {V} (m : mapping V) l v label : tidy m -> tidy (snd (base_register m l v label)).
Proof. intro T. destruct l; cbn [base_register]; [apply tidy_add; exact T..|exact T]. Qed.
Lemma tidy_unregister {V} (m : mapping V) l : tidy m -> tidy (snd (base_unregister m l)).
Proof.
  intros [D O]. destruct l as [s|p|]; cbn [base_unregister]; [| |split; assumption].
  - unfold m_remove_by_label. destruct (find _ (m_labels m)) as [[l p]|]; [|split; assumption]. cbv zeta. destruct (has_pred _ p); (split; [apply nodup_filter_fst; exact D|]); [apply fop_filter|]; exact O.
  - unfold m_remove_by_equality. destruct (has_pred m p); [|split; assumption]. cbv zeta.
    destruct (find _ (m_labels m)) as [[l q]|]; (split; [|apply fop_filter; exact O]); [apply nodup_filter_fst|]; exact D.
Qed.
Definition tidy_registry (r : registry) : Prop := tidy (r_encs r) /\ tidy (r_decs r).
Lemma tidy_update o w : ~ query o -> tidy_registry (fst w) -> tidy_registry (fst (snd (run o w))).
Proof.
  intros Q [E D]. destruct o; cbn [query] in Q; try tauto; cbn [run]; unfold on_registry.
  - unfold register_encoder. cbn [set_ecache r_encs]. pose proof (tidy_register (r_encs (fst w)) l v label E) as K. destruct (base_register (r_encs (fst w)) l v label). split; [exact K|exact D].
  - unfold unregister_encoder. cbn [set_ecache r_encs]. pose proof (tidy_unregister (r_encs (fst w)) l E) as K. destruct (base_unregister (r_encs (fst w)) l). split; [exact K|exact D].
  - unfold register_decoder. cbn [set_dcache r_decs]. pose proof (tidy_register (r_decs (fst w)) l v label D) as K. destruct (base_register (r_decs (fst w)) l v label). split; [exact E|exact K].
  - unfold unregister_decoder. cbn [set_dcache r_decs]. pose proof (tidy_unregister (r_decs (fst w)) l D) as K. destruct (base_unregister (r_decs (fst w)) l). split; [exact E|exact K].
  - unfold register, register_encoder, register_decoder. cbn [set_ecache r_encs]. pose proof (tidy_register (r_encs (fst w)) l e label E) as K.
    destruct (base_register (r_encs (fst w)) l e label) as [[u|x] m]; [|split; [exact K|exact D]]. cbn [set_encs set_ecache set_dcache r_decs]. pose proof (tidy_register (r_decs (fst w)) l d label D) as K'.
    destruct (base_register (r_decs (fst w)) l d label). split; [exact K|exact K'].
  - unfold unregister, unregister_encoder, unregister_decoder. cbn [set_ecache r_encs]. pose proof (tidy_unregister (r_encs (fst w)) l E) as K.
    destruct (base_unregister (r_encs (fst w)) l) as [[u|x] m]; [|split; [exact K|exact D]]. cbn [set_encs set_ecache set_dcache r_decs]. pose proof (tidy_unregister (r_decs (fst w)) l D) as K'.
    destruct (base_unregister (r_decs (fst w)) l). split; [exact K|exact K'].
Qed.
Lemma query_dec o : query o \/ ~ query o.
Proof. destruct o; cbn; tauto. Qed.
Theorem reachable_tidy w : reachable w -> tidy_registry (fst w).
Proof.
  induction 1 as [h|o w R IH|w R IH].
  - repeat split; constructor.
  - destruct (query_dec o) as [Q|Q]; [|exact (tidy_update o w Q IH)]. destruct (query_same o w Q (reachable_caches w R)) as [A B]. unfold tidy_registry. rewrite A, B. exact IH.
  - destruct IH as [E D]. split; [exact E|exact D].
Qed.

(** ** All but one of the matchers named are unregistered *)
Fixpoint stripped {V} (m : mapping V) (us : list pred) : mapping V :=
  match us with [] => m | u :: us => stripped (snd (m_remove_by_equality m u)) us end.
Lemma removed_values {V} (m : mapping V) u : has_pred m u = true -> fst (m_remove_by_equality m u) = Ok tt /\ m_values (snd (m_remove_by_equality m u)) = del_value m u.
Proof. intro H. unfold m_remove_by_equality. rewrite H. cbv zeta. destruct (find _ (m_labels m)) as [[l q]|]; split; reflexivity. Qed.
Definition kept {V} (us : list pred) (pv : pred * V) : bool := negb (existsb (pred_eqb (fst pv)) us).
Lemma filter_filter {A} (f g : A -> bool) l : filter f (filter g l) = filter (fun x => g x && f x) l.
Proof. induction l as [|x l IH]; [reflexivity|]. cbn [filter]. destruct (g x); cbn [filter andb]; [destruct (f x)|]; rewrite IH; reflexivity. Qed.
Lemma stripped_values {V} qs us : Forall2 (fun q u => pred_eqb q u = true) qs us -> ForallOrdPairs (fun q q' => pred_eqb q q' = false) qs ->
  forall m : mapping V, (forall q, In q qs -> In q (map fst (m_values m))) -> m_values (stripped m us) = filter (kept us) (m_values m).
Proof.
  induction 1 as [|q u qs us E F IH]; intros O m I; cbn [stripped].
  - unfold kept. cbn. induction (m_values m) as [|x l IH]; [reflexivity|]. cbn [filter negb]. rewrite <- IH; [reflexivity|intros ? []].
  - inversion O as [|? ? Oq Os]; subst. assert (H : has_pred m u = true). { apply has_pred_true. specialize (I q (or_introl eq_refl)). apply in_map_iff in I. destruct I as ([q' v] & Eq & I). cbn [fst] in Eq. subst q'. eauto. }
    destruct (removed_values m u H) as [_ Hv]. rewrite IH; [| exact Os |].
    + rewrite Hv. unfold del_value. rewrite filter_filter. apply filter_ext. intros [x v]. unfold kept. cbn [fst existsb]. rewrite negb_orb. reflexivity.
    + intros q' J. rewrite Hv. pose proof (I q' (or_intror J)) as K. apply in_map_iff in K. destruct K as ([x v] & Ex & K). cbn [fst] in Ex. subst x. apply in_map_iff. exists (q', v). split; [reflexivity|].
      unfold del_value. apply filter_In. split; [exact K|]. cbn [fst]. destruct (pred_eqb q' u) eqn:Q; [|reflexivity]. rewrite Forall_forall in Oq.
      assert (X : pred_eqb q q' = true) by (eapply pred_eqb_trans; [exact E|rewrite pred_eqb_sym; exact Q]). rewrite (Oq q' J) in X. discriminate.
Qed.
Lemma fop_cons {A} (R : A -> A -> Prop) x l : ForallOrdPairs R (x :: l) -> Forall (R x) l /\ ForallOrdPairs R l.
Proof. intro H. inv H. split; assumption. Qed.
Lemma fop_app {A} (R : A -> A -> Prop) l1 l2 : ForallOrdPairs R (l1 ++ l2) -> ForallOrdPairs R l1 /\ ForallOrdPairs R l2 /\ Forall (fun x => Forall (R x) l2) l1.
Proof.
  induction l1 as [|x l1 IH]; intro H; [repeat split; [constructor|exact H|constructor]|]. cbn [app] in H. inv H. apply Forall_app in H2. destruct H2 as [F1 F2], (IH H3) as (A1 & A2 & A3).
  repeat split; [constructor; assumption|exact A2|constructor; assumption].
Qed.
Lemma fop_join {A} (R : A -> A -> Prop) l1 l2 : ForallOrdPairs R l1 -> ForallOrdPairs R l2 -> Forall (fun x => Forall (R x) l2) l1 -> ForallOrdPairs R (l1 ++ l2).
Proof.
  induction l1 as [|x l1 IH]; intros Ha Hb Hc; [exact Hb|]. inv Ha. inv Hc. cbn [app]. constructor; [apply Forall_app; split; assumption|]. apply IH; assumption.
Qed.
Lemma fop_map {A B} (R : B -> B -> Prop) (f : A -> B) l : ForallOrdPairs (fun x y => R (f x) (f y)) l -> ForallOrdPairs R (map f l).
Proof. induction 1 as [|x l F O IH]; cbn [map]; constructor; [apply Forall_map; exact F|exact IH]. Qed.
Lemma filter_none {A} (f : A -> bool) l : (forall x, In x l -> f x = false) -> filter f l = [].
Proof. induction l as [|x l IH]; intro H; [reflexivity|]. cbn [filter]. rewrite (H x (or_introl eq_refl)). apply IH. intros y I. apply H. right. exact I. Qed.
Lemma removed_all us qs {V} (l : list (pred * V)) : Forall2 (fun q u => pred_eqb q u = true) qs us -> (forall x, In x l -> In (fst x) qs) -> forall x, In x l -> kept us x = false.
Proof.
  intros F I x J. specialize (I x J). unfold kept. apply negb_false_iff, existsb_exists. clear J. induction F as [|q u qs us E F IH]; [destruct I|]. destruct I as [<-|I]; [exists u; split; [left; reflexivity|exact E]|].
  destruct (IH I) as (u' & K & Q). exists u'. split; [right; exact K|exact Q].
Qed.
Lemma one_left {V} (m : mapping V) s a p b us : tidy m -> none_raises m s -> accepting m s = a ++ p :: b -> Forall2 (fun q u => pred_eqb q u = true) (a ++ b) us ->
  exists v, In (p, v) (m_values m) /\ m_find (stripped m us) s = Done v.
Proof.
  intros [_ O] N A F. rewrite accepting_filter in A. set (L := filter (fun pv => hit (fst pv) s) (m_values m)) in *.
  assert (OL : ForallOrdPairs apart L) by (apply fop_filter; exact O).
  assert (S : exists la v lb, L = la ++ (p, v) :: lb /\ map fst la = a /\ map fst lb = b).
  { apply map_eq_app in A. destruct A as (la & l2 & -> & Ea & Eb). apply map_eq_cons in Eb. destruct Eb as ([p' v] & lb & -> & Ep & Eb). cbn [fst] in Ep. subst p'. exists la, v, lb. auto. }
  destruct S as (la & v & lb & EL & Ea & Eb). rewrite EL in OL. destruct (fop_app apart la ((p, v) :: lb) OL) as (O1 & O2 & O3). pose proof O2 as O2c. apply fop_cons in O2c. destruct O2c as [Op O2'].
  assert (Oab : ForallOrdPairs (fun q q' => pred_eqb q q' = false) (a ++ b)).
  { rewrite <- Ea, <- Eb, <- map_app. apply fop_map. apply fop_join; [exact O1|exact O2'|]. eapply Forall_impl; [|exact O3]. intros x Fx. inv Fx. assumption. }
  assert (Inab : forall q, In q (a ++ b) -> In q (map fst (m_values m))).
  { intros q I. rewrite <- Ea, <- Eb, <- map_app in I. apply in_map_iff in I. destruct I as (x & Ex & I). subst q. apply in_map. apply (proj1 (filter_In (fun pv => hit (fst pv) s) x (m_values m))). fold L. rewrite EL.
    apply in_app_iff. apply in_app_iff in I. destruct I as [I|I]; [left; exact I|right; right; exact I]. }
  pose proof (stripped_values (a ++ b) us F Oab m Inab) as Hv.
  exists v. split.
  { apply (proj1 (filter_In (fun pv => hit (fst pv) s) (p, v) (m_values m))). fold L. rewrite EL. apply in_app_iff. right. left. reflexivity. }
  assert (Kp : kept us (p, v) = true).
  { unfold kept. apply negb_true_iff. destruct (existsb (pred_eqb (fst (p, v))) us) eqn:X; [|reflexivity]. exfalso. apply existsb_exists in X. destruct X as (u & Iu & Q). cbn [fst] in Q.
    assert (Y : exists q, In q (a ++ b) /\ pred_eqb q u = true). { clear - F Iu. induction F as [|q u' qs us E F IH]; [destruct Iu|]. destruct Iu as [->|Iu]; [exists q; split; [left; reflexivity|exact E]|]. destruct (IH Iu) as (q' & J & Q). exists q'. split; [right; exact J|exact Q]. }
    destruct Y as (q & Iq & Qu). assert (Z : pred_eqb p q = true) by (eapply pred_eqb_trans; [exact Q|rewrite pred_eqb_sym; exact Qu]).
    rewrite <- Ea, <- Eb, <- map_app in Iq. apply in_map_iff in Iq. destruct Iq as ([q' v'] & Eq & Iq). cbn [fst] in Eq. subst q'. apply in_app_iff in Iq. destruct Iq as [Iq|Iq].
    - rewrite Forall_forall in O3. specialize (O3 _ Iq). inversion O3 as [|? ? Y1 Y2]; subst. unfold apart in Y1. cbn [fst] in Y1. rewrite pred_eqb_sym in Y1. congruence.
    - rewrite Forall_forall in Op. specialize (Op _ Iq). unfold apart in Op. cbn [fst] in Op. congruence. }
  assert (Hf : filter (fun pv => hit (fst pv) s) (m_values (stripped m us)) = [(p, v)]).
  { rewrite Hv, filter_filter. rewrite (filter_ext _ (fun x => hit (fst x) s && kept us x)) by (intro x; apply andb_comm). rewrite <- filter_filter. fold L. rewrite EL, filter_app. cbn [filter]. rewrite Kp.
    rewrite !filter_none; [reflexivity|..]; intros x I; apply (removed_all us (a ++ b) [x] F); try (left; reflexivity); intros y [<-|[]]; rewrite <- Ea, <- Eb, <- map_app; apply in_map; apply in_app_iff; auto. }
  assert (N' : none_raises (stripped m us) s). { intros q u I. rewrite Hv in I. apply filter_In in I. exact (N q u (proj1 I)). }
  unfold m_find. rewrite scan_spec, (proj2 (first_raise_none (m_values (stripped m us)) s) N'), Hf. reflexivity.
Qed.
Lemma stripped_answers {V} qs us : Forall2 (fun q u => pred_eqb q u = true) qs us -> ForallOrdPairs (fun q q' => pred_eqb q q' = false) qs ->
  forall m : mapping V, (forall q, In q qs -> In q (map fst (m_values m))) -> forall i u, nth_error us i = Some u -> fst (m_remove_by_equality (stripped m (firstn i us)) u) = Ok tt.
Proof.
  induction 1 as [|q u qs us E F IH]; intros O m I i u' N; [destruct i; discriminate|]. apply fop_cons in O. destruct O as [Oq Os].
  assert (H : has_pred m u = true). { apply has_pred_true. specialize (I q (or_introl eq_refl)). apply in_map_iff in I. destruct I as ([q' v] & Eq & I). cbn [fst] in Eq. subst q'. eauto. }
  destruct (removed_values m u H) as [Ho Hv]. destruct i as [|i]; cbn [nth_error firstn stripped] in *; [inv N; exact Ho|]. apply IH; [exact Os| |exact N].
  intros q' J. rewrite Hv. pose proof (I q' (or_intror J)) as K. apply in_map_iff in K. destruct K as ([x v] & Ex & K). cbn [fst] in Ex. subst x. apply in_map_iff. exists (q', v). split; [reflexivity|].
  unfold del_value. apply filter_In. split; [exact K|]. cbn [fst]. destruct (pred_eqb q' u) eqn:Q; [|reflexivity]. rewrite Forall_forall in Oq.
  assert (X : pred_eqb q q' = true) by (eapply pred_eqb_trans; [exact E|rewrite pred_eqb_sym; exact Q]). rewrite (Oq q' J) in X. discriminate.
Qed.
Lemma accepting_apart {V} (m : mapping V) s a p b : tidy m -> accepting m s = a ++ p :: b ->
  ForallOrdPairs (fun q q' => pred_eqb q q' = false) (a ++ b) /\ (forall q, In q (a ++ b) -> In q (map fst (m_values m))).
Proof.
  intros [_ O] A. split.
  - assert (OA : ForallOrdPairs (fun q q' => pred_eqb q q' = false) (accepting m s)). { rewrite accepting_filter. apply (fop_map (fun q q' => pred_eqb q q' = false)). apply fop_filter. exact O. }
    rewrite A in OA. destruct (fop_app _ a (p :: b) OA) as (O1 & O2 & O3). apply fop_cons in O2. apply fop_join; [exact O1|apply O2|]. eapply Forall_impl; [|exact O3]. intros x Fx. inv Fx. assumption.
  - intros q I. assert (J : In q (accepting m s)). { rewrite A. apply in_app_iff. apply in_app_iff in I. cbn [In]. tauto. } unfold accepting in J. apply filter_In in J. apply J.
Qed.

Lemma true_many {V} t (m : mapping V) use ts t' s ps : true_of t m use ts (ManyMatch t' s ps) -> t' = t /\ within s ts /\ none_raises m s /\ ps = accepting m s /\ (2 <= length ps)%nat.
Proof. intro H. remember (ManyMatch t' s ps) as n eqn:E. destruct H; try discriminate. inv E. auto. Qed.
Lemma true_none {V} t (m : mapping V) use ts t' s : true_of t m use ts (NoMatch t' s) -> t' = t /\ within s ts /\ (exists T, g_type s T) /\ (forall p v, In (p, v) (m_values m) -> pred_call p s = Done false).
Proof. intro H. remember (NoMatch t' s) as n eqn:E. destruct H; try discriminate. inv E. eauto 6. Qed.

(** ** Calls *)
Lemma drop_encoder_eq u w : fst (run (OUnregisterEncoder (LPred u)) w) = ADone (fst (m_remove_by_equality (r_encs (fst w)) u))
  /\ r_encs (fst (snd (run (OUnregisterEncoder (LPred u)) w))) = snd (m_remove_by_equality (r_encs (fst w)) u).
Proof. cbn [run]. unfold on_registry, unregister_encoder. cbn [set_ecache r_encs base_unregister]. destruct (m_remove_by_equality (r_encs (fst w)) u). split; reflexivity. Qed.
Lemma drop_decoder_eq u w : fst (run (OUnregisterDecoder (LPred u)) w) = ADone (fst (m_remove_by_equality (r_decs (fst w)) u))
  /\ r_decs (fst (snd (run (OUnregisterDecoder (LPred u)) w))) = snd (m_remove_by_equality (r_decs (fst w)) u).
Proof. cbn [run]. unfold on_registry, unregister_decoder. cbn [set_dcache r_decs base_unregister]. destruct (m_remove_by_equality (r_decs (fst w)) u). split; reflexivity. Qed.
Lemma drop_encoders_encs us : forall w, r_encs (fst (after (drop_encoders us) w)) = stripped (r_encs (fst w)) us.
Proof. induction us as [|u us IH]; intro w; [reflexivity|]. unfold after, drop_encoders in *. cbn [map fold_left stripped]. rewrite IH. rewrite (proj2 (drop_encoder_eq u w)). reflexivity. Qed.
Lemma drop_decoders_decs us : forall w, r_decs (fst (after (drop_decoders us) w)) = stripped (r_decs (fst w)) us.
Proof. induction us as [|u us IH]; intro w; [reflexivity|]. unfold after, drop_decoders in *. cbn [map fold_left stripped]. rewrite IH. rewrite (proj2 (drop_decoder_eq u w)). reflexivity. Qed.
Lemma drop_encoders_answers us : forall w, (forall i u, nth_error us i = Some u -> fst (m_remove_by_equality (stripped (r_encs (fst w)) (firstn i us)) u) = Ok tt) ->
  Forall (eq (ADone (Ok tt))) (answers (drop_encoders us) w).
Proof.
  induction us as [|u us IH]; intros w H; [constructor|]. cbn [drop_encoders map answers]. destruct (drop_encoder_eq u w) as [A B]. destruct (run (OUnregisterEncoder (LPred u)) w) as [a w'] eqn:E. cbn [fst snd] in A, B. constructor.
  - rewrite A. pose proof (H O u eq_refl) as K. cbn [firstn stripped] in K. rewrite K. reflexivity.
  - apply IH. intros i u' N. rewrite B. exact (H (S i) u' N).
Qed.
Lemma drop_decoders_answers us : forall w, (forall i u, nth_error us i = Some u -> fst (m_remove_by_equality (stripped (r_decs (fst w)) (firstn i us)) u) = Ok tt) ->
  Forall (eq (ADone (Ok tt))) (answers (drop_decoders us) w).
Proof.
  induction us as [|u us IH]; intros w H; [constructor|]. cbn [drop_decoders map answers]. destruct (drop_decoder_eq u w) as [A B]. destruct (run (OUnregisterDecoder (LPred u)) w) as [a w'] eqn:E. cbn [fst snd] in A, B. constructor.
  - rewrite A. pose proof (H O u eq_refl) as K. cbn [firstn stripped] in K. rewrite K. reflexivity.
  - apply IH. intros i u' N. rewrite B. exact (H (S i) u' N).
Qed.
Lemma reachable_after ops : forall w, reachable w -> reachable (after ops w).
Proof. induction ops as [|o ops IH]; intros w R; [exact R|]. unfold after in *. cbn [fold_left]. apply IH. apply R_run. exact R. Qed.
Theorem many_cured ts w s a p b us : reachable w -> fst (get_encoder_noted ts (fst w)) = Note (ManyMatch Encoders s (a ++ p :: b)) ->
  Forall2 (fun q u => pred_eqb q u = true) (a ++ b) us ->
  Forall (eq (ADone (Ok tt))) (answers (drop_encoders us) w)
  /\ exists v, In (p, v) (m_values (r_encs (fst w))) /\ forall e, direct_encoder v s = Some e -> fst (get_encoder s (fst (after (drop_encoders us) w))) = e.
Proof.
  intros R N F. apply get_encoder_says in N. apply true_many in N. destruct N as (_ & _ & Q & Es & _). symmetry in Es. pose proof (proj1 (reachable_tidy w R)) as T.
  destruct (accepting_apart _ _ _ _ _ T Es) as [Oab Iab]. split.
  - apply drop_encoders_answers. exact (stripped_answers (a ++ b) us F Oab _ Iab).
  - destruct (one_left _ _ _ _ _ _ T Q Es F) as (v & I & M). exists v. split; [exact I|]. intros e D.
    pose proof (reachable_caches _ (reachable_after (drop_encoders us) w R)) as [Ce _]. destruct (get_encoder_pure _ s Ce) as (? & G & _). rewrite G. cbn [fst]. rewrite drop_encoders_encs. exact (find_direct_encoder _ s v e M D).
Qed.
Theorem many_cured_decoder k ts w s a p b us : reachable w -> fst (get_decoder_noted k ts w) = Note (ManyMatch Decoders s (a ++ p :: b)) ->
  Forall2 (fun q u => pred_eqb q u = true) (a ++ b) us ->
  Forall (eq (ADone (Ok tt))) (answers (drop_decoders us) w)
  /\ exists v, In (p, v) (m_values (r_decs (fst w))) /\ forall k d, direct_decoder v k s = Some d -> fst (get_decoder k s (after (drop_decoders us) w)) = d.
Proof.
  intros R N F. apply get_decoder_says in N. apply true_many in N. destruct N as (_ & _ & Q & Es & _). symmetry in Es. pose proof (proj2 (reachable_tidy w R)) as T.
  destruct (accepting_apart _ _ _ _ _ T Es) as [Oab Iab]. split.
  - apply drop_decoders_answers. exact (stripped_answers (a ++ b) us F Oab _ Iab).
  - destruct (one_left _ _ _ _ _ _ T Q Es F) as (v & I & M). exists v. split; [exact I|]. intros k' d D.
    pose proof (reachable_caches _ (reachable_after (drop_decoders us) w R)) as [_ Cd]. destruct (get_decoder_pure _ k' s Cd) as (? & G & _). rewrite G. cbn [fst]. rewrite drop_decoders_decs. exact (find_direct_decoder _ k' s v d M D).
Qed.
(** What the calls say. *)
Theorem register_encoder_says (w : world) l v label n : fst (register_encoder_noted l v label (fst w)) = Note n <-> objection_to_register Encoders (r_encs (fst w)) label l n.
Proof. rewrite <- (register_in_says Encoders (r_encs (fst w)) l v label n). unfold register_encoder_noted. cbn [set_ecache r_encs]. destruct (register_noted_in Encoders (r_encs (fst w)) l v label). reflexivity. Qed.
Theorem register_decoder_says (w : world) l v label n : fst (register_decoder_noted l v label (fst w)) = Note n <-> objection_to_register Decoders (r_decs (fst w)) label l n.
Proof. rewrite <- (register_in_says Decoders (r_decs (fst w)) l v label n). unfold register_decoder_noted. cbn [set_dcache r_decs]. destruct (register_noted_in Decoders (r_decs (fst w)) l v label). reflexivity. Qed.
Theorem unregister_encoder_says (w : world) l n : reachable w -> fst (unregister_encoder_noted l (fst w)) = Note n <-> objection_to_unregister Encoders (r_encs (fst w)) l n.
Proof.
  intro R. destruct (proj1 (reachable_tidy w R)) as [D _]. rewrite <- (unregister_in_says Encoders (r_encs (fst w)) l n D). unfold unregister_encoder_noted. cbn [set_ecache r_encs].
  destruct (unregister_noted_in Encoders (r_encs (fst w)) l). reflexivity.
Qed.
Theorem unregister_decoder_says (w : world) l n : reachable w -> fst (unregister_decoder_noted l (fst w)) = Note n <-> objection_to_unregister Decoders (r_decs (fst w)) l n.
Proof.
  intro R. destruct (proj2 (reachable_tidy w R)) as [D _]. rewrite <- (unregister_in_says Decoders (r_decs (fst w)) l n D). unfold unregister_decoder_noted. cbn [set_dcache r_decs].
  destruct (unregister_noted_in Decoders (r_decs (fst w)) l). reflexivity.
Qed.
(** The calls on both tables: a message about the second says the first is done. *)
Lemma objection_about {V} t (m : mapping V) label l n : objection_to_register t m label l n -> about_table n = Some t \/ n = WrongLookup /\ l = LOther.
Proof. intro O. destruct O as [p n O|s n O|]; [left; destruct O; reflexivity..|]. right. split; reflexivity. Qed.
Theorem register_says (w : world) l e d label n : fst (register_noted l e d label (fst w)) = Note n <->
  objection_to_register Encoders (r_encs (fst w)) label l n
  \/ (forall n', ~ objection_to_register Encoders (r_encs (fst w)) label l n') /\ objection_to_register Decoders (r_decs (fst w)) label l n.
Proof.
  unfold register_noted. pose proof (register_encoder_says w l e label) as A. destruct (register_encoder_noted l e label (fst w)) as [[u|n1] r1] eqn:E; cbn [fst] in *.
  - assert (D : r_decs r1 = r_decs (fst w)).
    { unfold register_encoder_noted in E. cbn [set_ecache r_encs] in E. destruct (register_noted_in Encoders (r_encs (fst w)) l e label). inv E. reflexivity. }
    pose proof (register_decoder_says (r1, snd w) l d label n) as B. cbn [fst] in B. rewrite D in B. rewrite B. split.
    + intro O. right. split; [|exact O]. intros n' O'. apply A in O'. discriminate.
    + intros [O|[_ O]]; [|exact O]. apply A in O. discriminate.
  - split.
    + intro H. inv H. left. apply A. reflexivity.
    + intros [O|[N _]]; [|exfalso; exact (N n1 (proj1 (A n1) eq_refl))]. apply A in O. exact O.
Qed.
Theorem unregister_says (w : world) l n : reachable w -> fst (unregister_noted l (fst w)) = Note n <->
  objection_to_unregister Encoders (r_encs (fst w)) l n
  \/ (forall n', ~ objection_to_unregister Encoders (r_encs (fst w)) l n') /\ objection_to_unregister Decoders (r_decs (fst w)) l n.
Proof.
  intro R. unfold unregister_noted. pose proof (fun n => unregister_encoder_says w l n R) as A. destruct (unregister_encoder_noted l (fst w)) as [[u|n1] r1] eqn:E; cbn [fst] in *.
  - assert (D : r_decs r1 = r_decs (fst w)).
    { unfold unregister_encoder_noted in E. cbn [set_ecache r_encs] in E. destruct (unregister_noted_in Encoders (r_encs (fst w)) l). inv E. reflexivity. }
    assert (B : fst (unregister_decoder_noted l r1) = Note n <-> objection_to_unregister Decoders (r_decs (fst w)) l n).
    { destruct (proj2 (reachable_tidy w R)) as [D' _]. rewrite <- (unregister_in_says Decoders (r_decs (fst w)) l n D'). unfold unregister_decoder_noted. cbn [set_dcache r_decs]. rewrite D.
      destruct (unregister_noted_in Decoders (r_decs (fst w)) l). reflexivity. }
    rewrite B. split.
    + intro O. right. split; [|exact O]. intros n' O'. apply A in O'. discriminate.
    + intros [O|[_ O]]; [|exact O]. apply A in O. discriminate.
  - split.
    + intro H. inv H. left. apply A. reflexivity.
    + intros [O|[N _]]; [|exfalso; exact (N n1 (proj1 (A n1) eq_refl))]. apply A in O. exact O.
Qed.
(** What they leave behind: a message about the encoders, or about the argument,
    means nothing was registered; one about the decoders, that the encoder was. *)
Theorem register_leaves (w : world) l e d label n : fst (register_noted l e d label (fst w)) = Note n ->
  let r := snd (register_noted l e d label (fst w)) in
  r_decs r = r_decs (fst w)
  /\ (about_table n <> Some Decoders -> r_encs r = r_encs (fst w))
  /\ (about_table n = Some Decoders -> fst (register_encoder_noted l e label (fst w)) = Fine tt /\ r_encs r = r_encs (snd (register_encoder_noted l e label (fst w)))).
Proof.
  intros H r. subst r. unfold register_noted in *. pose proof (register_encoder_says w l e label) as A. pose proof (register_encoder_same l e label (fst w)) as S.
  destruct (register_encoder_noted l e label (fst w)) as [[u|n1] r1] eqn:E; cbn [fst snd] in *.
  - destruct u. assert (D : r_decs r1 = r_decs (fst w)).
    { unfold register_encoder_noted in E. cbn [set_ecache r_encs] in E. destruct (register_noted_in Encoders (r_encs (fst w)) l e label). inv E. reflexivity. }
    pose proof (proj1 (register_decoder_says (r1, snd w) l d label n) H) as O. pose proof (register_decoder_same l d label r1) as S'.
    assert (K : r_encs (snd (register_decoder_noted l d label r1)) = r_encs r1 /\ r_decs (snd (register_decoder_noted l d label r1)) = r_decs r1).
    { unfold register_decoder_noted in *. cbn [set_dcache r_decs] in *. pose proof (register_in_same Decoders (r_decs r1) l d label) as J. destruct (register_noted_in Decoders (r_decs r1) l d label) as [[u'|n'] m'] eqn:E'; cbn [fst] in H; [discriminate|].
      unfold unread_at in J. cbn [fst snd unread] in J. pose proof (base_register_err (r_decs r1) l d label (exc_of n')) as X. rewrite <- J in X. cbn [fst snd] in X. split; [reflexivity|]. cbn. apply X. reflexivity. }
    destruct K as [K1 K2]. rewrite K1, K2, D. split; [reflexivity|]. split; [|intros _; split; reflexivity].
    intro X. destruct (objection_about _ _ _ _ _ O) as [Y|[_ ->]]; [contradiction|]. exfalso. pose proof (proj2 (A WrongLookup) (OR_other _ _ _)). discriminate.
  - inv H. assert (B : r_decs r1 = r_decs (fst w) /\ r_encs r1 = r_encs (fst w)).
    { unfold register_encoder_noted in E. cbn [set_ecache r_encs] in E. pose proof (register_in_same Encoders (r_encs (fst w)) l e label) as J. destruct (register_noted_in Encoders (r_encs (fst w)) l e label) as [[u'|n'] m'] eqn:E'; inv E.
      unfold unread_at in J. cbn [fst snd unread] in J. pose proof (base_register_err (r_encs (fst w)) l e label (exc_of n)) as X. rewrite <- J in X. cbn [fst snd] in X. split; [reflexivity|]. cbn. apply X. reflexivity. }
    destruct B as [B1 B2]. split; [exact B1|]. split; [intros _; exact B2|]. intro X. exfalso. destruct (objection_about _ _ _ _ _ (proj1 (A n) eq_refl)) as [Y|[-> _]]; [rewrite X in Y|]; discriminate.
Qed.

(** ** Nothing matches *)
Lemma equals_call s : pred_call (equals s) s = Done true.
Proof. unfold pred_call, equals. cbn [pkind]. replace (str_eqb s s) with true; [reflexivity|]. symmetry. apply str_eqb_eq. reflexivity. Qed.
Lemma none_free {V} (m : mapping V) s : (forall p v, In (p, v) (m_values m) -> pred_call p s = Done false) -> forall q v, In (q, v) (m_values m) -> pred_eqb q (equals s) = false.
Proof.
  intros N q v I. destruct (pred_eqb q (equals s)) eqn:E; [|reflexivity]. exfalso. specialize (N q v I). unfold pred_eqb, equals in E. cbn [pkind] in E. destruct (pkind q) eqn:K; try discriminate.
  apply str_eqb_eq in E. unfold pred_call in N. rewrite K, E in N. replace (str_eqb s s) with true in N; [discriminate|]. symmetry. apply str_eqb_eq. reflexivity.
Qed.
Theorem none_cured ts w s v label : reachable w -> fst (get_encoder_noted ts (fst w)) = Note (NoMatch Encoders s) ->
  (forall n, fst (register_encoder_noted (LStr s) v label (fst w)) = Note n <-> n = LabelTaken Encoders (equals s) s /\ exists q, In (s, q) (m_labels (r_encs (fst w))))
  /\ (forall w', run (ORegisterEncoder (LStr s) v label) w = (ADone (Ok tt), w') -> forall e, direct_encoder v s = Some e -> fst (get_encoder s (fst w')) = e).
Proof.
  intros R N. apply get_encoder_says in N. apply true_none in N. destruct N as (_ & _ & _ & N). split.
  - intro n. rewrite register_encoder_says. split.
    + intro O. inversion O as [|s' n' O' E1 E2|]; subst. pose proof (none_free _ _ N) as Fr. unfold equals in Fr. inversion O' as [q u I Q|l q Fr' E I]; subst; [rewrite (Fr q u I) in Q; discriminate|]. inv E. split; [reflexivity|eauto].
    + intros [-> [q I]]. apply OR_string. eapply A_label; [exact (none_free _ _ N)|reflexivity|exact I].
  - intros w' H e D. destruct (register_lookup w w' (LStr s) (equals s) v label s R eq_refl H) as [A _].
    + intros p u I. unfold raising. rewrite (N p u I). reflexivity.
    + apply equals_call.
    + apply A; [|exact D]. intros ([p u] & I & M). cbn [fst] in M. rewrite (N p u I) in M. discriminate.
Qed.
Theorem none_cured_decoder k ts w s v label : reachable w -> fst (get_decoder_noted k ts w) = Note (NoMatch Decoders s) ->
  (forall n, fst (register_decoder_noted (LStr s) v label (fst w)) = Note n <-> n = LabelTaken Decoders (equals s) s /\ exists q, In (s, q) (m_labels (r_decs (fst w))))
  /\ (forall w', run (ORegisterDecoder (LStr s) v label) w = (ADone (Ok tt), w') -> forall k d, direct_decoder v k s = Some d -> fst (get_decoder k s w') = d).
Proof.
  intros R N. apply get_decoder_says in N. apply true_none in N. destruct N as (_ & _ & _ & N). split.
  - intro n. rewrite register_decoder_says. split.
    + intro O. inversion O as [|s' n' O' E1 E2|]; subst. pose proof (none_free _ _ N) as Fr. unfold equals in Fr. inversion O' as [q u I Q|l q Fr' E I]; subst; [rewrite (Fr q u I) in Q; discriminate|]. inv E. split; [reflexivity|eauto].
    + intros [-> [q I]]. apply OR_string. eapply A_label; [exact (none_free _ _ N)|reflexivity|exact I].
  - intros w' H k' d D. destruct (register_lookup_decoder w w' (LStr s) (equals s) v label k' s R eq_refl H) as [A _].
    + intros p u I. unfold raising. rewrite (N p u I). reflexivity.
    + apply equals_call.
    + apply A; [|exact D]. intros ([p u] & I & M). cbn [fst] in M. rewrite (N p u I) in M. discriminate.
Qed.

(** ** Taken matchers and labels *)
Lemma matcher_freed {V} (m : mapping V) p v v' : has_pred m p = true ->
  fst (m_remove_by_equality m p) = Ok tt /\ fst (m_add (snd (m_remove_by_equality m p)) p v None) = Ok tt /\ (has_pred m p = true -> fst (m_add m p v' None) = Err ValueError).
Proof.
  intro H. destruct (removed_values m p H) as [A B]. split; [exact A|]. split; [|intros _; unfold m_add; rewrite H; reflexivity]. unfold m_add.
  rewrite (proj2 (has_pred_false (snd (m_remove_by_equality m p)) p)); [reflexivity|]. intros q u I. rewrite B in I. unfold del_value in I. apply filter_In in I. destruct I as [_ I]. cbn [fst] in I. apply negb_true_iff in I. exact I.
Qed.
Lemma label_freed {V} (m : mapping V) p v l : has_pred m p = false -> fst (m_add (snd (m_remove_by_label m l)) p v (Some l)) = Ok tt.
Proof.
  intro H. pose proof (proj1 (has_pred_false m p) H) as N.
  assert (A : forall q u, In (q, u) (m_values (snd (m_remove_by_label m l))) -> pred_eqb q p = false).
  { unfold m_remove_by_label. destruct (find _ (m_labels m)) as [[l' q']|]; [|exact N]. cbv zeta. destruct (has_pred _ q'); [|exact N]. intros q u I. cbn [snd m_values] in I. unfold del_value in I. apply filter_In in I. exact (N q u (proj1 I)). }
  assert (B : has_label (snd (m_remove_by_label m l)) l = false).
  { destruct (has_label (snd (m_remove_by_label m l)) l) eqn:L; [|reflexivity]. exfalso. apply has_label_true in L. destruct L as [q I]. unfold m_remove_by_label in I. destruct (find (fun lp => str_eqb (fst lp) l) (m_labels m)) as [[l' q']|] eqn:F.
    - cbv zeta in I. assert (J : In (l, q) (del_label m l)) by (destruct (has_pred _ q'); exact I). unfold del_label in J. apply filter_In in J. destruct J as [_ J]. cbn [fst] in J. replace (str_eqb l l) with true in J; [discriminate|]. symmetry. apply str_eqb_eq. reflexivity.
    - cbn [snd] in I. pose proof (find_none _ _ F (l, q) I) as X. cbn [fst] in X. replace (str_eqb l l) with true in X; [discriminate|]. symmetry. apply str_eqb_eq. reflexivity. }
  unfold m_add. rewrite (proj2 (has_pred_false _ p) A), B. reflexivity.
Qed.
Theorem taken_cured (w : world) p v label : fst (register_encoder_noted (LPred p) v label (fst w)) = Note (MatcherTaken Encoders p) ->
  answers [OUnregisterEncoder (LPred p); ORegisterEncoder (LPred p) v None] w = [ADone (Ok tt); ADone (Ok tt)].
Proof.
  intro H. apply register_encoder_says in H. assert (T : has_pred (r_encs (fst w)) p = true). { apply has_pred_true. inversion H as [p' n O E1 E2| |]; subst. inversion O; subst. eauto. }
  destruct (matcher_freed (r_encs (fst w)) p v v T) as (A & B & _). cbn [answers run]. unfold on_registry, unregister_encoder, register_encoder. cbn [set_ecache r_encs base_unregister].
  destruct (m_remove_by_equality (r_encs (fst w)) p) as [x m]. cbn [fst snd set_encs set_ecache r_encs base_register] in *. destruct (m_add m p v None) as [y m']. cbn [fst] in B. rewrite A, B. reflexivity.
Qed.
Theorem taken_cured_decoder (w : world) p v label : fst (register_decoder_noted (LPred p) v label (fst w)) = Note (MatcherTaken Decoders p) ->
  answers [OUnregisterDecoder (LPred p); ORegisterDecoder (LPred p) v None] w = [ADone (Ok tt); ADone (Ok tt)].
Proof.
  intro H. apply register_decoder_says in H. assert (T : has_pred (r_decs (fst w)) p = true). { apply has_pred_true. inversion H as [p' n O E1 E2| |]; subst. inversion O; subst. eauto. }
  destruct (matcher_freed (r_decs (fst w)) p v v T) as (A & B & _). cbn [answers run]. unfold on_registry, unregister_decoder, register_decoder. cbn [set_dcache r_decs base_unregister].
  destruct (m_remove_by_equality (r_decs (fst w)) p) as [x m]. cbn [fst snd set_decs set_dcache r_decs base_register] in *. destruct (m_add m p v None) as [y m']. cbn [fst] in B. rewrite A, B. reflexivity.
Qed.
Theorem label_cured (w : world) p v l : fst (register_encoder_noted (LPred p) v (Some l) (fst w)) = Note (LabelTaken Encoders p l) ->
  fst (run (ORegisterEncoder (LPred p) v (Some l)) (snd (run (OUnregisterEncoder (LStr l)) w))) = ADone (Ok tt).
Proof.
  intro H. apply register_encoder_says in H. assert (T : has_pred (r_encs (fst w)) p = false). { apply has_pred_false. inversion H as [p' n O E1 E2| |]; subst. inversion O; subst. assumption. }
  pose proof (label_freed (r_encs (fst w)) p v l T) as B. cbn [run]. unfold on_registry, unregister_encoder, register_encoder. cbn [set_ecache r_encs base_unregister].
  destruct (m_remove_by_label (r_encs (fst w)) l) as [x m]. cbn [fst snd set_encs set_ecache r_encs base_register] in *. destruct (m_add m p v (Some l)) as [y m']. cbn [fst] in *. rewrite B. reflexivity.
Qed.
Theorem label_cured_decoder (w : world) p v l : fst (register_decoder_noted (LPred p) v (Some l) (fst w)) = Note (LabelTaken Decoders p l) ->
  fst (run (ORegisterDecoder (LPred p) v (Some l)) (snd (run (OUnregisterDecoder (LStr l)) w))) = ADone (Ok tt).
Proof.
  intro H. apply register_decoder_says in H. assert (T : has_pred (r_decs (fst w)) p = false). { apply has_pred_false. inversion H as [p' n O E1 E2| |]; subst. inversion O; subst. assumption. }
  pose proof (label_freed (r_decs (fst w)) p v l T) as B. cbn [run]. unfold on_registry, unregister_decoder, register_decoder. cbn [set_dcache r_decs base_unregister].
  destruct (m_remove_by_label (r_decs (fst w)) l) as [x m]. cbn [fst snd set_decs set_dcache r_decs base_register] in *. destruct (m_add m p v (Some l)) as [y m']. cbn [fst] in *. rewrite B. reflexivity.
Qed.

(** ** The standard registries *)
Lemma sole {V} (m : mapping V) s p v : none_raises m s -> accepting m s = [p] -> In (p, v) (m_values m) -> m_scan (m_values m) s = Done [v].
Proof.
  intros N A I. rewrite scan_spec, (proj2 (first_raise_none (m_values m) s) N). rewrite accepting_filter in A. 
  assert (H : hit p s = true). { assert (J : In p (accepting m s)) by (rewrite accepting_filter, A; left; reflexivity). unfold accepting in J. apply filter_In in J. apply J. }
  assert (J : In (p, v) (filter (fun pv => hit (fst pv) s) (m_values m))) by (apply filter_In; split; assumption).
  destruct (filter (fun pv => hit (fst pv) s) (m_values m)) as [|x [|y l]]; [destruct J| |discriminate]. destruct J as [->|[]]. reflexivity.
Qed.
Lemma many_scan {V} (m : mapping V) s : none_raises m s -> exists vs, m_scan (m_values m) s = Done vs /\ length vs = length (accepting m s).
Proof. intro N. rewrite scan_spec, (proj2 (first_raise_none (m_values m) s) N). eexists. split; [reflexivity|]. rewrite accepting_filter, !map_length. reflexivity. Qed.
Lemma none_scan {V} (m : mapping V) s : (forall p v, In (p, v) (m_values m) -> pred_call p s = Done false) -> m_scan (m_values m) s = Done [].
Proof. intro N. induction (m_values m) as [|[p v] l IH]; [reflexivity|]. cbn [m_scan]. rewrite (N p v (or_introl eq_refl)), IH; [reflexivity|]. intros q u I. exact (N q u (or_intror I)). Qed.
Lemma unknown_class T : class_of T = None -> exists b sub, T = Basic b sub [] /\ ~ In b known_names.
Proof.
  intro C. destruct T as [b sub [|d arr]|cs [|d arr]]; try discriminate. exists b, sub. split; [reflexivity|]. intro I. unfold known_names in I. cbn [In] in I.
  repeat (destruct I as [<-|I]; [destruct sub; discriminate C|]). destruct I.
Qed.
Lemma class_unfit pk T0 c pu why : ast_ok T0 -> class_of T0 = Some c -> purpose_of (pack pk (fst c)) = Some pu -> unfit pu (expand T0) why ->
  exists sub, T0 = Basic (lit "function") sub [] /\ sub <> SubNone /\ why = NotBase (lit "bytes") /\ c = (CBytesM, CDBytesM).
Proof.
  intros W C P U. destruct T0 as [b sub [|d arr]|cs [|d arr]].
  - unfold class_of, std_class in C. base_cases b;
    try (destruct sub; lazy in C; inv C; destruct pk; lazy in P; inv P; lazy in U; inversion U as [| ? ? ? ? Ne | ? ? ? Ne | | | ]; subst; try (exfalso; apply Ne; reflexivity); eexists; (split; [reflexivity|]); (split; [discriminate|]); split; reflexivity).
    repeat match goal with E : str_eqb b ?x = false |- _ => rewrite E in C; clear E end. discriminate.
  - cbn [class_of] in C. inv C. destruct pk; cbn in P; inv P; exfalso; cbn [expand] in U; destruct sub; try destruct (alias_of b) as [[b' sub']|]; inversion U.
  - cbn [class_of] in C. inv C. destruct pk; cbn in P; inv P; exfalso; cbn [expand] in U; inversion U.
  - cbn [class_of] in C. inv C. destruct pk; cbn in P; inv P; exfalso; cbn [expand] in U; inversion U.
Qed.
Lemma class_unfit_decoder T0 c pu why : class_of T0 = Some c -> purpose_of_decoder (snd c) = Some pu -> unfit pu (expand T0) why ->
  exists sub, T0 = Basic (lit "function") sub [] /\ sub <> SubNone /\ why = NotBase (lit "bytes") /\ c = (CBytesM, CDBytesM).
Proof.
  intros C P U. destruct T0 as [b sub [|d arr]|cs [|d arr]].
  - unfold class_of, std_class in C. base_cases b;
    try (destruct sub; lazy in C; inv C; lazy in P; inv P; lazy in U; inversion U as [| ? ? ? ? Ne | ? ? ? Ne | | | ]; subst; try (exfalso; apply Ne; reflexivity); eexists; (split; [reflexivity|]); (split; [discriminate|]); split; reflexivity).
    repeat match goal with E : str_eqb b ?x = false |- _ => rewrite E in C; clear E end. discriminate.
  - cbn [class_of] in C. inv C. cbn in P; inv P; exfalso; cbn [expand] in U; destruct sub; try destruct (alias_of b) as [[b' sub']|]; inversion U.
  - cbn [class_of] in C. inv C. cbn in P; inv P; exfalso; cbn [expand] in U; inversion U.
  - cbn [class_of] in C. inv C. cbn in P; inv P; exfalso; cbn [expand] in U; inversion U.
Qed.
Lemma function_normal s normal s' sub : parse s = Ok (Basic (lit "function") sub []) -> sub <> SubNone -> normalized s s' -> shown s normal s' -> normal = None.
Proof.
  intros P S N H. apply normalized_iff in N. rewrite (normalize_type _ _ P) in N. assert (E : expand (Basic (lit "function") sub []) = Basic (lit "function") sub []) by (destruct sub; [congruence|reflexivity..]).
  rewrite E, (parse_print _ _ P) in N. destruct H as [[H _]|[_ H]]; [exact H|]. congruence.
Qed.
Theorem standard_says pk w ts n : used pk w -> fst (get_encoder_noted ts (fst w)) = Note n -> standard_notice Encoders (encoder_title (pack pk CBytesM)) ts n.
Proof.
  intros U N. apply get_encoder_says in N. destruct (used_spec pk w U) as (E & _ & _). rewrite E in N. inversion N as [s T W G A|s W Q L|s p v cls pu s' normal T why W Q A I Us Nm Sh G Uf|e]; subst.
  - apply none_scan in A. rewrite scan_encs in A. apply parse_spec in G as P. rewrite P in A. destruct (class_of T) eqn:C; [discriminate|]. destruct (unknown_class T C) as (b & sub & -> & Nb). exact (SN_unknown _ _ _ s b sub W G Nb).
  - exfalso. destruct (many_scan _ _ Q) as (vs & S & Ls). rewrite scan_encs in S. inv S. rewrite <- Ls in L. destruct (parse s) as [T|]; [destruct (class_of T)|]; cbn in L; lia.
  - pose proof (sole _ _ _ _ Q A I) as S. rewrite scan_encs in S. apply parse_spec in G. pose proof (proj1 (normalized_iff _ _) Nm) as Nm'. subst s'. destruct (tree_parse s T G) as (T0 & P & ->). rewrite P in S. destruct (class_of T0) as [c|] eqn:C; [|discriminate]. injection S as <-.
    cbn [enc_use] in Us. destruct (purpose_of (pack pk (fst c))) as [pu'|] eqn:Pu; [|discriminate]. inv Us. apply parse_iff in P as P'. destruct (class_unfit pk T0 c pu why (proj1 P') C Pu Uf) as (sub & -> & Sn & -> & ->).
    rewrite (function_normal s normal _ sub P Sn Nm Sh). apply parse_spec in P. exact (SN_function _ _ _ s sub W P Sn).
  - constructor.
Qed.
Theorem standard_says_decoder k w ts n : used false w -> fst (get_decoder_noted k ts w) = Note n -> standard_notice Decoders (decoder_title CDBytesM) ts n.
Proof.
  intros U N. apply get_decoder_says in N. destruct (used_spec false w U) as (_ & E & _). rewrite E in N. change (decs_of false) with decs in N. remember decs as m eqn:Em in N. destruct N as [s T W G A|s W Q L|s p v cls pu s' normal T why W Q A I Us Nm Sh G Uf|e].
  - rewrite Em in A. apply none_scan in A. rewrite scan_decs in A. apply parse_spec in G as P. rewrite P in A. destruct (class_of T) eqn:C; [discriminate A|]. destruct (unknown_class T C) as (b & sub & -> & Nb). exact (SN_unknown _ _ _ s b sub W G Nb).
  - exfalso. rewrite Em in Q, L. destruct (many_scan _ _ Q) as (vs & S & Ls). rewrite scan_decs in S. inv S. rewrite <- Ls in L. destruct (parse s) as [T|]; [destruct (class_of T)|]; cbn in L; lia.
  - pose proof (sole _ _ _ _ Q A I) as S. rewrite Em, scan_decs in S. clear Em A I Q. apply parse_spec in G. pose proof (proj1 (normalized_iff _ _) Nm) as Nm'. subst s'. destruct (tree_parse s T G) as (T0 & P & ->). rewrite P in S. destruct (class_of T0) as [c|] eqn:C; [|discriminate S]. injection S as <-.
    cbn [dec_use] in Us. destruct (purpose_of_decoder (snd c)) as [pu'|] eqn:Pu; [|discriminate Us]. injection Us as <- <-. destruct (class_unfit_decoder T0 c pu' why C Pu Uf) as (sub & -> & Sn & -> & ->).
    rewrite (function_normal s normal _ sub P Sn Nm Sh). apply parse_spec in P. exact (SN_function _ _ _ s sub W P Sn).
  - constructor.
Qed.

(** ** What is wrong at the top is said *)
Lemma scan_found {V} (m : mapping V) s : none_raises m s -> scan_noted (m_values m) s = Done (filter (fun pv => hit (fst pv) s) (m_values m)).
Proof.
  intro N. unfold none_raises in N. induction (m_values m) as [|[p v] l IH]; [reflexivity|]. cbn [scan_noted filter fst]. pose proof (N p v (or_introl eq_refl)) as Np. unfold raising in Np. unfold hit at 1.
  rewrite IH by (intros q u I; exact (N q u (or_intror I))). destruct (pred_call p s) as [[]|]; [reflexivity..|discriminate].
Qed.
Lemma registration_notice {V} t (m : mapping V) s T : g_type s T -> none_raises m s -> length (accepting m s) <> 1%nat -> get_registration_noted t m s = Note (lookup_notice t m s).
Proof.
  intros G N L. apply parse_spec in G. unfold get_registration_noted, find_noted, lookup_notice. rewrite accepting_filter in *. rewrite (scan_found m s N).
  destruct (filter (fun pv => hit (fst pv) s) (m_values m)) as [|[p v] [|y l]]; [|exfalso; apply L; reflexivity|].
  - cbn [exc_of is_value_error quietly nbind map]. rewrite G. reflexivity.
  - cbn [exc_of is_value_error quietly nbind map fst]. rewrite G. destruct (contains _ _); reflexivity.
Qed.
Theorem lookup_said w ts T : reachable w -> g_type ts T -> none_raises (r_encs (fst w)) ts -> length (accepting (r_encs (fst w)) ts) <> 1%nat ->
  fst (get_encoder_noted ts (fst w)) = Note (lookup_notice Encoders (r_encs (fst w)) ts).
Proof.
  intros R G N L. pose proof (registration_notice Encoders _ ts T G N L) as Q. unfold get_encoder_noted. cbn [get_encoder_noted_fuel]. destruct (ecache_get (r_ecache (fst w)) ts) as [e|] eqn:C; [|rewrite Q; reflexivity].
  exfalso. pose proof (proj1 (reachable_caches w R) ts e C) as F. rewrite find_encoder_eq, <- (get_registration_same Encoders), Q in F. cbn [unread] in F. discriminate.
Qed.
Theorem lookup_said_decoder k w ts T : reachable w -> g_type ts T -> none_raises (r_decs (fst w)) ts -> length (accepting (r_decs (fst w)) ts) <> 1%nat ->
  fst (get_decoder_noted k ts w) = Note (lookup_notice Decoders (r_decs (fst w)) ts).
Proof.
  intros R G N L. pose proof (registration_notice Decoders _ ts T G N L) as Q. unfold get_decoder_noted. cbn [get_decoder_noted_fuel]. destruct (dcache_get (r_dcache (fst w)) (ts, k)) as [e|] eqn:C; [|rewrite Q; reflexivity].
  exfalso. pose proof (proj2 (reachable_caches w R) ts k e C) as F. rewrite find_decoder_eq, <- (get_registration_same Decoders), Q in F. cbn [unread] in F. discriminate.
Qed.
(** A class registered for a type it is not for says so. *)
Lemma shown_eq s normal : shown s normal (normalize s) -> normal = if str_eqb s (normalize s) then None else Some (normalize s).
Proof.
  intros [[-> E]|[-> N]]; destruct (str_eqb s (normalize s)) eqn:Q; try reflexivity; [rewrite E, str_eqb_refl in Q; discriminate|]. apply str_eqb_eq in Q. congruence.
Qed.
Lemma checked_unfit {A} cls pu s T why normal : parse (normalize s) = Ok T -> unfit pu T why -> shown s normal (normalize s) ->
  match pu with
  | ForBase b => forall f : abi_type -> noted A, nbind (checked cls (Some b) false s) f = Note (Misfit cls s normal why)
  | ForArrays => forall f : abi_type -> noted A, nbind (checked cls None true s) f = Note (Misfit cls s normal why)
  | ForTuples => checked_tuple cls s = Note (Misfit cls s normal why)
  end.
Proof.
  intros P U H. apply shown_eq in H. subst normal. destruct U as [b cs arr|b b' sub arr N|b sub arr N|b sub|cs|b sub arr]; unfold checked, checked_tuple; rewrite P; cbn [quietly nbind arrlist_of negb andb]; try reflexivity.
  - intro f. destruct (str_eqb b' b) eqn:Q; [apply str_eqb_eq in Q; contradiction|]. reflexivity.
  - intro f. rewrite str_eqb_refl. destruct arr; [contradiction|]. reflexivity.
Qed.
Lemma unfit_base_says {A} cls b s T why normal : parse (normalize s) = Ok T -> unfit (ForBase b) T why -> shown s normal (normalize s) ->
  forall f : abi_type -> noted A, nbind (checked cls (Some b) false s) f = Note (Misfit cls s normal why).
Proof. intros P U H. exact (@checked_unfit A cls (ForBase b) s T why normal P U H). Qed.
Lemma unfit_array_says {A} cls s T why normal : parse (normalize s) = Ok T -> unfit ForArrays T why -> shown s normal (normalize s) ->
  forall f : abi_type -> noted A, nbind (checked cls None true s) f = Note (Misfit cls s normal why).
Proof. intros P U H. exact (@checked_unfit A cls ForArrays s T why normal P U H). Qed.
Lemma unfit_tuple_says cls s T why normal : parse (normalize s) = Ok T -> unfit ForTuples T why -> shown s normal (normalize s) -> checked_tuple cls s = Note (Misfit cls s normal why).
Proof. intros P U H. exact (@checked_unfit unit cls ForTuples s T why normal P U H). Qed.
Lemma registration_sole {V} t (m : mapping V) s p v : none_raises m s -> accepting m s = [p] -> In (p, v) (m_values m) -> get_registration_noted t m s = Fine v.
Proof.
  intros N A I. unfold get_registration_noted, find_noted. rewrite (scan_found m s N). rewrite accepting_filter in A.
  assert (H : hit p s = true). { assert (J : In p (accepting m s)) by (rewrite accepting_filter, A; left; reflexivity). unfold accepting in J. apply filter_In in J. apply J. }
  assert (J : In (p, v) (filter (fun pv => hit (fst pv) s) (m_values m))) by (apply filter_In; split; assumption).
  destruct (filter (fun pv => hit (fst pv) s) (m_values m)) as [|x [|y l]]; [destruct J| |discriminate A]. destruct J as [->|[]]. reflexivity.
Qed.
Lemma enc_unfit {S} (ge : pystr -> S -> noted encoder * S) c s pu T why normal st : purpose_of c = Some pu -> parse (normalize s) = Ok T -> unfit pu T why -> shown s normal (normalize s) ->
  enc_built_noted ge c s st = (Note (Misfit (enc_name c) s normal why), st).
Proof.
  intros U P F H. unfold enc_built_noted. destruct c; cbn [purpose_of] in U; inv U; cbn [enc_leaf_noted];
    first [rewrite (unfit_base_says _ _ s T why normal P F H)|rewrite (unfit_array_says _ s T why normal P F H)|rewrite (unfit_tuple_says _ s T why normal P F H)]; reflexivity.
Qed.
Lemma dec_unfit {S} (gd : pystr -> S -> noted decoder * S) c s pu T why normal st : purpose_of_decoder c = Some pu -> parse (normalize s) = Ok T -> unfit pu T why -> shown s normal (normalize s) ->
  dec_built_noted gd c s st = (Note (Misfit (dec_name c) s normal why), st).
Proof.
  intros U P F H. unfold dec_built_noted. destruct c; cbn [purpose_of_decoder] in U; inv U; cbn [dec_leaf_noted];
    first [rewrite (unfit_base_says _ _ s T why normal P F H)|rewrite (unfit_array_says _ s T why normal P F H)|rewrite (unfit_tuple_says _ s T why normal P F H)]; reflexivity.
Qed.
Theorem misfit_said w ts p v cls pu s' normal T why : reachable w -> none_raises (r_encs (fst w)) ts -> accepting (r_encs (fst w)) ts = [p] -> In (p, v) (m_values (r_encs (fst w))) ->
  enc_use v = Some (cls, pu) -> normalized ts s' -> shown ts normal s' -> g_type s' T -> unfit pu T why ->
  fst (get_encoder_noted ts (fst w)) = Note (Misfit cls ts normal why).
Proof.
  intros R N A I U Nm H G F. apply normalized_iff in Nm. subst s'. apply parse_spec in G. destruct v as [c|e]; [|discriminate U]. cbn [enc_use] in U. destruct (purpose_of c) as [pu'|] eqn:P; [|discriminate U]. 
  pose proof (enc_use_class c pu' P) as Uc. cbn [enc_use] in Uc. rewrite P in Uc. rewrite Uc in U. injection U as <- <-.
  pose proof (registration_sole Encoders _ ts p (EClass c) N A I) as Q. unfold get_encoder_noted. cbn [get_encoder_noted_fuel]. destruct (ecache_get (r_ecache (fst w)) ts) as [e|] eqn:C.
  - exfalso. pose proof (proj1 (reachable_caches w R) ts e C) as Fe. rewrite find_encoder_eq, <- (get_registration_same Encoders), Q in Fe. cbn [unread] in Fe.
    pose proof (enc_unfit (fun x (st : unit) => (quietly (find_encoder (r_encs (fst w)) x), st)) c ts pu' T why normal tt P G F H) as B.
    pose proof (enc_built_same (fun x (st : unit) => (quietly (find_encoder (r_encs (fst w)) x), st)) (lift (find_encoder (r_encs (fst w)))) c ts tt) as Sm. rewrite B in Sm. rewrite <- Sm in Fe; [discriminate Fe|]. intros x st. unfold unread_at, lift. cbn [fst snd]. rewrite unread_quietly. reflexivity.
  - rewrite Q, (enc_unfit _ c ts pu' T why normal (fst w) P G F H). reflexivity.
Qed.
Theorem misfit_said_decoder k w ts p v cls pu s' normal T why : reachable w -> none_raises (r_decs (fst w)) ts -> accepting (r_decs (fst w)) ts = [p] -> In (p, v) (m_values (r_decs (fst w))) ->
  dec_use v = Some (cls, pu) -> normalized ts s' -> shown ts normal s' -> g_type s' T -> unfit pu T why ->
  fst (get_decoder_noted k ts w) = Note (Misfit cls ts normal why).
Proof.
  intros R N A I U Nm H G F. apply normalized_iff in Nm. subst s'. apply parse_spec in G. destruct v as [c|e]; [|discriminate U]. cbn [dec_use] in U. destruct (purpose_of_decoder c) as [pu'|] eqn:P; [|discriminate U]. 
  pose proof (dec_use_class c pu' P) as Uc. cbn [dec_use] in Uc. rewrite P in Uc. rewrite Uc in U. injection U as <- <-.
  pose proof (registration_sole Decoders _ ts p (DClass c) N A I) as Q. unfold get_decoder_noted. cbn [get_decoder_noted_fuel]. destruct (dcache_get (r_dcache (fst w)) (ts, k)) as [e|] eqn:C.
  - exfalso. pose proof (proj2 (reachable_caches w R) ts k e C) as Fe. rewrite find_decoder_eq, <- (get_registration_same Decoders), Q in Fe. cbn [unread] in Fe.
    pose proof (dec_unfit (fun x (st : unit) => (quietly (find_decoder (r_decs (fst w)) None x), st)) c ts pu' T why normal tt P G F H) as B.
    pose proof (dec_built_same (fun x (st : unit) => (quietly (find_decoder (r_decs (fst w)) None x), st)) (lift (find_decoder (r_decs (fst w)) None)) c ts tt) as Sm. rewrite B in Sm. rewrite <- Sm in Fe; [discriminate Fe|]. intros x st. unfold unread_at, lift. cbn [fst snd]. rewrite unread_quietly. reflexivity.
  - rewrite Q, (dec_unfit _ c ts pu' T why normal w P G F H). reflexivity.
Qed.
