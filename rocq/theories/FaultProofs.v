(** Lemmas for what the constructors say. *)
From Coq Require Import Strings.String.
From Verif Require Import Tac Py Bytes Grammar GrammarSpec GrammarProofs TextProofs ComplaintTextProofs Encoding Decoding Limits Construct Faults FaultSpec.
Open Scope Z_scope.

(** ** The same results *)
Lemma forget_bind {A B} (m : built A) (g : A -> built B) : forget (fbind m g) = bind (forget m) (fun a => forget (g a)).
Proof. destruct m; reflexivity. Qed.
Lemma forget_need o k : forget (need o k) = raise_if (is_none (o k)) ValueError.
Proof. unfold need, fault_if, raise_if. destruct (is_none _); reflexivity. Qed.
Lemma forget_silently {A} (r : result A) : forget (silently r) = r.
Proof. destruct r; reflexivity. Qed.
Lemma forget_if b f : forget (fault_if b f) = raise_if b (class_of_fault f).
Proof. destruct b; reflexivity. Qed.
Lemma bind_same {A B} (r : result A) (f g : A -> result B) : (forall a, f a = g a) -> bind r f = bind r g.
Proof. intro H. destruct r; [apply H|reflexivity]. Qed.
Ltac forgets := repeat (rewrite forget_bind || rewrite forget_need || rewrite forget_if || rewrite forget_silently || (apply bind_same; intro) || reflexivity).
Lemma set_told c kw : forall o, forget (set_kwargs_told c kw o) = set_kwargs c kw o.
Proof. induction kw as [|(k, a) kw IH]; intro o; [reflexivity|]. cbn [set_kwargs_told set_kwargs]. destruct (class_attr c k); [apply IH|reflexivity]. Qed.
Lemma sizes_told fn o : forget (validate_sizes_told fn o) = validate_sizes fn o.
Proof. unfold validate_sizes_told, validate_sizes. forgets. Qed.
Lemma number_told o : forget (validate_number_told o) = validate_number o.
Proof. unfold validate_number_told, validate_number. rewrite forget_bind, sizes_told. forgets. Qed.
Lemma frac_told o : forget (validate_frac_told o) = validate_frac o.
Proof. unfold validate_frac_told, validate_frac. forgets. Qed.
Lemma validate_same c o : forget (validate_told c o) = validate c o.
Proof.
  destruct c; cbn [validate_told validate]; try reflexivity; try (apply sizes_told); try apply number_told; forgets;
    rewrite ?number_told, ?sizes_told; forgets; rewrite ?frac_told; forgets.
Qed.
Theorem told_same c kw : forget (construct_told c kw) = construct c kw.
Proof. unfold construct_told, construct. rewrite forget_bind, set_told. apply bind_same. intro o. rewrite forget_bind, validate_same. apply bind_same. intro. apply forget_silently. Qed.

(** ** The attributes *)
Lemma named_attr c k : class_attr c k = None <-> ~ named c k.
Proof.
  split.
  - intros E N. destruct k; cbn in N; unfold sized, fractional, numeric in N; cbn [In] in N.
    all: repeat first [discriminate | contradiction | match goal with H : _ /\ _ |- _ => destruct H | H : _ \/ _ |- _ => destruct H end | (subst; discriminate) | (destruct c; discriminate)].
  - intro N. destruct c, k; try reflexivity; exfalso; apply N; cbn; unfold sized, fractional, numeric; cbn; tauto.
Qed.
Lemma attr_named c k : class_attr c k <> None -> named c k.
Proof. intro H. destruct (class_attr c k) eqn:E; [|congruence]. destruct c, k; try discriminate E; cbn; unfold sized, fractional, numeric; cbn; tauto. Qed.
Lemma named_default c k : named c k -> class_attr c k = Some (default c k).
Proof. intro N. destruct (class_attr c k) eqn:E; [|apply named_attr in E; contradiction]. rewrite <- E. destruct c, k; try discriminate E; reflexivity. Qed.
Lemma key_eqb_true a b : key_eqb a b = true <-> a = b.
Proof.
  split.
  - destruct a, b; cbn; try discriminate; try reflexivity. intro H. apply N.eqb_eq in H. subst. reflexivity.
  - intros ->. destruct b; try reflexivity. cbn. apply N.eqb_refl.
Qed.
Lemma set_at c kw : forall o o', NoDup (map fst kw) -> set_kwargs_told c kw o = Made o' ->
  forall k, (forall a, In (k, a) kw -> o' k = a) /\ (~ In k (map fst kw) -> o' k = o k).
Proof.
  induction kw as [|(k0, a0) kw IH]; intros o o' D H k.
  - inv H. split; [intros a []|reflexivity].
  - cbn [set_kwargs_told] in H. destruct (class_attr c k0) as [a1|]; [|discriminate]. cbn [map fst] in D. inv D.
    match goal with N : ~ In k0 _, D : NoDup _ |- _ => rename N into F; specialize (IH _ _ D H) end.
    split.
    + intros a [E|I].
      * inv E. rewrite (proj2 (IH k) F). unfold setattr. rewrite (proj2 (key_eqb_true k k) eq_refl). reflexivity.
      * exact (proj1 (IH k) a I).
    + cbn [map fst In]. intro N. rewrite (proj2 (IH k)) by tauto. unfold setattr. destruct (key_eqb k k0) eqn:E; [|reflexivity].
      apply key_eqb_true in E. subst. exfalso. apply N. left. reflexivity.
Qed.
Lemma set_has c kw o : NoDup (map fst kw) -> set_kwargs_told c kw (fresh c) = Made o ->
  forall k, class_attr c k <> None -> has c kw k (o k).
Proof.
  intros D H k C. destruct (set_at _ _ _ _ D H k) as (G & N).
  destruct (in_dec (fun a b => match Bool.bool_dec (key_eqb a b) true with left e => left (proj1 (key_eqb_true a b) e) | right e => right (fun q => e (proj2 (key_eqb_true a b) q)) end) k (map fst kw)) as [I|I].
  - apply in_map_iff in I. destruct I as ((k', a) & E & I). cbn in E. subst k'. rewrite (G a I). apply H_given, I.
  - rewrite (N I). unfold fresh. rewrite (named_default _ _ (attr_named _ _ C)). apply H_class; [exact I|apply attr_named, C].
Qed.
Lemma has_one c kw o k a : NoDup (map fst kw) -> set_kwargs_told c kw (fresh c) = Made o -> has c kw k a -> o k = a.
Proof.
  intros D H X. destruct (set_at _ _ _ _ D H k) as (G & N). inversion X as [a' I|I C]; subst; [exact (G _ I)|].
  rewrite (N I). unfold fresh. rewrite (named_default _ _ C). reflexivity.
Qed.
Lemma set_faulty c kw : forall o f, set_kwargs_told c kw o = Faulty f -> exists k, f = Unknown k /\ In k (map fst kw) /\ class_attr c k = None.
Proof.
  induction kw as [|(k0, a0) kw IH]; intros o f H; [discriminate|]. cbn [set_kwargs_told] in H. destruct (class_attr c k0) eqn:E.
  - destruct (IH _ _ H) as (k & A & B & C). exists k. cbn. auto.
  - inv H. exists k0. cbn. auto.
Qed.
Lemma set_unknown c kw : forall o k, In k (map fst kw) -> class_attr c k = None -> exists f, set_kwargs_told c kw o = Faulty f.
Proof.
  induction kw as [|(k0, a0) kw IH]; intros o k I C; [destruct I|]. cbn [set_kwargs_told]. destruct (class_attr c k0) eqn:E; [|eauto].
  destruct I as [I|I]; [cbn in I; subst; congruence|]. exact (IH _ _ I C).
Qed.

(** ** True faults *)
Lemma bind_faulty {A B} (m : built A) (g : A -> built B) f : fbind m g = Faulty f -> m = Faulty f \/ exists a, m = Made a /\ g a = Faulty f.
Proof. destruct m; cbn; [eauto|]. intro H. inv H. auto. Qed.
Lemma need_faulty o k f : need o k = Faulty f -> f = Missing k /\ o k = ANone.
Proof. unfold need, fault_if. destruct (o k); cbn; intro H; inv H; auto. Qed.
Lemma if_faulty b f g : fault_if b g = Faulty f -> f = g /\ b = true.
Proof. destruct b; cbn; intro H; inv H; auto. Qed.
Lemma silently_faulty {A} (r : result A) f : silently r = Faulty f -> exists e, f = Elsewhere e /\ r = Err e.
Proof. destruct r; cbn; intro H; inv H. eauto. Qed.
Lemma silently_made {A} (r : result A) a : silently r = Made a -> r = Ok a.
Proof. destruct r; cbn; intro H; inv H. reflexivity. Qed.
Lemma num_err a e : num a = Err e -> e = TypeError.
Proof. destruct a; cbn; congruence. Qed.

Definition fair (c : cls) (kw : list (key * attr)) (f : fault) : Prop := amiss c kw f \/ exists e, f = Elsewhere e /\ misused c kw e.
Section Sound.
Variables (c : cls) (kw : list (key * attr)) (o : instance).
Hypothesis S : forall k, class_attr c k <> None -> has c kw k (o k).
Lemma fair_need k f : class_attr c k <> None -> required c k -> need o k = Faulty f -> fair c kw f.
Proof. intros C R H. apply need_faulty in H. destruct H as (-> & E). left. apply A_missing; [exact R|]. rewrite <- E. apply S, C. Qed.
Lemma fair_num k z : class_attr c k <> None -> num (o k) = Ok z -> has_number c kw k z.
Proof. intros C H. pose proof (S k C) as X. destruct (o k) as [|z0|b| | | | | |]; cbn in H; inv H; [left; exact X|right; eauto]. Qed.
Lemma not_number a : (exists e, num a = Err e) <-> (forall z, a <> AInt z) /\ (forall b, a <> ABool b).
Proof. split; [intros (e & E); destruct a; try discriminate E; split; discriminate|]. intros (A & B). destruct a; cbn; eauto; [destruct (A z)|destruct (B b)]; reflexivity. Qed.
Lemma attr_sizes k : sized c -> In k [KValueBitSize; KDataByteSize; KIsBigEndian] -> class_attr c k <> None.
Proof. intros X K. cbn in X, K. repeat destruct X as [<- |X]; try contradiction; repeat destruct K as [<- |K]; try contradiction; discriminate. Qed.
Lemma fair_size k f : sized c -> In k [KValueBitSize; KDataByteSize] -> silently (num (o k)) = Faulty f -> fair c kw f.
Proof.
  intros X K H. apply silently_faulty in H. destruct H as (e & -> & E). right. exists e. split; [reflexivity|]. pose proof (num_err _ _ E) as ->.
  destruct (proj1 (not_number _) (ex_intro _ _ E)). eapply M_size; [exact X|exact K|apply S, attr_sizes; [exact X|cbn in K |- *; tauto]|assumption|assumption].
Qed.
Lemma fair_sizes fn f : sized c -> fn = (if is_encoder_class c then KEncodeFn else KDecoderFn) -> validate_sizes_told fn o = Faulty f -> fair c kw f.
Proof.
  intros X -> H. unfold validate_sizes_told in H.
  assert (F : class_attr c (if is_encoder_class c then KEncodeFn else KDecoderFn) <> None /\ required c (if is_encoder_class c then KEncodeFn else KDecoderFn)).
  { split; [cbn in X; repeat destruct X as [<- |X]; try contradiction; discriminate|].
    destruct (is_encoder_class c) eqn:E; [apply R_encode|apply R_decode]; assumption. }
  apply bind_faulty in H. destruct H as [H|(? & _ & H)]; [eapply fair_need; [| |exact H]; [apply attr_sizes|apply R_size]; cbn; auto|].
  apply bind_faulty in H. destruct H as [H|(? & _ & H)]; [eapply fair_need; [| |exact H]; [apply attr_sizes|apply R_size]; cbn; auto|].
  apply bind_faulty in H. destruct H as [H|(? & _ & H)]; [eapply fair_need; [| |exact H]; apply F|].
  apply bind_faulty in H. destruct H as [H|(? & _ & H)]; [eapply fair_need; [| |exact H]; [apply attr_sizes|apply R_size]; cbn; auto|].
  apply bind_faulty in H. destruct H as [H|(b & B & H)]; [exact (fair_size KValueBitSize _ X (or_introl eq_refl) H)|]. apply silently_made in B.
  apply bind_faulty in H. destruct H as [H|(? & _ & H)].
  { apply if_faulty in H. destruct H as (-> & E). left. eapply A_bytes; [exact X|apply S, attr_sizes; cbn; auto|exact B|].
    intro Q. rewrite Q in E. discriminate E. }
  apply bind_faulty in H. destruct H as [H|(d & D & H)]; [exact (fair_size KDataByteSize _ X (or_intror (or_introl eq_refl)) H)|]. apply silently_made in D.
  apply if_faulty in H. destruct H as (-> & E). left. apply (A_wide c kw b d); [exact X| | |lia]; apply fair_num; try assumption; apply attr_sizes; cbn; auto.
Qed.
Lemma fair_number f : numeric c -> validate_number_told o = Faulty f -> fair c kw f.
Proof.
  intros X H. unfold validate_number_told in H.
  assert (C : forall k, In k [KBoundsFn; KTypeCheckFn] -> class_attr c k <> None).
  { intros k K. clear -X K. cbn in X, K. repeat destruct X as [<- |X]; try contradiction; repeat destruct K as [<- |K]; try contradiction; discriminate. }
  apply bind_faulty in H. destruct H as [H|(? & _ & H)].
  { refine (fair_sizes _ _ _ _ H); cbn in X |- *; [tauto|]. repeat destruct X as [<- |X]; try contradiction; reflexivity. }
  apply bind_faulty in H. destruct H as [H|(? & _ & H)]; (eapply fair_need; [| |exact H]; [apply C; cbn; auto|apply R_number; [exact X|cbn; auto]]).
Qed.
Lemma fair_frac f : fractional c -> validate_frac_told o = Faulty f -> fair c kw f.
Proof.
  intros X H. unfold validate_frac_told in H.
  assert (C : class_attr c KFracPlaces <> None) by (cbn in X; repeat destruct X as [<- |X]; try contradiction; discriminate).
  apply bind_faulty in H. destruct H as [H|(? & _ & H)]; [eapply fair_need; [exact C|apply R_places, X|exact H]|].
  apply bind_faulty in H. destruct H as [H|(n & B & H)];
  [apply silently_faulty in H; destruct H as (e & -> & E); right; exists e; split; [reflexivity|]; pose proof (num_err _ _ E) as ->;
   destruct (proj1 (not_number _) (ex_intro _ _ E)); eapply M_places; [exact X|apply S, C|assumption|assumption]|]. apply silently_made in B.
  apply if_faulty in H. destruct H as (-> & E). left. apply (A_places c kw n); [exact X|apply fair_num; assumption|lia].
Qed.
End Sound.

Lemma fair_validate c kw o f : (forall k, class_attr c k <> None -> has c kw k (o k)) -> validate_told c o = Faulty f -> fair c kw f.
Proof.
  intros S H.
  destruct c; cbn [validate_told] in H; try discriminate;
  repeat match type of H with fbind _ _ = Faulty _ => apply bind_faulty in H; destruct H as [H|(? & ? & H)] end;
  lazymatch type of H with
  | validate_sizes_told _ _ = _ => eapply fair_sizes; [exact S| |reflexivity|exact H]; cbn; tauto
  | validate_number_told _ = _ => eapply fair_number; [exact S| |exact H]; cbn; tauto
  | validate_frac_told _ = _ => eapply fair_frac; [exact S| |exact H]; cbn; tauto
  | need _ _ = _ => eapply fair_need; [exact S| | |exact H]; [discriminate|first [constructor; cbn; tauto | apply R_decode; [cbn; tauto|reflexivity] ]]
  | silently _ = _ => refine (fair_size _ _ _ S KValueBitSize _ _ _ H); cbn; tauto
  | fault_if _ _ = _ => apply if_faulty in H; destruct H as (-> & E); left
  end.
  all: match goal with B : silently (num _) = Made ?b |- _ => apply silently_made in B; apply (A_160 _ _ b); [cbn; tauto|eapply fair_num; [exact S|discriminate|exact B]|] end.
  all: intro Q; subst; discriminate E.
Qed.
Lemma dyn_headtail d : dec_dyn_attr (DHeadTail d) = Some true.
Proof. reflexivity. Qed.
Lemma finish_err c kw o e : (forall k, class_attr c k <> None -> has c kw k (o k)) -> finish c o = Err e -> misused c kw e.
Proof.
  intros S H. destruct c; cbn [finish] in H; try discriminate.
  - pose proof (S KEncoders ltac:(discriminate)) as X. destruct (o KEncoders); try discriminate H; injection H as <-;
      (eapply M_encoders; [reflexivity|exact X|discriminate]).
  - pose proof (S KItemEncoder ltac:(discriminate)) as X. destruct (o KItemEncoder) as [| | | | |q| | |];
      try (injection H as <-; eapply M_item; [reflexivity|exact X|discriminate]).
    destruct (enc_dyn_attr q) eqn:E; [discriminate|]. injection H as <-. eapply M_item; [reflexivity|exact X|]. intros ? Q. injection Q as <-. exact E.
  - pose proof (S KDecoders ltac:(discriminate)) as X. destruct (o KDecoders); try discriminate H; injection H as <-;
      (eapply M_decoders; [reflexivity|exact X|discriminate]).
  - pose proof (S KItemDecoder ltac:(discriminate)) as X. destruct (o KItemDecoder) as [| | | | | | |q|];
      try (injection H as <-; eapply M_item_decoder; [cbn; auto|exact X|discriminate]).
    unfold mk_item in H. destruct (dec_dyn_attr q) as [[]|] eqn:E; cbn [bind] in H; [rewrite dyn_headtail in H; discriminate|rewrite E in H; discriminate|].
    injection H as <-. eapply M_item_decoder; [cbn; auto|exact X|]. intros ? Q. injection Q as <-. exact E.
  - pose proof (S KItemDecoder ltac:(discriminate)) as X. destruct (o KItemDecoder) as [| | | | | | |q|];
      try (injection H as <-; eapply M_item_decoder; [cbn; auto|exact X|discriminate]).
    unfold mk_item in H. destruct (dec_dyn_attr q) as [b|] eqn:E; cbn [bind] in H; [discriminate|].
    injection H as <-. eapply M_item_decoder; [cbn; auto|exact X|]. intros ? Q. injection Q as <-. exact E.
Qed.
Lemma misused_class c kw e : misused c kw e -> e <> ValueError.
Proof. intro H. inversion H; discriminate. Qed.
Theorem told_true c kw f : NoDup (map fst kw) -> construct_told c kw = Faulty f -> fair c kw f.
Proof.
  intros D H. unfold construct_told in H. apply bind_faulty in H. destruct H as [H|(o & O & H)].
  { apply set_faulty in H. destruct H as (k & -> & A & B). left. apply A_unknown; [assumption|apply named_attr; assumption]. }
  pose proof (set_has _ _ _ D O) as S. apply bind_faulty in H. destruct H as [H|(? & _ & H)]; [exact (fair_validate _ _ _ _ S H)|].
  apply silently_faulty in H. destruct H as (e & -> & E). right. exists e. split; [reflexivity|exact (finish_err _ _ _ _ S E)].
Qed.
Theorem told_reason c kw : NoDup (map fst kw) -> construct c kw = Err ValueError -> exists f, construct_told c kw = Faulty f /\ amiss c kw f.
Proof.
  intros D H. rewrite <- told_same in H. destruct (construct_told c kw) as [o|f] eqn:E; [discriminate|]. exists f. split; [reflexivity|].
  destruct (told_true _ _ _ D E) as [A|(e & -> & N)]; [exact A|]. apply misused_class in N. cbn in H. congruence.
Qed.

(** ** Every fault is noticed *)
Lemma bind_made {A B} (m : built A) (g : A -> built B) b : fbind m g = Made b -> exists a, m = Made a /\ g a = Made b.
Proof. destruct m; cbn; [eauto|discriminate]. Qed.
Lemma need_made o k u : need o k = Made u -> o k <> ANone.
Proof. unfold need, fault_if. destruct (o k); cbn; congruence. Qed.
Lemma if_made b f u : fault_if b f = Made u -> b = false.
Proof. destruct b; cbn; congruence. Qed.
Ltac mades :=
  repeat match goal with
  | H : fbind _ _ = Made _ |- _ => apply bind_made in H; destruct H as (? & ? & H)
  | H : need _ _ = Made _ |- _ => apply need_made in H
  | H : fault_if _ _ = Made _ |- _ => apply if_made in H
  | H : silently _ = Made _ |- _ => apply silently_made in H
  end.
Lemma sizes_made fn o u : validate_sizes_told fn o = Made u ->
  o KValueBitSize <> ANone /\ o KDataByteSize <> ANone /\ o fn <> ANone /\ o KIsBigEndian <> ANone
  /\ exists b d, num (o KValueBitSize) = Ok b /\ num (o KDataByteSize) = Ok d /\ b mod 8 = 0 /\ b <= 8 * d.
Proof.
  intro H. unfold validate_sizes_told in H. mades. repeat split; try assumption.
  eexists _, _. split; [eassumption|]. split; [eassumption|]. split; lia.
Qed.
Lemma number_made o u : validate_number_told o = Made u -> (exists u', validate_sizes_told KEncodeFn o = Made u') /\ o KBoundsFn <> ANone /\ o KTypeCheckFn <> ANone.
Proof. intro H. unfold validate_number_told in H. mades. eauto. Qed.
Lemma frac_made o u : validate_frac_told o = Made u -> o KFracPlaces <> ANone /\ exists n, num (o KFracPlaces) = Ok n /\ 0 < n <= 80.
Proof. intro H. unfold validate_frac_told in H. mades. split; [assumption|]. eexists. split; [eassumption|lia]. Qed.
Ltac opens :=
  mades;
  repeat match goal with
  | H : validate_number_told _ = Made _ |- _ => apply number_made in H; destruct H as ((? & ?) & ? & ?)
  | H : validate_frac_told _ = Made _ |- _ => apply frac_made in H; destruct H as (? & ? & ? & ?)
  | H : validate_sizes_told _ _ = Made _ |- _ => apply sizes_made in H; destruct H as (? & ? & ? & ? & ? & ? & ? & ? & ? & ?)
  end.
Ltac each X := cbn [In] in X; repeat destruct X as [<- |X]; try contradiction.
Lemma made_required c o u k : required c k -> validate_told c o = Made u -> o k <> ANone.
Proof.
  intros R H. inversion R as [c' k' X K|c' X E|c' X E| |c' k' X K|c' X| |c' X| | | |c' X]; subst; unfold sized, fractional, numeric in *;
    try (each X); try (each K); try discriminate; cbn [validate_told] in H; opens; assumption.
Qed.
Lemma made_sizes c o u : sized c -> validate_told c o = Made u ->
  exists b d, num (o KValueBitSize) = Ok b /\ num (o KDataByteSize) = Ok d /\ b mod 8 = 0 /\ b <= 8 * d.
Proof. intros X H. unfold sized in X. each X; cbn [validate_told] in H; opens; eauto 10. Qed.
Lemma made_frac c o u : fractional c -> validate_told c o = Made u -> exists n, num (o KFracPlaces) = Ok n /\ 0 < n <= 80.
Proof. intros X H. unfold fractional in X. each X; cbn [validate_told] in H; opens; eauto. Qed.
Lemma made_160 c o u : In c [NAddrEnc; NPackedAddrEnc] -> validate_told c o = Made u -> num (o KValueBitSize) = Ok 160.
Proof.
  intros X H. each X; cbn [validate_told] in H; mades;
    match goal with E : negb (?x =? 160) = false, Q : num (o KValueBitSize) = Ok ?x |- _ => replace 160 with x by lia; exact Q end.
Qed.
Lemma has_num c kw o k z : NoDup (map fst kw) -> set_kwargs_told c kw (fresh c) = Made o -> has_number c kw k z -> num (o k) = Ok z.
Proof. intros D O [H|(b & H & ->)]; rewrite (has_one _ _ _ _ _ D O H); reflexivity. Qed.
Theorem amiss_told c kw f : NoDup (map fst kw) -> amiss c kw f -> exists g, construct_told c kw = Faulty g.
Proof.
  intros D A. destruct (construct_told c kw) as [o'|g] eqn:E; [|eauto]. exfalso. unfold construct_told in E.
  apply bind_made in E. destruct E as (o & O & E). apply bind_made in E. destruct E as (u & V & _).
  inversion A as [k I C|k R H|a z X H Z M|b d X B S L|n X N L|b X B L]; subst.
  - destruct (set_unknown c kw (fresh c) k I (proj2 (named_attr c k) C)) as (g & G). congruence.
  - exact (made_required _ _ _ _ R V (has_one _ _ _ _ _ D O H)).
  - destruct (made_sizes _ _ _ X V) as (b & d & P & _ & Q & _). rewrite (has_one _ _ _ _ _ D O H) in P. congruence.
  - destruct (made_sizes _ _ _ X V) as (b' & d' & P & Q & _ & R). rewrite (has_num _ _ _ _ _ D O B) in P. rewrite (has_num _ _ _ _ _ D O S) in Q.
    injection P as <-. injection Q as <-. lia.
  - destruct (made_frac _ _ _ X V) as (n' & P & Q). rewrite (has_num _ _ _ _ _ D O N) in P. injection P as <-. lia.
  - pose proof (made_160 _ _ _ X V) as P. rewrite (has_num _ _ _ _ _ D O B) in P. congruence.
Qed.
Theorem amiss_raises c kw f : NoDup (map fst kw) -> amiss c kw f -> exists e, construct c kw = Err e.
Proof. intros D A. destruct (amiss_told _ _ _ D A) as (g & G). exists (class_of_fault g). rewrite <- told_same, G. reflexivity. Qed.

Theorem misused_raises c kw e : NoDup (map fst kw) -> misused c kw e -> exists e', construct c kw = Err e'.
Proof.
  intros D M. rewrite <- told_same. destruct (construct_told c kw) as [o'|g] eqn:E; [|cbn; eauto]. exfalso. unfold construct_told in E.
  apply bind_made in E. destruct E as (o & O & E). apply bind_made in E. destruct E as (u & V & E). apply silently_made in E.
  inversion M as [k a X K H P Q|a X H P Q|a X H P|a X H P|a X H P|a X H P]; subst; pose proof (has_one _ _ _ _ _ D O H) as A.
  - destruct (made_sizes _ _ _ X V) as (b & d & B & B' & _). destruct (proj2 (not_number a) (conj P Q)) as (e & N).
    each K; rewrite A in *; congruence.
  - destruct (made_frac _ _ _ X V) as (n & B & _). destruct (proj2 (not_number a) (conj P Q)) as (e & N). rewrite A in *; congruence.
  - cbn [finish] in E. rewrite A in E. destruct a; try discriminate E. exact (P _ eq_refl).
  - cbn [finish] in E. rewrite A in E. destruct a; try discriminate E. exact (P _ eq_refl).
  - cbn [finish] in E. rewrite A in E. destruct a; try discriminate E. rewrite (P _ eq_refl) in E. discriminate E.
  - each X; cbn [finish] in E; rewrite A in E; destruct a; try discriminate E; unfold mk_item in E; rewrite (P _ eq_refl) in E; discriminate E.
Qed.

(** ** The texts *)
Lemma required_known c k : required c k -> forall n, k <> KAbsent n.
Proof.
  intros R n ->. inversion R as [c' k' X K|c' X E|c' X E| |c' k' X K|c' X| |c' X| | | |c' X]; subst; cbn in K; repeat destruct K as [K|K]; try discriminate; contradiction.
Qed.
Lemma size_same a a' s : size_text a = Some s -> size_text a' = Some s -> (exists z, num a = Ok z /\ z mod 8 <> 0) -> (exists z, num a' = Ok z /\ z mod 8 <> 0) -> a = a'.
Proof.
  assert (T : forall z, str_of_Z z <> lit "True").
  { intros z E. pose proof (str_chars z) as F. rewrite E in F. strings. inv F. unfold digit in *. lia. }
  assert (B : forall a z, num a = Ok z -> z mod 8 <> 0 -> (exists y, a = AInt y) \/ a = ABool true).
  { intros b z Z M. destruct b as [|y|[]| | | | | |]; try discriminate Z; [eauto|auto|]. injection Z as <-. exfalso. apply M. reflexivity. }
  intros H H' (z & Z & M) (z' & Z' & M').
  destruct (B _ _ Z M) as [(y & ->) | ->], (B _ _ Z' M') as [(y' & ->) | ->]; try reflexivity; cbn [size_text] in H, H';
    repeat match goal with H : context [long_int ?y] |- _ => destruct (long_int y); [discriminate|] end;
    apply some_inj in H, H'; subst s.
  - apply str_same in H'. subst. reflexivity.
  - exfalso. symmetry in H'. exact (T _ H').
  - exfalso. exact (T _ H').
Qed.
Lemma key_same absent k k' : other_names absent -> key_text absent k = key_text absent k' -> k = k'.
Proof.
  intros (I & O) E.
  destruct k as [| | | | | | | | | | | | | | | | |n]; destruct k' as [| | | | | | | | | | | | | | | | |n'];
    try reflexivity;
    try (exfalso; symmetry in E; apply O in E; destruct E as (? & E); discriminate E);
    try (exfalso; apply O in E; destruct E as (? & E); discriminate E);
    try (exfalso; cbn [key_text] in E; strings; discriminate E).
  cbn [key_text] in E. f_equal. exact (I _ _ E).
Qed.
Theorem fault_text_same absent c name kw kw' f f' x : other_names absent -> amiss c kw f -> amiss c kw' f' ->
  fault_text absent c name f = Some x -> fault_text absent c name f' = Some x ->
  f = f' \/ is_encoder_class c = false /\ exists a a', f = NotBytes a /\ f' = NotBytes a'.
Proof.
  intros O A A' H H'.
  assert (W : forall kw k, amiss c kw (Missing k) -> forall n, k <> KAbsent n).
  { intros kw0 k B. inv B. apply (required_known c). assumption. }
  assert (V : forall kw a, amiss c kw (NotBytes a) -> exists z, num a = Ok z /\ z mod 8 <> 0).
  { intros kw0 a B. inv B. eauto. }
  destruct f as [k|k|a| | | |e]; [| | | | | |discriminate H]; destruct f' as [k'|k'|a'| | | |e']; try discriminate H'; try (left; reflexivity).
  all: try match type of A with amiss _ _ (Missing ?k) => pose proof (W _ _ A) as P; destruct k; try (exfalso; exact (P _ eq_refl)) end.
  all: try match type of A' with amiss _ _ (Missing ?k) => pose proof (W _ _ A') as P'; destruct k; try (exfalso; exact (P' _ eq_refl)) end.
  all: try (left; reflexivity).
  1: { cbn [fault_text] in H, H'. apply some_inj in H, H'. subst x. apply app_inv_head in H'. left. f_equal.
       apply app_inv_tail in H'. symmetry. exact (key_same _ _ _ O H'). }
  all: try match goal with |- NotBytes ?a = NotBytes ?a' \/ _ => cbn [fault_text] in H, H'; destruct (is_encoder_class c);
       [left; destruct (size_text a) as [s|] eqn:S; [|discriminate H]; destruct (size_text a') as [s'|] eqn:S'; [|discriminate H'];
        cbn [option_map] in H, H'; apply some_inj in H, H'; subst x; apply app_inv_head, app_inv_tail in H'; subst s';
        f_equal; exact (size_same _ _ _ S S' (V _ _ A) (V _ _ A'))
       |right; eauto] end.
  all: exfalso; cbn [fault_text key_text] in H, H'; destruct (is_encoder_class c);
    try match goal with H : option_map _ (size_text ?a) = Some _ |- _ => destruct (size_text a); [|discriminate H]; cbn [option_map] in H end;
    apply some_inj in H, H'; subst x; strings; discriminate H'.
Qed.

(** ** Which keyword, and what is set *)
Lemma set_first c kw : forall o k, set_kwargs_told c kw o = Faulty (Unknown k) ->
  exists before a after, kw = before ++ (k, a) :: after /\ ~ named c k /\ Forall (fun p => named c (fst p)) before.
Proof.
  induction kw as [|(k0, a0) kw IH]; intros o k H; [discriminate|]. cbn [set_kwargs_told] in H. destruct (class_attr c k0) as [a1|] eqn:E.
  - destruct (IH _ _ H) as (b & a & r & -> & N & F). exists ((k0, a0) :: b), a, r. split; [reflexivity|]. split; [exact N|].
    constructor; [apply attr_named; cbn; congruence|exact F].
  - injection H as <-. exists [], a0, kw. split; [reflexivity|]. split; [apply named_attr, E|constructor].
Qed.
Theorem unknown_first c kw k : In k (map fst kw) -> ~ named c k ->
  exists k' before a after, construct_told c kw = Faulty (Unknown k') /\ kw = before ++ (k', a) :: after /\ ~ named c k' /\ Forall (fun p => named c (fst p)) before.
Proof.
  intros I N. destruct (set_unknown c kw (fresh c) k I (proj2 (named_attr c k) N)) as (f & E). destruct (set_faulty _ _ _ _ E) as (k' & -> & _ & _).
  destruct (set_first _ _ _ _ E) as (b & a & r & A & B & C). exists k', b, a, r. unfold construct_told. rewrite E. auto.
Qed.
Lemma finish_at c o o' k : finish c o = Ok o' -> ~ In k [KIsDynamic; KDecoders; KItemDecoder] -> o' k = o k.
Proof.
  intros H N.
  assert (P : forall o a b, In b [KIsDynamic; KDecoders; KItemDecoder] -> setattr o b a k = o k).
  { intros q a b I. unfold setattr. destruct (key_eqb k b) eqn:E; [|reflexivity]. apply key_eqb_true in E. subst. contradiction. }
  destruct c; cbn [finish] in H; unfold mk_item, bind in H; repeat first [discriminate | (injection H as <-; rewrite ?P by (cbn; auto); reflexivity) | progress (dmh H)].
Qed.
Theorem made_has c kw o k : NoDup (map fst kw) -> construct c kw = Ok o -> named c k -> ~ In k [KIsDynamic; KDecoders; KItemDecoder] -> has c kw k (o k).
Proof.
  intros D H N K. rewrite <- told_same in H. destruct (construct_told c kw) as [o'|f] eqn:E; [|discriminate]. injection H as <-.
  unfold construct_told in E. apply bind_made in E. destruct E as (o1 & O & E). apply bind_made in E. destruct E as (u & _ & E). apply silently_made in E.
  rewrite (finish_at _ _ _ _ E K). apply (set_has _ _ _ D O). rewrite (named_default _ _ N). discriminate.
Qed.

(** ** Decoders do not show the size *)
Theorem size_not_shown : ~ forall absent c name kw kw' f f' x, other_names absent -> NoDup (map fst kw) -> NoDup (map fst kw') ->
  construct_told c kw = Faulty f -> construct_told c kw' = Faulty f' ->
  fault_text absent c name f = Some x -> fault_text absent c name f' = Some x -> f = f'.
Proof.
  intro H.
  assert (O : other_names (fun n => 33%N :: repeat 33%N (N.to_nat n))).
  { split.
    - intros n n' E. injection E as E. apply (f_equal (@length N)) in E. rewrite !repeat_length in E. lia.
    - intros n k E. destruct k; [..|eauto]; exfalso; cbn [key_text] in E; strings; discriminate E. }
  specialize (H _ NUIntDec (lit "UnsignedIntegerDecoder") [(KValueBitSize, AInt 9)] [(KValueBitSize, AInt 10)] (NotBytes (AInt 9)) (NotBytes (AInt 10))
    (lit "Invalid value bit size: {self.value_bit_size}. Must be a multiple of 8") O).
  assert (D : forall a : attr, NoDup (map fst [(KValueBitSize, a)])) by (intro; repeat constructor; intros []).
  specialize (H (D _) (D _) eq_refl eq_refl eq_refl eq_refl). discriminate H.
Qed.
