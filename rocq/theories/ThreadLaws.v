(** Threads of which one changes registrations. *)
From Verif Require Import Tac Py Grammar Bytes Encoding Decoding Registry Codec Histories Threads RegistrySpec CacheProofs LookupProofs ApiProofs HistoryProofs HeapProofs ThreadProofs.
Open Scope Z_scope.

(** ** After an update on its own *)
Theorem update_heals o w : changes_encoders o = true -> ecache_ok (fst (snd (run o w))).
Proof.
  intro Ch. destruct o; try discriminate Ch; cbn [run]; unfold on_registry, register, unregister, register_encoder, unregister_encoder, register_decoder, unregister_decoder;
    cbn [set_ecache r_encs r_decs].
  - destruct (base_register _ l v label) as [x m]. apply ecache_nil. reflexivity.
  - destruct (base_unregister _ l) as [x m]. apply ecache_nil. reflexivity.
  - destruct (base_register _ l e label) as [[x|x] m]; [|apply ecache_nil; reflexivity]. cbn [set_dcache set_encs r_decs]. destruct (base_register _ l d label) as [y m']. apply ecache_nil; reflexivity.
  - destruct (base_unregister _ l) as [[x|x] m]; [|apply ecache_nil; reflexivity]. cbn [set_dcache set_encs r_decs].
    match goal with |- context [base_unregister ?a l] => destruct (base_unregister a l) as [y m'] end. apply ecache_nil; reflexivity.
Qed.
Theorem update_heals_d o w : changes_decoders o = true -> (changes_encoders o = true -> fst (run o w) = ADone (Ok tt)) -> dcache_ok (fst (snd (run o w))).
Proof.
  intros Ch S. destruct o; try discriminate Ch; cbn [run] in *; unfold on_registry, register, unregister, register_encoder, unregister_encoder, register_decoder, unregister_decoder in *;
    cbn [set_ecache set_dcache r_encs r_decs] in *; try specialize (S eq_refl).
  - destruct (base_register _ l v label) as [x m]. apply dcache_nil. reflexivity.
  - destruct (base_unregister _ l) as [x m]. apply dcache_nil. reflexivity.
  - destruct (base_register _ l e label) as [[x|x] m]; [|discriminate S]. cbn [set_dcache set_encs r_decs]. destruct (base_register _ l d label) as [y m']. apply dcache_nil; reflexivity.
  - destruct (base_unregister _ l) as [[x|x] m]; [|discriminate S]. cbn [set_dcache set_encs r_decs].
    match goal with |- context [base_unregister ?a l] => destruct (base_unregister a l) as [y m'] end. apply dcache_nil; reflexivity.
Qed.
Definition fresh_world (w : world) : world := (forget (fst w), snd w).
Theorem healed_encoders o w q : changes_encoders o = true -> uses_encoders q = true ->
  fst (run q (snd (run o w))) = fst (run q (fresh_world (snd (run o w)))).
Proof.
  intros Ch U. rewrite (enc_answer_run q _ U (update_heals o w Ch)), (enc_answer_run q _ U); [reflexivity|]. apply ecache_nil. reflexivity.
Qed.
Theorem healed_decoders o w q : changes_decoders o = true -> (changes_encoders o = true -> fst (run o w) = ADone (Ok tt)) -> dec_exact (fst (snd (run o w))) q ->
  fst (run q (snd (run o w))) = fst (run q (fresh_world (snd (run o w)))).
Proof.
  intros Ch S U. rewrite (dec_answer_run q _ U (update_heals_d o w Ch S)). symmetry. rewrite (dec_answer_run q (fresh_world (snd (run o w)))); [reflexivity| |apply dcache_nil; reflexivity].
  destruct q; try exact U; exact U.
Qed.

(** ** Properties of every step of a program *)
Fixpoint each {A} (S : forall X, (world -> X * world) -> Prop) (p : prog A) : Prop :=
  match p with
  | Ret _ => True
  | Step s k => S _ s /\ forall x, each S (k x)
  end.
Lemma each_bind {A B} S (p : prog A) (f : A -> prog B) : each S p -> (forall a, each S (f a)) -> each S (pbind p f).
Proof. intros Hp Hf. induction p as [a|X s k IH]; [apply Hf|]. destruct Hp as [H1 H2]. split; [exact H1|]. intro x. apply IH, H2. Qed.
Lemma each_seq {A B} S (g : A -> prog (result B)) l : (forall x, each S (g x)) -> each S (pseq g l).
Proof.
  intro H. induction l as [|x l IH]; [exact I|]. cbn [pseq]. apply each_bind; [apply H|]. intros [y|e]; [|exact I]. apply each_bind; [exact IH|]. intros [ys|e]; exact I.
Qed.
Definition tabs (w : world) : mapping enc_reg * mapping dec_reg := (r_encs (fst w), r_decs (fst w)).
Definition quiet_step (X : Type) (s : world -> X * world) : Prop := forall w, tabs (snd (s w)) = tabs w.
Definition tab_step (X : Type) (s : world -> X * world) : Prop :=
  forall w w', tabs w = tabs w' -> fst (s w) = fst (s w') /\ tabs (snd (s w)) = tabs (snd (s w')).
Notation quiet := (each quiet_step).
Notation by_tabs := (each tab_step).
(** *** Lookups leave the tables as they are *)
Lemma quiet_look {X} (f : registry -> X) : quiet_step X (look f).
Proof. intro w. reflexivity. Qed.
Lemma quiet_scan {V} (get : registry -> mapping V) ts n : forall todo i found, quiet (p_scan get ts n todo i found).
Proof.
  induction todo as [|t IH]; intros i found; (split; [apply quiet_look|]); intros [n' x]; destruct (Nat.eqb n' n); try exact I. destruct x as [[p v]|]; [|exact I]. destruct (pred_call p ts); [apply IH|exact I].
Qed.
Lemma quiet_registration {V} (get : registry -> mapping V) ts : quiet (p_get_registration get ts).
Proof.
  apply each_bind; [|intro; exact I]. split; [apply quiet_look|]. intro n. apply each_bind; [apply quiet_scan|intro; exact I].
Qed.
Lemma quiet_get_encoder_fuel fuel : forall ts, quiet (p_get_encoder_fuel fuel ts).
Proof.
  induction fuel as [|f IH]; intro ts; (split; [apply quiet_look|]); intros [e|]; try exact I. apply each_bind; [apply quiet_registration|]. intro reg. apply each_bind.
  - destruct reg as [[c|e]|e]; try exact I. destruct (enc_plan c ts) as [[l build]|e]; [|exact I]. apply each_bind; [apply each_seq; intro; apply IH|]. intros [es|e]; exact I.
  - intros [e|e]; [|exact I]. split; [intro; reflexivity|intro; exact I].
Qed.
Lemma quiet_get_decoder_fuel fuel : forall k ts, quiet (p_get_decoder_fuel fuel k ts).
Proof.
  induction fuel as [|f IH]; intros k ts; (split; [apply quiet_look|]); intros [d|]; try exact I. apply each_bind; [apply quiet_registration|]. intro reg. apply each_bind.
  - destruct reg as [[c|d]|e]; try exact I. destruct (dec_plan c ts) as [[l build]|e]; [|exact I]. apply each_bind; [apply each_seq; intro; apply IH|]. intros [ds|e]; exact I.
  - intros [d|e]; [|exact I]. split; [intro w; destruct (if dec_is_dyn d then _ else _); reflexivity|]. intro d'. split; [intro; reflexivity|intro; exact I].
Qed.
Lemma quiet_get_encoder_py t : quiet (p_get_encoder_py t).
Proof. destruct t; try exact I. apply quiet_get_encoder_fuel. Qed.
Lemma quiet_get_decoder_py k t : quiet (p_get_decoder_py k t).
Proof. destruct t; try exact I. apply quiet_get_decoder_fuel. Qed.
Lemma quiet_has_type t : quiet (p_is_encodable_type t).
Proof. destruct t; try exact I. apply each_bind; [apply quiet_get_encoder_fuel|intro; exact I]. Qed.
Definition updates (o : op) : bool := changes_encoders o || changes_decoders o.
Definition not_done (a : answer) : Prop := match a with ADone _ => False | _ => True end.
(** *** Updates look at nothing but the tables *)
Section Lens.
Context {V : Type} (get : registry -> mapping V) (set : registry -> mapping V -> registry).
Hypothesis get_tabs : forall w w', tabs w = tabs w' -> get (fst w) = get (fst w').
Hypothesis set_tabs : forall w w' m, tabs w = tabs w' -> tabs (set (fst w) m, snd w) = tabs (set (fst w') m, snd w').
Lemma tab_look {X} (f : mapping V -> X) : tab_step X (look (fun r => f (get r))).
Proof. intros w w' E. split; [cbn [look fst]; rewrite (get_tabs w w' E); reflexivity|exact E]. Qed.
Lemma tab_put f : tab_step _ (p_put get set f).
Proof. intros w w' E. split; [reflexivity|]. cbn [p_put on_reg snd]. unfold p_put, on_reg. cbn [snd]. rewrite (get_tabs w w' E). apply set_tabs. exact E. Qed.
Lemma tab_del f : tab_step _ (p_del get set f).
Proof.
  intros w w' E. unfold p_del, on_reg. rewrite (get_tabs w w' E). destruct (f (get (fst w'))) as [x m]. split; [reflexivity|]. apply set_tabs. exact E.
Qed.
Lemma tab_add p v label : by_tabs (p_add get set p v label).
Proof.
  split; [exact (tab_look (fun m => has_pred m p))|]. intros []; [exact I|]. destruct label as [l|]; [|split; [apply tab_put|intro; exact I]].
  split; [exact (tab_look (fun m => has_label m l))|]. intros []; [exact I|]. split; [apply tab_put|]. intro. split; [apply tab_put|intro; exact I].
Qed.
Lemma tab_label_for p n : forall todo i, by_tabs (p_label_for get p n todo i).
Proof.
  induction todo as [|t IH]; intro i; (split; [exact (tab_look (fun m => (length (m_labels m), nth_error (m_labels m) i)))|]); intros [n' x]; destruct (Nat.eqb n' n); try exact I.
  destruct x as [[l q]|]; [|exact I]. destruct (pred_is q p); [exact I|apply IH].
Qed.
Lemma tab_register l v label : by_tabs (p_register get set l v label).
Proof. destruct l; [apply tab_add|apply tab_add|exact I]. Qed.
Lemma tab_unregister l : by_tabs (p_unregister get set l).
Proof.
  destruct l as [s|p|]; [| |exact I].
  - split; [exact (tab_look (fun m => find (fun lp => str_eqb (fst lp) s) (m_labels m)))|]. intros [[l0 p]|]; [|exact I]. split; [apply tab_del|]. intros [u|e]; [|exact I]. split; [apply tab_del|intro; exact I].
  - split; [apply tab_del|]. intros [u|e]; [|exact I]. split; [exact (tab_look (fun m => length (m_labels m)))|]. intro n. apply each_bind; [apply tab_label_for|]. intros [[l|]|e]; try exact I.
    split; [apply tab_del|intro; exact I].
Qed.
End Lens.
Lemma get_encs_tabs w w' : tabs w = tabs w' -> r_encs (fst w) = r_encs (fst w').
Proof. intro E. exact (f_equal fst E). Qed.
Lemma get_decs_tabs w w' : tabs w = tabs w' -> r_decs (fst w) = r_decs (fst w').
Proof. intro E. exact (f_equal snd E). Qed.
Lemma set_encs_tabs w w' m : tabs w = tabs w' -> tabs (set_encs (fst w) m, snd w) = tabs (set_encs (fst w') m, snd w').
Proof. intro E. unfold tabs. cbn [fst set_encs r_encs r_decs]. rewrite (get_decs_tabs w w' E). reflexivity. Qed.
Lemma set_decs_tabs w w' m : tabs w = tabs w' -> tabs (set_decs (fst w) m, snd w) = tabs (set_decs (fst w') m, snd w').
Proof. intro E. unfold tabs. cbn [fst set_decs r_encs r_decs]. rewrite (get_encs_tabs w w' E). reflexivity. Qed.
Lemma tab_update_e p : by_tabs p -> by_tabs (p_update_e p).
Proof. intro H. split; [|intro; exact H]. intros w w' E. split; [reflexivity|exact E]. Qed.
Lemma tab_update_d p : by_tabs p -> by_tabs (p_update_d p).
Proof. intro H. split; [|intro; exact H]. intros w w' E. split; [reflexivity|exact E]. Qed.
Lemma update_by_tabs o : updates o = true -> by_tabs (prog_of o).
Proof.
  intro U. destruct o; try discriminate U; cbn [prog_of]; (apply each_bind; [|intro; exact I]).
  - apply tab_update_e, tab_register; [exact get_encs_tabs|exact set_encs_tabs].
  - apply tab_update_e, tab_unregister; [exact get_encs_tabs|exact set_encs_tabs].
  - apply tab_update_d, tab_register; [exact get_decs_tabs|exact set_decs_tabs].
  - apply tab_update_d, tab_unregister; [exact get_decs_tabs|exact set_decs_tabs].
  - apply each_bind; [apply tab_update_e, tab_register; [exact get_encs_tabs|exact set_encs_tabs]|]. intros [u|x]; [|exact I]. apply tab_update_d, tab_register; [exact get_decs_tabs|exact set_decs_tabs].
  - apply each_bind; [apply tab_update_e, tab_unregister; [exact get_encs_tabs|exact set_encs_tabs]|]. intros [u|x]; [|exact I]. apply tab_update_d, tab_unregister; [exact get_decs_tabs|exact set_decs_tabs].
Qed.

(** ** A program whose tables no other thread changes *)
Fixpoint undisturbed {A} (Q : mapping enc_reg * mapping dec_reg -> A -> Prop) (p : prog A) (T : mapping enc_reg * mapping dec_reg) : Prop :=
  match p with
  | Ret a => Q T a
  | Step s k => forall w, tabs w = T -> undisturbed Q (k (fst (s w))) (tabs (snd (s w)))
  end.
Lemma undisturbed_bind {A B} (P : _ -> A -> Prop) (Q : _ -> B -> Prop) p (f : A -> prog B) : forall T,
  undisturbed P p T -> (forall a T', P T' a -> undisturbed Q (f a) T') -> undisturbed Q (pbind p f) T.
Proof.
  induction p as [a|X s k IH]; intros T Hp Hf; [exact (Hf a T Hp)|]. cbn [pbind undisturbed] in *. intros w E. apply IH; [exact (Hp w E)|exact Hf].
Qed.
Lemma undisturbed_weaken {A} (P Q : _ -> A -> Prop) p : (forall T a, P T a -> Q T a) -> forall T, undisturbed P p T -> undisturbed Q p T.
Proof. intro H. induction p as [a|X s k IH]; intro T; [apply H|]. cbn [undisturbed]. intros Hp w E. apply IH. exact (Hp w E). Qed.
Lemma undisturbed_tabs {A} (p : prog A) : by_tabs p -> forall w, undisturbed (fun T a => a = fst (exec p w) /\ T = tabs (snd (exec p w))) p (tabs w).
Proof.
  induction p as [a|X s k IH]; intros H w; [split; reflexivity|]. destruct H as [H1 H2]. cbn [undisturbed exec]. intros w' E. destruct (H1 w' w E) as [E1 E2].
  rewrite E1, E2. destruct (s w) as [x w1]. apply IH. apply H2.
Qed.
Lemma undisturbed_quiet {A} (p : prog A) T : quiet p -> undisturbed (fun T' _ => T' = T) p T.
Proof. induction p as [a|X s k IH]; intro H; [reflexivity|]. destruct H as [H1 H2]. cbn [undisturbed]. intros w E. rewrite H1, E. apply IH. apply H2. Qed.
Lemma quiet_out o : updates o = false -> exists A (p : prog A) (c : A -> answer), prog_of o = pbind p (fun a => Ret (c a)) /\ quiet p /\ forall a, not_done (c a).
Proof.
  intro U. destruct o; try discriminate U; cbn [prog_of]; (eexists _, _, _; split; [reflexivity|split; [|intro; exact I]]).
  - apply quiet_get_encoder_fuel.
  - apply each_bind; [apply quiet_get_encoder_fuel|intro; exact I].
  - apply quiet_get_decoder_fuel.
  - unfold p_encode. destruct (validate_list_like_param types) as [ts|e]; [|exact I]. destruct (validate_list_like_param args); [|exact I].
    apply each_bind; [apply each_seq; intro; apply quiet_get_encoder_py|]. intros [es|e]; exact I.
  - unfold p_is_encodable. apply each_bind; [apply quiet_has_type|]. intros [[]|e]; try exact I. apply each_bind; [apply quiet_get_encoder_py|]. intros [e|e]; exact I.
  - apply quiet_has_type.
  - unfold p_decode. destruct (validate_list_like_param types) as [ts|e]; [|exact I]. destruct (validate_bytes_param data); [|exact I].
    apply each_bind; [apply each_seq; intro; apply quiet_get_decoder_py|]. intros [ds|e]; [|exact I]. split; [intro; reflexivity|intro; exact I].
Qed.
Lemma quiet_op o : updates o = false -> quiet (prog_of o).
Proof. intro U. destruct (quiet_out o U) as (A & p & c & -> & Q & _). apply each_bind; [exact Q|intro; exact I]. Qed.
Lemma quiet_thread ops : Forall (fun o => updates o = false) ops -> quiet (thread ops).
Proof. induction 1 as [|o ops U F IH]; [exact I|]. cbn [thread]. apply each_bind; [apply quiet_op; exact U|]. intro a. apply each_bind; [exact IH|intro; exact I]. Qed.
Lemma exec_quiet {A} (p : prog A) : quiet p -> forall w, tabs (snd (exec p w)) = tabs w.
Proof. induction p as [a|X s k IH]; intros H w; [reflexivity|]. destruct H as [H1 H2]. cbn [exec]. pose proof (H1 w) as E. destruct (s w) as [x w1]. rewrite (IH x (H2 x)). exact E. Qed.
Lemma undisturbed_op o w : undisturbed (fun T a => T = tabs (snd (run o w)) /\ (a = fst (run o w) \/ (not_done a /\ not_done (fst (run o w))))) (prog_of o) (tabs w).
Proof.
  destruct (updates o) eqn:U.
  - eapply undisturbed_weaken; [|apply undisturbed_tabs; apply update_by_tabs; exact U]. intros T a [-> ->]. rewrite prog_of_run. auto.
  - rewrite <- prog_of_run, (exec_quiet _ (quiet_op o U)). destruct (quiet_out o U) as (A & p & c & -> & Q & N). rewrite exec_out. cbn [fst].
    eapply undisturbed_bind; [apply undisturbed_quiet; exact Q|]. intros a T' ->. cbn [undisturbed]. auto.
Qed.
Lemma tabs_run o : forall w w', tabs w = tabs w' -> tabs (snd (run o w)) = tabs (snd (run o w')) /\ (fst (run o w) = fst (run o w') \/ (not_done (fst (run o w)) /\ not_done (fst (run o w')))).
Proof.
  intros w w' E. destruct (updates o) eqn:U.
  - rewrite <- !prog_of_run. assert (K : forall A (p : prog A), by_tabs p -> forall w w', tabs w = tabs w' -> fst (exec p w) = fst (exec p w') /\ tabs (snd (exec p w)) = tabs (snd (exec p w'))).
    { clear. induction p as [a|X s k IH]; intros H w w' E; [split; [reflexivity|exact E]|]. destruct H as [H1 H2]. cbn [exec]. destruct (H1 w w' E) as [E1 E2].
      destruct (s w) as [x w1], (s w') as [x' w1']. cbn [fst snd] in *. subst x'. apply IH; [apply H2|exact E2]. }
    destruct (K _ _ (update_by_tabs o U) w w' E). auto.
  - rewrite <- !prog_of_run, !(exec_quiet _ (quiet_op o U)). split; [exact E|right]. destruct (quiet_out o U) as (A & p & c & -> & Q & N). rewrite !exec_out. cbn [fst]. auto.
Qed.
Lemma tabs_after ops : forall w w', tabs w = tabs w' -> tabs (after ops w) = tabs (after ops w') /\ update_outcomes (answers ops w) = update_outcomes (answers ops w').
Proof.
  induction ops as [|o ops IH]; intros w w' E; [split; [exact E|reflexivity]|]. destruct (tabs_run o w w' E) as [E1 E2].
  change (after (o :: ops) w) with (after ops (snd (run o w))). change (after (o :: ops) w') with (after ops (snd (run o w'))). cbn [answers].
  destruct (run o w) as [a w1], (run o w') as [a' w1']. cbn [fst snd] in *. destruct (IH w1 w1' E1) as [F1 F2]. split; [exact F1|].
  destruct E2 as [->|[N N']]; [destruct a'; cbn [update_outcomes]; rewrite F2; reflexivity|]. destruct a, a'; try contradiction; exact F2.
Qed.
Lemma undisturbed_thread ops : forall w, undisturbed (fun T l => T = tabs (after ops w) /\ update_outcomes l = update_outcomes (answers ops w)) (thread ops) (tabs w).
Proof.
  induction ops as [|o ops IH]; intro w; [split; reflexivity|]. cbn [thread]. eapply undisturbed_bind; [apply undisturbed_op|]. intros a T [-> E].
  eapply undisturbed_bind; [apply IH|]. intros l T' [-> F]. cbn [undisturbed answers]. change (after (o :: ops) w) with (after ops (snd (run o w))). split; [reflexivity|].
  destruct (run o w) as [b w1]. cbn [fst snd] in *. destruct E as [->|[N N']]; [destruct b; cbn [update_outcomes]; rewrite F; reflexivity|]. destruct a, b; try contradiction; exact F.
Qed.

(** ** One writer *)
Lemma step_writer (Q : _ -> list answer -> Prop) i : forall j l p w,
  nth_error l i = Some p -> undisturbed Q p (tabs w) -> (forall j q, j <> i -> nth_error l j = Some q -> quiet q) ->
  let c := step_at j l w in
  exists p', nth_error (fst c) i = Some p' /\ undisturbed Q p' (tabs (snd c)) /\ (forall j q, j <> i -> nth_error (fst c) j = Some q -> quiet q).
Proof.
  intros j l. revert i j. induction l as [|x l IH]; intros i j p w N Al Qu; [destruct i; discriminate N|].
  destruct j as [|j].
  - destruct x as [a|X s k]; cbn [step_at].
    + exists p. repeat split; assumption.
    + destruct (s w) as [y w1] eqn:Es. cbn [fst snd]. destruct i as [|i].
      * inv N. exists (k y). split; [reflexivity|]. split; [specialize (Al w eq_refl); rewrite Es in Al; exact Al|].
        intros [|j] q Hj Hq; [contradiction|]. exact (Qu (S j) q Hj Hq).
      * exists p. split; [exact N|]. pose proof (Qu 0%nat _ ltac:(discriminate) eq_refl) as [Q1 Q2]. split.
        -- specialize (Q1 w). rewrite Es in Q1. cbn [snd] in Q1. rewrite Q1. exact Al.
        -- intros [|j] q Hj Hq; [inv Hq; apply Q2|exact (Qu (S j) q Hj Hq)].
  - assert (E : step_at (S j) (x :: l) w = (x :: fst (step_at j l w), snd (step_at j l w))) by (destruct x; cbn [step_at]; destruct (step_at j l w); reflexivity).
    rewrite E. cbn [fst snd]. destruct i as [|i].
    + inv N. exists p. split; [reflexivity|].
      assert (K : forall l j w, (forall j q, nth_error l j = Some q -> quiet q) -> tabs (snd (step_at j l w)) = tabs w /\ forall j' q, nth_error (fst (step_at (A := list answer) j l w)) j' = Some q -> quiet q).
      { clear. induction l as [|x l IH]; intros j w H; [split; [reflexivity|]; destruct j; exact H|]. destruct j as [|j].
        - destruct x as [a|X s k]; cbn [step_at]; [split; [reflexivity|exact H]|]. destruct (H 0%nat _ eq_refl) as [Q1 Q2]. specialize (Q1 w). destruct (s w) as [y w1]. cbn [fst snd] in *.
          split; [exact Q1|]. intros [|j'] q Hq; [inv Hq; apply Q2|exact (H (S j') q Hq)].
        - assert (E : step_at (S j) (x :: l) w = (x :: fst (step_at j l w), snd (step_at j l w))) by (destruct x; cbn [step_at]; destruct (step_at j l w); reflexivity).
          rewrite E. cbn [fst snd]. destruct (IH j w (fun j q Hq => H (S j) q Hq)) as [A B]. split; [exact A|]. intros [|j'] q Hq; [exact (H 0%nat q Hq)|exact (B j' q Hq)]. }
      destruct (K l j w (fun j q Hq => Qu (S j) q ltac:(discriminate) Hq)) as [K1 K2]. split; [rewrite K1; exact Al|].
      intros [|j'] q Hj Hq; [contradiction|exact (K2 j' q Hq)].
    + destruct (IH i j p w N Al (fun j q Hj Hq => Qu (S j) q ltac:(congruence) Hq)) as (p' & A & B & C). exists p'. split; [exact A|]. split; [exact B|].
      intros [|j'] q Hj Hq; [exact (Qu 0%nat q Hj Hq)|]. apply (C j' q); [congruence|exact Hq].
Qed.
Theorem one_writer ts w sched i ops l : nth_error ts i = Some ops ->
  (forall j ops', j <> i -> nth_error ts j = Some ops' -> Forall (fun o => updates o = false) ops') ->
  let c := schedule sched (start_threads ts w) in finished c i l ->
  tabs (snd c) = tabs (after ops w) /\ update_outcomes l = update_outcomes (answers ops w).
Proof.
  intros Hi Hq c Hf.
  assert (K : forall sched c0 p, nth_error (fst c0) i = Some p -> undisturbed (fun T l => T = tabs (after ops w) /\ update_outcomes l = update_outcomes (answers ops w)) p (tabs (snd c0)) ->
    (forall j q, j <> i -> nth_error (fst c0) j = Some q -> quiet q) ->
    exists p', nth_error (fst (schedule sched c0)) i = Some p' /\ undisturbed (fun T l => T = tabs (after ops w) /\ update_outcomes l = update_outcomes (answers ops w)) p' (tabs (snd (schedule sched c0)))).
  { clear. induction sched as [|j sched IH]; intros c0 p N Al Qu; [exists p; split; assumption|].
    destruct (step_writer _ i j (fst c0) p (snd c0) N Al Qu) as (p' & A & B & C). exact (IH (step_at j (fst c0) (snd c0)) p' A B C). }
  destruct (K sched (start_threads ts w) (thread ops)) as (p' & A & B).
  - unfold start_threads. cbn [fst]. apply map_nth_error. exact Hi.
  - apply undisturbed_thread.
  - intros j q Hj N. unfold start_threads in N. cbn [fst] in N. destruct (nth_error ts j) as [ops'|] eqn:Ej.
    + rewrite (map_nth_error thread j ts Ej) in N. inv N. apply quiet_thread. exact (Hq j ops' Hj Ej).
    + apply nth_error_None in Ej. assert (H : nth_error (map thread ts) j = None) by (apply nth_error_None; rewrite map_length; exact Ej). congruence.
  - unfold finished in Hf. fold c in A, B. rewrite Hf in A. inv A. exact B.
Qed.
Theorem single_writer : forall ts w sched i ops l, nth_error ts i = Some ops ->
  (forall j ops', j <> i -> nth_error ts j = Some ops' -> Forall (fun o => changes_encoders o = false /\ changes_decoders o = false) ops') ->
  let c := schedule sched (start_threads ts w) in finished c i l ->
  r_encs (fst (snd c)) = r_encs (fst (after ops w)) /\ r_decs (fst (snd c)) = r_decs (fst (after ops w))
  /\ update_outcomes l = update_outcomes (answers ops w).
Proof.
  intros ts w sched i ops l Hi Hq c Hf. destruct (one_writer ts w sched i ops l Hi) as [A B]; [|exact Hf|].
  - intros j ops' Hj Ho. eapply Forall_impl; [|exact (Hq j ops' Hj Ho)]. intros o [E D]. unfold updates. rewrite E, D. reflexivity.
  - split; [exact (f_equal fst A)|]. split; [exact (f_equal snd A)|exact B].
Qed.
Theorem heals : forall ts w sched o q, let w1 := snd (schedule sched (start_threads ts w)) in let w2 := snd (run o w1) in
  (changes_encoders o = true -> uses_encoders q = true -> fst (run q w2) = fst (run q (forget (fst w2), snd w2)))
  /\ (changes_decoders o = true -> (changes_encoders o = true -> fst (run o w1) = ADone (Ok tt)) -> dec_exact (fst w2) q ->
      fst (run q w2) = fst (run q (forget (fst w2), snd w2))).
Proof. intros ts w sched o q w1 w2. split; [apply healed_encoders|apply healed_decoders]. Qed.
