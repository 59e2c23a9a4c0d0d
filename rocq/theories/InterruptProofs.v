(** Proofs about calls that are cut short. *)
From Coq Require Import Strings.String Lia.
From Verif Require Import Tac Bytes Grammar Encoding Decoding Registry Codec Histories RegistrySpec CustomSpec Threads Interrupts InterruptSpec
  CacheProofs LookupProofs ApiProofs HistoryProofs HeapProofs RegistryProofs ThreadProofs ThreadLaws CustomProofs.
Open Scope Z_scope.

(** ** Stopping programs *)
Lemma halted_keeps {A} I P (p : prog A) : keeps_inv I P p -> forall n w, I w -> I (halted n p w).
Proof.
  induction p as [a|X s k IH]; intros K [|n] w H; try exact H. cbn [halted]. cbn [keeps_inv] in K. destruct (K w H) as [K1 K2].
  destruct (s w) as [x w']. apply IH; assumption.
Qed.
Lemma halted_quiet {A} (p : prog A) : quiet p -> forall n w, tabs (halted n p w) = tabs w.
Proof.
  induction p as [a|X s k IH]; intros Q [|n] w; try reflexivity. cbn [halted]. destruct Q as [Q1 Q2]. pose proof (Q1 w) as E. destruct (s w) as [x w'].
  rewrite (IH x (Q2 x)). exact E.
Qed.
Lemma halted_out {A B} (p : prog A) (c : A -> B) : forall n w, halted n (pbind p (fun a => Ret (c a))) w = halted n p w.
Proof. induction p as [a|X s k IH]; intros [|n] w; try reflexivity. cbn [pbind halted]. destruct (s w) as [x w']. apply IH. Qed.
Lemma halted_bind {A B} (p : prog A) (f : A -> prog B) : forall n w,
  halted n (pbind p f) w = halted n p w \/ exists n', halted n (pbind p f) w = halted n' (f (fst (exec p w))) (snd (exec p w)).
Proof.
  induction p as [a|X s k IH]; intros n w; [right; exists n; reflexivity|]. destruct n as [|n]; [left; reflexivity|]. cbn [pbind halted exec].
  destruct (s w) as [x w']. apply IH.
Qed.

(** ** What an update leaves behind *)
Section Lens.
Context {V : Type} (get : registry -> mapping V) (set : registry -> mapping V -> registry).
Hypothesis get_set : forall r m, get (set r m) = m.
Hypothesis set_set : forall r m m', set (set r m) m' = set r m'.
Hypothesis set_get : forall r, set r (get r) = r.
(** The tables an interrupted call can leave: as before, as after the call, or
    with one of the two writes of a labelled entry made. *)
Inductive part_register (m : mapping V) : lookup -> V -> option pystr -> mapping V -> Prop :=
| PR_none l v label : part_register m l v label m
| PR_done l v label : part_register m l v label (snd (base_register m l v label))
| PR_label l v label p s : has_pred m p = false -> has_label m s = false ->
    (l = LPred p /\ label = Some s \/ l = LStr s /\ p = mkPred (KEquals s) None) ->
    part_register m l v label (mkMapping (m_values m) (m_labels m ++ [(s, p)])).
Inductive part_unregister (m : mapping V) : lookup -> mapping V -> Prop :=
| PU_none l : part_unregister m l m
| PU_done l : part_unregister m l (snd (base_unregister m l))
| PU_label s s' p : find (fun lp => str_eqb (fst lp) s) (m_labels m) = Some (s', p) -> part_unregister m (LStr s) (mkMapping (m_values m) (del_label m s))
| PU_value p : has_pred m p = true -> part_unregister m (LPred p) (mkMapping (del_value m p) (m_labels m)).
Lemma halted_add p v label n r h : exists m', halted n (p_add get set p v label) (r, h) = (set r m', h)
  /\ (m' = get r \/ m' = snd (m_add (get r) p v label)
      \/ exists s, label = Some s /\ has_pred (get r) p = false /\ has_label (get r) s = false /\ m' = mkMapping (m_values (get r)) (m_labels (get r) ++ [(s, p)])).
Proof.
  assert (Zero : exists m', (r, h) = (set r m', h) /\ (m' = get r \/ m' = snd (m_add (get r) p v label)
    \/ exists s, label = Some s /\ has_pred (get r) p = false /\ has_label (get r) s = false /\ m' = mkMapping (m_values (get r)) (m_labels (get r) ++ [(s, p)])))
    by (exists (get r); rewrite set_get; auto).
  unfold p_add, m_add in *. destruct n as [|n]; [exact Zero|]. cbn [halted look fst]. destruct (has_pred (get r) p) eqn:T; [destruct n; exact Zero|].
  destruct label as [s|].
  - destruct n as [|n]; [exact Zero|]. cbn [halted look fst]. destruct (has_label (get r) s) eqn:L; [destruct n; exact Zero|].
    destruct n as [|n]; [exact Zero|]. cbn [halted]. unfold p_put at 1, on_reg. cbn [fst snd]. unfold put_label at 1. rewrite L.
    destruct n as [|n]; [cbn [halted]; eexists; split; [reflexivity|]; right; right; exists s; auto|].
    cbn [halted]. unfold p_put, on_reg. cbn [fst snd]. rewrite get_set, set_set. unfold put_value, has_pred. cbn [m_values m_labels]. fold (has_pred (get r) p). rewrite T.
    exists (mkMapping (m_values (get r) ++ [(p, v)]) (m_labels (get r) ++ [(s, p)])). split; [destruct n; reflexivity|right; left; reflexivity].
  - destruct n as [|n]; [exact Zero|]. cbn [halted]. unfold p_put, on_reg. cbn [fst snd]. unfold put_value. rewrite T.
    eexists. split; [destruct n; reflexivity|right; left; reflexivity].
Qed.
Lemma halted_register l v label n r h : exists m', halted n (p_register get set l v label) (r, h) = (set r m', h) /\ part_register (get r) l v label m'.
Proof.
  destruct l as [s|p|]; cbn [p_register].
  - destruct (halted_add (mkPred (KEquals s) None) v (Some s) n r h) as (m' & E & C). exists m'. split; [exact E|].
    destruct C as [->|[->|(s' & S & P & L & ->)]]; [apply PR_none|apply PR_done|]. inv S. apply PR_label; auto.
  - destruct (halted_add p v label n r h) as (m' & E & C). exists m'. split; [exact E|].
    destruct C as [->|[->|(s' & S & P & L & ->)]]; [apply PR_none|apply (PR_done _ (LPred p))|]. apply PR_label; auto.
  - exists (get r). split; [destruct n; cbn [halted]; rewrite set_get; reflexivity|apply PR_none].
Qed.
Lemma halted_unregister l n r h : exists m', halted n (p_unregister get set l) (r, h) = (set r m', h) /\ part_unregister (get r) l m'.
Proof.
  assert (Zero : exists m', (r, h) = (set r m', h) /\ part_unregister (get r) l m') by (exists (get r); rewrite set_get; split; [reflexivity|apply PU_none]).
  destruct l as [s|p|]; cbn [p_unregister]; [| |destruct n; exact Zero].
  - pose proof (PU_done (get r) (LStr s)) as Done. cbn [base_unregister] in Done. unfold p_remove_by_label, m_remove_by_label in *.
    destruct n as [|n]; [exact Zero|]. cbn [halted look fst]. pose proof (ThreadProofs.find_label (get r) s) as FL.
    destruct (find (fun lp => str_eqb (fst lp) s) (m_labels (get r))) as [[s' p]|] eqn:F; [|destruct n; exact Zero].
    destruct n as [|n]; [exact Zero|]. cbn [halted]. unfold p_del at 1, on_reg, drop_label at 1. cbn [fst snd]. rewrite FL.
    destruct n as [|n]; [cbn [halted]; eexists; split; [reflexivity|eapply PU_label; exact F]|].
    cbn [halted]. unfold p_del, on_reg, drop_value. cbn [fst snd]. rewrite get_set.
    destruct (has_pred _ p) eqn:P; cbn [snd] in Done; (eexists; split; [rewrite set_set; destruct n; reflexivity|exact Done]).
  - pose proof (PU_done (get r) (LPred p)) as Done. pose proof (exec_remove_by_equality get set get_set set_set set_get p r h) as Ex. cbn [base_unregister] in Done.
    unfold p_remove_by_equality in *. destruct n as [|n]; [exact Zero|]. cbn [halted exec] in *. unfold p_del at 1, on_reg at 1, drop_value at 1. unfold p_del at 1, on_reg at 1, drop_value at 1 in Ex.
    cbn [fst snd] in *. destruct (has_pred (get r) p) eqn:T; [|destruct n; cbn [halted]; rewrite set_get; exact Zero].
    set (m1 := mkMapping (del_value (get r) p) (m_labels (get r))) in *.
    assert (One : exists m', (set r m1, h) = (set r m', h) /\ part_unregister (get r) (LPred p) m') by (exists m1; split; [reflexivity|apply PU_value; exact T]).
    destruct n as [|n]; [exact One|]. cbn [halted look fst exec] in *.
    set (f := fun r0 : result (option pystr) => _) in *.
    destruct (exec_keeps _ _ (set r m1, h) (any_label_for (fun w => w = (set r m1, h)) get p (length (m_labels (get (set r m1)))) (length (m_labels (get (set r m1)))) 0)) as [_ B].
    destruct (halted_bind (p_label_for get p (length (m_labels (get (set r m1)))) (length (m_labels (get (set r m1)))) 0) f n (set r m1, h)) as [E|[n' E]].
    + rewrite E, (halted_keeps (fun w => w = (set r m1, h)) _ _ (any_label_for _ get p _ _ 0) n _ eq_refl). exact One.
    + rewrite E, B. rewrite exec_bind in Ex. destruct (exec (p_label_for get p _ _ 0) (set r m1, h)) as [x w]. cbn [fst snd] in *. subst w.
      destruct x as [[s|]|e]; subst f; cbn beta iota in *; [|destruct n'; exact One..].
      destruct n' as [|n']; [exact One|]. cbn [halted exec] in *. unfold p_del, on_reg in *. cbn [fst snd] in *. rewrite get_set in *.
      destruct (drop_label s m1) as [x m2]. cbn [exec] in Ex. rewrite set_set in *. unfold put_back in Ex.
      exists m2. split; [destruct n'; reflexivity|]. inversion Ex as [[E1 E2]]. apply (f_equal get) in E2. rewrite !get_set in E2. rewrite E2. exact Done.
Qed.
End Lens.

(** ** Calls *)
Definition partly (o : op) (r : registry) (me : mapping enc_reg) (md : mapping dec_reg) : Prop :=
  match o with
  | ORegisterEncoder l v label => part_register (r_encs r) l v label me /\ md = r_decs r
  | OUnregisterEncoder l => part_unregister (r_encs r) l me /\ md = r_decs r
  | ORegisterDecoder l v label => me = r_encs r /\ part_register (r_decs r) l v label md
  | OUnregisterDecoder l => me = r_encs r /\ part_unregister (r_decs r) l md
  | ORegister l e d label =>
      part_register (r_encs r) l e label me /\ md = r_decs r
      \/ base_register (r_encs r) l e label = (Ok tt, me) /\ part_register (r_decs r) l d label md
  | OUnregister l =>
      part_unregister (r_encs r) l me /\ md = r_decs r
      \/ base_unregister (r_encs r) l = (Ok tt, me) /\ part_unregister (r_decs r) l md
  | _ => me = r_encs r /\ md = r_decs r
  end.
(** A cache is empty or nothing it depends on has changed. *)
Definition safe (r r' : registry) : Prop :=
  (r_encs r' = r_encs r /\ r_ecache r' = r_ecache r \/ r_ecache r' = []) /\ (r_decs r' = r_decs r /\ r_dcache r' = r_dcache r \/ r_dcache r' = []).
Lemma safe_refl r : safe r r.
Proof. split; left; split; reflexivity. Qed.
Lemma halted_update_e (P : mapping enc_reg -> mapping enc_reg -> Prop) q r h n :
  (forall n r h, exists m', halted n q (r, h) = (set_encs r m', h) /\ P (r_encs r) m') ->
  halted n (p_update_e q) (r, h) = (r, h) \/ exists m', halted n (p_update_e q) (r, h) = (set_encs (set_ecache r []) m', h) /\ P (r_encs r) m'.
Proof.
  intro H. destruct n as [|n]; [left; reflexivity|]. right. unfold p_update_e. cbn [halted]. unfold p_clear_e, on_reg. cbn [fst snd]. apply (H n (set_ecache r []) h).
Qed.
Lemma halted_update_d (P : mapping dec_reg -> mapping dec_reg -> Prop) q r h n :
  (forall n r h, exists m', halted n q (r, h) = (set_decs r m', h) /\ P (r_decs r) m') ->
  halted n (p_update_d q) (r, h) = (r, h) \/ exists m', halted n (p_update_d q) (r, h) = (set_decs (set_dcache r []) m', h) /\ P (r_decs r) m'.
Proof.
  intro H. destruct n as [|n]; [left; reflexivity|]. right. unfold p_update_d. cbn [halted]. unfold p_clear_d, on_reg. cbn [fst snd]. apply (H n (set_dcache r []) h).
Qed.
Lemma halted_both (P : mapping enc_reg -> mapping enc_reg -> Prop) (Q : mapping dec_reg -> mapping dec_reg -> Prop) (F : mapping enc_reg -> result unit * mapping enc_reg) p q r h n :
  (forall n r h, exists m', halted n p (r, h) = (set_encs r m', h) /\ P (r_encs r) m') ->
  (forall r h, exec p (r, h) = put_back set_encs h r (F (r_encs r))) -> (forall m, P m m) -> (forall m, P m (snd (F m))) ->
  (forall n r h, exists m', halted n q (r, h) = (set_decs r m', h) /\ Q (r_decs r) m') -> (forall m, Q m m) ->
  exists r', halted n (p_both p q) (r, h) = (r', h) /\ safe r r'
    /\ (P (r_encs r) (r_encs r') /\ r_decs r' = r_decs r \/ F (r_encs r) = (Ok tt, r_encs r') /\ Q (r_decs r) (r_decs r')).
Proof.
  intros Hp Ex P0 P1 Hq Q0. unfold p_both. destruct (halted_bind (p_update_e p) (fun x => match x with Ok _ => p_update_d q | Err e => Ret (Err e) end) n (r, h)) as [E|[n' E]]; rewrite E; clear E.
  - destruct (halted_update_e P p r h n Hp) as [->|(m' & -> & H)]; [exists r; split; [reflexivity|]; split; [apply safe_refl|auto]|].
    eexists. split; [reflexivity|]. split; [split; [right|left]; auto|]. left. split; [exact H|reflexivity].
  - unfold p_update_e. cbn [exec]. unfold p_clear_e, on_reg. cbn [fst snd]. rewrite Ex. unfold put_back. cbn [fst snd set_ecache r_encs].
    pose proof (P1 (r_encs r)) as P1r. destruct (F (r_encs r)) as [[[]|e] m1] eqn:EF; cbn [fst snd] in *.
    + destruct (halted_update_d Q q (set_encs (set_ecache r []) m1) h n' Hq) as [->|(m' & -> & H)].
      * eexists. split; [reflexivity|]. split; [split; [right|left]; auto|]. right. split; [reflexivity|apply Q0].
      * eexists. split; [reflexivity|]. split; [split; right; reflexivity|]. right. split; [reflexivity|exact H].
    + exists (set_encs (set_ecache r []) m1). split; [destruct n'; reflexivity|]. split; [split; [right|left]; auto|]. left. split; [exact P1r|reflexivity].
Qed.
Lemma halted_reg_e l v label n r h : exists m', halted n (p_register r_encs set_encs l v label) (r, h) = (set_encs r m', h) /\ part_register (r_encs r) l v label m'.
Proof. apply halted_register; try reflexivity. intros []; reflexivity. Qed.
Lemma halted_reg_d l v label n r h : exists m', halted n (p_register r_decs set_decs l v label) (r, h) = (set_decs r m', h) /\ part_register (r_decs r) l v label m'.
Proof. apply halted_register; try reflexivity. intros []; reflexivity. Qed.
Lemma halted_unreg_e l n r h : exists m', halted n (p_unregister r_encs set_encs l) (r, h) = (set_encs r m', h) /\ part_unregister (r_encs r) l m'.
Proof. apply halted_unregister; try reflexivity. intros []; reflexivity. Qed.
Lemma halted_unreg_d l n r h : exists m', halted n (p_unregister r_decs set_decs l) (r, h) = (set_decs r m', h) /\ part_unregister (r_decs r) l m'.
Proof. apply halted_unregister; try reflexivity. intros []; reflexivity. Qed.
Lemma interrupted_update n o r h : updates o = true ->
  exists r', interrupted n o (r, h) = (r', h) /\ safe r r' /\ partly o r (r_encs r') (r_decs r').
Proof.
  intro U. unfold interrupted. destruct o; try discriminate U; cbn [prog_of partly]; rewrite halted_out.
  - destruct (halted_update_e (fun m m' => part_register m l v label m') _ r h n (halted_reg_e l v label)) as [->|(m' & -> & H)].
    + exists r. split; [reflexivity|]. split; [apply safe_refl|]. split; [apply PR_none|reflexivity].
    + eexists. split; [reflexivity|]. split; [split; [right|left]; auto|]. split; [exact H|reflexivity].
  - destruct (halted_update_e (fun m m' => part_unregister m l m') _ r h n (halted_unreg_e l)) as [->|(m' & -> & H)].
    + exists r. split; [reflexivity|]. split; [apply safe_refl|]. split; [apply PU_none|reflexivity].
    + eexists. split; [reflexivity|]. split; [split; [right|left]; auto|]. split; [exact H|reflexivity].
  - destruct (halted_update_d (fun m m' => part_register m l v label m') _ r h n (halted_reg_d l v label)) as [->|(m' & -> & H)].
    + exists r. split; [reflexivity|]. split; [apply safe_refl|]. split; [reflexivity|apply PR_none].
    + eexists. split; [reflexivity|]. split; [split; [left|right]; auto|]. split; [reflexivity|exact H].
  - destruct (halted_update_d (fun m m' => part_unregister m l m') _ r h n (halted_unreg_d l)) as [->|(m' & -> & H)].
    + exists r. split; [reflexivity|]. split; [apply safe_refl|]. split; [reflexivity|apply PU_none].
    + eexists. split; [reflexivity|]. split; [split; [left|right]; auto|]. split; [reflexivity|exact H].
  - apply (halted_both (fun m m' => part_register m l e label m') (fun m m' => part_register m l d label m') (fun m => base_register m l e label)).
    + apply halted_reg_e.
    + intros. apply exec_register; try reflexivity. intros []; reflexivity.
    + intro. apply PR_none.
    + intro. apply PR_done.
    + apply halted_reg_d.
    + intro. apply PR_none.
  - apply (halted_both (fun m m' => part_unregister m l m') (fun m m' => part_unregister m l m') (fun m => base_unregister m l)).
    + apply halted_unreg_e.
    + intros. apply exec_unregister; try reflexivity. intros []; reflexivity.
    + intro. apply PU_none.
    + intro. apply PU_done.
    + apply halted_unreg_d.
    + intro. apply PU_none.
Qed.
Lemma safe_caches r r' : safe r r' -> caches_ok r -> caches_ok r'.
Proof.
  intros [He Hd] [Ce Cd]. split.
  - destruct He as [[E C]|E]; [|apply ecache_nil; exact E]. intros ts e. rewrite E, C. apply Ce.
  - destruct Hd as [[E C]|E]; [|apply dcache_nil; exact E]. intros ts k d. rewrite E, C. apply Cd.
Qed.
Lemma query_updates o : query o <-> updates o = false.
Proof. destruct o; cbn; intuition discriminate. Qed.
Lemma updates_parts o : updates o = false -> changes_encoders o = false /\ changes_decoders o = false.
Proof. unfold updates. apply orb_false_iff. Qed.
Lemma interrupted_caches n o w : caches_ok (fst w) -> caches_ok (fst (interrupted n o w)).
Proof.
  intro C. destruct (updates o) eqn:U.
  - destruct w as [r h]. destruct (interrupted_update n o r h U) as (r' & -> & S & _). apply (safe_caches r r' S C).
  - destruct (updates_parts o U) as [Ue Ud]. split.
    + apply (halted_keeps _ _ _ (keeps_enc (r_encs (fst w)) o Ue) n w). split; [reflexivity|apply C].
    + apply (halted_keeps _ _ _ (keeps_dec (fst w) o Ud) n w). split; [reflexivity|apply C].
Qed.
Lemma interrupted_tables n o w : partly o (fst w) (r_encs (fst (interrupted n o w))) (r_decs (fst (interrupted n o w))).
Proof.
  destruct (updates o) eqn:U.
  - destruct w as [r h]. destruct (interrupted_update n o r h U) as (r' & -> & _ & P). exact P.
  - pose proof (halted_quiet _ (quiet_op o U) n w) as T. unfold tabs in T. unfold interrupted. injection T as -> ->. destruct o; try discriminate U; split; reflexivity.
Qed.
Lemma survivable_caches w : survivable w -> caches_ok (fst w).
Proof.
  induction 1 as [h|o w R IH|n o w R IH|w R IH]; [split; [apply ecache_nil|apply dcache_nil]; reflexivity|apply run_caches; exact IH|apply interrupted_caches; exact IH|].
  split; [apply ecache_nil|apply dcache_nil]; reflexivity.
Qed.

(** ** Nothing stale *)
Theorem never_stale ops w : survivable w -> unshared_registry (fst w) -> Forall unshared_op ops -> answers ops w = answers_uncached ops w.
Proof. intros R U F. apply answers_agree; [|exact U|exact F]. apply survivable_caches in R. repeat split; apply R. Qed.
Theorem lookups_never_stale w s k : survivable w ->
  fst (get_encoder s (fst w)) = fst (get_encoder s (forget (fst w)))
  /\ fst (get_decoder k s w) = fst (get_decoder k s (forget (fst w), []))
  /\ fst (has_encoder s (fst w)) = fst (has_encoder s (forget (fst w))).
Proof.
  intro R. apply survivable_caches in R. destruct R as [Ce Cd]. destruct (forget_caches (fst w)) as [Fe Fd]. repeat split.
  - destruct (get_encoder_pure _ s Ce) as (? & -> & _), (get_encoder_pure _ s Fe) as (? & -> & _). reflexivity.
  - destruct (get_decoder_pure w k s Cd) as (? & -> & _), (get_decoder_pure (forget (fst w), []) k s Fd) as (? & -> & _). reflexivity.
  - destruct (has_encoder_pure s _ Ce) as (? & -> & _), (has_encoder_pure s _ Fe) as (? & -> & _). reflexivity.
Qed.
Lemma interrupted_query n o w : query o -> same_registrations w (interrupted n o w).
Proof. intro Q. apply query_updates in Q. pose proof (halted_quiet _ (quiet_op o Q) n w) as T. unfold tabs in T. injection T as A B. split; assumption. Qed.
Lemma same_answers ops : forall w w', agree w w' -> unshared_registry (fst w) -> Forall unshared_op ops -> answers ops w = answers ops w'.
Proof.
  intros w w' A U F. rewrite (answers_agree ops w w' A U F). symmetry. destruct A as [[A B] [C C']].
  apply answers_agree; [repeat split; apply C'|unfold unshared_registry; rewrite B; exact U|exact F].
Qed.
Theorem lookup_harmless n o w ops : survivable w -> query o -> unshared_registry (fst w) -> Forall unshared_op ops ->
  same_registrations w (interrupted n o w) /\ answers ops (interrupted n o w) = answers ops w.
Proof.
  intros R Q U F. pose proof (interrupted_query n o w Q) as S. split; [exact S|]. symmetry. apply same_answers; [|exact U|exact F].
  split; [exact S|]. split; [apply survivable_caches; exact R|apply interrupted_caches, survivable_caches; exact R].
Qed.

(** ** All or nothing for lookups *)
Lemma find_values {V} (m m' : mapping V) x : m_values m = m_values m' -> m_find m x = m_find m' x.
Proof. intro H. unfold m_find. rewrite H. reflexivity. Qed.
Lemma mapM_same {A B} (f g : A -> result B) l : (forall x, f x = g x) -> mapM f l = mapM g l.
Proof. intro H. induction l as [|x l IH]; [reflexivity|]. cbn [mapM]. rewrite H, IH. reflexivity. Qed.
Lemma find_py_same {A} (f g : pystr -> result A) t : (forall s, f s = g s) -> find_py f t = find_py g t.
Proof. intro H. destruct t; cbn; auto. Qed.
Lemma enc_answer_values m m' q : m_values m = m_values m' -> enc_answer m q = enc_answer m' q.
Proof.
  intro H. assert (E : forall s, find_encoder m s = find_encoder m' s) by (intro s; apply find_encoder_local; intros; apply find_values; exact H).
  destruct q; cbn [enc_answer]; rewrite ?E; try reflexivity.
  - unfold pure_encode. destruct (validate_list_like_param types); [|reflexivity]. destruct (validate_list_like_param args); [|reflexivity]. cbn [bind].
    rewrite (mapM_same (find_py (find_encoder m)) (find_py (find_encoder m'))); [reflexivity|]. intro x. apply find_py_same. exact E.
  - unfold pure_is_encodable. rewrite (find_py_same _ _ typ E). reflexivity.
  - unfold pure_has. rewrite (find_py_same _ _ typ E). reflexivity.
Qed.
Lemma dec_answer_values m m' q : m_values m = m_values m' -> dec_answer m q = dec_answer m' q.
Proof.
  intro H. assert (E : forall k s, find_decoder m k s = find_decoder m' k s) by (intros k s; apply find_decoder_local; intros; apply find_values; exact H).
  destruct q; cbn [dec_answer]; rewrite ?E; try reflexivity.
  unfold pure_decode, pure_decoders. destruct (validate_list_like_param types); [|reflexivity]. destruct (validate_bytes_param data); [|reflexivity]. cbn [bind].
  rewrite (mapM_same (find_py (find_decoder m (Some strict))) (find_py (find_decoder m' (Some strict)))); [reflexivity|]. intro x. apply find_py_same. apply E.
Qed.
Lemma encodes_values w w' : caches_ok (fst w) -> caches_ok (fst w') -> m_values (r_encs (fst w')) = m_values (r_encs (fst w)) -> encodes_as w w'.
Proof.
  intros [C _] [C' _] E q U. rewrite (enc_answer_run q w U C), (enc_answer_run q w' U C'). apply enc_answer_values. exact E.
Qed.
Lemma decodes_values w w' : caches_ok (fst w) -> caches_ok (fst w') -> unshared_registry (fst w) -> m_values (r_decs (fst w')) = m_values (r_decs (fst w)) -> decodes_as w w'.
Proof.
  intros [_ C] [_ C'] U E q Uq. rewrite (dec_answer_run q w); [|destruct q; try discriminate Uq; [exact I|exact U]|exact C].
  rewrite (dec_answer_run q w'); [|destruct q; try discriminate Uq; [exact I|cbn [dec_exact]; unfold unshared_registry; rewrite E; exact U]|exact C'].
  apply dec_answer_values. exact E.
Qed.
Lemma part_register_values {V} (m : mapping V) l v label m' : part_register m l v label m' ->
  m_values m' = m_values m \/ m_values m' = m_values (snd (base_register m l v label)).
Proof. intro H. destruct H; auto. Qed.
Lemma part_unregister_values {V} (m : mapping V) l m' : part_unregister m l m' -> m_values m' = m_values m \/ m_values m' = m_values (snd (base_unregister m l)).
Proof.
  intro H. destruct H as [l|l|s s' p F|p P]; auto. right. cbn [base_unregister m_values]. unfold m_remove_by_equality. rewrite P.
  destruct (find _ _) as [[l q]|]; reflexivity.
Qed.
Lemma partly_values o r me md : partly o r me md -> forall h, let r1 := fst (snd (run o (r, h))) in
  m_values me = m_values (r_encs r) /\ m_values md = m_values (r_decs r)
  \/ m_values me = m_values (r_encs r1) /\ m_values md = m_values (r_decs r)
  \/ m_values me = m_values (r_encs r1) /\ m_values md = m_values (r_decs r1).
Proof.
  intros P h r1. subst r1. destruct o; cbn [partly run] in *; unfold on_registry; cbn [fst snd]; try (left; destruct P as [-> ->]; split; reflexivity).
  - destruct P as [P ->]. unfold register_encoder. cbn [set_ecache r_encs]. apply part_register_values in P. destruct (base_register _ _ _ _) as [x m]. cbn in *. intuition auto.
  - destruct P as [P ->]. unfold unregister_encoder. cbn [set_ecache r_encs]. apply part_unregister_values in P. destruct (base_unregister _ _) as [x m]. cbn in *. intuition auto.
  - destruct P as [-> P]. unfold register_decoder. cbn [set_dcache r_decs]. apply part_register_values in P. destruct (base_register _ _ _ _) as [x m]. cbn in *. intuition auto.
  - destruct P as [-> P]. unfold unregister_decoder. cbn [set_dcache r_decs]. apply part_unregister_values in P. destruct (base_unregister _ _) as [x m]. cbn in *. intuition auto.
  - unfold register, register_encoder. cbn [set_ecache r_encs]. destruct P as [[P ->]|[E P]].
    + apply part_register_values in P. destruct (base_register (r_encs r) l e label) as [[[]|x] m]; [|cbn in *; intuition auto].
      unfold register_decoder. cbn [set_encs set_ecache set_dcache r_decs]. destruct (base_register (r_decs r) l d label). cbn in *. intuition auto.
    + rewrite E. unfold register_decoder. cbn [set_encs set_ecache set_dcache r_decs]. apply part_register_values in P. destruct (base_register (r_decs r) l d label). cbn in *. intuition auto.
  - unfold unregister, unregister_encoder. cbn [set_ecache r_encs]. destruct P as [[P ->]|[E P]].
    + apply part_unregister_values in P. destruct (base_unregister (r_encs r) l) as [[[]|x] m]; [|cbn in *; intuition auto].
      unfold unregister_decoder. cbn [set_encs set_ecache set_dcache r_decs]. destruct (base_unregister (r_decs r) l). cbn in *. intuition auto.
    + rewrite E. unfold unregister_decoder. cbn [set_encs set_ecache set_dcache r_decs]. apply part_unregister_values in P. destruct (base_unregister (r_decs r) l). cbn in *. intuition auto.
Qed.
Theorem all_or_nothing n o w : survivable w -> unshared_registry (fst w) -> unshared_op o ->
  let old := w in let new := snd (run o w) in let mid := interrupted n o w in
  encodes_as old mid /\ decodes_as old mid \/ encodes_as new mid /\ decodes_as old mid \/ encodes_as new mid /\ decodes_as new mid.
Proof.
  intros R U Uo old new mid. subst old new mid. apply survivable_caches in R. pose proof (interrupted_caches n o w R) as C. pose proof (run_caches o w R) as C1.
  pose proof (run_unshared o w R U Uo) as U1. pose proof (partly_values o (fst w) _ _ (interrupted_tables n o w) (snd w)) as P. rewrite <- surjective_pairing in P. cbn zeta in P.
  destruct P as [[A B]|[[A B]|[A B]]]; [left|right; left|right; right]; (split; [apply encodes_values; assumption|apply decodes_values; assumption]).
Qed.

(** ** Starting over *)
Lemma undo_mapping {V} (m m' : mapping V) l v label s : held l -> label_of l label = Some s -> fst (base_register m l v label) = Ok tt ->
  part_register m l v label m' -> snd (base_unregister m' (LStr s)) = m.
Proof.
  intros Hl L Ok P. cbn [base_unregister].
  assert (Shape : exists p, real p /\ m_add m p v (Some s) = base_register m l v label).
  { destruct l as [s0|p|]; cbn [label_of base_register held] in *; [inv L; eexists; split; [apply equals_real|reflexivity]| |discriminate]. subst label.
    exists p. split; [apply held_real; exact Hl|reflexivity]. }
  destruct Shape as (p & Rp & E). rewrite <- E in Ok. destruct (m_add_cases m p v (Some s)) as [[E1 _]|(E1 & Hp & Hs)]; [rewrite E1 in Ok; discriminate Ok|].
  specialize (Hs s eq_refl). assert (Fresh : find (fun lp => str_eqb (fst lp) s) (m_labels m) = None).
  { pose proof (ThreadProofs.find_label m s) as F. rewrite Hs in F. destruct (find _ _); [discriminate|reflexivity]. }
  destruct P as [l v label|l v label|l v label p0 s0 P0 S0 C].
  - unfold m_remove_by_label. rewrite Fresh. reflexivity.
  - rewrite <- E. rewrite (add_remove_label m (snd (m_add m p v (Some s))) p v s Rp); [reflexivity|]. rewrite E1. reflexivity.
  - assert (s0 = s) as -> by (destruct C as [[-> ->]|[-> ->]]; cbn in L; congruence).
    unfold m_remove_by_label. cbn [m_labels m_values]. rewrite (find_fresh (fun lp => str_eqb (fst lp) s) (m_labels m) (s, p0) Hs (str_eqb_refl s)).
    unfold has_pred. cbn [m_values]. fold (has_pred m p0). rewrite P0. cbn [snd]. unfold del_label. cbn [m_labels].
    rewrite (del_fresh (fun lp => str_eqb (fst lp) s) (m_labels m) (s, p0) Hs (str_eqb_refl s)). destruct m; reflexivity.
Qed.
Lemma add_label_ok {V} (m : mapping V) l v label s : held l -> label_of l label = Some s -> fst (base_register m l v label) = Ok tt ->
  fst (base_unregister (snd (base_register m l v label)) (LStr s)) = Ok tt.
Proof.
  intros Hl L Ok. cbn [base_unregister]. destruct l as [s0|p|]; cbn [label_of base_register held] in *; [inv L|subst label|discriminate].
  - destruct (m_add m _ v (Some s)) as [x m'] eqn:E. cbn [fst snd] in *. subst x. rewrite (add_remove_label m m' _ v s (equals_real s None) E). reflexivity.
  - destruct (m_add m p v (Some s)) as [x m'] eqn:E. cbn [fst snd] in *. subst x. rewrite (add_remove_label m m' _ v s (held_real p Hl) E). reflexivity.
Qed.
Theorem undo_encoder n w l v label s : held l -> label_of l label = Some s -> fst (run (ORegisterEncoder l v label) w) = ADone (Ok tt) ->
  same_registrations w (snd (run (OUnregisterEncoder (LStr s)) (interrupted n (ORegisterEncoder l v label) w))).
Proof.
  intros Hl L E. pose proof (interrupted_tables n (ORegisterEncoder l v label) w) as [P D]. set (w' := interrupted _ _ _) in *. clearbody w'.
  cbn [run] in *. unfold on_registry, register_encoder, unregister_encoder in *. cbn [set_ecache r_encs] in *.
  pose proof (undo_mapping (r_encs (fst w)) (r_encs (fst w')) l v label s Hl L) as U.
  destruct (base_register (r_encs (fst w)) l v label) as [x m] eqn:B. cbn [fst] in E. inv E. specialize (U eq_refl P).
  destruct (base_unregister _ _) as [y m']. cbn [fst snd] in *. split; [exact U|exact D].
Qed.
Theorem undo_decoder n w l v label s : held l -> label_of l label = Some s -> fst (run (ORegisterDecoder l v label) w) = ADone (Ok tt) ->
  same_registrations w (snd (run (OUnregisterDecoder (LStr s)) (interrupted n (ORegisterDecoder l v label) w))).
Proof.
  intros Hl L E. pose proof (interrupted_tables n (ORegisterDecoder l v label) w) as [D P]. set (w' := interrupted _ _ _) in *. clearbody w'.
  cbn [run] in *. unfold on_registry, register_decoder, unregister_decoder in *. cbn [set_dcache r_decs] in *.
  pose proof (undo_mapping (r_decs (fst w)) (r_decs (fst w')) l v label s Hl L) as U.
  destruct (base_register (r_decs (fst w)) l v label) as [x m] eqn:B. cbn [fst] in E. inv E. specialize (U eq_refl P).
  destruct (base_unregister _ _) as [y m']. cbn [fst snd] in *. split; [exact D|exact U].
Qed.
Theorem undo_both n w l e d label s : held l -> label_of l label = Some s -> fst (run (ORegister l e d label) w) = ADone (Ok tt) ->
  same_registrations w (snd (run (OUnregister (LStr s)) (interrupted n (ORegister l e d label) w))).
Proof.
  intros Hl L E. pose proof (interrupted_tables n (ORegister l e d label) w) as P. set (w' := interrupted _ _ _) in *. clearbody w'. cbn [partly] in P.
  cbn [run] in *. unfold on_registry, register, unregister, register_encoder, unregister_encoder in *. cbn [set_ecache r_encs] in *.
  pose proof (undo_mapping (r_encs (fst w)) (r_encs (fst w')) l e label s Hl L) as Ue. pose proof (undo_mapping (r_decs (fst w)) (r_decs (fst w')) l d label s Hl L) as Ud.
  pose proof (add_label_ok (r_encs (fst w)) l e label s Hl L) as Ae. pose proof (PR_done (r_encs (fst w)) l e label) as De. pose proof (PR_none (r_decs (fst w)) l d label) as Nd.
  destruct (base_register (r_encs (fst w)) l e label) as [[[]|x] me] eqn:Be; [|discriminate E].
  unfold register_decoder, unregister_decoder in *. cbn [set_ecache set_encs set_dcache r_decs] in *.
  destruct (base_register (r_decs (fst w)) l d label) as [x md] eqn:Bd. cbn [fst snd] in *. inv E. specialize (Ae eq_refl).
  destruct P as [[Pe D]|[Pe Pd]].
  - specialize (Ue eq_refl Pe). rewrite D in *. specialize (Ud eq_refl Nd). destruct (base_unregister (r_encs (fst w')) (LStr s)) as [[[]|y] m1].
    + cbn [set_encs set_ecache r_decs]. rewrite D. destruct (base_unregister (r_decs (fst w)) (LStr s)) as [y m2]. cbn [fst snd] in *. split; assumption.
    + cbn [fst snd] in *. split; assumption.
  - injection Pe as Eq. rewrite <- Eq in *. specialize (Ue eq_refl De). specialize (Ud eq_refl Pd).
    destruct (base_unregister me (LStr s)) as [[[]|y] m1]; [|discriminate Ae]. cbn [set_encs set_ecache r_decs].
    destruct (base_unregister (r_decs (fst w')) (LStr s)) as [y m2]. cbn [fst snd] in *. split; assumption.
Qed.
(** Once the tables are as before, the call can be made again. *)
Theorem redo o w w' : updates o = true -> same_registrations w w' -> fst (run o w') = fst (run o w) /\ same_registrations (snd (run o w)) (snd (run o w')).
Proof.
  intros U [A B]. assert (T : tabs w = tabs w') by (unfold tabs; congruence). destruct (tabs_run o w w' T) as [T' F]. unfold tabs in T'. injection T' as A' B'.
  split; [|split; congruence]. destruct F as [F|[F _]]; [congruence|]. exfalso. destruct w as [r h]. destruct o; try discriminate U; cbn [run] in F; unfold on_registry in F; cbn [fst] in F.
  - destruct (register_encoder _ _ _ _). exact F.
  - destruct (unregister_encoder _ _). exact F.
  - destruct (register_decoder _ _ _ _). exact F.
  - destruct (unregister_decoder _ _). exact F.
  - destruct (register _ _ _ _ _). exact F.
  - destruct (unregister _ _). exact F.
Qed.

(** ** Finishing an interrupted removal *)
Lemma pred_eqb_cong p q x : pred_eqb p q = true -> pred_eqb x p = pred_eqb x q.
Proof.
  intro E. destruct (pred_eqb x p) eqn:A, (pred_eqb x q) eqn:B; try reflexivity.
  - rewrite (pred_eqb_trans x p q A E) in B. discriminate.
  - rewrite pred_eqb_sym in E. rewrite (pred_eqb_trans x q p B E) in A. discriminate.
Qed.
Lemma filter_twice {A} (f : A -> bool) l : filter f (filter f l) = filter f l.
Proof. induction l as [|x l IH]; [reflexivity|]. cbn. destruct (f x) eqn:E; [cbn; rewrite E, IH; reflexivity|exact IH]. Qed.
Lemma find_filtered {A} (f : A -> bool) l : find f (filter (fun x => negb (f x)) l) = None.
Proof. induction l as [|x l IH]; [reflexivity|]. cbn. destruct (f x) eqn:E; [exact IH|]. cbn. rewrite E. exact IH. Qed.
Lemma existsb_filtered {A} (f : A -> bool) l : existsb f (filter (fun x => negb (f x)) l) = false.
Proof. induction l as [|x l IH]; [reflexivity|]. cbn. destruct (f x) eqn:E; [exact IH|]. cbn. rewrite E. exact IH. Qed.
Section Finish.
Context {V : Type} (m : mapping V) (p p0 : pred) (s s' : pystr).
Hypothesis Hp : has_pred m p = true.
Hypothesis Hs : find (fun lp => str_eqb (fst lp) s) (m_labels m) = Some (s', p0).
Hypothesis Hp0 : pred_eqb p0 p = true.
Hypothesis Hl : forall l q, In (l, q) (m_labels m) -> pred_eqb q p = true -> l = s.
Definition half_gone (m' : mapping V) : Prop := (m_values m' = m_values m \/ m_values m' = del_value m p) /\ (m_labels m' = m_labels m \/ m_labels m' = del_label m s).
Lemma del_equal q : pred_eqb q p = true -> del_value m q = del_value m p.
Proof. intro E. unfold del_value. apply filter_ext. intros [x v]. cbn [fst]. rewrite (pred_eqb_cong q p x E). reflexivity. Qed.
Lemma has_equal q : pred_eqb q p = true -> has_pred m q = true.
Proof. intro E. rewrite <- Hp. unfold has_pred. induction (m_values m) as [|[x v] vs IH]; [reflexivity|]. cbn. rewrite IH, (pred_eqb_cong q p x E). reflexivity. Qed.
Lemma part_half l m' : l = LStr s \/ (exists q, pred_eqb q p = true /\ l = LPred q) -> part_unregister m l m' -> half_gone m'.
Proof.
  intros L P. destruct P as [l|l|s1 s2 q F|q P]; [split; left; reflexivity| |..].
  - destruct L as [->|(q & E & ->)]; cbn [base_unregister].
    + unfold m_remove_by_label. rewrite Hs. unfold has_pred, del_value. cbn [m_values]. fold (has_pred m p0). rewrite (has_equal p0 Hp0). cbn [snd m_values m_labels].
      fold (del_value m p0). rewrite (del_equal p0 Hp0). split; right; reflexivity.
    + unfold m_remove_by_equality. rewrite (has_equal q E), (del_equal q E). destruct (find (fun lp => pred_is (snd lp) q) (m_labels m)) as [[l x]|] eqn:F; cbn [snd m_values m_labels]; [|split; [right|left]; reflexivity].
      apply find_some in F. destruct F as [I F]. cbn [snd] in F. apply pred_is_eqb in F. rewrite (Hl l x I (pred_eqb_trans x q p F E)). split; right; reflexivity.
  - destruct L as [L|(q0 & _ & L)]; inv L. split; [left|right]; reflexivity.
  - destruct L as [L|(q0 & E & L)]; inv L. cbn [m_values m_labels]. unfold half_gone. cbn [m_values m_labels]. rewrite (del_equal q0 E). split; [right|left]; reflexivity.
Qed.
Lemma finish_mapping m' : half_gone m' -> snd (m_remove_by_label (snd (m_remove_by_equality m' p)) s) = mkMapping (del_value m p) (del_label m s).
Proof.
  intros [Vs Ls]. assert (N : forall q, In (s, q) (del_label m s) -> False).
  { intros q I. unfold del_label in I. apply filter_In in I. cbn [fst] in I. rewrite str_eqb_refl in I. destruct I as [_ I]. discriminate I. }
  assert (One : m_values (snd (m_remove_by_equality m' p)) = del_value m p /\ (m_labels (snd (m_remove_by_equality m' p)) = m_labels m \/ m_labels (snd (m_remove_by_equality m' p)) = del_label m s)).
  { unfold m_remove_by_equality. destruct (has_pred m' p) eqn:E.
    - assert (D : del_value m' p = del_value m p) by (unfold del_value at 1; destruct Vs as [->| ->]; [reflexivity|unfold del_value; apply filter_twice]).
      destruct (find (fun lp => pred_is (snd lp) p) (m_labels m')) as [[l x]|] eqn:F; cbn [snd m_values m_labels]; (split; [exact D|]); [|exact Ls].
      apply find_some in F. destruct F as [I F]. cbn [snd] in F. apply pred_is_eqb in F. unfold del_label at 1. right. destruct Ls as [Ls|Ls]; rewrite Ls in *.
      + rewrite (Hl l x I F). unfold del_label. rewrite Ls. reflexivity.
      + exfalso. assert (I' : In (l, x) (m_labels m)) by (unfold del_label in I; apply filter_In in I; apply I). rewrite (Hl l x I' F) in I. exact (N x I).
    - cbn [snd]. split; [|exact Ls]. destruct Vs as [Vs|Vs]; [|exact Vs]. unfold has_pred in *. rewrite Vs in E. congruence. }
  destruct (snd (m_remove_by_equality m' p)) as [vs ls]. cbn [m_values m_labels] in One. destruct One as [-> Ls']. unfold m_remove_by_label. cbn [m_values m_labels].
  destruct Ls' as [->| ->].
  - rewrite Hs. unfold has_pred. cbn [m_values]. assert (E : existsb (fun pv => pred_eqb (fst pv) p0) (del_value m p) = false).
    { rewrite <- (del_equal p0 Hp0). apply existsb_filtered. }
    rewrite E. reflexivity.
  - unfold del_label at 1. rewrite find_filtered. reflexivity.
Qed.
End Finish.
Lemma finish_entries {V} (es : list (entry V)) x s p l m' : distinct es -> In x es -> e_label x = Some s -> about p x = true ->
  l = LStr s \/ (exists q, pred_eqb q p = true /\ l = LPred q) -> part_unregister (mapping_of es) l m' ->
  snd (m_remove_by_label (snd (m_remove_by_equality m' p)) s) = mapping_of (filter (fun y => negb (labelled s y)) es).
Proof.
  intros D I L A Ho P. pose proof (RegistryProofs.find_label es s) as F. pose proof (remove_label_of es s D) as R. unfold m_remove_by_label, s_remove in R.
  assert (X : existsb (labelled s) es = true) by (apply existsb_exists; exists x; split; [exact I|unfold labelled; rewrite L; apply str_eqb_refl]). rewrite X in R.
  destruct (find (fun lp => str_eqb (fst lp) s) (m_labels (mapping_of es))) as [[s' p0]|] eqn:E; [|congruence]. destruct F as (x' & I' & L' & <-).
  assert (x' = x) as -> by (apply (distinct_label es x' x s D I' I L' L)).
  assert (Hp : has_pred (mapping_of es) p = true) by (rewrite has_pred_of; apply existsb_exists; exists x; split; assumption).
  assert (Hl : forall l q, In (l, q) (m_labels (mapping_of es)) -> pred_eqb q p = true -> l = s).
  { intros l0 q J Q. unfold mapping_of in J. cbn [m_labels] in J. apply in_flat_map in J. destruct J as (y & Jy & J). destruct (e_label y) as [ly|] eqn:Ly; [|destruct J].
    destruct J as [J|[]]. inv J. assert (y = x) as -> by (apply (distinct_pred es y x D Jy I); rewrite (pred_eqb_cong (e_pred x) p (e_pred y) A); exact Q). congruence. }
  rewrite (finish_mapping (mapping_of es) p (e_pred x) s s' Hp E A Hl m' (part_half (mapping_of es) p (e_pred x) s s' Hp E A Hl l m' Ho P)).
  unfold has_pred at 1 in R. cbn [m_values] in R. fold (has_pred (mapping_of es) (e_pred x)) in R. rewrite (has_equal (mapping_of es) p Hp (e_pred x) A) in R. injection R as R1 R2.
  rewrite <- (del_equal (mapping_of es) p (e_pred x) A). apply mapping_ext; assumption.
Qed.
Lemma run_remove_e w p s : let w' := after [OUnregisterEncoder (LPred p); OUnregisterEncoder (LStr s)] w in
  r_encs (fst w') = snd (m_remove_by_label (snd (m_remove_by_equality (r_encs (fst w)) p)) s) /\ r_decs (fst w') = r_decs (fst w).
Proof.
  cbn zeta. unfold after. cbn [fold_left run]. unfold on_registry, unregister_encoder. cbn [set_ecache r_encs base_unregister].
  destruct (m_remove_by_equality _ p) as [x m1]. cbn [fst snd set_encs r_encs set_ecache]. destruct (m_remove_by_label m1 s) as [y m2]. split; reflexivity.
Qed.
Lemma run_remove_d w p s : let w' := after [OUnregisterDecoder (LPred p); OUnregisterDecoder (LStr s)] w in
  r_decs (fst w') = snd (m_remove_by_label (snd (m_remove_by_equality (r_decs (fst w)) p)) s) /\ r_encs (fst w') = r_encs (fst w).
Proof.
  cbn zeta. unfold after. cbn [fold_left run]. unfold on_registry, unregister_decoder. cbn [set_dcache r_decs base_unregister].
  destruct (m_remove_by_equality _ p) as [x m1]. cbn [fst snd set_decs r_decs set_dcache]. destruct (m_remove_by_label m1 s) as [y m2]. split; reflexivity.
Qed.
Theorem finish_encoder n w st l x p s : represents w st -> fits st -> In x (fst st) -> e_label x = Some s -> about p x = true -> refers l p s ->
  represents (after [OUnregisterEncoder (LPred p); OUnregisterEncoder (LStr s)] (interrupted n (OUnregisterEncoder l) w)) (without s (fst st), snd st).
Proof.
  intros [Re Rd] [De Dd] I L A Ho. destruct (interrupted_tables n (OUnregisterEncoder l) w) as [P D]. rewrite Re in P. destruct (run_remove_e (interrupted n (OUnregisterEncoder l) w) p s) as [E1 E2].
  split; [rewrite E1; apply (finish_entries (fst st) x s p l); assumption|rewrite E2, D; exact Rd].
Qed.
Theorem finish_decoder n w st l x p s : represents w st -> fits st -> In x (snd st) -> e_label x = Some s -> about p x = true -> refers l p s ->
  represents (after [OUnregisterDecoder (LPred p); OUnregisterDecoder (LStr s)] (interrupted n (OUnregisterDecoder l) w)) (fst st, without s (snd st)).
Proof.
  intros [Re Rd] [De Dd] I L A Ho. destruct (interrupted_tables n (OUnregisterDecoder l) w) as [D P]. rewrite Rd in P. destruct (run_remove_d (interrupted n (OUnregisterDecoder l) w) p s) as [E1 E2].
  split; [rewrite E2, D; exact Re|rewrite E1; apply (finish_entries (snd st) x s p l); assumption].
Qed.
Theorem finish_both n w st l x y p s : represents w st -> fits st -> In x (fst st) -> In y (snd st) -> e_label x = Some s -> e_label y = Some s -> about p x = true -> about p y = true ->
  refers l p s ->
  represents (after [OUnregisterEncoder (LPred p); OUnregisterEncoder (LStr s); OUnregisterDecoder (LPred p); OUnregisterDecoder (LStr s)] (interrupted n (OUnregister l) w))
    (without s (fst st), without s (snd st)).
Proof.
  intros [Re Rd] [De Dd] Ix Iy Lx Ly Ax Ay Ho. pose proof (interrupted_tables n (OUnregister l) w) as P. set (w' := interrupted _ _ _) in *. clearbody w'. cbn [partly] in P. rewrite Re, Rd in P.
  assert (Pe : part_unregister (mapping_of (fst st)) l (r_encs (fst w'))).
  { destruct P as [[P _]|[P _]]; [exact P|]. rewrite <- (f_equal snd P : snd _ = r_encs (fst w')). apply PU_done. }
  assert (Pd : part_unregister (mapping_of (snd st)) l (r_decs (fst w'))) by (destruct P as [[_ ->]|[_ P]]; [apply PU_none|exact P]).
  change [OUnregisterEncoder (LPred p); OUnregisterEncoder (LStr s); OUnregisterDecoder (LPred p); OUnregisterDecoder (LStr s)]
    with ([OUnregisterEncoder (LPred p); OUnregisterEncoder (LStr s)] ++ [OUnregisterDecoder (LPred p); OUnregisterDecoder (LStr s)]).
  unfold after. rewrite fold_left_app. fold (after [OUnregisterEncoder (LPred p); OUnregisterEncoder (LStr s)] w').
  fold (after [OUnregisterDecoder (LPred p); OUnregisterDecoder (LStr s)] (after [OUnregisterEncoder (LPred p); OUnregisterEncoder (LStr s)] w')).
  destruct (run_remove_e w' p s) as [E1 E2]. destruct (run_remove_d (after [OUnregisterEncoder (LPred p); OUnregisterEncoder (LStr s)] w') p s) as [E3 E4].
  split; [rewrite E4, E1; apply (finish_entries (fst st) x s p l); assumption|rewrite E3, E2; apply (finish_entries (snd st) y s p l); assumption].
Qed.
Lemma halted_all {A} (p : prog A) : forall w, exists n, forall k, halted (n + k) p w = snd (exec p w).
Proof.
  induction p as [a|X s k IH]; intro w; [exists 0%nat; intros []; reflexivity|]. cbn [exec]. destruct (s w) as [x w'] eqn:E. destruct (IH x w') as [n H].
  exists (S n). intro j. cbn [Nat.add halted]. rewrite E. apply H.
Qed.
Theorem interrupted_late o w : interrupted 0 o w = w /\ exists n, forall k, interrupted (n + k) o w = snd (run o w).
Proof. split; [reflexivity|]. destruct (halted_all (prog_of o) w) as [n H]. exists n. intro k. unfold interrupted. rewrite H, prog_of_run. reflexivity. Qed.
Theorem reachable_survivable w : reachable w -> survivable w.
Proof. induction 1; [apply SV_new|apply SV_run; assumption|apply SV_copy; assumption]. Qed.
