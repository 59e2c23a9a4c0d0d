(** More laws of registration: the standard registries, both sides of every law,
    what a lookup answers after a registration, and histories that use register
    and unregister only. *)
From Coq Require Import Permutation Strings.String.
From Verif Require Import Tac Bytes Address Grammar Encoding Decoding Registry RaisingSpec Codec Histories RegistrySpec
  CacheProofs LookupProofs ApiProofs HistoryProofs HeapProofs RegistryProofs Objects ObjectProofs.
Open Scope Z_scope.

(** ** The standard registries as entry lists *)
Definition lookup_pred0 (l : lookup) : pred := match l with LPred p => p | _ => mkPred KHasArrlist None end.
Definition standard_entries (pk : bool) : spec_state :=
  if pk then (map (fun x => let '(l, e, lab) := x in mkEntry (lookup_pred0 l) (Some lab) (EClass e)) packed_registrations, [])
  else (map (fun x => let '(l, e, d, lab) := x in mkEntry (lookup_pred0 l) (Some lab) (EClass e)) default_registrations,
        map (fun x => let '(l, e, d, lab) := x in mkEntry (lookup_pred0 l) (Some lab) (DClass d)) default_registrations).
Definition apart_entries {V} (x y : entry V) : bool :=
  negb (pred_eqb (e_pred x) (e_pred y)) && match e_label x with None => true | Some l => negb (labelled l y) end.
Fixpoint distinctb {V} (es : list (entry V)) : bool :=
  match es with [] => true | x :: es' => forallb (apart_entries x) es' && pred_eqb (e_pred x) (e_pred x) && distinctb es' end.
Lemma distinctb_ok {V} (es : list (entry V)) : distinctb es = true -> distinct es.
Proof.
  induction es as [|x es IH]; intro H; [split; constructor|]. cbn in H. rewrite !andb_true_iff in H. destruct H as [[F R] H]. destruct (IH H) as [A B]. split.
  - constructor; [|exact A]. rewrite Forall_forall. intros y I. rewrite forallb_forall in F. specialize (F y I). unfold apart_entries in F.
    rewrite andb_true_iff, negb_true_iff in F. destruct F as [F1 F2]. split; [exact F1|]. destruct (e_label x) as [l|] eqn:L; [right|left; reflexivity].
    intro E. unfold labelled in F2. rewrite <- E, str_eqb_refl in F2. discriminate.
  - constructor; [exact R|exact B].
Qed.
Theorem standard_represents pk h : represents (standard_registry pk, h) (standard_entries pk) /\ fits (standard_entries pk).
Proof.
  split; [split; destruct pk; lazy; reflexivity|]. split; apply distinctb_ok; destruct pk; lazy; reflexivity.
Qed.
Theorem standard_paired : paired (standard_entries false).
Proof. reflexivity. Qed.

Theorem standard_reachable pk h : reachable (standard_registry pk, h).
Proof.
  pose (ops := if pk then map (fun x => let '(l, e, lab) := x in ORegisterEncoder l (EClass e) (Some lab)) packed_registrations
               else map (fun x => let '(l, e, d, lab) := x in ORegister l (EClass e) (DClass d) (Some lab)) default_registrations).
  replace (standard_registry pk, h) with (after ops (new_registry, h)); [apply reachable_after; constructor|]. destruct pk; lazy; reflexivity.
Qed.
Theorem used_reachable pk w : used pk w -> reachable w.
Proof. intros (ops & _ & ->). apply reachable_after, standard_reachable. Qed.

Lemma represents_unshared r h st : represents (r, h) st -> Forall (fun x => unshared (e_value x)) (snd st) -> unshared_registry r.
Proof.
  intros [_ E] F. cbn [fst] in E. unfold unshared_registry. rewrite E. cbn [mapping_of m_values]. rewrite Forall_map. exact F.
Qed.
Theorem standard_unshared pk : unshared_registry (standard_registry pk).
Proof.
  apply (represents_unshared _ [] (standard_entries pk)); [apply standard_represents|]. destruct pk; cbn; repeat (constructor; [exact I|]); constructor.
Qed.

(** ** Both sides *)
Lemma base_register_taken {V} (m : mapping V) l v label :
  match l with LPred p => has_pred m p = true \/ (exists s, label = Some s /\ has_label m s = true)
             | LStr s => has_pred m (mkPred (KEquals s) None) = true \/ has_label m s = true
             | LOther => False end ->
  base_register m l v label = (Err ValueError, m).
Proof.
  intro H. destruct l as [s|p|]; [| |contradiction]; cbn [base_register]; unfold m_add.
  - destruct H as [->| ->]; [reflexivity|]. destruct (has_pred _ _); reflexivity.
  - destruct H as [->|(s & -> & H)]; [reflexivity|]. rewrite H. destruct (has_pred _ _); reflexivity.
Qed.
Theorem register_taken_decoder w l v label :
  match l with LPred p => has_pred (r_decs (fst w)) p = true \/ (exists s, label = Some s /\ has_label (r_decs (fst w)) s = true)
             | LStr s => has_pred (r_decs (fst w)) (mkPred (KEquals s) None) = true \/ has_label (r_decs (fst w)) s = true
             | LOther => False end ->
  fst (run (ORegisterDecoder l v label) w) = ADone (Err ValueError) /\ same_registrations w (snd (run (ORegisterDecoder l v label) w)).
Proof.
  intro H. cbn [run]. unfold on_registry, register_decoder. cbn [set_dcache r_decs]. rewrite (base_register_taken _ l v label H). repeat split; reflexivity.
Qed.
Theorem register_unregister_label_decoder w w' p v l : pid p <> None -> run (ORegisterDecoder (LPred p) v (Some l)) w = (ADone (Ok tt), w') ->
  fst (run (OUnregisterDecoder (LStr l)) w') = ADone (Ok tt) /\ same_registrations w (snd (run (OUnregisterDecoder (LStr l)) w')).
Proof.
  intros Hp. cbn [run]. unfold on_registry, register_decoder, unregister_decoder. cbn [set_dcache r_decs base_register base_unregister].
  destruct (m_add (r_decs (fst w)) p v (Some l)) as [[[]|x] m'] eqn:E; intro H; inv H. cbn [fst set_decs set_dcache r_decs].
  rewrite (add_remove_label _ _ _ _ _ (held_real p Hp) E). repeat split; reflexivity.
Qed.
Theorem register_unregister_string_decoder w w' s v label : run (ORegisterDecoder (LStr s) v label) w = (ADone (Ok tt), w') ->
  fst (run (OUnregisterDecoder (LStr s)) w') = ADone (Ok tt) /\ same_registrations w (snd (run (OUnregisterDecoder (LStr s)) w')).
Proof.
  cbn [run]. unfold on_registry, register_decoder, unregister_decoder. cbn [set_dcache r_decs base_register base_unregister].
  destruct (m_add (r_decs (fst w)) (mkPred (KEquals s) None) v (Some s)) as [[[]|x] m'] eqn:E; intro H; inv H. cbn [fst set_decs set_dcache r_decs].
  rewrite (add_remove_label _ _ _ _ _ (equals_real s None) E). repeat split; reflexivity.
Qed.
(** A failing registration changes nothing, whatever happened before; so does a
    failing removal by matcher. *)
Definition one_table (o : op) : Prop :=
  match o with
  | ORegisterEncoder _ _ _ | ORegisterDecoder _ _ _ => True
  | OUnregisterEncoder l | OUnregisterDecoder l => match l with LStr _ => False | _ => True end
  | _ => False
  end.
Lemma base_register_err {V} (m : mapping V) l v label e : fst (base_register m l v label) = Err e -> snd (base_register m l v label) = m.
Proof.
  destruct l as [s|p|]; cbn [base_register]; [..|reflexivity].
  - destruct (m_add_cases m (mkPred (KEquals s) None) v (Some s)) as [[-> _]|[-> _]]; [reflexivity|discriminate].
  - destruct (m_add_cases m p v label) as [[-> _]|[-> _]]; [reflexivity|discriminate].
Qed.
Lemma remove_err {V} (m : mapping V) p e : fst (m_remove_by_equality m p) = Err e -> snd (m_remove_by_equality m p) = m.
Proof. unfold m_remove_by_equality. destruct (has_pred m p); [|reflexivity]. destruct (find _ _) as [[? ?]|]; discriminate. Qed.
Theorem one_table_atomic o w e : one_table o -> fst (run o w) = ADone (Err e) -> same_registrations w (snd (run o w)).
Proof.
  intro T. destruct o; try contradiction; cbn [run]; unfold on_registry, register_encoder, register_decoder, unregister_encoder, unregister_decoder;
    cbn [set_ecache set_dcache r_encs r_decs].
  - pose proof (base_register_err (r_encs (fst w)) l v label e) as B. destruct (base_register _ _ _ _) as [x m]. cbn [fst snd] in *. intro H. injection H as ->.
    rewrite (B eq_refl). split; reflexivity.
  - destruct l as [s|p|]; [contradiction| |split; reflexivity]. cbn [base_unregister]. pose proof (remove_err (r_encs (fst w)) p e) as B.
    destruct (m_remove_by_equality _ _) as [x m]. cbn [fst snd] in *. intro H. injection H as ->. rewrite (B eq_refl). split; reflexivity.
  - pose proof (base_register_err (r_decs (fst w)) l v label e) as B. destruct (base_register _ _ _ _) as [x m]. cbn [fst snd] in *. intro H. injection H as ->.
    rewrite (B eq_refl). split; reflexivity.
  - destruct l as [s|p|]; [contradiction| |split; reflexivity]. cbn [base_unregister]. pose proof (remove_err (r_decs (fst w)) p e) as B.
    destruct (m_remove_by_equality _ _) as [x m]. cbn [fst snd] in *. intro H. injection H as ->. rewrite (B eq_refl). split; reflexivity.
Qed.

(** ** What a lookup answers after a registration *)
(** The matcher a registration is made with. *)
Definition matcher (l : lookup) : option pred := match l with LPred p => Some p | LStr s => Some (mkPred (KEquals s) None) | LOther => None end.
Definition matches {V} (m : mapping V) (s : pystr) : Prop := exists pv, In pv (m_values m) /\ pred_call (fst pv) s = Done true.
Lemma hit_true p s : hit p s = true <-> pred_call p s = Done true.
Proof. unfold hit. destruct (pred_call p s) as [[]|]; split; congruence. Qed.
Lemma no_match_none {V} (m : mapping V) s : none_raises m s -> ~ matches m s -> m_scan (m_values m) s = Done [].
Proof.
  intros Q N. rewrite scan_spec, (proj2 (first_raise_none (m_values m) s) Q). f_equal.
  destruct (filter _ _) as [|pv l] eqn:E; [reflexivity|]. exfalso. apply N. exists pv. rewrite <- hit_true. apply (filter_In (fun pv => hit (fst pv) s)). rewrite E. left. reflexivity.
Qed.
Lemma match_some {V} (m : mapping V) s : none_raises m s -> matches m s -> exists x l, m_scan (m_values m) s = Done (x :: l).
Proof.
  intros Q (pv & I & H). rewrite scan_spec, (proj2 (first_raise_none (m_values m) s) Q). apply hit_true in H.
  assert (J : In (snd pv) (map snd (filter (fun pv => hit (fst pv) s) (m_values m)))) by (apply in_map, filter_In; auto).
  destruct (map snd _) as [|x l]; [contradiction|eauto].
Qed.
Definition twice (s : pystr) {V} : outcome V := Raised MultipleEntriesFound (Ok (contains (lit "No matching") s)).
Lemma base_register_find {V} (m m' : mapping V) l p v label s : matcher l = Some p -> base_register m l v label = (Ok tt, m') -> none_raises m s -> pred_call p s = Done true ->
  (~ matches m s -> m_find m' s = Done v) /\ (matches m s -> m_find m' s = twice s).
Proof.
  intros M H Q C. assert (E : exists lab, m_add m p v lab = (Ok tt, m')) by (destruct l; inv M; cbn in H; eauto). destruct E as (lab & E).
  unfold m_find. rewrite (add_scan m m' p v lab s E), C. split; intro N; [rewrite (no_match_none m s Q N); reflexivity|].
  destruct (match_some m s Q N) as (x & [|y k] & ->); reflexivity.
Qed.
(** The coder an entry gives for a type string, for entries that need no
    further lookups. *)
Definition direct_encoder (v : enc_reg) (s : pystr) : option (result encoder) :=
  match v with EInst e => Some (Ok e) | EClass c => enc_leaf_from_type_str c s end.
Lemma find_direct_encoder m s v e : m_find m s = Done v -> direct_encoder v s = Some e -> find_encoder m s = e.
Proof.
  intros F D. rewrite find_encoder_eq. unfold base_get_registration. rewrite F. cbn [reparsed]. destruct v as [c|i]; cbn in D; [|inv D; reflexivity].
  unfold enc_from_type_str. rewrite D. reflexivity.
Qed.
Lemma find_twice_encoder m s : m_find m s = twice s -> (forall e, find_encoder m s <> Ok e) /\ (forall t, parse s = Ok t -> find_encoder m s = Err MultipleEntriesFound).
Proof.
  intro F. rewrite find_encoder_eq. unfold base_get_registration. rewrite F. split.
  - intros e. cbn. destruct (contains _ _); [|discriminate]. destruct (parse s); discriminate.
  - intros t Ht. cbn. destruct (contains _ _); [rewrite Ht|]; reflexivity.
Qed.
Theorem register_lookup w w' l p v label s : reachable w -> matcher l = Some p -> run (ORegisterEncoder l v label) w = (ADone (Ok tt), w') ->
  none_raises (r_encs (fst w)) s -> pred_call p s = Done true ->
  (~ matches (r_encs (fst w)) s -> forall e, direct_encoder v s = Some e -> fst (get_encoder s (fst w')) = e)
  /\ (matches (r_encs (fst w)) s -> (forall e, fst (get_encoder s (fst w')) <> Ok e)
      /\ (forall t, parse s = Ok t -> fst (get_encoder s (fst w')) = Err MultipleEntriesFound)).
Proof.
  intros R M H Qt C. pose proof (R_run (ORegisterEncoder l v label) w R) as R'. rewrite H in R'. cbn [snd] in R'. apply reachable_caches in R'. destruct R' as [Ce _].
  cbn [run] in H. unfold on_registry, register_encoder in H. cbn [set_ecache r_encs] in H.
  destruct (base_register (r_encs (fst w)) l v label) as [x m] eqn:E. inv H. cbn [fst set_encs] in *.
  destruct (base_register_find _ _ l p v label s M E Qt C) as [A B].
  destruct (get_encoder_pure _ s Ce) as (? & G & _). rewrite G. cbn [fst set_ecache set_encs r_encs]. split.
  - intros N e D. exact (find_direct_encoder m s v e (A N) D).
  - intro N. exact (find_twice_encoder m s (B N)).
Qed.
Lemma find_twice_decoder m k s : m_find m s = twice s -> (forall d, find_decoder m k s <> Ok d) /\ (forall t, parse s = Ok t -> find_decoder m k s = Err MultipleEntriesFound).
Proof.
  intro F. rewrite find_decoder_eq. unfold base_get_registration. rewrite F. split.
  - intros e. cbn. destruct (contains _ _); [|discriminate]. destruct (parse s); discriminate.
  - intros t Ht. cbn. destruct (contains _ _); [rewrite Ht|]; reflexivity.
Qed.
(** The strict flag of the request is stored in the decoder, except that a
    registered instance keeps its own cell. *)
Definition flagged (b : bool) (d : decoder) : decoder :=
  match d with
  | DByteString (SConst _) => DByteString (SConst b)
  | DString (SConst _) h => DString (SConst b) h
  | DCustom true (SConst _) f => DCustom true (SConst b) f
  | _ => d
  end.
Definition direct_decoder (v : dec_reg) (strict : option bool) (s : pystr) : option (result decoder) :=
  let flag := flagged (match strict with Some b => b | None => true end) in
  match v with
  | DInst d => Some (Ok (flag d))
  | DClass c => match dec_leaf_from_type_str c s with Some (Ok d) => Some (Ok (flag d)) | r => r end
  end.
Lemma with_strict_flagged k d : with_strict k d = flagged (match k with Some b => b | None => true end) d.
Proof. unfold with_strict, strict_of. destruct d as [| | | | | | |[]|[]| | | | | |[] []]; cbn; try reflexivity; destruct k as [[]|]; try reflexivity; repeat (match goal with |- context[if ?x then _ else _] => destruct x end); reflexivity. Qed.
Lemma find_direct_decoder m k s v d : m_find m s = Done v -> direct_decoder v k s = Some d -> find_decoder m k s = d.
Proof.
  intros F D. rewrite find_decoder_eq. unfold base_get_registration. rewrite F. cbn [reparsed]. destruct v as [c|i]; cbn [direct_decoder] in D.
  - unfold dec_from_type_str. destruct (dec_leaf_from_type_str c s) as [[x|x]|]; inv D; cbn [fst]; [rewrite with_strict_flagged|]; reflexivity.
  - inv D. rewrite with_strict_flagged. reflexivity.
Qed.
Theorem register_lookup_decoder w w' l p v label k s : reachable w -> matcher l = Some p -> run (ORegisterDecoder l v label) w = (ADone (Ok tt), w') ->
  none_raises (r_decs (fst w)) s -> pred_call p s = Done true ->
  (~ matches (r_decs (fst w)) s -> forall d, direct_decoder v k s = Some d -> fst (get_decoder k s w') = d)
  /\ (matches (r_decs (fst w)) s -> (forall d, fst (get_decoder k s w') <> Ok d)
      /\ (forall t, parse s = Ok t -> fst (get_decoder k s w') = Err MultipleEntriesFound)).
Proof.
  intros R M H Qt C. pose proof (R_run (ORegisterDecoder l v label) w R) as R'. rewrite H in R'. cbn [snd] in R'. apply reachable_caches in R'. destruct R' as [_ Cd].
  cbn [run] in H. unfold on_registry, register_decoder in H. cbn [set_dcache r_decs] in H.
  destruct (base_register (r_decs (fst w)) l v label) as [x m] eqn:E. inv H.
  destruct (base_register_find _ _ l p v label s M E Qt C) as [A B].
  destruct (get_decoder_pure _ k s Cd) as (? & G & _). rewrite G. cbn [fst set_dcache set_decs r_decs]. split.
  - intros N d D. exact (find_direct_decoder m k s v d (A N) D).
  - intro N. exact (find_twice_decoder m k s (B N)).
Qed.

(** ** Histories *)
Lemma run_represents o w st : caches_ok (fst w) -> represents w st -> fits st -> disciplined_op o st ->
  represents (snd (run o w)) (snd (spec_update o st)) /\ fits (snd (spec_update o st)).
Proof.
  intros C R F D. destruct (query_dec o) as [Q|Q]; [|destruct (update_refines o w st Q R F D) as (_ & A & B); auto].
  destruct (query_same o w Q C) as [A B]. rewrite (spec_query o st Q). cbn [snd]. split; [destruct R; split; congruence|exact F].
Qed.
Theorem after_represents ops : forall w st, caches_ok (fst w) -> represents w st -> fits st -> disciplined ops st ->
  caches_ok (fst (after ops w)) /\ represents (after ops w) (spec_after ops st) /\ fits (spec_after ops st).
Proof.
  induction ops as [|o ops IH]; intros w st C R F D; [auto|]. destruct D as [Do D]. destruct (run_represents o w st C R F Do) as [R' F'].
  exact (IH (snd (run o w)) (snd (spec_update o st)) (run_caches o w C) R' F' D).
Qed.
Lemma paired_after ops : forall st, paired st -> Forall both_sided ops -> paired (spec_after ops st).
Proof. induction ops as [|o ops IH]; intros st P B; [exact P|]. inv B. apply (IH (snd (spec_update o st))); [apply paired_kept; assumption|assumption]. Qed.
(** Where a program starts: an empty registry, or a copy of a standard one. *)
Definition begins (r : registry) (st : spec_state) : Prop :=
  (r = new_registry /\ st = ([], [])) \/ exists pk, r = standard_registry pk /\ st = standard_entries pk.
Lemma begins_ok r st h : begins r st -> caches_ok r /\ represents (r, h) st /\ fits st.
Proof.
  intros [[-> ->]|(pk & -> & ->)].
  - split; [split; [apply ecache_nil|apply dcache_nil]; reflexivity|]. apply fresh_registry.
  - split; [|apply standard_represents]. destruct pk; (split; [apply ecache_nil|apply dcache_nil]; lazy; reflexivity).
Qed.
Theorem registry_is_entries r st h ops : begins r st -> disciplined ops st ->
  represents (after ops (r, h)) (spec_after ops st) /\ update_outcomes (answers ops (r, h)) = spec_outcomes ops st.
Proof. intros B D. destruct (begins_ok r st h B) as (C & R & F). exact (history_refines ops (r, h) st C R F D). Qed.
Theorem unregister_label_exact r st h ops s : begins r st -> disciplined ops st ->
  let w := after ops (r, h) in let es := fst (spec_after ops st) in
  fst (run (OUnregisterEncoder (LStr s)) w) = ADone (if existsb (labelled s) es then Ok tt else Err KeyError)
  /\ represents (snd (run (OUnregisterEncoder (LStr s)) w)) (filter (fun x => negb (labelled s x)) es, snd (spec_after ops st)).
Proof.
  intros B D w es. destruct (begins_ok r st h B) as (C & R & F). destruct (after_represents ops (r, h) st C R F D) as (_ & R' & F').
  destruct (update_refines (OUnregisterEncoder (LStr s)) w (spec_after ops st) (fun x => x) R' F' (conj I I)) as (A & S & _).
  cbn [spec_update s_unregister] in A, S. unfold on_encs, s_remove in A, S. fold es in A, S. cbn [fst snd] in A, S.
  destruct (existsb (labelled s) es) eqn:E; cbn [fst snd] in A, S; (split; [exact A|]); [exact S|].
  assert (K : filter (fun x => negb (labelled s x)) es = es); [|rewrite K; exact S].
  clear -E. induction es as [|x es IH]; [reflexivity|]. cbn in E |- *. apply orb_false_iff in E. destruct E as [-> E]. cbn. rewrite (IH E). reflexivity.
Qed.
Theorem both_sided_atomic r st h ops o e : begins r st -> r <> registry_packed -> Forall both_sided ops -> both_sided o -> disciplined (ops ++ [o]) st ->
  let w := after ops (r, h) in fst (run o w) = ADone (Err e) -> same_registrations w (snd (run o w)).
Proof.
  intros B N F Bo D w E. destruct (begins_ok r st h B) as (C & R & Fi).
  assert (P : paired st). { destruct B as [[-> ->]|(pk & -> & ->)]; [reflexivity|]. destruct pk; [exfalso; apply N; reflexivity|exact standard_paired]. }
  assert (Dd : disciplined ops st /\ disciplined_op o (spec_after ops st)).
  { clear -D. revert st D. induction ops as [|x ops IH]; intros st D; [split; [exact I|apply D]|]. destruct D as [Dx D]. destruct (IH _ D) as [A B]. split; [split; assumption|exact B]. }
  destruct Dd as [D1 D2]. destruct (after_represents ops (r, h) st C R Fi D1) as (C' & R' & F').
  assert (Q : ~ query o) by (intro Q; exact (query_answer o w (Err e) Q E)).
  apply (paired_atomic o w (spec_after ops st) e R' F' (paired_after ops st P F) D2); [|exact E]. clear -Bo Q. destruct o; cbn in *; tauto.
Qed.

(** ** Registry objects *)
Definition all_reachable (st : store) : Prop := forall i r, load st i = Some r -> exists h, reachable (r, h).
Lemma act_reachable a st : separated st -> all_reachable st -> all_reachable (snd (act a st)).
Proof.
  intros S A i r' L'. assert (Old : forall r, load st i = Some r -> exists h, reachable (r', h)).
  { intros r L. rewrite (act_load a st i r S L) in L'. injection L' as <-. destruct (A i r L) as (h & R).
    destruct a as [|j|j o]; cbn [ops_on flat_map app]; [exists h; exact R|exists h; exact R|]. destruct (Nat.eqb j i); cbn [app]; [|exists h; exact R].
    unfold alone. cbn [fold_left]. destruct (run_flagless o (r, []) (r, h) eq_refl) as [E _]. rewrite E. pose proof (R_run o (r, h) R) as R'.
    destruct (run o (r, h)) as [x [r1 h1]]. exists h1. exact R'. }
  assert (Lt : (i < length (st_regs st))%nat -> exists h, reachable (r', h)).
  { intro H. destruct S as [V _]. destruct (V i H) as (f & F & W). destruct (read_valid st f W) as (r & Hr). apply (Old r). rewrite load_read, F. exact Hr. }
  destruct (lt_dec i (length (st_regs st))) as [H|H]; [exact (Lt H)|]. pose proof (load_lt _ _ _ L') as H'.
  destruct a as [|j|j o]; cbn [act snd] in *.
  - assert (i = length (st_regs st)) as -> by (unfold new_object in H'; cbn [st_regs] in H'; rewrite app_length in H'; cbn in H'; lia).
    destruct (new_separated st S) as [_ E]. rewrite E in L'. injection L' as <-. exists []. apply R_new.
  - destruct (load st j) as [r|] eqn:L.
    + assert (i = length (st_regs st)) as ->.
      { unfold copy_object in H'. destruct (nth_error (st_regs st) j) as [ro|]; [|lia]. cbn [set_regs st_regs] in H'. rewrite upd_length in H'.
        assert (Lc : length (st_regs (copy_dmap (copy_emap (new_object st) (ro_encs ro)) (ro_decs ro))) = Datatypes.S (length (st_regs st))).
        { unfold copy_dmap, copy_emap. destruct (nth_error _ (ro_encs ro)); match goal with |- context [nth_error ?a ?b] => destruct (nth_error a b) end;
            cbn [st_regs new_object]; rewrite app_length; cbn; lia. }
        lia. }
      destruct (copy_separated st j r S L) as [_ E]. rewrite E in L'. injection L' as <-. destruct (A j r L) as (h & R). exists h. apply (R_copy (r, h) R).
    + exfalso. destruct (nth_error (st_regs st) j) as [ro|] eqn:N.
      * destruct S as [V _]. destruct (V j (nth_lt _ _ _ N)) as (f & F & W). destruct (read_valid st f W) as (r & Hr). rewrite load_read, F in L. cbn [opt_bind] in L. congruence.
      * unfold copy_object in H'. rewrite N in H'. lia.
  - exfalso. destruct (load st j) as [r|]; [|cbn [snd] in H'; lia]. destruct (run o (r, st_heap st)) as [ans [r1 h1]]. cbn [snd] in H'. unfold save in H'.
    destruct (nth_error (st_regs st) j) as [ro|]; [|lia]. destruct (nth_error (st_emaps st) (ro_encs ro)), (nth_error (st_dmaps st) (ro_decs ro)); cbn [st_regs] in H'; lia.
Qed.
Lemma acts_reachable l : forall st, separated st -> all_reachable st -> all_reachable (acts l st).
Proof. induction l as [|a l IH]; intros st S A; [exact A|]. apply (IH (snd (act a st))); [apply act_separated; exact S|apply act_reachable; assumption]. Qed.
(** A program's registries: everything starts from nothing. *)
Definition program_store (st : store) : Prop := exists l, st = acts l empty_store.
Lemma program_separated st : program_store st -> separated st.
Proof. intros (l & ->). apply acts_separated. exact empty_separated. Qed.
Theorem program_reachable st i r : program_store st -> load st i = Some r -> exists h, reachable (r, h).
Proof.
  intros (l & ->) L. apply (acts_reachable l empty_store empty_separated) with (i := i); [|exact L]. intros j q H. exfalso. destruct j; discriminate H.
Qed.
Theorem program_answer st i o r : program_store st -> load st i = Some r -> (decodes o = true -> unshared_registry r) ->
  fst (act (AOn i o) st) = Some (fst (run o (r, []))).
Proof.
  intros P L U. destruct (decodes o) eqn:D; [|apply act_answer; assumption]. destruct (program_reachable st i r P L) as (h & R). apply reachable_caches in R. destruct R as [_ C].
  destruct o; try discriminate D. cbn [act]. rewrite L. cbn [run]. unfold on_world.
  destruct (api_decode_value types data strict (r, st_heap st) C (U eq_refl)) as ([r1 h1] & -> & _).
  destruct (api_decode_value types data strict (r, []) C (U eq_refl)) as ([r2 h2] & -> & _). reflexivity.
Qed.
(** Calls on other registries change no answer. *)
Theorem others_unobservable st l i o r : program_store st -> load st i = Some r -> ops_on i l = [] -> (decodes o = true -> unshared_registry r) ->
  fst (act (AOn i o) (acts l st)) = fst (act (AOn i o) st).
Proof.
  intros P L N U. assert (P' : program_store (acts l st)). { destruct P as (l0 & ->). exists (l0 ++ l)%list. unfold acts. rewrite fold_left_app. reflexivity. }
  pose proof (objects_independent l st i r (program_separated st P) L) as L'. rewrite N in L'. cbn [alone fold_left] in L'.
  rewrite (program_answer _ i o r P' L' U), (program_answer st i o r P L U). reflexivity.
Qed.
