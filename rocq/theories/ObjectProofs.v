(** Registry objects never share a dict or a cache. *)
From Verif Require Import Tac Py Grammar Bytes Encoding Decoding Registry Codec Histories Objects CacheProofs LookupProofs ApiProofs HistoryProofs HeapProofs.
Open Scope nat_scope.

Lemma upd_length {A} n (x : A) l : length (upd n x l) = length l.
Proof. revert n. induction l as [|y l IH]; intros [|n]; cbn; auto. Qed.
Lemma nth_upd_same {A} n (x : A) l : n < length l -> nth_error (upd n x l) n = Some x.
Proof. revert n. induction l as [|y l IH]; intros [|n] H; cbn in *; try lia; [reflexivity|]. apply IH. lia. Qed.
Lemma nth_upd_other {A} n m (x : A) l : n <> m -> nth_error (upd n x l) m = nth_error l m.
Proof. revert n m. induction l as [|y l IH]; intros [|n] [|m] H; cbn; try congruence; auto. Qed.
Lemma nth_lt {A} (l : list A) n x : nth_error l n = Some x -> n < length l.
Proof. intro H. apply nth_error_Some. congruence. Qed.
Lemma nth_app_old {A} (l l' : list A) n x : nth_error l n = Some x -> nth_error (l ++ l') n = Some x.
Proof. intro H. rewrite nth_error_app1; [exact H|]. eapply nth_lt; exact H. Qed.
Lemma nth_app_new {A} (l : list A) x : nth_error (l ++ [x]) (length l) = Some x.
Proof. rewrite nth_error_app2 by lia. rewrite Nat.sub_diag. reflexivity. Qed.

(** The references of a registry object. *)
Record refs := mkRefs { f_ev : nat; f_el : nat; f_dv : nat; f_dl : nat; f_ec : nat; f_dc : nat }.
Definition refs_of (st : store) (i : nat) : option refs :=
  opt_bind (nth_error (st_regs st) i) (fun ro =>
  opt_bind (nth_error (st_emaps st) (ro_encs ro)) (fun em =>
  opt_bind (nth_error (st_dmaps st) (ro_decs ro)) (fun dm =>
  Some (mkRefs (mo_values em) (mo_labels em) (mo_values dm) (mo_labels dm) (ro_ecache ro) (ro_dcache ro))))).
Definition valid (st : store) (f : refs) : Prop :=
  f_ev f < length (st_evals st) /\ f_el f < length (st_elabs st) /\ f_dv f < length (st_dvals st) /\ f_dl f < length (st_dlabs st)
  /\ f_ec f < length (st_ecaches st) /\ f_dc f < length (st_dcaches st).
Definition apart (f g : refs) : Prop :=
  f_ev f <> f_ev g /\ f_el f <> f_el g /\ f_dv f <> f_dv g /\ f_dl f <> f_dl g /\ f_ec f <> f_ec g /\ f_dc f <> f_dc g.
Definition separated (st : store) : Prop :=
  (forall i, i < length (st_regs st) -> exists f, refs_of st i = Some f /\ valid st f)
  /\ (forall i j f g, i <> j -> refs_of st i = Some f -> refs_of st j = Some g -> apart f g).

Definition read (st : store) (f : refs) : option registry :=
  opt_bind (nth_error (st_evals st) (f_ev f)) (fun ev =>
  opt_bind (nth_error (st_elabs st) (f_el f)) (fun el =>
  opt_bind (nth_error (st_dvals st) (f_dv f)) (fun dv =>
  opt_bind (nth_error (st_dlabs st) (f_dl f)) (fun dl =>
  opt_bind (nth_error (st_ecaches st) (f_ec f)) (fun ec =>
  opt_bind (nth_error (st_dcaches st) (f_dc f)) (fun dc =>
  Some (mkRegistry (mkMapping ev el) (mkMapping dv dl) ec dc))))))).
Lemma load_read st i : load st i = opt_bind (refs_of st i) (read st).
Proof.
  unfold load, refs_of, read. destruct (nth_error (st_regs st) i) as [ro|]; [|reflexivity]. cbn [opt_bind].
  destruct (nth_error (st_emaps st) _) as [em|]; [|reflexivity]. cbn [opt_bind]. destruct (nth_error (st_dmaps st) _) as [dm|]; reflexivity.
Qed.
Lemma read_valid st f : valid st f -> exists r, read st f = Some r.
Proof.
  intros (A & B & C & D & E & F). unfold read. apply nth_error_Some in A, B, C, D, E, F.
  destruct (nth_error (st_evals st) _); [|congruence]. destruct (nth_error (st_elabs st) _); [|congruence].
  destruct (nth_error (st_dvals st) _); [|congruence]. destruct (nth_error (st_dlabs st) _); [|congruence].
  destruct (nth_error (st_ecaches st) _); [|congruence]. destruct (nth_error (st_dcaches st) _); [|congruence]. cbn. eauto.
Qed.
Lemma refs_lt st i f : refs_of st i = Some f -> i < length (st_regs st).
Proof. unfold refs_of. destruct (nth_error (st_regs st) i) eqn:E; [|discriminate]. intros _. eapply nth_lt; exact E. Qed.

(** *** Calls *)
Lemma save_refs st i r h j : refs_of (save st i r h) j = refs_of st j.
Proof.
  unfold save. destruct (nth_error (st_regs st) i) as [ro|]; [|reflexivity]. destruct (nth_error (st_emaps st) (ro_encs ro)), (nth_error (st_dmaps st) (ro_decs ro)); reflexivity.
Qed.
Lemma save_eq st i f r h : refs_of st i = Some f -> save st i r h =
  mkStore (upd (f_ev f) (m_values (r_encs r)) (st_evals st)) (upd (f_el f) (m_labels (r_encs r)) (st_elabs st)) (st_emaps st)
          (upd (f_dv f) (m_values (r_decs r)) (st_dvals st)) (upd (f_dl f) (m_labels (r_decs r)) (st_dlabs st)) (st_dmaps st)
          (upd (f_ec f) (r_ecache r) (st_ecaches st)) (upd (f_dc f) (r_dcache r) (st_dcaches st)) (st_regs st) h.
Proof.
  unfold refs_of, save. destruct (nth_error (st_regs st) i) as [ro|]; [|discriminate]. cbn [opt_bind].
  destruct (nth_error (st_emaps st) _) as [em|]; [|discriminate]. cbn [opt_bind]. destruct (nth_error (st_dmaps st) _) as [dm|]; [|discriminate].
  cbn [opt_bind]. intro H. inv H. reflexivity.
Qed.
Lemma save_valid st i r h f : valid (save st i r h) f <-> valid st f.
Proof.
  unfold save. destruct (nth_error (st_regs st) i) as [ro|]; [|tauto]. destruct (nth_error (st_emaps st) (ro_encs ro)), (nth_error (st_dmaps st) (ro_decs ro)); try tauto.
  unfold valid. cbn [st_evals st_elabs st_dvals st_dlabs st_ecaches st_dcaches]. rewrite !upd_length. tauto.
Qed.
Lemma save_separated st i r h : separated st -> separated (save st i r h).
Proof.
  intros [V A]. assert (L : length (st_regs (save st i r h)) = length (st_regs st)).
  { unfold save. destruct (nth_error (st_regs st) i) as [ro|]; [|reflexivity]. destruct (nth_error (st_emaps st) (ro_encs ro)), (nth_error (st_dmaps st) (ro_decs ro)); reflexivity. }
  split.
  - intros j Hj. rewrite L in Hj. destruct (V j Hj) as (f & E & W). exists f. rewrite save_refs. split; [exact E|apply save_valid; exact W].
  - intros a b f g N F G. rewrite save_refs in F, G. eapply A; eassumption.
Qed.
Lemma save_load_same st i f r h : refs_of st i = Some f -> valid st f -> load (save st i r h) i = Some r.
Proof.
  intros E (A & B & C & D & F & G). rewrite load_read, save_refs, E. cbn [opt_bind]. rewrite (save_eq st i f r h E). unfold read.
  cbn [st_evals st_elabs st_dvals st_dlabs st_ecaches st_dcaches]. rewrite !nth_upd_same by assumption. cbn [opt_bind]. destruct r as [[] [] ? ?]; reflexivity.
Qed.
Lemma save_load_other st i j f g r h : refs_of st i = Some f -> refs_of st j = Some g -> apart f g -> load (save st i r h) j = load st j.
Proof.
  intros E Ej (A & B & C & D & F & G). rewrite !load_read, save_refs, Ej. cbn [opt_bind]. rewrite (save_eq st i f r h E). unfold read.
  cbn [st_evals st_elabs st_dvals st_dlabs st_ecaches st_dcaches]. rewrite !nth_upd_other by assumption. reflexivity.
Qed.

(** *** Allocation *)
(** Old objects are untouched by allocation. *)
Record grows (st st' : store) : Prop := mkGrows {
  g_ev : exists l, st_evals st' = st_evals st ++ l; g_el : exists l, st_elabs st' = st_elabs st ++ l; g_em : exists l, st_emaps st' = st_emaps st ++ l;
  g_dv : exists l, st_dvals st' = st_dvals st ++ l; g_dl : exists l, st_dlabs st' = st_dlabs st ++ l; g_dm : exists l, st_dmaps st' = st_dmaps st ++ l;
  g_ec : exists l, st_ecaches st' = st_ecaches st ++ l; g_dc : exists l, st_dcaches st' = st_dcaches st ++ l;
  g_rg : exists l, st_regs st' = st_regs st ++ l }.
Lemma grows_refs st st' i f : grows st st' -> refs_of st i = Some f -> refs_of st' i = Some f.
Proof.
  intros G. unfold refs_of. destruct (nth_error (st_regs st) i) as [ro|] eqn:R; [|discriminate]. cbn [opt_bind].
  destruct (nth_error (st_emaps st) _) as [em|] eqn:E; [|discriminate]. cbn [opt_bind]. destruct (nth_error (st_dmaps st) _) as [dm|] eqn:D; [|discriminate].
  destruct (g_rg _ _ G) as (l1 & ->), (g_em _ _ G) as (l2 & ->), (g_dm _ _ G) as (l3 & ->).
  rewrite (nth_app_old _ _ _ _ R). cbn [opt_bind]. rewrite (nth_app_old _ _ _ _ E), (nth_app_old _ _ _ _ D). auto.
Qed.
Lemma grows_read st st' f r : grows st st' -> read st f = Some r -> read st' f = Some r.
Proof.
  intros G. unfold read.
  destruct (nth_error (st_evals st) _) eqn:A; [|discriminate]. destruct (nth_error (st_elabs st) _) eqn:B; [|discriminate].
  destruct (nth_error (st_dvals st) _) eqn:C; [|discriminate]. destruct (nth_error (st_dlabs st) _) eqn:D; [|discriminate].
  destruct (nth_error (st_ecaches st) _) eqn:E; [|discriminate]. destruct (nth_error (st_dcaches st) _) eqn:F; [|discriminate].
  destruct (g_ev _ _ G) as (x1 & ->), (g_el _ _ G) as (x2 & ->), (g_dv _ _ G) as (x3 & ->), (g_dl _ _ G) as (x4 & ->), (g_ec _ _ G) as (x5 & ->), (g_dc _ _ G) as (x6 & ->).
  rewrite (nth_app_old _ _ _ _ A), (nth_app_old _ _ _ _ B), (nth_app_old _ _ _ _ C), (nth_app_old _ _ _ _ D), (nth_app_old _ _ _ _ E), (nth_app_old _ _ _ _ F). auto.
Qed.
Lemma grows_load st st' i r : grows st st' -> load st i = Some r -> load st' i = Some r.
Proof.
  intros G. rewrite !load_read. destruct (refs_of st i) as [f|] eqn:E; [|discriminate]. rewrite (grows_refs _ _ _ _ G E). cbn [opt_bind]. apply grows_read. exact G.
Qed.
Lemma grows_valid st st' f : grows st st' -> valid st f -> valid st' f.
Proof.
  intros G (A & B & C & D & E & F). destruct (g_ev _ _ G) as (l1 & H1), (g_el _ _ G) as (l2 & H2), (g_dv _ _ G) as (l3 & H3), (g_dl _ _ G) as (l4 & H4), (g_ec _ _ G) as (l5 & H5), (g_dc _ _ G) as (l6 & H6).
  unfold valid. rewrite H1, H2, H3, H4, H5, H6, !app_length. repeat split; lia.
Qed.
(** A new object, none of whose dicts existed before. *)
Definition fresh (st : store) (f : refs) : Prop :=
  length (st_evals st) <= f_ev f /\ length (st_elabs st) <= f_el f /\ length (st_dvals st) <= f_dv f /\ length (st_dlabs st) <= f_dl f
  /\ length (st_ecaches st) <= f_ec f /\ length (st_dcaches st) <= f_dc f.
Lemma grow_separated st st' f : separated st -> grows st st' -> length (st_regs st') = S (length (st_regs st)) ->
  refs_of st' (length (st_regs st)) = Some f -> valid st' f -> fresh st f -> separated st'.
Proof.
  intros [V A] G L R Vf Fr.
  assert (Old : forall i g, i <> length (st_regs st) -> refs_of st' i = Some g -> refs_of st i = Some g /\ valid st g).
  { intros i g N H. pose proof (refs_lt _ _ _ H) as Hi. destruct (V i ltac:(lia)) as (g0 & E & W). rewrite (grows_refs _ _ _ _ G E) in H. inv H. auto. }
  assert (Ap : forall i g, i <> length (st_regs st) -> refs_of st' i = Some g -> apart g f /\ apart f g).
  { intros i g N H. destruct (Old i g N H) as [_ (V1 & V2 & V3 & V4 & V5 & V6)]. destruct Fr as (F1 & F2 & F3 & F4 & F5 & F6). unfold apart. repeat split; lia. }
  split.
  - intros i Hi. destruct (Nat.eq_dec i (length (st_regs st))) as [->|N]; [exists f; auto|].
    destruct (V i ltac:(lia)) as (g & E & W). exists g. split; [exact (grows_refs _ _ _ _ G E)|exact (grows_valid _ _ _ G W)].
  - intros i j fi fj N Hi Hj. destruct (Nat.eq_dec i (length (st_regs st))) as [->|Ni].
    + rewrite R in Hi. inv Hi. apply (Ap j fj); [lia|exact Hj].
    + destruct (Nat.eq_dec j (length (st_regs st))) as [->|Nj]; [rewrite R in Hj; inv Hj; apply (Ap i fi); assumption|].
      eapply A; [exact N|apply (Old i fi Ni Hi)|apply (Old j fj Nj Hj)].
Qed.
Lemma new_grows st : grows st (new_object st).
Proof. constructor; eexists; reflexivity. Qed.
Lemma new_separated st : separated st -> separated (new_object st) /\ load (new_object st) (length (st_regs st)) = Some new_registry.
Proof.
  intro S. pose (f := mkRefs (length (st_evals st)) (length (st_elabs st)) (length (st_dvals st)) (length (st_dlabs st)) (length (st_ecaches st)) (length (st_dcaches st))).
  assert (R : refs_of (new_object st) (length (st_regs st)) = Some f).
  { unfold refs_of, new_object. cbn [st_regs st_emaps st_dmaps]. rewrite nth_app_new. cbn [opt_bind ro_encs ro_decs]. rewrite !nth_app_new. reflexivity. }
  split.
  - apply (grow_separated st (new_object st) f S (new_grows st)); [cbn; rewrite app_length; cbn; lia|exact R| |].
    + unfold valid, new_object. cbn. rewrite !app_length. cbn. lia.
    + unfold fresh. cbn. lia.
  - rewrite load_read, R. cbn [opt_bind]. unfold read, new_object, f. cbn [st_evals st_elabs st_dvals st_dlabs st_ecaches st_dcaches f_ev f_el f_dv f_dl f_ec f_dc].
    rewrite !nth_app_new. reflexivity.
Qed.
Lemma upd_app_last {A} (l : list A) x y : upd (length l) y (l ++ [x]) = l ++ [y].
Proof. induction l as [|z l IH]; cbn; [reflexivity|]. rewrite IH. reflexivity. Qed.
Lemma nth_error_nth' {A} (l : list A) n d x : nth_error l n = Some x -> nth n l d = x.
Proof. apply nth_error_nth. Qed.
Lemma copy_eq st i ro em dm : nth_error (st_regs st) i = Some ro -> nth_error (st_emaps st) (ro_encs ro) = Some em -> nth_error (st_dmaps st) (ro_decs ro) = Some dm ->
  copy_object st i = mkStore
    ((st_evals st ++ [[]]) ++ [nth (mo_values em) (st_evals st ++ [[]]) []]) ((st_elabs st ++ [[]]) ++ [nth (mo_labels em) (st_elabs st ++ [[]]) []])
    ((st_emaps st ++ [mkMapObj (length (st_evals st)) (length (st_elabs st))]) ++ [mkMapObj (length (st_evals st ++ [[]])) (length (st_elabs st ++ [[]]))])
    ((st_dvals st ++ [[]]) ++ [nth (mo_values dm) (st_dvals st ++ [[]]) []]) ((st_dlabs st ++ [[]]) ++ [nth (mo_labels dm) (st_dlabs st ++ [[]]) []])
    ((st_dmaps st ++ [mkMapObj (length (st_dvals st)) (length (st_dlabs st))]) ++ [mkMapObj (length (st_dvals st ++ [[]])) (length (st_dlabs st ++ [[]]))])
    (st_ecaches st ++ [[]]) (st_dcaches st ++ [[]])
    (st_regs st ++ [mkRegObj (length (st_emaps st ++ [mkMapObj (length (st_evals st)) (length (st_elabs st))]))
                             (length (st_dmaps st ++ [mkMapObj (length (st_dvals st)) (length (st_dlabs st))])) (length (st_ecaches st)) (length (st_dcaches st))])
    (st_heap st).
Proof.
  intros R E D. unfold copy_object. rewrite R. unfold copy_emap at 1 2 3. unfold new_object. cbn [st_emaps st_dmaps st_regs st_evals st_elabs st_dvals st_dlabs].
  rewrite (nth_app_old _ _ _ _ E). unfold copy_dmap. cbn [st_emaps st_dmaps st_regs st_evals st_elabs st_dvals st_dlabs st_ecaches st_dcaches st_heap].
  rewrite (nth_app_old _ _ _ _ D). unfold set_regs. cbn [st_emaps st_dmaps st_regs st_evals st_elabs st_dvals st_dlabs st_ecaches st_dcaches st_heap].
  rewrite upd_app_last. reflexivity.
Qed.
Lemma copy_grows st i : grows st (copy_object st i).
Proof.
  unfold copy_object. destruct (nth_error (st_regs st) i) as [ro|] eqn:R; [|constructor; exists []; rewrite app_nil_r; reflexivity].
  unfold set_regs, copy_dmap, copy_emap, new_object. cbn [st_emaps st_dmaps st_regs st_evals st_elabs st_dvals st_dlabs st_ecaches st_dcaches st_heap].
  destruct (nth_error (st_emaps st ++ _) _); cbn [st_emaps st_dmaps st_regs st_evals st_elabs st_dvals st_dlabs st_ecaches st_dcaches st_heap];
  destruct (nth_error (st_dmaps st ++ _) _); cbn [st_emaps st_dmaps st_regs st_evals st_elabs st_dvals st_dlabs st_ecaches st_dcaches st_heap];
  rewrite upd_app_last; constructor; cbn [st_emaps st_dmaps st_regs st_evals st_elabs st_dvals st_dlabs st_ecaches st_dcaches st_heap]; rewrite <- ?app_assoc; eexists; reflexivity.
Qed.
Lemma copy_separated st i r : separated st -> load st i = Some r ->
  separated (copy_object st i) /\ load (copy_object st i) (length (st_regs st)) = Some (copy_registry r).
Proof.
  intros S L. rewrite load_read in L. destruct (refs_of st i) as [f0|] eqn:F0; [|discriminate]. pose proof F0 as F. unfold refs_of in F.
  destruct (nth_error (st_regs st) i) as [ro|] eqn:R; [|discriminate]. cbn [opt_bind] in F.
  destruct (nth_error (st_emaps st) _) as [em|] eqn:E; [|discriminate]. cbn [opt_bind] in F. destruct (nth_error (st_dmaps st) _) as [dm|] eqn:D; [|discriminate].
  cbn [opt_bind] in F. inv F. pose proof (copy_grows st i) as G. rewrite (copy_eq st i ro em dm R E D) in *.
  match goal with |- separated ?s /\ _ => set (st' := s) in * end.
  pose (f := mkRefs (Datatypes.S (length (st_evals st))) (Datatypes.S (length (st_elabs st))) (Datatypes.S (length (st_dvals st))) (Datatypes.S (length (st_dlabs st))) (length (st_ecaches st)) (length (st_dcaches st))).
  assert (Rf : refs_of st' (length (st_regs st)) = Some f).
  { unfold refs_of, st'. cbn [st_regs st_emaps st_dmaps]. rewrite nth_app_new. cbn [opt_bind ro_encs ro_decs]. rewrite !nth_app_new. cbn [opt_bind mo_values mo_labels ro_ecache ro_dcache].
    rewrite !app_length. cbn [length]. rewrite !Nat.add_1_r. reflexivity. }
  split.
  - apply (grow_separated st st' f S G); [unfold st'; cbn [st_regs]; rewrite app_length; cbn; lia|exact Rf| |].
    + unfold valid, st', f. cbn [st_evals st_elabs st_dvals st_dlabs st_ecaches st_dcaches f_ev f_el f_dv f_dl f_ec f_dc]. rewrite !app_length. cbn. lia.
    + unfold fresh, f. cbn. lia.
  - rewrite load_read, Rf. cbn [opt_bind]. unfold read, st', f. cbn [st_evals st_elabs st_dvals st_dlabs st_ecaches st_dcaches f_ev f_el f_dv f_dl f_ec f_dc].
    assert (N : forall A (l : list A) x y, nth_error ((l ++ [x]) ++ [y]) (Datatypes.S (length l)) = Some y).
    { intros A l x y. replace (Datatypes.S (length l)) with (length (l ++ [x])) by (rewrite app_length; cbn; lia). apply nth_app_new. }
    rewrite !N, !nth_app_new. cbn [opt_bind] in *. unfold read in L. cbn [f_ev f_el f_dv f_dl f_ec f_dc] in L.
    destruct (nth_error (st_evals st) _) eqn:A1; [|discriminate]. destruct (nth_error (st_elabs st) _) eqn:A2; [|discriminate].
    destruct (nth_error (st_dvals st) _) eqn:A3; [|discriminate]. destruct (nth_error (st_dlabs st) _) eqn:A4; [|discriminate].
    destruct (nth_error (st_ecaches st) _) eqn:A5; [|discriminate]. destruct (nth_error (st_dcaches st) _) eqn:A6; [|discriminate]. cbn [opt_bind] in L. inv L.
    rewrite (nth_error_nth' _ _ [] _ (nth_app_old _ [[]] _ _ A1)), (nth_error_nth' _ _ [] _ (nth_app_old _ [[]] _ _ A2)),
      (nth_error_nth' _ _ [] _ (nth_app_old _ [[]] _ _ A3)), (nth_error_nth' _ _ [] _ (nth_app_old _ [[]] _ _ A4)). reflexivity.
Qed.

(** *** A registry's state does not depend on the strict flags *)
Definition same_reg {A} (x y : A * world) : Prop := fst x = fst y /\ fst (snd x) = fst (snd y).
Definition flagless {A} (f : world -> A * world) : Prop := forall w w', fst w = fst w' -> same_reg (f w) (f w').
Lemma same_refl {A} (a : A) w w' : fst w = fst w' -> same_reg (a, w) (a, w').
Proof. intro H. split; [reflexivity|exact H]. Qed.
Lemma sequence_flagless {A B} (g : A -> world -> result B * world) l : (forall x, flagless (g x)) -> flagless (sequenceM g l).
Proof.
  intro H. induction l as [|x l IH]; intros w w' E; [exact (same_refl (Ok []) w w' E)|]. cbn [sequenceM]. destruct (H x w w' E) as [A1 A2].
  destruct (g x w) as [a w1], (g x w') as [b w1']. cbn [fst snd] in *. subst b. destruct a as [a|e]; [|exact (same_refl _ _ _ A2)].
  destruct (IH w1 w1' A2) as [B1 B2]. destruct (sequenceM g l w1) as [r w2], (sequenceM g l w1') as [r' w2']. cbn [fst snd] in *. subst r'.
  destruct r; exact (same_refl _ _ _ B2).
Qed.
Lemma dec_from_flagless gd c ts : (forall s, flagless (gd s)) -> flagless (dec_from_type_str gd c ts).
Proof.
  intros H w w' E. unfold dec_from_type_str. destruct (dec_leaf_from_type_str c ts); [exact (same_refl _ _ _ E)|].
  assert (Arr : forall Z : result (abi_type * abi_type),
    same_reg match Z with Err e => (Err e, w) | Ok (t, it) => match gd (to_type_str it) w with
         | (Err e, s1) => (Err e, s1) | (Ok id, s1) => (match last (arrlist_of t) None with Some n => mk_dsized n id | None => mk_ddyn id end, s1) end end
      match Z with Err e => (Err e, w') | Ok (t, it) => match gd (to_type_str it) w' with
         | (Err e, s1) => (Err e, s1) | (Ok id, s1) => (match last (arrlist_of t) None with Some n => mk_dsized n id | None => mk_ddyn id end, s1) end end).
  { intros [[t it]|e]; [|exact (same_refl _ _ _ E)]. destruct (H (to_type_str it) w w' E) as [A1 A2].
    destruct (gd (to_type_str it) w) as [a w1], (gd (to_type_str it) w') as [b w1']. cbn [fst snd] in *. subst b. destruct a; exact (same_refl _ _ _ A2). }
  destruct c; try apply Arr. destruct (parse_tuple_type_str ts) as [cs|e]; [|exact (same_refl _ _ _ E)].
  destruct (sequence_flagless gd (map to_type_str cs) H w w' E) as [A1 A2].
  destruct (sequenceM gd _ w) as [a w1], (sequenceM gd _ w') as [b w1']. cbn [fst snd] in *. subst b. destruct a; exact (same_refl _ _ _ A2).
Qed.
Lemma get_decoder_fuel_flagless fuel : forall k ts, flagless (get_decoder_fuel fuel k ts).
Proof.
  induction fuel as [|f IH]; intros k ts w w' E; cbn [get_decoder_fuel]; rewrite E; (destruct (dcache_get _ _); [exact (same_refl _ _ _ E)|]); [exact (same_refl _ _ _ E)|].
  match goal with |- same_reg (match ?a with pair _ _ => _ end) (match ?b with pair _ _ => _ end) => assert (B : same_reg a b) end.
  { destruct (base_get_registration _ ts) as [[c|d]|e]; try exact (same_refl _ _ _ E). apply dec_from_flagless; [intro s; apply IH|exact E]. }
  match goal with |- same_reg (match ?a with pair _ _ => _ end) (match ?b with pair _ _ => _ end) =>
    destruct a as [x w1]; destruct b as [y w1'] end. destruct B as [B1 B2]. cbn [fst snd] in *. subst y.
  destruct x as [d|e]; [|exact (same_refl _ _ _ B2)]. rewrite B2.
  destruct (dec_is_dyn d); [|split; reflexivity]. rewrite (set_strict_split d _ (snd w1)), (set_strict_split d _ (snd w1')). split; reflexivity.
Qed.
Lemma api_decode_flagless types data strict w w' : fst w = fst w' -> fst (snd (api_decode types data strict w)) = fst (snd (api_decode types data strict w')).
Proof.
  intro E. unfold api_decode. destruct (validate_list_like_param types) as [ts|]; [|exact E]. destruct (validate_bytes_param data) as [b|]; [|exact E].
  destruct (sequence_flagless (get_decoder_py (Some strict)) ts) with (w := w) (w' := w') as [A1 A2]; [|exact E|].
  - intros x v v' Ev. destruct x; try exact (same_refl _ _ _ Ev). apply get_decoder_fuel_flagless. exact Ev.
  - destruct (sequenceM (get_decoder_py (Some strict)) ts w) as [a w1], (sequenceM (get_decoder_py (Some strict)) ts w') as [c w1']. cbn [fst snd] in *. subst c. destruct a; exact A2.
Qed.
(** A call that does not decode answers the same whatever the flags. *)
Definition decodes (o : op) : bool := match o with ODecode _ _ _ => true | _ => false end.
Lemma on_registry_flagless {A} (f : registry -> A * registry) out : flagless (on_registry f out).
Proof. intros w w' E. unfold on_registry. rewrite E. destruct (f (fst w')) as [a r]. split; reflexivity. Qed.
Lemma run_flagless o w w' : fst w = fst w' -> fst (snd (run o w)) = fst (snd (run o w')) /\ (decodes o = false -> fst (run o w) = fst (run o w')).
Proof.
  intro E. destruct o; cbn [run decodes];
  try (match goal with |- context [on_registry ?f ?out w] => destruct (on_registry_flagless f out w w' E) as [A1 A2]; split; [exact A2|intros _; exact A1] end).
  - unfold on_world. destruct (get_decoder_fuel_flagless (S (length ts)) k ts w w' E) as [A1 A2]. fold (get_decoder k ts w) in *. fold (get_decoder k ts w') in *.
    destruct (get_decoder k ts w), (get_decoder k ts w'). cbn [fst snd] in *. subst. auto.
  - split; [|discriminate]. pose proof (api_decode_flagless types data strict w w' E) as A. unfold on_world.
    destruct (api_decode types data strict w), (api_decode types data strict w'). exact A.
Qed.

(** *** Independence *)
Lemma empty_separated : separated empty_store.
Proof.
  split.
  - intros i H. cbn in H. lia.
  - intros i j f g _ H. exfalso. destruct i; discriminate H.
Qed.
Lemma load_lt st i r : load st i = Some r -> i < length (st_regs st).
Proof. rewrite load_read. destruct (refs_of st i) eqn:E; [|discriminate]. intros _. exact (refs_lt _ _ _ E). Qed.
Lemma act_separated a st : separated st -> separated (snd (act a st)).
Proof.
  intro S. destruct a as [|i|i o]; cbn [act snd].
  - apply new_separated. exact S.
  - destruct (load st i) as [r|] eqn:L; [exact (proj1 (copy_separated st i r S L))|].
    destruct S as [V A]. unfold copy_object. destruct (nth_error (st_regs st) i) as [ro|] eqn:R; [|split; assumption].
    exfalso. destruct (V i (nth_lt _ _ _ R)) as (f & F & W). destruct (read_valid st f W) as (r & Hr). rewrite load_read, F in L. cbn [opt_bind] in L. congruence.
  - destruct (load st i) as [r|]; [|exact S]. destruct (run o (r, st_heap st)) as [ans [r' h']]. apply save_separated. exact S.
Qed.
Lemma acts_separated l : forall st, separated st -> separated (acts l st).
Proof. induction l as [|a l IH]; intros st S; [exact S|]. apply (IH (snd (act a st))). apply act_separated. exact S. Qed.
Lemma act_load a st j r : separated st -> load st j = Some r -> load (snd (act a st)) j = Some (alone (ops_on j [a]) r).
Proof.
  intros S L. destruct a as [|i|i o]; cbn [act snd].
  - exact (grows_load _ _ _ _ (new_grows st) L).
  - exact (grows_load _ _ _ _ (copy_grows st i) L).
  - unfold ops_on. cbn [flat_map]. rewrite app_nil_r. destruct S as [V A]. destruct (V j (load_lt _ _ _ L)) as (g & G & Wg). destruct (Nat.eqb_spec i j) as [->|N].
    + rewrite L. unfold alone. cbn [fold_left]. destruct (run_flagless o (r, st_heap st) (r, []) eq_refl) as [A1 _].
      destruct (run o (r, st_heap st)) as [ans [r' h']]. cbn [fst snd] in *. rewrite <- A1. exact (save_load_same _ _ _ _ _ G Wg).
    + unfold alone. cbn [fold_left]. destruct (load st i) as [ri|] eqn:Li; [|exact L]. destruct (run o (ri, st_heap st)) as [ans [r' h']]. cbn [snd].
      destruct (V i (load_lt _ _ _ Li)) as (f & F & _). rewrite (save_load_other st i j f g r' h' F G (A i j f g N F G)). exact L.
Qed.
Lemma ops_on_cons j a l : ops_on j (a :: l) = ops_on j [a] ++ ops_on j l.
Proof. unfold ops_on. cbn [flat_map]. rewrite app_nil_r. reflexivity. Qed.
Theorem objects_independent l : forall st j r, separated st -> load st j = Some r -> load (acts l st) j = Some (alone (ops_on j l) r).
Proof.
  induction l as [|a l IH]; intros st j r S L; [exact L|]. change (acts (a :: l) st) with (acts l (snd (act a st))).
  rewrite (IH _ j (alone (ops_on j [a]) r) (act_separated a st S) (act_load a st j r S L)). rewrite (ops_on_cons j a l). unfold alone. rewrite fold_left_app. reflexivity.
Qed.
Theorem copy_object_load st i r : separated st -> load st i = Some r ->
  load (snd (act (ACopy i) st)) (length (st_regs st)) = Some (copy_registry r).
Proof. intros S L. apply copy_separated; assumption. Qed.
(** What a call on one registry answers, in terms of that registry alone. *)
Theorem act_answer st i o r : load st i = Some r -> decodes o = false -> fst (act (AOn i o) st) = Some (fst (run o (r, []))).
Proof.
  intros L D. cbn [act]. rewrite L. destruct (run_flagless o (r, st_heap st) (r, []) eq_refl) as [_ A]. specialize (A D).
  destruct (run o (r, st_heap st)) as [ans [r' h']]. cbn [fst] in *. rewrite A. reflexivity.
Qed.
