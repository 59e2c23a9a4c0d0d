(** Proofs about the messages of the registry (C73). *)
From Coq Require Import Strings.String Lia.
From Verif Require Import Tac Bytes Grammar GrammarSpec GrammarProofs TypeCases Encoding Decoding Registry RaisingSpec Codec Histories CustomSpec
  RegistrySpec CacheProofs RegistryProofs RegistryLaws Notices NoticeSpec.
Open Scope Z_scope.

(** ** The same program *)
Lemma unread_bind {A B} (m : noted A) (f : A -> noted B) : unread (m' <~ m ;; f m') = (a <- unread m ;; unread (f a)).
Proof. destruct m; reflexivity. Qed.
Lemma unread_quietly {A} (r : result A) : unread (quietly r) = r.
Proof. destruct r; reflexivity. Qed.
Lemma checked_same cls b w ts : unread (checked cls b w ts) = parse_type_str b w ts.
Proof.
  unfold checked, parse_type_str. destruct (parse (normalize ts)) as [t|e]; [|reflexivity]. cbn [quietly nbind bind].
  assert (K : forall x : noted unit, unread x = match b with None => Ok tt | Some b => match t with Tup _ _ => Err ValueError | Basic base _ _ => raise_if (negb (str_eqb base b)) ValueError end end -> 
    unread (x ;~ (let has_arr := match arrlist_of t with [] => false | _ => true end in (if negb w && has_arr then misfit cls ts HasDims else Fine tt) ;~ (if w && negb has_arr then misfit cls ts LacksDims else Fine tt) ;~ quietly (validate_type t) ;~ Fine t))
    = (unread x ;;; let has_arr := match arrlist_of t with [] => false | _ => true end in raise_if (negb w && has_arr) ValueError ;;; raise_if (w && negb has_arr) ValueError ;;; validate_type t ;;; Ok t)).
  { intros x _. rewrite unread_bind. destruct (unread x); [|reflexivity]. cbn [bind]. cbv zeta. unfold raise_if.
    destruct (negb w && _); [reflexivity|]. destruct (w && _); [reflexivity|]. cbn [nbind bind]. destruct (validate_type t); reflexivity. }
  assert (L : unread (match b with None => Fine tt | Some b => match t with Tup _ _ => misfit cls ts NotBasic | Basic base _ _ => if negb (str_eqb base b) then misfit cls ts (NotBase b) else Fine tt end end)
    = match b with None => Ok tt | Some b => match t with Tup _ _ => Err ValueError | Basic base _ _ => raise_if (negb (str_eqb base b)) ValueError end end).
  { destruct b as [b|]; [|reflexivity]. destruct t as [base sub arr|]; [|reflexivity]. unfold raise_if. destruct (negb _); reflexivity. }
  rewrite K; [rewrite L; reflexivity|exact L].
Qed.
Lemma checked_tuple_same cls ts : unread (checked_tuple cls ts) = parse_tuple_type_str ts.
Proof.
  unfold checked_tuple, parse_tuple_type_str. destruct (parse (normalize ts)) as [[b sub arr|cs arr]|e]; [reflexivity| |reflexivity]. cbn [quietly nbind bind].
  destruct (validate_type _); reflexivity.
Qed.
Ltac unread_leaf := repeat (rewrite ?unread_bind, ?checked_same, ?unread_quietly; first [reflexivity | match goal with |- (_ <- ?m ;; _) = (_ <- ?m ;; _) => destruct m; [cbn [bind]|reflexivity] end | match goal with |- context[let '(_, _) := ?x in _] => destruct x end]).
Lemma enc_leaf_same c ts : option_map unread (enc_leaf_noted c ts) = enc_leaf_from_type_str c ts.
Proof. destruct c; cbn [enc_leaf_noted enc_leaf_from_type_str option_map]; try reflexivity; f_equal; unread_leaf. Qed.
Lemma dec_leaf_same c ts : option_map unread (dec_leaf_noted c ts) = dec_leaf_from_type_str c ts.
Proof. destruct c; cbn [dec_leaf_noted dec_leaf_from_type_str option_map]; try reflexivity; f_equal; unread_leaf. Qed.
Lemma each_same {S A B} (f : A -> S -> noted B * S) (g : A -> S -> result B * S) l : (forall x s, unread_at (f x s) = g x s) -> forall s, unread_at (each f l s) = sequenceM g l s.
Proof.
  intro E. induction l as [|x l IH]; intro s; [reflexivity|]. cbn [each sequenceM]. rewrite <- E. destruct (f x s) as [[y|n] s1]; [|reflexivity]. cbn [unread_at unread fst snd].
  rewrite <- IH. destruct (each f l s1) as [[ys|n] s2]; reflexivity.
Qed.
Lemma enc_built_same {S} (f : pystr -> S -> noted encoder * S) (g : pystr -> S -> result encoder * S) c ts s : (forall x s, unread_at (f x s) = g x s) ->
  unread_at (enc_built_noted f c ts s) = enc_from_type_str g c ts s.
Proof.
  intro E. unfold enc_built_noted, enc_from_type_str. rewrite <- enc_leaf_same. destruct (enc_leaf_noted c ts) as [r|]; [reflexivity|]. cbn [option_map].
  assert (A : unread_at (match (t <~ checked (enc_name c) None true ts ;; it <~ quietly (item_type t) ;; Fine (t, it)) with
          | Note n => (Note n, s)
          | Fine (t, it) =>
              match f (to_type_str it) s with
              | (Note n, s1) => (Note n, s1)
              | (Fine ie, s1) => (match c, last (arrlist_of t) None with CPackedArray, n => Fine (EPackedArr n ie) | _, Some n => quietly (mk_sized n ie) | _, None => Fine (EDyn ie) end, s1)
              end
          end) = match (t <- parse_type_str None true ts ;; it <- item_type t ;; Ok (t, it)) with
          | Err e => (Err e, s)
          | Ok (t, it) =>
              match g (to_type_str it) s with
              | (Err e, s1) => (Err e, s1)
              | (Ok ie, s1) => (match c, last (arrlist_of t) None with CPackedArray, n => Ok (EPackedArr n ie) | _, Some n => mk_sized n ie | _, None => Ok (EDyn ie) end, s1)
              end
          end).
  { rewrite <- (checked_same (enc_name c)). destruct (checked _ _ _ _) as [t|n]; [|reflexivity]. cbn [nbind unread bind]. destruct (item_type t) as [it|e]; [|reflexivity]. cbn [quietly nbind bind].
    rewrite <- E. destruct (f (to_type_str it) s) as [[ie|n] s1]; [|reflexivity]. unfold unread_at. cbn [unread fst snd]. f_equal.
    destruct c, (last (arrlist_of t) None); cbn [unread]; rewrite ?unread_quietly; reflexivity. }
  destruct c; try exact A. rewrite <- (checked_tuple_same (enc_name CTuple)). destruct (checked_tuple _ ts) as [cs|n]; [|reflexivity]. cbn [unread].
  rewrite <- (each_same f g _ E). destruct (each f _ s) as [[es|n] s1]; reflexivity.
Qed.
Lemma dec_built_same {S} (f : pystr -> S -> noted decoder * S) (g : pystr -> S -> result decoder * S) c ts s : (forall x s, unread_at (f x s) = g x s) ->
  unread_at (dec_built_noted f c ts s) = dec_from_type_str g c ts s.
Proof.
  intro E. unfold dec_built_noted, dec_from_type_str. rewrite <- dec_leaf_same. destruct (dec_leaf_noted c ts) as [r|]; [reflexivity|]. cbn [option_map].
  assert (A : unread_at (match (t <~ checked (dec_name c) None true ts ;; it <~ quietly (item_type t) ;; Fine (t, it)) with
          | Note n => (Note n, s)
          | Fine (t, it) =>
              match f (to_type_str it) s with
              | (Note n, s1) => (Note n, s1)
              | (Fine id, s1) => (match last (arrlist_of t) None with Some n => quietly (mk_dsized n id) | None => quietly (mk_ddyn id) end, s1)
              end
          end) = match (t <- parse_type_str None true ts ;; it <- item_type t ;; Ok (t, it)) with
          | Err e => (Err e, s)
          | Ok (t, it) =>
              match g (to_type_str it) s with
              | (Err e, s1) => (Err e, s1)
              | (Ok id, s1) => (match last (arrlist_of t) None with Some n => mk_dsized n id | None => mk_ddyn id end, s1)
              end
          end).
  { rewrite <- (checked_same (dec_name c)). destruct (checked _ _ _ _) as [t|n]; [|reflexivity]. cbn [nbind unread bind]. destruct (item_type t) as [it|e]; [|reflexivity]. cbn [quietly nbind bind].
    rewrite <- E. destruct (f (to_type_str it) s) as [[id|n] s1]; [|reflexivity]. cbn [unread_at unread fst snd]. unfold unread_at. cbn [fst snd]. f_equal.
    destruct (last (arrlist_of t) None); rewrite unread_quietly; reflexivity. }
  destruct c; try exact A. rewrite <- (checked_tuple_same (dec_name CDTuple)). destruct (checked_tuple _ ts) as [cs|n]; [|reflexivity]. cbn [unread].
  rewrite <- (each_same f g _ E). destruct (each f _ s) as [[es|n] s1]; reflexivity.
Qed.
Lemma scan_noted_same {V} (l : list (pred * V)) ts : m_scan l ts = match scan_noted l ts with Done found => Done (map snd found) | Raised e says => Raised e says end.
Proof.
  induction l as [|[p v] l IH]; [reflexivity|]. cbn [m_scan scan_noted]. destruct (pred_call p ts) as [b|]; [|reflexivity]. rewrite IH. destruct (scan_noted l ts); [|reflexivity]. destruct b; reflexivity.
Qed.
Lemma get_registration_same {V} t (m : mapping V) ts : unread (get_registration_noted t m ts) = base_get_registration m ts.
Proof.
  unfold get_registration_noted, base_get_registration, m_find, find_noted. rewrite scan_noted_same.
  destruct (scan_noted (m_values m) ts) as [[|[p v] [|x l]]|e says]; cbn [map snd chosen reparsed exc_of unread]; try reflexivity.
  - cbn [is_value_error quietly nbind bind]. destruct (parse ts); reflexivity.
  - cbn [is_value_error quietly nbind bind]. destruct (contains _ _); [|reflexivity]. destruct (parse ts); reflexivity.
  - destruct (is_value_error e); [|reflexivity]. destruct says as [[]|x]; cbn [quietly nbind bind unread]; [|reflexivity..]. destruct (parse ts); reflexivity.
Qed.
Lemma get_encoder_fuel_same f : forall ts r, unread_at (get_encoder_noted_fuel f ts r) = get_encoder_fuel f ts r.
Proof.
  induction f as [|f IH]; intros ts r; cbn [get_encoder_noted_fuel get_encoder_fuel]; destruct (ecache_get _ _); try reflexivity.
  rewrite <- (get_registration_same Encoders). destruct (get_registration_noted Encoders (r_encs r) ts) as [[c|e]|n]; [|reflexivity..]. cbn [unread].
  rewrite <- (enc_built_same (get_encoder_noted_fuel f) _ c ts r IH). destruct (enc_built_noted _ c ts r) as [[e|n] r1]; reflexivity.
Qed.
Theorem get_encoder_same ts r : unread_at (get_encoder_noted ts r) = get_encoder ts r.
Proof. apply get_encoder_fuel_same. Qed.
Lemma get_decoder_fuel_same f : forall k ts w, unread_at (get_decoder_noted_fuel f k ts w) = get_decoder_fuel f k ts w.
Proof.
  induction f as [|f IH]; intros k ts w; cbn [get_decoder_noted_fuel get_decoder_fuel]; destruct (dcache_get _ _); try reflexivity.
  rewrite <- (get_registration_same Decoders). destruct (get_registration_noted Decoders (r_decs (fst w)) ts) as [[c|d]|n]; cbn [unread]; [| |reflexivity].
  - rewrite <- (dec_built_same (get_decoder_noted_fuel f None) _ c ts w (IH None)). destruct (dec_built_noted _ c ts w) as [[d|n] w1]; [|reflexivity]. cbn [unread_at unread fst snd].
    destruct (dec_is_dyn d); [destruct (set_strict d _ (snd w1))|]; reflexivity.
  - destruct (dec_is_dyn d); [destruct (set_strict d _ (snd w))|]; reflexivity.
Qed.
Theorem get_decoder_same k ts w : unread_at (get_decoder_noted k ts w) = get_decoder k ts w.
Proof. apply get_decoder_fuel_same. Qed.
Lemma add_same {V} t (m : mapping V) p v label : unread_at (add_noted t m p v label) = m_add m p v label.
Proof. unfold add_noted, m_add. destruct (has_pred m p); [reflexivity|]. destruct label as [l|]; [|reflexivity]. destruct (has_label m l); reflexivity. Qed.
Lemma register_in_same {V} t (m : mapping V) l v label : unread_at (register_noted_in t m l v label) = base_register m l v label.
Proof. destruct l; [apply add_same..|reflexivity]. Qed.
Lemma unregister_in_same {V} t (m : mapping V) l : unread_at (unregister_noted_in t m l) = base_unregister m l.
Proof.
  destruct l as [s|p|]; cbn [unregister_noted_in base_unregister]; [| |reflexivity].
  - unfold remove_by_label_noted, m_remove_by_label. destruct (find _ (m_labels m)) as [[l p]|]; [|reflexivity]. cbv zeta. destruct (has_pred _ p); reflexivity.
  - unfold remove_by_equality_noted, m_remove_by_equality. destruct (has_pred m p); [|reflexivity]. cbv zeta. destruct (find _ (m_labels m)) as [[l q]|]; reflexivity.
Qed.
Theorem register_encoder_same l v label r : unread_at (register_encoder_noted l v label r) = register_encoder l v label r.
Proof. unfold register_encoder_noted, register_encoder. cbv zeta. rewrite <- (register_in_same Encoders). destruct (register_noted_in _ _ l v label); reflexivity. Qed.
Theorem unregister_encoder_same l r : unread_at (unregister_encoder_noted l r) = unregister_encoder l r.
Proof. unfold unregister_encoder_noted, unregister_encoder. cbv zeta. rewrite <- (unregister_in_same Encoders). destruct (unregister_noted_in _ _ l); reflexivity. Qed.
Theorem register_decoder_same l v label r : unread_at (register_decoder_noted l v label r) = register_decoder l v label r.
Proof. unfold register_decoder_noted, register_decoder. cbv zeta. rewrite <- (register_in_same Decoders). destruct (register_noted_in _ _ l v label); reflexivity. Qed.
Theorem unregister_decoder_same l r : unread_at (unregister_decoder_noted l r) = unregister_decoder l r.
Proof. unfold unregister_decoder_noted, unregister_decoder. cbv zeta. rewrite <- (unregister_in_same Decoders). destruct (unregister_noted_in _ _ l); reflexivity. Qed.
Theorem register_same l e d label r : unread_at (register_noted l e d label r) = register l e d label r.
Proof.
  unfold register_noted, register. rewrite <- register_encoder_same. destruct (register_encoder_noted l e label r) as [[u|n] r1]; [|reflexivity]. apply register_decoder_same.
Qed.
Theorem unregister_same l r : unread_at (unregister_noted l r) = unregister l r.
Proof.
  unfold unregister_noted, unregister. rewrite <- unregister_encoder_same. destruct (unregister_encoder_noted l r) as [[u|n] r1]; [|reflexivity]. apply unregister_decoder_same.
Qed.

(** ** Lookups *)
Lemma scan_noted_done {V} (l : list (pred * V)) ts found : scan_noted l ts = Done found ->
  found = filter (fun pv => hit (fst pv) ts) l /\ forall p v, In (p, v) l -> raising p ts = false.
Proof.
  revert found. induction l as [|[p v] l IH]; intros found E; [inv E; split; [reflexivity|intros ? ? []]|]. cbn [scan_noted] in E.
  destruct (pred_call p ts) as [b|] eqn:C; [|discriminate]. destruct (scan_noted l ts) as [fd|]; [|discriminate]. destruct (IH fd eq_refl) as [-> N]. inv E. cbn [filter fst].
  assert (Hp : hit p ts = b) by (unfold hit; rewrite C; reflexivity). rewrite Hp. split; [destruct b; reflexivity|]. intros q u [H|H]; [inv H; unfold raising; rewrite C; reflexivity|exact (N q u H)].
Qed.
Lemma accepting_filter {V} (m : mapping V) s : accepting m s = map fst (filter (fun pv => hit (fst pv) s) (m_values m)).
Proof. unfold accepting. induction (m_values m) as [|[p v] l IH]; [reflexivity|]. cbn [map fst filter]. destruct (hit p s); cbn [map fst]; rewrite IH; reflexivity. Qed.
Lemma registration_true {V} t (m : mapping V) use ts s n : within s ts -> get_registration_noted t m s = Note n -> true_of t m use ts n.
Proof.
  intros W E. unfold get_registration_noted, find_noted in E. destruct (scan_noted (m_values m) s) as [[|[p v] [|x l]]|e says] eqn:S.
  - apply scan_noted_done in S. destruct S as [F N]. cbn [exc_of is_value_error quietly nbind] in E. destruct (parse s) as [T|x] eqn:P; inv E; [|constructor]. 
    apply (T_none t m use ts s T W); [apply parse_spec; exact P|]. intros p v H. specialize (N p v H). unfold raising in N. destruct (pred_call p s) as [b|] eqn:C; [|discriminate].
    destruct b; [|reflexivity]. exfalso. assert (I : In (p, v) []); [|destruct I]. rewrite F. apply filter_In. split; [exact H|]. cbn [fst]. unfold hit. rewrite C. reflexivity.
  - discriminate E.
  - apply scan_noted_done in S. destruct S as [F N].
    assert (K : true_of t m use ts (ManyMatch t s (map fst ((p, v) :: x :: l)))).
    { rewrite F, <- accepting_filter. apply T_many; [exact W|exact N|]. rewrite accepting_filter, map_length, <- F. cbn. lia. }
    cbn [exc_of is_value_error quietly nbind] in E. destruct (contains _ _); [|inv E; exact K]. destruct (parse s); inv E; [exact K|constructor].
  - destruct (is_value_error (exc_of (Other e))); [|inv E; constructor]. destruct says as [[]|x]; cbn [quietly nbind] in E; [|inv E; constructor..].
    destruct (parse s); inv E; constructor.
Qed.
Lemma registration_found {V} t (m : mapping V) s v : get_registration_noted t m s = Fine v ->
  none_raises m s /\ exists p, accepting m s = [p] /\ In (p, v) (m_values m).
Proof.
  intro E. unfold get_registration_noted, find_noted in E. destruct (scan_noted (m_values m) s) as [[|[p u] [|x l]]|e says] eqn:S.
  - cbn [exc_of is_value_error quietly nbind] in E. destruct (parse s); discriminate E.
  - inv E. apply scan_noted_done in S. destruct S as [F N]. split; [exact N|]. exists p. rewrite accepting_filter, <- F. split; [reflexivity|].
    apply (proj1 (filter_In (fun pv => hit (fst pv) s) (p, v) (m_values m))). rewrite <- F. left. reflexivity.
  - cbn [exc_of is_value_error quietly nbind] in E. destruct (contains _ _); [|discriminate E]. destruct (parse s); discriminate E.
  - destruct (is_value_error (exc_of (Other e))); [|discriminate E]. destruct says as [[]|x]; cbn [quietly nbind] in E; try discriminate E. destruct (parse s); discriminate E.
Qed.

(** What [checked] says. *)
Definition misfits (cls : string) (pu : purpose) (s : pystr) (n : notice) : Prop :=
  (exists e, n = Other e) \/ exists s' normal T why, n = Misfit cls s normal why /\ normalized s s' /\ shown s normal s' /\ g_type s' T /\ unfit pu T why.
Lemma misfit_says {A} cls pu s T why n : parse (normalize s) = Ok T -> unfit pu T why -> @misfit A cls s why = Note n -> misfits cls pu s n.
Proof.
  intros P U E. unfold misfit in E. inv E. right. exists (normalize s), (if str_eqb s (normalize s) then None else Some (normalize s)), T, why. split; [reflexivity|].
  split; [apply normalized_iff; reflexivity|]. split; [|split; [apply parse_spec; exact P|exact U]].
  destruct (str_eqb s (normalize s)) eqn:Q; [left|right]; (split; [reflexivity|]); [apply str_eqb_eq in Q; congruence|]. intro F. rewrite F, str_eqb_refl in Q. discriminate.
Qed.
Lemma checked_base cls b s n : checked cls (Some b) false s = Note n -> misfits cls (ForBase b) s n.
Proof.
  unfold checked. destruct (parse (normalize s)) as [T|e] eqn:P; [|intro E; inv E; left; eauto]. cbn [quietly nbind].
  destruct T as [b' sub arr|cs arr]; [|apply (misfit_says cls _ s _ NotBasic n P); constructor].
  destruct (str_eqb b' b) eqn:Q; cbn [negb nbind].
  - apply str_eqb_eq in Q. subst b'. cbn [arrlist_of andb]. destruct arr as [|a arr]; cbn [nbind].
    + destruct (validate_type _); intro E; inv E. left; eauto.
    + apply (misfit_says cls _ s _ HasDims n P). constructor. discriminate.
  - apply (misfit_says cls _ s _ (NotBase b) n P). constructor. intros ->. rewrite str_eqb_refl in Q. discriminate.
Qed.
Lemma checked_array cls s n : checked cls None true s = Note n -> misfits cls ForArrays s n.
Proof.
  unfold checked. destruct (parse (normalize s)) as [T|e] eqn:P; [|intro E; inv E; left; eauto]. cbn [quietly nbind negb andb].
  destruct (arrlist_of T) as [|a arr] eqn:A; cbn [negb nbind].
  - apply (misfit_says cls _ s _ LacksDims n P). destruct T; cbn [arrlist_of] in A; subst; constructor.
  - destruct (validate_type _); intro E; inv E. left; eauto.
Qed.
Lemma checked_tuple_says cls s n : checked_tuple cls s = Note n -> misfits cls ForTuples s n.
Proof.
  unfold checked_tuple. destruct (parse (normalize s)) as [[b sub arr|cs arr]|e] eqn:P; cbn [quietly nbind]; [|destruct (validate_type _)|]; try (intro E; inv E; left; eauto; fail).
  apply (misfit_says cls _ s _ NotTuple n P). constructor.
Qed.
Lemma bind_says {A B} (m : noted A) (f : A -> noted B) n (Q : notice -> Prop) : (m' <~ m ;; f m') = Note n -> (m = Note n -> Q n) -> (forall a, m = Fine a -> f a = Note n -> Q n) -> Q n.
Proof. destruct m; cbn; intros E H K; [exact (K a eq_refl E)|]. inv E. exact (H eq_refl). Qed.
Lemma quietly_says {A} (r : result A) n : quietly r = Note n -> exists e, n = Other e.
Proof. destruct r; intro E; inv E. eauto. Qed.
Lemma quiet_misfits {A} (r : result A) cls pu s n : quietly r = Note n -> misfits cls pu s n.
Proof. intro E. left. exact (quietly_says r n E). Qed.
Ltac leaf_says b :=
  let cls := match goal with L : nbind (checked ?cls _ _ _) _ = _ |- _ => cls end in
  let n := match goal with |- misfits _ _ _ ?n => n end in
  let s := match goal with |- misfits _ _ ?s _ => s end in
  match goal with L : nbind _ _ = _ |- _ => apply (bind_says _ _ n (misfits cls (ForBase b) s) L (checked_base cls b s n)); clear L end;
  let L' := fresh "L'" in intros ? _ L';
  first [discriminate L'
    | apply (bind_says _ _ n (misfits cls (ForBase b) s) L' (quiet_misfits _ cls (ForBase b) s n)); clear L';
      let a := fresh "a" in let L'' := fresh "L''" in intros a _ L''; first [exact (quiet_misfits _ cls (ForBase b) s n L'') | destruct a; exact (quiet_misfits _ cls (ForBase b) s n L'')]].
Lemma enc_leaf_says c s n pu : enc_leaf_noted c s = Some (Note n) -> purpose_of c = Some pu -> misfits (enc_name c) pu s n.
Proof.
  intros L U. destruct c; cbn [enc_leaf_noted purpose_of] in L, U; inv U; try discriminate L; injection L as L;
    match goal with |- misfits _ (ForBase ?b) _ _ => leaf_says b end.
Qed.
Lemma dec_leaf_says c s n pu : dec_leaf_noted c s = Some (Note n) -> purpose_of_decoder c = Some pu -> misfits (dec_name c) pu s n.
Proof.
  intros L U. destruct c; cbn [dec_leaf_noted purpose_of_decoder] in L, U; inv U; try discriminate L; injection L as L;
    match goal with |- misfits _ (ForBase ?b) _ _ => leaf_says b end.
Qed.
Lemma enc_use_class c pu : purpose_of c = Some pu -> enc_use (EClass c) = Some (enc_name c, pu).
Proof. intro U. unfold enc_use. rewrite U. destruct c; first [reflexivity|discriminate U]. Qed.
Lemma dec_use_class c pu : purpose_of_decoder c = Some pu -> dec_use (DClass c) = Some (dec_name c, pu).
Proof. intro U. unfold dec_use. rewrite U. destruct c; first [reflexivity|discriminate U]. Qed.
Lemma misfits_true {V} t (m : mapping V) use ts s p v cls pu n : within s ts -> none_raises m s -> accepting m s = [p] -> In (p, v) (m_values m) -> use v = Some (cls, pu) ->
  misfits cls pu s n -> true_of t m use ts n.
Proof. intros W N A I U [[e ->]|(s' & normal & T & why & -> & M1 & M2 & M3 & M4)]; [constructor|]. exact (T_misfit t m use ts s p v cls pu s' normal T why W N A I U M1 M2 M3 M4). Qed.

Lemma within_trans_component x s cs arr c : parse (normalize s) = Ok (Tup cs arr) -> In c cs -> within x (to_type_str c) -> within x s.
Proof. intros P I W. exact (within_component x s cs arr c P I W). Qed.
Lemma true_of_lift {V} t (m : mapping V) use a b n : (forall x, within x a -> within x b) -> true_of t m use a n -> true_of t m use b n.
Proof.
  intros L H. destruct H as [s T W G N|s W N H|s p v cls pu s' normal T why W N A I U M1 M2 M3 M4|e].
  - exact (T_none t m use b s T (L s W) G N).
  - exact (T_many t m use b s (L s W) N H).
  - exact (T_misfit t m use b s p v cls pu s' normal T why (L s W) N A I U M1 M2 M3 M4).
  - constructor.
Qed.
Lemma each_says {S A B} (f : A -> S -> noted B * S) (Inv : S -> Prop) (Q : notice -> Prop) l :
  (forall x s, In x l -> Inv s -> Inv (snd (f x s)) /\ forall n, fst (f x s) = Note n -> Q n) ->
  forall s, Inv s -> Inv (snd (each f l s)) /\ forall n, fst (each f l s) = Note n -> Q n.
Proof.
  induction l as [|x l IH]; intros H s I; [split; [exact I|discriminate]|]. cbn [each]. destruct (H x s (or_introl eq_refl) I) as [I1 Q1].
  destruct (f x s) as [[y|n] s1]; [|split; [exact I1|intros n' E; inv E; exact (Q1 n' eq_refl)]]. cbn [fst snd] in *. destruct (IH (fun x s i => H x s (or_intror i)) s1 I1) as [I2 Q2].
  destruct (each f l s1) as [[ys|n] s2]; split; try exact I2; [discriminate|intros n' E; inv E; exact (Q2 n' eq_refl)].
Qed.
Lemma checked_parses cls b w s T : checked cls b w s = Fine T -> parse (normalize s) = Ok T.
Proof.
  intro E. assert (P : parse_type_str b w s = Ok T) by (rewrite <- (checked_same cls), E; reflexivity). unfold parse_type_str in P. destruct (parse (normalize s)) as [t|e]; [|discriminate]. cbn [bind] in P.
  destruct (match b with None => _ | Some _ => _ end); [|discriminate]. cbn [bind] in P. cbv zeta in P. unfold raise_if in P. destruct (negb w && _); [discriminate|]. destruct (w && _); [discriminate|]. cbn [bind] in P.
  destruct (validate_type t); [|discriminate]. cbn [bind] in P. congruence.
Qed.
Lemma checked_tuple_parses cls s cs : checked_tuple cls s = Fine cs -> exists arr, parse (normalize s) = Ok (Tup cs arr).
Proof.
  unfold checked_tuple. destruct (parse (normalize s)) as [[b sub arr|cs' arr]|e]; cbn [quietly nbind]; [discriminate| |discriminate]. destruct (validate_type _); intro E; inv E. eauto.
Qed.

Lemma encoder_says f : forall ts r, r_encs (snd (get_encoder_noted_fuel f ts r)) = r_encs r
  /\ forall n, fst (get_encoder_noted_fuel f ts r) = Note n -> true_of Encoders (r_encs r) enc_use ts n.
Proof.
  induction f as [|f IH]; intros ts r; cbn [get_encoder_noted_fuel]; destruct (ecache_get _ _) as [e|]; try (split; [reflexivity|discriminate]).
  { split; [reflexivity|]. intros n E. inv E. constructor. }
  destruct (get_registration_noted Encoders (r_encs r) ts) as [[c|e]|n] eqn:G; [|split; [reflexivity|discriminate]|].
  2:{ split; [reflexivity|]. intros n' E. inv E. exact (registration_true Encoders (r_encs r) enc_use ts ts n' (within_self ts) G). }
  destruct (registration_found Encoders _ _ _ G) as [N (p & A & I)]. set (m := r_encs r) in *.
  assert (K : r_encs (snd (enc_built_noted (get_encoder_noted_fuel f) c ts r)) = m
    /\ forall n, fst (enc_built_noted (get_encoder_noted_fuel f) c ts r) = Note n -> true_of Encoders m enc_use ts n).
  { unfold enc_built_noted. destruct (enc_leaf_noted c ts) as [x|] eqn:L.
    - split; [reflexivity|]. cbn [fst]. intros n ->. destruct (purpose_of c) as [pu|] eqn:U.
      + apply (misfits_true Encoders m enc_use ts ts p (EClass c) (enc_name c) pu n (within_self ts) N A I); [exact (enc_use_class c _ U)|]. exact (enc_leaf_says c ts n pu L U).
      + destruct c; try discriminate U. cbn [enc_leaf_noted] in L. injection L as L. apply quietly_says in L. destruct L as [e ->]. constructor.
    - assert (Arr : purpose_of c = Some ForArrays ->
        let x := match (t <~ checked (enc_name c) None true ts ;; it <~ quietly (item_type t) ;; Fine (t, it)) with
          | Note n => (Note n, r)
          | Fine (t, it) =>
              match get_encoder_noted_fuel f (to_type_str it) r with
              | (Note n, s1) => (Note n, s1)
              | (Fine ie, s1) => (match c, last (arrlist_of t) None with CPackedArray, n => Fine (EPackedArr n ie) | _, Some n => quietly (mk_sized n ie) | _, None => Fine (EDyn ie) end, s1)
              end
          end in r_encs (snd x) = m /\ forall n, fst x = Note n -> true_of Encoders m enc_use ts n).
      { intro U. cbv zeta. destruct (checked (enc_name c) None true ts) as [t|n] eqn:C; cbn [nbind].
        2:{ split; [reflexivity|]. intros n' E. inv E. apply (misfits_true Encoders m enc_use ts ts p (EClass c) (enc_name c) ForArrays n' (within_self ts) N A I); [exact (enc_use_class c _ U)|]. exact (checked_array _ _ _ C). }
        destruct (item_type t) as [it|e] eqn:It; cbn [quietly nbind]; [|split; [reflexivity|intros n E; inv E; constructor]].
        destruct (IH (to_type_str it) r) as [R Q]. destruct (get_encoder_noted_fuel f (to_type_str it) r) as [[ie|n] r1]; cbn [fst snd] in *; (split; [exact R|]).
        - intros n E. destruct c; try discriminate U; destruct (last (arrlist_of t) None); try discriminate E; apply quietly_says in E; destruct E as [e ->]; constructor.
        - intros n' E. apply (true_of_lift Encoders m enc_use (to_type_str it) ts n'); [|exact (Q n' E)]. intros x W. exact (within_item x ts t it (checked_parses _ _ _ _ _ C) It W). }
      destruct c; try discriminate L; try exact (Arr eq_refl). clear Arr. cbn zeta.
      destruct (checked_tuple (enc_name CTuple) ts) as [cs|n] eqn:C.
      2:{ split; [reflexivity|]. intros n' E. inv E. apply (misfits_true Encoders m enc_use ts ts p (EClass CTuple) (enc_name CTuple) ForTuples n' (within_self ts) N A I eq_refl). exact (checked_tuple_says _ _ _ C). }
      destruct (checked_tuple_parses _ _ _ C) as [arr P].
      destruct (each_says (get_encoder_noted_fuel f) (fun r' => r_encs r' = m) (true_of Encoders m enc_use ts) (map to_type_str cs)) with (s := r) as [R Q]; [|reflexivity|].
      { intros x r' J Er. destruct (IH x r') as [R Q]. rewrite Er in R, Q. split; [exact R|]. intros n E. apply (true_of_lift Encoders m enc_use x ts n); [|exact (Q n E)].
        intros y W. apply in_map_iff in J. destruct J as (c & <- & J). exact (within_component y ts cs arr c P J W). }
      destruct (each _ _ r) as [[es|n] r1]; (split; [exact R|]); [discriminate|intros n' E; inv E; exact (Q n' eq_refl)]. }
  destruct (enc_built_noted _ c ts r) as [[e|n] r1]; cbn [fst snd] in K; destruct K as [K1 K2]; (split; [exact K1|]); [discriminate|exact K2].
Qed.
Theorem get_encoder_says ts r n : fst (get_encoder_noted ts r) = Note n -> true_of Encoders (r_encs r) enc_use ts n.
Proof. apply encoder_says. Qed.

Lemma decoder_says f : forall k ts w, r_decs (fst (snd (get_decoder_noted_fuel f k ts w))) = r_decs (fst w)
  /\ forall n, fst (get_decoder_noted_fuel f k ts w) = Note n -> true_of Decoders (r_decs (fst w)) dec_use ts n.
Proof.
  induction f as [|f IH]; intros k ts w; cbn [get_decoder_noted_fuel]; destruct (dcache_get _ _) as [e|]; try (split; [reflexivity|discriminate]).
  { split; [reflexivity|]. intros n E. inv E. constructor. }
  destruct (get_registration_noted Decoders (r_decs (fst w)) ts) as [[c|d]|n] eqn:G.
  3:{ split; [reflexivity|]. intros n' E. inv E. exact (registration_true Decoders (r_decs (fst w)) dec_use ts ts n' (within_self ts) G). }
  2:{ destruct (dec_is_dyn d); [destruct (set_strict d _ (snd w))|]; (split; [reflexivity|discriminate]). }
  destruct (registration_found Decoders _ _ _ G) as [N (p & A & I)]. set (m := r_decs (fst w)) in *.
  assert (K : r_decs (fst (snd (dec_built_noted (get_decoder_noted_fuel f None) c ts w))) = m
    /\ forall n, fst (dec_built_noted (get_decoder_noted_fuel f None) c ts w) = Note n -> true_of Decoders m dec_use ts n).
  { unfold dec_built_noted. destruct (dec_leaf_noted c ts) as [x|] eqn:L.
    - split; [reflexivity|]. cbn [fst]. intros n ->. destruct (purpose_of_decoder c) as [pu|] eqn:U.
      + apply (misfits_true Decoders m dec_use ts ts p (DClass c) (dec_name c) pu n (within_self ts) N A I); [exact (dec_use_class c _ U)|]. exact (dec_leaf_says c ts n pu L U).
      + destruct c; try discriminate U. cbn [dec_leaf_noted] in L. injection L as L. apply quietly_says in L. destruct L as [e ->]. constructor.
    - destruct c; try discriminate L; cbn zeta.
      + destruct (checked_tuple (dec_name CDTuple) ts) as [cs|n] eqn:C.
        2:{ split; [reflexivity|]. intros n' E. inv E. apply (misfits_true Decoders m dec_use ts ts p (DClass CDTuple) (dec_name CDTuple) ForTuples n' (within_self ts) N A I eq_refl). exact (checked_tuple_says _ _ _ C). }
        destruct (checked_tuple_parses _ _ _ C) as [arr P].
        destruct (each_says (get_decoder_noted_fuel f None) (fun w' => r_decs (fst w') = m) (true_of Decoders m dec_use ts) (map to_type_str cs)) with (s := w) as [R Q]; [|reflexivity|].
        { intros x w' J Er. destruct (IH None x w') as [R Q]. rewrite Er in R, Q. split; [exact R|]. intros n E. apply (true_of_lift Decoders m dec_use x ts n); [|exact (Q n E)].
          intros y W. apply in_map_iff in J. destruct J as (c & <- & J). exact (within_component y ts cs arr c P J W). }
        destruct (each _ _ w) as [[es|n] w1]; (split; [exact R|]); [discriminate|intros n' E; inv E; exact (Q n' eq_refl)].
      + destruct (checked (dec_name CDBaseArray) None true ts) as [t|n] eqn:C; cbn [nbind].
        2:{ split; [reflexivity|]. intros n' E. inv E. apply (misfits_true Decoders m dec_use ts ts p (DClass CDBaseArray) (dec_name CDBaseArray) ForArrays n' (within_self ts) N A I eq_refl). exact (checked_array _ _ _ C). }
        destruct (item_type t) as [it|e] eqn:It; cbn [quietly nbind]; [|split; [reflexivity|intros n E; inv E; constructor]].
        destruct (IH None (to_type_str it) w) as [R Q]. destruct (get_decoder_noted_fuel f None (to_type_str it) w) as [[id|n] w1]; cbn [fst snd] in *; (split; [exact R|]).
        * intros n E. destruct (last (arrlist_of t) None); apply quietly_says in E; destruct E as [e ->]; constructor.
        * intros n' E. apply (true_of_lift Decoders m dec_use (to_type_str it) ts n'); [|exact (Q n' E)]. intros x W. exact (within_item x ts t it (checked_parses _ _ _ _ _ C) It W). }
  destruct (dec_built_noted _ c ts w) as [[d|n] w1]; cbn [fst snd] in K; destruct K as [K1 K2].
  - destruct (dec_is_dyn d); [destruct (set_strict d _ (snd w1))|]; (split; [exact K1|discriminate]).
  - split; [exact K1|exact K2].
Qed.
Theorem get_decoder_says k ts w n : fst (get_decoder_noted k ts w) = Note n -> true_of Decoders (r_decs (fst w)) dec_use ts n.
Proof. apply decoder_says. Qed.

(** ** Every failing lookup of these kinds has its message *)
Theorem none_said ts r T : ecache_get (r_ecache r) ts = None -> (forall p v, In (p, v) (m_values (r_encs r)) -> pred_call p ts = Done false) -> g_type ts T ->
  fst (get_encoder_noted ts r) = Note (NoMatch Encoders ts).
Proof.
  intros C N G. apply parse_spec in G. unfold get_encoder_noted. cbn [get_encoder_noted_fuel]. rewrite C. unfold get_registration_noted, find_noted.
  assert (S : scan_noted (m_values (r_encs r)) ts = Done []).
  { induction (m_values (r_encs r)) as [|[p v] l IH]; [reflexivity|]. cbn [scan_noted]. rewrite (N p v (or_introl eq_refl)), IH; [reflexivity|]. intros q u H. exact (N q u (or_intror H)). }
  rewrite S. cbn [exc_of is_value_error quietly nbind]. rewrite G. reflexivity.
Qed.

(** ** Registration and removal *)
Lemma has_pred_false {V} (m : mapping V) p : has_pred m p = false <-> forall q v, In (q, v) (m_values m) -> pred_eqb q p = false.
Proof.
  unfold has_pred. split.
  - intros E q v I. destruct (pred_eqb q p) eqn:Q; [|reflexivity]. assert (X : existsb (fun pv => pred_eqb (fst pv) p) (m_values m) = true) by (apply existsb_exists; exists (q, v); auto). congruence.
  - intro H. destruct (existsb _ _) eqn:E; [|reflexivity]. apply existsb_exists in E. destruct E as ([q v] & I & Q). cbn [fst] in Q. rewrite (H q v I) in Q. discriminate.
Qed.
Lemma has_pred_true {V} (m : mapping V) p : has_pred m p = true <-> exists q v, In (q, v) (m_values m) /\ pred_eqb q p = true.
Proof.
  unfold has_pred. rewrite existsb_exists. split; [intros ([q v] & I & Q); eauto|intros (q & v & I & Q); exists (q, v); auto].
Qed.
Lemma has_label_true {V} (m : mapping V) l : has_label m l = true <-> exists q, In (l, q) (m_labels m).
Proof.
  unfold has_label. rewrite existsb_exists. split; [intros ([l' q] & I & Q); apply str_eqb_eq in Q; cbn in Q; subst; eauto|intros (q & I); exists (l, q); split; [exact I|apply str_eqb_refl]].
Qed.
Lemma add_says {V} t (m : mapping V) p v label n : fst (add_noted t m p v label) = Note n <-> objection_to_add t m p label n.
Proof.
  unfold add_noted. destruct (has_pred m p) eqn:H.
  - split.
    + intro E. cbn [fst] in E. inv E. apply has_pred_true in H. destruct H as (q & u & I & Q). exact (A_matcher t m p label q u I Q).
    + intros [q u I Q|l q N E I]; [reflexivity|]. rewrite (proj2 (has_pred_false m p) N) in H. discriminate.
  - pose proof (proj1 (has_pred_false m p) H) as N. split.
    + destruct label as [l|]; [|discriminate]. destruct (has_label m l) eqn:L; [|discriminate]. intro E. cbn [fst] in E. inv E. apply has_label_true in L. destruct L as [q I]. exact (A_label t m p (Some l) l q N eq_refl I).
    + intros [q u I Q|l q _ -> I]; [rewrite (N q u I) in Q; discriminate|]. rewrite (proj2 (has_label_true m l) (ex_intro _ q I)). reflexivity.
Qed.
Theorem register_in_says {V} t (m : mapping V) l v label n : fst (register_noted_in t m l v label) = Note n <-> objection_to_register t m label l n.
Proof.
  destruct l as [s|p|]; cbn [register_noted_in].
  - rewrite add_says. split; [apply OR_string|intro H; inv H; assumption].
  - rewrite add_says. split; [apply OR_matcher|intro H; inv H; assumption].
  - split; [intro E; cbn in E; inv E; constructor|intro H; inv H; reflexivity].
Qed.
Lemma label_once (ls : list (pystr * pred)) s p q : NoDup (map fst ls) -> In (s, p) ls -> In (s, q) ls -> p = q.
Proof.
  induction ls as [|[a b] ls IH]; intros D I J; [destruct I|]. cbn [map fst] in D. apply NoDup_cons_iff in D. destruct D as [N D]. destruct I as [I|I], J as [J|J]; [congruence| | |exact (IH D I J)].
  - injection I as -> ->. destruct N. apply (in_map fst) in J. exact J.
  - injection J as -> ->. destruct N. apply (in_map fst) in I. exact I.
Qed.
Theorem unregister_in_says {V} t (m : mapping V) l n : NoDup (map fst (m_labels m)) ->
  fst (unregister_noted_in t m l) = Note n <-> objection_to_unregister t m l n.
Proof.
  intro D. destruct l as [s|p|]; cbn [unregister_noted_in].
  - unfold remove_by_label_noted. destruct (find _ (m_labels m)) as [[l p]|] eqn:F.
    + apply find_some in F. cbn [fst] in F. destruct F as [I Q]. apply str_eqb_eq in Q. subst l. cbv zeta. destruct (has_pred _ p) eqn:H; cbn [fst].
      * apply has_pred_true in H. destruct H as (q & v & Iq & Q). cbn [m_values] in Iq. split; [discriminate|]. intro O. inversion O as [|? NL|? p0 Ip N|]; subst; [destruct (NL p I)|].
        rewrite (label_once (m_labels m) s p0 p D Ip I) in N. rewrite (N q v Iq) in Q. discriminate.
      * pose proof (proj1 (has_pred_false _ p) H) as N. cbn [m_values] in N. split; intro O; [inv O; exact (OU_orphan t m s p I N)|]. inversion O as [|? NL|? p0 Ip N'|]; subst; [destruct (NL p I)|reflexivity].
    + assert (N : forall q, ~ In (s, q) (m_labels m)). { intros q I. apply (find_none _ _ F) in I. cbn [fst] in I. rewrite str_eqb_refl in I. discriminate. }
      split; intro O; [cbn in O; inv O; exact (OU_label t m s N)|]. inv O; [reflexivity|]. exfalso. eapply N. eassumption.
  - unfold remove_by_equality_noted. destruct (has_pred m p) eqn:H.
    + cbv zeta. destruct (find _ (m_labels m)) as [[l q]|]; (split; [discriminate|]); intro O; inv O; match goal with N : _ |- _ => rewrite (proj2 (has_pred_false m p) N) in H end; discriminate.
    + split; intro O; [cbn in O; inv O; apply OU_matcher; apply has_pred_false; exact H|inv O; reflexivity].
  - split; [intro E; cbn in E; inv E; constructor|intro H; inv H; reflexivity].
Qed.
