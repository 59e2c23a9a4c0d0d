(** Decoders without shared strict flags do not depend on earlier calls, and
    caching is unobservable along any history. *)
From Coq Require Import Strings.Byte Strings.String.
From Verif Require Import Tac Bytes Grammar Encoding Decoding Registry RaisingSpec Codec Histories Spec TypeSpec
  EncodeProofs DecodeProofs DecodeFacts2 CacheProofs LookupProofs TypeProofs ApiProofs HistoryProofs.
Open Scope Z_scope.

Lemma bind_ext {A B} (r : result A) (f g : A -> result B) : (forall x, f x = g x) -> bind r f = bind r g.
Proof. intro H. destruct r; [apply H|reflexivity]. Qed.
Lemma loop_pos_ext {S} p (f g : S -> result S) : (forall s, f s = g s) -> forall s, loop_pos p f s = loop_pos p g s.
Proof.
  intro H. induction p as [p IH|p IH|]; intro s; cbn [loop_pos].
  - rewrite H. apply bind_ext. intro. rewrite IH. apply bind_ext. intro. apply IH.
  - rewrite IH. apply bind_ext. intro. apply IH.
  - apply H.
Qed.
Lemma loop_items_ext n f g st : (forall s, f s = g s) -> loop_items n f st = loop_items n g st.
Proof.
  intro H. unfold loop_items. f_equal. destruct n; try reflexivity. cbn [loop_Z]. apply loop_pos_ext. intros [l s]. cbn [snd fst].
  rewrite H. reflexivity.
Qed.
Theorem decode_no_ref d h h' : no_ref d = true -> forall buf st, decode_with h d buf st = decode_with h' d buf st.
Proof.
  induction d as [b|b| | |b n|b n|b|s|s f|d IH|ds IH|n d IH|d IH|f|b s f] using decoder_ind'; intros B buf st; try reflexivity.
  - destruct s; [reflexivity|discriminate].
  - destruct s; [reflexivity|discriminate].
  - cbn [decode_with]. apply bind_ext. intros [p s1]. apply bind_ext. intro s2. rewrite (IH B). reflexivity.
  - cbn [no_ref] in B. cbn [decode_with].
    match goal with |- bind (?vp ds st) _ = bind (?vp' ds st) _ => assert (E1 : forall l, incl l ds -> forall s, vp l s = vp' l s) end.
    { induction l as [|d l IHl]; intros I s; [reflexivity|]. rewrite Forall_forall in IH. rewrite forallb_forall in B.
      assert (Id : In d ds) by (apply I; left; reflexivity). rewrite (IH d Id (B d Id)). apply bind_ext. intro s1. apply IHl.
      intros x Hx. apply I. right. exact Hx. }
    rewrite (E1 ds (incl_refl _)). apply bind_ext. intro s1. apply bind_ext. intro s2.
    match goal with |- bind (?go ds s2) _ = bind (?go' ds s2) _ => assert (E2 : forall l, incl l ds -> forall s, go l s = go' l s) end.
    { induction l as [|d l IHl]; intros I s; [reflexivity|]. rewrite Forall_forall in IH. rewrite forallb_forall in B.
      assert (Id : In d ds) by (apply I; left; reflexivity). rewrite (IH d Id (B d Id)). apply bind_ext. intros [v s3].
      rewrite IHl; [reflexivity|]. intros x Hx. apply I. right. exact Hx. }
    rewrite (E2 ds (incl_refl _)). reflexivity.
  - cbn [decode_with]. apply bind_ext. intro s1. rewrite (loop_items_ext n _ _ s1 (IH B buf)). reflexivity.
  - cbn [decode_with]. apply bind_ext. intros [n s1]. apply bind_ext. intro s2. apply bind_ext. intro s3.
    rewrite (loop_items_ext n _ _ s3 (IH B buf)). reflexivity.
  - destruct s; [reflexivity|discriminate].
Qed.

(** ** Lookups in a registry without shared flags *)
Definition clean (m : mapping dec_reg) : Prop := Forall (fun pv => unshared (snd pv)) (m_values m).
Lemma find_unshared m ts v : clean m -> base_get_registration m ts = Ok v -> unshared v.
Proof.
  intros C. unfold base_get_registration. destruct (m_find m ts) as [x|e says] eqn:F.
  - intro H. inv H. rewrite m_find_spec in F. destruct (first_raise _ _) as [[? ?]|]; [discriminate|]. destruct (map snd _) as [|y [|z l]] eqn:M; inv F.
    assert (I : In v (map snd (filter (fun pv => hit (fst pv) ts) (m_values m)))) by (rewrite M; left; reflexivity).
    apply in_map_iff in I. destruct I as (pv & <- & I). apply filter_In in I. destruct I as [I _]. unfold clean in C. rewrite Forall_forall in C. auto.
  - cbn [reparsed]. destruct (is_value_error e); [|discriminate]. destruct says as [[]|]; cbn [bind]; [destruct (parse ts)|..]; discriminate.
Qed.
Lemma wrap_no_ref d : no_ref (wrap d) = no_ref d.
Proof. unfold wrap. destruct (dec_is_dyn d); reflexivity. Qed.
Lemma with_strict_no_ref k d : no_ref d = true -> no_ref (with_strict k d) = true.
Proof.
  intro H. unfold with_strict. destruct (dec_is_dyn d); [|exact H].
  destruct d as [| | | | | | |[]|[]| | | | | |[] []]; try exact H; try reflexivity; discriminate H.
Qed.
Lemma mk_dtuple_no_ref ds : Forall (fun d => no_ref d = true) ds -> no_ref (mk_dtuple ds) = true.
Proof. intro F. cbn [mk_dtuple no_ref]. unfold mk_dtuple. cbn [no_ref]. induction F; [reflexivity|]. cbn [map forallb]. rewrite wrap_no_ref, H. assumption. Qed.
Lemma mk_item_no_ref d d' : mk_item d = Ok d' -> no_ref d = true -> no_ref d' = true.
Proof. unfold mk_item. destruct (dec_dyn_attr d) as [[]|]; intros E H; inv E; exact H. Qed.
Lemma sequence_forall {A} (P : A -> Prop) (f : pystr -> result A) l : (forall s x, In s l -> f s = Ok x -> P x) ->
  forall ys u u', sequenceM (lift f) l u = (Ok ys, u') -> Forall P ys.
Proof.
  intro H. induction l as [|s l IH]; intros ys u u' E; [inv E; constructor|]. cbn [sequenceM lift] in E.
  destruct (f s) as [y|e] eqn:F; [|discriminate]. destruct (sequenceM (lift f) l u) as [[ys'|e] u2] eqn:S; inv E.
  constructor; [eapply H; [left; reflexivity|exact F]|]. eapply IH; [|exact S]. intros s' x I. apply H. right. exact I.
Qed.
Theorem find_no_ref m : clean m -> forall n k ts d, (opens ts <= n)%nat -> find_decoder m k ts = Ok d -> no_ref d = true.
Proof.
  intros C n. induction n as [n IH] using lt_wf_ind. intros k ts d Hn. rewrite find_decoder_eq.
  destruct (base_get_registration m ts) as [v|e] eqn:B; [|discriminate]. apply find_unshared in B; [|exact C].
  assert (Fin : forall r : result decoder, (forall x, r = Ok x -> no_ref x = true) ->
    match r with Err e => Err e | Ok d => Ok (with_strict k d) end = Ok d -> no_ref d = true).
  { intros [x|e] Hx E; inv E. apply with_strict_no_ref. apply Hx. reflexivity. }
  destruct v as [c|d0]; [|intro E; inv E; apply with_strict_no_ref; exact B].
  apply Fin. intros x. unfold dec_from_type_str.
  destruct (dec_leaf_from_type_str c ts) as [r|] eqn:L.
  { cbn [fst]. intros ->. assert (K : forall A (r : result A) (f : A -> result decoder), bind r f = Ok x -> exists y, f y = Ok x)
      by (intros A r f E; destruct r as [y|]; [exists y; exact E|discriminate]).
    destruct c; cbn [dec_leaf_from_type_str] in L; try discriminate L; try (injection L as L);
    try solve [repeat (apply K in L; destruct L as [? L]; try (match type of L with context[let '(_, _) := ?y in _] => destruct y end)); inv L; reflexivity].
    cbn [unshared] in B. eapply B. exact L. }
  assert (Rec : forall s y, (opens s < opens ts)%nat -> find_decoder m None s = Ok y -> no_ref y = true)
    by (intros s y Hs; apply (IH (opens s)); lia).
  assert (Arr : fst match (t <- parse_type_str None true ts;; it <- item_type t;; Ok (t, it)) with
    | Err e => (Err e, tt)
    | Ok (t, it) => match lift (find_decoder m None) (to_type_str it) tt with
                    | (Err e, s1) => (Err e, s1)
                    | (Ok id, s1) => (match last (arrlist_of t) None with
                                      | Some n => mk_dsized n id
                                      | None => mk_ddyn id
                                      end, s1)
                    end
    end = Ok x -> no_ref x = true).
  { destruct (t <- parse_type_str None true ts;; it <- item_type t;; Ok (t, it)) as [[t it]|e] eqn:P; [|discriminate].
    unfold lift. destruct (find_decoder m None (to_type_str it)) as [y|e] eqn:F; [|discriminate]. cbn [fst].
    apply Rec in F; [|apply (array_item _ _ _ P)].
    destruct (last (arrlist_of t) None); cbn [mk_dsized mk_ddyn]; unfold mk_dsized, mk_ddyn;
      (destruct (mk_item y) as [y'|] eqn:M; [|discriminate]; cbn [bind]; intro E; inv E; cbn [no_ref]; eapply mk_item_no_ref; eassumption). }
  destruct c; try exact Arr.
  destruct (parse_tuple_type_str ts) as [cs|e] eqn:P; [|discriminate]. apply tuple_components in P. rewrite Forall_forall in P.
  destruct (sequenceM (lift (find_decoder m None)) (map to_type_str cs) tt) as [[ys|e] u] eqn:S; [|discriminate]. cbn [fst].
  intro E. inv E. apply mk_dtuple_no_ref. eapply sequence_forall; [|exact S]. intros s y I. apply Rec. apply P. exact I.
Qed.

(** ** decode as a function of the registrations *)
Definition pure_decode (m : mapping dec_reg) (types data : pyval) (strict : bool) : result pyval :=
  ' (ds, b) <- pure_decoders m types data strict ;;
  ' (v, _) <- decode_with [] (mk_dtuple ds) b new_stream ;; Ok v.
Lemma mapM_forall {A B} (f : A -> result B) (P : B -> Prop) l : (forall x y, f x = Ok y -> P y) -> forall ys, mapM f l = Ok ys -> Forall P ys.
Proof.
  intro H. induction l as [|x l IH]; intros ys E; [inv E; constructor|]. cbn [mapM] in E. destruct (f x) as [y|] eqn:F; [|discriminate].
  cbn [bind] in E. destruct (mapM f l) as [ys'|] eqn:M; [|discriminate]. cbn [bind] in E. inv E. constructor; [eapply H; exact F|auto].
Qed.
Lemma api_decode_value types data strict w : dcache_ok (fst w) -> unshared_registry (fst w) ->
  exists w', api_decode types data strict w = (pure_decode (r_decs (fst w)) types data strict, w')
    /\ same_but_dcache (fst w) (fst w') /\ dcache_ok (fst w').
Proof.
  intros H C. destruct (api_decode_pure types data strict w H) as (w' & E & S). exists w'. split; [|exact S]. rewrite E. f_equal.
  unfold pure_decode. destruct (pure_decoders (r_decs (fst w)) types data strict) as [[ds b]|e] eqn:P; [|reflexivity]. cbn [bind].
  rewrite (decode_no_ref (mk_dtuple ds) (snd w') []); [reflexivity|]. apply mk_dtuple_no_ref. unfold pure_decoders in P.
  destruct (validate_list_like_param types) as [l|]; [|discriminate]. destruct (validate_bytes_param data); [|discriminate]. cbn [bind] in P.
  destruct (mapM _ l) as [ds'|] eqn:M; [|discriminate]. inv P. eapply mapM_forall; [|exact M].
  intros x y F. destruct x; try discriminate F. eapply find_no_ref; [exact C|reflexivity|exact F].
Qed.
Lemma std_clean pk : clean (decs_of pk).
Proof. destruct pk; [constructor|]. unfold clean. change (decs_of false) with decs. rewrite decs_values. repeat constructor. Qed.
Lemma decode_used w types data strict : used false w -> decode_in w types data strict = pure_decode decs types data strict.
Proof.
  intro U. apply used_spec in U. destruct U as (_ & D & [_ C]). unfold decode_in.
  destruct (api_decode_value types data strict w C) as (w' & E & _); [unfold unshared_registry; rewrite D; apply (std_clean false)|].
  rewrite E, D. reflexivity.
Qed.

(** ** Histories *)
Lemma reachable_caches w : reachable w -> caches_ok (fst w).
Proof.
  induction 1 as [h|o w R IH|w R IH]; [split; [apply ecache_nil|apply dcache_nil]; reflexivity|apply run_caches; exact IH|].
  split; [apply ecache_nil|apply dcache_nil]; reflexivity.
Qed.
Lemma reachable_after ops w : reachable w -> reachable (after ops w).
Proof. revert w. induction ops as [|o ops IH]; intros w R; [exact R|]. apply IH. apply R_run. exact R. Qed.
