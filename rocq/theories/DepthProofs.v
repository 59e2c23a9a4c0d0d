(** Coders with a limit on their levels compared with coders without. *)
From Coq Require Import Strings.Byte Strings.String.
From Verif Require Import Tac Bytes BytesProofs Utf8 Address Decimals Encoding Decoding Spec GrammarSpec TypeSpec Registry Codec Histories
  DecLeafProofs DecodeProofs EncodeProofs DecodeFacts2 CacheProofs LookupProofs ApiProofs HistoryProofs DecodeApi ReadSpec ReadProofs CostSpec CostProofs
  LimitsProofs Depth DepthSpec.
Open Scope Z_scope.

(** Same result, or RuntimeError: if [P], or if [Q] and the other is an error of
    the encoders. *)
Definition close {A} (P Q : Prop) (r r' : result A) : Prop :=
  r' = r \/ (r' = Err RuntimeError /\ (P \/ (Q /\ exists x, r = Err x /\ is_encoding_error x = true))).
Lemma close_refl A (P Q : Prop) (r : result A) : close P Q r r. Proof. left. reflexivity. Qed.
Lemma close_mono A (P Q P' Q' : Prop) (r r' : result A) : (P -> P') -> (Q -> Q') -> close P Q r r' -> close P' Q' r r'.
Proof. intros HP HQ [E|(E & [p|(q & X)])]; [left; exact E|right; auto|right; auto]. Qed.
Lemma close_bind A B (P Q : Prop) (r r' : result A) (f g : A -> result B) :
  close P Q r r' -> (forall x, close P Q (f x) (g x)) -> close P Q (bind r f) (bind r' g).
Proof.
  intros [->|(-> & [p|(q & x & -> & X)])] H.
  - destruct r as [x|e]; cbn [bind]; [apply H|apply close_refl].
  - right. split; [reflexivity|auto].
  - right. split; [reflexivity|]. right. split; [exact q|]. exists x. auto.
Qed.
Lemma close_level A (P Q : Prop) n (r : result A) : (n = O -> P) -> close P Q r (at_level n r).
Proof. intro H. destruct n; [right; split; [reflexivity|auto]|apply close_refl]. Qed.
Lemma close_ok A (P Q : Prop) (r r' : result A) x : close P Q r r' -> r = Ok x -> r' = Ok x \/ r' = Err RuntimeError.
Proof. intros [->|(-> & _)] ->; auto. Qed.

(** ** Decoding *)
Fixpoint dlev (d : decoder) : nat :=
  match d with
  | DByteString _ | DString _ _ => 2
  | DHeadTail d | DSized _ d | DDyn d => S (dlev d)
  | DTuple ds => S (fold_right (fun d m => Nat.max (dlev d) m) O ds)
  | _ => 1
  end.
Lemma dlev_pos d : (1 <= dlev d)%nat.
Proof. destruct d; cbn [dlev]; lia. Qed.
Lemma dlev_in d ds : In d ds -> (dlev d <= fold_right (fun d m => Nat.max (dlev d) m) O ds)%nat.
Proof. induction ds as [|x ds IH]; intros H; [destruct H|]. cbn [fold_right]. destruct H as [->|H]; [lia|]. specialize (IH H). lia. Qed.

Lemma close_loop {S} (P Q : Prop) k (f g : S -> result S) : (forall s, close P Q (f s) (g s)) -> forall s, close P Q (loop_Z k f s) (loop_Z k g s).
Proof.
  intros H s. rewrite !loop_Z_iterM. generalize (Z.to_nat k). intro n. revert s. induction n as [|n IH]; intro s; [apply close_refl|].
  cbn [iterM]. apply close_bind; [apply H|exact IH].
Qed.
Lemma close_loop_items (P Q : Prop) k f g st : (forall st, close P Q (f st) (g st)) -> close P Q (loop_items k f st) (loop_items k g st).
Proof.
  intro H. unfold loop_items. apply close_bind; [|intros [acc st']; apply close_refl]. apply close_loop. intros s.
  apply close_bind; [apply H|]. intros [v st']. apply close_refl.
Qed.
Lemma close_pointers (P Q : Prop) n ht k buf st : (n = O -> P) -> close P Q (array_validate_pointers ht k buf st) (deep_pointers n ht k buf st).
Proof.
  intro H. unfold array_validate_pointers, deep_pointers. destruct ht; [|apply close_refl].
  apply close_bind; [|intro; apply close_refl]. apply close_loop. intro s. apply close_level. exact H.
Qed.

Section Deep.
Variables (h : heap) (buf : bytes).
Section Check.
Variables (n : nat) (start hi : Z).
Fixpoint vpd (ds : list decoder) (st : stream) : result stream :=
  match ds with
  | [] => Ok st
  | d :: ds' =>
      st' <- (if is_headtail d then at_level n (check_pointer buf start hi st)
              else ' (_, st') <- decode_deep h d n buf st ;; Ok st') ;;
      vpd ds' st'
  end.
Fixpoint god (ds : list decoder) (st : stream) : result (list pyval * stream) :=
  match ds with
  | [] => Ok ([], st)
  | d :: ds' =>
      ' (v, st') <- decode_deep h d n buf st ;;
      ' (vs, st'') <- god ds' st' ;;
      Ok (v :: vs, st'')
  end.
End Check.
Lemma deep_tuple_eq n ds st : decode_deep h (DTuple ds) (S n) buf st =
  (st1 <- vpd n (pos st) (pos st + 32 * fold_right (fun d acc => array_size_attr d + acc) 0 ds) ds st ;;
   st2 <- seek (pos st) st1 ;;
   ' (vs, st3) <- god n ds st2 ;;
   Ok (PTuple vs, st3)).
Proof. reflexivity. Qed.

Definition dclose (n : nat) (d : decoder) : Prop :=
  forall st, close (n < dlev d)%nat False (decode_with h d buf st) (decode_deep h d n buf st).
Lemma dmono n d (P : Prop) : dclose n d -> ((n < dlev d)%nat -> P) -> forall st,
  close P False (decode_with h d buf st) (decode_deep h d n buf st).
Proof. intros C M st. exact (close_mono _ _ False P False _ _ M (fun x => x) (C st)). Qed.
Lemma close_vpd n (P : Prop) start hi ds : (forall d, In d ds -> dclose n d /\ ((n < dlev d)%nat -> P)) -> forall st,
  close P False (vp h buf start hi ds st) (vpd n start hi ds st).
Proof.
  induction ds as [|d ds IH]; intros H st; [apply close_refl|]. cbn [vp vpd].
  destruct (H d (or_introl eq_refl)) as [C M].
  apply close_bind; [|intro st'; apply IH; intros d' Hi; apply H; right; exact Hi].
  destruct (is_headtail d).
  - apply close_level. intros ->. apply M. apply dlev_pos.
  - apply close_bind; [|intros [v st']; apply close_refl]. apply dmono; assumption.
Qed.
Lemma close_god n (P : Prop) ds : (forall d, In d ds -> dclose n d /\ ((n < dlev d)%nat -> P)) -> forall st,
  close P False (go h buf ds st) (god n ds st).
Proof.
  induction ds as [|d ds IH]; intros H st; [apply close_refl|]. cbn [go god].
  destruct (H d (or_introl eq_refl)) as [C M].
  apply close_bind; [apply dmono; assumption|]. intros [v st'].
  apply close_bind; [apply IH; intros d' Hi; apply H; right; exact Hi|]. intros [vs st'']. apply close_refl.
Qed.
Theorem deep_close d : forall n, dclose n d.
Proof.
  induction d as [b|b| | |b k|b k|b|s|s f|d IH|ds IH|k d IH|d IH|f|b s f] using decoder_ind'; intros [|n] st;
    try (right; split; [reflexivity|]; left; pose proof (dlev_pos (DTuple ds)); cbn [dlev] in *; lia);
    try (right; split; [reflexivity|]; left; cbn [dlev]; lia); try apply close_refl.
  - cbn [decode_deep]. apply close_level. intros ->. cbn [dlev]. lia.
  - cbn [decode_deep]. apply close_level. intros ->. cbn [dlev]. lia.
  - cbn [decode_deep decode_with dlev]. pose proof (dlev_pos d).
    apply close_bind; [apply close_level; lia|]. intros [z st1]. apply close_bind; [apply close_refl|]. intro st2.
    apply close_bind; [apply dmono; [apply IH|lia]|]. intros [v st3]. apply close_bind; intros; apply close_refl.
  - rewrite deep_tuple_eq, decode_tuple_eq. cbn [dlev]. rewrite Forall_forall in IH.
    assert (H : forall d, In d ds -> dclose n d /\ ((n < dlev d)%nat -> (S n < S (fold_right (fun d m => Nat.max (dlev d) m) O ds))%nat)).
    { intros d Hi. split; [apply IH; exact Hi|]. pose proof (dlev_in d ds Hi). lia. }
    apply close_bind; [apply close_vpd; exact H|]. intro st1. apply close_bind; [apply close_refl|]. intro st2.
    apply close_bind; [apply close_god; exact H|]. intros [vs st3]. apply close_refl.
  - cbn [decode_deep decode_with dlev]. pose proof (dlev_pos d).
    apply close_bind; [apply close_pointers; lia|]. intro st1.
    apply close_bind; [apply close_loop_items; intro; apply dmono; [apply IH|lia]|]. intros [vs st2]. apply close_refl.
  - cbn [decode_deep decode_with dlev]. pose proof (dlev_pos d).
    apply close_bind; [apply close_level; lia|]. intros [z st1]. apply close_bind; [apply close_refl|]. intro st2.
    apply close_bind; [apply close_pointers; lia|]. intro st3.
    apply close_bind; [apply close_loop_items; intro; apply dmono; [apply IH|lia]|]. intros [vs st4].
    apply close_bind; intros; apply close_refl.
Qed.

(** Too few levels for a value that uses them all. *)
Fixpoint dfull (d : decoder) : Prop :=
  match d with
  | DDyn _ => False
  | DHeadTail d => dfull d
  | DSized k d => 0 < k /\ dfull d
  | DTuple ds => fold_right (fun d P => dfull d /\ P) True ds
  | _ => True
  end.
Lemma iter_first {S} k (f : S -> result S) s : (0 < k)%nat ->
  (forall e, f s = Err e -> iterM k f s = Err e) /\ (forall x, iterM k f s = Ok x -> exists y, f s = Ok y).
Proof.
  intro H. destruct k as [|k]; [lia|]. cbn [iterM]. split; [intros e ->; reflexivity|]. intros x E. bok E. eauto.
Qed.
Lemma god_over n ds : (forall d, In d ds -> (n < dlev d)%nat -> forall st x, decode_with h d buf st = Ok x -> decode_deep h d n buf st = Err RuntimeError) ->
  (exists d, In d ds /\ (n < dlev d)%nat) -> forall st x, go h buf ds st = Ok x -> god n ds st = Err RuntimeError.
Proof.
  induction ds as [|d ds IH]; intros H (x & Hi & Hx) st y Hy; [destruct Hi|]. cbn [go god] in *.
  bok Hy. destruct x0 as [v st']. bok Hy.
  destruct (Nat.lt_ge_cases n (dlev d)) as [L|L].
  - rewrite (H d (or_introl eq_refl) L st _ Hx0). reflexivity.
  - destruct (deep_close d n st) as [->|(-> & _)]; [|reflexivity]. rewrite Hx0. cbn [bind].
    destruct Hi as [->|Hi]; [lia|]. erewrite IH; [reflexivity| |eauto|eassumption]. intros d' Hd. apply H. right. exact Hd.
Qed.
Lemma dlev_ex n ds : (n < fold_right (fun d m => Nat.max (dlev d) m) O ds)%nat -> exists d, In d ds /\ (n < dlev d)%nat.
Proof.
  induction ds as [|d ds IH]; cbn [fold_right]; intro H; [lia|]. destruct (Nat.lt_ge_cases n (dlev d)) as [L|L]; [exists d; cbn; auto|].
  destruct IH as (x & Hi & Hx); [lia|]. exists x. cbn. auto.
Qed.
Theorem deep_over d : forall n st x, dfull d -> (n < dlev d)%nat -> decode_with h d buf st = Ok x -> decode_deep h d n buf st = Err RuntimeError.
Proof.
  induction d as [b|b| | |b k|b k|b|s|s f|d IH|ds IH|k d IH|d IH|f|b s f] using decoder_ind'; intros [|n] st x F L E;
    try reflexivity; cbn [dlev] in L; try lia.
  - destruct n; [reflexivity|lia].
  - destruct n; [reflexivity|lia].
  - cbn [decode_deep decode_with dfull] in *. destruct n as [|n]; [reflexivity|]. cbn [at_level]. bok E. destruct x0 as [z st1]. cbn [bind].
    bok E. bok E. rewrite Hx. cbn [bind]. rewrite Hx0. cbn [bind]. erewrite IH; [reflexivity|exact F|lia|eassumption].
  - rewrite deep_tuple_eq. rewrite decode_tuple_eq in E. bok E. bok E. bok E. destruct x2 as [vs st3].
    rewrite Forall_forall in IH.
    match goal with |- bind ?r _ = _ => assert (V : r = Ok x0 \/ r = Err RuntimeError) end.
    { eapply close_ok; [|exact Hx]. apply (close_vpd n True). intros d Hi. split; [apply deep_close|auto]. }
    destruct V as [->| ->]; [|reflexivity]. cbn [bind]. rewrite Hx0. cbn [bind].
    erewrite god_over; [reflexivity| |apply dlev_ex; lia|eassumption].
    intros d Hi Ld st' y Ey. eapply IH; [exact Hi| |exact Ld|exact Ey].
    clear - F Hi. cbn [dfull] in F. induction ds as [|a ds IHl]; [destruct Hi|]. cbn [fold_right] in F. destruct Hi as [->|Hi]; tauto.
  - cbn [decode_deep decode_with dfull] in *. destruct F as [K F]. assert (K' : (0 < Z.to_nat k)%nat) by lia. bok E. bok E. destruct x1 as [vs st2].
    match goal with |- bind ?r _ = _ => assert (V : r = Ok x0 \/ r = Err RuntimeError) end.
    { eapply close_ok; [|exact Hx]. apply (close_pointers True False). auto. }
    destruct V as [->| ->]; [|reflexivity]. cbn [bind]. unfold loop_items in *. bok Hx0. rewrite loop_Z_iterM in Hx1. rewrite loop_Z_iterM.
    destruct (proj2 (iter_first _ _ _ K') _ Hx1) as (y & Ey). cbn [snd fst] in Ey. bok Ey.
    erewrite (proj1 (iter_first _ _ _ K')); [reflexivity|]. cbn [snd]. erewrite IH; [reflexivity|exact F|lia|eassumption].
  - destruct F.
Qed.
End Deep.

Lemma dlev_wrap s t : dlev (dec_of s t) = dec_levels t -> dlev (wrap (dec_of s t)) = if sdyn t then S (dec_levels t) else dec_levels t.
Proof. intro H. unfold wrap. rewrite dec_is_dyn_of. destruct (sdyn t); cbn [dlev]; congruence. Qed.
Lemma dlev_of s t : dlev (dec_of s t) = dec_levels t.
Proof.
  revert s. induction t as [m|m| | |m n|m n|k| | |t IH|n t IH|ts IH] using sty_ind'; intro s; try reflexivity.
  - cbn [dec_of dlev dec_levels]. rewrite (dlev_wrap true t (IH true)). reflexivity.
  - cbn [dec_of dlev dec_levels]. rewrite (dlev_wrap true t (IH true)). reflexivity.
  - cbn [dec_of dec_levels]. unfold mk_dtuple. cbn [dlev]. f_equal. induction IH as [|t ts Ht IH IHts]; [reflexivity|].
    cbn [map fold_right]. rewrite IHts, (dlev_wrap true t (Ht true)). reflexivity.
Qed.
Lemma dlev_args s ts : dlev (mk_dtuple (map (dec_of s) ts)) = dec_levels (STuple ts).
Proof.
  unfold mk_dtuple. cbn [dlev dec_levels]. f_equal. induction ts as [|t ts IH]; [reflexivity|].
  cbn [map fold_right]. rewrite IH, (dlev_wrap s t (dlev_of s t)). reflexivity.
Qed.
Lemma dfull_wrap d : dfull d -> dfull (wrap d).
Proof. intro H. unfold wrap. destruct (dec_is_dyn d); exact H. Qed.
Lemma dfull_of s t : wf t -> filled t -> dfull (dec_of s t).
Proof.
  revert s. induction t as [m|m| | |m n|m n|k| | |t IH|n t IH|ts IH] using sty_ind'; intros s W F; try exact I.
  - destruct F.
  - inv W. destruct F as [F1 F2]. cbn [dec_of dfull]. split; [lia|]. apply dfull_wrap, IH; assumption.
  - inv W. cbn [dec_of filled] in *. unfold mk_dtuple. cbn [dfull].
    match goal with H : ts <> [] |- _ => clear H end. induction IH as [|t ts Ht IH IHts]; [exact I|].
    cbn [map fold_right] in *. take (Forall wf (t :: ts)) as Wt. inv Wt. destruct F as [F1 F2]. split; [apply dfull_wrap, Ht; assumption|].
    apply IHts; assumption.
Qed.
Lemma deep_decode_args n w types ts data b strict : used false w -> type_args types ts -> bytes_like data b ->
  exists h, deep_decode_in n w types data strict = (' (v, _) <- decode_deep h (mk_dtuple (map (dec_of strict) ts)) n b new_stream ;; Ok v)
    /\ decode_in w types data strict = (' (v, _) <- decode_with h (mk_dtuple (map (dec_of strict) ts)) b new_stream ;; Ok v).
Proof.
  intros U T B. apply used_spec in U. destruct U as (_ & D & [_ C]).
  pose proof (pure_decoders_args types ts data b strict T B) as P. unfold pure_decoders in P.
  unfold deep_decode_in, decode_in, deep_decode, api_decode. destruct (validate_list_like_param types) as [l|]; [|discriminate P].
  destruct (validate_bytes_param data) as [b'|]; [|discriminate P]. cbn [bind] in P.
  destruct (seq_decoders (Some strict) l w C) as (w' & -> & _). rewrite D. change (decs_of false) with decs.
  destruct (mapM _ l) as [ds|]; [|discriminate P]. inv P. exists (snd w'). split; reflexivity.
Qed.
Theorem decode_levels n w types ts data b strict : used false w -> type_args types ts -> bytes_like data b ->
  (dec_levels (STuple ts) <= n)%nat -> deep_decode_in n w types data strict = decode_in w types data strict.
Proof.
  intros U T B L. destruct (deep_decode_args n w types ts data b strict U T B) as (h & -> & ->).
  destruct (deep_close h b (mk_dtuple (map (dec_of strict) ts)) n new_stream) as [->|(_ & [H|([] & _)])]; [reflexivity|].
  rewrite dlev_args in H. lia.
Qed.
Theorem decode_limited n w types data strict :
  deep_decode_in n w types data strict = decode_in w types data strict \/ deep_decode_in n w types data strict = Err RuntimeError.
Proof.
  unfold deep_decode_in, decode_in, deep_decode, api_decode. destruct (validate_list_like_param types) as [l|]; [|left; reflexivity].
  destruct (validate_bytes_param data) as [b|]; [|left; reflexivity].
  destruct (sequenceM _ _ _) as [[ds|e] w1]; [|left; reflexivity]. cbn [fst].
  destruct (deep_close (snd w1) b (mk_dtuple ds) n new_stream) as [->|(-> & _)]; auto.
Qed.
Theorem decode_exact n w types ts data b strict v : used false w -> type_args types ts -> bytes_like data b -> filled (STuple ts) ->
  decode_in w types data strict = Ok v ->
  deep_decode_in n w types data strict = if Nat.leb (dec_levels (STuple ts)) n then Ok v else Err RuntimeError.
Proof.
  intros U T B F E. destruct (Nat.leb_spec (dec_levels (STuple ts)) n) as [L|L].
  - rewrite (decode_levels n w types ts data b strict U T B L). exact E.
  - destruct (deep_decode_args n w types ts data b strict U T B) as (h & -> & E'). rewrite E' in E. bok E. destruct x as [v' st'].
    erewrite deep_over; [reflexivity| |rewrite dlev_args; exact L|eassumption].
    pose proof (type_args_wf _ _ T) as W. unfold mk_dtuple. cbn [dfull filled] in *. clear - W F.
    induction W as [|t ts Wt W IH]; [exact I|]. cbn [map fold_right] in *. split; [apply dfull_wrap, dfull_of; tauto|apply IH; tauto].
Qed.

(** ** Encoding *)
Lemma repr_nesting v : repr_depth v = nesting v.
Proof.
  revert v. fix IH 1. intro v.
  assert (L : forall l, fold_right (fun x m => Nat.max (repr_depth x) m) O l = fold_right (fun x m => Nat.max (nesting x) m) O l).
  { clear v. induction l as [|x l IHl]; [reflexivity|]. cbn [fold_right]. rewrite IH, IHl. reflexivity. }
  destruct v; try reflexivity; cbn [repr_depth nesting]; f_equal; apply L.
Qed.
Lemma nesting_items v x : In x (items v) -> (nesting x < nesting v)%nat.
Proof.
  assert (L : forall l, In x l -> (nesting x <= fold_right (fun x m => Nat.max (nesting x) m) O l)%nat).
  { induction l as [|y l IH]; intros []; cbn [fold_right]; [subst; lia|]. specialize (IH H). lia. }
  destruct v; cbn [items]; intro H; try contradiction; cbn [nesting]; specialize (L _ H); lia.
Qed.
Fixpoint elev (e : encoder) : nat :=
  match e with
  | EByteString packed | EText packed => if packed then 1 else 2
  | ETuple es => S (fold_right (fun e m => Nat.max (elev e) m) O es)
  | ESized _ e | EDyn e | EPackedArr _ e => S (elev e)
  | _ => 1
  end.
Lemma elev_pos e : (1 <= elev e)%nat.
Proof. destruct e; cbn [elev]; try destruct packed; lia. Qed.
Lemma elev_in e es : In e es -> (elev e <= fold_right (fun e m => Nat.max (elev e) m) O es)%nat.
Proof. induction es as [|x es IH]; intros H; [destruct H|]. cbn [fold_right]. destruct H as [->|H]; [lia|]. specialize (IH H). lia. Qed.

Lemma close_reject A (P Q : Prop) n v x : is_encoding_error x = true -> ((n < nesting v)%nat -> Q) -> close P Q (@Err A x) (deep_reject n v x).
Proof.
  intros X H. unfold deep_reject. rewrite repr_nesting. destruct (Nat.leb_spec (nesting v) n); [apply close_refl|].
  right. split; [reflexivity|]. right. eauto.
Qed.
Lemma close_leaf A (P Q : Prop) n v (r : result A) : ((n < nesting v)%nat -> Q) -> close P Q r (deep_leaf n v r).
Proof.
  intro H. destruct r as [x|x]; [apply close_refl|]. cbn [deep_leaf]. destruct (is_encoding_error x) eqn:X; [|apply close_refl].
  apply close_reject; assumption.
Qed.
Lemma close_prefixed (P Q : Prop) pk n v r : (pk = false -> n = O -> P) -> ((n < nesting v)%nat -> Q) -> close P Q r (deep_prefixed pk n v r).
Proof.
  intros HP HQ. destruct r as [b|x]; cbn [deep_prefixed]; [|apply close_leaf; exact HQ].
  destruct pk; [apply close_refl|]. apply close_level. auto.
Qed.
Definition close_on {A} (P Q : Prop) (vs : list pyval) (f g : pyval -> result A) : Prop := forall v, In v vs -> close P Q (f v) (g v).
Lemma close_on_tl A P Q v vs (f g : pyval -> result A) : close_on P Q (v :: vs) f g -> close_on P Q vs f g.
Proof. intros H x Hi. apply H. right. exact Hi. Qed.
Lemma Forall2_imp A B (R R' : A -> B -> Prop) l l' : (forall x y, R x y -> R' x y) -> Forall2 R l l' -> Forall2 R' l l'.
Proof. intros H F. induction F; constructor; auto. Qed.
Lemma close_items P Q ves ves' : forall vs, Forall2 (fun x y => close_on P Q vs (fst x) (fst y) /\ close_on P Q vs (snd x) (snd y)) ves ves' ->
  close P Q (tuple_validate_items ves vs) (tuple_validate_items ves' vs).
Proof.
  intros vs F. revert vs F. revert ves'. induction ves as [|[val enc] ves IH]; intros ves' vs F; inv F; [destruct vs; apply close_refl|].
  destruct y as [val' enc']. destruct vs as [|v vs]; [apply close_refl|]. cbn [tuple_validate_items fst snd] in *.
  assert (C : close P Q (tuple_validate_items ves vs) (tuple_validate_items l' vs)).
  { apply IH. eapply Forall2_imp; [|eassumption]. intros x y [A B]. split; eapply close_on_tl; eassumption. }
  take (close_on P Q (v :: vs) val val' /\ _) as H. destruct H as [Hv He].
  destruct (Hv v (or_introl eq_refl)) as [->|(-> & [p|(q & x & -> & X)])].
  - destruct (val v) as [[]|x]; [exact C|]. destruct x; try apply close_refl.
    apply close_bind; [apply He; left; reflexivity|intros _; exact C].
  - right. split; [reflexivity|auto].
  - right. split; [reflexivity|]. right. split; [exact q|]. exists x. split; [destruct x; try discriminate X; reflexivity|exact X].
Qed.
Lemma close_chunks P Q ds encs encs' : forall vs, Forall2 (close_on P Q vs) encs encs' ->
  close P Q (tuple_chunks (combine ds encs) vs) (tuple_chunks (combine ds encs') vs).
Proof.
  intros vs F. revert ds encs' vs F. induction encs as [|enc encs IH]; intros ds encs' vs F; inv F; [destruct ds; apply close_refl|].
  destruct ds as [|d ds]; [apply close_refl|]. destruct vs as [|v vs]; [apply close_refl|]. cbn [combine tuple_chunks].
  take (close_on P Q (v :: vs) enc y) as H. apply close_bind; [apply H; left; reflexivity|]. intro b.
  apply close_bind; [|intro; apply close_refl]. apply IH. eapply Forall2_imp; [|eassumption]. intros f g. apply close_on_tl.
Qed.
Lemma close_all P Q val val' vs : close_on P Q vs val val' -> close P Q (validate_all val vs) (validate_all val' vs).
Proof.
  induction vs as [|v vs IH]; intro H; [apply close_refl|]. cbn [validate_all]. apply close_bind; [apply H; left; reflexivity|].
  intros _. apply IH. eapply close_on_tl; eassumption.
Qed.
Lemma close_mapM P Q (enc enc' : pyval -> result bytes) vs : close_on P Q vs enc enc' -> close P Q (mapM enc vs) (mapM enc' vs).
Proof.
  induction vs as [|v vs IH]; intro H; [apply close_refl|]. cbn [mapM]. apply close_bind; [apply H; left; reflexivity|].
  intros b. apply close_bind; [|intro; apply close_refl]. apply IH. eapply close_on_tl; eassumption.
Qed.
Lemma close_array (P Q : Prop) n val val' v : ((n < nesting v)%nat -> Q) -> close_on P Q (items v) val val' ->
  close P Q (array_validate val v) (deep_array_validate n val' v).
Proof.
  intros HQ H. unfold array_validate, deep_array_validate. destruct (negb (is_list_like v)); [apply close_reject; [reflexivity|exact HQ]|].
  apply close_all. exact H.
Qed.
Lemma close_sized (P Q : Prop) n k val val' v : ((n < nesting v)%nat -> Q) -> close_on P Q (items v) val val' ->
  close P Q (sized_validate k val v) (deep_sized_validate n k val' v).
Proof.
  intros HQ H. unfold sized_validate, deep_sized_validate. apply close_bind; [apply close_array; assumption|]. intros _.
  destruct k as [k|]; [|apply close_refl]. unfold raise_if. destruct (negb _); [apply close_reject; [reflexivity|exact HQ]|apply close_refl].
Qed.
Lemma close_elements (P Q : Prop) val val' d enc enc' v : close P Q (val v) (val' v) -> close_on P Q (items v) enc enc' ->
  close P Q (encode_elements val d enc v) (encode_elements val' d enc' v).
Proof.
  intros Hv He. unfold encode_elements. apply close_bind; [exact Hv|]. intros _.
  apply close_bind; [apply close_mapM; exact He|]. intro. apply close_refl.
Qed.

Definition eclose (n : nat) (e : encoder) : Prop := forall v,
  close (n < elev e)%nat (n <= nesting v)%nat (fst (ve e) v) (fst (deep_ve e n) v)
  /\ close (n < elev e)%nat (n <= nesting v)%nat (snd (ve e) v) (snd (deep_ve e n) v).
Lemma eclose_on n e (P Q : Prop) v : eclose n e -> ((n < elev e)%nat -> P) -> ((S n <= nesting v)%nat -> Q) ->
  close_on P Q (items v) (fst (ve e)) (fst (deep_ve e n)) /\ close_on P Q (items v) (snd (ve e)) (snd (deep_ve e n)).
Proof.
  intros C HP HQ. split; intros x Hi; destruct (C x) as [A B]; (eapply close_mono; [exact HP| |eassumption]);
    intro H; apply HQ; pose proof (nesting_items v x Hi); lia.
Qed.
Lemma close_deep A (P Q : Prop) (r : result A) : P -> close P Q r too_deep.
Proof. intro p. right. split; [reflexivity|auto]. Qed.
Theorem deep_ve_close e : forall n, eclose n e.
Proof.
  induction e as [e L|es IH|k e IH|e IH|k e IH] using encoder_ind'; intros [|n] v.
  - pose proof (elev_pos e). destruct e; try contradiction; cbn [deep_ve fst snd]; split; apply close_deep; lia.
  - destruct e; try contradiction; cbn [deep_ve fst snd elev]; split;
      try apply close_refl; try (apply close_leaf; lia); apply close_prefixed; try lia; intros -> ->; lia.
  - cbn [deep_ve fst snd elev]; split; apply close_deep; lia.
  - rewrite Forall_forall in IH. set (P := (S n < elev (ETuple es))%nat). set (Q := (S n <= nesting v)%nat).
    assert (F : Forall2 (fun x y => close_on P Q (items v) (fst x) (fst y) /\ close_on P Q (items v) (snd x) (snd y))
      (map ve es) (map (fun e => deep_ve e n) es)).
    { assert (G : forall l, (forall e, In e l -> In e es) -> Forall2 (fun x y => close_on P Q (items v) (fst x) (fst y) /\ close_on P Q (items v) (snd x) (snd y))
        (map ve l) (map (fun e => deep_ve e n) l)); [|apply G; auto].
      induction l as [|e l IHl]; intro H; [constructor|]. cbn [map]. constructor; [|apply IHl; intros; apply H; right; assumption].
      apply eclose_on; [apply IH, H; left; reflexivity| |auto].
      pose proof (elev_in e es (H e (or_introl eq_refl))). unfold P. cbn [elev]. lia. }
    assert (V : close P Q (tuple_validate (map ve es) v) (deep_tuple_validate n (map (fun e => deep_ve e n) es) v)).
    { unfold tuple_validate, deep_tuple_validate. destruct (negb (is_list_like v)); [apply close_reject; [reflexivity|unfold Q; lia]|].
      replace (len (map (fun e => deep_ve e n) es)) with (len (map ve es)) by (rewrite !len_length, !map_length; reflexivity).
      destruct (negb _); [apply close_reject; [reflexivity|unfold Q; lia]|]. apply close_items. exact F. }
    cbn [ve deep_ve fst snd]. split; [exact V|]. apply close_bind; [exact V|]. intros _. apply close_bind; [|intro; apply close_refl].
    apply close_chunks. clear - F. revert F. generalize (map (fun e => deep_ve e n) es) (map ve es).
    intros l' l F. induction F as [|x y l l' [_ Hx] F IHF]; constructor; assumption.
  - cbn [deep_ve fst snd elev]; split; apply close_deep; lia.
  - cbn [ve deep_ve fst snd elev]. destruct (eclose_on n e (S n < S (elev e))%nat (S n <= nesting v)%nat v (IH n) ltac:(lia) ltac:(auto)) as [A B].
    assert (V := close_sized (S n < S (elev e))%nat (S n <= nesting v)%nat n (Some k) _ _ v ltac:(lia) A).
    split; [exact V|apply close_elements; assumption].
  - cbn [deep_ve fst snd elev]; split; apply close_deep; lia.
  - cbn [ve deep_ve fst snd elev]. destruct (eclose_on n e (S n < S (elev e))%nat (S n <= nesting v)%nat v (IH n) ltac:(lia) ltac:(auto)) as [A B].
    assert (V := close_array (S n < S (elev e))%nat (S n <= nesting v)%nat n _ _ v ltac:(lia) A).
    split; [exact V|]. apply close_bind; [apply close_refl|]. intro z. apply close_bind; [apply close_level; pose proof (elev_pos e); lia|]. intro b.
    apply close_bind; [apply close_elements; assumption|]. intro; apply close_refl.
  - cbn [deep_ve fst snd elev]; split; apply close_deep; lia.
  - cbn [ve deep_ve fst snd elev]. destruct (eclose_on n e (S n < S (elev e))%nat (S n <= nesting v)%nat v (IH n) ltac:(lia) ltac:(auto)) as [A B].
    assert (V := close_sized (S n < S (elev e))%nat (S n <= nesting v)%nat n k _ _ v ltac:(lia) A).
    split; [exact V|apply close_elements; assumption].
Qed.

(** Too few levels for a value that uses them all. *)
Fixpoint efull (e : encoder) : Prop :=
  match e with
  | EDyn _ | EPackedArr None _ => False
  | ESized k e | EPackedArr (Some k) e => k <> 0 /\ efull e
  | ETuple es => fold_right (fun e P => efull e /\ P) True es
  | _ => True
  end.
Definition over (n : nat) (e : encoder) : Prop := (n < elev e)%nat -> forall v b, snd (ve e) v = Ok b -> snd (deep_ve e n) v = Err RuntimeError.
Lemma elev_ex n es : (n < fold_right (fun e m => Nat.max (elev e) m) O es)%nat -> exists e, In e es /\ (n < elev e)%nat.
Proof.
  induction es as [|d es IH]; cbn [fold_right]; intro H; [lia|]. destruct (Nat.lt_ge_cases n (elev d)) as [L|L]; [exists d; cbn; auto|].
  destruct IH as (x & Hi & Hx); [lia|]. exists x. cbn. auto.
Qed.
Lemma chunks_over n es : (forall e, In e es -> over n e) -> (exists e, In e es /\ (n < elev e)%nat) ->
  forall ds vs b, length ds = length es -> length vs = length es -> tuple_chunks (combine ds (map snd (map ve es))) vs = Ok b ->
  tuple_chunks (combine ds (map snd (map (fun e => deep_ve e n) es))) vs = Err RuntimeError.
Proof.
  induction es as [|e es IH]; intros H (x & Hi & Hx) ds vs b L1 L2 E; [destruct Hi|].
  destruct ds as [|d ds]; [discriminate|]. destruct vs as [|v vs]; [discriminate|]. cbn [map combine tuple_chunks] in *. bok E. bok E.
  destruct (Nat.lt_ge_cases n (elev e)) as [L|L].
  - rewrite (H e (or_introl eq_refl) L v _ Hx0). reflexivity.
  - destruct (deep_ve_close e n v) as [_ [->|(-> & _)]]; [|reflexivity]. rewrite Hx0. cbn [bind].
    destruct Hi as [->|Hi]; [lia|]. erewrite IH; [reflexivity| |eauto| | |eassumption].
    + intros e' He. apply H. right. exact He.
    + injection L1 as L1. exact L1.
    + injection L2 as L2. exact L2.
Qed.
Lemma elements_over n e val val' d k v b (P Q : Prop) : k <> 0 -> over n e -> (n < elev e)%nat -> close P Q (sized_validate (Some k) val v) (val' v) ->
  encode_elements (sized_validate (Some k) val) d (snd (ve e)) v = Ok b ->
  encode_elements val' d (snd (deep_ve e n)) v = Err RuntimeError.
Proof.
  intros K O L C E. unfold encode_elements in *. bok E. bok E.
  destruct (close_ok _ _ _ _ _ _ C Hx) as [->| ->]; [|reflexivity]. cbn [bind].
  assert (N : exists y l, items v = y :: l).
  { unfold sized_validate in Hx. bok Hx. unfold raise_if in Hx. destruct (items v) as [|y l]; [|eauto].
    change (len (@nil pyval)) with 0 in Hx. destruct (Z.eqb_spec 0 k); [congruence|discriminate Hx]. }
  destruct N as (y & l & N). rewrite N in *. cbn [mapM] in *. bok Hx0. rewrite (O L _ _ Hx1). reflexivity.
Qed.
Theorem deep_ve_over e : forall n, efull e -> over n e.
Proof.
  induction e as [e L|es IH|k e IH|e IH|k e IH] using encoder_ind'; intros [|n] F Lv v b E; try reflexivity.
  - destruct e; try contradiction; reflexivity.
  - destruct e; try contradiction; cbn [elev] in Lv; try lia; cbn [deep_ve snd]; rewrite E; cbn [deep_prefixed];
      destruct packed; try lia; destruct n; [reflexivity|lia|reflexivity|lia].
  - pose proof (proj2 (deep_ve_close (ETuple es) (S n) v)) as _.
    cbn [elev] in Lv. rewrite Forall_forall in IH.
    assert (V := proj1 (deep_ve_close (ETuple es) (S n) v)). cbn [ve deep_ve fst snd] in *. bok E. bok E.
    destruct (close_ok _ _ _ _ _ _ V Hx) as [->| ->]; [|reflexivity]. cbn [bind].
    erewrite chunks_over; [reflexivity| |apply elev_ex; lia| | |eassumption].
    + intros e Hi. apply IH; [exact Hi|]. clear - F Hi. cbn [efull] in F. induction es as [|a es IHl]; [destruct Hi|].
      cbn [fold_right] in F. destruct Hi as [->|Hi]; tauto.
    + apply map_length.
    + unfold tuple_validate in Hx. destruct (negb (is_list_like v)); [discriminate|].
      destruct (negb (len (items v) =? len (map ve es))) eqn:N; [discriminate|]. apply negb_false_iff, Z.eqb_eq in N.
      rewrite !len_length, map_length in N. lia.
  - destruct F as [K F]. assert (V := proj1 (deep_ve_close (ESized k e) (S n) v)). cbn [ve deep_ve fst snd elev] in *.
    eapply elements_over; [exact K|apply IH; exact F|lia|exact V|exact E].
  - destruct F.
  - destruct k as [k|]; [|destruct F]. destruct F as [K F].
    assert (V := proj1 (deep_ve_close (EPackedArr (Some k) e) (S n) v)). cbn [ve deep_ve fst snd elev] in *.
    eapply elements_over; [exact K|apply IH; exact F|lia|exact V|exact E].
Qed.

Lemma elev_of pk t : elev (enc_of pk t) = enc_levels pk t.
Proof.
  induction t as [m|m| | |m n|m n|k| | |t IH|n t IH|ts IH] using sty_ind'; try reflexivity.
  - cbn [enc_of enc_levels]. destruct pk; cbn [elev]; congruence.
  - cbn [enc_of enc_levels]. destruct pk; cbn [elev]; congruence.
  - cbn [enc_of enc_levels elev]. f_equal. induction IH as [|t ts Ht IH IHts]; [reflexivity|].
    cbn [map fold_right]. rewrite IHts, Ht. reflexivity.
Qed.
Lemma efull_of pk t : filled t -> efull (enc_of pk t).
Proof.
  induction t as [m|m| | |m n|m n|k| | |t IH|n t IH|ts IH] using sty_ind'; intro F; try exact I.
  - destruct F.
  - destruct F as [F1 F2]. cbn [enc_of]. destruct pk; cbn [efull]; auto.
  - cbn [enc_of efull filled] in *. induction IH as [|t ts Ht IH IHts]; [exact I|]. cbn [map fold_right] in *.
    destruct F as [F1 F2]. auto.
Qed.
Lemma deep_encode_args n pk w types ts args : used pk w -> type_args types ts ->
  ((forall l, ~ seq_like args l) /\ deep_encode_in n w types args = encode_in w types args /\ exists e, encode_in w types args = Err e)
  \/ (deep_encode_in n w types args = snd (deep_ve (enc_of pk (STuple ts)) n) args
      /\ encode_in w types args = snd (ve (enc_of pk (STuple ts))) args).
Proof.
  intros U (ss & S & F). apply used_spec in U. destruct U as (E & _ & [C _]).
  unfold deep_encode_in, encode_in, deep_encode, api_encode.
  assert (Tl : validate_list_like_param types = Ok (map PStr ss)) by (apply list_like; exact S). rewrite Tl.
  destruct (validate_list_like_param args) as [vs|x] eqn:Al; [|left; split; [apply (list_like_err args x Al)|split; [reflexivity|exists x; reflexivity]]].
  destruct (seq_encoders (map PStr ss) (fst w) C) as (r' & -> & _). rewrite E.
  rewrite (mapM_supported _ (find_encoder (encs pk)) (enc_of pk) ss ts (find_enc_supported pk) F). right. split; reflexivity.
Qed.
Theorem encode_levels n pk w types ts args b : used pk w -> type_args types ts -> (enc_levels pk (STuple ts) <= n)%nat ->
  encode_in w types args = Ok b -> deep_encode_in n w types args = Ok b.
Proof.
  intros U T L E. destruct (deep_encode_args n pk w types ts args U T) as [(_ & A & _)|(A & B)]; [congruence|]. rewrite A. rewrite B in E.
  destruct (deep_ve_close (enc_of pk (STuple ts)) n args) as [_ [->|(_ & [H|(_ & x & X & _)])]]; [exact E| |congruence].
  rewrite elev_of in H. lia.
Qed.
Theorem encode_same n pk w types ts args : used pk w -> type_args types ts -> (enc_levels pk (STuple ts) <= n)%nat -> (nesting args < n)%nat ->
  deep_encode_in n w types args = encode_in w types args.
Proof.
  intros U T L N. destruct (deep_encode_args n pk w types ts args U T) as [(_ & A & _)|(A & B)]; [exact A|]. rewrite A, B.
  destruct (deep_ve_close (enc_of pk (STuple ts)) n args) as [_ [->|(_ & [H|(H & _)])]]; [reflexivity| |lia].
  rewrite elev_of in H. lia.
Qed.
Theorem encode_limited n w types args :
  deep_encode_in n w types args = encode_in w types args \/ deep_encode_in n w types args = Err RuntimeError.
Proof.
  unfold deep_encode_in, encode_in, deep_encode, api_encode. destruct (validate_list_like_param types) as [l|]; [|left; reflexivity].
  destruct (validate_list_like_param args) as [vs|]; [|left; reflexivity].
  destruct (sequenceM _ _ _) as [[es|e] w1]; [|left; reflexivity]. cbn [fst].
  destruct (deep_ve_close (ETuple es) n args) as [_ [->|(-> & _)]]; auto.
Qed.
Theorem encode_exact n pk w types ts args b : used pk w -> type_args types ts -> filled (STuple ts) -> encode_in w types args = Ok b ->
  deep_encode_in n w types args = if Nat.leb (enc_levels pk (STuple ts)) n then Ok b else Err RuntimeError.
Proof.
  intros U T F E. destruct (Nat.leb_spec (enc_levels pk (STuple ts)) n) as [L|L].
  - eapply encode_levels; eassumption.
  - destruct (deep_encode_args n pk w types ts args U T) as [(_ & _ & x & X)|(-> & B)]; [congruence|]. rewrite B in E.
    eapply deep_ve_over; [apply efull_of; exact F|rewrite elev_of; exact L|exact E].
Qed.
Lemma deep_encodable_arg n pk w s t arg : used pk w -> supported s t ->
  deep_is_encodable_in n w (PStr s) arg = match fst (deep_ve (enc_of pk t) n) arg with
    | Ok _ => Ok true
    | Err AttributeError =>
        match snd (deep_ve (enc_of pk t) n) arg with
        | Ok _ => Ok true
        | Err x => if is_encoding_error x then Ok false else Err x
        end
    | Err x => if is_encoding_error x then Ok false else Err x
    end
  /\ is_encodable_in w (PStr s) arg = check_encodable (enc_of pk t) arg.
Proof.
  intros U S. apply used_spec in U. destruct U as (E & _ & [C _]).
  unfold deep_is_encodable_in, is_encodable_in, deep_is_encodable, api_is_encodable, api_is_encodable_type, has_encoder.
  destruct (get_encoder_pure (fst w) s C) as (r1 & G1 & (S1 & _) & C1). cbn [get_encoder_py]. rewrite G1. rewrite E, (find_enc_supported pk s t S).
  destruct (get_encoder_pure r1 s C1) as (r2 & G2 & _). rewrite G2, S1, E, (find_enc_supported pk s t S). split; reflexivity.
Qed.
Theorem is_encodable_levels n pk w s t arg : used pk w -> supported s t -> (enc_levels pk t <= n)%nat ->
  deep_is_encodable_in n w (PStr s) arg = is_encodable_in w (PStr s) arg
  \/ (is_encodable_in w (PStr s) arg = Ok false /\ (n <= nesting arg)%nat /\ deep_is_encodable_in n w (PStr s) arg = Err RuntimeError).
Proof.
  intros U S L. destruct (deep_encodable_arg n pk w s t arg U S) as [-> ->]. unfold check_encodable, validate_value, encode_with.
  destruct (deep_ve_close (enc_of pk t) n arg) as [[->|(-> & [H|(q & x & -> & X)])] B]; [|rewrite elev_of in H; lia|].
  - destruct (fst (ve (enc_of pk t)) arg) as [[]|x]; [left; reflexivity|]. destruct x; try (left; reflexivity).
    destruct B as [->|(-> & [H|(q & x & -> & X)])]; [left; reflexivity|rewrite elev_of in H; lia|].
    right. rewrite X. auto.
  - right. split; [destruct x; try discriminate X; reflexivity|]. auto.
Qed.

(** ** No number of levels is enough *)
Lemma nested_levels k : dec_levels (nested k (SUInt 256)) = S k.
Proof. induction k as [|k IH]; [reflexivity|]. cbn [nested dec_levels fold_right]. rewrite (nested_static k (SUInt 256) eq_refl), IH. lia. Qed.
Lemma nested_filled k : filled (nested k (SUInt 256)).
Proof. induction k as [|k IH]; [exact I|]. cbn [nested filled fold_right]. auto. Qed.
Theorem decode_any n : exists types ts, type_args types ts /\ len ts = 1 /\ forall w data b strict, used false w -> bytes_like data b -> len b = 32 ->
  (exists q, decode_in w types data strict = Ok q) /\ deep_decode_in n w types data strict = Err RuntimeError.
Proof.
  exists (PList [PStr (nested_name n (lit "uint"%string))]), [nested n (SUInt 256)].
  split; [apply nested_args|]. split; [reflexivity|]. intros w data b strict U B L.
  assert (M : len b <= maxsize) by (rewrite maxsize_eq; lia).
  destruct (proj1 (decode_iff w _ _ data b strict U (nested_args n) B M _) (nested_holds n b strict L)) as [E _].
  split; [eexists; exact E|]. rewrite (decode_exact n w _ _ data b strict _ U (nested_args n) B ltac:(cbn [filled fold_right]; auto using nested_filled) E).
  cbn [dec_levels fold_right]. rewrite (nested_static n (SUInt 256) eq_refl), nested_levels.
  destruct (Nat.leb_spec (S (Nat.max (S n) 0)) n); [lia|reflexivity].
Qed.
Lemma wrapped_nesting n z : nesting (wrapped n (PInt z)) = n.
Proof. induction n as [|n IH]; [reflexivity|]. cbn [wrapped nesting fold_right]. rewrite IH. lia. Qed.
Lemma uint_supported : supported (lit "uint"%string) (SUInt 256).
Proof. split; [apply TN_uint_256|discriminate]. Qed.
Theorem encode_shown n pk w : (2 <= n)%nat -> used pk w ->
  encode_in w (PList [PStr (lit "uint"%string)]) (wrapped n (PInt 7)) = Err EncodingTypeError
  /\ deep_encode_in n w (PList [PStr (lit "uint"%string)]) (wrapped n (PInt 7)) = Err RuntimeError.
Proof.
  intros N U. destruct n as [|[|n]]; try lia.
  assert (T : type_args (PList [PStr (lit "uint"%string)]) [SUInt 256]) by exact (nested_args 0).
  destruct (deep_encode_args (S (S n)) pk w _ _ (wrapped (S (S n)) (PInt 7)) U T) as [(A & _)|(-> & ->)].
  - exfalso. eapply A. left. reflexivity.
  - split; [reflexivity|]. cbn [enc_of map deep_ve snd fst wrapped]. unfold deep_tuple_validate. cbn [is_list_like negb items].
    change (len [PList [wrapped n (PInt 7)]] =? len [deep_ve (EUInt 256 (dsz pk 256)) (S n)]) with true. cbn [negb tuple_validate_items deep_ve fst snd].
    change (fst (ve (EUInt 256 (dsz pk 256))) (PList [wrapped n (PInt 7)])) with (@Err unit EncodingTypeError).
    unfold deep_leaf, deep_reject. cbn [is_encoding_error]. rewrite repr_nesting.
    change (PList [wrapped n (PInt 7)]) with (wrapped (S n) (PInt 7)). rewrite wrapped_nesting.
    destruct (Nat.leb_spec (S n) n); [lia|reflexivity].
Qed.
Theorem is_encodable_shown n pk w : (1 <= n)%nat -> used pk w ->
  is_encodable_in w (PStr (lit "uint"%string)) (wrapped n (PInt 7)) = Ok false
  /\ deep_is_encodable_in n w (PStr (lit "uint"%string)) (wrapped n (PInt 7)) = Err RuntimeError.
Proof.
  intros N U. destruct n as [|n]; try lia.
  destruct (deep_encodable_arg (S n) pk w _ _ (wrapped (S n) (PInt 7)) U uint_supported) as [-> ->].
  split; [reflexivity|]. cbn [enc_of deep_ve snd fst].
  change (fst (ve (EUInt 256 (dsz pk 256))) (wrapped (S n) (PInt 7))) with (@Err unit EncodingTypeError).
  unfold deep_leaf, deep_reject. cbn [is_encoding_error]. rewrite repr_nesting, wrapped_nesting.
  destruct (Nat.leb_spec (S n) n); [lia|reflexivity].
Qed.
