(** How encodings of related types are related. *)
From Coq Require Import Strings.Byte Strings.String.
From Verif Require Import Tac Bytes BytesProofs Utf8 Utf8Proofs Address Decimals DecimalsProofs Encoding Decoding Registry Codec Histories Spec ReadSpec LawsSpec TypeSpec
  EncLeafProofs EncodeProofs AcceptProofs EncOkProofs DecLeafProofs DecodeProofs ReaderProofs DecodeFacts DecodeFacts2 LookupProofs TypeProofs ApiProofs HistoryProofs ArgsProofs
  EncodeApi DecodeApi ReadProofs.
Open Scope Z_scope.

(** ** Encoders of containers in one form *)
Definition assemble (ps : list (bool * bytes)) : result bytes := join_chunks (map chunk ps).
Fixpoint enc_all (pk : bool) (ts : list sty) (vs : list pyval) : result (list (bool * bytes)) :=
  match ts, vs with
  | t :: ts', v :: vs' =>
      b <- encode_with (enc_of pk t) v ;;
      ps <- enc_all pk ts' vs' ;;
      Ok ((negb pk && sdyn t, b) :: ps)
  | _, _ => Ok []
  end.
Lemma tuple_form pk ts p : encode_with (enc_of pk (STuple ts)) p =
  (validate_value (enc_of pk (STuple ts)) p ;;; ps <- enc_all pk ts (items p) ;; assemble ps).
Proof.
  unfold encode_with at 1, validate_value. cbn [enc_of ve fst snd].
  assert (H : forall vs, tuple_chunks (combine (map enc_is_dyn (map (enc_of pk) ts)) (map snd (map ve (map (enc_of pk) ts)))) vs
    = (ps <- enc_all pk ts vs ;; Ok (map chunk ps))).
  { induction ts as [|t ts IH]; intros [|v vs]; try reflexivity. cbn [map combine tuple_chunks enc_all].
    change (snd (ve (enc_of pk t)) v) with (encode_with (enc_of pk t) v). destruct (encode_with _ v); [|reflexivity]. cbn [bind].
    rewrite IH, enc_is_dyn_of. destruct (enc_all pk ts vs); reflexivity. }
  rewrite H. destruct (tuple_validate _ p); [|reflexivity]. cbn [bind]. destruct (enc_all pk ts (items p)); reflexivity.
Qed.
Lemma assemble_same d bs : assemble (map (pair d) bs) =
  if negb d || (len bs =? 0) then Ok (concat bs)
  else (heads <- mapM (fun off => encode_uint_256 (32 * len bs + off)) (tail_offsets 0 bs) ;; Ok (concat heads ++ concat bs)).
Proof.
  unfold assemble, join_chunks. rewrite chunks_head_length, chunks_tails. destruct d; cbn [negb orb].
  - rewrite heads_size_dynamic, tails_dynamic.
    assert (H : forall k acc, mapM (fun co : option bytes * Z => match fst co with None => encode_uint_256 (k + snd co) | Some b => Ok b end)
        (combine (map fst (map chunk (map (pair true) bs))) (tail_offsets acc (map snd (map chunk (map (pair true) bs)))))
      = mapM (fun off => encode_uint_256 (k + off)) (tail_offsets acc bs)).
    { intro k. induction bs as [|b bs IH]; intro acc; [reflexivity|]. cbn [map chunk fst snd tail_offsets combine mapM]. rewrite IH. reflexivity. }
    rewrite H. destruct (Z.eqb_spec (len bs) 0) as [E|E]; [|reflexivity]. apply len_0 in E. subst bs. reflexivity.
  - rewrite tails_static. generalize (heads_size (map (pair false) bs)). intro k.
    assert (H : forall acc, mapM (fun co : option bytes * Z => match fst co with None => encode_uint_256 (k + snd co) | Some b => Ok b end)
        (combine (map fst (map chunk (map (pair false) bs))) (tail_offsets acc (map snd (map chunk (map (pair false) bs))))) = Ok bs).
    { induction bs as [|b bs IH]; intro acc; [reflexivity|]. cbn [map chunk fst snd tail_offsets combine mapM bind]. rewrite IH. reflexivity. }
    rewrite H. cbn [bind]. rewrite app_nil_r. reflexivity.
Qed.
Lemma enc_all_repeat pk t vs : enc_all pk (repeat t (length vs)) vs
  = (bs <- mapM (encode_with (enc_of pk t)) vs ;; Ok (map (pair (negb pk && sdyn t)) bs)).
Proof.
  induction vs as [|v vs IH]; [reflexivity|]. cbn [length repeat enc_all mapM]. destruct (encode_with _ v); [|reflexivity]. cbn [bind].
  rewrite IH. destruct (mapM _ vs); reflexivity.
Qed.
Lemma mapM_len {A B} (f : A -> result B) l bs : mapM f l = Ok bs -> len l = len bs.
Proof. intro H. apply mapM_Forall in H. eapply Forall2_len; exact H. Qed.
Lemma elements_form val pk t p : encode_elements val (enc_is_dyn (enc_of pk t)) (encode_with (enc_of pk t)) p =
  (val p ;;; ps <- enc_all pk (repeat t (length (items p))) (items p) ;; assemble ps).
Proof.
  unfold encode_elements. destruct (val p); [|reflexivity]. cbn [bind]. rewrite enc_all_repeat, enc_is_dyn_of.
  destruct (mapM _ (items p)) as [bs|] eqn:M; [|reflexivity]. cbn [bind]. rewrite assemble_same, (mapM_len _ _ _ M). reflexivity.
Qed.
Lemma sized_form pk n t p : encode_with (enc_of pk (SSized n t)) p =
  (validate_value (enc_of pk (SSized n t)) p ;;; ps <- enc_all pk (repeat t (length (items p))) (items p) ;; assemble ps).
Proof. rewrite <- elements_form. destruct pk; reflexivity. Qed.
Lemma arr_form_packed t p : encode_with (enc_of true (SArr t)) p =
  (validate_value (enc_of true (SArr t)) p ;;; ps <- enc_all true (repeat t (length (items p))) (items p) ;; assemble ps).
Proof. rewrite <- elements_form. reflexivity. Qed.
Lemma arr_form t p : encode_with (enc_of false (SArr t)) p =
  (n <- py_len p ;; size <- encode_uint_256 n ;;
   b <- (validate_value (enc_of false (SArr t)) p ;;; ps <- enc_all false (repeat t (length (items p))) (items p) ;; assemble ps) ;; Ok (size ++ b)).
Proof. rewrite <- elements_form. reflexivity. Qed.

(** ** Results that agree when they are successes *)
Definition agree {A} (r r' : result A) : Prop := forall x, r = Ok x <-> r' = Ok x.
Lemma agree_refl {A} (r : result A) : agree r r. Proof. intro; reflexivity. Qed.
Lemma agree_bind {A B} (r r' : result A) (k k' : A -> result B) :
  agree r r' -> (forall x, r = Ok x -> agree (k x) (k' x)) -> agree (bind r k) (bind r' k').
Proof.
  intros H K y. split; intro E.
  - bok E. rewrite (proj1 (H x) Hx). cbn [bind]. apply (K x Hx). exact E.
  - bok E. pose proof (proj2 (H x) Hx) as Hx'. rewrite Hx'. cbn [bind]. apply (K x Hx'). exact E.
Qed.
Lemma agree_tt (r r' : result unit) : (r = Ok tt <-> r' = Ok tt) -> agree r r'.
Proof. intros H []. exact H. Qed.
Lemma enc_all_agree pk ts ts' vs : Forall2 (fun t t' => sdyn t = sdyn t' /\ forall p, agree (encode_with (enc_of pk t) p) (encode_with (enc_of pk t') p)) ts ts' ->
  agree (enc_all pk ts vs) (enc_all pk ts' vs).
Proof.
  intro F. revert vs. induction F as [|t t' ts ts' [D A] F IH]; intros [|v vs]; try apply agree_refl. cbn [enc_all].
  apply agree_bind; [apply A|]. intros b _. apply agree_bind; [apply IH|]. intros ps _. rewrite D. apply agree_refl.
Qed.

(** ** Fixed-size arrays as tuples *)
Lemma Forall2_rep {A B} (R : A -> B -> Prop) x y n : R x y -> Forall2 R (repeat x n) (repeat y n).
Proof. intro H. induction n; constructor; assumption. Qed.
Lemma Forall2_mapl {A B} (R : A -> B -> Prop) f l : Forall (fun x => R x (f x)) l -> Forall2 R l (map f l).
Proof. intro H. induction H; constructor; assumption. Qed.
Lemma expand_wf t : wf t -> wf (expand t).
Proof.
  induction t as [m|m| | |m n|m n|k| | |t IH|n t IH|ts IH] using sty_ind'; intro W; inv W; cbn [expand]; try (constructor; auto; fail).
  - constructor; [|apply Forall_repeat; auto]. destruct (Z.to_nat n) eqn:E; [lia|discriminate].
  - take (Forall wf ts) as F. take (ts <> []) as N. constructor; [destruct ts; [congruence|discriminate]|]. clear N. induction IH; inv F; constructor; auto.
Qed.
Lemma expand_dyn t : wf t -> sdyn (expand t) = sdyn t.
Proof.
  induction t as [m|m| | |m n|m n|k| | |t IH|n t IH|ts IH] using sty_ind'; intro W; inv W; cbn [expand sdyn]; try reflexivity.
  - take (wf t) as Wt. specialize (IH Wt). destruct (Z.to_nat n) as [|k] eqn:E; [lia|]. clear E.
    assert (H : forall k, existsb sdyn (repeat (expand t) (Datatypes.S k)) = sdyn t); [|apply H].
    clear k. induction k as [|k IHk]; [cbn; rewrite IH; apply orb_false_r|].
    change (sdyn (expand t) || existsb sdyn (repeat (expand t) (Datatypes.S k)) = sdyn t). rewrite IHk, IH. destruct (sdyn t); reflexivity.
  - take (Forall wf ts) as F. clear -IH F. induction IH as [|t ts Ht IH IHts]; [reflexivity|]. inv F. cbn [map existsb]. rewrite Ht, IHts by assumption. reflexivity.
Qed.
Definition interchangeable (pk : bool) (t t' : sty) : Prop :=
  (forall p, validate_value (enc_of pk t) p = Ok tt <-> validate_value (enc_of pk t') p = Ok tt)
  /\ (forall p, agree (encode_with (enc_of pk t) p) (encode_with (enc_of pk t') p)).
Lemma Forall_iff {A} (P Q : A -> Prop) l : (forall x, P x <-> Q x) -> (Forall P l <-> Forall Q l).
Proof. intro H. split; intro F; eapply Forall_impl; try exact F; intros a; apply H. Qed.
Lemma Forall2_iff {A A' B} (P : A -> B -> Prop) (Q : A' -> B -> Prop) ts ts' l : Forall2 (fun t t' => forall x, P t x <-> Q t' x) ts ts' ->
  (Forall2 P ts l <-> Forall2 Q ts' l).
Proof.
  intro F. revert l. induction F as [|t t' ts ts' H F IH]; intro l.
  - split; intro G; inv G; constructor.
  - split; intro G; inv G; constructor; try (apply H; assumption); apply IH; assumption.
Qed.
Lemma tuple_interchangeable pk ts : Forall wf ts -> Forall (fun t => interchangeable pk t (expand t)) ts ->
  interchangeable pk (STuple ts) (STuple (map expand ts)).
Proof.
  intros Ws IH. assert (We : Forall wf (map expand ts)) by (clear -Ws; induction Ws; constructor; auto using expand_wf).
  assert (F : Forall2 (interchangeable pk) ts (map expand ts)) by (apply Forall2_mapl; exact IH).
  assert (V : forall p, validate_value (enc_of pk (STuple ts)) p = Ok tt <-> validate_value (enc_of pk (STuple (map expand ts))) p = Ok tt).
  { intro p. rewrite !validate_tuple_ok by assumption. rewrite (Forall2_iff _ (fun t x => validate_value (enc_of pk t) x = Ok tt) ts (map expand ts)); [reflexivity|].
    clear -F. induction F as [|t t' ts ts' [H _] F IH]; constructor; auto. }
  split; [exact V|]. intro p. rewrite !tuple_form. apply agree_bind; [apply agree_tt, V|]. intros _ _. apply agree_bind; [|intros; apply agree_refl].
  apply enc_all_agree. clear -F Ws. induction Ws as [|t ts Wt Ws IH]; inv F; constructor; auto. take (interchangeable _ _ _) as J. split; [symmetry; apply expand_dyn; exact Wt|apply J].
Qed.
Theorem expand_interchangeable pk t : wf t -> interchangeable pk t (expand t).
Proof.
  induction t as [m|m| | |m n|m n|k| | |t IH|n t IH|ts IH] using sty_ind'; intro W;
    try (split; intro p; [reflexivity|apply agree_refl]); inv W.
  - take (wf t) as Wt. destruct (IH Wt) as [Hv He]. assert (V : forall p, validate_value (enc_of pk (SArr t)) p = Ok tt <-> validate_value (enc_of pk (SArr (expand t))) p = Ok tt).
    { intro p. rewrite !validate_arr_ok. rewrite (Forall_iff _ _ (items p) Hv). reflexivity. }
    split; [exact V|]. intro p. cbn [expand]. 
    assert (E : agree (validate_value (enc_of pk (SArr t)) p ;;; ps <- enc_all pk (repeat t (length (items p))) (items p) ;; assemble ps)
      (validate_value (enc_of pk (SArr (expand t))) p ;;; ps <- enc_all pk (repeat (expand t) (length (items p))) (items p) ;; assemble ps)).
    { apply agree_bind; [apply agree_tt, V|]. intros _ _. apply agree_bind; [|intros; apply agree_refl]. apply enc_all_agree.
      apply Forall2_rep. split; [symmetry; apply expand_dyn; exact Wt|exact He]. }
    destruct pk; [rewrite !arr_form_packed; exact E|]. rewrite !arr_form.
    apply agree_bind; [apply agree_refl|]. intros n _. apply agree_bind; [apply agree_refl|]. intros sz _. apply agree_bind; [exact E|]. intros; apply agree_refl.
  - take (wf t) as Wt. destruct (IH Wt) as [Hv He]. assert (We := expand_wf t Wt).
    assert (V : forall p, validate_value (enc_of pk (SSized n t)) p = Ok tt <-> validate_value (enc_of pk (STuple (repeat (expand t) (Z.to_nat n)))) p = Ok tt).
    { intro p. rewrite validate_sized_ok, validate_tuple_ok by (apply Forall_repeat; exact We). split.
      - intros (S & L & F). split; [exact S|]. replace (Z.to_nat n) with (length (items p)) by (rewrite len_length in L; lia).
        apply Forall2_repeat. eapply Forall_impl; [|exact F]. intros a. apply Hv.
      - intros (S & F). split; [exact S|]. assert (L : len (items p) = n) by (apply Forall2_len in F; rewrite !len_length, repeat_length in *; lia).
        split; [exact L|]. replace (Z.to_nat n) with (length (items p)) in F by (rewrite len_length in L; lia).
        apply Forall2_repeat in F. eapply Forall_impl; [|exact F]. intros a. apply Hv. }
    split; [exact V|]. intro p. cbn [expand]. rewrite sized_form, tuple_form. apply agree_bind; [apply agree_tt, V|]. intros [] Hx.
    apply validate_sized_ok in Hx. destruct Hx as (_ & L & _). replace (Z.to_nat n) with (length (items p)) by (rewrite len_length in L; lia).
    apply agree_bind; [|intros; apply agree_refl]. apply enc_all_agree. apply Forall2_rep. split; [symmetry; apply expand_dyn; exact Wt|exact He].
  - take (Forall wf ts) as Ws. apply tuple_interchangeable; [exact Ws|]. clear -IH Ws. induction IH; inv Ws; constructor; auto.
Qed.
Lemma args_expand pk ts p : Forall wf ts -> agree (encode_with (enc_of pk (STuple ts)) p) (encode_with (enc_of pk (STuple (map expand ts))) p).
Proof.
  intro W. apply (tuple_interchangeable pk ts W). clear -W. induction W; constructor; auto using expand_interchangeable.
Qed.
Lemma same_layout_map ts ts' : Forall2 same_layout ts ts' -> map expand ts = map expand ts'.
Proof. intro F. induction F as [|t t' ts ts' H F IH]; [reflexivity|]. cbn [map]. rewrite IH. f_equal. exact H. Qed.
Theorem encode_same_layout pk w w' types types' ts ts' args b : used pk w -> used pk w' -> type_args types ts -> type_args types' ts' -> Forall2 same_layout ts ts' ->
  encode_in w types args = Ok b -> encode_in w' types' args = Ok b.
Proof.
  intros U U' T T' F E. destruct (encode_ok_inv pk w types args b U E) as (ts0 & l & T0 & S & E').
  assert (ts0 = ts) by (eapply type_args_fun; eassumption). subst ts0. rewrite (encode_args pk w' types' ts' args l U' T' S).
  apply (args_expand pk ts args (type_args_wf _ _ T)) in E'. rewrite (same_layout_map _ _ F) in E'.
  apply (args_expand pk ts' args (type_args_wf _ _ T')). exact E'.
Qed.

(** ** The same results, errors included *)
Lemma validate_repeat pk n t p : wf t -> 0 <= n -> is_list_like p = false \/ len (items p) = n ->
  validate_value (enc_of pk (SSized n t)) p = validate_value (enc_of pk (STuple (repeat t (Z.to_nat n)))) p.
Proof.
  intros W Hn H. cbn [enc_of]. rewrite validate_tuple by (apply Forall_repeat; exact W).
  assert (E : validate_value (enc_of pk (SSized n t)) p = sized_validate (Some n) (validate_value (enc_of pk t)) p) by (destruct pk; reflexivity).
  change (if pk then EPackedArr (Some n) (enc_of pk t) else ESized n (enc_of pk t)) with (enc_of pk (SSized n t)). rewrite E.
  unfold sized_validate, array_validate, tuple_val. rewrite len_map, (len_length (repeat _ _)), repeat_length, Z2Nat.id by exact Hn.
  destruct (is_list_like p) eqn:L; cbn [negb bind]; [|reflexivity]. destruct H as [H|H]; [discriminate|]. rewrite <- H, Z.eqb_refl. cbn [negb raise_if].
  rewrite len_length, Nat2Z.id. clear. induction (items p) as [|x l IH]; [reflexivity|]. cbn [validate_all length repeat map seq_validate].
  destruct (validate_value (enc_of pk t) x) as [[]|]; [|reflexivity]. cbn [bind]. exact IH.
Qed.
Lemma array_as_tuple pk n t p : wf t -> 0 <= n -> is_list_like p = false \/ len (items p) = n ->
  encode_with (enc_of pk (SSized n t)) p = encode_with (enc_of pk (STuple (repeat t (Z.to_nat n)))) p.
Proof.
  intros W Hn H. rewrite sized_form, tuple_form, (validate_repeat pk n t p W Hn H).
  destruct (validate_value _ p) as [[]|] eqn:V; [|reflexivity]. cbn [bind].
  rewrite <- (validate_repeat pk n t p W Hn H) in V. apply validate_sized_ok in V. destruct V as (_ & L & _).
  replace (Z.to_nat n) with (length (items p)) by (rewrite len_length in L; lia). reflexivity.
Qed.
Lemma assemble_one d b : assemble [(d, b)] = Ok (if d then word 32 ++ b else b).
Proof.
  change [(d, b)] with (map (pair d) [b]). rewrite assemble_same. destruct d; cbn [negb orb concat]; [|rewrite app_nil_r; reflexivity].
  change (len [b] =? 0) with false. cbv iota. cbn [tail_offsets mapM]. change (32 * len [b] + 0) with 32. rewrite encode_uint_256_word by lia. cbn [bind concat].
  rewrite !app_nil_r. reflexivity.
Qed.
Lemma one_form pk t v : wf t -> encode_with (enc_of pk (STuple [t])) (PList [v]) =
  (validate_value (enc_of pk t) v ;;; b <- encode_with (enc_of pk t) v ;; Ok (if negb pk && sdyn t then word 32 ++ b else b)).
Proof.
  intro W. rewrite tuple_form, validate_one by exact W. destruct (validate_value _ v) as [[]|]; [|reflexivity]. cbn [bind items enc_all].
  destruct (encode_with _ v) as [b|]; [|reflexivity]. cbn [bind]. apply assemble_one.
Qed.
Lemma bind_twice {A} (r : result unit) (k : result A) : (r ;;; r ;;; k) = (r ;;; k).
Proof. destruct r as [[]|]; reflexivity. Qed.
Lemma one_tuple pk ts v : wf (STuple ts) -> encode_with (enc_of pk (STuple [STuple ts])) (PList [v]) =
  (b <- encode_with (enc_of pk (STuple ts)) v ;; Ok (if negb pk && existsb sdyn ts then word 32 ++ b else b)).
Proof.
  intro W. rewrite one_form by exact W. rewrite (tuple_form pk ts v). destruct (validate_value _ v) as [[]|]; reflexivity.
Qed.
Theorem encode_wrapped pk w w' types ts s args l : used pk w -> used pk w' -> type_args types ts -> supported s (STuple ts) -> seq_like args l ->
  encode_in w (PList [PStr s]) (PList [args]) = (b <- encode_in w' types args ;; Ok (if negb pk && existsb sdyn ts then word 32 ++ b else b)).
Proof.
  intros U U' T S L. rewrite (one_encode pk w s (STuple ts) args U S), (encode_args pk w' types ts args l U' T L). apply one_tuple. eapply supported_wf; exact S.
Qed.
Theorem encode_array_tuple pk w w' s s' t n v : used pk w -> used pk w' -> supported s (SSized n t) -> supported s' (STuple (repeat t (Z.to_nat n))) ->
  (forall l, ~ seq_like v l) \/ (exists l, seq_like v l /\ len l = n) ->
  encode_in w (PList [PStr s]) (PList [v]) = encode_in w' (PList [PStr s']) (PList [v]).
Proof.
  intros U U' S S' H. rewrite (one_encode pk w s _ v U S), (one_encode pk w' s' _ v U' S').
  assert (W := supported_wf _ _ S). assert (W' := supported_wf _ _ S'). inv W. take (wf t) as Wt. take (1 <= n) as Hn.
  assert (H' : is_list_like v = false \/ len (items v) = n).
  { destruct H as [H|(l & H & L)]; [|right; destruct (seq_like_items v l H) as (-> & _); exact L].
    left. destruct (is_list_like v) eqn:E; [|reflexivity]. exfalso. apply (H (items v)). apply list_like_seq. exact E. }
  rewrite !one_form by (assumption || (constructor; assumption)). rewrite (validate_repeat pk n t v Wt ltac:(lia) H'), (array_as_tuple pk n t v Wt ltac:(lia) H').
  replace (sdyn (STuple (repeat t (Z.to_nat n)))) with (sdyn (SSized n t)); [reflexivity|]. cbn [sdyn].
  destruct (Z.to_nat n) as [|k] eqn:E; [lia|]. clear. symmetry. induction k as [|k IH]; [cbn; apply orb_false_r|].
  change (sdyn t || existsb sdyn (repeat t (Datatypes.S k)) = sdyn t). rewrite IH. destruct (sdyn t); reflexivity.
Qed.
Lemma type_args_repeat s t n : supported s t -> type_args (PList (repeat (PStr s) n)) (repeat t n).
Proof.
  intro S. exists (repeat s n). split; [left; f_equal; induction n; cbn; congruence|]. apply Forall2_rep. exact S.
Qed.
(** A dynamic array: its length, then its items as arguments of their own. *)
Theorem encode_array_items w w' s s' t v l : used false w -> used false w' -> supported s t -> supported s' (SArr t) -> seq_like v l -> len l < 2 ^ 256 ->
  encode_in w (PList [PStr s']) (PList [v]) =
  (b <- encode_in w' (PList (repeat (PStr s) (length l))) v ;; Ok (word 32 ++ word (len l) ++ b)).
Proof.
  intros U U' S S' L B. assert (W := supported_wf _ _ S).
  rewrite (one_encode false w s' _ v U S'), (encode_args false w' _ _ v l U' (type_args_repeat s t (length l) S) L), one_form by (constructor; exact W).
  destruct (seq_like_items v l L) as (It & Ll & Pl).
  assert (V : validate_value (enc_of false (SArr t)) v = validate_value (enc_of false (STuple (repeat t (length l)))) v).
  { rewrite <- (Nat2Z.id (length l)), <- len_length, <- validate_repeat; [|exact W|apply len_nonneg|right; rewrite It; reflexivity].
    unfold validate_value. cbn [enc_of ve fst]. unfold sized_validate. rewrite It, Z.eqb_refl. cbn [negb raise_if].
    destruct (array_validate _ v) as [[]|]; reflexivity. }
  rewrite arr_form, tuple_form, <- V, Pl, It. pose proof (len_nonneg l). cbn [bind]. rewrite encode_uint_256_word by lia. cbn [bind].
  destruct (validate_value _ v) as [[]|]; [|reflexivity]. cbn [bind]. destruct (enc_all _ _ _); [|reflexivity]. cbn [bind].
  destruct (assemble _); reflexivity.
Qed.
Theorem encode_packed_arrays w w' s s' t n v l : used true w -> used true w' -> supported s (SArr t) -> supported s' (SSized n t) -> seq_like v l -> len l = n ->
  encode_in w (PList [PStr s]) (PList [v]) = encode_in w' (PList [PStr s']) (PList [v]).
Proof.
  intros U U' S S' L B. rewrite (one_encode true w s _ v U S), (one_encode true w' s' _ v U' S').
  rewrite !one_form by (eapply supported_wf; eassumption). destruct (seq_like_items v l L) as (It & Ll & Pl).
  assert (V : validate_value (enc_of true (SArr t)) v = validate_value (enc_of true (SSized n t)) v).
  { unfold validate_value. cbn [enc_of ve fst]. unfold sized_validate. rewrite It, B, Z.eqb_refl. reflexivity. }
  rewrite arr_form_packed, sized_form, V. reflexivity.
Qed.

(** ** Concatenation *)
Lemma enc_all_app pk ts1 ts2 l1 l2 : length l1 = length ts1 -> enc_all pk (ts1 ++ ts2) (l1 ++ l2) =
  (p1 <- enc_all pk ts1 l1 ;; p2 <- enc_all pk ts2 l2 ;; Ok (p1 ++ p2)).
Proof.
  revert l1. induction ts1 as [|t ts1 IH]; intros [|v l1] H; try discriminate H.
  - cbn [app enc_all bind]. destruct (enc_all pk ts2 l2); reflexivity.
  - cbn [app enc_all]. destruct (encode_with _ v); [|reflexivity]. cbn [bind]. rewrite IH by (cbn in H; lia).
    destruct (enc_all pk ts1 l1); [|reflexivity]. cbn [bind]. destruct (enc_all pk ts2 l2); reflexivity.
Qed.
Definition flat (pk : bool) (ts : list sty) : Prop := pk = true \/ existsb sdyn ts = false.
Lemma enc_all_flat pk ts l ps : flat pk ts -> enc_all pk ts l = Ok ps -> ps = map (pair false) (map snd ps).
Proof.
  intros F. assert (H : Forall (fun t => negb pk && sdyn t = false) ts).
  { destruct F as [-> |F]; [apply Forall_forall; reflexivity|]. induction ts as [|t ts IH]; [constructor|]. cbn [existsb] in F. apply orb_false_iff in F.
    destruct F as [F1 F2]. constructor; [rewrite F1; apply andb_false_r|apply IH; exact F2]. }
  clear F. revert l ps. induction H as [|t ts H Hs IH]; intros [|v l] ps E; cbn [enc_all] in E; try (inv E; reflexivity).
  bok E. bok E. inv E. cbn [map snd]. rewrite H. f_equal. eapply IH. eassumption.
Qed.
Lemma assemble_flat ps : ps = map (pair false) (map snd ps) -> assemble ps = Ok (concat (map snd ps)).
Proof. intro H. rewrite H, assemble_same, map_map. cbn [negb orb]. rewrite map_id. reflexivity. Qed.
Lemma type_args_app types1 types2 types n1 n2 ts1 ts2 : type_args types1 ts1 -> type_args types2 ts2 ->
  seq_like types1 n1 -> seq_like types2 n2 -> seq_like types (n1 ++ n2) -> type_args types (ts1 ++ ts2).
Proof.
  intros (s1 & L1 & F1) (s2 & L2 & F2) M1 M2 M. exists (s1 ++ s2).
  rewrite (seq_like_fun _ _ _ M1 L1), (seq_like_fun _ _ _ M2 L2), <- map_app in M. split; [exact M|]. apply Forall2_app; assumption.
Qed.
Theorem encode_concat pk w w1 w2 types types1 types2 n1 n2 ts1 ts2 args args1 args2 l1 l2 b :
  used pk w -> used pk w1 -> used pk w2 -> type_args types1 ts1 -> type_args types2 ts2 ->
  seq_like types1 n1 -> seq_like types2 n2 -> seq_like types (n1 ++ n2) ->
  seq_like args1 l1 -> seq_like args2 l2 -> seq_like args (l1 ++ l2) -> len l1 = len n1 ->
  pk = true \/ existsb sdyn (ts1 ++ ts2) = false ->
  encode_in w types args = Ok b <->
  exists b1 b2, encode_in w1 types1 args1 = Ok b1 /\ encode_in w2 types2 args2 = Ok b2 /\ b = b1 ++ b2.
Proof.
  intros U U1 U2 T1 T2 M1 M2 M A1 A2 A L F. pose proof (type_args_app _ _ _ _ _ _ _ T1 T2 M1 M2 M) as T.
  assert (W1 := type_args_wf _ _ T1). assert (W2 := type_args_wf _ _ T2). assert (W := type_args_wf _ _ T).
  rewrite (encode_args pk w types _ args _ U T A), (encode_args pk w1 types1 _ args1 _ U1 T1 A1), (encode_args pk w2 types2 _ args2 _ U2 T2 A2).
  assert (L1 : length l1 = length ts1).
  { destruct T1 as (s1 & S1 & F1). rewrite (seq_like_fun _ _ _ M1 S1), len_map in L. apply Forall2_len in F1. rewrite !len_length in *. lia. }
  assert (F1 : flat pk ts1 /\ flat pk ts2).
  { unfold flat. rewrite existsb_app in F. destruct F as [F|F]; [auto|]. apply orb_false_iff in F. tauto. }
  rewrite !tuple_form. destruct (seq_like_items _ _ A) as (It & _), (seq_like_items _ _ A1) as (It1 & _), (seq_like_items _ _ A2) as (It2 & _).
  rewrite It, It1, It2. split.
  - intro E. bok E. destruct x. bok E. rewrite (enc_all_app pk ts1 ts2 l1 l2 L1) in Hx0. bok Hx0. bok Hx0. injection Hx0 as Hx0. rewrite <- Hx0 in E.
    apply validate_tuple_ok in Hx; [|exact W]. destruct Hx as (_ & V). rewrite It in V. apply Forall2_app_inv_l in V. destruct V as (k1 & k2 & V1 & V2 & Ek).
    assert (K : k1 = l1 /\ k2 = l2).
    { apply app_inj_len in Ek; [intuition congruence|]. apply Forall2_len in V1. rewrite !len_length in *. lia. }
    destruct K as [K1 K2]. rewrite K1 in V1. rewrite K2 in V2. clear K1 K2 Ek.
    take (enc_all pk ts1 l1 = _) as E1. take (enc_all pk ts2 l2 = _) as E2.
    pose proof (enc_all_flat pk ts1 l1 _ (proj1 F1) E1) as P1. pose proof (enc_all_flat pk ts2 l2 _ (proj2 F1) E2) as P2.
    rewrite (proj2 (validate_tuple_ok pk ts1 args1 W1)), (proj2 (validate_tuple_ok pk ts2 args2 W2)) by (rewrite ?It1, ?It2; split; assumption).
    cbn [bind]. rewrite E1, E2. cbn [bind]. rewrite (assemble_flat _ P1), (assemble_flat _ P2).
    rewrite assemble_flat in E by (rewrite !map_app, <- P1, <- P2; reflexivity). injection E as E. rewrite <- E. do 2 eexists. split; [reflexivity|]. split; [reflexivity|].
    rewrite map_app, concat_app. reflexivity.
  - intros (b1 & b2 & E1 & E2 & ->). bok E1. destruct x. bok E1. bok E2. destruct x0. bok E2.
    apply validate_tuple_ok in Hx; [|exact W1]. apply validate_tuple_ok in Hx1; [|exact W2]. rewrite It1 in Hx. rewrite It2 in Hx1.
    rewrite (proj2 (validate_tuple_ok pk (ts1 ++ ts2) args W)) by (rewrite It; split; [exact A|apply Forall2_app; tauto]). cbn [bind].
    rewrite (enc_all_app pk ts1 ts2 l1 l2 L1), Hx0, Hx2. cbn [bind].
    pose proof (enc_all_flat pk ts1 l1 _ (proj1 F1) Hx0) as P1. pose proof (enc_all_flat pk ts2 l2 _ (proj2 F1) Hx2) as P2.
    rewrite assemble_flat by (rewrite !map_app, <- P1, <- P2; reflexivity). rewrite (assemble_flat _ P1) in E1. rewrite (assemble_flat _ P2) in E2. injection E1 as <-. injection E2 as <-.
    rewrite map_app, concat_app. reflexivity.
Qed.
