(** Which arguments the encoders accept, and what happens to the others. *)
From Coq Require Import Strings.Byte Strings.String.
From Verif Require Import Tac Bytes BytesProofs Utf8 Address Decimals DecimalsProofs Encoding Spec EncLeafProofs
  Utf8Proofs AddressProofs EncodeProofs.
Open Scope Z_scope.

(** Induction over values is not needed: everything follows the type. *)
Fixpoint all2 (R : sty -> pyval -> Prop) (ts : list sty) (l : list pyval) : Prop :=
  match ts, l with
  | t :: ts', x :: l' => R t x /\ all2 R ts' l'
  | _, _ => True
  end.
Lemma leaves_tuple P ts p : leaves P (STuple ts) p = all2 (leaves P) ts (items p).
Proof.
  cbn [leaves]. generalize (items p). induction ts as [|t ts IH]; intros [|x l]; try reflexivity.
  cbn [all2]. rewrite IH. reflexivity.
Qed.

Lemma seq_validate_Forall2 (f : sty -> pyval -> result unit) ts vs : len vs = len ts ->
  seq_validate (map f ts) vs = Ok tt <-> Forall2 (fun t v => f t v = Ok tt) ts vs.
Proof.
  revert vs. induction ts as [|t ts IH]; intros [|v vs] Hl; lens; try (pose proof (len_nonneg ts); lia);
    try (pose proof (len_nonneg vs); lia).
  - split; [constructor|reflexivity].
  - cbn [map seq_validate]. split.
    + intro H. bok H. destruct x. constructor; [assumption|]. apply IH; [lia|assumption].
    + intro F. inv F. take (f t v = _) as E. rewrite E. cbn [bind]. apply IH; [lia|assumption].
Qed.
Lemma list_like_seq p : is_list_like p = true -> seq_like p (items p).
Proof. destruct p; try discriminate; intros _; [left|right; left|right; right; eexists]; reflexivity. Qed.

(** Validation of containers, inverted. *)
Lemma validate_arr_ok pk t p : validate_value (enc_of pk (SArr t)) p = Ok tt <->
  seq_like p (items p) /\ Forall (fun x => validate_value (enc_of pk t) x = Ok tt) (items p).
Proof.
  assert (E : validate_value (enc_of pk (SArr t)) p = Ok tt <-> array_validate (fst (ve (enc_of pk t))) p = Ok tt).
  { unfold validate_value. cbn [enc_of]. destruct pk; cbn [ve fst]; [|reflexivity].
    unfold sized_validate. destruct (array_validate _ p) as [[]|]; reflexivity. }
  rewrite E. unfold array_validate. destruct (is_list_like p) eqn:L; cbn [negb].
  - rewrite validate_all_Forall. split; [intro H; split; [apply list_like_seq, L|exact H]|intros [_ H]; exact H].
  - split; [discriminate|]. intros [H _]. destruct p; destruct H as [H|[H|(? & H)]]; discriminate.
Qed.
Lemma validate_sized_ok pk n t p : validate_value (enc_of pk (SSized n t)) p = Ok tt <->
  seq_like p (items p) /\ len (items p) = n /\ Forall (fun x => validate_value (enc_of pk t) x = Ok tt) (items p).
Proof.
  assert (E : validate_value (enc_of pk (SSized n t)) p = sized_validate (Some n) (fst (ve (enc_of pk t))) p)
    by (destruct pk; reflexivity).
  rewrite E. unfold sized_validate, array_validate. destruct (is_list_like p) eqn:L; cbn [negb].
  - split.
    + intro H. bok H. destruct x. apply raise_if_Ok in H. apply validate_all_Forall in Hx.
      split; [apply list_like_seq, L|]. split; [lia|exact Hx].
    + intros (_ & Hn & Hx). apply validate_all_Forall in Hx. unfold validate_value in Hx. rewrite Hx. cbn [bind].
      apply raise_if_Ok. lia.
  - split; [discriminate|]. intros [H _]. destruct p; destruct H as [H|[H|(? & H)]]; discriminate.
Qed.
Lemma validate_tuple_ok pk ts p : Forall wf ts -> validate_value (enc_of pk (STuple ts)) p = Ok tt <->
  seq_like p (items p) /\ Forall2 (fun t x => validate_value (enc_of pk t) x = Ok tt) ts (items p).
Proof.
  intro W. cbn [enc_of]. rewrite validate_tuple by exact W. unfold tuple_val. rewrite len_map.
  destruct (is_list_like p) eqn:L; cbn [negb].
  - destruct (Z.eqb_spec (len (items p)) (len ts)) as [El|El]; cbn [negb].
    + rewrite seq_validate_Forall2 by exact El. split; [intro H; split; [apply list_like_seq, L|exact H]|intros [_ H]; exact H].
    + split; [discriminate|]. intros [_ F]. apply Forall2_len in F. lia.
  - split; [discriminate|]. intros [H _]. destruct p; destruct H as [H|[H|(? & H)]]; discriminate.
Qed.

(** ** Acceptance implies shape *)
Theorem validate_shaped pk t p : wf t -> validate_value (enc_of pk t) p = Ok tt -> shaped t p.
Proof.
  intro W. revert p.
  induction t as [m|m| | |m n|m n|k| | |t IH|n t IH|ts IH] using sty_ind'; intros p V; try (apply Sh_leaf; exact I).
  - inv W. apply validate_arr_ok in V. destruct V as [S F].
    apply Sh_arr with (l := items p); [exact S|]. eapply Forall_impl; [|exact F]. auto.
  - inv W. apply validate_sized_ok in V. destruct V as (S & L & F).
    apply Sh_sized with (l := items p); [exact S|exact L|]. eapply Forall_impl; [|exact F]. auto.
  - inv W. take (Forall wf ts) as Wt. apply validate_tuple_ok in V; [|exact Wt]. destruct V as (S & F).
    apply Sh_tuple with (l := items p); [exact S|]. clear S H0. revert IH Wt. induction F; intros IH Wt; [constructor|].
    inv IH. inv Wt. constructor; auto.
Qed.

(** ** Accepted arguments that are representable denote an ABI value *)
Lemma validate_addr_denotes p : validate_addr p = Ok tt -> exists b, denotes SAddr p (VBytes b).
Proof.
  intro V. destruct (validate_addr_cases p) as [(b & _ & [(s & -> & H)|[H L]])|E]; [| |congruence].
  - exists b. constructor; assumption.
  - exists b. apply D_addr_bytes; assumption.
Qed.
Lemma not_inexact n neg c e z : scaled (DFin neg c e) n z -> ~ inexact (PDec (DFin neg c e)) n.
Proof.
  intros Hz Hx. cbn [inexact scaled] in *.
  assert (Hz1 := scaled_cmp_lower neg c e n z ltac:(congruence)).
  assert (Hz2 := scaled_cmp_upper neg c e n z ltac:(congruence)).
  pose proof Hz as Hz0. unfold scaled_cmp in Hz. apply Hx. unfold excess.
  destruct (Z.leb_spec 0 (e + n)); [reflexivity|].
  apply Z.compare_eq in Hz. change (pow10 (- (e + n))) with (10 ^ (- (e + n))).
  apply Z.mod_divide; [apply Z.pow_nonzero; lia|].
  exists (if neg then - z else z). destruct neg; lia.
Qed.
Lemma fixed_denotes n lo hi p : 1 <= n <= 80 -> fixed_verdict n lo hi p = Ok tt ->
  (forall neg c e, p = PDec (DFin neg c e) -> exists z, scaled (DFin neg c e) n z) ->
  exists z, num_scaled p n z /\ lo <= z <= hi.
Proof.
  intros Hn V X. apply fixed_verdict_converse; [exact Hn|exact V|].
  destruct p as [|b|i|f|cx|a d|d|b|b|s|l|l|sr l|o]; cbn [inexact]; try tauto.
  destruct d as [neg c e| |]; try tauto. destruct (X neg c e eq_refl) as [z Hz].
  exact (not_inexact n neg c e z Hz).
Qed.

Theorem validate_denotes pk t p : wf t -> validate_value (enc_of pk t) p = Ok tt ->
  leaves exact_leaf t p -> leaves scalar_leaf t p -> exists a, denotes t p a.
Proof.
  intro W. revert p.
  induction t as [m|m| | |m n|m n|k| | |t IH|n t IH|ts IH] using sty_ind'; intros p V X S; inv W.
  - unfold validate_value in V. cbn [enc_of ve fst] in V.
    unfold validate_uint, validate_int, compute_unsigned_integer_bounds in V. destruct p; try discriminate.
    apply raise_if_Ok in V. exists (VInt z). constructor. lia.
  - unfold validate_value in V. cbn [enc_of ve fst] in V.
    unfold validate_sint, validate_int, compute_signed_integer_bounds in V. destruct p; try discriminate.
    apply raise_if_Ok in V. exists (VInt z). constructor. lia.
  - unfold validate_value in V. cbn [enc_of ve fst] in V. unfold validate_bool in V.
    destruct p; try discriminate. exists (VBool b). constructor.
  - unfold validate_value in V. cbn [enc_of ve fst] in V. destruct (validate_addr_denotes p V) as [b D]. eauto.
  - unfold validate_value in V. cbn [enc_of ve fst] in V. rewrite validate_ufixed_verdict in V by assumption.
    destruct (fixed_denotes n _ _ p ltac:(assumption) V) as (z & Hz & Hr).
    + intros neg c e ->. exact X.
    + exists (VInt z). constructor; [exact Hz|lia].
  - unfold validate_value in V. cbn [enc_of ve fst] in V. rewrite validate_sfixed_verdict in V by assumption.
    destruct (fixed_denotes n _ _ p ltac:(assumption) V) as (z & Hz & Hr).
    + intros neg c e ->. exact X.
    + exists (VInt z). constructor; [exact Hz|lia].
  - unfold validate_value in V. cbn [enc_of ve fst] in V. unfold validate_bytesM in V.
    destruct (is_bytes p) eqn:B; [|discriminate]. apply raise_if_Ok in V.
    eexists. apply D_bytesM with (b := bytes_of p); [destruct p; try discriminate; [left|right]; reflexivity|].
    rewrite Z.div_mul in V by lia. lia.
  - unfold validate_value in V. cbn [enc_of ve fst] in V. unfold validate_bytestring in V.
    destruct (is_bytes p) eqn:B; [|discriminate].
    exists (VBytes (bytes_of p)). constructor. destruct p; try discriminate; [left|right]; reflexivity.
  - unfold validate_value in V. cbn [enc_of ve fst] in V. unfold validate_text in V.
    destruct p; try discriminate. exists (VStr s). constructor. exact S.
  - apply validate_arr_ok in V. destruct V as [Q F]. cbn [leaves] in X, S.
    assert (E : exists vs, Forall2 (denotes t) (items p) vs).
    { clear Q. induction F as [|x l Hx F IHF]; [exists []; constructor|]. inv X. inv S.
      destruct (IH ltac:(assumption) x) as [a Ha]; try assumption. destruct IHF as [vs Hvs]; try assumption.
      exists (a :: vs). constructor; assumption. }
    destruct E as [vs Hvs]. exists (VSeq vs). econstructor; eassumption.
  - apply validate_sized_ok in V. destruct V as (Q & L & F). cbn [leaves] in X, S.
    assert (E : exists vs, Forall2 (denotes t) (items p) vs).
    { clear Q L. induction F as [|x l Hx F IHF]; [exists []; constructor|]. inv X. inv S.
      destruct (IH ltac:(assumption) x) as [a Ha]; try assumption. destruct IHF as [vs Hvs]; try assumption.
      exists (a :: vs). constructor; assumption. }
    destruct E as [vs Hvs]. exists (VSeq vs). econstructor; eassumption.
  - take (Forall wf ts) as Wt. apply validate_tuple_ok in V; [|exact Wt]. destruct V as (Q & F).
    rewrite leaves_tuple in X, S.
    assert (E : exists vs, Forall3 denotes ts (items p) vs).
    { clear Q H0. revert X S IH Wt. induction F as [|t x ts l Hx F IHF]; intros X S IH Wt; [exists []; constructor|].
      inv IH. inv Wt. destruct X as [X1 X2]. destruct S as [S1 S2].
      take (wf t -> _) as IHt. destruct (IHt ltac:(assumption) x) as [a Ha]; try assumption.
      destruct IHF as [vs Hvs]; try assumption.
      exists (a :: vs). constructor; assumption. }
    destruct E as [vs Hvs]. exists (VSeq vs). econstructor; eassumption.
Qed.

(** ** A value that denotes something has only exact and scalar leaves *)
Theorem denotes_leaves t p a : denotes t p a -> leaves exact_leaf t p /\ leaves scalar_leaf t p /\ leaves native_leaf t p.
Proof.
  revert p a.
  induction t as [m|m| | |m n|m n|k| | |t IH|n t IH|ts IH] using sty_ind'; intros p a D; inv D; cbn [leaves];
    try (cbn; tauto).
  - take (num_scaled _ _ _) as Hz. destruct p as [|b|i|f|cx|a d|d|b|b|s|l|l|sr l|o]; cbn in *; try tauto.
    destruct d; cbn in *; eauto.
  - take (num_scaled _ _ _) as Hz. destruct p as [|b|i|f|cx|a d|d|b|b|s|l|l|sr l|o]; cbn in *; try tauto.
    destruct d; cbn in *; eauto.
  - take (seq_like _ _) as Q. apply seq_like_items in Q. destruct Q as [-> _]. take (Forall2 _ _ _) as F.
    assert (G : Forall (fun p => leaves exact_leaf t p /\ leaves scalar_leaf t p /\ leaves native_leaf t p) l)
      by (induction F; constructor; eauto).
    repeat split; eapply Forall_impl; try exact G; cbn; tauto.
  - take (seq_like _ _) as Q. apply seq_like_items in Q. destruct Q as [-> _]. take (Forall2 _ _ _) as F.
    assert (G : Forall (fun p => leaves exact_leaf t p /\ leaves scalar_leaf t p /\ leaves native_leaf t p) l)
      by (clear -F IH; induction F; constructor; eauto).
    repeat split; eapply Forall_impl; try exact G; cbn; tauto.
  - take (seq_like _ _) as Q. apply seq_like_items in Q. destruct Q as [-> _]. take (Forall3 _ _ _ _) as F.
    revert IH. induction F as [|t q a ts ps vs Hd _ IHF]; intro IH; [tauto|]. inv IH.
    take (forall p a, denotes t p a -> _) as IHt. specialize (IHt _ _ Hd). specialize (IHF ltac:(assumption)). cbn. tauto.
Qed.

(** ** TypeError during validation comes from foreign numbers only *)
Theorem validate_native pk t p : wf t -> leaves native_leaf t p -> validate_value (enc_of pk t) p <> Err TypeError.
Proof.
  intro W. revert p.
  induction t as [m|m| | |m n|m n|k| | |t IH|n t IH|ts IH] using sty_ind'; intros p N; inv W.
  all: try (unfold validate_value; cbn [enc_of ve fst]).
  - unfold validate_uint, validate_int, compute_unsigned_integer_bounds. destruct p; try discriminate.
    unfold raise_if. destruct (_ || _); discriminate.
  - unfold validate_sint, validate_int, compute_signed_integer_bounds. destruct p; try discriminate.
    unfold raise_if. destruct (_ || _); discriminate.
  - unfold validate_bool. destruct (is_boolean p); discriminate.
  - unfold validate_addr. destruct (is_address p); discriminate.
  - rewrite validate_ufixed_verdict by assumption. unfold fixed_verdict. cbn [leaves native_leaf] in N.
    destruct p as [|b|i|f|cx|a d|d|b|b|s|l|l|sr l|o]; try discriminate; try tauto; [| |destruct d; try discriminate];
      destruct (out_of_range _ n _ _) as [[]|]; try discriminate; destruct (excess_rejected _ _); discriminate.
  - rewrite validate_sfixed_verdict by assumption. unfold fixed_verdict. cbn [leaves native_leaf] in N.
    destruct p as [|b|i|f|cx|a d|d|b|b|s|l|l|sr l|o]; try discriminate; try tauto; [| |destruct d; try discriminate];
      destruct (out_of_range _ n _ _) as [[]|]; try discriminate; destruct (excess_rejected _ _); discriminate.
  - unfold validate_bytesM. destruct (is_bytes p); [|discriminate]. unfold raise_if. destruct (_ <? _); discriminate.
  - unfold validate_bytestring. destruct (is_bytes p); discriminate.
  - unfold validate_text. destruct (is_text p); discriminate.
  - cbn [leaves] in N. assert (A : array_validate (fst (ve (enc_of pk t))) p <> Err TypeError).
    { unfold array_validate. destruct (negb _); [discriminate|]. induction N as [|x l Hx _ IHN]; [discriminate|].
      cbn [validate_all]. intro E. apply bind_Err in E. destruct E as [E|(u & _ & E)]; [|auto].
      exact (IH ltac:(assumption) x Hx E). }
    destruct pk; cbn [ve fst]; [|exact A]. unfold sized_validate. destruct (array_validate _ p) as [[]|]; [discriminate|exact A].
  - cbn [leaves] in N. assert (A : array_validate (fst (ve (enc_of pk t))) p <> Err TypeError).
    { unfold array_validate. destruct (negb _); [discriminate|]. induction N as [|x l Hx _ IHN]; [discriminate|].
      cbn [validate_all]. intro E. apply bind_Err in E. destruct E as [E|(u & _ & E)]; [|auto].
      exact (IH ltac:(assumption) x Hx E). }
    assert (B : sized_validate (Some n) (fst (ve (enc_of pk t))) p <> Err TypeError).
    { unfold sized_validate. destruct (array_validate _ p) as [[]|]; [|exact A]. cbn [bind].
      unfold raise_if. destruct (negb _); discriminate. }
    destruct pk; exact B.
  - take (Forall wf ts) as Wt. rewrite leaves_tuple in N.
    change (validate_value (ETuple (map (enc_of pk) ts)) p <> Err TypeError). rewrite validate_tuple by assumption.
    unfold tuple_val. destruct (negb _); [discriminate|]. destruct (negb _); [discriminate|].
    clear H0. revert N. generalize (items p). revert IH Wt.
    induction ts as [|t ts IHts]; intros IH Wt [|x l] N; try discriminate. inv IH. inv Wt. destruct N as [N1 N2].
    cbn [map seq_validate]. intro E. apply bind_Err in E. destruct E as [E|(u & _ & E)].
    + take (wf t -> _) as IHt. exact (IHt ltac:(assumption) x N1 E).
    + eapply IHts; eassumption.
Qed.

(** ** Encoding accepted arguments succeeds, but for lone surrogates *)
Definition sizes (l : list pyval) : Z := fold_right (fun x acc => py_size x + acc) 0 l.
Lemma py_size_seq p : seq_like p (items p) -> py_size p = 128 + sizes (items p).
Proof. intros [->|[->|(r & ->)]]; reflexivity. Qed.
Lemma py_size_ge p : 128 <= py_size p.
Proof.
  revert p. fix IH 1. intros [|b|i|f|cx|a d|d|b|b|s|l|l|sr l|o]; cbn [py_size]; try lia.
  - pose proof (len_nonneg b). lia.
  - pose proof (len_nonneg b). lia.
  - pose proof (len_nonneg s). lia.
  - induction l as [|x l IHl]; cbn [fold_right]; [lia|]. specialize (IH x). lia.
  - induction l as [|x l IHl]; cbn [fold_right]; [lia|]. specialize (IH x). lia.
  - induction l as [|x l IHl]; cbn [fold_right]; [lia|]. specialize (IH x). lia.
Qed.
Lemma sizes_nonneg l : 0 <= sizes l.
Proof. induction l as [|x l IH]; cbn [sizes fold_right]; [lia|]. pose proof (py_size_ge x). unfold sizes in IH. lia. Qed.
Lemma sizes_cons x l : sizes (x :: l) = py_size x + sizes l.
Proof. reflexivity. Qed.
Lemma sizes_len l : 128 * len l <= sizes l.
Proof.
  induction l as [|x l IH]; [reflexivity|]. rewrite sizes_cons. lens. pose proof (py_size_ge x). lia.
Qed.
Lemma head_tail_sizes ps l : Forall2 (fun (p : bool * bytes) x => len (snd p) + 32 <= py_size x) ps l ->
  len (head_tail ps) <= sizes l.
Proof.
  rewrite len_head_tail. induction 1 as [|[d b] x ps l Hp _ IH]; [reflexivity|]. rewrite sizes_cons. cbn [snd] in Hp.
  pose proof (len_nonneg b). destruct d; cbn [heads_size head_size fst snd tails]; lens; lia.
Qed.

(** The outcome of encoding one accepted argument. *)
Definition outcome (ok : Prop) (size : Z) (r : result bytes) : Prop :=
  (exists b, r = Ok b /\ len b + 32 <= size /\ ok) \/ (r = Err UnicodeEncodeError /\ ~ ok).

Lemma mapM_outcome (f : pyval -> result bytes) (P : pyval -> Prop) l :
  Forall (fun x => outcome (P x) (py_size x) (f x)) l ->
  (exists bs, mapM f l = Ok bs /\ Forall2 (fun b x => len b + 32 <= py_size x) bs l /\ Forall P l)
  \/ (mapM f l = Err UnicodeEncodeError /\ ~ Forall P l).
Proof.
  induction 1 as [|x l Hx _ IH]; [left; exists []; repeat constructor|].
  cbn [mapM]. destruct Hx as [(b & -> & Hb & Hok)|[-> Hn]]; cbn [bind].
  - destruct IH as [(bs & -> & Hbs & HF)|[-> Hn]]; cbn [bind].
    + left. exists (b :: bs). repeat constructor; assumption.
    + right. split; [reflexivity|]. intro F. inv F. auto.
  - right. split; [reflexivity|]. intro F. inv F. auto.
Qed.
Lemma elements_outcome val dyn enc p (P : pyval -> Prop) :
  val p = Ok tt -> seq_like p (items p) -> py_size p < 2 ^ 256 ->
  Forall (fun x => outcome (P x) (py_size x) (enc x)) (items p) ->
  (exists b, encode_elements val dyn enc p = Ok b /\ len b <= sizes (items p) /\ Forall P (items p))
  \/ (encode_elements val dyn enc p = Err UnicodeEncodeError /\ ~ Forall P (items p)).
Proof.
  intros V Q Z F. rewrite py_size_seq in Z by exact Q.
  destruct (mapM_outcome enc P (items p) F) as [(bs & E & Hb & HF)|[E Hn]].
  - left. assert (Hl : len (head_tail (map (pair dyn) bs)) <= sizes (items p)).
    { apply head_tail_sizes. clear -Hb. induction Hb; constructor; auto. }
    exists (head_tail (map (pair dyn) bs)). split; [|auto].
    apply encode_elements_head_tail; [exact V|exact E|lia].
  - right. split; [|exact Hn]. unfold encode_elements. rewrite V. cbn [bind]. rewrite E. reflexivity.
Qed.
Lemma length_prefixed_size b : len b < 2 ^ 255 ->
  exists r, encode_length_prefixed b = Ok r /\ len r <= 63 + len b.
Proof.
  intro H. rewrite length_prefixed by lia. eexists; split; [reflexivity|]. lens. rewrite word_len.
  pose proof (pad_right_len b). lia.
Qed.
Lemma len_seq i n : len (seq i n) = Z.of_nat n.
Proof. revert i. induction n as [|n IH]; intro i; cbn [seq]; [reflexivity|]. lens. rewrite IH. lia. Qed.
Lemma utf8_len_le s : len (utf8 s) <= 4 * len s.
Proof.
  induction s as [|c s IH]; [reflexivity|]. unfold utf8 in *. cbn [flat_map]. lens.
  enough (len (utf8_char c) <= 4) by lia. unfold utf8_char. lens.
  rewrite len_seq. enough (utf8_len c <= 3)%nat by lia.
  unfold utf8_len. repeat destruct (_ <? _)%N; lia.
Qed.

Theorem validate_encode pk t p : wf t -> validate_value (enc_of pk t) p = Ok tt -> fits p ->
  outcome (leaves scalar_leaf t p) (py_size p) (encode_with (enc_of pk t) p).
Proof.
  unfold fits. intro W. revert p.
  induction t as [m|m| | |m n|m n|k| | |t IH|n t IH|ts IH] using sty_ind'; intros p V Z; inv W; pose proof (py_size_ge p) as Hge.
  - (* uint *)
    destruct (validate_denotes pk (SUInt m) p) as [a D]; try exact I; [constructor; assumption|exact V|].
    destruct (denotes_encodes pk (SUInt m) p a ltac:(constructor; assumption) D) as [_ E]. inv D.
    assert (L : len (out pk (SUInt m) (VInt z)) <= 32).
    { destruct (dsz_nat pk m) as (n & _ & _ & _ & En); [assumption|]. unfold out. cbn [spec_packed spec_enc].
      rewrite out_word by assumption. rewrite to_be_len. destruct pk; [|lia]. take (int_size m) as Hm. destruct Hm. lia. }
    rewrite E by lia. left. eexists; split; [reflexivity|]. split; [lia|exact I].
  - (* int *)
    destruct (validate_denotes pk (SInt m) p) as [a D]; try exact I; [constructor; assumption|exact V|].
    destruct (denotes_encodes pk (SInt m) p a ltac:(constructor; assumption) D) as [_ E]. inv D.
    assert (L : len (out pk (SInt m) (VInt z)) <= 32).
    { unfold out. cbn [spec_packed spec_enc].
      rewrite out_word by assumption. rewrite to_be_len. destruct pk; [|lia]. take (int_size m) as Hm. destruct Hm. lia. }
    rewrite E by lia. left. eexists; split; [reflexivity|]. split; [lia|exact I].
  - (* bool *)
    destruct (validate_denotes pk SBool p) as [a D]; try exact I; [constructor|exact V|].
    destruct (denotes_encodes pk SBool p a ltac:(constructor) D) as [_ E]. inv D.
    assert (L : len (out pk SBool (VBool b)) <= 32).
    { unfold out. cbn [spec_packed spec_enc]. destruct pk; rewrite ?be_bytes_eq, ?word_eq, to_be_len; lia. }
    rewrite E by lia. left. eexists; split; [reflexivity|]. split; [lia|exact I].
  - (* address *)
    destruct (validate_denotes pk SAddr p) as [a D]; try exact I; [constructor|exact V|].
    destruct (denotes_encodes pk SAddr p a ltac:(constructor) D) as [_ E].
    assert (L : len (out pk SAddr a) <= 32).
    { apply denotes_has_type in D; [|constructor]. inv D. unfold out. cbn [spec_packed spec_enc].
      destruct pk; lens; lia. }
    rewrite E by lia. left. eexists; split; [reflexivity|]. split; [lia|exact I].
  - (* ufixed *)
    take (int_size m) as Hm. destruct (dsz_nat pk m Hm) as (k & Hd & Hk & Hmk & En).
    destruct (encode_ufixed_ok m n k p) as (b & E & L & _); try assumption.
    left. exists b. unfold encode_with. cbn [enc_of ve snd]. rewrite Hd, E, L.
    split; [reflexivity|]. split; [|exact I]. destruct Hm. subst k. destruct pk; lia.
  - (* fixed *)
    take (int_size m) as Hm. destruct (dsz_nat pk m Hm) as (k & Hd & Hk & Hmk & En).
    destruct (encode_sfixed_ok m n k p) as (b & E & L & _); try assumption.
    left. exists b. unfold encode_with. cbn [enc_of ve snd]. rewrite Hd, E, L.
    split; [reflexivity|]. split; [|exact I]. destruct Hm. subst k. destruct pk; lia.
  - (* bytesM *)
    destruct (validate_denotes pk (SBytesM k) p) as [a D]; try exact I; [constructor; assumption|exact V|].
    destruct (denotes_encodes pk (SBytesM k) p a ltac:(constructor; assumption) D) as [_ E].
    assert (L : len (out pk (SBytesM k) a) <= 32).
    { apply denotes_has_type in D; [|constructor; assumption]. inv D. unfold out. cbn [spec_packed spec_enc].
      pose proof (pad_right_len b). destruct pk; lia. }
    rewrite E by lia. left. eexists; split; [reflexivity|]. split; [lia|exact I].
  - (* bytes *)
    unfold encode_with. cbn [enc_of ve snd]. unfold encode_bytestring.
    change (validate_bytestring p = Ok tt) in V. rewrite V. cbn [bind].
    unfold validate_bytestring in V. destruct (is_bytes p) eqn:B; [|discriminate].
    assert (Hs : py_size p = 128 + len (bytes_of p)) by (destruct p; try discriminate; reflexivity).
    left. destruct pk.
    + eexists; split; [reflexivity|]. split; [lia|exact I].
    + destruct (Z_lt_ge_dec (len (bytes_of p)) (2 ^ 255)).
      * destruct (length_prefixed_size (bytes_of p)) as (r & E & L); [assumption|].
        exists r. split; [exact E|]. split; [lia|exact I].
      * rewrite length_prefixed by lia. eexists; split; [reflexivity|]. split; [|exact I].
        lens. rewrite word_len. pose proof (pad_right_len (bytes_of p)). lia.
  - (* string *)
    change (validate_text p = Ok tt) in V. unfold validate_text in V. destruct p; try discriminate.
    unfold encode_with. cbn [enc_of ve snd]. unfold encode_text. cbn [validate_text is_text bind].
    cbn [leaves scalar_leaf py_size] in *.
    destruct (utf8_encode_cases s) as [[E Hs]|[E Hs]].
    + rewrite E. cbn [bind]. left. pose proof (utf8_len_le s). destruct pk.
      * eexists; split; [reflexivity|]. split; [lia|exact Hs].
      * rewrite length_prefixed by lia. eexists; split; [reflexivity|]. split; [|exact Hs].
        lens. rewrite word_len. pose proof (pad_right_len (utf8 s)). lia.
    + rewrite E. right. split; [reflexivity|exact Hs].
  - (* dynamic array *)
    pose proof V as V0. apply validate_arr_ok in V0. destruct V0 as [Q F].
    pose proof (py_size_seq p Q) as Hs.
    assert (FO : Forall (fun x => outcome (leaves scalar_leaf t x) (py_size x) (snd (ve (enc_of pk t)) x)) (items p)).
    { clear Q V Hge. assert (Hz : sizes (items p) < 2 ^ 256) by lia. clear Hs Z.
      induction F as [|x l Hx F IHF]; constructor; rewrite sizes_cons in Hz; pose proof (sizes_nonneg l); pose proof (py_size_ge x).
      - apply IH; [assumption|exact Hx|lia].
      - apply IHF. lia. }
    unfold encode_with. cbn [enc_of]. destruct pk; cbn [ve snd].
    + destruct (elements_outcome (sized_validate None (fst (ve (enc_of true t)))) (enc_is_dyn (enc_of true t))
                  (snd (ve (enc_of true t))) p (leaves scalar_leaf t) V Q Z FO) as [(b & E & L & S)|[E S]]; rewrite E.
      * left. exists b. split; [reflexivity|]. split; [lia|exact S].
      * right. split; [reflexivity|exact S].
    + pose proof (sizes_len (items p)).
      assert (Hl : py_len p = Ok (len (items p))) by (destruct Q as [->|[->|(? & ->)]]; reflexivity).
      rewrite Hl. cbn [bind]. pose proof (len_nonneg (items p)). rewrite encode_uint_256_word by lia. cbn [bind].
      destruct (elements_outcome (array_validate (fst (ve (enc_of false t)))) (enc_is_dyn (enc_of false t))
                  (snd (ve (enc_of false t))) p (leaves scalar_leaf t) V Q Z FO) as [(b & E & L & S)|[E S]]; rewrite E; cbn [bind].
      * left. eexists. split; [reflexivity|]. split; [lens; rewrite word_len; lia|exact S].
      * right. split; [reflexivity|exact S].
  - (* fixed-size array *)
    pose proof V as V0. apply validate_sized_ok in V0. destruct V0 as (Q & Hn & F).
    pose proof (py_size_seq p Q) as Hs.
    assert (FO : Forall (fun x => outcome (leaves scalar_leaf t x) (py_size x) (snd (ve (enc_of pk t)) x)) (items p)).
    { clear Q V Hge Hn. assert (Hz : sizes (items p) < 2 ^ 256) by lia. clear Hs Z.
      induction F as [|x l Hx F IHF]; constructor; rewrite sizes_cons in Hz; pose proof (sizes_nonneg l); pose proof (py_size_ge x).
      - apply IH; [assumption|exact Hx|lia].
      - apply IHF. lia. }
    assert (V' : sized_validate (Some n) (fst (ve (enc_of pk t))) p = Ok tt) by (destruct pk; exact V).
    assert (E' : encode_with (enc_of pk (SSized n t)) p =
                 encode_elements (sized_validate (Some n) (fst (ve (enc_of pk t)))) (enc_is_dyn (enc_of pk t)) (snd (ve (enc_of pk t))) p)
      by (destruct pk; reflexivity).
    rewrite E'.
    destruct (elements_outcome (sized_validate (Some n) (fst (ve (enc_of pk t)))) (enc_is_dyn (enc_of pk t))
                (snd (ve (enc_of pk t))) p (leaves scalar_leaf t) V' Q Z FO) as [(b & E & L & S)|[E S]]; rewrite E.
    + left. exists b. split; [reflexivity|]. split; [lia|exact S].
    + right. split; [reflexivity|exact S].
  - (* tuple *)
    take (Forall wf ts) as Wt.
    pose proof V as V0. apply validate_tuple_ok in V0; [|exact Wt]. destruct V0 as (Q & F).
    pose proof (py_size_seq p Q) as Hs. rewrite leaves_tuple.
    unfold encode_with. unfold validate_value in V. cbn [enc_of ve fst snd] in *. rewrite V. cbn [bind].
    assert (G : (exists ps, tuple_chunks (combine (map enc_is_dyn (map (enc_of pk) ts)) (map snd (map ve (map (enc_of pk) ts)))) (items p)
                            = Ok (map chunk ps)
                   /\ Forall2 (fun (q : bool * bytes) x => len (snd q) + 32 <= py_size x) ps (items p)
                   /\ all2 (leaves scalar_leaf) ts (items p))
                \/ (tuple_chunks (combine (map enc_is_dyn (map (enc_of pk) ts)) (map snd (map ve (map (enc_of pk) ts)))) (items p)
                    = Err UnicodeEncodeError /\ ~ all2 (leaves scalar_leaf) ts (items p))).
    { clear Q V Hge H0. assert (Hz : sizes (items p) < 2 ^ 256) by lia. clear Hs Z. revert IH Wt Hz.
      induction F as [|t x ts l Hx F IHF]; intros IH Wt Hz.
      - left. exists []. split; [reflexivity|]. split; [constructor|exact I].
      - inv IH. inv Wt. take (wf t -> _) as IHt. rewrite sizes_cons in Hz.
        pose proof (sizes_nonneg l); pose proof (py_size_ge x).
        cbn [map combine tuple_chunks all2].
        destruct (IHt ltac:(assumption) x Hx ltac:(lia)) as [(b & E & L & S)|[E S]]; unfold encode_with in E; rewrite E; cbn [bind].
        + destruct IHF as [(ps & E2 & L2 & S2)|[E2 S2]]; try assumption; try lia; rewrite E2; cbn [bind].
          * left. exists ((enc_is_dyn (enc_of pk t), b) :: ps). split; [reflexivity|]. split; [constructor; assumption|auto].
          * right. split; [reflexivity|]. intros [_ A]. auto.
        + right. split; [reflexivity|]. intros [A _]. auto. }
    destruct G as [(ps & E & L & S)|[E S]]; rewrite E; cbn [bind].
    + left. pose proof (head_tail_sizes ps _ L). rewrite join_chunks_head_tail by lia.
      eexists; split; [reflexivity|]. split; [lia|exact S].
    + right. split; [reflexivity|exact S].
Qed.
