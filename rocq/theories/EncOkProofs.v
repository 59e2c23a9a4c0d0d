(** What a successful encode tells about its argument. *)
From Coq Require Import Strings.Byte Strings.String.
From Verif Require Import Tac Bytes BytesProofs Utf8 Utf8Proofs Decimals Encoding Spec EncLeafProofs EncodeProofs AcceptProofs.
Open Scope Z_scope.

Lemma uint_256_len z r : encode_uint_256 z = Ok r -> len r = 32 /\ 0 <= z < 2 ^ 256.
Proof.
  intro H. destruct (Z_lt_dec z 0); [rewrite encode_uint_256_Err in H by lia; discriminate|].
  destruct (Z_lt_dec z (2 ^ 256)); [|rewrite encode_uint_256_Err in H by lia; discriminate].
  rewrite encode_uint_256_word in H by lia. inv H. split; [apply word_len|lia].
Qed.
Lemma offsets_len base : forall bs acc hs, mapM (fun off => encode_uint_256 (base + off)) (tail_offsets acc bs) = Ok hs -> len (concat hs) = 32 * len bs.
Proof.
  induction bs as [|b bs IH]; intros acc hs H; cbn [tail_offsets mapM] in H; [inv H; reflexivity|].
  bok H. bok H. inv H. apply uint_256_len in Hx. apply IH in Hx0. cbn [concat]. lens. lia.
Qed.
Lemma elements_len val dyn enc p b : encode_elements val dyn enc p = Ok b ->
  val p = Ok tt /\ exists bs, mapM enc (items p) = Ok bs /\ len b = len (head_tail (map (pair dyn) bs)).
Proof.
  unfold encode_elements. intro H. bok H. destruct x. split; [assumption|]. bok H. rename x into x0, Hx0 into M. exists x0. split; [assumption|].
  assert (Lb : len (items p) = len x0).
  { clear - M. revert x0 M. induction (items p) as [|i l IH]; intros bs M; cbn [mapM] in M; [inv M; reflexivity|]. bok M. bok M. inv M. lens.
    rewrite (IH _ Hx0). reflexivity. }
  destruct (negb dyn || (len (items p) =? 0)) eqn:C.
  - inv H. destruct dyn; cbn [negb orb] in C.
    + apply Z.eqb_eq in C. destruct x0; [reflexivity|]. rewrite Lb in C. revert C. lens. pose proof (len_nonneg x0). lia.
    + rewrite head_tail_static. reflexivity.
  - bok H. inv H. apply offsets_len in Hx0. destruct dyn; [|discriminate C].
    rewrite len_head_tail, tails_dynamic, heads_size_dynamic. lens. lia.
Qed.
Lemma mapM_Forall {A B} (f : A -> result B) l bs : mapM f l = Ok bs -> Forall2 (fun x y => f x = Ok y) l bs.
Proof. revert bs. induction l as [|x l IH]; intros bs H; cbn [mapM] in H; [inv H; constructor|]. bok H. bok H. inv H. constructor; auto. Qed.
Lemma head_tail_len ps qs : Forall2 (fun p q : bool * bytes => fst p = fst q /\ len (snd p) = len (snd q)) ps qs -> len (head_tail ps) = len (head_tail qs).
Proof.
  intro F. rewrite !len_head_tail. induction F as [|[d b] [d' b'] ps qs [E L] F IH]; [reflexivity|]. cbn [fst snd] in *. subst d'.
  cbn [heads_size tails]. unfold head_size. cbn [fst snd]. destruct d; lens; lia.
Qed.
Lemma chunks_len des vs cs : tuple_chunks des vs = Ok cs -> len vs = len des ->
  exists bs, cs = map chunk (combine (map fst des) bs) /\ Forall3 (fun (d : bool * (pyval -> result bytes)) v b => snd d v = Ok b) des vs bs.
Proof.
  revert vs cs. induction des as [|[d enc] des IH]; intros [|v vs] cs H L; lens; try (pose proof (len_nonneg des)); try (pose proof (len_nonneg vs)); try lia.
  - cbn [tuple_chunks] in H. inv H. exists []. split; [reflexivity|constructor].
  - cbn [tuple_chunks] in H. bok H. bok H. inv H. destruct (IH vs _ Hx0 ltac:(lia)) as (bs & -> & F).
    exists (x :: bs). split; [|constructor; assumption]. cbn [map combine fst]. unfold chunk at 1. destruct d; reflexivity.
Qed.
Lemma join_len ps b : join_chunks (map chunk ps) = Ok b -> len b = len (head_tail ps).
Proof.
  unfold join_chunks. cbv zeta. rewrite chunks_head_length. generalize (heads_size ps) at 1. intros H0 H. bok H. inv H. rename Hx into M. rewrite chunks_tails. rewrite len_head_tail. lens. f_equal.
  revert M. generalize 0 as acc. revert x. induction ps as [|[d c] ps IH]; intros x acc M; [inv M; reflexivity|].
  cbn [map combine tail_offsets mapM] in M. bok M. bok M. inv M. rename Hx0 into M. apply IH in M. cbn [concat heads_size]. lens. rewrite M.
  unfold head_size. cbn [fst snd]. destruct d; cbn in Hx; [apply uint_256_len in Hx; lia|inv Hx; reflexivity].
Qed.

Definition enc_good (pk : bool) (t : sty) (p : pyval) (b : bytes) : Prop :=
  validate_value (enc_of pk t) p = Ok tt /\ leaves scalar_leaf t p /\ forall a, denotes t p a -> len b = len (out pk t a).
Lemma len_combine {A B} (l : list A) (l' : list B) : len (combine l l') = Z.min (len l) (len l').
Proof.
  revert l'. induction l as [|x l IH]; intros [|y l']; cbn [combine]; lens; try (pose proof (len_nonneg l)); try (pose proof (len_nonneg l')); try lia.
  rewrite IH. lia.
Qed.
Lemma be_bytes_len k z : len (be_bytes k z) = Z.of_nat k.
Proof. rewrite be_bytes_eq. apply to_be_len. Qed.
Definition word_leaf (t : sty) : bool :=
  match t with SBytes | SString | SArr _ | SSized _ _ | STuple _ => false | _ => true end.
Lemma word_leaf_len pk t a : wf t -> word_leaf t = true -> has_type t a -> len (out pk t a) <= 32.
Proof.
  intros W L T. assert (S : sdyn t = false) by (destruct t; try discriminate L; reflexivity).
  destruct pk; cbn [out].
  - destruct T; try discriminate L; cbn [spec_packed]; rewrite ?be_bytes_len; inv W; unfold int_size in *; lia.
  - rewrite (spec_enc_static t a W T S). destruct t; try discriminate L; cbn; lia.
Qed.
Lemma word_leaf_good pk t p b : wf t -> word_leaf t = true -> validate_value (enc_of pk t) p = Ok tt ->
  encode_with (enc_of pk t) p = Ok b -> enc_good pk t p b.
Proof.
  intros W L V E. split; [exact V|]. split.
  - destruct t; try discriminate L; exact I.
  - intros a D. destruct (denotes_encodes pk t p a W D) as [_ H].
    pose proof (word_leaf_len pk t a W L (denotes_has_type t p a W D)). rewrite H in E by lia. inv E. reflexivity.
Qed.
Lemma prefixed_ok b r : encode_length_prefixed b = Ok r -> r = word (len b) ++ pad_right b.
Proof.
  intro H. assert (len b < 2 ^ 256).
  { unfold encode_length_prefixed in H. bok H. apply uint_256_len in Hx. lia. }
  rewrite length_prefixed in H by assumption. inv H. reflexivity.
Qed.
Lemma items_good pk t l bs : Forall2 (fun x b => encode_with (enc_of pk t) x = Ok b) l bs -> (forall p b, encode_with (enc_of pk t) p = Ok b -> enc_good pk t p b) ->
  Forall (leaves scalar_leaf t) l /\ forall d vs, Forall2 (denotes t) l vs ->
    len (head_tail (map (pair d) bs)) = len (head_tail (map (pair d) (map (out pk t) vs))).
Proof.
  intros F H. split.
  - induction F as [|x b l bs E F IH]; constructor; [apply (H x b E)|exact IH].
  - intros d vs D. apply head_tail_len. revert vs D. induction F as [|x b l bs E F IH]; intros vs D; inv D; cbn [map]; constructor; auto.
    cbn [fst snd]. split; [reflexivity|]. apply (H x b E). assumption.
Qed.
Lemma Forall3_chunks pk ts vs bs :
  Forall3 (fun (d : bool * (pyval -> result bytes)) v b => snd d v = Ok b)
    (combine (map enc_is_dyn (map (enc_of pk) ts)) (map snd (map ve (map (enc_of pk) ts)))) vs bs ->
  Forall3 (fun t v b => encode_with (enc_of pk t) v = Ok b) ts vs bs.
Proof.
  revert vs bs. induction ts as [|t ts IH]; intros vs bs F; inv F; constructor; auto.
Qed.
Theorem encode_good pk : forall t, wf t -> forall p b, encode_with (enc_of pk t) p = Ok b -> enc_good pk t p b.
Proof.
  assert (A : forall n t, (forall p b, encode_with (enc_of pk t) p = Ok b -> enc_good pk t p b) ->
    forall val p b, encode_elements val (enc_is_dyn (enc_of pk t)) (encode_with (enc_of pk t)) p = Ok b ->
    val p = Ok tt /\ Forall (leaves scalar_leaf t) (items p) /\
    forall l vs, seq_like p l -> Forall2 (denotes t) l vs -> len b = len (out pk (SSized n t) (VSeq vs))).
  { intros n t H val p b E. apply elements_len in E. destruct E as (V & bs & M & L). split; [exact V|]. apply mapM_Forall in M.
    destruct (items_good pk t (items p) bs M H) as [Le Hl]. split; [exact Le|]. intros l vs S D.
    destruct (seq_like_items p l S) as (I & _). rewrite I in Hl. rewrite out_sized, L, enc_is_dyn_of. apply Hl. exact D. }
  intro t. induction t as [m|m| | |m n|m n|k| | |t IH|n t IH|ts IH] using sty_ind'; intros W p b E.
  1-7: (apply word_leaf_good; [exact W|reflexivity| |exact E]; unfold encode_with in E; cbn [enc_of ve snd] in E; 
        unfold encode_uint, encode_sint, encode_bool, encode_addr, encode_ufixed, encode_sfixed, encode_bytesM in E; bok E; destruct x; exact Hx).
  - unfold encode_with in E. cbn [enc_of ve snd] in E. unfold encode_bytestring in E. bok E. destruct x. split; [exact Hx|]. split; [exact I|].
    intros a D. inv D. take (bytes_like p b0) as B. apply bytes_like_of in B. destruct B as [B _]. rewrite B in E. destruct pk.
    + inv E. reflexivity.
    + apply prefixed_ok in E. subst b. reflexivity.
  - unfold encode_with in E. cbn [enc_of ve snd] in E. unfold encode_text in E. bok E. destruct x. bok E.
    split; [exact Hx|]. unfold validate_text, is_text in Hx. destruct p; try discriminate Hx.
    destruct (utf8_encode_cases s) as [[U S]|[U S]]; [|congruence]. split; [exact S|]. intros a D. inv D.
    assert (x = utf8 s) by congruence. subst x. destruct pk; [inv E; reflexivity|]. apply prefixed_ok in E. subst b. reflexivity.
  - inv W. take (wf t) as Wt. specialize (IH Wt). unfold encode_with in E. cbn [enc_of] in E. destruct pk; cbn [ve snd] in E.
    + destruct (A 0 t IH _ _ _ E) as (V & L & H). split; [exact V|]. split; [exact L|]. intros a D. inv D. apply (H l vs); assumption.
    + bok E. bok E. bok E. destruct (A 0 t IH _ _ _ Hx1) as (V & L & H). split; [exact V|]. split; [exact L|]. intros a D. inv D.
      inv E. rewrite out_arr. lens. rewrite word_len. apply uint_256_len in Hx0. rewrite (H l vs) by assumption. rewrite out_sized. lia.
  - inv W. take (wf t) as Wt. specialize (IH Wt). unfold encode_with in E. cbn [enc_of] in E. destruct pk; cbn [ve snd] in E.
    + destruct (A n t IH _ _ _ E) as (V & L & H). split; [exact V|]. split; [exact L|]. intros a D. inv D. eapply H; eassumption.
    + destruct (A n t IH _ _ _ E) as (V & L & H). split; [exact V|]. split; [exact L|]. intros a D. inv D. eapply H; eassumption.
  - inv W. take (Forall wf ts) as Wt. unfold encode_with in E. cbn [enc_of ve snd] in E. bok E. bok E. destruct x.
    assert (V : validate_value (enc_of pk (STuple ts)) p = Ok tt) by exact Hx. apply (validate_tuple_ok pk ts p Wt) in V as V'. destruct V' as [S V'].
    apply Forall2_len in V'. apply chunks_len in Hx0; [|].
    2:{ rewrite len_combine. lens. lia. }
    destruct Hx0 as (bs & -> & F). apply join_len in E.
    apply Forall3_chunks in F.
    assert (G : Forall3 (fun t v b => enc_good pk t v b) ts (items p) bs).
    { clear -F IH Wt. induction F as [|t v b ts vs bs E F IHF]; constructor; inv IH; inv Wt; auto. }
    split; [exact V|]. split.
    + rewrite leaves_tuple. clear -G. induction G as [|t v b ts vs bs E F IHF]; constructor; [apply E|exact IHF].
    + intros a D. inv D. rewrite out_tuple, E. apply head_tail_len. take (seq_like p l) as Sl. destruct (seq_like_items p l Sl) as (I & _). rewrite I in *.
      take (Forall3 denotes ts l vs) as D. clear -G D. revert vs D. induction G as [|t v b ts l bs E F IHF]; intros vs D; inv D; [constructor|].
      rewrite parts_cons. cbn [map combine]. constructor; [|apply IHF; assumption]. unfold opart. cbn [fst snd]. split; [apply enc_is_dyn_of|].
      apply E. assumption.
Qed.
