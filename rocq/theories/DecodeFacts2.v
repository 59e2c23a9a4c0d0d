(** Canonical values, array sizes, pointers and the frame discipline. *)
From Coq Require Import Strings.Byte Strings.String.
From Verif Require Import Tac Bytes BytesProofs Utf8 Address Decimals DecimalsProofs Decoding Spec ReadSpec EncLeafProofs
  Utf8Proofs AddressProofs EncodeProofs DecLeafProofs DecodeProofs ReaderProofs DecodeFacts.
Open Scope Z_scope.

(** ** The decoded Python value *)
Lemma py_of_tuple ts l : py_of (STuple ts) (VSeq l) = PTuple (py_tuple ts l).
Proof. reflexivity. Qed.
Lemma fixed_range_abs m z : int_size m -> - 2 ^ m <= z < 2 ^ m -> Z.abs z <= 2 ^ 256.
Proof. intros [H1 H2] R. pose proof (pow2_mono m 256 ltac:(lia)). lia. Qed.
Theorem py_of_canon t a : wf t -> has_type t a -> canon t a (py_of t a).
Proof.
  intro W. revert a. induction t as [m|m| | |m n|m n|k| | |t IH|n t IH|ts IH] using sty_ind'; intros a T; inv W; inv T;
    try (constructor; fail).
  - take (int_size m) as Hm. take (frac_size n) as Hn. cbn [py_of].
    destruct (dec_of_word n z Hn) as (d & -> & S & _); [apply (fixed_range_abs m); [exact Hm|lia]|]. constructor. exact S.
  - take (int_size m) as Hm. take (frac_size n) as Hn. cbn [py_of].
    pose proof (pow2_pred m ltac:(destruct Hm; lia)).
    destruct (dec_of_word n z Hn) as (d & -> & S & _); [apply (fixed_range_abs m); [exact Hm|lia]|]. constructor. exact S.
  - cbn [py_of]. constructor. take (Forall _ l) as F. take (wf t) as Wt. clear -IH F Wt. induction F; constructor; auto.
  - cbn [py_of]. constructor. take (Forall _ l) as F. take (wf t) as Wt. clear -IH F Wt. induction F; constructor; auto.
  - rewrite py_of_tuple. constructor. take (Forall2 _ ts l) as F. take (Forall wf ts) as Wt.
    clear -IH F Wt. induction F as [|t x ts l Hx F IHF]; [constructor|]. inv IH. inv Wt. cbn [py_tuple]. constructor; auto.
Qed.
Lemma canon_denotes t a q : wf t -> has_type t a -> canon t a q -> denotes t q a.
Proof.
  intro W. revert a q. induction t as [m|m| | |m n|m n|k| | |t IH|n t IH|ts IH] using sty_ind'; intros a q T C; inv C; inv T; inv W.
  - constructor; assumption.
  - constructor; assumption.
  - constructor.
  - apply D_addr_text. apply address_text_hex_lower. assumption.
  - constructor; [|assumption]. assumption.
  - constructor; [|assumption]. assumption.
  - replace (VBytes b) with (VBytes (b ++ repeat x00 (Z.to_nat (len b - len b)))).
    + constructor; [left; reflexivity|lia].
    + rewrite Z.sub_diag. cbn. rewrite app_nil_r. reflexivity.
  - constructor. left. reflexivity.
  - constructor. assumption.
  - econstructor; [right; left; reflexivity|]. take (Forall2 _ vs qs) as F. take (Forall _ vs) as T. take (wf t) as W.
    clear -IH F T W. induction F; inv T; constructor; auto.
  - take (Forall2 _ vs qs) as F. econstructor; [right; left; reflexivity| |].
    + symmetry. eapply Forall2_len. exact F.
    + take (Forall _ vs) as T. take (wf t) as W. clear -IH F T W. induction F; inv T; constructor; auto.
  - take (Forall3 _ ts vs qs) as F. econstructor; [right; left; reflexivity|]. take (Forall2 _ ts vs) as T. take (Forall wf ts) as W.
    clear -IH F T W. induction F; inv T; inv IH; inv W; constructor; auto.
Qed.

(** ** Sizes *)

Section Sizes.
Variable buf : bytes.
Lemma tread_consumed s start ts : 0 <= start -> Forall wf ts -> forall p vs, 0 <= p <= len buf ->
  tread buf start (map (rdr_of buf s) ts) p = Ok vs -> p + 32 * len vs <= len buf.
Proof.
  intros Hs W. induction W as [|t ts Wt W IH]; intros p vs Hp H; cbn [map tread] in H; [inv H; lens; lia|].
  change (rdr_of buf s t) with (mkR (sdyn t) (static_size t) (pd buf s t)) in H. cbn [r_dyn r_fn r_size] in H.
  pose proof (static_size_ge t Wt).
  destruct (sdyn t) eqn:D.
  - bok H. bok H. bok H. inv H. take (word_at _ _ = _) as Wd. apply word_at_ok in Wd. take (tread _ _ _ _ = _) as R.
    apply IH in R; [|lia]. lens. lia.
  - bok H. bok H. inv H. take (pd _ _ _ _ = _) as P. pose proof (pd_sound buf t Wt _ _ _ (proj1 Hp) P) as T.
    apply pd_exact in P; auto; [|lia]. apply located_bounds in P. rewrite spec_enc_static in P by assumption.
    take (tread _ _ _ _ = _) as R. apply IH in R; [|lia]. lens. lia.
Qed.
Lemma len_py_tuple ts l : Forall2 has_type ts l -> len (py_tuple ts l) = len l.
Proof. induction 1; cbn [py_tuple]; lens; lia. Qed.

Definition sized (t : sty) : Prop := forall s p a, 0 <= p -> pd buf s t p = Ok a -> bounded (len buf / 32) (py_of t a).
Lemma members_sized s start ts : 0 <= start -> Forall wf ts -> Forall sized ts ->
  forall p vs, 0 <= p -> tread buf start (map (rdr_of buf s) ts) p = Ok vs -> Forall (bounded (len buf / 32)) (py_tuple ts vs).
Proof.
  intros Hs W S. revert W. induction S as [|t ts St S IH]; intros W p vs Hp H; cbn [map tread] in H; [inv H; constructor|].
  inv W. change (rdr_of buf s t) with (mkR (sdyn t) (static_size t) (pd buf s t)) in H. cbn [r_dyn r_fn r_size] in H.
  pose proof (static_size_ge t ltac:(assumption)). destruct (sdyn t).
  - bok H. bok H. bok H. inv H. take (word_at _ _ = _) as Wd. pose proof (word_at_range _ _ _ Hp Wd).
    cbn [py_tuple]. constructor; [eapply St; [|eassumption]; lia|]. eapply IH; [assumption| |eassumption]. lia.
  - bok H. bok H. inv H. cbn [py_tuple]. constructor; [eapply St; [|eassumption]; lia|]. eapply IH; [assumption| |eassumption]. lia.
Qed.
Theorem pd_sized t : wf t -> sized t.
Proof.
  induction t as [m|m| | |m n|m n|k| | |t IH|n t IH|ts IH] using sty_ind'; intros W s p a Hp H;
    try (pose proof (pd_sound buf _ W _ _ _ Hp H) as T; inv T; apply B_leaf; exact I).
  - pose proof (pd_bounds _ _ _ _ _ W Hp H) as B. inv W. cbn [pd] in H. bok H. take (word_at _ _ = _) as Wd.
    apply rd_array_ok in H; [|lia]. destruct H as (vs & -> & L & R & _). cbn [py_of].
    rewrite <- (py_tuple_repeat t vs (length vs) eq_refl). constructor.
    + rewrite py_tuple_repeat by reflexivity. rewrite len_map.
      pose proof (tread_consumed true (p + 32) _ ltac:(lia) (Forall_repeat wf t (length vs) ltac:(assumption)) (p + 32) vs ltac:(lia) R). lia.
    + eapply members_sized; [| | | |exact R]; try lia; apply Forall_repeat; auto.
  - pose proof (pd_bounds _ _ _ _ _ W Hp H) as B. inv W. cbn [pd] in H.
    apply rd_array_ok in H; [|lia]. destruct H as (vs & -> & L & R & _). cbn [py_of].
    rewrite <- (py_tuple_repeat t vs (length vs) eq_refl). constructor.
    + rewrite py_tuple_repeat by reflexivity. rewrite len_map.
      pose proof (tread_consumed true p _ ltac:(lia) (Forall_repeat wf t (length vs) ltac:(assumption)) p vs ltac:(lia) R). lia.
    + eapply members_sized; [| | | |exact R]; try lia; apply Forall_repeat; auto.
  - pose proof (pd_bounds _ _ _ _ _ W Hp H) as B. pose proof (pd_sound buf _ W _ _ _ Hp H) as T. inv W. take (Forall wf ts) as Wt.
    rewrite pd_tuple_eq in H. apply rd_tuple_ok in H. destruct H as (vs & -> & R & _). inv T.
    rewrite py_of_tuple. constructor.
    + rewrite len_py_tuple by assumption. pose proof (tread_consumed true p _ Hp Wt p vs ltac:(lia) R). lia.
    + eapply members_sized; [| | | |exact R]; try lia; [exact Wt|]. clear -IH Wt. induction IH; inv Wt; constructor; auto.
Qed.
Theorem pd_args_sound s ts a : Forall wf ts -> pd_args buf s ts = Ok a -> has_type (STuple ts) a.
Proof.
  intros W H. apply rd_tuple_ok in H. destruct H as (vs & -> & R & _). constructor.
  eapply members_sound; [| | | |exact R]; try lia; [exact W|]. clear -W. induction W; constructor; auto using pd_sound.
Qed.
Theorem pd_args_sized s ts a : Forall wf ts -> pd_args buf s ts = Ok a -> bounded (len buf / 32) (py_of (STuple ts) a).
Proof.
  intros W H. pose proof (pd_args_sound s ts a W H) as T. apply rd_tuple_ok in H. destruct H as (vs & -> & R & _). inv T.
  rewrite py_of_tuple. constructor.
  - rewrite len_py_tuple by assumption. pose proof (len_nonneg buf).
    pose proof (tread_consumed s 0 _ ltac:(lia) W 0 vs ltac:(lia) R). lia.
  - eapply members_sized; [| | | |exact R]; try lia; [exact W|]. clear -W. induction W; constructor; auto using pd_sized.
Qed.
Theorem pd_args_complete s ts vs post : len buf <= maxsize -> Forall wf ts -> Forall2 has_type ts vs ->
  buf = spec_enc (STuple ts) (VSeq vs) ++ post -> pd_args buf s ts = Ok (VSeq vs).
Proof.
  intros Hl W T E. apply tuple_complete; auto.
  - clear -W Hl. induction W; constructor; auto using pd_complete.
  - rewrite <- spec_enc_tuple. exists [], post. split; [exact E|reflexivity].
Qed.
Theorem pd_args_exact s ts a : Forall wf ts -> existsb sdyn ts = false -> pd_args buf s ts = Ok a ->
  exists post, buf = spec_enc (STuple ts) a ++ post.
Proof.
  intros W D H. apply rd_tuple_ok in H. destruct H as (vs & -> & R & _).
  rewrite spec_enc_tuple. unfold head_tail. rewrite parts_all_static, app_nil_r by exact D. pose proof (len_nonneg buf).
  destruct (members_exact buf s 0 (heads_size (parts part ts vs)) ts W) with (p := 0) (vs := vs) as (pre & post & E & L);
    [clear -W; induction W; constructor; auto using pd_exact|exact D|lia|exact R|].
  apply len_0 in L. subst pre. exists post. exact E.
Qed.

(** ** Pointers *)

(** The head of a member at [p] is in order: a valid offset, or the encoding
    of a static value. *)
Definition head_ok (start hi : Z) (t : sty) (p : Z) : Prop :=
  if sdyn t then exists z, word_at buf p = Ok z /\ hi <= start + z < len buf
  else exists a, has_type t a /\ located buf p (spec_enc t a).
Lemma members_size_app ts1 ts2 : members_size (ts1 ++ ts2) = members_size ts1 + members_size ts2.
Proof.
  induction ts1 as [|t ts1 IH]; [reflexivity|]. cbn [app].
  change (members_size (t :: ts1 ++ ts2)) with (member_size t + members_size (ts1 ++ ts2)).
  change (members_size (t :: ts1)) with (member_size t + members_size ts1). lia.
Qed.
Lemma tcheck_heads s start hi ts : Forall wf ts -> forall p, 0 <= p -> tcheck buf start hi (map (rdr_of buf s) ts) p = Ok tt ->
  forall pre t post, ts = pre ++ t :: post -> head_ok start hi t (p + members_size pre).
Proof.
  intros W. induction W as [|t ts Wt W IH]; intros p Hp H pre u post E; [destruct pre; discriminate|].
  cbn [map tcheck] in H. change (rdr_of buf s t) with (mkR (sdyn t) (static_size t) (pd buf s t)) in H.
  cbn [r_dyn r_fn r_size] in H. pose proof (static_size_ge t Wt).
  destruct pre as [|t' pre]; cbn [app] in E; inv E.
  - change (members_size []) with 0. rewrite Z.add_0_r. unfold head_ok. destruct (sdyn u) eqn:D.
    + bok H. exists x. split; [assumption|]. destruct ((start + x <? hi) || (len buf <=? start + x)) eqn:C; [discriminate|].
      apply orb_false_iff in C. lia.
    + bok H. take (pd _ _ _ _ = _) as P. exists x. split; [eapply pd_sound; eassumption|]. eapply pd_exact; eassumption.
  - change (members_size (t' :: pre)) with (member_size t' + members_size pre). unfold member_size.
    rewrite Z.add_assoc. destruct (sdyn t').
    + bok H. destruct (_ || _); [discriminate|]. eapply IH; [|exact H|reflexivity]. lia.
    + bok H. eapply IH; [|exact H|reflexivity]. lia.
Qed.
Lemma tcheck_bad (Hbuf : len buf <= maxsize) s start hi pre t post : Forall wf pre -> sdyn t = true -> forall p z,
  (forall pre1 u pre2, pre = pre1 ++ u :: pre2 -> head_ok start hi u (p + members_size pre1)) ->
  word_at buf (p + members_size pre) = Ok z -> ~ hi <= start + z < len buf ->
  tcheck buf start hi (map (rdr_of buf s) (pre ++ t :: post)) p = Err InvalidPointer.
Proof.
  intros W D. induction W as [|u pre Wu W IH]; intros p z Hpre Hz Hbad; cbn [app map tcheck].
  - change (members_size []) with 0 in Hz. rewrite Z.add_0_r in Hz.
    change (rdr_of buf s t) with (mkR (sdyn t) (static_size t) (pd buf s t)). cbn [r_dyn r_fn r_size]. rewrite D, Hz. cbn [bind].
    destruct ((start + z <? hi) || (len buf <=? start + z)) eqn:E; [reflexivity|]. apply orb_false_iff in E. lia.
  - change (rdr_of buf s u) with (mkR (sdyn u) (static_size u) (pd buf s u)). cbn [r_dyn r_fn r_size].
    pose proof (Hpre [] u pre eq_refl) as Hu. change (members_size []) with 0 in Hu. rewrite Z.add_0_r in Hu.
    unfold head_ok in Hu. change (members_size (u :: pre)) with (member_size u + members_size pre) in Hz. unfold member_size in Hz.
    rewrite Z.add_assoc in Hz. destruct (sdyn u) eqn:Du.
    + destruct Hu as (y & -> & Hy). cbn [bind].
      destruct ((start + y <? hi) || (len buf <=? start + y)) eqn:E; [apply orb_true_iff in E; lia|].
      apply (IH (p + 32) z); auto. intros pre1 v pre2 ->. specialize (Hpre (u :: pre1) v pre2 eq_refl).
      change (members_size (u :: pre1)) with (member_size u + members_size pre1) in Hpre. unfold member_size in Hpre.
      rewrite Du, Z.add_assoc in Hpre. exact Hpre.
    + destruct Hu as (a & Ta & La). rewrite (pd_complete buf Hbuf u Wu s a p Ta La). cbn [bind].
      apply (IH (p + static_size u) z); auto. intros pre1 v pre2 ->. specialize (Hpre (u :: pre1) v pre2 eq_refl).
      change (members_size (u :: pre1)) with (member_size u + members_size pre1) in Hpre. unfold member_size in Hpre.
      rewrite Du, Z.add_assoc in Hpre. exact Hpre.
Qed.
End Sizes.

(** ** Frame discipline for arbitrary streams *)

(** Decoders built from the library's own classes. *)
Fixpoint builtin (d : decoder) : bool :=
  match d with
  | DHeadTail d | DSized _ d | DDyn d => builtin d
  | DTuple ds => forallb builtin ds
  | DCallable _ | DCustom _ _ _ => false
  | _ => true
  end.
Definition same_frames (st st' : stream) : Prop := frames st' = frames st /\ total st' = total st.
Lemma same_refl st : same_frames st st. Proof. split; reflexivity. Qed.
Lemma same_trans a b c : same_frames a b -> same_frames b c -> same_frames a c.
Proof. unfold same_frames. intuition congruence. Qed.
Lemma read_frames buf n st d st' : read buf n st = Ok (d, st') -> same_frames st st' /\ pos st' = pos st + len d.
Proof. unfold read. destruct (_ <? _); [discriminate|]. intro H. inv H. split; [split; reflexivity|reflexivity]. Qed.
Lemma read_fixed_frames buf n st d st' : read_fixed buf n st = Ok (d, st') -> same_frames st st' /\ pos st' = pos st + n.
Proof.
  unfold read_fixed. intro H. bok H. destruct x as [d0 st0]. destruct (Z.eqb_spec (len d0) n); [|discriminate]. inv H.
  apply read_frames in Hx. exact Hx.
Qed.
Lemma uint_frames buf st z st' : decode_uint_256 buf st = Ok (z, st') -> same_frames st st' /\ pos st' = pos st + 32.
Proof. unfold decode_uint_256. intro H. bok H. destruct x. inv H. eapply read_fixed_frames; eassumption. Qed.
Lemma word_frames big bits fn chk buf st v st' : decode_word big bits fn chk buf st = Ok (v, st') ->
  same_frames st st' /\ pos st' = pos st + 32.
Proof.
  unfold decode_word. intro H. bok H. destruct x as [raw st1]. destruct big; bok H; bok H; inv H;
    eapply read_fixed_frames; eassumption.
Qed.
Lemma bytestring_frames s buf st b st' : read_bytestring s buf st = Ok (b, st') -> same_frames st st'.
Proof.
  unfold read_bytestring. intro H. bok H. destruct x as [n st1]. bok H. destruct x as [d st2].
  apply uint_frames in Hx. take (read _ _ _ = _) as R. apply read_frames in R.
  assert (st' = st2) by (repeat dmh H; inv H; reflexivity). subst. eapply same_trans; [apply Hx|apply R].
Qed.
Lemma seek_frames p st st' : seek p st = Ok st' -> same_frames st st' /\ pos st' = p.
Proof. unfold seek. repeat dm; intro H; inv H. split; [split; reflexivity|reflexivity]. Qed.
Lemma check_pointer_frames buf a b st st' : check_pointer buf a b st = Ok st' -> same_frames st st'.
Proof.
  unfold check_pointer. intro H. bok H. destruct x. destruct (_ || _); [discriminate|]. inv H. eapply uint_frames; eassumption.
Qed.
Lemma iterM_inv {S} (f : S -> result S) (R : S -> S -> Prop) n s s' :
  (forall s, R s s) -> (forall a b c, R a b -> R b c -> R a c) -> (forall s s', f s = Ok s' -> R s s') ->
  iterM n f s = Ok s' -> R s s'.
Proof.
  intros H1 H2 H3. revert s. induction n as [|n IH]; intros s H; cbn [iterM] in H; [inv H; apply H1|].
  bok H. eapply H2; [apply H3; eassumption|]. apply IH. exact H.
Qed.
Lemma avp_frames b n buf st st' : array_validate_pointers b n buf st = Ok st' -> same_frames st st' /\ pos st' = pos st.
Proof.
  unfold array_validate_pointers. destruct b; intro H; [|inv H; split; [apply same_refl|reflexivity]].
  bok H. apply seek_frames in H. destruct H as [H1 H2]. split; [|exact H2]. eapply same_trans; [|exact H1].
  rewrite loop_Z_iterM in Hx. eapply iterM_inv with (R := same_frames); [..|exact Hx];
    [apply same_refl|apply same_trans|apply check_pointer_frames].
Qed.
Lemma decoder_ind' (P : decoder -> Prop) :
  (forall b, P (DUInt b)) -> (forall b, P (DInt b)) -> P DBool -> P DAddr -> (forall b n, P (DUFixed b n)) ->
  (forall b n, P (DFixed b n)) -> (forall b, P (DBytesM b)) -> (forall s, P (DByteString s)) -> (forall s f, P (DString s f)) ->
  (forall d, P d -> P (DHeadTail d)) -> (forall ds, Forall P ds -> P (DTuple ds)) -> (forall n d, P d -> P (DSized n d)) ->
  (forall d, P d -> P (DDyn d)) -> (forall f, P (DCallable f)) -> (forall b s f, P (DCustom b s f)) -> forall d, P d.
Proof.
  intros H1 H2 H3 H4 H5 H6 H7 H8 H9 H10 H11 H12 H13 H14 H15. fix IH 1. intros [b|b| | |b n|b n|b|s|s f|d|ds|n d|d|f|b s f]; 
    [apply H1|apply H2|apply H3|apply H4|apply H5|apply H6|apply H7|apply H8|apply H9|apply H10, IH| |apply H12, IH
    |apply H13, IH|apply H14|apply H15].
  apply H11. induction ds; constructor; auto.
Qed.
Lemma pop_after_push st offset st1 st2 st3 : push_frame offset st1 = Ok st2 -> same_frames st2 st3 ->
  pop_frame st3 = Ok st -> same_frames st1 st /\ pos st = pos st1.
Proof.
  unfold push_frame, seek_in_frame, pop_frame. intros H1 [H2 H3] H4. apply seek_frames in H1. destruct H1 as [[F T] _].
  cbn [frames total] in F, T. rewrite H2, F in H4. apply seek_frames in H4. destruct H4 as [[F4 T4] P4]. cbn [frames total] in *.
  split; [split; [exact F4|]|exact P4]. rewrite T4, H3, T. lia.
Qed.
Theorem decode_frames h d : builtin d = true -> forall buf st v st', decode_with h d buf st = Ok (v, st') ->
  same_frames st st' /\ (is_headtail d = true -> pos st' = pos st + 32).
Proof.
  induction d as [b|b| | |b n|b n|b|s|s f|d IH|ds IH|n d IH|d IH|f|b s f] using decoder_ind'; intros B buf st v st' H;
    try discriminate B; try (cbn [decode_with] in H; apply word_frames in H; split; [apply H|discriminate]).
  - cbn [decode_with] in H. bok H. destruct x. inv H. split; [eapply bytestring_frames; eassumption|discriminate].
  - cbn [decode_with] in H. bok H. destruct x. bok H. inv H. split; [eapply bytestring_frames; eassumption|discriminate].
  - cbn [decode_with] in H. cbn [builtin] in B. bok H. destruct x as [off st1]. bok H. bok H. destruct x0 as [v0 st3]. bok H. inv H.
    take (decode_uint_256 _ _ = _) as U. apply uint_frames in U. take (decode_with _ _ _ _ = _) as D. apply (IH B) in D.
    take (push_frame _ _ = _) as Pu. take (pop_frame _ = _) as Po.
    destruct (pop_after_push _ _ _ _ _ Pu (proj1 D) Po) as [S E]. split; [eapply same_trans; [apply U|exact S]|]. intros _. lia.
  - split; [|discriminate]. rewrite decode_tuple_eq in H. bok H. bok H. bok H. destruct x1 as [vs st3]. inv H.
    take (seek _ _ = _) as Sk. apply seek_frames in Sk. cbn [builtin] in B.
    assert (IH' : Forall (fun d => forall st v st', decode_with h d buf st = Ok (v, st') -> same_frames st st') ds).
    { rewrite forallb_forall in B. rewrite Forall_forall in *. intros d Hd st1 v1 st1' E. eapply IH; eauto. }
    assert (V : forall s hi st st', vp h buf s hi ds st = Ok st' -> same_frames st st').
    { clear -IH'. induction IH' as [|d ds Hd IHd IH]; intros s hi st st' H; cbn [vp] in H; [inv H; apply same_refl|].
      bok H. apply IH in H. eapply same_trans; [|exact H]. destruct (is_headtail d).
      - eapply check_pointer_frames; eassumption.
      - bok Hx. destruct x0. inv Hx. eapply Hd; eassumption. }
    assert (G : forall st vs st', go h buf ds st = Ok (vs, st') -> same_frames st st').
    { clear -IH'. induction IH' as [|d ds Hd IHd IH]; intros st vs st' H; cbn [go] in H; [inv H; apply same_refl|].
      bok H. destruct x. bok H. destruct x. inv H. eapply same_trans; [eapply Hd; eassumption|eapply IH; eassumption]. }
    eapply same_trans; [eapply V; eassumption|]. eapply same_trans; [apply Sk|]. eapply G; eassumption.
  - split; [|discriminate]. cbn [decode_with] in H. cbn [builtin] in B. bok H. bok H. destruct x0 as [vs st2]. inv H.
    take (array_validate_pointers _ _ _ _ = _) as A. apply avp_frames in A. eapply same_trans; [apply A|].
    take (loop_items _ _ _ = _) as L. rewrite loop_items_eq in L. revert L. generalize (Z.to_nat n). intros k. clear -IH B.
    revert x vs. induction k as [|k IHk]; intros st vs L; cbn [repeat go] in L; [inv L; apply same_refl|].
    bok L. destruct x as [v1 s1]. bok L. destruct x as [v2 s2]. inv L. eapply same_trans; [eapply IH; eassumption|eapply IHk; eassumption].
  - split; [|discriminate]. cbn [decode_with] in H. cbn [builtin] in B. bok H. destruct x as [n st1]. bok H. bok H. bok H.
    destruct x1 as [vs st4]. bok H. inv H. take (decode_uint_256 _ _ = _) as U. apply uint_frames in U.
    take (array_validate_pointers _ _ _ _ = _) as A. apply avp_frames in A. take (push_frame _ _ = _) as Pu. take (pop_frame _ = _) as Po.
    assert (L2 : same_frames x0 st4).
    { take (loop_items _ _ _ = _) as L. rewrite loop_items_eq in L. revert L. generalize (Z.to_nat n). intros k. clear -IH B.
      revert x0 vs. induction k as [|k IHk]; intros st vs L; cbn [repeat go] in L; [inv L; apply same_refl|].
      bok L. destruct x as [v1 s1]. bok L. destruct x as [v2 s2]. inv L. eapply same_trans; [eapply IH; eassumption|eapply IHk; eassumption]. }
    destruct (pop_after_push _ _ _ _ _ Pu (same_trans _ _ _ (proj1 A) L2) Po) as [S E].
    eapply same_trans; [apply U|exact S].
Qed.
Lemma builtin_of s t : builtin (dec_of s t) = true /\ builtin (wrap (dec_of s t)) = true.
Proof.
  enough (builtin (dec_of s t) = true) as E by (split; [exact E|]; unfold wrap; destruct (dec_is_dyn _); exact E).
  revert s. induction t as [m|m| | |m n|m n|k| | |t IH|n t IH|ts IH] using sty_ind'; intro s; try reflexivity.
  - cbn [dec_of builtin]. unfold wrap. destruct (dec_is_dyn _); apply IH.
  - cbn [dec_of builtin]. unfold wrap. destruct (dec_is_dyn _); apply IH.
  - cbn [dec_of]. unfold mk_dtuple. cbn [builtin]. rewrite forallb_forall. intros d Hd. apply in_map_iff in Hd.
    destruct Hd as (d0 & <- & Hd). apply in_map_iff in Hd. destruct Hd as (t & <- & Ht). rewrite Forall_forall in IH.
    unfold wrap. destruct (dec_is_dyn _); apply IH; exact Ht.
Qed.
(** Static types: the cursor ends exactly past the value. *)
Theorem decode_static_cursor h s t : sdyn t = false -> forall buf st v st',
  decode_with h (dec_of s t) buf st = Ok (v, st') -> wf t -> pos st' = pos st + static_size t.
Proof.
  revert s. induction t as [m|m| | |m n|m n|k| | |t IH|n t IH|ts IH] using sty_ind'; intros s D buf st v st' H W; try discriminate D;
    try (cbn [dec_of decode_with] in H; apply word_frames in H; apply H).
  - inv W. cbn [dec_of sdyn] in *. rewrite wrap_of, D in H. cbn [decode_with] in H. bok H. bok H. destruct x0 as [vs st2]. inv H.
    take (array_validate_pointers _ _ _ _ = _) as A. apply avp_frames in A. destruct A as [_ A].
    take (loop_items _ _ _ = _) as L. rewrite loop_items_eq in L. cbn [static_size]. rewrite <- A.
    replace n with (Z.of_nat (Z.to_nat n)) at 1 by lia. revert L. generalize (Z.to_nat n). intros k. clear -IH D H3.
    revert x vs. induction k as [|k IHk]; intros st vs L; cbn [repeat go] in L; [inv L; lia|].
    bok L. destruct x as [v1 s1]. bok L. destruct x as [v2 s2]. inv L. apply IHk in Hx0. apply IH in Hx; auto. lia.
  - inv W. take (Forall wf ts) as Wt. cbn [dec_of sdyn] in *. unfold mk_dtuple in H. rewrite decode_tuple_eq in H.
    bok H. bok H. bok H. destruct x1 as [vs st3]. inv H. take (seek _ _ = _) as Sk. apply seek_frames in Sk. destruct Sk as [_ Sk].
    take (go _ _ _ _ = _) as G. rewrite <- Sk. cbn [static_size]. clear -IH Wt D G. revert x0 vs G.
    induction IH as [|t ts Ht IH IHts]; intros st vs G; cbn [map go] in G; [inv G; cbn; lia|].
    inv Wt. cbn [existsb] in D. apply orb_false_iff in D. destruct D as [D1 D2].
    bok G. destruct x as [v1 s1]. bok G. destruct x as [v2 s2]. inv G. rewrite wrap_of, D1 in Hx.
    apply Ht in Hx; auto. apply IHts in Hx0; auto. cbn [fold_right]. lia.
Qed.
