(** Further facts about the readers: errors, strictness, pointers, sizes. *)
From Coq Require Import Strings.Byte Strings.String.
From Verif Require Import Tac Bytes BytesProofs Utf8 Address Decimals DecimalsProofs Decoding Spec ReadSpec EncLeafProofs
  Utf8Proofs AddressProofs EncodeProofs DecLeafProofs DecodeProofs ReaderProofs.
Open Scope Z_scope.

(** ** Errors *)
(** A length word that no bytes object can have. *)
Definition huge_word (buf : bytes) : Prop := exists p n, 0 <= p /\ word_at buf p = Ok n /\ maxsize < ceil32 n.
(** Bytes of the payload that are not UTF-8. *)
Definition bad_utf8 (buf : bytes) : Prop := exists p n, 0 <= p /\ 0 <= n /\ utf8_decode (slice buf p n) = Err UnicodeDecodeError.
Definition decode_exc (buf : bytes) (dyn hb hs : bool) (e : exc) : Prop :=
  e = InsufficientDataBytes \/ e = NonEmptyPaddingBytes \/ (e = InvalidPointer /\ dyn = true)
  \/ (e = OverflowError /\ hb = true /\ huge_word buf) \/ (e = UnicodeDecodeError /\ hs = true /\ bad_utf8 buf).
Definition texc buf t := decode_exc buf (sdyn t) (has_bytes t) (has_string t).
Definition tsexc buf ts := decode_exc buf (existsb sdyn ts) (existsb has_bytes ts) (existsb has_string ts).

Lemma decode_exc_mono buf d1 b1 s1 d2 b2 s2 e : implb d1 d2 = true -> implb b1 b2 = true -> implb s1 s2 = true ->
  decode_exc buf d1 b1 s1 e -> decode_exc buf d2 b2 s2 e.
Proof. unfold decode_exc. destruct d1, d2, b1, b2, s1, s2; cbn; intros; try discriminate; intuition. Qed.

Section Facts.
Variable buf : bytes.

Lemma texc_cons t ts e : texc buf t e -> tsexc buf (t :: ts) e.
Proof. apply decode_exc_mono; cbn; destruct (sdyn t), (has_bytes t), (has_string t); reflexivity. Qed.
Lemma tsexc_cons t ts e : tsexc buf ts e -> tsexc buf (t :: ts) e.
Proof.
  apply decode_exc_mono; cbn; destruct (existsb _ ts); rewrite ?orb_true_r; reflexivity.
Qed.
Lemma tsexc_repeat t n e : tsexc buf (repeat t n) e -> texc buf t e.
Proof.
  induction n as [|n IH]; cbn [repeat].
  - apply decode_exc_mono; reflexivity.
  - intro H. assert (G : texc buf t e \/ tsexc buf (repeat t n) e).
    { unfold texc, tsexc, decode_exc in *. cbn [existsb] in H. rewrite !orb_true_iff in H.
      destruct (sdyn t), (has_bytes t), (has_string t); intuition congruence. }
    destruct G; auto.
Qed.

Definition errs (t : sty) : Prop := forall s p e, 0 <= p -> pd buf s t p = Err e -> texc buf t e.
Lemma tread_err s start ts : 0 <= start -> Forall wf ts -> Forall errs ts ->
  forall p e, 0 <= p -> tread buf start (map (rdr_of buf s) ts) p = Err e -> tsexc buf ts e.
Proof.
  intros Hs W F. revert W. induction F as [|t ts Et F IH]; intros W p e Hp H; cbn [map tread] in H; [discriminate|].
  inv W. change (rdr_of buf s t) with (mkR (sdyn t) (static_size t) (pd buf s t)) in H. cbn [r_dyn r_fn r_size] in H.
  pose proof (static_size_ge t ltac:(assumption)).
  destruct (sdyn t) eqn:D.
  - apply bind_Err in H. destruct H as [H|(z & Hz & H)].
    { apply word_at_err in H. left. exact H. }
    pose proof (word_at_range _ _ _ Hp Hz).
    apply bind_Err in H. destruct H as [H|(v & Hv & H)]; [apply texc_cons; eapply Et; [|exact H]; lia|].
    apply bind_Err in H. destruct H as [H|(vs & Hvs & H)]; [|discriminate]. apply tsexc_cons. eapply IH; [assumption| |exact H]. lia.
  - apply bind_Err in H. destruct H as [H|(v & Hv & H)]; [apply texc_cons; eapply Et; [|exact H]; lia|].
    apply bind_Err in H. destruct H as [H|(vs & Hvs & H)]; [|discriminate]. apply tsexc_cons. eapply IH; [assumption| |exact H]. lia.
Qed.
Lemma tcheck_err s start hi ts : Forall wf ts -> Forall errs ts ->
  forall p e, 0 <= p -> tcheck buf start hi (map (rdr_of buf s) ts) p = Err e -> tsexc buf ts e.
Proof.
  intros W F. revert W. induction F as [|t ts Et F IH]; intros W p e Hp H; cbn [map tcheck] in H; [discriminate|].
  inv W. change (rdr_of buf s t) with (mkR (sdyn t) (static_size t) (pd buf s t)) in H. cbn [r_dyn r_fn r_size] in H.
  pose proof (static_size_ge t ltac:(assumption)).
  destruct (sdyn t) eqn:D.
  - apply bind_Err in H. destruct H as [H|(z & Hz & H)].
    { apply word_at_err in H. left. exact H. }
    destruct (_ || _).
    + inv H. right; right; left. cbn [existsb]. rewrite D. auto.
    + apply tsexc_cons. eapply IH; [assumption| |exact H]. lia.
  - apply bind_Err in H. destruct H as [H|(v & Hv & H)]; [apply texc_cons; eapply Et; [|exact H]; lia|].
    apply tsexc_cons. eapply IH; [assumption| |exact H]. lia.
Qed.
Lemma rd_bytes_err s p e : 0 <= p -> rd_bytes buf s p = Err e ->
  e = InsufficientDataBytes \/ e = NonEmptyPaddingBytes \/ e = OverflowError /\ huge_word buf.
Proof.
  intros Hp H. unfold rd_bytes in H. apply bind_Err in H. destruct H as [H|(n & Hn & H)]; [apply word_at_err in H; auto|].
  destruct (Z.ltb_spec maxsize (ceil32 n)).
  - inv H. right; right. split; [reflexivity|]. exists p, n. auto.
  - repeat dmh H; inv H; auto.
Qed.
Lemma rd_bytes_ok s p b : 0 <= p -> rd_bytes buf s p = Ok b -> exists n, 0 <= n /\ word_at buf p = Ok n /\ b = slice buf (p + 32) n.
Proof.
  intros Hp H. unfold rd_bytes in H. bok H. take (word_at _ _ = _) as Wd. pose proof (word_at_range _ _ _ Hp Wd).
  exists x. split; [lia|]. split; [exact Wd|]. repeat dmh H; inv H; auto.
Qed.
Lemma array_errs t n p e : wf t -> errs t -> 0 <= p ->
  rd_array buf (sdyn t) (mkR (sdyn t) (static_size t) (pd buf true t)) n p = Err e -> texc buf t e.
Proof.
  intros W E Hp H. rewrite rd_array_eq in H. cbn zeta in H.
  apply (tsexc_repeat t (Z.to_nat n)). apply bind_Err in H. destruct H as [H|(u & _ & H)].
  - destruct (sdyn t); [|discriminate]. eapply tcheck_err; [| | |exact H]; auto using Forall_repeat.
  - apply bind_Err in H. destruct H as [H|(vs & _ & H)]; [|discriminate].
    eapply tread_err; [| | | |exact H]; auto using Forall_repeat.
Qed.
Lemma tuple_errs s ts n p e : Forall wf ts -> Forall errs ts -> 0 <= p ->
  rd_tuple buf (map (rdr_of buf s) ts) n p = Err e -> tsexc buf ts e.
Proof.
  intros W E Hp H. unfold rd_tuple in H. apply bind_Err in H. destruct H as [H|(u & _ & H)].
  - eapply tcheck_err; [| | |exact H]; auto.
  - apply bind_Err in H. destruct H as [H|(vs & _ & H)]; [|discriminate]. eapply tread_err; [| | | |exact H]; auto.
Qed.
Theorem pd_errs t : wf t -> errs t.
Proof.
  induction t as [m|m| | |m n|m n|k| | |t IH|n t IH|ts IH] using sty_ind'; intros W s p e Hp H;
    try (cbn [pd] in H; destruct (_ <=? _); [apply leaf_val_err in H; [|reflexivity]; right; left; exact H|inv H; left; reflexivity]).
  - cbn [pd] in H. apply bind_Err in H. destruct H as [H|(b & _ & H)]; [|discriminate]. apply rd_bytes_err in H; [|lia].
    unfold texc, decode_exc. cbn. intuition.
  - cbn [pd] in H. apply bind_Err in H. destruct H as [H|(b & Hb & H)].
    + apply rd_bytes_err in H; [|lia]. unfold texc, decode_exc. cbn. intuition.
    + apply bind_Err in H. destruct H as [H|(u & _ & H)]; [|discriminate].
      apply rd_bytes_ok in Hb; [|lia]. destruct Hb as (n & Hn & _ & ->). right; right; right; right.
      destruct (utf8_decode_cases (slice buf (p + 32) n)) as [E|(u & E & _)]; [|congruence]. rewrite E in H. inv H.
      split; [reflexivity|]. split; [reflexivity|]. exists (p + 32), n. split; [lia|]. auto.
  - inv W. cbn [pd] in H. apply bind_Err in H. destruct H as [H|(n & Hn & H)]; [apply word_at_err in H; left; exact H|].
    apply array_errs in H; auto; [|lia].
    revert H. apply decode_exc_mono; cbn; [destruct (sdyn t)|destruct (has_bytes t)|destruct (has_string t)]; reflexivity.
  - inv W. cbn [pd] in H. apply array_errs in H; auto.
  - inv W. take (Forall wf ts) as Wt. rewrite pd_tuple_eq in H. apply tuple_errs in H; auto.
    clear -IH Wt. induction IH; inv Wt; constructor; auto.
Qed.
Theorem pd_args_errs s ts e : Forall wf ts -> pd_args buf s ts = Err e -> tsexc buf ts e.
Proof.
  intros W H. eapply tuple_errs; [exact W| |reflexivity|exact H]. clear -W. induction W; constructor; auto using pd_errs.
Qed.

(** ** Strict mode only rejects more *)
Lemma rd_bytes_lenient s p b : rd_bytes buf true p = Ok b -> rd_bytes buf s p = Ok b.
Proof.
  intro H. unfold rd_bytes in *. bok H. rewrite Hx. cbn [bind]. destruct (_ <? _); [discriminate|].
  destruct s; [exact H|]. destruct (_ <? _); [discriminate|]. destruct (bytes_eqb _ _); [exact H|discriminate].
Qed.
Theorem pd_lenient s t p a : pd buf true t p = Ok a -> pd buf s t p = Ok a.
Proof.
  destruct t; cbn [pd]; auto; intro H; bok H; rewrite (rd_bytes_lenient s _ _ Hx); exact H.
Qed.
Lemma tcheck_lenient s start hi ts p : tcheck buf start hi (map (rdr_of buf true) ts) p = Ok tt ->
  tcheck buf start hi (map (rdr_of buf s) ts) p = Ok tt.
Proof.
  revert p. induction ts as [|t ts IH]; intros p H; [exact H|]. cbn [map tcheck] in *.
  change (rdr_of buf s t) with (mkR (sdyn t) (static_size t) (pd buf s t)).
  change (rdr_of buf true t) with (mkR (sdyn t) (static_size t) (pd buf true t)) in H. cbn [r_dyn r_fn r_size] in *.
  destruct (sdyn t).
  - bok H. rewrite Hx. cbn [bind]. destruct (_ || _); [discriminate|]. auto.
  - bok H. rewrite (pd_lenient s _ _ _ Hx). cbn [bind]. auto.
Qed.
Lemma tread_lenient s start ts p vs : tread buf start (map (rdr_of buf true) ts) p = Ok vs ->
  tread buf start (map (rdr_of buf s) ts) p = Ok vs.
Proof.
  revert p vs. induction ts as [|t ts IH]; intros p vs H; [exact H|]. cbn [map tread] in *.
  change (rdr_of buf s t) with (mkR (sdyn t) (static_size t) (pd buf s t)).
  change (rdr_of buf true t) with (mkR (sdyn t) (static_size t) (pd buf true t)) in H. cbn [r_dyn r_fn r_size] in *.
  destruct (sdyn t).
  - bok H. bok H. bok H. inv H. rewrite Hx. cbn [bind]. rewrite (pd_lenient s _ _ _ Hx0). cbn [bind].
    rewrite (IH _ _ Hx1). reflexivity.
  - bok H. bok H. inv H. rewrite (pd_lenient s _ _ _ Hx). cbn [bind]. rewrite (IH _ _ Hx0). reflexivity.
Qed.
Theorem pd_args_lenient s ts a : pd_args buf true ts = Ok a -> pd_args buf s ts = Ok a.
Proof.
  unfold pd_args, rd_tuple. intro H. bok H. bok H. inv H. destruct x.
  rewrite (tcheck_lenient s _ _ _ _ Hx), (tread_lenient s _ _ _ _ Hx0). reflexivity.
Qed.

(** ** Trailing data *)
Variable ext : bytes.
Lemma word_at_grow p z : 0 <= p -> word_at buf p = Ok z -> word_at (buf ++ ext) p = Ok z.
Proof.
  intros Hp H. pose proof (word_at_range _ _ _ Hp H). apply word_located in H; [|exact Hp].
  apply located_word; [apply located_grow; exact H|lia].
Qed.
Lemma slice_grow p n : 0 <= p -> 0 <= n -> p + n <= len buf -> slice (buf ++ ext) p n = slice buf p n.
Proof.
  intros Hp Hn H. pose proof (located_grow _ ext _ _ (slice_located buf p n Hp Hn H)) as L. apply located_slice in L.
  rewrite slice_len in L by lia. exact L.
Qed.
Definition grows (t : sty) : Prop := forall p a, 0 <= p -> pd buf true t p = Ok a -> pd (buf ++ ext) true t p = Ok a.
Lemma rd_bytes_grow p b : 0 <= p -> rd_bytes buf true p = Ok b -> rd_bytes (buf ++ ext) true p = Ok b.
Proof.
  intros Hp H. unfold rd_bytes in *. bok H. rewrite (word_at_grow p x Hp Hx). cbn [bind].
  pose proof (word_at_range _ _ _ Hp Hx) as R. pose proof (ceil32_spec x (proj1 R)) as C.
  destruct (_ <? _); [discriminate|]. rewrite len_app. pose proof (len_nonneg ext).
  destruct (Z.ltb_spec (len buf) (p + 32 + ceil32 x)); [discriminate|].
  destruct (Z.ltb_spec (len buf + len ext) (p + 32 + ceil32 x)); [lia|].
  rewrite !slice_grow by lia. exact H.
Qed.
Lemma tcheck_grow start hi ts : Forall wf ts -> Forall grows ts -> forall p, 0 <= p ->
  tcheck buf start hi (map (rdr_of buf true) ts) p = Ok tt ->
  tcheck (buf ++ ext) start hi (map (rdr_of (buf ++ ext) true) ts) p = Ok tt.
Proof.
  intros W F. revert W. induction F as [|t ts G F IH]; intros W p Hp H; [exact H|]. inv W. cbn [map tcheck] in *.
  change (rdr_of buf true t) with (mkR (sdyn t) (static_size t) (pd buf true t)) in H.
  change (rdr_of (buf ++ ext) true t) with (mkR (sdyn t) (static_size t) (pd (buf ++ ext) true t)).
  cbn [r_dyn r_fn r_size] in *. pose proof (static_size_ge t ltac:(assumption)). destruct (sdyn t).
  - bok H. rewrite (word_at_grow p x Hp Hx). cbn [bind]. rewrite len_app. pose proof (len_nonneg ext).
    destruct (Z.ltb_spec (start + x) hi); [discriminate|]. destruct (Z.leb_spec (len buf) (start + x)); [discriminate|].
    destruct (Z.leb_spec (len buf + len ext) (start + x)); [lia|]. cbn [orb] in *. apply IH; auto; lia.
  - bok H. rewrite (G p x Hp Hx). cbn [bind]. apply IH; auto; lia.
Qed.
Lemma tread_grow start ts : 0 <= start -> Forall wf ts -> Forall grows ts -> forall p vs, 0 <= p ->
  tread buf start (map (rdr_of buf true) ts) p = Ok vs ->
  tread (buf ++ ext) start (map (rdr_of (buf ++ ext) true) ts) p = Ok vs.
Proof.
  intros Hs W F. revert W. induction F as [|t ts G F IH]; intros W p vs Hp H; [exact H|]. inv W. cbn [map tread] in *.
  change (rdr_of buf true t) with (mkR (sdyn t) (static_size t) (pd buf true t)) in H.
  change (rdr_of (buf ++ ext) true t) with (mkR (sdyn t) (static_size t) (pd (buf ++ ext) true t)).
  cbn [r_dyn r_fn r_size] in *. pose proof (static_size_ge t ltac:(assumption)). destruct (sdyn t).
  - bok H. pose proof (word_at_range _ _ _ Hp Hx). rewrite (word_at_grow p x Hp Hx). cbn [bind]. bok H. bok H. inv H.
    rewrite (G (start + x) x0 ltac:(lia) Hx0). cbn [bind]. rewrite (IH ltac:(assumption) (p + 32) x1 ltac:(lia) Hx1). reflexivity.
  - bok H. bok H. inv H. rewrite (G p x Hp Hx). cbn [bind].
    rewrite (IH ltac:(assumption) (p + static_size t) x0 ltac:(lia) Hx0). reflexivity.
Qed.
Lemma rd_tuple_grow ts n p a : Forall wf ts -> Forall grows ts -> 0 <= p ->
  rd_tuple buf (map (rdr_of buf true) ts) n p = Ok a ->
  rd_tuple (buf ++ ext) (map (rdr_of (buf ++ ext) true) ts) n p = Ok a.
Proof.
  intros W G Hp H. unfold rd_tuple in *. bok H. bok H. inv H. destruct x.
  rewrite (tcheck_grow _ _ ts W G p Hp Hx), (tread_grow p ts Hp W G p x0 Hp Hx0). reflexivity.
Qed.
Lemma rd_array_grow t n p a : wf t -> grows t -> 0 <= p ->
  rd_array buf (sdyn t) (mkR (sdyn t) (static_size t) (pd buf true t)) n p = Ok a ->
  rd_array (buf ++ ext) (sdyn t) (mkR (sdyn t) (static_size t) (pd (buf ++ ext) true t)) n p = Ok a.
Proof.
  intros W G Hp H. rewrite rd_array_eq in *. cbn zeta in *. bok H. bok H. inv H.
  rewrite (tread_grow p _ Hp (Forall_repeat _ _ _ W) (Forall_repeat _ _ _ G) p x0 Hp Hx0).
  destruct (sdyn t); [|reflexivity]. destruct x.
  rewrite (tcheck_grow _ _ _ (Forall_repeat _ _ _ W) (Forall_repeat _ _ _ G) p Hp Hx). reflexivity.
Qed.
Theorem pd_grow t : wf t -> grows t.
Proof.
  induction t as [m|m| | |m n|m n|k| | |t IH|n t IH|ts IH] using sty_ind'; intros W p a Hp H;
    try (cbn [pd] in *; (destruct (Z.leb_spec (p + 32) (len buf)) as [Q|Q]; [|discriminate]);
         rewrite len_app; pose proof (len_nonneg ext); (destruct (Z.leb_spec (p + 32) (len buf + len ext)); [|lia]);
         rewrite slice_grow by lia; exact H).
  - cbn [pd] in *. bok H. rewrite (rd_bytes_grow p x Hp Hx). exact H.
  - cbn [pd] in *. bok H. rewrite (rd_bytes_grow p x Hp Hx). exact H.
  - inv W. cbn [pd] in *. bok H. rewrite (word_at_grow p x Hp Hx). cbn [bind]. apply rd_array_grow; auto; lia.
  - inv W. cbn [pd] in *. apply rd_array_grow; auto.
  - inv W. take (Forall wf ts) as Wt. rewrite pd_tuple_eq in *. apply rd_tuple_grow; auto.
    clear -IH Wt. induction IH; inv Wt; constructor; auto.
Qed.
Theorem pd_args_grow ts a : Forall wf ts -> pd_args buf true ts = Ok a -> pd_args (buf ++ ext) true ts = Ok a.
Proof.
  intros W H. apply rd_tuple_grow; auto; [|lia]. clear -W. induction W; constructor; auto using pd_grow.
Qed.
End Facts.
