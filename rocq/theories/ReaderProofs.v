(** What the frame-free readers compute, in terms of the specification. *)
From Coq Require Import Strings.Byte Strings.String.
From Verif Require Import Tac Bytes BytesProofs Utf8 Address Decimals DecimalsProofs Decoding Spec EncLeafProofs
  Utf8Proofs AddressProofs EncodeProofs DecLeafProofs DecodeProofs.
Open Scope Z_scope.

(** ** Positions *)

(** [b] stands at position [p] of [buf]. *)
Definition located (buf : bytes) (p : Z) (b : bytes) : Prop :=
  exists pre post, buf = pre ++ b ++ post /\ len pre = p.

Lemma located_bounds buf p b : located buf p b -> 0 <= p /\ p + len b <= len buf.
Proof.
  intros (pre & post & -> & <-). lens. pose proof (len_nonneg pre). pose proof (len_nonneg post). lia.
Qed.
Lemma located_slice buf p b : located buf p b -> slice buf p (len b) = b.
Proof.
  intros (pre & post & -> & <-). unfold slice. rewrite drop_z_app, take_z_app by reflexivity. reflexivity.
Qed.
Lemma slice_located buf p n : 0 <= p -> 0 <= n -> p + n <= len buf -> located buf p (slice buf p n).
Proof.
  intros Hp Hn H. exists (take_z p buf), (drop_z n (drop_z p buf)). unfold slice. rewrite take_drop_z by exact Hn.
  rewrite take_drop_z by exact Hp. split; [reflexivity|]. rewrite len_take_z by exact Hp. lia.
Qed.
Lemma located_app_l buf p a b : located buf p (a ++ b) -> located buf p a.
Proof. intros (pre & post & -> & <-). exists pre, (b ++ post). rewrite <- app_assoc. auto. Qed.
Lemma located_app_r buf p a b : located buf p (a ++ b) -> located buf (p + len a) b.
Proof.
  intros (pre & post & -> & <-). exists (pre ++ a), post. rewrite <- !app_assoc. split; [reflexivity|apply len_app].
Qed.
Lemma located_app buf p a b : located buf p a -> located buf (p + len a) b -> located buf p (a ++ b).
Proof.
  intros (pre & post & E & L) H. destruct H as (pre2 & post2 & E2 & L2).
  exists pre, post2. split; [|exact L]. rewrite <- app_assoc.
  assert (Q : (pre ++ a) ++ post = pre2 ++ (b ++ post2)) by (rewrite <- app_assoc; congruence).
  apply app_inj_len in Q; [|lens; lia]. destruct Q as [Q1 Q2]. rewrite E, Q2. reflexivity.
Qed.
Lemma located_grow buf x p b : located buf p b -> located (buf ++ x) p b.
Proof. intros (pre & post & -> & L). exists pre, (post ++ x). rewrite <- !app_assoc. auto. Qed.
Lemma located_nil buf p : 0 <= p <= len buf -> located buf p [].
Proof.
  intros [H1 H2]. exists (take_z p buf), (drop_z p buf). cbn [app]. rewrite take_drop_z by exact H1.
  split; [reflexivity|]. rewrite len_take_z by exact H1. lia.
Qed.
Lemma located_word buf p z : located buf p (word z) -> 0 <= z < 2 ^ 256 -> word_at buf p = Ok z.
Proof.
  intros L Hz. pose proof (located_bounds _ _ _ L) as B. apply located_slice in L. rewrite word_len in *.
  unfold word_at. destruct (Z.leb_spec (p + 32) (len buf)); [|lia]. rewrite L, word_eq, from_be_to_be.
  f_equal. change (256 ^ Z.of_nat 32) with (2 ^ 256). apply Z.mod_small. exact Hz.
Qed.
Lemma word_located buf p z : 0 <= p -> word_at buf p = Ok z -> located buf p (word z).
Proof.
  intros Hp H. apply word_at_ok in H. destruct H as [H ->].
  rewrite word_eq. replace 32%nat with (length (slice buf p 32)).
  - rewrite to_be_from_be. apply slice_located; lia.
  - apply length_len. apply slice_len; lia.
Qed.

Lemma spec_enc_len_ge t a : wf t -> has_type t a -> 32 <= len (spec_enc t a).
Proof.
  intros W T. destruct (sdyn t) eqn:D; [|rewrite spec_enc_static by assumption; apply static_size_ge; exact W].
  destruct T as [m z|m z|b|b|m n z|m n z|k b|b|s|t l F|n t l L F|ts l F]; try discriminate D.
  - cbn [spec_enc]. lens. rewrite word_len. pose proof (len_nonneg (pad_right b)). lia.
  - cbn [spec_enc]. lens. rewrite word_len. pose proof (len_nonneg (pad_right (utf8 s))). lia.
  - cbn [spec_enc]. lens. rewrite word_len.
    pose proof (len_nonneg (head_tail (map (fun x => (sdyn t, spec_enc t x)) l))). lia.
  - inv W. cbn [spec_enc]. rewrite len_head_tail.
    pose proof (len_nonneg (tails (map (fun x => (sdyn t, spec_enc t x)) l))).
    enough (32 * len (map (fun x => (sdyn t, spec_enc t x)) l) <= heads_size (map (fun x => (sdyn t, spec_enc t x)) l)).
    { rewrite len_map in *. lia. }
    apply heads_size_ge. apply Forall_map. eapply Forall_impl; [|exact F]. intros x Hx.
    apply (part_head_size_ge t x); assumption.
  - inv W. take (Forall wf ts) as Wt. rewrite spec_enc_tuple, len_head_tail.
    pose proof (len_nonneg (tails (parts part ts l))).
    enough (32 * len (parts part ts l) <= heads_size (parts part ts l)).
    { destruct F as [|t x ts l]; [congruence|]. rewrite parts_cons in *. lens. pose proof (len_nonneg (parts part ts l)). lia. }
    apply heads_size_ge. clear -F Wt. induction F as [|t x ts l Hx F IH]; [constructor|]. inv Wt. rewrite parts_cons.
    constructor; [apply part_head_size_ge; assumption|auto].
Qed.

Section Reader.
Variable buf : bytes.

(** Arrays are member lists of one repeated type. *)
Lemma rdr_repeat s t n : repeat (rdr_of buf s t) n = map (rdr_of buf s) (repeat t n).
Proof. induction n; cbn; congruence. Qed.
Lemma rd_array_eq t n start : rd_array buf (sdyn t) (mkR (sdyn t) (static_size t) (pd buf true t)) n start =
  let ts := repeat t (Z.to_nat n) in
  (if sdyn t then tcheck buf start (start + 32 * n) (map (rdr_of buf true) ts) start else Ok tt) ;;;
  vs <- tread buf start (map (rdr_of buf true) ts) start ;; Ok (VSeq vs).
Proof. unfold rd_array. fold (rdr_of buf true t). rewrite rdr_repeat. reflexivity. Qed.
Lemma pd_tuple_eq s ts p : pd buf s (STuple ts) p = rd_tuple buf (map (rdr_of buf true) ts) (slots_of ts) p.
Proof. reflexivity. Qed.
Lemma parts_repeat t vs : parts part (repeat t (length vs)) vs = map (fun x => (sdyn t, spec_enc t x)) vs.
Proof. induction vs as [|v vs IH]; [reflexivity|]. cbn [length repeat map]. rewrite parts_cons, IH. reflexivity. Qed.
Lemma Forall2_repeat {A B} (R : A -> B -> Prop) x vs : Forall (R x) vs <-> Forall2 R (repeat x (length vs)) vs.
Proof.
  induction vs as [|v vs IH]; cbn; split; intro H; constructor; inv H; auto; apply IH; assumption.
Qed.
Lemma Forall_repeat {A} (P : A -> Prop) x n : P x -> Forall P (repeat x n).
Proof. intro H. induction n; constructor; auto. Qed.

(** ** Completeness: the encoding of a value reads as that value *)
Section Complete.
Hypothesis Hbuf : len buf <= maxsize.
Definition complete (t : sty) : Prop :=
  forall s a p, has_type t a -> located buf p (spec_enc t a) -> pd buf s t p = Ok a.

Lemma maxsize_lt : maxsize < 2 ^ 256. Proof. reflexivity. Qed.

Lemma members_complete s start hi ts vs : Forall wf ts -> Forall complete ts -> Forall2 has_type ts vs -> 0 <= start ->
  forall off p, 0 <= off -> located buf p (heads off (parts part ts vs)) -> located buf (start + off) (tails (parts part ts vs)) ->
  tread buf start (map (rdr_of buf s) ts) p = Ok vs
  /\ (hi <= start + off -> tcheck buf start hi (map (rdr_of buf s) ts) p = Ok tt).
Proof.
  intros W C T Hs. revert W C. induction T as [|t a ts vs Ha T IH]; intros W C off p Ho Lh Lt; [auto|].
  inv W. inv C. take (complete t) as Ct. take (wf t) as Wt. rewrite parts_cons in Lh, Lt. cbn [map tread tcheck].
  change (rdr_of buf s t) with (mkR (sdyn t) (static_size t) (pd buf s t)). cbn [r_dyn r_fn r_size]. unfold part in Lh at 1. unfold part in Lt at 1. destruct (sdyn t) eqn:D; cbn [heads tails] in Lh, Lt.
  - pose proof (located_bounds _ _ _ Lt) as B. pose proof (spec_enc_len_ge t a Wt Ha) as Hl.
    rewrite len_app in B. pose proof (len_nonneg (tails (parts part ts vs))). pose proof maxsize_lt.
    rewrite (located_word buf p off) by (try lia; eapply located_app_l; exact Lh). cbn [bind].
    rewrite (Ct s a (start + off) Ha (located_app_l _ _ _ _ Lt)). cbn [bind].
    apply located_app_r in Lh, Lt. rewrite word_len in Lh.
    destruct (IH ltac:(assumption) ltac:(assumption) (off + len (spec_enc t a)) (p + 32)) as [I1 I2];
      [lia|exact Lh|rewrite Z.add_assoc; exact Lt|].
    rewrite I1. cbn [bind]. split; [reflexivity|]. intro Hh.
    destruct (Z.ltb_spec (start + off) hi); [lia|]. destruct (Z.leb_spec (len buf) (start + off)); [lia|].
    cbn [orb]. apply I2. lia.
  - rewrite (Ct s a p Ha (located_app_l _ _ _ _ Lh)). cbn [bind].
    apply located_app_r in Lh. rewrite spec_enc_static in Lh by assumption.
    destruct (IH ltac:(assumption) ltac:(assumption) off (p + static_size t)) as [I1 I2]; [lia|exact Lh|exact Lt|].
    rewrite I1. cbn [bind]. split; [reflexivity|exact I2].
Qed.
Lemma slots_le t a : wf t -> has_type t a -> 32 * slots t <= head_size (part t a).
Proof.
  intros W T. rewrite part_head_size by assumption. unfold slots. destruct (sdyn t) eqn:D; [lia|].
  pose proof (static_size_ge t W). destruct t; try lia. inv W. cbn [static_size] in *.
  pose proof (static_size_ge t ltac:(assumption)). nia.
Qed.
Lemma slots_of_le ts vs : Forall wf ts -> Forall2 has_type ts vs -> 32 * slots_of ts <= heads_size (parts part ts vs).
Proof.
  intros W T. revert W. induction T as [|t a ts vs Ha T IH]; intro W; [cbn; lia|]. inv W. rewrite parts_cons.
  cbn [slots_of fold_right heads_size]. fold (slots_of ts). pose proof (slots_le t a ltac:(assumption) Ha).
  specialize (IH ltac:(assumption)). lia.
Qed.
Lemma tuple_complete s ts vs p : Forall wf ts -> Forall complete ts -> Forall2 has_type ts vs ->
  located buf p (head_tail (parts part ts vs)) ->
  rd_tuple buf (map (rdr_of buf s) ts) (slots_of ts) p = Ok (VSeq vs).
Proof.
  intros W C T L. pose proof (located_bounds _ _ _ L) as [Hp _]. unfold head_tail in L.
  pose proof (located_app_l _ _ _ _ L) as Lh. apply located_app_r in L. rewrite len_heads in L.
  destruct (members_complete s p (p + 32 * slots_of ts) ts vs W C T Hp _ p (heads_size_nonneg _) Lh L) as [R K].
  unfold rd_tuple. rewrite K, R; [reflexivity|]. pose proof (slots_of_le ts vs W T). lia.
Qed.
Lemma array_complete t n vs p : wf t -> complete t -> Forall (has_type t) vs -> len vs = n ->
  located buf p (head_tail (map (fun x => (sdyn t, spec_enc t x)) vs)) ->
  rd_array buf (sdyn t) (mkR (sdyn t) (static_size t) (pd buf true t)) n p = Ok (VSeq vs).
Proof.
  intros W C T Hn L. rewrite rd_array_eq. cbn zeta. subst n. rewrite len_length, Nat2Z.id.
  rewrite <- parts_repeat in L. apply Forall2_repeat in T. pose proof (located_bounds _ _ _ L) as [Hp _].
  unfold head_tail in L. pose proof (located_app_l _ _ _ _ L) as Lh. apply located_app_r in L. rewrite len_heads in L.
  destruct (members_complete true p (p + 32 * len vs) (repeat t (length vs)) vs (Forall_repeat _ _ _ W) (Forall_repeat _ _ _ C)
              T Hp _ p (heads_size_nonneg _) Lh L) as [R K].
  rewrite R. destruct (sdyn t) eqn:D; [|reflexivity]. rewrite <- len_length, K; [reflexivity|].
  rewrite parts_repeat. replace (len vs) with (len (map (fun x => (sdyn t, spec_enc t x)) vs)) by apply len_map.
  pose proof (heads_size_ge (map (fun x => (sdyn t, spec_enc t x)) vs)) as G. rewrite D in *.
  enough (Forall (fun p : bool * bytes => 32 <= head_size p) (map (fun x => (true, spec_enc t x)) vs)) by (specialize (G ltac:(assumption)); lia).
  apply Forall_map, Forall_forall. cbn. lia.
Qed.
Lemma bytes_complete s b p : located buf p (word (len b) ++ pad_right b) -> rd_bytes buf s p = Ok b.
Proof.
  intro L. pose proof (located_bounds _ _ _ L) as B. pose proof (pad_right_len b) as [P1 P2]. pose proof (len_nonneg b).
  rewrite len_app, word_len in B. pose proof maxsize_lt. unfold rd_bytes.
  rewrite (located_word buf p (len b)) by (try lia; eapply located_app_l; exact L). cbn [bind].
  assert (Ec : ceil32 (len b) = len (pad_right b)).
  { pose proof (ceil32_spec (len b) ltac:(lia)). lia. }
  rewrite Ec. destruct (Z.ltb_spec maxsize (len (pad_right b))); [lia|].
  destruct (Z.ltb_spec (len buf) (p + 32 + len (pad_right b))); [lia|].
  apply located_app_r in L. rewrite word_len in L. unfold pad_right in L.
  pose proof (located_slice _ _ _ (located_app_l _ _ _ _ L)) as Sb. rewrite Sb.
  apply located_app_r in L. apply located_slice in L. rewrite len_repeat in L.
  assert (Ez : len (pad_right b) - len b = Z.of_nat (Z.to_nat ((- len b) mod 32)))
    by (unfold pad_right; rewrite len_app, len_repeat; lia).
  rewrite Ez, L. unfold zeros. rewrite Nat2Z.id, bytes_eqb_refl. destruct s; reflexivity.
Qed.
Theorem pd_complete t : wf t -> complete t.
Proof.
  induction t as [m|m| | |m n|m n|k| | |t IH|n t IH|ts IH] using sty_ind'; intros W s a p T L;
    try (pose proof (located_bounds _ _ _ L) as B;
         rewrite spec_enc_static in B by (assumption || reflexivity); cbn [static_size] in B;
         pose proof (located_slice _ _ _ L) as Sl;
         rewrite spec_enc_static in Sl by (assumption || reflexivity); cbn [static_size] in Sl;
         cbn [pd]; (destruct (Z.leb_spec (p + 32) (len buf)) as [Q|Q]; [|lia]);
         apply leaf_val_spec; [exact W|reflexivity|apply slice_len; lia|split; [exact T|congruence]]).
  - inv T. cbn [pd spec_enc] in *. rewrite (bytes_complete s b p L). reflexivity.
  - inv T. cbn [pd spec_enc] in *. rewrite (bytes_complete s _ p L). cbn [bind].
    rewrite utf8_decode_utf8 by assumption. reflexivity.
  - inv T. inv W. cbn [pd spec_enc] in *. pose proof (located_bounds _ _ _ L) as B. rewrite len_app, word_len in B.
    take (Forall _ _) as F. take (wf t) as Wt.
    assert (Hl : len l <= len (head_tail (map (fun x => (sdyn t, spec_enc t x)) l))).
    { rewrite len_head_tail. pose proof (len_nonneg (tails (map (fun x => (sdyn t, spec_enc t x)) l))).
      pose proof (heads_size_ge (map (fun x => (sdyn t, spec_enc t x)) l)) as G. rewrite len_map in G. pose proof (len_nonneg l).
      enough (Forall (fun p : bool * bytes => 32 <= head_size p) (map (fun x => (sdyn t, spec_enc t x)) l)) by (specialize (G ltac:(assumption)); lia).
      apply Forall_map. eapply Forall_impl; [|exact F]. intros x Hx. apply (part_head_size_ge t x); assumption. }
    pose proof maxsize_lt. pose proof (len_nonneg l).
    rewrite (located_word buf p (len l)) by (try lia; eapply located_app_l; exact L). cbn [bind].
    apply located_app_r in L. rewrite word_len in L. apply array_complete; auto.
  - inv T. inv W. cbn [pd spec_enc] in *. apply array_complete; auto.
  - inv T. inv W. rewrite spec_enc_tuple in L. rewrite pd_tuple_eq. apply tuple_complete; auto.
    take (Forall wf ts) as Wt. clear -IH Wt. induction IH; inv Wt; constructor; auto.
Qed.
End Complete.

(** ** Soundness: what is read is a value of the type *)
Definition sound (t : sty) : Prop := forall s p a, 0 <= p -> pd buf s t p = Ok a -> has_type t a.

Lemma members_sound s start ts : 0 <= start -> Forall wf ts -> Forall sound ts ->
  forall p vs, 0 <= p -> tread buf start (map (rdr_of buf s) ts) p = Ok vs -> Forall2 has_type ts vs.
Proof.
  intros Hs W S. revert W. induction S as [|t ts St S IH]; intros W p vs Hp H; cbn [map tread] in H; [inv H; constructor|].
  inv W. change (rdr_of buf s t) with (mkR (sdyn t) (static_size t) (pd buf s t)) in H. cbn [r_dyn r_fn r_size] in H. destruct (sdyn t).
  - bok H. take (word_at _ _ = _) as Wd. pose proof (word_at_range _ _ _ Hp Wd). repeat (bok H). inv H.
    constructor; [eapply St; [|eassumption]; lia|]. eapply IH; [assumption| |eassumption]. lia.
  - repeat (bok H). inv H. pose proof (static_size_ge t ltac:(assumption)).
    constructor; [eapply St; [|eassumption]; lia|]. eapply IH; [assumption| |eassumption]. lia.
Qed.
Lemma rd_array_ok t n p a : 0 <= p -> rd_array buf (sdyn t) (mkR (sdyn t) (static_size t) (pd buf true t)) n p = Ok a ->
  exists vs, a = VSeq vs /\ length vs = Z.to_nat n
    /\ tread buf p (map (rdr_of buf true) (repeat t (length vs))) p = Ok vs
    /\ (sdyn t = true -> tcheck buf p (p + 32 * n) (map (rdr_of buf true) (repeat t (length vs))) p = Ok tt).
Proof.
  intros Hp H. rewrite rd_array_eq in H. cbn zeta in H. bok H. bok H. inv H.
  take (tread _ _ _ _ = _) as R. pose proof (tread_length _ _ _ _ _ R) as L. rewrite map_length, repeat_length in L.
  eexists. split; [reflexivity|]. split; [exact L|]. rewrite L. split; [exact R|].
  intro D. rewrite D in *. destruct x. assumption.
Qed.
Lemma rd_tuple_ok s ts n p a : rd_tuple buf (map (rdr_of buf s) ts) n p = Ok a ->
  exists vs, a = VSeq vs /\ tread buf p (map (rdr_of buf s) ts) p = Ok vs
    /\ tcheck buf p (p + 32 * n) (map (rdr_of buf s) ts) p = Ok tt.
Proof. unfold rd_tuple. intro H. bok H. bok H. inv H. destruct x. eauto. Qed.
Theorem pd_sound t : wf t -> sound t.
Proof.
  induction t as [m|m| | |m n|m n|k| | |t IH|n t IH|ts IH] using sty_ind'; intros W s p a Hp H;
    try (cbn [pd] in H; (destruct (Z.leb_spec (p + 32) (len buf)) as [Q|Q]; [|discriminate]);
         apply leaf_val_spec in H; [apply H|exact W|reflexivity|apply slice_len; lia]).
  - cbn [pd] in H. bok H. inv H. constructor.
  - cbn [pd] in H. bok H. bok H. inv H. take (utf8_decode _ = _) as U. apply utf8_decode_Ok in U. constructor. apply U.
  - inv W. cbn [pd] in H. bok H. take (word_at _ _ = _) as Wd.
    apply rd_array_ok in H; [|lia]. destruct H as (vs & -> & L & R & _).
    constructor. apply Forall2_repeat. eapply members_sound; [| | | |exact R]; try lia; apply Forall_repeat; auto.
  - inv W. cbn [pd] in H. apply rd_array_ok in H; [|lia]. destruct H as (vs & -> & L & R & _).
    constructor; [rewrite len_length, L; lia|]. apply Forall2_repeat.
    eapply members_sound; [| | | |exact R]; try lia; apply Forall_repeat; auto.
  - inv W. take (Forall wf ts) as Wt. rewrite pd_tuple_eq in H. apply rd_tuple_ok in H. destruct H as (vs & -> & R & _).
    constructor. eapply members_sound; [| | | |exact R]; try lia; [exact Wt|].
    clear -IH Wt. induction IH; inv Wt; constructor; auto.
Qed.

(** ** Static types: what is read is exactly the encoding *)
Definition exact_at (t : sty) : Prop := forall s p a, 0 <= p -> sdyn t = false -> pd buf s t p = Ok a -> located buf p (spec_enc t a).
Lemma members_exact s start off ts : Forall wf ts -> Forall exact_at ts -> existsb sdyn ts = false ->
  forall p vs, 0 <= p <= len buf -> tread buf start (map (rdr_of buf s) ts) p = Ok vs ->
  located buf p (heads off (parts part ts vs)).
Proof.
  intros W S. revert W. induction S as [|t ts St S IH]; intros W D p vs Hp H; cbn [map tread] in H.
  - inv H. apply located_nil. lia.
  - inv W. cbn [existsb] in D. apply orb_false_iff in D. destruct D as [D1 D2].
    change (rdr_of buf s t) with (mkR (sdyn t) (static_size t) (pd buf s t)) in H. cbn [r_dyn r_fn r_size] in H. rewrite D1 in H. bok H. bok H. inv H.
    take (pd _ _ _ _ = _) as Pt. pose proof (pd_sound t ltac:(assumption) _ _ _ (proj1 Hp) Pt) as T.
    rewrite parts_cons. unfold part at 1. rewrite D1. cbn [heads]. apply St in Pt; [|lia|exact D1].
    pose proof (located_bounds _ _ _ Pt) as B. pose proof (spec_enc_static t x ltac:(assumption) T D1) as E.
    apply located_app; [exact Pt|]. rewrite E in *. apply IH; auto. pose proof (static_size_ge t ltac:(assumption)). lia.
Qed.
Lemma parts_all_static ts vs : existsb sdyn ts = false -> tails (parts part ts vs) = [].
Proof.
  revert vs. induction ts as [|t ts IH]; intros [|v vs] D; try reflexivity. cbn [existsb] in D. apply orb_false_iff in D.
  rewrite parts_cons. unfold part at 1. destruct D as [-> D]. cbn [tails]. auto.
Qed.
Lemma pd_bounds s t p a : wf t -> 0 <= p -> pd buf s t p = Ok a -> p + 32 <= len buf.
Proof.
  intro W. revert s p a. induction t as [m|m| | |m n|m n|k| | |t IH|n t IH|ts IH] using sty_ind'; intros s p a Hp H;
    try (cbn [pd] in H; (destruct (Z.leb_spec (p + 32) (len buf)) as [Q|Q]; [exact Q|discriminate])).
  - cbn [pd] in H. bok H. unfold rd_bytes in Hx. bok Hx. eapply word_at_ok; eassumption.
  - cbn [pd] in H. bok H. unfold rd_bytes in Hx. bok Hx. eapply word_at_ok; eassumption.
  - cbn [pd] in H. bok H. eapply word_at_ok; eassumption.
  - inv W. cbn [pd] in H. apply rd_array_ok in H; [|lia]. destruct H as (vs & -> & L & R & _).
    destruct vs as [|v vs]; [cbn in L; lia|]. cbn [length repeat map tread] in R. change (rdr_of buf true t) with (mkR (sdyn t) (static_size t) (pd buf true t)) in R. cbn [r_dyn r_fn r_size] in R.
    destruct (sdyn t); repeat (bok R); [eapply word_at_ok; eassumption|eapply IH; eassumption].
  - inv W. rewrite pd_tuple_eq in H. apply rd_tuple_ok in H. destruct H as (vs & -> & R & _).
    take (Forall wf ts) as Wt. destruct ts as [|t ts]; [congruence|]. inv IH. inv Wt. cbn [map tread] in R.
    change (rdr_of buf true t) with (mkR (sdyn t) (static_size t) (pd buf true t)) in R. cbn [r_dyn r_fn r_size] in R.
    destruct (sdyn t); repeat (bok R); [eapply word_at_ok; eassumption|]. take (wf t -> _) as IHt. eapply IHt; eassumption.
Qed.
Theorem pd_exact t : wf t -> exact_at t.
Proof.
  induction t as [m|m| | |m n|m n|k| | |t IH|n t IH|ts IH] using sty_ind'; intros W s p a Hp D H; try discriminate D;
    pose proof (pd_bounds s _ p a W Hp H) as B;
    try (cbn [pd] in H; (destruct (Z.leb_spec (p + 32) (len buf)) as [Q|Q]; [|discriminate]);
         apply leaf_val_spec in H; [destruct H as [_ ->]; apply slice_located; lia|exact W|reflexivity|apply slice_len; lia]).
  - inv W. cbn [pd sdyn] in *. apply rd_array_ok in H; [|lia]. destruct H as (vs & -> & L & R & _).
    cbn [spec_enc]. rewrite <- parts_repeat. unfold head_tail.
    assert (Ds : existsb sdyn (repeat t (length vs)) = false) by (clear -D; induction (length vs); cbn; rewrite ?D; auto).
    rewrite parts_all_static, app_nil_r by exact Ds.
    eapply members_exact; [| | | |exact R]; [apply Forall_repeat; assumption|apply Forall_repeat; auto|exact Ds|lia].
  - inv W. take (Forall wf ts) as Wt. cbn [sdyn] in D. rewrite pd_tuple_eq in H. apply rd_tuple_ok in H.
    destruct H as (vs & -> & R & _). rewrite spec_enc_tuple. unfold head_tail.
    rewrite parts_all_static, app_nil_r by exact D.
    eapply members_exact; [exact Wt| |exact D| |exact R]; [|lia]. clear -IH Wt. induction IH; inv Wt; constructor; auto.
Qed.
End Reader.
