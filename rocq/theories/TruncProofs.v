(** Payloads that were cut short. *)
From Coq Require Import Strings.Byte Strings.String.
From Verif Require Import Tac Bytes BytesProofs Utf8 Address Decimals DecimalsProofs Encoding Decoding Registry Codec Histories Spec TypeSpec ReadSpec
  EncLeafProofs Utf8Proofs AddressProofs EncodeProofs DecLeafProofs DecodeProofs ReaderProofs DecodeFacts CacheProofs LookupProofs TypeProofs ApiProofs HistoryProofs
  ArgsProofs EncodeApi DecodeApi.
Open Scope Z_scope.

Definition short_exc (e : exc) : Prop := e = InsufficientDataBytes \/ e = InvalidPointer.

Section Trunc.
Variables buf ext : bytes.

(** ** How a strict read of a shorter payload fails *)
Lemma word_at_cut p z e : 0 <= p -> word_at (buf ++ ext) p = Ok z -> word_at buf p = Err e -> short_exc e.
Proof. intros _ _ H. apply word_at_err in H. left. exact H. Qed.
Lemma word_at_same p z z' : 0 <= p -> word_at (buf ++ ext) p = Ok z -> word_at buf p = Ok z' -> z' = z.
Proof. intros Hp H H'. apply (word_at_grow buf ext p z' Hp) in H'. congruence. Qed.
Definition fails_short (t : sty) : Prop := forall p a e, 0 <= p -> pd (buf ++ ext) true t p = Ok a -> pd buf true t p = Err e -> short_exc e.
Lemma pd_same t p a a' : wf t -> 0 <= p -> pd (buf ++ ext) true t p = Ok a -> pd buf true t p = Ok a' -> a' = a.
Proof. intros W Hp H H'. apply (pd_grow buf ext t W p a' Hp) in H'. congruence. Qed.

Lemma rd_bytes_cut p b e : 0 <= p -> rd_bytes (buf ++ ext) true p = Ok b -> rd_bytes buf true p = Err e -> short_exc e.
Proof.
  intros Hp H H'. unfold rd_bytes in *. bok H. destruct (word_at buf p) as [n|x'] eqn:E; [|inv H'; eapply word_at_cut; eassumption].
  cbn [bind] in H'. pose proof (word_at_same p x n Hp Hx E) as ->. pose proof (word_at_range _ _ _ Hp Hx) as R.
  pose proof (ceil32_spec x (proj1 R)) as C. destruct (_ <? _); [discriminate|].
  destruct (Z.ltb_spec (len buf) (p + 32 + ceil32 x)); [inv H'; left; reflexivity|].
  destruct (_ <? _); [discriminate|]. rewrite !slice_grow in H by lia.
  destruct (bytes_eqb _ _); discriminate.
Qed.
Lemma tread_cut start ts : 0 <= start -> Forall wf ts -> Forall fails_short ts -> forall p vs e, 0 <= p ->
  tread (buf ++ ext) start (map (rdr_of (buf ++ ext) true) ts) p = Ok vs ->
  tread buf start (map (rdr_of buf true) ts) p = Err e -> short_exc e.
Proof.
  intros Hs W F. revert W. induction F as [|t ts S F IH]; intros W p vs e Hp H H'; [discriminate H'|]. inv W. cbn [map tread] in *.
  change (rdr_of buf true t) with (mkR (sdyn t) (static_size t) (pd buf true t)) in H'.
  change (rdr_of (buf ++ ext) true t) with (mkR (sdyn t) (static_size t) (pd (buf ++ ext) true t)) in H.
  cbn [r_dyn r_fn r_size] in *. pose proof (static_size_ge t ltac:(assumption)). destruct (sdyn t).
  - bok H. pose proof (word_at_range _ _ _ Hp Hx). apply bind_Err in H'. destruct H' as [H'|(z & Hz & H')]; [eapply word_at_cut; eassumption|].
    pose proof (word_at_same p x z Hp Hx Hz) as ->. bok H. bok H.
    apply bind_Err in H'. destruct H' as [H'|(v & Hv & H')]; [eapply S; [|exact Hx0|exact H']; lia|].
    apply bind_Err in H'. destruct H' as [H'|(v' & Hv' & H')]; [|discriminate]. eapply IH; [assumption| |exact Hx1|exact H']. lia.
  - bok H. bok H.
    apply bind_Err in H'. destruct H' as [H'|(v & Hv & H')]; [eapply S; [|exact Hx|exact H']; lia|].
    apply bind_Err in H'. destruct H' as [H'|(v' & Hv' & H')]; [|discriminate]. eapply IH; [assumption| |exact Hx0|exact H']. lia.
Qed.
Lemma tcheck_cut start hi ts : Forall wf ts -> Forall fails_short ts -> forall p e, 0 <= p ->
  tcheck (buf ++ ext) start hi (map (rdr_of (buf ++ ext) true) ts) p = Ok tt ->
  tcheck buf start hi (map (rdr_of buf true) ts) p = Err e -> short_exc e.
Proof.
  intros W F. revert W. induction F as [|t ts S F IH]; intros W p e Hp H H'; [discriminate H'|]. inv W. cbn [map tcheck] in *.
  change (rdr_of buf true t) with (mkR (sdyn t) (static_size t) (pd buf true t)) in H'.
  change (rdr_of (buf ++ ext) true t) with (mkR (sdyn t) (static_size t) (pd (buf ++ ext) true t)) in H.
  cbn [r_dyn r_fn r_size] in *. pose proof (static_size_ge t ltac:(assumption)). destruct (sdyn t).
  - bok H. apply bind_Err in H'. destruct H' as [H'|(z & Hz & H')]; [eapply word_at_cut; eassumption|].
    pose proof (word_at_same p x z Hp Hx Hz) as ->. destruct ((start + x <? hi) || (len buf <=? start + x)); [inv H'; right; reflexivity|].
    destruct (_ || _); [discriminate|]. eapply IH; [assumption| |exact H|exact H']. lia.
  - bok H. apply bind_Err in H'. destruct H' as [H'|(v & Hv & H')]; [eapply S; [|exact Hx|exact H']; lia|].
    eapply IH; [assumption| |exact H|exact H']. lia.
Qed.
Lemma rd_tuple_cut ts n p a e : Forall wf ts -> Forall fails_short ts -> 0 <= p ->
  rd_tuple (buf ++ ext) (map (rdr_of (buf ++ ext) true) ts) n p = Ok a ->
  rd_tuple buf (map (rdr_of buf true) ts) n p = Err e -> short_exc e.
Proof.
  intros W F Hp H H'. unfold rd_tuple in *. bok H. bok H. destruct x.
  apply bind_Err in H'. destruct H' as [H'|(u & _ & H')]; [exact (tcheck_cut _ _ ts W F p e Hp Hx H')|].
  apply bind_Err in H'. destruct H' as [H'|(vs & _ & H')]; [|discriminate]. exact (tread_cut p ts Hp W F p x0 e Hp Hx0 H').
Qed.
Lemma rd_array_cut t n p a e : wf t -> fails_short t -> 0 <= p ->
  rd_array (buf ++ ext) (sdyn t) (mkR (sdyn t) (static_size t) (pd (buf ++ ext) true t)) n p = Ok a ->
  rd_array buf (sdyn t) (mkR (sdyn t) (static_size t) (pd buf true t)) n p = Err e -> short_exc e.
Proof.
  intros W F Hp H H'. rewrite rd_array_eq in *. cbn zeta in *. bok H. bok H.
  apply bind_Err in H'. destruct H' as [H'|(u & _ & H')].
  - destruct (sdyn t); [|discriminate]. destruct x.
    exact (tcheck_cut _ _ _ (Forall_repeat _ _ _ W) (Forall_repeat _ _ _ F) p e Hp Hx H').
  - apply bind_Err in H'. destruct H' as [H'|(vs & _ & H')]; [|discriminate].
    exact (tread_cut p _ Hp (Forall_repeat _ _ _ W) (Forall_repeat _ _ _ F) p x0 e Hp Hx0 H').
Qed.
Theorem pd_cut t : wf t -> fails_short t.
Proof.
  induction t as [m|m| | |m n|m n|k| | |t IH|n t IH|ts IH] using sty_ind'; intros W p a e Hp H H';
    try (cbn [pd] in *; (destruct (Z.leb_spec (p + 32) (len buf)) as [Q|Q]; [|inv H'; left; reflexivity]);
         (destruct (_ <=? _); [|discriminate]); rewrite slice_grow in H by lia; congruence).
  - cbn [pd] in *. bok H. apply bind_Err in H'. destruct H' as [H'|(u & _ & H')]; [|discriminate].
    exact (rd_bytes_cut p x e Hp Hx H').
  - cbn [pd] in *. bok H. apply bind_Err in H'. destruct H' as [H'|(u & Hu & H')]; [exact (rd_bytes_cut p x e Hp Hx H')|].
    apply (rd_bytes_grow buf ext p u Hp) in Hu. assert (u = x) by congruence. subst u.
    destruct (utf8_decode x); discriminate.
  - inv W. cbn [pd] in *. bok H. apply bind_Err in H'. destruct H' as [H'|(u & Hu & H')]; [eapply word_at_cut; eassumption|].
    pose proof (word_at_same p x u Hp Hx Hu) as ->. eapply rd_array_cut; [| | |exact H|exact H']; auto; lia.
  - inv W. cbn [pd] in *. eapply rd_array_cut; [| | |exact H|exact H']; auto.
  - inv W. take (Forall wf ts) as Wt. rewrite pd_tuple_eq in *. eapply rd_tuple_cut; [| | |exact H|exact H']; auto.
    clear -IH Wt. induction IH; inv Wt; constructor; auto.
Qed.
Theorem pd_args_cut ts a : Forall wf ts -> pd_args (buf ++ ext) true ts = Ok a ->
  pd_args buf true ts = Ok a \/ exists e, pd_args buf true ts = Err e /\ short_exc e.
Proof.
  intros W H. destruct (pd_args buf true ts) as [a'|e] eqn:E.
  - left. apply (pd_args_grow buf ext ts a' W) in E. congruence.
  - right. exists e. split; [reflexivity|]. unfold pd_args in *. eapply rd_tuple_cut; [exact W| | |exact H|exact E]; [|lia].
    clear -W. induction W; constructor; auto using pd_cut.
Qed.

(** ** Reading a canonical payload strictly reaches its end *)
Definition reaches (t : sty) : Prop := forall a a' p, has_type t a -> located (buf ++ ext) p (spec_enc t a) ->
  len (spec_enc t a) < 2 ^ 256 -> pd buf true t p = Ok a' -> p + len (spec_enc t a) <= len buf.
Lemma word_at_in p z z' : 0 <= z < 2 ^ 256 -> located (buf ++ ext) p (word z) -> word_at buf p = Ok z' -> z' = z /\ p + 32 <= len buf.
Proof.
  intros Hz L H. pose proof (located_bounds _ _ _ L) as [Hp _]. split.
  - apply (word_at_same p z z' Hp); [|exact H]. apply located_word; assumption.
  - apply word_at_ok in H. destruct H as [H _]. exact H.
Qed.
Lemma rd_bytes_reaches p b b' : len b < 2 ^ 256 -> located (buf ++ ext) p (word (len b) ++ pad_right b) -> rd_bytes buf true p = Ok b' ->
  p + 32 + len (pad_right b) <= len buf.
Proof.
  intros Lb L H. unfold rd_bytes in H. bok H. pose proof (len_nonneg b).
  destruct (word_at_in p (len b) x) as [-> _]; [lia|exact (located_app_l _ _ _ _ L)|exact Hx|].
  pose proof (pad_right_len b) as [P1 P2].
  assert (Ec : ceil32 (len b) = len (pad_right b)) by (pose proof (ceil32_spec (len b) ltac:(lia)); lia).
  destruct (_ <? _); [discriminate|]. destruct (Z.ltb_spec (len buf) (p + 32 + ceil32 (len b))); [discriminate|]. lia.
Qed.
Lemma members_reach start ts vs : Forall wf ts -> Forall reaches ts -> Forall2 has_type ts vs -> 0 <= start ->
  forall off p vs', 0 <= off -> off + len (tails (parts part ts vs)) < 2 ^ 256 -> len (heads off (parts part ts vs)) < 2 ^ 256 ->
  located (buf ++ ext) p (heads off (parts part ts vs)) -> located (buf ++ ext) (start + off) (tails (parts part ts vs)) ->
  tread buf start (map (rdr_of buf true) ts) p = Ok vs' ->
  p + len (heads off (parts part ts vs)) <= Z.max p (len buf)
  /\ (len (tails (parts part ts vs)) = 0 \/ start + off + len (tails (parts part ts vs)) <= len buf).
Proof.
  intros W C T Hs. revert W C. induction T as [|t a ts vs Ha T IH]; intros W C off p vs' Ho So Sh Lh Lt H.
  { change (len (heads off (parts part [] []))) with 0. split; [lia|left; reflexivity]. }
  inv W. inv C. take (reaches t) as Ct. take (wf t) as Wt. rewrite parts_cons in *. cbn [map tread] in H.
  change (rdr_of buf true t) with (mkR (sdyn t) (static_size t) (pd buf true t)) in H. cbn [r_dyn r_fn r_size] in H.
  change (part t a) with (sdyn t, spec_enc t a) in *. destruct (sdyn t) eqn:D; cbn [heads tails] in *.
  - pose proof (spec_enc_len_ge t a Wt Ha) as Hl. rewrite len_app in *. rewrite word_len in *.
    pose proof (len_nonneg (tails (parts part ts vs))). pose proof (len_nonneg (heads (off + len (spec_enc t a)) (parts part ts vs))).
    bok H. destruct (word_at_in p off x) as [-> Hb]; [lia|exact (located_app_l _ _ _ _ Lh)|exact Hx|]. bok H. bok H.
    pose proof (Ct a x (start + off) Ha (located_app_l _ _ _ _ Lt) ltac:(lia) Hx0) as R.
    apply located_app_r in Lh, Lt. rewrite word_len in Lh. rewrite <- Z.add_assoc in Lt.
    destruct (IH ltac:(assumption) ltac:(assumption) (off + len (spec_enc t a)) (p + 32) x0 ltac:(lia) ltac:(lia) ltac:(lia) Lh Lt Hx1) as [I1 I2].
    split; [lia|]. right. rewrite len_app. lia.
  - rewrite len_app in *. pose proof (len_nonneg (heads off (parts part ts vs))). pose proof (spec_enc_len_ge t a Wt Ha) as Hl. bok H. bok H.
    pose proof (Ct a x p Ha (located_app_l _ _ _ _ Lh) ltac:(lia) Hx) as R. apply located_app_r in Lh.
    rewrite spec_enc_static in * by assumption.
    destruct (IH ltac:(assumption) ltac:(assumption) off (p + static_size t) x0 ltac:(lia) ltac:(lia) ltac:(lia) Lh Lt Hx0) as [I1 I2].
    split; [lia|]. exact I2.
Qed.
Lemma head_tail_reach p ts vs vs' : Forall wf ts -> Forall reaches ts -> Forall2 has_type ts vs -> p <= len buf \/ ts <> [] ->
  located (buf ++ ext) p (head_tail (parts part ts vs)) -> len (head_tail (parts part ts vs)) < 2 ^ 256 ->
  tread buf p (map (rdr_of buf true) ts) p = Ok vs' -> p + len (head_tail (parts part ts vs)) <= len buf.
Proof.
  intros W C T Hb L S H. pose proof (located_bounds _ _ _ L) as [Hp _]. unfold head_tail in L, S |- *. rewrite len_app in *. rewrite len_heads in *.
  pose proof (located_app_l _ _ _ _ L) as Lh. apply located_app_r in L. rewrite len_heads in L.
  pose proof (len_nonneg (tails (parts part ts vs))). pose proof (heads_size_nonneg (parts part ts vs)).
  assert (Hh : p <= len buf \/ 0 < heads_size (parts part ts vs)).
  { destruct Hb as [Hb|Hb]; [left; exact Hb|right]. destruct T as [|t a ts vs Ha T]; [congruence|]. inv W. rewrite parts_cons.
    cbn [heads_size]. pose proof (part_head_size_ge t a ltac:(assumption) Ha). pose proof (heads_size_nonneg (parts part ts vs)). lia. }
  destruct (members_reach p ts vs W C T Hp (heads_size (parts part ts vs)) p vs') as [R1 R2]; try assumption; try lia; rewrite len_heads in *; lia.
Qed.
Theorem pd_reaches t : wf t -> reaches t.
Proof.
  induction t as [m|m| | |m n|m n|k| | |t IH|n t IH|ts IH] using sty_ind'; intros W a a' p T L S H;
    try (rewrite spec_enc_static by (assumption || reflexivity); cbn [static_size pd] in *;
         destruct (Z.leb_spec (p + 32) (len buf)); [lia|discriminate]).
  - inv T. cbn [pd spec_enc] in *. bok H. rewrite len_app, word_len in *. pose proof (pad_right_len b) as [P1 P2].
    pose proof (rd_bytes_reaches p b x ltac:(lia) L Hx). lia.
  - inv T. cbn [pd spec_enc] in *. bok H. rewrite len_app, word_len in *. pose proof (pad_right_len (utf8 s)) as [P1 P2].
    pose proof (rd_bytes_reaches p (utf8 s) x ltac:(lia) L Hx). lia.
  - inv T. inv W. take (wf t) as Wt. take (Forall _ _) as F. cbn [pd spec_enc] in *. pose proof (len_nonneg l).
    assert (Hl : len l <= len (head_tail (map (fun x => (sdyn t, spec_enc t x)) l))).
    { rewrite len_head_tail. pose proof (len_nonneg (tails (map (fun x => (sdyn t, spec_enc t x)) l))).
      pose proof (heads_size_ge (map (fun x => (sdyn t, spec_enc t x)) l)) as G. rewrite len_map in G.
      enough (Forall (fun p : bool * bytes => 32 <= head_size p) (map (fun x => (sdyn t, spec_enc t x)) l)) by (specialize (G ltac:(assumption)); lia).
      apply Forall_map. eapply Forall_impl; [|exact F]. intros x Hx. apply (part_head_size_ge t x); assumption. }
    rewrite len_app, word_len in *. bok H.
    destruct (word_at_in p (len l) x) as [-> Hb]; [lia|exact (located_app_l _ _ _ _ L)|exact Hx|].
    apply located_app_r in L. rewrite word_len in L. pose proof (located_bounds _ _ _ L) as [Hp _].
    apply rd_array_ok in H; [|lia]. destruct H as (vs & -> & Lv & R & _). rewrite Lv, len_length, Nat2Z.id in R.
    rewrite <- parts_repeat in L |- *. rewrite Z.add_assoc.
    eapply head_tail_reach; [apply Forall_repeat; exact Wt|apply Forall_repeat; auto|apply Forall2_repeat; exact F|left; lia|exact L| |exact R].
    rewrite parts_repeat. lia.
  - inv T. inv W. take (wf t) as Wt. take (Forall _ _) as F. cbn [pd spec_enc] in *. pose proof (located_bounds _ _ _ L) as [Hp _].
    apply rd_array_ok in H; [|lia]. destruct H as (vs & -> & Lv & R & _). rewrite Lv, len_length, Nat2Z.id in R.
    rewrite <- parts_repeat in L, S |- *.
    eapply head_tail_reach; [apply Forall_repeat; exact Wt|apply Forall_repeat; auto|apply Forall2_repeat; exact F| |exact L|exact S|exact R].
    right. destruct l; [|discriminate]. change (len (A := aval) []) with 0 in *. lia.
  - inv T. inv W. take (Forall wf ts) as Wt. rewrite spec_enc_tuple in *. rewrite pd_tuple_eq in H. apply rd_tuple_ok in H. destruct H as (vs & -> & R & _).
    eapply head_tail_reach; [exact Wt| |eassumption| |exact L|exact S|exact R].
    + clear -IH Wt. induction IH; inv Wt; constructor; auto.
    + right. assumption.
Qed.
End Trunc.

(** ** The API *)
(** Cutting a payload that decodes strictly: the rest decodes to the same
    value, or decoding says that data is missing. *)
Theorem decode_cut w w' types data data' b ext q : used false w -> used false w' -> bytes_like data (b ++ ext) -> bytes_like data' b -> len (b ++ ext) <= maxsize ->
  decode_in w types data true = Ok q ->
  decode_in w' types data' true = Ok q \/ decode_in w' types data' true = Err InsufficientDataBytes \/ decode_in w' types data' true = Err InvalidPointer.
Proof.
  intros U U' B B' L H. destruct (decode_ok_inv w types data true q U H) as (ts & _ & T & _).
  destruct (decode_pd w types ts data (b ++ ext) true q U T B L H) as (a & P & -> & _).
  assert (L' : len b <= maxsize) by (rewrite len_app in L; pose proof (len_nonneg ext); lia).
  rewrite (decode_args w' types ts data' b true U' T B' L').
  destruct (pd_args_cut b ext ts a (type_args_wf _ _ T) P) as [->|(e & -> & [-> | ->])]; cbn [bind]; auto.
Qed.
Theorem decode_truncated w w' types args data b ext : used false w -> used false w' -> encode_in w types args = Ok (b ++ ext) -> ext <> [] ->
  (forall ts, type_args types ts -> leaves exact_leaf (STuple ts) args) -> len (b ++ ext) <= maxsize -> bytes_like data b ->
  decode_in w' types data true = Err InsufficientDataBytes \/ decode_in w' types data true = Err InvalidPointer.
Proof.
  intros U U' E N X L B. destruct (round_trip w w types args (b ++ ext) true U U E L X) as (ts & a & q & T & D & _ & H).
  destruct (decode_cut w w' types (PBytes (b ++ ext)) data b ext q U U' ltac:(left; reflexivity) B L H) as [H'|H']; [exfalso|exact H'].
  assert (W := type_args_wf _ _ T). assert (L' : len b <= maxsize) by (rewrite len_app in L; pose proof (len_nonneg ext); lia).
  destruct (decode_pd w' types ts data b true q U' T B L' H') as (a' & P & _ & _).
  destruct (encode_ok_inv false w types args (b ++ ext) U E) as (ts' & l & T' & Sl & Ew).
  assert (ts' = ts) by (eapply type_args_fun; eassumption). subst ts'.
  destruct (args_encoded false ts args (b ++ ext) W Ew (X ts T)) as (a1 & D1 & _ & O). specialize (O ltac:(pose proof maxsize_lt; lia)).
  change (out false (STuple ts) a1) with (spec_enc (STuple ts) a1) in O. assert (Ht := args_has_type ts args a1 W D1). inv Ht.
  rewrite spec_enc_tuple in O. unfold pd_args in P. apply rd_tuple_ok in P. destruct P as (vs & _ & R & _).
  assert (G : 0 + len (head_tail (parts part ts l0)) <= len b).
  { apply (head_tail_reach b ext 0 ts l0 vs); try assumption.
    - clear -W. induction W; constructor; auto using pd_reaches.
    - left. apply len_nonneg.
    - exists [], []. rewrite app_nil_r. split; [exact O|reflexivity].
    - rewrite <- O. pose proof maxsize_lt. lia. }
  rewrite <- O, len_app in G. destruct ext; [congruence|]. lens. pose proof (len_nonneg ext). lia.
Qed.
