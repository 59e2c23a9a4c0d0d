(** Packed encodings of static types. *)
From Coq Require Import Strings.Byte Strings.String.
From Verif Require Import Tac Bytes BytesProofs Encoding Registry Codec Histories Spec ReadSpec TypeSpec EncLeafProofs EncodeProofs AcceptProofs EncOkProofs
  DecLeafProofs DecodeProofs TypeProofs ApiProofs HistoryProofs ArgsProofs EncodeApi DecodeApi.
Open Scope Z_scope.


Definition packs (t : sty) : Prop := forall a b, has_type t a -> has_type t b -> sdyn t = false ->
  len (spec_packed t a) = packed_size t /\ (spec_packed t a = spec_packed t b -> a = b).
Lemma be_bytes_inj m x y : int_size m -> be_bytes (Z.to_nat (m / 8)) x = be_bytes (Z.to_nat (m / 8)) y ->
  0 <= x < 2 ^ m /\ 0 <= y < 2 ^ m \/ - 2 ^ (m - 1) <= x < 2 ^ (m - 1) /\ - 2 ^ (m - 1) <= y < 2 ^ (m - 1) -> x = y.
Proof.
  intros Hm E R. destruct (int_size_bytes m Hm) as (k & -> & Hk & Dk). rewrite Dk, !be_bytes_eq in E. apply (f_equal from_be) in E.
  rewrite !from_be_to_be, Z2Nat.id in E by lia. replace (256 ^ k) with (2 ^ (8 * k)) in E by (rewrite Z.pow_mul_r by lia; reflexivity).
  destruct R as [[R1 R2]|[R1 R2]]; [rewrite !Z.mod_small in E by lia; exact E|].
  rewrite <- (signed_of_unique (8 * k) x), <- (signed_of_unique (8 * k) y) by lia. congruence.
Qed.
Lemma be_len m z : int_size m -> len (be_bytes (Z.to_nat (m / 8)) z) = m / 8.
Proof. intro H. rewrite be_bytes_len. unfold int_size in H. lia. Qed.
Lemma flat_map_packs t (vs ws : list aval) : packs t -> sdyn t = false -> Forall (has_type t) vs -> Forall (has_type t) ws ->
  len (flat_map (spec_packed t) vs) = len vs * packed_size t
  /\ (len vs = len ws -> flat_map (spec_packed t) vs = flat_map (spec_packed t) ws -> vs = ws).
Proof.
  intros P D F. revert ws. induction F as [|v vs Hv F IH]; intros ws G.
  - split; [reflexivity|]. intros L _. symmetry in L. apply len_0 in L. auto.
  - cbn [flat_map]. destruct (IH [] (Forall_nil _)) as [Lv _]. destruct (P v v Hv Hv D) as [Lp _]. split; [rewrite len_app, len_cons, Lv, Lp; lia|].
    intros L E. inv G; [lens; pose proof (len_nonneg vs); lia|]. take (has_type t x) as Hx. cbn [flat_map] in E. destruct (P v x Hv Hx D) as [_ I].
    destruct (P x x Hx Hx D) as [Lx _]. apply app_inj_len in E; [|congruence]. destruct E as [E1 E2]. f_equal; [apply I; exact E1|].
    apply (proj2 (IH l ltac:(assumption))); [|exact E2]. lens. lia.
Qed.
Lemma spec_packed_cons t ts a vs : spec_packed (STuple (t :: ts)) (VSeq (a :: vs)) = spec_packed t a ++ spec_packed (STuple ts) (VSeq vs).
Proof. reflexivity. Qed.
Lemma members_packs ts vs : Forall packs ts -> existsb sdyn ts = false -> Forall2 has_type ts vs -> forall ws, Forall2 has_type ts ws ->
  len (spec_packed (STuple ts) (VSeq vs)) = packed_size (STuple ts)
  /\ (spec_packed (STuple ts) (VSeq vs) = spec_packed (STuple ts) (VSeq ws) -> vs = ws).
Proof.
  intros P D F. revert P D. induction F as [|t v ts vs Hv F IH]; intros P D ws G; inv G; [split; reflexivity|].
  inv P. take (packs t) as Pt. cbn [existsb] in D. apply orb_false_iff in D. destruct D as [D1 D2]. take (has_type t y) as Hy. take (Forall2 _ ts l') as G'.
  rewrite !spec_packed_cons. destruct (IH ltac:(assumption) D2 l' G') as [L I]. destruct (Pt v y Hv Hy D1) as [Lv Iv]. destruct (Pt y y Hy Hy D1) as [Ly _]. split.
  - rewrite len_app, L, Lv. reflexivity.
  - intro E. apply app_inj_len in E; [|congruence]. destruct E as [E1 E2]. f_equal; auto.
Qed.
Theorem packed_static t : wf t -> packs t.
Proof.
  induction t as [m|m| | |m n|m n|k| | |t IH|n t IH|ts IH] using sty_ind'; intros W a b Ha Hb D; try discriminate D; inv W.
  - inv Ha. inv Hb. cbn [spec_packed packed_size]. split; [apply be_len; assumption|]. intro E. f_equal. eapply be_bytes_inj; eauto.
  - inv Ha. inv Hb. cbn [spec_packed packed_size]. split; [apply be_len; assumption|]. intro E. f_equal. eapply be_bytes_inj; eauto.
  - inv Ha. inv Hb. cbn [spec_packed packed_size]. rewrite !be_bytes_eq. split; [apply to_be_len|]. intro E. apply (f_equal from_be) in E.
    rewrite !from_be_to_be in E. destruct b0, b1; try reflexivity; discriminate E.
  - inv Ha. inv Hb. cbn [spec_packed packed_size]. split; [assumption|congruence].
  - inv Ha. inv Hb. cbn [spec_packed packed_size]. split; [apply be_len; assumption|]. intro E. f_equal. eapply be_bytes_inj; eauto.
  - inv Ha. inv Hb. cbn [spec_packed packed_size]. split; [apply be_len; assumption|]. intro E. f_equal. eapply be_bytes_inj; eauto.
  - inversion Ha; inversion Hb; subst. cbn [spec_packed packed_size]. split; [reflexivity|congruence].
  - inversion Ha; inversion Hb; subst. cbn [spec_packed packed_size sdyn] in *. take (Forall _ l) as Fl. take (Forall _ l0) as Fl0.
    destruct (flat_map_packs t l l0 (IH ltac:(assumption)) D Fl Fl0) as [L I]. split; [exact L|]. intro E. f_equal. apply I; [congruence|exact E].
  - take (Forall wf ts) as Ws. inversion Ha; inversion Hb; subst. take (Forall2 _ ts l) as F1. take (Forall2 _ ts l0) as F2.
    destruct (members_packs ts l ltac:(clear -IH Ws; induction IH; inv Ws; constructor; auto) D F1 l0 F2) as [L I]. split; [exact L|]. intro E. f_equal. apply I. exact E.
Qed.
Lemma args_packs ts : Forall wf ts -> packs (STuple ts).
Proof.
  intro W. destruct (wf_args ts W) as [->|W']; [|apply packed_static; exact W']. intros a b Ha Hb D. inversion Ha; inversion Hb; subst.
  take (Forall2 _ [] l) as F1. take (Forall2 _ [] l0) as F2. inv F1. inv F2. split; reflexivity.
Qed.

Theorem encode_packed_length w types ts args b : used true w -> type_args types ts -> existsb sdyn ts = false ->
  encode_in w types args = Ok b -> leaves exact_leaf (STuple ts) args -> len b = packed_size (STuple ts).
Proof.
  intros U T D E X. assert (W := type_args_wf _ _ T). destruct (encode_ok_inv true w types args b U E) as (ts' & l & T' & Sl & Ew).
  assert (ts' = ts) by (eapply type_args_fun; eassumption). subst ts'.
  destruct (args_encoded true ts args b W Ew X) as (a & Da & L & _). assert (Ha := args_has_type ts args a W Da).
  rewrite L. apply (args_packs ts W a a Ha Ha D).
Qed.
Theorem encode_packed_injective w w' types ts args args' b : used true w -> used true w' -> type_args types ts -> existsb sdyn ts = false ->
  encode_in w types args = Ok b -> encode_in w' types args' = Ok b -> len b < 2 ^ 256 ->
  leaves exact_leaf (STuple ts) args -> leaves exact_leaf (STuple ts) args' ->
  exists a, denotes (STuple ts) args a /\ denotes (STuple ts) args' a.
Proof.
  intros U U' T D E E' M X X'. assert (W := type_args_wf _ _ T). destruct (encode_ok_inv true w types args b U E) as (ts1 & l & T1 & Sl & Ew).
  destruct (encode_ok_inv true w' types args' b U' E') as (ts2 & l' & T2 & Sl' & Ew').
  assert (ts1 = ts) by (eapply type_args_fun; eassumption). assert (ts2 = ts) by (eapply type_args_fun; eassumption). subst ts1 ts2.
  destruct (args_encoded true ts args b W Ew X) as (a & Da & _ & O). destruct (args_encoded true ts args' b W Ew' X') as (a' & Da' & _ & O').
  specialize (O M). specialize (O' M). exists a. split; [exact Da|].
  assert (a = a'); [|subst; exact Da']. apply (args_packs ts W); [eapply args_has_type; eassumption..|exact D|]. change (out true (STuple ts) a = out true (STuple ts) a'). congruence.
Qed.
