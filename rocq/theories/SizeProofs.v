(** Bounds on the size of decoded values. *)
From Coq Require Import Strings.Byte Strings.String.
From Verif Require Import Tac Bytes BytesProofs Utf8 Utf8Proofs Address AddressProofs Encoding Decoding Registry Codec Histories Spec TypeSpec ReadSpec SizeSpec
  EncLeafProofs EncodeProofs DecLeafProofs DecodeProofs ReaderProofs DecodeFacts DecodeFacts2 CacheProofs LookupProofs TypeProofs ApiProofs HistoryProofs ArgsProofs EncodeApi DecodeApi ReadProofs LawsReads.
Open Scope Z_scope.

Lemma max_items_nonneg n t : 0 <= n -> wf t -> 0 <= max_items n t.
Proof.
  intro Hn. induction t as [m|m| | |m k|m k|k| | |t IH|k t IH|ts IH] using sty_ind'; intro W; inv W; cbn [max_items]; try lia;
    try (take (wf t) as Wt; specialize (IH Wt); nia).
  take (Forall wf ts) as F. revert F. clear -IH. induction IH as [|t ts H IH IHts]; intro F; [reflexivity|]. inv F. cbn [fold_right].
  specialize (H ltac:(assumption)). specialize (IHts ltac:(assumption)). lia.
Qed.
Lemma max_items_args n ts : 0 <= n -> Forall wf ts -> 0 <= max_items n (STuple ts).
Proof.
  intros Hn F. cbn [max_items]. induction F as [|t ts W F IH]; [reflexivity|]. cbn [fold_right]. pose proof (max_items_nonneg n t Hn W). lia.
Qed.
Lemma value_items_cons x l : value_items (PTuple (x :: l)) = 1 + value_items x + value_items (PTuple l).
Proof. reflexivity. Qed.
Lemma items_le c l : 0 <= c -> Forall (fun q => value_items q <= c) l -> value_items (PTuple l) <= len l * (1 + c).
Proof.
  intros Hc F. induction F as [|q l Hq F IH]; [cbn; lens; lia|]. rewrite value_items_cons. lens. nia.
Qed.
Lemma bounded_items n t : 0 <= n -> wf t -> forall a, has_type t a -> bounded n (py_of t a) -> value_items (py_of t a) <= max_items n t.
Proof.
  intro Hn. induction t as [m|m| | |m k|m k|k| | |t IH|k t IH|ts IH] using sty_ind'; intros W a T B; try (inv T; cbn; lia).
  - inv T. inv W. take (wf t) as Wt. cbn [py_of max_items] in *. inv B; [|contradiction]. take (Forall (has_type t) l) as F.
    take (len (map _ _) <= n) as L. take (Forall (bounded n) _) as Bl. pose proof (max_items_nonneg n t Hn Wt).
    assert (G : Forall (fun q => value_items q <= max_items n t) (map (py_of t) l)).
    { clear -IH F Bl Wt. induction F as [|x l Hx F IHF]; [constructor|]. cbn [map] in *. inv Bl. constructor; auto. }
    pose proof (items_le _ _ H G). pose proof (len_nonneg (map (py_of t) l)). nia.
  - inv T. inv W. take (wf t) as Wt. cbn [py_of max_items] in *. inv B; [|contradiction]. take (Forall (has_type t) l) as F.
    take (Forall (bounded n) _) as Bl. pose proof (max_items_nonneg n t Hn Wt).
    assert (G : Forall (fun q => value_items q <= max_items n t) (map (py_of t) l)).
    { clear -IH F Bl Wt. induction F as [|x l Hx F IHF]; [constructor|]. cbn [map] in *. inv Bl. constructor; auto. }
    pose proof (items_le _ _ H G) as Q. rewrite len_map in Q. exact Q.
  - inv T. inv W. take (Forall wf ts) as Wt. rewrite py_of_tuple in *. inv B; [|contradiction]. take (Forall (bounded n) _) as Bl. take (Forall2 _ _ _) as F.
    clear -IH Wt Bl F. revert IH Wt Bl. induction F as [|t a ts l Ha F IHF]; intros IH Wt Bl; [cbn; lia|].
    inv IH. inv Wt. cbn [py_tuple] in *. inv Bl. rewrite value_items_cons. cbn [max_items fold_right].
    change (fold_right _ 0 ts) with (max_items n (STuple ts)). specialize (IHF ltac:(assumption) ltac:(assumption) ltac:(assumption)).
    match goal with H : wf t -> _ |- _ => pose proof (H ltac:(assumption) a Ha ltac:(assumption)) end. lia.
Qed.
Lemma bounded_args n ts vs : 0 <= n -> Forall wf ts -> Forall2 has_type ts vs -> bounded n (py_of (STuple ts) (VSeq vs)) ->
  value_items (py_of (STuple ts) (VSeq vs)) <= max_items n (STuple ts).
Proof.
  intros Hn W F B. rewrite py_of_tuple in *. inv B; [|contradiction]. take (Forall (bounded n) _) as Bl.
  clear -Hn W Bl F. revert W Bl. induction F as [|t a ts l Ha F IHF]; intros Wt Bl; [cbn; lia|].
  inv Wt. cbn [py_tuple] in *. inv Bl. rewrite value_items_cons. cbn [max_items fold_right].
  change (fold_right _ 0 ts) with (max_items n (STuple ts)). specialize (IHF ltac:(assumption) ltac:(assumption)).
  pose proof (bounded_items n t Hn ltac:(assumption) a Ha ltac:(assumption)). lia.
Qed.

(** ** The bound is polynomial in the payload *)
Lemma pow_ge1 n d : 1 <= n -> 1 <= n ^ Z.of_nat d.
Proof. intro H. pose proof (Z.pow_pos_nonneg n (Z.of_nat d)). lia. Qed.
Lemma pow_mono n d d' : 1 <= n -> (d <= d')%nat -> n ^ Z.of_nat d <= n ^ Z.of_nat d'.
Proof. intros H L. apply Z.pow_le_mono_r; lia. Qed.
Lemma max_items_poly_args n ts : 1 <= n -> Forall wf ts -> Forall (fun t => max_items n t <= n ^ Z.of_nat (array_depth t) * max_items 1 t) ts ->
  max_items n (STuple ts) <= n ^ Z.of_nat (array_depth (STuple ts)) * max_items 1 (STuple ts).
Proof.
  intros Hn F. induction F as [|t ts W F IHts]; intro H; [cbn; lia|]. inv H. specialize (IHts ltac:(assumption)).
  pose proof (max_items_args 1 ts ltac:(lia) F) as HM. cbn [max_items array_depth fold_right] in *.
  set (D := fold_right (fun t acc => Nat.max (array_depth t) acc) 0%nat ts) in *. set (M := fold_right (fun t acc => 1 + max_items 1 t + acc) 0 ts) in *.
  set (K := fold_right _ 0 ts) in *.
  pose proof (pow_mono n (array_depth t) (Nat.max (array_depth t) D) Hn ltac:(lia)) as P1. pose proof (pow_mono n D (Nat.max (array_depth t) D) Hn ltac:(lia)) as P2.
  pose proof (pow_ge1 n (array_depth t) Hn). pose proof (pow_ge1 n D Hn).
  pose proof (max_items_nonneg 1 t ltac:(lia) W).
  generalize dependent (n ^ Z.of_nat (Nat.max (array_depth t) D)). intros X P1 P2.
  generalize dependent (n ^ Z.of_nat (array_depth t)). intros Y P1. generalize dependent (n ^ Z.of_nat D). intros Z0 IH P2. intros.
  assert (max_items n t <= X * max_items 1 t) by nia. assert (K <= X * M) by nia. nia.
Qed.
Lemma max_items_poly n t : 1 <= n -> wf t -> max_items n t <= n ^ Z.of_nat (array_depth t) * max_items 1 t.
Proof.
  intro Hn. induction t as [m|m| | |m k|m k|k| | |t IH|k t IH|ts IH] using sty_ind'; intro W; try (cbn [max_items array_depth]; lia).
  - inv W. specialize (IH ltac:(assumption)). cbn [max_items array_depth]. rewrite Nat2Z.inj_succ, Z.pow_succ_r by lia.
    pose proof (pow_ge1 n (array_depth t) Hn). pose proof (max_items_nonneg 1 t ltac:(lia) ltac:(assumption)).
    generalize dependent (n ^ Z.of_nat (array_depth t)). intros P IH H. nia.
  - inv W. specialize (IH ltac:(assumption)). cbn [max_items array_depth].
    pose proof (pow_ge1 n (array_depth t) Hn). pose proof (max_items_nonneg 1 t ltac:(lia) ltac:(assumption)).
    generalize dependent (n ^ Z.of_nat (array_depth t)). intros P IH H. nia.
  - inv W. take (Forall wf ts) as F. apply max_items_poly_args; auto. clear -IH F. induction IH; inv F; constructor; auto.
Qed.

(** ** Byte strings *)
Lemma utf8_longer u : len u <= len (utf8 u).
Proof.
  unfold utf8. induction u as [|c u IH]; [cbn; lens; lia|]. cbn [flat_map]. lens.
  assert (1 <= len (utf8_char c)); [|lia]. unfold utf8_char. cbn zeta. rewrite len_cons. pose proof (len_nonneg (map (fun i => byte_val (0x80 + (Z.of_N c / 64 ^ Z.of_nat i) mod 64)) (rev (seq 0 (utf8_len c))))). lia.
Qed.
Lemma firstn_le {A} n (l : list A) : len (firstn n l) <= len l.
Proof. rewrite !len_length, firstn_length. lia. Qed.
Lemma holds_bytes_len buf s p b : holds_bytes buf s p b -> len b <= len buf.
Proof.
  intro H. inv H.
  - take (found _ _ _) as F. apply located_bounds in F. rewrite len_app, word_len in F. pose proof (pad_right_len b). lia.
  - pose proof (firstn_le (Z.to_nat (Z.min n (len rest))) rest). lens. pose proof (len_nonneg pre). pose proof (len_nonneg (word n)). lia.
Qed.
Lemma longest_le m l : 0 <= m -> longest (PTuple l) <= m <-> Forall (fun q => longest q <= m) l.
Proof.
  intro Hm. cbn [longest]. induction l as [|q l IH]; cbn [fold_right]; [split; [constructor|lia]|].
  rewrite Z.max_lub_iff, IH. split; [intros []; constructor; auto|intro H; inv H; auto].
Qed.
Lemma len_hex_lower b : len (hex_lower b) = 2 * len b.
Proof. unfold hex_lower, nibbles. rewrite len_map. induction b as [|x b IH]; [reflexivity|]. cbn [flat_map app] in *. lens. lia. Qed.
Lemma holds_longest buf :
  (forall s t p a, holds buf s t p a -> longest (py_of t a) <= Z.max 42 (len buf))
  /\ (forall s start lo ts p vs, holds_all buf s start lo ts p vs -> Forall (fun q => longest q <= Z.max 42 (len buf)) (py_tuple ts vs)).
Proof.
  pose proof (len_nonneg buf). apply holds_both.
  - intros s t p a O T F. destruct T; try discriminate O; cbn [py_of longest]; try lia.
    + lens. rewrite len_hex_lower. change (len (lit "0x")) with 2. lia.
    + apply located_bounds in F. cbn [spec_enc] in F. pose proof (pad_right_len b). lia.
  - intros s p b B. apply holds_bytes_len in B. cbn [py_of longest]. lia.
  - intros s p u S B. apply holds_bytes_len in B. cbn [py_of longest]. pose proof (utf8_longer u). lia.
  - intros s t p vs F A IH. rewrite py_tuple_repeat in IH by reflexivity. cbn [py_of]. apply longest_le; [lia|exact IH].
  - intros s n t p vs L A IH. rewrite py_tuple_repeat in IH by reflexivity. cbn [py_of]. apply longest_le; [lia|exact IH].
  - intros s ts p vs A IH. rewrite py_of_tuple. apply longest_le; [lia|exact IH].
  - intros. constructor.
  - intros. cbn [py_tuple]. constructor; assumption.
  - intros. cbn [py_tuple]. constructor; assumption.
Qed.

Lemma bounded_more n m : n <= m -> forall q, bounded n q -> bounded m q.
Proof.
  intro L. fix IH 2. intros q [l Hl F|q' Hq]; [|apply B_leaf; exact Hq]. constructor; [lia|].
  induction F as [|x l Hx F IHF]; constructor; [apply IH; exact Hx|]. apply IHF. lens. lia.
Qed.

(** ** decode *)
Theorem decode_items w types ts data b strict q : used false w -> type_args types ts -> bytes_like data b -> len b <= maxsize ->
  decode_in w types data strict = Ok q -> value_items q <= max_items (len b / 32) (STuple ts).
Proof.
  intros U T B L H. pose proof (decode_bounded w types ts data b strict q U T B L H) as Bd.
  destruct (proj1 (decode_ok w types ts data b strict q U T B L) H) as (vs & _ & F & ->).
  apply bounded_args; auto; [|eapply type_args_wf; exact T]. apply Z.div_pos; [apply len_nonneg|lia].
Qed.
Theorem decode_items_poly w types ts data b strict q : used false w -> type_args types ts -> bytes_like data b -> len b <= maxsize ->
  decode_in w types data strict = Ok q -> value_items q <= Z.max 1 (len b / 32) ^ Z.of_nat (array_depth (STuple ts)) * max_items 1 (STuple ts).
Proof.
  intros U T B L H. pose proof (decode_bounded w types ts data b strict q U T B L H) as Bd. assert (W := type_args_wf _ _ T).
  destruct (proj1 (decode_ok w types ts data b strict q U T B L) H) as (vs & _ & F & ->).
  eapply Z.le_trans; [apply (bounded_args (Z.max 1 (len b / 32))); auto; [lia|]|].
  - eapply bounded_more; [|exact Bd]. lia.
  - apply max_items_poly_args; [lia|exact W|]. eapply Forall_impl; [|exact W]. intros t Wt. apply max_items_poly; [lia|exact Wt].
Qed.
Theorem decode_longest w types ts data b strict q : used false w -> type_args types ts -> bytes_like data b -> len b <= maxsize ->
  decode_in w types data strict = Ok q -> longest q <= Z.max 42 (len b).
Proof.
  intros U T B L H. destruct (proj1 (decode_ok w types ts data b strict q U T B L) H) as (vs & P & F & ->).
  rewrite py_of_tuple. apply longest_le; [pose proof (len_nonneg b); lia|]. eapply (proj2 (holds_longest b)). exact P.
Qed.
(** Without T[] inside T[], linear. *)
Theorem decode_items_linear w types ts data b strict q : used false w -> type_args types ts -> (array_depth (STuple ts) <= 1)%nat -> bytes_like data b -> len b <= maxsize ->
  decode_in w types data strict = Ok q -> value_items q <= Z.max 1 (len b / 32) * max_items 1 (STuple ts).
Proof.
  intros U T D B L H. pose proof (decode_items_poly w types ts data b strict q U T B L H) as P.
  pose proof (max_items_args 1 ts ltac:(lia) (type_args_wf _ _ T)) as M.
  assert (E : Z.max 1 (len b / 32) ^ Z.of_nat (array_depth (STuple ts)) <= Z.max 1 (len b / 32)).
  { eapply Z.le_trans; [apply (pow_mono _ _ 1); [lia|exact D]|]. change (Z.of_nat 1) with 1. rewrite Z.pow_1_r. lia. }
  generalize dependent (Z.max 1 (len b / 32)). intros n P E. nia.
Qed.
