(** Wider types, text as bytes, packed mode of full words. *)
From Coq Require Import Strings.Byte Strings.String.
From Verif Require Import Tac Bytes BytesProofs Utf8 Utf8Proofs Address Decimals DecimalsProofs Encoding Decoding Registry Codec Histories Spec ReadSpec LawsSpec TypeSpec
  EncLeafProofs EncodeProofs AcceptProofs EncOkProofs DecLeafProofs DecodeProofs ReaderProofs DecodeFacts DecodeFacts2 LookupProofs TypeProofs ApiProofs HistoryProofs ArgsProofs
  EncodeApi DecodeApi ReadProofs LawsProofs.
Open Scope Z_scope.

(** ** Wider types *)
Lemma widens_tuple ts ts' : widens (STuple ts) (STuple ts') <-> Forall2 widens ts ts'.
Proof.
  cbn [widens]. revert ts'. induction ts as [|t ts IH]; intros [|t' ts'].
  - split; [constructor|auto].
  - split; [contradiction|intro F; inv F].
  - split; [contradiction|intro F; inv F].
  - rewrite IH. split; [intros [H F]; constructor; assumption|intro F; inv F; auto].
Qed.
Lemma widens_dyn t : forall t', widens t t' -> sdyn t = sdyn t'.
Proof.
  induction t as [m|m| | |m n|m n|k| | |t IH|n t IH|ts IH] using sty_ind'; intros [m'|m'| | |m' n'|m' n'|k'| | |t'|n' t'|ts'] H; try (exfalso; exact H); try reflexivity.
  - cbn [sdyn]. apply IH, H.
  - apply widens_tuple in H. cbn [sdyn]. revert IH. induction H as [|t t' ts ts' H F IHF]; intro IH; [reflexivity|]. inv IH. cbn [existsb]. rewrite IHF by assumption. f_equal. auto.
Qed.
Lemma range_wider v n lo hi lo' hi' : lo' <= lo -> hi <= hi' -> out_of_range v n lo hi = Some false -> out_of_range v n lo' hi' = Some false.
Proof.
  intros Hl Hh. unfold out_of_range.
  assert (M : (forall x, num_scaled_cmp v n x = None) \/ exists s k, 0 < k /\ forall y, num_scaled_cmp v n y = Some (Z.compare s (y * k))).
  { destruct v as [|b|i|f|cx|a d|[neg c e|b|]|b|b|s|l|l|sr l|o]; cbn [num_scaled_cmp]; auto; right.
    - eexists _, 1. split; [lia|]. intro y. rewrite Z.mul_1_r. reflexivity.
    - eexists _, 1. split; [lia|]. intro y. rewrite Z.mul_1_r. reflexivity.
    - eexists _, (Zpos d). split; [lia|]. intro y. reflexivity.
    - unfold scaled_cmp. destruct (Z.leb_spec 0 (e + n)).
      + eexists _, 1. split; [lia|]. intro y. rewrite Z.mul_1_r. reflexivity.
      + eexists _, (10 ^ (- (e + n))). split; [apply Z.pow_pos_nonneg; lia|]. intro y. reflexivity. }
  destruct M as [M|(s & k & Hk & M)]; [rewrite !M; discriminate|]. rewrite !M. intro H.
  destruct (Z.compare_spec s (lo * k)), (Z.compare_spec s (hi * k)); try discriminate H;
    destruct (Z.compare_spec s (lo' * k)), (Z.compare_spec s (hi' * k)); try reflexivity; nia.
Qed.
Lemma verdict_wider v n lo hi lo' hi' : lo' <= lo -> hi <= hi' -> fixed_verdict n lo hi v = Ok tt -> fixed_verdict n lo' hi' v = Ok tt.
Proof.
  intros Hl Hh. unfold fixed_verdict.
  assert (R := range_wider v n lo hi lo' hi' Hl Hh).
  destruct v as [|b|i|f|cx|a d|[neg c e|b|]|b|b|s|l|l|sr l|o]; try discriminate;
    (destruct (out_of_range _ n lo hi) as [[]|]; try discriminate; rewrite (R eq_refl); auto).
Qed.
Definition ubytes (i : Z) : bytes := zpad (to_be (be_size i) i) 32.
Definition sbytes (i : Z) (c : comparison) : bytes :=
  match c with Lt => if i =? 0 then fpad (to_be (be_size 0) 0) 32 else to_be 32 i | _ => ubytes i end.
Lemma ufixed_bytes m n p i : int_size m -> frac_size n -> validate_ufixed m n p = Ok tt -> scaled_int n p = Ok i -> encode_ufixed m n 32 p = Ok (ubytes i).
Proof.
  intros Hm Hn V E. unfold encode_ufixed. rewrite V. cbn [bind]. rewrite validate_ufixed_verdict in V by assumption. destruct Hm as [Hm _].
  pose proof (pow2_pos m ltac:(lia)). pose proof (pow2_lt_78 m ltac:(lia)). pose proof (pow10_pos 78 ltac:(lia)).
  destruct (fixed_ok_scaled n 0 (2 ^ m - 1) p Hn ltac:(lia) ltac:(lia) ltac:(lia) V) as (i' & c & Hi & Hr & _).
  rewrite E in *. inv Hi. cbn [bind]. rewrite int_to_big_endian_Ok by lia. reflexivity.
Qed.
Lemma sfixed_bytes m n p i c : int_size m -> frac_size n -> validate_sfixed m n p = Ok tt -> scaled_int n p = Ok i -> num_cmp p ZERO = Ok c ->
  encode_sfixed m n 32 p = Ok (sbytes i c).
Proof.
  intros Hm Hn V E C. unfold encode_sfixed. rewrite V. cbn [bind]. rewrite validate_sfixed_verdict in V by assumption. pose proof Hm as [Hm1 Hm8].
  pose proof (pow2_pos (m - 1) ltac:(lia)). pose proof (pow2_lt_78 (m - 1) ltac:(lia)). pose proof (pow2_pred m ltac:(lia)).
  destruct (fixed_ok_scaled n (- 2 ^ (m - 1)) (2 ^ (m - 1) - 1) p Hn ltac:(lia) ltac:(lia) ltac:(lia) V) as (i' & c' & Hi & Hr & Hc & Hc1 & Hc2 & _).
  rewrite E in *. rewrite C in *. inv Hi. inv Hc. cbn [bind].
  pose proof (Z.mod_pos_bound i' (2 ^ m) ltac:(lia)) as Hmod. rewrite int_to_big_endian_Ok by lia. cbn [bind]. f_equal. unfold sbytes.
  assert (P : 0 <= i' -> i' mod 2 ^ m = i') by (intro; apply Z.mod_small; lia).
  destruct c'.
  - rewrite P by (apply Hc2; discriminate). reflexivity.
  - specialize (Hc1 eq_refl). destruct (Z.eqb_spec i' 0) as [-> |N]; [rewrite P by lia; reflexivity|].
    pose proof (twos_pad m 32 i' Hm ltac:(lia) ltac:(change (8 * Z.of_nat 32) with 256; lia) ltac:(lia)) as T. cbn zeta in T. destruct (Z.leb_spec 0 i'); [lia|]. exact T.
  - rewrite P by (apply Hc2; discriminate). reflexivity.
Qed.
Lemma sign_scaled p n hi : frac_size n -> num_cmp p ZERO = Ok Lt -> out_of_range p n 0 hi = Some false -> False.
Proof.
  intros Hn Hc O. unfold frac_size in Hn. unfold out_of_range in O. rewrite num_cmp_ZERO, num_cmp_scaled in Hc by lia. cbn [dsigned Z.of_N] in Hc.
  assert (E : num_scaled_cmp p n 0 = num_scaled_cmp p 0 0).
  { pose proof (pow10_pos n ltac:(lia)) as P. change (pow10 n) with (10 ^ n) in P.
    assert (G : forall i : Z, (i * 10 ^ n ?= 0) = (i * 10 ^ 0 ?= 0)).
    { intro i. change (10 ^ 0) with 1. destruct (Z.compare_spec (i * 10 ^ n) 0), (Z.compare_spec (i * 1) 0); nia || reflexivity. }
    destruct p as [|b|z|f|cx|a d|[neg c e|b|]|b|b|s|l|l|sr l|o]; cbn [num_scaled_cmp]; try reflexivity; rewrite ?scaled_cmp_0, ?Z.mul_0_l, ?G; reflexivity. }
  assert (L : num_scaled_cmp p 0 0 = Some Lt).
  { destruct p as [|b|z|f|cx|a d|[neg c e|b|]|b|b|s|l|l|sr l|o]; try discriminate Hc; destruct (num_scaled_cmp _ 0 0); congruence. }
  rewrite E, L in O. destruct (num_scaled_cmp p n hi); discriminate O.
Qed.
Lemma pow_wider m m' : 8 <= m -> m <= m' -> 2 ^ m <= 2 ^ m' /\ 2 ^ (m - 1) <= 2 ^ (m' - 1) /\ 0 < 2 ^ (m - 1).
Proof. intros. pose proof (pow2_mono m m' ltac:(lia)). pose proof (pow2_mono (m - 1) (m' - 1) ltac:(lia)). pose proof (pow2_pos (m - 1) ltac:(lia)). auto. Qed.
Lemma validate_wider_leaf t t' p : wf t -> wf t' -> word_leaf t = true -> widens t t' -> validate_value (enc_of false t) p = Ok tt -> validate_value (enc_of false t') p = Ok tt.
Proof.
  intros W W' L H V. unfold validate_value in *.
  destruct t as [m|m| | |m n|m n|k| | |t|n t|ts]; try discriminate L; destruct t' as [m'|m'| | |m' n'|m' n'|k'| | |t'|n' t'|ts']; try (exfalso; exact H); inv W; inv W'; cbn [enc_of ve fst] in *.
  - destruct (uint_cases m p) as [(z & -> & R & _)|[(z & -> & R & V')|(_ & V')]]; try congruence.
    destruct (pow_wider m m') as (Hp & _); try (unfold int_size in *; cbn in H; lia).
    destruct (uint_cases m' (PInt z)) as [(z' & E & R' & V')|[(z' & E & R' & V')|(N & V')]]; [exact V'|inv E; lia|destruct (N z eq_refl)].
  - destruct (uint_cases m p) as [(z & -> & R & _)|[(z & -> & R & V')|(_ & V')]]; try congruence.
    cbn in H. assert (Hp : 2 ^ m <= 2 ^ (m' - 1)) by (apply pow2_mono; unfold int_size in *; lia).
    destruct (sint_cases m' (PInt z)) as [(z' & E & R' & V')|[(z' & E & R' & V')|(N & V')]]; [exact V'|inv E; lia|destruct (N z eq_refl)].
  - destruct (sint_cases m p) as [(z & -> & R & _)|[(z & -> & R & V')|(_ & V')]]; try congruence.
    destruct (pow_wider m m') as (_ & Hp & _); try (unfold int_size in *; cbn in H; lia).
    destruct (sint_cases m' (PInt z)) as [(z' & E & R' & V')|[(z' & E & R' & V')|(N & V')]]; [exact V'|inv E; lia|destruct (N z eq_refl)].
  - exact V.
  - exact V.
  - destruct H as [H <-]. rewrite validate_ufixed_verdict in * by assumption. destruct (pow_wider m m') as (Hp & _); try (unfold int_size in *; lia).
    revert V. apply verdict_wider; lia.
  - destruct H as [H <-]. rewrite validate_ufixed_verdict in V by assumption. rewrite validate_sfixed_verdict by assumption.
    assert (Hp : 2 ^ m <= 2 ^ (m' - 1)) by (apply pow2_mono; unfold int_size in *; lia). pose proof (pow2_pos m ltac:(unfold int_size in *; lia)).
    revert V. apply verdict_wider; lia.
  - destruct H as [H <-]. rewrite validate_sfixed_verdict in * by assumption. destruct (pow_wider m m') as (_ & Hp & _); try (unfold int_size in *; lia).
    revert V. apply verdict_wider; lia.
  - cbn in H. subst k'. exact V.
Qed.
Definition extends {A} (r r' : result A) : Prop := forall x, r = Ok x -> r' = Ok x.
Lemma extends_bind {A B} (r r' : result A) (k k' : A -> result B) :
  extends r r' -> (forall x, r = Ok x -> extends (k x) (k' x)) -> extends (bind r k) (bind r' k').
Proof. intros H K y E. bok E. rewrite (H x Hx). cbn [bind]. apply (K x Hx). exact E. Qed.
Lemma extends_refl {A} (r : result A) : extends r r. Proof. intros x H; exact H. Qed.
Lemma extends_tt (r r' : result unit) : (r = Ok tt -> r' = Ok tt) -> extends r r'.
Proof. intros H []. exact H. Qed.
Lemma encode_wider_leaf t t' p : wf t -> wf t' -> word_leaf t = true -> widens t t' -> extends (encode_with (enc_of false t) p) (encode_with (enc_of false t') p).
Proof.
  intros W W' L H b E.
  assert (V : validate_value (enc_of false t) p = Ok tt).
  { unfold validate_value. destruct t; try discriminate L; unfold encode_with in E; cbn [enc_of ve snd fst] in E |- *;
      unfold encode_uint, encode_sint, encode_bool, encode_addr, encode_ufixed, encode_sfixed, encode_bytesM in E; bok E; destruct x; exact Hx. }
  pose proof (validate_wider_leaf t t' p W W' L H V) as V'. unfold validate_value, encode_with in *.
  destruct t as [m|m| | |m n|m n|k| | |t|n t|ts]; try discriminate L; destruct t' as [m'|m'| | |m' n'|m' n'|k'| | |t'|n' t'|ts']; try (exfalso; exact H); inv W; inv W'; cbn [enc_of ve fst snd dsz] in *.
  - unfold encode_uint in *. rewrite V in E. rewrite V'. exact E.
  - destruct (uint_cases m p) as [(z & -> & R & _)|[(z & -> & R & V2)|(_ & V2)]]; try congruence.
    change 32 with (Z.of_nat 32) in *. rewrite encode_uint_be in E by (auto; unfold int_size in *; lia).
    destruct (sint_cases m' (PInt z)) as [(z' & Ez & R' & _)|[(z' & Ez & R' & V2)|(N & V2)]]; try congruence. inv Ez.
    rewrite encode_sint_be by (auto; unfold int_size in *; lia). exact E.
  - destruct (sint_cases m p) as [(z & -> & R & _)|[(z & -> & R & V2)|(_ & V2)]]; try congruence.
    change 32 with (Z.of_nat 32) in *. rewrite encode_sint_be in E by (auto; unfold int_size in *; lia).
    destruct (sint_cases m' (PInt z)) as [(z' & Ez & R' & _)|[(z' & Ez & R' & V2)|(N & V2)]]; try congruence. inv Ez.
    rewrite encode_sint_be by (auto; unfold int_size in *; lia). exact E.
  - exact E.
  - exact E.
  - destruct H as [H <-]. unfold encode_ufixed in *. rewrite V in E. rewrite V'. exact E.
  - destruct H as [H <-]. pose proof V as V2. rewrite validate_ufixed_verdict in V2 by assumption.
    pose proof (pow2_pos m ltac:(unfold int_size in *; lia)). pose proof (pow2_lt_78 m ltac:(unfold int_size in *; lia)). pose proof (pow10_pos 78 ltac:(lia)).
    destruct (fixed_ok_scaled n 0 (2 ^ m - 1) p ltac:(assumption) ltac:(lia) ltac:(lia) ltac:(lia) V2) as (i & c & Hi & Hr & Hc & Hc1 & Hc2 & _).
    rewrite (ufixed_bytes m n p i) in E by assumption. rewrite (sfixed_bytes m' n p i c) by assumption. rewrite <- E. f_equal. unfold sbytes.
    destruct c; try reflexivity. exfalso.
    (* a negative number is not in the range of an unsigned type *)
    pose proof V2 as V3. unfold fixed_verdict in V3.
    assert (O : out_of_range p n 0 (2 ^ m - 1) = Some false) by (destruct p as [|?|?|?|?|? ?|[]|?|?|?|?|?|sr ?|?]; try discriminate V3; destruct (out_of_range _ n 0 _) as [[]|]; try discriminate V3; reflexivity).
    eapply sign_scaled; [|exact Hc|exact O]. assumption.
  - destruct H as [H <-]. pose proof V as V2. rewrite validate_sfixed_verdict in V2 by assumption.
    pose proof (pow2_pos (m - 1) ltac:(unfold int_size in *; lia)). pose proof (pow2_lt_78 (m - 1) ltac:(unfold int_size in *; lia)).
    destruct (fixed_ok_scaled n (- 2 ^ (m - 1)) (2 ^ (m - 1) - 1) p ltac:(assumption) ltac:(lia) ltac:(lia) ltac:(lia) V2) as (i & c & Hi & Hr & Hc & Hc1 & Hc2 & _).
    rewrite (sfixed_bytes m n p i c) in E by assumption. rewrite (sfixed_bytes m' n p i c) by assumption. exact E.
  - cbn in H. subst k'. exact E.
Qed.
Definition refines (t t' : sty) : Prop :=
  (forall p, validate_value (enc_of false t) p = Ok tt -> validate_value (enc_of false t') p = Ok tt)
  /\ (forall p, extends (encode_with (enc_of false t) p) (encode_with (enc_of false t') p)).
Lemma enc_all_extends ts ts' vs : Forall2 (fun t t' => sdyn t = sdyn t' /\ refines t t') ts ts' -> extends (enc_all false ts vs) (enc_all false ts' vs).
Proof.
  intro F. revert vs. induction F as [|t t' ts ts' [D [_ A]] F IH]; intros [|v vs]; try apply extends_refl. cbn [enc_all].
  apply extends_bind; [apply A|]. intros b _. apply extends_bind; [apply IH|]. intros ps _. rewrite D. apply extends_refl.
Qed.
Lemma tuple_refines ts ts' : Forall wf ts -> Forall wf ts' -> Forall2 widens ts ts' -> Forall2 refines ts ts' -> refines (STuple ts) (STuple ts').
Proof.
  intros W W' F R. assert (V : forall p, validate_value (enc_of false (STuple ts)) p = Ok tt -> validate_value (enc_of false (STuple ts')) p = Ok tt).
  { intros p V. apply validate_tuple_ok in V; [|exact W]. apply validate_tuple_ok; [exact W'|]. destruct V as [S V]. split; [exact S|].
    clear -V R. revert V. generalize (items p). induction R as [|t t' ts ts' [H _] R IH]; intros l V; inv V; constructor; auto. }
  split; [exact V|]. intro p. rewrite !tuple_form. apply extends_bind; [apply extends_tt, V|]. intros _ _.
  apply extends_bind; [|intros; apply extends_refl]. apply enc_all_extends. clear -F R. induction F as [|t t' ts ts' H F IH]; inv R; constructor; auto using widens_dyn.
Qed.
Theorem widens_refines t : forall t', wf t -> wf t' -> widens t t' -> refines t t'.
Proof.
  assert (Leaf : forall t t', word_leaf t = true -> wf t -> wf t' -> widens t t' -> refines t t')
    by (intros t0 t' L W W' H; split; intro p; [apply validate_wider_leaf|apply encode_wider_leaf]; assumption).
  induction t as [m|m| | |m n|m n|k| | |t IH|n t IH|ts IH] using sty_ind'; intros t' W W' H; try (apply Leaf; auto; reflexivity);
    destruct t' as [m'|m'| | |m' n'|m' n'|k'| | |t'|n' t'|ts']; try (exfalso; exact H).
  - split; intro p; [auto|apply extends_refl].
  - split; intro p; [auto|apply extends_refl].
  - inv W. inv W'. take (wf t) as Wt. take (wf t') as Wt'. change (widens t t') in H. pose proof (IH t' Wt Wt' H) as R. destruct R as [Rv Re].
    assert (V : forall p, validate_value (enc_of false (SArr t)) p = Ok tt -> validate_value (enc_of false (SArr t')) p = Ok tt).
    { intro p. rewrite !validate_arr_ok. intros [S F]. split; [exact S|]. eapply Forall_impl; [|exact F]. exact Rv. }
    split; [exact V|]. intro p. rewrite !arr_form. apply extends_bind; [apply extends_refl|]. intros n _. apply extends_bind; [apply extends_refl|]. intros sz _.
    apply extends_bind; [|intros; apply extends_refl]. apply extends_bind; [apply extends_tt, V|]. intros _ _. apply extends_bind; [|intros; apply extends_refl].
    apply enc_all_extends. apply Forall2_rep. split; [apply widens_dyn; exact H|split; assumption].
  - inv W. inv W'. take (wf t) as Wt. take (wf t') as Wt'. destruct H as [<- H]. pose proof (IH t' Wt Wt' H) as R. destruct R as [Rv Re].
    assert (V : forall p, validate_value (enc_of false (SSized n t)) p = Ok tt -> validate_value (enc_of false (SSized n t')) p = Ok tt).
    { intro p. rewrite !validate_sized_ok. intros (S & L & F). split; [exact S|]. split; [exact L|]. eapply Forall_impl; [|exact F]. exact Rv. }
    split; [exact V|]. intro p. rewrite !sized_form. apply extends_bind; [apply extends_tt, V|]. intros _ _. apply extends_bind; [|intros; apply extends_refl].
    apply enc_all_extends. apply Forall2_rep. split; [apply widens_dyn; exact H|split; assumption].
  - inv W. inv W'. take (Forall wf ts) as Ws. take (Forall wf ts') as Ws'. apply widens_tuple in H. apply tuple_refines; auto.
    clear -IH H Ws Ws'. revert IH Ws Ws'. induction H as [|t t' ts ts' H F IHF]; intros IH Ws Ws'; inv IH; inv Ws; inv Ws'; constructor; auto.
Qed.
Theorem encode_wider w w' types types' ts ts' args b : used false w -> used false w' -> type_args types ts -> type_args types' ts' -> Forall2 widens ts ts' ->
  encode_in w types args = Ok b -> encode_in w' types' args = Ok b.
Proof.
  intros U U' T T' F E. destruct (encode_ok_inv false w types args b U E) as (ts0 & l & T0 & S & E').
  assert (ts0 = ts) by (eapply type_args_fun; eassumption). subst ts0. rewrite (encode_args false w' types' ts' args l U' T' S).
  assert (W := type_args_wf _ _ T). assert (W' := type_args_wf _ _ T'). revert E'. apply tuple_refines; auto.
  clear -F W W'. induction F as [|t t' ts ts' H F IH]; inv W; inv W'; constructor; auto using widens_refines.
Qed.

(** ** Text and its UTF-8 *)
Definition same_as_raw (pk : bool) (t : sty) (p p' : pyval) : Prop :=
  validate_value (enc_of pk t) p = validate_value (enc_of pk (raw_type t)) p'
  /\ encode_with (enc_of pk t) p = encode_with (enc_of pk (raw_type t)) p'.
Lemma raw_dyn t : sdyn (raw_type t) = sdyn t.
Proof.
  induction t as [m|m| | |m n|m n|k| | |t IH|n t IH|ts IH] using sty_ind'; try reflexivity; cbn [raw_type sdyn]; auto.
  induction IH as [|t ts H F IH]; [reflexivity|]. cbn [map existsb]. rewrite H, IH. reflexivity.
Qed.
Lemma raw_wf t : wf t -> wf (raw_type t).
Proof.
  induction t as [m|m| | |m n|m n|k| | |t IH|n t IH|ts IH] using sty_ind'; intro W; inv W; cbn [raw_type]; try (constructor; auto; fail).
  take (Forall wf ts) as F. take (ts <> []) as N. constructor; [destruct ts; [congruence|discriminate]|]. clear N. induction IH; inv F; constructor; auto.
Qed.
Lemma raw_wfs ts : Forall wf ts -> Forall wf (map raw_type ts).
Proof. intro W. induction W; constructor; auto using raw_wf. Qed.
Lemma validate_all_same (f g : pyval -> result unit) l l' : Forall2 (fun x y => f x = g y) l l' -> validate_all f l = validate_all g l'.
Proof. intro F. induction F as [|x y l l' H F IH]; [reflexivity|]. cbn [validate_all]. rewrite H, IH. reflexivity. Qed.
Lemma Forall2_weaken {A B} (P Q : A -> B -> Prop) l l' : (forall x y, P x y -> Q x y) -> Forall2 P l l' -> Forall2 Q l l'.
Proof. intros H F. induction F; constructor; auto. Qed.
Lemma enc_all_raw pk ts l l' : Forall3 (same_as_raw pk) ts l l' -> enc_all pk ts l = enc_all pk (map raw_type ts) l'.
Proof.
  intro F. induction F as [|t x y ts l l' [_ H] F IH]; [reflexivity|]. cbn [map enc_all]. rewrite H, IH, raw_dyn. reflexivity.
Qed.
Lemma seq_kind (k : list pyval -> pyval) : is_seq k -> forall l, items (k l) = l /\ is_list_like (k l) = true /\ py_len (k l) = Ok (len l).
Proof. intros [->|[->|(r & ->)]] l; auto. Qed.
Lemma Forall3_repeat {A B C} (R : A -> B -> C -> Prop) x l l' : Forall2 (R x) l l' -> Forall3 R (repeat x (length l)) l l'.
Proof. intro F. induction F; constructor; assumption. Qed.
Lemma tuple_raw pk ts k l l' : Forall wf ts -> is_seq k -> Forall3 (same_as_raw pk) ts l l' -> same_as_raw pk (STuple ts) (k l) (k l').
Proof.
  intros W K F. pose proof (seq_kind k K l) as (I1 & L1 & _). pose proof (seq_kind k K l') as (I2 & L2 & _).
  assert (V : validate_value (enc_of pk (STuple ts)) (k l) = validate_value (enc_of pk (STuple (map raw_type ts))) (k l')).
  { cbn [enc_of]. rewrite !validate_tuple by auto using raw_wfs. unfold tuple_val. rewrite I1, I2, L1, L2, !len_map. cbn [negb].
    destruct (Forall3_len _ _ _ _ F) as [Hl Hl']. rewrite <- Hl', <- Hl, Z.eqb_refl. cbn [negb]. clear -F.
    induction F as [|t x y ts l l' [H _] F IH]; [reflexivity|]. cbn [map seq_validate]. rewrite H, IH. reflexivity. }
  split; [exact V|]. cbn [raw_type]. rewrite !tuple_form, V, I1, I2, (enc_all_raw pk ts l l' F). reflexivity.
Qed.
Theorem raw_same pk t : wf t -> forall p p', raw_of t p p' -> same_as_raw pk t p p'.
Proof.
  induction t as [m|m| | |m n|m n|k| | |t IH|n t IH|ts IH] using sty_ind'; intros W p p' H; inv H; try contradiction; try (split; reflexivity).
  - split; [reflexivity|]. unfold encode_with. cbn [enc_of raw_type ve snd]. unfold encode_text, encode_bytestring. cbn [validate_text is_text validate_bytestring is_bytes bind bytes_of].
    destruct (utf8_encode_cases s) as [[-> _]|[_ N]]; [reflexivity|contradiction].
  - inv W. take (wf t) as Wt. take (Forall2 _ l l') as F. take (k = _ \/ _) as K. pose proof (seq_kind k K l) as (I1 & L1 & P1). pose proof (seq_kind k K l') as (I2 & L2 & P2).
    assert (F' : Forall2 (same_as_raw pk t) l l') by (clear -F IH Wt; induction F; constructor; auto).
    assert (A : array_validate (fst (ve (enc_of pk t))) (k l) = array_validate (fst (ve (enc_of pk (raw_type t)))) (k l')).
    { unfold array_validate. rewrite I1, I2, L1, L2. cbn [negb]. apply validate_all_same. eapply Forall2_weaken; [|exact F']. intros x y [H _]. exact H. }
    assert (V : validate_value (enc_of pk (SArr t)) (k l) = validate_value (enc_of pk (SArr (raw_type t))) (k l')).
    { unfold validate_value. cbn [enc_of]. destruct pk; cbn [ve fst]; [unfold sized_validate|]; rewrite A; reflexivity. }
    split; [exact V|]. cbn [raw_type].
    assert (E : enc_all pk (repeat t (length l)) l = enc_all pk (repeat (raw_type t) (length l')) l').
    { rewrite (enc_all_raw pk _ l l' (Forall3_repeat _ _ _ _ F')). f_equal. apply Forall2_len in F. rewrite !len_length in F. apply Nat2Z.inj in F. rewrite F. clear. induction (length l'); cbn; congruence. }
    destruct pk; [rewrite !arr_form_packed, V, I1, I2, E; reflexivity|]. rewrite !arr_form, V, I1, I2, E, P1, P2. apply Forall2_len in F. rewrite F. reflexivity.
  - inv W. take (wf t) as Wt. take (Forall2 _ l l') as F. take (k = _ \/ _) as K. pose proof (seq_kind k K l) as (I1 & L1 & P1). pose proof (seq_kind k K l') as (I2 & L2 & P2).
    assert (F' : Forall2 (same_as_raw pk t) l l') by (clear -F IH Wt; induction F; constructor; auto).
    assert (V : validate_value (enc_of pk (SSized n t)) (k l) = validate_value (enc_of pk (SSized n (raw_type t))) (k l')).
    { assert (X : sized_validate (Some n) (fst (ve (enc_of pk t))) (k l) = sized_validate (Some n) (fst (ve (enc_of pk (raw_type t)))) (k l')).
      { unfold sized_validate, array_validate. rewrite I1, I2, L1, L2. cbn [negb]. apply Forall2_len in F as F2. rewrite F2.
        rewrite (validate_all_same (fst (ve (enc_of pk t))) (fst (ve (enc_of pk (raw_type t)))) l l'); [reflexivity|]. eapply Forall2_weaken; [|exact F']. intros x y [H _]. exact H. }
      unfold validate_value. cbn [enc_of]. destruct pk; cbn [ve fst]; exact X. }
    split; [exact V|]. cbn [raw_type].
    assert (E : enc_all pk (repeat t (length l)) l = enc_all pk (repeat (raw_type t) (length l')) l').
    { rewrite (enc_all_raw pk _ l l' (Forall3_repeat _ _ _ _ F')). f_equal. apply Forall2_len in F. rewrite !len_length in F. apply Nat2Z.inj in F. rewrite F. clear. induction (length l'); cbn; congruence. }
    rewrite !sized_form, V, I1, I2, E. reflexivity.
  - inv W. take (Forall wf ts) as Ws. apply tuple_raw; auto. take (Forall3 _ ts l l') as F. clear -F IH Ws. induction F; inv IH; inv Ws; constructor; auto.
Qed.
Theorem encode_raw pk w w' types types' ts args args' : used pk w -> used pk w' -> type_args types ts -> type_args types' (map raw_type ts) ->
  raw_of (STuple ts) args args' -> encode_in w types args = encode_in w' types' args'.
Proof.
  intros U U' T T' R. inv R; [contradiction|]. take (k = _ \/ _) as K. take (Forall3 _ ts l l') as F. assert (W := type_args_wf _ _ T).
  assert (S : forall l, seq_like (k l) l) by (intro; destruct K as [-> | [-> | (r & ->)]]; [left|right; left|right; right; exists r]; reflexivity).
  rewrite (encode_args pk w types ts _ l U T (S l)), (encode_args pk w' types' _ _ l' U' T' (S l')).
  assert (F' : Forall3 (same_as_raw pk) ts l l') by (clear -F W; induction F; inv W; constructor; auto using raw_same).
  apply (tuple_raw pk ts k l l' W K F').
Qed.

(** ** Packed mode of full words *)
Lemma full_static t : full t = true -> sdyn t = false.
Proof.
  induction t as [m|m| | |m n|m n|k| | |t IH|n t IH|ts IH] using sty_ind'; intro F; try reflexivity; try discriminate F; cbn [sdyn]; [apply IH, F|].
  cbn [full] in F. induction IH as [|t ts H IH IHts]; [reflexivity|]. cbn [forallb existsb] in *. apply andb_true_iff in F. destruct F as [F1 F2]. rewrite (H F1). apply IHts, F2.
Qed.
Definition mode_free (t : sty) : Prop := forall p, encode_with (enc_of true t) p = encode_with (enc_of false t) p.
Lemma enc_all_mode ts l : Forall mode_free ts -> existsb sdyn ts = false -> enc_all true ts l = enc_all false ts l.
Proof.
  intro F. revert l. induction F as [|t ts H F IH]; intros [|v l] D; try reflexivity. cbn [existsb] in D. apply orb_false_iff in D. destruct D as [D1 D2].
  cbn [enc_all]. rewrite H, (IH l D2), D1. reflexivity.
Qed.
Lemma tuple_mode ts : Forall wf ts -> Forall mode_free ts -> existsb sdyn ts = false -> mode_free (STuple ts).
Proof.
  intros W F D p. rewrite !tuple_form, (enc_all_mode ts _ F D). destruct ts as [|t ts]; [reflexivity|].
  rewrite (validate_mode (STuple (t :: ts)) p) by (constructor; [discriminate|exact W]). reflexivity.
Qed.
Theorem full_mode t : wf t -> full t = true -> mode_free t.
Proof.
  induction t as [m|m| | |m n|m n|k| | |t IH|n t IH|ts IH] using sty_ind'; intros W F p; try discriminate F;
    try (cbn [full] in F; apply Z.eqb_eq in F; subst; reflexivity).
  - pose proof (validate_mode (SSized n t) p W) as V. inv W. rewrite !sized_form, V. f_equal. rewrite enc_all_mode; [reflexivity| |].
    + apply Forall_repeat. apply IH; assumption.
    + cbn [full] in F. apply existsb_repeat_false. apply full_static. exact F.
  - pose proof (full_static _ F) as D. inv W. take (Forall wf ts) as Ws. apply tuple_mode; [exact Ws| |exact D]. cbn [full] in F. clear -IH F Ws.
    induction IH as [|t ts H IH IHts]; constructor; inv Ws; cbn [forallb] in F; apply andb_true_iff in F; destruct F; auto.
Qed.
Theorem encode_full w w' types ts args l : used true w -> used false w' -> type_args types ts -> forallb full ts = true -> seq_like args l ->
  encode_in w types args = encode_in w' types args.
Proof.
  intros U U' T F S. assert (W := type_args_wf _ _ T).
  assert (D : existsb sdyn ts = false) by (apply (full_static (STuple ts)); exact F).
  assert (M : Forall mode_free ts) by (clear -F W; induction W as [|t ts Wt W IH]; constructor; cbn [forallb] in F; apply andb_true_iff in F; destruct F; auto using full_mode).
  rewrite (encode_args true w types ts args l U T S), (encode_args false w' types ts args l U' T S). apply tuple_mode; assumption.
Qed.
