(** Encoders of valid ABI types, standard and packed: what they accept and the
    bytes they produce. *)
From Coq Require Import Strings.Byte Strings.String.
From Verif Require Import Tac Bytes BytesProofs Utf8 Address Decimals DecimalsProofs Encoding Spec EncLeafProofs
  Utf8Proofs AddressProofs.
Open Scope Z_scope.

(** The encoder tree the registry builds for an ABI type; [pk] for the packed
    registry. *)
Definition dsz (pk : bool) (m : Z) : Z := if pk then m / 8 else 32.
Fixpoint enc_of (pk : bool) (t : sty) : encoder :=
  match t with
  | SUInt m => EUInt m (dsz pk m)
  | SInt m => EInt m (dsz pk m)
  | SBool => EBool (if pk then 1 else 32)
  | SAddr => EAddr (if pk then 20 else 32)
  | SUFixed m n => EUFixed m n (dsz pk m)
  | SFixed m n => EFixed m n (dsz pk m)
  | SBytesM k => EBytesM (k * 8) (if pk then k else 32)
  | SBytes => EByteString pk
  | SString => EText pk
  | SArr t => if pk then EPackedArr None (enc_of pk t) else EDyn (enc_of pk t)
  | SSized n t => if pk then EPackedArr (Some n) (enc_of pk t) else ESized n (enc_of pk t)
  | STuple ts => ETuple (map (enc_of pk) ts)
  end.

Lemma enc_dyn_attr_of pk t : enc_dyn_attr (enc_of pk t) = Some (negb pk && sdyn t).
Proof.
  induction t as [m|m| | |m n|m n|k| | |t IH|n t IH|ts IH] using sty_ind'; cbn [enc_of enc_dyn_attr sdyn];
    rewrite ?andb_false_r; try reflexivity.
  - destruct pk; reflexivity.
  - destruct pk; reflexivity.
  - destruct pk; cbn [enc_dyn_attr negb andb]; [reflexivity|]. reflexivity.
  - destruct pk; cbn [enc_dyn_attr negb andb] in *; [reflexivity|exact IH].
  - f_equal. induction IH as [|t ts Ht _ IHts]; [rewrite andb_false_r; reflexivity|].
    cbn [map existsb]. rewrite Ht, IHts. destruct pk; reflexivity.
Qed.
Lemma enc_is_dyn_of pk t : enc_is_dyn (enc_of pk t) = negb pk && sdyn t.
Proof. unfold enc_is_dyn. rewrite enc_dyn_attr_of. reflexivity. Qed.

(** ** Heads and tails *)
Definition chunk (p : bool * bytes) : option bytes * bytes :=
  if fst p then (None, snd p) else (Some (snd p), []).

Lemma heads_size_app ps1 ps2 : heads_size (ps1 ++ ps2) = heads_size ps1 + heads_size ps2.
Proof. induction ps1 as [|p ps1 IH]; cbn [app heads_size]; lia. Qed.
Lemma len_heads off ps : len (heads off ps) = heads_size ps.
Proof.
  revert off; induction ps as [|[[] b] ps IH]; intro off; cbn [heads heads_size head_size fst snd]; [reflexivity|..];
    lens; rewrite ?word_len, IH; reflexivity.
Qed.
Lemma len_head_tail ps : len (head_tail ps) = heads_size ps + len (tails ps).
Proof. unfold head_tail. lens. rewrite len_heads. reflexivity. Qed.
Lemma heads_size_nonneg ps : 0 <= heads_size ps.
Proof. rewrite <- (len_heads 0). apply len_nonneg. Qed.
Lemma chunks_tails ps : concat (map snd (map chunk ps)) = tails ps.
Proof. induction ps as [|[[] b] ps IH]; cbn [map concat tails chunk fst snd app]; rewrite ?IH; reflexivity. Qed.
Lemma chunks_head_length ps :
  fold_right (fun c acc => match fst c with None => 32 | Some b => len b end + acc) 0 (map chunk ps) = heads_size ps.
Proof.
  induction ps as [|[[] b] ps IH]; cbn [map fold_right heads_size chunk head_size fst snd]; [reflexivity|..];
    rewrite IH; reflexivity.
Qed.
Lemma chunks_heads H acc ps : 0 <= acc -> 0 <= H -> H + acc + len (tails ps) < 2 ^ 256 ->
  exists hs, mapM (fun co : option bytes * Z =>
                   match fst co with
                   | None => encode_uint_256 (H + snd co)
                   | Some b => Ok b
                   end)
                (combine (map fst (map chunk ps)) (tail_offsets acc (map snd (map chunk ps)))) = Ok hs
     /\ concat hs = heads (H + acc) ps.
Proof.
  revert acc. induction ps as [|[d b] ps IH]; intros acc Ha HH Hb; [exists []; auto|].
  pose proof (len_nonneg (tails ps)).
  destruct d; cbn [map chunk fst snd tail_offsets combine mapM heads tails] in *.
  - lens. pose proof (len_nonneg b). rewrite encode_uint_256_word by lia. cbn [bind].
    destruct (IH (acc + len b)) as (hs & -> & Hhs); [lia..|]. cbn [bind].
    eexists; split; [reflexivity|]. cbn [concat]. rewrite Hhs. do 2 f_equal. lia.
  - cbn [bind]. lens. destruct (IH (acc + 0)) as (hs & -> & Hhs); [lia..|]. cbn [bind].
    eexists; split; [reflexivity|]. cbn [concat]. rewrite Hhs. do 2 f_equal. lia.
Qed.
Lemma join_chunks_head_tail ps : len (head_tail ps) < 2 ^ 256 ->
  join_chunks (map chunk ps) = Ok (head_tail ps).
Proof.
  intro H. rewrite len_head_tail in H. unfold join_chunks. rewrite chunks_head_length, chunks_tails.
  pose proof (heads_size_nonneg ps).
  destruct (chunks_heads (heads_size ps) 0 ps) as (hs & -> & Hhs); [lia..|]. cbn [bind].
  rewrite Hhs, Z.add_0_r. reflexivity.
Qed.

Lemma elements_heads n acc bs : 0 <= acc -> 0 <= n -> 32 * n + acc + len (concat bs) < 2 ^ 256 ->
  exists hs, mapM (fun off => encode_uint_256 (32 * n + off)) (tail_offsets acc bs) = Ok hs
    /\ concat hs = heads (32 * n + acc) (map (pair true) bs).
Proof.
  revert acc. induction bs as [|b bs IH]; intros acc Ha HH Hb; [exists []; auto|].
  cbn [concat tail_offsets mapM map heads] in *. lens. pose proof (len_nonneg b). pose proof (len_nonneg (concat bs)).
  rewrite encode_uint_256_word by lia. cbn [bind].
  destruct (IH (acc + len b)) as (hs & -> & Hhs); [lia..|]. cbn [bind].
  eexists; split; [reflexivity|]. cbn [concat]. rewrite Hhs. do 2 f_equal. lia.
Qed.
Lemma heads_static off (bs : list bytes) : heads off (map (pair false) bs) = concat bs.
Proof. induction bs as [|b bs IH]; [reflexivity|]. cbn [map heads concat]. rewrite IH. reflexivity. Qed.
Lemma tails_static (bs : list bytes) : tails (map (pair false) bs) = [].
Proof. induction bs as [|b bs IH]; [reflexivity|]. exact IH. Qed.
Lemma tails_dynamic (bs : list bytes) : tails (map (pair true) bs) = concat bs.
Proof. induction bs as [|b bs IH]; [reflexivity|]. cbn [map tails concat]. rewrite IH. reflexivity. Qed.
Lemma heads_size_dynamic (bs : list bytes) : heads_size (map (pair true) bs) = 32 * len bs.
Proof. induction bs as [|b bs IH]; [reflexivity|]. cbn [map heads_size head_size fst]. lens. lia. Qed.
Lemma head_tail_static (bs : list bytes) : head_tail (map (pair false) bs) = concat bs.
Proof. unfold head_tail. rewrite heads_static, tails_static, app_nil_r. reflexivity. Qed.
Lemma encode_elements_head_tail val dyn enc v bs :
  val v = Ok tt -> mapM enc (items v) = Ok bs -> len (head_tail (map (pair dyn) bs)) < 2 ^ 256 ->
  encode_elements val dyn enc v = Ok (head_tail (map (pair dyn) bs)).
Proof.
  intros Hv Hm Hl. unfold encode_elements. rewrite Hv. cbn [bind]. rewrite Hm. cbn [bind].
  assert (Hlen : len (items v) = len bs).
  { clear -Hm. revert bs Hm. induction (items v) as [|x l IH]; intros bs Hm; cbn [mapM] in Hm.
    - inv Hm. reflexivity.
    - bok Hm. bok Hm. inv Hm. lens. rewrite (IH x1); [reflexivity|assumption]. }
  destruct dyn; cbn [negb orb].
  - rewrite Hlen. destruct (Z.eqb_spec (len bs) 0) as [E|E].
    + apply len_0 in E. subst bs. reflexivity.
    + rewrite len_head_tail, heads_size_dynamic, tails_dynamic in Hl.
      pose proof (len_nonneg bs).
      destruct (elements_heads (len bs) 0 bs) as (hs & -> & Hhs); [lia..|]. cbn [bind].
      unfold head_tail. rewrite Hhs, heads_size_dynamic, tails_dynamic, Z.add_0_r. reflexivity.
  - rewrite head_tail_static. reflexivity.
Qed.

(** ** Unfolding the specification *)
Definition parts (f : sty -> aval -> bool * bytes) (ts : list sty) (vs : list aval) : list (bool * bytes) :=
  map (fun tv => f (fst tv) (snd tv)) (combine ts vs).
Definition part (t : sty) (a : aval) : bool * bytes := (sdyn t, spec_enc t a).
Lemma spec_enc_tuple ts vs : spec_enc (STuple ts) (VSeq vs) = head_tail (parts part ts vs).
Proof.
  cbn [spec_enc]. f_equal. unfold parts. revert vs. induction ts as [|t ts IH]; intros [|v vs]; try reflexivity.
  cbn [combine map fst snd]. rewrite IH. reflexivity.
Qed.
(** The output of the encoder in both modes, uniformly. *)
Definition out (pk : bool) (t : sty) (a : aval) : bytes := if pk then spec_packed t a else spec_enc t a.
Definition opart (pk : bool) (t : sty) (a : aval) : bool * bytes := (negb pk && sdyn t, out pk t a).
Lemma out_tuple pk ts vs : out pk (STuple ts) (VSeq vs) = head_tail (parts (opart pk) ts vs).
Proof.
  destruct pk; [|apply spec_enc_tuple]. cbn [out spec_packed].
  unfold head_tail, parts. generalize (heads_size (map (fun tv => opart true (fst tv) (snd tv)) (combine ts vs))).
  intro off. revert vs. induction ts as [|t ts IH]; intros [|v vs]; try reflexivity.
  cbn [combine map heads tails fst snd opart negb andb]. rewrite <- app_assoc. f_equal. apply IH.
Qed.
Lemma out_sized pk n t vs :
  out pk (SSized n t) (VSeq vs) = head_tail (map (pair (negb pk && sdyn t)) (map (out pk t) vs)).
Proof.
  rewrite map_map. destruct pk; cbn [out spec_packed spec_enc negb andb]; [|reflexivity].
  rewrite <- (map_map (out true t) (pair false)), head_tail_static, flat_map_concat_map. reflexivity.
Qed.
Lemma out_arr pk t vs :
  out pk (SArr t) (VSeq vs) =
  (if pk then [] else word (len vs)) ++ head_tail (map (pair (negb pk && sdyn t)) (map (out pk t) vs)).
Proof.
  destruct pk; [exact (out_sized true 0 t vs)|]. rewrite map_map. reflexivity.
Qed.

(** ** Types and values *)
Lemma Forall2_len {A B} (R : A -> B -> Prop) l l' : Forall2 R l l' -> len l = len l'.
Proof. induction 1; lens; lia. Qed.
Lemma denotes_has_type t p a : wf t -> denotes t p a -> has_type t a.
Proof.
  intro W. revert p a. induction t as [m|m| | |m n|m n|k| | |t IH|n t IH|ts IH] using sty_ind'; intros p a D; inv D; inv W;
    try (constructor; assumption).
  - match goal with H : address_text _ _ |- _ => destruct H as (pre & d & _ & _ & Hl & _) end. constructor; assumption.
  - constructor. lens. pose proof (len_nonneg b). lia.
  - match goal with H : seq_like _ _ |- _ => clear H end.
    constructor. match goal with H : Forall2 _ _ _ |- _ => induction H end; constructor; eauto.
  - match goal with H : Forall2 _ _ _ |- _ => pose proof (Forall2_len _ _ _ H) as HL; rename H into HF end.
    constructor; [lia|]. match goal with H : wf t |- _ => clear -IH HF H end. induction HF; constructor; eauto.
  - match goal with H : Forall3 _ _ _ _ |- _ => rename H into HF end.
    match goal with H : Forall wf _ |- _ => rename H into HW end.
    constructor. clear -IH HF HW. revert IH HW. induction HF as [|t p a ts ps vs HD _ IHF]; intros IH HW; [constructor|].
    inv IH. inv HW. constructor; eauto.
Qed.

Lemma pad_right_len b : 0 <= len (pad_right b) - len b < 32 /\ len (pad_right b) mod 32 = 0.
Proof. unfold pad_right. lens. pose proof (len_nonneg b). lia. Qed.
Lemma pad_right_ceil32 b : zpad_right b (ceil32 (len b)) = pad_right b.
Proof.
  unfold zpad_right, ljust, pad_right, ceil32. do 2 f_equal. pose proof (len_nonneg b).
  destruct (Z.eqb_spec (len b mod 32) 0); lia.
Qed.
Lemma length_prefixed b : len b < 2 ^ 256 -> encode_length_prefixed b = Ok (word (len b) ++ pad_right b).
Proof.
  intro H. unfold encode_length_prefixed. pose proof (len_nonneg b). rewrite encode_uint_256_word by lia.
  cbn [bind]. rewrite pad_right_ceil32. reflexivity.
Qed.

(** ** What the encoders accept, independent of the mode *)

(** The exceptions a validation can raise. *)
Definition vexc (e : exc) : Prop :=
  e = EncodingTypeError \/ e = ValueOutOfBounds \/ e = IllegalValue \/ e = TypeError.

(** Validation of a tuple's members when none of them raises AttributeError. *)
Fixpoint seq_validate (vals : list (pyval -> result unit)) (vs : list pyval) : result unit :=
  match vals, vs with
  | val :: vals', v :: vs' => val v ;;; seq_validate vals' vs'
  | _, _ => Ok tt
  end.
Lemma tuple_validate_items_seq ves vs :
  Forall (fun f => forall v, fst f v <> Err AttributeError) ves ->
  tuple_validate_items ves vs = seq_validate (map fst ves) vs.
Proof.
  intro H. revert vs. induction H as [|[val enc] ves Hv _ IH]; intros [|v vs]; try reflexivity.
  cbn [tuple_validate_items map seq_validate fst] in *. rewrite IH.
  specialize (Hv v). destruct (val v) as [[]|[]]; congruence || reflexivity.
Qed.

Definition vclass (r : result unit) : Prop := r = Ok tt \/ exists e, r = Err e /\ vexc e.
Lemma vclass_err e : vexc e -> vclass (Err e).
Proof. right; eauto. Qed.
Ltac vx := apply vclass_err; unfold vexc; tauto.
Lemma vclass_ok : vclass (Ok tt).
Proof. left; reflexivity. Qed.
Lemma vclass_raise_if c e : vexc e -> vclass (raise_if c e).
Proof. intro H. destruct c; [apply vclass_err; exact H|apply vclass_ok]. Qed.
Lemma vclass_bind r k : vclass r -> vclass k -> vclass (r ;;; k).
Proof. intros [->|(e & -> & He)] Hk; [exact Hk|right; exists e; auto]. Qed.
Lemma vclass_not_attr r : vclass r -> r <> Err AttributeError.
Proof. intros [->|(e & -> & [->|[->|[->| ->]]])]; discriminate. Qed.

Lemma fixed_verdict_class n lo hi v : vclass (fixed_verdict n lo hi v).
Proof.
  unfold fixed_verdict.
  destruct v as [|b|i|f|cx|a d|d|b|b|s|l|l|sr l|o]; try vx.
  - destruct (out_of_range _ n lo hi) as [[]|]; try vx. destruct (excess_rejected _ _); [vx|apply vclass_ok].
  - destruct (out_of_range _ n lo hi) as [[]|]; try vx. destruct (excess_rejected _ _); [vx|apply vclass_ok].
  - destruct (out_of_range _ n lo hi) as [[]|]; vx.
  - destruct d; try vx. destruct (out_of_range _ n lo hi) as [[]|]; try vx.
    destruct (excess_rejected _ _); [vx|apply vclass_ok].
Qed.

Lemma validate_all_class val vs : (forall v, vclass (val v)) -> vclass (validate_all val vs).
Proof.
  intro H. induction vs as [|v vs IH]; [apply vclass_ok|]. cbn [validate_all]. apply vclass_bind; auto.
Qed.
Lemma array_validate_class val v : (forall v, vclass (val v)) -> vclass (array_validate val v).
Proof. intro H. unfold array_validate. destruct (is_list_like v); cbn [negb]; [apply validate_all_class, H|vx]. Qed.
Lemma sized_validate_class n val v : (forall v, vclass (val v)) -> vclass (sized_validate n val v).
Proof.
  intro H. unfold sized_validate. apply vclass_bind; [apply array_validate_class, H|].
  destruct n; [apply vclass_raise_if; unfold vexc; tauto|apply vclass_ok].
Qed.
Lemma seq_validate_class vals vs : Forall (fun val => forall v, vclass (val v)) vals -> vclass (seq_validate vals vs).
Proof.
  intro H. revert vs. induction H as [|val vals Hv _ IH]; intros [|v vs]; try apply vclass_ok.
  cbn [seq_validate]. apply vclass_bind; auto.
Qed.

Definition tuple_val (vals : list (pyval -> result unit)) (v : pyval) : result unit :=
  if negb (is_list_like v) then Err EncodingTypeError
  else if negb (len (items v) =? len vals) then Err ValueOutOfBounds
  else seq_validate vals (items v).
Lemma tuple_val_class vals v : Forall (fun val => forall v, vclass (val v)) vals -> vclass (tuple_val vals v).
Proof.
  intro H. unfold tuple_val. destruct (is_list_like v); cbn [negb]; [|vx].
  destruct (negb _); [vx|]. apply seq_validate_class, H.
Qed.
Lemma tuple_validate_eq ves v : Forall (fun f => forall v, fst f v <> Err AttributeError) ves ->
  tuple_validate ves v = tuple_val (map fst ves) v.
Proof.
  intro H. unfold tuple_validate, tuple_val. rewrite len_map, tuple_validate_items_seq by exact H. reflexivity.
Qed.

Lemma validate_class pk t p : wf t -> vclass (validate_value (enc_of pk t) p).
Proof.
  intro W. revert p. unfold validate_value.
  induction t as [m|m| | |m n|m n|k| | |t IH|n t IH|ts IH] using sty_ind'; intro p; inv W; cbn [enc_of ve fst].
  - unfold validate_uint, validate_int, compute_unsigned_integer_bounds. destruct p; try vx.
    apply vclass_raise_if; unfold vexc; tauto.
  - unfold validate_sint, validate_int, compute_signed_integer_bounds. destruct p; try vx.
    apply vclass_raise_if; unfold vexc; tauto.
  - unfold validate_bool. destruct (is_boolean p); [apply vclass_ok|vx].
  - unfold validate_addr. destruct (is_address p); [apply vclass_ok|vx].
  - rewrite validate_ufixed_verdict by assumption. apply fixed_verdict_class.
  - rewrite validate_sfixed_verdict by assumption. apply fixed_verdict_class.
  - unfold validate_bytesM. destruct (is_bytes p); [|vx]. apply vclass_raise_if; unfold vexc; tauto.
  - unfold validate_bytestring. destruct (is_bytes p); [apply vclass_ok|vx].
  - unfold validate_text. destruct (is_text p); [apply vclass_ok|vx].
  - destruct pk; cbn [ve fst]; [apply sized_validate_class|apply array_validate_class]; auto.
  - destruct pk; cbn [ve fst]; apply sized_validate_class; auto.
  - rewrite map_map.
    assert (F : Forall (fun t => forall p, vclass (fst (ve (enc_of pk t)) p)) ts).
    { clear -IH H1. induction IH; constructor; inv H1; auto. }
    rewrite tuple_validate_eq.
    + apply tuple_val_class. rewrite map_map. clear -F. induction F; constructor; auto.
    + clear -F. induction F; constructor; auto. intro v. apply vclass_not_attr. auto.
Qed.

(** [validate_value] of a tuple encoder, simplified. *)
Lemma validate_tuple pk ts p : Forall wf ts ->
  validate_value (ETuple (map (enc_of pk) ts)) p = tuple_val (map (fun t => validate_value (enc_of pk t)) ts) p.
Proof.
  intro W. unfold validate_value at 1. cbn [ve fst]. rewrite map_map, tuple_validate_eq.
  - rewrite map_map. reflexivity.
  - induction W; constructor; auto. intro v. apply vclass_not_attr. apply validate_class. assumption.
Qed.

Lemma seq_validate_ext (f g : sty -> pyval -> result unit) ts vs :
  Forall (fun t => forall p, f t p = g t p) ts -> seq_validate (map f ts) vs = seq_validate (map g ts) vs.
Proof.
  intro H. revert vs. induction H as [|t ts Ht _ IH]; intros [|v vs]; try reflexivity.
  cbn [map seq_validate]. rewrite Ht, IH. reflexivity.
Qed.
Lemma validate_all_ext f g vs : (forall p, f p = g p) -> validate_all f vs = validate_all g vs.
Proof. intro E. induction vs as [|x l IH]; [reflexivity|]. cbn [validate_all]. rewrite E, IH. reflexivity. Qed.
Lemma sized_validate_ext n f g p : (forall p, f p = g p) -> sized_validate n f p = sized_validate n g p.
Proof. intro E. unfold sized_validate, array_validate. rewrite (validate_all_ext f g _ E). reflexivity. Qed.

Lemma validate_mode t p : wf t -> validate_value (enc_of true t) p = validate_value (enc_of false t) p.
Proof.
  intro W. revert p.
  induction t as [m|m| | |m n|m n|k| | |t IH|n t IH|ts IH] using sty_ind'; intro p; inv W; try reflexivity.
  - unfold validate_value in *. cbn [enc_of ve fst]. rewrite (sized_validate_ext None _ _ p (IH H0)).
    unfold sized_validate. destruct (array_validate _ p) as [[]|]; reflexivity.
  - unfold validate_value in *. cbn [enc_of ve fst]. apply sized_validate_ext. auto.
  - cbn [enc_of]. rewrite !validate_tuple by assumption. unfold tuple_val.
    rewrite !len_map. destruct (is_list_like p); cbn [negb]; [|reflexivity].
    destruct (negb _); [reflexivity|]. apply seq_validate_ext.
    clear -IH H1. induction IH; constructor; inv H1; auto.
Qed.

(** ** Values that denote ABI values are accepted and encoded per the ABI *)
Definition encodes (pk : bool) (t : sty) (p : pyval) (a : aval) : Prop :=
  validate_value (enc_of pk t) p = Ok tt
  /\ (len (out pk t a) < 2 ^ 256 -> encode_with (enc_of pk t) p = Ok (out pk t a)).

Lemma dsz_nat pk m : int_size m -> exists n, dsz pk m = Z.of_nat n /\ (1 <= n)%nat /\ m <= 8 * Z.of_nat n
  /\ n = (if pk then Z.to_nat (m / 8) else 32%nat).
Proof.
  intros [H1 H2]. unfold dsz. destruct pk; [exists (Z.to_nat (m / 8))|exists 32%nat]; lia.
Qed.
Lemma out_word (pk : bool) m z : int_size m ->
  (if pk then be_bytes (Z.to_nat (m / 8)) z else word z) = to_be (if pk then Z.to_nat (m / 8) else 32%nat) z.
Proof. intro. destruct pk; [apply be_bytes_eq|apply word_eq]. Qed.

Lemma mapM_Forall2 {A B} (f : A -> result B) l l' : Forall2 (fun x y => f x = Ok y) l l' -> mapM f l = Ok l'.
Proof. induction 1 as [|x y l l' E _ IH]; [reflexivity|]. cbn [mapM]. rewrite E, IH. reflexivity. Qed.
Lemma Forall2_map_r {A B C} (R : A -> C -> Prop) (f : B -> C) l l' :
  Forall2 (fun x y => R x (f y)) l l' -> Forall2 R l (map f l').
Proof. induction 1; constructor; auto. Qed.
Lemma validate_all_Forall val vs : validate_all val vs = Ok tt <-> Forall (fun v => val v = Ok tt) vs.
Proof.
  induction vs as [|v vs IH]; cbn [validate_all]; [split; constructor|].
  split.
  - intro H. bok H. destruct x. constructor; [assumption|]. apply IH, H.
  - intro F. inv F. rewrite H1. cbn [bind]. apply IH. assumption.
Qed.
Lemma len_concat_le (b : bytes) bs : In b bs -> len b <= len (concat bs).
Proof.
  induction bs as [|x bs IH]; intros []; cbn [concat]; lens; pose proof (len_nonneg x); pose proof (len_nonneg (concat bs)).
  - subst. lia.
  - specialize (IH H). lia.
Qed.
Lemma part_len_le (p : bool * bytes) ps : In p ps -> len (snd p) <= len (head_tail ps).
Proof.
  rewrite len_head_tail. induction ps as [|[d b] ps IH]; intros [].
  - subst p. pose proof (heads_size_nonneg ps). pose proof (len_nonneg (tails ps)).
    destruct d; cbn [snd heads_size head_size fst tails]; lens; lia.
  - specialize (IH H). pose proof (len_nonneg b). destruct d; cbn [heads_size head_size fst snd tails]; lens; lia.
Qed.

Lemma parts_cons f t ts v vs : parts f (t :: ts) (v :: vs) = f t v :: parts f ts vs.
Proof. reflexivity. Qed.
Lemma seq_like_items p l : seq_like p l -> items p = l /\ is_list_like p = true /\ py_len p = Ok (len l).
Proof. intros [->|[->|(r & ->)]]; auto. Qed.
Lemma bytes_like_of p b : bytes_like p b -> bytes_of p = b /\ is_bytes p = true.
Proof. intros [->| ->]; auto. Qed.
Lemma Forall3_len {A B C} (R : A -> B -> C -> Prop) l l' l'' : Forall3 R l l' l'' -> len l = len l' /\ len l' = len l''.
Proof. induction 1; lens; lia. Qed.

(** A static type has encodings of its static size, and every part of a
    head/tail sequence takes at least one word. *)
Lemma heads_size_ge ps : Forall (fun p : bool * bytes => 32 <= head_size p) ps -> 32 * len ps <= heads_size ps.
Proof. induction 1; cbn [heads_size]; lens; lia. Qed.
Lemma heads_size_const ps k : Forall (fun p : bool * bytes => head_size p = k) ps -> heads_size ps = k * len ps.
Proof. induction 1; cbn [heads_size]; lens; lia. Qed.
Lemma tails_all_static ps : Forall (fun p : bool * bytes => fst p = false) ps -> tails ps = [].
Proof. induction 1 as [|[d b] ps H _ IH]; [reflexivity|]. cbn [fst] in H. subst. exact IH. Qed.

Lemma static_size_ge t : wf t -> 32 <= static_size t.
Proof.
  induction t as [m|m| | |m n|m n|k| | |t IH|n t IH|ts IH] using sty_ind'; intro W; inv W; cbn [static_size]; try lia.
  - take (Forall wf ts) as Wt. destruct ts as [|t ts]; [congruence|]. inv IH. inv Wt. cbn [fold_right].
    take (wf t -> _) as IHt. take (wf t) as W1. specialize (IHt W1).
    take (Forall wf ts) as W2. take (Forall (fun t => wf t -> 32 <= static_size t) ts) as IHts.
    enough (0 <= fold_right (fun t acc => static_size t + acc) 0 ts) by lia.
    clear -W2 IHts. induction IHts as [|t' ts' Ht' _ IH']; cbn [fold_right]; [lia|]. inv W2.
    take (wf t') as W1. specialize (Ht' W1). take (Forall wf ts') as W2. specialize (IH' W2). lia.
Qed.
Lemma spec_enc_static t a : wf t -> has_type t a -> sdyn t = false -> len (spec_enc t a) = static_size t.
Proof.
  intro W. revert a. induction t as [m|m| | |m n|m n|k| | |t IH|n t IH|ts IH] using sty_ind'; intros a T S; inv W; inv T;
    cbn [sdyn] in S; try discriminate; try (cbn [spec_enc static_size]; apply word_len).
  - cbn [spec_enc static_size]. lens. lia.
  - cbn [spec_enc static_size]. pose proof (pad_right_len b). lia.
  - take (wf t) as Wt. take (Forall _ l) as F. cbn [spec_enc static_size]. rewrite len_head_tail, tails_all_static.
    + rewrite (heads_size_const _ (static_size t)); [lens; lia|].
      clear -IH Wt F S. induction F; cbn [map]; constructor; auto.
      rewrite S. exact (IH Wt _ H S).
    + clear -S. induction l; cbn [map]; constructor; auto.
  - take (Forall2 _ _ _) as F. take (Forall wf ts) as Wt.
    rewrite spec_enc_tuple, len_head_tail, tails_all_static.
    + lens. rewrite Z.add_0_r. cbn [static_size].
      clear -F IH S Wt. revert IH Wt S. induction F as [|t a ts vs Ht _ IHF]; intros IH W S; [reflexivity|].
      inv IH. inv W. cbn [existsb] in S. apply orb_false_iff in S. destruct S as [S1 S2].
      take (wf t -> _) as IHt.
      rewrite parts_cons. cbn [heads_size fold_right]. rewrite IHF by assumption. f_equal.
      unfold part, head_size. cbn [fst snd]. rewrite S1. apply IHt; assumption.
    + clear -F S. revert S. induction F as [|t a ts vs Ht _ IHF]; intro S; [constructor|].
      cbn [existsb] in S. apply orb_false_iff in S. destruct S as [S1 S2]. rewrite parts_cons.
      constructor; [exact S1|auto].
Qed.
Lemma part_head_size t a : wf t -> has_type t a -> head_size (part t a) = if sdyn t then 32 else static_size t.
Proof.
  intros W T. unfold head_size, part. cbn [fst snd]. destruct (sdyn t) eqn:S; [reflexivity|].
  apply spec_enc_static; assumption.
Qed.
Lemma part_head_size_ge t a : wf t -> has_type t a -> 32 <= head_size (part t a).
Proof. intros W T. rewrite part_head_size by assumption. pose proof (static_size_ge t W). destruct (sdyn t); lia. Qed.

Lemma array_len_bound t (vs : list aval) : wf t -> Forall (has_type t) vs ->
  32 * len vs <= len (head_tail (map (fun x => (sdyn t, spec_enc t x)) vs)).
Proof.
  intros W F. rewrite len_head_tail.
  pose proof (len_nonneg (tails (map (fun x => (sdyn t, spec_enc t x)) vs))).
  assert (32 * len (map (fun x => (sdyn t, spec_enc t x)) vs) <= heads_size (map (fun x => (sdyn t, spec_enc t x)) vs)).
  { apply heads_size_ge. clear -W F. induction F; cbn [map]; constructor; auto.
    change (sdyn t, spec_enc t x) with (part t x). apply part_head_size_ge; assumption. }
  lens. lia.
Qed.

Lemma encodes_items pk t l vs d : (forall p a, denotes t p a -> encodes pk t p a) -> Forall2 (denotes t) l vs ->
  validate_all (fst (ve (enc_of pk t))) l = Ok tt
  /\ (len (head_tail (map (pair d) (map (out pk t) vs))) < 2 ^ 256 ->
      mapM (snd (ve (enc_of pk t))) l = Ok (map (out pk t) vs)).
Proof.
  intros IH F. split.
  - apply validate_all_Forall. induction F; constructor; auto. eapply IH; eassumption.
  - intro Hl. apply mapM_Forall2, Forall2_map_r.
    assert (Hle : Forall (fun v => len (out pk t v) < 2 ^ 256) vs).
    { apply Forall_forall. intros v Hin.
      pose proof (part_len_le (d, out pk t v) (map (pair d) (map (out pk t) vs))) as Hp.
      cbn [snd] in Hp. specialize (Hp ltac:(apply in_map, in_map, Hin)). lia. }
    clear Hl. induction F; constructor; inv Hle; auto. eapply IH; eassumption.
Qed.

Theorem denotes_encodes pk t p a : wf t -> denotes t p a -> encodes pk t p a.
Proof.
  intro W. revert p a.
  induction t as [m|m| | |m n|m n|k| | |t IH|n t IH|ts IH] using sty_ind'; intros p a D; pose proof D as D0; inv D; inv W;
    unfold encodes, validate_value, encode_with; cbn [enc_of].
  - (* uint *)
    take (int_size m) as Hm.
    destruct (dsz_nat pk m Hm) as (n & -> & Hn & Hmn & En). cbn [ve fst snd]. split.
    + unfold validate_uint, compute_unsigned_integer_bounds, validate_int. apply raise_if_Ok. lia.
    + intros _. rewrite encode_uint_be by assumption. unfold out; cbn [spec_packed spec_enc].
      rewrite out_word by assumption. rewrite En. reflexivity.
  - (* int *)
    take (int_size m) as Hm.
    destruct (dsz_nat pk m Hm) as (n & -> & Hn & Hmn & En). cbn [ve fst snd]. split.
    + unfold validate_sint, compute_signed_integer_bounds, validate_int. apply raise_if_Ok. lia.
    + intros _. rewrite encode_sint_be by assumption. unfold out; cbn [spec_packed spec_enc].
      rewrite out_word by assumption. rewrite En. reflexivity.
  - (* bool *)
    cbn [ve fst snd]. split; [reflexivity|]. intros _. unfold out; cbn [spec_packed spec_enc].
    destruct pk.
    + rewrite be_bytes_eq. apply (encode_bool_be 1); lia.
    + rewrite word_eq. apply (encode_bool_be 32); lia.
  - (* address, bytes *)
    take (bytes_like p b) as Hb. take (len b = 20) as H20. clear D0.
    assert (D0 : (exists s, p = PStr s /\ address_text s b) \/ (bytes_like p b /\ len b = 20)) by auto.
    cbn [ve fst snd]. split.
    + unfold validate_addr. destruct Hb as [->| ->]; cbn [is_address]; rewrite H20; reflexivity.
    + intros _. unfold out; cbn [spec_packed spec_enc]. destruct pk.
      * exact (encode_addr_be 20 p b ltac:(lia) D0).
      * exact (encode_addr_be 32 p b ltac:(lia) D0).
  - (* address, text *)
    clear D0.
    assert (D0 : (exists s', PStr s = PStr s' /\ address_text s' b) \/ (bytes_like (PStr s) b /\ len b = 20)) by eauto.
    cbn [ve fst snd]. split.
    + unfold validate_addr. replace (is_address (PStr s)) with true; [reflexivity|].
      symmetry. apply is_address_text. eauto.
    + intros _. unfold out; cbn [spec_packed spec_enc]. destruct pk.
      * exact (encode_addr_be 20 _ b ltac:(lia) D0).
      * exact (encode_addr_be 32 _ b ltac:(lia) D0).
  - (* ufixed *)
    take (int_size m) as Hm. take (num_scaled _ _ _) as Hz.
    destruct (dsz_nat pk m Hm) as (k & -> & Hk & Hmk & En). cbn [ve fst snd].
    assert (Hv : validate_ufixed m n p = Ok tt).
    { rewrite validate_ufixed_verdict, (fixed_verdict_exact _ _ _ _ _ Hz) by assumption.
      destruct (Z.leb_spec 0 z), (Z.leb_spec z (2 ^ m - 1)); lia || reflexivity. }
    split; [exact Hv|]. intros _.
    destruct (encode_ufixed_ok m n k p) as (b & -> & _ & Hb); try assumption.
    rewrite (Hb z Hz). unfold out; cbn [spec_packed spec_enc]. rewrite out_word, En by assumption. reflexivity.
  - (* fixed *)
    take (int_size m) as Hm. take (num_scaled _ _ _) as Hz.
    destruct (dsz_nat pk m Hm) as (k & -> & Hk & Hmk & En). cbn [ve fst snd].
    assert (Hv : validate_sfixed m n p = Ok tt).
    { rewrite validate_sfixed_verdict, (fixed_verdict_exact _ _ _ _ _ Hz) by assumption.
      destruct (Z.leb_spec (- 2 ^ (m - 1)) z), (Z.leb_spec z (2 ^ (m - 1) - 1)); lia || reflexivity. }
    split; [exact Hv|]. intros _.
    destruct (encode_sfixed_ok m n k p) as (b & -> & _ & Hb); try assumption.
    rewrite (Hb z Hz). unfold out; cbn [spec_packed spec_enc]. rewrite out_word, En by assumption. reflexivity.
  - (* bytesM *)
    take (bytes_like p b) as Hp. destruct (bytes_like_of p b Hp) as [Hb Hb']. cbn [ve fst snd].
    assert (Hv : validate_bytesM (k * 8) p = Ok tt).
    { unfold validate_bytesM. rewrite Hb', Hb. apply raise_if_Ok. lia. }
    split; [exact Hv|]. intros _. unfold encode_bytesM. rewrite Hv. cbn [bind]. rewrite Hb.
    unfold zpad_right, ljust, out; cbn [spec_packed spec_enc]. f_equal. pose proof (len_nonneg b). destruct pk.
    + reflexivity.
    + unfold pad_right. rewrite <- app_assoc, <- repeat_app. do 2 f_equal. lens. lia.
  - (* bytes *)
    take (bytes_like p b) as Hp. destruct (bytes_like_of p b Hp) as [Hb Hb']. cbn [ve fst snd].
    assert (Hv : validate_bytestring p = Ok tt) by (unfold validate_bytestring; rewrite Hb'; reflexivity).
    split; [exact Hv|]. intro Hl. unfold encode_bytestring. rewrite Hv. cbn [bind]. rewrite Hb.
    unfold out in *; cbn [spec_packed spec_enc] in *. destruct pk; [reflexivity|].
    apply length_prefixed. lens. rewrite word_len in Hl. pose proof (pad_right_len b). lia.
  - (* string *)
    cbn [ve fst snd]. split; [reflexivity|]. intro Hl. unfold encode_text. cbn [validate_text is_text bind].
    rewrite utf8_encode_ok by assumption. cbn [bind].
    unfold out in *; cbn [spec_packed spec_enc] in *. destruct pk; [reflexivity|].
    apply length_prefixed. lens. rewrite word_len in Hl. pose proof (pad_right_len (utf8 s)). lia.
  - (* dynamic array *)
    take (seq_like _ _) as Hs. take (Forall2 _ _ _) as F. take (wf t) as Wt.
    destruct (seq_like_items p l Hs) as (Hi & Hil & Hpl).
    destruct (encodes_items pk t l vs (negb pk && sdyn t) (IH Wt) F) as [HV HE].
    assert (Hav : array_validate (fst (ve (enc_of pk t))) p = Ok tt).
    { unfold array_validate. rewrite Hil, Hi. exact HV. }
    assert (HT : Forall (has_type t) vs).
    { apply (denotes_has_type (SArr t) p (VSeq vs)) in D0; [inv D0; assumption|constructor; assumption]. }
    rewrite out_arr. destruct pk; cbn [ve fst snd app].
    + assert (Hsv : sized_validate None (fst (ve (enc_of true t))) p = Ok tt) by (unfold sized_validate; rewrite Hav; reflexivity).
      split; [exact Hsv|]. intro Hl. rewrite enc_is_dyn_of.
      apply encode_elements_head_tail; [exact Hsv|rewrite Hi; auto|exact Hl].
    + split; [exact Hav|]. intro Hl. lens. rewrite word_len in Hl. rewrite enc_is_dyn_of, Hpl. cbn [bind].
      pose proof (array_len_bound t vs Wt HT) as Hlb. rewrite <- (map_map (out false t) (pair (sdyn t))) in Hlb.
      pose proof (len_nonneg l). rewrite (Forall2_len _ _ _ F) in *. cbn [negb andb] in *.
      rewrite encode_uint_256_word by lia. cbn [bind].
      rewrite (encode_elements_head_tail _ _ _ p (map (out false t) vs)); [reflexivity|exact Hav|rewrite Hi; apply HE; lia|lia].
  - (* fixed-size array *)
    take (seq_like _ _) as Hs. take (Forall2 _ _ _) as F. take (wf t) as Wt.
    destruct (seq_like_items p l Hs) as (Hi & Hil & Hpl).
    destruct (encodes_items pk t l vs (negb pk && sdyn t) (IH Wt) F) as [HV HE].
    assert (Hav : sized_validate (Some (len l)) (fst (ve (enc_of pk t))) p = Ok tt).
    { unfold sized_validate, array_validate. rewrite Hil, Hi. cbn [negb]. rewrite HV.
      cbn [bind]. rewrite Z.eqb_refl. reflexivity. }
    rewrite out_sized. destruct pk; cbn [ve fst snd].
    + split; [exact Hav|]. intro Hl. rewrite enc_is_dyn_of.
      apply encode_elements_head_tail; [exact Hav|rewrite Hi; auto|exact Hl].
    + split; [exact Hav|]. intro Hl. rewrite enc_is_dyn_of.
      apply encode_elements_head_tail; [exact Hav|rewrite Hi; auto|exact Hl].
  - (* tuple *)
    take (seq_like _ _) as Hs. take (Forall3 _ _ _ _) as F. take (Forall wf ts) as Wt.
    destruct (seq_like_items p l Hs) as (Hi & Hil & Hpl).
    assert (Hval : fst (ve (ETuple (map (enc_of pk) ts))) p = Ok tt).
    { change (fst (ve (ETuple (map (enc_of pk) ts)))) with (validate_value (ETuple (map (enc_of pk) ts))).
      rewrite validate_tuple by assumption. unfold tuple_val. rewrite Hil, Hi, len_map. cbn [negb].
      destruct (Forall3_len _ _ _ _ F) as [-> _]. rewrite Z.eqb_refl. cbn [negb].
      clear -IH F Wt. revert IH Wt. induction F as [|t p a ts ps vs Hd _ IHF]; intros IH W; [reflexivity|]. inv IH. inv W.
      take (wf t -> _) as IHt. take (wf t) as W1.
      cbn [map seq_validate]. rewrite (proj1 (IHt W1 _ _ Hd)). cbn [bind]. auto. }
    split; [exact Hval|]. intro Hl. cbn [ve fst snd] in *. rewrite Hval. cbn [bind].
    rewrite out_tuple in *.
    replace (tuple_chunks _ _) with (@Ok (list (option bytes * bytes)) (map chunk (parts (opart pk) ts vs))).
    { cbn [bind]. apply join_chunks_head_tail. exact Hl. }
    symmetry. rewrite Hi, !map_map.
    assert (Hle : Forall (fun p : bool * bytes => len (snd p) < 2 ^ 256) (parts (opart pk) ts vs)).
    { apply Forall_forall. intros q Hin. pose proof (part_len_le q _ Hin). lia. }
    clear -IH F Wt Hle. revert IH Wt Hle. induction F as [|t p a ts ps vs Hd _ IHF]; intros IH W Hle; [reflexivity|].
    inv IH. inv W. rewrite parts_cons in *. inv Hle. unfold opart in *. cbn [map combine tuple_chunks fst snd] in *.
    take (wf t -> _) as IHt. take (wf t) as W1.
    pose proof (proj2 (IHt W1 _ _ Hd)) as He. unfold encode_with in He. rewrite He by assumption.
    cbn [bind]. rewrite IHF by assumption. cbn [bind].
    rewrite enc_is_dyn_of. reflexivity.
Qed.
