(** Proofs about Limits.v. *)
From Coq Require Import Strings.Byte Strings.String.
From Verif Require Import Tac Bytes BytesProofs Address Decimals Grammar GrammarSpec GrammarProofs Encoding Decoding Registry Codec Histories Spec TypeSpec
  EncLeafProofs EncodeProofs AcceptProofs DecLeafProofs DecodeProofs DecodeFacts2 CacheProofs LookupProofs TypeProofs ApiProofs HistoryProofs EncodeApi
  Limits LimitsSpec.
Open Scope Z_scope.

(** ** Values *)
Lemma pyval_ind' (P : pyval -> Prop) :
  (forall v, (forall l, v <> PList l) -> (forall l, v <> PTuple l) -> P v) ->
  (forall l, Forall P l -> P (PList l)) -> (forall l, Forall P l -> P (PTuple l)) -> forall v, P v.
Proof.
  intros H HL HT. fix IH 1. intro v.
  destruct v as [|b|z|f|c|n d|d|b|b|s|l|l|sr l|o]; try (apply H; intros ? X; discriminate X).
  - apply HL. induction l as [|x l IHl]; constructor; [apply IH|exact IHl].
  - apply HT. induction l as [|x l IHl]; constructor; [apply IH|exact IHl].
Qed.
Lemma long_int_iff z : long_int z = true <-> 10 ^ 4300 <= Z.abs z.
Proof. unfold long_int, max_digits. apply Z.leb_le. Qed.
Lemma repr_fails_iff v : repr_fails v = true <-> long_shown v.
Proof.
  induction v as [v NL NT|l IH|l IH] using pyval_ind'.
  - split.
    + destruct v as [|b|z|f|c|n d|d|b|b|s|l|l|sr l|o]; cbn [repr_fails]; try discriminate; intro H.
      * constructor. apply long_int_iff. exact H.
      * apply orb_prop in H. destruct H as [H|H]; apply long_int_iff in H; [apply long_numerator|apply long_denominator]; exact H.
      * exfalso. exact (NL l eq_refl).
      * exfalso. exact (NT l eq_refl).
      * subst sr. constructor.
    + intro H. inv H; cbn [repr_fails].
      * apply long_int_iff. assumption.
      * apply orb_true_intro. left. apply long_int_iff. assumption.
      * apply orb_true_intro. right. apply long_int_iff. assumption.
      * take (_ \/ _) as S. exfalso. destruct S as [E|E]; [exact (NL _ E)|exact (NT _ E)].
      * reflexivity.
  - cbn [repr_fails]. rewrite existsb_exists. rewrite Forall_forall in IH. split.
    + intros (x & I1 & H). apply (long_item _ l x); [left; reflexivity|exact I1|apply IH; assumption].
    + intro H. inv H. take (_ \/ _) as S. destruct S as [E|E]; inv E. take (In _ _) as I1. exists x. split; [exact I1|apply IH; assumption].
  - cbn [repr_fails]. rewrite existsb_exists. rewrite Forall_forall in IH. split.
    + intros (x & I1 & H). apply (long_item _ l x); [right; reflexivity|exact I1|apply IH; assumption].
    + intro H. inv H. take (_ \/ _) as S. destruct S as [E|E]; inv E. take (In _ _) as I1. exists x. split; [exact I1|apply IH; assumption].
Qed.
Lemma long_fails v : repr_fails v = true -> long_inside v.
Proof. intro H. apply long_here, repr_fails_iff, H. Qed.
Lemma long_items v x : In x (items v) -> long_inside x -> long_inside v.
Proof.
  intros I1 H. apply (long_within v (items v) x); [|exact I1|exact H].
  destruct v; cbn [items] in I1; try contradiction; [left|right; left|right; right; eexists]; reflexivity.
Qed.

(** ** Type names *)
Lemma long_run_from_iff s : forall run, 0 <= run -> long_run_from run s = true <->
  long_number s \/ exists d b, s = d ++ b /\ Forall digit d /\ d <> [] /\ max_digits < run + Z.of_nat (length d).
Proof.
  induction s as [|c s IH]; intros run R; cbn [long_run_from].
  - split; [discriminate|]. intros [(a & d & b & E & F & L)|(d & b & E & F & N & L)].
    + destruct a, d; try discriminate E. cbn in L. lia.
    + destruct d; [contradiction|discriminate E].
  - assert (LN : long_number (c :: s) <-> long_number s \/ exists d b, c :: s = d ++ b /\ Forall digit d /\ d <> [] /\ max_digits < 0 + Z.of_nat (length d)).
    { split.
      - intros ([|x a] & d & b & E & F & L).
        + right. exists d, b. split; [exact E|]. split; [exact F|]. unfold max_digits. split; [intros ->; cbn in L; lia|lia].
        + left. injection E as -> ->. exists a, d, b. auto.
      - intros [(a & d & b & -> & F & L)|(d & b & E & F & N & L)].
        + exists (c :: a), d, b. auto.
        + exists [], d, b. unfold max_digits in L. split; [exact E|]. split; [exact F|lia]. }
    destruct (is_digit c) eqn:Dc.
    + assert (Dd : digit c) by (unfold digit; unfold is_digit, in_range in Dc; lia).
      rewrite orb_true_iff, IH, Z.leb_le by lia. split.
      * intros [H|[H|(d & b & -> & F & N & L)]].
        -- right. exists [c], s. split; [reflexivity|]. split; [constructor; auto|]. split; [discriminate|]. cbn. lia.
        -- left. apply LN. left. exact H.
        -- right. exists (c :: d), b. split; [reflexivity|]. split; [constructor; assumption|]. split; [discriminate|]. cbn [length]. lia.
      * intros [H|(d & b & E & F & N & L)].
        -- apply LN in H. destruct H as [H|(d & b & E & F & N & L)]; [auto|].
           destruct d as [|x d]; [contradiction|]. injection E as <- ->. inv F. cbn [length] in L. destruct d as [|y d].
           ++ left. cbn in L. lia.
           ++ right. right. exists (y :: d), b. split; [reflexivity|]. split; [assumption|]. split; [discriminate|]. cbn [length] in *. lia.
        -- destruct d as [|x d]; [contradiction|]. injection E as <- ->. inv F. cbn [length] in L. destruct d as [|y d].
           ++ left. cbn in L. lia.
           ++ right. right. exists (y :: d), b. split; [reflexivity|]. split; [assumption|]. split; [discriminate|]. cbn [length] in *. lia.
    + assert (Dd : ~ digit c) by (unfold digit; unfold is_digit, in_range in Dc; lia).
      assert (NH : forall d b, c :: s = d ++ b -> Forall digit d -> d = []).
      { intros [|x d] b E F; [reflexivity|]. injection E as <- _. inv F. contradiction. }
      rewrite IH by lia. split.
      * intros [H|(d & b & -> & F & N & L)]; left; apply LN; left; [exact H|]. exists [], d, b. split; [reflexivity|]. split; [exact F|]. unfold max_digits in L. lia.
      * intros [H|(d & b & E & F & N & L)]; [|exfalso; exact (N (NH d b E F))].
        apply LN in H. destruct H as [H|(d & b & E & F & N & L)]; [left; exact H|exfalso; exact (N (NH d b E F))].
Qed.
Lemma long_run_iff s : long_run s = true <-> long_number s.
Proof.
  unfold long_run. rewrite long_run_from_iff by lia. split; [|auto]. intros [H|(d & b & -> & F & N & L)]; [exact H|].
  exists [], d, b. split; [reflexivity|]. split; [exact F|]. unfold max_digits in L. lia.
Qed.
Lemma long_number_app_l s t : long_number s -> long_number (s ++ t).
Proof. intros (a & d & b & -> & F & L). exists a, d, (b ++ t). rewrite <- !app_assoc. auto. Qed.
Lemma long_number_app_r s t : long_number t -> long_number (s ++ t).
Proof. intros (a & d & b & -> & F & L). exists (s ++ a), d, b. rewrite <- !app_assoc. auto. Qed.

(** ** The two runs compared *)
Definition near {A} (P : Prop) (r r' : result A) : Prop :=
  r' = r \/ (P /\ exists e, r = Err e /\ is_encoding_error e = true /\ r' = Err ValueError).
Lemma near_refl A (P : Prop) (r : result A) : near P r r. Proof. left. reflexivity. Qed.
Lemma near_mono A (P Q : Prop) (r r' : result A) : (P -> Q) -> near P r r' -> near Q r r'.
Proof. intros H [E|(p & R)]; [left; exact E|right; auto]. Qed.
Lemma near_bind A B (P : Prop) (r r' : result A) (f g : A -> result B) :
  near P r r' -> (forall x, near P (f x) (g x)) -> near P (bind r f) (bind r' g).
Proof.
  intros [->|(p & e & -> & X & ->)] H.
  - destruct r as [x|e]; cbn [bind]; [apply H|apply near_refl].
  - right. split; [exact p|]. exists e. auto.
Qed.
Lemma near_limited A v (r : result A) : near (long_inside v) r (limited false v r).
Proof.
  destruct r as [x|e]; [apply near_refl|]. cbn [limited]. destruct (is_encoding_error e) eqn:X; [|apply near_refl].
  unfold invalidate_value. cbn [andb orb]. destruct (repr_fails v) eqn:Rf; [right; split; [apply long_fails; exact Rf|eauto]|apply near_refl].
Qed.
Lemma near_invalidate A v e : is_encoding_error e = true -> near (long_inside v) (Err e) (invalidate_value (A := A) v false e).
Proof. intro X. unfold invalidate_value. cbn [orb]. destruct (repr_fails v) eqn:Rf; [right; split; [apply long_fails; exact Rf|eauto]|apply near_refl]. Qed.
Definition near_fun {A} (f g : pyval -> result A) : Prop := forall v, near (long_inside v) (f v) (g v).
Definition item_fails (vs : list pyval) : Prop := exists x, In x vs /\ long_inside x.
Lemma item_fails_tl v vs : item_fails vs -> item_fails (v :: vs).
Proof. intros (x & I1 & H). exists x. cbn. auto. Qed.
Lemma item_fails_items v : item_fails (items v) -> long_inside v.
Proof. intros (x & I1 & H). eapply long_items; eassumption. Qed.

Lemma near_hd A v vs (r r' : result A) : near (long_inside v) r r' -> near (item_fails (v :: vs)) r r'.
Proof. apply near_mono. intro H. exists v. cbn. auto. Qed.
Lemma near_items ves ves' : Forall2 (fun x y => near_fun (fst x) (fst y) /\ near_fun (snd x) (snd y)) ves ves' -> forall vs,
  near (item_fails vs) (tuple_validate_items ves vs) (tuple_validate_items ves' vs).
Proof.
  intro F. induction F as [|[val enc] [val' enc'] ves ves' [Hv He] F IH]; intros vs; [destruct vs; apply near_refl|].
  destruct vs as [|v vs]; [apply near_refl|]. cbn [tuple_validate_items fst snd] in *.
  specialize (IH vs). apply (near_mono _ _ _ _ _ (item_fails_tl v vs)) in IH.
  destruct (Hv v) as [->|(p & e & -> & X & ->)].
  - destruct (val v) as [[]|e]; [exact IH|]. destruct e; try apply near_refl.
    apply near_bind; [apply near_hd; apply He|intros _; exact IH].
  - right. split; [exists v; cbn; auto|]. exists e. split; [|auto]. destruct e; try discriminate X; reflexivity.
Qed.
Lemma near_chunks ds encs encs' : Forall2 near_fun encs encs' -> forall vs,
  near (item_fails vs) (tuple_chunks (combine ds encs) vs) (tuple_chunks (combine ds encs') vs).
Proof.
  intro F. revert ds. induction F as [|enc enc' encs encs' He F IH]; intros ds vs; [destruct ds; apply near_refl|].
  destruct ds as [|d ds]; [apply near_refl|]. destruct vs as [|v vs]; [apply near_refl|]. cbn [combine tuple_chunks].
  apply near_bind; [apply near_hd; apply He|]. intro b. apply near_bind; [|intro; apply near_refl].
  eapply near_mono; [apply item_fails_tl|apply IH].
Qed.
Lemma near_all val val' : near_fun val val' -> forall vs, near (item_fails vs) (validate_all val vs) (validate_all val' vs).
Proof.
  intros H vs. induction vs as [|v vs IH]; [apply near_refl|]. cbn [validate_all]. apply near_bind; [apply near_hd; apply H|].
  intros _. eapply near_mono; [apply item_fails_tl|exact IH].
Qed.
Lemma near_mapM (enc enc' : pyval -> result bytes) : near_fun enc enc' -> forall vs, near (item_fails vs) (mapM enc vs) (mapM enc' vs).
Proof.
  intros H vs. induction vs as [|v vs IH]; [apply near_refl|]. cbn [mapM]. apply near_bind; [apply near_hd; apply H|].
  intros b. apply near_bind; [|intro; apply near_refl]. eapply near_mono; [apply item_fails_tl|exact IH].
Qed.
Lemma near_array val val' : near_fun val val' -> near_fun (array_validate val) (limited_array_validate val').
Proof.
  intros H v. unfold array_validate, limited_array_validate. destruct (negb (is_list_like v)); [apply near_invalidate; reflexivity|].
  eapply near_mono; [apply item_fails_items|apply near_all; exact H].
Qed.
Lemma near_sized n val val' : match n with Some n => long_int n = false | None => True end ->
  near_fun val val' -> near_fun (sized_validate n val) (limited_sized_validate n val').
Proof.
  intros N H v. unfold sized_validate, limited_sized_validate. apply near_bind; [apply near_array; exact H|]. intros _.
  destruct n as [n|]; [|apply near_refl]. rewrite N. unfold raise_if. destruct (negb _); [apply near_invalidate; reflexivity|apply near_refl].
Qed.
Lemma near_elements val val' d enc enc' : near_fun val val' -> near_fun enc enc' ->
  near_fun (encode_elements val d enc) (encode_elements val' d enc').
Proof.
  intros Hv He v. unfold encode_elements. apply near_bind; [apply Hv|]. intros _.
  apply near_bind; [eapply near_mono; [apply item_fails_items|apply near_mapM; exact He]|]. intro. apply near_refl.
Qed.

(** Encoders whose messages can be formatted. *)
Fixpoint narrow (e : encoder) : Prop :=
  match e with
  | EUInt bits _ => long_int (snd (compute_unsigned_integer_bounds bits)) = false
  | EInt bits _ => long_int (fst (compute_signed_integer_bounds bits)) = false
  | ETuple es => fold_right (fun e P => narrow e /\ P) True es
  | ESized n e => long_int n = false /\ narrow e
  | EPackedArr (Some n) e => long_int n = false /\ narrow e
  | EPackedArr None e => narrow e
  | EDyn e => narrow e
  | _ => True
  end.
Lemma encoder_ind' (P : encoder -> Prop) :
  (forall e, match e with ETuple _ | ESized _ _ | EDyn _ | EPackedArr _ _ => False | _ => True end -> P e) ->
  (forall es, Forall P es -> P (ETuple es)) -> (forall n e, P e -> P (ESized n e)) -> (forall e, P e -> P (EDyn e)) ->
  (forall n e, P e -> P (EPackedArr n e)) -> forall e, P e.
Proof.
  intros H Ht Hs Hd Hp. fix IH 1. intro e. destruct e; try (apply H; exact I).
  - apply Ht. induction es as [|e es IHl]; constructor; [apply IH|exact IHl].
  - apply Hs, IH.
  - apply Hd, IH.
  - apply Hp, IH.
Qed.
Lemma near_ve e : narrow e -> near_fun (fst (ve e)) (fst (limited_ve e)) /\ near_fun (snd (ve e)) (snd (limited_ve e)).
Proof.
  induction e as [e L|es IH|n e IH|e IH|n e IH] using encoder_ind'; intro N.
  - destruct e; try contradiction; cbn [narrow] in N; cbn [ve limited_ve fst snd]; rewrite ?N; split; intro v; try apply near_limited; apply near_refl.
  - assert (F : Forall2 (fun x y => near_fun (fst x) (fst y) /\ near_fun (snd x) (snd y)) (map ve es) (map limited_ve es)).
    { cbn [narrow] in N. induction IH as [|e es He IH IHl]; [constructor|]. cbn [fold_right] in N. destruct N as [N1 N2].
      cbn [map]. constructor; [apply He; exact N1|apply IHl; exact N2]. }
    assert (V : near_fun (tuple_validate (map ve es)) (limited_tuple_validate (map limited_ve es))).
    { intro v. unfold tuple_validate, limited_tuple_validate. destruct (negb (is_list_like v)); [apply near_invalidate; reflexivity|].
      replace (len (map limited_ve es)) with (len (map ve es)) by (rewrite !len_length, !map_length; reflexivity).
      destruct (negb _); [apply near_invalidate; reflexivity|]. eapply near_mono; [apply item_fails_items|apply near_items; exact F]. }
    cbn [ve limited_ve fst snd]. split; [exact V|]. intro v. apply near_bind; [apply V|]. intros _. apply near_bind; [|intro; apply near_refl].
    eapply near_mono; [apply item_fails_items|apply near_chunks]. clear - F. revert F. generalize (map limited_ve es) (map ve es).
    intros l' l F. induction F as [|x y l l' [_ Hx] F IHF]; constructor; assumption.
  - destruct N as [N1 N2]. destruct (IH N2) as [A B]. cbn [ve limited_ve fst snd]. assert (V := near_sized (Some n) _ _ N1 A).
    split; [exact V|apply near_elements; assumption].
  - destruct (IH N) as [A B]. cbn [ve limited_ve fst snd]. assert (V := near_array _ _ A). split; [exact V|]. intro v.
    apply near_bind; [apply near_refl|]. intro z. apply near_bind; [apply near_refl|]. intro b.
    apply near_bind; [apply near_elements; assumption|]. intro; apply near_refl.
  - assert (N1 : match n with Some n => long_int n = false | None => True end) by (destruct n; [apply N|exact I]).
    assert (N2 : narrow e) by (destruct n; [apply N|exact N]).
    destruct (IH N2) as [A B]. cbn [ve limited_ve fst snd]. assert (V := near_sized n _ _ N1 A).
    split; [exact V|apply near_elements; assumption].
Qed.

(** ** The encoders of the standard registries *)
Fixpoint short_dims (t : sty) : Prop :=
  match t with
  | SSized n t => n < 10 ^ 4300 /\ short_dims t
  | SArr t => short_dims t
  | STuple ts => fold_right (fun t P => short_dims t /\ P) True ts
  | _ => True
  end.
Lemma pow_4300 : 2 ^ 256 < 10 ^ 4300.
Proof.
  change 4300 with (78 + 4222). rewrite Z.pow_add_r by lia. assert (A : 2 ^ 256 < 10 ^ 78) by reflexivity.
  assert (G : forall a b c, 0 < b -> a < b -> 0 < c -> a < b * c) by (intros; nia).
  apply G; [reflexivity|exact A|]. apply Z.pow_pos_nonneg; [reflexivity|discriminate].
Qed.
Lemma pow_size m : int_size m -> 2 ^ m <= 2 ^ 256 /\ 0 < 2 ^ (m - 1) <= 2 ^ 256.
Proof.
  unfold int_size. intro H. split; [apply Z.pow_le_mono_r; lia|]. split; [apply Z.pow_pos_nonneg; lia|apply Z.pow_le_mono_r; lia].
Qed.
Lemma not_long z : Z.abs z < 10 ^ 4300 -> long_int z = false.
Proof. intro H. destruct (long_int z) eqn:E; [|reflexivity]. apply long_int_iff in E. exfalso. exact (Z.lt_irrefl _ (Z.lt_le_trans _ _ _ H E)). Qed.
Lemma narrow_enc_of pk t : wf t -> short_dims t -> narrow (enc_of pk t).
Proof.
  induction t as [m|m| | |m n|m n|k| | |t IH|n t IH|ts IH] using sty_ind'; intros W D; inv W; cbn [enc_of narrow]; try exact I.
  - take (int_size m) as M. pose proof (pow_size m M). pose proof (Z.pow_pos_nonneg 2 m ltac:(lia) ltac:(unfold int_size in M; lia)). pose proof pow_4300.
    apply not_long. unfold compute_unsigned_integer_bounds. cbn [snd]. generalize dependent (10 ^ 4300). intros. lia.
  - take (int_size m) as M. pose proof (pow_size m M). pose proof pow_4300. apply not_long. unfold compute_signed_integer_bounds. cbn [fst]. generalize dependent (10 ^ 4300). intros. lia.
  - cbn [short_dims] in D. destruct pk; cbn [narrow]; auto.
  - cbn [short_dims] in D. destruct D as [D1 D2].
    assert (L : long_int n = false) by (apply not_long; generalize dependent (10 ^ 4300); intros; lia). destruct pk; cbn [narrow]; auto.
  - take (Forall wf ts) as Wt. cbn [short_dims] in D. clear - IH D Wt. induction IH as [|t ts Ht IH IHl]; [exact I|].
    cbn [map fold_right] in *. inv Wt. split; [apply Ht; tauto|apply IHl; tauto].
Qed.
Lemma numeral_bound d n : numeral d n -> 0 <= n < 10 ^ Z.of_nat (length d).
Proof.
  intro H. induction H as [c D Z0|s n c H IH D].
  - unfold digit in D. change (10 ^ Z.of_nat (length [c])) with 10. lia.
  - rewrite app_length, Nat2Z.inj_add, Z.pow_add_r by lia. change (10 ^ Z.of_nat (length [c])) with 10. unfold digit in D. nia.
Qed.
Lemma numeral_digits d n : numeral d n -> Forall digit d.
Proof.
  intro H. induction H as [c D N|s n c H IH D]; [constructor; [exact D|constructor]|]. apply Forall_app. split; [exact IH|]. constructor; [exact D|constructor].
Qed.
Lemma numeral_short d n : numeral d n -> ~ long_number d -> n < 10 ^ 4300.
Proof.
  intros H N. pose proof (numeral_bound d n H). pose proof (numeral_digits d n H) as D.
  destruct (Z.le_gt_cases (Z.of_nat (length d)) 4300) as [L|L].
  - eapply Z.lt_le_trans; [apply H0|]. apply Z.pow_le_mono_r; lia.
  - exfalso. apply N. exists [], d, []. rewrite app_nil_r. auto.
Qed.
Lemma type_name_short lax : (forall s t, type_name lax s t -> ~ long_number s -> short_dims t)
  /\ (forall s ts, type_names lax s ts -> ~ long_number s -> short_dims (STuple ts)).
Proof.
  apply tn_mut; intros; cbn [short_dims fold_right]; auto.
  - apply H. intro L. apply H0. apply long_number_app_l. exact L.
  - split.
    + eapply numeral_short; [eassumption|]. intro L. apply H0. apply long_number_app_r, long_number_app_r, long_number_app_l. exact L.
    + apply H. intro L. apply H0. apply long_number_app_l. exact L.
  - apply H. intro L. apply H0. apply long_number_app_r, long_number_app_l. exact L.
  - split.
    + apply H. intro L. apply H1. apply long_number_app_l. exact L.
    + apply H0. intro L. apply H1. apply long_number_app_r, long_number_app_r. exact L.
Qed.
Lemma supported_narrow pk s t : supported s t -> ~ long_number s -> narrow (enc_of pk t).
Proof. intros S L. apply narrow_enc_of; [eapply supported_wf; exact S|]. eapply type_name_short; [apply S|exact L]. Qed.

(** ** The API *)
Lemma visit_short s : ~ long_number s -> visit_fails s = false.
Proof.
  intro L. unfold visit_fails. destruct (parse s); [|reflexivity]. destruct (long_run s) eqn:E; [|reflexivity]. apply long_run_iff in E. contradiction.
Qed.
Lemma visit_long s T : parse s = Ok T -> long_number s -> visit_fails s = true.
Proof. intros P L. unfold visit_fails. rewrite P. apply long_run_iff. exact L. Qed.
Lemma limited_encoder_short s r : ~ long_number s -> limited_get_encoder (PStr s) r = get_encoder s r.
Proof. intro L. cbn [limited_get_encoder]. rewrite visit_short by exact L. reflexivity. Qed.
Lemma limited_decoder_short k s w : ~ long_number s -> limited_get_decoder k (PStr s) w = get_decoder k s w.
Proof. intro L. cbn [limited_get_decoder]. rewrite visit_short by exact L. reflexivity. Qed.
Lemma sequenceM_same A B S (f g : A -> S -> result B * S) l : (forall t, In t l -> forall r, f t r = g t r) -> forall r, sequenceM f l r = sequenceM g l r.
Proof.
  induction l as [|t l IH]; intros H r; [reflexivity|]. cbn [sequenceM]. rewrite H by (left; reflexivity).
  destruct (g t r) as [[x|e] r1]; [|reflexivity]. rewrite IH; [reflexivity|]. intros t' I1. apply H. right. exact I1.
Qed.
Lemma limited_encoders_same l r : (forall s, In (PStr s) l -> ~ long_number s) -> sequenceM limited_get_encoder l r = sequenceM get_encoder_py l r.
Proof. intro H. apply sequenceM_same. intros t I1 r'. destruct t; try reflexivity. apply limited_encoder_short. apply H. exact I1. Qed.
Lemma limited_decoders_same k l w : (forall s, In (PStr s) l -> ~ long_number s) -> sequenceM (limited_get_decoder k) l w = sequenceM (get_decoder_py k) l w.
Proof. intro H. apply sequenceM_same. intros t I1 r'. destruct t; try reflexivity. apply limited_decoder_short. apply H. exact I1. Qed.
Lemma found_narrow pk s e : ~ long_number s -> find_encoder (encs pk) s = Ok e -> narrow e.
Proof.
  intros L H. destruct (unsupported s) as [[t S]|(_ & x & _ & E & _)]; [|rewrite E in H; discriminate].
  rewrite (find_enc_supported pk s t S) in H. inv H. eapply supported_narrow; eassumption.
Qed.
Lemma found_all_narrow pk l es : (forall s, In (PStr s) l -> ~ long_number s) -> mapM (find_py (find_encoder (encs pk))) l = Ok es -> narrow (ETuple es).
Proof.
  revert es. induction l as [|t l IH]; intros es H M; cbn [mapM] in M; [inv M; exact I|]. bok M. bok M. inv M.
  cbn [narrow fold_right]. split.
  - destruct t; try discriminate. eapply found_narrow; [|eassumption]. apply H. left. reflexivity.
  - apply (IH x0); [|assumption]. intros s I1. apply H. right. exact I1.
Qed.
Theorem limited_encode_near pk w types args : used pk w -> short_types types ->
  limited_encode_in w types args = encode_in w types args
  \/ (long_inside args /\ exists e, encode_in w types args = Err e /\ is_encoding_error e = true /\ limited_encode_in w types args = Err ValueError).
Proof.
  intros U S. apply used_spec in U. destruct U as (E & _ & [C _]). unfold limited_encode_in, encode_in, limited_encode, api_encode.
  destruct (validate_list_like_param types) as [l|] eqn:Tl; [|left; reflexivity].
  destruct (validate_list_like_param args) as [vs|]; [|left; reflexivity].
  assert (SL : forall s, In (PStr s) l -> ~ long_number s).
  { intros s I1. apply (S l s); [|exact I1]. apply list_like in Tl. exact Tl. }
  rewrite (limited_encoders_same l _ SL). destruct (seq_encoders l (fst w) C) as (r' & -> & _).
  destruct (mapM _ l) as [es|e] eqn:M; [|left; reflexivity]. cbn [fst]. rewrite E in M.
  destruct (near_ve (ETuple es) (found_all_narrow pk l es SL M)) as [_ N]. destruct (N args) as [H|(p & R)]; [left; exact H|].
  right. split; [exact p|exact R].
Qed.
Theorem limited_decode_same w types data strict : short_types types -> limited_decode_in w types data strict = decode_in w types data strict.
Proof.
  intro S. unfold limited_decode_in, decode_in, limited_decode, api_decode.
  destruct (validate_list_like_param types) as [l|] eqn:Tl; [|reflexivity]. destruct (validate_bytes_param data) as [b|]; [|reflexivity].
  rewrite limited_decoders_same; [reflexivity|]. intros s I1. apply (S l s); [|exact I1]. apply list_like in Tl. exact Tl.
Qed.
Definition long_type (typ : pyval) : Prop := exists s, typ = PStr s /\ long_number s.
Theorem limited_is_encodable_type_same w typ : ~ long_type typ -> limited_is_encodable_type_in w typ = is_encodable_type_in w typ.
Proof.
  intro S. unfold limited_is_encodable_type_in, is_encodable_type_in, limited_is_encodable_type, api_is_encodable_type.
  destruct typ; try reflexivity. rewrite limited_encoder_short by (intro L; apply S; eexists; eauto). unfold has_encoder.
  destruct (get_encoder s (fst w)) as [[e|e] r1]; [reflexivity|]. destruct e; reflexivity.
Qed.
Theorem limited_is_encodable_near pk w typ arg : used pk w -> ~ long_type typ ->
  limited_is_encodable_in w typ arg = is_encodable_in w typ arg
  \/ (long_inside arg /\ is_encodable_in w typ arg = Ok false /\ limited_is_encodable_in w typ arg = Err ValueError).
Proof.
  intros U S. apply used_spec in U. destruct U as (E & _ & [C _]).
  unfold limited_is_encodable_in, is_encodable_in, limited_is_encodable, api_is_encodable, limited_is_encodable_type, api_is_encodable_type.
  destruct typ; try (left; reflexivity). assert (L : ~ long_number s) by (intro L; apply S; eexists; eauto).
  rewrite (limited_encoder_short s _ L). unfold has_encoder.
  destruct (get_encoder_pure (fst w) s C) as (r1 & G1 & (S1 & _) & C1). rewrite G1.
  destruct (find_encoder (r_encs (fst w)) s) as [e|x] eqn:F; [|left; destruct x; reflexivity].
  cbn [get_encoder_py]. rewrite (limited_encoder_short s _ L). destruct (get_encoder_pure r1 s C1) as (r2 & G2 & _). rewrite G2, S1, F.
  cbn [fst]. rewrite E in F. destruct (near_ve e (found_narrow pk s e L F)) as [N1 N2]. unfold check_encodable, validate_value, encode_with.
  destruct (N1 arg) as [->|(p & x & -> & X & ->)].
  - destruct (fst (ve e) arg) as [[]|x]; [left; reflexivity|]. destruct x; try (left; reflexivity).
    destruct (N2 arg) as [->|(p & x & -> & X & ->)]; [left; reflexivity|]. right. split; [exact p|]. rewrite X. auto.
  - right. split; [exact p|]. split; [|reflexivity]. destruct x; try discriminate X; reflexivity.
Qed.
(** ** Where the limit shows *)
Lemma limited_validate_leaf pk t v : wf t -> match t with SArr _ | SSized _ _ | STuple _ => False | _ => True end ->
  fst (limited_ve (enc_of pk t)) v = limited false v (validate_value (enc_of pk t) v).
Proof.
  intros W L. assert (N : narrow (enc_of pk t)) by (apply narrow_enc_of; [exact W|destruct t; try exact I; contradiction]).
  unfold validate_value. destruct t; try contradiction; cbn [enc_of narrow] in N; cbn [enc_of ve limited_ve fst]; rewrite ?N; reflexivity.
Qed.
Theorem limited_leaf pk w s t v : used pk w -> supported s t -> ~ long_number s ->
  match t with SArr _ | SSized _ _ | STuple _ => False | _ => True end ->
  is_encodable_in w (PStr s) v = Ok false -> (limited_is_encodable_in w (PStr s) v = Err ValueError <-> long_shown v).
Proof.
  intros U S L B H.
  assert (W := supported_wf s t S). rewrite (is_encodable_used pk w _ _ U) in H. unfold pure_is_encodable in H. cbn [find_py] in H.
  rewrite (find_enc_supported pk s t S), (check_encodable_of pk t v W) in H.
  apply used_spec in U. destruct U as (E & _ & [C _]).
  unfold limited_is_encodable_in, limited_is_encodable, limited_is_encodable_type.
  rewrite (limited_encoder_short s _ L). destruct (get_encoder_pure (fst w) s C) as (r1 & -> & (S1 & _) & C1).
  rewrite E, (find_enc_supported pk s t S), (limited_encoder_short s _ L). destruct (get_encoder_pure r1 s C1) as (r2 & -> & _).
  rewrite S1, E, (find_enc_supported pk s t S). cbn [fst]. rewrite (limited_validate_leaf pk t v W B).
  destruct (validate_value (enc_of pk t) v) as [[]|x]; [discriminate H|]. destruct (is_encoding_error x) eqn:X; [|discriminate H].
  rewrite <- repr_fails_iff. cbn [limited]. rewrite X. unfold invalidate_value. cbn [andb orb]. destruct (repr_fails v).
  - split; reflexivity.
  - split; [|discriminate]. destruct x; cbn [is_encoding_error] in X |- *; discriminate.
Qed.
Lemma limited_encode_args pk w types ts args l : used pk w -> type_args types ts -> short_types types -> seq_like args l ->
  limited_encode_in w types args = snd (limited_ve (ETuple (map (enc_of pk) ts))) args.
Proof.
  intros U (ss & Hs & F) S Hl. apply used_spec in U. destruct U as (E & _ & [C _]).
  unfold limited_encode_in, limited_encode. assert (SL : forall s, In (PStr s) (map PStr ss) -> ~ long_number s) by (intros s I1; exact (S _ s Hs I1)).
  apply list_like in Hs, Hl. rewrite Hs, Hl.
  rewrite (limited_encoders_same _ _ SL). destruct (seq_encoders (map PStr ss) (fst w) C) as (r' & -> & _).
  rewrite E, (mapM_supported _ (find_encoder (encs pk)) (enc_of pk) ss ts (find_enc_supported pk) F). reflexivity.
Qed.
Theorem limited_arity pk w types ts args l : used pk w -> type_args types ts -> short_types types -> seq_like args l -> len l <> len ts ->
  (long_shown args -> limited_encode_in w types args = Err ValueError) /\ (~ long_shown args -> limited_encode_in w types args = Err ValueOutOfBounds).
Proof.
  intros U T S Hl N. rewrite (limited_encode_args pk w types ts args l U T S Hl). cbn [limited_ve snd].
  unfold limited_tuple_validate. replace (is_list_like args) with true by (destruct Hl as [->|[->|(? & ->)]]; reflexivity). cbn [negb].
  replace (items args) with l by (destruct Hl as [->|[->|(? & ->)]]; reflexivity).
  replace (len (map limited_ve (map (enc_of pk) ts))) with (len ts) by (rewrite !len_length, !map_length; reflexivity).
  destruct (Z.eqb_spec (len l) (len ts)); [contradiction|]. cbn [negb bind]. unfold invalidate_value.
  rewrite <- repr_fails_iff. cbn [orb]. destruct (repr_fails args); split; intro H; reflexivity || congruence || contradiction (H eq_refl).
Qed.

(** Type names. *)
Lemma limited_encoders_long pk ss ts s T rest : Forall2 supported ss ts -> (forall s, In s ss -> ~ long_number s) -> parse s = Ok T -> long_number s ->
  forall r, ecache_ok r -> r_encs r = encs pk -> exists r', sequenceM limited_get_encoder (map PStr ss ++ PStr s :: rest) r = (Err VisitationError, r').
Proof.
  intros F. induction F as [|s0 t0 ss ts S F IH]; intros H P L r C E; cbn [map app sequenceM].
  - cbn [limited_get_encoder]. rewrite (visit_long s T P L). eauto.
  - rewrite limited_encoder_short by (apply H; left; reflexivity). destruct (get_encoder_pure r s0 C) as (r1 & -> & (S1 & _) & C1).
    rewrite E, (find_enc_supported pk s0 t0 S). destruct (IH ltac:(intros x I1; apply H; right; exact I1) P L r1 C1 ltac:(congruence)) as (r' & ->). eauto.
Qed.
Lemma limited_decoders_long k ss ts s T rest : Forall2 supported ss ts -> (forall s, In s ss -> ~ long_number s) -> parse s = Ok T -> long_number s ->
  forall w, dcache_ok (fst w) -> r_decs (fst w) = decs -> exists w', sequenceM (limited_get_decoder k) (map PStr ss ++ PStr s :: rest) w = (Err VisitationError, w').
Proof.
  intros F. induction F as [|s0 t0 ss ts S F IH]; intros H P L w C E; cbn [map app sequenceM].
  - cbn [limited_get_decoder]. rewrite (visit_long s T P L). eauto.
  - rewrite limited_decoder_short by (apply H; left; reflexivity). destruct (get_decoder_pure w k s0 C) as (w1 & -> & (S1 & S2 & _) & C1).
    rewrite E, (find_dec_supported k s0 t0 S). destruct (IH ltac:(intros x I1; apply H; right; exact I1) P L w1 C1 ltac:(congruence)) as (w' & ->). eauto.
Qed.
Theorem limited_encode_long pk w ss ts s T rest types args l : used pk w -> Forall2 supported ss ts -> (forall s, In s ss -> ~ long_number s) ->
  g_type s T -> long_number s -> seq_like types (map PStr ss ++ PStr s :: rest) -> seq_like args l ->
  limited_encode_in w types args = Err VisitationError.
Proof.
  intros U F H P L St Sa. apply used_spec in U. destruct U as (E & _ & [C _]). apply parse_spec in P. unfold limited_encode_in, limited_encode.
  apply list_like in St, Sa. rewrite St, Sa. destruct (limited_encoders_long pk ss ts s T rest F H P L (fst w) C E) as (r' & ->). reflexivity.
Qed.
Theorem limited_decode_long w ss ts s T rest types data b strict : used false w -> Forall2 supported ss ts -> (forall s, In s ss -> ~ long_number s) ->
  g_type s T -> long_number s -> seq_like types (map PStr ss ++ PStr s :: rest) -> bytes_like data b ->
  limited_decode_in w types data strict = Err VisitationError.
Proof.
  intros U F H P L St Sa. apply used_spec in U. destruct U as (_ & D & [_ C]). change (decs_of false) with decs in D. apply parse_spec in P.
  unfold limited_decode_in, limited_decode. apply list_like in St. rewrite St.
  replace (validate_bytes_param data) with (Ok b) by (destruct Sa as [->| ->]; reflexivity).
  destruct (limited_decoders_long (Some strict) ss ts s T rest F H P L w C D) as (r' & ->). reflexivity.
Qed.
Theorem limited_is_encodable_long w s T v : g_type s T -> long_number s ->
  limited_is_encodable_type_in w (PStr s) = Ok false /\ limited_is_encodable_in w (PStr s) v = Ok false.
Proof.
  intros P L. apply parse_spec in P. unfold limited_is_encodable_type_in, limited_is_encodable_in, limited_is_encodable, limited_is_encodable_type.
  cbn [limited_get_encoder]. rewrite (visit_long s T P L). split; reflexivity.
Qed.

(** *** Witnesses *)
Lemma long_10 : long_shown (PInt (10 ^ 4300)).
Proof. constructor. generalize (10 ^ 4300). intro. lia. Qed.
Lemma short_10 : ~ long_shown (PInt (10 ^ 4300 - 1)).
Proof.
  intro H. assert (P : 0 < 10 ^ 4300) by (apply Z.pow_pos_nonneg; [reflexivity|discriminate]).
  inversion H; [generalize dependent (10 ^ 4300); intros; lia|]. take (_ \/ _) as S. destruct S; discriminate. Qed.

(** ** The registries afterwards *)
Lemma limited_type_same typ r : ~ long_type typ -> limited_is_encodable_type typ r = api_is_encodable_type typ r.
Proof.
  intro S. unfold limited_is_encodable_type, api_is_encodable_type. destruct typ; try reflexivity.
  rewrite limited_encoder_short by (intro L; apply S; eexists; eauto). unfold has_encoder.
  destruct (get_encoder s r) as [[e|e] r1]; [reflexivity|]. destruct e; reflexivity.
Qed.
Theorem limited_state types typ args data strict r (w : world) : short_types types -> ~ long_type typ ->
  snd (limited_encode types args r) = snd (api_encode types args r)
  /\ snd (limited_is_encodable_type typ r) = snd (api_is_encodable_type typ r)
  /\ snd (limited_is_encodable typ args r) = snd (api_is_encodable typ args r)
  /\ snd (limited_decode types data strict w) = snd (api_decode types data strict w).
Proof.
  intros S T.
  assert (SL : forall l, validate_list_like_param types = Ok l -> forall s, In (PStr s) l -> ~ long_number s).
  { intros l Tl s I1. apply (S l s); [|exact I1]. apply list_like in Tl. exact Tl. }
  split; [|split; [|split]].
  - unfold limited_encode, api_encode. destruct (validate_list_like_param types) as [l|]; [|reflexivity].
    destruct (validate_list_like_param args); [|reflexivity]. rewrite (limited_encoders_same l _ (SL l eq_refl)).
    destruct (sequenceM get_encoder_py l r) as [[es|e] r1]; reflexivity.
  - rewrite (limited_type_same typ r T). reflexivity.
  - unfold limited_is_encodable, api_is_encodable. rewrite (limited_type_same typ r T).
    destruct (api_is_encodable_type typ r) as [[[]|e] r1] eqn:E; [|reflexivity|reflexivity].
    destruct typ; try discriminate E. cbn [get_encoder_py].
    rewrite limited_encoder_short by (intro L; apply T; eexists; eauto). destruct (get_encoder s r1) as [[q|e] r2]; reflexivity.
  - unfold limited_decode, api_decode. destruct (validate_list_like_param types) as [l|]; [|reflexivity].
    destruct (validate_bytes_param data); [|reflexivity]. rewrite (limited_decoders_same _ l _ (SL l eq_refl)). reflexivity.
Qed.
