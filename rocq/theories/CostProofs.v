(** Counting reads does not change results, and how many there are. *)
From Coq Require Import Strings.Byte Strings.String.
From Verif Require Import Tac Bytes BytesProofs Utf8 Address Decimals Encoding Decoding Spec GrammarSpec TypeSpec Registry Codec Histories DecLeafProofs DecodeProofs EncodeProofs DecodeFacts2 ReaderProofs CacheProofs LookupProofs ApiProofs HistoryProofs DecodeApi ReadSpec ReadProofs Cost CostSpec.
Open Scope Z_scope.

(** ** Results *)

Lemma snd_cbind {A B} (m : counted A) (f : A -> counted B) : snd (cbind m f) = (a <- snd m ;; snd (f a)).
Proof. destruct m as [n [a|e]]; reflexivity. Qed.
Lemma snd_cloop {S} n (f : S -> counted S) (g : S -> result S) s : (forall s, snd (f s) = g s) -> snd (cloop n f s) = loop_Z n g s.
Proof.
  intro H. destruct n as [|p|p]; try reflexivity. cbn [cloop loop_Z]. revert s.
  induction p as [p IH|p IH|]; intro s; cbn [cloop_pos loop_pos].
  - rewrite snd_cbind, H. destruct (g s) as [s0|]; [|reflexivity]. cbn [bind]. rewrite snd_cbind, IH.
    destruct (loop_pos p g s0); [|reflexivity]. apply IH.
  - rewrite snd_cbind, IH. destruct (loop_pos p g s); [|reflexivity]. apply IH.
  - apply H.
Qed.
Lemma snd_bytestring strict buf st : snd (bytestring_count strict buf st) = read_bytestring strict buf st.
Proof.
  unfold bytestring_count, read_bytestring. rewrite snd_cbind. cbn [snd once].
  destruct (decode_uint_256 buf st) as [[n st1]|]; [|reflexivity]. cbn [bind]. rewrite snd_cbind. cbn [snd once].
  destruct (read _ _ _) as [[x st2]|]; reflexivity.
Qed.
Lemma snd_pointers ht n buf st : snd (pointers_count ht n buf st) = array_validate_pointers ht n buf st.
Proof.
  unfold pointers_count, array_validate_pointers. destruct ht; [|reflexivity]. rewrite snd_cbind.
  rewrite (snd_cloop n _ (check_pointer buf (pos st) (pos st + 32 * n))) by reflexivity. reflexivity.
Qed.
Lemma snd_items n f g st : (forall st, snd (f st) = g st) -> snd (items_count n f st) = loop_items n g st.
Proof.
  intro H. unfold items_count, loop_items. rewrite snd_cbind.
  rewrite (snd_cloop n _ (fun s : list pyval * stream => ' (v, st') <- g (snd s) ;; Ok (v :: fst s, st'))).
  - destruct (loop_Z _ _ _) as [[acc st']|]; reflexivity.
  - intro s. rewrite snd_cbind, H. destruct (g (snd s)) as [[v st']|]; reflexivity.
Qed.

Section Counts.
Variables (h : heap) (buf : bytes).
Section Check.
Variables start hi : Z.
Fixpoint vpc (ds : list decoder) (st : stream) : counted stream :=
  match ds with
  | [] => free (Ok st)
  | d :: ds' =>
      st' <~ (if is_headtail d then pointer_count buf start hi st
              else ' (_, st') <~ decode_count h d buf st ;; free (Ok st')) ;;
      vpc ds' st'
  end.
End Check.
Fixpoint goc (ds : list decoder) (st : stream) : counted (list pyval * stream) :=
  match ds with
  | [] => free (Ok ([], st))
  | d :: ds' =>
      ' (v, st') <~ decode_count h d buf st ;;
      ' (vs, st'') <~ goc ds' st' ;;
      free (Ok (v :: vs, st''))
  end.
Lemma count_tuple_eq ds st : decode_count h (DTuple ds) buf st =
  (st1 <~ vpc (pos st) (pos st + 32 * fold_right (fun d acc => array_size_attr d + acc) 0 ds) ds st ;;
   st2 <~ free (seek (pos st) st1) ;;
   ' (vs, st3) <~ goc ds st2 ;;
   free (Ok (PTuple vs, st3))).
Proof. reflexivity. Qed.

Lemma snd_vpc start hi ds st : Forall (fun d => forall st, snd (decode_count h d buf st) = decode_with h d buf st) ds ->
  snd (vpc start hi ds st) = vp h buf start hi ds st.
Proof.
  intro F. revert st. induction F as [|d ds Hd F IH]; intro st; [reflexivity|]. cbn [vpc vp]. rewrite snd_cbind.
  destruct (is_headtail d).
  - cbn [pointer_count once snd]. destruct (check_pointer _ _ _ _); [|reflexivity]. apply IH.
  - rewrite snd_cbind, Hd. destruct (decode_with h d buf st) as [[v st']|]; [|reflexivity]. apply IH.
Qed.
Lemma snd_goc ds st : Forall (fun d => forall st, snd (decode_count h d buf st) = decode_with h d buf st) ds ->
  snd (goc ds st) = go h buf ds st.
Proof.
  intro F. revert st. induction F as [|d ds Hd F IH]; intro st; [reflexivity|]. cbn [goc go]. rewrite snd_cbind, Hd.
  destruct (decode_with h d buf st) as [[v st']|]; [|reflexivity]. cbn [bind]. rewrite snd_cbind, IH.
  destruct (go _ _ ds st') as [[vs st'']|]; reflexivity.
Qed.

Theorem count_result d : forall st, snd (decode_count h d buf st) = decode_with h d buf st.
Proof.
  induction d as [b|b| | |b n|b n|b|s|s f|d IH|ds IH|n d IH|d IH|f|b s f] using decoder_ind'; intro st; try reflexivity.
  - cbn [decode_count decode_with]. rewrite snd_cbind, snd_bytestring. destruct (read_bytestring _ _ _) as [[x st']|]; reflexivity.
  - cbn [decode_count decode_with]. rewrite snd_cbind, snd_bytestring. destruct (read_bytestring _ _ _) as [[x st']|]; [|reflexivity].
    cbn [bind]. rewrite snd_cbind. cbn [free snd]. destruct (f x); reflexivity.
  - cbn [decode_count decode_with]. rewrite snd_cbind. cbn [once snd]. destruct (decode_uint_256 _ _) as [[z st1]|]; [|reflexivity].
    cbn [bind]. rewrite snd_cbind. cbn [free snd]. destruct (push_frame _ _); [|reflexivity]. cbn [bind].
    rewrite snd_cbind, IH. destruct (decode_with h d buf _) as [[v st3]|]; [|reflexivity]. cbn [bind].
    rewrite snd_cbind. cbn [free snd]. destruct (pop_frame _); reflexivity.
  - rewrite count_tuple_eq, decode_tuple_eq, snd_cbind, snd_vpc by exact IH. destruct (vp _ _ _ _ _ _); [|reflexivity].
    cbn [bind]. rewrite snd_cbind. cbn [free snd]. destruct (seek _ _); [|reflexivity]. cbn [bind].
    rewrite snd_cbind, snd_goc by exact IH. destruct (go _ _ _ _) as [[vs st3]|]; reflexivity.
  - cbn [decode_count decode_with]. rewrite snd_cbind, snd_pointers. destruct (array_validate_pointers _ _ _ _); [|reflexivity].
    cbn [bind]. rewrite snd_cbind, (snd_items n _ _ _ IH). destruct (loop_items _ _ _) as [[vs st2]|]; reflexivity.
  - cbn [decode_count decode_with]. rewrite snd_cbind. cbn [once snd]. destruct (decode_uint_256 _ _) as [[n st1]|]; [|reflexivity].
    cbn [bind]. rewrite snd_cbind. cbn [free snd]. destruct (push_frame _ _); [|reflexivity]. cbn [bind].
    rewrite snd_cbind, snd_pointers. destruct (array_validate_pointers _ _ _ _); [|reflexivity].
    cbn [bind]. rewrite snd_cbind, (snd_items n _ _ _ IH). destruct (loop_items _ _ _) as [[vs st2]|]; [|reflexivity].
    cbn [bind]. rewrite snd_cbind. cbn [free snd]. destruct (pop_frame _); reflexivity.
Qed.
Lemma vpc_result start hi ds st : snd (vpc start hi ds st) = vp h buf start hi ds st.
Proof. apply snd_vpc. apply Forall_forall. intros d _. apply count_result. Qed.

(** ** Numbers *)

Lemma fst_cbind {A B} (m : counted A) (f : A -> counted B) :
  fst (cbind m f) = fst m + match snd m with Ok a => fst (f a) | Err _ => 0 end.
Proof. destruct m as [n [a|e]]; cbn [cbind fst snd]; lia. Qed.
Lemma cbind_assoc {A B C} (m : counted A) (f : A -> counted B) (g : B -> counted C) :
  cbind (cbind m f) g = cbind m (fun a => cbind (f a) g).
Proof.
  destruct m as [n [a|e]]; [|reflexivity]. cbn [cbind]. destruct (f a) as [k [b|e]]; cbn [cbind fst snd]; [|reflexivity].
  f_equal. lia.
Qed.
Lemma cbind_free {A B} (a : A) (f : A -> counted B) : cbind (free (Ok a)) f = f a.
Proof. cbn. destruct (f a). reflexivity. Qed.
Lemma cbind_ext {A B} (m : counted A) (f g : A -> counted B) : (forall a, f a = g a) -> cbind m f = cbind m g.
Proof. intro H. destruct m as [n [a|e]]; [|reflexivity]. cbn [cbind]. rewrite H. reflexivity. Qed.
Fixpoint citer {S} (n : nat) (f : S -> counted S) (s : S) : counted S :=
  match n with O => free (Ok s) | S n' => s' <~ f s ;; citer n' f s' end.
Lemma citer_add {S} a b (f : S -> counted S) s : citer (a + b) f s = (s' <~ citer a f s ;; citer b f s').
Proof.
  revert s. induction a as [|a IH]; intro s; cbn [Nat.add citer]; [rewrite cbind_free; reflexivity|].
  rewrite cbind_assoc. apply cbind_ext. exact IH.
Qed.
Lemma cloop_citer {S} n (f : S -> counted S) s : cloop n f s = citer (Z.to_nat n) f s.
Proof.
  destruct n as [|p|p]; try reflexivity. cbn [cloop Z.to_nat]. revert s.
  induction p as [p IH|p IH|]; intro s; cbn [cloop_pos].
  - rewrite Pos2Nat.inj_xI. cbn [citer]. apply cbind_ext. intro s0. replace (2 * Pos.to_nat p)%nat with (Pos.to_nat p + Pos.to_nat p)%nat by lia.
    rewrite citer_add, <- IH. apply cbind_ext. exact IH.
  - rewrite Pos2Nat.inj_xO. replace (2 * Pos.to_nat p)%nat with (Pos.to_nat p + Pos.to_nat p)%nat by lia.
    rewrite citer_add, <- IH. apply cbind_ext. exact IH.
  - change (Pos.to_nat 1) with 1%nat. cbn [citer]. destruct (f s) as [k [x|e]]; cbn [cbind free fst snd]; [f_equal; lia|reflexivity].
Qed.
Lemma pointers_vpc start hi d n st : is_headtail d = true -> citer n (pointer_count buf start hi) st = vpc start hi (repeat d n) st.
Proof.
  intro H. revert st. induction n as [|n IH]; intro st; [reflexivity|]. cbn [citer repeat vpc]. rewrite H. apply cbind_ext. exact IH.
Qed.
Lemma items_goc d n st : fst (items_count n (decode_count h d buf) st) = fst (goc (repeat d (Z.to_nat n)) st).
Proof.
  unfold items_count. rewrite cloop_citer.
  assert (G : forall k acc st,
    fst (citer k (fun s : list pyval * stream => ' (v, st') <~ decode_count h d buf (snd s) ;; free (Ok (v :: fst s, st'))) (acc, st))
    = fst (goc (repeat d k) st)).
  { clear. induction k as [|k IH]; intros acc st; [reflexivity|].
    cbn [citer repeat goc fst snd]. rewrite cbind_assoc, !fst_cbind. f_equal.
    destruct (snd (decode_count h d buf st)) as [[v st']|]; [|reflexivity]. rewrite cbind_free, IH, fst_cbind.
    destruct (snd (goc _ _)) as [[vs st'']|]; cbn; lia. }
  rewrite fst_cbind, G. destruct (snd _) as [[acc st']|]; cbn; lia.
Qed.

Hypothesis Hbuf : len buf <= maxsize.
Notation W := (len buf / 32).

Definition costs (s : bool) (t : sty) : Prop :=
  forall st, 0 <= pos st <= maxsize -> (sdyn t = true -> total st = pos st) ->
  0 <= fst (decode_count h (dec_of s t) buf st) <= max_work W t
  /\ (forall a, pd buf s t (pos st) = Ok a -> fst (decode_count h (dec_of s t) buf st) = work t a).
Definition wrapd (s : bool) (t : sty) : decoder := wrap (dec_of s t).
Lemma max_work_nonneg n t : 0 <= n -> wf t -> 0 <= max_work n t.
Proof.
  intro Hn. induction t as [m|m| | |m k|m k|k| | |t IH|k t IH|ts IH] using sty_ind'; intro Wt; cbn [max_work]; try lia; inv Wt.
  - specialize (IH ltac:(assumption)). destruct (sdyn t); nia.
  - specialize (IH ltac:(assumption)). destruct (sdyn t); nia.
  - take (Forall wf ts) as F. take (ts <> []) as Hne. clear Hne. induction IH as [|t ts Ht IH' IHl]; cbn [fold_right]; [lia|]. inv F.
    specialize (Ht ltac:(assumption)). specialize (IHl ltac:(assumption)). destruct (sdyn t); lia.
Qed.
Lemma words_nonneg : 0 <= W.
Proof. pose proof (len_nonneg buf). lia. Qed.
Lemma member_costs s t : wf t -> costs s t -> forall start st, 0 <= pos st <= maxsize -> 0 <= start ->
  (sdyn t = true -> total st = start /\ forall z, word_at buf (pos st) = Ok z -> start + z < len buf) ->
  0 <= fst (decode_count h (wrapd s t) buf st) <= (if sdyn t then 1 + max_work W t else max_work W t)
  /\ (forall a, member buf start t (pd buf s t) (pos st) = Ok a ->
      fst (decode_count h (wrapd s t) buf st) = if sdyn t then 1 + work t a else work t a).
Proof.
  intros Wt C start st Hp Hs Hd. unfold wrapd. rewrite wrap_of. unfold member. destruct (sdyn t) eqn:D.
  - destruct (Hd eq_refl) as [Ht Hz]. cbn [decode_count]. rewrite decode_uint_256_eq by lia.
    destruct (word_at buf (pos st)) as [z|e] eqn:Wd; [|cbn [bind once cbind fst snd]; split; [|discriminate]; pose proof (max_work_nonneg W t words_nonneg Wt); lia]. cbn [bind once cbind fst snd].
    pose proof (word_at_range _ _ _ (proj1 Hp) Wd) as Zr. specialize (Hz z eq_refl).
    apply word_at_ok in Wd. destruct Wd as [Wd _].
    unfold push_frame, seek_in_frame. cbn [total adv pos frames]. rewrite Ht.
    rewrite seek_ok by lia. cbn [bind frames total]. rewrite Z.add_0_r. rewrite !cbind_free, !fst_cbind.
    match goal with |- context [decode_count h _ buf ?x] => specialize (C x); set (st2 := x) in * end.
    cbn [pos total] in C. specialize (C ltac:(cbn; lia) ltac:(auto)). destruct C as [C1 C2].
    assert (R : forall x : result (pyval * stream),
       match x with Ok a => fst (let '(v, st3) := a in st4 <~ free (pop_frame st3) ;; free (Ok (v, st4))) | Err _ => 0 end = 0).
    { intros [[v st3]|]; [|reflexivity]. rewrite fst_cbind. cbn. destruct (pop_frame st3); reflexivity. }
    rewrite R. split; [lia|]. intros a Ha. cbn [bind] in Ha. rewrite (C2 a Ha). lia.
  - apply (C st Hp). congruence.
Qed.

Definition rs_of (s : bool) (ts : list sty) : list rdr := map (rdr_of buf s) ts.
(** The first pass over a head section. *)
Fixpoint check_work (n : Z) (ts : list sty) : Z :=
  match ts with [] => 0 | t :: ts' => (if sdyn t then 1 else max_work n t) + check_work n ts' end.
Fixpoint check_exact (ts : list sty) (l : list aval) : Z :=
  match ts, l with t :: ts', x :: l' => (if sdyn t then 1 else work t x) + check_exact ts' l' | _, _ => 0 end.
Lemma check_work_nonneg ts : Forall wf ts -> 0 <= check_work W ts.
Proof.
  induction 1 as [|t ts Wt _ IH]; cbn [check_work]; [lia|]. pose proof (max_work_nonneg W t words_nonneg Wt). destruct (sdyn t); lia.
Qed.
Lemma headtail_wrapd s t : is_headtail (wrapd s t) = sdyn t.
Proof. apply is_headtail_of. Qed.
Lemma vpc_costs s start hi ts : 0 <= start -> Forall wf ts -> Forall (costs s) ts -> forall st, 0 <= pos st <= maxsize ->
  0 <= fst (vpc start hi (map (wrapd s) ts) st) <= check_work W ts
  /\ (tcheck buf start hi (rs_of s ts) (pos st) = Ok tt -> forall l, tread buf start (rs_of s ts) (pos st) = Ok l ->
      fst (vpc start hi (map (wrapd s) ts) st) = check_exact ts l).
Proof.
  intros Hs Wt C. induction C as [|t ts C Cs IH]; intros st Hp; unfold rs_of in *; cbn [map tcheck tread check_work check_exact].
  - cbn. split; [lia|]. intros _ l H. inv H. reflexivity.
  - inv Wt. specialize (IH ltac:(assumption)).
    pose proof (check_work_nonneg ts ltac:(assumption)) as N.
    remember (fst (vpc start hi (wrapd s t :: map (wrapd s) ts) st)) as X eqn:EX.
    cbn [vpc] in EX. rewrite headtail_wrapd, fst_cbind in EX. cbn [rdr_of r_dyn r_fn r_size]. destruct (sdyn t) eqn:D.
    + unfold pointer_count, check_pointer in EX. cbn [once fst snd] in EX. rewrite decode_uint_256_eq in EX by lia.
      destruct (word_at buf (pos st)) as [z|e] eqn:Wd; [|cbn [bind] in *; split; [lia|discriminate]]. cbn [bind] in *.
      destruct ((start + z <? hi) || (len buf <=? start + z)); [split; [lia|discriminate]|].
      apply word_at_ok in Wd. destruct Wd as [Wd _].
      destruct (IH (adv 32 st) ltac:(cbn; lia)) as [I1 I2]. cbn [adv pos] in I2. split; [lia|].
      intros T l Hl. bok Hl. bok Hl. inv Hl. rewrite (I2 T _ ltac:(eassumption)). reflexivity.
    + pose proof (member_costs s t ltac:(assumption) C start st Hp Hs ltac:(congruence)) as [M1 M2]. rewrite D in M1, M2.
      unfold member in M2. rewrite D in M2.
      pose proof (member_refines h buf Hbuf s t _ (pd_refines h buf Hbuf t ltac:(assumption) s) start st Hp Hs ltac:(congruence)) as R.
      unfold magrees, member, member_size in R. rewrite D in R. fold (wrapd s t) in R.
      rewrite fst_cbind, snd_cbind, count_result in EX. destruct (pd buf s t (pos st)) as [a|e].
      * destruct R as [R Hp']. rewrite R in EX. cbn [bind free fst snd] in EX.
        destruct (IH (mkStream (pos st + static_size t) (frames st) (total st)) ltac:(cbn; lia)) as [I1 I2]. cbn [pos] in I2.
        split; [lia|]. intros T l Hl. cbn [bind] in *. bok Hl. inv Hl. rewrite (M2 a eq_refl). rewrite (I2 T _ ltac:(eassumption)). lia.
      * rewrite R in EX. cbn [bind] in *. split; [lia|]. discriminate.
Qed.

(** The second pass. *)
Definition mwork (t : sty) (a : aval) : Z := if sdyn t then 1 + work t a else work t a.
Definition mmax (t : sty) : Z := if sdyn t then 1 + max_work W t else max_work W t.
Lemma tread_cons s start t ts p : tread buf start (rs_of s (t :: ts)) p =
  (v <- member buf start t (pd buf s t) p ;; vs <- tread buf start (rs_of s ts) (p + member_size t) ;; Ok (v :: vs)).
Proof.
  unfold rs_of, member, member_size. cbn [map tread rdr_of r_dyn r_fn r_size]. destruct (sdyn t); [|reflexivity].
  destruct (word_at buf p); reflexivity.
Qed.
Lemma member_bounds s start t p a : wf t -> 0 <= p -> member buf start t (pd buf s t) p = Ok a -> p + 32 <= len buf.
Proof.
  intros Wt Hp H. unfold member in H. destruct (sdyn t).
  - bok H. apply word_at_ok in Hx. tauto.
  - eapply pd_bounds; eassumption.
Qed.
Lemma goc_step s t ds start st : wf t -> costs s t -> 0 <= pos st <= maxsize -> 0 <= start ->
  (sdyn t = true -> total st = start /\ forall z, word_at buf (pos st) = Ok z -> start + z < len buf) ->
  exists c, 0 <= c <= mmax t /\
  match member buf start t (pd buf s t) (pos st) with
  | Ok a => c = mwork t a /\ 0 <= pos st + member_size t <= maxsize
      /\ fst (goc (wrapd s t :: ds) st) = c + fst (goc ds (mkStream (pos st + member_size t) (frames st) (total st)))
  | Err _ => fst (goc (wrapd s t :: ds) st) = c
  end.
Proof.
  intros Wt C Hp Hs Hd.
  destruct (member_costs s t Wt C start st Hp Hs Hd) as [M1 M2].
  pose proof (member_refines h buf Hbuf s t _ (pd_refines h buf Hbuf t Wt s) start st Hp Hs Hd) as R.
  fold (wrapd s t) in R. unfold magrees in R.
  exists (fst (decode_count h (wrapd s t) buf st)). split; [exact M1|]. cbn [goc]. rewrite fst_cbind, count_result.
  destruct (member buf start t (pd buf s t) (pos st)) as [a|e].
  - destruct R as [-> Hp']. split; [exact (M2 a eq_refl)|]. split; [exact Hp'|]. rewrite fst_cbind. f_equal.
    destruct (snd (goc _ _)) as [[vs st']|]; cbn; lia.
  - rewrite R. lia.
Qed.
Fixpoint goc_exact (ts : list sty) (l : list aval) : Z :=
  match ts, l with t :: ts', x :: l' => mwork t x + goc_exact ts' l' | _, _ => 0 end.
Definition goc_max (ts : list sty) : Z := fold_right (fun t acc => mmax t + acc) 0 ts.
Lemma goc_max_nonneg ts : Forall wf ts -> 0 <= goc_max ts.
Proof.
  unfold goc_max. induction 1 as [|x l Wx _ IH]; cbn [fold_right]; [lia|]. pose proof (max_work_nonneg W x words_nonneg Wx).
  unfold mmax at 1. destruct (sdyn x); lia.
Qed.
Lemma ptrs_cons s start t ts p : ptrs_ok buf start (rs_of s (t :: ts)) p ->
  (sdyn t = true -> forall z, word_at buf p = Ok z -> start + z < len buf) /\ ptrs_ok buf start (rs_of s ts) (p + member_size t).
Proof.
  unfold rs_of, member_size. cbn [map ptrs_ok rdr_of r_dyn r_fn r_size]. destruct (sdyn t); [tauto|]. split; [discriminate|assumption].
Qed.
Lemma goc_costs s start ts : 0 <= start -> Forall wf ts -> Forall (costs s) ts -> forall st, 0 <= pos st <= maxsize ->
  (existsb sdyn ts = true -> total st = start) -> ptrs_ok buf start (rs_of s ts) (pos st) ->
  0 <= fst (goc (map (wrapd s) ts) st) <= goc_max ts
  /\ (forall l, tread buf start (rs_of s ts) (pos st) = Ok l -> fst (goc (map (wrapd s) ts) st) = goc_exact ts l).
Proof.
  intros Hs Wt C. induction C as [|t ts C Cs IH]; intros st Hp Ht P.
  - cbn. split; [lia|]. intros l H. inv H. reflexivity.
  - inv Wt. specialize (IH ltac:(assumption)). apply ptrs_cons in P. destruct P as [P1 P2]. cbn [existsb] in Ht.
    destruct (goc_step s t (map (wrapd s) ts) start st ltac:(assumption) C Hp Hs) as (c & Hc & H).
    { intro D. rewrite D in Ht. split; [apply Ht; reflexivity|exact (P1 D)]. }
    change (goc_max (t :: ts)) with (mmax t + goc_max ts). cbn [map]. rewrite tread_cons.
    pose proof (goc_max_nonneg ts ltac:(assumption)) as N.
    destruct (member buf start t (pd buf s t) (pos st)) as [a|e]; cbn [bind].
    + destruct H as (-> & Hp' & ->).
      destruct (IH (mkStream (pos st + member_size t) (frames st) (total st)) Hp') as [I1 I2].
      { cbn [total]. intro E. apply Ht. rewrite E. apply orb_true_r. }
      { exact P2. }
      split; [lia|]. intros l Hl. bok Hl. inv Hl. cbn [goc_exact]. rewrite (I2 _ Hx). reflexivity.
    + rewrite H. split; [lia|discriminate].
Qed.

(** Items of an array: each takes at least a word of the payload. *)
Definition avail (p : Z) : Z := 1 + Z.max 0 ((len buf - p) / 32).
Lemma avail_step p q : p + 32 <= len buf -> p + 32 <= q -> avail q + 1 <= avail p.
Proof. unfold avail. intros. lia. Qed.
Lemma avail_pos p : 1 <= avail p.
Proof. unfold avail. lia. Qed.
Lemma goc_array s t start k : 0 <= start -> wf t -> costs s t -> forall st, 0 <= pos st <= maxsize ->
  (sdyn t = true -> total st = start) -> ptrs_ok buf start (rs_of s (repeat t k)) (pos st) ->
  0 <= fst (goc (repeat (wrapd s t) k) st) <= Z.min (Z.of_nat k) (avail (pos st)) * mmax t
  /\ (forall l, tread buf start (rs_of s (repeat t k)) (pos st) = Ok l ->
      fst (goc (repeat (wrapd s t) k) st) = fold_right (fun x acc => mwork t x + acc) 0 l).
Proof.
  intros Hs Wt C. assert (N : 0 <= mmax t) by (unfold mmax; pose proof (max_work_nonneg W t words_nonneg Wt); destruct (sdyn t); lia).
  induction k as [|k IH]; intros st Hp Ht P.
  - cbn [repeat goc free fst rs_of map tread]. pose proof (avail_pos (pos st)). split; [rewrite Z.min_l by lia; lia|]. intros l H'. inv H'. reflexivity.
  - cbn [repeat] in *. apply ptrs_cons in P. destruct P as [P1 P2].
    destruct (goc_step s t (repeat (wrapd s t) k) start st Wt C Hp Hs) as (c & Hc & H).
    { intro D. split; [exact (Ht D)|exact (P1 D)]. }
    rewrite tread_cons. pose proof (avail_pos (pos st)) as A.
    destruct (member buf start t (pd buf s t) (pos st)) as [a|e] eqn:M; cbn [bind].
    + destruct H as (-> & Hp' & ->). pose proof (member_bounds s start t (pos st) a Wt (proj1 Hp) M) as B.
      destruct (IH (mkStream (pos st + member_size t) (frames st) (total st)) Hp' Ht P2) as [I1 I2]. cbn [pos] in I1, I2.
      assert (Sz : 32 <= member_size t) by (unfold member_size; pose proof (static_size_ge t Wt); destruct (sdyn t); lia).
      pose proof (avail_step (pos st) (pos st + member_size t) B ltac:(lia)) as A'.
      split.
      * assert (E : Z.min (Z.of_nat k) (avail (pos st + member_size t)) + 1 <= Z.min (Z.of_nat (S k)) (avail (pos st))) by lia. nia.
      * intros l Hl. bok Hl. inv Hl. cbn [fold_right]. rewrite (I2 _ Hx). reflexivity.
    + rewrite H. split; [|discriminate]. assert (1 <= Z.min (Z.of_nat (S k)) (avail (pos st))) by lia. nia.
Qed.
Lemma vpc_array s t start hi k : sdyn t = true -> forall st, 0 <= pos st <= maxsize ->
  0 <= fst (vpc start hi (repeat (wrapd s t) k) st) <= Z.min (Z.of_nat k) (avail (pos st))
  /\ (tcheck buf start hi (rs_of s (repeat t k)) (pos st) = Ok tt -> fst (vpc start hi (repeat (wrapd s t) k) st) = Z.of_nat k).
Proof.
  intro D. induction k as [|k IH]; intros st Hp; pose proof (avail_pos (pos st)) as A; unfold rs_of in *; cbn [repeat map tcheck].
  - cbn [vpc free fst]. split; [lia|reflexivity].
  - remember (fst (vpc start hi (wrapd s t :: repeat (wrapd s t) k) st)) as X eqn:EX.
    cbn [vpc] in EX. rewrite headtail_wrapd, fst_cbind, D in EX. cbn [rdr_of r_dyn]. rewrite D.
    unfold pointer_count, check_pointer in EX. cbn [once fst snd] in EX. rewrite decode_uint_256_eq in EX by lia.
    destruct (word_at buf (pos st)) as [z|e] eqn:Wd; [|cbn [bind] in *; split; [lia|discriminate]]. cbn [bind] in *.
    destruct ((start + z <? hi) || (len buf <=? start + z)); [split; [lia|discriminate]|].
    apply word_at_ok in Wd. destruct Wd as [Wd _].
    destruct (IH (adv 32 st) ltac:(cbn; lia)) as [I1 I2]. cbn [adv pos] in I1, I2.
    pose proof (avail_step (pos st) (pos st + 32) Wd ltac:(lia)).
    split; [lia|]. intro T. specialize (I2 T). lia.
Qed.
Definition item_work (t : sty) (a : aval) : Z := if sdyn t then 2 + work t a else work t a.
Definition item_max (t : sty) : Z := if sdyn t then 2 + max_work W t else max_work W t.
Definition array_cost (t : sty) (n : Z) (st : stream) : Z :=
  fst (pointers_count (is_headtail (wrapd true t)) n buf st)
  + match snd (pointers_count (is_headtail (wrapd true t)) n buf st) with
    | Ok st1 => fst (items_count n (decode_count h (wrapd true t) buf) st1)
    | Err _ => 0
    end.
Lemma rs_repeat s t k : rs_of s (repeat t k) = repeat (mkR (sdyn t) (static_size t) (pd buf s t)) k.
Proof. unfold rs_of. induction k as [|k IH]; [reflexivity|]. cbn [repeat map]. rewrite IH. reflexivity. Qed.
Lemma array_costs t n st : 0 <= n -> wf t -> costs true t -> 0 <= pos st <= maxsize -> (sdyn t = true -> total st = pos st) ->
  0 <= array_cost t n st <= Z.min n (avail (pos st)) * item_max t
  /\ (forall l, rd_array buf (sdyn t) (mkR (sdyn t) (static_size t) (pd buf true t)) n (pos st) = Ok (VSeq l) ->
      array_cost t n st = fold_right (fun x acc => item_work t x + acc) 0 l).
Proof.
  intros Hn Wt C Hp Ht. unfold array_cost, rd_array. rewrite headtail_wrapd. unfold pointers_count.
  remember (Z.to_nat n) as k eqn:Hk. assert (Ek : Z.of_nat k = n) by lia. rewrite <- (rs_repeat true t k).
  pose proof (max_work_nonneg W t words_nonneg Wt) as N. pose proof (avail_pos (pos st)) as A.
  assert (E0 : mkStream (pos st) (frames st) (total st) = st) by (destruct st; reflexivity).
  destruct (sdyn t) eqn:D.
  - rewrite cloop_citer. rewrite <- Hk. rewrite (pointers_vpc _ _ (wrapd true t)) by (rewrite headtail_wrapd; exact D).
    destruct (vpc_array true t (pos st) (pos st + 32 * n) k D st Hp) as [V1 V2]. rewrite Ek in *.
    rewrite fst_cbind, snd_cbind.
    pose proof (vp_refines h buf Hbuf (pos st) (pos st + 32 * n) _ _ _ (proj1 Hp)
      (mrefines_repeat h buf true t _ k (pd_refines h buf Hbuf t Wt true)) st Hp) as R.
    rewrite <- rs_repeat in R. fold (wrapd true t) in R. rewrite <- vpc_result in R.
    destruct (tcheck buf (pos st) (pos st + 32 * n) (rs_of true (repeat t k)) (pos st)) as [[]|e] eqn:T.
    + destruct R as [p' ->]. cbn [bind]. rewrite seek_ok by exact Hp. cbn [free fst snd frames total]. rewrite E0, items_goc. rewrite <- Hk.
      destruct (goc_array true t (pos st) k (proj1 Hp) Wt C st Hp ltac:(auto) (tcheck_ptrs _ _ _ _ _ T)) as [G1 G2].
      unfold item_max, mmax, item_work, mwork in *. rewrite D in *. rewrite Ek in G1. specialize (V2 eq_refl). split; [nia|].
      intros l Hl. cbn [bind] in Hl. bok Hl. inv Hl. rewrite (G2 _ Hx), V2. apply tread_length in Hx. rewrite rs_repeat, repeat_length in Hx.
      assert (El : n = Z.of_nat (length l)) by lia. rewrite El. clear.
      induction l as [|x l IH]; cbn [fold_right length]; [reflexivity|]. lia.
    + rewrite R. cbn [bind]. split; [|discriminate]. unfold item_max. rewrite D. nia.
  - cbn [free fst snd]. rewrite items_goc. rewrite <- Hk.
    assert (P : ptrs_ok buf (pos st) (rs_of true (repeat t k)) (pos st)).
    { apply static_ptrs. rewrite rs_repeat. clear - D. induction k; constructor; auto. }
    destruct (goc_array true t (pos st) k (proj1 Hp) Wt C st Hp ltac:(congruence) P) as [G1 G2].
    unfold item_max, mmax, item_work, mwork in *. rewrite D in *. rewrite Ek in G1. split; [lia|].
    intros l Hl. cbn [bind] in Hl. bok Hl. inv Hl. rewrite (G2 _ Hx). reflexivity.
Qed.

Lemma tuple_costs s ts st : Forall wf ts -> Forall (costs s) ts -> 0 <= pos st <= maxsize -> (existsb sdyn ts = true -> total st = pos st) ->
  0 <= fst (decode_count h (mk_dtuple (map (dec_of s) ts)) buf st) <= max_work W (STuple ts)
  /\ (forall l, rd_tuple buf (map (rdr_of buf s) ts) (slots_of ts) (pos st) = Ok (VSeq l) ->
      fst (decode_count h (mk_dtuple (map (dec_of s) ts)) buf st) = work (STuple ts) (VSeq l)).
Proof.
  intros Wt C Hp Ht. unfold mk_dtuple. rewrite count_tuple_eq, slots_fold. unfold rd_tuple.
  assert (Em : map wrap (map (dec_of s) ts) = map (wrapd s) ts) by apply map_map.
  pose proof (mrefines_tuple h buf s ts ltac:(intros t Hi; apply pd_refines; [exact Hbuf|rewrite Forall_forall in Wt; auto])) as MR.
  pose proof (vp_refines h buf Hbuf (pos st) (pos st + 32 * slots_of ts) _ _ _ (proj1 Hp) MR st Hp) as V.
  rewrite Em in *. rewrite <- vpc_result in V. fold (rs_of s ts) in *.
  destruct (vpc_costs s (pos st) (pos st + 32 * slots_of ts) ts (proj1 Hp) Wt C st Hp) as [V1 V2].
  assert (E0 : mkStream (pos st) (frames st) (total st) = st) by (destruct st; reflexivity).
  assert (Ew : max_work W (STuple ts) = check_work W ts + goc_max ts).
  { clear. unfold goc_max. cbn [max_work]. induction ts as [|t ts IH]; [reflexivity|]. cbn [fold_right check_work]. rewrite IH.
    unfold mmax. destruct (sdyn t); lia. }
  pose proof (goc_max_nonneg ts Wt) as N.
  rewrite fst_cbind, Ew. destruct (tcheck buf (pos st) (pos st + 32 * slots_of ts) (rs_of s ts) (pos st)) as [[]|e] eqn:T.
  - destruct V as [p' ->]. rewrite seek_ok by exact Hp. cbn [frames total]. rewrite E0, cbind_free, fst_cbind.
    destruct (goc_costs s (pos st) ts (proj1 Hp) Wt C st Hp Ht (tcheck_ptrs _ _ _ _ _ T)) as [G1 G2].
    assert (K : forall r : result (list pyval * stream),
      match r with Ok a => fst (let '(vs, st3) := a in free (Ok (PTuple vs, st3))) | Err _ => 0 end = 0)
      by (intros [[? ?]|]; reflexivity).
    rewrite K.
    split; [lia|]. intros l Hl. cbn [bind] in Hl. bok Hl. inv Hl. rewrite (V2 eq_refl _ Hx), (G2 _ Hx). cbn [work]. rewrite Z.add_0_r.
    clear. revert l. induction ts as [|t ts IH]; intros [|x l]; cbn [check_exact goc_exact]; try reflexivity.
    rewrite <- IH. unfold mwork. destruct (sdyn t); lia.
  - rewrite V. split; [lia|]. discriminate.
Qed.
Lemma bytestring_cost s st : 0 <= pos st ->
  0 <= fst (bytestring_count s buf st) <= 2 /\ (forall b, rd_bytes buf s (pos st) = Ok b -> fst (bytestring_count s buf st) = 2).
Proof.
  intro Hp. unfold bytestring_count, rd_bytes. rewrite decode_uint_256_eq by exact Hp.
  destruct (word_at buf (pos st)) as [n|e]; [|cbn; split; [lia|discriminate]]. cbn [bind once cbind fst snd].
  destruct (read buf (ceil32 n) (adv 32 st)) as [[d st2]|e] eqn:R; cbn; [|]; (split; [lia|]).
  - intros; reflexivity.
  - intros. reflexivity.
Qed.

Theorem decode_costs t : wf t -> forall s, costs s t.
Proof.
  induction t as [m|m| | |m n|m n|k| | |t IH|n t IH|ts IH] using sty_ind'; intros Wt s st Hp Ht;
    try (cbn [dec_of decode_count once fst max_work work]; split; [lia|reflexivity]).
  - cbn [dec_of decode_count strict_val pd]. rewrite fst_cbind. destruct (bytestring_cost s st (proj1 Hp)) as [B1 B2].
    assert (K : forall r : result (bytes * stream),
      match r with Ok a => fst (let '(b, st') := a in free (Ok (PBytes b, st'))) | Err _ => 0 end = 0)
      by (intros [[? ?]|]; reflexivity).
    rewrite K.
    cbn [max_work work]. split; [lia|]. intros a H. bok H. rewrite (B2 _ Hx). reflexivity.
  - cbn [dec_of decode_count strict_val pd]. rewrite fst_cbind. destruct (bytestring_cost s st (proj1 Hp)) as [B1 B2].
    match goal with |- context [fst (bytestring_count s buf st) + ?x] => replace x with 0 end.
    2:{ destruct (snd (bytestring_count s buf st)) as [[b st']|]; [|reflexivity]. rewrite fst_cbind. cbn [free fst snd].
        destruct (utf8_decode b); reflexivity. }
    cbn [max_work work]. split; [lia|]. intros a H. bok H. rewrite (B2 _ Hx). reflexivity.
  - inv Wt. specialize (Ht eq_refl). cbn [dec_of decode_count pd max_work].
    rewrite decode_uint_256_eq by lia. pose proof (max_work_nonneg W t words_nonneg ltac:(assumption)) as N. pose proof words_nonneg as N'.
    destruct (word_at buf (pos st)) as [n|e] eqn:Wd; cbn [bind once cbind fst snd].
    2:{ split; [|discriminate]. destruct (sdyn t); nia. }
    pose proof (word_at_range _ _ _ (proj1 Hp) Wd) as R. apply word_at_ok in Wd. destruct Wd as [Wd _].
    unfold push_frame, seek_in_frame. cbn [adv pos frames total]. rewrite Ht, Z.add_0_r.
    rewrite seek_ok by lia. cbn [bind frames total]. rewrite cbind_free.
    set (st2 := mkStream (pos st + 32) ((32, pos st + 32) :: frames st) (pos st + 32)).
    destruct (array_costs t n st2 (proj1 R) ltac:(assumption) (IH ltac:(assumption) true) ltac:(cbn; lia) ltac:(reflexivity)) as [A1 A2].
    unfold array_cost in A1, A2. cbn [pos st2] in A1, A2. fold (wrapd true t).
    rewrite fst_cbind.
    match goal with |- context [match snd (pointers_count ?a ?b ?c ?d) with _ => _ end] =>
      assert (E : forall st3, fst (' (vs, st4) <~ items_count n (decode_count h (wrapd true t) buf) st3 ;;
        st5 <~ free (pop_frame st4) ;; free (Ok (PTuple vs, st5))) = fst (items_count n (decode_count h (wrapd true t) buf) st3)) end.
    { intro st3. rewrite fst_cbind. destruct (snd (items_count _ _ _)) as [[vs st4]|]; [|lia]. rewrite fst_cbind. cbn [free fst snd].
      destruct (pop_frame st4); cbn; lia. }
    replace (match snd (pointers_count (is_headtail (wrapd true t)) n buf st2) with
      | Ok a => fst (' (vs, st4) <~ items_count n (decode_count h (wrapd true t) buf) a ;;
                     st5 <~ free (pop_frame st4) ;; free (Ok (PTuple vs, st5))) | Err _ => 0 end)
      with (match snd (pointers_count (is_headtail (wrapd true t)) n buf st2) with
      | Ok a => fst (items_count n (decode_count h (wrapd true t) buf) a) | Err _ => 0 end)
      by (destruct (snd (pointers_count _ _ _ _)); [symmetry; apply E|reflexivity]).
    split.
    + assert (Q : avail (pos st + 32) <= W) by (unfold avail; lia). unfold item_max in A1.
      pose proof (avail_pos (pos st + 32)). destruct (sdyn t); nia.
    + intros a Ha. assert (exists l, a = VSeq l) as [l ->].
      { unfold rd_array in Ha. bok Ha. bok Ha. inv Ha. eauto. }
      rewrite (A2 _ Ha). reflexivity.
  - inv Wt. cbn [dec_of decode_count pd max_work].
    pose proof (max_work_nonneg W t words_nonneg ltac:(assumption)) as N.
    destruct (array_costs t n st ltac:(lia) ltac:(assumption) (IH ltac:(assumption) true) Hp Ht) as [A1 A2].
    unfold array_cost in A1, A2. fold (wrapd true t). rewrite fst_cbind.
    assert (E : forall st3, fst (' (vs, st2) <~ items_count n (decode_count h (wrapd true t) buf) st3 ;; free (Ok (PTuple vs, st2)))
      = fst (items_count n (decode_count h (wrapd true t) buf) st3)).
    { intro st3. rewrite fst_cbind. destruct (snd (items_count _ _ _)) as [[vs st4]|]; cbn; lia. }
    replace (match snd (pointers_count (is_headtail (wrapd true t)) n buf st) with
      | Ok a => fst (' (vs, st2) <~ items_count n (decode_count h (wrapd true t) buf) a ;; free (Ok (PTuple vs, st2))) | Err _ => 0 end)
      with (match snd (pointers_count (is_headtail (wrapd true t)) n buf st) with
      | Ok a => fst (items_count n (decode_count h (wrapd true t) buf) a) | Err _ => 0 end)
      by (destruct (snd (pointers_count _ _ _ _)); [symmetry; apply E|reflexivity]).
    split.
    + unfold item_max in A1. pose proof (avail_pos (pos st)). destruct (sdyn t); nia.
    + intros a Ha. assert (exists l, a = VSeq l) as [l ->].
      { unfold rd_array in Ha. bok Ha. bok Ha. inv Ha. eauto. }
      rewrite (A2 _ Ha). reflexivity.
  - inv Wt. take (Forall wf ts) as F. cbn [sdyn] in Ht.
    destruct (tuple_costs true ts st F) as [T1 T2]; [|exact Hp|exact Ht|].
    { apply Forall_forall. intros t Hi. rewrite Forall_forall in IH, F. apply IH; auto. }
    cbn [dec_of]. split; [exact T1|]. intros a Ha. cbn [pd] in Ha.
    assert (exists l, a = VSeq l) as [l ->]. { unfold rd_tuple in Ha. bok Ha. bok Ha. inv Ha. eauto. }
    exact (T2 l Ha).
Qed.
End Counts.
Theorem api_count_result types data strict w : snd (fst (api_decode_count types data strict w)) = fst (api_decode types data strict w)
  /\ snd (api_decode_count types data strict w) = snd (api_decode types data strict w).
Proof.
  unfold api_decode_count, api_decode. destruct (validate_list_like_param types) as [ts|]; [|split; reflexivity].
  destruct (validate_bytes_param data) as [b|]; [|split; reflexivity].
  destruct (sequenceM _ _ _) as [[ds|] w1]; [|split; reflexivity]. cbn [fst snd]. split; [|reflexivity].
  rewrite snd_cbind, count_result. destruct (decode_with _ _ _ _) as [[v st]|]; reflexivity.
Qed.

(** ** Calls *)
Lemma reads_args w types ts data b strict : used false w -> type_args types ts -> bytes_like data b ->
  exists h, reads_in w types data strict = fst (decode_count h (mk_dtuple (map (dec_of strict) ts)) b new_stream).
Proof.
  intros U T B. apply used_spec in U. destruct U as (_ & D & [_ C]).
  pose proof (pure_decoders_args types ts data b strict T B) as P. unfold pure_decoders in P.
  unfold reads_in, api_decode_count. destruct (validate_list_like_param types) as [l|]; [|discriminate P].
  destruct (validate_bytes_param data) as [b'|]; [|discriminate P]. cbn [bind] in P.
  destruct (seq_decoders (Some strict) l w C) as (w' & -> & _). rewrite D. change (decs_of false) with decs.
  destruct (mapM _ l) as [ds|]; [|discriminate P]. inv P. exists (snd w'). cbn [fst]. rewrite fst_cbind.
  destruct (snd (decode_count _ _ _ _)) as [[v st]|]; cbn; lia.
Qed.
Theorem reads_bounded w types ts data b strict : used false w -> type_args types ts -> bytes_like data b -> len b <= maxsize ->
  0 <= reads_in w types data strict <= max_work (len b / 32) (STuple ts).
Proof.
  intros U T B L. destruct (reads_args w types ts data b strict U T B) as [h ->]. assert (Wt := type_args_wf _ _ T).
  refine (proj1 (tuple_costs h b L strict ts new_stream Wt _ _ _)); [|cbn; rewrite maxsize_eq; lia|reflexivity].
  apply Forall_forall. intros t Hi. apply decode_costs; [exact L|]. rewrite Forall_forall in Wt. auto.
Qed.
Theorem reads_exact w types ts data b strict vs : used false w -> type_args types ts -> bytes_like data b -> len b <= maxsize ->
  payload_holds b strict ts vs -> reads_in w types data strict = work (STuple ts) (VSeq vs).
Proof.
  intros U T B L H. destruct (reads_args w types ts data b strict U T B) as [h ->]. assert (Wt := type_args_wf _ _ T).
  apply pd_args_holds in H; try assumption.
  refine (proj2 (tuple_costs h b L strict ts new_stream Wt _ _ _) vs H); [|cbn; rewrite maxsize_eq; lia|reflexivity].
  apply Forall_forall. intros t Hi. apply decode_costs; [exact L|]. rewrite Forall_forall in Wt. auto.
Qed.
Theorem count_same w types data strict : snd (fst (api_decode_count types data strict w)) = decode_in w types data strict.
Proof. apply api_count_result. Qed.

Lemma nested_ok k s t : type_name true s t -> type_name true (nested_name k s) (nested k t).
Proof. intro H. induction k as [|k IH]; [exact H|]. cbn [nested nested_name]. apply TN_tuple. apply TNs_one. exact IH. Qed.
Lemma nested_static k t : sdyn t = false -> sdyn (nested k t) = false.
Proof. intro H. induction k as [|k IH]; [exact H|]. cbn [nested sdyn existsb]. rewrite IH. reflexivity. Qed.
Lemma nested_work n k t : sdyn t = false -> max_work n (nested k t) = 2 ^ Z.of_nat k * max_work n t.
Proof.
  intro H. induction k as [|k IH]; [cbn; lia|]. cbn [nested max_work fold_right]. rewrite (nested_static k t H), IH.
  rewrite Nat2Z.inj_succ, Z.pow_succ_r by lia. lia.
Qed.
Fixpoint nested_val (k : nat) (a : aval) : aval := match k with O => a | S k' => VSeq [nested_val k' a] end.
Lemma nested_exact k t a : sdyn t = false -> work (nested k t) (nested_val k a) = 2 ^ Z.of_nat k * work t a.
Proof.
  intro H. induction k as [|k IH]; [cbn [nested nested_val]; change (2 ^ Z.of_nat 0) with 1; lia|].
  cbn [nested nested_val]. change (work (STuple [nested k t]) (VSeq [nested_val k a])) with
    ((if sdyn (nested k t) then 2 + work (nested k t) (nested_val k a) else 2 * work (nested k t) (nested_val k a)) + 0).
  rewrite (nested_static k t H), IH. rewrite Nat2Z.inj_succ, Z.pow_succ_r by lia. lia.
Qed.
Lemma nested_pd buf k t a p : sdyn t = false -> (forall s, pd buf s t p = Ok a) ->
  forall s, pd buf s (nested k t) p = Ok (nested_val k a).
Proof.
  intros D H. induction k as [|k IH]; [exact H|]. intro s. cbn [nested nested_val pd map]. unfold rd_tuple. cbn [tcheck tread r_dyn r_fn r_size].
  rewrite (nested_static k t D), IH. reflexivity.
Qed.
Lemma nested_args k : type_args (PList [PStr (nested_name k (lit "uint"%string))]) [nested k (SUInt 256)].
Proof.
  exists [nested_name k (lit "uint"%string)]. split; [left; reflexivity|]. constructor; [|constructor].
  split; [apply nested_ok; apply TN_uint_256|]. destruct k; discriminate.
Qed.
Lemma nested_holds k b strict : len b = 32 -> payload_holds b strict [nested k (SUInt 256)] [nested_val k (VInt (from_be b))].
Proof.
  intro L. assert (D : sdyn (SUInt 256) = false) by reflexivity.
  apply pd_args_holds; [rewrite maxsize_eq; lia|exact (type_args_wf _ _ (nested_args k))|].
  assert (P : forall s, pd b s (SUInt 256) 0 = Ok (VInt (from_be b))).
  { intro s. cbn [pd]. rewrite L. change (0 + 32 <=? 32) with true. cbv iota. unfold leaf_val.
    change (32 - 256 / 8) with 0. assert (E : slice b 0 32 = b).
    { unfold slice. rewrite take_z_firstn, drop_z_skipn by lia. change (Z.to_nat 0) with O. cbn [skipn]. apply firstn_all2. rewrite len_length in L. lia. }
    rewrite E, drop_z_skipn by lia. change (Z.to_nat 0) with O. cbn [skipn]. unfold canonical.
    assert (F : to_be 32 (from_be b) = b) by (rewrite <- (to_be_from_be b) at 2; f_equal; rewrite len_length in L; lia).
    rewrite F, bytes_eqb_refl. reflexivity. }
  unfold pd_args, rd_tuple. cbn [map tcheck tread rdr_of r_dyn r_fn r_size]. rewrite (nested_static k _ D), (nested_pd b k _ _ 0 D P). reflexivity.
Qed.
Theorem nested_reads k w data b strict : used false w -> bytes_like data b -> len b = 32 ->
  reads_in w (PList [PStr (nested_name k (lit "uint"%string))]) data strict = 2 ^ Z.of_nat (S k).
Proof.
  intros U B L. assert (M : len b <= maxsize) by (rewrite maxsize_eq; lia).
  rewrite (reads_exact w _ [nested k (SUInt 256)] data b strict [nested_val k (VInt (from_be b))] U (nested_args k) B M (nested_holds k b strict L)).
  change (work (STuple [nested k (SUInt 256)]) (VSeq [nested_val k (VInt (from_be b))]))
    with (work (nested (S k) (SUInt 256)) (nested_val (S k) (VInt (from_be b)))).
  rewrite nested_exact by reflexivity. cbn [work]. lia.
Qed.
Theorem reads_grow c : exists types ts, type_args types ts /\ len ts = 1 /\
  forall w data b strict, used false w -> bytes_like data b -> len b = 32 ->
  (exists q, decode_in w types data strict = Ok q) /\ c < reads_in w types data strict.
Proof.
  exists (PList [PStr (nested_name (Z.to_nat c) (lit "uint"%string))]), [nested (Z.to_nat c) (SUInt 256)].
  split; [apply nested_args|]. split; [reflexivity|]. intros w data b strict U B L. split.
  - assert (M : len b <= maxsize) by (rewrite maxsize_eq; lia). eexists.
    exact (proj1 (proj1 (decode_iff w _ _ data b strict U (nested_args _) B M _) (nested_holds _ b strict L))).
  - rewrite (nested_reads _ w data b strict U B L). pose proof (Z.pow_gt_lin_r 2 (Z.of_nat (S (Z.to_nat c))) ltac:(lia) ltac:(lia)). lia.
Qed.
