(** Registry lookups: the recursion always terminates, and the caches are
    unobservable.  Nothing here depends on which coders are registered. *)
From Coq Require Import Strings.String.
From Verif Require Import Tac Address Grammar GrammarSpec GrammarProofs NormalizeProofs Encoding Decoding Registry.
Open Scope Z_scope.

(** ** Nesting of a type string: its opening brackets *)
Definition is_open (c : N) : bool := ((c =? c_lbrack) || (c =? c_lparen))%N.
Definition opens (s : pystr) : nat := length (filter is_open s).
Lemma opens_app a b : opens (a ++ b) = (opens a + opens b)%nat.
Proof. unfold opens. rewrite filter_app, app_length. reflexivity. Qed.
Lemma opens_cons c s : opens (c :: s) = ((if is_open c then 1 else 0) + opens s)%nat.
Proof. unfold opens. cbn [filter]. destruct (is_open c); reflexivity. Qed.
Lemma opens_length s : (opens s <= length s)%nat.
Proof. induction s as [|c s IH]; [cbn; lia|]. rewrite opens_cons. cbn [length]. destruct (is_open c); lia. Qed.
Lemma opens_alias a b : In (a, b) TYPE_ALIASES -> opens a = 0%nat /\ opens b = 0%nat.
Proof. intro H. cbn in H. repeat (destruct H as [H|H]; [inv H; split; reflexivity|]). contradiction. Qed.
Lemma opens_normalize_from f : forall p s, opens (normalize_from f p s) = opens s.
Proof.
  induction f as [|f IH]; intros p s; [reflexivity|]. destruct s as [|c s]; [reflexivity|]. cbn [normalize_from].
  destruct (if p then None else match_alias TYPE_ALIASES (c :: s)) as [[b rest]|] eqn:M.
  - destruct p; [discriminate|]. apply match_alias_some in M. destruct M as (a & Ia & -> & _).
    apply opens_alias in Ia. rewrite !opens_app, IH. lia.
  - rewrite !opens_cons, IH. reflexivity.
Qed.
Lemma opens_normalize s : opens (normalize s) = opens s.
Proof. apply opens_normalize_from. Qed.
Lemma opens_numeral d n : numeral d n -> opens d = 0%nat.
Proof.
  induction 1 as [c D _|s n c _ IH D]; rewrite ?opens_app, ?opens_cons, ?IH; unfold is_open, digit, c_lbrack, c_lparen in *;
    replace ((c =? 91) || (c =? 40))%N with false by lia; reflexivity.
Qed.
Lemma opens_letters b : Forall letter b -> opens b = 0%nat.
Proof.
  induction 1 as [|c b L F IH]; [reflexivity|]. rewrite opens_cons, IH. unfold is_open, letter, c_lbrack, c_lparen in *.
  replace ((c =? 91) || (c =? 40))%N with false by lia. reflexivity.
Qed.
Fixpoint depth (t : abi_type) : nat :=
  match t with
  | Basic _ _ arr => length arr
  | Tup ts arr => S (fold_right (fun t acc => depth t + acc)%nat 0%nat ts + length arr)
  end.
Lemma opens_sub ss sub : g_sub ss sub -> opens ss = 0%nat.
Proof.
  destruct 1 as [|s n N|s1 n1 s2 n2 N1 N2]; [reflexivity|exact (opens_numeral _ _ N)|].
  rewrite !opens_app, (opens_numeral _ _ N1), (opens_numeral _ _ N2). reflexivity.
Qed.
Lemma opens_arr sa ds : g_arr sa ds -> opens sa = length ds.
Proof.
  induction 1 as [|s ds A IH|d n s ds N A IH]; [reflexivity|rewrite opens_app, IH; reflexivity|].
  rewrite !opens_app, IH, (opens_numeral _ _ N). reflexivity.
Qed.
Lemma opens_type : (forall s t, g_type s t -> opens s = depth t)
  /\ (forall s ts, g_components s ts -> opens s = fold_right (fun t acc => depth t + acc)%nat 0%nat ts).
Proof.
  apply g_mut.
  - intros b ss sub sa arr [_ B] S A. rewrite !opens_app, (opens_letters _ B), (opens_sub _ _ S), (opens_arr _ _ A). reflexivity.
  - intros s ts sa arr C IH A. rewrite !opens_app, IH, (opens_arr _ _ A). cbn [depth].
    change (opens (lit "(")) with 1%nat. change (opens (lit ")")) with 0%nat. lia.
  - intros s t G IH. cbn. lia.
  - intros s t ss ts G IH C IHc. rewrite !opens_app, IH, IHc. change (opens (lit ",")) with 0%nat. cbn. lia.
Qed.
Lemma opens_print t : ast_ok t -> opens (to_type_str t) = depth t.
Proof. intro H. apply (proj1 opens_type). apply print_g. exact H. Qed.
Lemma opens_parse s t : parse (normalize s) = Ok t -> opens s = depth t /\ ast_ok t.
Proof.
  intro H. rewrite <- opens_normalize. apply parse_iff in H. destruct H as [H ->]. split; [apply opens_print|]; exact H.
Qed.
Lemma depth_component ts t : In t ts -> (depth t <= fold_right (fun t acc => depth t + acc)%nat 0%nat ts)%nat.
Proof. induction ts as [|t0 ts IH]; [intros []|]. cbn [fold_right]. intros [->|H]; [lia|]. specialize (IH H). lia. Qed.
Lemma removelast_length {A} (l : list A) : l <> [] -> length (removelast l) = Nat.pred (length l).
Proof.
  induction l as [|x l IH]; [congruence|]. intros _. destruct l as [|y l]; [reflexivity|].
  change (removelast (x :: y :: l)) with (x :: removelast (y :: l)). cbn [length] in *. rewrite IH by discriminate. reflexivity.
Qed.
Lemma Forall_removelast {A} (P : A -> Prop) l : Forall P l -> Forall P (removelast l).
Proof.
  induction 1 as [|x l H F IH]; [constructor|]. destruct l as [|y l]; [constructor|].
  change (removelast (x :: y :: l)) with (x :: removelast (y :: l)). constructor; assumption.
Qed.
Lemma item_type_facts t it : ast_ok t -> item_type t = Ok it -> ast_ok it /\ (depth it < depth t)%nat.
Proof.
  intros H E. inv H; cbn [item_type] in E; (destruct arr as [|d arr]; [discriminate|]); inv E;
    pose proof (removelast_length (d :: arr) ltac:(discriminate)) as L; cbn [length Nat.pred] in L.
  - change (match arr with [] => [] | _ :: _ => d :: removelast arr end) with (removelast (d :: arr)).
    split; [constructor; auto using Forall_removelast|]. cbn [depth]. rewrite L. cbn [length]. lia.
  - change (match arr with [] => [] | _ :: _ => d :: removelast arr end) with (removelast (d :: arr)).
    split; [constructor; auto using Forall_removelast|]. cbn [depth]. rewrite L. cbn [length]. lia.
Qed.

(** The types whose coders the from_type_str methods ask for are less nested. *)
Lemma tuple_components ts cs : parse_tuple_type_str ts = Ok cs ->
  Forall (fun s => (opens s < opens ts)%nat) (map to_type_str cs).
Proof.
  unfold parse_tuple_type_str. intro H. bok H. take (parse _ = _) as P. apply opens_parse in P. destruct P as [-> P].
  destruct x as [|cs0 arr]; [discriminate|]. bok H. inv H. inv P. take (Forall ast_ok cs) as F.
  apply Forall_forall. intros s Hs. apply in_map_iff in Hs. destruct Hs as (t & <- & It).
  rewrite Forall_forall in F. rewrite opens_print by auto. cbn [depth]. pose proof (depth_component cs t It). lia.
Qed.
Lemma array_item ts t it : (t0 <- parse_type_str None true ts ;; it0 <- item_type t0 ;; Ok (t0, it0)) = Ok (t, it) ->
  (opens (to_type_str it) < opens ts)%nat.
Proof.
  intro H. bok H. take (parse_type_str _ _ _ = _) as P. bok H. inv H. unfold parse_type_str in P. bok P.
  take (parse _ = _) as Q. bok P. bok P. bok P. bok P. inv P. apply opens_parse in Q. destruct Q as [-> Q].
  take (item_type _ = _) as I. destruct (item_type_facts _ _ Q I) as [A L]. rewrite opens_print by exact A. exact L.
Qed.

(** ** Lookup without caches *)
Definition lift {A} (f : pystr -> result A) (s : pystr) (u : unit) : result A * unit := (f s, u).
Fixpoint pure_enc (fuel : nat) (m : mapping enc_reg) (ts : pystr) : result encoder :=
  match fuel with
  | O => Err OutOfFuel
  | S f =>
      match base_get_registration m ts with
      | Err e => Err e
      | Ok (EInst e) => Ok e
      | Ok (EClass c) => fst (enc_from_type_str (lift (pure_enc f m)) c ts tt)
      end
  end.
Definition find_encoder (m : mapping enc_reg) (ts : pystr) : result encoder := pure_enc (S (opens ts)) m ts.

Definition strict_of (k : option bool) : bool := match k with None => true | Some b => b end.
Definition with_strict (k : option bool) (d : decoder) : decoder :=
  if dec_is_dyn d then fst (set_strict d (strict_of k) []) else d.
Fixpoint pure_dec (fuel : nat) (m : mapping dec_reg) (k : option bool) (ts : pystr) : result decoder :=
  match fuel with
  | O => Err OutOfFuel
  | S f =>
      match (match base_get_registration m ts with
             | Err e => Err e
             | Ok (DInst d) => Ok d
             | Ok (DClass c) => fst (dec_from_type_str (lift (pure_dec f m None)) c ts tt)
             end) with
      | Err e => Err e
      | Ok d => Ok (with_strict k d)
      end
  end.
Definition find_decoder (m : mapping dec_reg) (k : option bool) (ts : pystr) : result decoder := pure_dec (S (opens ts)) m k ts.

(** *** Simulation *)
Definition sim {S A} (I : S -> Prop) (ge : pystr -> S -> result A * S) (f : pystr -> result A) (ts : pystr) : Prop :=
  forall s, I s -> exists s', ge ts s = (f ts, s') /\ I s'.
Lemma sequence_sim {S A} (I : S -> Prop) (ge : pystr -> S -> result A * S) (f : pystr -> result A) l :
  Forall (sim I ge f) l -> forall s, I s -> exists s', sequenceM ge l s = (fst (sequenceM (lift f) l tt), s') /\ I s'.
Proof.
  induction 1 as [|x l Hx F IH]; intros s Hs; [exists s; split; [reflexivity|exact Hs]|]. cbn [sequenceM]. unfold lift at 1.
  destruct (Hx s Hs) as (s1 & -> & H1). destruct (f x) as [y|e]; [|exists s1; split; [reflexivity|exact H1]].
  destruct (IH s1 H1) as (s2 & E & H2). rewrite E. exists s2. split; [|exact H2].
  destruct (sequenceM (lift f) l tt) as [[ys|e] []]; reflexivity.
Qed.
Lemma enc_from_sim {S} (I : S -> Prop) ge f c ts :
  (forall s, (opens s < opens ts)%nat -> sim I ge f s) ->
  forall s, I s -> exists s', enc_from_type_str ge c ts s = (fst (enc_from_type_str (lift f) c ts tt), s') /\ I s'.
Proof.
  intros H s Hs. unfold enc_from_type_str. destruct (enc_leaf_from_type_str c ts); [exists s; split; [reflexivity|exact Hs]|].
  assert (Arr : exists s',
    match (t <- parse_type_str None true ts;; it <- item_type t;; Ok (t, it)) with
    | Err e => (Err e, s)
    | Ok (t, it) => match ge (to_type_str it) s with
                    | (Err e, s1) => (Err e, s1)
                    | (Ok ie, s1) => (match c, last (arrlist_of t) None with
                                      | CPackedArray, n => Ok (EPackedArr n ie)
                                      | _, Some n => mk_sized n ie
                                      | _, None => Ok (EDyn ie)
                                      end, s1)
                    end
    end = (fst match (t <- parse_type_str None true ts;; it <- item_type t;; Ok (t, it)) with
    | Err e => (Err e, tt)
    | Ok (t, it) => match lift f (to_type_str it) tt with
                    | (Err e, s1) => (Err e, s1)
                    | (Ok ie, s1) => (match c, last (arrlist_of t) None with
                                      | CPackedArray, n => Ok (EPackedArr n ie)
                                      | _, Some n => mk_sized n ie
                                      | _, None => Ok (EDyn ie)
                                      end, s1)
                    end
    end, s') /\ I s').
  { destruct (t <- parse_type_str None true ts;; it <- item_type t;; Ok (t, it)) as [[t it]|e] eqn:P; [|exists s; split; [reflexivity|exact Hs]].
    destruct (H _ (array_item _ _ _ P) s Hs) as (s1 & -> & H1). unfold lift. exists s1. split; [|exact H1].
    destruct (f (to_type_str it)); reflexivity. }
  destruct c; try exact Arr.
  destruct (parse_tuple_type_str ts) as [cs|e] eqn:P; [|exists s; split; [reflexivity|exact Hs]].
  apply tuple_components in P. destruct (sequence_sim I ge f (map to_type_str cs)) with (s := s) as (s' & -> & H').
  { apply Forall_forall. intros x Hx. rewrite Forall_forall in P. apply H. apply P. exact Hx. }
  { exact Hs. }
  exists s'. split; [|exact H']. destruct (sequenceM (lift f) (map to_type_str cs) tt) as [[ys|e] []]; reflexivity.
Qed.
Lemma dec_from_sim {S} (I : S -> Prop) gd f c ts :
  (forall s, (opens s < opens ts)%nat -> sim I gd f s) ->
  forall s, I s -> exists s', dec_from_type_str gd c ts s = (fst (dec_from_type_str (lift f) c ts tt), s') /\ I s'.
Proof.
  intros H s Hs. unfold dec_from_type_str. destruct (dec_leaf_from_type_str c ts); [exists s; split; [reflexivity|exact Hs]|].
  assert (Arr : exists s',
    match (t <- parse_type_str None true ts;; it <- item_type t;; Ok (t, it)) with
    | Err e => (Err e, s)
    | Ok (t, it) => match gd (to_type_str it) s with
                    | (Err e, s1) => (Err e, s1)
                    | (Ok id, s1) => (match last (arrlist_of t) None with
                                      | Some n => mk_dsized n id
                                      | None => mk_ddyn id
                                      end, s1)
                    end
    end = (fst match (t <- parse_type_str None true ts;; it <- item_type t;; Ok (t, it)) with
    | Err e => (Err e, tt)
    | Ok (t, it) => match lift f (to_type_str it) tt with
                    | (Err e, s1) => (Err e, s1)
                    | (Ok id, s1) => (match last (arrlist_of t) None with
                                      | Some n => mk_dsized n id
                                      | None => mk_ddyn id
                                      end, s1)
                    end
    end, s') /\ I s').
  { destruct (t <- parse_type_str None true ts;; it <- item_type t;; Ok (t, it)) as [[t it]|e] eqn:P; [|exists s; split; [reflexivity|exact Hs]].
    destruct (H _ (array_item _ _ _ P) s Hs) as (s1 & -> & H1). unfold lift. exists s1. split; [|exact H1].
    destruct (f (to_type_str it)); reflexivity. }
  destruct c; try exact Arr.
  destruct (parse_tuple_type_str ts) as [cs|e] eqn:P; [|exists s; split; [reflexivity|exact Hs]].
  apply tuple_components in P. destruct (sequence_sim I gd f (map to_type_str cs)) with (s := s) as (s' & -> & H').
  { apply Forall_forall. intros x Hx. rewrite Forall_forall in P. apply H. apply P. exact Hx. }
  { exact Hs. }
  exists s'. split; [|exact H']. destruct (sequenceM (lift f) (map to_type_str cs) tt) as [[ys|e] []]; reflexivity.
Qed.

(** *** Enough fuel *)
Lemma pure_enc_fuel f1 : forall f2 m ts, (opens ts < f1)%nat -> (opens ts < f2)%nat -> pure_enc f1 m ts = pure_enc f2 m ts.
Proof.
  induction f1 as [|f1 IH]; intros f2 m ts H1 H2; [lia|]. destruct f2 as [|f2]; [lia|]. cbn [pure_enc].
  destruct (base_get_registration m ts) as [[c|e]|e]; try reflexivity.
  destruct (enc_from_sim (fun _ => True) (lift (pure_enc f1 m)) (pure_enc f2 m) c ts) with (s := tt) as ([] & -> & _); auto.
  intros s Hs u _. exists u. unfold lift. rewrite (IH f2) by lia. auto.
Qed.
Lemma pure_dec_fuel f1 : forall f2 m k ts, (opens ts < f1)%nat -> (opens ts < f2)%nat -> pure_dec f1 m k ts = pure_dec f2 m k ts.
Proof.
  induction f1 as [|f1 IH]; intros f2 m k ts H1 H2; [lia|]. destruct f2 as [|f2]; [lia|]. cbn [pure_dec].
  destruct (base_get_registration m ts) as [[c|e]|e]; try reflexivity.
  destruct (dec_from_sim (fun _ => True) (lift (pure_dec f1 m None)) (pure_dec f2 m None) c ts) with (s := tt) as ([] & -> & _); auto.
  intros s Hs u _. exists u. unfold lift. rewrite (IH f2) by lia. auto.
Qed.
(** The recursion equations. *)
Lemma find_encoder_eq m ts : find_encoder m ts =
  match base_get_registration m ts with
  | Err e => Err e
  | Ok (EInst e) => Ok e
  | Ok (EClass c) => fst (enc_from_type_str (lift (find_encoder m)) c ts tt)
  end.
Proof.
  unfold find_encoder at 1. cbn [pure_enc]. destruct (base_get_registration m ts) as [[c|e]|e]; try reflexivity.
  destruct (enc_from_sim (fun _ => True) (lift (pure_enc (opens ts) m)) (find_encoder m) c ts) with (s := tt) as ([] & -> & _); auto.
  intros s Hs u _. exists u. unfold lift, find_encoder. rewrite (pure_enc_fuel (opens ts) (S (opens s))) by lia. auto.
Qed.
Lemma find_decoder_eq m k ts : find_decoder m k ts =
  match (match base_get_registration m ts with
         | Err e => Err e
         | Ok (DInst d) => Ok d
         | Ok (DClass c) => fst (dec_from_type_str (lift (find_decoder m None)) c ts tt)
         end) with
  | Err e => Err e
  | Ok d => Ok (with_strict k d)
  end.
Proof.
  unfold find_decoder at 1. cbn [pure_dec]. destruct (base_get_registration m ts) as [[c|e]|e]; try reflexivity.
  destruct (dec_from_sim (fun _ => True) (lift (pure_dec (opens ts) m None)) (find_decoder m None) c ts) with (s := tt) as ([] & -> & _); auto.
  intros s Hs u _. exists u. unfold lift, find_decoder. rewrite (pure_dec_fuel (opens ts) (S (opens s))) by lia. auto.
Qed.

(** ** The caches are unobservable *)
Definition ecache_ok (r : registry) : Prop :=
  forall ts e, ecache_get (r_ecache r) ts = Some e -> find_encoder (r_encs r) ts = Ok e.
Definition dcache_ok (r : registry) : Prop :=
  forall ts k d, dcache_get (r_dcache r) (ts, k) = Some d -> find_decoder (r_decs r) k ts = Ok d.
(** [r'] differs from [r] at most in its encoder cache. *)
Definition same_but_ecache (r r' : registry) : Prop :=
  r_encs r' = r_encs r /\ r_decs r' = r_decs r /\ r_dcache r' = r_dcache r.
Definition same_but_dcache (r r' : registry) : Prop :=
  r_encs r' = r_encs r /\ r_decs r' = r_decs r /\ r_ecache r' = r_ecache r.

Lemma get_encoder_fuel_sim r0 fuel : forall ts, (opens ts < fuel)%nat ->
  sim (fun r => same_but_ecache r0 r /\ ecache_ok r) (get_encoder_fuel fuel) (find_encoder (r_encs r0)) ts.
Proof.
  induction fuel as [|f IH]; intros ts Hf r [Hr Hc]; [lia|]. cbn [get_encoder_fuel].
  destruct (ecache_get (r_ecache r) ts) as [e|] eqn:G.
  - exists r. split; [|auto]. apply Hc in G. destruct Hr as (<- & _). rewrite G. reflexivity.
  - rewrite find_encoder_eq. pose proof Hr as (E & _). rewrite E.
    assert (Store : forall res r1, (same_but_ecache r0 r1 /\ ecache_ok r1) -> find_encoder (r_encs r0) ts = res ->
      exists s', match res with Ok e => (Ok e, set_ecache r1 ((ts, e) :: r_ecache r1)) | Err x => (Err x, r1) end = (res, s')
                 /\ same_but_ecache r0 s' /\ ecache_ok s').
    { intros res r1 [H1 H2] Hres. destruct res as [e|e]; eexists; (split; [reflexivity|]); [|auto]. split; [exact H1|].
      intros ts' e' H. cbn [set_ecache r_ecache r_encs ecache_get] in *. destruct (str_eqb ts ts') eqn:Q.
      - apply str_eqb_eq in Q. subst ts'. inv H. destruct H1 as (-> & _). exact Hres.
      - apply H2. exact H. }
    destruct (base_get_registration (r_encs r0) ts) as [[c|e]|e] eqn:B.
    + destruct (enc_from_sim _ _ _ c ts (fun s Hs => IH s ltac:(lia)) r (conj Hr Hc)) as (r1 & -> & H1).
      apply Store; [exact H1|]. rewrite find_encoder_eq, B. reflexivity.
    + apply (Store (Ok e)); [auto|]. rewrite find_encoder_eq, B. reflexivity.
    + apply (Store (Err e)); [auto|]. rewrite find_encoder_eq, B. reflexivity.
Qed.
Theorem get_encoder_pure r ts : ecache_ok r ->
  exists r', get_encoder ts r = (find_encoder (r_encs r) ts, r') /\ same_but_ecache r r' /\ ecache_ok r'.
Proof.
  intro H. pose proof (opens_length ts).
  destruct (get_encoder_fuel_sim r (S (length ts)) ts ltac:(lia) r) as (r' & E & H'); [repeat split; auto|].
  exists r'. auto.
Qed.

Definition strict_heap (k : option bool) (d : decoder) (h : heap) : heap :=
  if dec_is_dyn d then snd (set_strict d (strict_of k) h) else h.
Lemma set_strict_split d b h : set_strict d b h = (fst (set_strict d b []), snd (set_strict d b h)).
Proof. destruct d; try reflexivity; try (destruct s; reflexivity). destruct dyn; try reflexivity; destruct s; reflexivity. Qed.
Lemma get_decoder_fuel_sim r0 fuel : forall k ts, (opens ts < fuel)%nat ->
  sim (fun w : world => same_but_dcache r0 (fst w) /\ dcache_ok (fst w)) (get_decoder_fuel fuel k) (find_decoder (r_decs r0) k) ts.
Proof.
  induction fuel as [|f IH]; intros k ts Hf w [Hr Hc]; [lia|]. cbn [get_decoder_fuel].
  destruct (dcache_get (r_dcache (fst w)) (ts, k)) as [d|] eqn:G.
  - exists w. split; [|auto]. apply Hc in G. destruct Hr as (_ & <- & _). rewrite G. reflexivity.
  - rewrite find_decoder_eq. pose proof Hr as (_ & E & _). rewrite E.
    assert (Store : forall res w1, (same_but_dcache r0 (fst w1) /\ dcache_ok (fst w1)) ->
      find_decoder (r_decs r0) k ts = match res with Err e => Err e | Ok d => Ok (with_strict k d) end ->
      exists s' : world, match res with
                 | Err x => (Err x, w1)
                 | Ok d => let '(d', h') := if dec_is_dyn d then set_strict d (match k with None => true | Some b => b end) (snd w1) else (d, snd w1) in
                           (Ok d', (set_dcache (fst w1) (((ts, k), d') :: r_dcache (fst w1)), h'))
                 end = (match res with Err e => Err e | Ok d => Ok (with_strict k d) end, s')
                 /\ same_but_dcache r0 (fst s') /\ dcache_ok (fst s')).
    { intros res w1 [H1 H2] Hres. destruct res as [d|e]; [|exists w1; auto].
      replace (if dec_is_dyn d then set_strict d (match k with None => true | Some b => b end) (snd w1) else (d, snd w1))
        with (with_strict k d, strict_heap k d (snd w1))
        by (unfold with_strict, strict_heap; fold (strict_of k); destruct (dec_is_dyn d); [symmetry; apply set_strict_split|reflexivity]).
      eexists. split; [reflexivity|]. split; [exact H1|]. intros ts' k' d' H. cbn [fst set_dcache r_dcache r_decs dcache_get] in *.
      destruct (dkey_eqb (ts, k) (ts', k')) eqn:Q.
      - unfold dkey_eqb in Q. cbn [fst snd] in Q. apply andb_true_iff in Q. destruct Q as [Q1 Q2]. apply str_eqb_eq in Q1. subst ts'.
        assert (k' = k) by (destruct k as [[]|], k' as [[]|]; cbn in Q2; congruence). subst k'. inv H.
        destruct H1 as (_ & -> & _). exact Hres.
      - apply H2. exact H. }
    destruct (base_get_registration (r_decs r0) ts) as [[c|d]|e] eqn:B.
    + destruct (dec_from_sim _ _ _ c ts (fun s Hs => IH None s ltac:(lia)) w (conj Hr Hc)) as (w1 & -> & H1).
      apply Store; [exact H1|]. rewrite find_decoder_eq, B. reflexivity.
    + apply (Store (Ok d)); [auto|]. rewrite find_decoder_eq, B. reflexivity.
    + apply (Store (Err e)); [auto|]. rewrite find_decoder_eq, B. reflexivity.
Qed.
Theorem get_decoder_pure w k ts : dcache_ok (fst w) ->
  exists w', get_decoder k ts w = (find_decoder (r_decs (fst w)) k ts, w') /\ same_but_dcache (fst w) (fst w') /\ dcache_ok (fst w').
Proof.
  intro H. pose proof (opens_length ts).
  destruct (get_decoder_fuel_sim (fst w) (S (length ts)) k ts ltac:(lia) w) as (w' & E & H'); [repeat split; auto|].
  exists w'. auto.
Qed.
