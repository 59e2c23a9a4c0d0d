(** Lemmas for the texts of the messages of encoding. *)
From Coq Require Import Strings.String.
From Verif Require Import Samples Tac Py Bytes BytesProofs Grammar GrammarSpec GrammarProofs TextProofs Abbr AbbrProofs Registry Codec Histories Spec TypeSpec
  Objections ObjectionSpec ObjectionProofs ComplaintTextProofs ObjectionTexts ObjectionTextSpec.
Open Scope Z_scope.

(** ** Decimals *)
Lemma worth_app a b k : worth (a ++ b) k = worth b (worth a k).
Proof. revert k. induction a as [|c a IH]; intro k; [reflexivity|]. cbn [app worth]. apply IH. Qed.
Lemma worth_zeros n s : worth (repeat 48%N n ++ s) 0 = worth s 0.
Proof. induction n as [|n IH]; [reflexivity|]. exact IH. Qed.
Lemma worth_numeral s n : numeral s n -> worth s 0 = n.
Proof. induction 1 as [c D H|s n c H IH D]; [cbn [worth]; lia|]. rewrite worth_app, IH. cbn [worth]. lia. Qed.
Lemma worth_str (c : N) : worth (str_of_Z (Z.of_N c)) 0 = Z.of_N c.
Proof. destruct c as [|p]; [reflexivity|]. apply worth_numeral, str_numeral. lia. Qed.
Lemma str_digits (c : N) : Forall digit (str_of_Z (Z.of_N c)).
Proof. destruct c as [|p]; [repeat constructor; unfold digit; lia|]. eapply numeral_all, str_numeral. lia. Qed.
Lemma str_some z : str_of_Z z <> [].
Proof.
  assert (P : forall z, 1 <= z -> str_of_Z z <> []).
  { intros y H E. destruct (numeral_head _ _ (str_numeral y H)) as (c & r & X & _). congruence. }
  destruct (Z.lt_trichotomy z 0) as [H|[->|H]]; [rewrite (str_minus z H); discriminate|discriminate|apply P; lia].
Qed.
Lemma zeros_digits n : Forall digit (repeat 48%N n).
Proof. induction n; [constructor|]. constructor; [unfold digit; lia|assumption]. Qed.
Lemma some_len {A} (l : list A) : l <> [] -> 1 <= len l.
Proof. destruct l; [congruence|]. intros _. rewrite len_cons. pose proof (len_nonneg l). lia. Qed.
Lemma point_some (fp : pystr) : 1 <= len fp -> match fp with [] => [] | _ => 46%N :: fp end = 46%N :: fp.
Proof. destruct fp; [rewrite len_nil; lia|reflexivity]. Qed.

Theorem decimal_scientific neg c e : scientific (str_of_decimal (DFin neg c e)) neg c e.
Proof.
  unfold str_of_decimal. pose proof (worth_str c) as W. pose proof (str_digits c) as D. pose proof (some_len _ (str_some (Z.of_N c))) as L.
  revert W D L. generalize (str_of_Z (Z.of_N c)). intros n W D L. cbv zeta.
  set (l := e + len n). set (dot := if (e <=? 0) && (-6 <? l) then l else 1).
  assert (Dot : (dot = l /\ e <= 0) \/ dot = 1).
  { subst dot. destruct (Z.leb_spec e 0), (Z.ltb_spec (-6) l); cbn [andb]; auto. }
  assert (X : (if l =? dot then [] else lit "E" ++ (if 0 <=? l - dot then lit "+" else []) ++ str_of_Z (l - dot))
    = if l - dot =? 0 then [] else 69%N :: (if 0 <? l - dot then [43%N] else []) ++ str_of_Z (l - dot)).
  { destruct (Z.eqb_spec l dot), (Z.eqb_spec (l - dot) 0); try lia; [reflexivity|].
    replace (0 <? l - dot) with (0 <=? l - dot) by lia. destruct (0 <=? l - dot); reflexivity. }
  rewrite X. clear X.
  destruct (Z.leb_spec dot 0) as [A|A].
  - exists [48%N], (repeat 48%N (Z.to_nat (- dot)) ++ n), (l - dot).
    assert (Lf : len (repeat 48%N (Z.to_nat (- dot)) ++ n) = - dot + len n) by (rewrite len_app, len_repeat; lia).
    rewrite point_some by lia. rewrite Lf.
    split; [constructor; [unfold digit; lia|constructor]|]. split; [apply Forall_app; split; [apply zeros_digits|exact D]|].
    split; [discriminate|]. split; [cbn [app worth]; change (10 * 0 + (Z.of_N 48 - 48)) with 0; rewrite worth_zeros; exact W|]. split; [lia|].
    destruct neg; reflexivity.
  - destruct (Z.leb_spec (len n) dot) as [B|B].
    + exists n, [], (l - dot). assert (Ed : dot = len n) by lia.
      replace (len (@nil N)) with 0 by (rewrite len_length; reflexivity). replace (dot - len n) with 0 by lia. cbn [Z.to_nat repeat]. rewrite !(app_nil_r n).
      split; [exact D|]. split; [constructor|]. split; [intros ->; rewrite len_nil in L; lia|]. split; [exact W|]. split; [lia|].
      destruct neg; reflexivity.
    + exists (take_z dot n), (drop_z dot n), (l - dot).
      pose proof (take_drop_z dot n ltac:(lia)) as TD.
      assert (Lt : len (take_z dot n) = dot) by (rewrite len_take_z; lia).
      assert (Ld : len (drop_z dot n) = len n - dot) by (rewrite <- TD at 2; rewrite len_app, Lt; lia).
      rewrite point_some by lia. rewrite Ld, TD. rewrite <- TD in D. apply Forall_app in D. destruct D as [D1 D2].
      split; [exact D1|]. split; [exact D2|]. split; [intros Z0; rewrite Z0, len_nil in Lt; lia|]. split; [exact W|]. split; [lia|].
      rewrite <- !app_assoc. destruct neg; reflexivity.
Qed.
(** [a] and [b] end at the first character for which [P] fails. *)
Definition stops (P : N -> Prop) (s : pystr) : Prop := match s with [] => True | c :: _ => ~ P c end.
Lemma cut_first (P : N -> Prop) a b a' b' : Forall P a -> Forall P b -> stops P a' -> stops P b' -> a ++ a' = b ++ b' -> a = b /\ a' = b'.
Proof.
  intros A. revert b. induction A as [|c a H A IH]; intros [|c' b] B Sa Sb E.
  - auto.
  - exfalso. cbn [app] in E. rewrite E in Sa. inversion B. subst. exact (Sa H1).
  - exfalso. cbn [app] in E. rewrite <- E in Sb. exact (Sb H).
  - cbn [app] in E. injection E as -> E. inversion B; subst. destruct (IH b H3 Sa Sb E) as [-> ->]. auto.
Qed.
Definition exponent (x : Z) : pystr := if x =? 0 then [] else 69%N :: (if 0 <? x then [43%N] else []) ++ str_of_Z x.
Lemma exponent_same x x' : exponent x = exponent x' -> x = x'.
Proof.
  unfold exponent. destruct (Z.eqb_spec x 0), (Z.eqb_spec x' 0); intro E; try discriminate E; [congruence|].
  injection E as E. destruct (Z.ltb_spec 0 x), (Z.ltb_spec 0 x'); cbn [app] in E.
  - injection E as E. apply str_same, E.
  - rewrite (str_minus x') in E by lia. discriminate E.
  - rewrite (str_minus x) in E by lia. discriminate E.
  - apply str_same, E.
Qed.
Lemma scientific_same s neg c e neg' c' e' : scientific s neg c e -> scientific s neg' c' e' -> neg = neg' /\ c = c' /\ e = e'.
Proof.
  intros (ip & fp & x & I & F & Ni & W & Ex & E) (ip' & fp' & x' & I' & F' & Ni' & W' & Ex' & E').
  change (s = (if neg then [45%N] else []) ++ ip ++ match fp with [] => [] | _ => 46%N :: fp end ++ exponent x) in E.
  change (s = (if neg' then [45%N] else []) ++ ip' ++ match fp' with [] => [] | _ => 46%N :: fp' end ++ exponent x') in E'.
  rewrite E in E'. clear E s.
  assert (Hd : forall ip r, Forall digit ip -> ip <> [] -> exists d t, ip ++ r = d :: t /\ digit d).
  { intros [|d t] r Fd Nd; [congruence|]. inversion Fd. eexists _, _. split; [reflexivity|assumption]. }
  assert (N : neg = neg').
  { destruct neg, neg'; try reflexivity; exfalso; cbn [app] in E'.
    - destruct (Hd ip' (match fp' with [] => [] | _ => 46%N :: fp' end ++ exponent x') I' Ni') as (d & t & Q & Dd). rewrite Q in E'. injection E' as <- _. unfold digit in Dd. lia.
    - destruct (Hd ip (match fp with [] => [] | _ => 46%N :: fp end ++ exponent x) I Ni) as (d & t & Q & Dd). rewrite Q in E'. injection E' as -> _. unfold digit in Dd. lia. }
  subst neg'. apply app_inv_head in E'.
  assert (Sx : forall x, stops digit (exponent x)).
  { intro y. unfold exponent. destruct (y =? 0); [exact Logic.I|]. cbn [stops]. unfold digit. lia. }
  assert (Sf : forall (f : pystr) y, stops digit (match f with [] => [] | _ => 46%N :: f end ++ exponent y)).
  { intros [|d f] y; [apply Sx|]. cbn [app stops]. unfold digit. lia. }
  apply (cut_first digit) in E'; [|assumption|assumption|apply Sf|apply Sf]. destruct E' as [-> E'].
  assert (P : fp = fp' /\ x = x').
  { assert (No : forall d f y t, 46%N :: d :: f ++ t <> exponent y) by (intros d f y t; unfold exponent; destruct (y =? 0); discriminate).
    destruct fp as [|d f], fp' as [|d' f']; cbn [app] in E'.
    - split; [reflexivity|apply exponent_same, E'].
    - exfalso. exact (No _ _ _ _ (eq_sym E')).
    - exfalso. exact (No _ _ _ _ E').
    - apply (f_equal (@tl N)) in E'. cbn [tl] in E'. apply (cut_first digit (d :: f) (d' :: f')) in E'; [|assumption|assumption|apply Sx|apply Sx].
      destruct E' as [E1 E2]. split; [exact E1|apply exponent_same, E2]. }
  destruct P as [-> ->]. split; [reflexivity|]. split; lia.
Qed.
Lemma decimal_head neg c e : exists d t, str_of_decimal (DFin neg c e) = d :: t /\ (digit d \/ d = 45%N /\ exists d' t', t = d' :: t' /\ digit d').
Proof.
  destruct (decimal_scientific neg c e) as (ip & fp & x & I & _ & Ni & _ & _ & ->). destruct I as [|d ip H I]; [congruence|].
  destruct neg; cbn [app]; eexists _, _; (split; [reflexivity|]); [right; split; [reflexivity|]; eexists _, _; split; [reflexivity|exact H]|left; exact H].
Qed.
Theorem decimal_same d d' : str_of_decimal d = str_of_decimal d' -> d = d'.
Proof.
  assert (H : forall neg c e d', (forall n c e, d' <> DFin n c e) -> str_of_decimal (DFin neg c e) <> str_of_decimal d').
  { intros neg c e d0 N E. destruct (decimal_head neg c e) as (a & t & Q & D). rewrite Q in E.
    destruct d0 as [n0 c0 e0|[]|]; [exact (N _ _ _ eq_refl)| | |]; cbn [str_of_decimal] in E; strings; injection E as -> ->;
      (destruct D as [D|(D & d2 & t2 & T & D2)]; [unfold digit in D; lia|]); try discriminate D. injection T as <- _. unfold digit in D2. lia. }
  destruct d as [neg c e|n|], d' as [neg' c' e'|n'|]; intro E.
  - pose proof (decimal_scientific neg c e) as A. pose proof (decimal_scientific neg' c' e') as B. rewrite <- E in B.
    destruct (scientific_same _ _ _ _ _ _ _ A B) as (-> & -> & ->). reflexivity.
  - exfalso. revert E. apply H. discriminate.
  - exfalso. revert E. apply H. discriminate.
  - exfalso. symmetry in E. revert E. apply H. discriminate.
  - destruct n, n'; try reflexivity; discriminate E.
  - destruct n; discriminate E.
  - exfalso. symmetry in E. revert E. apply H. discriminate.
  - destruct n'; discriminate E.
  - reflexivity.
Qed.

(** ** The end of a message: nothing after the last "by " *)
Definition byless (s : pystr) : Prop := forall u v, s <> u ++ 98%N :: 121%N :: 32%N :: v.
Fixpoint safe (s : pystr) : bool :=
  match s with
  | [] => true
  | c :: s' =>
      (negb (c =? 98)%N || match s' with d :: e :: _ => negb ((d =? 121)%N && (e =? 32)%N) | _ => false end) && safe s'
  end.
Lemma byless_nil : byless [].
Proof. intros [|c u] v E; discriminate E. Qed.
Lemma byless_cons c s : (forall v, c :: s <> 98%N :: 121%N :: 32%N :: v) -> byless s -> byless (c :: s).
Proof. intros H B [|d u] v E; [exact (H v E)|]. injection E as _ E. exact (B u v E). Qed.
Lemma byless_safe s t : safe s = true -> byless t -> byless (s ++ t).
Proof.
  intros H B. induction s as [|c s IH]; [exact B|]. cbn [safe] in H. apply andb_true_iff in H. destruct H as [H Hs].
  cbn [app]. apply byless_cons; [|apply IH, Hs]. intros v E. injection E as -> E. cbn [N.eqb] in H.
  destruct s as [|d [|e s]]; try discriminate H. cbn [app] in E. injection E as -> -> _. discriminate H.
Qed.
Lemma byless_other s t : Forall (fun c => c <> 98%N) s -> byless t -> byless (s ++ t).
Proof. intros H B. induction H as [|c s Hc _ IH]; [exact B|]. cbn [app]. apply byless_cons; [|exact IH]. intros v E. congruence. Qed.
Lemma last_by a b x y : byless x -> byless y ->
  a ++ 98%N :: 121%N :: 32%N :: x = b ++ 98%N :: 121%N :: 32%N :: y -> a = b /\ x = y.
Proof.
  assert (H : forall c b x y, byless x -> 98%N :: 121%N :: 32%N :: x <> (c :: b) ++ 98%N :: 121%N :: 32%N :: y).
  { intros c [|c1 [|c2 b']] x0 y0 B E; cbn [app] in E; try discriminate E. injection E as _ _ _ E. exact (B _ _ E). }
  intros X Y. revert b. induction a as [|c a IH]; intros [|c' b] E.
  - cbn [app] in E. injection E as E. auto.
  - exfalso. exact (H _ _ _ _ X E).
  - exfalso. exact (H _ _ _ _ Y (eq_sym E)).
  - cbn [app] in E. injection E as -> E. destruct (IH _ E) as [-> ->]. auto.
Qed.
Lemma str_other z : Forall (fun c => c <> 98%N) (str_of_Z z).
Proof. eapply Forall_impl; [|apply str_chars]. cbn beta. unfold digit. intros c [H|H]; lia. Qed.
(** The characters of Decimals. *)
Definition numeric (c : N) : Prop := digit c \/ c = 45%N \/ c = 43%N \/ c = 46%N \/ c = 69%N.
Lemma decimal_chars neg c e : Forall numeric (str_of_decimal (DFin neg c e)).
Proof.
  destruct (decimal_scientific neg c e) as (ip & fp & x & I & F & _ & _ & _ & ->).
  assert (G : forall s, Forall digit s -> Forall numeric s) by (intros s; apply Forall_impl; unfold numeric; auto).
  assert (Z0 : Forall numeric (str_of_Z x)) by (eapply Forall_impl; [|apply str_chars]; cbn beta; unfold numeric; tauto).
  apply Forall_app. split; [destruct neg; [constructor; [unfold numeric; tauto|constructor]|constructor]|].
  apply Forall_app. split; [apply G, I|]. apply Forall_app. split; [destruct fp; [constructor|constructor; [unfold numeric; tauto|apply G, F]]|].
  destruct (x =? 0); [constructor|]. constructor; [unfold numeric; tauto|]. apply Forall_app. split; [|exact Z0].
  destruct (0 <? x); [constructor; [unfold numeric; tauto|constructor]|constructor].
Qed.
Lemma decimal_other d : Forall (fun c => c <> 98%N) (str_of_decimal d).
Proof.
  destruct d as [neg c e|[]|]; [|cbv; repeat constructor; discriminate..].
  eapply Forall_impl; [|apply decimal_chars]. cbn beta. unfold numeric, digit. intros k H. lia.
Qed.

(** What follows "by ". *)
Definition ending (packed : bool) (cls : string) (c : cause) : pystr :=
  class_text packed cls ++ match cause_text cls c with None => [] | Some msg => lit ": " ++ msg end.
Lemma class_cases packed t : In (class_name packed t)
  ["UnsignedIntegerEncoder"; "SignedIntegerEncoder"; "BooleanEncoder"; "AddressEncoder"; "UnsignedFixedEncoder"; "SignedFixedEncoder";
   "BytesEncoder"; "ByteStringEncoder"; "TextStringEncoder"; "ArrayEncoder"; "DynamicArrayEncoder"; "SizedArrayEncoder"; "TupleEncoder"]%string.
Proof. destruct t, packed; cbn [class_name]; repeat (first [left; reflexivity|right]). Qed.
Lemma cause_byless cls c t : byless t -> byless (match cause_text cls c with None => [] | Some msg => lit ": " ++ msg end ++ t).
Proof.
  intro B. destruct c; cbn [cause_text]; repeat match goal with |- context [if ?b then _ else _] => destruct b end; rewrite <- ?app_assoc;
    repeat first [exact B | apply byless_other; [apply str_other|] | apply byless_other; [apply decimal_other|] | apply byless_safe; [reflexivity|]].
Qed.
Lemma ending_byless packed t c : byless (ending packed (class_name packed t) c).
Proof.
  unfold ending, class_text. rewrite <- app_assoc.
  assert (T : byless (lit (class_name packed t) ++ match cause_text (class_name packed t) c with None => [] | Some msg => lit ": " ++ msg end)).
  { rewrite <- (app_nil_r (match cause_text _ c with None => [] | _ => _ end)).
    apply byless_safe; [destruct t, packed; reflexivity|]. apply cause_byless, byless_nil. }
  destruct (packed && _); [|exact T]. apply byless_safe; [reflexivity|exact T].
Qed.
Lemma name_colon packed t : Forall (fun c => c <> 58%N) (class_text packed (class_name packed t)).
Proof. destruct t, packed; cbv; repeat constructor; discriminate. Qed.
Lemma ending_split packed t c packed' t' c' :
  ending packed (class_name packed t) c = ending packed' (class_name packed' t') c' ->
  class_text packed (class_name packed t) = class_text packed' (class_name packed' t')
  /\ cause_text (class_name packed t) c = cause_text (class_name packed' t') c'.
Proof.
  intro E. unfold ending in E. apply (cut_first (fun c => c <> 58%N)) in E; [|apply name_colon|apply name_colon| |];
    [|destruct (cause_text _ c); [|exact Logic.I]; intro N; apply N; reflexivity|destruct (cause_text _ c'); [|exact Logic.I]; intro N; apply N; reflexivity].
  destruct E as [A E]. split; [exact A|].
  destruct (cause_text _ c), (cause_text _ c'); try discriminate E; [|reflexivity]. apply app_inv_head in E. congruence.
Qed.
Definition no_comma (s : pystr) : Prop := Forall (fun c => c <> 44%N) s.
Lemma str_comma z : no_comma (str_of_Z z).
Proof. eapply Forall_impl; [|apply str_chars]. cbn beta. unfold digit. intros c [H|H]; lia. Qed.
Lemma decimal_comma d : no_comma (str_of_decimal d).
Proof.
  destruct d as [neg c e|[]|]; [|cbv; repeat constructor; discriminate..].
  eapply Forall_impl; [|apply decimal_chars]. cbn beta. unfold numeric, digit. intros k H. lia.
Qed.
Lemma decimal_quote d : Forall (fun c => c <> 39%N) (str_of_decimal d).
Proof.
  destruct d as [neg c e|[]|]; [|cbv; repeat constructor; discriminate..].
  eapply Forall_impl; [|apply decimal_chars]. cbn beta. unfold numeric, digit. intros k H. lia.
Qed.
Lemma cut_comma a a' r r' : no_comma a -> no_comma a' -> a ++ lit ", " ++ r = a' ++ lit ", " ++ r' -> a = a' /\ r = r'.
Proof.
  intros H H' E. apply (cut_first (fun c => c <> 44%N)) in E; [|assumption|assumption|intro N; apply N; reflexivity|intro N; apply N; reflexivity].
  destruct E as [-> E]. apply app_inv_head in E. auto.
Qed.
Lemma cut_number z z' s r r' : lit s <> [] -> hd 0%N (lit s) = 32%N -> str_of_Z z ++ lit s ++ r = str_of_Z z' ++ lit s ++ r' -> z = z' /\ r = r'.
Proof.
  intros N H E. destruct (lit s) as [|k q] eqn:Q; [congruence|]. cbn [hd] in H. subst k. cbn [app] in E.
  apply cut_blank in E; [|apply str_blank|apply str_blank]. destruct E as [A E]. apply str_same in A. apply app_inv_head in E. auto.
Qed.
(** The cause up to whether the bounds are integers. *)
Definition integral (c : cause) : bool := match c with OutsideInts _ _ _ => true | _ => false end.
Lemma cause_same cls cls' c c' : cause_text cls c = cause_text cls' c' -> class_of_cause c = class_of_cause c' -> integral c = integral c' -> c = c'.
Proof.
  intros E K I.
  destruct c as [| |b lo hi|b lo hi|r n|n|g w], c' as [| |b' lo' hi'|b' lo' hi'|r' n'|n'|g' w']; try discriminate K; try discriminate I; try reflexivity;
    cbn [cause_text] in E; try discriminate E; apply some_inj in E; try (exfalso; strings; discriminate E).
  - apply app_inv_head in E. apply cut_number in E; [|discriminate|reflexivity]. destruct E as [-> E].
    apply cut_comma in E; [|apply str_comma|apply str_comma]. destruct E as [E1 E]. apply app_inv_tail in E. apply str_same in E1, E. congruence.
  - apply app_inv_head in E. apply cut_number in E; [|discriminate|reflexivity]. destruct E as [-> E].
    apply cut_comma in E; [|apply decimal_comma|apply decimal_comma]. destruct E as [E1 E]. apply app_inv_tail in E. apply decimal_same in E1, E. congruence.
  - apply app_inv_head in E. apply app_inv_head in E.
    apply (cut_first (fun c => c <> 39%N)) in E;
      [|apply decimal_quote|apply decimal_quote|intro N; apply N; reflexivity|intro N; apply N; reflexivity].
    destruct E as [E1 E]. apply app_inv_head in E. apply app_inv_head in E. apply str_same in E. apply decimal_same in E1. congruence.
  - apply app_inv_head in E. apply app_inv_tail in E. apply str_same in E. congruence.
  - apply app_inv_head in E. apply cut_number in E; [|discriminate|reflexivity]. destruct E as [-> E]. apply app_inv_tail in E. apply str_same in E. congruence.
Qed.
Lemma wrong_integral t v c : wrong t v c -> forall packed t' v' c' packed', wrong t' v' c' ->
  class_text packed (class_name packed t) = class_text packed' (class_name packed' t') -> class_of_cause c = class_of_cause c' ->
  cause_text (class_name packed t) c = cause_text (class_name packed' t') c' -> integral c = integral c'.
Proof.
  intros W packed t' v' c' packed' W' N K E.
  destruct (integral c) eqn:A, (integral c') eqn:B; try reflexivity; exfalso.
  - destruct c; try discriminate A. destruct c'; try discriminate B; try discriminate K; try (apply some_inj in E; strings; discriminate E).
    inversion W'; subst. match goal with H : fixed_range _ _ _ _ |- _ => inversion H; subst end;
    inversion W; subst; destruct packed, packed'; discriminate N.
  - destruct c'; try discriminate B. destruct c; try discriminate A; try discriminate K; try (apply some_inj in E; strings; discriminate E).
    inversion W; subst. match goal with H : fixed_range _ _ _ _ |- _ => inversion H; subst end;
    inversion W'; subst; destruct packed, packed'; discriminate N.
Qed.
Lemma text_ending rep ty packed cls v c x : objection_text rep ty packed (Objects cls v c) = Some x ->
  exists a, x = a ++ 98%N :: 121%N :: 32%N :: ending packed cls c.
Proof.
  cbn [objection_text]. destruct (abbr_default (rep v)) as [r|]; [|discriminate]. intro E. apply some_inj in E. subst x.
  change (lit " cannot be encoded by ") with (lit " cannot be encoded " ++ [98; 121; 32]%N).
  exists (lit "Value `" ++ r ++ lit "` of type " ++ ty v ++ lit " cannot be encoded "). rewrite <- !app_assoc. reflexivity.
Qed.
Theorem objection_same rep ty packed t v c rep' ty' packed' t' v' c' x : wrong t v c -> wrong t' v' c' ->
  objection_text rep ty packed (Objects (class_name packed t) v c) = Some x ->
  objection_text rep' ty' packed' (Objects (class_name packed' t') v' c') = Some x ->
  class_of_cause c = class_of_cause c' ->
  class_text packed (class_name packed t) = class_text packed' (class_name packed' t') /\ c = c'.
Proof.
  intros W W' E E' K. apply text_ending in E, E'. destruct E as [a ->], E' as [a' E'].
  apply last_by in E'; [|apply ending_byless|apply ending_byless]. destruct E' as [_ E]. apply ending_split in E. destruct E as [N E].
  split; [exact N|]. apply (cause_same _ _ _ _ E K). exact (wrong_integral _ _ _ W _ _ _ _ _ W' N K E).
Qed.
Lemma flaw_wrong packed t p o : flaw packed t p o -> forall cls v c, o = Objects cls v c -> exists t', cls = class_name packed t' /\ wrong t' v c.
Proof. induction 1; intros cls v c0 E; try discriminate E; [|eauto..]. injection E as <- <- <-. eauto. Qed.
Lemma class_same packed t t' : class_text packed (class_name packed t) = class_text packed (class_name packed t') -> class_name packed t = class_name packed t'.
Proof. destruct packed, t, t'; intro E; try reflexivity; discriminate E. Qed.
Theorem objection_true rep ty packed w types ts args l cls v c x t' v' c' : used packed w -> type_args types ts -> seq_like args l -> fits args ->
  heard_in w types args = Says (Objects cls v c) -> objection_text rep ty packed (Objects cls v c) = Some x ->
  wrong t' v' c' -> objection_text rep ty packed (Objects (class_name packed t') v' c') = Some x -> class_of_cause c = class_of_cause c' ->
  flaw packed (STuple ts) args (Objects (class_name packed t') v c').
Proof.
  intros U T S F H E W' E' K. pose proof (heard_flaw packed w types ts args l _ U T S F H) as Fl.
  destruct (flaw_wrong _ _ _ _ Fl _ _ _ eq_refl) as (t & -> & W).
  destruct (objection_same _ _ _ _ _ _ _ _ _ _ _ _ _ W W' E E' K) as [N ->]. apply class_same in N. rewrite <- N. exact Fl.
Qed.
Theorem objection_shown rep ty packed cls v c : exists r y,
  objection_text rep ty packed (Objects cls v c) = Some (lit "Value `" ++ r ++ lit "` of type " ++ ty v ++ y)
  /\ len r <= 79 /\ (len (rep v) <= 79 -> r = rep v) /\ (79 < len (rep v) -> exists u, rep v = take_z 76 (rep v) ++ u /\ r = take_z 76 (rep v) ++ lit "...").
Proof.
  cbn [objection_text]. unfold abbr_default, abbr. destruct (Z.ltb_spec 79 (len (rep v))) as [H|H].
  - change (79 <? 3) with false. cbv iota. eexists _, _. split; [reflexivity|]. change (79 - 3) with 76. split; [|split; [lia|]].
    + rewrite len_app, len_take_z by lia. rewrite (len_length (lit "...")). change (Z.of_nat (length (lit "..."))) with 3. lia.
    + intros _. exists (drop_z 76 (rep v)). split; [rewrite take_drop_z; [reflexivity|lia]|reflexivity].
  - eexists _, _. split; [reflexivity|]. split; [lia|]. split; [reflexivity|lia].
Qed.
Theorem class_needed : ~ forall rep ty packed t v c v' c' x, wrong t v c -> wrong t v' c' ->
  objection_text rep ty packed (Objects (class_name packed t) v c) = Some x ->
  objection_text rep ty packed (Objects (class_name packed t) v' c') = Some x -> c = c'.
Proof.
  intro H. assert (E : Unsuited = NotFinite); [|discriminate E].
  apply (H (fun _ => []) (fun _ => []) false (SUFixed 8 1) PNone Unsuited (PDec DNaN) NotFinite
           (lit "Value `" ++ lit "` of type " ++ lit " cannot be encoded by UnsignedFixedEncoder")).
  - apply W_kind. intros [].
  - eapply W_special; [apply FR_unsigned|discriminate].
  - reflexivity.
  - reflexivity.
Qed.
