(** from_type_str of the leaf classes against FromTypeSpec.v. *)
From Coq Require Import Strings.String Lia.
From Verif Require Import Tac Py Utf8 Address Grammar GrammarSpec GrammarProofs NormalizeProofs Encoding Decoding Registry Spec TypeSpec FromTypeSpec
  CacheProofs LookupProofs TypeProofs TypeCases.
Open Scope Z_scope.

(** What the decorator makes of a string, on trees. *)
Lemma leaf_tree b s : 
  match parse_type_str (Some b) false s with
  | Ok T => exists sub, T = Basic b sub [] /\ sub_ok sub /\ has_base b s /\ validate_basic b sub = Ok tt
            /\ forall t, type_name true s t <-> basic_sty b sub = Some t
  | Err e => leaf_error b (fun _ => True) s e
  end.
Proof.
  unfold parse_type_str. destruct (parse s) as [T|e] eqn:P.
  - pose proof (proj1 (parse_iff s T) P) as [A _]. pose proof (expand_ok T A) as A'. rewrite (parse_normalize s T P). cbn [bind].
    assert (G : g_type s T) by (apply parse_spec; exact P).
    assert (U : forall T', g_type s T' -> T' = T) by (intros T' G'; apply parse_spec in G'; congruence).
    destruct (expand T) as [b' sub arr|ts arr] eqn:E; cbn [arrlist_of].
    + destruct (str_eqb b' b) eqn:B; cbn [negb raise_if bind].
      * apply str_eqb_eq in B. subst b'. destruct arr as [|d arr]; cbn [negb andb raise_if bind validate_type].
        -- assert (N : forall t, type_name true s t <-> basic_sty b sub = Some t).
           { intro t. rewrite type_name_iff. unfold named. split.
             - intros (T' & P' & E'). assert (T' = T) by congruence. subst T'. rewrite E in E'. cbn [ast_sty] in E'.
               destruct (basic_sty b sub); [exact E'|discriminate].
             - intro Q. exists T. split; [exact P|]. rewrite E. cbn [ast_sty]. rewrite Q. reflexivity. }
           assert (H : has_base b s) by (exists T, sub; auto).
           inv A'. take (sub_ok sub) as Hs.
           destruct (validate_basic b sub) as [[]|e] eqn:V; cbn [bind].
           ++ exists sub. auto.
           ++ apply validate_basic_err in V as Ve. subst e. apply LE_size; [exact H|]. intros t Ht. apply N in Ht.
              apply basic_valid in Ht. destruct Ht as [Ht _]. congruence.
        -- apply LE_other_base; [exists T; exact G|]. intros (T' & sub' & G' & E'). apply U in G'. subst T'. congruence.
      * apply LE_other_base; [exists T; exact G|]. intros (T' & sub' & G' & E'). apply U in G'. subst T'. rewrite E in E'. inv E'.
        rewrite (proj2 (str_eqb_eq b b) eq_refl) in B. discriminate.
    + apply LE_other_base; [exists T; exact G|]. intros (T' & sub' & G' & E'). apply U in G'. subst T'. congruence.
  - rewrite (parse_normalize_err s e P). cbn [bind]. destruct (parse_err s e P) as [N [[-> X]|[-> X]]].
    + apply LE_empty_tuple; [intros T G; apply N; exists T; exact G|exact X].
    + apply LE_syntax; [intros T G; apply N; exists T; exact G|exact X].
Qed.
Lemma leaf_error_weaken b (P : sty -> Prop) s e : leaf_error b (fun _ => True) s e -> leaf_error b P s e.
Proof. intro H. inv H; try (constructor; assumption). contradiction. Qed.

(** The outcome of one class: [r] is what it returns, [built] its coders. *)
Definition outcome {A} (b : pystr) (built : sty -> option A) (s : pystr) (r : result A) : Prop :=
  match r with
  | Ok e => exists t, type_name true s t /\ has_base b s /\ built t = Some e
  | Err x => leaf_error b (fun t => built t <> None) s x
  end.
Lemma outcome_bind {A} b (built : sty -> option A) s (k : abi_type -> result A) :
  (forall sub, sub_ok sub -> validate_basic b sub = Ok tt ->
     match k (Basic b sub []) with
     | Ok e => exists t, basic_sty b sub = Some t /\ built t = Some e
     | Err x => x = TypeError /\ exists t, basic_sty b sub = Some t /\ built t = None
     end) ->
  outcome b built s (t <- parse_type_str (Some b) false s ;; k t).
Proof.
  intro K. pose proof (leaf_tree b s) as L. unfold outcome. destruct (parse_type_str (Some b) false s) as [T|e]; cbn [bind].
  - destruct L as (sub & -> & Hs & H & V & N). specialize (K sub Hs V). destruct (k (Basic b sub [])) as [e|x].
    + destruct K as (t & E & B). exists t. rewrite N. auto.
    + destruct K as (-> & t & E & B). eapply LE_none; [exact H|apply N; exact E|]. intro X. apply X. exact B.
  - apply leaf_error_weaken. exact L.
Qed.
Lemma sty_int m : int_size m ->
  basic_sty (lit "uint") (SubInt m) = Some (SUInt m) /\ basic_sty (lit "int") (SubInt m) = Some (SInt m).
Proof. intro H. apply int_sizeb_spec in H. cbn -[int_sizeb]. rewrite H. auto. Qed.
Lemma sty_fixed m n : int_size m -> frac_size n ->
  basic_sty (lit "ufixed") (SubPair m n) = Some (SUFixed m n) /\ basic_sty (lit "fixed") (SubPair m n) = Some (SFixed m n).
Proof. intros H H'. apply int_sizeb_spec in H. apply frac_sizeb_spec in H'. cbn -[int_sizeb frac_sizeb]. rewrite H, H'. auto. Qed.
Lemma sty_bytes k : 1 <= k <= 32 -> basic_sty (lit "bytes") (SubInt k) = Some (SBytesM k).
Proof. intro H. cbn -[Z.leb]. replace ((1 <=? k) && (k <=? 32)) with true by lia. reflexivity. Qed.
Ltac int_case m V b :=
  let I := fresh in destruct (basic_int (lit b) m ltac:(auto)) as [[I _]|[_ I]]; [|congruence];
  destruct (sty_int m I) as [? ?]; destruct (check_sizes_ok m I) as (? & ? & ?).
Ltac fixed_case m n V b :=
  let I := fresh in let J := fresh in
  destruct (basic_fixed (lit b) m n ltac:(auto)) as [(I & J & _)|[_ I]]; [|congruence];
  destruct (sty_fixed m n I J) as [? ?]; destruct (check_sizes_ok m I) as (? & ? & ?); destruct (check_frac_ok n J) as (? & ?).
Ltac bytes_case m Hs V :=
  destruct (basic_bytes m Hs) as [[? _]|[_ ?]]; [|congruence];
  cbn [sub_ok] in Hs; pose proof (sty_bytes m ltac:(lia)).
Ltac leaf_done :=
  unfold mk_uint, mk_sint, mk_ufixed, mk_sfixed, mk_duint, mk_dint, mk_dufixed, mk_dfixed;
  repeat match goal with H : ?x = Ok tt |- context[?x] => rewrite H end; cbn [bind];
  eexists; split; [eassumption|reflexivity].
Ltac leaf_bytes_done m :=
  unfold mk_bytesM, mk_dbytesM, check_sizes, check_dec_sizes; rif; cbn [bind raise_if];
  eexists; split; [eassumption|]; cbn [built_enc built_dec]; replace (8 * m) with (m * 8) by lia; reflexivity.
Ltac leaf_cases Hs V :=
  match type of Hs with
  | sub_ok (SubInt ?m) =>
      match type of V with
      | validate_basic (lit "bytes") _ = _ => bytes_case m Hs V; first [leaf_bytes_done m|eexists; split; [eassumption|reflexivity]]
      | validate_basic (lit ?b) _ = _ => int_case m V b; leaf_done
      end
  | sub_ok (SubPair ?m ?n) =>
      match type of V with validate_basic (lit ?b) _ = _ => fixed_case m n V b; leaf_done end
  end.
Theorem enc_outcome c b s : enc_base c = Some b -> exists r, enc_leaf_from_type_str c s = Some r /\ outcome b (built_enc c) s r.
Proof.
  intro B. destruct c; inv B; (eexists; split; [reflexivity|]); apply outcome_bind; intros sub Hs V;
    (destruct sub as [|m|m n]; try discriminate V; cbn [sub_int sub_pair bind];
     first [solve [eexists; split; [reflexivity|reflexivity]]
           |solve [split; [reflexivity|]; eexists; split; [reflexivity|reflexivity]]
           |leaf_cases Hs V]).
Qed.
Theorem dec_outcome c b s : dec_base c = Some b -> exists r, dec_leaf_from_type_str c s = Some r /\ outcome b (built_dec c) s r.
Proof.
  intro B. destruct c; inv B; (eexists; split; [reflexivity|]); apply outcome_bind; intros sub Hs V;
    (destruct sub as [|m|m n]; try discriminate V; cbn [sub_int sub_pair bind];
     first [solve [eexists; split; [reflexivity|reflexivity]]
           |solve [split; [reflexivity|]; eexists; split; [reflexivity|reflexivity]]
           |leaf_cases Hs V]).
Qed.

(** ** Exactness *)
Lemma type_name_fun s t t' : type_name true s t -> type_name true s t' -> t = t'.
Proof. intros H H'. apply type_name_iff in H, H'. destruct H as (T & P & E), H' as (T' & P' & E'). congruence. Qed.
Lemma type_name_parses s t : type_name true s t -> exists T, g_type s T.
Proof. intro H. apply type_name_iff in H. destruct H as (T & P & _). exists T. apply parse_spec. exact P. Qed.
(** A type with a built coder has the base of the class. *)
Definition leaf_base (t : sty) : option pystr :=
  match t with
  | SUInt _ => Some (lit "uint") | SInt _ => Some (lit "int") | SBool => Some (lit "bool") | SAddr => Some (lit "address")
  | SUFixed _ _ => Some (lit "ufixed") | SFixed _ _ => Some (lit "fixed") | SBytesM _ | SBytes => Some (lit "bytes")
  | SString => Some (lit "string") | _ => None
  end.
Lemma dims_leaf arr : forall t b, leaf_base (dims_sty arr t) = Some b -> arr = [].
Proof.
  induction arr as [|d arr IH] using rev_ind; intros t b H; [reflexivity|]. exfalso.
  unfold dims_sty in H. rewrite fold_left_app in H. cbn [fold_left] in H. destruct d; discriminate H.
Qed.
Lemma basic_leaf b sub t : basic_sty b sub = Some t -> leaf_base t = Some b.
Proof.
  unfold basic_sty. intro H.
  repeat match type of H with
    | (if str_eqb b ?x then _ else _) = _ => let E := fresh in destruct (str_eqb b x) eqn:E; [apply str_eqb_eq in E; subst b|]
    | (match sub with _ => _ end) = _ => destruct sub
    | (if ?c then _ else _) = _ => destruct c
    end; inv H; reflexivity.
Qed.
Lemma named_base s t b : type_name true s t -> leaf_base t = Some b -> has_base b s.
Proof.
  intros H L. apply type_name_iff in H. destruct H as (T & P & E). apply parse_spec in P.
  destruct (expand T) as [b' sub arr|ts arr] eqn:X; cbn [ast_sty] in E.
  - destruct (basic_sty b' sub) as [t0|] eqn:B; [|discriminate]. inv E. pose proof (dims_leaf _ _ _ L). subst arr. cbn in L.
    apply basic_leaf in B. assert (b' = b) by congruence. subst b'. exists T, sub. auto.
  - destruct (all_some (map ast_sty ts)) as [l|]; [|discriminate]. inv E. pose proof (dims_leaf _ _ _ L). subst arr. discriminate L.
Qed.
Lemma enc_base_leaf c b t e : enc_base c = Some b -> built_enc c t = Some e -> leaf_base t = Some b.
Proof. intros B E. destruct c; inv B; destruct t; inv E; reflexivity. Qed.
Lemma dec_base_leaf c b t e : dec_base c = Some b -> built_dec c t = Some e -> leaf_base t = Some b.
Proof. intros B E. destruct c; inv B; destruct t; inv E; reflexivity. Qed.

Lemma leaf_error_fun b (P : sty -> Prop) s x y : leaf_error b P s x -> leaf_error b P s y -> x = y.
Proof.
  intros H H'. inv H; inv H'; try reflexivity; try tauto;
    try (exfalso; match goal with N : forall T, ~ g_type s T |- _ =>
      first [match goal with E : exists T, g_type s T |- _ => destruct E as [? ?]; eapply N; eassumption end
            |match goal with E : has_base _ s |- _ => destruct E as (? & ? & ? & _); eapply N; eassumption end] end);
    try (exfalso; match goal with N : forall t, ~ type_name true s t |- _ => eapply N; eassumption end).
Qed.
Lemma outcome_error_not_ok {A} b (built : sty -> option A) s x t e : leaf_error b (fun t => built t <> None) s x ->
  type_name true s t -> has_base b s -> built t = Some e -> False.
Proof.
  intros H N B E. inv H.
  - destruct (type_name_parses s t N) as [T G]. firstorder.
  - destruct (type_name_parses s t N) as [T G]. firstorder.
  - contradiction.
  - firstorder.
  - take (type_name true s t0) as N'. pose proof (type_name_fun _ _ _ N N'). subst t0. take (~ built t <> None) as Q. apply Q. congruence.
Qed.
Lemma outcome_exact {A} b (built : sty -> option A) s r : (forall t e, built t = Some e -> leaf_base t = Some b) -> outcome b built s r ->
  (forall e, r = Ok e <-> exists t, type_name true s t /\ built t = Some e)
  /\ (forall x, r = Err x <-> leaf_error b (fun t => built t <> None) s x).
Proof.
  intros L O. destruct r as [e0|x0]; cbn [outcome] in O; (split; [intro e|intro x]); split; intro H; try discriminate.
  - inv H. destruct O as (t & N & _ & E). exists t. auto.
  - destruct H as (t & N & E), O as (t' & N' & _ & E'). pose proof (type_name_fun _ _ _ N N'). congruence.
  - exfalso. destruct O as (t' & N' & B & E'). eapply outcome_error_not_ok; eassumption.
  - exfalso. destruct H as (t & N & E). eapply outcome_error_not_ok; [exact O|exact N|eapply named_base; [exact N|eapply L; exact E]|exact E].
  - inv H. exact O.
  - f_equal. eapply leaf_error_fun; eassumption.
Qed.
Theorem encoder_built c b s e : enc_base c = Some b ->
  (enc_leaf_from_type_str c s = Some (Ok e) <-> exists t, type_name true s t /\ built_enc c t = Some e).
Proof.
  intro B. destruct (enc_outcome c b s B) as (r & -> & O).
  rewrite <- (proj1 (outcome_exact b (built_enc c) s r (fun t e => enc_base_leaf c b t e B) O)). split; congruence.
Qed.
Theorem encoder_error c b s x : enc_base c = Some b ->
  (enc_leaf_from_type_str c s = Some (Err x) <-> leaf_error b (fun t => built_enc c t <> None) s x).
Proof.
  intro B. destruct (enc_outcome c b s B) as (r & -> & O).
  rewrite <- (proj2 (outcome_exact b (built_enc c) s r (fun t e => enc_base_leaf c b t e B) O)). split; congruence.
Qed.
Theorem decoder_built c b s e : dec_base c = Some b ->
  (dec_leaf_from_type_str c s = Some (Ok e) <-> exists t, type_name true s t /\ built_dec c t = Some e).
Proof.
  intro B. destruct (dec_outcome c b s B) as (r & -> & O).
  rewrite <- (proj1 (outcome_exact b (built_dec c) s r (fun t e => dec_base_leaf c b t e B) O)). split; congruence.
Qed.
Theorem decoder_error c b s x : dec_base c = Some b ->
  (dec_leaf_from_type_str c s = Some (Err x) <-> leaf_error b (fun t => built_dec c t <> None) s x).
Proof.
  intro B. destruct (dec_outcome c b s B) as (r & -> & O).
  rewrite <- (proj2 (outcome_exact b (built_dec c) s r (fun t e => dec_base_leaf c b t e B) O)). split; congruence.
Qed.
(** TypeError comes only from fixed-size bytes without a size. *)
Lemma bytes_only s : type_name true s SBytes -> s = lit "bytes".
Proof.
  intro N. apply type_name_iff in N. destruct N as (T & P & E). destruct T as [b sub arr|ts arr].
  - cbn [expand] in E. assert (X : exists b' sub', expand (Basic b sub arr) = Basic b' sub' arr).
    { cbn [expand]. destruct sub; try (eexists; eexists; reflexivity). destruct (alias_of b) as [[b' sub']|]; eexists; eexists; reflexivity. }
    destruct X as (b' & sub' & X). change (match sub with SubNone => match alias_of b with Some (b', sub) => Basic b' sub arr | None => Basic b sub arr end | _ => Basic b sub arr end) with (expand (Basic b sub arr)) in E.
    rewrite X in E. cbn [ast_sty] in E. destruct (basic_sty b' sub') as [t0|] eqn:B; [|discriminate]. inv E.
    assert (arr = []) by (apply (dims_leaf arr t0 (lit "bytes")); rewrite H0; reflexivity). subst arr. cbn in H0. subst t0.
    pose proof (basic_leaf _ _ _ B) as L. cbn in L. injection L as <-. cbn -[Z.leb] in B.
    destruct sub' as [|m|m n]; [|destruct ((1 <=? m) && (m <=? 32)); discriminate B|discriminate B].
    apply parse_iff in P. destruct P as [_ ->]. cbn [expand] in X. destruct sub; [|discriminate X..].
    destruct (alias_of b) as [[b' sub']|] eqn:Al; [|inv X; reflexivity]. apply alias_of_ok in Al. inv X. tauto.
  - cbn [expand ast_sty] in E. destruct (all_some (map ast_sty (map expand ts))) as [l|]; [|discriminate]. inv E.
    assert (arr = []) by (apply (dims_leaf arr (STuple l) (lit "bytes")); rewrite H0; reflexivity). subst arr. discriminate H0.
Qed.
Theorem encoder_type_error c b s : enc_base c = Some b ->
  (enc_leaf_from_type_str c s = Some (Err TypeError) <-> (c = CBytesM \/ c = CPackedBytesM) /\ s = lit "bytes").
Proof.
  intro B. split.
  - intro H. apply (encoder_error c b s _ B) in H. inv H. rename H0 into HB. take (type_name true s t) as N.
    take (~ built_enc c t <> None) as Q.
    assert (F : forall e, built_enc c t <> Some e) by (intros e E; apply Q; congruence).
    destruct HB as (T & sub & G & X). pose proof N as N0. apply type_name_iff in N0. destruct N0 as (T' & P & E). apply parse_spec in G.
    assert (T' = T) by congruence. subst T'. rewrite X in E. cbn [ast_sty] in E.
    destruct (basic_sty b sub) as [t0|] eqn:Bs; [|discriminate]. inv E. pose proof (basic_leaf _ _ _ Bs) as L.
    destruct c; inv B; destruct t; inv L; try (exfalso; eapply F; reflexivity);
      (split; [auto|apply bytes_only; exact N]).
  - intros [[-> | ->] ->]; inv B; reflexivity.
Qed.
Theorem decoder_type_error c b s : dec_base c = Some b ->
  (dec_leaf_from_type_str c s = Some (Err TypeError) <-> c = CDBytesM /\ s = lit "bytes").
Proof.
  intro B. split.
  - intro H. apply (decoder_error c b s _ B) in H. inv H. rename H0 into HB. take (type_name true s t) as N.
    take (~ built_dec c t <> None) as Q.
    assert (F : forall e, built_dec c t <> Some e) by (intros e E; apply Q; congruence).
    destruct HB as (T & sub & G & X). pose proof N as N0. apply type_name_iff in N0. destruct N0 as (T' & P & E). apply parse_spec in G.
    assert (T' = T) by congruence. subst T'. rewrite X in E. cbn [ast_sty] in E.
    destruct (basic_sty b sub) as [t0|] eqn:Bs; [|discriminate]. inv E. pose proof (basic_leaf _ _ _ Bs) as L.
    destruct c; inv B; destruct t; inv L; try (exfalso; eapply F; reflexivity);
      (split; [auto|apply bytes_only; exact N]).
  - intros [-> ->]; inv B; reflexivity.
Qed.

(** ** Tuples and arrays *)
Lemma asks_sequence {St C} (get : pystr -> St -> result C * St) ns st r st1 : asks get ns st r st1 -> sequenceM get ns st = (r, st1).
Proof.
  induction 1 as [st|n ns st x st1 E|n ns st c st1 r st2 E H IH]; cbn [sequenceM]; [reflexivity|rewrite E; reflexivity|].
  rewrite E, IH. destruct r; reflexivity.
Qed.
Lemma named_valid T t : ast_ok T -> ast_sty (expand T) = Some t -> validate_type (expand T) = Ok tt.
Proof.
  intros A E. pose proof (resolve_spec (expand T) (expand_ok T A)) as R. destruct (resolve (expand T)); destruct R as [R1 R2]; [exact R2|congruence].
Qed.
Lemma listed_trees ss str : listed ss str -> forall ts, Forall2 (type_name true) ss ts ->
  exists Ts, g_components str Ts /\ Forall2 (fun s T => normalize s = to_type_str (expand T) /\ validate_type (expand T) = Ok tt) ss Ts.
Proof.
  assert (One : forall s t, type_name true s t -> exists T, g_type s T /\ normalize s = to_type_str (expand T) /\ validate_type (expand T) = Ok tt).
  { intros s t N. apply type_name_iff in N. destruct N as (T & P & E). exists T. split; [apply parse_spec; exact P|].
    split; [apply normalize_type; exact P|]. apply parse_iff in P. eapply named_valid; [apply P|exact E]. }
  induction 1 as [s|s ss str H IH]; intros ts F; inv F.
  - take (type_name true s _) as N. take (Forall2 _ [] _) as F. inv F. destruct (One _ _ N) as (T & G & Q). exists [T]. split; constructor; auto.
  - take (type_name true s _) as N. take (Forall2 _ ss _) as F. destruct (One _ _ N) as (T & G & Q). destruct (IH _ F) as (Ts & Gs & Qs).
    exists (T :: Ts). split; constructor; auto.
Qed.
Lemma tuple_parsed ss str ts sa ds ns : listed ss str -> Forall2 (type_name true) ss ts -> g_arr sa ds -> Forall2 normalized ss ns ->
  exists cs, parse_tuple_type_str (lit "(" ++ str ++ lit ")" ++ sa) = Ok cs /\ map to_type_str cs = ns.
Proof.
  intros L F A N. destruct (listed_trees ss str L ts F) as (Ts & G & Q). exists (map expand Ts).
  assert (P : parse (lit "(" ++ str ++ lit ")" ++ sa) = Ok (Tup Ts ds)) by (apply parse_spec; constructor; assumption).
  split.
  - unfold parse_tuple_type_str. rewrite (parse_normalize _ _ P). cbn [bind expand]. rewrite validate_type_tup.
    replace (map_result validate_type (map expand Ts)) with (Ok (repeat tt (length Ts))); [reflexivity|].
    symmetry. clear -Q. induction Q as [|s T ss Ts [_ V] Q IH]; [reflexivity|]. cbn [map repeat length].
    change (map_result validate_type (expand T :: map expand Ts)) with (y <- validate_type (expand T) ;; ys <- map_result validate_type (map expand Ts) ;; Ok (y :: ys)).
    rewrite V, IH. reflexivity.
  - clear -Q N. revert ns N. induction Q as [|s T ss Ts [V _] Q IH]; intros ns N; inv N; [reflexivity|]. cbn [map]. f_equal; [|auto].
    take (normalized s _) as E. apply normalized_iff in E. congruence.
Qed.
Theorem tuple_encoder {St} (ge : pystr -> St -> result encoder * St) ss str ts sa ds ns st r st1 :
  listed ss str -> Forall2 (type_name true) ss ts -> g_arr sa ds -> Forall2 normalized ss ns -> asks ge ns st r st1 ->
  enc_from_type_str ge CTuple (lit "(" ++ str ++ lit ")" ++ sa) st = (match r with Ok es => Ok (ETuple es) | Err x => Err x end, st1).
Proof.
  intros L F A N H. destruct (tuple_parsed ss str ts sa ds ns L F A N) as (cs & P & Q). unfold enc_from_type_str. cbn [enc_leaf_from_type_str].
  rewrite P, Q, (asks_sequence _ _ _ _ _ H). destruct r; reflexivity.
Qed.
Theorem tuple_decoder {St} (gd : pystr -> St -> result decoder * St) ss str ts sa ds ns st r st1 :
  listed ss str -> Forall2 (type_name true) ss ts -> g_arr sa ds -> Forall2 normalized ss ns -> asks gd ns st r st1 ->
  dec_from_type_str gd CDTuple (lit "(" ++ str ++ lit ")" ++ sa) st =
    (match r with Ok es => Ok (DTuple (map (fun d => wrapped d (dec_is_dyn d)) es)) | Err x => Err x end, st1).
Proof.
  intros L F A N H. destruct (tuple_parsed ss str ts sa ds ns L F A N) as (cs & P & Q). unfold dec_from_type_str. cbn [dec_leaf_from_type_str].
  rewrite P, Q, (asks_sequence _ _ _ _ _ H). destruct r; reflexivity.
Qed.
Lemma array_parsed s t sfx d n : type_name true s t -> g_arr sfx [d] -> normalized s n ->
  exists T it, parse_type_str None true (s ++ sfx) = Ok T /\ item_type T = Ok it /\ to_type_str it = n /\ last (arrlist_of T) None = d.
Proof.
  intros N A Z. apply type_name_iff in N. destruct N as (T & P & E). pose proof (normalize_type s T P) as Nz.
  apply normalized_iff in Z. subst n. pose proof P as G. apply parse_spec in G. destruct (g_type_snoc s T G) as [G1 G2].
  assert (G' : g_type (s ++ sfx) (set_arr (arrlist_of T ++ [d]) T)).
  { inv A; take (g_arr _ []) as A; inv A; rewrite ?app_nil_r; auto. }
  apply parse_spec in G'. pose proof (parse_normalize _ _ G') as P'. rewrite expand_set_arr in P'.
  apply parse_iff in P. destruct P as [Ao _]. pose proof (named_valid T t Ao E) as V.
  exists (set_arr (arrlist_of T ++ [d]) (expand T)), (expand T). unfold parse_type_str. rewrite P'. cbn [bind].
  assert (X : arrlist_of (set_arr (arrlist_of T ++ [d]) (expand T)) = arrlist_of T ++ [d]) by (destruct (expand T); reflexivity).
  rewrite X, validate_set_arr, V. split; [destruct (arrlist_of T); reflexivity|]. split.
  - rewrite item_set_arr by (rewrite X; destruct (arrlist_of T); discriminate). rewrite X, removelast_last. f_equal.
    rewrite <- (arrlist_expand T). destruct (expand T); reflexivity.
  - split; [symmetry; exact Nz|]. apply last_last.
Qed.
Theorem array_encoder {St} (ge : pystr -> St -> result encoder * St) (packed : bool) s t sfx d n st r st1 :
  type_name true s t -> g_arr sfx [d] -> normalized s n -> ge n st = (r, st1) ->
  enc_from_type_str ge (if packed then CPackedArray else CBaseArray) (s ++ sfx) st = (e <- r ;; array_enc packed d e, st1).
Proof.
  intros N A Z E. destruct (array_parsed s t sfx d n N A Z) as (T & it & P & I & Q & L). unfold enc_from_type_str.
  destruct packed; cbn [enc_leaf_from_type_str]; rewrite P; cbn [bind]; rewrite I; cbn [bind]; rewrite Q, E, L; destruct r as [e|x]; reflexivity.
Qed.
Theorem array_decoder {St} (gd : pystr -> St -> result decoder * St) s t sfx d n st r st1 :
  type_name true s t -> g_arr sfx [d] -> normalized s n -> gd n st = (r, st1) ->
  dec_from_type_str gd CDBaseArray (s ++ sfx) st = (i <- r ;; array_dec d i, st1).
Proof.
  intros N A Z E. destruct (array_parsed s t sfx d n N A Z) as (T & it & P & I & Q & L). unfold dec_from_type_str.
  cbn [dec_leaf_from_type_str]; rewrite P; cbn [bind]; rewrite I; cbn [bind]; rewrite Q, E, L; destruct r as [i|x]; [|reflexivity].
  cbn [bind]. unfold array_dec, mk_dsized, mk_ddyn, mk_item. destruct d, (dec_dyn_attr i) as [[]|]; reflexivity.
Qed.
(** The wrong shape, before the registry is asked. *)
Theorem wrong_shape {St} (ge : pystr -> St -> result encoder * St) (gd : pystr -> St -> result decoder * St) s T st : g_type s T ->
  ((exists b sub arr, T = Basic b sub arr) ->
    enc_from_type_str ge CTuple s st = (Err ValueError, st) /\ dec_from_type_str gd CDTuple s st = (Err ValueError, st))
  /\ (arrlist_of T = [] ->
    enc_from_type_str ge CBaseArray s st = (Err ValueError, st) /\ enc_from_type_str ge CPackedArray s st = (Err ValueError, st)
    /\ dec_from_type_str gd CDBaseArray s st = (Err ValueError, st)).
Proof.
  intro G. apply parse_spec in G. pose proof (parse_normalize s T G) as P. unfold enc_from_type_str, dec_from_type_str.
  cbn [enc_leaf_from_type_str dec_leaf_from_type_str]. unfold parse_tuple_type_str, parse_type_str. rewrite P. cbn [bind]. split.
  - intros (b & sub & arr & ->). cbn [expand]. destruct sub; try (split; reflexivity). destruct (alias_of b) as [[b' sub']|]; split; reflexivity.
  - intro E. rewrite arrlist_expand, E. repeat split; reflexivity.
Qed.
