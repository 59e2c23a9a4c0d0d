(** The public API in terms of ABI types, for every cache state. *)
From Coq Require Import Strings.Byte Strings.String.
From Verif Require Import Tac Bytes BytesProofs Address Grammar GrammarSpec GrammarProofs NormalizeProofs Encoding Decoding Registry Codec Spec TypeSpec
  EncLeafProofs EncodeProofs AcceptProofs DecLeafProofs DecodeProofs DecodeFacts2 CacheProofs LookupProofs TypeProofs.
Open Scope Z_scope.

(** ** Lists of types *)
Lemma wf_args ts : Forall wf ts -> ts = [] \/ wf (STuple ts).
Proof. intro W. destruct ts; [left; reflexivity|right]. constructor; [discriminate|exact W]. Qed.
Lemma empty_args pk p :
  (seq_like p [] /\ validate_value (enc_of pk (STuple [])) p = Ok tt /\ encode_with (enc_of pk (STuple [])) p = Ok [])
  \/ (~ seq_like p [] /\ (validate_value (enc_of pk (STuple [])) p = Err EncodingTypeError /\ ~ seq_like p (items p)
                         \/ validate_value (enc_of pk (STuple [])) p = Err ValueOutOfBounds)).
Proof.
  assert (N : forall q : pyval, match q with PList [] | PTuple [] | PSeq _ [] => False | _ => True end -> ~ seq_like q []).
  { intros q H [->|[->|(r & ->)]]; exact H. }
  unfold validate_value, encode_with. destruct p as [|b|i|f|cx|a d|d|b|b|s|[|x l]|[|x l]|sr [|x l]|o];
    try (right; split; [apply N; exact I|]; left; split; [destruct pk; reflexivity|intros [H|[H|(r & H)]]; discriminate H]).
  - left. split; [left; reflexivity|]. destruct pk; split; reflexivity.
  - right. split; [apply N; exact I|]. right. unfold validate_value. cbn [enc_of map ve fst]. unfold tuple_validate. cbn -[len]. lens.
    replace (negb (1 + len l =? 0)) with true by (pose proof (len_nonneg l); lia). reflexivity.
  - left. split; [right; left; reflexivity|]. destruct pk; split; reflexivity.
  - right. split; [apply N; exact I|]. right. unfold validate_value. cbn [enc_of map ve fst]. unfold tuple_validate. cbn -[len]. lens.
    replace (negb (1 + len l =? 0)) with true by (pose proof (len_nonneg l); lia). reflexivity.
  - left. split; [right; right; exists sr; reflexivity|]. destruct pk; split; reflexivity.
  - right. split; [apply N; exact I|]. right. unfold validate_value. cbn [enc_of map ve fst]. unfold tuple_validate. cbn -[len]. lens.
    replace (negb (1 + len l =? 0)) with true by (pose proof (len_nonneg l); lia). reflexivity.
Qed.

(** ** The API as a function of the registrations alone *)
Definition find_py {A} (f : pystr -> result A) (t : pyval) : result A :=
  match t with PStr s => f s | _ => Err TypeError end.
Lemma seq_encoders l : forall r, ecache_ok r ->
  exists r', sequenceM get_encoder_py l r = (mapM (find_py (find_encoder (r_encs r))) l, r') /\ same_but_ecache r r' /\ ecache_ok r'.
Proof.
  induction l as [|t l IH]; intros r H; [exists r; repeat split; auto|]. cbn [sequenceM mapM].
  assert (G : exists r', get_encoder_py t r = (find_py (find_encoder (r_encs r)) t, r') /\ same_but_ecache r r' /\ ecache_ok r').
  { destruct t; try (exists r; repeat split; auto; fail). cbn [get_encoder_py find_py]. apply get_encoder_pure. exact H. }
  destruct G as (r1 & E & (S1 & S2 & S3) & H1). rewrite E. destruct (find_py _ t) as [e|e]; cbn [bind]; [|exists r1; repeat split; auto].
  destruct (IH r1 H1) as (r2 & E2 & (T1 & T2 & T3) & H2). rewrite S1 in E2. rewrite E2.
  exists r2. split; [destruct (mapM _ l); reflexivity|]. split; [|exact H2]. repeat split; congruence.
Qed.
Lemma seq_decoders k l : forall w, dcache_ok (fst w) ->
  exists w', sequenceM (get_decoder_py k) l w = (mapM (find_py (find_decoder (r_decs (fst w)) k)) l, w')
             /\ same_but_dcache (fst w) (fst w') /\ dcache_ok (fst w').
Proof.
  induction l as [|t l IH]; intros w H; [exists w; repeat split; auto|]. cbn [sequenceM mapM].
  assert (G : exists w', get_decoder_py k t w = (find_py (find_decoder (r_decs (fst w)) k) t, w') /\ same_but_dcache (fst w) (fst w') /\ dcache_ok (fst w')).
  { destruct t; try (exists w; repeat split; auto; fail). cbn [get_decoder_py find_py]. apply get_decoder_pure. exact H. }
  destruct G as (r1 & E & (S1 & S2 & S3) & H1). rewrite E. destruct (find_py _ t) as [e|e]; cbn [bind]; [|exists r1; repeat split; auto].
  destruct (IH r1 H1) as (r2 & E2 & (T1 & T2 & T3) & H2). rewrite S2 in E2. rewrite E2.
  exists r2. split; [destruct (mapM _ l); reflexivity|]. split; [|exact H2]. repeat split; congruence.
Qed.

Definition pure_encode (m : mapping enc_reg) (types args : pyval) : result bytes :=
  ts <- validate_list_like_param types ;; _ <- validate_list_like_param args ;;
  es <- mapM (find_py (find_encoder m)) ts ;; encode_with (ETuple es) args.
Definition pure_has (m : mapping enc_reg) (typ : pyval) : result bool :=
  match find_py (find_encoder m) typ with Ok _ => Ok true | Err MultipleEntriesFound => Err MultipleEntriesFound | Err _ => Ok false end.
Definition pure_is_encodable (m : mapping enc_reg) (typ arg : pyval) : result bool :=
  match find_py (find_encoder m) typ with
  | Ok e => check_encodable e arg | Err MultipleEntriesFound => Err MultipleEntriesFound | Err _ => Ok false end.
Definition pure_decoders (m : mapping dec_reg) (types data : pyval) (strict : bool) : result (list decoder * bytes) :=
  ts <- validate_list_like_param types ;; b <- validate_bytes_param data ;;
  ds <- mapM (find_py (find_decoder m (Some strict))) ts ;; Ok (ds, b).

Theorem api_encode_pure types args r : ecache_ok r ->
  exists r', api_encode types args r = (pure_encode (r_encs r) types args, r') /\ same_but_ecache r r' /\ ecache_ok r'.
Proof.
  intro H. unfold api_encode, pure_encode. destruct (validate_list_like_param types) as [ts|e]; [|exists r; repeat split; auto].
  destruct (validate_list_like_param args) as [vs|e]; [|exists r; repeat split; auto]. cbn [bind].
  destruct (seq_encoders ts r H) as (r' & E & S). rewrite E. exists r'. split; [|exact S]. destruct (mapM _ ts); reflexivity.
Qed.
Theorem api_is_encodable_type_pure typ r : ecache_ok r ->
  exists r', api_is_encodable_type typ r = (pure_has (r_encs r) typ, r') /\ same_but_ecache r r' /\ ecache_ok r'.
Proof.
  intro H. unfold api_is_encodable_type, pure_has. destruct typ; try (exists r; repeat split; auto; fail).
  cbn [find_py]. unfold has_encoder. destruct (get_encoder_pure r s H) as (r' & E & S). rewrite E. exists r'. split; [|exact S].
  destruct (find_encoder (r_encs r) s) as [e|[]]; reflexivity.
Qed.
Theorem api_is_encodable_pure typ arg r : ecache_ok r ->
  exists r', api_is_encodable typ arg r = (pure_is_encodable (r_encs r) typ arg, r') /\ same_but_ecache r r' /\ ecache_ok r'.
Proof.
  intro H. unfold api_is_encodable. destruct (api_is_encodable_type_pure typ r H) as (r1 & E & (S1 & S2 & S3) & H1). rewrite E.
  unfold pure_has, pure_is_encodable.
  destruct typ; try (exists r1; repeat split; auto; fail). cbn [find_py get_encoder_py].
  destruct (find_encoder (r_encs r) s) as [e|e] eqn:F; [|exists r1; destruct e; repeat split; auto].
  destruct (get_encoder_pure r1 s H1) as (r2 & E2 & (T1 & T2 & T3) & H2). rewrite E2, S1, F. exists r2.
  split; [reflexivity|]. split; [repeat split; congruence|exact H2].
Qed.
Theorem api_decode_pure types data strict w : dcache_ok (fst w) ->
  exists w', api_decode types data strict w =
      (' (ds, b) <- pure_decoders (r_decs (fst w)) types data strict ;;
       ' (v, _) <- decode_with (snd w') (mk_dtuple ds) b new_stream ;; Ok v, w')
    /\ same_but_dcache (fst w) (fst w') /\ dcache_ok (fst w').
Proof.
  intro H. unfold api_decode, pure_decoders. destruct (validate_list_like_param types) as [ts|e]; [|exists w; repeat split; auto].
  destruct (validate_bytes_param data) as [b|e]; [|exists w; repeat split; auto]. cbn [bind].
  destruct (seq_decoders (Some strict) ts w H) as (w' & E & S). rewrite E. exists w'. split; [|exact S]. destruct (mapM _ ts); reflexivity.
Qed.

(** ** The default and packed registries *)
Lemma list_like v l : validate_list_like_param v = Ok l <-> seq_like v l.
Proof.
  split; [|intros [->|[->|(r & ->)]]; reflexivity]. destruct v; intro H; inv H; [left|right; left|right; right; eexists]; reflexivity.
Qed.
Lemma list_like_err v e : validate_list_like_param v = Err e -> e = TypeError /\ forall l, ~ seq_like v l.
Proof. intro H. destruct v; inv H; (split; [reflexivity|intros l' [A|[A|(r' & A)]]; discriminate A]). Qed.
Lemma bytes_param v b : validate_bytes_param v = Ok b <-> bytes_like v b.
Proof. split; [|intros [->| ->]; reflexivity]. destruct v; intro H; inv H; [left|right]; reflexivity. Qed.

Lemma find_enc_supported pk s t : supported s t -> find_encoder (encs pk) s = Ok (enc_of pk t).
Proof. intro H. apply supported_iff in H. destruct H as (T & P & L). rewrite find_encoder_std, P, L. reflexivity. Qed.
Lemma find_dec_supported k s t : supported s t -> find_decoder decs k s = Ok (dec_of (strict_of k) t).
Proof. intro H. apply supported_iff in H. destruct H as (T & P & L). rewrite find_decoder_std, P, L. reflexivity. Qed.

(** Every string is supported or its lookups fail with one of these. *)
Definition type_exc (e : exc) : Prop := e = ParseError \/ e = ValueError \/ e = NoEntriesFound \/ e = ABITypeError.
Lemma unsupported s : (exists t, supported s t) \/
  (~ (exists t, supported s t) /\ exists e, type_exc e /\ (forall pk, find_encoder (encs pk) s = Err e) /\ forall k, find_decoder decs k s = Err e).
Proof.
  destruct (parse s) as [T|e] eqn:P.
  - destruct (lookup_sty T) as [t|e] eqn:L; [left; exists t; apply supported_iff; eauto|right]. split.
    + intros [t H]. apply supported_iff in H. destruct H as (T' & P' & L'). congruence.
    + exists e. split; [|split; intro; [rewrite find_encoder_std|rewrite find_decoder_std]; rewrite P, L; reflexivity].
      assert (X : lookup_exc e).
      { unfold lookup_sty in L. destruct (bare_byte T); [inv L; unfold lookup_exc; tauto|].
        apply parse_iff in P. pose proof (resolve_spec (expand T) (expand_ok T (proj1 P))) as R. rewrite L in R. exact (proj2 R). }
      unfold lookup_exc, type_exc in *. tauto.
  - right. pose proof (parse_err s e P) as [G X]. split.
    + intros [t H]. apply supported_iff in H. destruct H as (T & P' & _). congruence.
    + exists e. split; [unfold type_exc; tauto|]. split; intro; [rewrite find_encoder_std|rewrite find_decoder_std]; rewrite P; reflexivity.
Qed.

(** *** encode *)
Lemma mapM_supported (A : Type) (f : pystr -> result A) (g : sty -> A) ss ts :
  (forall s t, supported s t -> f s = Ok (g t)) -> Forall2 supported ss ts -> mapM (find_py f) (map PStr ss) = Ok (map g ts).
Proof. intros H F. induction F as [|s t ss ts S F IH]; [reflexivity|]. cbn. rewrite (H s t S), IH. reflexivity. Qed.
Lemma mapM_unsupported (A : Type) (f : pystr -> result A) l :
  (forall s, (exists t, supported s t) \/ exists e, type_exc e /\ f s = Err e) -> (forall s t, supported s t -> exists a, f s = Ok a) ->
  (exists ss ts, l = map PStr ss /\ Forall2 supported ss ts)
  \/ (~ (exists ss ts, l = map PStr ss /\ Forall2 supported ss ts) /\ exists e, (type_exc e \/ e = TypeError) /\ mapM (find_py f) l = Err e).
Proof.
  intros H H'. induction l as [|t l IH]; [left; exists [], []; split; [reflexivity|constructor]|].
  assert (T : (exists s, t = PStr s) \/ ((forall s, t <> PStr s) /\ forall A (g : pystr -> result A), find_py g t = Err TypeError)).
  { destruct t; try (right; split; [intros ? X; discriminate X|reflexivity]). left; eauto. }
  destruct T as [[s ->]|[N T]].
  2:{ right. split; [intros ([|s ss] & ts & E & F); [discriminate E|]; injection E as E _; exact (N s E)|].
      exists TypeError. split; [tauto|]. cbn. rewrite T. reflexivity. }
  destruct (H s) as [[t S]|(e & X & E)].
  - destruct IH as [(ss & ts & -> & F)|(NE & e & X & E)].
    + left. exists (s :: ss), (t :: ts). split; [reflexivity|constructor; assumption].
    + right. split.
      * intros ([|s' ss] & ts & E' & F); [discriminate E'|]. cbn in E'. injection E' as -> ->. inv F. apply NE. eauto.
      * exists e. split; [exact X|]. cbn. destruct (H' s t S) as [a ->]. cbn. rewrite E. reflexivity.
  - right. split.
    + intros ([|s' ss] & ts & E' & F); [discriminate E'|]. cbn in E'. injection E' as -> ->. inv F.
      take (supported s' y) as S. destruct (H' s' y S) as [a Ea]. congruence.
    + exists e. split; [tauto|]. cbn. rewrite E. reflexivity.
Qed.
Lemma encs_total pk s : (exists t, supported s t) \/ exists e, type_exc e /\ find_encoder (encs pk) s = Err e.
Proof. destruct (unsupported s) as [?|(_ & e & X & E & _)]; [left; assumption|right; exists e; split; [exact X|apply E]]. Qed.
Lemma decs_total k s : (exists t, supported s t) \/ exists e, type_exc e /\ find_decoder decs k s = Err e.
Proof. destruct (unsupported s) as [?|(_ & e & X & _ & E)]; [left; assumption|right; exists e; split; [exact X|apply E]]. Qed.

Lemma pure_encode_args pk types ts args l : type_args types ts -> seq_like args l ->
  pure_encode (encs pk) types args = encode_with (enc_of pk (STuple ts)) args.
Proof.
  intros (ss & Hs & F) L. apply list_like in L, Hs. unfold pure_encode. rewrite Hs, L. cbn [bind].
  rewrite (mapM_supported _ (find_encoder (encs pk)) (enc_of pk) ss ts (find_enc_supported pk) F). reflexivity.
Qed.
Lemma pure_encode_cases pk types args :
  (exists ts l, type_args types ts /\ seq_like args l)
  \/ (~ (exists ts l, type_args types ts /\ seq_like args l) /\ exists e, (type_exc e \/ e = TypeError) /\ pure_encode (encs pk) types args = Err e).
Proof.
  unfold pure_encode. destruct (validate_list_like_param types) as [tl|e] eqn:Tl.
  2:{ right. apply list_like_err in Tl. destruct Tl as [-> N]. split; [|exists TypeError; cbn; auto].
      intros (ts & l & (ss & Hs & _) & _). exact (N _ Hs). }
  destruct (validate_list_like_param args) as [al|e] eqn:Al.
  2:{ right. apply list_like_err in Al. destruct Al as [-> N]. split; [|exists TypeError; cbn; auto].
      intros (ts & l & _ & Hl). exact (N _ Hl). }
  cbn [bind]. apply list_like in Al, Tl.
  destruct (mapM_unsupported _ (find_encoder (encs pk)) tl (encs_total pk)) as [(ss & ts & -> & F)|(N & e & X & E)].
  { intros s t S. eexists. apply find_enc_supported. exact S. }
  - left. exists ts, al. split; [|exact Al]. exists ss. auto.
  - right. split.
    + intros (ts & l & (ss & Hs & F) & _). apply N. exists ss, ts. split; [|exact F].
      apply list_like in Hs, Tl. congruence.
    + exists e. rewrite E. auto.
Qed.

(** *** is_encodable *)
Lemma pure_is_encodable_std pk typ arg :
  (exists s t, typ = PStr s /\ supported s t /\ pure_is_encodable (encs pk) typ arg = check_encodable (enc_of pk t) arg)
  \/ (~ (exists s t, typ = PStr s /\ supported s t) /\ pure_is_encodable (encs pk) typ arg = Ok false).
Proof.
  assert (T : (exists s, typ = PStr s) \/ ((forall s, typ <> PStr s) /\ forall A (g : pystr -> result A), find_py g typ = Err TypeError)).
  { destruct typ; try (right; split; [intros ? X; discriminate X|reflexivity]). left; eauto. }
  unfold pure_is_encodable. destruct T as [[s ->]|[N ->]].
  2:{ right. split; [|reflexivity]. intros (s & t & E & _). exact (N s E). }
  cbn [find_py]. destruct (unsupported s) as [[t S]|(N & e & X & E & _)].
  - left. exists s, t. split; [reflexivity|]. split; [exact S|]. rewrite (find_enc_supported pk s t S). reflexivity.
  - right. split; [intros (s' & t & Es & S); injection Es as <-; eauto|]. rewrite E. unfold type_exc in X.
    destruct X as [->|[->|[->| ->]]]; reflexivity.
Qed.
Lemma pure_has_std pk typ :
  ((exists s t, typ = PStr s /\ supported s t) /\ pure_has (encs pk) typ = Ok true)
  \/ (~ (exists s t, typ = PStr s /\ supported s t) /\ pure_has (encs pk) typ = Ok false).
Proof.
  assert (T : (exists s, typ = PStr s) \/ ((forall s, typ <> PStr s) /\ forall A (g : pystr -> result A), find_py g typ = Err TypeError)).
  { destruct typ; try (right; split; [intros ? X; discriminate X|reflexivity]). left; eauto. }
  unfold pure_has. destruct T as [[s ->]|[N ->]].
  2:{ right. split; [|reflexivity]. intros (s & t & E & _). exact (N s E). }
  cbn [find_py]. destruct (unsupported s) as [[t S]|(N & e & X & E & _)].
  - left. split; [eauto|]. rewrite (find_enc_supported pk s t S). reflexivity.
  - right. split; [intros (s' & t & Es & S); injection Es as <-; eauto|]. rewrite E. unfold type_exc in X.
    destruct X as [->|[->|[->| ->]]]; reflexivity.
Qed.

(** *** decode *)
Lemma pure_decoders_args types ts data b strict : type_args types ts -> bytes_like data b ->
  pure_decoders decs types data strict = Ok (map (dec_of strict) ts, b).
Proof.
  intros (ss & Hs & F) L. apply list_like in Hs. apply bytes_param in L. unfold pure_decoders. rewrite Hs, L. cbn [bind].
  rewrite (mapM_supported _ (find_decoder decs (Some strict)) (dec_of strict) ss ts (find_dec_supported (Some strict)) F). reflexivity.
Qed.
Lemma bytes_param_err v e : validate_bytes_param v = Err e -> e = TypeError /\ forall b, ~ bytes_like v b.
Proof. intro H. destruct v; inv H; (split; [reflexivity|intros l' [A|A]; discriminate A]). Qed.
Lemma pure_decoders_cases types data strict :
  (exists ts b, type_args types ts /\ bytes_like data b)
  \/ (~ (exists ts b, type_args types ts /\ bytes_like data b) /\ exists e, (type_exc e \/ e = TypeError) /\ pure_decoders decs types data strict = Err e).
Proof.
  unfold pure_decoders. destruct (validate_list_like_param types) as [tl|e] eqn:Tl.
  2:{ right. apply list_like_err in Tl. destruct Tl as [-> N]. split; [|exists TypeError; cbn; auto].
      intros (ts & l & (ss & Hs & _) & _). exact (N _ Hs). }
  destruct (validate_bytes_param data) as [b|e] eqn:Al.
  2:{ right. apply bytes_param_err in Al. destruct Al as [-> N]. split; [|exists TypeError; cbn; auto].
      intros (ts & l & _ & Hl). exact (N _ Hl). }
  cbn [bind]. apply list_like in Tl. apply bytes_param in Al.
  destruct (mapM_unsupported _ (find_decoder decs (Some strict)) tl (decs_total (Some strict))) as [(ss & ts & -> & F)|(N & e & X & E)].
  { intros s t S. eexists. apply find_dec_supported. exact S. }
  - left. exists ts, b. split; [|exact Al]. exists ss. auto.
  - right. split.
    + intros (ts & l & (ss & Hs & F) & _). apply N. exists ss, ts. split; [|exact F].
      apply list_like in Hs, Tl. congruence.
    + exists e. rewrite E. auto.
Qed.

Lemma type_args_wf types ts : type_args types ts -> Forall wf ts.
Proof. intros (ss & _ & F). induction F; constructor; auto. eapply supported_wf; eassumption. Qed.
Lemma type_args_fun types ts ts' : type_args types ts -> type_args types ts' -> ts = ts'.
Proof.
  intros (ss & Hs & F) (ss' & Hs' & F'). apply list_like in Hs, Hs'. rewrite Hs in Hs'. injection Hs' as E.
  clear Hs. revert ss' ts' E F'. induction F as [|s t ss ts S F IH]; intros [|s' ss'] ts' E F'; try discriminate E; inv F'; [reflexivity|].
  cbn in E. injection E as -> E. f_equal; [eapply supported_fun; eassumption|]. eapply IH; eauto.
Qed.
