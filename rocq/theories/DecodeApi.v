(** Facts about decode, and about decode after encode. *)
From Coq Require Import Strings.Byte Strings.String.
From Verif Require Import Tac Bytes BytesProofs Utf8 Utf8Proofs Address AddressProofs Decimals DecimalsProofs Encoding Decoding Registry Codec Histories Spec ReadSpec TypeSpec
  EncLeafProofs EncodeProofs AcceptProofs EncOkProofs DecLeafProofs DecodeProofs ReaderProofs DecodeFacts DecodeFacts2 CacheProofs LookupProofs TypeProofs
  ApiProofs HistoryProofs ArgsProofs EncodeApi.
Open Scope Z_scope.

(** ** After encode *)
Lemma tuple_type ts a : has_type (STuple ts) a -> exists vs, a = VSeq vs /\ Forall2 has_type ts vs.
Proof. intro H. inv H. eauto. Qed.
Theorem decode_spec_enc w types ts a data post strict : used false w -> type_args types ts -> has_type (STuple ts) a ->
  bytes_like data (spec_enc (STuple ts) a ++ post) -> len (spec_enc (STuple ts) a ++ post) <= maxsize ->
  decode_in w types data strict = Ok (py_of (STuple ts) a).
Proof.
  intros U T Ht B L. rewrite (decode_args w types ts data _ strict U T B L). inv Ht. take (Forall2 _ _ _) as F.
  rewrite (pd_args_complete _ strict ts l post L (type_args_wf _ _ T) F eq_refl). reflexivity.
Qed.
Theorem round_trip w w' types args b strict : used false w -> used false w' -> encode_in w types args = Ok b -> len b <= maxsize ->
  (forall ts, type_args types ts -> leaves exact_leaf (STuple ts) args) ->
  exists ts a q, type_args types ts /\ denotes (STuple ts) args a /\ canon (STuple ts) a q
    /\ decode_in w' types (PBytes b) strict = Ok q.
Proof.
  intros U U' E L X. destruct (encode_ok_inv false w types args b U E) as (ts & l & T & Sl & Ew). assert (W := type_args_wf _ _ T).
  destruct (args_encoded false ts args b W Ew (X ts T)) as (a & D & _ & O). specialize (O ltac:(pose proof maxsize_lt; lia)).
  change (out false (STuple ts) a) with (spec_enc (STuple ts) a) in O.
  exists ts, a, (py_of (STuple ts) a). split; [exact T|]. split; [exact D|]. assert (Ht := args_has_type ts args a W D).
  split; [apply args_py_of_canon; assumption|].
  apply (decode_spec_enc w' types ts a _ [] strict U' T Ht); rewrite app_nil_r, <- O; [left; reflexivity|exact L].
Qed.
(** No valid encoding is a proper prefix of another one. *)
Theorem encode_prefix_free w w' types args args' b post : used false w -> used false w' ->
  encode_in w types args = Ok b -> encode_in w' types args' = Ok (b ++ post) -> len (b ++ post) <= maxsize ->
  (forall ts, type_args types ts -> leaves exact_leaf (STuple ts) args /\ leaves exact_leaf (STuple ts) args') ->
  exists ts a, type_args types ts /\ denotes (STuple ts) args a /\ denotes (STuple ts) args' a /\ post = [].
Proof.
  intros U U' E E' L X. destruct (encode_ok_inv false w types args b U E) as (ts & l & T & Sl & Ew). assert (W := type_args_wf _ _ T).
  destruct (encode_ok_inv false w' types args' _ U' E') as (ts' & l' & T' & Sl' & Ew'). assert (ts' = ts) by (eapply type_args_fun; eassumption). subst ts'.
  pose proof maxsize_lt. pose proof (len_nonneg post). assert (L' := L). rewrite len_app in L'.
  destruct (args_encoded false ts args b W Ew (proj1 (X ts T))) as (a & D & _ & O). specialize (O ltac:(lia)).
  destruct (args_encoded false ts args' _ W Ew' (proj2 (X ts T))) as (a' & D' & _ & O'). specialize (O' ltac:(lia)).
  change (out false (STuple ts) a) with (spec_enc (STuple ts) a) in O. change (out false (STuple ts) a') with (spec_enc (STuple ts) a') in O'.
  assert (Ht := args_has_type ts args a W D). assert (Ht' := args_has_type ts args' a' W D'). exists ts, a. split; [exact T|]. split; [exact D|].
  assert (a = a').
  { destruct (tuple_type _ _ Ht) as (vs & -> & F), (tuple_type _ _ Ht') as (vs' & -> & F').
    pose proof (pd_args_complete (b ++ post) true ts vs post L W F ltac:(f_equal; exact O)) as P.
    pose proof (pd_args_complete (b ++ post) true ts vs' [] L W F' ltac:(rewrite app_nil_r; exact O')) as P'. congruence. }
  subst a'. split; [exact D'|]. rewrite O in O' at 1. apply (f_equal len) in O'. rewrite len_app in O'. destruct post; [reflexivity|]. lens. pose proof (len_nonneg post). lia.
Qed.
Theorem encode_injective w w' types args args' b : used false w -> used false w' ->
  encode_in w types args = Ok b -> encode_in w' types args' = Ok b -> len b <= maxsize ->
  (forall ts, type_args types ts -> leaves exact_leaf (STuple ts) args /\ leaves exact_leaf (STuple ts) args') ->
  exists ts a, type_args types ts /\ denotes (STuple ts) args a /\ denotes (STuple ts) args' a.
Proof.
  intros U U' E E' L X. destruct (encode_prefix_free w w' types args args' b [] U U' E) as (ts & a & T & D & D' & _); rewrite ?app_nil_r; auto.
  exists ts, a. auto.
Qed.

(** ** Any payload *)
Lemma decode_ok_inv w types data strict q : used false w -> decode_in w types data strict = Ok q ->
  exists ts b, type_args types ts /\ bytes_like data b.
Proof.
  intros U H. apply used_spec in U. destruct U as (_ & D & [_ C]). unfold decode_in in H.
  destruct (api_decode_pure types data strict w C) as (w' & E & _). rewrite E in H. cbn [fst] in H. rewrite D in H. change (decs_of false) with decs in H.
  destruct (pure_decoders_cases types data strict) as [?|(_ & e & X & N)]; [assumption|]. rewrite N in H. discriminate.
Qed.
Lemma decode_pd w types ts data b strict q : used false w -> type_args types ts -> bytes_like data b -> len b <= maxsize ->
  decode_in w types data strict = Ok q -> exists a, pd_args b strict ts = Ok a /\ q = py_of (STuple ts) a /\ has_type (STuple ts) a.
Proof.
  intros U T B L H. rewrite (decode_args w types ts data b strict U T B L) in H. bok H. inv H. exists x. split; [exact Hx|].
  split; [reflexivity|]. eapply pd_args_sound; [eapply type_args_wf; eassumption|exact Hx].
Qed.
Theorem decode_canonical w w' types ts data b strict q : used false w -> used false w' -> type_args types ts -> bytes_like data b -> len b <= maxsize ->
  decode_in w types data strict = Ok q ->
  exists a, has_type (STuple ts) a /\ canon (STuple ts) a q /\
    (len (spec_enc (STuple ts) a) <= maxsize ->
     encode_in w' types q = Ok (spec_enc (STuple ts) a)
     /\ forall w'' strict' data', used false w'' -> bytes_like data' (spec_enc (STuple ts) a) -> decode_in w'' types data' strict' = Ok q).
Proof.
  intros U U' T B L H. destruct (decode_pd w types ts data b strict q U T B L H) as (a & P & -> & Ht). assert (W := type_args_wf _ _ T).
  exists a. split; [exact Ht|]. assert (C := args_py_of_canon ts a W Ht). split; [exact C|]. intro M. split.
  - apply (encode_layout false w' types ts); [exact U'|exact T|apply args_canon_denotes; assumption|pose proof maxsize_lt; change (out false) with spec_enc; lia].
  - intros w'' s' data' U'' B'. apply (decode_spec_enc w'' types ts a _ [] s' U'' T Ht); rewrite app_nil_r; assumption.
Qed.
(** The decoded tuple can always be encoded again if a computer can hold it. *)
Theorem decode_reencodable w w' types ts data b strict q : used false w -> used false w' -> type_args types ts -> bytes_like data b -> len b <= maxsize ->
  decode_in w types data strict = Ok q -> fits q -> exists b', encode_in w' types q = Ok b'.
Proof.
  intros U U' T B L H F. destruct (decode_pd w types ts data b strict q U T B L H) as (a & P & -> & Ht). assert (W := type_args_wf _ _ T).
  assert (C := args_py_of_canon ts a W Ht). assert (D := args_canon_denotes ts a _ W Ht C).
  destruct (args_denotes_seq _ _ _ D) as (l & vs & Sl & _). rewrite (encode_args false w' types ts _ l U' T Sl).
  destruct (args_encodes false ts _ a W D) as [V _]. destruct (args_outcome false ts _ W V F) as [(b' & E & _)|(E & N)]; [eauto|].
  exfalso. apply N. exact (proj1 (proj2 (denotes_leaves _ _ _ D))).
Qed.
Theorem decode_static w types ts data b strict q : used false w -> type_args types ts -> bytes_like data b -> len b <= maxsize ->
  existsb sdyn ts = false -> decode_in w types data strict = Ok q ->
  exists a post, has_type (STuple ts) a /\ canon (STuple ts) a q /\ b = spec_enc (STuple ts) a ++ post
    /\ forall w', used false w' -> encode_in w' types q = Ok (spec_enc (STuple ts) a).
Proof.
  intros U T B L S H. destruct (decode_pd w types ts data b strict q U T B L H) as (a & P & -> & Ht). assert (W := type_args_wf _ _ T).
  destruct (pd_args_exact b strict ts a W S P) as [post E]. exists a, post. split; [exact Ht|]. assert (C := args_py_of_canon ts a W Ht).
  split; [exact C|]. split; [exact E|]. intros w' U'. apply (encode_layout false w' types ts); [exact U'|exact T|apply args_canon_denotes; assumption|].
  change (out false) with spec_enc. rewrite E, len_app in L. pose proof (len_nonneg post). pose proof maxsize_lt. lia.
Qed.
Lemma parts_heads_size ts vs : Forall wf ts -> Forall2 has_type ts vs -> existsb sdyn ts = false -> len (head_tail (parts part ts vs)) = static_size (STuple ts).
Proof.
  intros W F S. unfold head_tail. rewrite parts_all_static, app_nil_r by exact S. generalize (heads_size (parts part ts vs)).
  induction F as [|t v ts vs T F IH]; intro z; [reflexivity|]. inv W. cbn [existsb] in S. apply orb_false_iff in S. destruct S as [S1 S2].
  change (parts part (t :: ts) (v :: vs)) with (part t v :: parts part ts vs). unfold part at 1. rewrite S1. cbn [heads]. rewrite len_app, IH by assumption.
  change (static_size (STuple (t :: ts))) with (static_size t + static_size (STuple ts)). rewrite (spec_enc_static t v) by assumption. reflexivity.
Qed.
Theorem decode_static_nonmalleable w w' types ts data data' b b' strict strict' q : used false w -> used false w' -> type_args types ts ->
  bytes_like data b -> bytes_like data' b' -> existsb sdyn ts = false ->
  len b = static_size (STuple ts) -> len b' = static_size (STuple ts) -> static_size (STuple ts) <= maxsize ->
  decode_in w types data strict = Ok q -> decode_in w' types data' strict' = Ok q -> b = b'.
Proof.
  intros U U' T B B' S L L' M H H'. assert (W := type_args_wf _ _ T).
  destruct (decode_static w types ts data b strict q U T B ltac:(lia) S H) as (a & post & Ht & C & E & En).
  destruct (decode_static w' types ts data' b' strict' q U' T B' ltac:(lia) S H') as (a' & post' & Ht' & C' & E' & En').
  specialize (En w U). specialize (En' w U). assert (Eq : spec_enc (STuple ts) a = spec_enc (STuple ts) a') by congruence.
  assert (G : forall x y z, has_type (STuple ts) x -> y = spec_enc (STuple ts) x ++ z -> len y = static_size (STuple ts) -> z = []).
  { intros x y z Hx Hy Ly. inv Hx. rewrite spec_enc_tuple, len_app, parts_heads_size in Ly by assumption. destruct z; [reflexivity|]. lens. pose proof (len_nonneg z). lia. }
  rewrite (G _ _ _ Ht E L), app_nil_r in E. rewrite (G _ _ _ Ht' E' L'), app_nil_r in E'. congruence.
Qed.

(** ** Errors *)
Theorem decode_errors w types ts data b strict e : used false w -> type_args types ts -> bytes_like data b -> len b <= maxsize ->
  decode_in w types data strict = Err e ->
  e = InsufficientDataBytes \/ e = NonEmptyPaddingBytes \/ e = InvalidPointer /\ existsb sdyn ts = true
  \/ e = OverflowError /\ existsb has_bytes ts = true /\ (exists p n, located b p (word n) /\ 2 ^ 63 - 32 <= n < 2 ^ 256)
  \/ e = UnicodeDecodeError /\ existsb has_string ts = true /\ (exists p s, located b p s /\ forall u, Forall scalar u -> utf8 u <> s).
Proof.
  intros U T B L H. rewrite (decode_args w types ts data b strict U T B L) in H. apply bind_Err in H. destruct H as [H|(x & _ & H)]; [|discriminate].
  apply pd_args_errs in H; [|eapply type_args_wf; eassumption].
  destruct H as [H|[H|[H|[(H1 & H2 & p & n & P & Wd & Hn)|(H1 & H2 & p & n & P & N & Hu)]]]]; auto.
  - right. right. right. left. split; [exact H1|]. split; [exact H2|]. exists p, n. pose proof (word_at_range _ _ _ P Wd) as R. split; [apply word_located; assumption|].
    pose proof (ceil32_spec n (proj1 R)). rewrite maxsize_eq in Hn. lia.
  - right. right. right. right. split; [exact H1|]. split; [exact H2|].
    exists (Z.min p (len b)), (slice b p n). split.
    + destruct (Z.le_gt_cases (len b) p).
      * rewrite Z.min_r by lia. replace (slice b p n) with (@nil byte); [apply located_nil; pose proof (len_nonneg b); lia|].
        pose proof (slice_len_le b p n P N) as Q. pose proof (len_nonneg b). destruct (slice b p n); [reflexivity|]. lens. pose proof (len_nonneg b1). lia.
      * rewrite Z.min_l by lia. destruct (Z.le_gt_cases (p + n) (len b)); [apply slice_located; lia|].
        replace (slice b p n) with (slice b p (len b - p)); [apply slice_located; lia|]. unfold slice.
        assert (len (drop_z p b) = len b - p) as Ld by (rewrite len_drop_z; lia). rewrite !take_z_all by lia. reflexivity.
    + intros u Hu' E. rewrite <- E, (utf8_decode_utf8 u Hu') in Hu. discriminate.
Qed.

(** ** Trailing data and strictness *)
Theorem decode_trailing w w' types data data' b ext q : used false w -> used false w' -> bytes_like data b -> bytes_like data' (b ++ ext) -> len (b ++ ext) <= maxsize ->
  decode_in w types data true = Ok q -> decode_in w' types data' true = Ok q.
Proof.
  intros U U' B B' L H. destruct (decode_ok_inv w types data true q U H) as (ts & _ & T & _).
  assert (L' := L). rewrite len_app in L'. pose proof (len_nonneg ext).
  destruct (decode_pd w types ts data b true q U T B ltac:(lia) H) as (a & P & -> & _).
  rewrite (decode_args w' types ts data' _ true U' T B' L), (pd_args_grow b ext ts a (type_args_wf _ _ T) P). reflexivity.
Qed.
Theorem decode_lenient w w' types data b q : used false w -> used false w' -> bytes_like data b -> len b <= maxsize ->
  decode_in w types data true = Ok q -> decode_in w' types data false = Ok q.
Proof.
  intros U U' B L H. destruct (decode_ok_inv w types data true q U H) as (ts & _ & T & _).
  destruct (decode_pd w types ts data b true q U T B L H) as (a & P & -> & _).
  rewrite (decode_args w' types ts data _ false U' T B L), (pd_args_lenient b false ts a P). reflexivity.
Qed.
(** The flag matters only if some top-level type is bytes or string. *)
Lemma pd_flag buf s t p : flat_bytes t = false -> pd buf s t p = pd buf true t p.
Proof. destruct t; try discriminate; reflexivity. Qed.
Theorem decode_flag w w' types ts data b : used false w -> used false w' -> type_args types ts -> bytes_like data b -> len b <= maxsize ->
  Forall (fun t => flat_bytes t = false) ts -> decode_in w types data false = decode_in w' types data true.
Proof.
  intros U U' T B L F. rewrite (decode_args w types ts data b false U T B L), (decode_args w' types ts data b true U' T B L). f_equal.
  unfold pd_args, rd_tuple.
  assert (C : forall start hi p, tcheck b start hi (map (rdr_of b false) ts) p = tcheck b start hi (map (rdr_of b true) ts) p).
  { clear -F. induction F as [|t ts Ht F IH]; intros start hi p; [reflexivity|]. cbn [map tcheck].
    change (rdr_of b false t) with (mkR (sdyn t) (static_size t) (pd b false t)). change (rdr_of b true t) with (mkR (sdyn t) (static_size t) (pd b true t)).
    cbn [r_dyn r_fn r_size]. rewrite (pd_flag b false t p Ht). destruct (sdyn t).
    - destruct (word_at b p); [|reflexivity]. cbn [bind]. destruct (_ || _); [reflexivity|apply IH].
    - destruct (pd b true t p); [|reflexivity]. cbn [bind]. apply IH. }
  rewrite C. destruct (tcheck _ _ _ _ _); [|reflexivity]. cbn [bind].
  assert (R : forall start p, tread b start (map (rdr_of b false) ts) p = tread b start (map (rdr_of b true) ts) p).
  { clear -F. induction F as [|t ts Ht F IH]; intros start p; [reflexivity|]. cbn [map tread].
    change (rdr_of b false t) with (mkR (sdyn t) (static_size t) (pd b false t)). change (rdr_of b true t) with (mkR (sdyn t) (static_size t) (pd b true t)).
    cbn [r_dyn r_fn r_size]. destruct (sdyn t).
    - destruct (word_at b p); [|reflexivity]. cbn [bind]. rewrite (pd_flag b false t _ Ht), IH. reflexivity.
    - rewrite (pd_flag b false t _ Ht), IH. reflexivity. }
  rewrite R. reflexivity.
Qed.

(** ** Pointers *)
Lemma members_nonneg ts : Forall wf ts -> 0 <= members_size ts.
Proof.
  induction 1 as [|t ts W F IH]; [reflexivity|]. change (members_size (t :: ts)) with (member_size t + members_size ts).
  unfold member_size. pose proof (static_size_ge t W). destruct (sdyn t); lia.
Qed.
Theorem decode_pointers w types ts data b strict q pre t post : used false w -> type_args types ts -> bytes_like data b -> len b <= maxsize ->
  decode_in w types data strict = Ok q -> ts = pre ++ t :: post -> sdyn t = true ->
  exists z, located b (members_size pre) (word z) /\ 32 * slots_of ts <= z < len b.
Proof.
  intros U T B L H E D. destruct (decode_pd w types ts data b strict q U T B L H) as (a & P & _ & _).
  apply rd_tuple_ok in P. destruct P as (vs & _ & _ & C). pose proof (tcheck_heads b strict 0 _ ts (type_args_wf _ _ T) 0 ltac:(lia) C pre t post E) as Hd.
  unfold head_ok in Hd. rewrite D in Hd. destruct Hd as (z & Wd & R). exists z. split; [|lia].
  rewrite Z.add_0_l in Wd. apply word_located; [|exact Wd]. apply members_nonneg. assert (W := type_args_wf _ _ T). rewrite E in W. apply Forall_app in W. apply W.
Qed.

Lemma slots_nonneg ts : Forall wf ts -> 0 <= slots_of ts.
Proof.
  induction 1 as [|t ts W F IH]; [reflexivity|]. change (slots_of (t :: ts)) with (slots t + slots_of ts).
  unfold slots. destruct (sdyn t); [lia|]. destruct t; try lia. inv W. lia.
Qed.
Theorem decode_bad_pointer w types ts data b strict pre t post z : used false w -> type_args types ts -> bytes_like data b -> len b <= maxsize ->
  ts = pre ++ t :: post -> sdyn t = true ->
  (forall pre1 u pre2, pre = pre1 ++ u :: pre2 -> slot_ok b (32 * slots_of ts) u (members_size pre1)) ->
  located b (members_size pre) (word z) -> 0 <= z < 2 ^ 256 -> ~ 32 * slots_of ts <= z < len b ->
  decode_in w types data strict = Err InvalidPointer.
Proof.
  intros U T B L E D Hp Hz R N. rewrite (decode_args w types ts data b strict U T B L). unfold pd_args, rd_tuple.
  assert (W := type_args_wf _ _ T). rewrite E in W. apply Forall_app in W. destruct W as [W _].
  assert (X : tcheck b 0 (0 + 32 * slots_of ts) (map (rdr_of b strict) ts) 0 = Err InvalidPointer).
  { rewrite E at 2. apply (tcheck_bad b L strict 0 (0 + 32 * slots_of ts) pre t post W D 0 z); [|apply located_word; assumption|lia].
    intros pre1 u pre2 E1. specialize (Hp pre1 u pre2 E1). unfold slot_ok, head_ok in *. destruct (sdyn u); [|exact Hp].
    destruct Hp as (y & Ly & Ry). exists y. split; [apply located_word; [exact Ly|pose proof maxsize_lt; pose proof (slots_nonneg ts (type_args_wf _ _ T)); lia]|lia]. }
  rewrite X. reflexivity.
Qed.

Lemma slots_plain ts : Forall (fun t => plain t = true) ts -> 32 * slots_of ts = members_size ts.
Proof.
  induction 1 as [|t ts P F IH]; [reflexivity|]. change (slots_of (t :: ts)) with (slots t + slots_of ts).
  change (members_size (t :: ts)) with (member_size t + members_size ts). rewrite Z.mul_add_distr_l, IH. f_equal.
  unfold plain, slots, member_size in *. destruct (sdyn t); [reflexivity|]. cbn [orb] in P. destruct t; try reflexivity.
  - cbn [static_size]. apply Z.eqb_eq in P. lia.
  - apply Z.eqb_eq in P. lia.
Qed.
Lemma members_is_head ts : members_size ts = fold_right (fun t acc => (if sdyn t then 32 else static_size t) + acc) 0 ts.
Proof. reflexivity. Qed.

(** ** Sizes *)
Theorem decode_bounded w types ts data b strict q : used false w -> type_args types ts -> bytes_like data b -> len b <= maxsize ->
  decode_in w types data strict = Ok q -> bounded (len b / 32) q.
Proof.
  intros U T B L H. destruct (decode_pd w types ts data b strict q U T B L H) as (a & P & -> & _).
  eapply pd_args_sized; [eapply type_args_wf; eassumption|exact P].
Qed.

(** ** Leaves *)
Theorem decode_leaf w s t data b strict : used false w -> supported s t -> leaf t = true -> bytes_like data b -> len b <= maxsize ->
  (exists a post, has_type t a /\ b = spec_enc t a ++ post /\ decode_in w (PList [PStr s]) data strict = Ok (PTuple [py_of t a]))
  \/ (len b < 32 /\ decode_in w (PList [PStr s]) data strict = Err InsufficientDataBytes)
  \/ (32 <= len b /\ (forall a post, has_type t a -> b <> spec_enc t a ++ post) /\ decode_in w (PList [PStr s]) data strict = Err NonEmptyPaddingBytes).
Proof.
  intros U S Lf B L. rewrite (decode_args w _ [t] data b strict U (one_args s t S) B L). assert (W := supported_wf s t S).
  assert (E : pd_args b strict [t] = (a <- (if 0 + 32 <=? len b then leaf_val t (slice b 0 32) else Err InsufficientDataBytes) ;; Ok (VSeq [a]))).
  { unfold pd_args, rd_tuple. cbn [map tcheck tread]. change (rdr_of b strict t) with (mkR (sdyn t) (static_size t) (pd b strict t)). cbn [r_dyn r_fn r_size].
    assert (sdyn t = false) as -> by (destruct t; try discriminate Lf; reflexivity).
    assert (pd b strict t 0 = if 0 + 32 <=? len b then leaf_val t (slice b 0 32) else Err InsufficientDataBytes) as -> by (destruct t; try discriminate Lf; reflexivity).
    destruct (if _ <=? _ then _ else _); reflexivity. }
  rewrite E. clear E. destruct (Z.leb_spec (0 + 32) (len b)) as [Q|Q]; [|right; left; split; [lia|reflexivity]].
  assert (Sl : len (slice b 0 32) = 32) by (apply slice_len; lia).
  destruct (leaf_val t (slice b 0 32)) as [a|e] eqn:V.
  - left. apply (leaf_val_spec t _ a W Lf Sl) in V. destruct V as [Ht V]. pose proof (slice_located b 0 32 ltac:(lia) ltac:(lia) ltac:(lia)) as (pre & post & Eb & Lp).
    destruct pre; [|lens; pose proof (len_nonneg pre); lia]. exists a, post. split; [exact Ht|]. split; [rewrite V; exact Eb|reflexivity].
  - right. right. split; [lia|]. split; [|rewrite (leaf_val_err t _ e Lf V); reflexivity].
    intros a post Ht Eb. assert (L32 : len (spec_enc t a) = 32).
    { rewrite spec_enc_static by (auto; destruct t; try discriminate Lf; reflexivity). destruct t; try discriminate Lf; reflexivity. }
    assert (V' : leaf_val t (slice b 0 32) = Ok a); [|congruence]. apply leaf_val_spec; auto. split; [exact Ht|]. symmetry. rewrite <- L32. apply located_slice.
    exists [], post. split; [exact Eb|reflexivity].
Qed.
Theorem decode_bool w s data b strict : used false w -> supported s SBool -> bytes_like data b -> len b <= maxsize ->
  decode_in w (PList [PStr s]) data strict =
  if len b <? 32 then Err InsufficientDataBytes
  else if bytes_eqb (firstn 32 b) (word 0) then Ok (PTuple [PBool false])
  else if bytes_eqb (firstn 32 b) (word 1) then Ok (PTuple [PBool true])
  else Err NonEmptyPaddingBytes.
Proof.
  intros U S B L. assert (F : forall z post, firstn 32 (word z ++ post) = word z).
  { intros z post. pose proof (word_len z) as Lw. change 32%nat with (Z.to_nat 32). rewrite <- take_z_firstn by lia. apply take_z_app. symmetry. exact Lw. }
  destruct (decode_leaf w s SBool data b strict U S eq_refl B L) as [(a & post & Ht & E & D)|[(Q & D)|(Q & N & D)]]; rewrite D.
  - inv Ht. cbn [spec_enc]. pose proof (len_nonneg post). rewrite len_app, word_len. destruct (Z.ltb_spec (32 + len post) 32); [lia|].
    rewrite F. destruct b0; cbn [py_of]; [replace (bytes_eqb (word 1) (word 0)) with false by (rewrite !word_eq; reflexivity)|]; rewrite bytes_eqb_refl; reflexivity.
  - destruct (Z.ltb_spec (len b) 32); [reflexivity|lia].
  - destruct (Z.ltb_spec (len b) 32); [lia|]. assert (G : forall c, firstn 32 b <> word (if c : bool then 1 else 0)).
    { intros c E. apply (N (VBool c) (skipn 32 b) (T_bool c)). cbn [spec_enc]. rewrite <- E. symmetry. apply firstn_skipn. }
    pose proof (G false) as G0. pose proof (G true) as G1. cbn in G0, G1.
    destruct (bytes_eqb (firstn 32 b) (word 0)) eqn:E0; [apply bytes_eqb_eq in E0; contradiction|].
    destruct (bytes_eqb (firstn 32 b) (word 1)) eqn:E1; [apply bytes_eqb_eq in E1; contradiction|]. reflexivity.
Qed.
Theorem decode_address w s data b pad addr post strict : used false w -> supported s SAddr -> bytes_like data b -> len b <= maxsize ->
  b = pad ++ addr ++ post -> len pad = 12 -> len addr = 20 ->
  (pad = repeat x00 12 -> decode_in w (PList [PStr s]) data strict = Ok (PTuple [PStr (lit "0x" ++ hex_lower addr)]))
  /\ (pad <> repeat x00 12 -> decode_in w (PList [PStr s]) data strict = Err NonEmptyPaddingBytes).
Proof.
  intros U S B L E Lp La.
  destruct (decode_leaf w s SAddr data b strict U S eq_refl B L) as [(a & post' & Ht & E' & D)|[(Q & D)|(Q & N & D)]]; rewrite D.
  - inv Ht. cbn [spec_enc] in E'. rewrite <- app_assoc in E'. apply app_inj_len in E'; [|lens; rewrite Lp; reflexivity]. destruct E' as [-> E'].
    apply app_inj_len in E'; [|congruence]. destruct E' as [-> ->]. split; [reflexivity|congruence].
  - exfalso. rewrite E in Q. lens. pose proof (len_nonneg post). lia.
  - split; [|reflexivity]. intros ->. exfalso. apply (N (VBytes addr) post (T_addr _ La)). cbn [spec_enc]. rewrite <- app_assoc. exact E.
Qed.
