(** The readers compute exactly the relation of ReadSpec. *)
From Coq Require Import Strings.Byte Strings.String.
From Verif Require Import Tac Bytes BytesProofs Utf8 Utf8Proofs Address Decoding Registry Codec Histories Spec ReadSpec TypeSpec EncLeafProofs EncodeProofs
  DecLeafProofs DecodeProofs ReaderProofs DecodeFacts DecodeFacts2 LookupProofs TypeProofs ApiProofs HistoryProofs ArgsProofs EncodeApi DecodeApi.
Open Scope Z_scope.

Lemma counted_slots ts : counted_all ts = slots_of ts.
Proof. reflexivity. Qed.
Section Reads.
Variable buf : bytes.
Hypothesis Hbuf : len buf <= maxsize.

Lemma ceil32_pad n : 0 <= n -> ceil32 n - n = (- n) mod 32.
Proof. intro H. pose proof (ceil32_spec n H) as [C D]. lia. Qed.
Lemma rd_bytes_holds s p b : 0 <= p -> rd_bytes buf s p = Ok b <-> holds_bytes buf s p b.
Proof.
  intro Hp. split.
  - intro H. unfold rd_bytes in H. bok H. pose proof (word_at_range _ _ _ Hp Hx) as R. pose proof (word_located buf p x Hp Hx) as Lw.
    pose proof (ceil32_spec x (proj1 R)) as C. destruct (Z.ltb_spec maxsize (ceil32 x)) as [M|M]; [discriminate|]. destruct s.
    + destruct (Z.ltb_spec (len buf) (p + 32 + ceil32 x)) as [Q|Q]; [discriminate|]. destruct (bytes_eqb _ _) eqn:E; [|discriminate]. inv H.
      apply bytes_eqb_eq in E. constructor. assert (Ls : len (slice buf (p + 32) x) = x) by (apply slice_len; lia). rewrite Ls.
      apply located_app; [exact Lw|]. rewrite word_len. unfold pad_right. rewrite Ls. apply located_app; [apply slice_located; lia|]. rewrite Ls.
      assert (Z : repeat x00 (Z.to_nat ((- x) mod 32)) = zeros (ceil32 x - x)) by (rewrite ceil32_pad by lia; reflexivity).
      rewrite Z, <- E. apply slice_located; lia.
    + inv H. destruct Lw as (pre & rest & E & Lp). pose proof (HB_lenient buf p pre x rest E Lp ltac:(rewrite maxsize_eq in M; lia)) as G.
      replace (slice buf (p + 32) x) with (firstn (Z.to_nat (Z.min x (len rest))) rest); [exact G|].
      unfold slice. rewrite E, app_assoc, drop_z_app by (rewrite len_app, word_len; lia).
      destruct (Z.le_gt_cases x (len rest)).
      * rewrite Z.min_l, take_z_firstn by lia. reflexivity.
      * rewrite Z.min_r, take_z_all by lia. pose proof (len_nonneg rest). rewrite <- take_z_firstn, take_z_all by lia. reflexivity.
  - intro H. inv H.
    + apply bytes_complete; assumption.
    + take (0 <= n <= _) as Hn. pose proof maxsize_lt. unfold rd_bytes. rewrite (located_word _ _ n) by (try lia; exists pre, rest; auto). cbn [bind].
      pose proof (ceil32_spec n ltac:(lia)) as C. destruct (Z.ltb_spec maxsize (ceil32 n)) as [M|M]; [rewrite maxsize_eq in M; lia|]. f_equal.
      unfold slice. rewrite app_assoc, drop_z_app by (rewrite len_app, word_len; lia).
      destruct (Z.le_gt_cases n (len rest)).
      * rewrite Z.min_l, take_z_firstn by lia. reflexivity.
      * rewrite Z.min_r, take_z_all by lia. pose proof (len_nonneg rest). rewrite <- take_z_firstn, take_z_all by lia. reflexivity.
Qed.

Definition equals (t : sty) : Prop := forall s p a, 0 <= p -> pd buf s t p = Ok a -> holds buf s t p a.
Lemma members_hold s start lo ts : 0 <= start -> Forall wf ts -> Forall equals ts -> forall p vs, 0 <= p ->
  tread buf start (map (rdr_of buf s) ts) p = Ok vs ->
  (existsb sdyn ts = true -> tcheck buf start (start + lo) (map (rdr_of buf s) ts) p = Ok tt) ->
  holds_all buf s start lo ts p vs.
Proof.
  intros Hs W F. revert W. induction F as [|t ts Et F IH]; intros W p vs Hp R C; cbn [map tread] in R; [inv R; constructor|].
  inv W. take (wf t) as Wt. pose proof (static_size_ge t Wt). cbn [map tcheck] in C. change (rdr_of buf s t) with (mkR (sdyn t) (static_size t) (pd buf s t)) in *. cbn [r_dyn r_fn r_size] in *.
  cbn [existsb] in C. destruct (sdyn t) eqn:D.
  - specialize (C eq_refl). bok R. bok R. bok R. inv R. take (word_at _ _ = _) as Wd. pose proof (word_at_range _ _ _ Hp Wd). rewrite Wd in C. cbn [bind] in C.
    destruct (_ || _) eqn:O; [discriminate|]. apply orb_false_iff in O. apply HA_dynamic with (z := x); auto; try lia.
    + apply word_located; assumption.
    + apply Et; [lia|assumption].
    + apply IH; auto. lia.
  - bok R. bok R. inv R. apply HA_static; [assumption|apply Et; assumption|]. apply IH; auto; [lia|].
    intro Q. specialize (C Q). bok C. exact C.
Qed.
Lemma existsb_repeat_false t n : sdyn t = false -> existsb sdyn (repeat t n) = false.
Proof. intro H. induction n; [reflexivity|]. cbn [repeat existsb]. rewrite H. assumption. Qed.
Lemma array_holds t n p a : wf t -> equals t -> 0 <= p ->
  rd_array buf (sdyn t) (mkR (sdyn t) (static_size t) (pd buf true t)) n p = Ok a ->
  exists vs, a = VSeq vs /\ length vs = Z.to_nat n /\ holds_all buf true p (32 * n) (repeat t (length vs)) p vs.
Proof.
  intros W E Hp H. apply rd_array_ok in H; [|exact Hp]. destruct H as (vs & -> & Ln & R & C). exists vs. split; [reflexivity|]. split; [exact Ln|].
  apply members_hold; auto using Forall_repeat. intro Q. apply C. destruct (sdyn t) eqn:D; [reflexivity|]. rewrite existsb_repeat_false in Q by exact D. discriminate.
Qed.
Theorem pd_holds t : wf t -> equals t.
Proof.
  induction t as [m|m| | |m n|m n|k| | |t IH|n t IH|ts IH] using sty_ind'; intros W s p a Hp H;
    try (cbn [pd] in H; destruct (Z.leb_spec (p + 32) (len buf)); [|discriminate];
         apply leaf_val_spec in H; [|assumption|reflexivity|apply slice_len; lia]; destruct H as [Ht E];
         apply H_word; [reflexivity|exact Ht|rewrite E; apply slice_located; lia]).
  - cbn [pd] in H. bok H. inv H. apply H_bytes. apply rd_bytes_holds; assumption.
  - cbn [pd] in H. bok H. bok H. inv H. take (utf8_decode _ = _) as Hu. apply utf8_decode_Ok in Hu. destruct Hu as [Hu ->].
    apply H_string; [exact Hu|]. apply rd_bytes_holds; assumption.
  - inv W. cbn [pd] in H. bok H. pose proof (word_at_range _ _ _ Hp Hx). apply array_holds in H; auto; [|lia]. destruct H as (vs & -> & Ln & M).
    assert (x = len vs) by (rewrite len_length; lia). subst x. apply H_arr; [apply word_located; assumption|exact M].
  - inv W. cbn [pd] in H. apply array_holds in H; auto. destruct H as (vs & -> & Ln & M). apply H_sized; [rewrite len_length; lia|exact M].
  - inv W. rewrite pd_tuple_eq in H. apply rd_tuple_ok in H. destruct H as (vs & -> & R & C). apply H_tuple. apply members_hold; auto.
    clear -IH H2. induction IH; inv H2; constructor; auto.
Qed.

Theorem holds_pd_both :
  (forall s t p a, holds buf s t p a -> wf t -> 0 <= p -> pd buf s t p = Ok a)
  /\ (forall s start lo ts p vs, holds_all buf s start lo ts p vs -> Forall wf ts -> 0 <= p -> 0 <= start -> 0 <= lo ->
       tread buf start (map (rdr_of buf s) ts) p = Ok vs /\ tcheck buf start (start + lo) (map (rdr_of buf s) ts) p = Ok tt).
Proof.
  apply (holds_both buf (fun s t p a _ => wf t -> 0 <= p -> pd buf s t p = Ok a)
    (fun s start lo ts p vs _ => Forall wf ts -> 0 <= p -> 0 <= start -> 0 <= lo ->
       tread buf start (map (rdr_of buf s) ts) p = Ok vs /\ tcheck buf start (start + lo) (map (rdr_of buf s) ts) p = Ok tt)).
  - intros s t p a O Ht F W Hp. apply pd_complete; assumption.
  - intros s p b Hb W Hp. cbn [pd]. apply rd_bytes_holds in Hb; [|exact Hp]. rewrite Hb. reflexivity.
  - intros s p u Hu Hb W Hp. cbn [pd]. apply rd_bytes_holds in Hb; [|exact Hp]. rewrite Hb. cbn [bind]. rewrite utf8_decode_utf8 by exact Hu. reflexivity.
  - intros s t p vs F M IH W Hp. inv W. cbn [pd]. pose proof (located_bounds _ _ _ F) as Bd. rewrite word_len in Bd. pose proof (len_nonneg vs).
    destruct (IH ltac:(apply Forall_repeat; assumption) ltac:(lia) ltac:(lia) ltac:(lia)) as [R C].
    pose proof (tread_consumed buf true (p + 32) _ ltac:(lia) (Forall_repeat wf t (length vs) H0) (p + 32) vs ltac:(lia) R).
    pose proof maxsize_lt. rewrite (located_word _ _ _ F) by lia. cbn [bind]. rewrite rd_array_eq. cbn zeta.
    replace (Z.to_nat (len vs)) with (length vs) by (rewrite len_length; lia). rewrite R, C. destruct (sdyn t); reflexivity.
  - intros s n t p vs Ln M IH W Hp. inv W. cbn [pd]. pose proof (len_nonneg vs). rewrite rd_array_eq. cbn zeta.
    destruct (IH ltac:(apply Forall_repeat; assumption) ltac:(lia) ltac:(lia) ltac:(lia)) as [R C].
    replace (Z.to_nat (len vs)) with (length vs) by (rewrite len_length; lia). rewrite R, C. destruct (sdyn t); reflexivity.
  - intros s ts p vs M IH W Hp. inv W. take (Forall wf ts) as Ws. rewrite pd_tuple_eq. unfold rd_tuple. rewrite counted_slots in IH.
    destruct (IH ltac:(assumption) ltac:(lia) ltac:(lia) ltac:(pose proof (slots_nonneg ts Ws); lia)) as [R C]. rewrite C, R. reflexivity.
  - split; reflexivity.
  - intros s start lo t ts p a vs D Hh IH1 M IH2 W Hp Hs Hl. inv W. take (wf t) as Wt. pose proof (static_size_ge t Wt). cbn [map tread tcheck].
    change (rdr_of buf s t) with (mkR (sdyn t) (static_size t) (pd buf s t)). cbn [r_dyn r_fn r_size]. rewrite D, (IH1 Wt Hp). cbn [bind].
    destruct (IH2 ltac:(assumption) ltac:(lia) Hs Hl) as [R C]. rewrite R, C. split; reflexivity.
  - intros s start lo t ts p z a vs D F Hz Hb Hh IH1 M IH2 W Hp Hs Hl. inv W. take (wf t) as Wt. cbn [map tread tcheck].
    change (rdr_of buf s t) with (mkR (sdyn t) (static_size t) (pd buf s t)). cbn [r_dyn r_fn r_size]. pose proof maxsize_lt.
    rewrite D, (located_word _ _ _ F) by lia. cbn [bind]. rewrite (IH1 Wt ltac:(lia)). cbn [bind].
    destruct (IH2 ltac:(assumption) ltac:(lia) Hs Hl) as [R C]. rewrite R, C. split; [reflexivity|].
    destruct (_ || _) eqn:O; [apply orb_true_iff in O; lia|reflexivity].
Qed.
Theorem pd_args_holds s ts vs : Forall wf ts -> pd_args buf s ts = Ok (VSeq vs) <-> payload_holds buf s ts vs.
Proof.
  intro W. split.
  - intro H. apply rd_tuple_ok in H. destruct H as (vs' & E & R & C). inv E. apply members_hold; auto; try lia.
    clear -W Hbuf. induction W; constructor; auto using pd_holds.
  - intro H. destruct (proj2 holds_pd_both _ _ _ _ _ _ H W) as [R C]; try lia; [pose proof (slots_nonneg ts W); rewrite counted_slots; lia|].
    unfold pd_args, rd_tuple. rewrite counted_slots in C. rewrite C, R. reflexivity.
Qed.
End Reads.

(** decode succeeds exactly on the payloads that hold a value. *)
Theorem decode_iff w types ts data b strict : used false w -> type_args types ts -> bytes_like data b -> len b <= maxsize ->
  forall vs, payload_holds b strict ts vs <-> decode_in w types data strict = Ok (py_of (STuple ts) (VSeq vs)) /\ Forall2 has_type ts vs.
Proof.
  intros U T B L vs. assert (W := type_args_wf _ _ T). rewrite (decode_args w types ts data b strict U T B L), <- pd_args_holds by assumption. split.
  - intro H. rewrite H. split; [reflexivity|]. pose proof (pd_args_sound b strict ts _ W H) as Ht. inv Ht. assumption.
  - intros [H F]. bok H. destruct (tuple_type ts x (pd_args_sound b strict ts x W Hx)) as (vs' & -> & F').
    assert (H' : py_of (STuple ts) (VSeq vs') = py_of (STuple ts) (VSeq vs)) by congruence. clear H. rewrite Hx. do 2 f_equal.
    assert (C : canon (STuple ts) (VSeq vs') (py_of (STuple ts) (VSeq vs'))) by (apply args_py_of_canon; [exact W|constructor; exact F']).
    assert (C' : canon (STuple ts) (VSeq vs) (py_of (STuple ts) (VSeq vs))) by (apply args_py_of_canon; [exact W|constructor; exact F]).
    assert (D : denotes (STuple ts) (py_of (STuple ts) (VSeq vs')) (VSeq vs')) by (apply args_canon_denotes; [exact W|constructor; exact F'|exact C]).
    assert (D' : denotes (STuple ts) (py_of (STuple ts) (VSeq vs)) (VSeq vs)) by (apply args_canon_denotes; [exact W|constructor; exact F|exact C']).
    rewrite H' in D. pose proof (denotes_fun _ _ _ _ D D') as X. inv X. reflexivity.
Qed.
Theorem decode_holds w types ts data b strict q : used false w -> type_args types ts -> bytes_like data b -> len b <= maxsize ->
  decode_in w types data strict = Ok q -> exists vs, payload_holds b strict ts vs /\ canon (STuple ts) (VSeq vs) q.
Proof.
  intros U T B L H. destruct (decode_pd w types ts data b strict q U T B L H) as (a & P & -> & Ht). destruct (tuple_type ts a Ht) as (vs & -> & F).
  exists vs. assert (W := type_args_wf _ _ T). split; [apply pd_args_holds; assumption|apply args_py_of_canon; assumption].
Qed.
Theorem holds_decode w types ts data b strict vs : used false w -> type_args types ts -> bytes_like data b -> len b <= maxsize ->
  payload_holds b strict ts vs -> exists q, decode_in w types data strict = Ok q /\ canon (STuple ts) (VSeq vs) q.
Proof.
  intros U T B L H. pose proof (proj1 (decode_iff w types ts data b strict U T B L vs) H) as [E F]. eexists. split; [exact E|].
  apply args_py_of_canon; [eapply type_args_wf; eassumption|constructor; exact F].
Qed.
(** A payload holds at most one value. *)
Theorem holds_unique b strict ts vs vs' : len b <= maxsize -> Forall wf ts -> payload_holds b strict ts vs -> payload_holds b strict ts vs' -> vs = vs'.
Proof. intros L W H H'. apply pd_args_holds in H, H'; auto. congruence. Qed.

(** ** Strings *)
Lemma found_here pre b post : found (pre ++ b ++ post) (len pre) b.
Proof. exists pre, post. auto. Qed.
Lemma found_0 b post : found (b ++ post) 0 b.
Proof. exists [], post. auto. Qed.
Lemma one_dynamic b strict t : sdyn t = true -> found b 0 (word 32) -> 32 < len b -> pd_args b strict [t] = (a <- pd b strict t 32 ;; Ok (VSeq [a])).
Proof.
  intros D F L. unfold pd_args, rd_tuple. cbn [map tcheck tread]. change (rdr_of b strict t) with (mkR (sdyn t) (static_size t) (pd b strict t)). cbn [r_dyn r_fn r_size].
  rewrite D, (located_word _ _ _ F) by (change (2 ^ 256) with 115792089237316195423570985008687907853269984665640564039457584007913129639936; lia).
  cbn [bind]. change (slots_of [t]) with (slots t + 0). unfold slots. rewrite D. destruct (_ || _) eqn:O; [apply orb_true_iff in O; lia|]. cbn [bind]. rewrite Z.add_0_l. destruct (pd b strict t 32); reflexivity.
Qed.
Theorem decode_string w s data c post strict : used false w -> supported s SString -> bytes_like data (word 32 ++ word (len c) ++ pad_right c ++ post) ->
  len (word 32 ++ word (len c) ++ pad_right c ++ post) <= maxsize ->
  (forall u, Forall scalar u -> c = utf8 u -> decode_in w (PList [PStr s]) data strict = Ok (PTuple [PStr u]))
  /\ ((forall u, Forall scalar u -> c <> utf8 u) -> decode_in w (PList [PStr s]) data strict = Err UnicodeDecodeError).
Proof.
  intros U S B L. rewrite (decode_args w _ [SString] data _ strict U (one_args s SString S) B L).
  assert (F : found (word 32 ++ word (len c) ++ pad_right c ++ post) 32 (word (len c) ++ pad_right c)) by (exists (word 32), post; rewrite <- app_assoc, word_len; auto).
  rewrite one_dynamic; [|reflexivity|apply found_0|rewrite len_app, word_len, len_app, word_len; pose proof (len_nonneg (pad_right c ++ post)); lia].
  cbn [pd]. rewrite (bytes_complete _ L strict c 32 F). cbn [bind]. split.
  - intros u Hu ->. rewrite utf8_decode_utf8 by exact Hu. reflexivity.
  - intro N. destruct (utf8_decode_cases c) as [->|(u & _ & Hu & E)]; [reflexivity|]. exfalso. exact (N u Hu E).
Qed.

(** ** The lenient mode at top level *)
Theorem decode_lenient_bytes w s data n rest : used false w -> supported s SBytes -> bytes_like data (word 32 ++ word n ++ rest) ->
  len (word 32 ++ word n ++ rest) <= maxsize -> 0 <= n <= 2 ^ 63 - 32 ->
  decode_in w (PList [PStr s]) data false = Ok (PTuple [PBytes (firstn (Z.to_nat (Z.min n (len rest))) rest)]).
Proof.
  intros U S B L N. rewrite (decode_args w _ [SBytes] data _ false U (one_args s SBytes S) B L).
  rewrite one_dynamic; [|reflexivity|apply found_0|rewrite len_app, word_len, len_app, word_len; pose proof (len_nonneg rest); lia].
  assert (H : holds_bytes (word 32 ++ word n ++ rest) false 32 (firstn (Z.to_nat (Z.min n (len rest))) rest)) by (econstructor; [reflexivity|apply word_len|exact N]).
  apply rd_bytes_holds in H; [|exact L|lia]. cbn [pd]. rewrite H. reflexivity.
Qed.

(** ** Shared tails *)
Definition shared_tails (n : nat) : bytes :=
  word 32 ++ word (Z.of_nat n) ++ concat (repeat (word (32 * Z.of_nat n)) n) ++ word (Z.of_nat n) ++ concat (repeat (word 0) n).
Lemma len_words z n : len (concat (repeat (word z) n)) = 32 * Z.of_nat n.
Proof. induction n; [reflexivity|]. cbn [repeat concat]. rewrite len_app, word_len. lia. Qed.
Lemma shared_len n : len (shared_tails n) = 96 + 64 * Z.of_nat n.
Proof. unfold shared_tails. rewrite !len_app, !word_len, !len_words. lia. Qed.
Lemma map_repeat {A B} (f : A -> B) x n : map f (repeat x n) = repeat (f x) n.
Proof. induction n; cbn; congruence. Qed.
Lemma zeros_hold buf n start lo : forall p, found buf p (concat (repeat (word 0) n)) ->
  holds_all buf true start lo (repeat (SUInt 256) n) p (repeat (VInt 0) n).
Proof.
  induction n as [|n IH]; intros p F; [constructor|]. cbn [repeat concat] in *. apply HA_static; [reflexivity| |].
  - apply H_word; [reflexivity|constructor; lia|]. cbn [spec_enc]. eapply located_app_l. exact F.
  - apply IH. apply located_app_r in F. rewrite word_len in F. exact F.
Qed.
Lemma offsets_hold buf start z lo a : lo <= z -> start + z < len buf -> holds buf true (SArr (SUInt 256)) (start + z) a ->
  forall n p, found buf p (concat (repeat (word z) n)) -> holds_all buf true start lo (repeat (SArr (SUInt 256)) n) p (repeat a n).
Proof.
  intros Hl Hs H. induction n as [|n IH]; intros p F; [constructor|]. cbn [repeat concat] in *. apply HA_dynamic with (z := z); auto.
  - eapply located_app_l. exact F.
  - apply IH. apply located_app_r in F. rewrite word_len in F. exact F.
Qed.
Theorem decode_shared w s n strict : used false w -> supported s (SArr (SArr (SUInt 256))) -> 96 + 64 * Z.of_nat n <= maxsize ->
  decode_in w (PList [PStr s]) (PBytes (shared_tails n)) strict = Ok (PTuple [PTuple (repeat (PTuple (repeat (PInt 0) n)) n)]).
Proof.
  intros U S L. rewrite <- shared_len in L. assert (Lb := shared_len n).
  assert (H : payload_holds (shared_tails n) strict [SArr (SArr (SUInt 256))] [VSeq (repeat (VSeq (repeat (VInt 0) n)) n)]).
  2:{ apply (decode_iff w _ _ (PBytes (shared_tails n)) _ strict U (one_args s _ S) (or_introl eq_refl) L) in H. destruct H as [-> _]. cbn [py_of].
      do 4 f_equal. rewrite map_repeat. f_equal. cbn [py_of]. rewrite map_repeat. reflexivity. }
  unfold payload_holds. apply HA_dynamic with (z := 32); [reflexivity|apply found_0|change (counted_all _) with 1; lia|lia| |constructor].
  rewrite Z.add_0_l. assert (Ln : len (repeat (VSeq (repeat (VInt 0) n)) n) = Z.of_nat n) by apply len_repeat.
  apply H_arr; rewrite Ln, ?repeat_length.
  - exists (word 32). eexists. split; [reflexivity|apply word_len].
  - change (32 + 32) with 64. apply offsets_hold with (z := 32 * Z.of_nat n); [lia|lia| |].
    + apply H_arr; rewrite len_repeat, ?repeat_length.
      * exists (word 32 ++ word (Z.of_nat n) ++ concat (repeat (word (32 * Z.of_nat n)) n)). eexists.
        split; [unfold shared_tails; rewrite <- !app_assoc; reflexivity|rewrite !len_app, !word_len, len_words; lia].
      * apply zeros_hold. exists (word 32 ++ word (Z.of_nat n) ++ concat (repeat (word (32 * Z.of_nat n)) n) ++ word (Z.of_nat n)), [].
        split; [unfold shared_tails; rewrite <- !app_assoc, app_nil_r; reflexivity|rewrite !len_app, !word_len, len_words; lia].
    + exists (word 32 ++ word (Z.of_nat n)). eexists. split; [unfold shared_tails; rewrite <- !app_assoc; reflexivity|rewrite len_app, !word_len; lia].
Qed.
