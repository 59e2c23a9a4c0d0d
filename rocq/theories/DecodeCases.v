(** Consequences, witnesses and concrete cases for PropertiesDecode.v. *)
From Coq Require Import Strings.Byte Strings.String.
From Verif Require Import Tac Bytes BytesProofs Decimals Encoding Decoding Registry Codec Histories Spec ReadSpec TypeSpec
  EncLeafProofs EncodeProofs DecodeProofs DecodeFacts2 CacheProofs LookupProofs TypeProofs ApiProofs HistoryProofs EncodeApi DecodeApi ReadProofs Samples.
Open Scope string_scope.
Open Scope list_scope.
Open Scope Z_scope.

(** ** Pointers *)
Lemma counted_le t : wf t -> 32 * counted t <= head_words t.
Proof.
  intro W. unfold counted, head_words. destruct (sdyn t); [lia|]. pose proof (static_size_ge t W). destruct t; try lia.
  inv W. take (wf t) as Wt. pose proof (static_size_ge t Wt). cbn [static_size]. nia.
Qed.
Lemma counted_plain t : wf t -> 32 * counted t = head_words t <-> plain t = true.
Proof.
  intro W. unfold counted, head_words, plain. destruct (sdyn t); [cbn [orb]; intuition lia|]. cbn [orb]. pose proof (static_size_ge t W).
  destruct t; try (cbn [static_size] in *; intuition lia).
  inv W. take (wf t) as Wt. pose proof (static_size_ge t Wt). cbn [static_size]. rewrite Z.eqb_eq. nia.
Qed.
Theorem counted_all_plain ts : Forall wf ts -> 32 * counted_all ts <= heads_of ts /\ (32 * counted_all ts = heads_of ts <-> Forall (fun t => plain t = true) ts).
Proof.
  induction 1 as [|t ts W F [IH1 IH2]]; [split; [lazy; discriminate|split; [constructor|reflexivity]]|].
  cbn [counted_all heads_of fold_right]. fold (counted_all ts) (heads_of ts). pose proof (counted_le t W) as L. pose proof (counted_plain t W) as P.
  split; [lia|]. split.
  - intro E. constructor; [apply P; lia|apply IH2; lia].
  - intro E. inv E. take (plain t = true) as Pt. take (Forall _ ts) as Pts. apply P in Pt. apply IH2 in Pts. lia.
Qed.
Theorem decode_pointers_plain w types ts data b strict q pre t post : used false w -> type_args types ts -> bytes_like data b -> len b <= maxsize ->
  decode_in w types data strict = Ok q -> ts = pre ++ t :: post -> sdyn t = true -> Forall (fun t => plain t = true) ts ->
  exists z, found b (heads_of pre) (word z) /\ heads_of ts <= z < len b.
Proof.
  intros U T B L D E S P. destruct (decode_pointers w types ts data b strict q pre t post U T B L D E S) as (z & F & R).
  exists z. split; [exact F|]. change (32 * counted_all ts <= z < len b) in R. rewrite (proj2 (proj2 (counted_all_plain ts (type_args_wf _ _ T))) P) in R. exact R.
Qed.

(** ** Streams *)
Lemma get_decoder_used w k s d : used false w -> fst (get_decoder k s w) = Ok d -> exists t, supported s t /\ d = dec_of (strict_of k) t.
Proof.
  intros U E. apply used_spec in U. destruct U as (_ & D & [_ C]). destruct (get_decoder_pure w k s C) as (w' & G & _).
  rewrite G, D in E. cbn [fst] in E. change (decs_of false) with decs in E.
  destruct (unsupported s) as [(t & S)|(N & e & _ & _ & X)].
  - exists t. split; [exact S|]. rewrite (find_dec_supported k s t S) in E. congruence.
  - rewrite X in E. discriminate.
Qed.
Theorem decoder_frames w k s d h buf st v st' : used false w -> fst (get_decoder k s w) = Ok d -> decode_with h d buf st = Ok (v, st') ->
  frames st' = frames st /\ total st' = total st
  /\ exists t, supported s t /\ (sdyn t = false -> pos st' = pos st + static_size t).
Proof.
  intros U G D. destruct (get_decoder_used w k s d U G) as (t & S & ->).
  destruct (decode_frames h _ (proj1 (builtin_of _ t)) buf st v st' D) as [[F T] _]. split; [exact F|]. split; [exact T|].
  exists t. split; [exact S|]. intro Sd. eapply decode_static_cursor; eauto. eapply supported_wf; eassumption.
Qed.
Theorem head_tail_frames w k s d h buf st v st' : used false w -> fst (get_decoder k s w) = Ok d -> decode_with h (DHeadTail d) buf st = Ok (v, st') ->
  frames st' = frames st /\ total st' = total st /\ pos st' = pos st + 32.
Proof.
  intros U G D. destruct (get_decoder_used w k s d U G) as (t & S & ->).
  destruct (decode_frames h (DHeadTail (dec_of (strict_of k) t)) (proj1 (builtin_of _ t)) buf st v st' D) as [[F T] P]. auto.
Qed.
Theorem frame_restored offset st st1 st2 st3 : push_frame offset st = Ok st1 ->
  frames st2 = frames st1 /\ total st2 = total st1 -> pop_frame st2 = Ok st3 ->
  frames st3 = frames st /\ total st3 = total st /\ pos st3 = pos st.
Proof. intros P S Q. destruct (pop_after_push st3 offset st st1 st2 P S Q) as [[F T] E]. auto. Qed.

(** ** Sizes *)
Lemma value_items_repeat n x : value_items (PTuple (repeat x n)) = Z.of_nat n * (1 + value_items x).
Proof. induction n as [|n IH]; [reflexivity|]. cbn [repeat value_items fold_right] in *. rewrite IH. lia. Qed.
Theorem decode_expands K : 0 <= K <= 10 ^ 9 -> exists w types b q,
  used false w /\ len b <= maxsize /\ decode_in w types (PBytes b) true = Ok q /\ K * len b < value_items q.
Proof.
  intro HK. set (n := Z.to_nat (64 * K + 200)). assert (Hn : Z.of_nat n = 64 * K + 200) by (subst n; lia). clearbody n.
  exists start, (types ["uint256[][]"]), (shared_tails n), (PTuple [PTuple (repeat (PTuple (repeat (PInt 0) n)) n)]).
  assert (M : 96 + 64 * Z.of_nat n <= maxsize) by (assert (10 ^ 9 = 1000000000) by reflexivity; assert (maxsize = 9223372036854775807) by reflexivity; lia).
  split; [exact start_used|]. rewrite shared_len. split; [exact M|]. split.
  - apply (decode_shared start (lit "uint256[][]") n true start_used ltac:(sample_type) M).
  - cbn [value_items fold_right]. fold (value_items (PTuple (repeat (PTuple (repeat (PInt 0) n)) n))).
    change (fold_right (fun (x : pyval) (acc : Z) => 1 + value_items x + acc) 0 (repeat (PTuple (repeat (PInt 0) n)) n)) with (value_items (PTuple (repeat (PTuple (repeat (PInt 0) n)) n))).
    rewrite !value_items_repeat. cbn [value_items]. nia.
Qed.

(** ** Booleans *)
Lemma bytes_eqb_spec a b : bytes_eqb a b = true <-> a = b.
Proof.
  unfold bytes_eqb. revert b. induction a as [|x a IH]; intros [|y b]; cbn [list_eqb]; try (split; [discriminate|discriminate || reflexivity]); [split; reflexivity|].
  rewrite andb_true_iff, IH. split; [intros [E ->]; f_equal; apply Byte.byte_dec_bl; exact E|intro H; inversion H; subst; split; [apply Byte.byte_dec_lb|]; reflexivity].
Qed.
Theorem decode_bool_cases w s data b strict : used false w -> supported s SBool -> bytes_like data b -> len b <= maxsize ->
  (len b < 32 -> decode_in w (PList [PStr s]) data strict = Err InsufficientDataBytes)
  /\ (firstn 32 b = word 0 -> decode_in w (PList [PStr s]) data strict = Ok (PTuple [PBool false]))
  /\ (firstn 32 b = word 1 -> decode_in w (PList [PStr s]) data strict = Ok (PTuple [PBool true]))
  /\ (32 <= len b -> firstn 32 b <> word 0 -> firstn 32 b <> word 1 -> decode_in w (PList [PStr s]) data strict = Err NonEmptyPaddingBytes).
Proof.
  intros U S B L. rewrite (decode_bool w s data b strict U S B L).
  assert (X : forall z, firstn 32 b = word z -> (len b <? 32) = false).
  { intros z E. assert (F : len (firstn 32 b) = 32) by (rewrite E; apply word_len). rewrite !len_length in *. rewrite firstn_length in F. lia. }
  split; [intro H; destruct (Z.ltb_spec (len b) 32); [reflexivity|lia]|]. split; [|split].
  - intro E. rewrite (X 0 E), E. reflexivity.
  - intro E. rewrite (X 1 E), E. reflexivity.
  - intros H N0 N1. destruct (Z.ltb_spec (len b) 32); [lia|]. rewrite <- bytes_eqb_spec in N0, N1.
    destruct (bytes_eqb (firstn 32 b) (word 0)); [contradiction N0; reflexivity|]. destruct (bytes_eqb (firstn 32 b) (word 1)); [contradiction N1; reflexivity|]. reflexivity.
Qed.

(** ** Witnesses *)
Local Transparent Keccak.keccak256 Z.pow pow10 prec Etop Etiny Emax ndigits word be_bytes len.

Lemma overflow_error : exists w types b, used false w /\ type_args types [SBytes] /\ decode_in w types (PBytes b) true = Err OverflowError.
Proof. exists start, (types ["bytes"]), (word 32 ++ word (2 ^ 63)). split; [exact start_used|]. split; [sample_types|]. lazy. reflexivity. Qed.
Lemma trailing_lenient : exists w types b ext q q', used false w
  /\ decode_in w types (PBytes b) false = Ok q /\ decode_in w types (PBytes (b ++ ext)) false = Ok q' /\ q <> q'.
Proof.
  exists start, (types ["bytes"]), (word 32 ++ word 5 ++ raw "ab"), (raw "c"), (PTuple [PBytes (raw "ab")]), (PTuple [PBytes (raw "abc")]).
  split; [exact start_used|]. split; [lazy; reflexivity|]. split; [lazy; reflexivity|]. discriminate.
Qed.
Lemma nested_padding : exists w types pre pad pad' post q, used false w /\ len pad = len pad'
  /\ decode_in w types (PBytes (pre ++ pad ++ post)) false = Ok q
  /\ decode_in w types (PBytes (pre ++ pad' ++ post)) false = Err NonEmptyPaddingBytes
  /\ pre ++ pad ++ post = spec_enc (STuple [SArr SBytes]) (VSeq [VSeq [VBytes (raw "ab")]]) /\ type_args types [SArr SBytes].
Proof.
  exists start, (types ["bytes[]"]), (word 32 ++ word 1 ++ word 32 ++ word 2 ++ raw "ab"), (repeat x00 30), (x01 :: repeat x00 29), [], (PTuple [PTuple [PBytes (raw "ab")]]).
  split; [exact start_used|]. repeat (split; [lazy; reflexivity|]). sample_types.
Qed.
Lemma pointer_into_head : exists w types ts b q pre t post z, used false w /\ type_args types ts /\ len b <= maxsize
  /\ decode_in w types (PBytes b) true = Ok q /\ ts = pre ++ t :: post /\ sdyn t = true
  /\ found b (heads_of pre) (word z) /\ z < heads_of ts.
Proof.
  exists start, (types ["(uint256,uint256)"; "bytes"]), [STuple [SUInt 256; SUInt 256]; SBytes], (word 0 ++ word 0 ++ word 64 ++ repeat x61 64),
    (PTuple [PTuple [PInt 0; PInt 0]; PBytes (repeat x61 64)]), [STuple [SUInt 256; SUInt 256]], SBytes, [], 64.
  split; [exact start_used|]. split; [sample_types|]. split; [lazy; discriminate|]. split; [lazy; reflexivity|]. split; [reflexivity|]. split; [reflexivity|].
  split; [|reflexivity]. exists (word 0 ++ word 0), (repeat x61 64). split; [|reflexivity]. rewrite <- app_assoc. reflexivity.
Qed.
