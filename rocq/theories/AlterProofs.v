(** A payload that agrees with an encoding on all pointers and decodes to the
    encoded value starts with the encoding. *)
From Coq Require Import Strings.Byte Strings.String Lia.
From Verif Require Import Tac Bytes BytesProofs Utf8 Utf8Proofs Address AddressProofs Decimals Encoding Decoding Registry Codec Histories Spec ReadSpec TypeSpec
  EncLeafProofs EncodeProofs AcceptProofs EncOkProofs DecLeafProofs DecodeProofs TypeProofs ApiProofs HistoryProofs ArgsProofs EncodeApi ReaderProofs DecodeApi ReadProofs LawsReads AlterSpec.
Open Scope Z_scope.

(** ** Maps *)
Definition map_part (t : sty) (a : aval) : bool * list bool := (sdyn t, pointer_map t a).
Definition map_parts (ts : list sty) (vs : list aval) : list (bool * list bool) := map (fun tv => map_part (fst tv) (snd tv)) (combine ts vs).
Lemma map_tuple ts vs : pointer_map (STuple ts) (VSeq vs) = sequence_map (map_parts ts vs).
Proof.
  cbn [pointer_map]. f_equal. unfold map_parts. revert vs. induction ts as [|t ts IH]; intros [|v vs]; try reflexivity.
  cbn [combine map fst snd]. rewrite IH. reflexivity.
Qed.
Lemma map_parts_repeat t vs : map (fun x => (sdyn t, pointer_map t x)) vs = map_parts (repeat t (length vs)) vs.
Proof. induction vs as [|v vs IH]; [reflexivity|]. cbn [map length repeat]. rewrite IH. reflexivity. Qed.

Definition matching (ms : list (bool * list bool)) (ps : list (bool * bytes)) : Prop :=
  Forall2 (fun m p => fst m = fst p /\ length (snd m) = length (snd p)) ms ps.
Lemma word_length z : length (word z) = 32%nat.
Proof. apply Nat2Z.inj. rewrite <- len_length. apply word_len. Qed.
Lemma heads_length ms ps : matching ms ps -> forall off, length (flat_map head_map ms) = length (heads off ps).
Proof.
  induction 1 as [|[d m] [d' b] ms ps [E L] F IH]; intro off; [reflexivity|]. cbn [fst snd] in *. subst d'.
  cbn [flat_map heads]. unfold head_map at 1. cbn [fst snd]. destruct d; rewrite !app_length; [rewrite (IH (off + len b)), repeat_length, word_length|rewrite (IH off)]; lia.
Qed.
Lemma tails_length ms ps : matching ms ps -> length (flat_map tail_map ms) = length (tails ps).
Proof.
  induction 1 as [|[d m] [d' b] ms ps [E L] F IH]; [reflexivity|]. cbn [fst snd] in *. subst d'.
  cbn [flat_map tails]. unfold tail_map at 1. cbn [fst snd]. destruct d; rewrite ?app_length; cbn [List.app length]; lia.
Qed.
Lemma sequence_length ms ps : matching ms ps -> length (sequence_map ms) = length (head_tail ps).
Proof. intro M. unfold sequence_map, head_tail. rewrite !app_length, (heads_length ms ps M (heads_size ps)), (tails_length ms ps M). reflexivity. Qed.
Lemma parts_matching ts : Forall (fun t => forall a, has_type t a -> length (pointer_map t a) = length (spec_enc t a)) ts ->
  forall vs, Forall2 has_type ts vs -> matching (map_parts ts vs) (parts part ts vs).
Proof.
  intros A vs F. induction F as [|t v ts vs Hv F IH]; [constructor|]. inv A. constructor; [|apply IH; assumption]. split; [reflexivity|]. cbn. auto.
Qed.
Lemma map_length_enc t : forall a, has_type t a -> length (pointer_map t a) = length (spec_enc t a).
Proof.
  induction t as [m|m| | |m n|m n|k| | |t IH|n t IH|ts IH] using sty_ind'; intros a H; inv H; try (cbn [pointer_map]; apply repeat_length).
  - cbn [pointer_map spec_enc]. rewrite !app_length, repeat_length, word_length. f_equal. rewrite map_parts_repeat, <- parts_repeat.
    apply sequence_length, parts_matching; [|apply Forall2_repeat; assumption]. apply Forall_forall. intros x I. apply repeat_spec in I. subst x. exact IH.
  - cbn [pointer_map spec_enc]. rewrite map_parts_repeat, <- parts_repeat.
    apply sequence_length, parts_matching; [|apply Forall2_repeat; assumption]. apply Forall_forall. intros x I. apply repeat_spec in I. subst x. exact IH.
  - rewrite map_tuple, spec_enc_tuple. apply sequence_length, parts_matching; assumption.
Qed.

(** ** Bytes at a position *)
Definition stands (buf : bytes) (p : Z) (x : bytes) : Prop := forall i, (i < length x)%nat -> nth_error buf (Z.to_nat p + i) = nth_error x i.
Definition agrees (buf : bytes) (p : Z) (x : bytes) (m : list bool) : Prop := forall i, nth_error m i = Some true -> nth_error buf (Z.to_nat p + i) = nth_error x i.
Lemma found_stands buf p x : found buf p x -> stands buf p x.
Proof.
  intros (pre & post & -> & <-) i L. rewrite len_length, Nat2Z.id, nth_error_app2 by lia. replace (length pre + i - length pre)%nat with i by lia.
  apply nth_error_app1. exact L.
Qed.
Lemma stands_app buf p x y : 0 <= p -> stands buf p x -> stands buf (p + len x) y -> stands buf p (x ++ y).
Proof.
  intros P X Y i L. rewrite app_length in L. destruct (Nat.lt_ge_cases i (length x)) as [A|A].
  - rewrite (nth_error_app1 _ _ A). auto.
  - rewrite (nth_error_app2 _ _ A). rewrite <- Y by lia. f_equal. rewrite len_length. lia.
Qed.
Lemma agrees_app buf p x y m n : 0 <= p -> length m = length x -> agrees buf p (x ++ y) (m ++ n) -> agrees buf p x m /\ agrees buf (p + len x) y n.
Proof.
  intros P L A. split; intros i H.
  - assert (i < length m)%nat by (apply nth_error_Some; congruence). rewrite (A i), nth_error_app1 by (rewrite ?nth_error_app1; lia || assumption). reflexivity.
  - assert (B := A (length m + i)%nat). rewrite nth_error_app2 in B by lia. replace (length m + i - length m)%nat with i in B by lia. specialize (B H).
    rewrite nth_error_app2 in B by lia. replace (length m + i - length x)%nat with i in B by lia. rewrite <- B. f_equal. rewrite len_length. lia.
Qed.
Lemma nth_ext {A} (l : list A) : forall l', (forall i, nth_error l i = nth_error l' i) -> l = l'.
Proof.
  induction l as [|x l IH]; intros [|y l'] E; [reflexivity|specialize (E 0%nat); discriminate E|specialize (E 0%nat); discriminate E|].
  pose proof (E 0%nat) as E0. injection E0 as ->. f_equal. apply IH. intro i. exact (E (S i)).
Qed.
Lemma stands_prefix buf x : stands buf 0 x -> exists rest, buf = x ++ rest.
Proof.
  revert buf. induction x as [|c x IH]; intros buf S; [exists buf; reflexivity|]. destruct buf as [|c' buf].
  - specialize (S 0%nat ltac:(cbn; lia)). discriminate S.
  - assert (E := S 0%nat ltac:(cbn; lia)). cbn in E. injection E as ->. destruct (IH buf) as (rest & ->).
    + intros i L. apply (S (Datatypes.S i)). cbn. lia.
    + exists rest. reflexivity.
Qed.

(** ** The payload *)
Definition covers (s : bool) (t : sty) : bool := s || negb (flat_bytes t).
Definition shape (buf : bytes) (start p off : Z) (ms : list (bool * list bool)) (ps : list (bool * bytes)) : Prop :=
  agrees buf p (heads off ps) (flat_map head_map ms) -> agrees buf (start + off) (tails ps) (flat_map tail_map ms) ->
  stands buf p (heads off ps) /\ stands buf (start + off) (tails ps).
Lemma holds_stands buf : len buf <= maxsize ->
  (forall s t p a, holds buf s t p a -> covers s t = true -> wf t -> has_type t a -> 0 <= p -> len (spec_enc t a) <= maxsize ->
     agrees buf p (spec_enc t a) (pointer_map t a) -> stands buf p (spec_enc t a))
  /\ (forall s start lo ts p vs, holds_all buf s start lo ts p vs -> forallb (covers s) ts = true -> Forall wf ts -> Forall2 has_type ts vs -> 0 <= p -> 0 <= start -> 0 <= lo ->
        forall off, 0 <= off -> len (heads off (parts part ts vs)) <= maxsize -> len (tails (parts part ts vs)) + off <= maxsize -> shape buf start p off (map_parts ts vs) (parts part ts vs)).
Proof.
  intro LB. assert (M : maxsize = 2 ^ 63 - 1) by reflexivity.
  assert (SEQ : forall start p ts vs, Forall2 has_type ts vs -> 0 <= p -> start = p ->
    (forall off, 0 <= off -> len (heads off (parts part ts vs)) <= maxsize -> len (tails (parts part ts vs)) + off <= maxsize -> shape buf start p off (map_parts ts vs) (parts part ts vs)) ->
    len (head_tail (parts part ts vs)) <= maxsize ->
    agrees buf p (head_tail (parts part ts vs)) (sequence_map (map_parts ts vs)) -> stands buf p (head_tail (parts part ts vs))).
  { intros start p ts vs F P -> IH L A. set (ps := parts part ts vs) in *.
    assert (MT : matching (map_parts ts vs) ps).
    { apply parts_matching; [|exact F]. apply Forall_forall. intros x _. apply map_length_enc. }
    rewrite len_head_tail in L. pose proof (heads_size_nonneg ps). pose proof (len_nonneg (tails ps)).
    unfold head_tail, sequence_map in *. apply agrees_app in A; [|exact P|apply heads_length; exact MT]. destruct A as [A1 A2].
    rewrite len_heads in A2. destruct (IH (heads_size ps) ltac:(lia) ltac:(rewrite len_heads; lia) ltac:(lia) A1 A2) as [S1 S2].
    apply stands_app; [exact P|exact S1|]. rewrite len_heads. exact S2. }
  apply (holds_both buf
    (fun s t p a _ => covers s t = true -> wf t -> has_type t a -> 0 <= p -> len (spec_enc t a) <= maxsize -> agrees buf p (spec_enc t a) (pointer_map t a) -> stands buf p (spec_enc t a))
    (fun s start lo ts p vs _ => forallb (covers s) ts = true -> Forall wf ts -> Forall2 has_type ts vs -> 0 <= p -> 0 <= start -> 0 <= lo ->
        forall off, 0 <= off -> len (heads off (parts part ts vs)) <= maxsize -> len (tails (parts part ts vs)) + off <= maxsize -> shape buf start p off (map_parts ts vs) (parts part ts vs))).
  - intros s t p a _ _ Fd _ _ _ _ _ _. apply found_stands. exact Fd.
  - intros s p b Hb C _ _ _ _ _. unfold covers in C. cbn [flat_bytes negb] in C. rewrite orb_false_r in C. subst s. inv Hb. apply found_stands. assumption.
  - intros s p u _ Hb C _ _ _ _ _. unfold covers in C. cbn [flat_bytes negb] in C. rewrite orb_false_r in C. subst s. inv Hb. apply found_stands. assumption.
  - intros s t p vs Fd Ha IH _ W H P L A. inv W. inv H. cbn [spec_enc pointer_map] in *. rewrite map_parts_repeat in A. rewrite <- parts_repeat in *.
    rewrite len_app, word_len in L. apply agrees_app in A; [|exact P|rewrite repeat_length, word_length; reflexivity]. destruct A as [_ A]. rewrite word_len in A.
    apply stands_app; [exact P|apply found_stands; exact Fd|]. rewrite word_len.
    assert (F2 : Forall2 has_type (repeat t (length vs)) vs) by (apply Forall2_repeat; assumption).
    apply (SEQ (p + 32)); [exact F2|lia|reflexivity| |lia|exact A].
    apply IH; try lia; [|apply Forall_forall; intros x I; apply repeat_spec in I; subst x; assumption|exact F2|].
    + apply forallb_forall. intros x I. reflexivity.
    + pose proof (len_nonneg vs). lia.
  - intros s n t p vs Hn Ha IH _ W H P L A. inv W. inv H. cbn [spec_enc pointer_map] in *. rewrite map_parts_repeat in A. rewrite <- parts_repeat in *.
    assert (F2 : Forall2 has_type (repeat t (length vs)) vs) by (apply Forall2_repeat; assumption).
    apply (SEQ p); [exact F2|lia|reflexivity| |lia|exact A].
    apply IH; try lia; [|apply Forall_forall; intros x I; apply repeat_spec in I; subst x; assumption|exact F2].
    apply forallb_forall. intros x I. reflexivity.
  - intros s ts p vs Ha IH _ W H P L A. inv W. inv H. rewrite map_tuple in A. rewrite spec_enc_tuple in *.
    apply (SEQ p); [assumption|lia|reflexivity| |lia|exact A].
    apply IH; try lia; try assumption.
    + apply forallb_forall. intros x I. reflexivity.
    + pose proof (counted_all_ge ts ltac:(assumption)). pose proof (len_nonneg ts). lia.
  - intros s start lo p _ _ _ _ _ _ off _ _ _ _ _. split; intros i I; cbn in I; lia.
  - intros s start lo t ts p a vs D Hh IHh Ha IHa C W F P St Lo off O L0 L A1 A2. inv W. inv F.
    assert (E : len (spec_enc t a) = static_size t) by (apply spec_enc_static; assumption).
    cbn [forallb] in C. apply andb_true_iff in C. destruct C as [C1 C2].
    assert (LM : length (pointer_map t a) = length (spec_enc t a)) by (apply map_length_enc; assumption).
    change (parts part (t :: ts) (a :: vs)) with ((sdyn t, spec_enc t a) :: parts part ts vs) in *.
    change (map_parts (t :: ts) (a :: vs)) with ((sdyn t, pointer_map t a) :: map_parts ts vs) in *.
    rewrite D in *. cbn [heads tails flat_map] in *. unfold head_map in A1 at 1. unfold tail_map in A2 at 1. cbn [fst snd List.app] in A1, A2.
    pose proof (len_nonneg (tails (parts part ts vs))). pose proof (len_nonneg (heads off (parts part ts vs))). pose proof (len_nonneg (spec_enc t a)).
    rewrite len_app in L0. apply agrees_app in A1; [|exact P|exact LM]. destruct A1 as [A0 A1]. rewrite E in A1.
    destruct (IHa C2 ltac:(assumption) ltac:(assumption) ltac:(lia) St Lo off O ltac:(lia) L A1 A2) as [S1 S2].
    split; [|exact S2]. apply stands_app; [exact P| |rewrite E; exact S1]. apply IHh; try assumption. lia.
  - intros s start lo t ts p z a vs D Fd Hz Hb Hh IHh Ha IHa C W F P St Lo off O L0 L A1 A2. inv W. inv F.
    cbn [forallb] in C. apply andb_true_iff in C. destruct C as [C1 C2].
    assert (LM : length (pointer_map t a) = length (spec_enc t a)) by (apply map_length_enc; assumption).
    change (parts part (t :: ts) (a :: vs)) with ((sdyn t, spec_enc t a) :: parts part ts vs) in *.
    change (map_parts (t :: ts) (a :: vs)) with ((sdyn t, pointer_map t a) :: map_parts ts vs) in *.
    rewrite D in *. cbn [heads tails flat_map] in *. unfold head_map in A1 at 1. unfold tail_map in A2 at 1. cbn [fst snd List.app] in A1, A2.
    set (n := len (spec_enc t a)) in *.
    pose proof (len_nonneg (tails (parts part ts vs))). pose proof (len_nonneg (heads (off + n) (parts part ts vs))). pose proof (len_nonneg (spec_enc t a)).
    rewrite len_app, word_len in L0. rewrite len_app in L. fold n in L.
    apply agrees_app in A1; [|exact P|rewrite repeat_length, word_length; reflexivity]. destruct A1 as [A0 A1]. rewrite word_len in A1.
    apply agrees_app in A2; [|lia|exact LM]. destruct A2 as [A3 A4]. fold n in A4.
    assert (EW : word z = word off).
    { apply nth_ext. intro i. destruct (Nat.lt_ge_cases i 32) as [I|I].
      - rewrite <- (A0 i) by (apply nth_error_repeat; exact I). symmetry. apply (found_stands _ _ _ Fd). rewrite word_length. exact I.
      - rewrite !(proj2 (nth_error_None _ _)) by (rewrite word_length; exact I). reflexivity. }
    assert (z = off). { apply word_inj; [| |exact EW]; lia. } subst z.
    destruct (IHa C2 ltac:(assumption) ltac:(assumption) ltac:(lia) St Lo (off + n) ltac:(lia) ltac:(lia) ltac:(lia) A1 ltac:(rewrite Z.add_assoc; exact A4)) as [S1 S2].
    split.
    + apply stands_app; [exact P|apply found_stands; exact Fd|rewrite word_len; exact S1].
    + apply stands_app; [lia| |fold n; rewrite <- Z.add_assoc; exact S2]. apply IHh; try assumption; lia.
Qed.

(** ** How many bytes belong to pointers *)
Notation marked m := (count_occ bool_dec m true).
Lemma marked_repeat b n : marked (repeat b n) = if b then n else 0%nat.
Proof. induction n as [|n IH]; [destruct b; reflexivity|]. cbn [repeat count_occ]. destruct b; cbn; lia. Qed.
Lemma marked_sequence ms : marked (sequence_map ms) = list_sum (map (fun m : bool * list bool => (if fst m then 32 else 0) + marked (snd m))%nat ms).
Proof.
  unfold sequence_map. rewrite count_occ_app. induction ms as [|[d m] ms IH]; [reflexivity|]. cbn [flat_map map list_sum fst snd]. change (list_sum (?x :: ?l)) with (x + list_sum l)%nat.
  unfold head_map at 1, tail_map at 1. cbn [fst snd]. destruct d; rewrite !count_occ_app; [rewrite marked_repeat|cbn [count_occ]]; lia.
Qed.
Definition pointers_all : list sty -> list aval -> nat :=
  fix go (ts : list sty) (l : list aval) : nat :=
    match ts, l with
    | t' :: ts', x :: l' => ((if sdyn t' then 1 else 0) + pointers t' x + go ts' l')%nat
    | _, _ => 0%nat
    end.
Lemma marked_map t : forall a, marked (pointer_map t a) = (32 * pointers t a)%nat.
Proof.
  induction t as [m|m| | |m n|m n|k| | |t IH|n t IH|ts IH] using sty_ind'; intros a; destruct a as [z|b|b|s|l]; try (cbn [pointer_map pointers]; rewrite marked_repeat; reflexivity).
  1, 2: cbn [pointer_map pointers]; rewrite ?count_occ_app, ?marked_repeat, marked_sequence, map_map; cbn [fst snd Nat.add];
    (induction l as [|x l IHl]; [reflexivity|cbn [map list_sum]; change (list_sum (?x :: ?l)) with (x + list_sum l)%nat; rewrite IHl, IH; destruct (sdyn t); lia]).
  rewrite map_tuple, marked_sequence. change (pointers (STuple ts) (VSeq l)) with (pointers_all ts l). revert l.
  induction IH as [|t ts It F IHt]; intros [|x l]; try reflexivity.
  change (map_parts (t :: ts) (x :: l)) with ((sdyn t, pointer_map t x) :: map_parts ts l). cbn [map fst snd pointers_all]. change (list_sum (?x :: ?l)) with (x + list_sum l)%nat.
  rewrite IHt, It. destruct (sdyn t); lia.
Qed.
Lemma static_pointers t : forall a, sdyn t = false -> pointers t a = 0%nat.
Proof.
  induction t as [m|m| | |m n|m n|k| | |t IH|n t IH|ts IH] using sty_ind'; intros a D; destruct a as [z|b|b|s|l]; try reflexivity; try discriminate D.
  - cbn [sdyn] in D. cbn [pointers]. rewrite D. induction l as [|x l IHl]; [reflexivity|]. cbn [map list_sum]. change (list_sum (?x :: ?l)) with (x + list_sum l)%nat. rewrite IHl, IH by exact D. reflexivity.
  - change (pointers (STuple ts) (VSeq l)) with (pointers_all ts l). cbn [sdyn] in D. revert l.
    induction IH as [|t ts It F IHt]; intros [|x l]; try reflexivity. cbn [existsb] in D. apply orb_false_iff in D. destruct D as [D1 D2].
    cbn [pointers_all]. rewrite (It x D1), (IHt D2 l), D1. reflexivity.
Qed.
Lemma unmarked m i : marked m = 0%nat -> nth_error m i <> Some true.
Proof. intros Z E. apply nth_error_In in E. apply (count_occ_not_In bool_dec) in Z. contradiction. Qed.

(** ** Altered payloads *)
Theorem map_covers w types ts args a b : used false w -> type_args types ts -> denotes (STuple ts) args a -> fits args -> encode_in w types args = Ok b ->
  length (pointer_map (STuple ts) a) = length b /\ count_occ bool_dec (pointer_map (STuple ts) a) true = (32 * pointers (STuple ts) a)%nat.
Proof.
  intros U T D F E. rewrite (encode_denoted false w types ts args a U T D F) in E. inv E. split; [|apply marked_map].
  apply map_length_enc. exact (args_has_type ts _ _ (type_args_wf _ _ T) D).
Qed.
Theorem alter_prefix w w' types ts args a b data b' strict q : used false w -> used false w' -> type_args types ts -> denotes (STuple ts) args a -> fits args ->
  encode_in w types args = Ok b -> len b <= maxsize -> bytes_like data b' -> len b' <= maxsize -> strict = true \/ existsb flat_bytes ts = false ->
  same_pointers (pointer_map (STuple ts) a) b b' -> decode_in w' types data strict = Ok q -> canon (STuple ts) a q -> exists rest, b' = b ++ rest.
Proof.
  intros U U' T D F E L B L' S P Q C. rewrite (encode_denoted false w types ts args a U T D F) in E. assert (Eb : b = spec_enc (STuple ts) a) by (injection E; auto). clear E. subst b.
  assert (W := type_args_wf _ _ T). apply (decode_ok w' types ts data b' strict q U' T B L') in Q. destruct Q as (vs & H & Ft & ->).
  assert (a = VSeq vs).
  { assert (Ht : has_type (STuple ts) (VSeq vs)) by (constructor; exact Ft). pose proof (args_has_type ts _ _ W D) as Ha.
    apply (denotes_fun (STuple ts) (py_of (STuple ts) (VSeq vs))); apply args_canon_denotes; try assumption. apply args_py_of_canon; assumption. }
  subst a. apply stands_prefix.
  assert (CV : forallb (covers strict) ts = true).
  { apply forallb_forall. intros x I. unfold covers. destruct S as [->|S]; [reflexivity|].
    destruct (flat_bytes x) eqn:X; [|destruct strict; reflexivity]. assert (existsb flat_bytes ts = true) by (apply existsb_exists; eauto). congruence. }
  rewrite spec_enc_tuple in L, P |- *. rewrite map_tuple in P. set (ps := parts part ts vs) in *.
  assert (MT : matching (map_parts ts vs) ps) by (apply parts_matching; [apply Forall_forall; intros x _; apply map_length_enc|exact Ft]).
  rewrite len_head_tail in L. pose proof (heads_size_nonneg ps). pose proof (len_nonneg (tails ps)).
  assert (A : agrees b' 0 (head_tail ps) (sequence_map (map_parts ts vs))) by (intros i I; exact (P i I)).
  unfold head_tail, sequence_map in A. apply agrees_app in A; [|lia|apply heads_length; exact MT]. destruct A as [A1 A2]. rewrite len_heads in A2.
  pose proof (counted_all_ge ts W). pose proof (len_nonneg ts).
  destruct (proj2 (holds_stands b' L') _ _ _ _ _ _ H CV W Ft ltac:(lia) ltac:(lia) ltac:(lia) (heads_size ps) ltac:(lia) ltac:(fold ps; rewrite len_heads; lia) ltac:(fold ps; lia) A1 A2) as [S1 S2].
  unfold head_tail. apply stands_app; [lia|exact S1|rewrite len_heads; exact S2].
Qed.
Lemma with_byte_other b i c j : j <> i -> (i < length b)%nat -> nth_error (with_byte b i c) j = nth_error b j.
Proof.
  revert i j. induction b as [|x b IH]; intros [|i] [|j] N L; cbn in L; try lia; try reflexivity; try congruence.
  unfold with_byte in *. cbn. apply IH; lia.
Qed.
Lemma with_byte_here b i c : (i < length b)%nat -> nth_error (with_byte b i c) i = Some c.
Proof.
  revert i. induction b as [|x b IH]; intros [|i] L; cbn in L; try lia; [reflexivity|]. unfold with_byte in *. cbn. apply IH; lia.
Qed.
Lemma with_byte_length b i c : (i < length b)%nat -> length (with_byte b i c) = length b.
Proof. intro L. unfold with_byte. rewrite app_length, firstn_length. cbn [length]. rewrite skipn_length. lia. Qed.
Theorem alter_byte w w' types ts args a b data strict i c : used false w -> used false w' -> type_args types ts -> denotes (STuple ts) args a -> fits args ->
  encode_in w types args = Ok b -> len b <= maxsize -> strict = true \/ existsb flat_bytes ts = false ->
  nth_error (pointer_map (STuple ts) a) i = Some false -> nth_error b i <> Some c -> bytes_like data (with_byte b i c) ->
  (exists e, decode_in w' types data strict = Err e) \/ (exists q, decode_in w' types data strict = Ok q /\ ~ canon (STuple ts) a q).
Proof.
  intros U U' T D F E L S P N B. destruct (decode_in w' types data strict) as [q|e] eqn:Q; [right|left; eauto]. exists q. split; [reflexivity|]. intro C.
  destruct (map_covers w types ts args a b U T D F E) as [ML _].
  assert (I : (i < length b)%nat) by (rewrite <- ML; apply nth_error_Some; congruence).
  destruct (alter_prefix w w' types ts args a b data (with_byte b i c) strict q U U' T D F E L B) as (rest & R); try assumption.
  - rewrite len_length, with_byte_length, <- len_length by exact I. exact L.
  - intros j J. apply with_byte_other; [congruence|exact I].
  - apply N. rewrite <- (with_byte_here b i c I), R. symmetry. apply nth_error_app1. exact I.
Qed.
Theorem alter_static w w' types ts args a b data b' strict q : used false w -> used false w' -> type_args types ts -> existsb sdyn ts = false -> denotes (STuple ts) args a -> fits args ->
  encode_in w types args = Ok b -> len b <= maxsize -> bytes_like data b' -> len b' <= maxsize -> decode_in w' types data strict = Ok q -> canon (STuple ts) a q ->
  exists rest, b' = b ++ rest.
Proof.
  intros U U' T S D F E L B L' Q C. apply (alter_prefix w w' types ts args a b data b' strict q); try assumption.
  - right. destruct (existsb flat_bytes ts) eqn:X; [|reflexivity]. apply existsb_exists in X. destruct X as (x & I & Fx).
    assert (existsb sdyn ts = true) by (apply existsb_exists; exists x; split; [exact I|destruct x; try discriminate Fx; reflexivity]). congruence.
  - intros i I. exfalso. revert I. apply unmarked. rewrite marked_map, (static_pointers (STuple ts) a S). reflexivity.
Qed.
