(** How decoding at related types is related. *)
From Coq Require Import Strings.Byte Strings.String.
From Verif Require Import Tac Bytes BytesProofs Utf8 Utf8Proofs Address Decimals DecimalsProofs Encoding Decoding Registry Codec Histories Spec ReadSpec LawsSpec TypeSpec
  EncLeafProofs EncodeProofs AcceptProofs EncOkProofs DecLeafProofs DecodeProofs ReaderProofs DecodeFacts DecodeFacts2 LookupProofs TypeProofs ApiProofs HistoryProofs ArgsProofs
  EncodeApi DecodeApi ReadProofs LawsProofs LawsProofs2.
Open Scope Z_scope.

Lemma py_tuple_cons t ts a l : py_of (STuple (t :: ts)) (VSeq (a :: l)) =
  match py_of (STuple ts) (VSeq l) with PTuple qs => PTuple (py_of t a :: qs) | q => q end.
Proof. reflexivity. Qed.
Lemma py_tuple_nil : py_of (STuple []) (VSeq []) = PTuple [].
Proof. reflexivity. Qed.

(** ** Fixed-size arrays as tuples *)
Lemma expand_size t : wf t -> static_size (expand t) = static_size t.
Proof.
  induction t as [m|m| | |m n|m n|k| | |t IH|n t IH|ts IH] using sty_ind'; intro W; inv W; cbn [expand static_size]; try reflexivity.
  - take (wf t) as Wt. rewrite <- (IH Wt). rewrite <- (Z2Nat.id n) at 2 by lia. induction (Z.to_nat n) as [|k IHk]; [reflexivity|].
    cbn [repeat fold_right]. rewrite IHk. lia.
  - take (Forall wf ts) as F. clear -IH F. induction IH as [|t ts Ht IH IHts]; [reflexivity|]. inv F. cbn [map fold_right]. rewrite Ht, IHts by assumption. reflexivity.
Qed.
Lemma expand_counted t : counted (expand t) = 1.
Proof. unfold counted. destruct (sdyn (expand t)); [reflexivity|]. destruct t; reflexivity. Qed.
Lemma expand_counted_all ts : counted_all (map expand ts) = len ts.
Proof. induction ts as [|t ts IH]; [reflexivity|]. cbn [map counted_all fold_right]. rewrite expand_counted. change (fold_right _ 0 (map expand ts)) with (counted_all (map expand ts)). rewrite IH. lens. lia. Qed.
Lemma counted_ge t : wf t -> 1 <= counted t.
Proof. intro W. unfold counted. destruct (sdyn t); [lia|]. inv W; lia. Qed.
Lemma counted_all_ge ts : Forall wf ts -> len ts <= counted_all ts.
Proof. intro W. induction W as [|t ts Wt W IH]; [reflexivity|]. cbn [counted_all fold_right]. change (fold_right _ 0 ts) with (counted_all ts). lens. pose proof (counted_ge t Wt). lia. Qed.
Lemma map_repeat {A B} (f : A -> B) x n : map f (repeat x n) = repeat (f x) n.
Proof. induction n; cbn; congruence. Qed.
Lemma holds_expand buf :
  (forall s t p a, holds buf s t p a -> wf t -> holds buf s (expand t) p a)
  /\ (forall s start lo ts p vs, holds_all buf s start lo ts p vs -> Forall wf ts -> forall lo', lo' <= lo -> holds_all buf s start lo' (map expand ts) p vs).
Proof.
  apply (holds_both buf (fun s t p a _ => wf t -> holds buf s (expand t) p a)
    (fun s start lo ts p vs _ => Forall wf ts -> forall lo', lo' <= lo -> holds_all buf s start lo' (map expand ts) p vs)).
  - intros s t p a O Ht F W. replace (expand t) with t by (destruct t; try discriminate O; reflexivity). apply H_word; assumption.
  - intros. apply H_bytes. assumption.
  - intros. apply H_string; assumption.
  - intros s t p vs F M IH W. inv W. cbn [expand]. apply H_arr; [exact F|]. rewrite <- map_repeat. apply IH; [apply Forall_repeat; assumption|lia].
  - intros s n t p vs Ln M IH W. inv W. cbn [expand]. apply H_tuple. rewrite <- map_repeat, expand_counted_all, map_repeat.
    replace (Z.to_nat (len vs)) with (length vs) by (rewrite len_length; lia). rewrite <- map_repeat.
    apply IH; [apply Forall_repeat; assumption|]. rewrite !len_length, repeat_length. lia.
  - intros s ts p vs M IH W. inv W. take (Forall wf ts) as Ws. cbn [expand]. apply H_tuple. rewrite expand_counted_all. apply IH; [exact Ws|]. pose proof (counted_all_ge ts Ws). lia.
  - intros. constructor.
  - intros s start lo t ts p a vs D Hh IH1 M IH2 W lo' Hlo. inv W. take (wf t) as Wt. cbn [map]. apply HA_static; [rewrite expand_dyn; assumption|auto|].
    rewrite expand_size by assumption. auto.
  - intros s start lo t ts p z a vs D F Hz Hb Hh IH1 M IH2 W lo' Hlo. inv W. take (wf t) as Wt. cbn [map]. apply HA_dynamic with (z := z); auto; [rewrite expand_dyn; assumption|lia].
Qed.
Lemma py_expand t : wf t -> forall a, has_type t a -> py_of (expand t) a = py_of t a.
Proof.
  induction t as [m|m| | |m n|m n|k| | |t IH|n t IH|ts IH] using sty_ind'; intros W a H; try reflexivity; inv W; inv H; cbn [expand].
  - cbn [py_of]. f_equal. apply map_ext_Forall. take (Forall _ l) as F. eapply Forall_impl; [|exact F]. auto.
  - take (wf t) as Wt. take (Forall _ l) as F. replace (Z.to_nat (len l)) with (length l) by (rewrite len_length; lia). clear -IH F Wt.
    change (py_of (STuple (repeat (expand t) (length l))) (VSeq l) = PTuple (map (py_of t) l)).
    induction F as [|x l Hx F IHF]; [reflexivity|]. cbn [length repeat map].
    rewrite py_tuple_cons, IHF, IH by assumption. reflexivity.
  - take (Forall wf ts) as Ws. take (Forall2 _ ts l) as F. clear -IH F Ws. induction F as [|t x ts l Hx F IHF]; [reflexivity|]. inv IH. inv Ws. cbn [map].
    rewrite !py_tuple_cons, IHF by assumption. take (wf t -> _) as IHt. rewrite IHt by assumption. reflexivity.
Qed.
Lemma py_expand_args ts vs : Forall wf ts -> Forall2 has_type ts vs -> py_of (STuple (map expand ts)) (VSeq vs) = py_of (STuple ts) (VSeq vs).
Proof.
  intros W F. induction F as [|t x ts l Hx F IHF]; [reflexivity|]. inv W. cbn [map]. rewrite !py_tuple_cons, IHF, py_expand by assumption. reflexivity.
Qed.
(** Decoding in terms of [holds]. *)
Lemma decode_ok w types ts data b strict q : used false w -> type_args types ts -> bytes_like data b -> len b <= maxsize ->
  decode_in w types data strict = Ok q <-> exists vs, payload_holds b strict ts vs /\ Forall2 has_type ts vs /\ q = py_of (STuple ts) (VSeq vs).
Proof.
  intros U T B L. split.
  - intro H. destruct (decode_pd w types ts data b strict q U T B L H) as (a & P & -> & Ht). destruct (tuple_type ts a Ht) as (vs & -> & F).
    exists vs. split; [apply pd_args_holds; auto; eapply type_args_wf; exact T|]. auto.
  - intros (vs & P & F & ->). apply (decode_iff w types ts data b strict U T B L). exact P.
Qed.
Theorem decode_expanded w w' types types' ts data b strict q : used false w -> used false w' -> type_args types ts -> type_args types' (map expand ts) ->
  bytes_like data b -> len b <= maxsize -> decode_in w types data strict = Ok q -> decode_in w' types' data strict = Ok q.
Proof.
  intros U U' T T' B L H. assert (W := type_args_wf _ _ T). rewrite (decode_ok w types ts data b strict q U T B L) in H. destruct H as (vs & P & F & ->).
  apply (decode_ok w' types' _ data b strict _ U' T' B L). exists vs.
  assert (P' : payload_holds b strict (map expand ts) vs).
  { apply (proj2 (holds_expand b) _ _ _ _ _ _ P W). rewrite expand_counted_all. pose proof (counted_all_ge ts W). lia. }
  split; [exact P'|]. split; [|symmetry; apply py_expand_args; assumption].
  apply (decode_iff w' types' _ data b strict U' T' B L vs). exact P'.
Qed.
Theorem decode_same_layout w w' types types' ts ts' data b strict q q' : used false w -> used false w' -> type_args types ts -> type_args types' ts' ->
  Forall2 same_layout ts ts' -> bytes_like data b -> len b <= maxsize -> decode_in w types data strict = Ok q -> decode_in w' types' data strict = Ok q' -> q = q'.
Proof.
  intros U U' T T' S B L H H'. assert (W := type_args_wf _ _ T). assert (W' := type_args_wf _ _ T').
  rewrite (decode_ok w types ts data b strict q U T B L) in H. rewrite (decode_ok w' types' ts' data b strict q' U' T' B L) in H'.
  destruct H as (vs & P & F & ->). destruct H' as (vs' & P' & F' & ->).
  assert (E : forall ts vs, Forall wf ts -> payload_holds b strict ts vs -> payload_holds b strict (map expand ts) vs).
  { intros us xs Wu Pu. apply (proj2 (holds_expand b) _ _ _ _ _ _ Pu Wu). rewrite expand_counted_all. pose proof (counted_all_ge us Wu). lia. }
  pose proof (E ts vs W P) as Q. pose proof (E ts' vs' W' P') as Q'. rewrite <- (same_layout_map _ _ S) in Q'.
  assert (We : Forall wf (map expand ts)) by (clear -W; induction W; constructor; auto using expand_wf).
  pose proof (holds_unique b strict _ vs vs' L We Q Q') as X. subst vs'.
  rewrite <- (py_expand_args ts vs W F), <- (py_expand_args ts' vs W' F'), (same_layout_map _ _ S). reflexivity.
Qed.

(** ** A single array or tuple *)
Lemma holds_static_lo buf s start lo lo' ts p vs : existsb sdyn ts = false -> holds_all buf s start lo ts p vs -> holds_all buf s start lo' ts p vs.
Proof.
  intros D H. induction H; [constructor| |]; cbn [existsb] in D; apply orb_false_iff in D; destruct D as [D1 D2]; [|congruence].
  apply HA_static; auto.
Qed.
Lemma holds_array_tuple buf s n t p a : wf t -> 1 <= n -> holds buf s (SSized n t) p a <-> holds buf s (STuple (repeat t (Z.to_nat n))) p a.
Proof.
  intros W Hn. assert (C : sdyn t = true -> counted_all (repeat t (Z.to_nat n)) = n).
  { intro D. rewrite <- (Z2Nat.id n) at 2 by lia. induction (Z.to_nat n) as [|k IH]; [reflexivity|]. cbn [repeat counted_all fold_right].
    change (fold_right _ 0 (repeat t k)) with (counted_all (repeat t k)). rewrite IH. unfold counted. rewrite D. lia. }
  split; intro H; inv H; try discriminate.
  - apply H_tuple. replace (Z.to_nat (len vs)) with (length vs) in * by (rewrite len_length; lia). destruct (sdyn t) eqn:D; [rewrite C by reflexivity; assumption|].
    eapply holds_static_lo; [apply existsb_repeat_false; exact D|]. eassumption.
  - take (holds_all _ _ _ _ _ _ _) as M. assert (L : length vs = Z.to_nat n).
    { clear -M. assert (G : forall s st lo ts p vs, holds_all buf s st lo ts p vs -> length vs = length ts) by (intros * G; induction G; cbn; congruence). apply G in M. rewrite repeat_length in M. exact M. }
    apply H_sized; [rewrite len_length, L; lia|]. rewrite L. destruct (sdyn t) eqn:D; [rewrite C in M by reflexivity; exact M|].
    eapply holds_static_lo; [apply existsb_repeat_false; exact D|]. eassumption.
Qed.
Lemma py_repeat t l : py_of (STuple (repeat t (length l))) (VSeq l) = PTuple (map (py_of t) l).
Proof. induction l as [|x l IH]; [reflexivity|]. cbn [length repeat map]. rewrite py_tuple_cons, IH. reflexivity. Qed.
Lemma repeat_dyn t n : 1 <= n -> existsb sdyn (repeat t (Z.to_nat n)) = sdyn t.
Proof.
  intro H. destruct (Z.to_nat n) as [|k] eqn:E; [lia|]. clear. induction k as [|k IH]; [cbn; apply orb_false_r|].
  change (sdyn t || existsb sdyn (repeat t (Datatypes.S k)) = sdyn t). rewrite IH. destruct (sdyn t); reflexivity.
Qed.
Lemma repeat_size t n : 0 <= n -> static_size (STuple (repeat t (Z.to_nat n))) = n * static_size t.
Proof.
  intro H. rewrite <- (Z2Nat.id n) at 2 by lia. cbn [static_size]. induction (Z.to_nat n) as [|k IH]; [reflexivity|]. cbn [repeat fold_right]. rewrite IH. lia.
Qed.
Lemma Forall2_one {A B} (R : A -> B -> Prop) x l : Forall2 R [x] l <-> exists y, l = [y] /\ R x y.
Proof. split; [intro F; inv F; take (Forall2 _ [] _) as G; inv G; eauto|intros (y & -> & H); constructor; [exact H|constructor]]. Qed.
Theorem decode_array_tuple w w' s s' t n data b strict q : used false w -> used false w' -> supported s (SSized n t) -> supported s' (STuple (repeat t (Z.to_nat n))) ->
  bytes_like data b -> len b <= maxsize ->
  decode_in w (PList [PStr s]) data strict = Ok q <-> decode_in w' (PList [PStr s']) data strict = Ok q.
Proof.
  intros U U' S S' B L. assert (W := supported_wf _ _ S). inv W. take (wf t) as Wt. take (1 <= n) as Hn.
  rewrite (decode_ok w _ _ data b strict q U (one_args s _ S) B L), (decode_ok w' _ _ data b strict q U' (one_args s' _ S') B L).
  assert (D : sdyn (STuple (repeat t (Z.to_nat n))) = sdyn (SSized n t)) by (cbn [sdyn]; apply repeat_dyn; exact Hn).
  assert (Z : static_size (STuple (repeat t (Z.to_nat n))) = static_size (SSized n t)) by (rewrite repeat_size by lia; reflexivity).
  assert (P : forall vs, payload_holds b strict [SSized n t] vs <-> payload_holds b strict [STuple (repeat t (Z.to_nat n))] vs).
  { assert (C : sdyn (SSized n t) = true -> counted_all [SSized n t] = 1 /\ counted_all [STuple (repeat t (Z.to_nat n))] = 1).
    { intro Dt. unfold counted_all, counted. cbn [fold_right]. rewrite D, Dt. split; reflexivity. }
    intro vs. unfold payload_holds. split; intro H; inv H; take (holds_all _ _ _ _ [] _ _) as M; inv M.
    - apply HA_static; [rewrite D; assumption|apply holds_array_tuple; assumption|constructor].
    - destruct (C ltac:(assumption)) as [C1 C2]. eapply HA_dynamic; [rewrite D; assumption|eassumption|lia|assumption|apply holds_array_tuple; eassumption|constructor].
    - rewrite D in *. apply HA_static; [assumption|apply holds_array_tuple; assumption|constructor].
    - rewrite D in *. destruct (C ltac:(assumption)) as [C1 C2]. eapply HA_dynamic; [assumption|eassumption|lia|assumption|apply holds_array_tuple; eassumption|constructor]. }
  assert (Y : forall vs, Forall2 has_type [SSized n t] vs <-> Forall2 has_type [STuple (repeat t (Z.to_nat n))] vs).
  { intro vs. rewrite !Forall2_one. split; intros (y & -> & H); inv H; eexists; (split; [reflexivity|]).
    - constructor. replace (Z.to_nat (len l)) with (length l) by (rewrite len_length; lia). apply Forall2_repeat. assumption.
    - take (Forall2 _ _ l) as F. pose proof (Forall2_len _ _ _ F) as Ll. rewrite !len_length, repeat_length in Ll.
      constructor; [rewrite len_length; lia|]. apply Forall2_repeat. replace (length l) with (Z.to_nat n) by lia. exact F. }
  assert (Q : forall vs, Forall2 has_type [SSized n t] vs -> py_of (STuple [SSized n t]) (VSeq vs) = py_of (STuple [STuple (repeat t (Z.to_nat n))]) (VSeq vs)).
  { intros vs H. apply Forall2_one in H. destruct H as (y & -> & H). inv H. rewrite !py_tuple_cons. cbn [py_of]. do 2 f_equal.
    replace (Z.to_nat (len l)) with (length l) by (rewrite len_length; lia). symmetry. apply py_repeat. }
  split; intros (vs & H1 & H2 & ->); exists vs.
  - split; [apply P; exact H1|]. split; [apply Y; exact H2|]. apply Q. exact H2.
  - apply Y in H2. split; [apply P; exact H1|]. split; [exact H2|]. symmetry. apply Q. exact H2.
Qed.

(** ** Wider types *)
Lemma widens_size t : forall t', widens t t' -> static_size t = static_size t'.
Proof.
  induction t as [m|m| | |m n|m n|k| | |t IH|n t IH|ts IH] using sty_ind'; intros [m'|m'| | |m' n'|m' n'|k'| | |t'|n' t'|ts'] H; try (exfalso; exact H); try reflexivity.
  - destruct H as [<- H]. cbn [static_size]. rewrite (IH t' H). reflexivity.
  - apply widens_tuple in H. cbn [static_size]. revert IH. induction H as [|t t' ts ts' H F IHF]; intro IH; [reflexivity|]. inv IH. cbn [fold_right]. rewrite IHF by assumption. f_equal. auto.
Qed.
Lemma widens_counted t t' : widens t t' -> counted t = counted t'.
Proof.
  intro H. unfold counted. rewrite (widens_dyn t t' H). destruct (sdyn t'); [reflexivity|].
  destruct t; destruct t'; try reflexivity; try (exfalso; exact H). destruct H as [H _]. exact H.
Qed.
Lemma widens_counted_all ts ts' : Forall2 widens ts ts' -> counted_all ts = counted_all ts'.
Proof. intro F. induction F as [|t t' ts ts' H F IH]; [reflexivity|]. cbn [counted_all fold_right]. rewrite (widens_counted _ _ H). f_equal. exact IH. Qed.
Lemma widens_word t t' : widens t t' -> one_word t = one_word t'.
Proof. intro H. destruct t; destruct t'; try reflexivity; exfalso; exact H. Qed.
Lemma widens_type t t' a : wf t -> wf t' -> one_word t = true -> widens t t' -> has_type t a -> has_type t' a.
Proof.
  intros W W' O H T. destruct t as [m|m| | |m n|m n|k| | |t|n t|ts]; try discriminate O; destruct t' as [m'|m'| | |m' n'|m' n'|k'| | |t'|n' t'|ts']; try (exfalso; exact H); inv W; inv W'; inv T; cbn [widens] in H.
  - destruct (pow_wider m m') as (Hp & _); try (unfold int_size in *; lia). constructor. lia.
  - assert (Hp : 2 ^ m <= 2 ^ (m' - 1)) by (apply pow2_mono; unfold int_size in *; lia). pose proof (pow2_pos (m' - 1) ltac:(unfold int_size in *; lia)). constructor. lia.
  - destruct (pow_wider m m') as (_ & Hp & _); try (unfold int_size in *; lia). constructor. lia.
  - constructor.
  - constructor. assumption.
  - destruct H as [H <-]. destruct (pow_wider m m') as (Hp & _); try (unfold int_size in *; lia). constructor. lia.
  - destruct H as [H <-]. assert (Hp : 2 ^ m <= 2 ^ (m' - 1)) by (apply pow2_mono; unfold int_size in *; lia). pose proof (pow2_pos (m' - 1) ltac:(unfold int_size in *; lia)). constructor. lia.
  - destruct H as [H <-]. destruct (pow_wider m m') as (_ & Hp & _); try (unfold int_size in *; lia). constructor. lia.
  - rewrite <- H. constructor. reflexivity.
Qed.
Lemma widens_enc t t' a : one_word t = true -> widens t t' -> has_type t a -> spec_enc t a = spec_enc t' a.
Proof. intros O H T. destruct t; try discriminate O; destruct t'; try (exfalso; exact H); inv T; reflexivity. Qed.
Lemma Forall2_repeat_l {A B} (R : A -> B -> Prop) x n l : Forall2 R (repeat x n) l -> Forall (R x) l /\ length l = n.
Proof. revert l. induction n as [|n IH]; intros l F; inv F; [auto|]. take (Forall2 _ _ _) as G. destruct (IH _ G). cbn. split; [constructor; assumption|congruence]. Qed.
Lemma holds_wider buf :
  (forall s t p a, holds buf s t p a -> forall t', wf t -> wf t' -> widens t t' -> holds buf s t' p a)
  /\ (forall s start lo ts p vs, holds_all buf s start lo ts p vs -> forall ts', Forall wf ts -> Forall wf ts' -> Forall2 widens ts ts' -> holds_all buf s start lo ts' p vs).
Proof.
  apply (holds_both buf (fun s t p a _ => forall t', wf t -> wf t' -> widens t t' -> holds buf s t' p a)
    (fun s start lo ts p vs _ => forall ts', Forall wf ts -> Forall wf ts' -> Forall2 widens ts ts' -> holds_all buf s start lo ts' p vs)).
  - intros s t p a O Ht F t' W W' H. apply H_word; [rewrite <- (widens_word t t' H); exact O|apply (widens_type t t'); assumption|].
    rewrite <- (widens_enc t t' a O H Ht). exact F.
  - intros s p b Hb t' W W' H. destruct t'; try (exfalso; exact H). apply H_bytes. assumption.
  - intros s p u Hu Hb t' W W' H. destruct t'; try (exfalso; exact H). apply H_string; assumption.
  - intros s t p vs F M IH t' W W' H. destruct t'; try (exfalso; exact H). inv W. inv W'. apply H_arr; [exact F|]. apply IH; try (apply Forall_repeat; assumption). apply Forall2_rep. exact H.
  - intros s n t p vs Ln M IH t' W W' H. destruct t'; try (exfalso; exact H). destruct H as [Hn H]. rewrite <- Hn in W' |- *. inv W. inv W'. apply H_sized; [reflexivity|].
    apply IH; try (apply Forall_repeat; assumption). apply Forall2_rep. exact H.
  - intros s ts p vs M IH t' W W' H. destruct t' as [| | | | | | | | | | |ts']; try (exfalso; exact H). apply widens_tuple in H. inv W. inv W'. apply H_tuple. rewrite <- (widens_counted_all _ _ H). apply IH; assumption.
  - intros s start lo p ts' W W' F. inv F. constructor.
  - intros s start lo t ts p a vs D Hh IH1 M IH2 ts' W W' F. inv F. inv W. inv W'. take (widens t _) as Wd. apply HA_static; [rewrite <- (widens_dyn _ _ Wd); exact D|auto|].
    rewrite <- (widens_size _ _ Wd). auto.
  - intros s start lo t ts p z a vs D F Hz Hb Hh IH1 M IH2 ts' W W' G. inv G. inv W. inv W'. take (widens t _) as Wd. apply HA_dynamic with (z := z); auto. rewrite <- (widens_dyn _ _ Wd). exact D.
Qed.
(** Back: a value read at the wider type that is a value of the narrower one. *)
Lemma holds_narrower buf :
  (forall s t' p a, holds buf s t' p a -> forall t, widens t t' -> has_type t a -> holds buf s t p a)
  /\ (forall s start lo ts' p vs, holds_all buf s start lo ts' p vs -> forall ts, Forall2 widens ts ts' -> Forall2 has_type ts vs -> holds_all buf s start lo ts p vs).
Proof.
  apply (holds_both buf (fun s t' p a _ => forall t, widens t t' -> has_type t a -> holds buf s t p a)
    (fun s start lo ts' p vs _ => forall ts, Forall2 widens ts ts' -> Forall2 has_type ts vs -> holds_all buf s start lo ts p vs)).
  - intros s t' p a O Ht F t H T. pose proof (widens_word t t' H) as O'. apply H_word; [congruence|exact T|]. rewrite (widens_enc t t' a ltac:(congruence) H T). exact F.
  - intros s p b Hb t H T. destruct t; try (exfalso; exact H). apply H_bytes. assumption.
  - intros s p u Hu Hb t H T. destruct t; try (exfalso; exact H). apply H_string; assumption.
  - intros s t' p vs F M IH t H T. destruct t; try (exfalso; exact H). inv T. apply H_arr; [exact F|]. apply IH; [apply Forall2_rep; exact H|]. apply Forall2_repeat. assumption.
  - intros s n t' p vs Ln M IH t H T. destruct t; try (exfalso; exact H). destruct H as [Hn H]. rewrite Hn in T |- *. inv T. apply H_sized; [reflexivity|].
    apply IH; [apply Forall2_rep; exact H|]. apply Forall2_repeat. assumption.
  - intros s ts' p vs M IH t H T. destruct t as [| | | | | | | | | | |ts]; try (exfalso; exact H). apply widens_tuple in H. inv T. apply H_tuple. rewrite (widens_counted_all _ _ H). apply IH; assumption.
  - intros s start lo p ts F T. inv F. constructor.
  - intros s start lo t' ts' p a vs D Hh IH1 M IH2 ts F T. inv F. inv T. take (widens _ t') as Wd. apply HA_static; [rewrite (widens_dyn _ _ Wd); exact D|auto|].
    rewrite (widens_size _ _ Wd). auto.
  - intros s start lo t' ts' p z a vs D F Hz Hb Hh IH1 M IH2 ts G T. inv G. inv T. take (widens _ t') as Wd. apply HA_dynamic with (z := z); auto. rewrite (widens_dyn _ _ Wd). exact D.
Qed.
Lemma py_wider t : forall t' a, widens t t' -> has_type t a -> py_of t' a = py_of t a.
Proof.
  induction t as [m|m| | |m n|m n|k| | |t IH|n t IH|ts IH] using sty_ind'; intros t' a H T; destruct t' as [m'|m'| | |m' n'|m' n'|k'| | |t'|n' t'|ts']; try (exfalso; exact H); inv T;
    try reflexivity; try (destruct H as [_ <-]; reflexivity).
  - cbn [py_of]. f_equal. apply map_ext_Forall. take (Forall _ l) as F. eapply Forall_impl; [|exact F]. intros x Hx. apply IH; assumption.
  - destruct H as [_ H]. cbn [py_of]. f_equal. apply map_ext_Forall. take (Forall _ l) as F. eapply Forall_impl; [|exact F]. intros x Hx. apply IH; assumption.
  - apply widens_tuple in H. take (Forall2 has_type ts l) as F. revert ts' H IH. induction F as [|t x ts l Hx F IHF]; intros ts' H IH; inv H; [reflexivity|]. inv IH.
    rewrite !py_tuple_cons, (IHF l') by assumption. take (forall t' a, widens t t' -> _) as IHt. rewrite (IHt y x) by assumption. reflexivity.
Qed.
Lemma py_wider_args ts ts' vs : Forall2 widens ts ts' -> Forall2 has_type ts vs -> py_of (STuple ts') (VSeq vs) = py_of (STuple ts) (VSeq vs).
Proof. intros F T. apply py_wider; [apply widens_tuple; exact F|constructor; exact T]. Qed.
Theorem decode_wider w w' types types' ts ts' data b strict q : used false w -> used false w' -> type_args types ts -> type_args types' ts' -> Forall2 widens ts ts' ->
  bytes_like data b -> len b <= maxsize -> decode_in w types data strict = Ok q -> decode_in w' types' data strict = Ok q.
Proof.
  intros U U' T T' F B L H. rewrite (decode_ok w types ts data b strict q U T B L) in H. destruct H as (vs & P & G & ->).
  apply (decode_ok w' types' _ data b strict _ U' T' B L). exists vs.
  assert (P' : payload_holds b strict ts' vs).
  { unfold payload_holds. rewrite <- (widens_counted_all _ _ F). eapply (proj2 (holds_wider b)); [exact P|eapply type_args_wf; exact T|eapply type_args_wf; exact T'|exact F]. }
  split; [exact P'|]. split; [|symmetry; apply py_wider_args; assumption]. apply (decode_iff w' types' _ data b strict U' T' B L vs). exact P'.
Qed.
Lemma widens_denotes t : forall t' p a, wf t -> wf t' -> one_word t = true -> widens t t' -> denotes t p a -> denotes t' p a.
Proof.
  intros t' p a W W' O H D. pose proof (widens_type t t' a W W' O H (denotes_has_type t p a W D)) as T.
  destruct t as [m|m| | |m n|m n|k| | |t|n t|ts]; try discriminate O; destruct t' as [m'|m'| | |m' n'|m' n'|k'| | |t'|n' t'|ts']; try (exfalso; exact H); inv D; inv T; cbn [widens] in H;
    try (constructor; assumption); try (rewrite <- H; constructor; assumption); try (destruct H as [_ <-]; constructor; assumption).
Qed.
Lemma widens_denotes_all t : forall t' p a, wf t -> wf t' -> widens t t' -> denotes t p a -> denotes t' p a.
Proof.
  induction t as [m|m| | |m n|m n|k| | |t IH|n t IH|ts IH] using sty_ind'; intros t' p a W W' H D; try (exact (widens_denotes _ t' p a W W' eq_refl H D));
    destruct t' as [m'|m'| | |m' n'|m' n'|k'| | |t'|n' t'|ts']; try (exfalso; exact H); try exact D; inv W; inv W'; inv D.
  - econstructor; [eassumption|]. take (Forall2 _ _ _) as F. eapply Forall2_weaken; [|exact F]. intros. apply IH; assumption.
  - destruct H as [Hn H]. subst n'. econstructor; [eassumption|reflexivity|]. take (Forall2 _ _ _) as F. eapply Forall2_weaken; [|exact F]. intros. apply IH; assumption.
  - apply widens_tuple in H. econstructor; [eassumption|]. take (Forall3 _ _ _ _) as F. take (Forall wf ts) as Ws. take (Forall wf ts') as Ws'. clear -IH H F Ws Ws'.
    revert ts' H Ws' IH Ws. induction F as [|t x y ts l vs Hx F IHF]; intros ts' H Ws' IH Ws; inv H; [constructor|]. inv IH. inv Ws. inv Ws'. constructor; auto.
Qed.
(** What is read at the wider types is read at the narrower ones exactly if it
    is an argument of those. *)
Theorem decode_narrower w w' types types' ts ts' data b strict q : used false w -> used false w' -> type_args types ts -> type_args types' ts' -> Forall2 widens ts ts' ->
  bytes_like data b -> len b <= maxsize -> decode_in w' types' data strict = Ok q ->
  decode_in w types data strict = Ok q <-> exists a, denotes (STuple ts) q a.
Proof.
  intros U U' T T' F B L H. assert (W := type_args_wf _ _ T). assert (W' := type_args_wf _ _ T'). split.
  - intro H'. rewrite (decode_ok w types ts data b strict q U T B L) in H'. destruct H' as (vs & P & G & ->). exists (VSeq vs).
    assert (Ht : has_type (STuple ts) (VSeq vs)) by (constructor; exact G).
    apply args_canon_denotes; [exact W|exact Ht|]. apply args_py_of_canon; assumption.
  - intros (a & D). rewrite (decode_ok w' types' ts' data b strict q U' T' B L) in H. destruct H as (vs & P & G & ->).
    assert (Ht : has_type (STuple ts') (VSeq vs)) by (constructor; exact G).
    assert (D1 : denotes (STuple ts') (py_of (STuple ts') (VSeq vs)) (VSeq vs)) by (apply args_canon_denotes; [exact W'|exact Ht|]; apply args_py_of_canon; assumption).
    assert (D2 : denotes (STuple ts') (py_of (STuple ts') (VSeq vs)) a).
    { inv D. take (Forall3 _ _ _ _) as F3. econstructor; [eassumption|]. clear -F F3 W W'. revert ts' F W W'. induction F3 as [|t x y ts l vs Hx F3 IHF]; intros ts' H Ws Ws'; inv H; [constructor|].
      inv Ws. inv Ws'. constructor; [eapply widens_denotes_all; [| |eassumption|eassumption]; assumption|auto]. }
    pose proof (denotes_fun _ _ _ _ D1 D2) as E. subst a. pose proof (args_has_type ts _ _ W D) as Ha. inv Ha. take (Forall2 has_type ts vs) as G'.
    apply (decode_ok w types ts data b strict _ U T B L). exists vs. split; [|split; [exact G'|apply py_wider_args; assumption]].
    unfold payload_holds. rewrite (widens_counted_all _ _ F). eapply (proj2 (holds_narrower b)); [exact P|exact F|exact G'].
Qed.

(** ** Text and its UTF-8 *)
Fixpoint raw_val (a : aval) : aval :=
  match a with VStr u => VBytes (utf8 u) | VSeq l => VSeq (map raw_val l) | _ => a end.
Lemma raw_size t : static_size (raw_type t) = static_size t.
Proof.
  induction t as [m|m| | |m n|m n|k| | |t IH|n t IH|ts IH] using sty_ind'; cbn [raw_type static_size]; try reflexivity; [rewrite IH; reflexivity|].
  induction IH as [|t ts H F IH]; [reflexivity|]. cbn [map fold_right]. rewrite H, IH. reflexivity.
Qed.
Lemma raw_counted t : counted (raw_type t) = counted t.
Proof. unfold counted. rewrite raw_dyn. destruct (sdyn t) eqn:D; [reflexivity|]. destruct t; try reflexivity; discriminate D. Qed.
Lemma raw_counted_all ts : counted_all (map raw_type ts) = counted_all ts.
Proof. induction ts as [|t ts IH]; [reflexivity|]. cbn [map counted_all fold_right]. rewrite raw_counted. f_equal. exact IH. Qed.
Lemma raw_word t a : one_word t = true -> has_type t a -> raw_type t = t /\ raw_val a = a.
Proof. intros O H. destruct t; try discriminate O; inv H; split; reflexivity. Qed.
Lemma holds_to_raw buf :
  (forall s t p a, holds buf s t p a -> holds buf s (raw_type t) p (raw_val a))
  /\ (forall s start lo ts p vs, holds_all buf s start lo ts p vs -> holds_all buf s start lo (map raw_type ts) p (map raw_val vs)).
Proof.
  apply (holds_both buf (fun s t p a _ => holds buf s (raw_type t) p (raw_val a))
    (fun s start lo ts p vs _ => holds_all buf s start lo (map raw_type ts) p (map raw_val vs))).
  - intros s t p a O Ht F. destruct (raw_word t a O Ht) as [-> ->]. apply H_word; assumption.
  - intros s p b Hb. apply H_bytes. exact Hb.
  - intros s p u Hu Hb. apply H_bytes. exact Hb.
  - intros s t p vs F M IH. cbn [raw_type raw_val]. rewrite map_repeat in IH. apply H_arr; rewrite len_map; [exact F|]. rewrite map_length. exact IH.
  - intros s n t p vs Ln M IH. cbn [raw_type raw_val]. rewrite map_repeat in IH. apply H_sized; [rewrite len_map; exact Ln|]. rewrite map_length. exact IH.
  - intros s ts p vs M IH. cbn [raw_type raw_val]. apply H_tuple. rewrite raw_counted_all. exact IH.
  - intros. constructor.
  - intros s start lo t ts p a vs D Hh IH1 M IH2. cbn [map]. apply HA_static; [rewrite raw_dyn; exact D|exact IH1|]. rewrite raw_size. exact IH2.
  - intros s start lo t ts p z a vs D F Hz Hb Hh IH1 M IH2. cbn [map]. apply HA_dynamic with (z := z); auto. rewrite raw_dyn. exact D.
Qed.
Lemma holds_of_raw buf :
  (forall s t' p a', holds buf s t' p a' -> forall t a, t' = raw_type t -> a' = raw_val a -> has_type t a -> holds buf s t p a)
  /\ (forall s start lo ts' p vs', holds_all buf s start lo ts' p vs' -> forall ts vs, ts' = map raw_type ts -> vs' = map raw_val vs -> Forall2 has_type ts vs -> holds_all buf s start lo ts p vs).
Proof.
  apply (holds_both buf (fun s t' p a' _ => forall t a, t' = raw_type t -> a' = raw_val a -> has_type t a -> holds buf s t p a)
    (fun s start lo ts' p vs' _ => forall ts vs, ts' = map raw_type ts -> vs' = map raw_val vs -> Forall2 has_type ts vs -> holds_all buf s start lo ts p vs)).
  - intros s t' p a' O Ht F t a -> -> T. assert (Ot : one_word t = true) by (destruct t; try discriminate O; reflexivity).
    destruct (raw_word t a Ot T) as [R1 R2]. rewrite R1, R2 in F. apply H_word; assumption.
  - intros s p b Hb t a Et Ea T. destruct t; try discriminate Et; inv T; cbn [raw_val] in Ea; injection Ea as ->; [apply H_bytes|apply H_string]; assumption.
  - intros s p u Hu Hb t a Et Ea T. destruct t; discriminate Et.
  - intros s t' p vs' F M IH t a Et Ea T. destruct t; try discriminate Et. injection Et as ->. inv T. injection Ea as ->. rewrite len_map in F, IH. rewrite map_length in IH.
    apply H_arr; [exact F|]. apply IH; [symmetry; apply map_repeat|reflexivity|]. apply Forall2_repeat. assumption.
  - intros s n t' p vs' Ln M IH t a Et Ea T. destruct t; try discriminate Et. injection Et as -> ->. inv T. injection Ea as ->. rewrite map_length in IH.
    apply H_sized; [symmetry; apply len_map|]. apply IH; [symmetry; apply map_repeat|reflexivity|]. apply Forall2_repeat. assumption.
  - intros s ts' p vs' M IH t a Et Ea T. destruct t; try discriminate Et. injection Et as ->. inv T. injection Ea as ->. apply H_tuple. rewrite raw_counted_all in IH. apply IH; auto.
  - intros s start lo p ts vs Et Ev T. destruct ts; [|discriminate Et]. inv T. constructor.
  - intros s start lo t' ts' p a' vs' D Hh IH1 M IH2 ts vs Et Ev T. destruct T as [|t a ts vs Ta T]; [discriminate Et|]. injection Et as -> ->. injection Ev as -> ->.
    rewrite raw_dyn in D. rewrite raw_size in IH2. apply HA_static; auto.
  - intros s start lo t' ts' p z a' vs' D F Hz Hb Hh IH1 M IH2 ts vs Et Ev T. destruct T as [|t a ts vs Ta T]; [discriminate Et|]. injection Et as -> ->. injection Ev as -> ->.
    rewrite raw_dyn in D. apply HA_dynamic with (z := z); auto.
Qed.
Lemma py_raw t : forall a, has_type t a -> raw_of t (py_of t a) (py_of (raw_type t) (raw_val a)).
Proof.
  induction t as [m|m| | |m n|m n|k| | |t IH|n t IH|ts IH] using sty_ind'; intros a H; inv H; try (apply R_leaf; exact Logic.I); cbn [raw_type raw_val].
  - apply R_string. assumption.
  - cbn [py_of]. rewrite map_map. apply (R_arr t PTuple); [right; left; reflexivity|]. take (Forall _ l) as F. clear -F IH. induction F; constructor; auto.
  - cbn [py_of]. rewrite map_map. apply (R_sized (len l) t PTuple); [right; left; reflexivity|]. take (Forall _ l) as F. clear -F IH. induction F; constructor; auto.
  - take (Forall2 _ ts l) as F. assert (E : exists qs qs', py_of (STuple ts) (VSeq l) = PTuple qs /\ py_of (STuple (map raw_type ts)) (VSeq (map raw_val l)) = PTuple qs' /\ Forall3 raw_of ts qs qs').
    { revert IH. induction F as [|t x ts l Hx F IHF]; intro IH; [exists [], []; repeat split; constructor|]. inv IH. destruct IHF as (qs & qs' & E1 & E2 & G); [assumption|].
      exists (py_of t x :: qs), (py_of (raw_type t) (raw_val x) :: qs'). cbn [map]. rewrite !py_tuple_cons, E1, E2. repeat split. constructor; auto. }
    destruct E as (qs & qs' & -> & -> & G). apply (R_tuple ts PTuple); [right; left; reflexivity|exact G].
Qed.
Lemma raw_inv t : forall q a', has_type (raw_type t) a' -> raw_of t q (py_of (raw_type t) a') -> exists a, a' = raw_val a /\ has_type t a /\ q = py_of t a.
Proof.
  induction t as [m|m| | |m n|m n|k| | |t IH|n t IH|ts IH] using sty_ind'; intros q a' H R; cbn [raw_type] in H;
    try (exists a'; inv H; inv R; (split; [reflexivity|split; [constructor; first [assumption|reflexivity]|reflexivity]]); fail).
  - inv H. cbn [raw_type py_of] in R. inv R; try (exfalso; assumption). take (Forall scalar _) as Hu. eexists (VStr _). split; [reflexivity|]. split; [constructor; exact Hu|reflexivity].
  - inv H. cbn [raw_type py_of] in R. inv R; try (exfalso; assumption). take (Forall2 _ _ _) as F. take (is_seq _) as K. take (Forall _ l) as T.
    assert (Ek : l' = map (py_of (raw_type t)) l /\ k = PTuple) by (destruct K as [->|[->|(? & ->)]]; [discriminate|split; [congruence|reflexivity]|discriminate]). destruct Ek as [-> ->].
    assert (X : exists vs, l = map raw_val vs /\ Forall (has_type t) vs /\ l0 = map (py_of t) vs).
    { clear -IH F T. revert l0 F. induction T as [|x l Hx T IHT]; intros l0 F; inv F; [exists []; auto|]. take (Forall2 _ _ _) as F. destruct (IHT _ F) as (vs & -> & G & ->).
      take (raw_of t _ _) as Rx. destruct (IH _ _ Hx Rx) as (v & -> & Gv & ->). exists (v :: vs). auto. }
    destruct X as (vs & -> & G & ->). exists (VSeq vs). split; [reflexivity|]. split; [constructor; exact G|reflexivity].
  - inv H. cbn [raw_type py_of] in R. inv R; try (exfalso; assumption). take (Forall2 _ _ _) as F. take (is_seq _) as K. take (Forall _ l) as T.
    assert (Ek : l' = map (py_of (raw_type t)) l /\ k = PTuple) by (destruct K as [->|[->|(? & ->)]]; [discriminate|split; [congruence|reflexivity]|discriminate]). destruct Ek as [-> ->].
    assert (X : exists vs, l = map raw_val vs /\ Forall (has_type t) vs /\ l0 = map (py_of t) vs).
    { clear -IH F T. revert l0 F. induction T as [|x l Hx T IHT]; intros l0 F; inv F; [exists []; auto|]. take (Forall2 _ _ _) as F. destruct (IHT _ F) as (vs & -> & G & ->).
      take (raw_of t _ _) as Rx. destruct (IH _ _ Hx Rx) as (v & -> & Gv & ->). exists (v :: vs). auto. }
    destruct X as (vs & -> & G & ->). exists (VSeq vs). split; [reflexivity|]. split; [constructor; [symmetry; apply len_map|exact G]|reflexivity].
  - inv H. take (Forall2 _ _ l) as T.
    assert (X : forall qs qs', py_of (STuple (map raw_type ts)) (VSeq l) = PTuple qs' -> Forall3 raw_of ts qs qs' ->
      exists vs, l = map raw_val vs /\ Forall2 has_type ts vs /\ py_of (STuple ts) (VSeq vs) = PTuple qs).
    { clear R. revert l T. induction IH as [|t ts Ht IH IHts]; intros l T qs qs' E G; inv T; inv G; [exists []; repeat split; constructor|].
      cbn [map] in E. rewrite py_tuple_cons in E. take (Forall2 _ _ _) as T. match type of E with context [py_of (STuple ?u) ?v] => destruct (py_of (STuple u) v) eqn:E' end; try discriminate E.
      injection E as E1 E2. subst. take (Forall3 _ _ _ _) as G. destruct (IHts _ T _ _ E' G) as (vs & -> & Gv & Q). take (raw_of t _ _) as Rx. take (has_type (raw_type t) _) as Hx.
      destruct (Ht _ _ Hx Rx) as (v & -> & Tv & ->). exists (v :: vs). split; [reflexivity|]. split; [constructor; assumption|]. rewrite py_tuple_cons, Q. reflexivity. }
    destruct (py_of (STuple (map raw_type ts)) (VSeq l)) eqn:E; try discriminate E. cbn [raw_type] in R. rewrite E in R. inv R; try (exfalso; assumption). take (is_seq _) as K.
    match goal with HH : _ = PTuple _ |- _ => destruct K as [->|[->|(? & ->)]]; [discriminate HH| |discriminate HH]; injection HH as -> end.
    take (Forall3 _ _ _ _) as G. destruct (X _ _ eq_refl G) as (vs & -> & Gv & Q). exists (VSeq vs). split; [reflexivity|]. split; [constructor; exact Gv|symmetry; exact Q].
Qed.
Theorem decode_raw w w' types types' ts data b strict q : used false w -> used false w' -> type_args types ts -> type_args types' (map raw_type ts) ->
  bytes_like data b -> len b <= maxsize ->
  decode_in w types data strict = Ok q <-> exists q', decode_in w' types' data strict = Ok q' /\ raw_of (STuple ts) q q'.
Proof.
  intros U U' T T' B L. rewrite (decode_ok w types ts data b strict q U T B L). split.
  - intros (vs & P & G & ->). exists (py_of (STuple (map raw_type ts)) (VSeq (map raw_val vs))). split.
    + apply (decode_ok w' types' _ data b strict _ U' T' B L). exists (map raw_val vs).
      assert (P' : payload_holds b strict (map raw_type ts) (map raw_val vs)) by (unfold payload_holds; rewrite raw_counted_all; apply holds_to_raw; exact P).
      split; [exact P'|]. split; [|reflexivity]. apply (decode_iff w' types' _ data b strict U' T' B L _). exact P'.
    + apply (py_raw (STuple ts) (VSeq vs)). constructor. exact G.
  - intros (q' & H & R). rewrite (decode_ok w' types' _ data b strict q' U' T' B L) in H. destruct H as (vs' & P & G & ->).
    assert (Gt : has_type (raw_type (STuple ts)) (VSeq vs')) by (constructor; exact G).
    destruct (raw_inv (STuple ts) q (VSeq vs') Gt R) as (a & Ea & Ha & ->). inv Ha. injection Ea as ->. take (Forall2 _ ts _) as F.
    exists l. split; [|split; [exact F|reflexivity]]. unfold payload_holds in *. rewrite raw_counted_all in P. eapply (proj2 (holds_of_raw b)); [exact P|reflexivity|reflexivity|exact F].
Qed.

(** ** Tuples and argument lists *)
Lemma cut_app {A} (pre b x y : list A) : pre ++ b = x ++ y -> len pre <= len x -> exists z, x = pre ++ z /\ b = z ++ y.
Proof.
  intros E H. apply app_eq_app in E. destruct E as (z & [[Hp Hy]|[Hx Hb]]); [|exists z; auto].
  exists []. assert (len z = 0) by (rewrite Hp in H; lens; pose proof (len_nonneg z); lia). destruct z; [|lens; pose proof (len_nonneg z); lia].
  rewrite app_nil_r in *. subst. auto.
Qed.
Lemma found_after pre b p x : 0 <= p -> found (pre ++ b) (len pre + p) x <-> found b p x.
Proof.
  intro Hp. unfold found. split.
  - intros (u & v & E & L). destruct (cut_app _ _ _ _ E ltac:(lia)) as (z & -> & ->). exists z, v. split; [reflexivity|]. lens. lia.
  - intros (u & v & -> & L). exists (pre ++ u), v. rewrite app_assoc. split; [reflexivity|]. lens. lia.
Qed.
Lemma holds_bytes_after pre b s p x : 0 <= p -> holds_bytes (pre ++ b) s (len pre + p) x <-> holds_bytes b s p x.
Proof.
  intro Hp. split; intro H; inv H.
  - apply HB_strict. apply (found_after pre b p); assumption.
  - take (pre ++ b = _) as E. destruct (cut_app _ _ _ _ E ltac:(lia)) as (z & -> & ->). apply HB_lenient with (pre := z); [reflexivity| |assumption]. take (len (pre ++ z) = _) as L. lens. lia.
  - apply HB_strict. apply found_after; assumption.
  - apply HB_lenient with (pre := pre ++ pre0); [rewrite <- app_assoc; reflexivity|lens; lia|assumption].
Qed.
Lemma found_pos b p x : found b p x -> 0 <= p.
Proof. intros (u & v & _ & <-). apply len_nonneg. Qed.
Lemma counted_all_pos ts : Forall wf ts -> 0 <= counted_all ts.
Proof. intro W. pose proof (counted_all_ge ts W). pose proof (len_nonneg ts). lia. Qed.
Lemma size_pos t : wf t -> 0 <= static_size t.
Proof.
  induction t as [m|m| | |m n|m n|k| | |t IH|n t IH|ts IH] using sty_ind'; intro W; inv W; cbn [static_size]; try lia; try (take (wf t) as Wt; specialize (IH Wt); nia).
  take (Forall wf ts) as F. revert F. clear -IH. induction IH as [|t ts H IH IHts]; intro F; [reflexivity|]. inv F. cbn [fold_right]. specialize (H ltac:(assumption)). specialize (IHts ltac:(assumption)). lia.
Qed.
Lemma holds_before pre b :
  (forall s t p a, holds b s t p a -> wf t -> 0 <= p -> holds (pre ++ b) s t (len pre + p) a)
  /\ (forall s start lo ts p vs, holds_all b s start lo ts p vs -> Forall wf ts -> 0 <= start -> 0 <= lo -> 0 <= p -> holds_all (pre ++ b) s (len pre + start) lo ts (len pre + p) vs).
Proof.
  apply (holds_both b (fun s t p a _ => wf t -> 0 <= p -> holds (pre ++ b) s t (len pre + p) a)
    (fun s start lo ts p vs _ => Forall wf ts -> 0 <= start -> 0 <= lo -> 0 <= p -> holds_all (pre ++ b) s (len pre + start) lo ts (len pre + p) vs)).
  - intros s t p a O Ht F W Hp. apply H_word; [exact O|exact Ht|]. apply found_after; assumption.
  - intros s p x Hb W Hp. apply H_bytes. apply holds_bytes_after; assumption.
  - intros s p u Hu Hb W Hp. apply H_string; [exact Hu|]. apply holds_bytes_after; assumption.
  - intros s t p vs F M IH W Hp. inv W. apply H_arr; [apply found_after; assumption|]. rewrite <- Z.add_assoc. pose proof (len_nonneg vs). apply IH; try lia. apply Forall_repeat. assumption.
  - intros s n t p vs Ln M IH W Hp. inv W. apply H_sized; [reflexivity|]. apply IH; try lia. apply Forall_repeat. assumption.
  - intros s ts p vs M IH W Hp. inv W. take (Forall wf ts) as Ws. apply H_tuple. pose proof (counted_all_pos ts Ws). apply IH; try lia. exact Ws.
  - intros. constructor.
  - intros s start lo t ts p a vs D Hh IH1 M IH2 W Hs Hl Hp. inv W. take (wf t) as Wt. pose proof (size_pos t Wt). apply HA_static; [exact D|auto|]. rewrite <- Z.add_assoc. apply IH2; auto. lia.
  - intros s start lo t ts p z a vs D F Hz Hb Hh IH1 M IH2 W Hs Hl Hp. inv W. take (wf t) as Wt. apply HA_dynamic with (z := z); [exact D|apply found_after; assumption|exact Hz|lens; lia| |].
    + rewrite <- Z.add_assoc. apply IH1; [exact Wt|lia].
    + rewrite <- Z.add_assoc. apply IH2; auto. lia.
Qed.
Lemma holds_after pre b :
  (forall s t p' a, holds (pre ++ b) s t p' a -> forall p, p' = len pre + p -> wf t -> 0 <= p -> holds b s t p a)
  /\ (forall s start' lo ts p' vs, holds_all (pre ++ b) s start' lo ts p' vs -> forall start p, start' = len pre + start -> p' = len pre + p ->
      Forall wf ts -> 0 <= start -> 0 <= lo -> 0 <= p -> holds_all b s start lo ts p vs).
Proof.
  apply (holds_both (pre ++ b) (fun s t p' a _ => forall p, p' = len pre + p -> wf t -> 0 <= p -> holds b s t p a)
    (fun s start' lo ts p' vs _ => forall start p, start' = len pre + start -> p' = len pre + p -> Forall wf ts -> 0 <= start -> 0 <= lo -> 0 <= p -> holds_all b s start lo ts p vs)).
  - intros s t p' a O Ht F p -> W Hp. apply H_word; [exact O|exact Ht|]. apply (found_after pre b p); assumption.
  - intros s p' x Hb p -> W Hp. apply H_bytes. apply (holds_bytes_after pre b s p); assumption.
  - intros s p' u Hu Hb p -> W Hp. apply H_string; [exact Hu|]. apply (holds_bytes_after pre b s p); assumption.
  - intros s t p' vs F M IH p -> W Hp. inv W. pose proof (len_nonneg vs). apply H_arr; [apply (found_after pre b p); assumption|]. apply IH; try lia. apply Forall_repeat. assumption.
  - intros s n t p' vs Ln M IH p -> W Hp. inv W. apply H_sized; [reflexivity|]. apply IH; try lia. apply Forall_repeat. assumption.
  - intros s ts p' vs M IH p -> W Hp. inv W. take (Forall wf ts) as Ws. apply H_tuple. pose proof (counted_all_pos ts Ws). apply IH; try lia. exact Ws.
  - intros. constructor.
  - intros s start' lo t ts p' a vs D Hh IH1 M IH2 start p -> -> W Hs Hl Hp. inv W. take (wf t) as Wt. pose proof (size_pos t Wt). apply HA_static; [exact D|auto|]. apply IH2; auto; lia.
  - intros s start' lo t ts p' z a vs D F Hz Hb Hh IH1 M IH2 start p -> -> W Hs Hl Hp. inv W. take (wf t) as Wt. lens. apply HA_dynamic with (z := z); [exact D|apply (found_after pre b p); assumption|exact Hz|lia| |].
    + apply IH1; [lia|exact Wt|lia].
    + apply IH2; auto; lia.
Qed.
Lemma holds_static_strict buf s s' start lo ts p vs : existsb sdyn ts = false -> holds_all buf s start lo ts p vs -> holds_all buf s' start lo ts p vs.
Proof.
  intros D H. induction H; [constructor| |]; cbn [existsb] in D; apply orb_false_iff in D; destruct D as [D1 D2]; [|congruence].
  apply HA_static; auto. take (holds _ _ _ _ _) as Hh. inv Hh; try discriminate D1; [apply H_word|apply H_sized|apply H_tuple]; auto.
Qed.
Lemma Forall2_tuple ts l : Forall2 has_type [STuple ts] l <-> exists vs, l = [VSeq vs] /\ Forall2 has_type ts vs.
Proof.
  rewrite Forall2_one. split; [intros (y & -> & H); inv H; eauto|intros (vs & -> & H); eexists; split; [reflexivity|constructor; exact H]].
Qed.
Lemma word_inj y z : 0 <= y < 2 ^ 256 -> 0 <= z < 2 ^ 256 -> word y = word z -> y = z.
Proof. intros Hy Hz E. apply (f_equal from_be) in E. rewrite !from_be_word, !Z.mod_small in E by assumption. exact E. Qed.
Lemma holds_dynamic_len buf s start lo ts p vs : existsb sdyn ts = true -> 0 <= start -> 0 <= lo -> holds_all buf s start lo ts p vs -> 0 < len buf.
Proof.
  intros D Hs Hl H. induction H; [discriminate D| |lia]. cbn [existsb] in D. rewrite H in D. auto.
Qed.
Theorem decode_wrapped_static w w' types s ts data b strict q : used false w -> used false w' -> type_args types ts -> supported s (STuple ts) -> existsb sdyn ts = false ->
  bytes_like data b -> len b <= maxsize ->
  decode_in w (PList [PStr s]) data strict = Ok q <-> exists q', q = PTuple [q'] /\ decode_in w' types data strict = Ok q'.
Proof.
  intros U U' T S D B L. rewrite (decode_ok w _ _ data b strict q U (one_args s _ S) B L).
  assert (E : forall vs, payload_holds b strict [STuple ts] [VSeq vs] <-> payload_holds b strict ts vs).
  { intro vs. unfold payload_holds. split; intro H.
    - inv H; [|cbn [sdyn] in *; congruence]. take (holds _ _ _ _ _) as Hh. inv Hh; try discriminate. eapply holds_static_strict; [exact D|]. eassumption.
    - apply HA_static; [exact D| |constructor]. apply H_tuple. eapply holds_static_strict; [exact D|exact H]. }
  split.
  - intros (l & P & G & ->). apply Forall2_tuple in G. destruct G as (vs & -> & G). exists (py_of (STuple ts) (VSeq vs)). split; [reflexivity|].
    apply (decode_ok w' types ts data b strict _ U' T B L). exists vs. split; [apply E; exact P|split; [exact G|reflexivity]].
  - intros (q' & -> & H). apply (decode_ok w' types ts data b strict _ U' T B L) in H. destruct H as (vs & P & G & ->). exists [VSeq vs].
    split; [apply E; exact P|]. split; [apply Forall2_tuple; eauto|reflexivity].
Qed.
(** A dynamic tuple behind its offset; [mid] is what the offset skips. *)
Theorem decode_wrapped_dynamic w w' types s ts data data' mid b strict q : used false w -> used false w' -> type_args types ts -> supported s (STuple ts) -> existsb sdyn ts = true ->
  bytes_like data (word (32 + len mid) ++ mid ++ b) -> bytes_like data' b -> 32 + len mid + len b <= maxsize ->
  decode_in w (PList [PStr s]) data strict = Ok q <-> exists q', q = PTuple [q'] /\ decode_in w' types data' true = Ok q'.
Proof.
  intros U U' T S D B B' L. pose proof (len_nonneg mid) as Lm. pose proof (len_nonneg b) as Lb. assert (W := type_args_wf _ _ T).
  assert (Lt : len (word (32 + len mid) ++ mid ++ b) <= maxsize) by (lens; rewrite word_len; lia).
  rewrite (decode_ok w _ _ data _ strict q U (one_args s _ S) B Lt).
  assert (E : forall vs, payload_holds (word (32 + len mid) ++ mid ++ b) strict [STuple ts] [VSeq vs] <-> payload_holds b true ts vs).
  { assert (Ct : counted_all [STuple ts] = 1) by (unfold counted_all, counted; cbn [fold_right sdyn]; rewrite D; reflexivity).
    intro vs. unfold payload_holds. pose proof (counted_all_pos ts W) as Cp. set (pre := word (32 + len mid) ++ mid). assert (Lp : len pre = 32 + len mid) by (unfold pre; lens; rewrite word_len; lia).
    replace (word (32 + len mid) ++ mid ++ b) with (pre ++ b) by (unfold pre; rewrite <- app_assoc; reflexivity). split; intro H.
    - inv H; [cbn [sdyn] in *; congruence|]. take (found _ 0 _) as F. take (holds _ _ _ _ _) as Hh. inv Hh; try discriminate.
      assert (z = 32 + len mid).
      { destruct F as (u & v & F & Lu). destruct u; [|lens; pose proof (len_nonneg u); lia]. cbn [app] in F. unfold pre in F. rewrite <- !app_assoc in F.
        apply app_inj_len in F; [|rewrite !word_len; reflexivity]. destruct F as [F _]. symmetry. eapply word_inj; [| |exact F].
        - assert (maxsize < 2 ^ 256) by (unfold maxsize; lia). lia.
        - assert (maxsize < 2 ^ 256) by (unfold maxsize; lia). rewrite Ct in *. lens. lia. }
      subst z. take (holds_all _ _ _ _ ts _ _) as M. eapply (proj2 (holds_after pre b)); [exact M| | |exact W| | |]; lia.
    - assert (Lb' : 0 < len b) by (eapply (holds_dynamic_len b true 0 (32 * counted_all ts) ts); [exact D|lia|lia|exact H]).
      apply HA_dynamic with (z := 32 + len mid); [exact D|exists [], (mid ++ b); split; [unfold pre; rewrite <- app_assoc; reflexivity|reflexivity]|rewrite Ct; lia|rewrite len_app; lia| |constructor].
      apply H_tuple. replace (0 + (32 + len mid)) with (len pre + 0) by lia. apply (proj2 (holds_before pre b)); [exact H|exact W| | |]; lia. }
  split.
  - intros (l & P & G & ->). apply Forall2_tuple in G. destruct G as (vs & -> & G). exists (py_of (STuple ts) (VSeq vs)). split; [reflexivity|].
    apply (decode_ok w' types ts data' b true _ U' T B' ltac:(lia)). exists vs. split; [apply E; exact P|split; [exact G|reflexivity]].
  - intros (q' & -> & H). apply (decode_ok w' types ts data' b true _ U' T B' ltac:(lia)) in H. destruct H as (vs & P & G & ->). exists [VSeq vs].
    split; [apply E; exact P|]. split; [apply Forall2_tuple; eauto|reflexivity].
Qed.
