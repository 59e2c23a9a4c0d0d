(** Argument lists (possibly empty), and functionality of [denotes]. *)
From Coq Require Import Strings.Byte Strings.String.
From Verif Require Import Tac Bytes BytesProofs Address AddressProofs Decimals DecimalsProofs Encoding Spec TypeSpec EncLeafProofs EncodeProofs AcceptProofs EncOkProofs
  DecLeafProofs DecodeProofs ReaderProofs DecodeFacts2 ApiProofs.
Open Scope Z_scope.

(** ** [denotes] is functional *)
Lemma scaled_fun d n z z' : scaled d n z -> scaled d n z' -> z = z'.
Proof.
  destruct d as [neg c e|b|]; cbn [scaled]; try tauto. unfold scaled_cmp. cbv zeta. set (s := if neg then _ else _). clearbody s.
  destruct (Z.leb_spec 0 (e + n)); rewrite !Z.compare_eq_iff; intros A B; [congruence|].
  pose proof (Z.pow_pos_nonneg 10 (- (e + n)) ltac:(lia) ltac:(lia)). nia.
Qed.
Lemma num_scaled_fun p n z z' : num_scaled p n z -> num_scaled p n z' -> z = z'.
Proof. destruct p; cbn [num_scaled]; try tauto; try congruence. apply scaled_fun. Qed.
Lemma bytes_like_fun p b b' : bytes_like p b -> bytes_like p b' -> b = b'.
Proof. intros [->| ->] [H|H]; congruence. Qed.
Lemma seq_like_fun p l l' : seq_like p l -> seq_like p l' -> l = l'.
Proof. intros [->|[->|(r & ->)]] [H|[H|(r' & H)]]; congruence. Qed.
Lemma not_bytes_like s b : ~ bytes_like (PStr s) b.
Proof. intros [H|H]; discriminate H. Qed.
Theorem denotes_fun t : forall p a a', denotes t p a -> denotes t p a' -> a = a'.
Proof.
  induction t as [m|m| | |m n|m n|k| | |t IH|n t IH|ts IH] using sty_ind'; intros p a a' D D'; inv D; inv D'; try reflexivity.
  - f_equal. eapply bytes_like_fun; eassumption.
  - exfalso. eapply not_bytes_like; eassumption.
  - exfalso. eapply not_bytes_like; eassumption.
  - f_equal. eapply address_text_unique; eassumption.
  - f_equal. eapply num_scaled_fun; eassumption.
  - f_equal. eapply num_scaled_fun; eassumption.
  - assert (b = b0) by (eapply bytes_like_fun; eassumption). subst. reflexivity.
  - f_equal. eapply bytes_like_fun; eassumption.
  - assert (l = l0) by (eapply seq_like_fun; eassumption). subst l0. f_equal. take (Forall2 (denotes t) l vs) as F. take (Forall2 (denotes t) l vs0) as F'.
    clear -IH F F'. revert vs0 F'. induction F; intros vs0 F'; inv F'; f_equal; eauto.
  - assert (l = l0) by (eapply seq_like_fun; eassumption). subst l0. f_equal. take (Forall2 (denotes t) l vs) as F. take (Forall2 (denotes t) l vs0) as F'.
    clear -IH F F'. revert vs0 F'. induction F; intros vs0 F'; inv F'; f_equal; eauto.
  - assert (l = l0) by (eapply seq_like_fun; eassumption). subst l0. f_equal. take (Forall3 denotes ts l vs) as F. take (Forall3 denotes ts l vs0) as F'.
    clear -IH F F'. revert vs0 F'. induction F; intros vs0 F'; inv F'; f_equal; inv IH; eauto.
Qed.

(** ** Argument lists *)
Lemma args_has_type ts p a : Forall wf ts -> denotes (STuple ts) p a -> has_type (STuple ts) a.
Proof.
  intros W D. destruct (wf_args ts W) as [->|W']; [|eapply denotes_has_type; eassumption].
  inv D. take (Forall3 _ _ _ _) as F. inv F. constructor. constructor.
Qed.
Lemma args_denotes_seq ts p a : denotes (STuple ts) p a -> exists l vs, seq_like p l /\ a = VSeq vs.
Proof. intro D. inv D. eauto. Qed.
Lemma args_encodes pk ts p a : Forall wf ts -> denotes (STuple ts) p a -> encodes pk (STuple ts) p a.
Proof.
  intros W D. destruct (wf_args ts W) as [->|W']; [|apply denotes_encodes; assumption].
  inv D. take (Forall3 _ _ _ _) as F. inv F. destruct (empty_args pk p) as [(S & V & E)|(S & _)]; [|contradiction].
  split; [exact V|]. intros _. rewrite E. destruct pk; reflexivity.
Qed.
Lemma args_good pk ts p b : Forall wf ts -> encode_with (enc_of pk (STuple ts)) p = Ok b -> enc_good pk (STuple ts) p b.
Proof.
  intros W E. destruct (wf_args ts W) as [->|W']; [|eapply encode_good; eassumption].
  destruct (empty_args pk p) as [(S & V & E')|(S & N)].
  - rewrite E' in E. inv E. split; [exact V|]. destruct (seq_like_items p [] S) as (I & _). split; [rewrite leaves_tuple, I; constructor|].
    intros a D. inv D. take (Forall3 _ _ _ _) as F. inv F. destruct pk; reflexivity.
  - exfalso. unfold encode_with in E. cbn [enc_of ve snd] in E. bok E. destruct x. change (validate_value (enc_of pk (STuple [])) p = Ok tt) in Hx.
    destruct N as [[N _]|N]; congruence.
Qed.
Lemma args_validate_denotes pk ts p : Forall wf ts -> validate_value (enc_of pk (STuple ts)) p = Ok tt ->
  leaves exact_leaf (STuple ts) p -> leaves scalar_leaf (STuple ts) p -> exists a, denotes (STuple ts) p a.
Proof.
  intros W V X S. destruct (wf_args ts W) as [->|W']; [|eapply validate_denotes; eassumption].
  destruct (empty_args pk p) as [(L & _)|(L & N)].
  - exists (VSeq []). econstructor; [exact L|constructor].
  - exfalso. destruct N as [[N _]|N]; congruence.
Qed.
(** A successful encode of an exact argument list. *)
Theorem args_encoded pk ts p b : Forall wf ts -> encode_with (enc_of pk (STuple ts)) p = Ok b -> leaves exact_leaf (STuple ts) p ->
  exists a, denotes (STuple ts) p a /\ len b = len (out pk (STuple ts) a) /\ (len b < 2 ^ 256 -> b = out pk (STuple ts) a).
Proof.
  intros W E X. destruct (args_good pk ts p b W E) as (V & S & L). destruct (args_validate_denotes pk ts p W V X S) as [a D].
  exists a. split; [exact D|]. split; [apply L; exact D|]. intro H. destruct (args_encodes pk ts p a W D) as [_ H'].
  rewrite (L a D) in H. rewrite (H' H) in E. inv E. reflexivity.
Qed.
Lemma args_validate_class pk ts p : Forall wf ts -> vclass (validate_value (enc_of pk (STuple ts)) p).
Proof.
  intro W. destruct (wf_args ts W) as [->|W']; [|apply validate_class; exact W'].
  destruct (empty_args pk p) as [(_ & -> & _)|(_ & [[-> _]| ->])]; [apply vclass_ok| |]; apply vclass_err; unfold vexc; tauto.
Qed.
Lemma args_outcome pk ts p : Forall wf ts -> validate_value (enc_of pk (STuple ts)) p = Ok tt -> fits p ->
  outcome (leaves scalar_leaf (STuple ts) p) (py_size p) (encode_with (enc_of pk (STuple ts)) p).
Proof.
  intros W V F. destruct (wf_args ts W) as [->|W']; [|apply validate_encode; assumption].
  destruct (empty_args pk p) as [(S & _ & E)|(_ & N)]; [|destruct N as [[N _]|N]; congruence].
  left. exists []. split; [exact E|]. pose proof (py_size_ge p). split; [lens; lia|]. destruct (seq_like_items p [] S) as (I & _). rewrite leaves_tuple, I. constructor.
Qed.
Lemma args_py_of_canon ts a : Forall wf ts -> has_type (STuple ts) a -> canon (STuple ts) a (py_of (STuple ts) a).
Proof.
  intros W T. destruct (wf_args ts W) as [->|W']; [|apply py_of_canon; assumption].
  inv T. take (Forall2 _ _ _) as F. inv F. constructor. constructor.
Qed.
Lemma args_canon_denotes ts a q : Forall wf ts -> has_type (STuple ts) a -> canon (STuple ts) a q -> denotes (STuple ts) q a.
Proof.
  intros W T C. destruct (wf_args ts W) as [->|W']; [|apply canon_denotes; assumption].
  inv C. take (Forall3 _ _ _ _) as F. inv F. econstructor; [right; left; reflexivity|constructor].
Qed.

(** A validated tuple fails to encode only in validation or in a string. *)
Lemma encode_validate_err pk ts p e : validate_value (enc_of pk (STuple ts)) p = Err e -> encode_with (enc_of pk (STuple ts)) p = Err e.
Proof.
  unfold validate_value, encode_with. cbn [enc_of ve fst snd]. intro H. rewrite H. reflexivity.
Qed.

(** ** One argument *)
Definition one (p : pyval) : pyval := PList [p].
Lemma one_args s t : supported s t -> type_args (PList [PStr s]) [t].
Proof. intro S. exists [s]. split; [left; reflexivity|constructor; [exact S|constructor]]. Qed.
Lemma denotes_one t p a : denotes (STuple [t]) (PList [p]) a <-> exists x, a = VSeq [x] /\ denotes t p x.
Proof.
  split.
  - intro D. inv D. take (seq_like _ _) as S. destruct S as [S|[S|(? & S)]]; inv S. take (Forall3 _ _ _ _) as F. inv F.
    take (Forall3 _ [] [] _) as F. inv F. eauto.
  - intros (x & -> & D). econstructor; [left; reflexivity|]. constructor; [exact D|constructor].
Qed.
Lemma validate_one pk t p : wf t -> validate_value (enc_of pk (STuple [t])) (PList [p]) = validate_value (enc_of pk t) p.
Proof.
  intro W. change (enc_of pk (STuple [t])) with (ETuple (map (enc_of pk) [t])). rewrite validate_tuple by (repeat constructor; exact W).
  unfold tuple_val. cbn [is_list_like negb items map]. replace (len [p] =? len [validate_value (enc_of pk t)]) with true by reflexivity. cbn [negb seq_validate].
  destruct (validate_value (enc_of pk t) p) as [[]|e]; reflexivity.
Qed.
