(** Lemmas for the texts of the messages of decoding. *)
From Coq Require Import Strings.Byte Strings.String.
From Verif Require Import Samples Tac Py Bytes BytesProofs Grammar GrammarSpec GrammarProofs Texts TextSpec TextProofs Codec Histories Spec ReadSpec TypeSpec
  Complaints ComplaintSpec ComplaintProofs ComplaintTexts.
Open Scope N_scope.

(** ** Integers *)
Lemma str_minus z : (z < 0)%Z -> str_of_Z z = 45 :: str_of_Z (- z).
Proof. intro H. unfold str_of_Z. destruct (Z.ltb_spec z 0); [|lia]. destruct (Z.ltb_spec (- z) 0); [lia|reflexivity]. Qed.
Lemma str_zero : str_of_Z 0 = [48]. Proof. reflexivity. Qed.
Lemma numeral_all s n : GrammarSpec.numeral s n -> Forall digit s.
Proof. induction 1 as [c D H|s n c H IH D]; [auto|]. apply Forall_app. auto. Qed.
Lemma numeral_head s n : GrammarSpec.numeral s n -> exists c r, s = c :: r /\ c <> 48 /\ c <> 45.
Proof.
  induction 1 as [c D H|s n c H (c0 & r & -> & A & B) D]; [exists c, []; unfold digit in D; repeat split; [exact H|lia]|].
  exists c0, (r ++ [c]). auto.
Qed.
Lemma str_chars z : Forall (fun c => digit c \/ c = 45) (str_of_Z z).
Proof.
  assert (P : forall z, (1 <= z)%Z -> Forall (fun c => digit c \/ c = 45) (str_of_Z z)).
  { intros y H. eapply Forall_impl; [|exact (numeral_all _ _ (str_numeral y H))]. cbn beta. auto. }
  destruct (Z.lt_trichotomy z 0) as [H|[->|H]]; [|rewrite str_zero; constructor; [left; unfold digit; lia|constructor]|apply P; lia].
  rewrite (str_minus z H). constructor; [right; reflexivity|apply P; lia].
Qed.
Lemma numeral_value s n : GrammarSpec.numeral s n -> forall n', GrammarSpec.numeral s n' -> n = n'.
Proof. intros H n' H'. apply numeral_digits in H, H'. destruct H as (? & ? & _ & _ & _ & ->), H' as (? & ? & _ & _ & _ & ->). reflexivity. Qed.
Lemma str_same z z' : str_of_Z z = str_of_Z z' -> z = z'.
Proof.
  assert (P : forall z z', (1 <= z)%Z -> (1 <= z')%Z -> str_of_Z z = str_of_Z z' -> z = z').
  { intros y y' H H' E. pose proof (str_numeral y H) as A. pose proof (str_numeral y' H') as B. rewrite <- E in B. exact (numeral_value _ _ A _ B). }
  assert (Q : forall z, (1 <= z)%Z -> exists c r, str_of_Z z = c :: r /\ c <> 48 /\ c <> 45).
  { intros y H. exact (numeral_head _ _ (str_numeral y H)). }
  intro E. destruct (Z.lt_trichotomy z 0) as [H|[->|H]], (Z.lt_trichotomy z' 0) as [H'|[->|H']]; try reflexivity;
    try rewrite (str_minus z H) in E; try rewrite (str_minus z' H') in E; rewrite ?str_zero in E.
  - injection E as E. apply P in E; lia.
  - discriminate E.
  - exfalso. destruct (Q z') as (c & r & X & _ & N); [lia|]. rewrite X in E. injection E as E _. congruence.
  - discriminate E.
  - exfalso. destruct (Q z') as (c & r & X & N & _); [lia|]. rewrite X in E. injection E as E _. congruence.
  - exfalso. destruct (Q z) as (c & r & X & _ & N); [lia|]. rewrite X in E. injection E as E _. congruence.
  - exfalso. destruct (Q z) as (c & r & X & N & _); [lia|]. rewrite X in E. injection E as E _. congruence.
  - apply P; [lia|lia|exact E].
Qed.
Lemma str_blank z : ~ In 32 (str_of_Z z).
Proof. intro I. pose proof (proj1 (Forall_forall (fun c => digit c \/ c = 45) _) (str_chars z) 32 I) as H. unfold digit in H. cbn beta in H. lia. Qed.

(** ** Bytes *)
Lemma codes_points b : code_points (codes b).
Proof. apply Forall_forall. intros c I. apply in_map_iff in I. destruct I as (x & <- & _). pose proof (Byte.to_N_bounded x). lia. Qed.
Lemma codes_same b b' : codes b = codes b' -> b = b'.
Proof.
  revert b'. induction b as [|x b IH]; intros [|x' b'] E; try discriminate E; [reflexivity|]. injection E as E E'. f_equal; [|apply IH, E'].
  pose proof (Byte.of_to_N x) as A. pose proof (Byte.of_to_N x') as B. rewrite E in A. congruence.
Qed.
Theorem bytes_literal b : exists u, bytes_repr b = 98 :: u /\ literal u (codes b).
Proof. eexists. split; [reflexivity|]. apply repr_literal, codes_points. Qed.
Lemma bytes_same b b' : bytes_repr b = bytes_repr b' -> b = b'.
Proof.
  intro E. apply app_inv_head in E. apply codes_same. rewrite <- (app_nil_r (repr _ (codes b))), <- (app_nil_r (repr _ (codes b'))) in E.
  apply (repr_left _ _ _ [] []) in E; [apply E|apply codes_points|apply codes_points].
Qed.

(** ** Messages *)
Lemma short_inj k n g k' n' g' : complaint_text (CShort k n g) = complaint_text (CShort k' n' g') -> CShort k n g = CShort k' n' g'.
Proof.
  intro E. apply some_inj in E. apply app_inv_head in E.
  change (lit " bytes, only got ") with (32 :: lit "bytes, only got ") in E. cbn [app] in E.
  apply cut_blank in E; [|apply str_blank|apply str_blank]. destruct E as [A E]. apply str_same in A. subst n'.
  apply app_inv_head in E.
  assert (T : forall k : bool, (if k then lit " bytes" else lit " bytes.") = 32 :: (if k then lit "bytes" else lit "bytes.")) by (intros []; reflexivity).
  rewrite !T in E. apply cut_blank in E; [|apply str_blank|apply str_blank]. destruct E as [A E]. apply str_same in A. subst g'.
  destruct k, k'; try reflexivity; discriminate E.
Qed.
Lemma pointer_inj k l k' l' : complaint_text (CPointer k l) = complaint_text (CPointer k' l') -> CPointer k l = CPointer k' l'.
Proof.
  intro E. apply some_inj in E. destruct k, k'; try (exfalso; strings; discriminate E); apply app_inv_head in E; apply app_inv_tail in E; apply str_same in E; congruence.
Qed.
Theorem complaint_same c c' x : complaint_text c = Some x -> complaint_text c' = Some x -> c = c'.
Proof.
  intros E E'.
  destruct c as [k l|k n g|p|d|e], c' as [k' l'|k' n' g'|p'|d'|e']; try discriminate E; try discriminate E'.
  1: apply pointer_inj; congruence.
  5: apply short_inj; congruence.
  9: { rewrite <- E' in E. apply some_inj in E. apply app_inv_head in E. apply bytes_same in E. congruence. }
  13: { rewrite <- E' in E. apply some_inj in E. apply app_inv_head in E. apply bytes_same in E. congruence. }
  all: exfalso; rewrite <- E' in E; clear E'; apply some_inj in E; repeat match goal with k : bool |- _ => destruct k end; strings; discriminate E.
Qed.

(** The texts are plain ASCII in one line. *)
Definition plain (c : N) : Prop := 32 <= c < 127.
Lemma hex_plain k c : Forall plain (hex_digits k c).
Proof.
  revert c. induction k as [|k IH]; intro c; [constructor|]. cbn [hex_digits]. apply Forall_app. split; [apply IH|]. constructor; [|constructor].
  assert (B : c mod 16 < 16) by (apply N.mod_lt; discriminate). revert B. generalize (c mod 16). intros d B. unfold hex_digit, plain. destruct (N.ltb_spec d 10); lia.
Qed.
Lemma escape_plain_chars q c : q = 39 \/ q = 34 -> Forall plain (escape (fun _ => false) q c).
Proof.
  intro Q. assert (L : forall s, forallb (fun d => (32 <=? d) && (d <? 127)) s = true -> Forall plain s).
  { intros s H. apply Forall_forall. intros d I. pose proof (proj1 (forallb_forall _ _) H d I) as B. cbn beta in B. unfold plain. lia. }
  unfold escape. destruct ((c =? q) || (c =? 92)) eqn:A.
  { apply orb_true_iff in A. rewrite !N.eqb_eq in A. constructor; [unfold plain; lia|]. constructor; [unfold plain; lia|constructor]. }
  repeat match goal with |- Forall plain (if ?b then _ else _) => destruct b eqn:? end;
    try (apply L; reflexivity); try (apply Forall_app; split; [apply L; reflexivity|apply hex_plain]); try discriminate.
  constructor; [unfold plain; lia|constructor].
Qed.
Lemma bytes_plain b : Forall plain (bytes_repr b).
Proof.
  assert (P : plain 98 /\ plain 39 /\ plain 34) by (unfold plain; lia). destruct P as (P1 & P2 & P3).
  change (bytes_repr b) with (98 :: repr (fun _ => false) (codes b)). unfold repr. constructor; [exact P1|]. destruct (quote_cases (codes b)) as [Q|Q]; rewrite Q; (constructor; [assumption|]); apply Forall_app; (split; [|constructor; [assumption|constructor]]); apply Forall_forall; intros c I; apply in_flat_map in I; destruct I as (x & _ & I);
    [pose proof (escape_plain_chars 39 x (or_introl eq_refl)) as F|pose proof (escape_plain_chars 34 x (or_intror eq_refl)) as F];
    exact (proj1 (Forall_forall plain _) F c I).
Qed.
Lemma str_plain z : Forall plain (str_of_Z z).
Proof. eapply Forall_impl; [|apply str_chars]. intros c H. unfold plain, digit in *. lia. Qed.
Lemma lit_plain s : forallb (fun d => (32 <=? d) && (d <? 127)) (lit s) = true -> Forall plain (lit s).
Proof. intro H. apply Forall_forall. intros d I. pose proof (proj1 (forallb_forall _ _) H d I) as B. cbn beta in B. unfold plain. lia. Qed.
Theorem complaint_plain c x : complaint_text c = Some x -> Forall (fun d => 32 <= d < 127) x.
Proof.
  change (complaint_text c = Some x -> Forall plain x).
  intro E. destruct c as [k l|k n g|p|d|e]; [..|discriminate E]; apply some_inj in E; subst x;
    repeat first [apply bytes_plain|apply str_plain|apply Forall_app; split]; try (destruct k); apply lit_plain; reflexivity.
Qed.
(** What the message says, however it is understood, is true of the payload. *)
Theorem text_true w types ts data b strict c x c' : used false w -> type_args types ts -> bytes_like data b -> (len b <= maxsize)%Z ->
  told_in w types data strict = Told c -> complaint_text c = Some x -> complaint_text c' = Some x -> payload_defect b strict ts c'.
Proof. intros U T B L H E E'. rewrite <- (complaint_same c c' x E E'). eapply told_defect; eassumption. Qed.
Theorem told_text w types ts data b strict c : used false w -> type_args types ts -> bytes_like data b -> (len b <= maxsize)%Z ->
  told_in w types data strict = Told c -> (exists x, complaint_text c = Some x) \/ c = COther OverflowError \/ c = COther UnicodeDecodeError.
Proof.
  intros U T B L H. pose proof (told_sensible w types ts data b strict c U T B L H) as S. destruct c; try (left; eexists; reflexivity).
  right. destruct S as [->| ->]; auto.
Qed.
