(** Which fault is told. *)
From Verif Require Import Tac Py Bytes Encoding Decoding Construct Faults FaultSpec FaultProofs.
Open Scope Z_scope.

Definition bad (c : cls) (o : instance) (g : fault) : Prop :=
  match g with
  | Unknown _ | Elsewhere _ => False
  | Missing k => required c k /\ o k = ANone
  | NotBytes _ => sized c /\ exists z, num (o KValueBitSize) = Ok z /\ z mod 8 <> 0
  | TooWide => sized c /\ exists b d, num (o KValueBitSize) = Ok b /\ num (o KDataByteSize) = Ok d /\ 8 * d < b
  | Places => fractional c /\ exists n, num (o KFracPlaces) = Ok n /\ (n <= 0 \/ 80 < n)
  | Not160 => In c [NAddrEnc; NPackedAddrEnc] /\ exists b, num (o KValueBitSize) = Ok b /\ b <> 160
  end.
Ltac faults H :=
  repeat match type of H with
  | fbind _ _ = Faulty _ => apply bind_faulty in H; destruct H as [H|(? & ? & H)]
  | validate_sizes_told _ _ = Faulty _ => unfold validate_sizes_told in H
  | validate_number_told _ = Faulty _ => unfold validate_number_told in H
  | validate_frac_told _ = Faulty _ => unfold validate_frac_told in H
  end;
  lazymatch type of H with
  | need _ _ = Faulty _ => apply need_faulty in H; destruct H as (-> & ?)
  | fault_if _ _ = Faulty _ => apply if_faulty in H; destruct H as (-> & ?)
  | silently _ = Faulty _ => apply silently_faulty in H; destruct H as (? & -> & ?)
  | _ => idtac
  end.
Ltac nums := repeat match goal with A : num ?x = Ok _, B : num ?x = Ok _ |- _ => rewrite A in B; injection B as <- end.
Lemma first_bad c o f g : validate_told c o = Faulty f -> (forall e, f <> Elsewhere e) -> bad c o g -> (rank f <= rank g)%nat.
Proof.
  intros H N B.
  destruct c; cbn [validate_told] in H; try discriminate H; faults H; try (exfalso; exact (N _ eq_refl)); clear N; opens; cbn [rank];
    destruct g as [k|k|a| | | |e]; cbn [bad] in B; try contradiction; try (destruct k);
    try (apply Nat.leb_le; reflexivity); exfalso; destruct B as (R & B);
    try (match goal with P : o ?k <> ANone, Q : o ?k = ANone |- _ => exact (P Q) end);
    try (unfold sized, fractional in R; cbn in R; repeat destruct R as [R|R]; first [discriminate R | contradiction]);
    try congruence;
    try (destruct B as (z & B & M); nums; lia);
    try (destruct B as (z & d & B & B' & M); nums; lia);
    try (inversion R as [c' k' X K|c' X E|c' X E| |c' k' X K|c' X| |c' X| | | |c' X]; subst; unfold sized, fractional, numeric in *;
         try discriminate; cbn in X; try (cbn in K; repeat destruct K as [K|K]; try discriminate K; try contradiction);
         repeat destruct X as [X|X]; first [discriminate X | contradiction]).
Qed.
Theorem told_first c kw f g : NoDup (map fst kw) -> construct_told c kw = Faulty f -> (forall e, f <> Elsewhere e) -> amiss c kw g -> (rank f <= rank g)%nat.
Proof.
  intros D H N A. unfold construct_told in H. apply bind_faulty in H. destruct H as [H|(o & O & H)].
  { apply set_faulty in H. destruct H as (k & -> & _). apply Nat.le_0_l. }
  apply bind_faulty in H. destruct H as [H|(u & _ & H)]; [|apply silently_faulty in H; destruct H as (e & -> & _); destruct (N e eq_refl)].
  apply (first_bad c o f g H N).
  inversion A as [k I C|k R X|a z S X Z M|b d S B X L|n S X L|b S B L]; subst; cbn [bad].
  - destruct (set_unknown c kw (fresh c) k I (proj2 (named_attr c k) C)) as (q & Q). congruence.
  - split; [exact R|exact (has_one _ _ _ _ _ D O X)].
  - split; [exact S|]. exists z. rewrite (has_one _ _ _ _ _ D O X). auto.
  - split; [exact S|]. exists b, d. split; [exact (has_num _ _ _ _ _ D O B)|]. split; [exact (has_num _ _ _ _ _ D O X)|exact L].
  - split; [exact S|]. exists n. split; [exact (has_num _ _ _ _ _ D O X)|exact L].
  - split; [exact S|]. exists b. split; [exact (has_num _ _ _ _ _ D O B)|exact L].
Qed.
