(** abbr. *)
From Coq Require Import Strings.String Lia.
From Verif Require Import Tac Py Bytes BytesProofs Abbr.
Open Scope Z_scope.

Theorem abbr_short rep limit : len rep <= limit -> abbr rep limit = Ok rep.
Proof. intro H. unfold abbr. destruct (Z.ltb_spec limit (len rep)); [lia|reflexivity]. Qed.
Theorem abbr_long a b limit : len a = limit - 3 -> 3 < len b -> abbr (a ++ b) limit = Ok (a ++ lit "...").
Proof.
  intros A B. pose proof (len_nonneg a). unfold abbr. rewrite len_app. replace (limit <? len a + len b) with true by lia.
  replace (limit <? 3) with false by lia. rewrite take_z_app by lia. reflexivity.
Qed.
Theorem abbr_fits rep limit r : abbr rep limit = Ok r -> len r = Z.min limit (len rep).
Proof.
  unfold abbr. destruct (Z.ltb_spec limit (len rep)).
  - destruct (Z.ltb_spec limit 3); [discriminate|]. intro E. inv E. rewrite len_app, len_take_z by lia. change (len (lit "...")) with 3. lia.
  - intro E. inv E. lia.
Qed.
Theorem abbr_error rep limit x : abbr rep limit = Err x <-> x = ValueError /\ limit < 3 /\ limit < len rep.
Proof.
  unfold abbr. destruct (Z.ltb_spec limit (len rep)); [destruct (Z.ltb_spec limit 3)|]; split; intro E; try discriminate; try lia.
  - inv E. auto.
  - destruct E as (-> & _). reflexivity.
Qed.
Theorem abbr_default_ok rep : exists r, abbr_default rep = Ok r /\ len r <= 79.
Proof.
  destruct (abbr_default rep) as [r|x] eqn:E; [|apply abbr_error in E; lia]. exists r. split; [reflexivity|]. apply abbr_fits in E. lia.
Qed.
