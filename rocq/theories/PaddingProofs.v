From Coq Require Import Strings.Byte.
From Verif Require Import Tac Py Bytes BytesProofs Padding.
Open Scope Z_scope.

Lemma rjust_fills c b n : exists k, rjust c b n = repeat c k ++ b /\ Z.of_nat k = Z.max 0 (n - len b).
Proof. exists (Z.to_nat (n - len b)). split; [reflexivity|lia]. Qed.
Lemma ljust_fills c b n : exists k, ljust c b n = b ++ repeat c k /\ Z.of_nat k = Z.max 0 (n - len b).
Proof. exists (Z.to_nat (n - len b)). split; [reflexivity|lia]. Qed.
Lemma zpad_fills b n : exists k, zpad b n = repeat x00 k ++ b /\ Z.of_nat k = Z.max 0 (n - len b).
Proof. apply rjust_fills. Qed.
Lemma zpad_right_fills b n : exists k, zpad_right b n = b ++ repeat x00 k /\ Z.of_nat k = Z.max 0 (n - len b).
Proof. apply ljust_fills. Qed.
Lemma fpad_fills b n : exists k, fpad b n = repeat xff k ++ b /\ Z.of_nat k = Z.max 0 (n - len b).
Proof. apply rjust_fills. Qed.
Lemma pads_32 b : exists k, Z.of_nat k = Z.max 0 (32 - len b) /\ zpad32 b = repeat x00 k ++ b /\ zpad32_right b = b ++ repeat x00 k /\ fpad32 b = repeat xff k ++ b.
Proof. exists (Z.to_nat (32 - len b)). split; [lia|]. repeat split. Qed.
Lemma pads_again b n m : n <= m -> zpad (zpad b n) m = zpad b m /\ zpad_right (zpad_right b n) m = zpad_right b m /\ fpad (fpad b n) m = fpad b m.
Proof.
  intro H. destruct (zpad_fills b n) as (k & -> & K). destruct (fpad_fills b n) as (k2 & -> & K2). destruct (zpad_right_fills b n) as (k3 & -> & K3).
  unfold zpad, zpad_right, fpad, rjust, ljust. lens. split; [|split].
  - rewrite app_assoc, <- repeat_app. do 2 f_equal. lia.
  - rewrite <- app_assoc, <- repeat_app. do 2 f_equal. lia.
  - rewrite app_assoc, <- repeat_app. do 2 f_equal. lia.
Qed.
