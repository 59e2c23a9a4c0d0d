(** Property theorems about the padding functions: C78. *)
From Coq Require Import Strings.Byte Strings.String.
From Verif Require Import Tac Py Bytes Padding PaddingProofs.
Open Scope string_scope. Open Scope list_scope. Open Scope Z_scope.
Local Transparent len.

Theorem C78_zpad : forall b n, exists k, zpad b n = repeat x00 k ++ b /\ Z.of_nat k = Z.max 0 (n - len b).
Proof. exact zpad_fills. Qed.
Print Assumptions C78_zpad.
Theorem C78_zpad_right : forall b n, exists k, zpad_right b n = b ++ repeat x00 k /\ Z.of_nat k = Z.max 0 (n - len b).
Proof. exact zpad_right_fills. Qed.
Print Assumptions C78_zpad_right.
Theorem C78_fpad : forall b n, exists k, fpad b n = repeat xff k ++ b /\ Z.of_nat k = Z.max 0 (n - len b).
Proof. exact fpad_fills. Qed.
Print Assumptions C78_fpad.
Theorem C78_pads_32 : forall b, exists k, Z.of_nat k = Z.max 0 (32 - len b)
  /\ zpad32 b = repeat x00 k ++ b /\ zpad32_right b = b ++ repeat x00 k /\ fpad32 b = repeat xff k ++ b.
Proof. exact pads_32. Qed.
Print Assumptions C78_pads_32.
Theorem C78_again : forall b n m, n <= m ->
  zpad (zpad b n) m = zpad b m /\ zpad_right (zpad_right b n) m = zpad_right b m /\ fpad (fpad b n) m = fpad b m.
Proof. exact pads_again. Qed.
Print Assumptions C78_again.
Example C78_sample : zpad [x01; x02] 4 = [x00; x00; x01; x02] /\ zpad_right [x01; x02] 4 = [x01; x02; x00; x00]
  /\ fpad [x01; x02] 4 = [xff; xff; x01; x02] /\ zpad [x01; x02] 1 = [x01; x02] /\ len (zpad32 [x01]) = 32.
Proof. repeat split. Qed.
