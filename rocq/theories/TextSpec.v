(** What a Python string literal denotes; which matchers have a repr of their
    own; when two messages mean the same. *)
From Coq Require Import Strings.String.
From Verif Require Import Py Grammar Registry Notices.
Open Scope N_scope.

(** ** String literals *)

Definition digit_value (d : N) : option N :=
  if (48 <=? d) && (d <=? 57) then Some (d - 48)
  else if (65 <=? d) && (d <=? 70) then Some (d - 55)
  else if (97 <=? d) && (d <=? 102) then Some (d - 87)
  else None.
(** [ds] are the hexadecimal digits of [c]. *)
Inductive numeral : pystr -> N -> Prop :=
| NU_nil : numeral [] 0
| NU_snoc ds c d v : numeral ds c -> digit_value d = Some v -> numeral (ds ++ [d]) (16 * c + v).
(** The text [t] between quotes [q] denotes [s]. *)
Inductive spells (q : N) : pystr -> pystr -> Prop :=
| SP_nil : spells q [] []
| SP_char c t s : c <> q -> c <> 92 -> c <> 10 -> spells q t s -> spells q (c :: t) (c :: s)
| SP_sign e c t s : In (e, c) [(92, 92); (39, 39); (34, 34); (110, 10); (114, 13); (116, 9)] ->
    spells q t s -> spells q (92 :: e :: t) (c :: s)
| SP_code x k ds c t s : In (x, k) [(120, 2%nat); (117, 4%nat); (85, 8%nat)] -> length ds = k -> numeral ds c ->
    spells q t s -> spells q (92 :: x :: ds ++ t) (c :: s).
Inductive literal : pystr -> pystr -> Prop :=
| LI q t s : q = 39 \/ q = 34 -> spells q t s -> literal (q :: t ++ [q]) s.

Definition code_points (s : pystr) : Prop := Forall (fun c => c < 1114112) s.

(** ** Matchers *)

(** An Equals or BaseEquals with strings of characters. *)
Definition telling (p : pred) : Prop :=
  match pkind p with KEquals v => code_points v | KBaseEquals b _ => code_points b | _ => False end.
(** The same class with the same attributes (they are equal in Python). *)
Definition alike (p p' : pred) : Prop := pkind p = pkind p'.

Definition library (p : pred) : Prop := (exists v, pkind p = KEquals v) \/ (exists b w, pkind p = KBaseEquals b w).

(** ** Messages *)

Definition inside (w s : pystr) : Prop := exists a b, s = a ++ w ++ b.

(** Characters only, matchers where there should be some, only matchers that show their attributes, and no blank in
    the name of a class. *)
Definition telling_notice (n : notice) : Prop :=
  match n with
  | MatcherTaken _ p | LabelTaken _ p _ | MatcherMissing _ p => telling p
  | ManyMatch _ _ ps => ps <> [] /\ Forall telling ps
  | Misfit c ts normal _ => ~ In 32 (lit c) /\ code_points ts /\ match normal with Some n => code_points n | None => True end
  | _ => True
  end.
(** Same table, same label or type string, matchers that are alike. *)
Definition same_notice (n n' : notice) : Prop :=
  match n, n' with
  | MatcherTaken t p, MatcherTaken t' p' | MatcherMissing t p, MatcherMissing t' p' => t = t' /\ alike p p'
  | LabelTaken t p l, LabelTaken t' p' l' => t = t' /\ alike p p' /\ l = l'
  | NoMatch t ts, NoMatch t' ts' => t = t' /\ ts = ts'
  | LabelMissing t l, LabelMissing t' l' => t = t' /\ l = l'
  | ManyMatch t ts ps, ManyMatch t' ts' ps' => t = t' /\ ts = ts' /\ Forall2 alike ps ps'
  | Misfit c ts normal why, Misfit c' ts' normal' why' => lit c = lit c' /\ ts = ts' /\ normal = normal' /\ why = why'
  | _, _ => False
  end.
