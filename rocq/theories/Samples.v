(** Helpers for the concrete cases shown beside the property theorems. *)
From Coq Require Import Strings.Byte Strings.String.
From Verif Require Import Tac Bytes Grammar Encoding Decoding Registry Codec Histories Spec TypeSpec LookupProofs TypeProofs HistoryProofs.
Open Scope Z_scope.

(** The fresh states of the module-level registries. *)
Definition start : world := (standard_registry false, []).
Definition start_packed : world := (standard_registry true, []).
Lemma start_used : used false start. Proof. exact (used_fresh false). Qed.
Lemma start_packed_used : used true start_packed. Proof. exact (used_fresh true). Qed.

(** The type a string names, computed. *)
Definition type_of (s : pystr) : option sty :=
  match parse s with Ok T => match lookup_sty T with Ok t => Some t | _ => None end | _ => None end.
Lemma type_of_ok s t : type_of s = Some t -> supported s t.
Proof.
  unfold type_of. intro H. apply supported_iff. destruct (parse s) as [T|]; [|discriminate]. exists T. split; [reflexivity|].
  destruct (lookup_sty T); congruence.
Qed.
Lemma types_ok ss ts : map type_of ss = map Some ts -> type_args (PList (map PStr ss)) ts.
Proof.
  intro H. exists ss. split; [left; reflexivity|]. revert ts H. induction ss as [|s ss IH]; intros [|t ts] H; inv H; constructor; auto.
  apply type_of_ok. assumption.
Qed.
(** A list of type strings as passed to the API. *)
Definition types (ss : list string) : pyval := PList (map PStr (map lit ss)).
Lemma types_are ss ts : map type_of (map lit ss) = map Some ts -> type_args (types ss) ts.
Proof. apply types_ok. Qed.

(** Decimals: [dec (-15) (-2)] is Decimal("-0.15"). *)
Definition dec (z e : Z) : pyval := PDec (DFin (z <? 0) (Z.to_N (Z.abs z)) e).
Definition str (s : string) : pyval := PStr (lit s).
Arguments str s%string.
Definition raw (s : string) : bytes := list_byte_of_string s.
Arguments raw s%string.

Ltac sample_types := apply types_are; lazy; reflexivity.
Ltac sample_type := apply type_of_ok; lazy; reflexivity.
Ltac in_range := split; [apply Z.leb_le|apply Z.ltb_lt]; lazy; reflexivity.
