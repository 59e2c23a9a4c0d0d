(** Words for what the matchers of a registry do with a type string. *)
From Verif Require Import Py Bytes Grammar Registry.

(** The matcher answers yes; it raises. *)
Definition hit (p : pred) (ts : pystr) : bool := match pred_call p ts with Done b => b | Raised _ _ => false end.
Definition raising (p : pred) (ts : pystr) : bool := match pred_call p ts with Done _ => false | Raised _ _ => true end.
(** No matcher of the mapping raises. *)
Definition none_raises {V} (m : mapping V) (ts : pystr) : Prop := forall p v, In (p, v) (m_values m) -> raising p ts = false.
(** The first exception, in the order of registration. *)
Fixpoint first_raise {V} (l : list (pred * V)) (ts : pystr) : option (exc * result bool) :=
  match l with
  | [] => None
  | (p, _) :: l' => match pred_call p ts with Raised e says => Some (e, says) | Done _ => first_raise l' ts end
  end.

(** The exception a lookup of [s] ends with if a matcher raised [e], where
    [says] is the result of the test ["No matching" in e.args[0]]. *)
Inductive surfaces (s : pystr) (e : exc) (says : result bool) : exc -> Prop :=
(* not a ValueError: passed on *)
| S_other : is_value_error e = false -> surfaces s e says e
(* a ValueError about something else: passed on *)
| S_silent : is_value_error e = true -> says = Ok false -> surfaces s e says e
(* a ValueError whose text contains "No matching" is taken for that of find:
   a malformed type string is reported first *)
| S_parsed t : is_value_error e = true -> says = Ok true -> parse s = Ok t -> surfaces s e says e
| S_malformed x : is_value_error e = true -> says = Ok true -> parse s = Err x -> surfaces s e says x
(* a ValueError without arguments, or with one that is no string: the test
   itself raises *)
| S_odd x : is_value_error e = true -> says = Err x -> surfaces s e says x.
(** The matcher [p] is the first of the registrations [l] that raises on [s]. *)
Definition first_to_raise {V} (l : list (pred * V)) (s : pystr) (p : pred) (e : exc) (says : result bool) : Prop :=
  exists l1 v l2, l = l1 ++ (p, v) :: l2 /\ (forall q u, In (q, u) l1 -> raising q s = false) /\ pred_call p s = Raised e says.
