(** The matchers of registry.py:162-253 as objects whose attributes can be
    assigned to, and PredicateMapping (registry.py:51-159) with them as keys of
    a dict.  Registry.v has the same functions for matchers that stay as they
    are; PropertiesMatchers.v shows when that is right. *)
From Verif Require Import Py Grammar Registry.
Open Scope Z_scope.

(** What the slots of Equals (registry.py:195) and BaseEquals (registry.py:216)
    hold. *)
Inductive attr := AStr (s : pystr) | ABool (b : bool) | ANone.
(** registry.py:176-178 __iter__, [tuple(self)] *)
Definition attributes (k : pred_kind) : list attr :=
  match k with
  | KEquals v => [AStr v]
  | KBaseEquals b w => [AStr b; match w with Some x => ABool x | None => ANone end]
  | _ => []
  end.

(** The objects: what each matcher, known by its identity, is at present. *)
Definition objects := N -> pred_kind.
(** [o.attribute = value], and the creation of an object [o]: from now on it is [k]. *)
Definition assign (st : objects) (o : N) (k : pred_kind) : objects := fun i => if N.eqb i o then k else st i.
(** The matcher as Registry.v sees it. *)
Definition matcher (st : objects) (o : N) : pred := mkPred (st o) (Some o).

Section Hashes.
(** What [hash] gives for tuples and for functions: any two functions, so that
    different tuples may well have the same hash. *)
Context (hash_tuple : list attr -> Z) (hash_function : N -> Z).

(** registry.py:180-181 __hash__; functions are hashed by identity *)
Definition hash_of (st : objects) (o : N) : Z :=
  match st o with
  | KEquals _ | KBaseEquals _ _ => hash_tuple (attributes (st o))
  | _ => hash_function o
  end.

(** ** dict: an entry keeps the hash its key had when it was put in *)
Record slot (V : Type) := mkSlot { s_hash : Z; s_key : N; s_value : V }.
Arguments mkSlot {V} _ _ _.
Arguments s_hash {V} _.
Arguments s_key {V} _.
Arguments s_value {V} _.

(** Looking up [o]: the position found, or none.  Of the entries it comes
    across, the search takes one that is the same object, or has the hash
    stored and is equal ([==], registry.py:183-187).  It is sure to come across
    the entries with the hash stored; it may by chance come across others. *)
Inductive looks {V} (st : objects) (d : list (slot V)) (o : N) : option nat -> Prop :=
| Hit i s : nth_error d i = Some s ->
    s_key s = o \/ s_hash s = hash_of st o /\ pred_eqb (matcher st (s_key s)) (matcher st o) = true ->
    looks st d o (Some i)
| Miss : (forall s, In s d -> s_hash s = hash_of st o -> s_key s <> o /\ pred_eqb (matcher st (s_key s)) (matcher st o) = false) ->
    looks st d o None.
Definition without {A} (i : nat) (l : list A) : list A := firstn i l ++ skipn (S i) l.

(** ** PredicateMapping *)
Record table (V : Type) := mkTable { t_values : list (slot V); t_labels : list (pystr * N) }.
Arguments mkTable {V} _ _.
Arguments t_values {V} _.
Arguments t_labels {V} _.

Definition label_known (ls : list (pystr * N)) (l : pystr) : bool := existsb (fun x => str_eqb (fst x) l) ls.
(** [del self._labeled_predicates[l]] *)
Definition unlabel (ls : list (pystr * N)) (l : pystr) : list (pystr * N) := filter (fun x => negb (str_eqb (fst x) l)) ls.

(** registry.py:63-78 add *)
Inductive adds {V} (st : objects) (t : table V) (o : N) (v : V) (label : option pystr) : result unit -> table V -> Prop :=
| add_known i : looks st (t_values t) o (Some i) -> adds st t o v label (Err ValueError) t
| add_taken l : looks st (t_values t) o None -> label = Some l -> label_known (t_labels t) l = true ->
    adds st t o v label (Err ValueError) t
| add_labelled l : looks st (t_values t) o None -> label = Some l -> label_known (t_labels t) l = false ->
    adds st t o v label (Ok tt) (mkTable (t_values t ++ [mkSlot (hash_of st o) o v]) (t_labels t ++ [(l, o)]))
| add_plain : looks st (t_values t) o None -> label = None ->
    adds st t o v label (Ok tt) (mkTable (t_values t ++ [mkSlot (hash_of st o) o v]) (t_labels t)).

(** registry.py:107-131 remove_by_equality, _label_for_predicate *)
Inductive removes {V} (st : objects) (t : table V) (o : N) : result unit -> table V -> Prop :=
| remove_unknown : looks st (t_values t) o None -> removes st t o (Err KeyError) t
| remove_known i : looks st (t_values t) o (Some i) ->
    removes st t o (Ok tt)
      (mkTable (without i (t_values t))
        match find (fun x => N.eqb (snd x) o) (t_labels t) with
        | Some (l, _) => unlabel (t_labels t) l
        | None => t_labels t
        end).

(** registry.py:133-140 remove_by_label *)
Inductive removes_label {V} (st : objects) (t : table V) (l : pystr) : result unit -> table V -> Prop :=
| label_unknown : find (fun x => str_eqb (fst x) l) (t_labels t) = None -> removes_label st t l (Err KeyError) t
| label_dangling l' o : find (fun x => str_eqb (fst x) l) (t_labels t) = Some (l', o) -> looks st (t_values t) o None ->
    removes_label st t l (Err KeyError) (mkTable (t_values t) (unlabel (t_labels t) l))
| label_removed l' o i : find (fun x => str_eqb (fst x) l) (t_labels t) = Some (l', o) -> looks st (t_values t) o (Some i) ->
    removes_label st t l (Ok tt) (mkTable (without i (t_values t)) (unlabel (t_labels t) l)).

(** registry.py:80-105 find: each matcher is called as it is at present *)
Definition finds {V} (st : objects) (t : table V) (ts : pystr) : outcome V :=
  chosen ts (m_scan (map (fun s => (matcher st (s_key s), s_value s)) (t_values t)) ts).

(** ** Programs *)
Inductive call (V : Type) :=
| CAdd (o : N) (v : V) (label : option pystr)
| CRemove (o : N)
| CRemoveLabel (l : pystr)
| CFind (ts : pystr)
| CAssign (o : N) (k : pred_kind).
Arguments CAdd {V} o v label.
Arguments CRemove {V} o.
Arguments CRemoveLabel {V} l.
Arguments CFind {V} ts.
Arguments CAssign {V} o k.
(** What a call gives: how an update returned, or what was found. *)
Inductive reply (V : Type) := RDone (r : result unit) | RFound (x : outcome V).
Arguments RDone {V} r.
Arguments RFound {V} x.

Definition state (V : Type) : Type := objects * table V.
Inductive step {V} : state V -> call V -> reply V -> state V -> Prop :=
| step_add st t o v label r t' : adds st t o v label r t' -> step (st, t) (CAdd o v label) (RDone r) (st, t')
| step_remove st t o r t' : removes st t o r t' -> step (st, t) (CRemove o) (RDone r) (st, t')
| step_label st t l r t' : removes_label st t l r t' -> step (st, t) (CRemoveLabel l) (RDone r) (st, t')
| step_find st t ts : step (st, t) (CFind ts) (RFound (finds st t ts)) (st, t)
| step_assign st t o k : step (st, t) (CAssign o k) (RDone (Ok tt)) (assign st o k, t).
Inductive steps {V} : state V -> list (call V) -> list (reply V) -> state V -> Prop :=
| steps_nil s : steps s [] [] s
| steps_cons s c a s1 cs as' s2 : step s c a s1 -> steps s1 cs as' s2 -> steps s (c :: cs) (a :: as') s2.
End Hashes.
Arguments mkSlot {V} _ _ _.
Arguments s_hash {V} _.
Arguments s_key {V} _.
Arguments s_value {V} _.
Arguments mkTable {V} _ _.
Arguments t_values {V} _.
Arguments t_labels {V} _.
Arguments CAdd {V} o v label.
Arguments CRemove {V} o.
Arguments CRemoveLabel {V} l.
Arguments CFind {V} ts.
Arguments CAssign {V} o k.
Arguments RDone {V} r.
Arguments RFound {V} x.
