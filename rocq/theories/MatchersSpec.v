(** Programs that leave registered matchers as they are, what they do according
    to Registry.v, and registries after an assignment to a matcher. *)
From Verif Require Import Py Grammar Encoding Decoding Registry Matchers.
Open Scope Z_scope.

(** has_arrlist and is_base_tuple are one object each (those that
    [l_has_arrlist] and [l_is_base_tuple] name). *)
Definition single (o : N) (k : pred_kind) : Prop := (k = KHasArrlist -> o = 100%N) /\ (k = KIsBaseTuple -> o = 101%N).
Definition singles (st : objects) : Prop := forall o, single o (st o).
(** ... also among the objects that the program makes *)
Definition proper {V} (c : call V) : Prop := match c with CAssign o k => single o k | _ => True end.

(** No object is assigned to once it has been passed to add ([used]: those that
    have been). *)
Fixpoint keeps_matchers {V} (used : list N) (cs : list (call V)) : Prop :=
  match cs with
  | [] => True
  | CAssign o _ :: cs' => ~ In o used /\ keeps_matchers used cs'
  | CAdd o _ _ :: cs' => keeps_matchers (o :: used) cs'
  | _ :: cs' => keeps_matchers used cs'
  end.

(** The same program for the mapping of Registry.v *)
Definition plain_step {V} (st : objects) (m : mapping V) (c : call V) : reply V * (objects * mapping V) :=
  match c with
  | CAdd o v label => let '(r, m') := m_add m (matcher st o) v label in (RDone r, (st, m'))
  | CRemove o => let '(r, m') := m_remove_by_equality m (matcher st o) in (RDone r, (st, m'))
  | CRemoveLabel l => let '(r, m') := m_remove_by_label m l in (RDone r, (st, m'))
  | CFind ts => (RFound (m_find m ts), (st, m))
  | CAssign o k => (RDone (Ok tt), (assign st o k, m))
  end.
Fixpoint plain_steps {V} (st : objects) (m : mapping V) (cs : list (call V)) : list (reply V) * (objects * mapping V) :=
  match cs with
  | [] => ([], (st, m))
  | c :: cs' =>
      let '(a, (st1, m1)) := plain_step st m c in
      let '(as', s) := plain_steps st1 m1 cs' in (a :: as', s)
  end.
(** A table as Registry.v sees it *)
Definition seen {V} (st : objects) (t : table V) : mapping V :=
  mkMapping (map (fun s => (matcher st (s_key s), s_value s)) (t_values t))
            (map (fun x => (fst x, matcher st (snd x))) (t_labels t)).

(** A state some such program reaches *)
Definition reached {V} ht hf (st : objects) (t : table V) : Prop :=
  exists st0 cs replies, singles st0 /\ Forall proper cs /\ keeps_matchers [] cs
    /\ steps ht hf (st0, mkTable [] []) cs replies (st, t).

(** Equals and BaseEquals, the matchers that have attributes *)
Definition has_attributes (k : pred_kind) : Prop := match k with KEquals _ | KBaseEquals _ _ => True | _ => False end.

(** Calls that do not mention the object [o] *)
Definition leaves {V} (o : N) (c : call V) : Prop :=
  match c with
  | CAdd x _ _ | CRemove x | CAssign x _ => x <> o
  | CRemoveLabel _ | CFind _ => True
  end.

(** A registry after an assignment to the attributes of the matcher [o]; the
    caches are not told (registry.py:280-296 clears them in register_* and
    unregister_* only). *)
Definition re_pred (o : N) (k : pred_kind) (p : pred) : pred :=
  if pid_eqb (pid p) (Some o) then mkPred k (pid p) else p.
Definition re_mapping {V} (o : N) (k : pred_kind) (m : mapping V) : mapping V :=
  mkMapping (map (fun pv => (re_pred o k (fst pv), snd pv)) (m_values m))
            (map (fun lp => (fst lp, re_pred o k (snd lp))) (m_labels m)).
Definition reassigned (o : N) (k : pred_kind) (r : registry) : registry :=
  mkRegistry (re_mapping o k (r_encs r)) (re_mapping o k (r_decs r)) (r_ecache r) (r_dcache r).
