(** What a registry should be: a list of entries, each with a matcher, an
    optional label and a coder.  No caches, no separate label table. *)
From Coq Require Import Permutation Strings.String.
From Verif Require Import Py Bytes Encoding Decoding Registry Codec Histories.
Open Scope Z_scope.

Record entry (V : Type) := mkEntry { e_pred : pred; e_label : option pystr; e_value : V }.
Arguments mkEntry {V} _ _ _.
Arguments e_pred {V} _.
Arguments e_label {V} _.
Arguments e_value {V} _.

Definition labelled {V} (l : pystr) (x : entry V) : bool := match e_label x with Some l' => str_eqb l' l | None => false end.
Definition about {V} (p : pred) (x : entry V) : bool := pred_eqb (e_pred x) p.

(** A new entry needs a matcher and a label not in use. *)
Definition s_add {V} (es : list (entry V)) (p : pred) (label : option pystr) (v : V) : result unit * list (entry V) :=
  if existsb (about p) es || match label with Some l => existsb (labelled l) es | None => false end
  then (Err ValueError, es)
  else (Ok tt, es ++ [mkEntry p label v]).
(** Removal takes the whole entry, label included. *)
Definition s_remove {V} (sel : entry V -> bool) (es : list (entry V)) : result unit * list (entry V) :=
  if existsb sel es then (Ok tt, filter (fun x => negb (sel x)) es) else (Err KeyError, es).
Definition s_register {V} (es : list (entry V)) (l : lookup) (v : V) (label : option pystr) : result unit * list (entry V) :=
  match l with
  | LPred p => s_add es p label v
  | LStr s => s_add es (mkPred (KEquals s) None) (Some s) v
  | LOther => (Err TypeError, es)
  end.
Definition s_unregister {V} (es : list (entry V)) (l : lookup) : result unit * list (entry V) :=
  match l with
  | LPred p => s_remove (about p) es
  | LStr s => s_remove (labelled s) es
  | LOther => (Err TypeError, es)
  end.

(** Both halves of a registry. *)
Definition spec_state : Type := list (entry enc_reg) * list (entry dec_reg).
Definition on_encs (r : result unit * list (entry enc_reg)) (st : spec_state) : result unit * spec_state := (fst r, (snd r, snd st)).
Definition on_decs (r : result unit * list (entry dec_reg)) (st : spec_state) : result unit * spec_state := (fst r, (fst st, snd r)).
Definition andThen (r : result unit * spec_state) (f : spec_state -> result unit * spec_state) : result unit * spec_state :=
  match fst r with Ok _ => f (snd r) | Err _ => r end.
Definition spec_update (o : op) (st : spec_state) : result unit * spec_state :=
  match o with
  | ORegisterEncoder l v label => on_encs (s_register (fst st) l v label) st
  | OUnregisterEncoder l => on_encs (s_unregister (fst st) l) st
  | ORegisterDecoder l v label => on_decs (s_register (snd st) l v label) st
  | OUnregisterDecoder l => on_decs (s_unregister (snd st) l) st
  | ORegister l e d label =>
      andThen (on_encs (s_register (fst st) l e label) st) (fun st => on_decs (s_register (snd st) l d label) st)
  | OUnregister l => andThen (on_encs (s_unregister (fst st) l) st) (fun st => on_decs (s_unregister (snd st) l) st)
  | _ => (Ok tt, st)
  end.
Definition spec_after (ops : list op) (st : spec_state) : spec_state := fold_left (fun st o => snd (spec_update o st)) ops st.

(** The code keeps two tables; an entry list is stored as these. *)
Definition mapping_of {V} (es : list (entry V)) : mapping V :=
  mkMapping (map (fun x => (e_pred x, e_value x)) es)
            (flat_map (fun x => match e_label x with Some l => [(l, e_pred x)] | None => [] end) es).
Definition represents (w : world) (st : spec_state) : Prop :=
  r_encs (fst w) = mapping_of (fst st) /\ r_decs (fst w) = mapping_of (snd st).

(** The caller keeps its matchers: what is passed is an object with an identity. *)
Definition held (l : lookup) : Prop := match l with LPred p => pid p <> None | _ => True end.
Definition held_op (o : op) : Prop :=
  match o with
  | ORegisterEncoder l _ _ | OUnregisterEncoder l | ORegisterDecoder l _ _ | OUnregisterDecoder l | ORegister l _ _ _ | OUnregister l => held l
  | _ => True
  end.
(** The caller unregisters a labelled entry by its label or by the very matcher
    object it was registered with, not by an equal copy of it. *)
Definition same_object {V} (es : list (entry V)) (l : lookup) : Prop :=
  match l with
  | LPred p => forall x, In x es -> about p x = true -> e_label x = None \/ pred_is (e_pred x) p = true
  | _ => True
  end.
Definition disciplined_op (o : op) (st : spec_state) : Prop :=
  held_op o /\
  match o with
  | OUnregisterEncoder l => same_object (fst st) l
  | OUnregisterDecoder l => same_object (snd st) l
  | OUnregister l => same_object (fst st) l /\ same_object (snd st) l
  | _ => True
  end.
Fixpoint disciplined (ops : list op) (st : spec_state) : Prop :=
  match ops with
  | [] => True
  | o :: ops' => disciplined_op o st /\ disciplined ops' (snd (spec_update o st))
  end.
(** The outcomes of the updates in a history. *)
Fixpoint spec_outcomes (ops : list op) (st : spec_state) : list (result unit) :=
  match ops with
  | [] => []
  | o :: ops' => let '(r, st') := spec_update o st in if (match o with
      | ORegisterEncoder _ _ _ | OUnregisterEncoder _ | ORegisterDecoder _ _ _ | OUnregisterDecoder _ | ORegister _ _ _ _ | OUnregister _ => true
      | _ => false end) then r :: spec_outcomes ops' st' else spec_outcomes ops' st'
  end.
Fixpoint update_outcomes (l : list answer) : list (result unit) :=
  match l with [] => [] | ADone r :: l' => r :: update_outcomes l' | _ :: l' => update_outcomes l' end.

(** Both tables hold the same matchers and labels, as when only register and
    unregister are used. *)
Definition names {V} (es : list (entry V)) : list (pred * option pystr) := map (fun x => (e_pred x, e_label x)) es.
Definition paired (st : spec_state) : Prop := names (fst st) = names (snd st).
Definition both_sided (o : op) : Prop := match o with ORegister _ _ _ _ | OUnregister _ => True | _ => query o end.
(** The same registrations. *)
Definition same_registrations (w w' : world) : Prop := r_encs (fst w') = r_encs (fst w) /\ r_decs (fst w') = r_decs (fst w).
