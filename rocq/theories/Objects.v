(** Registries as Python objects: attributes hold references, dicts are changed
    in place, copy() allocates.  Registry.v treats a registry as a value; here
    the sharing of the underlying dicts is explicit. *)
From Verif Require Import Py Bytes Encoding Decoding Registry Codec Histories.
Open Scope nat_scope.

(** PredicateMapping objects hold references to two dicts (registry.py:58-61);
    ABIRegistry objects to two mappings and two caches (registry.py:343-347). *)
Record map_obj := mkMapObj { mo_values : nat; mo_labels : nat }.
Record reg_obj := mkRegObj { ro_encs : nat; ro_decs : nat; ro_ecache : nat; ro_dcache : nat }.
Record store := mkStore {
  st_evals : list (list (pred * enc_reg)); st_elabs : list (list (pystr * pred)); st_emaps : list map_obj;
  st_dvals : list (list (pred * dec_reg)); st_dlabs : list (list (pystr * pred)); st_dmaps : list map_obj;
  st_ecaches : list (list (pystr * encoder)); st_dcaches : list (list ((pystr * option bool) * decoder));
  st_regs : list reg_obj;
  st_heap : heap
}.
Definition empty_store : store := mkStore [] [] [] [] [] [] [] [] [] [].

Fixpoint upd {A} (n : nat) (x : A) (l : list A) : list A :=
  match l, n with
  | [], _ => []
  | _ :: l', 0 => x :: l'
  | y :: l', S n' => y :: upd n' x l'
  end.
Definition opt_bind {A B} (o : option A) (f : A -> option B) : option B := match o with Some x => f x | None => None end.

(** Follow the references of a registry object. *)
Definition load (st : store) (i : nat) : option registry :=
  opt_bind (nth_error (st_regs st) i) (fun ro =>
  opt_bind (nth_error (st_emaps st) (ro_encs ro)) (fun em =>
  opt_bind (nth_error (st_dmaps st) (ro_decs ro)) (fun dm =>
  opt_bind (nth_error (st_evals st) (mo_values em)) (fun ev =>
  opt_bind (nth_error (st_elabs st) (mo_labels em)) (fun el =>
  opt_bind (nth_error (st_dvals st) (mo_values dm)) (fun dv =>
  opt_bind (nth_error (st_dlabs st) (mo_labels dm)) (fun dl =>
  opt_bind (nth_error (st_ecaches st) (ro_ecache ro)) (fun ec =>
  opt_bind (nth_error (st_dcaches st) (ro_dcache ro)) (fun dc =>
  Some (mkRegistry (mkMapping ev el) (mkMapping dv dl) ec dc)))))))))).

(** Change the dicts and caches of a registry object in place: every update in
    registry.py assigns to or deletes from an existing dict, or fills or clears
    an existing cache. *)
Definition save (st : store) (i : nat) (r : registry) (h : heap) : store :=
  match nth_error (st_regs st) i with
  | None => st
  | Some ro =>
      match nth_error (st_emaps st) (ro_encs ro), nth_error (st_dmaps st) (ro_decs ro) with
      | Some em, Some dm =>
          mkStore (upd (mo_values em) (m_values (r_encs r)) (st_evals st)) (upd (mo_labels em) (m_labels (r_encs r)) (st_elabs st)) (st_emaps st)
                  (upd (mo_values dm) (m_values (r_decs r)) (st_dvals st)) (upd (mo_labels dm) (m_labels (r_decs r)) (st_dlabs st)) (st_dmaps st)
                  (upd (ro_ecache ro) (r_ecache r) (st_ecaches st)) (upd (ro_dcache ro) (r_dcache r) (st_dcaches st))
                  (st_regs st) h
      | _, _ => st
      end
  end.

(** ABIRegistry() (registry.py:343-347): two new mappings with two new dicts
    each, and two new caches *)
Definition new_object (st : store) : store :=
  mkStore (st_evals st ++ [[]]) (st_elabs st ++ [[]]) (st_emaps st ++ [mkMapObj (length (st_evals st)) (length (st_elabs st))])
          (st_dvals st ++ [[]]) (st_dlabs st ++ [[]]) (st_dmaps st ++ [mkMapObj (length (st_dvals st)) (length (st_dlabs st))])
          (st_ecaches st ++ [[]]) (st_dcaches st ++ [[]])
          (st_regs st ++ [mkRegObj (length (st_emaps st)) (length (st_dmaps st)) (length (st_ecaches st)) (length (st_dcaches st))])
          (st_heap st).

(** PredicateMapping.copy (registry.py:153-159), for encoder and decoder
    mappings: a new mapping whose dicts are shallow copies *)
Definition copy_emap (st : store) (m : nat) : store :=
  match nth_error (st_emaps st) m with
  | None => st
  | Some mo =>
      mkStore (st_evals st ++ [nth (mo_values mo) (st_evals st) []]) (st_elabs st ++ [nth (mo_labels mo) (st_elabs st) []])
              (st_emaps st ++ [mkMapObj (length (st_evals st)) (length (st_elabs st))])
              (st_dvals st) (st_dlabs st) (st_dmaps st) (st_ecaches st) (st_dcaches st) (st_regs st) (st_heap st)
  end.
Definition copy_dmap (st : store) (m : nat) : store :=
  match nth_error (st_dmaps st) m with
  | None => st
  | Some mo =>
      mkStore (st_evals st) (st_elabs st) (st_emaps st)
              (st_dvals st ++ [nth (mo_values mo) (st_dvals st) []]) (st_dlabs st ++ [nth (mo_labels mo) (st_dlabs st) []])
              (st_dmaps st ++ [mkMapObj (length (st_dvals st)) (length (st_dlabs st))])
              (st_ecaches st) (st_dcaches st) (st_regs st) (st_heap st)
  end.
Definition set_regs (st : store) (l : list reg_obj) : store :=
  mkStore (st_evals st) (st_elabs st) (st_emaps st) (st_dvals st) (st_dlabs st) (st_dmaps st) (st_ecaches st) (st_dcaches st) l (st_heap st).
(** ABIRegistry.copy (registry.py:485-499): [cpy = type(self)()], then
    [cpy._encoders = copy.copy(self._encoders)] and the same for decoders *)
Definition copy_object (st : store) (i : nat) : store :=
  match nth_error (st_regs st) i with
  | None => st
  | Some ro =>
      let j := length (st_regs st) in
      let st1 := new_object st in
      let st2 := copy_emap st1 (ro_encs ro) in
      let st3 := copy_dmap st2 (ro_decs ro) in
      set_regs st3 (upd j (mkRegObj (length (st_emaps st1)) (length (st_dmaps st2)) (length (st_ecaches st)) (length (st_dcaches st))) (st_regs st3))
  end.

(** What a program does with its registries. *)
Inductive action :=
| ANew
| ACopy (i : nat)
| AOn (i : nat) (o : op).
Definition act (a : action) (st : store) : option answer * store :=
  match a with
  | ANew => (None, new_object st)
  | ACopy i => (None, copy_object st i)
  | AOn i o =>
      match load st i with
      | None => (None, st)
      | Some r => let '(ans, (r', h')) := run o (r, st_heap st) in (Some ans, save st i r' h')
      end
  end.
Definition acts (l : list action) (st : store) : store := fold_left (fun st a => snd (act a st)) l st.

(** The calls made on one registry, and their effect on it alone. *)
Definition ops_on (j : nat) (l : list action) : list op :=
  flat_map (fun a => match a with AOn i o => if i =? j then [o] else [] | _ => [] end) l.
Definition alone (ops : list op) (r : registry) : registry := fold_left (fun r o => fst (snd (run o (r, [])))) ops r.
