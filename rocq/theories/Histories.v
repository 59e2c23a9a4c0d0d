(** Histories of calls on one registry: what a program can do with the registry
    methods of eth_abi/registry.py and a codec built on it (eth_abi/codec.py). *)
From Verif Require Import Py Bytes Encoding Decoding Registry Codec.
Open Scope Z_scope.

(** One call. *)
Inductive op :=
(* registry.py:357-453 *)
| ORegisterEncoder (l : lookup) (v : enc_reg) (label : option pystr)
| OUnregisterEncoder (l : lookup)
| ORegisterDecoder (l : lookup) (v : dec_reg) (label : option pystr)
| OUnregisterDecoder (l : lookup)
| ORegister (l : lookup) (e : enc_reg) (d : dec_reg) (label : option pystr)
| OUnregister (l : lookup)
(* registry.py:455-483 *)
| OGetEncoder (ts : pystr)
| OHasEncoder (ts : pystr)
| OGetDecoder (k : option bool) (ts : pystr)
(* codec.py:55-163 *)
| OEncode (types args : pyval)
| OIsEncodable (typ arg : pyval)
| OIsEncodableType (typ : pyval)
| ODecode (types data : pyval) (strict : bool).

(** What a call returns or raises. *)
Inductive answer :=
| ADone (r : result unit) | AEncoder (r : result encoder) | ADecoder (r : result decoder)
| ABool (r : result bool) | ABytes (r : result bytes) | AValue (r : result pyval).

Definition on_registry {A} (f : registry -> A * registry) (out : A -> answer) (w : world) : answer * world :=
  let '(a, r) := f (fst w) in (out a, (r, snd w)).
Definition on_world {A} (f : world -> A * world) (out : A -> answer) (w : world) : answer * world :=
  let '(a, w') := f w in (out a, w').

Definition run (o : op) : world -> answer * world :=
  match o with
  | ORegisterEncoder l v label => on_registry (register_encoder l v label) ADone
  | OUnregisterEncoder l => on_registry (unregister_encoder l) ADone
  | ORegisterDecoder l v label => on_registry (register_decoder l v label) ADone
  | OUnregisterDecoder l => on_registry (unregister_decoder l) ADone
  | ORegister l e d label => on_registry (register l e d label) ADone
  | OUnregister l => on_registry (unregister l) ADone
  | OGetEncoder ts => on_registry (get_encoder ts) AEncoder
  | OHasEncoder ts => on_registry (has_encoder ts) ABool
  | OGetDecoder k ts => on_world (get_decoder k ts) ADecoder
  | OEncode types args => on_registry (api_encode types args) ABytes
  | OIsEncodable typ arg => on_registry (api_is_encodable typ arg) ABool
  | OIsEncodableType typ => on_registry (api_is_encodable_type typ) ABool
  | ODecode types data strict => on_world (api_decode types data strict) AValue
  end.

Definition after (ops : list op) (w : world) : world := fold_left (fun w o => snd (run o w)) ops w.
Fixpoint answers (ops : list op) (w : world) : list answer :=
  match ops with
  | [] => []
  | o :: ops' => let '(a, w') := run o w in a :: answers ops' w'
  end.

(** Calls that do not change registrations. *)
Definition query (o : op) : Prop :=
  match o with
  | OGetEncoder _ | OHasEncoder _ | OGetDecoder _ _ | OEncode _ _ | OIsEncodable _ _ | OIsEncodableType _ | ODecode _ _ _ => True
  | _ => False
  end.

(** The states of the module-level registries (abi.py:8-13, packed.py:8-11) in a
    program that makes no registrations: anything may have been looked up,
    encoded or decoded before. *)
Definition standard_registry (pk : bool) : registry := if pk then registry_packed else default_registry.
Definition used (pk : bool) (w : world) : Prop :=
  exists ops, Forall query ops /\ w = after ops (standard_registry pk, []).

(** The same registrations with empty caches. *)
Definition forget (r : registry) : registry := mkRegistry (r_encs r) (r_decs r) [] [].

(** The results of codec calls in a state. *)
Definition encode_in (w : world) (types args : pyval) : result bytes := fst (api_encode types args (fst w)).
Definition is_encodable_in (w : world) (typ arg : pyval) : result bool := fst (api_is_encodable typ arg (fst w)).
Definition is_encodable_type_in (w : world) (typ : pyval) : result bool := fst (api_is_encodable_type typ (fst w)).
Definition decode_in (w : world) (types data : pyval) (strict : bool) : result pyval := fst (api_decode types data strict w).

(** ** Arbitrary registries *)

(** A registry obtained by ABIRegistry() or copy() and any calls on it, one at
    a time. *)
Inductive reachable : world -> Prop :=
| R_new h : reachable (new_registry, h)
| R_run o w : reachable w -> reachable (snd (run o w))
| R_copy w : reachable w -> reachable (copy_registry (fst w), snd w).

(** The answers to a history when all caches are dropped before every call. *)
Fixpoint answers_uncached (ops : list op) (w : world) : list answer :=
  match ops with
  | [] => []
  | o :: ops' => let '(a, w') := run o (forget (fst w), snd w) in a :: answers_uncached ops' w'
  end.

(** The decoder has no part whose strict flag is shared with other calls. *)
Fixpoint no_ref (d : decoder) : bool :=
  match d with
  | DByteString (SRef _) | DString (SRef _) _ | DCustom _ (SRef _) _ => false
  | DHeadTail d | DSized _ d | DDyn d => no_ref d
  | DTuple ds => forallb no_ref ds
  | _ => true
  end.
(** Classes, callables and static instances: registering them does not share a
    flag. *)
Definition unshared (v : dec_reg) : Prop :=
  match v with
  | DInst d => no_ref d = true
  | DClass (CUserDec f) => forall ts d, f ts = Ok d -> no_ref d = true
  | DClass _ => True
  end.
Definition unshared_registry (r : registry) : Prop := Forall (fun pv => unshared (snd pv)) (m_values (r_decs r)).
Definition unshared_op (o : op) : Prop :=
  match o with
  | ORegisterDecoder _ v _ | ORegister _ _ v _ => unshared v
  | _ => True
  end.
