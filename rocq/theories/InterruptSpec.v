(** What calls that are cut short may leave behind. *)
From Coq Require Import Strings.String.
From Verif Require Import Py Bytes Encoding Decoding Registry Codec Histories RegistrySpec Threads.
Open Scope Z_scope.

(** In [w'] every call that uses encoders, or decoders, answers as in [w]. *)
Definition encodes_as (w w' : world) : Prop := forall q, uses_encoders q = true -> fst (run q w') = fst (run q w).
Definition decodes_as (w w' : world) : Prop := forall q, uses_decoders q = true -> fst (run q w') = fst (run q w).
(** The label a registration gets: a string is its own label. *)
Definition label_of (l : lookup) (label : option pystr) : option pystr := match l with LStr s => Some s | LPred _ => label | LOther => None end.
(** The ways to name an entry with label [s] and matcher [p] in a removal. *)
Definition refers (l : lookup) (p : pred) (s : pystr) : Prop := l = LStr s \/ exists q, pred_eqb q p = true /\ l = LPred q.
(** The entries left when the one with label [s] is gone. *)
Definition without {V} (s : pystr) (es : list (entry V)) : list (entry V) := filter (fun y => negb (labelled s y)) es.
