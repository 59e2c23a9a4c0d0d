(** Types inside types, and the layout of values whose type mentions a name
    registered with plain callables. *)
From Verif Require Import Py Bytes Grammar GrammarSpec Encoding Decoding Registry Codec Histories Spec TypeSpec ReadSpec.
Open Scope Z_scope.

(** [within x s]: looking up [s] may look up [x]. *)
Inductive within (x : pystr) : pystr -> Prop :=
| within_self : within x x
| within_component s cs arr c : parse (normalize s) = Ok (Tup cs arr) -> In c cs -> within x (to_type_str c) -> within x s
| within_item s t it : parse (normalize s) = Ok t -> item_type t = Ok it -> within x (to_type_str it) -> within x s.

(** [T] is a valid type string, not an alias, with a base that has no coder. *)
Definition fresh_name (T : pystr) : Prop :=
  exists b sub, parse T = Ok (Basic b sub []) /\ parse (normalize T) = Ok (Basic b sub [])
    /\ validate_type (Basic b sub []) = Ok tt /\ ~ In b registered_names.
(** The default registry, used in any way, with [T] registered for the callables
    [f] and [g], used further. *)
Definition with_callables (T : pystr) (f : pyval -> result bytes) (g : bytes -> stream -> result (pyval * stream)) (w : world) : Prop :=
  exists w0 qs, used false w0 /\ Forall query qs
    /\ w = after qs (snd (run (ORegister (LStr T) (EInst (ECallable f)) (DInst (DCallable g)) None) w0)).

Section Callables.
Variables (T : pystr) (f : pyval -> result bytes) (g : bytes -> stream -> result (pyval * stream)).

(** [piece s v (d, b)]: the value [v] of type [s] is encoded as [b]; [d] says
    whether it goes to the tail.  What [f] returns is taken as a static chunk. *)
Inductive piece : pystr -> pyval -> bool * bytes -> Prop :=
| piece_custom v b : f v = Ok b -> piece T v (false, b)
| piece_known s t v a : supported s t -> denotes t v a -> piece s v (sdyn t, spec_enc t a)
| piece_tuple s cs v l ps : parse (normalize s) = Ok (Tup cs []) -> seq_like v l -> pieces (map to_type_str cs) l ps ->
    piece s v (existsb fst ps, head_tail ps)
with pieces : list pystr -> list pyval -> list (bool * bytes) -> Prop :=
| pieces_nil : pieces [] [] []
| pieces_cons s ss v l p ps : piece s v p -> pieces ss l ps -> pieces (s :: ss) (v :: l) (p :: ps).

(** [back s (d, b) q]: [b] is read back as [q]; [g] reads what it is given and
    moves on by as much. *)
Inductive back : pystr -> bool * bytes -> pyval -> Prop :=
| back_custom b q : 32 <= len b -> (forall buf st, found buf (pos st) b -> g buf st = Ok (q, mkStream (pos st + len b) (frames st) (total st))) ->
    back T (false, b) q
| back_known s t a q : supported s t -> has_type t a -> canon t a q -> back s (sdyn t, spec_enc t a) q
| back_tuple s cs ps qs : parse (normalize s) = Ok (Tup cs []) -> backs (map to_type_str cs) ps qs ->
    back s (existsb fst ps, head_tail ps) (PTuple qs)
with backs : list pystr -> list (bool * bytes) -> list pyval -> Prop :=
| backs_nil : backs [] [] []
| backs_cons s ss p ps q qs : back s p q -> backs ss ps qs -> backs (s :: ss) (p :: ps) (q :: qs).
End Callables.

Scheme piece_min := Minimality for piece Sort Prop with pieces_min := Minimality for pieces Sort Prop.
Combined Scheme piece_pieces_ind from piece_min, pieces_min.
Scheme back_min := Minimality for back Sort Prop with backs_min := Minimality for backs Sort Prop.
Combined Scheme back_backs_ind from back_min, backs_min.

(** [s] is [T] followed by one dimension. *)
Definition array_of (T s : pystr) (d : dim) : Prop := exists b sub, parse T = Ok (Basic b sub []) /\ parse (normalize s) = Ok (Basic b sub [d]).
