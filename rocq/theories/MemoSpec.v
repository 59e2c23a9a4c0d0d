(** What the memo of [grammar.parse] is meant to keep. *)
From Coq Require Import Strings.String.
From Verif Require Import Py Grammar AbiTypes Memo.
Open Scope Z_scope.

(** The object at [r], with its components at every depth, is [o]. *)
Inductive shows (h : list cell) : ref -> abi_obj -> Prop :=
| shows_basic r b s a n : nth_error h r = Some (CBasic b s a n) -> shows h r (OBasic b s a n)
| shows_tuple r rs cs a n : nth_error h r = Some (CTuple rs a n) -> Forall2 (shows h) rs cs ->
    shows h r (OTuple cs a n).
(** [x] is the object [r] or one of its components, at any depth. *)
Inductive belongs (h : list cell) : ref -> ref -> Prop :=
| belongs_self r : belongs h r r
| belongs_in r rs a n c x : nth_error h r = Some (CTuple rs a n) -> In c rs -> belongs h c x -> belongs h r x.

(** The memory after the actions [l]. *)
Definition after (l : list action) (m : memory) : memory := snd (perform_all l m).
(** Some action of [l] assigns an attribute of [r]. *)
Definition assigned (l : list action) (r : ref) : Prop := exists g, In (Assign r g) l.
(** The memories a program can get to after the import. *)
Definition reached (m : memory) : Prop := exists l, m = after l blank.
(** What is remembered of [s], if anything, is what a parse gives. *)
Definition unspoiled (s : pystr) (m : memory) : Prop :=
  forall r, recall (memo m) s = Some r -> exists o, parse_obj s = Ok o /\ shows (objects m) r o.

(** [validate()] of the object at [r] ends with [v]: what a basic type is said to
    be, or what is said of the first component of a tuple that is not valid. *)
Inductive finds (h : list cell) : ref -> verdict -> Prop :=
| finds_basic r b s a n : nth_error h r = Some (CBasic b s a n) -> finds h r (obj_validate (OBasic b s a n))
| finds_sound r rs a n : nth_error h r = Some (CTuple rs a n) -> Forall (fun c => finds h c Valid) rs -> finds h r Valid
| finds_fault r good c rest a n v : nth_error h r = Some (CTuple (good ++ c :: rest) a n) ->
    Forall (fun c => finds h c Valid) good -> finds h c v -> v <> Valid -> finds h r v.
(** What the caller of [validate()] gets. *)
Definition told (v : verdict) : answer :=
  match v with Valid => Nothing | Invalid _ _ _ _ => Fails ABITypeError | Raised e => Fails e end.

(** An attribute of the object has the new value and the others the old one. *)
Inductive alters : change -> cell -> cell -> Prop :=
| alters_base b b' s a n : alters (ToBase b') (CBasic b s a n) (CBasic b' s a n)
| alters_sub b s s' a n : alters (ToSub s') (CBasic b s a n) (CBasic b s' a n)
| alters_arrlist b s a a' n : alters (ToArrlist a') (CBasic b s a n) (CBasic b s a' n)
| alters_node b s a n n' : alters (ToNode n') (CBasic b s a n) (CBasic b s a n')
| alters_tuple_arrlist rs a a' n : alters (ToArrlist a') (CTuple rs a n) (CTuple rs a' n)
| alters_tuple_node rs a n n' : alters (ToNode n') (CTuple rs a n) (CTuple rs a n')
| alters_components rs rs' a n : alters (ToComponents rs') (CTuple rs a n) (CTuple rs' a n).
(** The class of the object has no such attribute. *)
Definition lacks (g : change) (c : cell) : Prop :=
  match c with
  | CBasic _ _ _ _ => exists rs, g = ToComponents rs
  | CTuple _ _ _ => (exists b, g = ToBase b) \/ exists s, g = ToSub s
  end.
