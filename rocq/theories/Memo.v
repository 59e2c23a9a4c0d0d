(** The memo of [grammar.parse] (eth_abi/grammar.py:46-47 and 110-135) and the
    objects it hands out.  The memo keeps the object made for a string and gives
    it to every caller; the attributes of an ABIType can be assigned.  So here
    objects live in a memory and are named by references.

    [functools.cache] keys on the string alone (calls that pass [pos] as a
    keyword have their own entries and are not modelled), remembers what is
    returned and forgets what is raised. *)
From Coq Require Import Strings.String.
From Verif Require Import Py Grammar AbiTypes Registry.
Open Scope Z_scope.

Definition ref := nat.
(** grammar.py:138-161, 222-236 and 273-292: the attributes of one object.
    [components] holds references. *)
Inductive cell :=
| CBasic (base : pystr) (sub : sub_attr) (arrlist : arr_attr) (nd : option node)
| CTuple (components : list ref) (arrlist : arr_attr) (nd : option node).
(** [objects]: the ABIType objects made so far, in order; [memo]: the dict of
    [functools.cache]. *)
Record memory := mkMemory { objects : list cell; memo : list (pystr * ref) }.
(** As the module is imported. *)
Definition blank : memory := mkMemory [] [].

Definition at_ref (m : memory) (r : ref) : option cell := nth_error (objects m) r.
Definition exists_in (m : memory) (r : ref) : bool := Nat.ltb r (length (objects m)).

(** ** Making objects *)

(** A constructor call: the new object and the memory with it. *)
Definition make (c : cell) (h : list cell) : ref * list cell := (length h, h ++ [c]).
(** The visitor makes the objects of the components, left to right, before the
    tuple around them (grammar.py:50-72). *)
Fixpoint place (o : abi_obj) (h : list cell) : ref * list cell :=
  match o with
  | OBasic b s a n => make (CBasic b s a n) h
  | OTuple cs a n =>
      let '(rs, h1) :=
        (fix go (l : list abi_obj) (h : list cell) : list ref * list cell :=
           match l with
           | [] => ([], h)
           | c :: l' =>
               let '(r, h1) := place c h in
               let '(rs, h2) := go l' h1 in
               (r :: rs, h2)
           end) cs h in
      make (CTuple rs a n) h1
  end.

(** The entry of the dict: the newest in the list, older ones for the same string
    having been overwritten. *)
Fixpoint recall (l : list (pystr * ref)) (s : pystr) : option ref :=
  match l with
  | [] => None
  | (s', r) :: l' => if str_eqb s s' then Some r else recall l' s
  end.
(** A call that finds nothing remembered: it parses, and enters what it made. *)
Definition parse_anew (s : pystr) (m : memory) : result ref * memory :=
  match parse_obj s with
  | Err e => (Err e, m)
  | Ok o => let '(r, h) := place o (objects m) in (Ok r, mkMemory h ((s, r) :: memo m))
  end.
(** grammar.py:46-47 and 110-135: [visitor.parse] *)
Definition memo_parse (s : pystr) (m : memory) : result ref * memory :=
  match recall (memo m) s with
  | Some r => (Ok r, m)
  | None => parse_anew s m
  end.

(** ** Reading objects *)

Fixpoint all_some {A} (l : list (option A)) : option (list A) :=
  match l with
  | [] => Some []
  | None :: _ => None
  | Some x :: l' => match all_some l' with Some xs => Some (x :: xs) | None => None end
  end.
(** The object at [r] with the objects of its components in place of references.
    None: there is no end to it (a program made a tuple its own component), and
    the methods below raise RecursionError.  The limit Python sets to the depth
    of other recursions is not modelled. *)
Fixpoint view_in (n : nat) (h : list cell) (r : ref) : option abi_obj :=
  match n with
  | O => None
  | S n' =>
      match nth_error h r with
      | None => None
      | Some (CBasic b s a nd) => Some (OBasic b s a nd)
      | Some (CTuple rs a nd) =>
          match all_some (map (view_in n' h) rs) with
          | Some cs => Some (OTuple cs a nd)
          | None => None
          end
      end
  end.
Definition view (m : memory) (r : ref) : option abi_obj := view_in (S (length (objects m))) (objects m) r.

(** registry.py:222-242 BaseEquals.__call__ *)
Definition memo_base_equals (base : pystr) (with_sub : option bool) (ts : pystr) (m : memory) : bool * memory :=
  match memo_parse ts m with
  | (Err _, m') => (false, m')
  | (Ok r, m') =>
      (match at_ref m' r with
       | Some (CBasic b sub RNone _) =>
           (match with_sub, sub with
            | None, _ => true
            | Some w, ANone => negb w
            | Some w, _ => w
            end) && str_eqb b base
       | _ => false
       end, m')
  end.
(** registry.py:256-265 *)
Definition memo_has_arrlist (ts : pystr) (m : memory) : bool * memory :=
  match memo_parse ts m with
  | (Err _, m') => (false, m')
  | (Ok r, m') =>
      (match at_ref m' r with
       | Some (CBasic _ _ RNone _) | Some (CTuple _ RNone _) => false
       | Some _ => true
       | None => false
       end, m')
  end.
(** registry.py:268-277 *)
Definition memo_is_base_tuple (ts : pystr) (m : memory) : bool * memory :=
  match memo_parse ts m with
  | (Err _, m') => (false, m')
  | (Ok r, m') => (match at_ref m' r with Some (CTuple _ RNone _) => true | _ => false end, m')
  end.
(** grammar.py:261-263 and 338-396: [validate()] of the object at [r].  A tuple
    asks its components one after the other up to the first that raises.  None:
    it never gets to an end. *)
Fixpoint checked_in (n : nat) (h : list cell) (r : ref) : option verdict :=
  match n with
  | O => None
  | S n' =>
      match nth_error h r with
      | None => None
      | Some (CBasic b s _ nd) => Some (obj_validate_basic b s nd)
      | Some (CTuple rs _ _) =>
          (fix go (l : list ref) : option verdict :=
             match l with
             | [] => Some Valid
             | c :: l' => match checked_in n' h c with Some Valid => go l' | v => v end
             end) rs
      end
  end.
Definition checked (m : memory) (r : ref) : option verdict := checked_in (S (length (objects m))) (objects m) r.
(** [abi_type.validate()]; RecursionError is a RuntimeError. *)
Definition memo_validate (m : memory) (r : ref) : result unit :=
  match checked m r with
  | None => Err RuntimeError
  | Some Valid => Ok tt
  | Some (Invalid _ _ _ _) => Err ABITypeError
  | Some (AbiTypes.Raised e) => Err e
  end.
(** base.py:11-74 parse_type_str: what the wrapped method is given *)
Definition memo_type_str (expected_base : option pystr) (with_arrlist : bool) (ts : pystr) (m : memory)
  : result ref * memory :=
  match memo_parse (normalize ts) m with
  | (Err e, m') => (Err e, m')
  | (Ok r, m') =>
      ((match expected_base, at_ref m' r with
        | None, _ => Ok tt
        | Some b, Some (CBasic base _ _ _) => raise_if (negb (str_eqb base b)) ValueError
        | Some _, _ => Err ValueError
        end) ;;;
       let has_arr := match at_ref m' r with
                      | Some (CBasic _ _ RNone _) | Some (CTuple _ RNone _) => false
                      | _ => true
                      end in
       raise_if (negb with_arrlist && has_arr) ValueError ;;;
       raise_if (with_arrlist && negb has_arr) ValueError ;;;
       memo_validate m' r ;;;
       Ok r, m')
  end.
(** base.py:77-108 parse_tuple_type_str *)
Definition memo_tuple_type_str (ts : pystr) (m : memory) : result ref * memory :=
  match memo_parse (normalize ts) m with
  | (Err e, m') => (Err e, m')
  | (Ok r, m') =>
      (match at_ref m' r with
       | Some (CTuple _ _ _) => memo_validate m' r ;;; Ok r
       | _ => Err ValueError
       end, m')
  end.

(** ** What programs do with the objects *)

Inductive change :=
| ToBase (b : pystr)
| ToSub (s : sub_attr)
| ToArrlist (a : arr_attr)
| ToNode (n : option node)
| ToComponents (rs : list ref).
(** An attribute assignment.  The classes have [__slots__]: a name that is none
    of the object's attributes is an AttributeError. *)
Definition assign (g : change) (c : cell) : option cell :=
  match g, c with
  | ToBase b, CBasic _ s a n => Some (CBasic b s a n)
  | ToSub s, CBasic b _ a n => Some (CBasic b s a n)
  | ToArrlist a, CBasic b s _ n => Some (CBasic b s a n)
  | ToArrlist a, CTuple rs _ n => Some (CTuple rs a n)
  | ToNode n, CBasic b s a _ => Some (CBasic b s a n)
  | ToNode n, CTuple rs a _ => Some (CTuple rs a n)
  | ToComponents rs, CTuple _ a n => Some (CTuple rs a n)
  | _, _ => None
  end.
Fixpoint put (h : list cell) (r : ref) (c : cell) : list cell :=
  match h, r with
  | [], _ => []
  | _ :: h', O => c :: h'
  | x :: h', S r' => x :: put h' r' c
  end.

Inductive action :=
| Parse (s : pystr)
| Overtaken (s : pystr) (* the end of a parse in another thread that found nothing remembered when it began *)
| Matches (base : pystr) (with_sub : option bool) (s : pystr)
| HasArrlist (s : pystr)
| IsBaseTuple (s : pystr)
| TypeStr (expected_base : option pystr) (with_arrlist : bool) (s : pystr)
| TupleTypeStr (s : pystr)
| ToTypeStr (r : ref)
| Validate (r : ref)
| Component (r : ref) (i : nat)
| ItemType (r : ref)
| New (c : cell)
| Assign (r : ref) (g : change).
(** What a call gives back. *)
Inductive answer :=
| Ref (r : ref)
| Bool (b : bool)
| Text (s : pystr)
| Nothing
| Fails (e : exc).
Definition said (x : result ref) : answer := match x with Ok r => Ref r | Err e => Fails e end.

Definition refs_of (c : cell) : list ref := match c with CBasic _ _ _ _ => [] | CTuple rs _ _ => rs end.
Definition refs_to (g : change) : list ref := match g with ToComponents rs => rs | _ => [] end.

(** A program has no references but to objects that exist; an action with others
    stands for nothing. *)
Definition perform (x : action) (m : memory) : answer * memory :=
  match x with
  | Parse s => let '(a, m') := memo_parse s m in (said a, m')
  | Overtaken s => let '(a, m') := parse_anew s m in (said a, m')
  | Matches b w s => let '(a, m') := memo_base_equals b w s m in (Bool a, m')
  | HasArrlist s => let '(a, m') := memo_has_arrlist s m in (Bool a, m')
  | IsBaseTuple s => let '(a, m') := memo_is_base_tuple s m in (Bool a, m')
  | TypeStr b w s => let '(a, m') := memo_type_str b w s m in (said a, m')
  | TupleTypeStr s => let '(a, m') := memo_tuple_type_str s m in (said a, m')
  | ToTypeStr r =>
      (* grammar.py:238-246 and 293-308 *)
      (match view m r with Some o => Text (obj_str o) | None => Fails RuntimeError end, m)
  | Validate r => (match memo_validate m r with Ok tt => Nothing | Err e => Fails e end, m)
  | Component r i =>
      (* [r.components[i]] *)
      (match at_ref m r with
       | None => Nothing
       | Some (CBasic _ _ _ _) => Fails AttributeError
       | Some (CTuple rs _ _) => match nth_error rs i with Some x => Ref x | None => Fails IndexError end
       end, m)
  | ItemType r =>
      (* grammar.py:248-259 and 310-322 *)
      match at_ref m r with
      | None => (Nothing, m)
      | Some (CBasic _ _ RNone _) | Some (CTuple _ RNone _) =>
          (* the message quotes to_type_str() *)
          (match view m r with Some _ => Fails ValueError | None => Fails RuntimeError end, m)
      | Some (CBasic b s a n) =>
          let '(r', h) := make (CBasic b s (arr_item a) n) (objects m) in (Ref r', mkMemory h (memo m))
      | Some (CTuple rs a n) =>
          let '(r', h) := make (CTuple rs (arr_item a) n) (objects m) in (Ref r', mkMemory h (memo m))
      end
  | New c =>
      (* BasicType(...) or TupleType(...) *)
      if forallb (exists_in m) (refs_of c) then
        let '(r, h) := make c (objects m) in (Ref r, mkMemory h (memo m))
      else (Nothing, m)
  | Assign r g =>
      if forallb (exists_in m) (refs_to g) then
        match at_ref m r with
        | None => (Nothing, m)
        | Some c =>
            match assign g c with
            | Some c' => (Nothing, mkMemory (put (objects m) r c') (memo m))
            | None => (Fails AttributeError, m)
            end
        end
      else (Nothing, m)
  end.
Fixpoint perform_all (l : list action) (m : memory) : list answer * memory :=
  match l with
  | [] => ([], m)
  | x :: l' =>
      let '(a, m1) := perform x m in
      let '(as_, m2) := perform_all l' m1 in
      (a :: as_, m2)
  end.
