(** C74: the memo of [grammar.parse] gives every caller of a string one object,
    which is what a parse gives for as long as nobody assigns to its parts. *)
From Coq Require Import Strings.Byte Strings.String Lia.
From Verif Require Import Py Grammar GrammarSpec AbiTypes AbiTypesSpec Registry Memo MemoSpec MemoProofs MemoLaws.
Open Scope string_scope. Open Scope list_scope. Open Scope nat_scope.

Definition text_of (m : memory) (s : string) : answer :=
  match perform (Parse (lit s)) m with
  | (Ref r, m') => fst (perform (ToTypeStr r) m')
  | (a, _) => a
  end.

(** Whatever was called before, as long as nothing was assigned: parsing gives
    an object with exactly the tree of the string, or the error of the string. *)
Theorem C74_faithful : forall l s, (forall r, ~ assigned l r) ->
  match parse_obj s with
  | Ok o => exists r m', perform (Parse s) (after l blank) = (Ref r, m') /\ shows (objects m') r o
  | Err e => perform (Parse s) (after l blank) = (Fails e, after l blank)
  end.
Proof. exact parse_faithful. Qed.
Print Assumptions C74_faithful.
Definition busy : list action :=
  [Parse (lit "(uint256,bool)[2]"); ItemType 2; Matches (lit "uint") None (lit "uint256"); Component 2 0; Parse (lit "foo!"); Overtaken (lit "bool"); TypeStr None false (lit "int")].
Example C74_faithful_sample : (forall r, ~ assigned busy r) /\ text_of (after busy blank) "(uint256,bool)[2]" = Text (lit "(uint256,bool)[2]")
  /\ text_of (after busy blank) "int256" = Text (lit "int256") /\ text_of (after busy blank) "foo!" = Fails ParseError /\ length (objects (after busy blank)) = 7%nat.
Proof. split; [intros r (g & I); cbn in I; intuition discriminate|]. repeat split; lazy; reflexivity. Qed.

(** Without the condition it is false: who assigns to an attribute of a parsed
    type changes what every later parse of that string gives. *)
Theorem C74_pure_refuted : ~ forall l s o, parse_obj s = Ok o ->
  exists r m', perform (Parse s) (after l blank) = (Ref r, m') /\ shows (objects m') r o.
Proof.
  intro H. destruct (H [Parse (lit "uint256"); Assign 0 (ToSub (AInt 8))] (lit "uint256") _ eq_refl) as (r & m' & E & S).
  assert (R : r = 0%nat) by (lazy in E; congruence). subst r.
  assert (M : m' = after [Parse (lit "uint256"); Assign 0 (ToSub (AInt 8))] blank) by (symmetry; apply (f_equal snd) in E; exact E). subst m'.
  inversion S as [r b s a n N|]. lazy in N. discriminate N.
Qed.
Print Assumptions C74_pure_refuted.
Example C74_pure_sample : let m := after [Parse (lit "uint256"); Assign 0 (ToSub (AInt 8))] blank in
  text_of m "uint256" = Text (lit "uint8") /\ text_of m "uint256[]" = Text (lit "uint256[]").
Proof. split; lazy; reflexivity. Qed.

(** Parsing a string again gives the same object, whatever happened in between,
    but for other threads: two that parse a new string at the same time get
    different objects, and the later one stays. *)
Theorem C74_same_object : forall s m r m1 l, perform (Parse s) m = (Ref r, m1) -> ~ In (Overtaken s) l -> perform (Parse s) (after l m1) = (Ref r, after l m1).
Proof. exact parse_again. Qed.
Print Assumptions C74_same_object.
Theorem C74_same_object_threads_refuted : ~ forall s m r m1 l, perform (Parse s) m = (Ref r, m1) -> perform (Parse s) (after l m1) = (Ref r, after l m1).
Proof. intro H. specialize (H (lit "bool") blank 0 _ [Overtaken (lit "bool")] eq_refl). lazy in H. discriminate H. Qed.
Print Assumptions C74_same_object_threads_refuted.
Theorem C74_overtaken : forall s m o, parse_obj s = Ok o ->
  exists r m', perform (Overtaken s) m = (Ref r, m') /\ shows (objects m') r o
    /\ (forall x, belongs (objects m') r x -> (length (objects m) <= x)%nat)
    /\ (forall x, (x < length (objects m))%nat -> at_ref m' x = at_ref m x)
    /\ perform (Parse s) m' = (Ref r, m').
Proof. exact over_first. Qed.
Print Assumptions C74_overtaken.
(** Other strings give other objects. *)
Theorem C74_other_object : forall s s' m r r' m1 m2 l, reached m -> perform (Parse s) m = (Ref r, m1) -> perform (Parse s') (after l m1) = (Ref r', m2) ->
  r = r' -> s = s'.
Proof. exact parse_apart. Qed.
Print Assumptions C74_other_object.
Example C74_other_object_sample : map fst (map (fun s => perform (Parse (lit s)) (after busy blank)) ["(uint256,bool)[2]"; "uint256"; "int256"; "(uint256,bool)"])
  = [Ref 2; Ref 4; Ref 6; Ref 9].
Proof. lazy. reflexivity. Qed.

(** Errors are not remembered and memory does not change with them; no string
    goes from one to the other, whatever is assigned. *)
Theorem C74_total : forall s m, reached m ->
  match parse_obj s with
  | Ok _ => exists r m', perform (Parse s) m = (Ref r, m')
  | Err e => perform (Parse s) m = (Fails e, m)
  end.
Proof. exact parse_total. Qed.
Print Assumptions C74_total.

(** The first parse of a string makes all its objects anew. *)
Theorem C74_first : forall s m o, recall (memo m) s = None -> parse_obj s = Ok o ->
  exists r m', perform (Parse s) m = (Ref r, m') /\ shows (objects m') r o
    /\ (forall x, belongs (objects m') r x -> (length (objects m) <= x)%nat)
    /\ (forall x, (x < length (objects m))%nat -> at_ref m' x = at_ref m x).
Proof. exact parse_first. Qed.
Print Assumptions C74_first.
Theorem C74_unshared : forall s m r m1 r0 x, reached m -> recall (memo m) s = None -> perform (Parse s) m = (Ref r, m1) ->
  (r0 < length (objects m))%nat -> belongs (objects m1) r x -> ~ belongs (objects m1) r0 x.
Proof. exact parse_unshared. Qed.
Print Assumptions C74_unshared.

(** Assignments reach no further than the objects they are made to: the parse of
    a string is spoiled by nothing but assignments to its own parts. *)
Theorem C74_contained : forall s m o r m1 l, recall (memo m) s = None -> parse_obj s = Ok o -> perform (Parse s) m = (Ref r, m1) ->
  (forall x, belongs (objects m1) r x -> ~ assigned l x) -> shows (objects (after l m1)) r o.
Proof. exact parse_contained. Qed.
Print Assumptions C74_contained.
Example C74_contained_sample : let m := after [Parse (lit "(uint256,bool)"); Parse (lit "bool"); Assign 3 (ToBase (lit "x")); Assign 1 (ToBase (lit "y"))] blank in
  text_of m "(uint256,bool)" = Text (lit "(uint256,y)") /\ text_of m "bool" = Text (lit "x") /\ text_of m "(bool)" = Text (lit "(bool)").
Proof. repeat split; lazy; reflexivity. Qed.
Theorem C74_assign : forall m r g c c', at_ref m r = Some c -> alters g c c' -> (forall x, In x (refs_to g) -> (x < length (objects m))%nat) ->
  exists m', perform (Assign r g) m = (Nothing, m') /\ at_ref m' r = Some c' /\ (forall x, x <> r -> at_ref m' x = at_ref m x) /\ memo m' = memo m.
Proof. exact assign_local. Qed.
Print Assumptions C74_assign.
Theorem C74_assign_lacks : forall m r g c, at_ref m r = Some c -> lacks g c -> (forall x, In x (refs_to g) -> (x < length (objects m))%nat) ->
  perform (Assign r g) m = (Fails AttributeError, m).
Proof. exact assign_lacks. Qed.
Print Assumptions C74_assign_lacks.
(** One of the two is the case. *)
Theorem C74_assign_cases : forall g c, (exists c', alters g c c') <-> ~ lacks g c.
Proof. exact alters_or_lacks. Qed.
Print Assumptions C74_assign_cases.
Theorem C74_spoils : forall s m r m1 g c c', perform (Parse s) m = (Ref r, m1) -> at_ref m1 r = Some c -> alters g c c' ->
  (forall x, In x (refs_to g) -> (x < length (objects m1))%nat) ->
  exists m2, perform (Assign r g) m1 = (Nothing, m2) /\ perform (Parse s) m2 = (Ref r, m2) /\ at_ref m2 r = Some c'.
Proof. exact assign_spoils. Qed.
Print Assumptions C74_spoils.
(** Objects an assignment is not made to, nor to a part of, show what they did. *)
Theorem C74_keeps : forall l m r o, shows (objects m) r o -> (forall x, belongs (objects m) r x -> ~ assigned l x) -> shows (objects (after l m)) r o.
Proof. exact keeps_shown. Qed.
Print Assumptions C74_keeps.

(** [item_type] makes one new object; it has the components of the old one. *)
Theorem C74_item : forall m r o, shows (objects m) r o ->
  match obj_item_type o with
  | Err e => perform (ItemType r) m = (Fails e, m)
  | Ok i => exists m', perform (ItemType r) m = (Ref (length (objects m)), m') /\ shows (objects m') (length (objects m)) i
      /\ (forall x, (x < length (objects m))%nat -> at_ref m' x = at_ref m x) /\ memo m' = memo m
      /\ (forall x, belongs (objects m') (length (objects m)) x <-> x = length (objects m) \/ (x <> r /\ belongs (objects m) r x))
  end.
Proof. exact item_shown. Qed.
Print Assumptions C74_item.
(** So the item type of a parsed array of tuples is not the caller's own. *)
Example C74_item_sample : let m := after [Parse (lit "(uint256,bool)[]"); ItemType 2; Assign 0 (ToSub (AInt 8)); Assign 3 (ToArrlist (RTuple [[7%Z]]))] blank in
  text_of m "(uint256,bool)[]" = Text (lit "(uint8,bool)[]") /\ fst (perform (ToTypeStr 3) m) = Text (lit "(uint8,bool)[7]").
Proof. repeat split; lazy; reflexivity. Qed.

(** What is printed is the tree. *)
Theorem C74_str : forall m r o, shows (objects m) r o -> perform (ToTypeStr r) m = (Text (obj_str o), m).
Proof. exact str_shown. Qed.
Print Assumptions C74_str.
(** A tuple made its own component cannot be printed. *)
Example C74_str_sample : fst (perform (ToTypeStr 1) (after [Parse (lit "(bool)"); Assign 1 (ToComponents [0; 1]%nat)] blank)) = Fails RuntimeError.
Proof. lazy. reflexivity. Qed.

(** [validate] gives what there is to say of the first part that is not valid,
    of a tree what is said of it; it is a RecursionError if the search for that
    part has no end. *)
Theorem C74_validate : forall m r v, finds (objects m) r v -> perform (Validate r) m = (told v, m).
Proof. exact validate_finds. Qed.
Print Assumptions C74_validate.
Theorem C74_validate_endless : forall m r, (forall v, ~ finds (objects m) r v) -> perform (Validate r) m = (Fails RuntimeError, m).
Proof. exact validate_endless. Qed.
Print Assumptions C74_validate_endless.
Theorem C74_validate_tree : forall h o r, shows h r o -> finds h r (obj_validate o).
Proof. exact finds_shown. Qed.
Print Assumptions C74_validate_tree.
(** A tuple made its own second component: whether the first is valid matters,
    unlike what comes after. *)
Example C74_validate_sample : let m := after [Parse (lit "(uint8,bool,int7)"); Assign 3 (ToComponents [0; 3; 2]%nat)] blank in
  fst (perform (Validate 3) m) = Fails RuntimeError /\ fst (perform (Validate 2) m) = Fails ABITypeError
  /\ fst (perform (Validate 3) (after [Assign 0 (ToSub (AInt 7))] m)) = Fails ABITypeError
  /\ fst (perform (Validate 3) (after [Assign 3 (ToComponents [0; 1]%nat)] m)) = Nothing
  /\ fst (perform (Validate 3) (after [Assign 2 (ToNode None); Assign 3 (ToComponents [1; 2]%nat)] m)) = Fails AttributeError
  /\ fst (perform (TypeStr None false (lit "(uint8,bool,int7)")) m) = Fails RuntimeError.
Proof. repeat split; lazy; reflexivity. Qed.

(** Predicates and the decorators of [from_type_str] read the same objects.
    While a string is unspoiled they say of it what they say without a memo, and
    without assignments every string stays unspoiled. *)
Theorem C74_unspoiled : forall l m, (forall r, ~ assigned l r) -> (forall s, unspoiled s m) -> forall s, unspoiled s (after l m).
Proof. exact never_spoiled. Qed.
Print Assumptions C74_unspoiled.
Theorem C74_base_equals : forall b w s m, unspoiled s m -> fst (memo_base_equals b w s m) = base_equals b w s.
Proof. exact matches_same. Qed.
Print Assumptions C74_base_equals.
Theorem C74_has_arrlist : forall s m, unspoiled s m -> fst (memo_has_arrlist s m) = has_arrlist s.
Proof. exact has_arrlist_same. Qed.
Print Assumptions C74_has_arrlist.
Theorem C74_is_base_tuple : forall s m, unspoiled s m -> fst (memo_is_base_tuple s m) = is_base_tuple s.
Proof. exact is_base_tuple_same. Qed.
Print Assumptions C74_is_base_tuple.
Theorem C74_type_str : forall b w s m, unspoiled (normalize s) m ->
  match parse_type_str b w s with
  | Ok T => exists r m', memo_type_str b w s m = (Ok r, m') /\ shows (objects m') r (locate (normalize s) 0 T)
  | Err e => fst (memo_type_str b w s m) = Err e
  end.
Proof. exact type_str_same. Qed.
Print Assumptions C74_type_str.
Theorem C74_tuple_type_str : forall s m, unspoiled (normalize s) m ->
  match parse_tuple_type_str s with
  | Ok cs => exists r m' arr, parse (normalize s) = Ok (Tup cs arr) /\ memo_tuple_type_str s m = (Ok r, m')
      /\ shows (objects m') r (locate (normalize s) 0 (Tup cs arr))
  | Err e => fst (memo_tuple_type_str s m) = Err e
  end.
Proof. exact tuple_type_str_same. Qed.
Print Assumptions C74_tuple_type_str.
(** Spoiled, they follow the assignment: here "uint256" is looked up as "int8". *)
Example C74_lookup_sample : let m := after [Parse (lit "uint256"); Assign 0 (ToBase (lit "int")); Assign 0 (ToSub (AInt 8))] blank in
  fst (memo_base_equals (lit "uint") (Some true) (lit "uint256") m) = false /\ fst (memo_base_equals (lit "int") (Some true) (lit "uint256") m) = true
  /\ fst (memo_type_str (Some (lit "int")) false (lit "uint256") m) = Ok 0%nat /\ at_ref m 0 = Some (CBasic (lit "int") (AInt 8) RNone (Some (mkNode (lit "uint256") 0 7)))
  /\ fst (memo_type_str (Some (lit "uint")) false (lit "uint256") m) = Err ValueError
  /\ fst (memo_type_str (Some (lit "uint")) false (lit "uint") m) = Err ValueError.
Proof. repeat split; lazy; reflexivity. Qed.
