(** ABIType instances as objects (eth_abi/grammar.py:138-396): those that come
    out of the parser, with the place in the string they were read from, and
    those a program builds itself. *)
From Coq Require Import Strings.String.
From Verif Require Import Py Grammar.
Open Scope Z_scope.

(** ** The objects *)

(** The [sub] attribute: None, an int, a tuple of ints, or any other object. *)
Inductive sub_attr :=
| ANone
| AInt (z : Z)
| ATuple (l : list Z)
| AOther.
(** The [arrlist] attribute: None, a tuple of dimensions or a list of them.  A
    dimension is a tuple of ints. *)
Inductive arr_attr :=
| RNone
| RTuple (l : list (list Z))
| RList (l : list (list Z)).
(** What is used of a parsimonious Node: [full_text], [start], [end]. *)
Record node := mkNode { n_full : pystr; n_start : nat; n_end : nat }.
(** [node.text] *)
Definition n_text (n : node) : pystr := firstn (n_end n - n_start n) (skipn (n_start n) (n_full n)).

(** grammar.py:138-161, 222-236 and 273-292: BasicType and TupleType with their
    attributes.  Subclasses and attributes of other types are not modelled. *)
Inductive abi_obj :=
| OBasic (base : pystr) (sub : sub_attr) (arrlist : arr_attr) (nd : option node)
| OTuple (components : list abi_obj) (arrlist : arr_attr) (nd : option node).

Definition o_arr (o : abi_obj) : arr_attr :=
  match o with OBasic _ _ a _ => a | OTuple _ a _ => a end.
Definition o_node (o : abi_obj) : option node :=
  match o with OBasic _ _ _ n => n | OTuple _ _ n => n end.

(** ** Attributes and methods *)

(** grammar.py:200-206 is_array *)
Definition is_array (o : abi_obj) : bool :=
  match o_arr o with RNone => false | _ => true end.

(** [sep.join(l)] *)
Fixpoint join (sep : pystr) (l : list pystr) : pystr :=
  match l with
  | [] => []
  | [x] => x
  | x :: l' => x ++ sep ++ join sep l'
  end.
(** [repr(list(a))] of a tuple of ints *)
Definition repr_ints (a : list Z) : pystr := lit "[" ++ join (lit ", ") (map str_of_Z a) ++ lit "]".
(** grammar.py:239-244 and 303-306 *)
Definition arr_text (a : arr_attr) : pystr :=
  match a with RTuple l => flat_map repr_ints l | _ => [] end.
(** grammar.py:296-301 *)
Definition sub_text (s : sub_attr) : pystr :=
  match s with
  | AInt z => str_of_Z z
  | ATuple l => join (lit "x") (map str_of_Z l)
  | _ => []
  end.
(** grammar.py:238-246 and 293-308 to_type_str *)
Fixpoint obj_str (o : abi_obj) : pystr :=
  match o with
  | OBasic base sub a _ => base ++ sub_text sub ++ arr_text a
  | OTuple cs a _ => lit "(" ++ join (lit ",") (map obj_str cs) ++ lit ")" ++ arr_text a
  end.

(** grammar.py:164-166 __eq__; an object that is no ABIType compares unequal. *)
Definition obj_eq (a b : abi_obj) : bool :=
  match a, b with
  | OBasic _ _ _ _, OBasic _ _ _ _ | OTuple _ _ _, OTuple _ _ _ => str_eqb (obj_str a) (obj_str b)
  | _, _ => false
  end.

(** [self.arrlist[:-1] or None] *)
Definition arr_item (a : arr_attr) : arr_attr :=
  match a with
  | RNone => RNone
  | RTuple l => match removelast l with [] => RNone | l' => RTuple l' end
  | RList l => match removelast l with [] => RNone | l' => RList l' end
  end.
(** grammar.py:248-259 and 310-322 item_type *)
Definition obj_item_type (o : abi_obj) : result abi_obj :=
  if is_array o then
    Ok (match o with
        | OBasic b s a n => OBasic b s (arr_item a) n
        | OTuple cs a n => OTuple cs (arr_item a) n
        end)
  else Err ValueError.

(** grammar.py:216-218 _has_dynamic_arrlist *)
Definition arr_dynamic (a : arr_attr) : bool :=
  match a with
  | RNone => false
  | RTuple l | RList l => existsb (fun d => match d with [] => true | _ => false end) l
  end.
(** grammar.py:265-270 and 324-336 is_dynamic *)
Fixpoint obj_is_dynamic (o : abi_obj) : bool :=
  match o with
  | OBasic base sub a _ =>
      arr_dynamic a || str_eqb base (lit "string")
      || (str_eqb base (lit "bytes") && match sub with ANone => true | _ => false end)
  | OTuple cs a _ => arr_dynamic a || existsb obj_is_dynamic cs
  end.

(** ** Validation *)

(** The messages of grammar.py:338-396. *)
Inductive reason :=
| StringSuffix | BytesSuffix | BytesSize | IntSuffix | IntSize | IntMultiple
| FixedSuffix | FixedSize | FixedMultiple | FixedExponent | HashSuffix | AddressSuffix.
(** The outcome of validate(): it returns, raises ABITypeError with a message
    naming a text, a column, the whole string and a reason, or raises something
    else. *)
Inductive verdict :=
| Valid
| Invalid (text : pystr) (column : Z) (full : pystr) (r : reason)
| Raised (e : exc).
(** grammar.py:189-198 invalidate: without a node [node.text] is an
    AttributeError. *)
Definition invalidate (nd : option node) (r : reason) : verdict :=
  match nd with
  | Some n => Invalid (n_text n) (Z.of_nat (n_start n) + 1) (n_full n) r
  | None => Raised AttributeError
  end.
(** grammar.py:338-396 BasicType.validate *)
Definition obj_validate_basic (base : pystr) (sub : sub_attr) (nd : option node) : verdict :=
  if str_eqb base (lit "string") then
    match sub with ANone => Valid | _ => invalidate nd StringSuffix end
  else if str_eqb base (lit "bytes") then
    match sub with
    | ANone => Valid
    | AInt n => if 32 <? n then invalidate nd BytesSize else Valid
    | _ => invalidate nd BytesSuffix
    end
  else if str_eqb base (lit "int") || str_eqb base (lit "uint") then
    match sub with
    | AInt n =>
        if (n <? 8) || (256 <? n) then invalidate nd IntSize
        else if negb (n mod 8 =? 0) then invalidate nd IntMultiple
        else Valid
    | _ => invalidate nd IntSuffix
    end
  else if str_eqb base (lit "fixed") || str_eqb base (lit "ufixed") then
    match sub with
    | ATuple [bits; minus_e] =>
        if (bits <? 8) || (256 <? bits) then invalidate nd FixedSize
        else if negb (bits mod 8 =? 0) then invalidate nd FixedMultiple
        else if (minus_e <? 1) || (80 <? minus_e) then invalidate nd FixedExponent
        else Valid
    | ATuple _ => Raised ValueError (* bits, minus_e = sub *)
    | _ => invalidate nd FixedSuffix
    end
  else if str_eqb base (lit "hash") then
    match sub with AInt _ => Valid | _ => invalidate nd HashSuffix end
  else if str_eqb base (lit "address") then
    match sub with ANone => Valid | _ => invalidate nd AddressSuffix end
  else Valid.
(** grammar.py:261-263 TupleType.validate *)
Fixpoint obj_validate (o : abi_obj) : verdict :=
  match o with
  | OBasic base sub _ nd => obj_validate_basic base sub nd
  | OTuple cs _ _ =>
      (fix go (l : list abi_obj) : verdict :=
         match l with
         | [] => Valid
         | c :: l' => match obj_validate c with Valid => go l' | v => v end
         end) cs
  end.

(** ** Parsed objects *)

Definition sub_obj (s : subtype) : sub_attr :=
  match s with SubNone => ANone | SubInt z => AInt z | SubPair a b => ATuple [a; b] end.
(** visit_const_arr, visit_dynam_arr (grammar.py:80-87); [arrlist?] without a
    match is None. *)
Definition arr_obj (arr : list dim) : arr_attr :=
  match arr with
  | [] => RNone
  | _ => RTuple (map (fun d => match d with None => [] | Some n => [n] end) arr)
  end.
(** visit_basic_type and visit_tuple_type (grammar.py:61-75) for the text that
    starts at [pos] of [full].  The node ends where its text ends; the text is
    what [to_type_str] prints again. *)
Fixpoint locate (full : pystr) (pos : nat) (t : abi_type) : abi_obj :=
  let nd := Some (mkNode full pos (pos + length (to_type_str t))) in
  match t with
  | Basic base sub arr => OBasic base (sub_obj sub) (arr_obj arr) nd
  | Tup cs arr =>
      OTuple
        ((fix go (pos : nat) (l : list abi_type) : list abi_obj :=
            match l with
            | [] => []
            | c :: l' => locate full pos c :: go (pos + length (to_type_str c) + 1)%nat l'
            end) (pos + 1)%nat cs)
        (arr_obj arr) nd
  end.
(** grammar.py:110-132 parse *)
Definition parse_obj (s : pystr) : result abi_obj :=
  t <- parse s ;; Ok (locate s 0 t).
