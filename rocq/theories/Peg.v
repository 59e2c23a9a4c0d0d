(** The grammar of eth_abi/grammar.py:14-38 as data, parsimonious's matching of
    it with the bookkeeping for error messages, and the node visitor.  Grammar.v
    has the same parser written as functions, without positions.

    parsimonious 0.10 (setup.py:62) is transcribed from knowledge of its
    sources.  Its memo of (expression, position) is left out: a failure found
    there is recorded again at the same position, which changes nothing. *)
From Coq Require Import Strings.String.
From Verif Require Import Py Address Grammar.
Open Scope nat_scope.

(** ** Expressions *)

(** The names of the rules (grammar.py:16-36). *)
Inductive rule :=
| R_type | R_tuple_type | R_components | R_non_zero_tuple | R_next_type | R_basic_type | R_base
| R_sub | R_two_size | R_arrlist | R_const_arr | R_dynam_arr | R_alphas | R_digits.

Inductive pexp :=
| XLit (s : pystr)                                   (* Literal *)
| XRegex (first rest : N -> bool)                    (* Regex: one character of [first], then any of [rest] *)
| XSeq (l : list pexp)                               (* Sequence *)
| XOneOf (l : list pexp)                             (* OneOf: the first that matches *)
| XQuant (min : nat) (max : option nat) (e : pexp)   (* Quantifier: e*, e+ and e? *)
| XRef (r : rule).                                   (* the name of a rule *)

Definition opt (e : pexp) : pexp := XQuant 0 (Some 1) e.
Definition many (e : pexp) : pexp := XQuant 0 None e.
Definition many1 (e : pexp) : pexp := XQuant 1 None e.

(** grammar.py:16-36 *)
Definition rules (r : rule) : pexp :=
  match r with
  | R_type => XOneOf [XRef R_tuple_type; XRef R_basic_type]
  | R_tuple_type => XSeq [XRef R_components; opt (XRef R_arrlist)]
  | R_components => XRef R_non_zero_tuple
  | R_non_zero_tuple => XSeq [XLit (lit "("); XRef R_type; many (XRef R_next_type); XLit (lit ")")]
  | R_next_type => XSeq [XLit (lit ","); XRef R_type]
  | R_basic_type => XSeq [XRef R_base; opt (XRef R_sub); opt (XRef R_arrlist)]
  | R_base => XRef R_alphas
  | R_sub => XOneOf [XRef R_two_size; XRef R_digits]
  | R_two_size => XSeq [XRef R_digits; XLit (lit "x"); XRef R_digits]
  | R_arrlist => many1 (XOneOf [XRef R_const_arr; XRef R_dynam_arr])
  | R_const_arr => XSeq [XLit (lit "["); XRef R_digits; XLit (lit "]")]
  | R_dynam_arr => XLit (lit "[]")
  | R_alphas => XRegex is_alpha is_alpha
  | R_digits => XRegex is_digit19 is_digit
  end.

(** ** Matching (parsimonious/expressions.py, nodes.py) *)

(** The classes of expressions generic_visit tells apart. *)
Inductive kind := KOneOf | KOptional | KOther.
(** Node: the name of its expression, where it starts, the text it covers, its children. *)
Inductive node := Node (name : option rule) (k : kind) (start : nat) (text : pystr) (children : list node).
Definition n_text (n : node) : pystr := match n with Node _ _ _ t _ => t end.

(** The ParseError under construction: None while its expr is None, else its
    pos.  A failure is recorded if it is not before the one recorded and its
    expression has a name, or nothing is recorded yet. *)
Definition record (name : option rule) (pos : nat) (err : option nat) : option nat :=
  match err with
  | None => Some pos
  | Some e => match name with
              | Some _ => if Nat.leb e pos then Some pos else err
              | None => err
              end
  end.

Definition kind_of (e : pexp) : kind :=
  match e with
  | XOneOf _ => KOneOf
  | XQuant 0 (Some 1) _ => KOptional
  | _ => KOther
  end.

(** Expression.match_core and the _uncached_match of each class.  [s] is the text
    from [pos] on.  The outer option is None if [fuel], which bounds the depth,
    is too small.  A rule that is just the name of another one is that one. *)
Fixpoint match_core (fuel : nat) (name : option rule) (e : pexp) (s : pystr) (pos : nat) (err : option nat) {struct fuel}
  : option (option node * option nat) :=
  match fuel with
  | O => None
  | S f =>
      match e with
      | XRef r => match_core f (Some r) (rules r) s pos err
      | _ =>
          let res :=
            match e with
            | XLit l => Some (if prefixb l s then Some (l, []) else None, err)
            | XRegex first rest =>
                match s with
                | c :: s' => if first c then Some (Some (c :: fst (span rest s'), []), err) else Some (None, err)
                | [] => Some (None, err)
                end
            | XSeq l =>
                (fix seq (l : list pexp) (s : pystr) (pos : nat) (err : option nat) : option (option (pystr * list node) * option nat) :=
                   match l with
                   | [] => Some (Some ([], []), err)
                   | e1 :: l' =>
                       match match_core f None e1 s pos err with
                       | None => None
                       | Some (None, err1) => Some (None, err1)
                       | Some (Some n, err1) =>
                           let k := length (n_text n) in
                           match seq l' (skipn k s) (pos + k) err1 with
                           | Some (Some (t, ns), err2) => Some (Some (n_text n ++ t, n :: ns), err2)
                           | x => x
                           end
                       end
                   end) l s pos err
            | XOneOf l =>
                (fix one_of (l : list pexp) (err : option nat) : option (option (pystr * list node) * option nat) :=
                   match l with
                   | [] => Some (None, err)
                   | e1 :: l' =>
                       match match_core f None e1 s pos err with
                       | None => None
                       | Some (None, err1) => one_of l' err1
                       | Some (Some n, err1) => Some (Some (n_text n, [n]), err1)
                       end
                   end) l err
            | XQuant min max e1 =>
                match (fix loop (turns : nat) (s : pystr) (pos : nat) (err : option nat) (count : nat) : option (list node * option nat) :=
                   if match s with [] => true | _ => match max with Some m => Nat.leb m count | None => false end end
                   then Some ([], err)
                   else
                     match turns with
                     | O => None
                     | S turns' =>
                         match match_core f None e1 s pos err with
                         | None => None
                         | Some (None, err1) => Some ([], err1)
                         | Some (Some n, err1) =>
                             let k := length (n_text n) in
                             if Nat.leb min (S count) && Nat.eqb k 0 then Some ([n], err1)
                             else match loop turns' (skipn k s) (pos + k) err1 (S count) with
                                  | None => None
                                  | Some (ns, err2) => Some (n :: ns, err2)
                                  end
                         end
                     end) (min + length s) s pos err O with
                | None => None
                | Some (ns, err1) =>
                    Some (if Nat.leb min (length ns) then Some (flat_map n_text ns, ns) else None, err1)
                end
            | XRef _ => None
            end in
          match res with
          | None => None
          | Some (Some (t, ns), err1) => Some (Some (Node name (kind_of e) pos t ns), err1)
          | Some (None, err1) => Some (None, record name pos err1)
          end
      end
  end.

(** ** NodeVisitor (grammar.py:41-108) *)

(** What the visit methods return. *)
Inductive pv := VText (s : pystr) | VInt (z : Z) | VNone | VTuple (l : list pv) | VType (t : abi_type) | VBad.

(** The arrlist, sub and components arguments of TupleType and BasicType. *)
Fixpoint all_some {A B} (f : A -> option B) (l : list A) : option (list B) :=
  match l with
  | [] => Some []
  | x :: l' => match f x, all_some f l' with Some y, Some ys => Some (y :: ys) | _, _ => None end
  end.
Definition dim_value (v : pv) : option dim :=
  match v with VTuple [] => Some None | VTuple [VInt n] => Some (Some n) | _ => None end.
Definition arr_value (v : pv) : option (list dim) :=
  match v with VNone => Some [] | VTuple l => all_some dim_value l | _ => None end.
Definition sub_value (v : pv) : option subtype :=
  match v with VNone => Some SubNone | VInt a => Some (SubInt a) | VTuple [VInt a; VInt b] => Some (SubPair a b) | _ => None end.
Definition type_value (v : pv) : option abi_type := match v with VType t => Some t | _ => None end.

(** grammar.py:95-108 generic_visit *)
Definition generic_visit (k : kind) (vs : list pv) : pv :=
  match k with
  | KOneOf => match vs with v :: _ => v | [] => VBad end
  | KOptional => match vs with v :: _ => v | [] => VNone end
  | KOther => VTuple vs
  end.
Fixpoint visit (n : node) : pv :=
  match n with
  | Node name k _ text children =>
      let vs := map visit children in
      match name with
      | Some R_non_zero_tuple =>       (* :52-56 *)
          match vs with [_; first; VTuple rest; _] => VTuple (first :: rest) | _ => VBad end
      | Some R_tuple_type =>           (* :58-61 *)
          match vs with
          | [VTuple components; arrlist] =>
              match all_some type_value components, arr_value arrlist with
              | Some ts, Some arr => VType (Tup ts arr)
              | _, _ => VBad
              end
          | _ => VBad
          end
      | Some R_next_type =>            (* :63-67 *)
          match vs with [_; t] => t | _ => VBad end
      | Some R_basic_type =>           (* :69-72 *)
          match vs with
          | [VText base; sub; arrlist] =>
              match sub_value sub, arr_value arrlist with
              | Some sb, Some arr => VType (Basic base sb arr)
              | _, _ => VBad
              end
          | _ => VBad
          end
      | Some R_two_size =>             (* :74-78 *)
          match vs with [a; _; b] => VTuple [a; b] | _ => VBad end
      | Some R_const_arr =>            (* :80-84 *)
          match vs with [_; v; _] => VTuple [v] | _ => VBad end
      | Some R_dynam_arr => VTuple []  (* :86-87 *)
      | Some R_alphas => VText text    (* :89-90 *)
      | Some R_digits => VInt (int_of_digits text)  (* :92-93 *)
      | _ => generic_visit k vs
      end
  end.

(** ** parse *)

(** What parsing a string comes to: a value, the ParseError with its pos, the
    ValueError about "()". *)
Inductive parsed := Parsed (v : pv) | Stopped (pos : nat) | ZeroSized | OutOfFuel.

(** Expression.match and .parse, NodeVisitor.parse, grammar.py:110-132
    _parse_uncached on a str.  An incomplete match is an error at its end. *)
Definition peg_fuel (s : pystr) : nat := 12 * length s + 20.
Definition stopped (s : pystr) (pos : nat) : parsed := if contains (lit "()") s then ZeroSized else Stopped pos.
Definition peg_parse (s : pystr) : parsed :=
  match match_core (peg_fuel s) None (XRef R_type) s 0 None with
  | None => OutOfFuel
  | Some (None, err) => match err with Some e => stopped s e | None => OutOfFuel end
  | Some (Some n, _) =>
      if Nat.ltb (length (n_text n)) (length s) then stopped s (length (n_text n)) else Parsed (visit n)
  end.

(** ParseError.column (parsimonious/exceptions.py) *)
Fixpoint last_newline (s : pystr) (i : nat) (found : option nat) : option nat :=
  match s with
  | [] => found
  | c :: s' => last_newline s' (S i) (if N.eqb c 10 then Some i else found)
  end.
Definition column (s : pystr) (pos : nat) : nat :=
  match last_newline (firstn pos s) 0 None with
  | Some i => pos - i
  | None => pos + 1
  end.
(** eth_abi/exceptions.py:66-75 ParseError.__str__ *)
Definition parse_error_str (s : pystr) (pos : nat) : pystr :=
  lit "Parse error at '" ++ firstn 5 (skipn pos s) ++ lit "' (column " ++ str_of_Z (Z.of_nat (column s pos))
  ++ lit ") in type string '" ++ s ++ lit "'".
