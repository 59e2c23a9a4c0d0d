(** eth_abi/grammar.py: parsing, printing, validating and normalizing type
    strings. *)
From Coq Require Import Strings.String.
From Verif Require Import Py Address UnicodeWord.
Open Scope Z_scope.

(** Character codes of the punctuation used by the grammar. *)
Definition c_lparen : N := 40.
Definition c_rparen : N := 41.
Definition c_comma : N := 44.
Definition c_lbrack : N := 91.
Definition c_rbrack : N := 93.
Definition c_x : N := 120.

(** [A-Za-z] and [1-9] (grammar.py:35-36); [0-9] is [is_digit]. *)
Definition is_alpha (c : N) : bool := in_range 65 90 c || in_range 97 122 c.
Definition is_digit19 (c : N) : bool := in_range 49 57 c.

(** The [sub] attribute of a BasicType: None, an int or a pair of ints. *)
Inductive subtype :=
| SubNone
| SubInt (z : Z)
| SubPair (a b : Z).

(** One array dimension: [()] is [None], [(n,)] is [Some n]. *)
Definition dim := option Z.

(** grammar.py:138-324 ABIType / TupleType / BasicType.  [arrlist] is None iff
    the list is empty (a parsed arrlist is never an empty tuple, and item_type
    maps an empty one to None).  The parsimonious node kept for error messages
    is not modelled. *)
Inductive abi_type :=
| Basic (base : pystr) (sub : subtype) (arrlist : list dim)
| Tup (components : list abi_type) (arrlist : list dim).

Definition arrlist_of (t : abi_type) : list dim :=
  match t with Basic _ _ a => a | Tup _ a => a end.

(** ** Parsing (grammar.py:14-38, a PEG) *)

Fixpoint span (f : N -> bool) (s : pystr) : pystr * pystr :=
  match s with
  | c :: s' => if f c then let '(a, b) := span f s' in (c :: a, b) else ([], s)
  | [] => ([], [])
  end.

(** [int(text)] of a digit string *)
Definition int_of_digits (s : pystr) : Z :=
  fold_left (fun acc c => acc * 10 + (Z.of_N c - 48)) s 0.

(** alphas = ~"[A-Za-z]+" *)
Definition p_alphas (s : pystr) : option (pystr * pystr) :=
  match span is_alpha s with
  | ([], _) => None
  | (a, r) => Some (a, r)
  end.

(** digits = ~"[1-9][0-9]*", visited by visit_digits (grammar.py:92-93) *)
Definition p_digits (s : pystr) : option (Z * pystr) :=
  match s with
  | c :: s' =>
      if is_digit19 c
      then let '(ds, r) := span is_digit s' in Some (int_of_digits (c :: ds), r)
      else None
  | [] => None
  end.

Definition p_char (c : N) (s : pystr) : option pystr :=
  match s with
  | c' :: s' => if N.eqb c c' then Some s' else None
  | [] => None
  end.

(** sub = two_size / digits;  two_size = (digits "x" digits);  used as [sub?] *)
Definition p_sub (s : pystr) : subtype * pystr :=
  match p_digits s with
  | None => (SubNone, s)
  | Some (a, s1) =>
      match p_char c_x s1 with
      | None => (SubInt a, s1)
      | Some s2 =>
          match p_digits s2 with
          | None => (SubInt a, s1)
          | Some (b, s3) => (SubPair a b, s3)
          end
      end
  end.

(** const_arr / dynam_arr *)
Definition p_dim (s : pystr) : option (dim * pystr) :=
  match p_char c_lbrack s with
  | None => None
  | Some s1 =>
      match p_digits s1 with
      | Some (n, s2) =>
          match p_char c_rbrack s2 with
          | Some s3 => Some (Some n, s3)
          | None => None
          end
      | None =>
          match p_char c_rbrack s1 with
          | Some s2 => Some (None, s2)
          | None => None
          end
      end
  end.

(** arrlist? with arrlist = (const_arr / dynam_arr)+ *)
Fixpoint p_arrlist (fuel : nat) (s : pystr) : list dim * pystr :=
  match fuel with
  | O => ([], s)
  | S f =>
      match p_dim s with
      | None => ([], s)
      | Some (d, s') => let '(ds, r) := p_arrlist f s' in (d :: ds, r)
      end
  end.

(** type, tuple_type, non_zero_tuple, next_type, basic_type.  [fuel] bounds the
    recursion; [parse] supplies more than the length of the string, which is
    always enough (GrammarProofs.v). *)
Fixpoint p_type (fuel : nat) (s : pystr) : option (abi_type * pystr) :=
  match fuel with
  | O => None
  | S f =>
      match p_char c_lparen s with
      | Some s1 =>
          match p_type f s1 with
          | None => None
          | Some (t, s2) =>
              let '(ts, s3) := p_next f s2 in
              match p_char c_rparen s3 with
              | None => None
              | Some s4 =>
                  let '(arr, s5) := p_arrlist (length s4) s4 in
                  Some (Tup (t :: ts) arr, s5)
              end
          end
      | None =>
          match p_alphas s with
          | None => None
          | Some (base, s1) =>
              let '(sub, s2) := p_sub s1 in
              let '(arr, s3) := p_arrlist (length s2) s2 in
              Some (Basic base sub arr, s3)
          end
      end
  end
(** next_type*  *)
with p_next (fuel : nat) (s : pystr) : list abi_type * pystr :=
  match fuel with
  | O => ([], s)
  | S f =>
      match p_char c_comma s with
      | None => ([], s)
      | Some s1 =>
          match p_type f s1 with
          | None => ([], s)
          | Some (t, s2) => let '(ts, s3) := p_next f s2 in (t :: ts, s3)
          end
      end
  end.

(** [needle in s] *)
Fixpoint prefixb (p s : pystr) : bool :=
  match p, s with
  | [], _ => true
  | c :: p', d :: s' => N.eqb c d && prefixb p' s'
  | _, [] => false
  end.
Fixpoint contains (needle s : pystr) : bool :=
  prefixb needle s || match s with [] => false | _ :: s' => contains needle s' end.

(** grammar.py:110-132 NodeVisitor._parse_uncached (memoised by grammar.py:48
    and bound to [parse] at :427; the memo of a pure function is not
    modelled).  The whole string must match.  Simplification: CPython's limit
    on int(<more than 4300 digits>) and its recursion limit are ignored. *)
Definition parse (s : pystr) : result abi_type :=
  match p_type (S (length s)) s with
  | Some (t, []) => Ok t
  | _ => if contains (lit "()") s then Err ValueError else Err ParseError
  end.

(** ** Printing *)

(** [str(z)] for a Python int *)
Fixpoint digits_of (fuel : nat) (z : Z) (acc : pystr) : pystr :=
  match fuel with
  | O => acc
  | S f =>
      let acc' := Z.to_N (48 + z mod 10) :: acc in
      if z <? 10 then acc' else digits_of f (z / 10) acc'
  end.
Definition str_of_Z (z : Z) : pystr :=
  if z <? 0 then lit "-" ++ digits_of (S (Z.to_nat (Z.log2 (- z)))) (- z) []
  else digits_of (S (Z.to_nat (Z.log2 z))) z [].

(** [repr(list(dim))] *)
Definition dim_str (d : dim) : pystr :=
  match d with
  | None => lit "[]"
  | Some n => lit "[" ++ str_of_Z n ++ lit "]"
  end.

Definition sub_str (s : subtype) : pystr :=
  match s with
  | SubNone => []
  | SubInt z => str_of_Z z
  | SubPair a b => str_of_Z a ++ lit "x" ++ str_of_Z b
  end.

(** [",".join(l)] *)
Fixpoint join_comma (l : list pystr) : pystr :=
  match l with
  | [] => []
  | [x] => x
  | x :: l' => x ++ lit "," ++ join_comma l'
  end.

(** grammar.py:238-246 and 294-309 to_type_str *)
Fixpoint to_type_str (t : abi_type) : pystr :=
  match t with
  | Basic base sub arr => base ++ sub_str sub ++ flat_map dim_str arr
  | Tup cs arr => lit "(" ++ join_comma (map to_type_str cs) ++ lit ")" ++ flat_map dim_str arr
  end.

(** grammar.py:248-259 and 311-323 item_type *)
Definition item_type (t : abi_type) : result abi_type :=
  match t with
  | Basic b s arr => match arr with [] => Err ValueError | _ => Ok (Basic b s (removelast arr)) end
  | Tup cs arr => match arr with [] => Err ValueError | _ => Ok (Tup cs (removelast arr)) end
  end.

(** grammar.py:217-219 _has_dynamic_arrlist *)
Definition has_dynamic_arrlist (arr : list dim) : bool :=
  existsb (fun d => match d with None => true | Some _ => false end) arr.

(** grammar.py:265-270 and 325-336 is_dynamic *)
Fixpoint is_dynamic_type (t : abi_type) : bool :=
  match t with
  | Basic base sub arr =>
      has_dynamic_arrlist arr
      || str_eqb base (lit "string")
      || (str_eqb base (lit "bytes") && match sub with SubNone => true | _ => false end)
  | Tup cs arr => has_dynamic_arrlist arr || existsb is_dynamic_type cs
  end.

(** grammar.py:338-396 BasicType.validate *)
Definition validate_basic (base : pystr) (sub : subtype) : result unit :=
  if str_eqb base (lit "string") then
    match sub with SubNone => Ok tt | _ => Err ABITypeError end
  else if str_eqb base (lit "bytes") then
    match sub with
    | SubNone => Ok tt
    | SubInt n => raise_if (32 <? n) ABITypeError
    | SubPair _ _ => Err ABITypeError
    end
  else if str_eqb base (lit "int") || str_eqb base (lit "uint") then
    match sub with
    | SubInt n =>
        raise_if ((n <? 8) || (256 <? n)) ABITypeError ;;;
        raise_if (negb (n mod 8 =? 0)) ABITypeError
    | _ => Err ABITypeError
    end
  else if str_eqb base (lit "fixed") || str_eqb base (lit "ufixed") then
    match sub with
    | SubPair bits minus_e =>
        raise_if ((bits <? 8) || (256 <? bits)) ABITypeError ;;;
        raise_if (negb (bits mod 8 =? 0)) ABITypeError ;;;
        raise_if ((minus_e <? 1) || (80 <? minus_e)) ABITypeError
    | _ => Err ABITypeError
    end
  else if str_eqb base (lit "hash") then
    match sub with SubInt _ => Ok tt | _ => Err ABITypeError end
  else if str_eqb base (lit "address") then
    match sub with SubNone => Ok tt | _ => Err ABITypeError end
  else Ok tt.

(** grammar.py:261-263 and 338-396 validate *)
Fixpoint validate_type (t : abi_type) : result unit :=
  match t with
  | Basic base sub _ => validate_basic base sub
  | Tup cs _ =>
      (fix go (l : list abi_type) : result unit :=
         match l with
         | [] => Ok tt
         | c :: l' => validate_type c ;;; go l'
         end) cs
  end.

(** ** Normalization (grammar.py:399-424) *)

(** grammar.py:399-406 TYPE_ALIASES *)
Definition TYPE_ALIASES : list (pystr * pystr) :=
  [ (lit "int", lit "int256");
    (lit "uint", lit "uint256");
    (lit "fixed", lit "fixed128x18");
    (lit "ufixed", lit "ufixed128x18");
    (lit "function", lit "bytes24");
    (lit "byte", lit "bytes1") ].

(** [\w] *)
Definition is_word (c : N) : bool :=
  if (c <? 128)%N then is_digit c || is_alpha c || (c =? 95)%N
  else is_word_nonascii c.

(** The alternatives are tried in order at a word boundary; the match must end
    at a word boundary.  [at_boundary] says whether the position is preceded
    by a non-word character (or the start). *)
Fixpoint match_alias (aliases : list (pystr * pystr)) (s : pystr) : option (pystr * pystr) :=
  match aliases with
  | [] => None
  | (a, b) :: rest =>
      if prefixb a s
         && match skipn (length a) s with [] => true | c :: _ => negb (is_word c) end
      then Some (b, skipn (length a) s)
      else match_alias rest s
  end.

(** [TYPE_ALIAS_RE.sub(...)]: leftmost non-overlapping matches; the scan
    resumes after a match (whose last character is a word character). *)
Fixpoint normalize_from (fuel : nat) (prev_word : bool) (s : pystr) : pystr :=
  match fuel with
  | O => s
  | S f =>
      match s with
      | [] => []
      | c :: s' =>
          match (if prev_word then None else match_alias TYPE_ALIASES s) with
          | Some (r, rest) => r ++ normalize_from f true rest
          | None => c :: normalize_from f (is_word c) s'
          end
      end
  end.

(** grammar.py:413-424 normalize *)
Definition normalize (s : pystr) : pystr := normalize_from (length s) false s.
