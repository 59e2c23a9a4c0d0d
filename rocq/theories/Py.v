(** Python-side vocabulary shared by the whole model: exceptions as values,
    bytes, str, int and the universe of Python values that can be handed to
    eth_abi.  No eth_abi code lives here except the exception classes. *)
From Coq Require Import Strings.Byte Strings.String Strings.Ascii.
From Coq Require Export Init.Byte.
From Coq Require Export List ZArith NArith Bool.
Export ListNotations.
Open Scope Z_scope.

(** [bytes]: Python bytes. *)
Definition bytes := list byte.

(** [pystr]: a Python str, as its sequence of code points. *)
Definition pystr := list N.

(** Code points of an ASCII literal, e.g. [lit "uint256"]. *)
Definition lit (s : string) : pystr := List.map N_of_ascii (list_ascii_of_string s).
Arguments lit s%string.

Fixpoint list_eqb {A} (eqb : A -> A -> bool) (l1 l2 : list A) : bool :=
  match l1, l2 with
  | [], [] => true
  | x :: l1', y :: l2' => eqb x y && list_eqb eqb l1' l2'
  | _, _ => false
  end.

(** Python's [==] on str and on bytes. *)
Definition str_eqb : pystr -> pystr -> bool := list_eqb N.eqb.
Definition bytes_eqb : bytes -> bytes -> bool := list_eqb Byte.eqb.

(** [len(x)] as a Python int. *)
Definition len {A} (l : list A) : Z := Z.of_nat (length l).

(** [sys.maxsize] on a 64-bit CPython: the largest [Py_ssize_t]. *)
Definition maxsize : Z := 2 ^ 63 - 1.

(** Exceptions, as far as eth_abi's callers can tell them apart.
    eth_abi/exceptions.py:4-115 for the library's own classes, the rest are
    builtins (or decimal signals) that can escape. *)
Inductive exc :=
(* eth_abi/exceptions.py:10-38 *)
| EncodingErrorBase | EncodingTypeError | IllegalValue | ValueOutOfBounds
(* eth_abi/exceptions.py:42-63 *)
| DecodingErrorBase | InsufficientDataBytes | NonEmptyPaddingBytes | InvalidPointer
(* eth_abi/exceptions.py:66-115 *)
| ParseError | ABITypeError | NoEntriesFound | MultipleEntriesFound
(* builtins *)
| ValueError | TypeError | KeyError | IndexError | AttributeError
| OverflowError | UnicodeDecodeError | UnicodeEncodeError | NotImplementedError
| LookupError | RuntimeError
(* parsimonious.exceptions.VisitationError: an exception raised while a parse
   tree is visited; derives from neither ParseError nor ValueError *)
| VisitationError
(* any other class derived from Exception, raised by code the user supplied *)
| UserError (n : N)
(* decimal signals *)
| DecimalOverflow | DecimalInvalidOperation
(* not an exception of the program: the model's recursion fuel ran out *)
| OutOfFuel.

(** [isinstance(e, EncodingError)], eth_abi/exceptions.py:4-38. *)
Definition is_encoding_error (e : exc) : bool :=
  match e with
  | EncodingErrorBase | EncodingTypeError | IllegalValue | ValueOutOfBounds => true
  | _ => false
  end.

(** [isinstance(e, ValueError)]: builtin hierarchy plus
    eth_abi/exceptions.py:78 (ABITypeError), :92 and :104 (registry errors).
    ParseError derives from parsimonious' own base class, not ValueError. *)
Definition is_value_error (e : exc) : bool :=
  match e with
  | ValueError | ABITypeError | NoEntriesFound | MultipleEntriesFound
  | UnicodeDecodeError | UnicodeEncodeError => true
  | _ => false
  end.

Inductive result (A : Type) :=
| Ok (a : A)
| Err (e : exc).
Arguments Ok {A} a.
Arguments Err {A} e.

Definition bind {A B} (r : result A) (k : A -> result B) : result B :=
  match r with Ok a => k a | Err e => Err e end.

Notation "x <- r ;; k" := (bind r (fun x => k))
  (at level 61, r at next level, right associativity).
Notation "' p <- r ;; k" := (bind r (fun p => k))
  (at level 61, p pattern, r at next level, right associativity).
Notation "r ;;; k" := (bind r (fun _ => k))
  (at level 61, right associativity).

(** Python [if c: raise e]. *)
Definition raise_if (c : bool) (e : exc) : result unit := if c then Err e else Ok tt.

(** [tuple(f(x) for x in l)] / [[f(x) for x in l]]: left to right, the first
    exception aborts. *)
Fixpoint mapM {A B} (f : A -> result B) (l : list A) : result (list B) :=
  match l with
  | [] => Ok []
  | x :: l' => y <- f x ;; ys <- mapM f l' ;; Ok (y :: ys)
  end.

(** decimal.Decimal values: sign, coefficient, exponent, or special. *)
Inductive decimal :=
| DFin (neg : bool) (coef : N) (exp : Z)
| DInf (neg : bool)
| DNaN.

(** Python values that may be passed to or returned from eth_abi.
    [PObj] stands for any object of a type the library treats as foreign to
    every ABI type (dict, set, custom object, ...).  [PSeq] stands for a
    list-like value (collections.abc.Sequence that is not a string type) other
    than list and tuple. *)
Inductive pyval :=
| PNone
| PBool (b : bool)
| PInt (z : Z)
| PFloat (tag : N)
| PComplex (tag : N)
| PFraction (num : Z) (den : positive)
| PDec (d : decimal)
| PBytes (b : bytes)
| PByteArray (b : bytes)
| PStr (s : pystr)
| PList (l : list pyval)
| PTuple (l : list pyval)
(* an object of another Sequence class (range, collections.deque, UserList...),
   by its items; iteration and len, which is at most sys.maxsize, agree.  [r]:
   its repr meets CPython's digit limit (Limits.v) *)
| PSeq (r : bool) (l : list pyval)
| PObj (tag : N).

(** eth_utils.types (external; version >= 2.0 as required by setup.py:52). *)
Definition is_boolean (v : pyval) : bool := match v with PBool _ => true | _ => false end.
Definition is_bytes (v : pyval) : bool :=
  match v with PBytes _ | PByteArray _ => true | _ => false end.
Definition is_text (v : pyval) : bool := match v with PStr _ => true | _ => false end.
(** [isinstance(v, numbers.Number)]: note that bool is an int in Python. *)
Definition is_number (v : pyval) : bool :=
  match v with
  | PBool _ | PInt _ | PFloat _ | PComplex _ | PFraction _ _ | PDec _ => true
  | _ => false
  end.
Definition is_list_like (v : pyval) : bool :=
  match v with PList _ | PTuple _ | PSeq _ _ => true | _ => false end.

(** The items of a list-like value, in iteration order. *)
Definition items (v : pyval) : list pyval :=
  match v with PList l | PTuple l | PSeq _ l => l | _ => [] end.

(** Contents of a bytes-like value. *)
Definition bytes_of (v : pyval) : bytes :=
  match v with PBytes b | PByteArray b => b | _ => [] end.

(** Python's [len(v)]; TypeError for unsized objects.  [PObj] is treated as
    unsized. *)
Definition py_len (v : pyval) : result Z :=
  match v with
  | PBytes b | PByteArray b => Ok (len b)
  | PStr s => Ok (len s)
  | PList l | PTuple l | PSeq _ l => Ok (len l)
  | _ => Err TypeError
  end.
