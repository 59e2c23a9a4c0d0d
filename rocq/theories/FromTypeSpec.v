(** Specification of the from_type_str methods of the coder classes: which type
    strings a class accepts, and the coder it builds.  Independent of the
    decorators of base.py and of the constructors. *)
From Coq Require Import Strings.String.
From Verif Require Import Py Spec Grammar GrammarSpec TypeSpec Utf8 Encoding Decoding Registry.
Open Scope Z_scope.

(** The base name a leaf class is made for; none for the classes of tuples and
    arrays and for user-defined classes. *)
Definition enc_base (c : enc_class) : option pystr :=
  match c with
  | CUInt | CPackedUInt => Some (lit "uint")
  | CInt | CPackedInt => Some (lit "int")
  | CBool | CPackedBool => Some (lit "bool")
  | CAddr | CPackedAddr => Some (lit "address")
  | CUFixed | CPackedUFixed => Some (lit "ufixed")
  | CFixed | CPackedFixed => Some (lit "fixed")
  | CBytesM | CPackedBytesM | CByteString | CPackedByteString => Some (lit "bytes")
  | CText | CPackedText => Some (lit "string")
  | CTuple | CBaseArray | CPackedArray | CUserEnc _ => None
  end.
Definition dec_base (c : dec_class) : option pystr :=
  match c with
  | CDUInt => Some (lit "uint")
  | CDInt => Some (lit "int")
  | CDBool => Some (lit "bool")
  | CDAddr => Some (lit "address")
  | CDUFixed => Some (lit "ufixed")
  | CDFixed => Some (lit "fixed")
  | CDBytesM | CDByteString => Some (lit "bytes")
  | CDString => Some (lit "string")
  | CDTuple | CDBaseArray | CUserDec _ => None
  end.

(** The coder a leaf class builds for a type.  Sizes of encoders: value bits,
    then bytes of the encoding. *)
Definition built_enc (c : enc_class) (t : sty) : option encoder :=
  match c, t with
  | CUInt, SUInt m => Some (EUInt m 32)
  | CPackedUInt, SUInt m => Some (EUInt m (m / 8))
  | CInt, SInt m => Some (EInt m 32)
  | CPackedInt, SInt m => Some (EInt m (m / 8))
  | CBool, SBool => Some (EBool 32)
  | CPackedBool, SBool => Some (EBool 1)
  | CAddr, SAddr => Some (EAddr 32)
  | CPackedAddr, SAddr => Some (EAddr 20)
  | CUFixed, SUFixed m n => Some (EUFixed m n 32)
  | CPackedUFixed, SUFixed m n => Some (EUFixed m n (m / 8))
  | CFixed, SFixed m n => Some (EFixed m n 32)
  | CPackedFixed, SFixed m n => Some (EFixed m n (m / 8))
  | CBytesM, SBytesM k => Some (EBytesM (8 * k) 32)
  | CPackedBytesM, SBytesM k => Some (EBytesM (8 * k) k)
  (* the classes of "bytes" also take the names of fixed-size bytes *)
  | CByteString, (SBytes | SBytesM _) => Some (EByteString false)
  | CPackedByteString, (SBytes | SBytesM _) => Some (EByteString true)
  | CText, SString => Some (EText false)
  | CPackedText, SString => Some (EText true)
  | _, _ => None
  end.
Definition built_dec (c : dec_class) (t : sty) : option decoder :=
  match c, t with
  | CDUInt, SUInt m => Some (DUInt m)
  | CDInt, SInt m => Some (DInt m)
  | CDBool, SBool => Some DBool
  | CDAddr, SAddr => Some DAddr
  | CDUFixed, SUFixed m n => Some (DUFixed m n)
  | CDFixed, SFixed m n => Some (DFixed m n)
  | CDBytesM, SBytesM k => Some (DBytesM (8 * k))
  | CDByteString, (SBytes | SBytesM _) => Some (DByteString (SConst true))
  | CDString, SString => Some (DString (SConst true) utf8_decode)
  | _, _ => None
  end.

(** The string, after expansion of shorthands, has this base name, some size
    and no array dimensions. *)
Definition has_base (b s : pystr) : Prop := exists T sub, g_type s T /\ expand T = Basic b sub [].

(** The exception of a leaf class for base [b], given what [built] it has for a
    type. *)
Inductive leaf_error (b : pystr) (built : sty -> Prop) (s : pystr) : exc -> Prop :=
| LE_empty_tuple : (forall T, ~ g_type s T) -> (exists x y, s = x ++ lit "()" ++ y) -> leaf_error b built s ValueError
| LE_syntax : (forall T, ~ g_type s T) -> (~ exists x y, s = x ++ lit "()" ++ y) -> leaf_error b built s ParseError
| LE_other_base : (exists T, g_type s T) -> ~ has_base b s -> leaf_error b built s ValueError
| LE_size : has_base b s -> (forall t, ~ type_name true s t) -> leaf_error b built s ABITypeError
| LE_none t : has_base b s -> type_name true s t -> ~ built t -> leaf_error b built s TypeError.

(** Coders for a list of names, asked for one after the other; the first
    exception ends it. *)
Inductive asks {St C} (get : pystr -> St -> result C * St) : list pystr -> St -> result (list C) -> St -> Prop :=
| AS_done st : asks get [] st (Ok []) st
| AS_stop n ns st x st1 : get n st = (Err x, st1) -> asks get (n :: ns) st (Err x) st1
| AS_next n ns st c st1 r st2 : get n st = (Ok c, st1) -> asks get ns st1 r st2 ->
    asks get (n :: ns) st (match r with Ok cs => Ok (c :: cs) | Err x => Err x end) st2.
(** Names separated by commas. *)
Inductive listed : list pystr -> pystr -> Prop :=
| LI_one s : listed [s] s
| LI_more s ss str : listed ss str -> listed (s :: ss) (s ++ lit "," ++ str).
(** Dynamic item decoders are wrapped in a HeadTailDecoder. *)
Definition wrapped (d : decoder) (dyn : bool) : decoder := if dyn then DHeadTail d else d.
(** What the array classes make of the item encoder. *)
Definition array_enc (packed : bool) (d : dim) (e : encoder) : result encoder :=
  if packed then Ok (EPackedArr d e)
  else match d with
       | None => Ok (EDyn e)
       | Some n => match enc_dyn_attr e with Some _ => Ok (ESized n e) | None => Err AttributeError end
       end.
Definition array_dec (d : dim) (i : decoder) : result decoder :=
  match dec_dyn_attr i with
  | None => Err AttributeError
  | Some dyn => Ok (match d with None => DDyn (wrapped i dyn) | Some n => DSized n (wrapped i dyn) end)
  end.
