(** The texts of the messages of encoding.py. *)
From Coq Require Import Strings.String.
From Verif Require Import Py Bytes Grammar Abbr Objections.
Open Scope Z_scope.

(** CPython's str and format(_, "") of a Decimal (Decimal.__str__), in a context
    with capitals=1, which is the default *)
Definition str_of_decimal (d : decimal) : pystr :=
  match d with
  | DFin neg c e =>
      let n := str_of_Z (Z.of_N c) in
      let leftdigits := e + len n in
      let dotplace := if (e <=? 0) && (-6 <? leftdigits) then leftdigits else 1 in
      (if neg then lit "-" else [])
      ++ (if dotplace <=? 0 then lit "0" ++ lit "." ++ repeat 48%N (Z.to_nat (- dotplace)) ++ n
          else if len n <=? dotplace then n ++ repeat 48%N (Z.to_nat (dotplace - len n))
          else take_z dotplace n ++ lit "." ++ drop_z dotplace n)
      ++ (if leftdigits =? dotplace then []
          else lit "E" ++ (if 0 <=? leftdigits - dotplace then lit "+" else []) ++ str_of_Z (leftdigits - dotplace))
  | DInf neg => (if neg then lit "-" else []) ++ lit "Infinity"
  | DNaN => lit "NaN"
  end.

(** [cls.__name__]: [packed] tells for which codec; encoding.py:97-213, 278, 300,
    370, 403, 449, 474, 507, 539, 660, 691; with "Packed": 236, 291, 323, 391, 437, 470,
    498, 530, 564, 627 *)
Definition class_text (packed : bool) (cls : string) : pystr :=
  (if packed && negb (String.eqb cls "TupleEncoder") then lit "Packed" else []) ++ lit cls.

(** [msg] *)
Definition cause_text (cls : string) (c : cause) : option pystr :=
  match c with
  | Unsuited =>
      (* encoding.py:115 *)
      if String.eqb cls "TupleEncoder" then Some (lit "must be list-like object such as array or tuple")
      (* encoding.py:586 *)
      else if String.eqb cls "ArrayEncoder" || String.eqb cls "DynamicArrayEncoder" || String.eqb cls "SizedArrayEncoder"
      then Some (lit "must be list-like such as array or tuple")
      else None
  | NotFinite => None
  (* encoding.py:273-274 *)
  | OutsideInts bits lo hi =>
      Some (lit "Cannot be encoded in " ++ str_of_Z bits ++ lit " bits. Must be bounded between [" ++ str_of_Z lo
            ++ lit ", " ++ str_of_Z hi ++ lit "].")
  | OutsideDecimals bits lo hi =>
      Some (lit "Cannot be encoded in " ++ str_of_Z bits ++ lit " bits. Must be bounded between [" ++ str_of_decimal lo
            ++ lit ", " ++ str_of_decimal hi ++ lit "].")
  (* encoding.py:356-357; repr of a Decimal *)
  | Residue residue places =>
      Some (lit "residue " ++ lit "Decimal('" ++ str_of_decimal residue ++ lit "')"
            ++ lit " outside allowed fractional precision of " ++ str_of_Z places)
  (* encoding.py:486 *)
  | TooLong size => Some (lit "exceeds total byte size for bytes" ++ str_of_Z size ++ lit " encoding")
  (* encoding.py:122-123, 637-638, 681-682 *)
  | Count got wanted => Some (lit "value has " ++ str_of_Z got ++ lit " items when " ++ str_of_Z wanted ++ lit " were expected")
  end.

(** encoding.py:88-90; [rep] and [ty] give repr(value) and str(type(value)).
    [None]: the message is made elsewhere. *)
Definition objection_text (rep ty : pyval -> pystr) (packed : bool) (o : objection) : option pystr :=
  match o with
  | Objects cls v c =>
      match abbr_default (rep v) with
      | Ok r =>
          Some (lit "Value `" ++ r ++ lit "` of type " ++ ty v ++ lit " cannot be encoded by " ++ class_text packed cls
                ++ match cause_text cls c with None => [] | Some msg => lit ": " ++ msg end)
      | Err _ => None
      end
  | Escapes _ => None
  end.
