(** What the exceptions of encoding say.

    [ve_heard] repeats [ve] of Encoding.v, but a failure carries what goes into
    the message of the exception: encoding.py:84-90 "Value `{abbr(value)}` of
    type {type(value)} cannot be encoded by {cls.__name__}: {msg}".
    ObjectionProofs.v shows that it gives the same results. *)
From Coq Require Import Strings.String.
From Verif Require Import Py Bytes Utf8 Address Decimals Encoding Registry Codec.
Open Scope Z_scope.

(** The class of exception and [msg] *)
Inductive cause :=
(* EncodingTypeError; encoding.py:221, 259, 457, 479, 513, 545 without msg; 113-116, 583-587 "must be list-like ..." *)
| Unsuited
(* encoding.py:261-265 IllegalValue without msg *)
| NotFinite
(* encoding.py:269-275 "Cannot be encoded in {bits} bits. Must be bounded between [{lo}, {hi}]." *)
| OutsideInts (bits lo hi : Z)
| OutsideDecimals (bits : Z) (lo hi : decimal)
(* encoding.py:352-358 "residue {repr(residue)} outside allowed fractional precision of {places}" *)
| Residue (residue : decimal) (places : Z)
(* encoding.py:482-487 "exceeds total byte size for bytes{size} encoding" *)
| TooLong (size : Z)
(* encoding.py:118-124, 633-639, 677-683 "value has {got} items when {wanted} were expected" *)
| Count (got wanted : Z).
Definition class_of_cause (c : cause) : exc :=
  match c with
  | Unsuited => EncodingTypeError
  | NotFinite | Residue _ _ => IllegalValue
  | OutsideInts _ _ _ | OutsideDecimals _ _ _ | TooLong _ | Count _ _ => ValueOutOfBounds
  end.
(** [cls]: the name of the class without a leading "Packed", which the model
    does not always know. *)
Inductive objection :=
| Objects (cls : string) (value : pyval) (c : cause)
(* exceptions raised elsewhere *)
| Escapes (e : exc).
Definition exc_of (o : objection) : exc := match o with Objects _ _ c => class_of_cause c | Escapes e => e end.

Inductive heard (A : Type) := Gives (a : A) | Says (o : objection).
Arguments Gives {A}. Arguments Says {A}.
Definition hbind {A B} (m : heard A) (f : A -> heard B) : heard B :=
  match m with Gives a => f a | Says o => Says o end.
Notation "x <! m ;; f" := (hbind m (fun x => f)) (at level 61, m at next level, right associativity).
Notation "' p <! m ;; f" := (hbind m (fun p => f)) (at level 61, p pattern, m at next level, right associativity).
Notation "m ;! f" := (hbind m (fun _ => f)) (at level 61, right associativity).
Definition quoted {A} (r : result A) : heard A := match r with Ok a => Gives a | Err e => Says (Escapes e) end.
(** The exception alone. *)
Definition muted {A} (m : heard A) : result A := match m with Gives a => Ok a | Says o => Err (exc_of o) end.
(** [if bad: self.invalidate_value(value, exc, msg)] *)
Definition object_if (bad : bool) (cls : string) (v : pyval) (c : cause) : heard unit :=
  if bad then Says (Objects cls v c) else Gives tt.
Fixpoint hmap {A B} (f : A -> heard B) (l : list A) : heard (list B) :=
  match l with
  | [] => Gives []
  | x :: l' => y <! f x ;; ys <! hmap f l' ;; Gives (y :: ys)
  end.

(** ** [validate_value] *)

(** encoding.py:254-275 *)
Definition int_heard (cls : string) (bits : Z) (bounds : Z * Z) (v : pyval) : heard unit :=
  match v with
  | PInt z => object_if ((z <? fst bounds) || (snd bounds <? z)) cls v (OutsideInts bits (fst bounds) (snd bounds))
  | _ => Says (Objects cls v Unsuited)
  end.
(** encoding.py:332-358 *)
Definition fixed_heard (cls : string) (bits : Z) (bounds : result (decimal * decimal)) (frac : Z) (v : pyval) : heard unit :=
  object_if (negb (is_number v) || match v with PFloat _ => true | _ => false end) cls v Unsuited ;!
  object_if (match v with PDec DNaN | PDec (DInf _) => true | _ => false end) cls v NotFinite ;!
  ' (lower, upper) <! quoted bounds ;;
  cl <! quoted (num_cmp v lower) ;;
  cu <! quoted (num_cmp v upper) ;;
  object_if (match cl with Lt => true | _ => false end || match cu with Gt => true | _ => false end) cls v
    (OutsideDecimals bits lower upper) ;!
  d <! quoted (to_dec v) ;;
  residue <! quoted (dec_mod d (ten_pow (- frac))) ;;
  object_if (dec_ltb ZERO residue) cls v (Residue residue frac).
(** encoding.py:477-487 *)
Definition bytesM_heard (bits : Z) (v : pyval) : heard unit :=
  object_if (negb (is_bytes v)) "BytesEncoder" v Unsuited ;!
  object_if (bits / 8 <? len (bytes_of v)) "BytesEncoder" v (TooLong (bits / 8)).
(** encoding.py:126-130 *)
Fixpoint tuple_items_heard (vs : list ((pyval -> heard unit) * (pyval -> heard bytes))) (xs : list pyval) : heard unit :=
  match vs, xs with
  | (val, enc) :: vs', x :: xs' =>
      match val x with
      | Gives _ => tuple_items_heard vs' xs'
      | Says o =>
          match exc_of o with
          | AttributeError => enc x ;! tuple_items_heard vs' xs'
          | _ => Says o
          end
      end
  | _, _ => Gives tt
  end.
(** encoding.py:111-130 *)
Definition tuple_heard (vs : list ((pyval -> heard unit) * (pyval -> heard bytes))) (v : pyval) : heard unit :=
  object_if (negb (is_list_like v)) "TupleEncoder" v Unsuited ;!
  object_if (negb (len (items v) =? len vs)) "TupleEncoder" v (Count (len (items v)) (len vs)) ;!
  tuple_items_heard vs (items v).
(** encoding.py:582-590, 630-639, 674-683 *)
Definition array_heard (cls : string) (n : option Z) (val : pyval -> heard unit) (v : pyval) : heard unit :=
  object_if (negb (is_list_like v)) cls v Unsuited ;!
  hmap val (items v) ;!
  match n with
  | None => Gives tt
  | Some n => object_if (negb (len (items v) =? n)) cls v (Count (len (items v)) n)
  end.

(** ** [encode] *)

(** encoding.py:288 *)
Definition uint_256_heard (z : Z) : heard bytes :=
  int_heard "UnsignedIntegerEncoder" 256 (compute_unsigned_integer_bounds 256) (PInt z) ;! quoted (encode_uint_256 z).
(** encoding.py:135-143 *)
Fixpoint chunks_heard (des : list (bool * (pyval -> heard bytes))) (xs : list pyval) : heard (list (option bytes * bytes)) :=
  match des, xs with
  | (dyn, enc) :: des', x :: xs' =>
      b <! enc x ;;
      rest <! chunks_heard des' xs' ;;
      Gives ((if dyn then (None, b) else (Some b, [])) :: rest)
  | _, _ => Gives []
  end.
(** encoding.py:145-153 *)
Definition join_heard (chunks : list (option bytes * bytes)) : heard bytes :=
  let head_length := fold_right (fun c acc => match fst c with None => 32 | Some b => len b end + acc) 0 chunks in
  heads <! hmap (fun co => match fst co with None => uint_256_heard (head_length + snd co) | Some b => Gives b end)
             (combine (map fst chunks) (tail_offsets 0 (map snd chunks))) ;;
  Gives (concat heads ++ concat (map snd chunks)).
(** encoding.py:592-609 *)
Definition elements_heard (val : pyval -> heard unit) (dyn : bool) (enc : pyval -> heard bytes) (v : pyval) : heard bytes :=
  val v ;!
  chunks <! hmap enc (items v) ;;
  if negb dyn || (len (items v) =? 0) then Gives (concat chunks)
  else
    heads <! hmap (fun off => uint_256_heard (32 * len (items v) + off)) (tail_offsets 0 chunks) ;;
    Gives (concat heads ++ concat chunks).
(** A value encoder: what [encode] does once [validate_value] has passed.  (The
    plain [encode] validates again, without effect.)  encoding.py:195-206,
    309-320, 415-427, 516-523, 534-536, 548-557, 568-570; the length word of a
    string of 2^256 bytes or more is not told apart. *)
Definition leaf_heard (val : pyval -> heard unit) (enc : pyval -> result bytes) : (pyval -> heard unit) * (pyval -> heard bytes) :=
  (val, fun v => val v ;! quoted (enc v)).
Definition flag_heard (ok : pyval -> bool) (cls : string) (v : pyval) : heard unit := object_if (negb (ok v)) cls v Unsuited.

(** [(e.validate_value, e.encode)] *)
Fixpoint ve_heard (e : encoder) : (pyval -> heard unit) * (pyval -> heard bytes) :=
  match e with
  | EUInt bits dsz =>
      leaf_heard (int_heard "UnsignedIntegerEncoder" bits (compute_unsigned_integer_bounds bits)) (encode_uint bits dsz)
  | EInt bits dsz => leaf_heard (int_heard "SignedIntegerEncoder" bits (compute_signed_integer_bounds bits)) (encode_sint bits dsz)
  | EBool dsz => leaf_heard (flag_heard is_boolean "BooleanEncoder") (encode_bool dsz)
  | EAddr dsz => leaf_heard (flag_heard is_address "AddressEncoder") (encode_addr dsz)
  | EUFixed bits frac dsz =>
      leaf_heard (fixed_heard "UnsignedFixedEncoder" bits (compute_unsigned_fixed_bounds bits frac) frac) (encode_ufixed bits frac dsz)
  | EFixed bits frac dsz =>
      leaf_heard (fixed_heard "SignedFixedEncoder" bits (compute_signed_fixed_bounds bits frac) frac) (encode_sfixed bits frac dsz)
  | EBytesM bits dsz => leaf_heard (bytesM_heard bits) (encode_bytesM bits dsz)
  | EByteString packed => leaf_heard (flag_heard is_bytes "ByteStringEncoder") (encode_bytestring packed)
  | EText packed => leaf_heard (flag_heard is_text "TextStringEncoder") (encode_text packed)
  | ETuple es =>
      let ves := map ve_heard es in
      let val := tuple_heard ves in
      (val, fun v => val v ;! chunks <! chunks_heard (combine (map enc_is_dyn es) (map snd ves)) (items v) ;; join_heard chunks)
  | ESized n e =>
      let val := array_heard "SizedArrayEncoder" (Some n) (fst (ve_heard e)) in
      (val, elements_heard val (enc_is_dyn e) (snd (ve_heard e)))
  | EDyn e =>
      let val := array_heard "DynamicArrayEncoder" None (fst (ve_heard e)) in
      (val, fun v =>
        n <! quoted (py_len v) ;;
        size <! uint_256_heard n ;;
        elements <! elements_heard val (enc_is_dyn e) (snd (ve_heard e)) v ;;
        Gives (size ++ elements))
  | EPackedArr n e =>
      let val := array_heard "ArrayEncoder" n (fst (ve_heard e)) in
      (val, elements_heard val (enc_is_dyn e) (snd (ve_heard e)))
  | ECallable f => (fun _ => Says (Escapes AttributeError), fun v => quoted (f v))
  | ECustom _ val enc => (fun v => quoted (val v), fun v => quoted (enc v))
  end.

(** codec.py:55-76 *)
Definition api_encode_heard (types args : pyval) (r : registry) : heard bytes * registry :=
  match validate_list_like_param types, validate_list_like_param args with
  | Err e, _ => (Says (Escapes e), r)
  | _, Err e => (Says (Escapes e), r)
  | Ok ts, Ok _ =>
      match sequenceM get_encoder_py ts r with
      | (Err e, r1) => (Says (Escapes e), r1)
      | (Ok es, r1) => (snd (ve_heard (ETuple es)) args, r1)
      end
  end.

Definition heard_in (w : world) (types args : pyval) : heard bytes := fst (api_encode_heard types args (fst w)).
