(** CPython's limit on the conversion between int and str.

    sys.get_int_max_str_digits() is 4300 unless configured otherwise (CPython
    3.11, and security releases of 3.7-3.10): [repr(z)], [str(z)] and
    [int(text)] raise ValueError when the integer has more digits.  Two places
    of eth_abi meet the limit: every rejection of a value puts its repr in the
    message (encoding.py:78-91 through utils/string.py:14), and the visitor of
    the grammar converts digits (grammar.py:92-93), where parsimonious wraps
    the ValueError in a VisitationError.

    The definitions of Encoding.v and Codec.v, which ignore the limit, are
    repeated here with it. *)
From Verif Require Import Py Bytes Address Decimals Grammar Encoding Decoding Registry Codec.
Open Scope Z_scope.

Definition max_digits : Z := 4300.
(** [str(z)] raises ValueError.  CPython compares the number of digits. *)
Definition long_int (z : Z) : bool := 10 ^ max_digits <=? Z.abs z.

(** [repr(value)] raises ValueError.  The repr of a Fraction shows both parts,
    that of a list or tuple shows the items; that of another Sequence shows
    what its class pleases; Decimals are not limited.  Other
    objects (PObj) are assumed to have a repr. *)
Fixpoint repr_fails (v : pyval) : bool :=
  match v with
  | PInt z => long_int z
  | PFraction n d => long_int n || long_int (Z.pos d)
  | PList l | PTuple l => existsb repr_fails l
  | PSeq r _ => r
  | _ => false
  end.

(** encoding.py:78-91 invalidate_value.  [msg] tells whether formatting the
    message argument fails, which happens before the call. *)
Definition invalidate_value {A} (v : pyval) (msg : bool) (e : exc) : result A :=
  Err (if msg || repr_fails v then ValueError else e).
(** The outcome of a validate_value or encode whose every EncodingError comes
    from [invalidate_value v]; only a ValueOutOfBounds has a message with
    integers in it. *)
Definition limited {A} (msg : bool) (v : pyval) (r : result A) : result A :=
  match r with
  | Err e =>
      if is_encoding_error e
      then invalidate_value v (msg && match e with ValueOutOfBounds => true | _ => false end) e
      else Err e
  | Ok x => Ok x
  end.

(** encoding.py:111-130 *)
Definition limited_tuple_validate
    (ves : list ((pyval -> result unit) * (pyval -> result bytes))) (v : pyval) : result unit :=
  if negb (is_list_like v) then invalidate_value v false EncodingTypeError
  else if negb (len (items v) =? len ves) then invalidate_value v false ValueOutOfBounds
  else tuple_validate_items ves (items v).
(** encoding.py:582-590 *)
Definition limited_array_validate (val : pyval -> result unit) (v : pyval) : result unit :=
  if negb (is_list_like v) then invalidate_value v false EncodingTypeError else validate_all val (items v).
(** encoding.py:630-639 and 674-683; the message quotes array_size *)
Definition limited_sized_validate (n : option Z) (val : pyval -> result unit) (v : pyval) : result unit :=
  limited_array_validate val v ;;;
  match n with
  | None => Ok tt
  | Some n => if negb (len (items v) =? n) then invalidate_value v (long_int n) ValueOutOfBounds else Ok tt
  end.

(** [ve] of Encoding.v.  The message of an integer encoder quotes both bounds
    (encoding.py:268-275), that of a fixed-point encoder quotes Decimals. *)
Fixpoint limited_ve (e : encoder) : (pyval -> result unit) * (pyval -> result bytes) :=
  match e with
  | EUInt bits dsz =>
      let msg := long_int (snd (compute_unsigned_integer_bounds bits)) in
      (fun v => limited msg v (validate_uint bits v), fun v => limited msg v (encode_uint bits dsz v))
  | EInt bits dsz =>
      let msg := long_int (fst (compute_signed_integer_bounds bits)) in
      (fun v => limited msg v (validate_sint bits v), fun v => limited msg v (encode_sint bits dsz v))
  | EBool dsz => (fun v => limited false v (validate_bool v), fun v => limited false v (encode_bool dsz v))
  | EAddr dsz => (fun v => limited false v (validate_addr v), fun v => limited false v (encode_addr dsz v))
  | EUFixed bits frac dsz =>
      (fun v => limited false v (validate_ufixed bits frac v), fun v => limited false v (encode_ufixed bits frac dsz v))
  | EFixed bits frac dsz =>
      (fun v => limited false v (validate_sfixed bits frac v), fun v => limited false v (encode_sfixed bits frac dsz v))
  | EBytesM bits dsz => (fun v => limited false v (validate_bytesM bits v), fun v => limited false v (encode_bytesM bits dsz v))
  | EByteString packed => (fun v => limited false v (validate_bytestring v), fun v => limited false v (encode_bytestring packed v))
  | EText packed => (fun v => limited false v (validate_text v), fun v => limited false v (encode_text packed v))
  | ETuple es =>
      let ves := map limited_ve es in
      let val := limited_tuple_validate ves in
      (val,
       fun v =>
         val v ;;;
         chunks <- tuple_chunks (combine (map enc_is_dyn es) (map snd ves)) (items v) ;;
         join_chunks chunks)
  | ESized n e =>
      let val := limited_sized_validate (Some n) (fst (limited_ve e)) in
      (val, encode_elements val (enc_is_dyn e) (snd (limited_ve e)))
  | EDyn e =>
      let val := limited_array_validate (fst (limited_ve e)) in
      (val,
       fun v =>
         n <- py_len v ;;
         size <- encode_uint_256 n ;;
         elements <- encode_elements val (enc_is_dyn e) (snd (limited_ve e)) v ;;
         Ok (size ++ elements))
  | EPackedArr n e =>
      let val := limited_sized_validate n (fst (limited_ve e)) in
      (val, encode_elements val (enc_is_dyn e) (snd (limited_ve e)))
  | ECallable f => (fun _ => Err AttributeError, f)
  | ECustom _ val enc => (val, enc)
  end.

(** A run of more than [max_digits] digits, [run] of which have been seen. *)
Fixpoint long_run_from (run : Z) (s : pystr) : bool :=
  match s with
  | [] => false
  | c :: s' => if is_digit c then (max_digits <=? run) || long_run_from (run + 1) s' else long_run_from 0 s'
  end.
Definition long_run (s : pystr) : bool := long_run_from 0 s.

(** grammar.py:110-132 parse.  The tree is visited after the whole string has
    been matched, and in a string that matches every run of digits is one
    [digits] node. *)
Definition visit_fails (s : pystr) : bool :=
  match parse s with Ok _ => long_run s | Err _ => false end.

(** [registry.get_encoder], [registry.get_decoder] on a registry in which
    has_arrlist, or another of the predicates of registry.py:207-277, is
    registered: [find] calls every predicate (registry.py:81-85), and the
    VisitationError of one that parses is caught nowhere. *)
Definition limited_get_encoder (t : pyval) (r : registry) : result encoder * registry :=
  match t with
  | PStr s => if visit_fails s then (Err VisitationError, r) else get_encoder s r
  | _ => (Err TypeError, r)
  end.
Definition limited_get_decoder (k : option bool) (t : pyval) (w : world) : result decoder * world :=
  match t with
  | PStr s => if visit_fails s then (Err VisitationError, w) else get_decoder k s w
  | _ => (Err TypeError, w)
  end.

(** codec.py:55-76 *)
Definition limited_encode (types args : pyval) (r : registry) : result bytes * registry :=
  match validate_list_like_param types, validate_list_like_param args with
  | Err e, _ => (Err e, r)
  | _, Err e => (Err e, r)
  | Ok ts, Ok _ =>
      match sequenceM limited_get_encoder ts r with
      | (Err e, r1) => (Err e, r1)
      | (Ok es, r1) => (snd (limited_ve (ETuple es)) args, r1)
      end
  end.
(** codec.py:108-120 with registry.py:458-472 *)
Definition limited_is_encodable_type (typ : pyval) (r : registry) : result bool * registry :=
  match limited_get_encoder typ r with
  | (Ok _, r1) => (Ok true, r1)
  | (Err MultipleEntriesFound, r1) => (Err MultipleEntriesFound, r1)
  | (Err _, r1) => (Ok false, r1)
  end.
(** codec.py:78-106 *)
Definition limited_is_encodable (typ arg : pyval) (r : registry) : result bool * registry :=
  match limited_is_encodable_type typ r with
  | (Err e, r1) => (Err e, r1)
  | (Ok false, r1) => (Ok false, r1)
  | (Ok true, r1) =>
      match limited_get_encoder typ r1 with
      | (Err e, r2) => (Err e, r2)
      | (Ok e, r2) =>
          (match fst (limited_ve e) arg with
           | Ok _ => Ok true
           | Err AttributeError =>
               match snd (limited_ve e) arg with
               | Ok _ => Ok true
               | Err x => if is_encoding_error x then Ok false else Err x
               end
           | Err x => if is_encoding_error x then Ok false else Err x
           end, r2)
      end
  end.
(** codec.py:130-163 *)
Definition limited_decode (types data : pyval) (strict : bool) (w : world) : result pyval * world :=
  match validate_list_like_param types, validate_bytes_param data with
  | Err e, _ => (Err e, w)
  | _, Err e => (Err e, w)
  | Ok ts, Ok b =>
      match sequenceM (limited_get_decoder (Some strict)) ts w with
      | (Err e, w1) => (Err e, w1)
      | (Ok ds, w1) =>
          (' (v, _) <- decode_with (snd w1) (mk_dtuple ds) b new_stream ;; Ok v, w1)
      end
  end.

(** The calls in a given state (as in Histories.v). *)
Definition limited_encode_in (w : world) (types args : pyval) : result bytes := fst (limited_encode types args (fst w)).
Definition limited_is_encodable_in (w : world) (typ arg : pyval) : result bool := fst (limited_is_encodable typ arg (fst w)).
Definition limited_is_encodable_type_in (w : world) (typ : pyval) : result bool := fst (limited_is_encodable_type typ (fst w)).
Definition limited_decode_in (w : world) (types data : pyval) (strict : bool) : result pyval :=
  fst (limited_decode types data strict w).
