(** eth_abi/codec.py, eth_abi/abi.py, eth_abi/packed.py and
    eth_abi/utils/validation.py: the public API. *)
From Verif Require Import Py Bytes Encoding Decoding Registry.
Open Scope Z_scope.

(** eth_abi/utils/validation.py:17-22 validate_list_like_param *)
Definition validate_list_like_param (v : pyval) : result (list pyval) :=
  match v with PList l | PTuple l | PSeq _ l => Ok l | _ => Err TypeError end.
(** eth_abi/utils/validation.py:10-14 validate_bytes_param *)
Definition validate_bytes_param (v : pyval) : result bytes :=
  match v with PBytes b | PByteArray b => Ok b | _ => Err TypeError end.

(** [registry.get_encoder(type_str)] for an arbitrary Python object.  Anything
    that is not a str is a TypeError: unhashable objects fail in
    functools.cache, others in grammar.parse (grammar.py:120-121), which every
    predicate in registry.py calls.  (Simplification: a user predicate that
    accepts non-strings, or Equals of a non-string, is not modelled.) *)
Definition get_encoder_py (t : pyval) (r : registry) : result encoder * registry :=
  match t with PStr s => get_encoder s r | _ => (Err TypeError, r) end.
Definition get_decoder_py (k : option bool) (t : pyval) (w : world) : result decoder * world :=
  match t with PStr s => get_decoder k s w | _ => (Err TypeError, w) end.

(** codec.py:55-76 ABIEncoder.encode *)
Definition api_encode (types args : pyval) (r : registry) : result bytes * registry :=
  match validate_list_like_param types, validate_list_like_param args with
  | Err e, _ => (Err e, r)
  | _, Err e => (Err e, r)
  | Ok ts, Ok _ =>
      match sequenceM get_encoder_py ts r with
      | (Err e, r1) => (Err e, r1)
      | (Ok es, r1) => (encode_with (ETuple es) args, r1)
      end
  end.

(** codec.py:108-120 is_encodable_type *)
Definition api_is_encodable_type (typ : pyval) (r : registry) : result bool * registry :=
  match typ with
  | PStr s => has_encoder s r
  | _ => (Ok false, r)      (* registry.py:465-470: the TypeError is swallowed *)
  end.

(** codec.py:96-106 *)
Definition check_encodable (e : encoder) (arg : pyval) : result bool :=
  match validate_value e arg with
  | Ok _ => Ok true
  | Err AttributeError =>
      match encode_with e arg with
      | Ok _ => Ok true
      | Err x => if is_encoding_error x then Ok false else Err x
      end
  | Err x => if is_encoding_error x then Ok false else Err x
  end.

(** codec.py:78-106 is_encodable *)
Definition api_is_encodable (typ arg : pyval) (r : registry) : result bool * registry :=
  match api_is_encodable_type typ r with
  | (Err e, r1) => (Err e, r1)
  | (Ok false, r1) => (Ok false, r1)
  | (Ok true, r1) =>
      match get_encoder_py typ r1 with
      | (Err e, r2) => (Err e, r2)
      | (Ok e, r2) => (check_encodable e arg, r2)
      end
  end.

(** codec.py:130-163 ABIDecoder.decode *)
Definition api_decode (types data : pyval) (strict : bool) (w : world) : result pyval * world :=
  match validate_list_like_param types, validate_bytes_param data with
  | Err e, _ => (Err e, w)
  | _, Err e => (Err e, w)
  | Ok ts, Ok b =>
      match sequenceM (get_decoder_py (Some strict)) ts w with
      | (Err e, w1) => (Err e, w1)
      | (Ok ds, w1) =>
          (' (v, _) <- decode_with (snd w1) (mk_dtuple ds) b new_stream ;; Ok v, w1)
      end
  end.

(** eth_abi/abi.py:8-13 and eth_abi/packed.py:8-11: the module-level functions,
    in the state in which the modules were imported. *)
Definition encode (types args : pyval) : result bytes := fst (api_encode types args default_registry).
Definition decode (types data : pyval) (strict : bool) : result pyval :=
  fst (api_decode types data strict (default_registry, [])).
Definition is_encodable (typ arg : pyval) : result bool := fst (api_is_encodable typ arg default_registry).
Definition is_encodable_type (typ : pyval) : result bool := fst (api_is_encodable_type typ default_registry).
Definition encode_packed (types args : pyval) : result bytes :=
  fst (api_encode types args registry_packed).
Definition is_encodable_packed (typ arg : pyval) : result bool :=
  fst (api_is_encodable typ arg registry_packed).
