(** Coders that call coders, with a limit on how many calls may be active.

    The definitions of Encoding.v, Decoding.v and Codec.v are repeated with a
    number of levels: a coder that is called takes one, and has the others for
    the coders it calls.  When none is left Python raises RecursionError, which
    is a RuntimeError.  Simplifications: a level stands for the few frames that
    one coder takes (__call__, encode or decode, validate_value, generators);
    the lookup of the coders is not limited; callables and user-defined coders
    take one level. *)
From Verif Require Import Py Bytes Address Decimals Grammar Encoding Decoding Registry Codec.
Open Scope Z_scope.

Definition too_deep {A} : result A := Err RuntimeError.
(** A call that itself calls nothing: decode_uint_256, encode_uint_256 *)
Definition at_level {A} (n : nat) (r : result A) : result A := match n with O => too_deep | S _ => r end.

(** ** Decoding *)
(** decoding.py:301-323; the pointers are read with decode_uint_256 *)
Definition deep_pointers (n : nat) (headtail : bool) (k : Z) (buf : bytes) (st : stream) : result stream :=
  if headtail then
    let start := pos st in
    st' <- loop_Z k (fun st => at_level n (check_pointer buf start (start + 32 * k) st)) st ;;
    seek start st'
  else Ok st.
Fixpoint decode_deep (h : heap) (d : decoder) (n : nat) (buf : bytes) (st : stream) {struct d} : result (pyval * stream) :=
  match n with
  | O => too_deep
  | S n' =>
      match d with
      | DByteString _ | DString _ _ =>
          (* decoding.py:596: the length is read with decode_uint_256 *)
          at_level n' (decode_with h d buf st)
      | DHeadTail d' =>
          (* decoding.py:155-169 *)
          ' (start_pos, st1) <- at_level n' (decode_uint_256 buf st) ;;
          st2 <- push_frame start_pos st1 ;;
          ' (v, st3) <- decode_deep h d' n' buf st2 ;;
          st4 <- pop_frame st3 ;;
          Ok (v, st4)
      | DTuple ds =>
          (* decoding.py:191-228 *)
          let start := pos st in
          let hi := start + 32 * fold_right (fun d acc => array_size_attr d + acc) 0 ds in
          st1 <- (fix vp (ds : list decoder) (st : stream) : result stream :=
                    match ds with
                    | [] => Ok st
                    | d :: ds' =>
                        st' <- (if is_headtail d then at_level n' (check_pointer buf start hi st)
                                else ' (_, st') <- decode_deep h d n' buf st ;; Ok st') ;;
                        vp ds' st'
                    end) ds st ;;
          st2 <- seek start st1 ;;
          ' (vs, st3) <-
              (fix go (ds : list decoder) (st : stream) : result (list pyval * stream) :=
                 match ds with
                 | [] => Ok ([], st)
                 | d :: ds' =>
                     ' (v, st') <- decode_deep h d n' buf st ;;
                     ' (vs, st'') <- go ds' st' ;;
                     Ok (v :: vs, st'')
                 end) ds st2 ;;
          Ok (PTuple vs, st3)
      | DSized k d' =>
          (* decoding.py:334-341 *)
          st1 <- deep_pointers n' (is_headtail d') k buf st ;;
          ' (vs, st2) <- loop_items k (decode_deep h d' n' buf) st1 ;;
          Ok (PTuple vs, st2)
      | DDyn d' =>
          (* decoding.py:348-358 *)
          ' (k, st1) <- at_level n' (decode_uint_256 buf st) ;;
          st2 <- push_frame 32 st1 ;;
          st3 <- deep_pointers n' (is_headtail d') k buf st2 ;;
          ' (vs, st4) <- loop_items k (decode_deep h d' n' buf) st3 ;;
          st5 <- pop_frame st4 ;;
          Ok (PTuple vs, st5)
      | _ => decode_with h d buf st
      end
  end.

(** ** Encoding *)
(** How deep [repr(value)] goes: the repr of a list or tuple calls that of its
    items.  That of another Sequence is taken to do so too, as for a deque. *)
Fixpoint repr_depth (v : pyval) : nat :=
  match v with
  | PList l | PTuple l | PSeq _ l => S (fold_right (fun x m => Nat.max (repr_depth x) m) O l)
  | _ => O
  end.
(** encoding.py:78-91: a rejected value is shown in the message *)
Definition deep_reject {A} (n : nat) (v : pyval) (e : exc) : result A :=
  if Nat.leb (repr_depth v) n then Err e else too_deep.
Definition deep_leaf {A} (n : nat) (v : pyval) (r : result A) : result A :=
  match r with
  | Err e => if is_encoding_error e then deep_reject n v e else Err e
  | Ok x => Ok x
  end.
(** encoding.py:508, 553: the length of bytes and strings is written with
    encode_uint_256 *)
Definition deep_prefixed (packed : bool) (n : nat) (v : pyval) (r : result bytes) : result bytes :=
  match r with
  | Ok b => if packed then Ok b else at_level n (Ok b)
  | Err _ => deep_leaf n v r
  end.
(** encoding.py:111-130 *)
Definition deep_tuple_validate (n : nat)
    (ves : list ((pyval -> result unit) * (pyval -> result bytes))) (v : pyval) : result unit :=
  if negb (is_list_like v) then deep_reject n v EncodingTypeError
  else if negb (len (items v) =? len ves) then deep_reject n v ValueOutOfBounds
  else tuple_validate_items ves (items v).
(** encoding.py:582-590 *)
Definition deep_array_validate (n : nat) (val : pyval -> result unit) (v : pyval) : result unit :=
  if negb (is_list_like v) then deep_reject n v EncodingTypeError else validate_all val (items v).
(** encoding.py:630-639 and 674-683 *)
Definition deep_sized_validate (n : nat) (k : option Z) (val : pyval -> result unit) (v : pyval) : result unit :=
  deep_array_validate n val v ;;;
  match k with
  | None => Ok tt
  | Some k => if negb (len (items v) =? k) then deep_reject n v ValueOutOfBounds else Ok tt
  end.
(** [ve] of Encoding.v.  The offsets of dynamic items are written with
    encode_uint_256 after the items, which needs no more levels than they do. *)
Fixpoint deep_ve (e : encoder) (n : nat) {struct e} : (pyval -> result unit) * (pyval -> result bytes) :=
  match n with
  | O => (fun _ => too_deep, fun _ => too_deep)
  | S n' =>
      match e with
      | ETuple es =>
          let ves := map (fun e => deep_ve e n') es in
          let val := deep_tuple_validate n' ves in
          (val,
           fun v =>
             val v ;;;
             chunks <- tuple_chunks (combine (map enc_is_dyn es) (map snd ves)) (items v) ;;
             join_chunks chunks)
      | ESized k e =>
          let val := deep_sized_validate n' (Some k) (fst (deep_ve e n')) in
          (val, encode_elements val (enc_is_dyn e) (snd (deep_ve e n')))
      | EDyn e =>
          let val := deep_array_validate n' (fst (deep_ve e n')) in
          (val,
           fun v =>
             k <- py_len v ;;
             size <- at_level n' (encode_uint_256 k) ;;
             elements <- encode_elements val (enc_is_dyn e) (snd (deep_ve e n')) v ;;
             Ok (size ++ elements))
      | EPackedArr k e =>
          let val := deep_sized_validate n' k (fst (deep_ve e n')) in
          (val, encode_elements val (enc_is_dyn e) (snd (deep_ve e n')))
      | EByteString packed | EText packed =>
          (fun v => deep_leaf n' v (fst (ve e) v), fun v => deep_prefixed packed n' v (snd (ve e) v))
      | ECallable _ | ECustom _ _ _ => ve e
      | _ => (fun v => deep_leaf n' v (fst (ve e) v), fun v => deep_leaf n' v (snd (ve e) v))
      end
  end.

(** ** The calls *)
(** codec.py:55-76 *)
Definition deep_encode (n : nat) (types args : pyval) (r : registry) : result bytes * registry :=
  match validate_list_like_param types, validate_list_like_param args with
  | Err e, _ => (Err e, r)
  | _, Err e => (Err e, r)
  | Ok ts, Ok _ =>
      match sequenceM get_encoder_py ts r with
      | (Err e, r1) => (Err e, r1)
      | (Ok es, r1) => (snd (deep_ve (ETuple es) n) args, r1)
      end
  end.
(** codec.py:78-106 *)
Definition deep_is_encodable (n : nat) (typ arg : pyval) (r : registry) : result bool * registry :=
  match api_is_encodable_type typ r with
  | (Err e, r1) => (Err e, r1)
  | (Ok false, r1) => (Ok false, r1)
  | (Ok true, r1) =>
      match get_encoder_py typ r1 with
      | (Err e, r2) => (Err e, r2)
      | (Ok e, r2) =>
          (match fst (deep_ve e n) arg with
           | Ok _ => Ok true
           | Err AttributeError =>
               match snd (deep_ve e n) arg with
               | Ok _ => Ok true
               | Err x => if is_encoding_error x then Ok false else Err x
               end
           | Err x => if is_encoding_error x then Ok false else Err x
           end, r2)
      end
  end.
(** codec.py:130-163 *)
Definition deep_decode (n : nat) (types data : pyval) (strict : bool) (w : world) : result pyval * world :=
  match validate_list_like_param types, validate_bytes_param data with
  | Err e, _ => (Err e, w)
  | _, Err e => (Err e, w)
  | Ok ts, Ok b =>
      match sequenceM (get_decoder_py (Some strict)) ts w with
      | (Err e, w1) => (Err e, w1)
      | (Ok ds, w1) =>
          (' (v, _) <- decode_deep (snd w1) (mk_dtuple ds) n b new_stream ;; Ok v, w1)
      end
  end.
Definition deep_encode_in (n : nat) (w : world) (types args : pyval) : result bytes := fst (deep_encode n types args (fst w)).
Definition deep_is_encodable_in (n : nat) (w : world) (typ arg : pyval) : result bool := fst (deep_is_encodable n typ arg (fst w)).
Definition deep_decode_in (n : nat) (w : world) (types data : pyval) (strict : bool) : result pyval :=
  fst (deep_decode n types data strict w).
