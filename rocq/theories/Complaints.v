(** What the exceptions of decoding say.

    [decode_told] repeats [decode_with] of Decoding.v, but a failure carries the
    numbers and bytes that go into the message of the exception; ComplaintProofs.v
    shows that it gives the same results. *)
From Verif Require Import Py Bytes Utf8 Address Decimals Encoding Decoding Registry Codec.
Open Scope Z_scope.

Inductive complaint :=
(* decoding.py:213-216, 319-322 "Invalid pointer in {tuple, array} at location {location} in payload" *)
| CPointer (in_tuple : bool) (location : Z)
(* decoding.py:391-394 "Tried to read {wanted} bytes, only got {got} bytes.", in_string: 603-605, without the full stop *)
| CShort (in_string : bool) (wanted got : Z)
(* decoding.py:416-418, 497-499, 574-576, 609-611 "Padding bytes were not empty: {padding}" *)
| CPadding (padding : bytes)
(* decoding.py:440-442 "Boolean must be either 0x0 or 0x1.  Got: {data}" *)
| CBool (data : bytes)
(* exceptions raised elsewhere *)
| COther (e : exc).
Definition class_of (c : complaint) : exc :=
  match c with
  | CPointer _ _ => InvalidPointer
  | CShort _ _ _ => InsufficientDataBytes
  | CPadding _ | CBool _ => NonEmptyPaddingBytes
  | COther e => e
  end.

Inductive told (A : Type) := Fine (a : A) | Told (c : complaint).
Arguments Fine {A}. Arguments Told {A}.
Definition tbind {A B} (m : told A) (f : A -> told B) : told B :=
  match m with Fine a => f a | Told c => Told c end.
Notation "x <~ m ;; f" := (tbind m (fun x => f)) (at level 61, m at next level, right associativity).
Notation "' p <~ m ;; f" := (tbind m (fun p => f)) (at level 61, p pattern, m at next level, right associativity).
Definition plainly {A} (r : result A) : told A := match r with Ok a => Fine a | Err e => Told (COther e) end.
(** The exception alone. *)
Definition erase {A} (m : told A) : result A := match m with Fine a => Ok a | Told c => Err (class_of c) end.

(** [for _ in range(p): s = f(s)] *)
Fixpoint tloop_pos {S} (p : positive) (f : S -> told S) (s : S) : told S :=
  match p with
  | xH => f s
  | xO p' => s1 <~ tloop_pos p' f s ;; tloop_pos p' f s1
  | xI p' => s0 <~ f s ;; s1 <~ tloop_pos p' f s0 ;; tloop_pos p' f s1
  end.
Definition tloop {S} (n : Z) (f : S -> told S) (s : S) : told S :=
  match n with
  | Zpos p => tloop_pos p f s
  | _ => Fine s
  end.

(** decoding.py:387-396 *)
Definition fixed_told (buf : bytes) (n : Z) (st : stream) : told (bytes * stream) :=
  ' (data, st') <~ plainly (read buf n st) ;;
  if len data =? n then Fine (data, st') else Told (CShort false n (len data)).
(** decoding.py:471 decode_uint_256 *)
Definition uint_256_told (buf : bytes) (st : stream) : told (Z * stream) :=
  ' (raw, st') <~ fixed_told buf 32 st ;; Fine (from_be raw, st').
(** decoding.py:251-259, 398-418, 487-499, 564-576: [bad] is the test of
    validate_padding_bytes *)
Definition word_told (big_endian : bool) (bits : Z) (fn : bytes -> told pyval) (check : pyval -> bytes -> Z -> result unit)
    (buf : bytes) (st : stream) : told (pyval * stream) :=
  ' (raw, st') <~ fixed_told buf 32 st ;;
  let vsz := bits / 8 in
  let psz := 32 - vsz in
  let '(data, padding) :=
    if big_endian then (drop_z psz raw, take_z psz raw)
    else (take_z vsz raw, drop_z vsz raw) in
  v <~ fn data ;;
  match check v padding psz with
  | Ok _ => Fine (v, st')
  | Err _ => Told (CPadding padding)
  end.
(** decoding.py:433-442 *)
Definition bool_told (data : bytes) : told pyval :=
  if bytes_eqb data [x00] then Fine (PBool false)
  else if bytes_eqb data [x01] then Fine (PBool true)
  else Told (CBool data).
(** decoding.py:595-613 *)
Definition bytestring_told (strict : bool) (buf : bytes) (st : stream) : told (bytes * stream) :=
  ' (data_length, st1) <~ uint_256_told buf st ;;
  let padded_length := ceil32 data_length in
  ' (data, st2) <~ plainly (read buf padded_length st1) ;;
  if strict then
    if len data <? padded_length then Told (CShort true padded_length (len data))
    else
      let padding := drop_z data_length data in
      if negb (bytes_eqb padding (zeros (padded_length - data_length))) then Told (CPadding padding)
      else Fine (take_z data_length data, st2)
  else Fine (take_z data_length data, st2).
(** decoding.py:203-216, 310-322 *)
Definition pointer_told (in_tuple : bool) (buf : bytes) (start hi : Z) (st : stream) : told stream :=
  ' (offset, st') <~ uint_256_told buf st ;;
  let idx := start + offset in
  if (idx <? hi) || (len buf <=? idx) then Told (CPointer in_tuple (pos st' - 32)) else Fine st'.
(** decoding.py:301-323 *)
Definition pointers_told (headtail : bool) (n : Z) (buf : bytes) (st : stream) : told stream :=
  if headtail then
    st' <~ tloop n (pointer_told false buf (pos st) (pos st + 32 * n)) st ;;
    plainly (seek (pos st) st')
  else Fine st.
(** decoding.py:340-341, 356-357 *)
Definition items_told (n : Z) (f : stream -> told (pyval * stream)) (st : stream) : told (list pyval * stream) :=
  ' (acc, st') <~ tloop n (fun s : list pyval * stream => ' (v, st') <~ f (snd s) ;; Fine (v :: fst s, st')) ([], st) ;;
  Fine (rev acc, st').

(** [decode] for every decoder *)
Fixpoint decode_told (h : heap) (d : decoder) (buf : bytes) (st : stream) {struct d} : told (pyval * stream) :=
  match d with
  | DUInt bits => word_told true bits (fun b => Fine (PInt (from_be b))) check_zero_padding buf st
  | DInt bits => word_told true bits (fun b => Fine (PInt (signed_of bits (from_be b)))) check_sign_padding buf st
  | DBool => word_told true 8 bool_told check_zero_padding buf st
  | DAddr =>
      word_told true 160 (fun b => s <~ plainly (to_normalized_address (PBytes b)) ;; Fine (PStr s)) check_zero_padding buf st
  | DUFixed bits frac => word_told true bits (fun b => plainly (unscale frac (from_be b))) check_zero_padding buf st
  | DFixed bits frac =>
      word_told true bits (fun b => plainly (unscale frac (signed_of bits (from_be b)))) check_sign_padding buf st
  | DBytesM bits => word_told false bits (fun b => Fine (PBytes b)) check_zero_padding buf st
  | DByteString s => ' (b, st') <~ bytestring_told (strict_val h s) buf st ;; Fine (PBytes b, st')
  | DString s handler =>
      ' (b, st') <~ bytestring_told (strict_val h s) buf st ;;
      t <~ plainly (handler b) ;; Fine (PStr t, st')
  | DHeadTail d' =>
      (* decoding.py:155-169 *)
      ' (start_pos, st1) <~ uint_256_told buf st ;;
      st2 <~ plainly (push_frame start_pos st1) ;;
      ' (v, st3) <~ decode_told h d' buf st2 ;;
      st4 <~ plainly (pop_frame st3) ;;
      Fine (v, st4)
  | DTuple ds =>
      (* decoding.py:191-228 *)
      let start := pos st in
      let hi := start + 32 * fold_right (fun d acc => array_size_attr d + acc) 0 ds in
      st1 <~ (fix vp (ds : list decoder) (st : stream) : told stream :=
                match ds with
                | [] => Fine st
                | d :: ds' =>
                    st' <~ (if is_headtail d then pointer_told true buf start hi st
                            else ' (_, st') <~ decode_told h d buf st ;; Fine st') ;;
                    vp ds' st'
                end) ds st ;;
      st2 <~ plainly (seek start st1) ;;
      ' (vs, st3) <~
          (fix go (ds : list decoder) (st : stream) : told (list pyval * stream) :=
             match ds with
             | [] => Fine ([], st)
             | d :: ds' =>
                 ' (v, st') <~ decode_told h d buf st ;;
                 ' (vs, st'') <~ go ds' st' ;;
                 Fine (v :: vs, st'')
             end) ds st2 ;;
      Fine (PTuple vs, st3)
  | DSized n d' =>
      (* decoding.py:334-341 *)
      st1 <~ pointers_told (is_headtail d') n buf st ;;
      ' (vs, st2) <~ items_told n (decode_told h d' buf) st1 ;;
      Fine (PTuple vs, st2)
  | DDyn d' =>
      (* decoding.py:348-358 *)
      ' (n, st1) <~ uint_256_told buf st ;;
      st2 <~ plainly (push_frame 32 st1) ;;
      st3 <~ pointers_told (is_headtail d') n buf st2 ;;
      ' (vs, st4) <~ items_told n (decode_told h d' buf) st3 ;;
      st5 <~ plainly (pop_frame st4) ;;
      Fine (PTuple vs, st5)
  | DCallable f => plainly (f buf st)
  | DCustom _ s f => plainly (f (strict_val h s) buf st)
  end.

(** codec.py:130-163 *)
Definition api_decode_told (types data : pyval) (strict : bool) (w : world) : told pyval * world :=
  match validate_list_like_param types, validate_bytes_param data with
  | Err e, _ => (Told (COther e), w)
  | _, Err e => (Told (COther e), w)
  | Ok ts, Ok b =>
      match sequenceM (get_decoder_py (Some strict)) ts w with
      | (Err e, w1) => (Told (COther e), w1)
      | (Ok ds, w1) => (' (v, _) <~ decode_told (snd w1) (mk_dtuple ds) b new_stream ;; Fine v, w1)
      end
  end.
Definition told_in (w : world) (types data : pyval) (strict : bool) : told pyval := fst (api_decode_told types data strict w).
