(** How often decoding reads from the stream.

    [decode_count] repeats [decode_with] of Decoding.v and counts the calls of
    [stream.read] (decoding.py:388, 599); CostProofs.v shows that it gives the
    same results. *)
From Verif Require Import Py Bytes Utf8 Address Decimals Encoding Decoding Registry Codec.
Open Scope Z_scope.

(** A computation that raises or returns, and the number of reads it made. *)
Definition counted (A : Type) := (Z * result A)%type.
Definition free {A} (r : result A) : counted A := (0, r).
Definition once {A} (r : result A) : counted A := (1, r).
Definition cbind {A B} (m : counted A) (f : A -> counted B) : counted B :=
  match m with
  | (n, Ok a) => (n + fst (f a), snd (f a))
  | (n, Err e) => (n, Err e)
  end.
Notation "x <~ m ;; f" := (cbind m (fun x => f)) (at level 61, m at next level, right associativity).
Notation "' p <~ m ;; f" := (cbind m (fun p => f)) (at level 61, p pattern, m at next level, right associativity).

(** [for _ in range(p): s = f(s)] *)
Fixpoint cloop_pos {S} (p : positive) (f : S -> counted S) (s : S) : counted S :=
  match p with
  | xH => f s
  | xO p' => s1 <~ cloop_pos p' f s ;; cloop_pos p' f s1
  | xI p' => s0 <~ f s ;; s1 <~ cloop_pos p' f s0 ;; cloop_pos p' f s1
  end.
Definition cloop {S} (n : Z) (f : S -> counted S) (s : S) : counted S :=
  match n with
  | Zpos p => cloop_pos p f s
  | _ => free (Ok s)
  end.

(** decoding.py:587-613: the length and the data are read separately *)
Definition bytestring_count (strict : bool) (buf : bytes) (st : stream) : counted (bytes * stream) :=
  ' (data_length, st1) <~ once (decode_uint_256 buf st) ;;
  let padded_length := ceil32 data_length in
  ' (data, st2) <~ once (read buf padded_length st1) ;;
  free
    (if strict then
       if len data <? padded_length then Err InsufficientDataBytes
       else if negb (bytes_eqb (drop_z data_length data) (zeros (padded_length - data_length)))
       then Err NonEmptyPaddingBytes
       else Ok (take_z data_length data, st2)
     else Ok (take_z data_length data, st2)).
(** decoding.py:203-216, 310-322 *)
Definition pointer_count (buf : bytes) (start hi : Z) (st : stream) : counted stream := once (check_pointer buf start hi st).
(** decoding.py:301-323 *)
Definition pointers_count (headtail : bool) (n : Z) (buf : bytes) (st : stream) : counted stream :=
  if headtail then
    st' <~ cloop n (pointer_count buf (pos st) (pos st + 32 * n)) st ;;
    free (seek (pos st) st')
  else free (Ok st).
(** decoding.py:340-341, 356-357 *)
Definition items_count (n : Z) (f : stream -> counted (pyval * stream)) (st : stream) : counted (list pyval * stream) :=
  ' (acc, st') <~ cloop n (fun s : list pyval * stream => ' (v, st') <~ f (snd s) ;; free (Ok (v :: fst s, st'))) ([], st) ;;
  free (Ok (rev acc, st')).

(** [decode] for every decoder.  Simplification: the reads made by callables
    and user-defined classes are not counted. *)
Fixpoint decode_count (h : heap) (d : decoder) (buf : bytes) (st : stream) {struct d} : counted (pyval * stream) :=
  match d with
  | DUInt _ | DInt _ | DBool | DAddr | DUFixed _ _ | DFixed _ _ | DBytesM _ => once (decode_with h d buf st)
  | DByteString s => ' (b, st') <~ bytestring_count (strict_val h s) buf st ;; free (Ok (PBytes b, st'))
  | DString s handler =>
      ' (b, st') <~ bytestring_count (strict_val h s) buf st ;;
      t <~ free (handler b) ;; free (Ok (PStr t, st'))
  | DHeadTail d' =>
      (* decoding.py:155-169 *)
      ' (start_pos, st1) <~ once (decode_uint_256 buf st) ;;
      st2 <~ free (push_frame start_pos st1) ;;
      ' (v, st3) <~ decode_count h d' buf st2 ;;
      st4 <~ free (pop_frame st3) ;;
      free (Ok (v, st4))
  | DTuple ds =>
      (* decoding.py:191-228 *)
      let start := pos st in
      let hi := start + 32 * fold_right (fun d acc => array_size_attr d + acc) 0 ds in
      st1 <~ (fix vp (ds : list decoder) (st : stream) : counted stream :=
                match ds with
                | [] => free (Ok st)
                | d :: ds' =>
                    st' <~ (if is_headtail d then pointer_count buf start hi st
                            else ' (_, st') <~ decode_count h d buf st ;; free (Ok st')) ;;
                    vp ds' st'
                end) ds st ;;
      st2 <~ free (seek start st1) ;;
      ' (vs, st3) <~
          (fix go (ds : list decoder) (st : stream) : counted (list pyval * stream) :=
             match ds with
             | [] => free (Ok ([], st))
             | d :: ds' =>
                 ' (v, st') <~ decode_count h d buf st ;;
                 ' (vs, st'') <~ go ds' st' ;;
                 free (Ok (v :: vs, st''))
             end) ds st2 ;;
      free (Ok (PTuple vs, st3))
  | DSized n d' =>
      (* decoding.py:334-341 *)
      st1 <~ pointers_count (is_headtail d') n buf st ;;
      ' (vs, st2) <~ items_count n (decode_count h d' buf) st1 ;;
      free (Ok (PTuple vs, st2))
  | DDyn d' =>
      (* decoding.py:348-358 *)
      ' (n, st1) <~ once (decode_uint_256 buf st) ;;
      st2 <~ free (push_frame 32 st1) ;;
      st3 <~ pointers_count (is_headtail d') n buf st2 ;;
      ' (vs, st4) <~ items_count n (decode_count h d' buf) st3 ;;
      st5 <~ free (pop_frame st4) ;;
      free (Ok (PTuple vs, st5))
  | DCallable f => free (f buf st)
  | DCustom _ s f => free (f (strict_val h s) buf st)
  end.

(** codec.py:130-163 with the number of reads *)
Definition api_decode_count (types data : pyval) (strict : bool) (w : world) : counted pyval * world :=
  match validate_list_like_param types, validate_bytes_param data with
  | Err e, _ => (free (Err e), w)
  | _, Err e => (free (Err e), w)
  | Ok ts, Ok b =>
      match sequenceM (get_decoder_py (Some strict)) ts w with
      | (Err e, w1) => (free (Err e), w1)
      | (Ok ds, w1) =>
          (' (v, _) <~ decode_count (snd w1) (mk_dtuple ds) b new_stream ;; free (Ok v), w1)
      end
  end.

(** The reads of one call of [decode]. *)
Definition reads_in (w : world) (types data : pyval) (strict : bool) : Z := fst (fst (api_decode_count types data strict w)).
