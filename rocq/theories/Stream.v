(** ContextFramesBytesIO (decoding.py:35-113) as an object: every method call
    returns or raises, and leaves a state behind in both cases.  Decoding.v has
    the same methods without the state after an exception, which decoding never
    looks at. *)
From Verif Require Import Py Bytes Decoding.
Open Scope Z_scope.

(** An int that fits a Py_ssize_t; others are an OverflowError on conversion. *)
Definition fits_ssize (z : Z) : bool := (- maxsize - 1 <=? z) && (z <=? maxsize).

(** Method calls.  The int arguments stand for ints and bools. *)
Inductive fop :=
| FRead (n : option Z)          (* read(), read(None), read(n) *)
| FSeek (p whence : Z)          (* seek(p, whence); whence defaults to 0 *)
| FSeekIn (p whence : Z)        (* seek_in_frame(p, whence) *)
| FPush (o : Z)                 (* push_frame(o) *)
| FPop.                         (* pop_frame() *)
Inductive fval := FData (b : bytes) | FPos (z : Z) | FNone.

Definition at_pos (z : Z) (st : stream) : stream := mkStream z (frames st) (total st).

(** [io.BytesIO.read]: a negative size or None reads to the end. *)
Definition f_read (buf : bytes) (n : option Z) (st : stream) : result fval * stream :=
  match n with
  | Some n =>
      if negb (fits_ssize n) then (Err OverflowError, st)
      else
        let data := if n <? 0 then drop_z (pos st) buf else take_z n (drop_z (pos st) buf) in
        (Ok (FData data), at_pos (pos st + len data) st)
  | None =>
      let data := drop_z (pos st) buf in (Ok (FData data), at_pos (pos st + len data) st)
  end.
(** [io.BytesIO.seek] (Modules/_io/bytesio.c _io_BytesIO_seek_impl). *)
Definition f_seek (buf : bytes) (p whence : Z) (st : stream) : result fval * stream :=
  if negb (fits_ssize p) then (Err OverflowError, st)
  else if (p <? 0) && (whence =? 0) then (Err ValueError, st)
  else if whence =? 0 then (Ok (FPos p), at_pos p st)
  else if whence =? 1 then
    if maxsize - pos st <? p then (Err OverflowError, st)
    else let q := Z.max 0 (pos st + p) in (Ok (FPos q), at_pos q st)
  else if whence =? 2 then
    if maxsize - len buf <? p then (Err OverflowError, st)
    else let q := Z.max 0 (len buf + p) in (Ok (FPos q), at_pos q st)
  else (Err ValueError, st).
(** decoding.py:85-89 *)
Definition f_seek_in (buf : bytes) (p whence : Z) (st : stream) : result fval * stream :=
  let '(r, st1) := f_seek buf (total st + p) whence st in
  (r ;;; Ok FNone, st1).
(** decoding.py:91-100: the frame is on the stack before the seek *)
Definition f_push (buf : bytes) (o : Z) (st : stream) : result fval * stream :=
  f_seek_in buf 0 0 (mkStream (pos st) ((o, pos st) :: frames st) (total st + o)).
(** decoding.py:102-113 *)
Definition f_pop (buf : bytes) (st : stream) : result fval * stream :=
  match frames st with
  | [] => (Err IndexError, st)
  | (o, ret) :: fs =>
      let '(r, st1) := f_seek buf ret 0 (mkStream (pos st) fs (total st - o)) in (r ;;; Ok FNone, st1)
  end.
Definition f_call (buf : bytes) (op : fop) (st : stream) : result fval * stream :=
  match op with
  | FRead n => f_read buf n st
  | FSeek p w => f_seek buf p w st
  | FSeekIn p w => f_seek_in buf p w st
  | FPush o => f_push buf o st
  | FPop => f_pop buf st
  end.
(** Calls one after the other, going on after exceptions. *)
Definition f_calls (buf : bytes) (ops : list fop) (st : stream) : stream :=
  fold_left (fun st op => snd (f_call buf op st)) ops st.
