(** What is said about ContextFramesBytesIO in C64. *)
From Verif Require Import Py Bytes Decoding Stream.
Open Scope Z_scope.

(** The sum of the offsets on the frame stack. *)
Definition sum_offsets (fs : list (Z * Z)) : Z := fold_right (fun f acc => fst f + acc) 0 fs.
(** Calls in which every push_frame has its pop_frame. *)
Inductive nested : list fop -> Prop :=
| NE_nil : nested []
| NE_read n ops : nested ops -> nested (FRead n :: ops)
| NE_seek p w ops : nested ops -> nested (FSeek p w :: ops)
| NE_seek_in p w ops : nested ops -> nested (FSeekIn p w :: ops)
| NE_frame o body ops : nested body -> nested ops -> nested (FPush o :: body ++ FPop :: ops).
(** Streams that calls can reach on this buffer. *)
Definition made (buf : bytes) (st : stream) : Prop := exists ops, st = f_calls buf ops new_stream.
(** Where seek(p, whence) goes on a stream of [size] bytes with the cursor at
    [here]: from the beginning, the cursor or the end, and never before the
    beginning. *)
Definition seek_to (size here p whence q : Z) : Prop :=
  - maxsize - 1 <= p <= maxsize
  /\ exists base, (whence = 0 /\ 0 <= p /\ base = 0 \/ whence = 1 /\ base = here \/ whence = 2 /\ base = size)
     /\ base + p <= maxsize /\ q = Z.max 0 (base + p).
(** What read(n) gives at the cursor: [n] bytes or, if there are fewer or no
    [n >= 0] is given, all that are left. *)
Definition read_at (buf : bytes) (here : Z) (n : option Z) (d : bytes) : Prop :=
  len buf < here /\ d = []
  \/ exists a c, buf = a ++ d ++ c /\ len a = here
     /\ match n with Some n => 0 <= n /\ (len d = n \/ len d < n /\ c = []) \/ n < 0 /\ c = [] | None => c = [] end.
(** When seek(p, whence) raises, and what. *)
Definition seek_fails (size here p whence : Z) (x : exc) : Prop :=
  x = OverflowError /\ ((p < - maxsize - 1 \/ maxsize < p) \/ whence = 1 /\ maxsize < here + p \/ whence = 2 /\ maxsize < size + p)
  \/ x = ValueError /\ - maxsize - 1 <= p <= maxsize /\ (whence = 0 /\ p < 0 \/ whence < 0 \/ 2 < whence).
