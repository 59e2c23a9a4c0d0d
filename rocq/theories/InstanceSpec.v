(** Registered decoder objects: one strict flag for all requests. *)
From Coq Require Import Strings.String.
From Verif Require Import Py Bytes Decoding Registry Codec Histories Handlers.
Open Scope Z_scope.

(** ByteStringDecoder() or StringDecoder(name), the object with number [i]. *)
Definition instance (i : N) (handler : option pystr) : decoder :=
  match handler with None => DByteString (SRef i) | Some name => string_decoder (SRef i) name end.
(** What becomes of the bytes read. *)
Inductive read_as : option pystr -> result pyval -> result pyval -> Prop :=
| RA_bytes r : read_as None r r
| RA_error name e : read_as (Some name) (Err e) (Err e)
| RA_text name b t : decode_utf8 name b = Ok t -> read_as (Some name) (Ok (PTuple [PBytes b])) (Ok (PTuple [PStr t]))
| RA_bad_text name b e : decode_utf8 name b = Err e -> read_as (Some name) (Ok (PTuple [PBytes b])) (Err e).

(** get_decoder(T), get_decoder(T, strict=…) or decode([T], b, strict=…) *)
Inductive request := Asked (k : option bool) | Decoded (b : bytes) (s : bool).
Definition op_of (T : pystr) (r : request) : op :=
  match r with Asked k => OGetDecoder k T | Decoded b s => ODecode (PList [PStr T]) (PBytes b) s end.
Definition argument (r : request) : option bool := match r with Asked k => k | Decoded _ s => Some s end.

(** The flag is set when the arguments of a request are new, and left alone when
    they have been seen. *)
Definition hear (st : list (option bool) * bool) (k : option bool) : list (option bool) * bool :=
  if existsb (opt_bool_eqb k) (fst st) then st else (k :: fst st, match k with Some b => b | None => true end).
Definition flag_after (l : list (option bool)) : bool := snd (fold_left hear l ([], true)).
