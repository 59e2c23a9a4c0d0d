(** The texts of the messages of decoding.py. *)
From Coq Require Import Strings.Byte Strings.String.
From Verif Require Import Py Bytes Grammar Texts Complaints.
Open Scope N_scope.

(** The characters with the codes of the bytes. *)
Definition codes (b : bytes) : pystr := map Byte.to_N b.
(** CPython's repr of bytes (bytes_repr): as for a str in which no character from
    U+0080 on is printable *)
Definition bytes_repr (b : bytes) : pystr := lit "b" ++ repr (fun _ => false) (codes b).

(** [None]: the message is made elsewhere. *)
Definition complaint_text (c : complaint) : option pystr :=
  match c with
  (* decoding.py:213-216, 319-322 *)
  | CPointer in_tuple l =>
      Some ((if in_tuple then lit "Invalid pointer in tuple at location " else lit "Invalid pointer in array at location ")
            ++ str_of_Z l ++ lit " in payload")
  (* decoding.py:391-394, 603-605 *)
  | CShort in_string wanted got =>
      Some (lit "Tried to read " ++ str_of_Z wanted ++ lit " bytes, only got " ++ str_of_Z got
            ++ (if in_string then lit " bytes" else lit " bytes."))
  (* decoding.py:416-418, 497-499, 574-576, 609-611 *)
  | CPadding p => Some (lit "Padding bytes were not empty: " ++ bytes_repr p)
  (* decoding.py:440-442 *)
  | CBool d => Some (lit "Boolean must be either 0x0 or 0x1.  Got: " ++ bytes_repr d)
  | COther _ => None
  end.
