(** CPython's UTF-8 decoder with an error handler (external), used by
    eth_abi/decoding.py:623-641: [StringDecoder(handle_string_errors=name)].

    Simplification: handlers registered with codecs.register_error are not
    modelled; any name that is not one of Python's own stands for a handler that
    does not exist. *)
From Coq Require Import Strings.Byte Strings.String.
From Verif Require Import Py Bytes Utf8 Address Decoding.
Open Scope Z_scope.

(** What the decoder finds next: a character, or bytes that it reports to the
    handler. *)
Inductive utf8_piece :=
| Char (c : N)
| Bad (p : bytes).

(** May [b1] follow the lead byte [z0] >= 0xE0?  (CPython
    Objects/stringlib/codecs.h, utf8_decode) *)
Definition second_ok (z0 : Z) (b1 : byte) : bool :=
  is_cont b1
  && (if z0 =? 0xE0 then 0xA0 <=? Z_of_byte b1 else true)
  && (if z0 =? 0xED then Z_of_byte b1 <=? 0x9F else true)
  && (if z0 =? 0xF0 then 0x90 <=? Z_of_byte b1 else true)
  && (if z0 =? 0xF4 then Z_of_byte b1 <=? 0x8F else true).

(** One round of the decoder: the piece and the bytes left. *)
Definition utf8_next (bs : bytes) : option (utf8_piece * bytes) :=
  match bs with
  | [] => None
  | b0 :: r0 =>
    let z0 := Z_of_byte b0 in
    Some
      (if z0 <? 0x80 then (Char (Z.to_N z0), r0)
       else if z0 <? 0xC2 then (Bad [b0], r0)           (* invalid start byte *)
       else if z0 <? 0xE0 then
         match r0 with
         | b1 :: r1 =>
             if is_cont b1 then (Char (Z.to_N ((z0 - 0xC0) * 64 + (Z_of_byte b1 - 0x80))), r1)
             else (Bad [b0], r0)                         (* invalid continuation byte *)
         | [] => (Bad [b0], r0)                          (* unexpected end of data *)
         end
       else if z0 <? 0xF5 then
         match r0 with
         | b1 :: r1 =>
             if second_ok z0 b1 then
               match r1 with
               | b2 :: r2 =>
                   if is_cont b2 then
                     if z0 <? 0xF0 then
                       (Char (Z.to_N ((z0 - 0xE0) * 4096 + (Z_of_byte b1 - 0x80) * 64 + (Z_of_byte b2 - 0x80))), r2)
                     else
                       match r2 with
                       | b3 :: r3 =>
                           if is_cont b3 then
                             (Char (Z.to_N ((z0 - 0xF0) * 262144 + (Z_of_byte b1 - 0x80) * 4096
                                            + (Z_of_byte b2 - 0x80) * 64 + (Z_of_byte b3 - 0x80))), r3)
                           else (Bad [b0; b1; b2], r2)
                       | [] => (Bad [b0; b1; b2], r2)
                       end
                   else (Bad [b0; b1], r1)
               | [] => (Bad [b0; b1], r1)
               end
             else (Bad [b0], r0)
         | [] => (Bad [b0], r0)
         end
       else (Bad [b0], r0))                              (* invalid start byte *)
  end.
Fixpoint pieces_fuel (n : nat) (bs : bytes) : list utf8_piece :=
  match n with
  | O => []
  | S n' =>
      match utf8_next bs with
      | None => []
      | Some (p, r) => p :: pieces_fuel n' r
      end
  end.
Definition utf8_pieces (bs : bytes) : list utf8_piece := pieces_fuel (length bs) bs.

(** Python's error handlers (Python/codecs.c), called with the reported bytes *)
Definition handle (name : pystr) (p : bytes) : result pystr :=
  if str_eqb name (lit "strict") then Err UnicodeDecodeError
  else if str_eqb name (lit "ignore") then Ok []
  else if str_eqb name (lit "replace") then Ok [0xFFFD%N]
  else if str_eqb name (lit "backslashreplace") then Ok (flat_map (fun b => lit "\x" ++ hex_of_byte b) p)
  else if str_eqb name (lit "surrogateescape") then Ok (map (fun b => Z.to_N (0xDC00 + Z_of_byte b)) p)
  else if str_eqb name (lit "xmlcharrefreplace") || str_eqb name (lit "namereplace") then Err TypeError
  else Err LookupError.

Fixpoint handle_pieces (name : pystr) (l : list utf8_piece) : result pystr :=
  match l with
  | [] => Ok []
  | Char c :: l' => s <- handle_pieces name l' ;; Ok (c :: s)
  | Bad p :: l' => t <- handle name p ;; s <- handle_pieces name l' ;; Ok (t ++ s)
  end.

(** "surrogatepass" looks at the three bytes where the error begins
    (PyCodec_SurrogatePassErrors): the encoding of a surrogate is decoded, anything
    else raises. *)
Definition surrogate_at (bs : bytes) : option (N * bytes) :=
  match bs with
  | b0 :: b1 :: b2 :: r =>
      if (0xE0 <=? Z_of_byte b0) && (Z_of_byte b0 <? 0xF0) && is_cont b1 && is_cont b2 then
        let ch := (Z_of_byte b0 - 0xE0) * 4096 + (Z_of_byte b1 - 0x80) * 64 + (Z_of_byte b2 - 0x80) in
        if (0xD800 <=? ch) && (ch <=? 0xDFFF) then Some (Z.to_N ch, r) else None
      else None
  | _ => None
  end.
Fixpoint pass_fuel (n : nat) (bs : bytes) : result pystr :=
  match n with
  | O => Ok []
  | S n' =>
      match utf8_next bs with
      | None => Ok []
      | Some (Char c, r) => s <- pass_fuel n' r ;; Ok (c :: s)
      | Some (Bad _, _) =>
          match surrogate_at bs with
          | Some (c, r) => s <- pass_fuel n' r ;; Ok (c :: s)
          | None => Err UnicodeDecodeError
          end
      end
  end.

(** [data.decode("utf-8", errors=name)], decoding.py:640-641 *)
Definition decode_utf8 (name : pystr) (bs : bytes) : result pystr :=
  if str_eqb name (lit "surrogatepass") then pass_fuel (length bs) bs
  else handle_pieces name (utf8_pieces bs).

(** [StringDecoder(handle_string_errors=name)], decoding.py:623-626 *)
Definition string_decoder (s : strict_ref) (name : pystr) : decoder := DString s (decode_utf8 name).
