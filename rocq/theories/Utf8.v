(** CPython's strict UTF-8 codec (external), used by
    eth_abi/encoding.py:551,570 ([codecs.encode(value, "utf8")]) and
    eth_abi/decoding.py:641 ([data.decode("utf-8", errors="strict")]). *)
From Verif Require Import Py Bytes.
Open Scope Z_scope.

(** UTF-8 of one code point; surrogates U+D800..U+DFFF are not encodable
    (UnicodeEncodeError).  Values above 0x10FFFF do not occur in a Python str;
    they are treated as not encodable. *)
Definition utf8_encode_cp (c : N) : result bytes :=
  let z := Z.of_N c in
  if z <? 0x80 then Ok [byte_of_Z z]
  else if z <? 0x800 then
    Ok [byte_of_Z (0xC0 + z / 64); byte_of_Z (0x80 + z mod 64)]
  else if z <? 0x10000 then
    if (0xD800 <=? z) && (z <=? 0xDFFF) then Err UnicodeEncodeError
    else Ok [byte_of_Z (0xE0 + z / 4096); byte_of_Z (0x80 + (z / 64) mod 64);
             byte_of_Z (0x80 + z mod 64)]
  else if z <? 0x110000 then
    Ok [byte_of_Z (0xF0 + z / 262144); byte_of_Z (0x80 + (z / 4096) mod 64);
        byte_of_Z (0x80 + (z / 64) mod 64); byte_of_Z (0x80 + z mod 64)]
  else Err UnicodeEncodeError.

Fixpoint utf8_encode (s : pystr) : result bytes :=
  match s with
  | [] => Ok []
  | c :: s' => b <- utf8_encode_cp c ;; bs <- utf8_encode s' ;; Ok (b ++ bs)
  end.

Definition is_cont (b : byte) : bool := (0x80 <=? Z_of_byte b) && (Z_of_byte b <=? 0xBF).

(** Strict decoding, following the table of well-formed byte sequences
    (Unicode 3.9, table 3-7), which is what CPython implements. *)
Fixpoint utf8_decode (bs : bytes) : result pystr :=
  match bs with
  | [] => Ok []
  | b0 :: r0 =>
    let z0 := Z_of_byte b0 in
    if z0 <? 0x80 then s <- utf8_decode r0 ;; Ok (Z.to_N z0 :: s)
    else if z0 <? 0xC2 then Err UnicodeDecodeError
    else match r0 with
    | [] => Err UnicodeDecodeError
    | b1 :: r1 =>
      let z1 := Z_of_byte b1 in
      if z0 <? 0xE0 then
        if is_cont b1 then
          s <- utf8_decode r1 ;; Ok (Z.to_N ((z0 - 0xC0) * 64 + (z1 - 0x80)) :: s)
        else Err UnicodeDecodeError
      else match r1 with
      | [] => Err UnicodeDecodeError
      | b2 :: r2 =>
        let z2 := Z_of_byte b2 in
        if z0 <? 0xF0 then
          if is_cont b1 && is_cont b2
             && (if z0 =? 0xE0 then 0xA0 <=? z1 else true)
             && (if z0 =? 0xED then z1 <=? 0x9F else true)
          then s <- utf8_decode r2 ;;
               Ok (Z.to_N ((z0 - 0xE0) * 4096 + (z1 - 0x80) * 64 + (z2 - 0x80)) :: s)
          else Err UnicodeDecodeError
        else match r2 with
        | [] => Err UnicodeDecodeError
        | b3 :: r3 =>
          let z3 := Z_of_byte b3 in
          if z0 <? 0xF5 then
            if is_cont b1 && is_cont b2 && is_cont b3
               && (if z0 =? 0xF0 then 0x90 <=? z1 else true)
               && (if z0 =? 0xF4 then z1 <=? 0x8F else true)
            then s <- utf8_decode r3 ;;
                 Ok (Z.to_N ((z0 - 0xF0) * 262144 + (z1 - 0x80) * 4096
                             + (z2 - 0x80) * 64 + (z3 - 0x80)) :: s)
            else Err UnicodeDecodeError
          else Err UnicodeDecodeError
        end
      end
    end
  end.
