(** eth_utils address functions (external to /repo; eth-utils >= 2.0), used by
    eth_abi/encoding.py:449-467 (is_address, to_canonical_address),
    eth_abi/decoding.py:449-456 (to_normalized_address) and
    eth_abi/tools/_strategies.py:103 (to_checksum_address). *)
From Coq Require Import Strings.String.
From Verif Require Import Py Bytes Keccak.
Open Scope Z_scope.

Definition in_range (lo hi c : N) : bool := ((lo <=? c) && (c <=? hi))%N.
Definition is_digit (c : N) : bool := in_range 48 57 c.          (* 0-9 *)
Definition is_lower_hex (c : N) : bool := in_range 97 102 c.     (* a-f *)
Definition is_upper_hex (c : N) : bool := in_range 65 70 c.      (* A-F *)
Definition is_hex_digit (c : N) : bool := is_digit c || is_lower_hex c || is_upper_hex c.

(** [str.lower] / [str.upper] on ASCII characters (the functions are only
    applied to hex digits and "0x"). *)
Definition lower_cp (c : N) : N := if in_range 65 90 c then (c + 32)%N else c.
Definition upper_cp (c : N) : N := if in_range 97 122 c then (c - 32)%N else c.
Definition lower (s : pystr) : pystr := map lower_cp s.

(** [s.startswith(("0x", "0X"))] and [remove_0x_prefix] *)
Definition is_0x_prefixed (s : pystr) : bool :=
  match s with c0 :: c1 :: _ => (N.eqb c0 48) && (N.eqb c1 120 || N.eqb c1 88) | _ => false end.
Definition remove_0x_prefix (s : pystr) : pystr :=
  if is_0x_prefixed s then skipn 2 s else s.
(** [add_0x_prefix] *)
Definition add_0x_prefix (s : pystr) : pystr :=
  if is_0x_prefixed s then s else lit "0x" ++ s.

(** [is_hex_address]: text matching "(0x)?[0-9a-f]{40}", case-insensitive. *)
Definition is_hex_address (s : pystr) : bool :=
  let u := remove_0x_prefix s in
  (len u =? 40) && forallb is_hex_digit u.

(** [str.islower], [str.isupper], [str.isnumeric] on ASCII alphanumerics. *)
Definition is_cased_lower (c : N) : bool := in_range 97 122 c.
Definition is_cased_upper (c : N) : bool := in_range 65 90 c.
Definition str_islower (s : pystr) : bool :=
  existsb is_cased_lower s && negb (existsb is_cased_upper s).
Definition str_isupper (s : pystr) : bool :=
  existsb is_cased_upper s && negb (existsb is_cased_lower s).
Definition str_isnumeric (s : pystr) : bool :=
  match s with [] => false | _ => forallb is_digit s end.

(** [_is_checksum_formatted] *)
Definition is_checksum_formatted (s : pystr) : bool :=
  let u := remove_0x_prefix s in
  negb (str_islower u) && negb (str_isupper u) && negb (str_isnumeric u).

(** hex of a byte string, lower case, without prefix *)
Definition hex_digit (z : Z) : N := if z <? 10 then Z.to_N (48 + z) else Z.to_N (87 + z).
Definition hex_of_byte (b : byte) : pystr :=
  [hex_digit (Z_of_byte b / 16); hex_digit (Z_of_byte b mod 16)].
Definition hex_of_bytes (bs : bytes) : pystr := flat_map hex_of_byte bs.

Definition unhex_digit (c : N) : Z :=
  let z := Z.of_N c in
  if is_digit c then z - 48 else if is_lower_hex c then z - 87 else z - 55.
(** [bytes.fromhex] on an even-length string of hex digits *)
Fixpoint bytes_of_hex (s : pystr) : bytes :=
  match s with
  | c0 :: c1 :: s' => byte_of_Z (unhex_digit c0 * 16 + unhex_digit c1) :: bytes_of_hex s'
  | _ => []
  end.

(** [to_checksum_address] on an already normalized address: upper-case the
    i-th digit iff the i-th hex digit of keccak(text=<40 digits>) exceeds 7.
    The text is ASCII so its UTF-8 bytes are its code points. *)
Definition checksum_of_normalized (norm : pystr) : pystr :=
  let u := remove_0x_prefix norm in
  let h := hex_of_bytes (keccak256 (map (fun c => byte_of_Z (Z.of_N c)) u)) in
  lit "0x" ++ map (fun p => if 7 <? unhex_digit (snd p) then upper_cp (fst p) else fst p)
                  (combine u h).

(** The hex branch of [to_normalized_address]: to_hex(hexstr=s).lower() *)
Definition normalize_hex (s : pystr) : pystr := add_0x_prefix (lower s).

(** [is_checksum_address] on text *)
Definition is_checksum_address (s : pystr) : bool :=
  is_hex_address s && str_eqb s (checksum_of_normalized (normalize_hex s)).

(** [is_address] *)
Definition is_address (v : pyval) : bool :=
  match v with
  | PStr s =>
      if is_hex_address s
      then if is_checksum_formatted s then is_checksum_address s else true
      else false
  | PBytes b | PByteArray b => len b =? 20
  | _ => false
  end.

(** [to_normalized_address].  ValueError if the result is not an address;
    TypeError for values that are not str or bytes (the only other values
    to_hex accepts, ints and bools, are never passed: callers check
    [is_address] first, or pass bytes). *)
Definition to_normalized_address (v : pyval) : result pystr :=
  match v with
  | PStr s =>
      let h := normalize_hex s in
      if is_address (PStr h) then Ok h else Err ValueError
  | PBytes b | PByteArray b =>
      let h := lit "0x" ++ hex_of_bytes b in
      if is_address (PStr h) then Ok h else Err ValueError
  | _ => Err TypeError
  end.

(** [to_canonical_address] = decode_hex(to_normalized_address(v)) *)
Definition to_canonical_address (v : pyval) : result bytes :=
  h <- to_normalized_address v ;; Ok (bytes_of_hex (remove_0x_prefix h)).

(** [to_checksum_address] *)
Definition to_checksum_address (v : pyval) : result pystr :=
  h <- to_normalized_address v ;; Ok (checksum_of_normalized h).
