(** Big-endian integers, padding and slicing. *)
From Verif Require Import Py.
From Coq Require Import Strings.Byte.

(** The byte with value [z mod 256]. *)
Definition byte_of_Z (z : Z) : byte :=
  match Byte.of_N (Z.to_N (z mod 256)) with Some b => b | None => x00 end.

Definition Z_of_byte (b : byte) : Z := Z.of_N (Byte.to_N b).

(** [z.to_bytes(n, "big")] for [0 <= z < 256^n]. *)
Fixpoint to_be (n : nat) (z : Z) : bytes :=
  match n with
  | O => []
  | S n' => to_be n' (z / 256) ++ [byte_of_Z z]
  end.

(** [int.from_bytes(bs, "big")]; eth_utils.big_endian_to_int (external). *)
Definition from_be (bs : bytes) : Z :=
  fold_left (fun acc b => acc * 256 + Z_of_byte b) bs 0.

(** Python's [int.bit_length] on non-negative ints. *)
Definition bit_length (z : Z) : Z := if z =? 0 then 0 else Z.log2 z + 1.

(** eth_utils.int_to_big_endian (external):
    [value.to_bytes((value.bit_length() + 7) // 8 or 1, "big")];
    to_bytes raises OverflowError on negative ints. *)
Definition int_to_big_endian (z : Z) : result bytes :=
  if z <? 0 then Err OverflowError
  else
    let n := (bit_length z + 7) / 8 in
    Ok (to_be (Z.to_nat (if n =? 0 then 1 else n)) z).

(** [bytes.rjust(length, fill)] and [bytes.ljust(length, fill)]. *)
Definition rjust (fill : byte) (b : bytes) (n : Z) : bytes :=
  repeat fill (Z.to_nat (n - len b)) ++ b.
Definition ljust (fill : byte) (b : bytes) (n : Z) : bytes :=
  b ++ repeat fill (Z.to_nat (n - len b)).

(** eth_abi/utils/padding.py:6-9 zpad *)
Definition zpad (b : bytes) (n : Z) : bytes := rjust x00 b n.
(** eth_abi/utils/padding.py:14-17 zpad_right *)
Definition zpad_right (b : bytes) (n : Z) : bytes := ljust x00 b n.
(** eth_abi/utils/padding.py:22-25 fpad *)
Definition fpad (b : bytes) (n : Z) : bytes := rjust xff b n.

(** [b"\x00" * n] / [b"\xff" * n] (empty for n <= 0). *)
Definition zeros (n : Z) : bytes := repeat x00 (Z.to_nat n).
Definition ones (n : Z) : bytes := repeat xff (Z.to_nat n).

(** Python slices [l[:n]] and [l[n:]] for [n >= 0] (the only use in the code);
    written so that a huge [n] is not converted to a unary number. *)
Definition take_z {A} (n : Z) (l : list A) : list A :=
  if len l <=? n then l else firstn (Z.to_nat n) l.
Definition drop_z {A} (n : Z) (l : list A) : list A :=
  if len l <=? n then [] else skipn (Z.to_nat n) l.

(** eth_abi/utils/numeric.py:14-15 ceil32 *)
Definition ceil32 (x : Z) : Z := if x mod 32 =? 0 then x else x + 32 - x mod 32.
