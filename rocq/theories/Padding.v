(** eth_abi/utils/padding.py: the functions for 32 bytes.  zpad, zpad_right and
    fpad themselves are in Bytes.v. *)
From Verif Require Import Py Bytes.
Open Scope Z_scope.

(** padding.py:12 *)
Definition zpad32 (b : bytes) : bytes := zpad b 32.
(** padding.py:20 *)
Definition zpad32_right (b : bytes) : bytes := zpad_right b 32.
(** padding.py:28 *)
Definition fpad32 (b : bytes) : bytes := fpad b 32.
