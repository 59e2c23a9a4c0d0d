(** The coder class behind each basic type, by name and keyword arguments. *)
From Verif Require Import Py Bytes Construct ConstructSpec Spec.
Open Scope Z_scope.

(** The class and arguments that encode a basic type: with the data in 32
    bytes or, packed, in as many as the value needs. *)
Definition enc_class (pk : bool) (t : sty) : option (cls * list (key * attr)) :=
  match t with
  | SUInt m => Some (if pk then (NPackedUIntEnc, size_kws (Given m) (Given (m / 8))) else (NUIntEnc, size_kws (Given m) Absent))
  | SInt m => Some (if pk then (NPackedIntEnc, size_kws (Given m) (Given (m / 8))) else (NIntEnc, size_kws (Given m) Absent))
  | SBool => Some (if pk then NPackedBoolEnc else NBoolEnc, [])
  | SAddr => Some (if pk then NPackedAddrEnc else NAddrEnc, [])
  | SUFixed m n => Some (if pk then (NPackedUFixedEnc, fixed_kws (Given m) (Given n) (Given (m / 8)))
                         else (NUFixedEnc, fixed_kws (Given m) (Given n) Absent))
  | SFixed m n => Some (if pk then (NPackedFixedEnc, fixed_kws (Given m) (Given n) (Given (m / 8)))
                        else (NFixedEnc, fixed_kws (Given m) (Given n) Absent))
  | SBytesM k => Some (if pk then (NPackedBytesEnc, size_kws (Given (k * 8)) (Given k)) else (NBytesEnc, size_kws (Given (k * 8)) Absent))
  | _ => None
  end.
(** The same for decoding. *)
Definition dec_class (t : sty) : option (cls * list (key * attr)) :=
  match t with
  | SUInt m => Some (NUIntDec, size_kws (Given m) Absent)
  | SInt m => Some (NIntDec, size_kws (Given m) Absent)
  | SBool => Some (NBoolDec, [])
  | SAddr => Some (NAddrDec, [])
  | SUFixed m n => Some (NUFixedDec, fixed_kws (Given m) (Given n) Absent)
  | SFixed m n => Some (NFixedDec, fixed_kws (Given m) (Given n) Absent)
  | SBytesM k => Some (NBytesDec, size_kws (Given (k * 8)) Absent)
  | _ => None
  end.
