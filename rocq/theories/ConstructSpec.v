(** What the constructors are meant to accept: keyword arguments that are absent,
    None, an integer or a bool, and the constraints on sizes. *)
From Coq Require Import Strings.Byte Strings.String.
From Verif Require Import Py Bytes Utf8 Address Encoding Decoding Spec Construct.
Open Scope Z_scope.

(** One keyword: left out, [None], an integer, or a bool, which counts as 0 or 1. *)
Inductive arg := Absent | NoneArg | Given (z : Z) | Flag (b : bool).
Definition kwarg (k : key) (a : arg) : list (key * attr) :=
  match a with
  | Absent => []
  | NoneArg => [(k, ANone)]
  | Given z => [(k, AInt z)]
  | Flag b => [(k, ABool b)]
  end.
Definition value_or (a : arg) (default : option Z) : option Z :=
  match a with
  | Absent => default
  | NoneArg => None
  | Given z => Some z
  | Flag b => Some (if b then 1 else 0)
  end.

(** Classes with a value size and a data size; those that also have a number
    of fraction places. *)
Definition sized_class (c : cls) : Prop :=
  In c [NBoolEnc; NPackedBoolEnc; NUIntEnc; NPackedUIntEnc; NIntEnc; NPackedIntEnc; NAddrEnc; NPackedAddrEnc;
        NBytesEnc; NPackedBytesEnc; NBoolDec; NAddrDec; NUIntDec; NIntDec; NBytesDec].
Definition fixed_class (c : cls) : Prop :=
  In c [NUFixedEnc; NPackedUFixedEnc; NFixedEnc; NPackedFixedEnc; NUFixedDec; NFixedDec].

(** The sizes a class has when none are given. *)
Definition default_bits (c : cls) : option Z :=
  match c with
  | NBoolEnc | NPackedBoolEnc | NBoolDec => Some 8
  | NAddrEnc | NPackedAddrEnc | NAddrDec => Some 160
  | _ => None
  end.
Definition default_size (c : cls) : Z :=
  match c with
  | NPackedBoolEnc => 1
  | NPackedAddrEnc => 20
  | _ => 32
  end.

Definition size_kws (bits dsz : arg) : list (key * attr) :=
  kwarg KValueBitSize bits ++ kwarg KDataByteSize dsz.
Definition fixed_kws (bits frac dsz : arg) : list (key * attr) :=
  kwarg KValueBitSize bits ++ kwarg KFracPlaces frac ++ kwarg KDataByteSize dsz.

(** The sizes come out as [b] bits in [d] bytes. *)
Definition sizes (c : cls) (bits dsz : arg) (b d : Z) : Prop :=
  value_or bits (default_bits c) = Some b /\ value_or dsz (Some (default_size c)) = Some d.
(** [b] bits are a whole number of bytes and fit in [d] bytes; addresses have
    160 bits (the decoder does not check that). *)
Definition consistent (c : cls) (b d : Z) : Prop :=
  b mod 8 = 0 /\ b <= 8 * d /\ (c = NAddrEnc \/ c = NPackedAddrEnc -> b = 160).

(** An instance made with sizes [b] and [d] (and [n] fraction places). *)
Definition made (c : cls) (b d : Z) (o : instance) : Prop :=
  exists bits dsz, sizes c bits dsz b d /\ construct c (size_kws bits dsz) = Ok o.
Definition made_fixed (c : cls) (b n d : Z) (o : instance) : Prop :=
  exists bits frac dsz, sizes c bits dsz b d /\ value_or frac None = Some n /\ construct c (fixed_kws bits frac dsz) = Ok o.

(** ** Decoding *)

(** The stream is positioned at [raw]. *)
Definition next (buf : bytes) (st : stream) (raw : bytes) : Prop :=
  exists pre post, buf = pre ++ raw ++ post /\ len pre = pos st.
(** The stream after reading [n] bytes. *)
Definition past (st : stream) (n : Z) : stream := mkStream (pos st + n) (frames st) (total st).

(** Container decoders wrap their dynamic members in a HeadTailDecoder. *)
Definition wrapped (d d' : decoder) : Prop :=
  (dec_dyn_attr d = Some true /\ d' = DHeadTail d) \/ (dec_dyn_attr d <> Some true /\ d' = d).

(** ** The other keywords *)

(** Functions that a class must have. *)
Definition required_fn (c : cls) (k : key) : Prop :=
  (In c [NBoolEnc; NPackedBoolEnc; NUIntEnc; NPackedUIntEnc; NIntEnc; NPackedIntEnc; NUFixedEnc; NPackedUFixedEnc; NFixedEnc;
         NPackedFixedEnc; NAddrEnc; NPackedAddrEnc; NBytesEnc; NPackedBytesEnc] /\ k = KEncodeFn)
  \/ (In c [NBoolDec; NAddrDec; NUIntDec; NIntDec; NBytesDec; NUFixedDec; NFixedDec] /\ k = KDecoderFn)
  \/ (In c [NUIntEnc; NPackedUIntEnc; NIntEnc; NPackedIntEnc; NUFixedEnc; NPackedUFixedEnc; NFixedEnc; NPackedFixedEnc]
      /\ In k [KBoundsFn; KTypeCheckFn]).
(** Classes whose values have a dynamic size unless told otherwise. *)
Definition dynamic_class (c : cls) : Prop := In c [NByteStringEnc; NTextEnc; NByteStringDec].
Definition static_string_class (c : cls) : Prop := In c [NPackedByteStringEnc; NPackedTextEnc].

(** is_big_endian: where the value is put when it is shorter than its slot.
    Strings of bytes are on the left, other values on the right. *)
Definition default_side (c : cls) : Z :=
  match c with NBytesEnc | NPackedBytesEnc | NBytesDec => 0 | _ => 1 end.
(** An instance made with sizes [b] and [d], with the value on the right if [e]. *)
Definition made_sided (c : cls) (b d : Z) (e : bool) (o : instance) : Prop :=
  exists bits dsz side z, sizes c bits dsz b d /\ value_or side (Some (default_side c)) = Some z /\ (e = true <-> z <> 0)
    /\ construct c (size_kws bits dsz ++ kwarg KIsBigEndian side) = Ok o.
Definition placed (e : bool) (padding data : bytes) : bytes := if e then padding ++ data else data ++ padding.
(** [x] is the shortest way to write [z], zero taking one byte. *)
Definition shortest (z : Z) (x : bytes) : Prop :=
  exists n, (1 <= n)%nat /\ 0 <= z < 256 ^ Z.of_nat n /\ (n = 1%nat \/ 256 ^ (Z.of_nat n - 1) <= z) /\ x = be_bytes n z.

Definition all_zero (padding : bytes) : Prop := forall x, In x padding -> x = x00.
(** What a decoder class reads from the bytes of the value. *)
Inductive reads : cls -> bytes -> pyval -> Prop :=
| reads_uint z data : 0 <= z < 256 ^ len data -> data = be_bytes (length data) z -> reads NUIntDec data (PInt z)
| reads_bytes data : reads NBytesDec data (PBytes data)
| reads_bool data (x : bool) : data = [if x then x01 else x00] -> reads NBoolDec data (PBool x)
| reads_address data : len data = 20 -> reads NAddrDec data (PStr (lit "0x" ++ hex_lower data)).
