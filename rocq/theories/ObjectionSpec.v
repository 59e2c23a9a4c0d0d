(** What is wrong with an argument: the meaning of the messages of encoding
    errors. *)
From Coq Require Import Strings.String.
From Verif Require Import Py Bytes Spec Objections.
Open Scope Z_scope.

(** The name of the encoder class for a type, without a leading "Packed". *)
Definition class_name (packed : bool) (t : sty) : string :=
  match t with
  | SUInt _ => "UnsignedIntegerEncoder"
  | SInt _ => "SignedIntegerEncoder"
  | SBool => "BooleanEncoder"
  | SAddr => "AddressEncoder"
  | SUFixed _ _ => "UnsignedFixedEncoder"
  | SFixed _ _ => "SignedFixedEncoder"
  | SBytesM _ => "BytesEncoder"
  | SBytes => "ByteStringEncoder"
  | SString => "TextStringEncoder"
  | SArr _ => if packed then "ArrayEncoder" else "DynamicArrayEncoder"
  | SSized _ _ => if packed then "ArrayEncoder" else "SizedArrayEncoder"
  | STuple _ => "TupleEncoder"
  end.

(** A Python value of a kind that is passed for [t]. *)
Definition suits (t : sty) (p : pyval) : Prop :=
  match t with
  | SUInt _ | SInt _ => exists z, p = PInt z
  | SBool => exists b, p = PBool b
  | SAddr => exists a, denotes SAddr p a
  | SUFixed _ _ | SFixed _ _ =>
      match p with PBool _ | PInt _ | PDec _ | PFraction _ _ | PComplex _ => True | _ => False end
  | SBytesM _ | SBytes => exists b, bytes_like p b
  | SString => exists s, p = PStr s
  | SArr _ | SSized _ _ | STuple _ => exists l, seq_like p l
  end.

Definition bits_of (t : sty) : Z := match t with SUFixed m _ | SFixed m _ => m | _ => 0 end.
(** [p * 10^n] is below [lo] or above [hi]. *)
Definition too_far (p : pyval) (n lo hi : Z) : Prop :=
  match p with
  | PFraction a d => a * 10 ^ n < lo * Zpos d \/ hi * Zpos d < a * 10 ^ n
  | _ => beyond p n lo hi
  end.
(** What [c * 10^e] has beyond [n] places is [surplus * 10^e]. *)
Definition surplus (c : N) (e n : Z) : Z := Z.of_N c mod 10 ^ (- (e + n)).

(** [wrong t p c]: [c] is said of [p] itself, not of a part of it. *)
Inductive wrong : sty -> pyval -> cause -> Prop :=
| W_kind t p : ~ suits t p -> wrong t p Unsuited
| W_uint m z : z < 0 \/ 2 ^ m <= z -> wrong (SUInt m) (PInt z) (OutsideInts m 0 (2 ^ m - 1))
| W_int m z : z < - 2 ^ (m - 1) \/ 2 ^ (m - 1) <= z ->
    wrong (SInt m) (PInt z) (OutsideInts m (- 2 ^ (m - 1)) (2 ^ (m - 1) - 1))
| W_special t n lo hi d : fixed_range t n lo hi -> (forall neg c e, d <> DFin neg c e) -> wrong t (PDec d) NotFinite
| W_beyond t n lo hi p dlo dhi : fixed_range t n lo hi -> too_far p n lo hi -> scaled dlo n lo -> scaled dhi n hi ->
    wrong t p (OutsideDecimals (bits_of t) dlo dhi)
(* the residue is rounded if it has too many digits *)
| W_residue t n lo hi c e q e' : fixed_range t n lo hi -> e + n < 0 -> 0 < surplus c e n ->
    -1000997 <= e \/ 10 ^ (-1000997 - e) < 2 * surplus c e n -> (0 < q)%N ->
    (-999 <= e -> Z.of_N q = surplus c e n /\ e' = e) ->
    wrong t (PDec (DFin false c e)) (Residue (DFin false q e') n)
| W_long k p b : bytes_like p b -> k < len b -> wrong (SBytesM k) p (TooLong k)
| W_sized n t p l : seq_like p l -> len l <> n -> wrong (SSized n t) p (Count (len l) n)
| W_tuple ts p l : seq_like p l -> len l <> len ts -> wrong (STuple ts) p (Count (len l) (len ts)).

(** [flaw packed t p o]: what [o] says is true of [p] or of a part of it. *)
Inductive flaw (packed : bool) : sty -> pyval -> objection -> Prop :=
| F_here t p c : wrong t p c -> flaw packed t p (Objects (class_name packed t) p c)
| F_arr t p l x o : seq_like p l -> In x l -> flaw packed t x o -> flaw packed (SArr t) p o
| F_sized n t p l x o : seq_like p l -> In x l -> flaw packed t x o -> flaw packed (SSized n t) p o
| F_tuple ts p l t x o : seq_like p l -> In (t, x) (combine ts l) -> flaw packed t x o -> flaw packed (STuple ts) p o
(* codecs.encode *)
| F_text s : ~ Forall scalar s -> flaw packed SString (PStr s) (Escapes UnicodeEncodeError)
(* comparing a complex with a Decimal; Fraction % Decimal *)
| F_complex t n lo hi z : fixed_range t n lo hi -> flaw packed t (PComplex z) (Escapes TypeError)
| F_fraction t n lo hi a d : fixed_range t n lo hi -> ~ too_far (PFraction a d) n lo hi ->
    flaw packed t (PFraction a d) (Escapes TypeError).

(** [within p x]: [x] is [p] or one of its parts, to any depth. *)
Inductive within : pyval -> pyval -> Prop :=
| In_here p : within p p
| In_item p l y x : seq_like p l -> In y l -> within y x -> within p x.
