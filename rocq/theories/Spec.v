(** Specification: the Solidity contract ABI
    (https://docs.soliditylang.org/en/latest/abi-spec.html), written without
    any helper of the model.  Nothing here follows eth_abi's code; the only
    things shared with the model are the vocabulary of Py.v (bytes, Python
    values) and the keccak-256 function. *)
From Coq Require Import Strings.Byte Strings.String.
From Verif Require Import Py Keccak.
Open Scope Z_scope.

(** ** ABI types and values *)

Inductive sty :=
| SUInt (m : Z) | SInt (m : Z) | SBool | SAddr
| SUFixed (m n : Z) | SFixed (m n : Z)
| SBytesM (k : Z) | SBytes | SString
| SArr (t : sty) | SSized (n : Z) (t : sty) | STuple (ts : list sty).

Definition int_size (m : Z) : Prop := 8 <= m <= 256 /\ m mod 8 = 0.
Definition frac_size (n : Z) : Prop := 1 <= n <= 80.

(** Valid ABI types (empty tuples and zero-length arrays cannot be written in
    the grammar of type strings). *)
Inductive wf : sty -> Prop :=
| wf_uint m : int_size m -> wf (SUInt m)
| wf_int m : int_size m -> wf (SInt m)
| wf_bool : wf SBool
| wf_addr : wf SAddr
| wf_ufixed m n : int_size m -> frac_size n -> wf (SUFixed m n)
| wf_fixed m n : int_size m -> frac_size n -> wf (SFixed m n)
| wf_bytesM k : 1 <= k <= 32 -> wf (SBytesM k)
| wf_bytes : wf SBytes
| wf_string : wf SString
| wf_arr t : wf t -> wf (SArr t)
| wf_sized n t : 1 <= n -> wf t -> wf (SSized n t)
| wf_tuple ts : ts <> [] -> Forall wf ts -> wf (STuple ts).

(** "dynamic" types of the ABI *)
Fixpoint sdyn (t : sty) : bool :=
  match t with
  | SBytes | SString | SArr _ => true
  | SSized _ t => sdyn t
  | STuple ts => existsb sdyn ts
  | _ => false
  end.

(** Abstract values.  A fixed-point number is given by its scaled integer
    ([VInt z] at [fixed<M>x<N>] is z * 10^-N); an address by its 20 bytes. *)
Inductive aval :=
| VInt (z : Z) | VBool (b : bool) | VBytes (b : bytes) | VStr (s : pystr) | VSeq (l : list aval).

(** Unicode scalar values *)
Definition scalar (c : N) : Prop := (c < 0xD800 \/ 0xDFFF < c < 0x110000)%N.

Inductive has_type : sty -> aval -> Prop :=
| T_uint m z : 0 <= z < 2 ^ m -> has_type (SUInt m) (VInt z)
| T_int m z : - 2 ^ (m - 1) <= z < 2 ^ (m - 1) -> has_type (SInt m) (VInt z)
| T_bool b : has_type SBool (VBool b)
| T_addr b : len b = 20 -> has_type SAddr (VBytes b)
| T_ufixed m n z : 0 <= z < 2 ^ m -> has_type (SUFixed m n) (VInt z)
| T_fixed m n z : - 2 ^ (m - 1) <= z < 2 ^ (m - 1) -> has_type (SFixed m n) (VInt z)
| T_bytesM k b : len b = k -> has_type (SBytesM k) (VBytes b)
| T_bytes b : has_type SBytes (VBytes b)
| T_string s : Forall scalar s -> has_type SString (VStr s)
| T_arr t l : Forall (has_type t) l -> has_type (SArr t) (VSeq l)
| T_sized n t l : len l = n -> Forall (has_type t) l -> has_type (SSized n t) (VSeq l)
| T_tuple ts l : Forall2 has_type ts l -> has_type (STuple ts) (VSeq l).

(** ** The encoding *)

(** [k] bytes, big-endian, two's complement *)
Definition byte_at (z : Z) (i : nat) : byte :=
  match Byte.of_N (Z.to_N ((z / 2 ^ (8 * Z.of_nat i)) mod 256)) with Some b => b | None => x00 end.
Definition be_bytes (k : nat) (z : Z) : bytes := map (byte_at z) (rev (seq 0 k)).
Definition word (z : Z) : bytes := be_bytes 32 z.

(** zero bytes up to the next multiple of 32 *)
Definition pad_right (b : bytes) : bytes :=
  b ++ repeat x00 (Z.to_nat ((- len b) mod 32)).

(** UTF-8 of a scalar value: a lead byte and k continuation bytes of 6 bits *)
Definition utf8_len (c : N) : nat :=
  if (c <? 0x80)%N then 0 else if (c <? 0x800)%N then 1 else if (c <? 0x10000)%N then 2 else 3.
Definition byte_val (z : Z) : byte := byte_at z 0.
Definition utf8_char (c : N) : bytes :=
  let k := utf8_len c in
  let z := Z.of_N c in
  let lead := match k with O => 0 | 1%nat => 0xC0 | 2%nat => 0xE0 | _ => 0xF0 end in
  byte_val (lead + z / 64 ^ Z.of_nat k)
  :: map (fun i => byte_val (0x80 + (z / 64 ^ Z.of_nat i) mod 64)) (rev (seq 0 k)).
Definition utf8 (s : pystr) : bytes := flat_map utf8_char s.

(** head(X1) ... head(Xk) tail(X1) ... tail(Xk); each part is (is it dynamic,
    its encoding) *)
Definition head_size (p : bool * bytes) : Z := if fst p then 32 else len (snd p).
Fixpoint heads (off : Z) (ps : list (bool * bytes)) : bytes :=
  match ps with
  | [] => []
  | (true, b) :: ps' => word off ++ heads (off + len b) ps'
  | (false, b) :: ps' => b ++ heads off ps'
  end.
Fixpoint tails (ps : list (bool * bytes)) : bytes :=
  match ps with
  | [] => []
  | (true, b) :: ps' => b ++ tails ps'
  | (false, _) :: ps' => tails ps'
  end.
Fixpoint heads_size (ps : list (bool * bytes)) : Z :=
  match ps with [] => 0 | p :: ps' => head_size p + heads_size ps' end.
Definition head_tail (ps : list (bool * bytes)) : bytes := heads (heads_size ps) ps ++ tails ps.

(** enc(X) *)
Fixpoint spec_enc (t : sty) (a : aval) {struct t} : bytes :=
  match t, a with
  | SUInt _, VInt z | SInt _, VInt z | SUFixed _ _, VInt z | SFixed _ _, VInt z => word z
  | SBool, VBool b => word (if b then 1 else 0)
  | SAddr, VBytes b => repeat x00 12 ++ b
  | SBytesM _, VBytes b => pad_right b
  | SBytes, VBytes b => word (len b) ++ pad_right b
  | SString, VStr s => word (len (utf8 s)) ++ pad_right (utf8 s)
  | SArr t', VSeq l => word (len l) ++ head_tail (map (fun x => (sdyn t', spec_enc t' x)) l)
  | SSized _ t', VSeq l => head_tail (map (fun x => (sdyn t', spec_enc t' x)) l)
  | STuple ts, VSeq l =>
      head_tail
        ((fix go (ts : list sty) (l : list aval) : list (bool * bytes) :=
            match ts, l with
            | t' :: ts', x :: l' => (sdyn t', spec_enc t' x) :: go ts' l'
            | _, _ => []
            end) ts l)
  | _, _ => []
  end.

(** The number of bytes a static type occupies. *)
Fixpoint static_size (t : sty) : Z :=
  match t with
  | SSized n t => n * static_size t
  | STuple ts => fold_right (fun t acc => static_size t + acc) 0 ts
  | _ => 32
  end.

(** Packed mode (non-standard, no padding, offsets or lengths). *)
Fixpoint spec_packed (t : sty) (a : aval) {struct t} : bytes :=
  match t, a with
  | SUInt m, VInt z | SInt m, VInt z | SUFixed m _, VInt z | SFixed m _, VInt z =>
      be_bytes (Z.to_nat (m / 8)) z
  | SBool, VBool b => be_bytes 1 (if b then 1 else 0)
  | SAddr, VBytes b => b
  | SBytesM _, VBytes b => b
  | SBytes, VBytes b => b
  | SString, VStr s => utf8 s
  | SArr t', VSeq l | SSized _ t', VSeq l => flat_map (spec_packed t') l
  | STuple ts, VSeq l =>
      (fix go (ts : list sty) (l : list aval) : bytes :=
         match ts, l with
         | t' :: ts', x :: l' => spec_packed t' x ++ go ts' l'
         | _, _ => []
         end) ts l
  | _, _ => []
  end.

(** ** Python values *)

(** Comparison of the rational number [d * 10^n] with the integer [z]. *)
Definition scaled_cmp (neg : bool) (c : N) (e n z : Z) : comparison :=
  let s := if neg then - Z.of_N c else Z.of_N c in
  if 0 <=? e + n then Z.compare (s * 10 ^ (e + n)) z
  else Z.compare s (z * 10 ^ (- (e + n))).
Definition scaled (d : decimal) (n z : Z) : Prop :=
  match d with DFin neg c e => scaled_cmp neg c e n z = Eq | _ => False end.

(** [v * 10^n = z] for a Python number *)
Definition num_scaled (v : pyval) (n z : Z) : Prop :=
  match v with
  | PBool b => (if b then 1 else 0) * 10 ^ n = z
  | PInt i => i * 10 ^ n = z
  | PDec d => scaled d n z
  | _ => False
  end.

(** The bounds of a fixed-point type with [n] decimals, as scaled integers. *)
Inductive fixed_range : sty -> Z -> Z -> Z -> Prop :=
| FR_unsigned m n : fixed_range (SUFixed m n) n 0 (2 ^ m - 1)
| FR_signed m n : fixed_range (SFixed m n) n (- 2 ^ (m - 1)) (2 ^ (m - 1) - 1).
(** [v * 10^n] is below [lo] or above [hi]. *)
Definition beyond (v : pyval) (n lo hi : Z) : Prop :=
  match v with
  | PBool b => (if b then 1 else 0) * 10 ^ n < lo \/ hi < (if b then 1 else 0) * 10 ^ n
  | PInt i => i * 10 ^ n < lo \/ hi < i * 10 ^ n
  | PDec (DFin neg c e) => scaled_cmp neg c e n lo = Lt \/ scaled_cmp neg c e n hi = Gt
  | _ => False
  end.
(** Numbers that decimal arithmetic accepts. *)
Definition finite_number (v : pyval) : Prop :=
  match v with PBool _ | PInt _ | PDec (DFin _ _ _) => True | _ => False end.

(** Text spellings of an address: 40 hex digits, optionally prefixed, in one
    case or carrying the EIP-55 checksum. *)
Definition hex_value (c : N) : option Z :=
  if ((48 <=? c) && (c <=? 57))%N then Some (Z.of_N c - 48)
  else if ((97 <=? c) && (c <=? 102))%N then Some (Z.of_N c - 87)
  else if ((65 <=? c) && (c <=? 70))%N then Some (Z.of_N c - 55)
  else None.
Definition upper_letter (c : N) : Prop := (65 <= c <= 90)%N.
Definition lower_letter (c : N) : Prop := (97 <= c <= 122)%N.
Inductive hex_pairs : pystr -> bytes -> Prop :=
| HP_nil : hex_pairs [] []
| HP_cons c0 c1 h l b s bs :
    hex_value c0 = Some h -> hex_value c1 = Some l -> Z.of_N (Byte.to_N b) = 16 * h + l ->
    hex_pairs s bs -> hex_pairs (c0 :: c1 :: s) (b :: bs).
Definition hex_char (z : Z) : N := nth (Z.to_nat z) (lit "0123456789abcdef") 0%N.
Definition nibbles (b : bytes) : list Z :=
  flat_map (fun x => [Z.of_N (Byte.to_N x) / 16; Z.of_N (Byte.to_N x) mod 16]) b.
Definition hex_lower (b : bytes) : pystr := map hex_char (nibbles b).
Definition ascii_bytes (s : pystr) : bytes := map (fun c => byte_val (Z.of_N c)) s.
(** EIP-55 *)
Definition eip55 (b : bytes) : pystr :=
  map (fun p => if (97 <=? fst p)%N && (8 <=? snd p) then (fst p - 32)%N else fst p)
      (combine (hex_lower b) (nibbles (keccak256 (ascii_bytes (hex_lower b))))).
Definition address_text (s : pystr) (b : bytes) : Prop :=
  exists pre d,
    s = pre ++ d /\ (pre = [] \/ pre = lit "0x" \/ pre = lit "0X")
    /\ len b = 20 /\ hex_pairs d b
    /\ (Forall (fun c => ~ upper_letter c) d \/ Forall (fun c => ~ lower_letter c) d
        \/ pre = lit "0x" /\ d = eip55 b).

Definition bytes_like (p : pyval) (b : bytes) : Prop := p = PBytes b \/ p = PByteArray b.
Definition seq_like (p : pyval) (l : list pyval) : Prop := p = PList l \/ p = PTuple l \/ exists r, p = PSeq r l.

Inductive Forall3 {A B C} (R : A -> B -> C -> Prop) : list A -> list B -> list C -> Prop :=
| F3_nil : Forall3 R [] [] []
| F3_cons x y z xs ys zs : R x y z -> Forall3 R xs ys zs -> Forall3 R (x :: xs) (y :: ys) (z :: zs).

(** [denotes t p a]: the Python value [p], passed as an argument of ABI type
    [t], stands for the ABI value [a]. *)
Inductive denotes : sty -> pyval -> aval -> Prop :=
| D_uint m z : 0 <= z < 2 ^ m -> denotes (SUInt m) (PInt z) (VInt z)
| D_int m z : - 2 ^ (m - 1) <= z < 2 ^ (m - 1) -> denotes (SInt m) (PInt z) (VInt z)
| D_bool b : denotes SBool (PBool b) (VBool b)
| D_addr_bytes p b : bytes_like p b -> len b = 20 -> denotes SAddr p (VBytes b)
| D_addr_text s b : address_text s b -> denotes SAddr (PStr s) (VBytes b)
| D_ufixed m n p z : num_scaled p n z -> 0 <= z < 2 ^ m -> denotes (SUFixed m n) p (VInt z)
| D_fixed m n p z : num_scaled p n z -> - 2 ^ (m - 1) <= z < 2 ^ (m - 1) ->
    denotes (SFixed m n) p (VInt z)
| D_bytesM k p b : bytes_like p b -> len b <= k ->
    denotes (SBytesM k) p (VBytes (b ++ repeat x00 (Z.to_nat (k - len b))))
| D_bytes p b : bytes_like p b -> denotes SBytes p (VBytes b)
| D_string s : Forall scalar s -> denotes SString (PStr s) (VStr s)
| D_arr t p l vs : seq_like p l -> Forall2 (denotes t) l vs -> denotes (SArr t) p (VSeq vs)
| D_sized n t p l vs : seq_like p l -> len l = n -> Forall2 (denotes t) l vs ->
    denotes (SSized n t) p (VSeq vs)
| D_tuple ts p l vs : seq_like p l -> Forall3 denotes ts l vs -> denotes (STuple ts) p (VSeq vs).

(** [canon t a q]: [q] is the Python value by which decode represents [a].
    Decimals are determined up to numeric equality (Python's [==]). *)
Inductive canon : sty -> aval -> pyval -> Prop :=
| C_uint m z : canon (SUInt m) (VInt z) (PInt z)
| C_int m z : canon (SInt m) (VInt z) (PInt z)
| C_bool b : canon SBool (VBool b) (PBool b)
| C_addr b : canon SAddr (VBytes b) (PStr (lit "0x" ++ hex_lower b))
| C_ufixed m n z d : scaled d n z -> canon (SUFixed m n) (VInt z) (PDec d)
| C_fixed m n z d : scaled d n z -> canon (SFixed m n) (VInt z) (PDec d)
| C_bytesM k b : canon (SBytesM k) (VBytes b) (PBytes b)
| C_bytes b : canon SBytes (VBytes b) (PBytes b)
| C_string s : canon SString (VStr s) (PStr s)
| C_arr t vs qs : Forall2 (canon t) vs qs -> canon (SArr t) (VSeq vs) (PTuple qs)
| C_sized n t vs qs : Forall2 (canon t) vs qs -> canon (SSized n t) (VSeq vs) (PTuple qs)
| C_tuple ts vs qs : Forall3 canon ts vs qs -> canon (STuple ts) (VSeq vs) (PTuple qs).

(** ** Predicates on the leaves of an argument *)

(** [P] holds of every pair (leaf type, value) at which an argument of type [t]
    is inspected. *)
Fixpoint leaves (P : sty -> pyval -> Prop) (t : sty) (p : pyval) {struct t} : Prop :=
  match t with
  | SArr t' | SSized _ t' => Forall (leaves P t') (items p)
  | STuple ts =>
      (fix go (ts : list sty) (l : list pyval) : Prop :=
         match ts, l with
         | t' :: ts', x :: l' => leaves P t' x /\ go ts' l'
         | _, _ => True
         end) ts (items p)
  | _ => P t p
  end.
(** A Decimal passed for [fixed<M>x<N>] has at most N fractional digits. *)
Definition exact_leaf (t : sty) (p : pyval) : Prop :=
  match t, p with
  | SUFixed _ n, PDec (DFin neg c e) | SFixed _ n, PDec (DFin neg c e) => exists z, scaled (DFin neg c e) n z
  | _, _ => True
  end.
(** A str passed for [string] has no lone surrogates. *)
Definition scalar_leaf (t : sty) (p : pyval) : Prop :=
  match t, p with SString, PStr s => Forall scalar s | _, _ => True end.
(** The only numbers passed for fixed-point types are int, bool, float, Decimal. *)
Definition native_leaf (t : sty) (p : pyval) : Prop :=
  match t, p with
  | SUFixed _ _, (PComplex _ | PFraction _ _) | SFixed _ _, (PComplex _ | PFraction _ _) => False
  | _, _ => True
  end.

(** The shape of an argument: every tuple has the arity and every fixed-size
    array the length that the type demands. *)
Inductive shaped : sty -> pyval -> Prop :=
| Sh_arr t p l : seq_like p l -> Forall (shaped t) l -> shaped (SArr t) p
| Sh_sized n t p l : seq_like p l -> len l = n -> Forall (shaped t) l -> shaped (SSized n t) p
| Sh_tuple ts p l : seq_like p l -> Forall2 shaped ts l -> shaped (STuple ts) p
| Sh_leaf t p : match t with SArr _ | SSized _ _ | STuple _ => False | _ => True end -> shaped t p.

(** A lower bound of the memory taken by an argument, or by the items of a range
    and the like; [fits] holds of every argument a computer can go through. *)
Fixpoint py_size (p : pyval) : Z :=
  match p with
  | PBytes b | PByteArray b => 128 + len b
  | PStr s => 128 + 4 * len s
  | PList l | PTuple l | PSeq _ l => 128 + fold_right (fun x acc => py_size x + acc) 0 l
  | _ => 128
  end.
Definition fits (p : pyval) : Prop := py_size p < 2 ^ 256.

(** ** Induction principles for nested types *)
Lemma sty_ind' (P : sty -> Prop) :
  (forall m, P (SUInt m)) -> (forall m, P (SInt m)) -> P SBool -> P SAddr ->
  (forall m n, P (SUFixed m n)) -> (forall m n, P (SFixed m n)) ->
  (forall k, P (SBytesM k)) -> P SBytes -> P SString ->
  (forall t, P t -> P (SArr t)) -> (forall n t, P t -> P (SSized n t)) ->
  (forall ts, Forall P ts -> P (STuple ts)) ->
  forall t, P t.
Proof.
  intros H1 H2 H3 H4 H5 H6 H7 H8 H9 H10 H11 H12.
  fix IH 1. intros [m|m| | |m n|m n|k| | |t|n t|ts].
  - apply H1.
  - apply H2.
  - apply H3.
  - apply H4.
  - apply H5.
  - apply H6.
  - apply H7.
  - apply H8.
  - apply H9.
  - apply H10, IH.
  - apply H11, IH.
  - apply H12. induction ts as [|t ts IHts]; constructor; [apply IH|exact IHts].
Qed.
