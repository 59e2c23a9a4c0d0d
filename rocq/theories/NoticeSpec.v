(** What the messages of a registry are meant to say. *)
From Coq Require Import Strings.String.
From Verif Require Import Py Bytes Grammar GrammarSpec Registry Histories RaisingSpec CustomSpec Notices.
Open Scope Z_scope.

(** The registered matchers that accept a type string, in order of registration. *)
Definition accepting {V} (m : mapping V) (s : pystr) : list pred := filter (fun p => hit p s) (map fst (m_values m)).

(** What a coder class is for: a basic type without array dimensions, arrays, or
    tuples. *)
Inductive purpose := ForBase (b : pystr) | ForArrays | ForTuples.
Definition purpose_of (c : enc_class) : option purpose :=
  match c with
  | CUInt | CPackedUInt => Some (ForBase (lit "uint"))
  | CInt | CPackedInt => Some (ForBase (lit "int"))
  | CBool | CPackedBool => Some (ForBase (lit "bool"))
  | CAddr | CPackedAddr => Some (ForBase (lit "address"))
  | CUFixed | CPackedUFixed => Some (ForBase (lit "ufixed"))
  | CFixed | CPackedFixed => Some (ForBase (lit "fixed"))
  | CBytesM | CPackedBytesM | CByteString | CPackedByteString => Some (ForBase (lit "bytes"))
  | CText | CPackedText => Some (ForBase (lit "string"))
  | CTuple => Some ForTuples
  | CBaseArray | CPackedArray => Some ForArrays
  | CUserEnc _ => None
  end.
Definition purpose_of_decoder (c : dec_class) : option purpose :=
  match c with
  | CDUInt => Some (ForBase (lit "uint"))
  | CDInt => Some (ForBase (lit "int"))
  | CDBool => Some (ForBase (lit "bool"))
  | CDAddr => Some (ForBase (lit "address"))
  | CDUFixed => Some (ForBase (lit "ufixed"))
  | CDFixed => Some (ForBase (lit "fixed"))
  | CDBytesM | CDByteString => Some (ForBase (lit "bytes"))
  | CDString => Some (ForBase (lit "string"))
  | CDTuple => Some ForTuples
  | CDBaseArray => Some ForArrays
  | CUserDec _ => None
  end.
(** Why a type is none of these. *)
Inductive unfit : purpose -> abi_type -> trouble -> Prop :=
| unfit_tuple b cs arr : unfit (ForBase b) (Tup cs arr) NotBasic
| unfit_base b b' sub arr : b' <> b -> unfit (ForBase b) (Basic b' sub arr) (NotBase b)
| unfit_dims b sub arr : arr <> [] -> unfit (ForBase b) (Basic b sub arr) HasDims
| unfit_basic_item b sub : unfit ForArrays (Basic b sub []) LacksDims
| unfit_tuple_item cs : unfit ForArrays (Tup cs []) LacksDims
| unfit_basic b sub arr : unfit ForTuples (Basic b sub arr) NotTuple.
(** The normal form is shown where it differs. *)
Definition shown (s : pystr) (normal : option pystr) (s' : pystr) : Prop := normal = None /\ s' = s \/ normal = Some s' /\ s' <> s.

(** [true_of t m use ts n]: [n] is true of a lookup of [ts] in the table [t] with
    the registrations [m]; [use] is the class name and purpose of what is
    registered. *)
Inductive true_of {V} (t : table) (m : mapping V) (use : V -> option (string * purpose)) (ts : pystr) : notice -> Prop :=
| T_none s T : within s ts -> g_type s T -> (forall p v, In (p, v) (m_values m) -> pred_call p s = Done false) ->
    true_of t m use ts (NoMatch t s)
| T_many s : within s ts -> none_raises m s -> (2 <= length (accepting m s))%nat -> true_of t m use ts (ManyMatch t s (accepting m s))
| T_misfit s p v cls pu s' normal T why : within s ts -> none_raises m s -> accepting m s = [p] -> In (p, v) (m_values m) ->
    use v = Some (cls, pu) -> normalized s s' -> shown s normal s' -> g_type s' T -> unfit pu T why ->
    true_of t m use ts (Misfit cls s normal why)
| T_other e : true_of t m use ts (Other e).
(** The names of the classes of encoding.py and decoding.py. *)
Definition encoder_title (c : enc_class) : string :=
  match c with
  | CUInt => "UnsignedIntegerEncoder"
  | CInt => "SignedIntegerEncoder"
  | CBool => "BooleanEncoder"
  | CAddr => "AddressEncoder"
  | CUFixed => "UnsignedFixedEncoder"
  | CFixed => "SignedFixedEncoder"
  | CBytesM => "BytesEncoder"
  | CByteString => "ByteStringEncoder"
  | CText => "TextStringEncoder"
  | CPackedUInt => "PackedUnsignedIntegerEncoder"
  | CPackedInt => "PackedSignedIntegerEncoder"
  | CPackedBool => "PackedBooleanEncoder"
  | CPackedAddr => "PackedAddressEncoder"
  | CPackedUFixed => "PackedUnsignedFixedEncoder"
  | CPackedFixed => "PackedSignedFixedEncoder"
  | CPackedBytesM => "PackedBytesEncoder"
  | CPackedByteString => "PackedByteStringEncoder"
  | CPackedText => "PackedTextStringEncoder"
  | CTuple => "TupleEncoder"
  | CBaseArray => "BaseArrayEncoder"
  | CPackedArray => "PackedArrayEncoder"
  | CUserEnc _ => ""
  end.

Definition decoder_title (c : dec_class) : string :=
  match c with
  | CDUInt => "UnsignedIntegerDecoder"
  | CDInt => "SignedIntegerDecoder"
  | CDBool => "BooleanDecoder"
  | CDAddr => "AddressDecoder"
  | CDUFixed => "UnsignedFixedDecoder"
  | CDFixed => "SignedFixedDecoder"
  | CDBytesM => "BytesDecoder"
  | CDByteString => "ByteStringDecoder"
  | CDString => "StringDecoder"
  | CDTuple => "TupleDecoder"
  | CDBaseArray => "BaseArrayDecoder"
  | CUserDec _ => ""
  end.
Definition enc_use (v : enc_reg) : option (string * purpose) :=
  match v with EClass c => match purpose_of c with Some pu => Some (encoder_title c, pu) | None => None end | EInst _ => None end.
Definition dec_use (v : dec_reg) : option (string * purpose) :=
  match v with DClass c => match purpose_of_decoder c with Some pu => Some (decoder_title c, pu) | None => None end | DInst _ => None end.

(** What is wrong with a registration or a removal. *)
Inductive objection_to_add {V} (t : table) (m : mapping V) (p : pred) (label : option pystr) : notice -> Prop :=
| A_matcher q v : In (q, v) (m_values m) -> pred_eqb q p = true -> objection_to_add t m p label (MatcherTaken t p)
| A_label l q : (forall q v, In (q, v) (m_values m) -> pred_eqb q p = false) -> label = Some l -> In (l, q) (m_labels m) ->
    objection_to_add t m p label (LabelTaken t p l).
Inductive objection_to_register {V} (t : table) (m : mapping V) (label : option pystr) : lookup -> notice -> Prop :=
| OR_matcher p n : objection_to_add t m p label n -> objection_to_register t m label (LPred p) n
| OR_string s n : objection_to_add t m (mkPred (KEquals s) None) (Some s) n -> objection_to_register t m label (LStr s) n
| OR_other : objection_to_register t m label LOther WrongLookup.
Inductive objection_to_unregister {V} (t : table) (m : mapping V) : lookup -> notice -> Prop :=
| OU_matcher p : (forall q v, In (q, v) (m_values m) -> pred_eqb q p = false) -> objection_to_unregister t m (LPred p) (MatcherMissing t p)
| OU_label l : (forall q, ~ In (l, q) (m_labels m)) -> objection_to_unregister t m (LStr l) (LabelMissing t l)
(* the matcher of the label is gone *)
| OU_orphan l p : In (l, p) (m_labels m) -> (forall q v, In (q, v) (m_values m) -> pred_eqb q p = false) ->
    objection_to_unregister t m (LStr l) (Other KeyError)
| OU_other : objection_to_unregister t m LOther WrongLookup.

(** What the standard registries say of a lookup: a name they do not know, a size
    behind "function", or what the grammar says. *)
Definition known_names : list pystr :=
  [lit "uint"; lit "int"; lit "address"; lit "bool"; lit "ufixed"; lit "fixed"; lit "bytes"; lit "function"; lit "string"].
Inductive standard_notice (t : table) (cls : string) (ts : pystr) : notice -> Prop :=
| SN_unknown s b sub : within s ts -> g_type s (Basic b sub []) -> ~ In b known_names -> standard_notice t cls ts (NoMatch t s)
| SN_function s sub : within s ts -> g_type s (Basic (lit "function") sub []) -> sub <> SubNone -> standard_notice t cls ts (Misfit cls s None (NotBase (lit "bytes")))
| SN_other e : standard_notice t cls ts (Other e).

(** Removing matchers one by one. *)
Definition drop_encoders (us : list pred) : list op := map (fun u => OUnregisterEncoder (LPred u)) us.
Definition drop_decoders (us : list pred) : list op := map (fun u => OUnregisterDecoder (LPred u)) us.
(** The table a message names. *)
Definition about_table (n : notice) : option table :=
  match n with
  | MatcherTaken t _ | LabelTaken t _ _ | NoMatch t _ | ManyMatch t _ _ | MatcherMissing t _ | LabelMissing t _ => Some t
  | WrongLookup | Misfit _ _ _ _ | Other _ => None
  end.
(** The matcher made for a type string. *)
Definition equals (s : pystr) : pred := mkPred (KEquals s) None.
(** What is said of a type string that no matcher or several accept. *)
Definition lookup_notice {V} (t : table) (m : mapping V) (s : pystr) : notice := match accepting m s with [] => NoMatch t s | ps => ManyMatch t s ps end.
