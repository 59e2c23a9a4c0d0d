(** C89: what the exceptions of the constructors say. *)
From Coq Require Import Strings.String.
From Verif Require Import Tac Py Bytes Grammar Encoding Decoding Limits Construct Faults FaultSpec FaultProofs FaultOrder.
Open Scope string_scope.
Open Scope list_scope.
Open Scope Z_scope.

(** Telling the reason changes no result. *)
Theorem C89_same : forall c kw, forget (construct_told c kw) = construct c kw.
Proof. exact told_same. Qed.
Print Assumptions C89_same.
(** What is told is true. *)
Theorem C89_true : forall c kw f, NoDup (map fst kw) -> construct_told c kw = Faulty f ->
  amiss c kw f \/ exists e, f = Elsewhere e /\ misused c kw e.
Proof. exact told_true. Qed.
Print Assumptions C89_true.
(** Every ValueError tells a reason. *)
Theorem C89_reason : forall c kw, NoDup (map fst kw) -> construct c kw = Err ValueError ->
  exists f, construct_told c kw = Faulty f /\ amiss c kw f.
Proof. exact told_reason. Qed.
Print Assumptions C89_reason.
(** Nothing amiss goes unnoticed. *)
Theorem C89_noticed : forall c kw f, NoDup (map fst kw) -> amiss c kw f -> exists e, construct c kw = Err e.
Proof. exact amiss_raises. Qed.
Print Assumptions C89_noticed.
Theorem C89_misused : forall c kw e, NoDup (map fst kw) -> misused c kw e -> exists e', construct c kw = Err e'.
Proof. exact misused_raises. Qed.
Print Assumptions C89_misused.
(** An unknown keyword comes before everything else, the first one given. *)
Theorem C89_first : forall c kw k, In k (map fst kw) -> ~ named c k ->
  exists k' before a after, construct_told c kw = Faulty (Unknown k')
  /\ kw = before ++ (k', a) :: after /\ ~ named c k' /\ Forall (fun p => named c (fst p)) before.
Proof. exact unknown_first. Qed.
Print Assumptions C89_first.
(** Of several faults the one that comes first in the order is told. *)
Theorem C89_order : forall c kw f g, NoDup (map fst kw) -> construct_told c kw = Faulty f -> (forall e, f <> Elsewhere e) ->
  amiss c kw g -> (rank f <= rank g)%nat.
Proof. exact told_first. Qed.
Print Assumptions C89_order.
(** What is not given has the value of the class. *)
Theorem C89_values : forall c kw o k, NoDup (map fst kw) -> construct c kw = Ok o -> named c k ->
  ~ In k [KIsDynamic; KDecoders; KItemDecoder] -> has c kw k (o k).
Proof. exact made_has. Qed.
Print Assumptions C89_values.
(** Two faults of a class with the same text are the same, up to the sizes that
    decoders are given. *)
Theorem C89_text : forall absent c name kw kw' f f' x, other_names absent -> amiss c kw f -> amiss c kw' f' ->
  fault_text absent c name f = Some x -> fault_text absent c name f' = Some x ->
  f = f' \/ is_encoder_class c = false /\ exists a a', f = NotBytes a /\ f' = NotBytes a'.
Proof. exact fault_text_same. Qed.
Print Assumptions C89_text.
(** A decoder does not show the size that it refuses: decoding.py:381 is no
    f-string. *)
Theorem C89_size_shown_refuted : ~ forall absent c name kw kw' f f' x, other_names absent -> NoDup (map fst kw) -> NoDup (map fst kw') ->
  construct_told c kw = Faulty f -> construct_told c kw' = Faulty f' ->
  fault_text absent c name f = Some x -> fault_text absent c name f' = Some x -> f = f'.
Proof. exact size_not_shown. Qed.
Print Assumptions C89_size_shown_refuted.

Definition told (c : cls) (name : string) (kw : list (key * attr)) : option pystr :=
  match construct_told c kw with Faulty f => fault_text (fun n => lit "foo") c (lit name) f | Made _ => None end.
Example C89_sample :
  told NUIntEnc "UnsignedIntegerEncoder" [(KValueBitSize, AInt 9)] = Some (lit "Invalid value bit size: 9. Must be a multiple of 8")
  /\ told NUIntDec "UnsignedIntegerDecoder" [(KValueBitSize, AInt 9)]
    = Some (lit "Invalid value bit size: {self.value_bit_size}. Must be a multiple of 8")
  /\ told NBoolDec "BooleanDecoder" [(KAbsent 0, AObj); (KStrict, ABool false)]
    = Some (lit "Property foo not found on BooleanDecoder class. `BooleanDecoder.__init__` only accepts keyword arguments which are present on the BooleanDecoder class.")
  /\ told NIntEnc "SignedIntegerEncoder" [] = Some (lit "`value_bit_size` may not be none")
  /\ told NIntDec "SignedIntegerDecoder" [] = Some (lit "`value_bit_size` may not be None")
  /\ told NIntDec "SignedIntegerDecoder" [(KValueBitSize, AInt 8); (KDataByteSize, ANone)] = Some (lit "`data_byte_size` may not be None")
  /\ told NIntDec "SignedIntegerDecoder" [(KDataByteSize, ANone)] = Some (lit "`value_bit_size` may not be None")
  /\ told NBytesEnc "BytesEncoder" [(KValueBitSize, AInt 8); (KEncodeFn, ANone); (KIsBigEndian, ANone)] = Some (lit "`encode_fn` may not be none")
  /\ told NBytesEnc "BytesEncoder" [(KValueBitSize, AInt 8); (KIsBigEndian, ANone)] = Some (lit "`is_big_endian` may not be none")
  /\ told NIntEnc "SignedIntegerEncoder" [(KValueBitSize, AInt 8); (KBoundsFn, ANone); (KTypeCheckFn, ANone)] = Some (lit "`bounds_fn` cannot be null")
  /\ told NIntEnc "SignedIntegerEncoder" [(KValueBitSize, AInt 8); (KTypeCheckFn, ANone)] = Some (lit "`type_check_fn` cannot be null")
  /\ told NIntEnc "SignedIntegerEncoder" [(KValueBitSize, AInt 264)] = Some (lit "Value byte size exceeds data size")
  /\ told NUFixedEnc "UnsignedFixedEncoder" [(KValueBitSize, AInt 8)] = Some (lit "must specify `frac_places`")
  /\ told NFixedDec "SignedFixedDecoder" [(KValueBitSize, AInt 8); (KFracPlaces, AInt 81)] = Some (lit "`frac_places` must be in range (0, 80]")
  /\ told NFixedDec "SignedFixedDecoder" [(KValueBitSize, AInt 8); (KDecoderFn, ANone)] = Some (lit "No `decoder_fn` set")
  /\ told NAddrEnc "AddressEncoder" [(KValueBitSize, AInt 168)] = Some (lit "Addresses must be 160 bits in length")
  /\ told NTupleEnc "TupleEncoder" [] = Some (lit "`encoders` may not be none")
  /\ told NSizedEnc "SizedArrayEncoder" [] = Some (lit "`item_encoder` may not be none")
  /\ told NSizedEnc "SizedArrayEncoder" [(KItemEncoder, AEnc (EUInt 8 32))] = Some (lit "`array_size` may not be none")
  /\ told NHeadTailDec "HeadTailDecoder" [] = Some (lit "No `tail_decoder` set")
  /\ told NTupleDec "TupleDecoder" [] = Some (lit "No `decoders` set")
  /\ told NDynDec "DynamicArrayDecoder" [] = Some (lit "No `item_decoder` set")
  /\ construct NTupleEnc [(KEncoders, AInt 1)] = Err TypeError
  /\ told NAddrDec "AddressDecoder" [(KValueBitSize, AInt 168)] = None
  /\ misused NTupleEnc [(KEncoders, AInt 1)] TypeError
  /\ amiss NAddrEnc [(KValueBitSize, AInt 168)] Not160.
Proof.
  repeat match goal with |- _ = _ /\ _ => split; [lazy; reflexivity|] end.
  split; [eapply M_encoders; [reflexivity|apply H_given; cbn; auto|discriminate]|].
  apply (A_160 _ _ 168); [cbn; auto|left; apply H_given; cbn; auto|discriminate].
Qed.
