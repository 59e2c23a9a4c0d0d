(** The functions of the package and the classes behind type strings: C81, C82. *)
From Coq Require Import Strings.Byte Strings.String Lia.
From Verif Require Import Tac Py Bytes Grammar Encoding Decoding Registry Codec Histories Spec TypeSpec Construct ConstructSpec FunctionSpec FunctionProofs Samples.
Open Scope string_scope. Open Scope list_scope. Open Scope Z_scope.
Local Transparent Keccak.keccak256 Z.pow Decimals.pow10 Decimals.prec Decimals.Etop Decimals.Etiny Decimals.Emax Decimals.ndigits word be_bytes len.

(** * C81: the functions of the package are the methods on its registries *)

Theorem C81_encode : forall w types args, used false w -> encode types args = encode_in w types args.
Proof. exact (fun w types args U => eq_sym (encode_fn w types args U)). Qed.
Print Assumptions C81_encode.
Theorem C81_decode : forall w types data strict, used false w -> decode types data strict = decode_in w types data strict.
Proof. exact (fun w types data strict U => eq_sym (decode_fn w types data strict U)). Qed.
Print Assumptions C81_decode.
Theorem C81_is_encodable : forall w typ arg, used false w -> is_encodable typ arg = is_encodable_in w typ arg.
Proof. exact (fun w typ arg U => eq_sym (is_encodable_fn w typ arg U)). Qed.
Print Assumptions C81_is_encodable.
Theorem C81_is_encodable_type : forall w typ, used false w -> is_encodable_type typ = is_encodable_type_in w typ.
Proof. exact (fun w typ U => eq_sym (is_encodable_type_fn w typ U)). Qed.
Print Assumptions C81_is_encodable_type.
Theorem C81_encode_packed : forall w types args, used true w -> encode_packed types args = encode_in w types args.
Proof. exact (fun w types args U => eq_sym (encode_packed_fn w types args U)). Qed.
Print Assumptions C81_encode_packed.
Theorem C81_is_encodable_packed : forall w typ arg, used true w -> is_encodable_packed typ arg = is_encodable_in w typ arg.
Proof. exact (fun w typ arg U => eq_sym (is_encodable_packed_fn w typ arg U)). Qed.
Print Assumptions C81_is_encodable_packed.

Example C81_sample :
  encode (types ["uint16"; "bool"]) (PList [PInt 513; PBool true]) = Ok (be_bytes 32 513 ++ be_bytes 32 1)
  /\ encode_packed (types ["uint16"; "bool"]) (PList [PInt 513; PBool true]) = Ok [x02; x01; x01]
  /\ decode (types ["uint16"]) (PBytes (be_bytes 32 513)) true = Ok (PTuple [PInt 513])
  /\ decode (types ["uint8"]) (PBytes (be_bytes 32 513)) true = Err NonEmptyPaddingBytes
  /\ is_encodable (PStr (lit "uint8")) (PInt 255) = Ok true
  /\ is_encodable (PStr (lit "uint8")) (PInt 256) = Ok false
  /\ is_encodable_type (PStr (lit "uint8[2]")) = Ok true
  /\ is_encodable_type (PStr (lit "foo")) = Ok false
  /\ is_encodable_packed (PStr (lit "int8")) (PInt (-128)) = Ok true
  /\ is_encodable_packed (PStr (lit "int8")) (PInt 128) = Ok false.
Proof. repeat split; lazy; reflexivity. Qed.
(** The two registries encode differently. *)
Example C81_states : used false start /\ used true start_packed
  /\ encode_in start (types ["string"]) (PList [PStr (lit "a")]) <> encode_in start_packed (types ["string"]) (PList [PStr (lit "a")]).
Proof. split; [exact start_used|]. split; [exact start_packed_used|]. lazy. intro E. discriminate E. Qed.

(** * C82: a basic type stands for a coder class with the sizes in its name *)

Theorem C82_encode : forall pk w s t c kw, used pk w -> supported s t -> enc_class pk t = Some (c, kw) ->
  exists o, construct c kw = Ok o /\ forall v, encode_in w (PList [PStr s]) (PList [v]) = encode_obj c o v.
Proof. exact encode_class. Qed.
Print Assumptions C82_encode.
Theorem C82_decode : forall w s t c kw, used false w -> supported s t -> dec_class t = Some (c, kw) ->
  exists o, construct c kw = Ok o /\ forall data b strict, bytes_like data b ->
    decode_in w (PList [PStr s]) data strict = (' (v, _) <- decode_obj c o b new_stream ;; Ok (PTuple [v])).
Proof. exact decode_class. Qed.
Print Assumptions C82_decode.

Example C82_sample :
  supported (lit "uint16") (SUInt 16)
  /\ enc_class true (SUInt 16) = Some (NPackedUIntEnc, [(KValueBitSize, AInt 16); (KDataByteSize, AInt 2)])
  /\ enc_class false (SFixed 128 18) = Some (NFixedEnc, [(KValueBitSize, AInt 128); (KFracPlaces, AInt 18)])
  /\ dec_class (SBytesM 4) = Some (NBytesDec, [(KValueBitSize, AInt 32)])
  /\ (exists o, construct NPackedUIntEnc [(KValueBitSize, AInt 16); (KDataByteSize, AInt 2)] = Ok o
        /\ encode_obj NPackedUIntEnc o (PInt 513) = Ok [x02; x01])
  /\ encode_in start_packed (types ["uint16"]) (PList [PInt 513]) = Ok [x02; x01].
Proof.
  split; [sample_type|]. do 3 (split; [reflexivity|]). split; [eexists; split; lazy; reflexivity|lazy; reflexivity].
Qed.
