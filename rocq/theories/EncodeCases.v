(** Witnesses and concrete cases for the theorems of PropertiesEncode.v. *)
From Coq Require Import Strings.Byte Strings.String.
From Verif Require Import Tac Bytes Decimals Encoding Decoding Registry Codec Histories Spec ReadSpec TypeSpec ApiProofs EncodeApi Samples.
Open Scope string_scope.
Open Scope list_scope.
Open Scope Z_scope.
Local Transparent Keccak.keccak256 Z.pow pow10 prec Etop Etiny Emax ndigits word be_bytes len.

Lemma is_encodable_cases w typ v : used false w -> fits (PList [v]) ->
  (exists s t, typ = PStr s /\ supported s t /\
    ((is_encodable_in w typ v = Ok true /\ exists b, encode_in w (PList [typ]) (PList [v]) = Ok b)
     \/ (is_encodable_in w typ v = Ok false
         /\ exists e, encode_in w (PList [typ]) (PList [v]) = Err e /\ is_encoding_error e = true)
     \/ (is_encodable_in w typ v = Ok true
         /\ encode_in w (PList [typ]) (PList [v]) = Err UnicodeEncodeError /\ ~ leaves scalar_leaf t v)
     \/ (is_encodable_in w typ v = Err TypeError
         /\ encode_in w (PList [typ]) (PList [v]) = Err TypeError /\ ~ leaves native_leaf t v)))
  \/ (~ (exists s t, typ = PStr s /\ supported s t) /\ is_encodable_in w typ v = Ok false
      /\ exists e, (e = NoEntriesFound \/ e = ABITypeError \/ e = ParseError \/ e = ValueError \/ e = TypeError)
                   /\ encode_in w (PList [typ]) (PList [v]) = Err e).
Proof.
  intros U F. destruct (is_encodable_spec false w typ v U F) as [H|(N & I & e & X & E)]; [left; exact H|right].
  split; [exact N|]. split; [exact I|]. exists e. split; [|exact E]. unfold type_exc in X. tauto.
Qed.

Lemma surrogate_encodable : exists w typ v,
  used false w /\ is_encodable_in w typ v = Ok true /\ encode_in w (PList [typ]) (PList [v]) = Err UnicodeEncodeError.
Proof. exists start, (str "string"), (PStr [0xD800%N]). split; [exact start_used|]. split; lazy; reflexivity. Qed.
Lemma complex_encodable : exists w typ v, used false w /\ is_encodable_in w typ v = Err TypeError.
Proof. exists start, (str "fixed8x1"), (PComplex 0). split; [exact start_used|]. lazy. reflexivity. Qed.

Lemma fixed_sample : supported (lit "fixed8x1") (SFixed 8 1) /\ fixed_range (SFixed 8 1) 1 (-128) 127
  /\ num_scaled (dec (-150) (-2)) 1 (-15) /\ beyond (dec 1 5000000) 1 (-128) 127
  /\ encode_in start (types ["fixed8x1"]) (PList [dec (-150) (-2)]) = Ok (word (-15))
  /\ encode_in start (types ["fixed8x1"]) (PList [dec 128 (-1)]) = Err ValueOutOfBounds
  /\ encode_in start (types ["fixed8x1"]) (PList [PDec DNaN]) = Err IllegalValue
  /\ encode_in start (types ["fixed8x1"]) (PList [str "1"]) = Err EncodingTypeError.
Proof.
  split; [sample_type|]. split; [exact (FR_signed 8 1)|]. split; [lazy; reflexivity|]. split.
  - right. unfold scaled_cmp. change (0 <=? 5000000 + 1) with true. cbv iota. change (Z.of_N (Z.to_N (Z.abs 1))) with 1. change (1 <? 0) with false. cbv iota.
    rewrite Z.compare_gt_iff. replace (5000000 + 1) with (3 + 4999998) by reflexivity. rewrite Z.pow_add_r by discriminate.
    assert (H : 0 < 10 ^ 4999998) by (apply Z.pow_pos_nonneg; [reflexivity|discriminate]). change (10 ^ 3) with 1000. revert H. generalize (10 ^ 4999998). lia.
  - repeat split; lazy; reflexivity.
Qed.

Lemma excess_rejected_nonneg w s t n lo hi c e :
  used false w -> supported s t -> fixed_range t n lo hi -> ~ beyond (PDec (DFin false c e)) n lo hi -> -1000997 <= e ->
  ~ (exists z, scaled (DFin false c e) n z) ->
  encode_in w (PList [PStr s]) (PList [PDec (DFin false c e)]) = Err IllegalValue.
Proof.
  intros U S R B He N. destruct (encode_fixed_decimal w s t n lo hi false c e U S R B) as [(_ & [H|[H|[H _]]])|[H _]]; [contradiction|discriminate|lia|exact H].
Qed.
Lemma inexact_15 neg : ~ (exists z, scaled (DFin neg 15 (-2)) 1 z).
Proof.
  intros [z H]. cbn [scaled] in H. unfold scaled_cmp in H. change (0 <=? -2 + 1) with false in H. cbv iota in H. apply Z.compare_eq in H.
  change (10 ^ - (-2 + 1)) with 10 in H. destruct neg; lia.
Qed.
Lemma excess_sample : ~ beyond (PDec (DFin false 15 (-2))) 1 (-128) 127 /\ ~ (exists z, scaled (DFin false 15 (-2)) 1 z)
  /\ encode_in start (types ["fixed8x1"]) (PList [PDec (DFin false 15 (-2))]) = Err IllegalValue.
Proof.
  assert (B : ~ beyond (PDec (DFin false 15 (-2))) 1 (-128) 127) by (lazy; intros [H|H]; discriminate).
  split; [exact B|]. split; [apply inexact_15|].
  apply (excess_rejected_nonneg start (lit "fixed8x1") (SFixed 8 1) 1 (-128) 127 _ _ start_used ltac:(sample_type) (FR_signed 8 1) B); [lia|apply inexact_15].
Qed.

Lemma excess_accepted : exists w s t n lo hi c e,
  used false w /\ supported s t /\ fixed_range t n lo hi /\ ~ (exists z, scaled (DFin true c e) n z)
  /\ encode_in w (PList [PStr s]) (PList [PDec (DFin true c e)]) = Ok (word (-1)).
Proof.
  exists start, (lit "fixed8x1"), (SFixed 8 1), 1, (-128), 127, 15%N, (-2). split; [exact start_used|]. split; [sample_type|].
  split; [exact (FR_signed 8 1)|]. split; [apply inexact_15|]. lazy. reflexivity.
Qed.
Lemma excess_malformed : exists w s v b,
  used false w /\ encode_in w (PList [PStr s]) (PList [v]) = Ok b
  /\ decode_in w (PList [PStr s]) (PBytes b) true = Err NonEmptyPaddingBytes.
Proof.
  exists start, (lit "fixed8x1"), (dec (-5) (-2)), (repeat xff 31 ++ [x00]). split; [exact start_used|]. split; lazy; reflexivity.
Qed.
Lemma packed_collision : exists w types args args' b,
  used true w /\ encode_in w types args = Ok b /\ encode_in w types args' = Ok b
  /\ args = PList [str "a"; str "bc"] /\ args' = PList [str "ab"; str "c"].
Proof.
  exists start_packed, (types ["string"; "string"]), (PList [str "a"; str "bc"]), (PList [str "ab"; str "c"]), (raw "abc").
  split; [exact start_packed_used|]. repeat split; lazy; reflexivity.
Qed.
Lemma address_sample : forall txt,
  In txt [lit "0xfB6916095ca1df60bB79Ce92cE3Ea74c37c5d359"; lit "fb6916095ca1df60bb79ce92ce3ea74c37c5d359"; lit "0XFB6916095CA1DF60BB79CE92CE3EA74C37C5D359"] ->
  encode_in start (types ["address"]) (PList [PStr txt])
  = Ok (repeat x00 12 ++ [xfb; x69; x16; x09; x5c; xa1; xdf; x60; xbb; x79; xce; x92; xce; x3e; xa7; x4c; x37; xc5; xd3; x59]).
Proof. intros txt [<-|[<-|[<-|[]]]]; lazy; reflexivity. Qed.
Lemma bad_checksum_sample :
  encode_in start (types ["address"]) (PList [str "0xFB6916095ca1df60bB79Ce92cE3Ea74c37c5d359"]) = Err EncodingTypeError.
Proof. lazy. reflexivity. Qed.
Lemma encode_other_errors :
  (exists w types args, used false w /\ encode_in w types args = Err UnicodeEncodeError)
  /\ (exists w types args, used false w /\ encode_in w types args = Err TypeError).
Proof.
  split.
  - exists start, (types ["string[]"]), (PList [PList [PStr [0xDC00%N]]]). split; [exact start_used|]. lazy. reflexivity.
  - exists start, (types ["ufixed"]), (PList [PFraction 1 2]). split; [exact start_used|]. lazy. reflexivity.
Qed.
Lemma arity_sample : ~ shaped (STuple [SArr (SSized 2 (SUInt 8))]) (PList [PList [PList [PInt 1; PInt 2]; PList [PInt 3]]])
  /\ encode_in start (types ["uint8[2][]"]) (PList [PList [PList [PInt 1; PInt 2]; PList [PInt 3]]]) = Err ValueOutOfBounds
  /\ encode_in start (types ["uint8"; "bool"]) (PList [PInt 1]) = Err ValueOutOfBounds.
Proof.
  split; [|split; lazy; reflexivity]. intro H. inversion H as [| |ts p l Hl F|t p C]; subst; [|contradiction C]. destruct Hl as [Hl|[Hl|(? & Hl)]]; inversion Hl; subst. inversion F as [|x y lx ly H1 F1]; subst.
  inversion H1 as [t p l Hl1 F2| | |t p C]; subst; [|contradiction C]. destruct Hl1 as [Hl1|[Hl1|(? & Hl1)]]; inversion Hl1; subst. inversion F2 as [|x y H2 F3]; subst. inversion F3 as [|x y H3 F4]; subst.
  inversion H3 as [|n t p l Hl2 L F5| |t p C]; subst; [|contradiction C]. destruct Hl2 as [Hl2|[Hl2|(? & Hl2)]]; inversion Hl2; subst. discriminate L.
Qed.
