(** C51: CPython's limit on converting integers to and from text.

    The other property files ignore the limit.  Here it is part of the model
    (Limits.v: [limited_encode_in] and so on) and the two are compared. *)
From Coq Require Import Strings.Byte Strings.String.
From Verif Require Import Tac Bytes BytesProofs Grammar GrammarSpec Encoding Decoding Registry Codec Histories Spec TypeSpec Samples
  Limits LimitsSpec LimitsProofs LimitsCases.
Open Scope string_scope.
Open Scope list_scope.
Open Scope Z_scope.

(** encode accepts the same arguments with the same bytes.  What it raises
    differs only if an integer of more than 4300 digits is inside the arguments,
    and then it is ValueError instead of an EncodingError. *)
Theorem C51_encode : forall pk w types args, used pk w -> short_types types ->
  limited_encode_in w types args = encode_in w types args
  \/ (long_inside args /\ exists e, encode_in w types args = Err e /\ is_encoding_error e = true /\ limited_encode_in w types args = Err ValueError).
Proof. exact limited_encode_near. Qed.
Print Assumptions C51_encode.
Theorem C51_is_encodable : forall pk w typ arg, used pk w -> ~ long_type typ ->
  limited_is_encodable_in w typ arg = is_encodable_in w typ arg
  \/ (long_inside arg /\ is_encodable_in w typ arg = Ok false /\ limited_is_encodable_in w typ arg = Err ValueError).
Proof. exact limited_is_encodable_near. Qed.
Print Assumptions C51_is_encodable.
Theorem C51_is_encodable_type : forall w typ, ~ long_type typ -> limited_is_encodable_type_in w typ = is_encodable_type_in w typ.
Proof. exact limited_is_encodable_type_same. Qed.
Print Assumptions C51_is_encodable_type.
(** decode is not affected by the values it returns. *)
Theorem C51_decode : forall w types data strict, short_types types -> limited_decode_in w types data strict = decode_in w types data strict.
Proof. exact limited_decode_same. Qed.
Print Assumptions C51_decode.
(** The registries are left as without the limit, also if a value is refused. *)
Theorem C51_state : forall types typ args data strict r (w : world), short_types types -> ~ long_type typ ->
  snd (limited_encode types args r) = snd (api_encode types args r)
  /\ snd (limited_is_encodable_type typ r) = snd (api_is_encodable_type typ r)
  /\ snd (limited_is_encodable typ args r) = snd (api_is_encodable typ args r)
  /\ snd (limited_decode types data strict w) = snd (api_decode types data strict w).
Proof. exact limited_state. Qed.
Print Assumptions C51_state.
Example C51_state_case : short_types (types ["uint8"]) /\ ~ long_type (str "uint8")
  /\ length (r_ecache (fst start)) = 0%nat /\ length (r_ecache (snd (limited_encode (types ["uint8"]) (PList [PInt 256]) (fst start)))) = 1%nat.
Proof.
  split; [exact uint8_types_short|]. split; [intros (s & E & L); injection E as <-; exact (uint8_short L)|]. split; lazy; reflexivity.
Qed.

(** When the exception does change: for a type that is not an array or tuple
    exactly if the repr of the rejected value shows such an integer, ... *)
Theorem C51_leaf : forall pk w s t v, used pk w -> supported s t -> ~ long_number s ->
  match t with SArr _ | SSized _ _ | STuple _ => False | _ => True end ->
  is_encodable_in w (PStr s) v = Ok false -> (limited_is_encodable_in w (PStr s) v = Err ValueError <-> long_shown v).
Proof. exact limited_leaf. Qed.
Print Assumptions C51_leaf.
(** ... and if the number of arguments is wrong, exactly if that of the
    arguments shows one. *)
Theorem C51_arity : forall pk w types ts args l, used pk w -> type_args types ts -> short_types types -> seq_like args l -> len l <> len ts ->
  (long_shown args -> limited_encode_in w types args = Err ValueError) /\ (~ long_shown args -> limited_encode_in w types args = Err ValueOutOfBounds).
Proof. exact limited_arity. Qed.
Print Assumptions C51_arity.

(** The smallest such integer, rejected with ValueError by is_encodable and
    encode; its predecessor still gives False and ValueOutOfBounds. *)
Theorem C51_is_encodable_false_refuted :
  used false start
  /\ is_encodable_in start (str "uint8") (PInt (10 ^ 4300)) = Ok false
  /\ limited_is_encodable_in start (str "uint8") (PInt (10 ^ 4300)) = Err ValueError
  /\ limited_is_encodable_in start (str "uint8") (PInt (10 ^ 4300 - 1)) = Ok false
  /\ encode_in start (types ["uint8"]) (PList [PInt (10 ^ 4300)]) = Err ValueOutOfBounds
  /\ limited_encode_in start (types ["uint8"]) (PList [PInt (10 ^ 4300)]) = Err ValueError
  /\ limited_encode_in start (types ["uint8"]) (PList [PInt (10 ^ 4300 - 1)]) = Err ValueOutOfBounds.
Proof. exact limit_8. Qed.
Print Assumptions C51_is_encodable_false_refuted.
(** A list is quoted with its items. *)
Example C51_inside : long_shown (PList [PInt 1; PTuple [PFraction (10 ^ 4300) 3]]).
Proof. exact inside_list. Qed.
(** A deque is too, but not an array of a class that hides them. *)
Example C51_other_sequences : long_shown (PSeq true [PInt (10 ^ 4300)]) /\ ~ long_shown (PSeq false [PInt (10 ^ 4300)])
  /\ long_inside (PSeq false [PInt (10 ^ 4300)]).
Proof. exact other_sequences. Qed.

(** A type name with a number of more than 4300 digits is an error of the
    parser library, neither ParseError nor ValueError; is_encodable_type and
    is_encodable answer False. *)
Theorem C51_encode_long_type : forall pk w ss ts s T rest types args l, used pk w -> Forall2 supported ss ts -> (forall s, In s ss -> ~ long_number s) ->
  g_type s T -> long_number s -> seq_like types (map PStr ss ++ PStr s :: rest) -> seq_like args l ->
  limited_encode_in w types args = Err VisitationError.
Proof. exact limited_encode_long. Qed.
Print Assumptions C51_encode_long_type.
Theorem C51_decode_long_type : forall w ss ts s T rest types data b strict, used false w -> Forall2 supported ss ts -> (forall s, In s ss -> ~ long_number s) ->
  g_type s T -> long_number s -> seq_like types (map PStr ss ++ PStr s :: rest) -> bytes_like data b ->
  limited_decode_in w types data strict = Err VisitationError.
Proof. exact limited_decode_long. Qed.
Print Assumptions C51_decode_long_type.
Theorem C51_is_encodable_long_type : forall w s T v, g_type s T -> long_number s ->
  limited_is_encodable_type_in w (PStr s) = Ok false /\ limited_is_encodable_in w (PStr s) v = Ok false.
Proof. exact limited_is_encodable_long. Qed.
Print Assumptions C51_is_encodable_long_type.
(** The string "bool[1000...0]" with 4300 zeros names a type, and 4299 zeros are
    not too many. *)
Example C51_long_name :
  let name n := lit "bool[" ++ 49%N :: repeat 48%N n ++ lit "]" in
  (exists T, g_type (name (Z.to_nat 4300)) T) /\ long_number (name (Z.to_nat 4300)) /\ ~ long_number (name (Z.to_nat 4299)).
Proof. exact long_name. Qed.

(** An integer encoder that a program constructs may be so wide that its bounds,
    which the message quotes, have too many digits. *)
Theorem C51_wide : forall signed bits dsz v, let e := if signed : bool then EInt bits dsz else EUInt bits dsz in
  let top := if signed then 2 ^ (bits - 1) else 2 ^ bits - 1 in ~ long_shown v -> 0 <= top ->
  fst (limited_ve e) v = match fst (ve e) v with
    | Err ValueOutOfBounds => Err (if 10 ^ 4300 <=? top then ValueError else ValueOutOfBounds)
    | r => r
    end.
Proof. exact limited_wide. Qed.
Print Assumptions C51_wide.
Example C51_wide_case : 10 ^ 4300 <= 2 ^ 17201 - 1 /\ fst (ve (EUInt 17201 2160)) (PInt (-1)) = Err ValueOutOfBounds /\ ~ long_shown (PInt (-1)).
Proof. exact wide_case. Qed.
