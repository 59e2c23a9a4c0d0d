(** C54-C58: laws that relate encodings and decodings at different types. *)
From Coq Require Import Strings.Byte Strings.String.
From Verif Require Import Py Bytes Encoding Decoding Registry Codec Histories Spec ReadSpec LawsSpec TypeSpec Samples LawsProofs LawsProofs2 LawsReads.
Open Scope string_scope.
Open Scope list_scope.
Open Scope Z_scope.
Local Transparent Keccak.keccak256 Z.pow Decimals.pow10 Decimals.prec Decimals.Etop Decimals.Etiny Decimals.Emax Decimals.ndigits word be_bytes len.

(** ** C54: fixed-size arrays and tuples of equal members *)
Theorem C54_encode : forall pk w w' types types' ts ts' args b, used pk w -> used pk w' -> type_args types ts -> type_args types' ts' -> Forall2 same_layout ts ts' ->
  encode_in w types args = Ok b -> encode_in w' types' args = Ok b.
Proof. exact encode_same_layout. Qed.
Print Assumptions C54_encode.
(** One such value: the same exception, too. *)
Theorem C54_encode_single : forall pk w w' s s' t n v, used pk w -> used pk w' -> supported s (SSized n t) -> supported s' (STuple (repeat t (Z.to_nat n))) ->
  (forall l, ~ seq_like v l) \/ (exists l, seq_like v l /\ len l = n) ->
  encode_in w (PList [PStr s]) (PList [v]) = encode_in w' (PList [PStr s']) (PList [v]).
Proof. exact encode_array_tuple. Qed.
Print Assumptions C54_encode_single.
Theorem C54_packed_arrays : forall w w' s s' t n v l, used true w -> used true w' -> supported s (SArr t) -> supported s' (SSized n t) -> seq_like v l -> len l = n ->
  encode_in w (PList [PStr s]) (PList [v]) = encode_in w' (PList [PStr s']) (PList [v]).
Proof. exact encode_packed_arrays. Qed.
Print Assumptions C54_packed_arrays.
(** Decoding: what decodes also decodes with every array written as a tuple. *)
Theorem C54_decode : forall w w' types types' ts data b strict q, used false w -> used false w' -> type_args types ts -> type_args types' (map expand ts) ->
  bytes_like data b -> len b <= maxsize -> decode_in w types data strict = Ok q -> decode_in w' types' data strict = Ok q.
Proof. exact decode_expanded. Qed.
Print Assumptions C54_decode.
Theorem C54_decode_agree : forall w w' types types' ts ts' data b strict q q', used false w -> used false w' -> type_args types ts -> type_args types' ts' ->
  Forall2 same_layout ts ts' -> bytes_like data b -> len b <= maxsize -> decode_in w types data strict = Ok q -> decode_in w' types' data strict = Ok q' -> q = q'.
Proof. exact decode_same_layout. Qed.
Print Assumptions C54_decode_agree.
Theorem C54_decode_single : forall w w' s s' t n data b strict q, used false w -> used false w' -> supported s (SSized n t) -> supported s' (STuple (repeat t (Z.to_nat n))) ->
  bytes_like data b -> len b <= maxsize ->
  decode_in w (PList [PStr s]) data strict = Ok q <-> decode_in w' (PList [PStr s']) data strict = Ok q.
Proof. exact decode_array_tuple. Qed.
Print Assumptions C54_decode_single.
Example C54_sample :
  type_args (types ["(uint8,uint8)[2]"; "string[2]"]) [SSized 2 (STuple [SUInt 8; SUInt 8]); SSized 2 SString]
  /\ type_args (types ["(uint8[2],(uint8,uint8))"; "(string,string)"]) [STuple [SSized 2 (SUInt 8); STuple [SUInt 8; SUInt 8]]; STuple [SString; SString]]
  /\ Forall2 same_layout [SSized 2 (STuple [SUInt 8; SUInt 8]); SSized 2 SString] [STuple [SSized 2 (SUInt 8); STuple [SUInt 8; SUInt 8]]; STuple [SString; SString]]
  /\ exists b, encode_in start (types ["(uint8,uint8)[2]"; "string[2]"]) (PList [PList [PList [PInt 1; PInt 2]; PTuple [PInt 3; PInt 4]]; PTuple [str "a"; str ""]]) = Ok b
     /\ encode_in start (types ["(uint8[2],(uint8,uint8))"; "(string,string)"]) (PList [PList [PList [PInt 1; PInt 2]; PTuple [PInt 3; PInt 4]]; PTuple [str "a"; str ""]]) = Ok b
     /\ len b = 320.
Proof. split; [sample_types|]. split; [sample_types|]. split; [repeat constructor|]. eexists. split; [lazy; reflexivity|]. split; lazy; reflexivity. Qed.
(** Among several arguments the array form rejects some payloads the tuple form
    accepts: it counts its items as head words. *)
Definition low_offset : bytes := word 7 ++ word 8 ++ word 64 ++ repeat xaa 64.
Example C54_tuple_form_laxer :
  decode_in start (types ["(uint256,uint256)"; "bytes"]) (PBytes low_offset) true = Ok (PTuple [PTuple [PInt 7; PInt 8]; PBytes (repeat xaa 64)])
  /\ decode_in start (types ["uint256[2]"; "bytes"]) (PBytes low_offset) true = Err InvalidPointer.
Proof. split; lazy; reflexivity. Qed.
Example C54_packed_sample : encode_in start_packed (types ["uint16[]"]) (PList [PList [PInt 1; PInt 2]]) = Ok [x00; x01; x00; x02]
  /\ encode_in start_packed (types ["uint16[2]"]) (PList [PList [PInt 1; PInt 2]]) = Ok [x00; x01; x00; x02]
  /\ encode_in start_packed (types ["(uint16,uint16)"]) (PList [PList [PInt 1; PInt 2]]) = Ok [x00; x01; x00; x02].
Proof. repeat split; lazy; reflexivity. Qed.

(** ** C55: argument lists, tuples and arrays *)
Theorem C55_wrap : forall pk w w' types ts s args l, used pk w -> used pk w' -> type_args types ts -> supported s (STuple ts) -> seq_like args l ->
  encode_in w (PList [PStr s]) (PList [args]) = (b <- encode_in w' types args ;; Ok (if negb pk && existsb sdyn ts then word 32 ++ b else b)).
Proof. exact encode_wrapped. Qed.
Print Assumptions C55_wrap.
Theorem C55_array : forall w w' s s' t v l, used false w -> used false w' -> supported s t -> supported s' (SArr t) -> seq_like v l -> len l < 2 ^ 256 ->
  encode_in w (PList [PStr s']) (PList [v]) =
  (b <- encode_in w' (PList (repeat (PStr s) (length l))) v ;; Ok (word 32 ++ word (len l) ++ b)).
Proof. exact encode_array_items. Qed.
Print Assumptions C55_array.
Theorem C55_concat : forall pk w w1 w2 types types1 types2 n1 n2 ts1 ts2 args args1 args2 l1 l2 b,
  used pk w -> used pk w1 -> used pk w2 -> type_args types1 ts1 -> type_args types2 ts2 ->
  seq_like types1 n1 -> seq_like types2 n2 -> seq_like types (n1 ++ n2) ->
  seq_like args1 l1 -> seq_like args2 l2 -> seq_like args (l1 ++ l2) -> len l1 = len n1 ->
  pk = true \/ existsb sdyn (ts1 ++ ts2) = false ->
  encode_in w types args = Ok b <->
  exists b1 b2, encode_in w1 types1 args1 = Ok b1 /\ encode_in w2 types2 args2 = Ok b2 /\ b = b1 ++ b2.
Proof. exact encode_concat. Qed.
Print Assumptions C55_concat.
Theorem C55_decode_static : forall w w' types s ts data b strict q, used false w -> used false w' -> type_args types ts -> supported s (STuple ts) -> existsb sdyn ts = false ->
  bytes_like data b -> len b <= maxsize ->
  decode_in w (PList [PStr s]) data strict = Ok q <-> exists q', q = PTuple [q'] /\ decode_in w' types data strict = Ok q'.
Proof. exact decode_wrapped_static. Qed.
Print Assumptions C55_decode_static.
(** Behind an offset that skips [mid]; what is nested is always read strictly. *)
Theorem C55_decode_dynamic : forall w w' types s ts data data' mid b strict q, used false w -> used false w' -> type_args types ts -> supported s (STuple ts) -> existsb sdyn ts = true ->
  bytes_like data (word (32 + len mid) ++ mid ++ b) -> bytes_like data' b -> 32 + len mid + len b <= maxsize ->
  decode_in w (PList [PStr s]) data strict = Ok q <-> exists q', q = PTuple [q'] /\ decode_in w' types data' true = Ok q'.
Proof. exact decode_wrapped_dynamic. Qed.
Print Assumptions C55_decode_dynamic.
Definition ab : bytes := word 5 ++ word 64 ++ word 2 ++ raw "ab" ++ repeat x00 30.
Example C55_sample : supported (lit "(uint8,string)") (STuple [SUInt 8; SString]) /\ type_args (types ["uint8"; "string"]) [SUInt 8; SString]
  /\ encode_in start (types ["uint8"; "string"]) (PTuple [PInt 5; str "ab"]) = Ok ab
  /\ encode_in start (types ["(uint8,string)"]) (PList [PTuple [PInt 5; str "ab"]]) = Ok (word 32 ++ ab)
  /\ decode_in start (types ["uint8"; "string"]) (PBytes ab) true = Ok (PTuple [PInt 5; str "ab"])
  /\ decode_in start (types ["(uint8,string)"]) (PBytes (word 40 ++ repeat xff 8 ++ ab)) true = Ok (PTuple [PTuple [PInt 5; str "ab"]])
  /\ encode_in start (types ["bool[]"]) (PList [PList [PBool true; PBool false]]) = Ok (word 32 ++ word 2 ++ word 1 ++ word 0)
  /\ encode_in start (types ["bool"; "bool"]) (PList [PBool true; PBool false]) = Ok (word 1 ++ word 0)
  /\ encode_in start_packed (types ["uint8"; "string"]) (PTuple [PInt 5; str "ab"]) = Ok ([x05] ++ raw "ab").
Proof. split; [sample_type|]. split; [sample_types|]. repeat split; lazy; reflexivity. Qed.
(** With dynamic members concatenation is not enough: the offset moves. *)
Example C55_dynamic_sample : exists b1 b2, encode_in start (types ["uint8"]) (PList [PInt 5]) = Ok b1 /\ encode_in start (types ["string"]) (PList [str "ab"]) = Ok b2 /\ ab <> b1 ++ b2.
Proof. do 2 eexists. split; [lazy; reflexivity|]. split; [lazy; reflexivity|]. intro H. apply (f_equal (firstn 64)) in H. apply (f_equal (skipn 63)) in H. lazy in H. discriminate H. Qed.

(** ** C56: wider numeric types *)
Theorem C56_encode : forall w w' types types' ts ts' args b, used false w -> used false w' -> type_args types ts -> type_args types' ts' -> Forall2 widens ts ts' ->
  encode_in w types args = Ok b -> encode_in w' types' args = Ok b.
Proof. exact encode_wider. Qed.
Print Assumptions C56_encode.
Theorem C56_decode : forall w w' types types' ts ts' data b strict q, used false w -> used false w' -> type_args types ts -> type_args types' ts' -> Forall2 widens ts ts' ->
  bytes_like data b -> len b <= maxsize -> decode_in w types data strict = Ok q -> decode_in w' types' data strict = Ok q.
Proof. exact decode_wider. Qed.
Print Assumptions C56_decode.
(** Back, for exactly the values the narrower types have. *)
Theorem C56_decode_back : forall w w' types types' ts ts' data b strict q, used false w -> used false w' -> type_args types ts -> type_args types' ts' -> Forall2 widens ts ts' ->
  bytes_like data b -> len b <= maxsize -> decode_in w' types' data strict = Ok q ->
  decode_in w types data strict = Ok q <-> exists a, denotes (STuple ts) q a.
Proof. exact decode_narrower. Qed.
Print Assumptions C56_decode_back.
Example C56_sample : type_args (types ["uint8[]"; "ufixed8x1"]) [SArr (SUInt 8); SUFixed 8 1] /\ type_args (types ["int16[]"; "fixed64x1"]) [SArr (SInt 16); SFixed 64 1]
  /\ Forall2 widens [SArr (SUInt 8); SUFixed 8 1] [SArr (SInt 16); SFixed 64 1]
  /\ (exists b, encode_in start (types ["uint8[]"; "ufixed8x1"]) (PList [PList [PInt 255; PInt 0]; dec 15 (-1)]) = Ok b
      /\ encode_in start (types ["int16[]"; "fixed64x1"]) (PList [PList [PInt 255; PInt 0]; dec 15 (-1)]) = Ok b)
  /\ encode_in start_packed (types ["uint8"]) (PList [PInt 255]) <> encode_in start_packed (types ["int16"]) (PList [PInt 255])
  /\ decode_in start (types ["int16[]"]) (PBytes (word 32 ++ word 1 ++ word 255)) true = Ok (PTuple [PTuple [PInt 255]])
  /\ decode_in start (types ["uint8[]"]) (PBytes (word 32 ++ word 1 ++ word 255)) true = Ok (PTuple [PTuple [PInt 255]])
  /\ decode_in start (types ["int16[]"]) (PBytes (word 32 ++ word 1 ++ word 256)) true = Ok (PTuple [PTuple [PInt 256]])
  /\ decode_in start (types ["uint8[]"]) (PBytes (word 32 ++ word 1 ++ word 256)) true = Err NonEmptyPaddingBytes.
Proof.
  split; [sample_types|]. split; [sample_types|]. split; [constructor; [reflexivity|constructor; [split; reflexivity|constructor]]|].
  split; [eexists; split; lazy; reflexivity|]. split; [lazy; discriminate|]. repeat split; lazy; reflexivity.
Qed.

(** ** C57: string is bytes of UTF-8 *)
Theorem C57_encode : forall pk w w' types types' ts args args', used pk w -> used pk w' -> type_args types ts -> type_args types' (map raw_type ts) ->
  raw_of (STuple ts) args args' -> encode_in w types args = encode_in w' types' args'.
Proof. exact encode_raw. Qed.
Print Assumptions C57_encode.
Theorem C57_decode : forall w w' types types' ts data b strict q, used false w -> used false w' -> type_args types ts -> type_args types' (map raw_type ts) ->
  bytes_like data b -> len b <= maxsize ->
  decode_in w types data strict = Ok q <-> exists q', decode_in w' types' data strict = Ok q' /\ raw_of (STuple ts) q q'.
Proof. exact decode_raw. Qed.
Print Assumptions C57_decode.
Definition accented : pystr := [0x63; 0xe9; 0x1F600]%N.
Example C57_sample : type_args (types ["string[]"; "uint8"]) [SArr SString; SUInt 8] /\ type_args (types ["bytes[]"; "uint8"]) (map raw_type [SArr SString; SUInt 8])
  /\ raw_of (STuple [SArr SString; SUInt 8]) (PTuple [PTuple [PStr accented]; PInt 5]) (PTuple [PTuple [PBytes [x63; xc3; xa9; xf0; x9f; x98; x80]]; PInt 5])
  /\ exists b, encode_in start (types ["string[]"; "uint8"]) (PTuple [PTuple [PStr accented]; PInt 5]) = Ok b
     /\ encode_in start (types ["bytes[]"; "uint8"]) (PTuple [PTuple [PBytes [x63; xc3; xa9; xf0; x9f; x98; x80]]; PInt 5]) = Ok b
     /\ decode_in start (types ["string[]"; "uint8"]) (PBytes b) true = Ok (PTuple [PTuple [PStr accented]; PInt 5])
     /\ decode_in start (types ["bytes[]"; "uint8"]) (PBytes b) true = Ok (PTuple [PTuple [PBytes [x63; xc3; xa9; xf0; x9f; x98; x80]]; PInt 5]).
Proof.
  split; [sample_types|]. split; [sample_types|]. split.
  - apply (R_tuple _ PTuple); [right; left; reflexivity|]. constructor; [|constructor; [apply R_leaf; exact Logic.I|constructor]].
    apply (R_arr _ PTuple); [right; left; reflexivity|]. constructor; [|constructor]. apply (R_string accented). repeat constructor; lazy; intuition discriminate.
  - eexists. split; [lazy; reflexivity|]. split; [lazy; reflexivity|]. split; lazy; reflexivity.
Qed.

(** ** C58: the two modes agree on types that fill their words *)
Theorem C58_full_words : forall w w' types ts args l, used true w -> used false w' -> type_args types ts -> forallb full ts = true -> seq_like args l ->
  encode_in w types args = encode_in w' types args.
Proof. exact encode_full. Qed.
Print Assumptions C58_full_words.
Example C58_sample : type_args (types ["int256[2]"; "(bytes32,uint256)"]) [SSized 2 (SInt 256); STuple [SBytesM 32; SUInt 256]]
  /\ forallb full [SSized 2 (SInt 256); STuple [SBytesM 32; SUInt 256]] = true
  /\ encode_in start_packed (types ["int256[2]"; "(bytes32,uint256)"]) (PList [PList [PInt (-1); PInt 2]; PList [PBytes (raw "x"); PInt 3]])
     = Ok (repeat xff 32 ++ word 2 ++ [x78] ++ repeat x00 31 ++ word 3)
  /\ encode_in start (types ["int256[2]"; "(bytes32,uint256)"]) (PList [PList [PInt (-1); PInt 2]; PList [PBytes (raw "x"); PInt 3]])
     = Ok (repeat xff 32 ++ word 2 ++ [x78] ++ repeat x00 31 ++ word 3)
  /\ encode_in start_packed (types ["uint8"]) (PList [PInt 1]) = Ok [x01] /\ encode_in start (types ["uint8"]) (PList [PInt 1]) = Ok (word 1).
Proof. split; [sample_types|]. repeat split; lazy; reflexivity. Qed.
