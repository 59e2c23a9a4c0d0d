(** Property theorems for type strings and their coders: C20-C26, C41, C44. *)
From Coq Require Import Strings.Byte Strings.String.
From Verif Require Import Tac Bytes Grammar GrammarSpec GrammarProofs NormalizeProofs Encoding Decoding Registry RaisingSpec Codec Histories Spec TypeSpec TypeCases Samples TypeSamples.
Open Scope string_scope.
Open Scope list_scope.
Open Scope Z_scope.
(* for evaluating the samples *)
Local Transparent Keccak.keccak256 Z.pow Decimals.pow10 Decimals.prec Decimals.Etop Decimals.Etiny Decimals.Emax Decimals.ndigits word be_bytes len.

(** * C20: printing a parsed type *)

Theorem C20_parse_print : forall s T, parse s = Ok T -> to_type_str T = s.
Proof. exact parse_print. Qed.
Print Assumptions C20_parse_print.
Example C20_sample : exists T, parse (lit "(uint8[2],(ufixed8x4,foo)[])[][3]") = Ok T
  /\ to_type_str T = lit "(uint8[2],(ufixed8x4,foo)[])[][3]".
Proof. eexists. split; lazy; reflexivity. Qed.

(** * C21: the grammar *)

(** [g_type] is the EBNF of the source read as a context-free grammar
    (GrammarSpec.v). *)
Theorem C21_parse_iff : forall s T, parse s = Ok T <-> g_type s T.
Proof. exact parse_spec. Qed.
Print Assumptions C21_parse_iff.
Theorem C21_unambiguous : forall s T T', g_type s T -> g_type s T' -> T = T'.
Proof. exact g_type_unique. Qed.
Print Assumptions C21_unambiguous.
Theorem C21_parse_error : forall s e, parse s = Err e ->
  (~ exists T, g_type s T)
  /\ (e = ValueError /\ (exists a b, s = a ++ lit "()" ++ b) \/ e = ParseError /\ ~ (exists a b, s = a ++ lit "()" ++ b)).
Proof. exact parse_err. Qed.
Print Assumptions C21_parse_error.
Example C21_samples :
  parse (lit "(bytes,int8x2[])[2]") = Ok (Tup [Basic (lit "bytes") SubNone []; Basic (lit "int") (SubPair 8 2) [None]] [Some 2])
  /\ g_type (lit "int[12]") (Basic (lit "int") SubNone [Some 12])
  /\ parse (lit "uint08") = Err ParseError /\ parse (lit "uint8[0]") = Err ParseError
  /\ parse (lit "(uint8,)") = Err ParseError /\ parse (lit "int8()") = Err ValueError.
Proof. split; [lazy; reflexivity|]. split; [apply parse_spec; lazy; reflexivity|]. repeat split; lazy; reflexivity. Qed.

(** * C22: normalize *)

(** On every string: [normalized] (GrammarSpec.v) replaces each maximal run of
    word characters that is one of the six shorthands, and nothing else. *)
Theorem C22_normalize_iff : forall s s', normalized s s' <-> s' = normalize s.
Proof. exact normalized_iff. Qed.
Print Assumptions C22_normalize_iff.
Theorem C22_idempotent : forall s, normalize (normalize s) = normalize s.
Proof. exact normalize_idem. Qed.
Print Assumptions C22_idempotent.
(** On type strings: the normalized string parses to the expanded tree. *)
Theorem C22_normalize_type : forall s T, parse s = Ok T -> parse (normalize s) = Ok (expand T).
Proof. exact parse_normalize. Qed.
Print Assumptions C22_normalize_type.
(** and a string that is no type string stays one, with the same error. *)
Theorem C22_normalize_error : forall s e, parse s = Err e -> parse (normalize s) = Err e.
Proof. exact parse_normalize_err. Qed.
Print Assumptions C22_normalize_error.
Example C22_sample :
  normalize (lit "(int,uint8,(fixed[2],bytes,byte)[],function)") = lit "(int256,uint8,(fixed128x18[2],bytes,bytes1)[],bytes24)"
  /\ normalize (lit "int int_ -uint byteint") = lit "int256 int_ -uint256 byteint".
Proof. split; lazy; reflexivity. Qed.
(** Letters and digits of other scripts are word characters (here U+00E9,
    U+0660 and U+4E2D); other characters are not (U+00D7, U+2003, U+FF08). *)
Example C22_nonascii :
  normalize (233%N :: lit "int,int" ++ [1632%N] ++ lit ",byte" ++ [20013%N]) = 233%N :: lit "int,int" ++ [1632%N] ++ lit ",byte" ++ [20013%N]
  /\ normalize (215%N :: lit "int" ++ [8195%N] ++ lit "byte" ++ [65288%N]) = 215%N :: lit "int256" ++ [8195%N] ++ lit "bytes1" ++ [65288%N].
Proof. split; lazy; reflexivity. Qed.

(** * C23: shorthands *)

Theorem C23_encode : forall pk w w' types types' ss args, used pk w -> used pk w' ->
  seq_like types (map PStr ss) -> seq_like types' (map PStr (map normalize ss)) -> ~ In (lit "byte") ss ->
  encode_in w types args = encode_in w' types' args.
Proof. exact encode_alias. Qed.
Print Assumptions C23_encode.
Theorem C23_decode : forall w w' types types' ss data strict, used false w -> used false w' ->
  seq_like types (map PStr ss) -> seq_like types' (map PStr (map normalize ss)) -> ~ In (lit "byte") ss ->
  decode_in w types data strict = decode_in w' types' data strict.
Proof. exact decode_alias. Qed.
Print Assumptions C23_decode.
Theorem C23_is_encodable : forall pk w w' s arg, used pk w -> used pk w' -> s <> lit "byte" ->
  is_encodable_in w (PStr s) arg = is_encodable_in w' (PStr (normalize s)) arg
  /\ is_encodable_type_in w (PStr s) = is_encodable_type_in w' (PStr (normalize s)).
Proof. exact is_encodable_alias. Qed.
Print Assumptions C23_is_encodable.
(** The bare word "byte" has no coder. *)
Theorem C23_bare_byte_refuted :
  normalize (lit "byte") = lit "bytes1"
  /\ is_encodable_type_in start (str "byte") = Ok false /\ is_encodable_type_in start (str "bytes1") = Ok true
  /\ encode_in start (types ["byte"]) (PList [PBytes [x01]]) = Err NoEntriesFound
  /\ encode_in start (types ["bytes1"]) (PList [PBytes [x01]]) = Ok (x01 :: repeat x00 31)
  /\ encode_in start (types ["(byte)"]) (PList [PList [PBytes [x01]]]) = Ok (x01 :: repeat x00 31).
Proof. repeat split; lazy; reflexivity. Qed.
Print Assumptions C23_bare_byte_refuted.
Example C23_sample :
  normalize (lit "(int,byte)[]") = lit "(int256,bytes1)[]"
  /\ (exists b, encode_in start (types ["(int,byte)[]"]) (PList [PList [PTuple [PInt (-1); PBytes [x01]]]]) = Ok b
       /\ encode_in start (types ["(int256,bytes1)[]"]) (PList [PList [PTuple [PInt (-1); PBytes [x01]]]]) = Ok b)
  /\ decode_in start (types ["function"]) (PBytes (repeat x07 24 ++ repeat x00 8)) true = Ok (PTuple [PBytes (repeat x07 24)])
  /\ decode_in start (types ["bytes24"]) (PBytes (repeat x07 24 ++ repeat x00 8)) true = Ok (PTuple [PBytes (repeat x07 24)]).
Proof. split; [lazy; reflexivity|]. split; [eexists; split; lazy; reflexivity|]. split; lazy; reflexivity. Qed.

(** * C24: the supported types *)

(** [supported] (TypeSpec.v) lists the accepted names: the ABI types with their
    shorthands, "bool" followed by any size, except the bare word "byte". *)
Theorem C24_is_encodable_type : forall pk w typ, used pk w ->
  (exists s t, typ = PStr s /\ supported s t /\ is_encodable_type_in w typ = Ok true)
  \/ (~ (exists s t, typ = PStr s /\ supported s t) /\ is_encodable_type_in w typ = Ok false).
Proof. exact is_encodable_type_cases. Qed.
Print Assumptions C24_is_encodable_type.
(** Every ABI type except "byte" is supported ([type_name false] has no lax
    forms), *)
Theorem C24_abi_types_partial : forall pk w s t, used pk w -> type_name false s t -> s <> lit "byte" -> is_encodable_type_in w (PStr s) = Ok true.
Proof. exact strict_supported. Qed.
Print Assumptions C24_abi_types_partial.
(** and a name has one meaning. *)
Theorem C24_one_type : forall s t t', type_name true s t -> type_name true s t' -> t = t'.
Proof. exact type_name_fun. Qed.
Print Assumptions C24_one_type.
Theorem C24_abi_types_refuted :
  (is_encodable_type_in start (str "bool8x7") = Ok true /\ ~ exists t, type_name false (lit "bool8x7") t)
  /\ (is_encodable_type_in start (str "byte") = Ok false /\ type_name false (lit "byte") (SBytesM 1)).
Proof. exact abi_types_refuted. Qed.
Print Assumptions C24_abi_types_refuted.
Example C24_samples :
  is_encodable_type_in start (str "(uint8[3],fixed256x80,string)[]") = Ok true
  /\ is_encodable_type_in start (str "uint12") = Ok false /\ is_encodable_type_in start (str "bytes33[]") = Ok false
  /\ is_encodable_type_in start (str "fixed8x81") = Ok false /\ is_encodable_type_in start (PInt 3) = Ok false
  /\ is_encodable_type_in start_packed (str "uint256[][]") = Ok true.
Proof. repeat split; lazy; reflexivity. Qed.

(** * C25: encoders and decoders *)

Theorem C25_coders_agree : forall w k s, used false w ->
  (exists t T T' e d, supported s t /\ fst (get_encoder s (fst w)) = Ok e /\ fst (get_decoder k s w) = Ok d
     /\ parse s = Ok T /\ parse (normalize s) = Ok T'
     /\ is_dynamic_type T = sdyn t /\ is_dynamic_type T' = sdyn t /\ enc_dyn_attr e = Some (sdyn t) /\ dec_dyn_attr d = Some (sdyn t))
  \/ (exists x, fst (get_encoder s (fst w)) = Err x /\ fst (get_decoder k s w) = Err x).
Proof. exact coders_agree. Qed.
Print Assumptions C25_coders_agree.
Example C25_samples :
  (exists e d, fst (get_encoder (lit "(int[2],bytes)[3]") (fst start)) = Ok e /\ fst (get_decoder None (lit "(int[2],bytes)[3]") start) = Ok d
    /\ enc_dyn_attr e = Some true /\ dec_dyn_attr d = Some true)
  /\ (exists e d, fst (get_encoder (lit "(int[2],bytes4)[3]") (fst start)) = Ok e /\ fst (get_decoder (Some false) (lit "(int[2],bytes4)[3]") start) = Ok d
    /\ enc_dyn_attr e = Some false /\ dec_dyn_attr d = Some false)
  /\ fst (get_encoder (lit "int9") (fst start)) = Err ABITypeError /\ fst (get_decoder None (lit "int9") start) = Err ABITypeError.
Proof.
  split; [do 2 eexists; split; [lazy; reflexivity|]; split; [lazy; reflexivity|]; split; lazy; reflexivity|].
  split; [do 2 eexists; split; [lazy; reflexivity|]; split; [lazy; reflexivity|]; split; lazy; reflexivity|]. split; lazy; reflexivity.
Qed.

(** * C26: one registration at most *)

Theorem C26_one_registration : forall pk ts,
  (length (filter (fun pv => hit (fst pv) ts) (m_values (r_encs (standard_registry pk)))) <= 1)%nat
  /\ (length (filter (fun pv => hit (fst pv) ts) (m_values (r_decs (standard_registry pk)))) <= 1)%nat.
Proof. exact one_registration. Qed.
Print Assumptions C26_one_registration.
Theorem C26_unambiguous : forall pk w s, used pk w ->
  fst (get_encoder s (fst w)) <> Err MultipleEntriesFound /\ fst (has_encoder s (fst w)) <> Err MultipleEntriesFound
  /\ forall k, fst (get_decoder k s w) <> Err MultipleEntriesFound.
Proof. exact lookup_unambiguous. Qed.
Print Assumptions C26_unambiguous.
Example C26_sample :
  length (filter (fun pv => hit (fst pv) (lit "(int)[]")) (m_values (r_encs (standard_registry false)))) = 1%nat
  /\ length (filter (fun pv => hit (fst pv) (lit "(int)")) (m_values (r_encs (standard_registry true)))) = 1%nat
  /\ length (filter (fun pv => hit (fst pv) (lit "bytes")) (m_values (r_decs (standard_registry false)))) = 1%nat
  /\ length (filter (fun pv => hit (fst pv) (lit "int")) (m_values (r_decs (standard_registry true)))) = 0%nat.
Proof. repeat split; lazy; reflexivity. Qed.

(** * C41: construction of coders *)

(** A type string whose expanded tree validates and whose basic types are all
    registered has coders in both registries: no constructor check fires.
    ("function" is excluded because "function8" validates but is registered
    with a class that does not accept it.) *)
Theorem C41_valid_type : forall w k s T, used false w -> parse (normalize s) = Ok T -> s <> lit "byte" -> validate_type T = Ok tt ->
  (forall b sub, has_basic b sub T -> In b registered_names /\ b <> lit "function") ->
  (exists e, fst (get_encoder s (fst w)) = Ok e) /\ (exists d, fst (get_decoder k s w) = Ok d).
Proof. exact valid_type_coders. Qed.
Print Assumptions C41_valid_type.
Theorem C41_valid_type_packed : forall w s T, used true w -> parse (normalize s) = Ok T -> s <> lit "byte" -> validate_type T = Ok tt ->
  (forall b sub, has_basic b sub T -> In b registered_names /\ b <> lit "function") ->
  exists e, fst (get_encoder s (fst w)) = Ok e.
Proof. exact packed_valid_type. Qed.
Print Assumptions C41_valid_type_packed.
(** Every failed lookup of a type string has one of three causes; a
    constructor's ValueError is not among them. *)
Theorem C41_lookup_failures : forall pk w s T e, used pk w -> parse (normalize s) = Ok T -> s <> lit "byte" ->
  (fst (get_encoder s (fst w)) = Err e \/ (pk = false /\ exists k, fst (get_decoder k s w) = Err e)) ->
  (e = ABITypeError /\ validate_type T <> Ok tt)
  \/ (e = NoEntriesFound /\ exists b sub, has_basic b sub T /\ ~ In b registered_names)
  \/ (e = ValueError /\ exists sub, has_basic (lit "function") sub T /\ sub <> SubNone).
Proof. exact lookup_fails. Qed.
Print Assumptions C41_lookup_failures.
Example C41_samples :
  (let T := Tup [Basic (lit "ufixed") (SubPair 256 80) []; Basic (lit "bytes") (SubInt 32) [None]] [Some 2] in
   parse (normalize (lit "(ufixed256x80,bytes32[])[2]")) = Ok T /\ validate_type T = Ok tt
   /\ forall b sub, has_basic b sub T -> In b registered_names /\ b <> lit "function")
  /\ fst (get_encoder (lit "ufixed256x81") (fst start)) = Err ABITypeError
  /\ fst (get_encoder (lit "foo[]") (fst start)) = Err NoEntriesFound
  /\ fst (get_encoder (lit "function8") (fst start)) = Err ValueError.
Proof. exact valid_type_samples. Qed.

(** * C44: lookup errors *)

(** In any registry a program can build. *)
Theorem C44_unregistered : forall w s k, reachable w ->
  ((forall p v, In (p, v) (m_values (r_encs (fst w))) -> pred_call p s = Done false) ->
   fst (get_encoder s (fst w)) = match parse s with Ok _ => Err NoEntriesFound | Err e => Err e end)
  /\ ((forall p v, In (p, v) (m_values (r_decs (fst w))) -> pred_call p s = Done false) ->
   fst (get_decoder k s w) = match parse s with Ok _ => Err NoEntriesFound | Err e => Err e end).
Proof. exact unregistered. Qed.
Print Assumptions C44_unregistered.
Theorem C44_has_encoder : forall s r, fst (has_encoder s r) =
  match fst (get_encoder s r) with
  | Ok _ => Ok true
  | Err MultipleEntriesFound => Err MultipleEntriesFound
  | Err _ => Ok false
  end.
Proof. exact has_encoder_cases. Qed.
Print Assumptions C44_has_encoder.
(** Two matching registrations: the lookup is refused. *)
Theorem C44_ambiguous : forall w s k, reachable w -> ~ (exists a b, s = a ++ lit "No matching" ++ b) ->
  (none_raises (r_encs (fst w)) s -> (2 <= length (filter (fun pv => hit (fst pv) s) (m_values (r_encs (fst w)))))%nat ->
    fst (get_encoder s (fst w)) = Err MultipleEntriesFound /\ fst (has_encoder s (fst w)) = Err MultipleEntriesFound)
  /\ (none_raises (r_decs (fst w)) s -> (2 <= length (filter (fun pv => hit (fst pv) s) (m_values (r_decs (fst w)))))%nat -> fst (get_decoder k s w) = Err MultipleEntriesFound).
Proof. exact ambiguous_lookup. Qed.
Print Assumptions C44_ambiguous.
Example C44_samples :
  let any := mkPred (KFun (fun _ => Done true)) (Some 500%N) in
  let w := snd (run (ORegisterEncoder (LPred any) (EClass CBool) None) start) in
  fst (get_encoder (lit "foo") (fst start)) = Err NoEntriesFound
  /\ fst (get_encoder (lit "foo foo") (fst start)) = Err ParseError
  /\ fst (get_encoder (lit "()") (fst start)) = Err ValueError
  /\ fst (get_encoder (lit "int8") (fst w)) = Err MultipleEntriesFound
  /\ fst (has_encoder (lit "int8") (fst w)) = Err MultipleEntriesFound
  /\ fst (has_encoder (lit "foo") (fst start)) = Ok false
  /\ fst (has_encoder (lit "int8") (fst start)) = Ok true.
Proof. repeat split; lazy; reflexivity. Qed.
