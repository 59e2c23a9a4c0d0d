(** C50: malformed UTF-8 in strings, and what each error handler of StringDecoder
    makes of it. *)
From Coq Require Import Strings.Byte Strings.String.
From Verif Require Import Py Bytes Encoding Decoding Registry RaisingSpec Codec Histories Spec ReadSpec TypeSpec RegistryLaws Samples Handlers HandlersSpec HandlersApi HandlersProofs RegistryCases.
Open Scope string_scope.
Open Scope list_scope.
Open Scope Z_scope.
Local Transparent Keccak.keccak256 Z.pow Decimals.pow10 Decimals.prec Decimals.Etop Decimals.Etiny Decimals.Emax Decimals.ndigits word be_bytes len.

(** Every byte string is cut into characters and malformed parts in one way. *)
Theorem C50_parts : forall bs, exists l, segs bs l /\ forall l', segs bs l' -> l' = l.
Proof. exact all_parts. Qed.
Print Assumptions C50_parts.
Theorem C50_parts_well_formed : forall bs s, segs bs (map Good s) <-> Forall scalar s /\ bs = utf8 s.
Proof. exact well_formed_parts. Qed.
Print Assumptions C50_parts_well_formed.
Theorem C50_well_formed : forall name s, Forall scalar s -> decode_utf8 name (utf8 s) = Ok s.
Proof. exact decode_utf8_utf8. Qed.
Print Assumptions C50_well_formed.
Theorem C50_strict : forall bs, not_utf8 bs -> decode_utf8 (lit "strict") bs = Err UnicodeDecodeError.
Proof. exact strict_raises. Qed.
Print Assumptions C50_strict.
(** The codec used for "string" elsewhere in the model is this one. *)
Theorem C50_default : forall bs, decode_utf8 (lit "strict") bs = Utf8.utf8_decode bs.
Proof. exact strict_is_utf8. Qed.
Print Assumptions C50_default.
Theorem C50_ignore : forall bs l, segs bs l -> decode_utf8 (lit "ignore") bs = Ok (text (fun _ => []) l).
Proof. exact ignore_text. Qed.
Print Assumptions C50_ignore.
Theorem C50_replace : forall bs l, segs bs l -> decode_utf8 (lit "replace") bs = Ok (text (fun _ => [0xFFFD%N]) l).
Proof. exact replace_text. Qed.
Print Assumptions C50_replace.
Theorem C50_backslashreplace : forall bs l, segs bs l -> decode_utf8 (lit "backslashreplace") bs = Ok (text escape l).
Proof. exact backslash_text. Qed.
Print Assumptions C50_backslashreplace.
Theorem C50_surrogateescape : forall bs l, segs bs l -> decode_utf8 (lit "surrogateescape") bs = Ok (text lone_surrogates l).
Proof. exact surrogate_text. Qed.
Print Assumptions C50_surrogateescape.
(** The bytes can be recovered. *)
Theorem C50_surrogateescape_lossless : forall bs, exists s, decode_utf8 (lit "surrogateescape") bs = Ok s /\ unescape s = bs.
Proof. exact surrogate_lossless. Qed.
Print Assumptions C50_surrogateescape_lossless.
Theorem C50_surrogatepass : forall s, Forall code_point s -> decode_utf8 (lit "surrogatepass") (utf8 s) = Ok s.
Proof. exact surrogatepass_ok. Qed.
Print Assumptions C50_surrogatepass.
Theorem C50_surrogatepass_raises : forall bs, (forall s, Forall code_point s -> bs <> utf8 s) -> decode_utf8 (lit "surrogatepass") bs = Err UnicodeDecodeError.
Proof. exact surrogatepass_raises. Qed.
Print Assumptions C50_surrogatepass_raises.
(** Handlers that only encode *)
Theorem C50_encoding_handlers : forall name bs, In name [lit "xmlcharrefreplace"; lit "namereplace"] -> not_utf8 bs -> decode_utf8 name bs = Err TypeError.
Proof. exact wrong_direction_raises. Qed.
Print Assumptions C50_encoding_handlers.
Theorem C50_unknown : forall name bs, ~ In name handler_names -> not_utf8 bs -> decode_utf8 name bs = Err LookupError.
Proof. exact unknown_raises. Qed.
Print Assumptions C50_unknown.

(** A decoder with a handler, registered under a new name: the data is read as
    for "bytes", then decoded. *)
Theorem C50_registered : forall T i name w w' w0 data strict, reachable w -> none_raises (r_decs (fst w)) T -> ~ matches (r_decs (fst w)) T ->
  run (ORegisterDecoder (LStr T) (DInst (string_decoder (SRef i) name)) None) w = (ADone (Ok tt), w') -> used false w0 ->
  (forall b, bytes_like data b -> len b <= maxsize) ->
  (forall e, decode_in w0 (PList [PStr (lit "bytes")]) data strict = Err e -> decode_in w' (PList [PStr T]) data strict = Err e)
  /\ (forall b, decode_in w0 (PList [PStr (lit "bytes")]) data strict = Ok (PTuple [PBytes b]) ->
      decode_in w' (PList [PStr T]) data strict = (t <- decode_utf8 name b ;; Ok (PTuple [PStr t]))).
Proof. exact registered_string_cases. Qed.
Print Assumptions C50_registered.

(** docs/registry.rst:236-268 *)
Definition bad_string : bytes := word 32 ++ word 3 ++ [x63; xff; x74] ++ repeat x00 29.
Definition with_handler (name : string) : world :=
  snd (run (ORegister (LStr (lit "some_string")) (EClass CText) (DInst (string_decoder (SRef 0) (lit name))) None) start).
Example C50_sample_parts : segs [x63; xff; x74] [Good 0x63; Malformed [xff]; Good 0x74].
Proof. exact (pieces_segs [x63; xff; x74]). Qed.
Example C50_sample_longest : segs [xf0; x9f; x98; xe2; x82; xac; xed; xa0] [Malformed [xf0; x9f; x98]; Good 0x20AC; Malformed [xed]; Malformed [xa0]].
Proof. exact (pieces_segs [xf0; x9f; x98; xe2; x82; xac; xed; xa0]). Qed.
Example C50_sample_decode :
  decode_in (with_handler "surrogateescape") (types ["some_string"]) (PBytes bad_string) true = Ok (PTuple [PStr [0x63; 0xDCFF; 0x74]%N])
  /\ decode_in (with_handler "backslashreplace") (types ["some_string"]) (PBytes bad_string) true = Ok (PTuple [str "c\xfft"])
  /\ decode_in (with_handler "nonexistent") (types ["some_string"]) (PBytes bad_string) true = Err LookupError
  /\ decode_in start (types ["string"]) (PBytes bad_string) true = Err UnicodeDecodeError.
Proof. split; [lazy; reflexivity|]. split; [lazy; reflexivity|]. split; lazy; reflexivity. Qed.
Example C50_sample_registered :
  fst (run (ORegisterDecoder (LStr (lit "some_string")) (DInst (string_decoder (SRef 0) (lit "ignore"))) None) start) = ADone (Ok tt)
  /\ existsb (fun pv => hit (fst pv) (lit "some_string") || raising (fst pv) (lit "some_string")) (m_values (r_decs (fst start))) = false.
Proof. split; lazy; reflexivity. Qed.
