(** C73: what the messages of the registry say is so, and what they suggest helps. *)
From Coq Require Import Strings.Byte Strings.String.
From Verif Require Import Tac Py Bytes Grammar GrammarSpec Encoding Decoding Registry RaisingSpec Codec Histories RegistrySpec CustomSpec Spec
  HistoryProofs HeapProofs LookupProofs RegistryProofs RegistryLaws Samples RegistryCases Notices NoticeSpec NoticeProofs NoticeLaws.
Open Scope string_scope.
Open Scope list_scope.
Open Scope Z_scope.
Local Transparent Keccak.keccak256 Z.pow Decimals.pow10 Decimals.prec Decimals.Etop Decimals.Etiny Decimals.Emax Decimals.ndigits word be_bytes len.

(** Without the messages these are the calls of Registry.v. *)
Theorem C73_same_lookup : forall ts r, unread_at (get_encoder_noted ts r) = get_encoder ts r.
Proof. exact get_encoder_same. Qed.
Print Assumptions C73_same_lookup.
Theorem C73_same_lookup_decoder : forall k ts w, unread_at (get_decoder_noted k ts w) = get_decoder k ts w.
Proof. exact get_decoder_same. Qed.
Print Assumptions C73_same_lookup_decoder.
Theorem C73_same_register : forall l e d label r,
  unread_at (register_noted l e d label r) = register l e d label r
  /\ unread_at (register_encoder_noted l e label r) = register_encoder l e label r
  /\ unread_at (register_decoder_noted l d label r) = register_decoder l d label r.
Proof. exact (fun l e d label r => conj (register_same l e d label r) (conj (register_encoder_same l e label r) (register_decoder_same l d label r))). Qed.
Print Assumptions C73_same_register.
Theorem C73_same_unregister : forall l r,
  unread_at (unregister_noted l r) = unregister l r
  /\ unread_at (unregister_encoder_noted l r) = unregister_encoder l r
  /\ unread_at (unregister_decoder_noted l r) = unregister_decoder l r.
Proof. exact (fun l r => conj (unregister_same l r) (conj (unregister_encoder_same l r) (unregister_decoder_same l r))). Qed.
Print Assumptions C73_same_unregister.
Example C73_same_sample :
  unread_at (get_encoder_noted (lit "foo") (fst start)) = get_encoder (lit "foo") (fst start)
  /\ fst (get_encoder_noted (lit "foo") (fst start)) = Note (NoMatch Encoders (lit "foo"))
  /\ fst (get_encoder (lit "foo") (fst start)) = Err NoEntriesFound.
Proof. split; [apply C73_same_lookup|split; lazy; reflexivity]. Qed.

(** Every message of a lookup is true. *)
Theorem C73_lookup : forall ts r n, fst (get_encoder_noted ts r) = Note n -> true_of Encoders (r_encs r) enc_use ts n.
Proof. exact get_encoder_says. Qed.
Print Assumptions C73_lookup.
Theorem C73_lookup_decoder : forall k ts w n, fst (get_decoder_noted k ts w) = Note n -> true_of Decoders (r_decs (fst w)) dec_use ts n.
Proof. exact get_decoder_says. Qed.
Print Assumptions C73_lookup_decoder.
(** "foo" next to the matcher of its base; an integer coder for "string"; and inside a tuple. *)
Definition twice_foo : world := after [ORegisterEncoder (base_eq "foo" 50) some_encoder None; ORegisterEncoder (name "foo") some_encoder None; ORegisterEncoder (base_eq "bar" 51) (EClass CUInt) None] start.
Example C73_lookup_sample :
  fst (get_encoder_noted (lit "(uint,foo[2])") (fst twice_foo)) = Note (ManyMatch Encoders (lit "foo") [mkPred (KBaseEquals (lit "foo") None) (Some 50%N); mkPred (KEquals (lit "foo")) None])
  /\ fst (get_encoder_noted (lit "bar8") (fst twice_foo)) = Note (Misfit "UnsignedIntegerEncoder" (lit "bar8") None (NotBase (lit "uint")))
  /\ fst (get_encoder_noted (lit "(bool,baz)") (fst twice_foo)) = Note (NoMatch Encoders (lit "baz"))
  /\ fst (get_decoder_noted None (lit "(bool,function8)") start) = Note (Misfit "BytesDecoder" (lit "function8") None (NotBase (lit "bytes"))).
Proof. repeat split; lazy; reflexivity. Qed.
(** The normal form is shown where it differs. *)
Example C73_lookup_normal_sample :
  fst (get_encoder_noted (lit "int") (fst (after [OUnregisterEncoder (name "int"); ORegisterEncoder (name "int") (EClass CUInt) None] start)))
  = Note (Misfit "UnsignedIntegerEncoder" (lit "int") (Some (lit "int256")) (NotBase (lit "uint"))).
Proof. lazy. reflexivity. Qed.

(** A type string that no matcher accepts, or several do, is named together with
    the matchers. *)
Theorem C73_lookup_said : forall w ts T, reachable w -> g_type ts T -> none_raises (r_encs (fst w)) ts -> length (accepting (r_encs (fst w)) ts) <> 1%nat ->
  fst (get_encoder_noted ts (fst w)) = Note (lookup_notice Encoders (r_encs (fst w)) ts).
Proof. exact lookup_said. Qed.
Print Assumptions C73_lookup_said.
Theorem C73_lookup_said_decoder : forall k w ts T, reachable w -> g_type ts T -> none_raises (r_decs (fst w)) ts -> length (accepting (r_decs (fst w)) ts) <> 1%nat ->
  fst (get_decoder_noted k ts w) = Note (lookup_notice Decoders (r_decs (fst w)) ts).
Proof. exact lookup_said_decoder. Qed.
Print Assumptions C73_lookup_said_decoder.
Example C73_lookup_said_sample : lookup_notice Encoders (r_encs (fst start)) (lit "foo") = NoMatch Encoders (lit "foo")
  /\ lookup_notice Encoders (r_encs (fst twice_foo)) (lit "foo") = ManyMatch Encoders (lit "foo") [mkPred (KBaseEquals (lit "foo") None) (Some 50%N); mkPred (KEquals (lit "foo")) None].
Proof. split; lazy; reflexivity. Qed.

(** So is a class that is not for the type its matcher accepted. *)
Theorem C73_misfit_said : forall w ts p v cls pu s' normal T why,
  reachable w -> none_raises (r_encs (fst w)) ts -> accepting (r_encs (fst w)) ts = [p] -> In (p, v) (m_values (r_encs (fst w))) ->
  enc_use v = Some (cls, pu) -> normalized ts s' -> shown ts normal s' -> g_type s' T -> unfit pu T why ->
  fst (get_encoder_noted ts (fst w)) = Note (Misfit cls ts normal why).
Proof. exact misfit_said. Qed.
Print Assumptions C73_misfit_said.
Theorem C73_misfit_said_decoder : forall k w ts p v cls pu s' normal T why,
  reachable w -> none_raises (r_decs (fst w)) ts -> accepting (r_decs (fst w)) ts = [p] -> In (p, v) (m_values (r_decs (fst w))) ->
  dec_use v = Some (cls, pu) -> normalized ts s' -> shown ts normal s' -> g_type s' T -> unfit pu T why ->
  fst (get_decoder_noted k ts w) = Note (Misfit cls ts normal why).
Proof. exact misfit_said_decoder. Qed.
Print Assumptions C73_misfit_said_decoder.
(** Coders of arrays, tuples and addresses registered for other types. *)
Example C73_misfit_said_sample :
  let w := after [ORegisterEncoder (name "foo") (EClass CBaseArray) None; ORegisterEncoder (name "bar") (EClass CTuple) None; ORegisterDecoder (name "baz") (DClass CDAddr) None] start in
  fst (get_encoder_noted (lit "foo") (fst w)) = Note (Misfit "BaseArrayEncoder" (lit "foo") None LacksDims)
  /\ fst (get_encoder_noted (lit "bar") (fst w)) = Note (Misfit "TupleEncoder" (lit "bar") None NotTuple)
  /\ fst (get_decoder_noted (Some false) (lit "baz") w) = Note (Misfit "AddressDecoder" (lit "baz") None (NotBase (lit "address"))).
Proof. repeat split; lazy; reflexivity. Qed.

(** The standard registries never say that several matchers accept a type. *)
Theorem C73_standard : forall pk w ts n, used pk w -> fst (get_encoder_noted ts (fst w)) = Note n ->
  standard_notice Encoders (if pk then "PackedBytesEncoder" else "BytesEncoder") ts n.
Proof. exact (fun pk w ts n U N => match pk return used pk w -> standard_notice Encoders (if pk then "PackedBytesEncoder" else "BytesEncoder") ts n with true => fun U => standard_says true w ts n U N | false => fun U => standard_says false w ts n U N end U). Qed.
Print Assumptions C73_standard.
Theorem C73_standard_decoder : forall k w ts n, used false w -> fst (get_decoder_noted k ts w) = Note n -> standard_notice Decoders "BytesDecoder" ts n.
Proof. exact standard_says_decoder. Qed.
Print Assumptions C73_standard_decoder.
Example C73_standard_sample :
  fst (get_encoder_noted (lit "(uint,(function8,bool))") (fst start)) = Note (Misfit "BytesEncoder" (lit "function8") None (NotBase (lit "bytes")))
  /\ fst (get_encoder_noted (lit "function8") (fst start_packed)) = Note (Misfit "PackedBytesEncoder" (lit "function8") None (NotBase (lit "bytes")))
  /\ fst (get_encoder_noted (lit "uint7") (fst start)) = Note (Other ABITypeError).
Proof. repeat split; lazy; reflexivity. Qed.

(** Registering and removing object exactly for the reason they give. *)
Theorem C73_register_encoder : forall (w : world) l v label n,
  fst (register_encoder_noted l v label (fst w)) = Note n <-> objection_to_register Encoders (r_encs (fst w)) label l n.
Proof. exact register_encoder_says. Qed.
Print Assumptions C73_register_encoder.
Theorem C73_register_decoder : forall (w : world) l v label n,
  fst (register_decoder_noted l v label (fst w)) = Note n <-> objection_to_register Decoders (r_decs (fst w)) label l n.
Proof. exact register_decoder_says. Qed.
Print Assumptions C73_register_decoder.
Theorem C73_register : forall (w : world) l e d label n, fst (register_noted l e d label (fst w)) = Note n <->
  objection_to_register Encoders (r_encs (fst w)) label l n
  \/ (forall n', ~ objection_to_register Encoders (r_encs (fst w)) label l n') /\ objection_to_register Decoders (r_decs (fst w)) label l n.
Proof. exact register_says. Qed.
Print Assumptions C73_register.
Theorem C73_unregister_encoder : forall w l n, reachable w ->
  fst (unregister_encoder_noted l (fst w)) = Note n <-> objection_to_unregister Encoders (r_encs (fst w)) l n.
Proof. exact unregister_encoder_says. Qed.
Print Assumptions C73_unregister_encoder.
Theorem C73_unregister_decoder : forall w l n, reachable w ->
  fst (unregister_decoder_noted l (fst w)) = Note n <-> objection_to_unregister Decoders (r_decs (fst w)) l n.
Proof. exact unregister_decoder_says. Qed.
Print Assumptions C73_unregister_decoder.
Theorem C73_unregister : forall w l n, reachable w -> fst (unregister_noted l (fst w)) = Note n <->
  objection_to_unregister Encoders (r_encs (fst w)) l n
  \/ (forall n', ~ objection_to_unregister Encoders (r_encs (fst w)) l n') /\ objection_to_unregister Decoders (r_decs (fst w)) l n.
Proof. exact unregister_says. Qed.
Print Assumptions C73_unregister.
(** A matcher in use, a label in use, the second half of a pair, and removals. *)
Example C73_register_sample :
  fst (register_noted (base_eq "uint" 50) some_encoder some_decoder (label "foo") (fst start)) = Note (MatcherTaken Encoders (mkPred (KBaseEquals (lit "uint") None) (Some 50%N)))
  /\ fst (register_noted (base_eq "foo" 50) some_encoder some_decoder (label "uint") (fst start)) = Note (LabelTaken Encoders (mkPred (KBaseEquals (lit "foo") None) (Some 50%N)) (lit "uint"))
  /\ fst (register_noted (name "foo") some_encoder some_decoder None (fst (after [ORegisterDecoder (base_eq "baz" 52) some_decoder (label "foo")] start))) = Note (LabelTaken Decoders (mkPred (KEquals (lit "foo")) None) (lit "foo"))
  /\ fst (unregister_noted (name "foo") (fst twice_foo)) = Note (LabelMissing Decoders (lit "foo"))
  /\ fst (unregister_noted (base_eq "baz" 52) (fst start)) = Note (MatcherMissing Encoders (mkPred (KBaseEquals (lit "baz") None) (Some 52%N)))
  /\ fst (unregister_noted LOther (fst start)) = Note WrongLookup.
Proof. repeat split; lazy; reflexivity. Qed.
(** The table a message names tells how far register came. *)
Theorem C73_register_leaves : forall (w : world) l e d label n, fst (register_noted l e d label (fst w)) = Note n ->
  let r := snd (register_noted l e d label (fst w)) in
  r_decs r = r_decs (fst w)
  /\ (about_table n <> Some Decoders -> r_encs r = r_encs (fst w))
  /\ (about_table n = Some Decoders -> fst (register_encoder_noted l e label (fst w)) = Fine tt /\ r_encs r = r_encs (snd (register_encoder_noted l e label (fst w)))).
Proof. exact register_leaves. Qed.
Print Assumptions C73_register_leaves.
Example C73_register_leaves_sample : let w := after [ORegisterDecoder (base_eq "baz" 52) some_decoder (label "foo")] start in
  fst (register_noted (name "foo") some_encoder some_decoder None (fst w)) = Note (LabelTaken Decoders (mkPred (KEquals (lit "foo")) None) (lit "foo"))
  /\ has_label (r_encs (fst w)) (lit "foo") = false /\ has_label (r_encs (snd (register_noted (name "foo") some_encoder some_decoder None (fst w)))) (lit "foo") = true.
Proof. repeat split; lazy; reflexivity. Qed.

(** What helps: registering the type string said to match nothing; *)
Theorem C73_none_cured : forall ts w s v label, reachable w -> fst (get_encoder_noted ts (fst w)) = Note (NoMatch Encoders s) ->
  (forall n, fst (register_encoder_noted (LStr s) v label (fst w)) = Note n <-> n = LabelTaken Encoders (equals s) s /\ exists q, In (s, q) (m_labels (r_encs (fst w))))
  /\ (forall w', run (ORegisterEncoder (LStr s) v label) w = (ADone (Ok tt), w') -> forall e, direct_encoder v s = Some e -> fst (get_encoder s (fst w')) = e).
Proof. exact none_cured. Qed.
Print Assumptions C73_none_cured.
Theorem C73_none_cured_decoder : forall k ts w s v label, reachable w -> fst (get_decoder_noted k ts w) = Note (NoMatch Decoders s) ->
  (forall n, fst (register_decoder_noted (LStr s) v label (fst w)) = Note n <-> n = LabelTaken Decoders (equals s) s /\ exists q, In (s, q) (m_labels (r_decs (fst w))))
  /\ (forall w', run (ORegisterDecoder (LStr s) v label) w = (ADone (Ok tt), w') -> forall k d, direct_decoder v k s = Some d -> fst (get_decoder k s w') = d).
Proof. exact none_cured_decoder. Qed.
Print Assumptions C73_none_cured_decoder.
Example C73_none_cured_sample :
  fst (get_encoder_noted (lit "(bool,baz)[3]") (fst start)) = Note (NoMatch Encoders (lit "baz"))
  /\ fst (run (ORegisterEncoder (name "baz") some_encoder None) start) = ADone (Ok tt)
  /\ fst (get_encoder (lit "baz") (fst (snd (run (ORegisterEncoder (name "baz") some_encoder None) start)))) = Ok (EBool 32).
Proof. repeat split; lazy; reflexivity. Qed.
(** removing all but one of the matchers said to accept it; *)
Theorem C73_many_cured : forall ts w s a p b us, reachable w -> fst (get_encoder_noted ts (fst w)) = Note (ManyMatch Encoders s (a ++ p :: b)) ->
  Forall2 (fun q u => pred_eqb q u = true) (a ++ b) us ->
  Forall (eq (ADone (Ok tt))) (answers (drop_encoders us) w)
  /\ exists v, In (p, v) (m_values (r_encs (fst w))) /\ forall e, direct_encoder v s = Some e -> fst (get_encoder s (fst (after (drop_encoders us) w))) = e.
Proof. exact many_cured. Qed.
Print Assumptions C73_many_cured.
Theorem C73_many_cured_decoder : forall k ts w s a p b us, reachable w -> fst (get_decoder_noted k ts w) = Note (ManyMatch Decoders s (a ++ p :: b)) ->
  Forall2 (fun q u => pred_eqb q u = true) (a ++ b) us ->
  Forall (eq (ADone (Ok tt))) (answers (drop_decoders us) w)
  /\ exists v, In (p, v) (m_values (r_decs (fst w))) /\ forall k d, direct_decoder v k s = Some d -> fst (get_decoder k s (after (drop_decoders us) w)) = d.
Proof. exact many_cured_decoder. Qed.
Print Assumptions C73_many_cured_decoder.
(** The matcher of "foo" removed by an equal one, the other kept. *)
Example C73_many_cured_sample :
  fst (get_encoder_noted (lit "foo") (fst twice_foo)) = Note (ManyMatch Encoders (lit "foo") ([mkPred (KBaseEquals (lit "foo") None) (Some 50%N)] ++ [mkPred (KEquals (lit "foo")) None]))
  /\ pred_eqb (mkPred (KBaseEquals (lit "foo") None) (Some 50%N)) (mkPred (KBaseEquals (lit "foo") None) (Some 60%N)) = true
  /\ answers (drop_encoders [mkPred (KBaseEquals (lit "foo") None) (Some 60%N)]) twice_foo = [ADone (Ok tt)]
  /\ fst (get_encoder (lit "foo") (fst (after (drop_encoders [mkPred (KBaseEquals (lit "foo") None) (Some 60%N)]) twice_foo))) = Ok (EBool 32).
Proof. repeat split; lazy; reflexivity. Qed.
(** removing the matcher or the label in use. *)
Theorem C73_taken_cured : forall (w : world) p v label, fst (register_encoder_noted (LPred p) v label (fst w)) = Note (MatcherTaken Encoders p) ->
  answers [OUnregisterEncoder (LPred p); ORegisterEncoder (LPred p) v None] w = [ADone (Ok tt); ADone (Ok tt)].
Proof. exact taken_cured. Qed.
Print Assumptions C73_taken_cured.
Theorem C73_taken_cured_decoder : forall (w : world) p v label, fst (register_decoder_noted (LPred p) v label (fst w)) = Note (MatcherTaken Decoders p) ->
  answers [OUnregisterDecoder (LPred p); ORegisterDecoder (LPred p) v None] w = [ADone (Ok tt); ADone (Ok tt)].
Proof. exact taken_cured_decoder. Qed.
Print Assumptions C73_taken_cured_decoder.
Theorem C73_label_cured : forall (w : world) p v l, fst (register_encoder_noted (LPred p) v (Some l) (fst w)) = Note (LabelTaken Encoders p l) ->
  fst (run (ORegisterEncoder (LPred p) v (Some l)) (snd (run (OUnregisterEncoder (LStr l)) w))) = ADone (Ok tt).
Proof. exact label_cured. Qed.
Print Assumptions C73_label_cured.
Theorem C73_label_cured_decoder : forall (w : world) p v l, fst (register_decoder_noted (LPred p) v (Some l) (fst w)) = Note (LabelTaken Decoders p l) ->
  fst (run (ORegisterDecoder (LPred p) v (Some l)) (snd (run (OUnregisterDecoder (LStr l)) w))) = ADone (Ok tt).
Proof. exact label_cured_decoder. Qed.
Print Assumptions C73_label_cured_decoder.
Example C73_taken_cured_sample :
  fst (register_encoder_noted (base_eq "uint" 50) some_encoder (label "u") (fst start)) = Note (MatcherTaken Encoders (mkPred (KBaseEquals (lit "uint") None) (Some 50%N)))
  /\ answers [OUnregisterEncoder (base_eq "uint" 50); ORegisterEncoder (base_eq "uint" 50) some_encoder None] start = [ADone (Ok tt); ADone (Ok tt)]
  /\ fst (register_decoder_noted (base_eq "foo" 50) some_decoder (label "uint") (fst start)) = Note (LabelTaken Decoders (mkPred (KBaseEquals (lit "foo") None) (Some 50%N)) (lit "uint"))
  /\ answers [OUnregisterDecoder (name "uint"); ORegisterDecoder (base_eq "foo" 50) some_decoder (label "uint")] start = [ADone (Ok tt); ADone (Ok tt)].
Proof. repeat split; lazy; reflexivity. Qed.
