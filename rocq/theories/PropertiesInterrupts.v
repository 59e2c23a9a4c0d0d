(** Property theorems about calls that are cut short: C72.

    [interrupted n o w]: what the call [o] leaves behind when it is stopped after
    [n] accesses to shared state (Interrupts.v).  [survivable w]: any registry
    with any history of completed and interrupted calls. *)
From Coq Require Import Strings.Byte Strings.String.
From Verif Require Import Tac Bytes Grammar Encoding Decoding Registry Codec Histories Objects Spec RegistrySpec Threads Interrupts InterruptSpec
  RegistryProofs ThreadLaws RegistryLaws InterruptProofs Samples RegistryCases InterruptCases.
Open Scope string_scope.
Open Scope list_scope.
Open Scope Z_scope.
(* for evaluating the samples *)
Local Transparent Keccak.keccak256 Z.pow Decimals.pow10 Decimals.prec Decimals.Etop Decimals.Etiny Decimals.Emax Decimals.ndigits word be_bytes len.

(** * C72: interrupted calls *)

(** Stopped at once, a call has done nothing; stopped late enough, everything. *)
Theorem C72_ends : forall o w, interrupted 0 o w = w /\ exists n, forall k, interrupted (n + k) o w = snd (run o w).
Proof. exact interrupted_late. Qed.
Print Assumptions C72_ends.
Theorem C72_reachable : forall w, reachable w -> survivable w.
Proof. exact reachable_survivable. Qed.
Print Assumptions C72_reachable.
(** No history of completed and interrupted calls makes a cache stale. *)
Theorem C72_lookups_fresh : forall w s k, survivable w ->
  fst (get_encoder s (fst w)) = fst (get_encoder s (forget (fst w)))
  /\ fst (get_decoder k s w) = fst (get_decoder k s (forget (fst w), []))
  /\ fst (has_encoder s (fst w)) = fst (has_encoder s (forget (fst w))).
Proof. exact lookups_never_stale. Qed.
Print Assumptions C72_lookups_fresh.
Theorem C72_caching_unobservable : forall ops w, survivable w -> unshared_registry (fst w) -> Forall unshared_op ops ->
  answers ops w = answers_uncached ops w.
Proof. exact never_stale. Qed.
Print Assumptions C72_caching_unobservable.
(** The coder of uint8[] is cached; unregister_encoder("uint") is stopped after
    the removal of the label, then unregister_encoder(BaseEquals("uint")) before
    its search for a label. *)
Example C72_caching_sample :
  let w1 := snd (run (OIsEncodableType (str "uint8[]")) start) in
  let w2 := interrupted 3 (OUnregisterEncoder (name "uint")) w1 in
  let w3 := interrupted 2 (OUnregisterEncoder (base_eq "uint" 50)) w2 in
  survivable w3
  /\ map (fun w => fst (run (OIsEncodableType (str "uint8[]")) w)) [w1; w2; w3] = [ABool (Ok true); ABool (Ok true); ABool (Ok false)].
Proof. split; [apply SV_stop, SV_stop, SV_run, C72_reachable; exact start_reachable|]. lazy. reflexivity. Qed.
(** Lookups, encodings and decodings can be interrupted anywhere: all later calls
    answer as if they had not been made. *)
Theorem C72_lookup_harmless : forall n o w ops, survivable w -> query o -> unshared_registry (fst w) -> Forall unshared_op ops ->
  same_registrations w (interrupted n o w) /\ answers ops (interrupted n o w) = answers ops w.
Proof. exact lookup_harmless. Qed.
Print Assumptions C72_lookup_harmless.
Example C72_lookup_sample :
  survivable start /\ unshared_registry (fst start)
  /\ let o := OEncode (types ["(uint8,bool)[]"]) (PList [PList []]) in
     r_ecache (fst (interrupted 55 o start)) <> [] /\ length (r_ecache (fst (interrupted 55 o start))) <> length (r_ecache (fst (snd (run o start)))).
Proof.
  split; [apply C72_reachable; exact start_reachable|]. split; [exact (standard_unshared false)|]. split; lazy; discriminate.
Qed.
(** A change of registrations that is interrupted shows to all calls that use
    encoders completely or not at all, and likewise for decoders; those of
    decoders only if those of encoders. *)
Theorem C72_all_or_nothing : forall n o w, survivable w -> unshared_registry (fst w) -> unshared_op o ->
  let old := w in let new := snd (run o w) in let mid := interrupted n o w in
  encodes_as old mid /\ decodes_as old mid \/ encodes_as new mid /\ decodes_as old mid \/ encodes_as new mid /\ decodes_as new mid.
Proof. exact all_or_nothing. Qed.
Print Assumptions C72_all_or_nothing.
(** register(BaseEquals("foo"), .., label="foo"), stopped at each of its steps:
    first nothing is visible, then the encoder, then both. *)
Example C72_all_or_nothing_sample :
  let o := ORegister (base_eq "foo" 50) some_encoder some_decoder (label "foo") in
  let seen w := (fst (run (OHasEncoder (lit "foo")) w), match fst (run (OGetDecoder None (lit "foo")) w) with ADecoder (Ok _) => true | _ => false end) in
  map (fun n => seen (interrupted n o start)) [0; 4; 5; 9; 10; 11]%nat
    = [(ABool (Ok false), false); (ABool (Ok false), false); (ABool (Ok true), false); (ABool (Ok true), false); (ABool (Ok true), true); (ABool (Ok true), true)].
Proof. lazy. reflexivity. Qed.
(** A registration with a label, interrupted anywhere, is taken back by
    unregistering the label, also when that raises KeyError. *)
Theorem C72_undo_encoder : forall n w l v label s, held l -> label_of l label = Some s -> fst (run (ORegisterEncoder l v label) w) = ADone (Ok tt) ->
  same_registrations w (snd (run (OUnregisterEncoder (LStr s)) (interrupted n (ORegisterEncoder l v label) w))).
Proof. exact undo_encoder. Qed.
Print Assumptions C72_undo_encoder.
Theorem C72_undo_decoder : forall n w l v label s, held l -> label_of l label = Some s -> fst (run (ORegisterDecoder l v label) w) = ADone (Ok tt) ->
  same_registrations w (snd (run (OUnregisterDecoder (LStr s)) (interrupted n (ORegisterDecoder l v label) w))).
Proof. exact undo_decoder. Qed.
Print Assumptions C72_undo_decoder.
Theorem C72_undo : forall n w l e d label s, held l -> label_of l label = Some s -> fst (run (ORegister l e d label) w) = ADone (Ok tt) ->
  same_registrations w (snd (run (OUnregister (LStr s)) (interrupted n (ORegister l e d label) w))).
Proof. exact undo_both. Qed.
Print Assumptions C72_undo.
(** Then the registration can be made again. *)
Theorem C72_redo : forall o w w', updates o = true -> same_registrations w w' ->
  fst (run o w') = fst (run o w) /\ same_registrations (snd (run o w)) (snd (run o w')).
Proof. exact redo. Qed.
Print Assumptions C72_redo.
Example C72_undo_sample :
  let o := ORegister (base_eq "foo" 50) some_encoder some_decoder (label "foo") in
  fst (run o start) = ADone (Ok tt)
  /\ map (fun n => fst (run (OUnregister (name "foo")) (interrupted n o start))) [0; 4; 5; 9; 10]%nat
     = [ADone (Err KeyError); ADone (Err KeyError); ADone (Err KeyError); ADone (Err KeyError); ADone (Ok tt)]
  /\ map (fun n => fst (run o (snd (run (OUnregister (name "foo")) (interrupted n o start))))) [0; 4; 5; 9; 10]%nat = repeat (ADone (Ok tt)) 5.
Proof. split; [lazy; reflexivity|]. split; lazy; reflexivity. Qed.
(** The removal of a labelled entry, by label or matcher, interrupted anywhere, is
    finished by two calls: one with the matcher or an equal one, then one with the
    label, whatever the first one raises. *)
Theorem C72_finish_encoder : forall n w st l x p s, represents w st -> fits st -> In x (fst st) -> e_label x = Some s -> about p x = true -> refers l p s ->
  represents (after [OUnregisterEncoder (LPred p); OUnregisterEncoder (LStr s)] (interrupted n (OUnregisterEncoder l) w)) (without s (fst st), snd st).
Proof. exact finish_encoder. Qed.
Print Assumptions C72_finish_encoder.
Theorem C72_finish_decoder : forall n w st l x p s, represents w st -> fits st -> In x (snd st) -> e_label x = Some s -> about p x = true -> refers l p s ->
  represents (after [OUnregisterDecoder (LPred p); OUnregisterDecoder (LStr s)] (interrupted n (OUnregisterDecoder l) w)) (fst st, without s (snd st)).
Proof. exact finish_decoder. Qed.
Print Assumptions C72_finish_decoder.
Theorem C72_finish : forall n w st l x y p s, represents w st -> fits st -> In x (fst st) -> In y (snd st) -> e_label x = Some s -> e_label y = Some s ->
  about p x = true -> about p y = true -> refers l p s ->
  represents (after [OUnregisterEncoder (LPred p); OUnregisterEncoder (LStr s); OUnregisterDecoder (LPred p); OUnregisterDecoder (LStr s)] (interrupted n (OUnregister l) w))
    (without s (fst st), without s (snd st)).
Proof. exact finish_both. Qed.
Print Assumptions C72_finish.
Example C72_finish_sample :
  represents start (standard_entries false) /\ fits (standard_entries false) /\ In uint_entry (fst (standard_entries false)) /\ e_label uint_entry = Some (lit "uint")
  /\ (forall p, base_eq "uint" 50 = LPred p -> about p uint_entry = true /\ refers (name "uint") p (lit "uint") /\ refers (base_eq "uint" 51) p (lit "uint")
      /\ map (fun n => answers [OUnregisterEncoder (LPred p); OUnregisterEncoder (name "uint"); OHasEncoder (lit "uint8")] (interrupted n (OUnregisterEncoder (name "uint")) start)) [2; 3; 4]%nat
         = [[ADone (Ok tt); ADone (Err KeyError); ABool (Ok false)]; [ADone (Ok tt); ADone (Err KeyError); ABool (Ok false)]; [ADone (Err KeyError); ADone (Err KeyError); ABool (Ok false)]]).
Proof.
  split; [apply standard_represents|]. split; [exact (proj2 (standard_represents false []))|]. split; [left; reflexivity|]. split; [reflexivity|].
  intros p E. inversion E; subst p. split; [reflexivity|]. split; [left; reflexivity|]. split; [right; eexists; split; [|reflexivity]; reflexivity|]. lazy. reflexivity.
Qed.
(** Calling again is not enough.  A second unregister_encoder(label) raises
    KeyError and the encoder stays; a second register_encoder(.., label) raises
    ValueError although nothing is registered. *)
Theorem C72_retry_unregister_refuted :
  ~ (forall n s w, reachable w -> same_registrations (snd (run (OUnregisterEncoder (LStr s)) w)) (snd (run (OUnregisterEncoder (LStr s)) (interrupted n (OUnregisterEncoder (LStr s)) w)))).
Proof. exact retry_unregister_refuted. Qed.
Print Assumptions C72_retry_unregister_refuted.
Theorem C72_retry_register_refuted :
  ~ (forall n l v label w, reachable w -> fst (run (ORegisterEncoder l v label) w) = ADone (Ok tt) ->
     same_registrations (snd (run (ORegisterEncoder l v label) w)) (snd (run (ORegisterEncoder l v label) (interrupted n (ORegisterEncoder l v label) w)))).
Proof. exact retry_register_refuted. Qed.
Print Assumptions C72_retry_register_refuted.
