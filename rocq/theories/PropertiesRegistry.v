(** Property theorems about registries: C27-C33, C40.

    [reachable w]: any registry obtained by ABIRegistry() or copy() and any
    calls on it.  [begins r st]: a new registry, or one of the two standard
    ones, and the entries it holds. *)
From Coq Require Import Permutation Strings.Byte Strings.String.
From Verif Require Import Tac Bytes Grammar Encoding Decoding Registry RaisingSpec Codec Histories RegistrySpec Objects Threads Spec TypeSpec ReadSpec CustomSpec
  RegistryProofs ObjectProofs ThreadProofs ThreadLaws RegistryLaws CustomProofs Samples RegistryCases.
Open Scope string_scope.
Open Scope list_scope.
Open Scope Z_scope.
(* for evaluating the samples *)
Local Transparent Keccak.keccak256 Z.pow Decimals.pow10 Decimals.prec Decimals.Etop Decimals.Etiny Decimals.Emax Decimals.ndigits word be_bytes len.

(** * C27: lookups are never stale *)

Theorem C27_lookups_fresh : forall w s k, reachable w ->
  fst (get_encoder s (fst w)) = fst (get_encoder s (forget (fst w)))
  /\ fst (get_decoder k s w) = fst (get_decoder k s (forget (fst w), []))
  /\ fst (has_encoder s (fst w)) = fst (has_encoder s (forget (fst w))).
Proof. exact lookups_fresh. Qed.
Print Assumptions C27_lookups_fresh.
(** Every answer of every history is the one obtained with all caches dropped
    before every call, as long as no instance with a shared flag is registered. *)
Theorem C27_caching_unobservable : forall ops w, reachable w -> unshared_registry (fst w) -> Forall unshared_op ops ->
  answers ops w = answers_uncached ops w.
Proof. exact caching_unobservable. Qed.
Print Assumptions C27_caching_unobservable.
Example C27_sample :
  reachable start /\ unshared_registry (fst start)
  /\ let ops := [OIsEncodableType (str "uint8[]"); OUnregisterEncoder (name "uint"); OIsEncodableType (str "uint8[]");
                 ORegisterEncoder (base_eq "uint" 50) (EInst (EBool 32)) None; OEncode (types ["uint8[]"]) (PList [PList [PBool true]])] in
     Forall unshared_op ops
     /\ answers ops start = [ABool (Ok true); ADone (Ok tt); ABool (Ok false); ADone (Ok tt); ABytes (Ok (word 32 ++ word 1 ++ word 1))].
Proof.
  split; [exact start_reachable|]. split; [exact (standard_unshared false)|]. split; [repeat (constructor; [exact I|]); constructor|]. lazy. reflexivity.
Qed.

(** * C28: threads *)

(** Threads interleave at every access to a dict or cache, also between the
    items of a loop over a dict (Threads.v); run alone, the steps of a call
    amount to the call. *)
Theorem C28_steps_are_calls : forall o w, exec (prog_of o) w = run o w.
Proof. exact prog_of_run. Qed.
Print Assumptions C28_steps_are_calls.
(** Any number of threads that look up, encode and decode (and change the other
    side's registrations) in any interleaving get the right answers. *)
Theorem C28_encoders_partial : forall ts w sched, reachable w -> Forall (Forall (fun o => changes_encoders o = false)) ts ->
  let c := schedule sched (start_threads ts w) in
  (forall i ops l, nth_error ts i = Some ops -> finished c i l -> Forall2 (fun o a => uses_encoders o = true -> a = fst (run o w)) ops l)
  /\ (forall o, uses_encoders o = true -> fst (run o (snd c)) = fst (run o w)).
Proof. exact concurrent_encoders. Qed.
Print Assumptions C28_encoders_partial.
Theorem C28_decoders_partial : forall ts w sched, reachable w -> Forall (Forall (fun o => changes_decoders o = false)) ts ->
  let c := schedule sched (start_threads ts w) in
  (forall i ops l, nth_error ts i = Some ops -> finished c i l -> Forall2 (fun o a => dec_exact (fst w) o -> a = fst (run o w)) ops l)
  /\ (forall o, dec_exact (fst w) o -> fst (run o (snd c)) = fst (run o w)).
Proof. exact concurrent_decoders. Qed.
Print Assumptions C28_decoders_partial.
(** Two lookups of a nested type, step by step in turn. *)
Example C28_sample :
  let ts := [[OIsEncodableType (str "(uint8,bool)[]")]; [OIsEncodableType (str "(uint8,bool)[]"); OIsEncodableType (str "foo")]] in
  Forall (Forall (fun o => changes_encoders o = false)) ts
  /\ let c := schedule (concat (repeat [0; 1]%nat 100)) (start_threads ts start) in
     finished c 0 [ABool (Ok true)] /\ finished c 1 [ABool (Ok true); ABool (Ok false)].
Proof. split; [repeat constructor|]. split; lazy; reflexivity. Qed.
(** If a single thread changes registrations, the tables end up as if it had run
    alone, and so do the outcomes of its changes. *)
Theorem C28_one_writer_partial : forall ts w sched i ops l, nth_error ts i = Some ops ->
  (forall j ops', j <> i -> nth_error ts j = Some ops' -> Forall (fun o => changes_encoders o = false /\ changes_decoders o = false) ops') ->
  let c := schedule sched (start_threads ts w) in finished c i l ->
  r_encs (fst (snd c)) = r_encs (fst (after ops w)) /\ r_decs (fst (snd c)) = r_decs (fst (after ops w))
  /\ update_outcomes l = update_outcomes (answers ops w).
Proof. exact single_writer. Qed.
Print Assumptions C28_one_writer_partial.
Example C28_one_writer_sample :
  let ts := [[OIsEncodableType (str "uint256")]; [OUnregister (name "uint"); ORegister (base_eq "uint" 50) some_encoder some_decoder (label "uint"); OUnregister (name "nosuch")]] in
  let c := schedule (concat (repeat [0; 1]%nat 40)) (start_threads ts start) in
  Forall (fun o => changes_encoders o = false /\ changes_decoders o = false) (nth 0 ts [])
  /\ finished c 1 [ADone (Ok tt); ADone (Ok tt); ADone (Err KeyError)].
Proof. split; [repeat constructor|]. lazy; reflexivity. Qed.
(** Whatever happened before, in any number of threads: once an update of the
    encoders has run undisturbed, lookups are fresh.  For decoders the update
    must not have stopped at the encoders. *)
Theorem C28_update_heals : forall ts w sched o q, let w1 := snd (schedule sched (start_threads ts w)) in let w2 := snd (run o w1) in
  (changes_encoders o = true -> uses_encoders q = true -> fst (run q w2) = fst (run q (forget (fst w2), snd w2)))
  /\ (changes_decoders o = true -> (changes_encoders o = true -> fst (run o w1) = ADone (Ok tt)) -> dec_exact (fst w2) q ->
      fst (run q w2) = fst (run q (forget (fst w2), snd w2))).
Proof. exact heals. Qed.
Print Assumptions C28_update_heals.
(** After the race below, unregistering another type removes the stale coder. *)
Example C28_update_heals_sample :
  let w1 := snd (schedule inside_update (start_threads racing start)) in
  fst (run (OHasEncoder (lit "uint256")) w1) = ABool (Ok true)
  /\ fst (run (OHasEncoder (lit "uint256")) (snd (run (OUnregisterEncoder (name "bool")) w1))) = ABool (Ok false).
Proof. split; lazy; reflexivity. Qed.
(** Lookups are not always fresh while a thread changes registrations.  First
    schedule: the lookup runs between the cache clear and the change. *)
Theorem C28_lookup_inside_update_refuted :
  ~ (forall ts w, reachable w -> all_finished (schedule inside_update (start_threads ts w)) (length ts) ->
     forall s, fresh_answer (snd (schedule inside_update (start_threads ts w))) s).
Proof. exact (stale_refuted inside_update (or_introl eq_refl)). Qed.
Print Assumptions C28_lookup_inside_update_refuted.
(** Second: the lookup begins before the clear and stores its coder after the
    change. *)
Theorem C28_lookup_across_update_refuted :
  ~ (forall ts w, reachable w -> all_finished (schedule across_update (start_threads ts w)) (length ts) ->
     forall s, fresh_answer (snd (schedule across_update (start_threads ts w))) s).
Proof. exact (stale_refuted across_update (or_intror eq_refl)). Qed.
Print Assumptions C28_lookup_across_update_refuted.
(** A lookup under way while an entry is added answers neither as before nor as
    after: the loop over the dict raises RuntimeError, and is_encodable_type
    says False of a type that was and stays registered. *)
Theorem C28_lookup_during_update_refuted :
  ~ (forall o q w sched a, reachable w -> finished (schedule sched (start_threads [[o]; [q]] w)) 1 [a] ->
     a = fst (run q w) \/ a = fst (run q (snd (run o w)))).
Proof. exact lookup_during_update_refuted. Qed.
Print Assumptions C28_lookup_during_update_refuted.
(** Two updates do not behave as if one came after the other: both threads that
    add the same matcher succeed. *)
Theorem C28_same_matcher_refuted :
  ~ (forall o q w sched a b, reachable w ->
     let c := schedule sched (start_threads [[o]; [q]] w) in finished c 0 [a] -> finished c 1 [b] ->
     (a = fst (run o w) /\ b = fst (run q (snd (run o w)))) \/ (b = fst (run q w) /\ a = fst (run o (snd (run q w))))).
Proof. exact same_matcher_refuted. Qed.
Print Assumptions C28_same_matcher_refuted.
(** register and unregister in two threads can leave a decoder without encoder. *)
Theorem C28_pair_split_refuted :
  ~ (forall ts sched s, Forall (Forall (fun o => paired_op o = true)) ts -> all_finished (schedule sched (start_threads ts start)) (length ts) ->
     let r := fst (snd (schedule sched (start_threads ts start))) in has_label (r_encs r) s = has_label (r_decs r) s).
Proof. exact pair_split_refuted. Qed.
Print Assumptions C28_pair_split_refuted.

(** * C29: a map with unique labels *)

(** The two tables of a registry are a list of entries (RegistrySpec.v), if the
    caller unregisters labelled matchers by label or by the same object. *)
Theorem C29_entries_partial : forall r st h ops, begins r st -> disciplined ops st ->
  represents (after ops (r, h)) (spec_after ops st) /\ update_outcomes (answers ops (r, h)) = spec_outcomes ops st.
Proof. exact registry_is_entries. Qed.
Print Assumptions C29_entries_partial.
(** unregister_encoder(label) removes exactly the entries with that label. *)
Theorem C29_unregister_label_partial : forall r st h ops s, begins r st -> disciplined ops st ->
  let w := after ops (r, h) in let es := fst (spec_after ops st) in
  fst (run (OUnregisterEncoder (LStr s)) w) = ADone (if existsb (labelled s) es then Ok tt else Err KeyError)
  /\ represents (snd (run (OUnregisterEncoder (LStr s)) w)) (filter (fun x => negb (labelled s x)) es, snd (spec_after ops st)).
Proof. exact unregister_label_exact. Qed.
Print Assumptions C29_unregister_label_partial.
Example C29_entries_sample :
  let ops := [ORegister (base_eq "foo" 50) some_encoder some_decoder (label "mine"); OUnregister (name "uint"); ORegister (base_eq "bar" 51) some_encoder some_decoder (label "mine");
              OUnregister (base_eq "foo" 50); ORegister (base_eq "bar" 51) some_encoder some_decoder (label "mine")] in
  begins (fst start) (standard_entries false) /\ disciplined ops (standard_entries false)
  /\ update_outcomes (answers ops start) = [Ok tt; Ok tt; Err ValueError; Ok tt; Ok tt].
Proof.
  cbv zeta. split; [exact start_begins|]. split; [|lazy; reflexivity].
  repeat match goal with |- disciplined (_ :: _) _ => split | |- disciplined [] _ => exact I end; (split; [try exact I; discriminate|]); try exact I; try (split; exact I).
  split; intros x Ix; lazy in Ix; repeat (destruct Ix as [<-|Ix]; [lazy; first [discriminate|right; reflexivity]|]); contradiction.
Qed.
(** After a successful registration a matching type string gets the new coder
    if nothing else matched, and no coder otherwise. *)
Theorem C29_register_lookup : forall w w' l p v label s,
  reachable w -> matcher l = Some p -> run (ORegisterEncoder l v label) w = (ADone (Ok tt), w') ->
  none_raises (r_encs (fst w)) s -> pred_call p s = Done true ->
  (~ matches (r_encs (fst w)) s -> forall e, direct_encoder v s = Some e -> fst (get_encoder s (fst w')) = e)
  /\ (matches (r_encs (fst w)) s -> (forall e, fst (get_encoder s (fst w')) <> Ok e)
      /\ (forall t, parse s = Ok t -> fst (get_encoder s (fst w')) = Err MultipleEntriesFound)).
Proof. exact register_lookup. Qed.
Print Assumptions C29_register_lookup.
Theorem C29_register_lookup_decoder : forall w w' l p v label k s,
  reachable w -> matcher l = Some p -> run (ORegisterDecoder l v label) w = (ADone (Ok tt), w') ->
  none_raises (r_decs (fst w)) s -> pred_call p s = Done true ->
  (~ matches (r_decs (fst w)) s -> forall d, direct_decoder v k s = Some d -> fst (get_decoder k s w') = d)
  /\ (matches (r_decs (fst w)) s -> (forall d, fst (get_decoder k s w') <> Ok d)
      /\ (forall t, parse s = Ok t -> fst (get_decoder k s w') = Err MultipleEntriesFound)).
Proof. exact register_lookup_decoder. Qed.
Print Assumptions C29_register_lookup_decoder.
Example C29_register_lookup_sample :
  fst (run (ORegisterEncoder (base_eq "foo" 50) some_encoder None) start) = ADone (Ok tt)
  /\ fst (get_encoder (lit "foo8") (fst (snd (run (ORegisterEncoder (base_eq "foo" 50) some_encoder None) start)))) = Ok (EBool 32)
  /\ fst (run (ORegisterEncoder (name "uint8") some_encoder None) start) = ADone (Ok tt)
  /\ fst (get_encoder (lit "uint8") (fst (snd (run (ORegisterEncoder (name "uint8") some_encoder None) start)))) = Err MultipleEntriesFound.
Proof. repeat split; lazy; reflexivity. Qed.
(** A matcher or label in use. *)
Theorem C29_register_taken : forall w l v label,
  match l with
  | LPred p => has_pred (r_encs (fst w)) p = true \/ (exists s, label = Some s /\ has_label (r_encs (fst w)) s = true)
  | LStr s => has_pred (r_encs (fst w)) (mkPred (KEquals s) None) = true \/ has_label (r_encs (fst w)) s = true
  | LOther => False
  end ->
  fst (run (ORegisterEncoder l v label) w) = ADone (Err ValueError) /\ same_registrations w (snd (run (ORegisterEncoder l v label) w)).
Proof. exact register_taken. Qed.
Print Assumptions C29_register_taken.
Theorem C29_register_taken_decoder : forall w l v label,
  match l with
  | LPred p => has_pred (r_decs (fst w)) p = true \/ (exists s, label = Some s /\ has_label (r_decs (fst w)) s = true)
  | LStr s => has_pred (r_decs (fst w)) (mkPred (KEquals s) None) = true \/ has_label (r_decs (fst w)) s = true
  | LOther => False
  end ->
  fst (run (ORegisterDecoder l v label) w) = ADone (Err ValueError) /\ same_registrations w (snd (run (ORegisterDecoder l v label) w)).
Proof. exact register_taken_decoder. Qed.
Print Assumptions C29_register_taken_decoder.
Example C29_taken_sample :
  has_pred (r_encs (fst start)) (mkPred (KBaseEquals (lit "bool") None) (Some 77%N)) = true /\ has_label (r_decs (fst start)) (lit "bytes<M>") = true.
Proof. split; lazy; reflexivity. Qed.
(** Unregistering by the label or string just registered restores the
    registrations. *)
Theorem C29_register_unregister : forall w w' p v l, pid p <> None -> run (ORegisterEncoder (LPred p) v (Some l)) w = (ADone (Ok tt), w') ->
  fst (run (OUnregisterEncoder (LStr l)) w') = ADone (Ok tt) /\ same_registrations w (snd (run (OUnregisterEncoder (LStr l)) w')).
Proof. exact register_unregister_label. Qed.
Print Assumptions C29_register_unregister.
Theorem C29_register_unregister_decoder : forall w w' p v l, pid p <> None -> run (ORegisterDecoder (LPred p) v (Some l)) w = (ADone (Ok tt), w') ->
  fst (run (OUnregisterDecoder (LStr l)) w') = ADone (Ok tt) /\ same_registrations w (snd (run (OUnregisterDecoder (LStr l)) w')).
Proof. exact register_unregister_label_decoder. Qed.
Print Assumptions C29_register_unregister_decoder.
Theorem C29_register_unregister_string : forall w w' s v label, run (ORegisterEncoder (LStr s) v label) w = (ADone (Ok tt), w') ->
  fst (run (OUnregisterEncoder (LStr s)) w') = ADone (Ok tt) /\ same_registrations w (snd (run (OUnregisterEncoder (LStr s)) w')).
Proof. exact register_unregister_string. Qed.
Print Assumptions C29_register_unregister_string.
Theorem C29_register_unregister_string_decoder : forall w w' s v label, run (ORegisterDecoder (LStr s) v label) w = (ADone (Ok tt), w') ->
  fst (run (OUnregisterDecoder (LStr s)) w') = ADone (Ok tt) /\ same_registrations w (snd (run (OUnregisterDecoder (LStr s)) w')).
Proof. exact register_unregister_string_decoder. Qed.
Print Assumptions C29_register_unregister_string_decoder.
(** Registrations that match no part of a type do not affect it. *)
Theorem C29_register_elsewhere : forall w l v label s, reachable w ->
  (forall p x, lookup_pred l = Some p -> within x s -> pred_call p x = Done false) ->
  fst (get_encoder s (fst (snd (run (ORegisterEncoder l v label) w)))) = fst (get_encoder s (fst w)).
Proof. exact register_elsewhere. Qed.
Print Assumptions C29_register_elsewhere.
Theorem C29_register_decoder_elsewhere : forall w l v label k s, reachable w ->
  (forall p x, lookup_pred l = Some p -> within x s -> pred_call p x = Done false) ->
  fst (get_decoder k s (snd (run (ORegisterDecoder l v label) w))) = fst (get_decoder k s w).
Proof. exact register_decoder_elsewhere. Qed.
Print Assumptions C29_register_decoder_elsewhere.
Theorem C29_unregister_elsewhere : forall w l s, reachable w ->
  (forall q v x, In (q, v) (m_values (r_encs (fst w))) -> removes (r_encs (fst w)) l q -> within x s -> pred_call q x = Done false) ->
  fst (get_encoder s (fst (snd (run (OUnregisterEncoder l) w)))) = fst (get_encoder s (fst w)).
Proof. exact unregister_elsewhere. Qed.
Print Assumptions C29_unregister_elsewhere.
Theorem C29_unregister_decoder_elsewhere : forall w l k s, reachable w ->
  (forall q v x, In (q, v) (m_values (r_decs (fst w))) -> removes (r_decs (fst w)) l q -> within x s -> pred_call q x = Done false) ->
  fst (get_decoder k s (snd (run (OUnregisterDecoder l) w))) = fst (get_decoder k s w).
Proof. exact unregister_decoder_elsewhere. Qed.
Print Assumptions C29_unregister_decoder_elsewhere.
(** The order of registrations does not matter for a type whose parts make no
    matcher raise. *)
Theorem C29_order_irrelevant : forall w w' s, reachable w -> reachable w' -> (forall x, within x s -> none_raises (r_encs (fst w)) x /\ none_raises (r_decs (fst w)) x) ->
  Permutation (m_values (r_encs (fst w))) (m_values (r_encs (fst w'))) -> Permutation (m_values (r_decs (fst w))) (m_values (r_decs (fst w'))) ->
  fst (get_encoder s (fst w)) = fst (get_encoder s (fst w')) /\ (forall k, fst (get_decoder k s w) = fst (get_decoder k s w')).
Proof. exact order_irrelevant. Qed.
Print Assumptions C29_order_irrelevant.
(** Without the discipline: a label whose matcher was removed through an equal
    one stays behind, and unregistering it removes somebody else's entry. *)
Theorem C29_orphan_label_refuted :
  ~ (forall ops, Forall held_op ops -> update_outcomes (answers ops start) = spec_outcomes ops (standard_entries false)).
Proof. exact orphan_label_refuted. Qed.
Print Assumptions C29_orphan_label_refuted.
(** A label given along with a string is dropped. *)
Theorem C29_label_ignored_refuted :
  ~ (forall w w' s v l, reachable w -> run (ORegisterEncoder (LStr s) v (Some l)) w = (ADone (Ok tt), w') -> fst (run (OUnregisterEncoder (LStr l)) w') = ADone (Ok tt)).
Proof. exact label_ignored_refuted. Qed.
Print Assumptions C29_label_ignored_refuted.

(** * C30: unregistering by matcher frees the label *)

Theorem C30_label_freed_partial : forall w st p x l, represents w st -> fits st -> same_object (fst st) (LPred p) ->
  In x (fst st) -> about p x = true -> e_label x = Some l ->
  fst (run (OUnregisterEncoder (LPred p)) w) = ADone (Ok tt)
  /\ (forall p' v, (forall y, In y (fst st) -> about p y = false -> about p' y = false) ->
      fst (run (ORegisterEncoder (LPred p') v (Some l)) (snd (run (OUnregisterEncoder (LPred p)) w))) = ADone (Ok tt)).
Proof. exact label_freed. Qed.
Print Assumptions C30_label_freed_partial.
Example C30_sample :
  represents start (standard_entries false) /\ fits (standard_entries false)
  /\ same_object (fst (standard_entries false)) (base_eq "uint" 1) /\ In uint_entry (fst (standard_entries false)).
Proof.
  split; [apply standard_represents|]. split; [exact (proj2 (standard_represents false []))|]. split; [|left; reflexivity].
  intros x Ix. lazy in Ix. repeat (destruct Ix as [<-|Ix]; [lazy; first [discriminate|right; reflexivity]|]). contradiction.
Qed.
Theorem C30_equal_matcher_refuted :
  ~ (forall w st p x l p' v, reachable w -> represents w st -> fits st -> pid p <> None ->
     In x (fst st) -> about p x = true -> e_label x = Some l -> (forall y, In y (fst st) -> about p' y = false) ->
     fst (run (ORegisterEncoder (LPred p') v (Some l)) (snd (run (OUnregisterEncoder (LPred p)) w))) = ADone (Ok tt)).
Proof. exact label_kept_refuted. Qed.
Print Assumptions C30_equal_matcher_refuted.

(** * C31: all or nothing *)

(** Calls that touch one table, except removal by label. *)
Theorem C31_one_table : forall o w e, one_table o -> fst (run o w) = ADone (Err e) -> same_registrations w (snd (run o w)).
Proof. exact one_table_atomic. Qed.
Print Assumptions C31_one_table.
(** Every one-sided call, in a state where labels belong to entries. *)
Theorem C31_one_sided_partial : forall o w st e, represents w st -> fits st -> disciplined_op o st ->
  match o with ORegister _ _ _ _ | OUnregister _ => False | _ => ~ query o end ->
  fst (run o w) = ADone (Err e) -> same_registrations w (snd (run o w)).
Proof. exact one_sided_atomic. Qed.
Print Assumptions C31_one_sided_partial.
(** register and unregister, in programs that use no one-sided calls. *)
Theorem C31_both_sided_partial : forall r st h ops o e, begins r st -> r <> registry_packed -> Forall both_sided ops -> both_sided o -> disciplined (ops ++ [o]) st ->
  let w := after ops (r, h) in fst (run o w) = ADone (Err e) -> same_registrations w (snd (run o w)).
Proof. exact both_sided_atomic. Qed.
Print Assumptions C31_both_sided_partial.
Example C31_sample :
  let ops := [OUnregister (name "bool"); ORegister (base_eq "foo" 50) some_encoder some_decoder (label "int")] in
  disciplined ops (standard_entries false) /\ Forall both_sided ops
  /\ fst (run (ORegister (base_eq "foo" 50) some_encoder some_decoder (label "int")) (after [OUnregister (name "bool")] start)) = ADone (Err ValueError).
Proof. repeat split; try (lazy; reflexivity); try discriminate; repeat constructor. Qed.
Theorem C31_register_refuted :
  ~ (forall w l e d lab x, reachable w -> let o := ORegister l e d lab in fst (run o w) = ADone (Err x) -> same_registrations w (snd (run o w))).
Proof. exact register_half_refuted. Qed.
Print Assumptions C31_register_refuted.
(** registry_packed.unregister("uint") *)
Theorem C31_unregister_refuted :
  ~ (forall w l x, reachable w -> let o := OUnregister l in fst (run o w) = ADone (Err x) -> same_registrations w (snd (run o w))).
Proof. exact unregister_half_refuted. Qed.
Print Assumptions C31_unregister_refuted.
Theorem C31_unregister_label_refuted :
  ~ (forall w l x, reachable w -> let o := OUnregisterEncoder l in fst (run o w) = ADone (Err x) -> same_registrations w (snd (run o w))).
Proof. exact unregister_orphan_refuted. Qed.
Print Assumptions C31_unregister_label_refuted.

(** * C32: copies are independent *)

(** Registries as objects whose dicts are shared or not (Objects.v): whatever a
    program does, what a registry holds is what the calls on it alone made. *)
Theorem C32_independent : forall l st j r, separated st -> load st j = Some r -> load (acts l st) j = Some (alone (ops_on j l) r).
Proof. exact objects_independent. Qed.
Print Assumptions C32_independent.
Theorem C32_programs_separated : forall st, program_store st -> separated st.
Proof. exact program_separated. Qed.
Print Assumptions C32_programs_separated.
Theorem C32_copy : forall st i r, separated st -> load st i = Some r ->
  load (snd (act (ACopy i) st)) (length (st_regs st)) = Some (copy_registry r).
Proof. exact copy_object_load. Qed.
Print Assumptions C32_copy.
(** Calls on other registries change no answer. *)
Theorem C32_answers : forall st l i o r, program_store st -> load st i = Some r -> ops_on i l = [] -> (decodes o = true -> unshared_registry r) ->
  fst (act (AOn i o) (acts l st)) = fst (act (AOn i o) st).
Proof. exact others_unobservable. Qed.
Print Assumptions C32_answers.
Example C32_sample :
  let st := acts [ANew; AOn 0 (ORegister (base_eq "bool" 50) some_encoder some_decoder (label "bool")); ACopy 0] empty_store in
  program_store st
  /\ fst (act (AOn 0 (OIsEncodableType (str "bool"))) (acts [AOn 1 (OUnregister (name "bool")); AOn 1 (OIsEncodableType (str "bool"))] st)) = Some (ABool (Ok true))
  /\ fst (act (AOn 1 (OIsEncodableType (str "bool"))) (acts [AOn 1 (OUnregister (name "bool"))] st)) = Some (ABool (Ok false)).
Proof. split; [eexists; reflexivity|]. split; lazy; reflexivity. Qed.

(** * C33: the strict flag is per call *)

Theorem C33_strict_per_call_partial : forall w w' types data strict, reachable w -> reachable w' -> unshared_registry (fst w) -> r_decs (fst w') = r_decs (fst w) ->
  decode_in w types data strict = decode_in w' types data strict.
Proof. exact strict_per_call. Qed.
Print Assumptions C33_strict_per_call_partial.
Example C33_sample :
  decode_in (after [ODecode (types ["string"]) dirty false] start) (types ["string"]) dirty true = Err NonEmptyPaddingBytes
  /\ decode_in (after [ODecode (types ["string"]) dirty true] start) (types ["string"]) dirty false = Ok (PTuple [str "a"]).
Proof. split; lazy; reflexivity. Qed.
(** A registered StringDecoder instance keeps the flag of the last lookup. *)
Theorem C33_instance_refuted :
  ~ (forall w w' ts data strict, reachable w -> reachable w' -> r_decs (fst w') = r_decs (fst w) -> decode_in w ts data strict = decode_in w' ts data strict).
Proof. exact flag_shared_refuted. Qed.
Print Assumptions C33_instance_refuted.
(** Also when the other call is made on a copy. *)
Theorem C33_copy_refuted :
  ~ (forall st l i o r, program_store st -> load st i = Some r -> ops_on i l = [] -> fst (act (AOn i o) (acts l st)) = fst (act (AOn i o) st)).
Proof. exact copy_shares_flag_refuted. Qed.
Print Assumptions C33_copy_refuted.

(** * C40: plain callables inside compound types *)

Theorem C40_register : forall T f g w0, fresh_name T -> used false w0 ->
  fst (run (ORegister (LStr T) (EInst (ECallable f)) (DInst (DCallable g)) None) w0) = ADone (Ok tt).
Proof. exact callables_register. Qed.
Print Assumptions C40_register.
(** Arguments and tuples, nested in any way; what the callable returns is laid
    out as a static value. *)
Theorem C40_encode_tuples : forall T f g w types ss args l ps, fresh_name T -> with_callables T f g w -> seq_like types (map PStr ss) -> seq_like args l ->
  pieces T f ss l ps -> len (head_tail ps) < 2 ^ 256 -> encode_in w types args = Ok (head_tail ps).
Proof. exact callables_encode. Qed.
Print Assumptions C40_encode_tuples.
Theorem C40_is_encodable : forall T f g w s v p, fresh_name T -> with_callables T f g w -> piece T f s v p -> len (snd p) < 2 ^ 256 ->
  is_encodable_type_in w (PStr s) = Ok true /\ is_encodable_in w (PStr s) v = Ok true.
Proof. exact callables_encodable. Qed.
Print Assumptions C40_is_encodable.
Theorem C40_decode_tuples : forall T (f : pyval -> result bytes) g w types ss data b ps qs post strict,
  fresh_name T -> with_callables T f g w -> seq_like types (map PStr ss) ->
  backs T g ss ps qs -> bytes_like data b -> b = head_tail ps ++ post -> len b <= maxsize ->
  exists qs', decode_in w types data strict = Ok (PTuple qs') /\ backs T g ss ps qs'.
Proof. exact callables_decode. Qed.
Print Assumptions C40_decode_tuples.
Example C40_sample :
  fresh_name (lit "foo") /\ with_callables (lit "foo") (raw_encoder 32) (raw_decoder 32) (with_foo 32)
  /\ pieces (lit "foo") (raw_encoder 32) foo_types foo_values foo_pieces
  /\ backs (lit "foo") (raw_decoder 32) foo_types foo_pieces [PTuple [PBytes (word 7); PInt 5]; PBytes (raw "xyz"); PBytes (word 9)].
Proof. split; [exact foo_fresh|]. split; [apply with_foo_ok|]. split; [exact foo_pieces_ok|exact foo_backs_ok]. Qed.
(** Arrays: encode and decode always raise AttributeError, while T[] is reported
    encodable. *)
Theorem C40_arrays_fail : forall T f g w s d, fresh_name T -> with_callables T f g w -> array_of T s d ->
  is_encodable_type_in w (PStr s) = Ok (match d with None => true | Some _ => false end)
  /\ (forall v vs, len (v :: vs) < 2 ^ 256 -> encode_in w (PList [PStr s]) (PList [PList (v :: vs)]) = Err AttributeError)
  /\ (forall data b strict, bytes_like data b -> decode_in w (PList [PStr s]) data strict = Err AttributeError).
Proof. exact callables_arrays. Qed.
Print Assumptions C40_arrays_fail.
Theorem C40_arrays_refuted :
  ~ (forall T f g w s d v b, fresh_name T -> with_callables T f g w -> array_of T s d -> f v = Ok b ->
     exists out, encode_in w (PList [PStr s]) (PList [PList [v]]) = Ok out).
Proof. exact arrays_refuted. Qed.
Print Assumptions C40_arrays_refuted.
(** A callable that writes fewer than 32 bytes, followed by a dynamic value:
    the pointer check of TupleDecoder rejects what the encoder wrote. *)
Theorem C40_short_chunk_refuted :
  ~ (forall T f g w v b q, fresh_name T -> with_callables T f g w -> f v = Ok b ->
     (forall buf st, found buf (pos st) b -> g buf st = Ok (q, mkStream (pos st + len b) (frames st) (total st))) ->
     forall x out, encode_in w (PList [PStr T; str "bytes"]) (PList [v; PBytes x]) = Ok out ->
     exists q', decode_in w (PList [PStr T; str "bytes"]) (PBytes out) true = Ok q').
Proof. exact short_chunk_refuted. Qed.
Print Assumptions C40_short_chunk_refuted.
