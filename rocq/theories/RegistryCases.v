(** Registry states used as samples and witnesses by PropertiesRegistry.v. *)
From Coq Require Import Strings.Byte Strings.String.
From Verif Require Import Tac Bytes BytesProofs Utf8 Grammar Encoding Decoding Registry Codec Histories RegistrySpec Objects Threads
  Spec TypeSpec ReadSpec CustomSpec EncLeafProofs CacheProofs HistoryProofs HeapProofs RegistryProofs ObjectProofs ThreadProofs ThreadLaws RegistryLaws CustomProofs Samples.
Open Scope string_scope.
Open Scope list_scope.
Open Scope Z_scope.
Local Transparent Keccak.keccak256 Z.pow Decimals.pow10 Decimals.prec Decimals.Etop Decimals.Etiny Decimals.Emax Decimals.ndigits word be_bytes len.

(** Matchers and labels a caller may use. *)
Definition base_eq (s : string) (id : N) : lookup := LPred (mkPred (KBaseEquals (lit s) None) (Some id)).
Arguments base_eq s%string id%N.
Definition name (s : string) : lookup := LStr (lit s).
Arguments name s%string.
Definition label (s : string) : option pystr := Some (lit s).
Arguments label s%string.
Definition some_encoder : enc_reg := EInst (EBool 32).
Definition some_decoder : dec_reg := DInst DBool.

Lemma start_reachable : reachable start.
Proof. exact (used_reachable false start start_used). Qed.
Lemma start_begins : begins (fst start) (standard_entries false).
Proof. right. exists false. split; reflexivity. Qed.

(** ** Threads *)
(** unregister_encoder("uint") in one thread, get_encoder("uint256") in another. *)
Definition racing : list (list op) := [[OUnregisterEncoder (name "uint")]; [OGetEncoder (lit "uint256")]].
Definition all_finished (c : pool) (n : nat) : Prop := forall i, (i < n)%nat -> exists l, finished c i l.
Definition fresh_answer (w : world) (s : pystr) : Prop := fst (get_encoder s (fst w)) = fst (get_encoder s (forget (fst w))).
(** The lookup runs between the cache clear and the removal; or it begins before
    the clear and stores its coder after the removal. *)
Definition inside_update : list nat := [0]%nat ++ repeat 1%nat 30 ++ repeat 0%nat 10.
Definition across_update : list nat := repeat 1%nat 15 ++ repeat 0%nat 10 ++ repeat 1%nat 10.
Lemma race sched : sched = inside_update \/ sched = across_update ->
  all_finished (schedule sched (start_threads racing start)) 2 /\ ~ fresh_answer (snd (schedule sched (start_threads racing start))) (lit "uint256").
Proof.
  intros [-> | ->]; (split; [intros [|[|i]] H; [eexists; lazy; reflexivity|eexists; lazy; reflexivity|lia]|]); unfold fresh_answer; lazy; discriminate.
Qed.
Lemma stale_refuted sched : sched = inside_update \/ sched = across_update ->
  ~ (forall ts w, reachable w -> all_finished (schedule sched (start_threads ts w)) (length ts) ->
     forall s, fresh_answer (snd (schedule sched (start_threads ts w))) s).
Proof. intros S H. destruct (race sched S) as [F N]. apply N. apply H; [exact start_reachable|exact F]. Qed.
(** A lookup that is under way when an entry for another type is added. *)
Lemma lookup_during_update_refuted :
  ~ (forall o q w sched a, reachable w -> finished (schedule sched (start_threads [[o]; [q]] w)) 1 [a] ->
     a = fst (run q w) \/ a = fst (run q (snd (run o w)))).
Proof.
  intro H. specialize (H (ORegisterEncoder (name "foo") some_encoder None) (OIsEncodableType (str "uint256")) start (repeat 1%nat 5 ++ repeat 0%nat 10 ++ repeat 1%nat 40) (ABool (Ok false)) start_reachable).
  assert (F : forall a, ABool (Ok false) = a -> a = ABool (Ok true) -> False) by (intros a <- X; discriminate X).
  destruct H as [H|H]; [lazy; reflexivity|..]; (eapply F; [exact H|lazy; reflexivity]).
Qed.
(** Two threads that add the same matcher. *)
Lemma same_matcher_refuted :
  ~ (forall o q w sched a b, reachable w ->
     let c := schedule sched (start_threads [[o]; [q]] w) in finished c 0 [a] -> finished c 1 [b] ->
     (a = fst (run o w) /\ b = fst (run q (snd (run o w)))) \/ (b = fst (run q w) /\ a = fst (run o (snd (run q w))))).
Proof.
  intro H. specialize (H (ORegisterEncoder (base_eq "foo" 50) some_encoder (label "a")) (ORegisterEncoder (base_eq "foo" 50) some_encoder (label "b")) start
    ([0; 0; 1; 1] ++ repeat 0%nat 5 ++ repeat 1%nat 5)%nat (ADone (Ok tt)) (ADone (Ok tt)) start_reachable).
  assert (F : forall a, ADone (Ok tt) = a -> a = ADone (Err ValueError) -> False) by (intros a <- X; discriminate X).
  destruct H as [[_ H]|[_ H]]; [lazy; reflexivity|lazy; reflexivity|..]; (eapply F; [exact H|lazy; reflexivity]).
Qed.
(** register and unregister of the same name: the decoder stays without encoder. *)
Definition paired_op (o : op) : bool := negb (updates o) || (changes_encoders o && changes_decoders o).
Lemma pair_split_refuted :
  ~ (forall ts sched s, Forall (Forall (fun o => paired_op o = true)) ts -> all_finished (schedule sched (start_threads ts start)) (length ts) ->
     let r := fst (snd (schedule sched (start_threads ts start))) in has_label (r_encs r) s = has_label (r_decs r) s).
Proof.
  intro H. specialize (H [[ORegister (name "foo") some_encoder some_decoder None]; [OUnregister (name "foo")]] (repeat 0%nat 5 ++ repeat 1%nat 20 ++ repeat 0%nat 10) (lit "foo")).
  cbv zeta in H. assert (F : forall a b : bool, a = b -> a = false -> b = true -> False) by (intros; congruence).
  eapply F; [apply H|lazy; reflexivity|lazy; reflexivity].
  - repeat constructor.
  - intros [|[|i]] L; [eexists; lazy; reflexivity|eexists; lazy; reflexivity|cbn in L; lia].
Qed.

(** ** Equal but not identical matchers *)
(** The entry of the standard registry for "uint". *)
Definition uint_entry : entry enc_reg := mkEntry (mkPred (KBaseEquals (lit "uint") None) (Some 1%N)) (Some (lit "uint")) (EClass CUInt).
Lemma label_kept_refuted :
  ~ (forall w st p x l p' v, reachable w -> represents w st -> fits st -> pid p <> None ->
     In x (fst st) -> about p x = true -> e_label x = Some l -> (forall y, In y (fst st) -> about p' y = false) ->
     fst (run (ORegisterEncoder (LPred p') v (Some l)) (snd (run (OUnregisterEncoder (LPred p)) w))) = ADone (Ok tt)).
Proof.
  intro H. assert (E := H start (standard_entries false) (mkPred (KBaseEquals (lit "uint") None) (Some 50%N)) uint_entry (lit "uint")
    (mkPred (KEquals (lit "mine")) (Some 51%N)) some_encoder start_reachable (proj1 (standard_represents false [])) (proj2 (standard_represents false []))).
  cbn [pid] in E. assert (X : ADone (Err ValueError) = ADone (Ok tt)); [|discriminate X]. rewrite <- E; clear E.
  - lazy. reflexivity.
  - discriminate.
  - left. reflexivity.
  - reflexivity.
  - reflexivity.
  - intros y I. cbn in I. repeat (destruct I as [<-|I]; [reflexivity|]). contradiction.
Qed.
Lemma orphan_label_refuted :
  ~ (forall ops, Forall held_op ops -> update_outcomes (answers ops start) = spec_outcomes ops (standard_entries false)).
Proof.
  intro H. specialize (H [OUnregisterEncoder (base_eq "uint" 50); ORegisterEncoder (base_eq "uint" 51) some_encoder (label "b"); OUnregisterEncoder (name "uint")]).
  assert (X : [Ok tt; Ok tt; Ok tt] = [Ok tt; Ok tt; Err KeyError]); [|discriminate X]. etransitivity; [|etransitivity; [apply H|]]; [lazy; reflexivity| |lazy; reflexivity].
  repeat constructor; discriminate.
Qed.
Lemma label_ignored_refuted :
  ~ (forall w w' s v l, reachable w -> run (ORegisterEncoder (LStr s) v (Some l)) w = (ADone (Ok tt), w') -> fst (run (OUnregisterEncoder (LStr l)) w') = ADone (Ok tt)).
Proof.
  intro H. specialize (H start (snd (run (ORegisterEncoder (name "foo") some_encoder (label "bar")) start)) (lit "foo") some_encoder (lit "bar") start_reachable).
  assert (X : ADone (Err KeyError) = ADone (Ok tt)); [|discriminate X]. rewrite <- H; lazy; reflexivity.
Qed.

(** ** Half-done updates *)
Definition after_decoder_foo : world := snd (run (ORegisterDecoder (name "foo") some_decoder None) start).
Definition after_encoder_foo : world := snd (run (ORegisterEncoder (name "foo") some_encoder None) start).
Definition after_orphan : world := snd (run (OUnregisterEncoder (base_eq "uint" 50)) start).
Lemma register_half_refuted :
  ~ (forall w l e d lab x, reachable w -> let o := ORegister l e d lab in fst (run o w) = ADone (Err x) -> same_registrations w (snd (run o w))).
Proof.
  intro H. specialize (H after_decoder_foo (name "foo") some_encoder some_decoder None ValueError (R_run _ _ start_reachable)). cbv zeta in H.
  assert (E : fst (run (ORegister (name "foo") some_encoder some_decoder None) after_decoder_foo) = ADone (Err ValueError)) by (lazy; reflexivity).
  destruct (H E) as [A _]. assert (L : length (m_values (r_encs (fst after_decoder_foo))) = 13%nat) by (rewrite <- A; lazy; reflexivity). lazy in L. discriminate L.
Qed.
Lemma unregister_half_refuted :
  ~ (forall w l x, reachable w -> let o := OUnregister l in fst (run o w) = ADone (Err x) -> same_registrations w (snd (run o w))).
Proof.
  intro H. specialize (H start_packed (name "uint") KeyError (used_reachable true _ start_packed_used)). cbv zeta in H.
  assert (E : fst (run (OUnregister (name "uint")) start_packed) = ADone (Err KeyError)) by (lazy; reflexivity).
  destruct (H E) as [A _]. assert (L : length (m_values (r_encs (fst start_packed))) = 11%nat) by (rewrite <- A; lazy; reflexivity). lazy in L. discriminate L.
Qed.
Lemma unregister_orphan_refuted :
  ~ (forall w l x, reachable w -> let o := OUnregisterEncoder l in fst (run o w) = ADone (Err x) -> same_registrations w (snd (run o w))).
Proof.
  intro H. specialize (H after_orphan (name "uint") KeyError (R_run _ _ start_reachable)). cbv zeta in H.
  assert (E : fst (run (OUnregisterEncoder (name "uint")) after_orphan) = ADone (Err KeyError)) by (lazy; reflexivity).
  destruct (H E) as [A _]. assert (L : length (m_labels (r_encs (fst after_orphan))) = 11%nat) by (rewrite <- A; lazy; reflexivity). lazy in L. discriminate L.
Qed.

(** ** A registered StringDecoder instance *)
(** unregister_decoder("string"), then
    register_decoder(BaseEquals("string"), StringDecoder(...), label="string"). *)
Definition string_instance : list op :=
  [OUnregisterDecoder (name "string"); ORegisterDecoder (base_eq "string" 50) (DInst (DString (SRef 0) utf8_decode)) (label "string")].
Definition with_instance : world := after string_instance start.
(** A string whose padding is not zero. *)
Definition dirty : pyval := PBytes (word 32 ++ word 1 ++ raw "ax" ++ repeat x00 30).
Definition strict_then_lenient : list op := [ODecode (types ["string"]) dirty true; ODecode (types ["string"]) dirty false].
Lemma flag_shared_refuted :
  ~ (forall w w' ts data strict, reachable w -> reachable w' -> r_decs (fst w') = r_decs (fst w) -> decode_in w ts data strict = decode_in w' ts data strict).
Proof.
  intro H. specialize (H with_instance (after strict_then_lenient with_instance) (types ["string"]) dirty true).
  assert (X : @Err pyval NonEmptyPaddingBytes = Ok (PTuple [str "a"])); [|discriminate X].
  etransitivity; [|etransitivity; [apply H|]].
  - lazy. reflexivity.
  - apply reachable_after, start_reachable.
  - apply reachable_after, reachable_after, start_reachable.
  - apply after_keeps; [repeat constructor|]. apply reachable_caches, reachable_after, start_reachable.
  - lazy. reflexivity.
Qed.
(** The same through a copy: the instance is shared. *)
Definition shared_program : list action :=
  [ANew; AOn 0 (ORegisterDecoder (base_eq "string" 50) (DInst (DString (SRef 0) utf8_decode)) (label "string")); ACopy 0; AOn 0 (ODecode (types ["string"]) dirty true)].
Lemma copy_shares_flag_refuted :
  ~ (forall st l i o r, program_store st -> load st i = Some r -> ops_on i l = [] -> fst (act (AOn i o) (acts l st)) = fst (act (AOn i o) st)).
Proof.
  intro H. assert (L : exists r, load (acts shared_program empty_store) 0 = Some r).
  { assert (E : match load (acts shared_program empty_store) 0 with Some _ => true | None => false end = true) by (lazy; reflexivity).
    destruct (load (acts shared_program empty_store) 0) as [r|]; [exists r; reflexivity|discriminate E]. }
  destruct L as (r & L).
  specialize (H (acts shared_program empty_store) [AOn 1 (ODecode (types ["string"]) dirty false)] 0%nat (ODecode (types ["string"]) dirty true)).
  assert (X : Some (AValue (Ok (PTuple [str "a"]))) = Some (AValue (Err NonEmptyPaddingBytes))); [|discriminate X].
  etransitivity; [|etransitivity; [eapply H|]].
  - lazy. reflexivity.
  - exists shared_program. reflexivity.
  - exact L.
  - reflexivity.
  - lazy. reflexivity.
Qed.

(** ** Plain callables *)
(** Encoder and decoder callables for a type that is written as [n] raw bytes. *)
Definition raw_encoder (n : Z) (v : pyval) : result bytes := match v with PBytes b => if len b =? n then Ok b else Err ValueError | _ => Err TypeError end.
Definition raw_decoder (n : Z) (buf : bytes) (st : stream) : result (pyval * stream) := ' (b, st') <- Decoding.read buf n st ;; Ok (PBytes b, st').
Lemma raw_decodes n b buf st : len b = n -> n <= 1000 -> found buf (pos st) b -> raw_decoder n buf st = Ok (PBytes b, mkStream (pos st + len b) (frames st) (total st)).
Proof.
  intros L N (a & c & -> & E). unfold raw_decoder, Decoding.read. replace (maxsize <? n) with false by (symmetry; apply Z.ltb_ge; unfold maxsize; lia). cbn [bind].
  assert (T : take_z n (drop_z (pos st) (a ++ b ++ c)) = b); [|rewrite T; reflexivity].
  subst n. rewrite drop_z_app by (symmetry; exact E). apply take_z_app. reflexivity.
Qed.
Lemma foo_fresh : fresh_name (lit "foo").
Proof. exists (lit "foo"), SubNone. split; [lazy; reflexivity|]. split; [lazy; reflexivity|]. split; [lazy; reflexivity|]. cbn. intuition discriminate. Qed.
Definition with_foo (n : Z) : world :=
  snd (run (ORegister (name "foo") (EInst (ECallable (raw_encoder n))) (DInst (DCallable (raw_decoder n))) None) start).
Lemma with_foo_ok n : with_callables (lit "foo") (raw_encoder n) (raw_decoder n) (with_foo n).
Proof. exists start, []. split; [exact start_used|]. split; [constructor|]. unfold with_foo, name, after. cbn [fold_left]. reflexivity. Qed.
Lemma arrays_refuted :
  ~ (forall T f g w s d v b, fresh_name T -> with_callables T f g w -> array_of T s d -> f v = Ok b ->
     exists out, encode_in w (PList [PStr s]) (PList [PList [v]]) = Ok out).
Proof.
  intro H. destruct (H (lit "foo") (raw_encoder 32) (raw_decoder 32) (with_foo 32) (lit "foo[]") None (PBytes (word 7)) (word 7) foo_fresh (with_foo_ok 32)) as (out & E).
  - exists (lit "foo"), SubNone. split; lazy; reflexivity.
  - lazy. reflexivity.
  - assert (X : encode_in (with_foo 32) (PList [PStr (lit "foo[]")]) (PList [PList [PBytes (word 7)]]) = Err AttributeError) by (lazy; reflexivity). congruence.
Qed.
(** A chunk of one byte before a dynamic value cannot be read back. *)
Lemma short_chunk_refuted :
  ~ (forall T f g w v b q, fresh_name T -> with_callables T f g w -> f v = Ok b ->
     (forall buf st, found buf (pos st) b -> g buf st = Ok (q, mkStream (pos st + len b) (frames st) (total st))) ->
     forall x out, encode_in w (PList [PStr T; str "bytes"]) (PList [v; PBytes x]) = Ok out ->
     exists q', decode_in w (PList [PStr T; str "bytes"]) (PBytes out) true = Ok q').
Proof.
  intro H. destruct (H (lit "foo") (raw_encoder 1) (raw_decoder 1) (with_foo 1) (PBytes (raw "a")) (raw "a") (PBytes (raw "a")) foo_fresh (with_foo_ok 1)) with
    (x := raw "xyz") (out := raw "a" ++ word 33 ++ word 3 ++ raw "xyz" ++ repeat x00 29) as (q & E).
  - reflexivity.
  - intros buf st. apply (raw_decodes 1); [reflexivity|lia].
  - lazy. reflexivity.
  - assert (X : decode_in (with_foo 1) (PList [PStr (lit "foo"); str "bytes"]) (PBytes (raw "a" ++ word 33 ++ word 3 ++ raw "xyz" ++ repeat x00 29)) true = Err InvalidPointer)
      by (lazy; reflexivity). congruence.
Qed.
(** A tuple that holds a callable's value, with a value of the same type and a
    dynamic one beside it. *)
Definition foo_types : list pystr := [lit "(foo,uint8)"; lit "bytes"; lit "foo"].
Definition foo_values : list pyval := [PTuple [PBytes (word 7); PInt 5]; PBytes (raw "xyz"); PBytes (word 9)].
Definition foo_pieces : list (bool * bytes) := [(false, word 7 ++ word 5); (true, word 3 ++ raw "xyz" ++ repeat x00 29); (false, word 9)].
Lemma foo_pieces_ok : pieces (lit "foo") (raw_encoder 32) foo_types foo_values foo_pieces.
Proof.
  assert (W : forall z, raw_encoder 32 (PBytes (word z)) = Ok (word z)).
  { intro z. unfold raw_encoder. rewrite word_len. reflexivity. }
  constructor; [|constructor; [|constructor; [|constructor]]].
  - change (false, word 7 ++ word 5) with (existsb fst [(false, word 7); (false, word 5)], head_tail [(false, word 7); (false, word 5)]).
    eapply piece_tuple; [lazy; reflexivity|right; left; reflexivity|]. cbn [map]. constructor; [|constructor; [|constructor]].
    + change (to_type_str _) with (lit "foo"). constructor. apply W.
    + apply (piece_known (lit "foo") (raw_encoder 32) _ (SUInt 8) (PInt 5) (VInt 5)); [sample_type|]. apply D_uint. in_range.
  - change (true, word 3 ++ raw "xyz" ++ repeat x00 29) with (sdyn SBytes, spec_enc SBytes (VBytes (raw "xyz"))).
    apply piece_known; [sample_type|]. constructor. left. reflexivity.
  - constructor. apply W.
Qed.
Lemma foo_backs_ok : backs (lit "foo") (raw_decoder 32) foo_types foo_pieces [PTuple [PBytes (word 7); PInt 5]; PBytes (raw "xyz"); PBytes (word 9)].
Proof.
  assert (W : forall z, back (lit "foo") (raw_decoder 32) (lit "foo") (false, word z) (PBytes (word z))).
  { intro z. constructor; [rewrite word_len; lia|]. intros buf st. apply raw_decodes; [apply word_len|lia]. }
  constructor; [|constructor; [|constructor; [|constructor]]].
  - change (false, word 7 ++ word 5) with (existsb fst [(false, word 7); (false, word 5)], head_tail [(false, word 7); (false, word 5)]).
    eapply back_tuple; [lazy; reflexivity|]. cbn [map]. constructor; [|constructor; [|constructor]].
    + apply W.
    + apply (back_known (lit "foo") (raw_decoder 32) _ (SUInt 8) (VInt 5)); [sample_type| |constructor]. constructor. in_range.
  - change (true, word 3 ++ raw "xyz" ++ repeat x00 29) with (sdyn SBytes, spec_enc SBytes (VBytes (raw "xyz"))).
    apply back_known; [sample_type|constructor|constructor].
  - apply W.
Qed.
