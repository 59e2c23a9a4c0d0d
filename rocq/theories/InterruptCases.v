(** Witnesses about calls that are cut short. *)
From Coq Require Import Strings.String.
From Verif Require Import Tac Bytes Grammar Encoding Decoding Registry Codec Histories RegistrySpec Threads Interrupts Samples RegistryCases.
Open Scope string_scope.
Open Scope list_scope.
Open Scope Z_scope.

(** default registry, unregister_encoder("uint") stopped after the label is gone *)
Lemma retry_unregister_refuted :
  ~ (forall n s w, reachable w -> same_registrations (snd (run (OUnregisterEncoder (LStr s)) w)) (snd (run (OUnregisterEncoder (LStr s)) (interrupted n (OUnregisterEncoder (LStr s)) w)))).
Proof.
  intro H. destruct (H 3%nat (lit "uint") start start_reachable) as [E _]. apply (f_equal (fun m => length (m_values m))) in E. lazy in E. discriminate E.
Qed.
(** register_encoder(BaseEquals("foo"), .., label="foo") stopped after the label
    is set *)
Lemma retry_register_refuted :
  ~ (forall n l v label w, reachable w -> fst (run (ORegisterEncoder l v label) w) = ADone (Ok tt) ->
     same_registrations (snd (run (ORegisterEncoder l v label) w)) (snd (run (ORegisterEncoder l v label) (interrupted n (ORegisterEncoder l v label) w)))).
Proof.
  intro H. destruct (H 4%nat (base_eq "foo" 50) some_encoder (label "foo") start start_reachable) as [E _]; [lazy; reflexivity|].
  apply (f_equal (fun m => length (m_values m))) in E. lazy in E. discriminate E.
Qed.
