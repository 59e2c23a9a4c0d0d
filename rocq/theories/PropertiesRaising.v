(** Property C67: a matcher that raises. *)
From Coq Require Import Permutation Strings.String.
From Verif Require Import Tac Py Bytes Grammar Encoding Decoding Registry ExceptionSpec RaisingSpec Codec Histories RegistrySpec RaisingProofs Samples.
Open Scope string_scope.
Open Scope list_scope.
Open Scope Z_scope.

(** * C67: the first exception wins *)

(** If a matcher raises on a type string, so does every lookup of that string,
    whichever matchers after it or before it would have matched; what comes out
    is decided by [surfaces] alone. *)
Theorem C67_encoder : forall w s p e says, reachable w -> first_to_raise (m_values (r_encs (fst w))) s p e says ->
  exists x, surfaces s e says x /\ fst (get_encoder s (fst w)) = Err x
  /\ fst (has_encoder s (fst w)) = (match x with MultipleEntriesFound => Err MultipleEntriesFound | _ => Ok false end).
Proof. exact raising_encoder. Qed.
Print Assumptions C67_encoder.
Theorem C67_decoder : forall w k s p e says, reachable w -> first_to_raise (m_values (r_decs (fst w))) s p e says ->
  exists x, surfaces s e says x /\ fst (get_decoder k s w) = Err x.
Proof. exact raising_decoder. Qed.
Print Assumptions C67_decoder.
Theorem C67_one_exception : forall s e says x y, surfaces s e says x -> surfaces s e says y -> x = y.
Proof. exact surfaces_unique. Qed.
Print Assumptions C67_one_exception.
(** Through the codec. *)
Theorem C67_encode : forall w s ts args vs p e says, reachable w -> first_to_raise (m_values (r_encs (fst w))) s p e says ->
  validate_list_like_param args = Ok vs ->
  exists x, surfaces s e says x /\ encode_in w (PList (PStr s :: ts)) args = Err x
  /\ is_encodable_type_in w (PStr s) = (match x with MultipleEntriesFound => Err MultipleEntriesFound | _ => Ok false end)
  /\ forall v, is_encodable_in w (PStr s) v = is_encodable_type_in w (PStr s).
Proof. exact raising_encode. Qed.
Print Assumptions C67_encode.
Theorem C67_decode : forall w s ts data b strict p e says, reachable w -> first_to_raise (m_values (r_decs (fst w))) s p e says ->
  validate_bytes_param data = Ok b ->
  exists x, surfaces s e says x /\ decode_in w (PList (PStr s :: ts)) data strict = Err x.
Proof. exact raising_decode. Qed.
Print Assumptions C67_decode.
(** A lookup that answers called every matcher, and none raised. *)
Theorem C67_answered : forall w s e, reachable w -> fst (get_encoder s (fst w)) = Ok e -> none_raises (r_encs (fst w)) s.
Proof. exact answered_encoder. Qed.
Print Assumptions C67_answered.
Theorem C67_answered_decoder : forall w k s d, reachable w -> fst (get_decoder k s w) = Ok d -> none_raises (r_decs (fst w)) s.
Proof. exact answered_decoder. Qed.
Print Assumptions C67_answered_decoder.
(** Nothing stays behind: whatever was looked up in between, unregistering the
    matcher gives back every answer. *)
Theorem C67_removed : forall w w' qs p v l s, reachable w -> pid p <> None ->
  run (ORegisterEncoder (LPred p) v (Some l)) w = (ADone (Ok tt), w') -> Forall query qs ->
  let w'' := snd (run (OUnregisterEncoder (LStr l)) (after qs w')) in
  fst (run (OUnregisterEncoder (LStr l)) (after qs w')) = ADone (Ok tt) /\ same_registrations w w''
  /\ fst (get_encoder s (fst w'')) = fst (get_encoder s (fst w)).
Proof. exact raising_removed. Qed.
Print Assumptions C67_removed.
(** Registering a function does not call it. *)
Theorem C67_not_called : forall w f g i v label,
  fst (run (ORegisterEncoder (LPred (mkPred (KFun f) (Some i))) v label) w) = fst (run (ORegisterEncoder (LPred (mkPred (KFun g) (Some i))) v label) w).
Proof. exact not_called. Qed.
Print Assumptions C67_not_called.
(** A registration that does not match a type can still make it unusable. *)
Theorem C67_unmatched_refuted :
  ~ (forall w w' p v label s, reachable w -> run (ORegisterEncoder (LPred p) v label) w = (ADone (Ok tt), w') -> hit p s = false ->
     fst (get_encoder s (fst w')) = fst (get_encoder s (fst w))).
Proof. exact unmatched_refuted. Qed.
Print Assumptions C67_unmatched_refuted.
(** With two of them the order of registration decides which exception comes. *)
Theorem C67_order_refuted :
  ~ (forall w w' s, reachable w -> reachable w' -> Permutation (m_values (r_encs (fst w))) (m_values (r_encs (fst w'))) ->
     fst (get_encoder s (fst w)) = fst (get_encoder s (fst w'))).
Proof. exact order_refuted. Qed.
Print Assumptions C67_order_refuted.

(** [lambda s: s[8] == "_"], registered last. *)
Definition with_marked : world := snd (run (ORegister (LPred marked) (EInst (EBool 32)) (DClass CDBool) (Some (lit "marked"))) start).
Example C67_sample :
  first_to_raise (m_values (r_encs (fst with_marked))) (lit "uint256") marked IndexError (Ok false)
  /\ encode_in with_marked (types ["uint256"]) (PList [PInt 1]) = Err IndexError
  /\ is_encodable_in with_marked (str "uint256") (PInt 1) = Ok false
  /\ fst (get_encoder (lit "customty_8") (fst with_marked)) = Ok (EBool 32)
  /\ fst (get_encoder (lit "uint256[8]") (fst with_marked)) = Err IndexError
  /\ fst (get_encoder (lit "uint256") (fst (snd (run (OUnregisterEncoder (LStr (lit "marked"))) (after [OGetEncoder (lit "uint256")] with_marked))))) = Ok (EUInt 256 32).
Proof.
  split; [|repeat split; lazy; reflexivity].
  exists (m_values (r_encs (fst start))), (EInst (EBool 32)), []. split; [lazy; reflexivity|]. split; [|lazy; reflexivity].
  intros q u I. assert (F : forallb (fun x => negb (raising (fst x) (lit "uint256"))) (m_values (r_encs (fst start))) = true) by (lazy; reflexivity).
  rewrite forallb_forall in F. specialize (F _ I). cbn [fst] in F. destruct (raising q (lit "uint256")); [discriminate|reflexivity].
Qed.
(** The exceptions that [except ValueError] catches. *)
Theorem C67_class : forall e, is_value_error e = true <-> isinstance e ValueError.
Proof. exact value_class. Qed.
Print Assumptions C67_class.
(** ValueError("No matching ..."), ValueError(), and a string that does not
    parse. *)
Definition with_error (says : result bool) : world :=
  snd (run (ORegisterEncoder (LPred (mkPred (KFun (fun _ => Raised ValueError says)) (Some 62%N))) (EClass CBool) None) start).
Example C67_value_errors :
  fst (get_encoder (lit "uint8") (fst (with_error (Ok true)))) = Err ValueError
  /\ fst (get_encoder (lit "uint8[") (fst (with_error (Ok true)))) = Err ParseError
  /\ fst (get_encoder (lit "uint8[") (fst (with_error (Ok false)))) = Err ValueError
  /\ fst (get_encoder (lit "uint8") (fst (with_error (Err IndexError)))) = Err IndexError
  /\ fst (has_encoder (lit "uint8") (fst (with_error (Err IndexError)))) = Ok false.
Proof. repeat split; lazy; reflexivity. Qed.
