(** C86: exceptions raised by coders of the caller are passed on unchanged;
    is_encodable turns encoding errors, and nothing else, into False. *)
From Coq Require Import Strings.Byte Strings.String.
From Verif Require Import Tac Py Bytes BytesProofs Encoding Decoding Registry RaisingSpec Codec Histories RegistrySpec RegistryLaws ExceptionSpec Spec Samples SuppliedSpec SuppliedProofs.
Open Scope string_scope.
Open Scope list_scope.
Open Scope Z_scope.
Local Transparent Keccak.keccak256 Z.pow Decimals.pow10 Decimals.prec Decimals.Etop Decimals.Etiny Decimals.Emax Decimals.ndigits word be_bytes len.

Theorem C86_is_encodable : forall T f w v, with_encoder T (ECallable f) w -> weighed (f v) (is_encodable_in w (PStr T) v).
Proof. exact callable_encodable. Qed.
Print Assumptions C86_is_encodable.
(** An object is asked to check the value; an AttributeError, also one raised
    inside of its method, makes the library call the object instead. *)
Theorem C86_is_encodable_object : forall T dyn val enc w v, with_encoder T (ECustom dyn val enc) w ->
  exists r, checked (val v) (enc v) r /\ weighed r (is_encodable_in w (PStr T) v).
Proof. exact object_encodable. Qed.
Print Assumptions C86_is_encodable_object.
Theorem C86_encode : forall T f w v, with_encoder T (ECallable f) w -> encode_in w (PList [PStr T]) (PList [v]) = f v.
Proof. exact callable_encode. Qed.
Print Assumptions C86_encode.
Theorem C86_encode_object : forall T dyn val enc w v, with_encoder T (ECustom dyn val enc) w ->
  exists r, checked (val v) (enc v) r
    /\ encode_in w (PList [PStr T]) (PList [v]) = match r, enc v with Err x, _ => Err x | Ok _, Err x => Err x | Ok _, Ok b => Ok (alone_chunk dyn b) end.
Proof. exact object_encode. Qed.
Print Assumptions C86_encode_object.
(** A decoder is called twice, first while the pointers are checked. *)
Theorem C86_decode : forall T g w b strict, with_decoder T (DCallable g) w ->
  decode_in w (PList [PStr T]) (PBytes b) strict =
  match g b new_stream with
  | Err x => Err x
  | Ok (_, st) => match g b (mkStream 0 (frames st) (total st)) with Err x => Err x | Ok (v, _) => Ok (PTuple [v]) end
  end.
Proof. exact callable_decode. Qed.
Print Assumptions C86_decode.

(** An encoder that fails in three ways. *)
Definition moody (v : pyval) : result bytes :=
  match v with PInt 0 => Err ValueOutOfBounds | PInt 1 => Err (UserError 3) | PInt 2 => Err AttributeError | _ => Ok [x61] end.
Definition checks (v : pyval) : result unit :=
  match v with PInt 3 => Err TypeError | PInt 4 => Err IllegalValue | PInt 5 => Ok tt | _ => Err AttributeError end.
Definition with_moody : world := snd (run (ORegisterEncoder (LStr (lit "mood")) (EInst (ECallable moody)) None) start).
Definition with_checks : world := snd (run (ORegisterEncoder (LStr (lit "mood")) (EInst (ECustom true checks moody)) None) start).
Definition sour (b : bytes) (st : stream) : result (pyval * stream) := if pos st =? 0 then Ok (PInt (len b), st) else Err (UserError 4).
Definition grim (b : bytes) (st : stream) : result (pyval * stream) := Err (UserError 5).
Definition with_sour : world := snd (run (ORegisterDecoder (LStr (lit "mood")) (DInst (DCallable sour)) None) start).
Definition with_grim : world := snd (run (ORegisterDecoder (LStr (lit "mood")) (DInst (DCallable grim)) None) start).
Example C86_sample :
  fst (run (ORegisterEncoder (LStr (lit "mood")) (EInst (ECallable moody)) None) start) = ADone (Ok tt)
  /\ fst (run (ORegisterDecoder (LStr (lit "mood")) (DInst (DCallable grim)) None) start) = ADone (Ok tt)
  /\ existsb (fun pv => hit (fst pv) (lit "mood") || raising (fst pv) (lit "mood")) (m_values (r_encs (fst start))) = false
  /\ existsb (fun pv => hit (fst pv) (lit "mood") || raising (fst pv) (lit "mood")) (m_values (r_decs (fst start))) = false
  /\ map (is_encodable_in with_moody (str "mood")) (map PInt [0; 1; 2; 9]) = [Ok false; Err (UserError 3); Err AttributeError; Ok true]
  /\ map (is_encodable_in with_checks (str "mood")) (map PInt [0; 1; 2; 3; 4; 5; 9]) = [Ok false; Err (UserError 3); Err AttributeError; Err TypeError; Ok false; Ok true; Ok true]
  /\ map (fun v => encode_in with_moody (types ["mood"]) (PList [v])) (map PInt [0; 1; 2; 9]) = [Err ValueOutOfBounds; Err (UserError 3); Err AttributeError; Ok [x61]]
  /\ map (fun v => encode_in with_checks (types ["mood"]) (PList [v])) (map PInt [3; 4; 5]) = [Err TypeError; Err IllegalValue; Ok (word 32 ++ [x61])]
  /\ decode_in with_sour (types ["mood"]) (PBytes [x61; x62]) true = Ok (PTuple [PInt 2])
  /\ decode_in with_grim (types ["mood"]) (PBytes [x61; x62]) true = Err (UserError 5).
Proof. repeat match goal with |- _ /\ _ => split; [lazy; reflexivity|] end. lazy. reflexivity. Qed.
