(** C85: a registered ByteStringDecoder or StringDecoder object has one strict
    flag, set by the first request for each value of the argument. *)
From Coq Require Import Strings.Byte Strings.String.
From Verif Require Import Tac Py Bytes BytesProofs Decoding Registry RaisingSpec Codec Histories RegistrySpec RegistryLaws Spec Handlers Samples InstanceSpec InstanceProofs.
Open Scope string_scope.
Open Scope list_scope.
Open Scope Z_scope.
Local Transparent Keccak.keccak256 Z.pow Decimals.pow10 Decimals.prec Decimals.Etop Decimals.Etiny Decimals.Emax Decimals.ndigits word be_bytes len.

(** After any requests, the data is read as for "bytes" with the flag. *)
Theorem C85_history : forall T i handler w w' w0 rs b s, reachable w -> none_raises (r_decs (fst w)) T -> ~ matches (r_decs (fst w)) T ->
  run (ORegisterDecoder (LStr T) (DInst (instance i handler)) None) w = (ADone (Ok tt), w') -> used false w0 -> len b <= maxsize ->
  read_as handler (decode_in w0 (PList [PStr (lit "bytes")]) (PBytes b) (flag_after (map argument rs ++ [Some s])))
          (decode_in (after (map (op_of T) rs) w') (PList [PStr T]) (PBytes b) s).
Proof. exact instance_history. Qed.
Print Assumptions C85_history.
(** While everybody asks for the same, all get it; *)
Theorem C85_same : forall l s, Forall (fun k => match k with Some b => b | None => true end = s) l -> flag_after (l ++ [Some s]) = s.
Proof. exact flag_kept. Qed.
Print Assumptions C85_same.
(** the first to ask for something gets it; *)
Theorem C85_new : forall l k, ~ In k l -> flag_after (l ++ [k]) = match k with Some b => b | None => true end.
Proof. exact flag_new. Qed.
Print Assumptions C85_new.
(** and once both have been asked for, the argument has no effect. *)
Theorem C85_stuck : forall l s, In (Some true) l -> In (Some false) l -> flag_after (l ++ [Some s]) = flag_after l.
Proof. exact flag_stuck. Qed.
Print Assumptions C85_stuck.
(** One byte with padding that is not zero. *)
Definition dirty_byte : bytes := word 32 ++ word 1 ++ [x61; x78] ++ repeat x00 30.
Definition with_bytes : world := snd (run (ORegisterDecoder (LStr (lit "blob")) (DInst (instance 7 None)) None) start).
Definition with_text : world := snd (run (ORegisterDecoder (LStr (lit "blob")) (DInst (instance 7 (Some (lit "strict")))) None) start).
Example C85_sample :
  let ask w rs s := decode_in (after (map (op_of (lit "blob")) rs) w) (types ["blob"]) (PBytes dirty_byte) s in
  fst (run (ORegisterDecoder (LStr (lit "blob")) (DInst (instance 7 None)) None) start) = ADone (Ok tt)
  /\ existsb (fun pv => hit (fst pv) (lit "blob") || raising (fst pv) (lit "blob")) (m_values (r_decs (fst start))) = false
  /\ ask with_bytes [] true = Err NonEmptyPaddingBytes
  /\ ask with_bytes [] false = Ok (PTuple [PBytes [x61]])
  /\ ask with_bytes [Decoded dirty_byte true] false = Ok (PTuple [PBytes [x61]])
  /\ ask with_bytes [Decoded dirty_byte true; Decoded dirty_byte false] true = Ok (PTuple [PBytes [x61]])
  /\ ask with_bytes [Decoded dirty_byte false; Decoded dirty_byte true] false = Err NonEmptyPaddingBytes
  /\ ask with_bytes [Decoded dirty_byte false; Asked None] false = Err NonEmptyPaddingBytes
  /\ ask with_text [Decoded dirty_byte false] false = Ok (PTuple [str "a"])
  /\ ask with_text [Asked (Some false); Asked (Some true)] false = Err NonEmptyPaddingBytes.
Proof. cbn zeta. repeat match goal with |- _ /\ _ => split; [lazy; reflexivity|] end. lazy. reflexivity. Qed.

(** A class of the caller gets the type string as it was given, and the decoder
    it makes gets the flag of the request. *)
Theorem C85_class : forall w w' l p f label k s, reachable w -> matcher l = Some p -> run (ORegisterDecoder l (DClass (CUserDec f)) label) w = (ADone (Ok tt), w') ->
  none_raises (r_decs (fst w)) s -> pred_call p s = Done true -> ~ matches (r_decs (fst w)) s ->
  fst (get_decoder k s w') = match f s with Ok d => Ok (flagged (match k with Some b => b | None => true end) d) | Err e => Err e end.
Proof. exact class_decoder. Qed.
Print Assumptions C85_class.
Theorem C85_encoder_class : forall w w' l p f label s, reachable w -> matcher l = Some p -> run (ORegisterEncoder l (EClass (CUserEnc f)) label) w = (ADone (Ok tt), w') ->
  none_raises (r_encs (fst w)) s -> pred_call p s = Done true -> ~ matches (r_encs (fst w)) s -> fst (get_encoder s (fst w')) = f s.
Proof. exact class_encoder. Qed.
Print Assumptions C85_encoder_class.
(** "int" is an alias; the class is given "int". *)
Definition int_class (ts : pystr) : result decoder := if str_eqb ts (lit "int") then Ok (DInt 8) else Err ValueError.
Definition text_class (ts : pystr) : result decoder := Ok (DCustom true (SConst true) (fun strict _ st => Ok (PBool strict, st))).
Example C85_class_sample :
  let w := snd (run (OUnregister (LStr (lit "int"))) start) in
  let w1 := run (ORegisterDecoder (LStr (lit "int")) (DClass (CUserDec int_class)) None) w in
  let w2 := run (ORegisterDecoder (LStr (lit "int")) (DClass (CUserDec text_class)) None) w in
  fst w1 = ADone (Ok tt) /\ fst (get_decoder None (lit "int") (snd w1)) = Ok (DInt 8)
  /\ existsb (fun pv => hit (fst pv) (lit "int") || raising (fst pv) (lit "int")) (m_values (r_decs (fst w))) = false
  /\ decode_in (snd w2) (types ["int"]) (PBytes (word 32 ++ word 0)) false = Ok (PTuple [PBool false])
  /\ decode_in (snd w2) (types ["int"]) (PBytes (word 32 ++ word 0)) true = Ok (PTuple [PBool true]).
Proof. cbn zeta. repeat match goal with |- _ /\ _ => split; [lazy; reflexivity|] end. lazy. reflexivity. Qed.
