(** Coders supplied by the caller: what becomes of the exceptions they raise. *)
From Verif Require Import Py Bytes Encoding Decoding Registry Codec Histories RegistrySpec RegistryLaws ExceptionSpec RaisingSpec Spec.
Open Scope Z_scope.

(** [w]: any registry on which the encoder (decoder) was registered, with a
    matcher that is the only one to match [T], and that was then only asked. *)
Definition with_encoder (T : pystr) (e : encoder) (w : world) : Prop :=
  exists w0 w1 l p label qs, reachable w0 /\ matcher l = Some p /\ run (ORegisterEncoder l (EInst e) label) w0 = (ADone (Ok tt), w1)
    /\ none_raises (r_encs (fst w0)) T /\ pred_call p T = Done true /\ ~ matches (r_encs (fst w0)) T /\ Forall query qs /\ w = after qs w1.
Definition with_decoder (T : pystr) (d : decoder) (w : world) : Prop :=
  exists w0 w1 l p label qs, reachable w0 /\ matcher l = Some p /\ run (ORegisterDecoder l (DInst d) label) w0 = (ADone (Ok tt), w1)
    /\ none_raises (r_decs (fst w0)) T /\ pred_call p T = Done true /\ ~ matches (r_decs (fst w0)) T /\ Forall query qs /\ w = after qs w1.

(** What is_encodable makes of the end of a call. *)
Inductive weighed {A} : result A -> result bool -> Prop :=
| W_accepted a : weighed (Ok a) (Ok true)
| W_refused x : isinstance x EncodingErrorBase -> weighed (Err x) (Ok false)
| W_raised x : ~ isinstance x EncodingErrorBase -> weighed (Err x) (Err x).

(** validate_value of an object, where an AttributeError stands for an object
    without the method: then the object is called. *)
Inductive checked (val : result unit) (enc : result bytes) : result unit -> Prop :=
| K_checked : val <> Err AttributeError -> checked val enc val
| K_called b : val = Err AttributeError -> enc = Ok b -> checked val enc (Ok tt)
| K_call_raised x : val = Err AttributeError -> enc = Err x -> checked val enc (Err x).

(** One argument of an encoder with [is_dynamic = dyn]. *)
Definition alone_chunk (dyn : bool) (b : bytes) : bytes := if dyn then word 32 ++ b else b.
