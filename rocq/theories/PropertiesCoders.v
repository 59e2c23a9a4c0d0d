(** Property theorems about registered coders inside compound types: C76. *)
From Coq Require Import Strings.Byte Strings.String.
From Verif Require Import Tac Bytes Encoding Decoding Registry Codec Histories Spec ReadSpec TypeSpec CustomSpec CodersSpec CodersProofs CodersCases RegistryCases Samples.
Open Scope string_scope.
Open Scope list_scope.
Open Scope Z_scope.
Local Transparent Keccak.keccak256 Z.pow Decimals.pow10 Decimals.prec Decimals.Etop Decimals.Etiny Decimals.Emax Decimals.ndigits word be_bytes len.

(** Coders for further names can be registered at any time. *)
Theorem C76_register : forall l w T er dr, with_coders l w -> names_ok ((T, (er, dr)) :: l) ->
  fst (run (ORegister (LStr T) er dr None) w) = ADone (Ok tt).
Proof. exact coders_register. Qed.
Print Assumptions C76_register.

(** Values whose types are made of registered names and supported types, with
    tuples and arrays in any way, are encoded as the head-tail scheme lays out
    what the registered encoders write. *)
Theorem C76_encode : forall l w types ss args vs ps, names_ok l -> with_coders l w -> seq_like types (map PStr ss) -> seq_like args vs ->
  puts l ss vs ps -> len (head_tail ps) < 2 ^ 256 -> encode_in w types args = Ok (head_tail ps).
Proof. exact coders_encode. Qed.
Print Assumptions C76_encode.
Theorem C76_is_encodable : forall l w s, names_ok l -> with_coders l w ->
  (made l s -> is_encodable_type_in w (PStr s) = Ok true) /\ (forall v p, put l s v p -> is_encodable_in w (PStr s) v = Ok true).
Proof. exact coders_encodable. Qed.
Print Assumptions C76_is_encodable.

(** A payload laid out in this way is decoded to what the registered decoders
    read, whatever follows it. *)
Theorem C76_decode : forall l w types ss data b ps qs post strict, names_ok l -> with_coders l w -> seq_like types (map PStr ss) ->
  gots l ss ps qs -> bytes_like data b -> b = head_tail ps ++ post -> len b <= maxsize ->
  exists qs', decode_in w types data strict = Ok (PTuple qs') /\ gots l ss ps qs'.
Proof. exact coders_decode. Qed.
Print Assumptions C76_decode.
(** If the registered decoders read all that the registered encoders write, the
    same holds of all types made of them. *)
Theorem C76_round_trip : forall l w types ss args vs ps strict, names_ok l -> with_coders l w -> faithful l -> seq_like types (map PStr ss) -> seq_like args vs ->
  puts l ss vs ps -> len (head_tail ps) <= maxsize ->
  exists out qs, encode_in w types args = Ok out /\ decode_in w types (PBytes out) strict = Ok (PTuple qs) /\ gots l ss ps qs.
Proof. exact coders_round_trip. Qed.
Print Assumptions C76_round_trip.
Example C76_sample :
  names_ok foo_bar /\ with_coders foo_bar with_foo_bar /\ faithful foo_bar /\ puts foo_bar nested_types nested_values nested_parts
  /\ decode_in with_foo_bar (PList (map PStr nested_types)) (PBytes (head_tail nested_parts)) true
     = Ok (PTuple [PTuple [PTuple [PBytes (word 7); PBytes (raw "xyz")]]; PTuple [PBytes (raw "a"); PBytes []]; PTuple [PTuple [PBytes (word 1); PBytes (word 2)]]; PInt 5]).
Proof.
  split; [exact foo_bar_names|]. split; [exact with_foo_bar_ok|]. split; [exact foo_bar_faithful|]. split; [exact nested_put|]. lazy. reflexivity.
Qed.
(** Coders that disagree on being dynamic cannot be used. *)
Theorem C76_disagree_refuted :
  ~ (forall T x y val enc f w v b q, fresh_name T -> with_coders [(T, (EInst (ECustom x val enc), DInst (DCustom y (SConst true) f)))] w ->
     val v = Ok tt -> enc v = Ok b -> room x b -> room y b -> reads (DCustom y (SConst true) f) y b q ->
     exists out r, encode_in w (PList [PStr T]) (PList [v]) = Ok out /\ decode_in w (PList [PStr T]) (PBytes out) true = Ok r).
Proof. exact disagree_refuted. Qed.
Print Assumptions C76_disagree_refuted.
