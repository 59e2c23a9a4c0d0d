(** C42: the hypothesis strategies of eth_abi/tools/_strategies.py.

    [draw g r]: an example drawn from the strategy [g] is [r]; an exception
    there would be one raised while drawing. *)
From Coq Require Import Strings.Byte Strings.String.
From Verif Require Import Tac Bytes Encoding Decoding Registry Codec Histories Spec ReadSpec TypeSpec Strategies StrategySpec StrategyProofs Samples.
Open Scope string_scope.
Open Scope list_scope.
Open Scope Z_scope.
Local Transparent Keccak.keccak256 Z.pow Decimals.pow10 Decimals.prec Decimals.Etop Decimals.Etiny Decimals.Emax Decimals.ndigits word be_bytes len.

(** Every example is a value (drawing does not raise) that stands for an ABI
    value of the type, is encodable, and is encoded as the ABI prescribes. *)
Theorem C42_encodable : forall w s t g r,
  supported s t -> get_abi_strategy s = Ok g -> draw g r -> used false w ->
  exists v a, r = Ok v /\ denotes t v a
    /\ (fits (PList [v]) -> is_encodable_in w (PStr s) v = Ok true
        /\ encode_in w (PList [PStr s]) (PList [v]) = Ok (spec_enc (STuple [t]) (VSeq [a]))).
Proof. exact strategy_encodes. Qed.
Print Assumptions C42_encodable.

(** It round-trips: decode returns the canonical form of the same ABI value. *)
Theorem C42_round_trip : forall w w' s t g r b strict,
  supported s t -> get_abi_strategy s = Ok g -> draw g r -> used false w -> used false w' ->
  exists v a, r = Ok v /\ denotes t v a
    /\ (encode_in w (PList [PStr s]) (PList [v]) = Ok b -> len b <= maxsize ->
        exists q, decode_in w' (PList [PStr s]) (PBytes b) strict = Ok (PTuple [q]) /\ canon t a q).
Proof. exact strategy_round_trip. Qed.
Print Assumptions C42_round_trip.

(** Every type of the ABI but the bare word "byte" has a strategy; the other
    supported names (a "bool" with a suffix) have none. *)
Theorem C42_has_strategy : forall s t, type_name false s t -> s <> lit "byte" -> exists g, get_abi_strategy s = Ok g.
Proof. exact strategy_exists. Qed.
Print Assumptions C42_has_strategy.
Theorem C42_no_strategy : forall s t, supported s t ->
  (exists g, get_abi_strategy s = Ok g) \/ (get_abi_strategy s = Err NoEntriesFound /\ ~ type_name false s t).
Proof. exact strategy_or_none. Qed.
Print Assumptions C42_no_strategy.

(** Conversely every ABI value whose byte strings are at most 4096 bytes long
    is within the strategy's range. *)
Theorem C42_covers : forall s t g a,
  supported s t -> get_abi_strategy s = Ok g -> has_type t a -> short_bytes t a -> exists v, draw g (Ok v) /\ denotes t v a.
Proof. exact strategy_covers. Qed.
Print Assumptions C42_covers.

Example C42_sample :
  let s := lit "(uint8,bytes2)[]" in
  let v := PList [PTuple [PInt 255; PBytes (raw "ab")]] in
  exists g b, supported s (SArr (STuple [SUInt 8; SBytesM 2])) /\ get_abi_strategy s = Ok g /\ draw g (Ok v)
  /\ encode_in start (PList [PStr s]) (PList [v]) = Ok b /\ len b = 128
  /\ decode_in start (PList [PStr s]) (PBytes b) true = Ok (PTuple [PTuple [PTuple [PInt 255; PBytes (raw "ab")]]]).
Proof.
  exists (StLists (StTuples [StIntegers 0 255; StBinary 2 2]) 0 None). eexists. split; [sample_type|]. split; [lazy; reflexivity|].
  split; [|split; [lazy; reflexivity|split; lazy; reflexivity]].
  apply Dr_lists; [lazy; discriminate|discriminate|]. constructor; [|constructor]. apply Dr_tuples. constructor; [constructor; lia|constructor; [|constructor]].
  constructor. split; lazy; discriminate.
Qed.
(** A drawn address carries a checksum that decode does not restore. *)
Example C42_address_sample :
  let v := str "0xCdCDCdCdcdcdcdCdcDcDCdcDcDCdCdcdCdcDCDcD" in
  draw address_strategy (Ok v) /\ is_encodable_in start (str "address") v = Ok true.
Proof. split; [exact address_draw|lazy; reflexivity]. Qed.
Example C42_bool8 : supported (lit "bool8") SBool /\ get_abi_strategy (lit "bool8") = Err NoEntriesFound.
Proof. split; [sample_type|lazy; reflexivity]. Qed.
