(** Property theorems about decode: C09-C19, C36, C37, C45, C46.

    [used false w]: any state of the default registry after arbitrary lookups,
    encodes and decodes.  Payloads are at most sys.maxsize bytes. *)
From Coq Require Import Strings.Byte Strings.String.
From Verif Require Import Tac Bytes Encoding Decoding Registry Codec Histories Spec ReadSpec TypeSpec
  EncodeApi DecodeApi ReadProofs DecodeCases Samples.
Open Scope string_scope.
Open Scope list_scope.
Open Scope Z_scope.
(* for evaluating the samples *)
Local Transparent Keccak.keccak256 Z.pow Decimals.pow10 Decimals.prec Decimals.Etop Decimals.Etiny Decimals.Emax Decimals.ndigits word be_bytes len.

(** * C46: decode accepts exactly the payloads that hold a value *)

(** [payload_holds b strict ts vs] (ReadSpec.v) is a declarative account of what
    bytes hold which values, offsets included. *)
Theorem C46_decode_sound : forall w types ts data b strict q,
  used false w -> type_args types ts -> bytes_like data b -> len b <= maxsize ->
  decode_in w types data strict = Ok q -> exists vs, payload_holds b strict ts vs /\ canon (STuple ts) (VSeq vs) q.
Proof. exact decode_holds. Qed.
Print Assumptions C46_decode_sound.
Theorem C46_decode_complete : forall w types ts data b strict vs,
  used false w -> type_args types ts -> bytes_like data b -> len b <= maxsize ->
  payload_holds b strict ts vs -> exists q, decode_in w types data strict = Ok q /\ canon (STuple ts) (VSeq vs) q.
Proof. exact holds_decode. Qed.
Print Assumptions C46_decode_complete.
Theorem C46_held_value_unique : forall b strict ts vs vs', len b <= maxsize -> Forall wf ts ->
  payload_holds b strict ts vs -> payload_holds b strict ts vs' -> vs = vs'.
Proof. exact holds_unique. Qed.
Print Assumptions C46_held_value_unique.
(** A payload that is not canonical: both offsets point to the same tail, and
    four bytes follow. *)
Example C46_sample :
  payload_holds (word 64 ++ word 64 ++ word 2 ++ raw "ab" ++ repeat x00 30 ++ raw "rest") true [SBytes; SString] [VBytes (raw "ab"); VStr (lit "ab")]
  /\ decode_in start (types ["bytes"; "string"]) (PBytes (word 64 ++ word 64 ++ word 2 ++ raw "ab" ++ repeat x00 30 ++ raw "rest")) true
     = Ok (PTuple [PBytes (raw "ab"); str "ab"]).
Proof.
  split; [|lazy; reflexivity].
  assert (F : found (word 64 ++ word 64 ++ word 2 ++ raw "ab" ++ repeat x00 30 ++ raw "rest") 64 (word 2 ++ pad_right (raw "ab"))).
  { exists (word 64 ++ word 64), (raw "rest"). split; reflexivity. }
  apply HA_dynamic with (z := 64); [reflexivity| |discriminate|reflexivity| |].
  - exists [], (word 64 ++ word 2 ++ raw "ab" ++ repeat x00 30 ++ raw "rest"). split; reflexivity.
  - apply H_bytes, HB_strict. exact F.
  - apply HA_dynamic with (z := 64); [reflexivity| |discriminate|reflexivity| |apply HA_nil].
    + exists (word 64), (word 2 ++ raw "ab" ++ repeat x00 30 ++ raw "rest"). split; reflexivity.
    + apply H_string; [repeat (constructor; [left; reflexivity|]); constructor|]. apply HB_strict. exact F.
Qed.

(** * C09: decoded values are canonical and re-encodable *)

Theorem C09_decode_canonical : forall w w' types ts data b strict q,
  used false w -> used false w' -> type_args types ts -> bytes_like data b -> len b <= maxsize ->
  decode_in w types data strict = Ok q ->
  exists a, has_type (STuple ts) a /\ canon (STuple ts) a q /\
    (len (spec_enc (STuple ts) a) <= maxsize ->
     encode_in w' types q = Ok (spec_enc (STuple ts) a)
     /\ forall w'' strict' data', used false w'' -> bytes_like data' (spec_enc (STuple ts) a) -> decode_in w'' types data' strict' = Ok q).
Proof. exact decode_canonical. Qed.
Print Assumptions C09_decode_canonical.
Theorem C09_decode_reencodable : forall w w' types ts data b strict q,
  used false w -> used false w' -> type_args types ts -> bytes_like data b -> len b <= maxsize ->
  decode_in w types data strict = Ok q -> fits q -> exists b', encode_in w' types q = Ok b'.
Proof. exact decode_reencodable. Qed.
Print Assumptions C09_decode_reencodable.
(** Not the canonical bytes (offset 64, unclean padding, strict off), but the
    value is canonical and encodes canonically. *)
Example C09_sample :
  decode_in start (types ["bytes"]) (PBytes (word 64 ++ word 0 ++ word 2 ++ raw "abc")) false = Ok (PTuple [PBytes (raw "ab")])
  /\ encode_in start (types ["bytes"]) (PTuple [PBytes (raw "ab")]) = Ok (word 32 ++ word 2 ++ raw "ab" ++ repeat x00 30).
Proof. split; lazy; reflexivity. Qed.

(** * C10: static types decode canonically *)

Theorem C10_decode_static : forall w types ts data b strict q,
  used false w -> type_args types ts -> bytes_like data b -> len b <= maxsize -> existsb sdyn ts = false ->
  decode_in w types data strict = Ok q ->
  exists a post, has_type (STuple ts) a /\ canon (STuple ts) a q /\ b = spec_enc (STuple ts) a ++ post
    /\ forall w', used false w' -> encode_in w' types q = Ok (spec_enc (STuple ts) a).
Proof. exact decode_static. Qed.
Print Assumptions C10_decode_static.
Theorem C10_nonmalleable : forall w w' types ts data data' b b' strict strict' q,
  used false w -> used false w' -> type_args types ts -> bytes_like data b -> bytes_like data' b' -> existsb sdyn ts = false ->
  len b = static_size (STuple ts) -> len b' = static_size (STuple ts) -> static_size (STuple ts) <= maxsize ->
  decode_in w types data strict = Ok q -> decode_in w' types data' strict' = Ok q -> b = b'.
Proof. exact decode_static_nonmalleable. Qed.
Print Assumptions C10_nonmalleable.
Example C10_sample : type_args (types ["(int8,bytes2)[2]"]) [SSized 2 (STuple [SInt 8; SBytesM 2])]
  /\ static_size (STuple [SSized 2 (STuple [SInt 8; SBytesM 2])]) = 128
  /\ decode_in start (types ["(int8,bytes2)[2]"]) (PBytes (word (-1) ++ raw "ab" ++ repeat x00 30 ++ word 5 ++ raw "cd" ++ repeat x00 30)) true
     = Ok (PTuple [PTuple [PTuple [PInt (-1); PBytes (raw "ab")]; PTuple [PInt 5; PBytes (raw "cd")]]]).
Proof. split; [sample_types|]. split; lazy; reflexivity. Qed.

(** * C11: errors of decode *)

Theorem C11_decode_errors : forall w types ts data b strict e,
  used false w -> type_args types ts -> bytes_like data b -> len b <= maxsize -> decode_in w types data strict = Err e ->
  e = InsufficientDataBytes \/ e = NonEmptyPaddingBytes \/ e = InvalidPointer /\ existsb sdyn ts = true
  \/ e = OverflowError /\ existsb has_bytes ts = true /\ (exists p n, found b p (word n) /\ 2 ^ 63 - 32 <= n < 2 ^ 256)
  \/ e = UnicodeDecodeError /\ existsb has_string ts = true /\ (exists p s, found b p s /\ forall u, Forall scalar u -> utf8 u <> s).
Proof. exact decode_errors. Qed.
Print Assumptions C11_decode_errors.
Example C11_sample : decode_in start (types ["uint8"; "string[]"]) (PBytes (word 1 ++ word 64)) true = Err InvalidPointer
  /\ decode_in start (types ["uint8"; "string[]"]) (PBytes (word 256 ++ word 64)) true = Err NonEmptyPaddingBytes
  /\ decode_in start (types ["uint8"; "string[]"]) (PBytes (word 1)) true = Err InsufficientDataBytes.
Proof. repeat split; lazy; reflexivity. Qed.
(** A length word of 2^63 escapes as OverflowError. *)
Theorem C11_overflow_refuted : exists w types b,
  used false w /\ type_args types [SBytes] /\ decode_in w types (PBytes b) true = Err OverflowError.
Proof. exact overflow_error. Qed.
Print Assumptions C11_overflow_refuted.

(** * C12: trailing data *)

Theorem C12_strict_trailing : forall w w' types data data' b ext q,
  used false w -> used false w' -> bytes_like data b -> bytes_like data' (b ++ ext) -> len (b ++ ext) <= maxsize ->
  decode_in w types data true = Ok q -> decode_in w' types data' true = Ok q.
Proof. exact decode_trailing. Qed.
Print Assumptions C12_strict_trailing.
Example C12_sample : decode_in start (types ["bytes"]) (PBytes (word 32 ++ word 2 ++ raw "ab" ++ repeat x00 30)) true = Ok (PTuple [PBytes (raw "ab")])
  /\ decode_in start (types ["bytes"]) (PBytes ((word 32 ++ word 2 ++ raw "ab" ++ repeat x00 30) ++ raw "more")) true = Ok (PTuple [PBytes (raw "ab")]).
Proof. split; lazy; reflexivity. Qed.
(** Not so without strict. *)
Theorem C12_lenient_trailing_refuted : exists w types b ext q q', used false w
  /\ decode_in w types (PBytes b) false = Ok q /\ decode_in w types (PBytes (b ++ ext)) false = Ok q' /\ q <> q'.
Proof. exact trailing_lenient. Qed.
Print Assumptions C12_lenient_trailing_refuted.

(** * C13: strict=False accepts more *)

Theorem C13_lenient_extends : forall w w' types data b q,
  used false w -> used false w' -> bytes_like data b -> len b <= maxsize ->
  decode_in w types data true = Ok q -> decode_in w' types data false = Ok q.
Proof. exact decode_lenient. Qed.
Print Assumptions C13_lenient_extends.
Example C13_sample : let b := word 32 ++ word 2 ++ raw "abc" in
  decode_in start (types ["bytes"]) (PBytes b) true = Err InsufficientDataBytes
  /\ decode_in start (types ["bytes"]) (PBytes b) false = Ok (PTuple [PBytes (raw "ab")])
  /\ decode_in start (types ["bytes"]) (PBytes (b ++ repeat x00 29)) true = Err NonEmptyPaddingBytes.
Proof. repeat split; lazy; reflexivity. Qed.

(** * C14: the reach of strict=False *)

(** The flag makes no difference unless a member of the type list itself is
    bytes or string. *)
Theorem C14_flag_top_level_only : forall w w' types ts data b,
  used false w -> used false w' -> type_args types ts -> bytes_like data b -> len b <= maxsize ->
  Forall (fun t => flat_bytes t = false) ts -> decode_in w types data false = decode_in w' types data true.
Proof. exact decode_flag. Qed.
Print Assumptions C14_flag_top_level_only.
Example C14_flag_sample : type_args (types ["bytes[]"; "(string,bool)"]) [SArr SBytes; STuple [SString; SBool]]
  /\ Forall (fun t => flat_bytes t = false) [SArr SBytes; STuple [SString; SBool]].
Proof. split; [sample_types|]. repeat constructor. Qed.
(** For a member bytes, whatever follows the length word is accepted. *)
Theorem C14_lenient_bytes_partial : forall w s data n rest,
  used false w -> supported s SBytes -> bytes_like data (word 32 ++ word n ++ rest) ->
  len (word 32 ++ word n ++ rest) <= maxsize -> 0 <= n <= 2 ^ 63 - 32 ->
  decode_in w (PList [PStr s]) data false = Ok (PTuple [PBytes (firstn (Z.to_nat (Z.min n (len rest))) rest)]).
Proof. exact decode_lenient_bytes. Qed.
Print Assumptions C14_lenient_bytes_partial.
Example C14_lenient_sample : decode_in start (types ["bytes"]) (PBytes (word 32 ++ word 2 ++ raw "ab" ++ repeat xff 30)) false = Ok (PTuple [PBytes (raw "ab")]).
Proof. lazy. reflexivity. Qed.
(** The padding of an item of bytes[] is checked even with strict=False. *)
Theorem C14_nested_padding_refuted : exists w types pre pad pad' post q, used false w /\ len pad = len pad'
  /\ decode_in w types (PBytes (pre ++ pad ++ post)) false = Ok q
  /\ decode_in w types (PBytes (pre ++ pad' ++ post)) false = Err NonEmptyPaddingBytes
  /\ pre ++ pad ++ post = spec_enc (STuple [SArr SBytes]) (VSeq [VSeq [VBytes (raw "ab")]]) /\ type_args types [SArr SBytes].
Proof. exact nested_padding. Qed.
Print Assumptions C14_nested_padding_refuted.

(** * C15: pointers land inside the payload *)

Theorem C15_pointers : forall w types ts data b strict q pre t post,
  used false w -> type_args types ts -> bytes_like data b -> len b <= maxsize ->
  decode_in w types data strict = Ok q -> ts = pre ++ t :: post -> sdyn t = true ->
  exists z, found b (heads_of pre) (word z) /\ 32 * counted_all ts <= z < len b.
Proof. exact decode_pointers. Qed.
Print Assumptions C15_pointers.
(** A bad offset (the head before it being readable) raises InvalidPointer. *)
Theorem C15_bad_pointer : forall w types ts data b strict pre t post z,
  used false w -> type_args types ts -> bytes_like data b -> len b <= maxsize ->
  ts = pre ++ t :: post -> sdyn t = true ->
  (forall pre1 u pre2, pre = pre1 ++ u :: pre2 -> slot_ok b (32 * counted_all ts) u (heads_of pre1)) ->
  found b (heads_of pre) (word z) -> 0 <= z < 2 ^ 256 -> ~ 32 * counted_all ts <= z < len b ->
  decode_in w types data strict = Err InvalidPointer.
Proof. exact decode_bad_pointer. Qed.
Print Assumptions C15_bad_pointer.
Example C15_sample :
  decode_in start (types ["uint8"; "bytes"]) (PBytes (word 1 ++ word 32 ++ word 0)) true = Err InvalidPointer
  /\ decode_in start (types ["uint8"; "bytes"]) (PBytes (word 1 ++ word 96 ++ word 0)) true = Err InvalidPointer
  /\ decode_in start (types ["uint8"; "bytes"]) (PBytes (word 1 ++ word 64 ++ word 0)) true = Ok (PTuple [PInt 1; PBytes []])
  /\ slot_ok (word 1 ++ word 32 ++ word 0) 64 (SUInt 8) 0 /\ found (word 1 ++ word 32 ++ word 0) 32 (word 32).
Proof.
  split; [lazy; reflexivity|]. split; [lazy; reflexivity|]. split; [lazy; reflexivity|]. split.
  - exists (VInt 1). split; [constructor; in_range|]. exists [], (word 32 ++ word 0). split; reflexivity.
  - exists (word 1), (word 0). split; reflexivity.
Qed.

(** * C16: pointers and the head section *)

(** [heads_of ts] bytes is the true size of the head section.  The decoder
    counts it right exactly for plain members. *)
Theorem C16_head_count : forall ts, Forall wf ts ->
  32 * counted_all ts <= heads_of ts /\ (32 * counted_all ts = heads_of ts <-> Forall (fun t => plain t = true) ts).
Proof. exact counted_all_plain. Qed.
Print Assumptions C16_head_count.
Theorem C16_pointers_partial : forall w types ts data b strict q pre t post,
  used false w -> type_args types ts -> bytes_like data b -> len b <= maxsize ->
  decode_in w types data strict = Ok q -> ts = pre ++ t :: post -> sdyn t = true -> Forall (fun t => plain t = true) ts ->
  exists z, found b (heads_of pre) (word z) /\ heads_of ts <= z < len b.
Proof. exact decode_pointers_plain. Qed.
Print Assumptions C16_pointers_partial.
Example C16_sample : Forall (fun t => plain t = true) [SSized 3 (SUInt 8); SBytes]
  /\ heads_of [SSized 3 (SUInt 8); SBytes] = 128
  /\ decode_in start (types ["uint8[3]"; "bytes"]) (PBytes (word 1 ++ word 2 ++ word 3 ++ word 96 ++ word 0)) true = Err InvalidPointer
  /\ decode_in start (types ["uint8[3]"; "bytes"]) (PBytes (word 1 ++ word 2 ++ word 3 ++ word 128 ++ word 0)) true
     = Ok (PTuple [PTuple [PInt 1; PInt 2; PInt 3]; PBytes []]).
Proof. split; [repeat constructor|]. repeat split; lazy; reflexivity. Qed.
(** With a static tuple before it, an offset may point into the head. *)
Theorem C16_pointer_into_head_refuted : exists w types ts b q pre t post z,
  used false w /\ type_args types ts /\ len b <= maxsize
  /\ decode_in w types (PBytes b) true = Ok q /\ ts = pre ++ t :: post /\ sdyn t = true
  /\ found b (heads_of pre) (word z) /\ z < heads_of ts.
Proof. exact pointer_into_head. Qed.
Print Assumptions C16_pointer_into_head_refuted.

(** * C17: frame discipline *)

(** For any decoder of the default registry, on any buffer and any stream
    state. *)
Theorem C17_frames : forall w k s d h buf st v st',
  used false w -> fst (get_decoder k s w) = Ok d -> decode_with h d buf st = Ok (v, st') ->
  frames st' = frames st /\ total st' = total st
  /\ exists t, supported s t /\ (sdyn t = false -> pos st' = pos st + static_size t).
Proof. exact decoder_frames. Qed.
Print Assumptions C17_frames.
(** As a dynamic member, behind an offset. *)
Theorem C17_head_tail_frames : forall w k s d h buf st v st',
  used false w -> fst (get_decoder k s w) = Ok d -> decode_with h (DHeadTail d) buf st = Ok (v, st') ->
  frames st' = frames st /\ total st' = total st /\ pos st' = pos st + 32.
Proof. exact head_tail_frames. Qed.
Print Assumptions C17_head_tail_frames.
Theorem C17_pop_restores : forall offset st st1 st2 st3, push_frame offset st = Ok st1 ->
  frames st2 = frames st1 /\ total st2 = total st1 -> pop_frame st2 = Ok st3 ->
  frames st3 = frames st /\ total st3 = total st /\ pos st3 = pos st.
Proof. exact frame_restored. Qed.
Print Assumptions C17_pop_restores.
Theorem C17_pop_empty : forall st, frames st = [] -> pop_frame st = Err IndexError.
Proof. intros st E. unfold pop_frame. rewrite E. reflexivity. Qed.
Print Assumptions C17_pop_empty.
Example C17_sample : exists d v,
  fst (get_decoder None (lit "uint8[][2]") start) = Ok d
  /\ decode_with [] (DHeadTail d) (word 7 ++ word 32 ++ word 64 ++ word 128 ++ word 1 ++ word 9 ++ word 0) (mkStream 32 [(32, 0)] 32)
     = Ok (v, mkStream 64 [(32, 0)] 32) /\ v = PTuple [PTuple [PInt 9]; PTuple []].
Proof. eexists. eexists. split; [lazy; reflexivity|]. split; lazy; reflexivity. Qed.
Example C17_push_sample : push_frame 64 (mkStream 40 [(8, 0)] 8) = Ok (mkStream 72 [(64, 40); (8, 0)] 72)
  /\ pop_frame (mkStream 100 [(64, 40); (8, 0)] 72) = Ok (mkStream 40 [(8, 0)] 8).
Proof. split; lazy; reflexivity. Qed.

(** * C18: lengths of decoded arrays *)

Theorem C18_bounded : forall w types ts data b strict q,
  used false w -> type_args types ts -> bytes_like data b -> len b <= maxsize ->
  decode_in w types data strict = Ok q -> bounded (len b / 32) q.
Proof. exact decode_bounded. Qed.
Print Assumptions C18_bounded.
Example C18_sample : decode_in start (types ["bool[]"]) (PBytes (word 32 ++ word 2 ++ word 0 ++ word 1)) true = Ok (PTuple [PTuple [PBool false; PBool true]])
  /\ decode_in start (types ["bool[]"]) (PBytes (word 32 ++ word (2 ^ 255) ++ word 0 ++ word 1)) true = Err InsufficientDataBytes.
Proof. split; lazy; reflexivity. Qed.

(** * C19: decoded size against payload size *)

(** No constant factor up to 10^9 bounds the number of decoded items by the
    number of payload bytes. *)
Theorem C19_size_refuted : forall K, 0 <= K <= 10 ^ 9 -> exists w types b q,
  used false w /\ len b <= maxsize /\ decode_in w types (PBytes b) true = Ok q /\ K * len b < value_items q.
Proof. exact decode_expands. Qed.
Print Assumptions C19_size_refuted.
(** Quadratic growth: 96 + 64 n bytes decode to n * n integers. *)
Theorem C19_shared_tails : forall w s n strict, used false w -> supported s (SArr (SArr (SUInt 256))) -> 96 + 64 * Z.of_nat n <= maxsize ->
  decode_in w (PList [PStr s]) (PBytes (shared_tails n)) strict = Ok (PTuple [PTuple (repeat (PTuple (repeat (PInt 0) n)) n)]).
Proof. exact decode_shared. Qed.
Print Assumptions C19_shared_tails.
Example C19_sample : supported (lit "uint256[][]") (SArr (SArr (SUInt 256))) /\ len (shared_tails 3) = 288
  /\ decode_in start (types ["uint256[][]"]) (PBytes (shared_tails 3)) true
     = Ok (PTuple [PTuple [PTuple [PInt 0; PInt 0; PInt 0]; PTuple [PInt 0; PInt 0; PInt 0]; PTuple [PInt 0; PInt 0; PInt 0]]]).
Proof. split; [sample_type|]. split; lazy; reflexivity. Qed.

(** * C36: decoding addresses *)

Theorem C36_decode_address : forall w s data b pad addr post strict,
  used false w -> supported s SAddr -> bytes_like data b -> len b <= maxsize ->
  b = pad ++ addr ++ post -> len pad = 12 -> len addr = 20 ->
  (pad = repeat x00 12 -> decode_in w (PList [PStr s]) data strict = Ok (PTuple [PStr (lit "0x" ++ hex_lower addr)]))
  /\ (pad <> repeat x00 12 -> decode_in w (PList [PStr s]) data strict = Err NonEmptyPaddingBytes).
Proof. exact decode_address. Qed.
Print Assumptions C36_decode_address.
Example C36_decode_sample : decode_in start (types ["address"]) (PBytes (repeat x00 12 ++ repeat xab 19 ++ [x0c])) true
  = Ok (PTuple [str "0xababababababababababababababababababab0c"]).
Proof. lazy. reflexivity. Qed.

(** * C37: string contents *)

Theorem C37_encode_string : forall w s v, used false w -> supported s SString -> fits (PList [v]) ->
  (exists txt, v = PStr txt /\ Forall scalar txt
     /\ encode_in w (PList [PStr s]) (PList [v]) = Ok (word 32 ++ word (len (utf8 txt)) ++ pad_right (utf8 txt)))
  \/ (exists txt, v = PStr txt /\ ~ Forall scalar txt /\ encode_in w (PList [PStr s]) (PList [v]) = Err UnicodeEncodeError)
  \/ ((forall txt, v <> PStr txt) /\ encode_in w (PList [PStr s]) (PList [v]) = Err EncodingTypeError).
Proof. exact encode_string. Qed.
Print Assumptions C37_encode_string.
Theorem C37_decode_string : forall w s data c post strict,
  used false w -> supported s SString -> bytes_like data (word 32 ++ word (len c) ++ pad_right c ++ post) ->
  len (word 32 ++ word (len c) ++ pad_right c ++ post) <= maxsize ->
  (forall u, Forall scalar u -> c = utf8 u -> decode_in w (PList [PStr s]) data strict = Ok (PTuple [PStr u]))
  /\ ((forall u, Forall scalar u -> c <> utf8 u) -> decode_in w (PList [PStr s]) data strict = Err UnicodeDecodeError).
Proof. exact decode_string. Qed.
Print Assumptions C37_decode_string.
(** U+20AC and U+1F600; an overlong "/" (c0 af) is rejected. *)
Example C37_sample :
  encode_in start (types ["string"]) (PList [PStr [0x20AC; 0x1F600]%N])
  = Ok (word 32 ++ word 7 ++ [xe2; x82; xac; xf0; x9f; x98; x80] ++ repeat x00 25)
  /\ decode_in start (types ["string"]) (PBytes (word 32 ++ word 7 ++ [xe2; x82; xac; xf0; x9f; x98; x80] ++ repeat x00 25)) true
     = Ok (PTuple [PStr [0x20AC; 0x1F600]%N])
  /\ decode_in start (types ["string"]) (PBytes (word 32 ++ word 2 ++ [xc0; xaf] ++ repeat x00 30)) true = Err UnicodeDecodeError.
Proof. repeat split; lazy; reflexivity. Qed.

(** * C45: booleans *)

Theorem C45_decode_bool : forall w s data b strict, used false w -> supported s SBool -> bytes_like data b -> len b <= maxsize ->
  (len b < 32 -> decode_in w (PList [PStr s]) data strict = Err InsufficientDataBytes)
  /\ (firstn 32 b = word 0 -> decode_in w (PList [PStr s]) data strict = Ok (PTuple [PBool false]))
  /\ (firstn 32 b = word 1 -> decode_in w (PList [PStr s]) data strict = Ok (PTuple [PBool true]))
  /\ (32 <= len b -> firstn 32 b <> word 0 -> firstn 32 b <> word 1 -> decode_in w (PList [PStr s]) data strict = Err NonEmptyPaddingBytes).
Proof. exact decode_bool_cases. Qed.
Print Assumptions C45_decode_bool.
Example C45_sample : supported (lit "bool") SBool
  /\ decode_in start (types ["bool"]) (PBytes (word 1)) true = Ok (PTuple [PBool true])
  /\ decode_in start (types ["bool"]) (PBytes (word 2)) true = Err NonEmptyPaddingBytes
  /\ decode_in start (types ["bool"]) (PBytes (word 257)) true = Err NonEmptyPaddingBytes.
Proof. split; [sample_type|]. repeat split; lazy; reflexivity. Qed.
