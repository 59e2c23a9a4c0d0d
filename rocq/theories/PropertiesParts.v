(** Parts used on their own: from_type_str of the coder classes (C63), the
    framed stream and HeadTailDecoder (C64), abbr (C65). *)
From Coq Require Import Strings.Byte Strings.String Lia.
From Verif Require Import Tac Py Bytes BytesProofs Utf8 Grammar GrammarSpec GrammarProofs NormalizeProofs Encoding Decoding Registry Spec TypeSpec TypeProofs TypeCases FromTypeSpec FromTypeProofs
  Stream StreamSpec StreamProofs HeadTailProofs Abbr AbbrProofs Samples.
Open Scope string_scope. Open Scope list_scope. Open Scope Z_scope.
Local Transparent Z.pow word be_bytes len.

(** * C63: from_type_str *)

(** A leaf class builds a coder exactly for the names of its types; [built_enc]
    and [built_dec] (FromTypeSpec.v) say which coder. *)
Theorem C63_encoder : forall c b s e, enc_base c = Some b ->
  (enc_leaf_from_type_str c s = Some (Ok e) <-> exists t, type_name true s t /\ built_enc c t = Some e).
Proof. exact encoder_built. Qed.
Print Assumptions C63_encoder.
Theorem C63_decoder : forall c b s d, dec_base c = Some b ->
  (dec_leaf_from_type_str c s = Some (Ok d) <-> exists t, type_name true s t /\ built_dec c t = Some d).
Proof. exact decoder_built. Qed.
Print Assumptions C63_decoder.
(** Otherwise the exception says what is wrong: the syntax, the base name or
    dimensions, the size, or a missing size. *)
Theorem C63_encoder_error : forall c b s x, enc_base c = Some b ->
  (enc_leaf_from_type_str c s = Some (Err x) <-> leaf_error b (fun t => built_enc c t <> None) s x).
Proof. exact encoder_error. Qed.
Print Assumptions C63_encoder_error.
Theorem C63_decoder_error : forall c b s x, dec_base c = Some b ->
  (dec_leaf_from_type_str c s = Some (Err x) <-> leaf_error b (fun t => built_dec c t <> None) s x).
Proof. exact decoder_error. Qed.
Print Assumptions C63_decoder_error.
(** The missing size: a TypeError from the arithmetic on None. *)
Theorem C63_encoder_type_error : forall c b s, enc_base c = Some b ->
  (enc_leaf_from_type_str c s = Some (Err TypeError) <-> (c = CBytesM \/ c = CPackedBytesM) /\ s = lit "bytes").
Proof. exact encoder_type_error. Qed.
Print Assumptions C63_encoder_type_error.
Theorem C63_decoder_type_error : forall c b s, dec_base c = Some b ->
  (dec_leaf_from_type_str c s = Some (Err TypeError) <-> c = CDBytesM /\ s = lit "bytes").
Proof. exact decoder_type_error. Qed.
Print Assumptions C63_decoder_type_error.
Example C63_leaf_sample :
  enc_leaf_from_type_str CPackedUInt (lit "uint24") = Some (Ok (EUInt 24 3)) /\ enc_leaf_from_type_str CBytesM (lit "byte") = Some (Ok (EBytesM 8 32))
  /\ dec_leaf_from_type_str CDFixed (lit "fixed") = Some (Ok (DFixed 128 18))
  /\ enc_leaf_from_type_str CUInt (lit "int8") = Some (Err ValueError) /\ enc_leaf_from_type_str CUInt (lit "uint8[]") = Some (Err ValueError)
  /\ enc_leaf_from_type_str CUInt (lit "uint9") = Some (Err ABITypeError) /\ enc_leaf_from_type_str CUInt (lit "uint8]") = Some (Err ParseError)
  /\ dec_leaf_from_type_str CDBytesM (lit "bytes") = Some (Err TypeError).
Proof. repeat split; lazy; reflexivity. Qed.
(** The classes of "bytes" do not check that there is no size. *)
Theorem C63_sized_bytes_refuted : ~ (forall s e, enc_leaf_from_type_str CByteString s = Some (Ok e) -> s = lit "bytes").
Proof. intro H. specialize (H (lit "bytes32") (EByteString false) eq_refl). discriminate H. Qed.
Print Assumptions C63_sized_bytes_refuted.

(** The tuple classes ask the registry for the normalized component names, in
    order, up to the first exception; array dimensions after the tuple are
    ignored. *)
Theorem C63_tuple_encoder : forall (St : Type) (ge : pystr -> St -> result encoder * St) ss str ts sa ds ns st r st1,
  listed ss str -> Forall2 (type_name true) ss ts -> g_arr sa ds -> Forall2 normalized ss ns -> asks ge ns st r st1 ->
  enc_from_type_str ge CTuple (lit "(" ++ str ++ lit ")" ++ sa) st = (match r with Ok es => Ok (ETuple es) | Err x => Err x end, st1).
Proof. exact (fun St => tuple_encoder). Qed.
Print Assumptions C63_tuple_encoder.
Theorem C63_tuple_decoder : forall (St : Type) (gd : pystr -> St -> result decoder * St) ss str ts sa ds ns st r st1,
  listed ss str -> Forall2 (type_name true) ss ts -> g_arr sa ds -> Forall2 normalized ss ns -> asks gd ns st r st1 ->
  dec_from_type_str gd CDTuple (lit "(" ++ str ++ lit ")" ++ sa) st =
    (match r with Ok es => Ok (DTuple (map (fun d => wrapped d (dec_is_dyn d)) es)) | Err x => Err x end, st1).
Proof. exact (fun St => tuple_decoder). Qed.
Print Assumptions C63_tuple_decoder.
Theorem C63_tuple_dimensions_refuted :
  ~ (forall (ge : pystr -> unit -> result encoder * unit) s e, enc_from_type_str ge CTuple s tt = (Ok e, tt) -> exists str, s = lit "(" ++ str ++ lit ")").
Proof.
  intro H. destruct (H (fun _ u => (Ok (EUInt 8 32), u)) (lit "(uint8)[2]") (ETuple [EUInt 8 32])) as [str E]; [lazy; reflexivity|].
  change (lit ")") with [41%N] in E. apply (f_equal (fun s => last s 0%N)) in E. rewrite app_assoc, last_last in E. discriminate E.
Qed.
Print Assumptions C63_tuple_dimensions_refuted.
(** The array classes ask for the normalized item name; the last dimension
    makes the array. *)
Theorem C63_array_encoder : forall (St : Type) (ge : pystr -> St -> result encoder * St) (packed : bool) s t sfx d n st r st1,
  type_name true s t -> g_arr sfx [d] -> normalized s n -> ge n st = (r, st1) ->
  enc_from_type_str ge (if packed then CPackedArray else CBaseArray) (s ++ sfx) st = (e <- r ;; array_enc packed d e, st1).
Proof. exact (fun St => array_encoder). Qed.
Print Assumptions C63_array_encoder.
Theorem C63_array_decoder : forall (St : Type) (gd : pystr -> St -> result decoder * St) s t sfx d n st r st1,
  type_name true s t -> g_arr sfx [d] -> normalized s n -> gd n st = (r, st1) ->
  dec_from_type_str gd CDBaseArray (s ++ sfx) st = (i <- r ;; array_dec d i, st1).
Proof. exact (fun St => array_decoder). Qed.
Print Assumptions C63_array_decoder.
(** The wrong shape is a ValueError, before the registry is asked. *)
Theorem C63_wrong_shape : forall (St : Type) (ge : pystr -> St -> result encoder * St) (gd : pystr -> St -> result decoder * St) s T st, g_type s T ->
  ((exists b sub arr, T = Basic b sub arr) ->
    enc_from_type_str ge CTuple s st = (Err ValueError, st) /\ dec_from_type_str gd CDTuple s st = (Err ValueError, st))
  /\ (arrlist_of T = [] ->
    enc_from_type_str ge CBaseArray s st = (Err ValueError, st) /\ enc_from_type_str ge CPackedArray s st = (Err ValueError, st)
    /\ dec_from_type_str gd CDBaseArray s st = (Err ValueError, st)).
Proof. exact (fun St => wrong_shape). Qed.
Print Assumptions C63_wrong_shape.
(** A registry that writes down what it is asked for. *)
Definition recording (n : pystr) (log : list pystr) : result encoder * list pystr := (Ok (EUInt 8 32), log ++ [n]).
Example C63_tuple_sample : exists ss ts ns r,
  listed ss (lit "uint,byte[2]") /\ Forall2 (type_name true) ss ts /\ g_arr (lit "[]") [None] /\ Forall2 normalized ss ns
  /\ asks recording ns [] r [lit "uint256"; lit "bytes1[2]"].
Proof.
  exists [lit "uint"; lit "byte[2]"], [SUInt 256; SSized 2 (SBytesM 1)], [lit "uint256"; lit "bytes1[2]"]. eexists. split; [|split; [|split; [|split]]].
  - apply (LI_more (lit "uint") [lit "byte[2]"] (lit "byte[2]")), LI_one.
  - constructor; [apply TN_uint_256|]. constructor; [|constructor]. apply (TN_sized true (lit "byte") (SBytesM 1) (lit "2") 2); [apply TN_byte|].
    apply (N_one 50%N); unfold digit; lia.
  - apply (GA_dynamic [] []). constructor.
  - constructor; [apply normalized_iff; lazy; reflexivity|]. constructor; [apply normalized_iff; lazy; reflexivity|constructor].
  - eapply AS_next; [reflexivity|]. eapply AS_next; [reflexivity|]. constructor.
Qed.

(** * C64: the framed stream *)

(** After any calls on a new stream, whether or not they raised, the total
    offset is the sum of the offsets on the stack and the cursor is valid. *)
Theorem C64_total_offset : forall buf st, made buf st -> total st = sum_offsets (frames st).
Proof. exact made_offset. Qed.
Print Assumptions C64_total_offset.
Theorem C64_cursor : forall buf st, len buf <= maxsize -> made buf st -> 0 <= pos st <= maxsize.
Proof. exact made_cursor. Qed.
Print Assumptions C64_cursor.
(** push_frame goes to the new total offset, *)
Theorem C64_push : forall buf o st, 0 <= total st + o <= maxsize ->
  f_push buf o st = (Ok FNone, mkStream (total st + o) ((o, pos st) :: frames st) (total st + o)).
Proof. exact push_result. Qed.
Print Assumptions C64_push.
(** or raises, with the frame left on the stack. *)
Theorem C64_push_raises : forall buf o st, total st + o < 0 \/ maxsize < total st + o -> exists x,
  f_push buf o st = (Err x, mkStream (pos st) ((o, pos st) :: frames st) (total st + o))
  /\ (x = ValueError /\ - maxsize - 1 <= total st + o \/ x = OverflowError /\ (total st + o < - maxsize - 1 \/ maxsize < total st + o)).
Proof. exact push_raises. Qed.
Print Assumptions C64_push_raises.
Theorem C64_push_atomic_refuted : ~ (forall buf o st x st', f_push buf o st = (Err x, st') -> st' = st).
Proof. intro H. specialize (H [] (-1) new_stream ValueError _ eq_refl). discriminate H. Qed.
Print Assumptions C64_push_atomic_refuted.
Theorem C64_pop_empty : forall buf st, frames st = [] -> f_pop buf st = (Err IndexError, st).
Proof. exact pop_empty. Qed.
Print Assumptions C64_pop_empty.
(** Where seek and seek_in_frame go, and what read gives. *)
Theorem C64_seek : forall buf p w st q, fst (f_seek buf p w st) = Ok (FPos q) <-> seek_to (len buf) (pos st) p w q.
Proof. exact seek_iff. Qed.
Print Assumptions C64_seek.
Theorem C64_seek_moves : forall buf p w st v st', f_seek buf p w st = (Ok v, st') -> v = FPos (pos st') /\ frames st' = frames st /\ total st' = total st.
Proof. exact seek_moves. Qed.
Print Assumptions C64_seek_moves.
Theorem C64_seek_fails : forall buf p w st x st', f_seek buf p w st = (Err x, st') <-> st' = st /\ seek_fails (len buf) (pos st) p w x.
Proof. exact seek_fails_iff. Qed.
Print Assumptions C64_seek_fails.
Theorem C64_seek_in_frame : forall buf p w st, f_seek_in buf p w st = (fst (f_seek buf (total st + p) w st) ;;; Ok FNone, snd (f_seek buf (total st + p) w st)).
Proof. exact seek_in_is_seek. Qed.
Print Assumptions C64_seek_in_frame.
Theorem C64_read : forall buf n st v st', 0 <= pos st -> f_read buf n st = (Ok v, st') ->
  exists d, v = FData d /\ read_at buf (pos st) n d /\ pos st' = pos st + len d /\ frames st' = frames st /\ total st' = total st.
Proof. exact read_gives. Qed.
Print Assumptions C64_read.
Theorem C64_read_raises : forall buf n st x st', f_read buf n st = (Err x, st') -> x = OverflowError /\ st' = st /\ exists k, n = Some k /\ (k < - maxsize - 1 \/ maxsize < k).
Proof. exact read_raises. Qed.
Print Assumptions C64_read_raises.
(** Only push_frame leaves something behind when it raises. *)
Theorem C64_raises_unchanged : forall buf op st x st', len buf <= maxsize -> made buf st -> (forall o, op <> FPush o) -> f_call buf op st = (Err x, st') -> st' = st.
Proof. exact raises_unchanged. Qed.
Print Assumptions C64_raises_unchanged.
Example C64_calls_sample :
  let buf := repeat x00 40 in let st := mkStream 9 [(4, 1)] 4 in
  seek_to 40 9 (-20) 1 0 /\ seek_to 40 9 (-2) 2 38 /\ ~ (exists q, seek_to 40 9 (-1) 0 q)
  /\ f_read buf (Some 35) st = (Ok (FData (repeat x00 31)), mkStream 40 [(4, 1)] 4)
  /\ f_read buf (Some (2 ^ 63)) st = (Err OverflowError, st) /\ f_seek_in buf (-5) 0 st = (Err ValueError, st).
Proof.
  split; [split; [lazy; intuition discriminate|exists 9; lazy; intuition discriminate]|]. split; [split; [lazy; intuition discriminate|exists 40; lazy; intuition discriminate]|].
  split; [intros (q & _ & base & H & _); lia|]. repeat split; lazy; reflexivity.
Qed.
(** pop_frame undoes push_frame: whatever properly nested calls came in
    between, and whatever they raised, the stream is as it was. *)
Theorem C64_frame_restored : forall buf o body st, len buf <= maxsize -> made buf st -> nested body ->
  f_calls buf (FPush o :: body ++ [FPop]) st = st
  /\ fst (f_pop buf (f_calls buf (FPush o :: body) st)) = Ok FNone.
Proof. exact frame_restored. Qed.
Print Assumptions C64_frame_restored.
Example C64_sample :
  let buf := repeat x00 40 in
  let body := [FRead (Some 3); FPush 5; FSeekIn 7 0; FPush (-100); FPop; FRead None; FPop; FSeek (-2) 2] in
  nested body /\ f_calls buf (FPush 4 :: body) (mkStream 9 [] 0) = mkStream 38 [(4, 9)] 4.
Proof.
  split; [|lazy; reflexivity]. constructor. apply (NE_frame 5 [FSeekIn 7 0; FPush (-100); FPop; FRead None] [FSeek (-2) 2]); [|repeat constructor].
  constructor. apply (NE_frame (-100) [] [FRead None]); repeat constructor.
Qed.
(** The methods the decoders are modelled with are these. *)
Theorem C64_same_read : forall buf n st, 0 <= n -> Decoding.read buf n st =
  match f_call buf (FRead (Some n)) st with (Ok (FData d), st') => Ok (d, st') | (Ok _, _) => Err OutOfFuel | (Err x, _) => Err x end.
Proof. exact read_same. Qed.
Print Assumptions C64_same_read.
Theorem C64_same_seek : forall buf p st, - maxsize - 1 <= p -> Decoding.seek p st =
  match f_call buf (FSeek p 0) st with (Ok _, st') => Ok st' | (Err x, _) => Err x end.
Proof. exact seek_same. Qed.
Print Assumptions C64_same_seek.
Theorem C64_same_push : forall buf o st, - maxsize - 1 <= total st + o -> Decoding.push_frame o st =
  match f_call buf (FPush o) st with (Ok _, st') => Ok st' | (Err x, _) => Err x end.
Proof. exact push_same. Qed.
Print Assumptions C64_same_push.
Theorem C64_same_pop : forall buf st, Forall (fun f => - maxsize - 1 <= snd f) (frames st) -> Decoding.pop_frame st =
  match f_call buf FPop st with (Ok _, st') => Ok st' | (Err x, _) => Err x end.
Proof. exact pop_same. Qed.
Print Assumptions C64_same_pop.
(** HeadTailDecoder with any tail decoder: a pointer that is cut off, a pointer
    past what a stream can address, and otherwise the tail decoded at the
    pointer, with the cursor left behind the pointer. *)
Theorem C64_headtail_short : forall h d buf st, 0 <= pos st -> len buf < pos st + 32 -> decode_with h (DHeadTail d) buf st = Err InsufficientDataBytes.
Proof. exact headtail_short. Qed.
Print Assumptions C64_headtail_short.
Theorem C64_headtail_far : forall h d a z b st, 0 <= z < 2 ^ 256 -> pos st = len a -> maxsize < total st + z ->
  decode_with h (DHeadTail d) (a ++ word z ++ b) st = Err OverflowError.
Proof. exact headtail_far. Qed.
Print Assumptions C64_headtail_far.
Theorem C64_headtail : forall h d a z b st v q, 0 <= z < 2 ^ 256 -> pos st = len a -> len a + 32 <= maxsize -> 0 <= total st + z <= maxsize ->
  decode_with h d (a ++ word z ++ b) (mkStream (total st + z) ((z, len a + 32) :: frames st) (total st + z))
    = Ok (v, mkStream q ((z, len a + 32) :: frames st) (total st + z)) ->
  decode_with h (DHeadTail d) (a ++ word z ++ b) st = Ok (v, mkStream (len a + 32) (frames st) (total st)).
Proof. exact headtail_result. Qed.
Print Assumptions C64_headtail.
Theorem C64_headtail_error : forall h d a z b st x, 0 <= z < 2 ^ 256 -> pos st = len a -> len a + 32 <= maxsize -> 0 <= total st + z <= maxsize ->
  decode_with h d (a ++ word z ++ b) (mkStream (total st + z) ((z, len a + 32) :: frames st) (total st + z)) = Err x ->
  decode_with h (DHeadTail d) (a ++ word z ++ b) st = Err x.
Proof. exact headtail_error. Qed.
Print Assumptions C64_headtail_error.
Example C64_headtail_sample :
  let buf := [] ++ word 64 ++ (word 7 ++ word 9) in
  decode_with [] (DUInt 8) buf (mkStream 64 [(64, 32)] 64) = Ok (PInt 9, mkStream 96 [(64, 32)] 64)
  /\ decode_with [] (DHeadTail (DUInt 8)) buf new_stream = Ok (PInt 9, mkStream 32 [] 0).
Proof. split; lazy; reflexivity. Qed.
Example C64_headtail_far_sample : decode_with [] (DHeadTail DBool) ([] ++ word (2 ^ 63) ++ []) new_stream = Err OverflowError.
Proof. lazy. reflexivity. Qed.

(** * C65: abbr *)

Theorem C65_short : forall rep limit, len rep <= limit -> abbr rep limit = Ok rep.
Proof. exact abbr_short. Qed.
Print Assumptions C65_short.
Theorem C65_long : forall a b limit, len a = limit - 3 -> 3 < len b -> abbr (a ++ b) limit = Ok (a ++ lit "...").
Proof. exact abbr_long. Qed.
Print Assumptions C65_long.
Theorem C65_fits : forall rep limit r, abbr rep limit = Ok r -> len r = Z.min limit (len rep).
Proof. exact abbr_fits. Qed.
Print Assumptions C65_fits.
Theorem C65_error : forall rep limit x, abbr rep limit = Err x <-> x = ValueError /\ limit < 3 /\ limit < len rep.
Proof. exact abbr_error. Qed.
Print Assumptions C65_error.
Theorem C65_default : forall rep, exists r, abbr_default rep = Ok r /\ len r <= 79.
Proof. exact abbr_default_ok. Qed.
Print Assumptions C65_default.
Example C65_sample : abbr (lit "'abcdefgh'") 8 = Ok (lit "'abcd...") /\ abbr (lit "'ab'") 4 = Ok (lit "'ab'") /\ abbr (lit "'ab'") 2 = Err ValueError.
Proof. repeat split; lazy; reflexivity. Qed.
