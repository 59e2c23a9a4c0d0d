(** Types registered with coder objects, inside compound types: what is written
    for their values and what is read back. *)
From Verif Require Import Py Bytes Grammar GrammarSpec Encoding Decoding Registry Codec Histories Spec TypeSpec ReadSpec CustomSpec.
Open Scope Z_scope.

(** A call [register(T, encoder, decoder)]. *)
Definition entry := (pystr * (enc_reg * dec_reg))%type.
(** The default registry, used in any way, with the calls [l] made on the way. *)
Inductive with_coders : list entry -> world -> Prop :=
| with_none w : used false w -> with_coders [] w
| with_one l w T er dr : with_coders l w -> with_coders ((T, (er, dr)) :: l) (snd (run (ORegister (LStr T) er dr None) w))
| with_query l w q : with_coders l w -> query q -> with_coders l (snd (run q w)).
(** Different names, none of which has a meaning yet. *)
Definition names_ok (l : list entry) : Prop := NoDup (map fst l) /\ Forall fresh_name (map fst l).

(** The coder a registration stands for: a coder object, or a class whose
    from_type_str makes one for the name. *)
Definition encoder_of (r : enc_reg) (T : pystr) (e : encoder) : Prop := r = EInst e \/ exists f, r = EClass (CUserEnc f) /\ f T = Ok e.
Definition decoder_of (r : dec_reg) (T : pystr) (d : decoder) : Prop := r = DInst d \/ exists f, r = DClass (CUserDec f) /\ f T = Ok d.
(** [T] is registered with the encoder [e] and the decoder [d], which agree on
    being dynamic ([x]); [d] has no [array_size] and is no head-tail decoder. *)
Definition coder_pair (l : list entry) (T : pystr) (e : encoder) (d : decoder) (x : bool) : Prop :=
  exists er dr, In (T, (er, dr)) l /\ encoder_of er T e /\ decoder_of dr T d
    /\ enc_dyn_attr e = Some x /\ dec_dyn_attr d = Some x /\ is_headtail d = false /\ array_size_attr d = 1.
(** [d] reads [b] wherever it is met, as [q].  If it is static it moves on by as
    much.  If it is dynamic it is met at the start of its own frame and may stop
    anywhere.  Its strict flag does not matter. *)
Definition reads (d : decoder) (x : bool) (b : bytes) (q : pyval) : Prop :=
  forall h k buf st, len buf <= maxsize -> found buf (pos st) b -> (x = true -> total st = pos st) ->
    exists p, decode_with h (fst (set_strict d k [])) buf st = Ok (q, mkStream p (frames st) (total st)) /\ (x = false -> p = pos st + len b).
(** Static values take a word at least; dynamic ones are not empty. *)
Definition room (x : bool) (b : bytes) : Prop := if x then 1 <= len b else 32 <= len b.

Section Coders.
Variable l : list entry.

(** The types made of registered names and the types supported already. *)
Inductive made : pystr -> Prop :=
| made_name T e d x : coder_pair l T e d x -> made T
| made_known s t : supported s t -> made s
| made_tuple s cs : parse (normalize s) = Ok (Tup cs []) -> (forall c, In c cs -> made (to_type_str c)) -> made s
| made_array s U it : parse (normalize s) = Ok U -> item_type U = Ok it -> made (to_type_str it) -> made s.

(** [put s v (x, b)]: the value [v] of type [s] is written as [b], to the tail if
    [x]. *)
Inductive put : pystr -> pyval -> bool * bytes -> Prop :=
| put_name T e d x v b : coder_pair l T e d x -> validate_value e v = Ok tt -> encode_with e v = Ok b -> put T v (x, b)
| put_known s t v a : supported s t -> denotes t v a -> put s v (sdyn t, spec_enc t a)
| put_tuple s cs v vs ps : parse (normalize s) = Ok (Tup cs []) -> seq_like v vs -> puts (map to_type_str cs) vs ps ->
    put s v (existsb fst ps, head_tail ps)
| put_sized s U it n v vs ps : parse (normalize s) = Ok U -> item_type U = Ok it -> last (arrlist_of U) None = Some n ->
    seq_like v vs -> len vs = n -> puts (repeat (to_type_str it) (length vs)) vs ps -> put s v (existsb fst ps, head_tail ps)
| put_dyn s U it v vs ps : parse (normalize s) = Ok U -> item_type U = Ok it -> last (arrlist_of U) None = None ->
    made (to_type_str it) -> seq_like v vs -> len vs < 2 ^ 256 -> puts (repeat (to_type_str it) (length vs)) vs ps ->
    put s v (true, word (len vs) ++ head_tail ps)
with puts : list pystr -> list pyval -> list (bool * bytes) -> Prop :=
| puts_nil : puts [] [] []
| puts_cons s ss v vs p ps : put s v p -> puts ss vs ps -> puts (s :: ss) (v :: vs) (p :: ps).

(** [got s (x, b) q]: [b] is read back as [q]. *)
Inductive got : pystr -> bool * bytes -> pyval -> Prop :=
| got_name T e d x b q : coder_pair l T e d x -> room x b -> reads d x b q -> got T (x, b) q
| got_known s t a q : supported s t -> has_type t a -> canon t a q -> got s (sdyn t, spec_enc t a) q
| got_tuple s cs ps qs : parse (normalize s) = Ok (Tup cs []) -> gots (map to_type_str cs) ps qs ->
    got s (existsb fst ps, head_tail ps) (PTuple qs)
| got_sized s U it n ps qs : parse (normalize s) = Ok U -> item_type U = Ok it -> last (arrlist_of U) None = Some n ->
    len ps = n -> gots (repeat (to_type_str it) (length ps)) ps qs -> got s (existsb fst ps, head_tail ps) (PTuple qs)
| got_dyn s U it ps qs : parse (normalize s) = Ok U -> item_type U = Ok it -> last (arrlist_of U) None = None ->
    made (to_type_str it) -> gots (repeat (to_type_str it) (length ps)) ps qs -> got s (true, word (len ps) ++ head_tail ps) (PTuple qs)
with gots : list pystr -> list (bool * bytes) -> list pyval -> Prop :=
| gots_nil : gots [] [] []
| gots_cons s ss p ps q qs : got s p q -> gots ss ps qs -> gots (s :: ss) (p :: ps) (q :: qs).

(** The registered decoders read whatever the registered encoders write. *)
Definition faithful : Prop :=
  forall T e d x v b, coder_pair l T e d x -> validate_value e v = Ok tt -> encode_with e v = Ok b -> room x b /\ exists q, reads d x b q.
End Coders.

Scheme put_min := Minimality for put Sort Prop with puts_min := Minimality for puts Sort Prop.
Combined Scheme put_puts_ind from put_min, puts_min.
Scheme got_min := Minimality for got Sort Prop with gots_min := Minimality for gots Sort Prop.
Combined Scheme got_gots_ind from got_min, gots_min.
