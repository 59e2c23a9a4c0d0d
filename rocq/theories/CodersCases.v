(** Coders of two types used as samples by PropertiesCoders.v: [foo], 32 bytes in
    place, registered as objects; [bar], a length and that many bytes without
    padding, registered as classes. *)
From Coq Require Import Strings.Byte Strings.String.
From Verif Require Import Tac Bytes BytesProofs Grammar GrammarSpec Encoding Decoding Registry Codec Histories Spec TypeSpec ReadSpec
  EncLeafProofs DecLeafProofs EncodeProofs ReaderProofs HistoryProofs CustomSpec CodersSpec RegistryCases Samples.
Open Scope string_scope.
Open Scope list_scope.
Open Scope Z_scope.
Local Transparent Keccak.keccak256 Z.pow Decimals.pow10 Decimals.prec Decimals.Etop Decimals.Etiny Decimals.Emax Decimals.ndigits word be_bytes len.

Definition is_raw (n : Z) (v : pyval) : result unit := match v with PBytes b => if len b =? n then Ok tt else Err ValueOutOfBounds | _ => Err EncodingTypeError end.
Definition foo_enc : encoder := ECustom false (is_raw 32) (raw_encoder 32).
Definition foo_dec (x : bool) : decoder := DCustom x (SRef 7) (fun _ => raw_decoder 32).
Definition any_raw (v : pyval) : result unit := match v with PBytes b => Ok tt | _ => Err EncodingTypeError end.
Definition bar_encode (v : pyval) : result bytes := match v with PBytes b => Ok (word (len b) ++ b) | _ => Err TypeError end.
Definition bar_decode (buf : bytes) (st : stream) : result (pyval * stream) := ' (n, st1) <- decode_uint_256 buf st ;; ' (b, st2) <- Decoding.read buf n st1 ;; Ok (PBytes b, st2).
Definition bar_enc : encoder := ECustom true any_raw bar_encode.
Definition bar_dec : decoder := DCustom true (SConst true) (fun _ => bar_decode).
Definition foo_entry : entry := (lit "foo", (EInst foo_enc, DInst (foo_dec false))).
Definition bar_entry : entry := (lit "bar", (EClass (CUserEnc (fun _ => Ok bar_enc)), DClass (CUserDec (fun _ => Ok bar_dec)))).
Definition foo_bar : list entry := [bar_entry; foo_entry].

Lemma bar_fresh : fresh_name (lit "bar").
Proof. exists (lit "bar"), SubNone. split; [lazy; reflexivity|]. split; [lazy; reflexivity|]. split; [lazy; reflexivity|]. cbn. intuition discriminate. Qed.
Lemma foo_bar_names : names_ok foo_bar.
Proof.
  split; [|repeat constructor; [exact bar_fresh|exact foo_fresh]]. cbn [foo_bar map fst bar_entry foo_entry].
  constructor; [|constructor; [intros []|constructor]]. cbn. intuition discriminate.
Qed.
(** Register foo, look something up, register bar. *)
Definition with_foo_bar : world :=
  snd (run (ORegister (LStr (lit "bar")) (fst (snd bar_entry)) (snd (snd bar_entry)) None)
    (snd (run (OHasEncoder (lit "bar")) (snd (run (ORegister (LStr (lit "foo")) (fst (snd foo_entry)) (snd (snd foo_entry)) None) start))))).
Lemma with_foo_bar_ok : with_coders foo_bar with_foo_bar.
Proof. apply with_one, with_query; [|exact I]. apply with_one, with_none, start_used. Qed.
Lemma foo_reads b k : len b = 32 -> reads (foo_dec k) k b (PBytes b).
Proof.
  intros L h s buf st _ Hf _. exists (pos st + len b). split; [|reflexivity]. unfold foo_dec. replace (fst (set_strict _ s [])) with (foo_dec k) by (destruct k; reflexivity).
  unfold foo_dec. cbn [decode_with]. apply raw_decodes; [exact L|lia|exact Hf].
Qed.
Lemma bar_reads b : reads bar_dec true (word (len b) ++ b) (PBytes b).
Proof.
  intros h s buf st Hb Hf _. exists (pos st + 32 + len b). split; [|discriminate]. unfold bar_dec. cbn [set_strict fst decode_with].
  pose proof (located_bounds _ _ _ Hf) as B. lens. rewrite word_len in B. pose proof (located_app_l _ _ _ _ Hf) as Lw. pose proof (located_app_r _ _ _ _ Hf) as Lb. rewrite word_len in Lb.
  unfold bar_decode. rewrite decode_uint_256_eq by lia. pose proof (len_nonneg b). rewrite (located_word buf (pos st) (len b) Lw) by (pose proof maxsize_lt; lia). cbn [bind].
  unfold Decoding.read, adv. destruct (Z.ltb_spec maxsize (len b)); [lia|]. cbn [bind pos frames total]. destruct Lb as (a & c & -> & E).
  assert (T : take_z (len b) (drop_z (pos st + 32) (a ++ b ++ c)) = b); [|rewrite T; reflexivity].
  rewrite drop_z_app by (symmetry; exact E). apply take_z_app. reflexivity.
Qed.
Lemma foo_pair : coder_pair foo_bar (lit "foo") foo_enc (foo_dec false) false.
Proof. exists (EInst foo_enc), (DInst (foo_dec false)). split; [right; left; reflexivity|]. split; [left; reflexivity|]. split; [left; reflexivity|]. repeat split. Qed.
Lemma bar_pair : coder_pair foo_bar (lit "bar") bar_enc bar_dec true.
Proof.
  eexists _, _. split; [left; reflexivity|]. split; [right; eexists; split; reflexivity|]. split; [right; eexists; split; reflexivity|]. repeat split.
Qed.
Lemma foo_bar_faithful : faithful foo_bar.
Proof.
  intros T e d x v b (er & dr & Hi & E & D & X & _) V En. destruct Hi as [H|[H|[]]]; injection H as <- <- <-.
  - destruct E as [E|(f & E & F)]; [discriminate E|]. injection E as <-. injection F as <-. destruct D as [D|(g & D & G)]; [discriminate D|]. injection D as <-. injection G as <-.
    injection X as <-. destruct v as [| | | | | | |b0| | | | | |]; try discriminate V. change (@Ok bytes (word (len b0) ++ b0) = Ok b) in En. assert (Eb : b = word (len b0) ++ b0) by congruence. subst b. split; [|eexists; apply bar_reads]. unfold room. rewrite len_app, word_len. pose proof (len_nonneg b0). lia.
  - destruct E as [E|(f & E & F)]; [|discriminate E]. injection E as <-. destruct D as [D|(g & D & G)]; [|discriminate D]. injection D as <-. injection X as <-.
    destruct v; try discriminate V. unfold encode_with, foo_enc in En. cbn [ve snd raw_encoder] in En. destruct (Z.eqb_spec (len b0) 32) as [L|]; [|discriminate En]. injection En as <-.
    split; [unfold room; lia|eexists; apply foo_reads; exact L].
Qed.

(** Values of "(foo,bar)[1]", "bar[]", "foo[2][]" and "uint8". *)
Definition nested_types : list pystr := [lit "(foo,bar)[1]"; lit "bar[]"; lit "foo[2][]"; lit "uint8"].
Definition nested_values : list pyval :=
  [PList [PTuple [PBytes (word 7); PBytes (raw "xyz")]]; PTuple [PBytes (raw "a"); PBytes []]; PList [PList [PBytes (word 1); PBytes (word 2)]]; PInt 5].
Definition nested_parts : list (bool * bytes) :=
  [(true, word 32 ++ word 7 ++ word 64 ++ word 3 ++ raw "xyz"); (true, word 2 ++ word 64 ++ word 97 ++ word 1 ++ raw "a" ++ word 0); (true, word 1 ++ word 1 ++ word 2); (false, word 5)].
Lemma foo_put z : put foo_bar (lit "foo") (PBytes (word z)) (false, word z).
Proof. eapply put_name; [exact foo_pair| |]; unfold validate_value, encode_with; cbn [ve fst snd foo_enc is_raw raw_encoder]; rewrite word_len; reflexivity. Qed.
Lemma bar_put b : put foo_bar (lit "bar") (PBytes b) (true, word (len b) ++ b).
Proof. eapply put_name; [exact bar_pair|reflexivity|reflexivity]. Qed.
Ltac name_str s := match goal with |- context [to_type_str ?x] => replace (to_type_str x) with (lit s) by reflexivity end.
Lemma nested_put : puts foo_bar nested_types nested_values nested_parts.
Proof.
  constructor; [|constructor; [|constructor; [|constructor; [|constructor]]]].
  - change (true, word 32 ++ word 7 ++ word 64 ++ word 3 ++ raw "xyz") with
      (existsb fst [(true, word 7 ++ word 64 ++ word 3 ++ raw "xyz")], head_tail [(true, word 7 ++ word 64 ++ word 3 ++ raw "xyz")]).
    eapply put_sized; [lazy; reflexivity|reflexivity|reflexivity|left; reflexivity|reflexivity|]. cbn [length repeat]. constructor; [|constructor].
    change (true, word 7 ++ word 64 ++ word 3 ++ raw "xyz") with (existsb fst [(false, word 7); (true, word 3 ++ raw "xyz")], head_tail [(false, word 7); (true, word 3 ++ raw "xyz")]).
    eapply put_tuple; [lazy; reflexivity|right; left; reflexivity|]. cbn [map]. constructor; [name_str "foo"; apply foo_put|]. constructor; [|constructor].
    name_str "bar". apply (bar_put (raw "xyz")).
  - change (true, word 2 ++ word 64 ++ word 97 ++ word 1 ++ raw "a" ++ word 0) with
      (true, word (len [PBytes (raw "a"); PBytes []]) ++ head_tail [(true, word 1 ++ raw "a"); (true, word 0 ++ [])]).
    eapply put_dyn; [lazy; reflexivity|reflexivity|reflexivity| |right; left; reflexivity|reflexivity|].
    + name_str "bar". eapply made_name; exact bar_pair.
    + cbn [length repeat]. name_str "bar". constructor; [apply (bar_put (raw "a"))|]. constructor; [apply (bar_put [])|constructor].
  - change (true, word 1 ++ word 1 ++ word 2) with
      (true, word (len [PList [PBytes (word 1); PBytes (word 2)]]) ++ head_tail [(false, word 1 ++ word 2)]).
    eapply put_dyn; [lazy; reflexivity|reflexivity|reflexivity| |left; reflexivity|reflexivity|].
    + eapply made_array; [lazy; reflexivity|reflexivity|]. name_str "foo". eapply made_name; exact foo_pair.
    + cbn [length repeat]. constructor; [|constructor]. change (false, word 1 ++ word 2) with (existsb fst [(false, word 1); (false, word 2)], head_tail [(false, word 1); (false, word 2)]).
      eapply put_sized; [lazy; reflexivity|reflexivity|reflexivity|left; reflexivity|reflexivity|]. cbn [length repeat]. name_str "foo". constructor; [apply foo_put|]. constructor; [apply foo_put|constructor].
  - apply (put_known foo_bar _ (SUInt 8) (PInt 5) (VInt 5)); [sample_type|]. apply D_uint. in_range.
Qed.
(** An encoder that is static and a decoder that is dynamic. *)
Lemma disagree_refuted :
  ~ (forall T x y val enc f w v b q, fresh_name T -> with_coders [(T, (EInst (ECustom x val enc), DInst (DCustom y (SConst true) f)))] w ->
     val v = Ok tt -> enc v = Ok b -> room x b -> room y b -> reads (DCustom y (SConst true) f) y b q ->
     exists out r, encode_in w (PList [PStr T]) (PList [v]) = Ok out /\ decode_in w (PList [PStr T]) (PBytes out) true = Ok r).
Proof.
  intro H. set (f := fun _ : bool => raw_decoder 32). set (w := snd (run (ORegister (LStr (lit "foo")) (EInst foo_enc) (DInst (DCustom true (SConst true) f)) None) start)).
  destruct (H (lit "foo") false true (is_raw 32) (raw_encoder 32) f w (PBytes (word 7)) (word 7) (PBytes (word 7)) foo_fresh) as (out & r & E & D).
  - apply with_one, with_none, start_used.
  - reflexivity.
  - reflexivity.
  - unfold room. rewrite word_len. lia.
  - unfold room. rewrite word_len. lia.
  - intros h s buf st Hb Hf _. exists (pos st + len (word 7)). split; [|discriminate]. cbn [set_strict fst decode_with]. unfold f. apply raw_decodes; [apply word_len|lia|exact Hf].
  - assert (X : encode_in w (PList [PStr (lit "foo")]) (PList [PBytes (word 7)]) = Ok (word 7)) by (lazy; reflexivity). rewrite X in E. injection E as <-.
    assert (Y : decode_in w (PList [PStr (lit "foo")]) (PBytes (word 7)) true = Err InvalidPointer) by (lazy; reflexivity). rewrite Y in D. discriminate D.
Qed.
