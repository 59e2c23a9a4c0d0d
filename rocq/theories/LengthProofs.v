(** The length of an encoding. *)
From Coq Require Import Strings.Byte Strings.String.
From Verif Require Import Tac Bytes BytesProofs Utf8 Utf8Proofs Address AddressProofs Decimals Encoding Registry Codec Histories Spec ReadSpec TypeSpec
  EncLeafProofs EncodeProofs AcceptProofs EncOkProofs TypeProofs ApiProofs HistoryProofs ArgsProofs EncodeApi LengthSpec.
Open Scope Z_scope.

Definition takes (pk : bool) : sty -> pyval -> Z := if pk then taken_packed else taken.
Definition pad (pk : bool) (t : sty) : Z := if pk then 0 else pointer t.
Definition takes_all (pk : bool) : list sty -> list pyval -> Z :=
  fix go (ts : list sty) (l : list pyval) : Z :=
    match ts, l with
    | t :: ts', x :: l' => pad pk t + takes pk t x + go ts' l'
    | _, _ => 0
    end.
Lemma takes_tuple pk ts p : takes pk (STuple ts) p = takes_all pk ts (items p).
Proof. destruct pk; cbn [takes taken taken_packed]; generalize (items p); induction ts as [|t ts IH]; intros [|x l]; try reflexivity; cbn [takes_all pad takes]; rewrite <- IH; reflexivity. Qed.
Definition takes_items (pk : bool) (t : sty) (l : list pyval) : Z := fold_right (fun x acc => pad pk t + takes pk t x + acc) 0 l.
Lemma takes_sized pk n t p : takes pk (SSized n t) p = takes_items pk t (items p).
Proof. destruct pk; reflexivity. Qed.
Lemma takes_arr pk t p : takes pk (SArr t) p = (if pk then 0 else 32) + takes_items pk t (items p).
Proof. destruct pk; reflexivity. Qed.

Lemma head_tail_sum ps : len (head_tail ps) = fold_right (fun (p : bool * bytes) acc => (if fst p then 32 else 0) + len (snd p) + acc) 0 ps.
Proof.
  rewrite len_head_tail. induction ps as [|[d b] ps IH]; [reflexivity|]. cbn [heads_size tails fold_right]. unfold head_size. cbn [fst snd] in *.
  rewrite <- IH. destruct d; lens; lia.
Qed.
Lemma text_count_utf8 s : fold_right (fun c acc => char_count c + acc) 0 s = len (utf8 s).
Proof.
  induction s as [|c s IH]; [reflexivity|]. unfold utf8. cbn [flat_map fold_right]. fold (utf8 s). rewrite len_app, <- IH. f_equal.
  unfold utf8_char. rewrite len_cons. rewrite len_length, map_length, rev_length, seq_length. unfold char_count, utf8_len.
  destruct (c <? 0x80)%N; [reflexivity|]. destruct (c <? 0x800)%N; [reflexivity|]. destruct (c <? 0x10000)%N; reflexivity.
Qed.
Lemma pad_right_padded b : len (pad_right b) = padded (len b).
Proof. unfold pad_right, padded. lens. pose proof (len_nonneg b). lia. Qed.

Lemma leaf_takes pk t p b : wf t -> word_leaf t = true -> encode_with (enc_of pk t) p = Ok b -> len b = takes pk t p.
Proof.
  intros W L E. destruct pk; [|rewrite (static_leaf_sized t p b W L E); destruct t; try discriminate L; reflexivity].
  assert (V : validate_value (enc_of true t) p = Ok tt) by exact (proj1 (encode_good true t W p b E)).
  pose proof (proj2 (proj2 (encode_good true t W p b E))) as G.
  destruct t as [m|m| | |m n|m n|k| | |t|n t|ts]; try discriminate L; cbn [takes taken_packed].
  - destruct (uint_cases m p) as [(z & -> & R & _)|[(z & -> & R & V')|(_ & V')]]; [|exfalso; revert V; unfold validate_value; cbn [enc_of ve fst]; congruence..].
    rewrite (G (VInt z)) by (constructor; exact R). cbn [out spec_packed]. rewrite be_bytes_len. inv W. unfold int_size in *. lia.
  - destruct (sint_cases m p) as [(z & -> & R & _)|[(z & -> & R & V')|(_ & V')]]; [|exfalso; revert V; unfold validate_value; cbn [enc_of ve fst]; congruence..].
    rewrite (G (VInt z)) by (constructor; exact R). cbn [out spec_packed]. rewrite be_bytes_len. inv W. unfold int_size in *. lia.
  - unfold encode_with in E. cbn [enc_of ve snd] in E. unfold encode_bool in E. bok E. destruct p as [|[]| | | | | | | | | | | |]; inv E; reflexivity.
  - destruct (validate_addr_denotes p V) as [a D]. rewrite (G _ D). pose proof (denotes_has_type _ _ _ wf_addr D) as T. inv T. assumption.
  - inv W. take (int_size m) as Hm. destruct (dsz_nat true m Hm) as (k & Hd & Hk & Hmk & En).
    unfold encode_with in E. cbn [enc_of ve snd] in E. rewrite Hd in E.
    destruct (encode_ufixed_ok m n k p) as (b' & E' & L' & _); auto. assert (b' = b) by congruence. subst b'. unfold dsz in Hd. lia.
  - inv W. take (int_size m) as Hm. destruct (dsz_nat true m Hm) as (k & Hd & Hk & Hmk & En).
    unfold encode_with in E. cbn [enc_of ve snd] in E. rewrite Hd in E.
    destruct (encode_sfixed_ok m n k p) as (b' & E' & L' & _); auto. assert (b' = b) by congruence. subst b'. unfold dsz in Hd. lia.
  - destruct (validate_denotes true (SBytesM k) p W V) as [a D]; try exact I.
    rewrite (G _ D). pose proof (denotes_has_type _ _ _ W D) as T. inversion T; subst. reflexivity.
Qed.
Theorem encode_takes pk : forall t, wf t -> forall p b, encode_with (enc_of pk t) p = Ok b -> len b = takes pk t p.
Proof.
  assert (A : forall t, (forall p b, encode_with (enc_of pk t) p = Ok b -> len b = takes pk t p) ->
    forall val p b, encode_elements val (enc_is_dyn (enc_of pk t)) (encode_with (enc_of pk t)) p = Ok b -> len b = takes_items pk t (items p)).
  { intros t H val p b E. apply elements_len in E. destruct E as (_ & bs & M & ->). apply mapM_Forall in M. rewrite head_tail_sum, enc_is_dyn_of.
    induction M as [|x y l bs Exy F IH]; [reflexivity|]. cbn [map fold_right fst snd]. rewrite IH, (H _ _ Exy). unfold takes_items. cbn [fold_right].
    destruct pk; cbn [negb andb pad]; [|unfold pointer]; reflexivity. }
  intro t. induction t as [m|m| | |m n|m n|k| | |t IH|n t IH|ts IH] using sty_ind'; intros W p b E.
  1-7: exact (leaf_takes pk _ p b W eq_refl E).
  - unfold encode_with in E. cbn [enc_of ve snd] in E. unfold encode_bytestring in E. bok E.
    assert (B : byte_count p = len (bytes_of p)) by (destruct p; reflexivity).
    destruct pk; cbn [takes taken taken_packed]; rewrite B.
    + inv E. reflexivity.
    + apply prefixed_ok in E. subst b. lens. rewrite word_len, pad_right_padded. reflexivity.
  - unfold encode_with in E. cbn [enc_of ve snd] in E. unfold encode_text in E. bok E. bok E. rename x0 into u, Hx0 into U. 
    unfold validate_text, is_text in Hx. destruct p; try discriminate Hx.
    destruct (utf8_encode_cases s) as [[U' S]|[U' S]]; [|congruence]. assert (u = utf8 s) by congruence. subst u.
    destruct pk; cbn [takes taken taken_packed text_count]; rewrite text_count_utf8.
    + inv E. reflexivity.
    + apply prefixed_ok in E. subst b. lens. rewrite word_len, pad_right_padded. reflexivity.
  - inv W. take (wf t) as Wt. specialize (IH Wt). rewrite takes_arr. unfold encode_with in E. cbn [enc_of] in E. destruct pk; cbn [ve snd] in E.
    + apply (A t IH) in E. exact E.
    + bok E. bok E. bok E. inv E. apply uint_256_len in Hx0. apply (A t IH) in Hx1. lens. lia.
  - inv W. take (wf t) as Wt. specialize (IH Wt). rewrite takes_sized. unfold encode_with in E. cbn [enc_of] in E.
    destruct pk; cbn [ve snd] in E; apply (A t IH) in E; exact E.
  - inv W. take (Forall wf ts) as Wt. rewrite takes_tuple. unfold encode_with in E. cbn [enc_of ve snd] in E. bok E. bok E. destruct x.
    assert (V : validate_value (enc_of pk (STuple ts)) p = Ok tt) by exact Hx. apply (validate_tuple_ok pk ts p Wt) in V as V'. destruct V' as [S V'].
    apply Forall2_len in V'. apply chunks_len in Hx0; [|rewrite len_combine; lens; lia].
    destruct Hx0 as (bs & -> & F). apply join_len in E. apply Forall3_chunks in F. rewrite E, head_tail_sum.
    clear -F IH Wt. induction F as [|t v b ts vs bs Eb F IHF]; [reflexivity|]. inv IH. inv Wt.
    cbn [map combine fold_right fst snd takes_all]. rewrite IHF by assumption. rewrite (H1 ltac:(assumption) v b Eb).
    rewrite enc_is_dyn_of. destruct pk; cbn [negb andb pad]; [|unfold pointer]; reflexivity.
Qed.
Theorem api_takes pk w types ts args b : used pk w -> type_args types ts -> encode_in w types args = Ok b -> len b = takes pk (STuple ts) args.
Proof.
  intros U T E. destruct (encode_ok_inv pk w types args b U E) as (ts' & l & T' & S & E').
  assert (ts' = ts) by (eapply type_args_fun; eassumption). subst ts'.
  destruct (wf_args ts (type_args_wf _ _ T)) as [->|W].
  - destruct (empty_args pk args) as [(_ & _ & E2)|(_ & N)].
    + rewrite E2 in E'. inv E'. destruct pk; reflexivity.
    + destruct (args_good pk [] args b (Forall_nil _) E') as (V & _). destruct N as [[N _]|N]; congruence.
  - exact (encode_takes pk _ W args b E').
Qed.
