(** The UTF-8 decoder with error handlers against [segs]. *)
From Coq Require Import Strings.Byte Strings.String.
From Verif Require Import Tac Py Bytes BytesProofs Utf8 Spec EncLeafProofs Utf8Proofs Address AddressProofs Decoding Handlers HandlersSpec.
Open Scope Z_scope.

Ltac Zify.zify_post_hook ::= idtac.
Ltac break H :=
  repeat match type of H with
  | context [match ?x with _ => _ end] =>
      lazymatch x with context [match _ with _ => _ end] => fail | _ => destruct x eqn:? end
  end.
Lemma next_char c bs : scalar c -> utf8_next (utf8_char c ++ bs) = Some (Char c, bs).
Proof.
  unfold scalar. intro H.
  assert (Hc : (c < 0x80 \/ 0x80 <= c < 0x800 \/ 0x800 <= c < 0x10000 \/ 0x10000 <= c < 0x110000)%N) by lia.
  destruct (digits64 (Z.of_N c)) as (x & y & z & w & E & Ry & Rz & Rw & D3 & D2 & M2 & D1 & M1 & M0).
  destruct Hc as [Hc|[Hc|[Hc|Hc]]].
  - rewrite utf8_char_1 by lia. cbn [app utf8_next]. zb. rewrite Z.mod_small by lia.
    destruct (Z.ltb_spec (Z.of_N c) 0x80); [|lia]. rewrite N2Z.id. reflexivity.
  - rewrite utf8_char_2 by lia. cbn [app utf8_next]. unfold is_cont. zb. rewrite D1, M0.
    assert (x = 0) by lia. assert (y = 0) by lia. clear D3 D2 M2. subst x y. small.
    bool_lia. replace (Z.to_N _) with c by lia. reflexivity.
  - rewrite utf8_char_3 by lia. cbn [app utf8_next]. unfold second_ok, is_cont. zb. rewrite D2, M1, M0.
    assert (x = 0) by lia. clear D3. subst x. small.
    destruct (Z.ltb_spec (224 + (0 * 64 + y)) 128); [lia|].
    destruct (Z.ltb_spec (224 + (0 * 64 + y)) 194); [lia|].
    destruct (Z.ltb_spec (224 + (0 * 64 + y)) 224); [lia|].
    destruct (Z.ltb_spec (224 + (0 * 64 + y)) 245); [|lia].
    match goal with |- context [if ?b then _ else (Bad [_], _)] => replace b with true end.
    2:{ symmetry. rewrite !andb_true_iff, !Z.leb_le.
        destruct (Z.eqb_spec (224 + (0 * 64 + y)) 224), (Z.eqb_spec (224 + (0 * 64 + y)) 237),
                 (Z.eqb_spec (224 + (0 * 64 + y)) 240), (Z.eqb_spec (224 + (0 * 64 + y)) 244);
          rewrite ?Z.leb_le; repeat split; lia. }
    destruct (Z.ltb_spec (224 + (0 * 64 + y)) 240); [|lia].
    destruct (Z.leb_spec 128 (128 + w)); [|lia]. destruct (Z.leb_spec (128 + w) 191); [|lia]. cbn [andb].
    replace (Z.to_N _) with c by lia. reflexivity.
  - rewrite utf8_char_4 by lia. cbn [app utf8_next]. unfold second_ok, is_cont. zb. rewrite D3, M2, M1, M0.
    assert (0 <= x <= 4) by lia. small.
    destruct (Z.ltb_spec (240 + x) 128); [lia|].
    destruct (Z.ltb_spec (240 + x) 194); [lia|].
    destruct (Z.ltb_spec (240 + x) 224); [lia|].
    destruct (Z.ltb_spec (240 + x) 245); [|lia].
    match goal with |- context [if ?b then _ else (Bad [_], _)] => replace b with true end.
    2:{ symmetry. rewrite !andb_true_iff, !Z.leb_le.
        destruct (Z.eqb_spec (240 + x) 224), (Z.eqb_spec (240 + x) 237),
                 (Z.eqb_spec (240 + x) 240), (Z.eqb_spec (240 + x) 244);
          rewrite ?Z.leb_le; repeat split; lia. }
    destruct (Z.ltb_spec (240 + x) 240); [lia|].
    destruct (Z.leb_spec 128 (128 + z)); [|lia]. destruct (Z.leb_spec (128 + z) 191); [|lia].
    destruct (Z.leb_spec 128 (128 + w)); [|lia]. destruct (Z.leb_spec (128 + w) 191); [|lia]. cbn [andb].
    replace (Z.to_N _) with c by lia. reflexivity.
Qed.

Lemma second_ok_true z0 b1 : second_ok z0 b1 = true ->
  0x80 <= Z_of_byte b1 <= 0xBF /\ (z0 = 0xE0 -> 0xA0 <= Z_of_byte b1) /\ (z0 = 0xED -> Z_of_byte b1 <= 0x9F)
  /\ (z0 = 0xF0 -> 0x90 <= Z_of_byte b1) /\ (z0 = 0xF4 -> Z_of_byte b1 <= 0x8F).
Proof.
  unfold second_ok, is_cont. rewrite !andb_true_iff.
  destruct (Z.eqb_spec z0 0xE0), (Z.eqb_spec z0 0xED), (Z.eqb_spec z0 0xF0), (Z.eqb_spec z0 0xF4); lia.
Qed.
Lemma is_cont_true b : is_cont b = true -> 0x80 <= Z_of_byte b <= 0xBF.
Proof. unfold is_cont. lia. Qed.

Lemma next_sound bs c r : utf8_next bs = Some (Char c, r) -> scalar c /\ bs = utf8_char c ++ r.
Proof.
  assert (R : forall b, 0 <= Z_of_byte b < 256) by apply Z_of_byte_range.
  destruct bs as [|b0 r0]; [discriminate|]. cbn [utf8_next]. pose proof (R b0) as R0.
  destruct (Z.ltb_spec (Z_of_byte b0) 0x80).
  { intro E. injection E as <- <-. split; [unfold scalar; lia|].
    rewrite utf8_char_1 by lia. cbn [app]. f_equal. symmetry. apply byte_of_Z_eq. lia. }
  destruct (Z.ltb_spec (Z_of_byte b0) 0xC2); [discriminate|].
  destruct (Z.ltb_spec (Z_of_byte b0) 0xE0).
  { destruct r0 as [|b1 r1]; [discriminate|]. destruct (is_cont b1) eqn:C1; [|discriminate].
    apply is_cont_true in C1. intro E. injection E as <- <-. split; [unfold scalar; lia|].
    rewrite utf8_char_2 by lia. cbn [app]. rewrite Z2N.id by lia.
    set (u := Z_of_byte b0 - 0xC0) in *. set (v := Z_of_byte b1 - 0x80) in *.
    rewrite (Z.div_add_l u 64), (Z.add_comm (u * 64)), Z.mod_add, (Z.div_small v 64), (Z.mod_small v 64) by lia.
    f_equal; [symmetry; apply byte_of_Z_eq; lia|]. f_equal. symmetry. apply byte_of_Z_eq. lia. }
  destruct (Z.ltb_spec (Z_of_byte b0) 0xF5); [|discriminate].
  destruct r0 as [|b1 r1]; [discriminate|]. destruct (second_ok _ b1) eqn:C1; [|discriminate].
  apply second_ok_true in C1 as (C1 & Ce & Cd & Cf & C4).
  destruct r1 as [|b2 r2]; [discriminate|]. destruct (is_cont b2) eqn:C2; [|discriminate]. apply is_cont_true in C2.
  destruct (Z.ltb_spec (Z_of_byte b0) 0xF0).
  { intro E. injection E as <- <-. split; [unfold scalar; lia|].
    rewrite utf8_char_3 by lia. cbn [app]. rewrite Z2N.id by lia.
    destruct (digits_at 0 (Z_of_byte b0 - 0xE0) (Z_of_byte b1 - 0x80) (Z_of_byte b2 - 0x80)) as (_ & E2 & _ & E1 & E0);
      [lia..|]. rewrite Z.mul_0_l, Z.add_0_l in *. rewrite E2, E1, E0.
    f_equal; [symmetry; apply byte_of_Z_eq; lia|]. f_equal; [symmetry; apply byte_of_Z_eq; lia|].
    f_equal. symmetry. apply byte_of_Z_eq. lia. }
  destruct r2 as [|b3 r3]; [discriminate|]. destruct (is_cont b3) eqn:C3; [|discriminate]. apply is_cont_true in C3.
  intro E. injection E as <- <-. split; [unfold scalar; lia|].
  rewrite utf8_char_4 by lia. cbn [app]. rewrite Z2N.id by lia.
  destruct (digits_at (Z_of_byte b0 - 0xF0) (Z_of_byte b1 - 0x80) (Z_of_byte b2 - 0x80) (Z_of_byte b3 - 0x80))
    as (E3 & _ & E2 & E1 & E0); [lia..|]. rewrite E3, E2, E1, E0.
  f_equal; [symmetry; apply byte_of_Z_eq; lia|]. f_equal; [symmetry; apply byte_of_Z_eq; lia|].
  f_equal; [symmetry; apply byte_of_Z_eq; lia|]. f_equal. symmetry. apply byte_of_Z_eq. lia.
Qed.

(** What a reported part looks like. *)
Lemma next_bad bs p r : utf8_next bs = Some (Bad p, r) ->
  bs = p ++ r /\ p <> []
  /\ (length p = 1%nat
      \/ exists b0 b1 q, p = b0 :: b1 :: q /\ (0xE0 <= Z_of_byte b0 < 0xF5) /\ second_ok (Z_of_byte b0) b1 = true
           /\ (q = [] \/ exists b2, q = [b2] /\ 0xF0 <= Z_of_byte b0 /\ is_cont b2 = true)).
Proof.
  destruct bs as [|b0 r0]; [discriminate|]. cbn [utf8_next]. intro E. apply (f_equal (fun o => match o with Some x => x | None => (Bad [], []) end)) in E.
  cbn beta iota in E.
  assert (Q : forall t, (Bad [b0], t) = (Bad p, r) -> t = r0 ->
    b0 :: r0 = p ++ r /\ p <> [] /\ (length p = 1%nat \/ exists b0 b1 q, p = b0 :: b1 :: q /\ (0xE0 <= Z_of_byte b0 < 0xF5) /\ second_ok (Z_of_byte b0) b1 = true
           /\ (q = [] \/ exists b2, q = [b2] /\ 0xF0 <= Z_of_byte b0 /\ is_cont b2 = true))).
  { intros t Et ->. injection Et as <- <-. repeat split; [discriminate|left; reflexivity]. }
  destruct (Z.ltb_spec (Z_of_byte b0) 0x80); [discriminate|].
  destruct (Z.ltb_spec (Z_of_byte b0) 0xC2); [eauto|].
  destruct (Z.ltb_spec (Z_of_byte b0) 0xE0).
  { destruct r0 as [|b1 r1]; [eauto|]. destruct (is_cont b1); [discriminate|eauto]. }
  destruct (Z.ltb_spec (Z_of_byte b0) 0xF5); [|eauto].
  destruct r0 as [|b1 r1]; [eauto|]. destruct (second_ok _ b1) eqn:C1; [|eauto]. clear Q.
  destruct r1 as [|b2 r2].
  { injection E as <- <-. repeat split; [discriminate|]. right. exists b0, b1, []. repeat split; auto. }
  destruct (is_cont b2) eqn:C2.
  2:{ injection E as <- <-. repeat split; [discriminate|]. right. exists b0, b1, []. repeat split; auto. }
  destruct (Z.ltb_spec (Z_of_byte b0) 0xF0); [discriminate|].
  destruct r2 as [|b3 r3].
  { injection E as <- <-. repeat split; [discriminate|]. right. exists b0, b1, [b2]. repeat split; eauto. }
  destruct (is_cont b3); [discriminate|].
  injection E as <- <-. repeat split; [discriminate|]. right. exists b0, b1, [b2]. repeat split; eauto.
Qed.

(** The byte after the reported part decides, whatever follows it. *)
Lemma next_bad_any p x r r' : utf8_next (p ++ x :: r) = Some (Bad p, x :: r) -> utf8_next (p ++ x :: r') = Some (Bad p, x :: r').
Proof.
  intro E. destruct (next_bad _ _ _ E) as (_ & _ & [L|(b0 & b1 & q & -> & Hb & S & [->|(b2 & -> & Hf & C)])]).
  - destruct p as [|b0 [|? ?]]; try discriminate. cbn [app utf8_next] in *.
    destruct (Z_of_byte b0 <? 0x80); [discriminate|]. destruct (Z_of_byte b0 <? 0xC2); [reflexivity|].
    destruct (Z_of_byte b0 <? 0xE0). { destruct (is_cont x); [discriminate|reflexivity]. }
    destruct (Z_of_byte b0 <? 0xF5); [|reflexivity].
    destruct (second_ok _ x); [|reflexivity]. exfalso.
    destruct r as [|b2 r2]; [discriminate|]. destruct (is_cont b2); [|discriminate].
    destruct (Z_of_byte b0 <? 0xF0); [discriminate|]. destruct r2 as [|b3 r3]; [discriminate|].
    destruct (is_cont b3); discriminate.
  - cbn [app utf8_next] in *. rewrite S in *.
    destruct (Z.ltb_spec (Z_of_byte b0) 0x80); [lia|]. destruct (Z.ltb_spec (Z_of_byte b0) 0xC2); [lia|].
    destruct (Z.ltb_spec (Z_of_byte b0) 0xE0); [lia|]. destruct (Z.ltb_spec (Z_of_byte b0) 0xF5); [|lia].
    destruct (is_cont x); [|reflexivity]. exfalso.
    destruct (Z_of_byte b0 <? 0xF0); [discriminate|]. destruct r as [|b3 r3]; [discriminate|].
    destruct (is_cont b3); discriminate.
  - cbn [app utf8_next] in *. rewrite S, C in *.
    destruct (Z.ltb_spec (Z_of_byte b0) 0x80); [lia|]. destruct (Z.ltb_spec (Z_of_byte b0) 0xC2); [lia|].
    destruct (Z.ltb_spec (Z_of_byte b0) 0xE0); [lia|]. destruct (Z.ltb_spec (Z_of_byte b0) 0xF5); [|lia].
    destruct (Z.ltb_spec (Z_of_byte b0) 0xF0); [lia|]. destruct (is_cont x); [discriminate|reflexivity].
Qed.

(** Two or three reported bytes do begin a character. *)
Lemma bad_starts b0 b1 q : 0xE0 <= Z_of_byte b0 < 0xF5 -> second_ok (Z_of_byte b0) b1 = true ->
  (q = [] \/ exists b2, q = [b2] /\ 0xF0 <= Z_of_byte b0 /\ is_cont b2 = true) -> starts (b0 :: b1 :: q).
Proof.
  intros Hb HS Hq.
  assert (K : is_cont x80 = true) by reflexivity.
  assert (exists t c, t <> [] /\ utf8_next ((b0 :: b1 :: q) ++ t) = Some (Char c, [])) as (t & c & Ht & E).
  { destruct (Z.ltb_spec (Z_of_byte b0) 0xF0) as [L|L].
    - destruct Hq as [->|(b2 & _ & ? & _)]; [|lia]. exists [x80].
      cbn [app utf8_next]. rewrite HS, K.
      destruct (Z.ltb_spec (Z_of_byte b0) 0x80); [lia|]. destruct (Z.ltb_spec (Z_of_byte b0) 0xC2); [lia|].
      destruct (Z.ltb_spec (Z_of_byte b0) 0xE0); [lia|]. destruct (Z.ltb_spec (Z_of_byte b0) 0xF5); [|lia].
      destruct (Z.ltb_spec (Z_of_byte b0) 0xF0); [|lia]. eexists. split; [discriminate|reflexivity].
    - destruct Hq as [->|(b2 & -> & _ & C)]; [exists [x80; x80]|exists [x80]];
      cbn [app utf8_next]; rewrite HS, ?C, K;
      (destruct (Z.ltb_spec (Z_of_byte b0) 0x80); [lia|]; destruct (Z.ltb_spec (Z_of_byte b0) 0xC2); [lia|];
      destruct (Z.ltb_spec (Z_of_byte b0) 0xE0); [lia|]; destruct (Z.ltb_spec (Z_of_byte b0) 0xF5); [|lia];
      destruct (Z.ltb_spec (Z_of_byte b0) 0xF0); [lia|]; eexists; split; [discriminate|reflexivity]). }
  apply next_sound in E as (Hc & E). rewrite app_nil_r in E. exists c, t. auto.
Qed.

Lemma prefix_longer {A} (p q r r' : list A) : p ++ r = q ++ r' -> (length p < length q)%nat ->
  exists x q', q = p ++ x :: q' /\ r = x :: q' ++ r'.
Proof.
  revert q. induction p as [|a p IH]; intros [|b q] E L; cbn in L; try lia.
  - cbn [app] in E. exists b, q. auto.
  - cbn [app] in E. injection E as <- E. destruct (IH q E ltac:(lia)) as (x & q' & -> & ->). exists x, q'. auto.
Qed.

Lemma next_malformed bs p r : utf8_next bs = Some (Bad p, r) -> bs = p ++ r /\ p <> [] /\ malformed bs p.
Proof.
  intro E. destruct (next_bad _ _ _ E) as (Hbs & Hp & Hs). split; [exact Hbs|]. split; [exact Hp|].
  split; [|split; [|split]].
  - intros c r' Hc ->. rewrite next_char in E by exact Hc. discriminate.
  - destruct Hs as [L|(b0 & b1 & q & -> & Hb & S & Hq)]; [left|right; apply bad_starts; assumption].
    rewrite len_length, L. reflexivity.
  - eauto.
  - intros q r' Eq (c & t & Hc & Et & Ht). destruct (Z.leb_spec (len q) (len p)) as [|L]; [assumption|exfalso].
    rewrite !len_length in L. rewrite Hbs in Eq. destruct (prefix_longer p q r r' Eq) as (x & q' & -> & ->); [lia|].
    rewrite Hbs in E. apply (next_bad_any _ _ _ (q' ++ t)) in E.
    assert (p ++ x :: q' ++ t = utf8_char c ++ []) as Ec by (rewrite app_nil_r, Et, <- app_assoc; reflexivity).
    rewrite Ec, next_char in E by exact Hc. discriminate.
Qed.

Lemma malformed_next p r : p <> [] -> malformed (p ++ r) p -> utf8_next (p ++ r) = Some (Bad p, r).
Proof.
  intros Hp (Hno & Hs & _ & Hmax).
  destruct (utf8_next (p ++ r)) as [[[c|p'] r']|] eqn:E.
  - apply next_sound in E as (Hc & E). destruct (Hno c r' Hc E).
  - destruct (next_malformed _ _ _ E) as (Eb & Hp' & (_ & Hs' & _ & Hmax')).
    assert (1 <= len p) by (destruct p; [congruence|rewrite len_length; cbn; lia]).
    assert (1 <= len p') by (destruct p'; [congruence|rewrite len_length; cbn; lia]).
    assert (len p <= len p') by (destruct Hs; [lia|eauto]).
    assert (len p' <= len p) by (destruct Hs'; [lia|eauto]).
    assert (L : length p = length p') by (rewrite !len_length in *; lia).
    assert (p = p' /\ r = r') as (-> & ->); [|reflexivity].
    clear -Eb L. revert p' Eb L. induction p as [|a p IH]; intros [|b p'] E L; try discriminate; auto.
    cbn in E, L. injection E as <- E. destruct (IH p' E ltac:(lia)) as (-> & ->). auto.
  - destruct p; [congruence|discriminate].
Qed.

Lemma char_nonempty c : utf8_char c <> [].
Proof. unfold utf8_char. discriminate. Qed.
Lemma next_shorter bs p r : utf8_next bs = Some (p, r) -> (length r < length bs)%nat.
Proof.
  intro E. destruct p as [c|p].
  - apply next_sound in E as (_ & ->). pose proof (char_nonempty c). destruct (utf8_char c); [congruence|]. rewrite app_length. cbn. lia.
  - apply next_bad in E as (-> & Hp & _). destruct p; [congruence|]. rewrite app_length. cbn. lia.
Qed.
Lemma pieces_more n : forall bs, (length bs <= n)%nat -> pieces_fuel n bs = utf8_pieces bs.
Proof.
  unfold utf8_pieces. induction n as [n IH] using lt_wf_ind. intros bs L.
  destruct n as [|n]; [destruct bs; [reflexivity|cbn in L; lia]|].
  destruct bs as [|b bs]; [reflexivity|].
  cbn [length]. cbn [pieces_fuel]. destruct (utf8_next (b :: bs)) as [[p r]|] eqn:E; [|reflexivity].
  apply next_shorter in E. cbn [length] in E, L. f_equal.
  rewrite (IH n) by lia. symmetry. apply IH; lia.
Qed.
Lemma pieces_next bs p r : utf8_next bs = Some (p, r) -> utf8_pieces bs = p :: utf8_pieces r.
Proof.
  intro E. pose proof (next_shorter _ _ _ E) as L. unfold utf8_pieces at 1.
  destruct (length bs) as [|n] eqn:En; [lia|]. cbn [pieces_fuel]. rewrite E. f_equal. apply pieces_more. lia.
Qed.

Definition seg_of (p : utf8_piece) : seg := match p with Char c => Good c | Bad p => Malformed p end.
Lemma pieces_segs bs : segs bs (map seg_of (utf8_pieces bs)).
Proof.
  remember (length bs) as n eqn:En. revert bs En. induction n as [n IH] using lt_wf_ind. intros bs ->.
  destruct (utf8_next bs) as [[p r]|] eqn:E.
  - rewrite (pieces_next _ _ _ E). pose proof (next_shorter _ _ _ E) as L. specialize (IH _ L r eq_refl).
    cbn [map]. destruct p as [c|p]; cbn [seg_of].
    + apply next_sound in E as (Hc & ->). constructor; assumption.
    + apply next_malformed in E as (E & Hp & Hm). rewrite E in *. constructor; assumption.
  - destruct bs; [constructor|discriminate].
Qed.
Lemma segs_pieces bs l : segs bs l -> l = map seg_of (utf8_pieces bs).
Proof.
  induction 1 as [|c bs l Hc _ ->|p bs l Hp Hm _ ->]; [reflexivity| |].
  - rewrite (pieces_next _ _ _ (next_char c bs Hc)). reflexivity.
  - rewrite (pieces_next _ _ _ (malformed_next p bs Hp Hm)). reflexivity.
Qed.

Lemma segs_exist bs : exists l, segs bs l.
Proof. eexists. apply pieces_segs. Qed.
Lemma segs_unique bs l l' : segs bs l -> segs bs l' -> l = l'.
Proof. intros H H'. apply segs_pieces in H, H'. congruence. Qed.
Lemma segs_utf8 s : Forall scalar s -> segs (utf8 s) (map Good s).
Proof. induction 1; [constructor|]. cbn [utf8 flat_map map]. constructor; assumption. Qed.
Lemma segs_good_utf8 bs s : segs bs (map Good s) -> Forall scalar s /\ bs = utf8 s.
Proof.
  revert bs. induction s as [|c s IH]; intros bs H; inversion H; subst.
  - auto.
  - match goal with H : segs _ (map Good s) |- _ => destruct (IH _ H) as (Hs & ->) end. split; [constructor; assumption|reflexivity].
Qed.

(** ** The handlers *)
Lemma handle_pieces_good name f l : (forall p, handle name p = Ok (f p)) ->
  handle_pieces name l = Ok (text f (map seg_of l)).
Proof.
  intro H. induction l as [|[c|p] l IH]; [reflexivity| |]; cbn [handle_pieces]; rewrite IH, ?H; reflexivity.
Qed.
Lemma decode_utf8_text name f bs l : str_eqb name (lit "surrogatepass") = false -> (forall p, handle name p = Ok (f p)) -> segs bs l ->
  decode_utf8 name bs = Ok (text f l).
Proof. intros Hn H Hl. apply segs_pieces in Hl as ->. unfold decode_utf8. rewrite Hn. apply handle_pieces_good, H. Qed.
Lemma decode_utf8_err name e bs l : str_eqb name (lit "surrogatepass") = false -> (forall p, handle name p = Err e) -> segs bs l ->
  decode_utf8 name bs = (if existsb (fun s => match s with Malformed _ => true | Good _ => false end) l
                           then Err e else Ok (text (fun _ => []) l)).
Proof.
  intros Hn H Hl. apply segs_pieces in Hl as ->. unfold decode_utf8. rewrite Hn.
  induction (utf8_pieces bs) as [|[c|p] m IH]; [reflexivity| |]; cbn [handle_pieces map seg_of existsb orb].
  - rewrite IH. destruct (existsb _ _); reflexivity.
  - rewrite H. reflexivity.
Qed.
Lemma text_good f s : text f (map Good s) = s.
Proof. unfold text. induction s as [|c s IH]; [reflexivity|]. cbn [map flat_map app]. rewrite IH. reflexivity. Qed.
Lemma good_or_bad l : (exists s, l = map Good s) \/ (exists s p l', l = map Good s ++ Malformed p :: l').
Proof.
  induction l as [|[c|p] l [(s & ->)|(s & p' & l' & ->)]].
  - left. exists []. reflexivity.
  - left. exists (c :: s). reflexivity.
  - right. exists (c :: s), p', l'. reflexivity.
  - right. exists [], p, (map Good s). reflexivity.
  - right. exists [], p. eexists. reflexivity.
Qed.

(** *** surrogatepass *)
Lemma char_surrogate c : (0xD800 <= c <= 0xDFFF)%N ->
  exists b0 b1 b2, utf8_char c = [b0; b1; b2] /\ Z_of_byte b0 = 0xED /\ 0xA0 <= Z_of_byte b1 <= 0xBF /\ 0x80 <= Z_of_byte b2 <= 0xBF
    /\ Z.of_N c = (Z_of_byte b0 - 0xE0) * 4096 + (Z_of_byte b1 - 0x80) * 64 + (Z_of_byte b2 - 0x80).
Proof.
  intro H. destruct (digits64 (Z.of_N c)) as (x & y & z & w & E & Ry & Rz & Rw & D3 & D2 & M2 & D1 & M1 & M0).
  rewrite utf8_char_3 by lia. do 3 eexists. split; [reflexivity|]. zb. rewrite D2, M1, M0.
  assert (x = 0) by lia. clear D3. subst x. small. repeat split; lia.
Qed.
Lemma surrogate_next c bs : (0xD800 <= c <= 0xDFFF)%N ->
  (exists p r, utf8_next (utf8_char c ++ bs) = Some (Bad p, r)) /\ surrogate_at (utf8_char c ++ bs) = Some (c, bs).
Proof.
  intro H. destruct (char_surrogate c H) as (b0 & b1 & b2 & -> & H0 & H1 & H2 & E). split.
  - exists [b0], (b1 :: b2 :: bs). cbn [app utf8_next]. rewrite H0. cbn [Z.ltb Z.compare Pos.compare Pos.compare_cont].
    replace (second_ok 237 b1) with false; [reflexivity|]. symmetry. unfold second_ok. cbn [Z.eqb Pos.eqb].
    destruct (Z.leb_spec (Z_of_byte b1) 159); [lia|]. rewrite !andb_false_r. reflexivity.
  - cbn [app surrogate_at]. unfold is_cont. rewrite <- E.
    destruct (Z.leb_spec 0xE0 (Z_of_byte b0)); [|lia]. destruct (Z.ltb_spec (Z_of_byte b0) 0xF0); [|lia].
    destruct (Z.leb_spec 0x80 (Z_of_byte b1)); [|lia]. destruct (Z.leb_spec (Z_of_byte b1) 0xBF); [|lia].
    destruct (Z.leb_spec 0x80 (Z_of_byte b2)); [|lia]. destruct (Z.leb_spec (Z_of_byte b2) 0xBF); [|lia].
    destruct (Z.leb_spec 0xD800 (Z.of_N c)); [|lia]. destruct (Z.leb_spec (Z.of_N c) 0xDFFF); [|lia].
    cbn [andb]. rewrite N2Z.id. reflexivity.
Qed.
Lemma surrogate_sound bs c r : surrogate_at bs = Some (c, r) -> code_point c /\ bs = utf8_char c ++ r.
Proof.
  destruct bs as [|b0 [|b1 [|b2 bs]]]; try discriminate. cbn [surrogate_at]. unfold is_cont.
  match goal with |- context [if ?x then _ else None] => destruct x eqn:C end; [|discriminate]. cbv zeta.
  match goal with |- context [if ?x then _ else None] => destruct x eqn:D end; [|discriminate]. intro E. injection E as <- <-.
  assert (0xE0 <= Z_of_byte b0 < 0xF0 /\ 0x80 <= Z_of_byte b1 <= 0xBF /\ 0x80 <= Z_of_byte b2 <= 0xBF) as (H0 & H1 & H2) by lia.
  split; [unfold code_point; lia|]. rewrite utf8_char_3 by lia. cbn [app]. rewrite Z2N.id by lia.
  destruct (digits_at 0 (Z_of_byte b0 - 0xE0) (Z_of_byte b1 - 0x80) (Z_of_byte b2 - 0x80)) as (_ & E2 & _ & E1 & E0);
    [lia..|]. rewrite Z.mul_0_l, Z.add_0_l in *. rewrite E2, E1, E0.
  f_equal; [symmetry; apply byte_of_Z_eq; lia|]. f_equal; [symmetry; apply byte_of_Z_eq; lia|].
  f_equal. symmetry. apply byte_of_Z_eq. lia.
Qed.
Lemma pass_utf8 s : Forall code_point s -> forall n, (length (utf8 s) <= n)%nat -> pass_fuel n (utf8 s) = Ok s.
Proof.
  induction 1 as [|c s Hc _ IH]; intros n L; [destruct n; reflexivity|]. cbn [utf8 flat_map] in *. fold (utf8 s) in *.
  rewrite app_length in L. pose proof (char_nonempty c) as Ne.
  assert (1 <= length (utf8_char c))%nat by (destruct (utf8_char c); [congruence|cbn; lia]).
  destruct n as [|n]; [lia|]. cbn [pass_fuel].
  destruct (scalar_dec c) as [Hs|Hs].
  - rewrite next_char by exact Hs. rewrite IH by lia. reflexivity.
  - destruct (surrogate_next c (utf8 s)) as ((p & r & ->) & ->); [unfold scalar, code_point in *; lia|]. rewrite IH by lia. reflexivity.
Qed.
Lemma pass_cases n : forall bs, (length bs <= n)%nat -> pass_fuel n bs = Err UnicodeDecodeError
  \/ exists s, pass_fuel n bs = Ok s /\ Forall code_point s /\ bs = utf8 s.
Proof.
  induction n as [|n IH]; intros bs L.
  - destruct bs; [|cbn in L; lia]. right. exists []. auto.
  - cbn [pass_fuel]. destruct (utf8_next bs) as [[[c|p] r]|] eqn:E.
    + pose proof (next_shorter _ _ _ E) as Ls. apply next_sound in E as (Hc & ->).
      destruct (IH r ltac:(lia)) as [->|(s & -> & Hs & ->)]; [left; reflexivity|right].
      exists (c :: s). split; [reflexivity|]. split; [constructor; [unfold scalar, code_point in *; lia|assumption]|reflexivity].
    + destruct (surrogate_at bs) as [[c r']|] eqn:S; [|left; reflexivity]. apply surrogate_sound in S as (Hc & ->).
      rewrite app_length in L. pose proof (char_nonempty c) as Ne.
      assert (1 <= length (utf8_char c))%nat by (destruct (utf8_char c); [congruence|cbn; lia]).
      destruct (IH r' ltac:(lia)) as [->|(s & -> & Hs & ->)]; [left; reflexivity|right].
      exists (c :: s). split; [reflexivity|]. split; [constructor; assumption|reflexivity].
    + destruct bs; [|discriminate]. right. exists []. auto.
Qed.
Lemma surrogatepass_ok s : Forall code_point s -> decode_utf8 (lit "surrogatepass") (utf8 s) = Ok s.
Proof. intro H. exact (pass_utf8 s H _ (le_n _)). Qed.
Lemma surrogatepass_raises bs : (forall s, Forall code_point s -> bs <> utf8 s) -> decode_utf8 (lit "surrogatepass") bs = Err UnicodeDecodeError.
Proof.
  intro N. change (pass_fuel (length bs) bs = Err UnicodeDecodeError). destruct (pass_cases _ bs (le_n _)) as [E|(s & _ & Hs & E)]; [exact E|].
  destruct (N s Hs E).
Qed.

Lemma decode_utf8_utf8 name s : Forall scalar s -> decode_utf8 name (utf8 s) = Ok s.
Proof.
  intro Hs. unfold decode_utf8. destruct (str_eqb _ _).
  - apply pass_utf8; [|lia]. eapply Forall_impl; [|exact Hs]. intros c Hc. unfold scalar, code_point in *. lia.
  - induction Hs as [|c s Hc _ IH]; [reflexivity|].
    cbn [utf8 flat_map]. rewrite (pieces_next _ _ _ (next_char c _ Hc)). cbn [handle_pieces].
    unfold utf8 in IH. rewrite IH. reflexivity.
Qed.
Lemma existsb_good s : existsb (fun s => match s with Malformed _ => true | Good _ => false end) (map Good s) = false.
Proof. induction s; [reflexivity|assumption]. Qed.
Lemma existsb_bad s p l : existsb (fun s => match s with Malformed _ => true | Good _ => false end) (map Good s ++ Malformed p :: l) = true.
Proof. rewrite existsb_app. cbn. apply orb_true_r. Qed.
Lemma raises name e bs : str_eqb name (lit "surrogatepass") = false -> (forall p, handle name p = Err e) -> ~ (exists s, Forall scalar s /\ bs = utf8 s) -> decode_utf8 name bs = Err e.
Proof.
  intros Hn H N. destruct (segs_exist bs) as (l & Hl). rewrite (decode_utf8_err name e bs l Hn H Hl).
  destruct (good_or_bad l) as [(s & ->)|(s & p & l' & ->)]; [|rewrite existsb_bad; reflexivity].
  apply segs_good_utf8 in Hl. destruct N. eauto.
Qed.
Lemma strict_is_utf8 bs : decode_utf8 (lit "strict") bs = utf8_decode bs.
Proof.
  destruct (utf8_decode_cases bs) as [E|(s & E & Hs & ->)]; rewrite E.
  - apply raises; [reflexivity..|]. intros (s & Hs & ->). rewrite utf8_decode_utf8 in E by assumption. discriminate.
  - apply decode_utf8_utf8. assumption.
Qed.
Lemma handle_backslash p : handle (lit "backslashreplace") p = Ok (escape p).
Proof.
  change (handle (lit "backslashreplace") p) with (@Ok pystr (flat_map (fun b => lit "\x" ++ hex_of_byte b) p)).
  f_equal. unfold escape. apply flat_map_ext. intro b. f_equal. rewrite <- hex_of_bytes_eq.
  unfold hex_of_bytes. cbn [flat_map]. rewrite app_nil_r. reflexivity.
Qed.
Lemma handle_escape p : handle (lit "surrogateescape") p = Ok (lone_surrogates p).
Proof.
  change (handle (lit "surrogateescape") p) with (@Ok pystr (map (fun b => Z.to_N (0xDC00 + Z_of_byte b)) p)).
  f_equal. apply map_ext. intro b. unfold Z_of_byte. lia.
Qed.

(** Malformed parts contain no ASCII. *)
Lemma malformed_high bs p : p <> [] -> malformed bs p -> Forall (fun b => 0x80 <= Z_of_byte b) p.
Proof.
  intros Hp Hm. pose proof Hm as (_ & _ & (r & ->) & _). apply malformed_next in Hm; [|exact Hp].
  destruct (next_bad _ _ _ Hm) as (_ & _ & [L|(b0 & b1 & q & -> & Hb & S & Hq)]).
  - destruct p as [|b0 [|? ?]]; try discriminate. constructor; [|constructor].
    cbn [app utf8_next] in Hm. destruct (Z.ltb_spec (Z_of_byte b0) 0x80); [discriminate|assumption].
  - apply second_ok_true in S as (S & _). constructor; [lia|]. constructor; [lia|].
    destruct Hq as [->|(b2 & -> & _ & C)]; [constructor|]. apply is_cont_true in C. constructor; [lia|constructor].
Qed.
Lemma unescape_app s t : unescape (s ++ t) = unescape s ++ unescape t.
Proof. apply flat_map_app. Qed.
Lemma unescape_lone p : Forall (fun b => 0x80 <= Z_of_byte b) p -> unescape (lone_surrogates p) = p.
Proof.
  induction 1 as [|b p Hb _ IH]; [reflexivity|]. unfold lone_surrogates in *. cbn [map unescape flat_map].
  fold (unescape (map (fun b => (0xDC00 + Byte.to_N b)%N) p)). rewrite IH.
  pose proof (Z_of_byte_range b) as R. unfold Z_of_byte in Hb, R.
  destruct (N.leb_spec 0xDC80 (0xDC00 + Byte.to_N b)); [|lia]. destruct (N.leb_spec (0xDC00 + Byte.to_N b) 0xDCFF); [|lia].
  cbn [andb app]. f_equal. rewrite byte_val_eq. apply byte_of_Z_eq. unfold Z_of_byte. lia.
Qed.
Lemma unescape_text bs l : segs bs l -> unescape (text lone_surrogates l) = bs.
Proof.
  induction 1 as [|c bs l Hc _ IH|p bs l Hp Hm _ IH]; [reflexivity| |]; unfold text in *; cbn [flat_map]; rewrite unescape_app, IH.
  - cbn [unescape flat_map]. rewrite app_nil_r. f_equal. unfold scalar in Hc.
    destruct (N.leb_spec 0xDC80 c), (N.leb_spec c 0xDCFF); cbn [andb]; try reflexivity. lia.
  - rewrite unescape_lone by (eapply malformed_high; eassumption). reflexivity.
Qed.

(** In the decoder *)
Lemma string_decoder_reads h s name buf st :
  decode_with h (string_decoder s name) buf st
  = (' (v, st') <- decode_with h (DByteString s) buf st ;;
     match v with PBytes b => t <- decode_utf8 name b ;; Ok (PStr t, st') | _ => Err TypeError end).
Proof.
  unfold string_decoder. cbn [decode_with]. destruct (read_bytestring _ buf st) as [[b st']|]; reflexivity.
Qed.
Ltac Zify.zify_post_hook ::= Z.div_mod_to_equations.
