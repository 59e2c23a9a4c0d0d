(** Matching the grammar with parsimonious's algorithm does what the functions
    of Grammar.v do; where the error is recorded, as functions in their style. *)
From Coq Require Import Strings.String Lia.
From Verif Require Import Py Address Grammar GrammarProofs Peg.
Open Scope nat_scope.

(** ** Where failures are recorded *)

Definition off (s r : pystr) : nat := length s - length r.
Definition m_sub (s : pystr) (p e : nat) : nat :=
  match s with
  | [] => e
  | _ =>
      match p_digits s with
      | None => max e p
      | Some (_, s1) =>
          match p_char c_x s1 with
          | None => max e p
          | Some s2 => match p_digits s2 with None => max e (p + off s s2) | Some _ => e end
          end
      end
  end.
Definition m_dim (s : pystr) (p e : nat) : nat :=
  match p_char c_lbrack s with
  | None => max e p
  | Some s1 =>
      match p_digits s1 with
      | Some (_, s2) => match p_char c_rbrack s2 with Some _ => e | None => max e p end
      | None => max e (p + 1)
      end
  end.
Fixpoint m_arr (fuel : nat) (s : pystr) (p e : nat) : nat :=
  match fuel with
  | O => e
  | S f =>
      match s with
      | [] => e
      | _ => match p_dim s with
             | None => m_dim s p e
             | Some (_, s') => m_arr f s' (p + off s s') (m_dim s p e)
             end
      end
  end.
Fixpoint m_type (fuel : nat) (s : pystr) (p e : nat) : nat :=
  match fuel with
  | O => e
  | S f =>
      match p_char c_lparen s with
      | Some s1 =>
          let e1 := m_type f s1 (p + 1) e in
          match p_type f s1 with
          | None => max e1 p
          | Some (_, s2) =>
              let e2 := m_next f s2 (p + off s s2) e1 in
              let '(_, s3) := p_next f s2 in
              match p_char c_rparen s3 with
              | None => max e2 p
              | Some s4 => m_arr (length s4) s4 (p + off s s4) e2
              end
          end
      | None =>
          let e1 := max e p in
          match p_alphas s with
          | None => e1
          | Some (_, s1) =>
              let e2 := m_sub s1 (p + off s s1) e1 in
              let '(_, s2) := p_sub s1 in
              m_arr (length s2) s2 (p + off s s2) e2
          end
      end
  end
with m_next (fuel : nat) (s : pystr) (p e : nat) : nat :=
  match fuel with
  | O => e
  | S f =>
      match s with
      | [] => e
      | _ =>
          match p_char c_comma s with
          | None => max e p
          | Some s1 =>
              let e1 := m_type f s1 (p + 1) e in
              match p_type f s1 with
              | None => max e1 p
              | Some (_, s2) => m_next f s2 (p + off s s2) e1
              end
          end
      end
  end.

(** ** The inner loops of match_core by name *)

Section Loops.
Variable f : nat.
Fixpoint seq_core (l : list pexp) (s : pystr) (pos : nat) (err : option nat) : option (option (pystr * list node) * option nat) :=
  match l with
  | [] => Some (Some ([], []), err)
  | e1 :: l' =>
      match match_core f None e1 s pos err with
      | None => None
      | Some (None, err1) => Some (None, err1)
      | Some (Some n, err1) =>
          let k := length (n_text n) in
          match seq_core l' (skipn k s) (pos + k) err1 with
          | Some (Some (t, ns), err2) => Some (Some (n_text n ++ t, n :: ns), err2)
          | x => x
          end
      end
  end.
Section One.
Variables (s : pystr) (pos : nat).
Fixpoint one_core (l : list pexp) (err : option nat) : option (option (pystr * list node) * option nat) :=
  match l with
  | [] => Some (None, err)
  | e1 :: l' =>
      match match_core f None e1 s pos err with
      | None => None
      | Some (None, err1) => one_core l' err1
      | Some (Some n, err1) => Some (Some (n_text n, [n]), err1)
      end
  end.
End One.
Section Loop.
Variables (min : nat) (max : option nat) (e1 : pexp).
Fixpoint loop_core (turns : nat) (s : pystr) (pos : nat) (err : option nat) (count : nat) : option (list node * option nat) :=
  if match s with [] => true | _ => match max with Some m => Nat.leb m count | None => false end end
  then Some ([], err)
  else
    match turns with
    | O => None
    | S turns' =>
        match match_core f None e1 s pos err with
        | None => None
        | Some (None, err1) => Some ([], err1)
        | Some (Some n, err1) =>
            let k := length (n_text n) in
            if Nat.leb min (S count) && Nat.eqb k 0 then Some ([n], err1)
            else match loop_core turns' (skipn k s) (pos + k) err1 (S count) with
                 | None => None
                 | Some (ns, err2) => Some (n :: ns, err2)
                 end
        end
    end.
End Loop.
End Loops.
Definition finish name e pos (res : option (option (pystr * list node) * option nat)) : option (option node * option nat) :=
  match res with
  | None => None
  | Some (Some (t, ns), err1) => Some (Some (Node name (kind_of e) pos t ns), err1)
  | Some (None, err1) => Some (None, record name pos err1)
  end.
Lemma core_ref f name r s p err : match_core (S f) name (XRef r) s p err = match_core f (Some r) (rules r) s p err.
Proof. reflexivity. Qed.
Lemma core_lit f name l s p err :
  match_core (S f) name (XLit l) s p err = finish name (XLit l) p (Some (if prefixb l s then Some (l, []) else None, err)).
Proof. reflexivity. Qed.
Lemma core_regex f name a b s p err :
  match_core (S f) name (XRegex a b) s p err = finish name (XRegex a b) p
    (match s with
     | c :: s' => if a c then Some (Some (c :: fst (span b s'), []), err) else Some (None, err)
     | [] => Some (None, err)
     end).
Proof. reflexivity. Qed.
Lemma core_seq f name l s p err : match_core (S f) name (XSeq l) s p err = finish name (XSeq l) p (seq_core f l s p err).
Proof. reflexivity. Qed.
Lemma core_one f name l s p err : match_core (S f) name (XOneOf l) s p err = finish name (XOneOf l) p (one_core f s p l err).
Proof. reflexivity. Qed.
Lemma core_quant f name min max e s p err :
  match_core (S f) name (XQuant min max e) s p err = finish name (XQuant min max e) p
    (match loop_core f min max e (min + length s) s p err 0 with
     | None => None
     | Some (ns, err1) => Some (if Nat.leb min (length ns) then Some (flat_map n_text ns, ns) else None, err1)
     end).
Proof. reflexivity. Qed.
Global Opaque match_core.

(** ** Outcomes *)

(** The expression covers [s] up to [r], and visiting gives [v]. *)
Definition yields f name e s p err (v : pv) (r : pystr) err' : Prop :=
  exists n, match_core f name e s p err = Some (Some n, err') /\ s = n_text n ++ r /\ visit n = v.
Definition fails f name e s p err err' : Prop := match_core f name e s p err = Some (None, err').
Definition seq_yields f l s p err (vs : list pv) (r : pystr) err' : Prop :=
  exists t ns, seq_core f l s p err = Some (Some (t, ns), err') /\ s = t ++ r /\ map visit ns = vs.
Definition seq_fails f l s p err err' : Prop := seq_core f l s p err = Some (None, err').

Lemma skip_app (a b : pystr) : skipn (length a) (a ++ b) = b.
Proof. induction a; cbn; auto. Qed.
Lemma off_app (a b : pystr) : off (a ++ b) b = length a.
Proof. unfold off. rewrite app_length. lia. Qed.

Lemma seq_nil f s p err : seq_yields f [] s p err [] s err.
Proof. exists [], []. auto. Qed.
Lemma seq_cons f e l s p err v s1 err1 vs r err2 :
  yields f None e s p err v s1 err1 -> seq_yields f l s1 (p + off s s1) err1 vs r err2 ->
  seq_yields f (e :: l) s p err (v :: vs) r err2.
Proof.
  intros (n & Hn & Es & Hv) (t & ns & Ht & Es1 & Hvs). subst s1.
  exists (n_text n ++ t), (n :: ns). split; [|split].
  - cbn [seq_core]. rewrite Hn. cbn zeta. rewrite Es at 1. rewrite skip_app.
    rewrite Es, off_app in Ht. rewrite Ht. reflexivity.
  - now rewrite <- app_assoc.
  - cbn. now rewrite Hv, Hvs.
Qed.
Lemma seq_fail_head f e l s p err err1 : fails f None e s p err err1 -> seq_fails f (e :: l) s p err err1.
Proof. unfold fails, seq_fails. intro H. cbn [seq_core]. now rewrite H. Qed.
Lemma seq_fail_tail f e l s p err v s1 err1 err2 :
  yields f None e s p err v s1 err1 -> seq_fails f l s1 (p + off s s1) err1 err2 -> seq_fails f (e :: l) s p err err2.
Proof.
  intros (n & Hn & Es & Hv) Ht. unfold seq_fails in *. cbn [seq_core]. rewrite Hn. cbn zeta.
  rewrite Es at 1. rewrite skip_app. rewrite Es, off_app in Ht. now rewrite Ht.
Qed.
(** A rule, visited by a function of the values of its members. *)
Lemma ref_seq f name r l s p err err' :
  rules r = XSeq l -> seq_fails f l s p err err' -> fails (S (S f)) name (XRef r) s p err (record (Some r) p err').
Proof. unfold fails, seq_fails. intros R H. rewrite core_ref, R, core_seq, H. reflexivity. Qed.
Lemma ref_seq_yields f name r l s p err vs rest err' v :
  rules r = XSeq l -> seq_yields f l s p err vs rest err' ->
  (forall t ns, map visit ns = vs -> visit (Node (Some r) KOther p t ns) = v) ->
  yields (S (S f)) name (XRef r) s p err v rest err'.
Proof.
  intros R (t & ns & Ht & Es & Hv) V. exists (Node (Some r) KOther p t ns). split; [|split].
  - rewrite core_ref, R, core_seq, Ht. reflexivity.
  - exact Es.
  - now apply V.
Qed.
Lemma one_first f name r a b s p err v rest err' :
  rules r = XOneOf [a; b] -> yields f None a s p err v rest err' ->
  (forall t n, visit n = v -> visit (Node (Some r) KOneOf p t [n]) = v) ->
  yields (S (S f)) name (XRef r) s p err v rest err'.
Proof.
  intros R (n & Hn & Es & Hv) V. exists (Node (Some r) KOneOf p (n_text n) [n]). split; [|split].
  - rewrite core_ref, R, core_one. cbn [one_core]. rewrite Hn. reflexivity.
  - exact Es.
  - now apply V.
Qed.
Lemma one_second f name r a b s p err err1 v rest err' :
  rules r = XOneOf [a; b] -> fails f None a s p err err1 -> yields f None b s p err1 v rest err' ->
  (forall t n, visit n = v -> visit (Node (Some r) KOneOf p t [n]) = v) ->
  yields (S (S f)) name (XRef r) s p err v rest err'.
Proof.
  intros R Ha (n & Hn & Es & Hv) V. exists (Node (Some r) KOneOf p (n_text n) [n]). unfold fails in Ha. split; [|split].
  - rewrite core_ref, R, core_one. cbn [one_core]. rewrite Ha, Hn. reflexivity.
  - exact Es.
  - now apply V.
Qed.
Lemma one_fails f name r a b s p err err1 err2 :
  rules r = XOneOf [a; b] -> fails f None a s p err err1 -> fails f None b s p err1 err2 ->
  fails (S (S f)) name (XRef r) s p err (record (Some r) p err2).
Proof. unfold fails. intros R Ha Hb. rewrite core_ref, R, core_one. cbn [one_core]. rewrite Ha, Hb. reflexivity. Qed.

Lemma opt_end f name e p err : yields (S f) name (opt e) [] p err (visit (Node name KOptional p [] [])) [] err.
Proof. exists (Node name KOptional p [] []). unfold opt. rewrite core_quant. cbn. auto. Qed.
Lemma opt_none f e c s p err err' : fails f None e (c :: s) p err err' -> yields (S f) None (opt e) (c :: s) p err VNone (c :: s) err'.
Proof.
  intro H. exists (Node None KOptional p [] []). unfold fails in H. split; [|split]; auto.
  unfold opt. rewrite core_quant. cbn [loop_core plus length Nat.leb]. rewrite H. reflexivity.
Qed.
Lemma opt_some f e c s p err v r err' : yields f None e (c :: s) p err v r err' -> yields (S f) None (opt e) (c :: s) p err v r err'.
Proof.
  intros (n & Hn & Es & Hv). exists (Node None KOptional p (n_text n) [n]). split; [|split].
  - unfold opt. rewrite core_quant. cbn [loop_core plus length Nat.leb]. rewrite Hn. cbn zeta.
    destruct (Nat.eqb (length (n_text n)) 0); cbn [andb].
    + cbn [finish Nat.leb length flat_map kind_of]. now rewrite app_nil_r.
    + assert (Z : forall t s' p' e', loop_core f 0 (Some 1) e t s' p' e' 1 = Some ([], e')) by (intros [|t] [|] p' e'; reflexivity).
      rewrite Z. cbn [finish Nat.leb length flat_map kind_of]. now rewrite app_nil_r.
  - exact Es.
  - exact Hv.
Qed.

(** ** Leaf rules *)

Lemma record_named r p e : record (Some r) p (Some e) = Some (max e p).
Proof. cbn. destruct (Nat.leb_spec e p); f_equal; lia. Qed.
Lemma prefix_char c s : prefixb [c] s = match p_char c s with Some _ => true | None => false end.
Proof. destruct s as [|d s]; cbn; [reflexivity|]. destruct (N.eqb c d); reflexivity. Qed.
Lemma lit_yields f c s s1 p err : p_char c s = Some s1 -> yields (S f) None (XLit [c]) s p err (VTuple []) s1 err.
Proof.
  intro H. exists (Node None KOther p [c] []). split; [|split].
  - rewrite core_lit, prefix_char, H. reflexivity.
  - now apply p_char_spec in H.
  - reflexivity.
Qed.
Lemma lit_fails f c s p e : p_char c s = None -> fails (S f) None (XLit [c]) s p (Some e) (Some e).
Proof. intro H. unfold fails. rewrite core_lit, prefix_char, H. reflexivity. Qed.
Lemma lit_fails_first f c s p : p_char c s = None -> fails (S f) None (XLit [c]) s p None (Some p).
Proof. intro H. unfold fails. rewrite core_lit, prefix_char, H. reflexivity. Qed.

Lemma digits_yields f s p err n r : p_digits s = Some (n, r) -> yields (S (S f)) None (XRef R_digits) s p err (VInt n) r err.
Proof.
  unfold p_digits. destruct s as [|c s]; [discriminate|]. destruct (is_digit19 c) eqn:D; [|discriminate].
  destruct (span is_digit s) as [ds r'] eqn:E. intro H. injection H as <- <-.
  exists (Node (Some R_digits) KOther p (c :: ds) []). split; [|split].
  - rewrite core_ref. cbn [rules]. rewrite core_regex, D, E. reflexivity.
  - apply span_spec in E as (E & _). cbn. now rewrite E.
  - reflexivity.
Qed.
Lemma digits_fails f s p e : p_digits s = None -> fails (S (S f)) None (XRef R_digits) s p (Some e) (Some (max e p)).
Proof.
  intro H. unfold fails. rewrite core_ref. cbn [rules]. rewrite core_regex.
  destruct s as [|c s]; [unfold finish; now rewrite record_named|]. unfold p_digits in H. cbn [span] in H.
  destruct (is_digit19 c); [destruct (span is_digit s); discriminate|]. unfold finish. now rewrite record_named.
Qed.
Lemma alphas_yields f s p err b r : p_alphas s = Some (b, r) -> yields (S (S (S f))) None (XRef R_base) s p err (VText b) r err.
Proof.
  intro H. pose proof H as H'. apply p_alphas_sound in H' as (Es & _).
  unfold p_alphas in H. destruct s as [|c s]; [discriminate|]. cbn [span] in H.
  destruct (is_alpha c) eqn:D; [|discriminate]. destruct (span is_alpha s) as [ds r'] eqn:E. injection H as <- <-.
  exists (Node (Some R_alphas) KOther p (c :: ds) []). split; [|split]; auto.
  rewrite core_ref. cbn [rules]. rewrite core_ref. cbn [rules]. rewrite core_regex, D, E. reflexivity.
Qed.
Lemma alphas_fails f s p e : p_alphas s = None -> fails (S (S (S f))) None (XRef R_base) s p (Some e) (Some (max e p)).
Proof.
  intro H. unfold fails. rewrite core_ref. cbn [rules]. rewrite core_ref. cbn [rules]. rewrite core_regex.
  destruct s as [|c s]; [unfold finish; now rewrite record_named|]. unfold p_alphas in H. cbn [span] in H.
  destruct (is_alpha c); [destruct (span is_alpha s); discriminate|]. unfold finish. now rewrite record_named.
Qed.

(** ** Sizes *)

Definition sub_pv (b : subtype) : pv :=
  match b with SubNone => VNone | SubInt a => VInt a | SubPair a b => VTuple [VInt a; VInt b] end.
Lemma sub_value_pv b : sub_value (sub_pv b) = Some b.
Proof. destruct b; reflexivity. Qed.

Lemma p_char_off c s s1 : p_char c s = Some s1 -> off s s1 = 1.
Proof. intro H. apply p_char_spec in H. subst. unfold off. cbn [length]. lia. Qed.
Lemma p_digits_len s n r : p_digits s = Some (n, r) -> length r < length s.
Proof.
  unfold p_digits. destruct s as [|c s]; [discriminate|]. destruct (is_digit19 c); [|discriminate].
  destruct (span is_digit s) as [ds r'] eqn:E. intro H. injection H as <- <-.
  apply span_spec in E as (E & _). subst s. cbn [length]. rewrite app_length. lia.
Qed.
Lemma p_char_len c s s1 : p_char c s = Some s1 -> length s = S (length s1).
Proof. intro H. apply p_char_spec in H. now subst. Qed.

Lemma two_size_yields f s p err a s1 s2 b r :
  p_digits s = Some (a, s1) -> p_char c_x s1 = Some s2 -> p_digits s2 = Some (b, r) ->
  yields (4 + f) None (XRef R_two_size) s p err (VTuple [VInt a; VInt b]) r err.
Proof.
  intros A X B. eapply (ref_seq_yields (2 + f)); [reflexivity| |].
  - eapply seq_cons; [apply digits_yields; exact A|].
    eapply seq_cons; [apply lit_yields; exact X|].
    eapply seq_cons; [apply digits_yields; exact B|apply seq_nil].
  - intros t ns E. cbn [visit]. now rewrite E.
Qed.
Lemma sub_rule f s p e : s <> [] ->
  let '(b, r) := p_sub s in yields (7 + f) None (opt (XRef R_sub)) s p (Some e) (sub_pv b) r (Some (m_sub s p e)).
Proof.
  intro Hs. destruct s as [|c s]; [contradiction|]. unfold p_sub, m_sub.
  destruct (p_digits (c :: s)) as [[a s1]|] eqn:A.
  - pose proof (p_digits_len _ _ _ A) as L.
    assert (One : forall e1, fails (4 + f) None (XRef R_two_size) (c :: s) p (Some e) (Some e1) ->
      yields (7 + f) None (opt (XRef R_sub)) (c :: s) p (Some e) (VInt a) s1 (Some e1)).
    { intros e1 F. apply (opt_some (6 + f)). eapply (one_second (4 + f)); [reflexivity|exact F|apply digits_yields; exact A|].
      intros t n Hn. cbn [visit map generic_visit]. exact Hn. }
    destruct (p_char c_x s1) as [s2|] eqn:X.
    + destruct (p_digits s2) as [[b r]|] eqn:B.
      * apply (opt_some (6 + f)). eapply (one_first (4 + f)); [reflexivity|eapply two_size_yields; eassumption|].
        intros t n Hn. cbn [visit map generic_visit]. exact Hn.
      * apply One. pose proof (p_char_len _ _ _ X) as LX.
        replace (Some (max e (p + off (c :: s) s2))) with (record (Some R_two_size) p (Some (max e (p + off (c :: s) s2)))).
        2: { rewrite record_named. f_equal. lia. }
        eapply (ref_seq (2 + f)); [reflexivity|].
        eapply seq_fail_tail; [apply digits_yields; exact A|].
        eapply seq_fail_tail; [apply lit_yields; exact X|].
        apply seq_fail_head.
        replace (p + off (c :: s) s2) with (p + off (c :: s) s1 + off s1 s2) by (unfold off; cbn [length] in *; lia).
        now apply (digits_fails f).
    + apply One. rewrite <- (record_named R_two_size).
      eapply (ref_seq (2 + f)); [reflexivity|].
      eapply seq_fail_tail; [apply digits_yields; exact A|].
      apply seq_fail_head. now apply (lit_fails (1 + f)).
  - apply (opt_none (6 + f)).
    replace (Some (max e p)) with (record (Some R_sub) p (Some (max e p))) by (rewrite record_named; f_equal; lia).
    eapply (one_fails (4 + f)); [reflexivity| |].
    + eapply (ref_seq (2 + f)); [reflexivity|]. apply seq_fail_head. now apply (digits_fails f).
    + rewrite record_named. replace (Some (max e p)) with (Some (max (max (max e p) p) p)) by (f_equal; lia).
      now apply (digits_fails (2 + f)).
Qed.

(** ** Dimensions *)

Definition dim_pv (d : dim) : pv := match d with None => VTuple [] | Some n => VTuple [VInt n] end.
Definition arr_pv (l : list dim) : pv := match l with [] => VNone | _ => VTuple (map dim_pv l) end.
Lemma arr_value_pv l : arr_value (arr_pv l) = Some l.
Proof.
  assert (H : all_some dim_value (map dim_pv l) = Some l) by (induction l as [|[n|] l IH]; cbn; [|rewrite IH|rewrite IH]; reflexivity).
  destruct l; [reflexivity|exact H].
Qed.
Definition x_dim : pexp := XOneOf [XRef R_const_arr; XRef R_dynam_arr].

Lemma one_first' f a b s p err v rest err' :
  yields f None a s p err v rest err' -> yields (S f) None (XOneOf [a; b]) s p err v rest err'.
Proof.
  intros (n & Hn & Es & Hv). exists (Node None KOneOf p (n_text n) [n]). split; [|split]; auto.
  rewrite core_one. cbn [one_core]. rewrite Hn. reflexivity.
Qed.
Lemma one_second' f a b s p err err1 v rest err' :
  fails f None a s p err err1 -> yields f None b s p err1 v rest err' -> yields (S f) None (XOneOf [a; b]) s p err v rest err'.
Proof.
  intros Ha (n & Hn & Es & Hv). exists (Node None KOneOf p (n_text n) [n]). unfold fails in Ha. split; [|split]; auto.
  rewrite core_one. cbn [one_core]. rewrite Ha, Hn. reflexivity.
Qed.
Lemma one_fails' f a b s p err err1 e2 :
  fails f None a s p err err1 -> fails f None b s p err1 (Some e2) -> fails (S f) None (XOneOf [a; b]) s p err (Some e2).
Proof. unfold fails. intros Ha Hb. rewrite core_one. cbn [one_core]. rewrite Ha, Hb. reflexivity. Qed.

Lemma dynam_yields f s p err s1 s2 : p_char c_lbrack s = Some s1 -> p_char c_rbrack s1 = Some s2 ->
  yields (S (S f)) None (XRef R_dynam_arr) s p err (VTuple []) s2 err.
Proof.
  intros A B. apply p_char_spec in A, B. subst. exists (Node (Some R_dynam_arr) KOther p (lit "[]") []).
  split; [|split]; reflexivity.
Qed.
Lemma dynam_fails f s p e : (forall s1 s2, p_char c_lbrack s = Some s1 -> p_char c_rbrack s1 = Some s2 -> False) ->
  fails (S (S f)) None (XRef R_dynam_arr) s p (Some e) (Some (max e p)).
Proof.
  intro H. unfold fails. rewrite core_ref. cbn [rules]. rewrite core_lit.
  destruct (prefixb (lit "[]") s) eqn:E; [|cbn [finish]; now rewrite record_named].
  exfalso. apply prefixb_spec in E as (r & ->). eapply (H (c_rbrack :: r) r); reflexivity.
Qed.
Lemma p_dim_len s d r : p_dim s = Some (d, r) -> length r < length s.
Proof.
  unfold p_dim. destruct (p_char c_lbrack s) as [s1|] eqn:A; [|discriminate]. apply p_char_len in A.
  destruct (p_digits s1) as [[n s2]|] eqn:D.
  - apply p_digits_len in D. destruct (p_char c_rbrack s2) as [s3|] eqn:B; [|discriminate]. apply p_char_len in B.
    intro H. injection H as <- <-. lia.
  - destruct (p_char c_rbrack s1) as [s2|] eqn:B; [|discriminate]. apply p_char_len in B. intro H. injection H as <- <-. lia.
Qed.
Lemma dim_rule f s p e :
  match p_dim s with
  | Some (d, r) => yields (5 + f) None x_dim s p (Some e) (dim_pv d) r (Some (m_dim s p e))
  | None => fails (5 + f) None x_dim s p (Some e) (Some (m_dim s p e))
  end.
Proof.
  unfold p_dim, m_dim.
  destruct (p_char c_lbrack s) as [s1|] eqn:A.
  - pose proof (p_char_off _ _ _ A) as O1.
    destruct (p_digits s1) as [[n s2]|] eqn:D.
    + destruct (p_char c_rbrack s2) as [s3|] eqn:B.
      * apply (one_first' (4 + f)). eapply (ref_seq_yields (2 + f)); [reflexivity| |].
        -- eapply seq_cons; [apply lit_yields; exact A|].
           eapply seq_cons; [apply digits_yields; exact D|].
           eapply seq_cons; [apply lit_yields; exact B|apply seq_nil].
        -- intros t ns E. cbn [visit]. now rewrite E.
      * apply (one_fails' (4 + f)) with (err1 := Some (max e p)).
        -- rewrite <- (record_named R_const_arr). eapply (ref_seq (2 + f)); [reflexivity|].
           eapply seq_fail_tail; [apply lit_yields; exact A|].
           eapply seq_fail_tail; [apply digits_yields; exact D|].
           apply seq_fail_head. now apply (lit_fails (1 + f)).
        -- replace (Some (max e p)) with (Some (max (max e p) p)) at 2 by (f_equal; lia).
           apply (dynam_fails (2 + f)). intros x y X Y. rewrite A in X. injection X as <-.
           apply p_char_spec in Y. subst s1. discriminate.
    + assert (C : fails (4 + f) None (XRef R_const_arr) s p (Some e) (Some (max e (p + 1)))).
      { replace (Some (max e (p + 1))) with (record (Some R_const_arr) p (Some (max e (p + 1)))) by (rewrite record_named; f_equal; lia).
        eapply (ref_seq (2 + f)); [reflexivity|].
        eapply seq_fail_tail; [apply lit_yields; exact A|]. apply seq_fail_head. rewrite O1. now apply (digits_fails f). }
      destruct (p_char c_rbrack s1) as [s2|] eqn:B.
      * eapply (one_second' (4 + f)); [exact C|]. eapply (dynam_yields (2 + f)); eassumption.
      * eapply (one_fails' (4 + f)); [exact C|].
        replace (Some (max e (p + 1))) with (Some (max (max e (p + 1)) p)) at 2 by (f_equal; lia).
        apply (dynam_fails (2 + f)). intros x y X Y. rewrite A in X. injection X as <-. congruence.
  - apply (one_fails' (4 + f)) with (err1 := Some (max e p)).
    + rewrite <- (record_named R_const_arr). eapply (ref_seq (2 + f)); [reflexivity|].
      apply seq_fail_head. now apply (lit_fails (1 + f)).
    + replace (Some (max e p)) with (Some (max (max e p) p)) at 2 by (f_equal; lia).
      apply (dynam_fails (2 + f)). intros x y X Y. congruence.
Qed.

Lemma arr_loop f : forall k s p e turns count, length s <= k -> length s <= turns ->
  exists ns, loop_core (5 + f) 1 None x_dim turns s p (Some e) count = Some (ns, Some (m_arr k s p e))
    /\ s = flat_map n_text ns ++ snd (p_arrlist k s) /\ map visit ns = map dim_pv (fst (p_arrlist k s)).
Proof.
  induction k as [|k IH]; intros s p e turns count Hk Ht.
  - destruct s; [|cbn in Hk; lia]. exists []. destruct turns; auto.
  - destruct s as [|c s]; [exists []; destruct turns; auto|].
    destruct turns as [|turns]; [cbn in Ht; lia|].
    cbn [p_arrlist m_arr]. pose proof (dim_rule f (c :: s) p e) as D.
    destruct (p_dim (c :: s)) as [[d r]|] eqn:E.
    + pose proof (p_dim_len _ _ _ E) as L. destruct D as (n & Hn & Es & Hv).
      assert (Hl : length (n_text n) = off (c :: s) r) by (rewrite Es, off_app; reflexivity).
      destruct (IH r (p + off (c :: s) r) (m_dim (c :: s) p e) turns (S count)) as (ns & Hns & Er & Hvs); [lia|lia|].
      exists (n :: ns). cbn [loop_core]. rewrite Hn. cbn zeta.
      assert (Z : Nat.eqb (length (n_text n)) 0 = false) by (apply Nat.eqb_neq; unfold off in Hl; lia).
      rewrite Z, andb_false_r. replace (skipn (length (n_text n)) (c :: s)) with r by (rewrite Es; now rewrite skip_app).
      rewrite Hl, Hns. destruct (p_arrlist k r) as [ds r'] eqn:P. cbn [fst snd] in *. split; [reflexivity|]. split.
      * cbn [flat_map]. rewrite <- app_assoc, <- Er. exact Es.
      * cbn [map]. now rewrite Hv, Hvs.
    + unfold fails in D. exists []. cbn [loop_core]. rewrite D. auto.
Qed.
Lemma arr_rule f s p e : let '(ds, r) := p_arrlist (length s) s in
  yields (8 + f) None (opt (XRef R_arrlist)) s p (Some e) (arr_pv ds) r (Some (m_arr (length s) s p e)).
Proof.
  destruct s as [|c s]; [apply opt_end|].
  destruct (arr_loop f (length (c :: s)) (c :: s) p e (1 + length (c :: s)) 0) as (ns & Hns & Es & Hv); [lia|lia|].
  destruct (p_arrlist (length (c :: s)) (c :: s)) as [ds r] eqn:P. cbn [fst snd] in *.
  destruct ds as [|d ds].
  - destruct ns as [|n ns]; [|discriminate Hv]. cbn [flat_map app] in Es. rewrite <- Es.
    apply (opt_none (7 + f)). unfold fails. cbn [Nat.add] in *. rewrite core_ref. cbn [rules]. unfold many1. rewrite core_quant.
    fold x_dim. cbn [Nat.add]. rewrite Hns. cbn [finish Nat.leb length].
    rewrite record_named. f_equal. f_equal. f_equal.
    (* the first dimension failed at p *)
    cbn [length p_arrlist] in P. cbn [m_arr length]. unfold p_dim, m_dim in *.
    destruct (p_char c_lbrack (c :: s)) as [s1|]; [|lia].
    destruct (p_digits s1) as [[n s2]|].
    + destruct (p_char c_rbrack s2) as [s3|]; [|lia]. destruct (p_arrlist (length s) s3); discriminate.
    + destruct (p_char c_rbrack s1) as [s2|]; [|lia]. destruct (p_arrlist (length s) s2); discriminate.
  - apply (opt_some (7 + f)). destruct ns as [|n ns]; [discriminate Hv|].
    exists (Node (Some R_arrlist) KOther p (flat_map n_text (n :: ns)) (n :: ns)). split; [|split].
    + cbn [Nat.add] in *. rewrite core_ref. cbn [rules]. unfold many1. rewrite core_quant. fold x_dim. cbn [Nat.add].
      rewrite Hns. reflexivity.
    + exact Es.
    + cbn [visit]. unfold generic_visit. cbn [arr_pv]. now rewrite Hv.
Qed.

(** ** Types *)

Definition start_at (err : option nat) : nat := match err with None => 0 | Some e => e end.
Lemma all_types l : all_some type_value (map VType l) = Some l.
Proof. induction l as [|t l IH]; cbn; [reflexivity|]. now rewrite IH. Qed.
Lemma comp_yields f s p err vs rest err' v :
  seq_yields f [XLit (lit "("); XRef R_type; many (XRef R_next_type); XLit (lit ")")] s p err vs rest err' ->
  (forall t ns, map visit ns = vs -> visit (Node (Some R_non_zero_tuple) KOther p t ns) = v) ->
  yields (S (S (S f))) None (XRef R_components) s p err v rest err'.
Proof. intros H V. exact (ref_seq_yields f (Some R_components) R_non_zero_tuple _ s p err vs rest err' v eq_refl H V). Qed.
Lemma comp_fails f s p err err' :
  seq_fails f [XLit (lit "("); XRef R_type; many (XRef R_next_type); XLit (lit ")")] s p err err' ->
  fails (S (S (S f))) None (XRef R_components) s p err (record (Some R_non_zero_tuple) p err').
Proof. intro H. exact (ref_seq f (Some R_components) R_non_zero_tuple _ s p err err' eq_refl H). Qed.
Lemma p_next_nil k : p_next k [] = ([], []).
Proof. destruct k; reflexivity. Qed.

(** A tuple that fails, and then the basic type. *)
Lemma tuple_then_basic f s p err e : fails (2 + f) None (XRef R_tuple_type) s p err (Some e) -> p_alphas s = None -> p <= e -> 3 <= f ->
  fails (4 + f) None (XRef R_type) s p err (Some e).
Proof.
  intros H A P F. do 3 (destruct f as [|f]; [lia|]).
  replace (Some e) with (record (Some R_type) p (Some e)) by (rewrite record_named; f_equal; lia).
  eapply (one_fails (5 + f)); [reflexivity|exact H|].
  replace (Some e) with (record (Some R_basic_type) p (Some (max e p))) at 2 by (rewrite record_named; f_equal; lia).
  eapply (ref_seq (3 + f)); [reflexivity|]. apply seq_fail_head. now apply (alphas_fails f).
Qed.
Lemma fails_max f name e s p err a b : fails f name e s p err (Some a) -> a = b -> fails f name e s p err (Some b).
Proof. now intros H <-. Qed.
Lemma yields_max f name e s p err v r a b : yields f name e s p err v r (Some a) -> a = b -> yields f name e s p err v r (Some b).
Proof. now intros H <-. Qed.

Lemma m_arr_le k : forall s p e, e <= m_arr k s p e.
Proof.
  induction k as [|k IH]; intros s p e; cbn [m_arr]; [lia|]. destruct s as [|c s]; [lia|].
  assert (D : e <= m_dim (c :: s) p e).
  { unfold m_dim. destruct (p_char _ _) as [s1|]; [|lia]. destruct (p_digits s1) as [[? s2]|]; [|lia]. destruct (p_char _ _); lia. }
  destruct (p_dim (c :: s)) as [[d r]|]; [|exact D]. etransitivity; [exact D|apply IH].
Qed.
Lemma m_sub_le s p e : e <= m_sub s p e.
Proof.
  unfold m_sub. destruct s as [|c s]; [lia|]. destruct (p_digits (c :: s)) as [[? s1]|]; [|lia].
  destruct (p_char _ _) as [s2|]; [|lia]. destruct (p_digits s2); lia.
Qed.
Lemma m_le k : (forall s p e, e <= m_type k s p e) /\ (forall s p e, e <= m_next k s p e).
Proof.
  induction k as [|k [IHt IHn]]; [split; intros; cbn; lia|]. split; intros s p e.
  - cbn [m_type]. destruct (p_char c_lparen s) as [s1|].
    + pose proof (IHt s1 (p + 1) e). destruct (p_type k s1) as [[t s2]|]; [|lia].
      pose proof (IHn s2 (p + off s s2) (m_type k s1 (p + 1) e)). destruct (p_next k s2) as [ts s3].
      destruct (p_char c_rparen s3) as [s4|]; [|lia].
      pose proof (m_arr_le (length s4) s4 (p + off s s4) (m_next k s2 (p + off s s2) (m_type k s1 (p + 1) e))). lia.
    + destruct (p_alphas s) as [[b s1]|]; [|lia]. destruct (p_sub s1) as [sb s2].
      pose proof (m_sub_le s1 (p + off s s1) (max e p)).
      pose proof (m_arr_le (length s2) s2 (p + off s s2) (m_sub s1 (p + off s s1) (max e p))). lia.
  - cbn [m_next]. destruct s as [|c s]; [lia|]. destruct (p_char c_comma (c :: s)) as [s1|]; [|lia].
    pose proof (IHt s1 (p + 1) e). destruct (p_type k s1) as [[t s2]|]; [|lia].
    pose proof (IHn s2 (p + off (c :: s) s2) (m_type k s1 (p + 1) e)). lia.
Qed.
Lemma not_alpha_paren s s1 : p_char c_lparen s = Some s1 -> p_alphas s = None.
Proof. intro H. apply p_char_spec in H. subst. reflexivity. Qed.

Definition type_rule k : Prop := forall f s p err, length s < k -> 12 * length s + 12 <= f ->
  match p_type k s with
  | Some (t, r) => yields f None (XRef R_type) s p err (VType t) r (Some (m_type k s p (start_at err)))
  | None => fails f None (XRef R_type) s p err (Some (m_type k s p (start_at err)))
  end.
Definition next_rule k : Prop := forall f s p e turns count, length s < k -> length s <= turns -> 12 * length s + 14 <= f ->
  exists ns, loop_core f 0 None (XRef R_next_type) turns s p (Some e) count = Some (ns, Some (m_next k s p e))
    /\ s = flat_map n_text ns ++ snd (p_next k s) /\ map visit ns = map VType (fst (p_next k s)).

Lemma yields_len f name e s p err v r err' : yields f name e s p err v r err' -> length r <= length s.
Proof. intros (n & _ & Es & _). rewrite Es, app_length. lia. Qed.

Lemma peg_rules k : type_rule k /\ next_rule k.
Proof.
  induction k as [|k [IHt IHn]]; [split; intros ?; intros; lia|]. split.
  - intros f s p err Hk Hf. cbn [p_type m_type].
    do 12 (destruct f as [|f]; [lia|]).
    destruct (p_char c_lparen s) as [s1|] eqn:P.
    + pose proof (p_char_len _ _ _ P) as LP. pose proof (p_char_off _ _ _ P) as OP. pose proof (not_alpha_paren _ _ P) as NA.
      assert (Open : yields (5 + f) None (XLit (lit "(")) s p err (VTuple []) s1 err) by now apply (lit_yields (4 + f)).
      pose proof (IHt (5 + f) s1 (p + 1) err ltac:(lia) ltac:(lia)) as T.
      destruct (p_type k s1) as [[t s2]|] eqn:E.
      * pose proof (yields_len _ _ _ _ _ _ _ _ _ T) as L2.
        set (e1 := m_type k s1 (p + 1) (start_at err)) in *.
        destruct (IHn (4 + f) s2 (p + off s s2) e1 (0 + length s2) 0 ltac:(lia) ltac:(lia) ltac:(lia)) as (ns & Hns & Es2 & Hv).
        set (e2 := m_next k s2 (p + off s s2) e1) in *.
        destruct (p_next k s2) as [ts s3] eqn:Nx. cbn [fst snd] in Es2, Hv.
        assert (Many : yields (5 + f) None (many (XRef R_next_type)) s2 (p + off s s2) (Some e1) (VTuple (map VType ts)) s3 (Some e2)).
        { exists (Node None KOther (p + off s s2) (flat_map n_text ns) ns). split; [|split].
          - unfold many. cbn [Nat.add] in *. rewrite core_quant. cbn [Nat.add]. rewrite Hns. reflexivity.
          - exact Es2.
          - cbn [visit generic_visit]. now rewrite Hv. }
        pose proof (yields_len _ _ _ _ _ _ _ _ _ Many) as L3.
        assert (Tl : forall vs r err5, seq_yields (5 + f) [XLit (lit ")")] s3 (p + off s s3) (Some e2) vs r err5 ->
                  seq_yields (5 + f) [XLit (lit "("); XRef R_type; many (XRef R_next_type); XLit (lit ")")] s p err
                    (VTuple [] :: VType t :: VTuple (map VType ts) :: vs) r err5).
        { intros vs r err5 H. eapply seq_cons; [exact Open|]. rewrite OP.
          eapply seq_cons; [exact T|]. replace (p + 1 + off s1 s2) with (p + off s s2) by (unfold off; lia).
          eapply seq_cons; [exact Many|]. replace (p + off s s2 + off s2 s3) with (p + off s s3) by (unfold off; lia). exact H. }
        destruct (p_char c_rparen s3) as [s4|] eqn:Q.
        -- pose proof (p_char_len _ _ _ Q) as LQ. pose proof (p_char_off _ _ _ Q) as OQ.
           pose proof (arr_rule f s4 (p + off s s4) e2) as Ar.
           destruct (p_arrlist (length s4) s4) as [arr s5] eqn:PA.
           assert (C : yields (8 + f) None (XRef R_components) s p err (VTuple (VType t :: map VType ts)) s4 (Some e2)).
           { eapply (comp_yields (5 + f)).
             - apply Tl. eapply seq_cons; [apply (lit_yields (4 + f)); exact Q|apply seq_nil].
             - intros tx nx Ex. cbn [visit]. now rewrite Ex. }
           eapply (one_first (10 + f)); [reflexivity| |].
           ++ eapply (ref_seq_yields (8 + f)); [reflexivity| |].
              ** eapply seq_cons; [exact C|]. eapply seq_cons; [exact Ar|apply seq_nil].
              ** intros tx nx Ex. cbn [visit]. rewrite Ex. change (VType t :: map VType ts) with (map VType (t :: ts)).
                 rewrite all_types, arr_value_pv. reflexivity.
           ++ intros tx n Hn. cbn [visit map generic_visit]. exact Hn.
        -- apply (tuple_then_basic (8 + f)); [|exact NA|lia|lia].
           replace (Some (max e2 p)) with (record (Some R_tuple_type) p (record (Some R_non_zero_tuple) p (Some e2)))
             by (rewrite !record_named; f_equal; lia).
           eapply (ref_seq (8 + f)); [reflexivity|]. apply seq_fail_head. apply (comp_fails (5 + f)).
           eapply seq_fail_tail; [exact Open|]. rewrite OP.
           eapply seq_fail_tail; [exact T|]. replace (p + 1 + off s1 s2) with (p + off s s2) by (unfold off; lia).
           eapply seq_fail_tail; [exact Many|]. apply seq_fail_head. now apply (lit_fails (4 + f)).
      * apply (tuple_then_basic (8 + f)); [|exact NA|lia|lia].
        set (e1 := m_type k s1 (p + 1) (start_at err)) in *.
        replace (Some (max e1 p)) with (record (Some R_tuple_type) p (record (Some R_non_zero_tuple) p (Some e1)))
          by (rewrite !record_named; f_equal; lia).
        eapply (ref_seq (8 + f)); [reflexivity|]. apply seq_fail_head. apply (comp_fails (5 + f)).
        eapply seq_fail_tail; [exact Open|]. rewrite OP. apply seq_fail_head. exact T.
    + assert (Tf : fails (10 + f) None (XRef R_tuple_type) s p err (Some (max (start_at err) p))).
      { assert (R : record (Some R_tuple_type) p (record (Some R_non_zero_tuple) p
            (match err with None => Some p | Some e => Some e end)) = Some (max (start_at err) p)).
        { destruct err as [e|]; rewrite !record_named; cbn [start_at]; f_equal; lia. }
        rewrite <- R. eapply (ref_seq (8 + f)); [reflexivity|]. apply seq_fail_head. apply (comp_fails (5 + f)).
        apply seq_fail_head. destruct err as [e|]; [now apply (lit_fails (4 + f))|now apply (lit_fails_first (4 + f))]. }
      set (e1 := max (start_at err) p) in *.
      destruct (p_alphas s) as [[b s1]|] eqn:A.
      * assert (Bs : yields (8 + f) None (XRef R_base) s p (Some e1) (VText b) s1 (Some e1)) by now apply (alphas_yields (5 + f)).
        pose proof (yields_len _ _ _ _ _ _ _ _ _ Bs) as L1.
        assert (Sb : let '(sb, s2) := p_sub s1 in
            yields (8 + f) None (opt (XRef R_sub)) s1 (p + off s s1) (Some e1) (sub_pv sb) s2 (Some (m_sub s1 (p + off s s1) e1))).
        { destruct s1 as [|c s1']; [apply opt_end|]. apply (sub_rule (1 + f)). discriminate. }
        destruct (p_sub s1) as [sb s2]. pose proof (yields_len _ _ _ _ _ _ _ _ _ Sb) as L2.
        pose proof (arr_rule f s2 (p + off s s2) (m_sub s1 (p + off s s1) e1)) as Ar.
        destruct (p_arrlist (length s2) s2) as [arr s3].
        eapply (one_second (10 + f)); [reflexivity|exact Tf| |].
        -- eapply (ref_seq_yields (8 + f)); [reflexivity| |].
           ++ eapply seq_cons; [exact Bs|]. eapply seq_cons; [exact Sb|].
              replace (p + off s s1 + off s1 s2) with (p + off s s2) by (unfold off; lia).
              eapply seq_cons; [exact Ar|apply seq_nil].
           ++ intros tx nx Ex. cbn [visit]. rewrite Ex, sub_value_pv, arr_value_pv. reflexivity.
        -- intros tx n Hn. cbn [visit map generic_visit]. exact Hn.
      * apply (tuple_then_basic (8 + f)); [exact Tf|exact A|lia|lia].
  - intros f s p e turns count Hk Ht Hf. cbn [p_next m_next].
    destruct s as [|c s]; [exists []; destruct turns; auto|].
    destruct turns as [|turns]; [cbn in Ht; lia|].
    do 3 (destruct f as [|f]; [lia|]).
    destruct (p_char c_comma (c :: s)) as [s1|] eqn:P.
    + pose proof (p_char_len _ _ _ P) as LP. pose proof (p_char_off _ _ _ P) as OP.
      assert (Comma : yields (1 + f) None (XLit (lit ",")) (c :: s) p (Some e) (VTuple []) s1 (Some e)) by now apply (lit_yields f).
      pose proof (IHt (1 + f) s1 (p + 1) (Some e) ltac:(lia) ltac:(lia)) as T. cbn [start_at] in T.
      set (e1 := m_type k s1 (p + 1) e) in *.
      destruct (p_type k s1) as [[t s2]|] eqn:E.
      * pose proof (yields_len _ _ _ _ _ _ _ _ _ T) as L2.
        assert (Nt : yields (3 + f) None (XRef R_next_type) (c :: s) p (Some e) (VType t) s2 (Some e1)).
        { eapply (ref_seq_yields (1 + f)); [reflexivity| |].
          - eapply seq_cons; [exact Comma|]. rewrite OP. eapply seq_cons; [exact T|apply seq_nil].
          - intros tx nx Ex. cbn [visit]. now rewrite Ex. }
        destruct Nt as (n & Hn & Es & Hv).
        assert (Hl : length (n_text n) = off (c :: s) s2) by (rewrite Es, off_app; reflexivity).
        destruct (IHn (3 + f) s2 (p + off (c :: s) s2) e1 turns (S count) ltac:(lia) ltac:(cbn [length] in *; lia) ltac:(lia)) as (ns & Hns & Er & Hvs).
        exists (n :: ns). cbn [loop_core Nat.add] in *. rewrite Hn. cbn zeta.
        assert (Z : Nat.eqb (length (n_text n)) 0 = false) by (apply Nat.eqb_neq; unfold off in Hl; lia).
        rewrite Z, andb_false_r. replace (skipn (length (n_text n)) (c :: s)) with s2 by (rewrite Es; now rewrite skip_app).
        rewrite Hl, Hns. destruct (p_next k s2) as [ts s3]. cbn [fst snd] in *. split; [reflexivity|]. split.
        -- cbn [flat_map]. rewrite <- app_assoc, <- Er. exact Es.
        -- cbn [map]. now rewrite Hv, Hvs.
      * assert (Nf : fails (3 + f) None (XRef R_next_type) (c :: s) p (Some e) (Some (max e1 p))).
        { rewrite <- (record_named R_next_type). eapply (ref_seq (1 + f)); [reflexivity|].
          eapply seq_fail_tail; [exact Comma|]. rewrite OP. apply seq_fail_head. exact T. }
        exists []. unfold fails in Nf. cbn [loop_core Nat.add] in *. rewrite Nf. auto.
    + assert (Nf : fails (3 + f) None (XRef R_next_type) (c :: s) p (Some e) (Some (max e p))).
      { rewrite <- (record_named R_next_type). eapply (ref_seq (1 + f)); [reflexivity|].
        apply seq_fail_head. now apply (lit_fails f). }
      exists []. unfold fails in Nf. cbn [loop_core Nat.add] in *. rewrite Nf. auto.
Qed.

(** ** parse *)

Theorem peg_parse_eq s : peg_parse s =
  match p_type (S (length s)) s with
  | Some (t, []) => Parsed (VType t)
  | Some (_, r) => stopped s (length s - length r)
  | None => stopped s (m_type (S (length s)) s 0 0)
  end.
Proof.
  unfold peg_parse, peg_fuel.
  pose proof (proj1 (peg_rules (S (length s))) (12 * length s + 20) s 0 None ltac:(lia) ltac:(lia)) as T.
  destruct (p_type (S (length s)) s) as [[t r]|].
  - destruct T as (n & Hn & Es & Hv). rewrite Hn.
    assert (L : length s = length (n_text n) + length r) by (rewrite Es at 1; apply app_length).
    destruct r as [|c r].
    + destruct (Nat.ltb_spec (length (n_text n)) (length s)); [cbn [length] in L; lia|]. now rewrite Hv.
    + destruct (Nat.ltb_spec (length (n_text n)) (length s)); [|cbn [length] in L; lia]. f_equal. lia.
  - unfold fails in T. rewrite T. reflexivity.
Qed.
