(** Concurrent lookups answer as if alone, as long as no thread changes the
    registrations they use. *)
From Verif Require Import Tac Py Grammar Bytes Encoding Decoding Registry Codec Histories Threads CacheProofs LookupProofs ApiProofs HistoryProofs HeapProofs.
Open Scope Z_scope.

(** ** The programs are the functions of Registry.v and Codec.v *)
Lemma exec_bind {A B} (p : prog A) (f : A -> prog B) : forall w, exec (pbind p f) w = let '(a, w') := exec p w in exec (f a) w'.
Proof. induction p as [a|X s k IH]; intro w; [reflexivity|]. cbn [pbind exec]. destruct (s w) as [x w']. apply IH. Qed.
Lemma exec_seq {A B} (g : A -> prog (result B)) l : forall w, exec (pseq g l) w = sequenceM (fun x => exec (g x)) l w.
Proof.
  induction l as [|x l IH]; intro w; [reflexivity|]. cbn [pseq sequenceM]. rewrite exec_bind. destruct (exec (g x) w) as [[y|e] w1]; [|reflexivity].
  rewrite exec_bind, IH. destruct (sequenceM _ l w1) as [[ys|e] w2]; reflexivity.
Qed.
Lemma enc_plan_ok {S} (ge : pystr -> S -> result encoder * S) c ts s : enc_from_type_str ge c ts s =
  match enc_plan c ts with
  | Err e => (Err e, s)
  | Ok (l, build) => match sequenceM ge l s with (Err e, s1) => (Err e, s1) | (Ok es, s1) => (build es, s1) end
  end.
Proof.
  unfold enc_from_type_str, enc_plan. destruct (enc_leaf_from_type_str c ts); [reflexivity|].
  destruct c; try (destruct (t <- parse_type_str None true ts;; it <- item_type t;; Ok (t, it)) as [[t it]|e]; [|reflexivity]; cbn [bind sequenceM];
    destruct (ge (to_type_str it) s) as [[ie|e] s1]; reflexivity).
  destruct (parse_tuple_type_str ts); reflexivity.
Qed.
Lemma dec_plan_ok {S} (gd : pystr -> S -> result decoder * S) c ts s : dec_from_type_str gd c ts s =
  match dec_plan c ts with
  | Err e => (Err e, s)
  | Ok (l, build) => match sequenceM gd l s with (Err e, s1) => (Err e, s1) | (Ok ds, s1) => (build ds, s1) end
  end.
Proof.
  unfold dec_from_type_str, dec_plan. destruct (dec_leaf_from_type_str c ts); [reflexivity|].
  destruct c; try (destruct (t <- parse_type_str None true ts;; it <- item_type t;; Ok (t, it)) as [[t it]|e]; [|reflexivity]; cbn [bind sequenceM];
    destruct (gd (to_type_str it) s) as [[ie|e] s1]; reflexivity).
  destruct (parse_tuple_type_str ts); reflexivity.
Qed.
Definition lifted {X} (y : X * registry) (h : heap) : X * world := (fst y, (snd y, h)).
Lemma seq_lifted {A B} (g : A -> world -> result B * world) (g0 : A -> registry -> result B * registry) l :
  (forall x r h, g x (r, h) = lifted (g0 x r) h) -> forall r h, sequenceM g l (r, h) = lifted (sequenceM g0 l r) h.
Proof.
  intro H. induction l as [|x l IH]; intros r h; [reflexivity|]. cbn [sequenceM]. rewrite H. unfold lifted at 1. destruct (g0 x r) as [[y|e] r1]; [|reflexivity].
  cbn [fst snd]. rewrite IH. unfold lifted at 1. destruct (sequenceM g0 l r1) as [[ys|e] r2]; reflexivity.
Qed.
Lemma seq_ext {A B S} (g g' : A -> S -> result B * S) l : (forall x s, g x s = g' x s) -> forall s, sequenceM g l s = sequenceM g' l s.
Proof.
  intro H. induction l as [|x l IH]; intro s; [reflexivity|]. cbn [sequenceM]. rewrite H. destruct (g' x s) as [[y|e] s1]; [|reflexivity]. rewrite IH. reflexivity.
Qed.
(** ** Programs that keep an invariant at every step *)
Fixpoint keeps_inv {A} (I : world -> Prop) (P : A -> Prop) (p : prog A) : Prop :=
  match p with
  | Ret a => P a
  | Step s k => forall w, I w -> I (snd (s w)) /\ keeps_inv I P (k (fst (s w)))
  end.
Lemma keeps_bind {A B} I (P : A -> Prop) (Q : B -> Prop) (p : prog A) (f : A -> prog B) :
  keeps_inv I P p -> (forall a, P a -> keeps_inv I Q (f a)) -> keeps_inv I Q (pbind p f).
Proof.
  intros Hp Hf. induction p as [a|X s k IH]; [exact (Hf a Hp)|]. cbn [pbind keeps_inv] in *. intros w Hw. destruct (Hp w Hw) as [H1 H2].
  split; [exact H1|]. apply IH. exact H2.
Qed.
Lemma keeps_weaken {A} I (P Q : A -> Prop) (p : prog A) : (forall a, P a -> Q a) -> keeps_inv I P p -> keeps_inv I Q p.
Proof.
  intro H. induction p as [a|X s k IH]; [apply H|]. cbn. intros Hp w Hw. destruct (Hp w Hw) as [H1 H2]. split; [exact H1|]. apply IH. exact H2.
Qed.
Lemma keeps_seq {A B} I (g : A -> prog (result B)) (f : A -> result B) l :
  (forall x, In x l -> keeps_inv I (fun r => r = f x) (g x)) -> keeps_inv I (fun r => r = mapM f l) (pseq g l).
Proof.
  induction l as [|x l IH]; intro H; [reflexivity|]. cbn [pseq mapM]. apply (keeps_bind _ (fun r => r = f x)); [apply H; left; reflexivity|].
  intros r ->. destruct (f x) as [y|e]; [|reflexivity]. cbn [bind]. apply (keeps_bind _ (fun r => r = mapM f l)); [apply IH; intros z Hz; apply H; right; exact Hz|].
  intros r ->. destruct (mapM f l); reflexivity.
Qed.
Lemma keeps_seq_any {A B} I (g : A -> prog (result B)) l : (forall x, In x l -> keeps_inv I (fun _ => True) (g x)) -> keeps_inv I (fun _ => True) (pseq g l).
Proof.
  induction l as [|x l IH]; intro H; [exact Logic.I|]. cbn [pseq]. apply (keeps_bind _ (fun _ => True)); [apply H; left; reflexivity|].
  intros [y|e] _; [|exact Logic.I]. apply (keeps_bind _ (fun _ => True)); [apply IH; intros z Hz; apply H; right; exact Hz|]. intros [ys|e] _; exact Logic.I.
Qed.

Lemma exec_keeps {A} (P : A -> Prop) (p : prog A) w0 : keeps_inv (fun w => w = w0) P p -> P (fst (exec p w0)) /\ snd (exec p w0) = w0.
Proof.
  induction p as [a|X s k IH]; [intro H; split; [exact H|reflexivity]|]. cbn [keeps_inv exec]. intro H. destruct (H w0 eq_refl) as [H1 H2].
  destruct (s w0) as [x w1]. cbn [fst snd] in *. subst w1. apply IH. exact H2.
Qed.

(** *** The dicts of a mapping *)
Lemma keeps_scan {V} (I : world -> Prop) get (m : mapping V) ts : (forall w, I w -> get (fst w) = m) ->
  forall todo i found, (i + todo = length (m_values m))%nat ->
  keeps_inv I (fun r => r = match m_scan (skipn i (m_values m)) ts with Done l => Done (found ++ l) | Raised e says => Raised e says end)
    (p_scan get ts (length (m_values m)) todo i found).
Proof.
  intro G. induction todo as [|t IH]; intros i found E; cbn [p_scan keeps_inv look fst snd]; intros w Hw; (split; [exact Hw|]); rewrite (G w Hw), Nat.eqb_refl.
  - rewrite skipn_all2 by lia. cbn. rewrite app_nil_r. reflexivity.
  - destruct (nth_error (m_values m) i) as [[p v]|] eqn:N; [|apply nth_error_None in N; lia].
    assert (S : skipn i (m_values m) = (p, v) :: skipn (Datatypes.S i) (m_values m)).
    { clear -N. revert N. generalize (m_values m). intro l. revert i. induction l as [|x l IH]; intros [|i] N; try discriminate N; [inv N; reflexivity|]. exact (IH i N). }
    rewrite S. cbn [m_scan]. destruct (pred_call p ts) as [b|e says]; [|reflexivity].
    eapply keeps_weaken; [|apply IH; lia]. intros r ->. destruct (m_scan _ ts) as [l|e says]; [|reflexivity]. destruct b; [rewrite <- app_assoc|]; reflexivity.
Qed.
Lemma keeps_registration {V} (I : world -> Prop) get (m : mapping V) ts : (forall w, I w -> get (fst w) = m) ->
  keeps_inv I (fun r => r = base_get_registration m ts) (p_get_registration get ts).
Proof.
  intro G. unfold p_get_registration. apply (keeps_bind _ (fun r => r = m_find m ts)).
  - unfold p_find. cbn [keeps_inv look fst snd]. intros w Hw. split; [exact Hw|]. rewrite (G w Hw). eapply keeps_bind; [apply keeps_scan; [exact G|reflexivity]|].
    intros r ->. unfold m_find. cbn [app skipn keeps_inv]. destruct (m_scan _ ts); reflexivity.
  - intros r ->. reflexivity.
Qed.
Lemma any_scan {V} I get ts n : forall todo i (found : list V), keeps_inv I (fun _ => True) (p_scan get ts n todo i found).
Proof.
  induction todo as [|t IH]; intros i found; cbn [p_scan keeps_inv look fst snd]; intros w Hw; (split; [exact Hw|]); destruct (Nat.eqb _ n); try exact Logic.I.
  destruct (nth_error _ i) as [[p v]|]; [|exact Logic.I]. destruct (pred_call p ts); [apply IH|exact Logic.I].
Qed.
Lemma any_registration {V} I (get : registry -> mapping V) ts : keeps_inv I (fun _ => True) (p_get_registration get ts).
Proof.
  apply (keeps_bind _ (fun _ => True)); [|intros; exact Logic.I]. cbn [p_find keeps_inv look fst snd]. intros w Hw. split; [exact Hw|].
  apply (keeps_bind _ (fun _ => True)); [apply any_scan|intros; exact Logic.I].
Qed.
Lemma exec_registration {V} (get : registry -> mapping V) ts w : exec (p_get_registration get ts) w = (base_get_registration (get (fst w)) ts, w).
Proof.
  destruct (exec_keeps _ _ w (keeps_registration (fun w' => w' = w) get (get (fst w)) ts ltac:(intros ? ->; reflexivity))) as [A B].
  destruct (exec _ w). cbn [fst snd] in *. congruence.
Qed.
Lemma keeps_label_for {V} (I : world -> Prop) get (m : mapping V) p : (forall w, I w -> get (fst w) = m) ->
  forall todo i, (i + todo = length (m_labels m))%nat ->
  keeps_inv I (fun r => r = Ok (option_map fst (find (fun lp => pred_is (snd lp) p) (skipn i (m_labels m))))) (p_label_for get p (length (m_labels m)) todo i).
Proof.
  intro G. induction todo as [|t IH]; intros i E; cbn [p_label_for keeps_inv look fst snd]; intros w Hw; (split; [exact Hw|]); rewrite (G w Hw), Nat.eqb_refl.
  - rewrite skipn_all2 by lia. reflexivity.
  - destruct (nth_error (m_labels m) i) as [[l q]|] eqn:N; [|apply nth_error_None in N; lia].
    assert (S : skipn i (m_labels m) = (l, q) :: skipn (Datatypes.S i) (m_labels m)).
    { clear -N. revert N. generalize (m_labels m). intro ls. revert i. induction ls as [|x ls IH]; intros [|i] N; try discriminate N; [inv N; reflexivity|]. exact (IH i N). }
    rewrite S. cbn [find snd]. destruct (pred_is q p); [reflexivity|]. apply IH. lia.
Qed.
Lemma any_label_for {V} I (get : registry -> mapping V) p n : forall todo i, keeps_inv I (fun _ => True) (p_label_for get p n todo i).
Proof.
  induction todo as [|t IH]; intros i; cbn [p_label_for keeps_inv look fst snd]; intros w Hw; (split; [exact Hw|]); destruct (Nat.eqb _ n); try exact Logic.I.
  destruct (nth_error _ i) as [[l q]|]; [|exact Logic.I]. destruct (pred_is q p); [exact Logic.I|apply IH].
Qed.
Section Lens.
Context {V : Type} (get : registry -> mapping V) (set : registry -> mapping V -> registry).
Hypothesis get_set : forall r m, get (set r m) = m.
Hypothesis set_set : forall r m m', set (set r m) m' = set r m'.
Hypothesis set_get : forall r, set r (get r) = r.
Definition put_back (h : heap) (r : registry) (y : result unit * mapping V) : result unit * world := (fst y, (set r (snd y), h)).
Lemma exec_add p v label r h : exec (p_add get set p v label) (r, h) = put_back h r (m_add (get r) p v label).
Proof.
  unfold p_add, m_add, put_back. cbn [exec look fst]. destruct (has_pred (get r) p) eqn:T; [cbn [exec fst snd]; rewrite set_get; reflexivity|]. destruct label as [l|].
  - cbn [exec look fst]. destruct (has_label (get r) l) eqn:L; cbn [exec fst snd]; [rewrite set_get; reflexivity|].
    unfold p_put, on_reg. cbn [exec fst snd]. rewrite get_set, set_set. unfold put_value, put_label, has_pred. cbn [m_values m_labels]. fold (has_pred (get r) p). rewrite T, L. reflexivity.
  - cbn [exec]. unfold p_put, on_reg. cbn [fst snd]. unfold put_value. rewrite T. reflexivity.
Qed.
Lemma find_label (m : mapping V) l : has_label m l = match find (fun lp => str_eqb (fst lp) l) (m_labels m) with Some _ => true | None => false end.
Proof. unfold has_label. induction (m_labels m) as [|x ls IH]; [reflexivity|]. cbn. destruct (str_eqb (fst x) l); [reflexivity|exact IH]. Qed.
Lemma exec_remove_by_equality p r h : exec (p_remove_by_equality get set p) (r, h) = put_back h r (m_remove_by_equality (get r) p).
Proof.
  unfold p_remove_by_equality, m_remove_by_equality, put_back. cbn [exec]. unfold p_del, on_reg, drop_value at 1. cbn [fst snd]. destruct (has_pred (get r) p) eqn:T; cbn [exec fst snd]; [|rewrite set_get; reflexivity].
  cbn [look fst snd]. rewrite get_set. cbn [m_labels]. rewrite exec_bind. set (m1 := mkMapping (del_value (get r) p) (m_labels (get r))).
  destruct (exec_keeps _ _ (set r m1, h) (keeps_label_for (fun w => w = (set r m1, h)) get m1 p ltac:(intros ? ->; apply get_set) (length (m_labels m1)) 0 ltac:(lia))) as [A B].
  change (m_labels m1) with (m_labels (get r)) in A, B |- *. destruct (exec _ (set r m1, h)) as [x w]. cbn [fst snd skipn] in A, B. subst x w.
  destruct (find (fun lp => pred_is (snd lp) p) (m_labels (get r))) as [[l q]|] eqn:F; cbn [option_map fst exec snd]; [|reflexivity].
  cbn [fst snd]. rewrite get_set. unfold drop_label. assert (H : has_label m1 l = true).
  { apply find_some in F. destruct F as [F _]. unfold has_label. apply existsb_exists. exists (l, q). split; [exact F|apply str_eqb_refl]. }
  rewrite H. cbn [fst snd]. rewrite set_set. reflexivity.
Qed.
Lemma exec_remove_by_label l r h : exec (p_remove_by_label get set l) (r, h) = put_back h r (m_remove_by_label (get r) l).
Proof.
  unfold p_remove_by_label, m_remove_by_label, put_back. cbn [exec look fst snd]. pose proof (find_label (get r) l) as FL.
  destruct (find (fun lp => str_eqb (fst lp) l) (m_labels (get r))) as [[l0 p]|]; cbn [exec fst snd]; [|rewrite set_get; reflexivity].
  unfold p_del, on_reg, drop_label, drop_value. cbn [fst snd]. rewrite FL. cbn [exec fst snd]. rewrite get_set. destruct (has_pred _ p); cbn [fst snd]; rewrite set_set; reflexivity.
Qed.
Lemma exec_register l v label r h : exec (p_register get set l v label) (r, h) = put_back h r (base_register (get r) l v label).
Proof. destruct l; [apply exec_add|apply exec_add|]. unfold put_back. cbn [base_register p_register exec fst snd]. rewrite set_get. reflexivity. Qed.
Lemma exec_unregister l r h : exec (p_unregister get set l) (r, h) = put_back h r (base_unregister (get r) l).
Proof. destruct l; [apply exec_remove_by_label|apply exec_remove_by_equality|]. unfold put_back. cbn [base_unregister p_unregister exec fst snd]. rewrite set_get. reflexivity. Qed.
End Lens.
Section Any.
Context {V : Type} (I : world -> Prop) (get : registry -> mapping V) (set : registry -> mapping V -> registry).
Hypothesis stable : forall r h m, I (r, h) -> I (set r m, h).
Lemma any_put f : forall w, I w -> I (snd (p_put get set f w)).
Proof. intros [r h] H. apply stable. exact H. Qed.
Lemma any_del f : forall w, I w -> I (snd (p_del get set f w)).
Proof. intros [r h] H. unfold p_del, on_reg. cbn [fst snd]. destruct (f (get r)) as [x m]. apply stable. exact H. Qed.
Lemma any_register l v label : keeps_inv I (fun _ => True) (p_register get set l v label).
Proof.
  assert (K : forall p label, keeps_inv I (fun _ => True) (p_add get set p v label)).
  { intros p lab. cbn [p_add keeps_inv look fst snd]. intros w Hw. split; [exact Hw|]. destruct (has_pred _ p); [exact Logic.I|]. destruct lab as [l0|]; cbn [keeps_inv look fst snd].
    - intros w1 H1. split; [exact H1|]. destruct (has_label _ l0); [exact Logic.I|]. cbn [keeps_inv]. intros w2 H2. split; [apply any_put; exact H2|]. intros w3 H3. split; [apply any_put; exact H3|exact Logic.I].
    - intros w1 H1. split; [apply any_put; exact H1|exact Logic.I]. }
  destruct l; [apply K|apply K|exact Logic.I].
Qed.
Lemma any_unregister l : keeps_inv I (fun _ => True) (p_unregister get set l).
Proof.
  destruct l as [s|p|]; [| |exact Logic.I]; cbn [p_unregister].
  - cbn [p_remove_by_label keeps_inv look fst snd]. intros w Hw. split; [exact Hw|]. destruct (find _ _) as [[l0 p]|]; [|exact Logic.I]. cbn [keeps_inv]. intros w1 H1. split; [apply any_del; exact H1|].
    destruct (fst _); [|exact Logic.I]. cbn [keeps_inv]. intros w2 H2. split; [apply any_del; exact H2|exact Logic.I].
  - cbn [p_remove_by_equality keeps_inv]. intros w Hw. split; [apply any_del; exact Hw|]. destruct (fst _); [|exact Logic.I]. cbn [keeps_inv look fst snd]. intros w1 H1. split; [exact H1|].
    apply (keeps_bind _ (fun _ => True)); [apply any_label_for|]. intros [[l0|]|e] _; try exact Logic.I. cbn [keeps_inv]. intros w2 H2. split; [apply any_del; exact H2|exact Logic.I].
Qed.
End Any.

(** *** The calls *)
Lemma exec_get_encoder_fuel fuel : forall ts r h, exec (p_get_encoder_fuel fuel ts) (r, h) = lifted (get_encoder_fuel fuel ts r) h.
Proof.
  induction fuel as [|f IH]; intros ts r h; cbn [p_get_encoder_fuel exec look get_encoder_fuel fst snd]; (destruct (ecache_get (r_ecache r) ts); [reflexivity|]); [reflexivity|].
  rewrite exec_bind, exec_registration. cbn [fst]. rewrite exec_bind.
  match goal with |- context [exec ?p (r, h)] => assert (E : exec p (r, h) = lifted (match base_get_registration (r_encs r) ts with Err e => (Err e, r) | Ok (EInst e) => (Ok e, r)
      | Ok (EClass c) => enc_from_type_str (get_encoder_fuel f) c ts r end) h) end.
  { destruct (base_get_registration (r_encs r) ts) as [[c|e]|e]; try reflexivity. rewrite enc_plan_ok. destruct (enc_plan c ts) as [[l build]|e]; [|reflexivity].
    rewrite exec_bind, exec_seq, (seq_lifted _ (get_encoder_fuel f)) by (intros; apply IH). unfold lifted.
    destruct (sequenceM (get_encoder_fuel f) l r) as [[es|e] r1]; reflexivity. }
  rewrite E. unfold lifted. match type of E with _ = lifted ?T h => destruct T as [[e|x] r1] end; reflexivity.
Qed.
Lemma exec_get_encoder ts r h : exec (p_get_encoder ts) (r, h) = lifted (get_encoder ts r) h.
Proof. apply exec_get_encoder_fuel. Qed.
Lemma exec_get_decoder_fuel fuel : forall k ts w, exec (p_get_decoder_fuel fuel k ts) w = get_decoder_fuel fuel k ts w.
Proof.
  induction fuel as [|f IH]; intros k ts w; cbn [p_get_decoder_fuel exec look get_decoder_fuel]; (destruct (dcache_get (r_dcache (fst w)) (ts, k)); [reflexivity|]); [reflexivity|].
  rewrite exec_bind, exec_registration, exec_bind.
  match goal with |- context [exec ?p w] => assert (E : exec p w = match base_get_registration (r_decs (fst w)) ts with Err e => (Err e, w) | Ok (DInst d) => (Ok d, w)
      | Ok (DClass c) => dec_from_type_str (get_decoder_fuel f None) c ts w end) end.
  { destruct (base_get_registration (r_decs (fst w)) ts) as [[c|e]|e]; try reflexivity. rewrite dec_plan_ok. destruct (dec_plan c ts) as [[l build]|e]; [|reflexivity].
    rewrite exec_bind, exec_seq, (seq_ext _ (get_decoder_fuel f None)) by (intros; apply IH).
    destruct (sequenceM (get_decoder_fuel f None) l w) as [[es|e] r1]; reflexivity. }
  rewrite E. match type of E with _ = ?T => destruct T as [[d|x] w1] end; [|reflexivity].
  cbn [exec]. destruct (if dec_is_dyn d then _ else _) as [d' h']. reflexivity.
Qed.
Lemma exec_get_decoder k ts w : exec (p_get_decoder k ts) w = get_decoder k ts w.
Proof. apply exec_get_decoder_fuel. Qed.
Lemma exec_out {A} (p : prog A) (c : A -> answer) w : exec (pbind p (fun a => Ret (c a))) w = (c (fst (exec p w)), snd (exec p w)).
Proof. rewrite exec_bind. destruct (exec p w); reflexivity. Qed.
Lemma exec_get_encoder_py t r h : exec (p_get_encoder_py t) (r, h) = lifted (get_encoder_py t r) h.
Proof. destruct t; try reflexivity. apply exec_get_encoder. Qed.
Lemma exec_get_decoder_py k t w : exec (p_get_decoder_py k t) w = get_decoder_py k t w.
Proof. destruct t; try reflexivity. apply exec_get_decoder. Qed.
Lemma exec_has ts r h : exec (p_has_encoder ts) (r, h) = lifted (has_encoder ts r) h.
Proof. unfold p_has_encoder, has_encoder. rewrite exec_bind, exec_get_encoder. unfold lifted. destruct (get_encoder ts r) as [[e|[]] r1]; reflexivity. Qed.
Lemma exec_has_type t r h : exec (p_is_encodable_type t) (r, h) = lifted (api_is_encodable_type t r) h.
Proof. destruct t; try reflexivity. apply exec_has. Qed.
Theorem prog_of_run o w : exec (prog_of o) w = run o w.
Proof.
  destruct w as [r h]. destruct o; cbn [prog_of run]; rewrite exec_out.
  - unfold on_registry, register_encoder, p_update_e. cbn [exec p_clear_e on_reg fst snd]. rewrite exec_register by (intros; destruct r0; reflexivity). unfold put_back. cbn [fst snd].
    destruct (base_register _ l v label); reflexivity.
  - unfold on_registry, unregister_encoder, p_update_e. cbn [exec p_clear_e on_reg fst snd]. rewrite exec_unregister by (intros; destruct r0; reflexivity). unfold put_back. cbn [fst snd].
    destruct (base_unregister _ l); reflexivity.
  - unfold on_registry, register_decoder, p_update_d. cbn [exec p_clear_d on_reg fst snd]. rewrite exec_register by (intros; destruct r0; reflexivity). unfold put_back. cbn [fst snd].
    destruct (base_register _ l v label); reflexivity.
  - unfold on_registry, unregister_decoder, p_update_d. cbn [exec p_clear_d on_reg fst snd]. rewrite exec_unregister by (intros; destruct r0; reflexivity). unfold put_back. cbn [fst snd].
    destruct (base_unregister _ l); reflexivity.
  - unfold on_registry, register, register_encoder, register_decoder, p_both. rewrite exec_bind.
    unfold p_update_e, p_update_d. cbn [exec p_clear_e on_reg fst snd]. rewrite exec_register by (intros; destruct r0; reflexivity). unfold put_back. cbn [fst snd].
    destruct (base_register _ l e label) as [[[]|x] m]; [|reflexivity]. cbn [exec p_clear_d on_reg fst snd]. rewrite exec_register by (intros; destruct r0; reflexivity). unfold put_back. cbn [fst snd].
    destruct (base_register _ l d label); reflexivity.
  - unfold on_registry, unregister, unregister_encoder, unregister_decoder, p_both. rewrite exec_bind.
    unfold p_update_e, p_update_d. cbn [exec p_clear_e on_reg fst snd]. rewrite exec_unregister by (intros; destruct r0; reflexivity). unfold put_back. cbn [fst snd].
    destruct (base_unregister _ l) as [[[]|x] m]; [|reflexivity]. cbn [exec p_clear_d on_reg fst snd]. rewrite exec_unregister by (intros; destruct r0; reflexivity). unfold put_back. cbn [fst snd].
    destruct (base_unregister (r_decs _) l); reflexivity.
  - rewrite exec_get_encoder. unfold on_registry, lifted. cbn [fst snd]. destruct (get_encoder ts r); reflexivity.
  - rewrite exec_has. unfold on_registry, lifted. cbn [fst snd]. destruct (has_encoder ts r); reflexivity.
  - rewrite exec_get_decoder. unfold on_world. destruct (get_decoder k ts (r, h)); reflexivity.
  - unfold on_registry. cbn [fst snd]. assert (E : exec (p_encode types args) (r, h) = lifted (api_encode types args r) h).
    { unfold p_encode, api_encode. destruct (validate_list_like_param types) as [ts|e]; [|reflexivity]. destruct (validate_list_like_param args); [|reflexivity].
      rewrite exec_bind, exec_seq, (seq_lifted _ get_encoder_py) by (intros; apply exec_get_encoder_py). unfold lifted. destruct (sequenceM get_encoder_py ts r) as [[es|e] r1]; reflexivity. }
    rewrite E. unfold lifted. destruct (api_encode types args r); reflexivity.
  - unfold on_registry. cbn [fst snd]. assert (E : exec (p_is_encodable typ arg) (r, h) = lifted (api_is_encodable typ arg r) h).
    { unfold p_is_encodable, api_is_encodable. rewrite exec_bind, exec_has_type. unfold lifted. destruct (api_is_encodable_type typ r) as [[[]|e] r1]; cbn [fst snd]; try reflexivity.
      rewrite exec_bind, exec_get_encoder_py. unfold lifted. destruct (get_encoder_py typ r1) as [[e|e] r2]; reflexivity. }
    rewrite E. unfold lifted. destruct (api_is_encodable typ arg r); reflexivity.
  - rewrite exec_has_type. unfold on_registry, lifted. cbn [fst snd]. destruct (api_is_encodable_type typ r); reflexivity.
  - unfold on_world. assert (E : exec (p_decode types data strict) (r, h) = api_decode types data strict (r, h)).
    { unfold p_decode, api_decode. destruct (validate_list_like_param types) as [ts|e]; [|reflexivity]. destruct (validate_bytes_param data); [|reflexivity].
      rewrite exec_bind, exec_seq, (seq_ext _ (get_decoder_py (Some strict))) by (intros; apply exec_get_decoder_py).
      destruct (sequenceM (get_decoder_py (Some strict)) ts (r, h)) as [[es|e] r1]; reflexivity. }
    rewrite E. destruct (api_decode types data strict (r, h)); reflexivity.
Qed.
Theorem thread_run ops : forall w, exec (thread ops) w = (answers ops w, after ops w).
Proof.
  induction ops as [|o ops IH]; intro w; [reflexivity|]. cbn [thread answers]. rewrite exec_bind, prog_of_run.
  change (after (o :: ops) w) with (after ops (snd (run o w))). destruct (run o w) as [a w']. cbn [snd]. rewrite exec_bind, IH. reflexivity.
Qed.

(** *** Encoder lookups *)
Definition enc_inv (m : mapping enc_reg) (w : world) : Prop := r_encs (fst w) = m /\ ecache_ok (fst w).
Definition dec_inv (m : mapping dec_reg) (w : world) : Prop := r_decs (fst w) = m /\ dcache_ok (fst w).
Lemma seq_lift {A B} (f : A -> result B) l : sequenceM (fun x (u : unit) => (f x, u)) l tt = (mapM f l, tt).
Proof. induction l as [|x l IH]; [reflexivity|]. cbn [sequenceM mapM]. destruct (f x); [|reflexivity]. rewrite IH. cbn [bind]. destruct (mapM f l); reflexivity. Qed.
Lemma enc_plan_opens c ts l build : enc_plan c ts = Ok (l, build) -> Forall (fun s => (opens s < opens ts)%nat) l.
Proof.
  unfold enc_plan. destruct (enc_leaf_from_type_str c ts); [intro H; inv H; constructor|].
  assert (Arr : forall b : abi_type -> list encoder -> result encoder,
    (' (t, it) <- (t <- parse_type_str None true ts;; it <- item_type t;; Ok (t, it));; Ok ([to_type_str it], b t)) = Ok (l, build) -> Forall (fun s => (opens s < opens ts)%nat) l).
  { intro b. destruct (t <- parse_type_str None true ts;; it <- item_type t;; Ok (t, it)) as [[t it]|e] eqn:P; [|discriminate]. cbn [bind]. intro H. inv H.
    constructor; [exact (array_item _ _ _ P)|constructor]. }
  destruct c; try exact (Arr (fun t es => match es with [ie] => _ | _ => _ end)).
  destruct (parse_tuple_type_str ts) as [cs|e] eqn:P; [|discriminate]. cbn [bind]. intro H. inv H. exact (tuple_components _ _ P).
Qed.
Lemma dec_plan_opens c ts l build : dec_plan c ts = Ok (l, build) -> Forall (fun s => (opens s < opens ts)%nat) l.
Proof.
  unfold dec_plan. destruct (dec_leaf_from_type_str c ts); [intro H; inv H; constructor|].
  assert (Arr : forall b : abi_type -> list decoder -> result decoder,
    (' (t, it) <- (t <- parse_type_str None true ts;; it <- item_type t;; Ok (t, it));; Ok ([to_type_str it], b t)) = Ok (l, build) -> Forall (fun s => (opens s < opens ts)%nat) l).
  { intro b. destruct (t <- parse_type_str None true ts;; it <- item_type t;; Ok (t, it)) as [[t it]|e] eqn:P; [|discriminate]. cbn [bind]. intro H. inv H.
    constructor; [exact (array_item _ _ _ P)|constructor]. }
  destruct c; try exact (Arr (fun t es => match es with [ie] => _ | _ => _ end)).
  destruct (parse_tuple_type_str ts) as [cs|e] eqn:P; [|discriminate]. cbn [bind]. intro H. inv H. exact (tuple_components _ _ P).
Qed.
Lemma enc_step m ts e w : enc_inv m w -> find_encoder m ts = Ok e -> enc_inv m (set_ecache (fst w) ((ts, e) :: r_ecache (fst w)), snd w).
Proof.
  intros [E C] F. split; [exact E|]. intros ts' e' H. cbn [fst set_ecache r_ecache r_encs ecache_get] in *. destruct (str_eqb ts ts') eqn:Q; [|exact (C ts' e' H)].
  apply str_eqb_eq in Q. subst ts'. inv H. exact F.
Qed.
Lemma dec_step m k ts d w : dec_inv m w -> find_decoder m k ts = Ok d -> dec_inv m (set_dcache (fst w) (((ts, k), d) :: r_dcache (fst w)), snd w).
Proof.
  intros [E C] F. split; [exact E|]. intros ts' k' d' H. cbn [fst set_dcache r_dcache r_decs dcache_get] in *. destruct (dkey_eqb (ts, k) (ts', k')) eqn:Q; [|exact (C ts' k' d' H)].
  unfold dkey_eqb in Q. cbn [fst snd] in Q. apply andb_true_iff in Q. destruct Q as [Q1 Q2]. apply str_eqb_eq in Q1. subst ts'.
  assert (k' = k) by (destruct k as [[]|], k' as [[]|]; cbn in Q2; congruence). subst k'. inv H. exact F.
Qed.
Lemma keeps_get_encoder_fuel m fuel : forall ts, (opens ts < fuel)%nat -> keeps_inv (enc_inv m) (fun r => r = find_encoder m ts) (p_get_encoder_fuel fuel ts).
Proof.
  induction fuel as [|f IH]; intros ts Hf; [lia|]. cbn [p_get_encoder_fuel keeps_inv look fst snd]. intros w Hw. split; [exact Hw|].
  destruct (ecache_get (r_ecache (fst w)) ts) as [e|] eqn:G; [destruct Hw as [<- C]; symmetry; exact (C ts e G)|].
  clear w Hw G. apply (keeps_bind _ (fun r => r = base_get_registration m ts)); [apply keeps_registration; intros w [Hw _]; exact Hw|]. intros reg ->.
  apply (keeps_bind _ (fun r => r = find_encoder m ts)).
  - rewrite find_encoder_eq. destruct (base_get_registration m ts) as [[c|e]|e]; try reflexivity. rewrite enc_plan_ok.
    destruct (enc_plan c ts) as [[l build]|e] eqn:P; [|reflexivity]. apply enc_plan_opens in P. rewrite Forall_forall in P.
    apply (keeps_bind _ (fun r => r = mapM (find_encoder m) l)).
    + apply keeps_seq. intros s Hs. apply IH. specialize (P s Hs). lia.
    + intros r ->. unfold lift. rewrite seq_lift. destruct (mapM (find_encoder m) l); reflexivity.
  - intros r ->. destruct (find_encoder m ts) as [e|e] eqn:F; [|reflexivity]. cbn [keeps_inv on_reg fst snd]. intros w1 H1. split; [|reflexivity].
    apply enc_step; assumption.
Qed.
Lemma keeps_get_encoder m ts : keeps_inv (enc_inv m) (fun r => r = find_encoder m ts) (p_get_encoder ts).
Proof. apply keeps_get_encoder_fuel. pose proof (opens_length ts). lia. Qed.
Lemma keeps_get_decoder_fuel m fuel : forall k ts, (opens ts < fuel)%nat -> keeps_inv (dec_inv m) (fun r => r = find_decoder m k ts) (p_get_decoder_fuel fuel k ts).
Proof.
  induction fuel as [|f IH]; intros k ts Hf; [lia|]. cbn [p_get_decoder_fuel keeps_inv look fst snd]. intros w Hw. split; [exact Hw|].
  destruct (dcache_get (r_dcache (fst w)) (ts, k)) as [d|] eqn:G; [destruct Hw as [<- C]; symmetry; exact (C ts k d G)|].
  clear w Hw G. apply (keeps_bind _ (fun r => r = base_get_registration m ts)); [apply keeps_registration; intros w [Hw _]; exact Hw|]. intros reg ->.
  apply (keeps_bind _ (fun r => find_decoder m k ts = match r with Err e => Err e | Ok d => Ok (with_strict k d) end)).
  - rewrite find_decoder_eq. destruct (base_get_registration m ts) as [[c|d]|e]; try reflexivity. rewrite dec_plan_ok.
    destruct (dec_plan c ts) as [[l build]|e] eqn:P; [|reflexivity]. apply dec_plan_opens in P. rewrite Forall_forall in P.
    apply (keeps_bind _ (fun r => r = mapM (find_decoder m None) l)).
    + apply keeps_seq. intros s Hs. apply IH. specialize (P s Hs). lia.
    + intros r ->. unfold lift. rewrite seq_lift. destruct (mapM (find_decoder m None) l); reflexivity.
  - intros r F. rewrite F. destruct r as [d|e]; [|reflexivity]. cbn [keeps_inv]. intros w1 H1.
    replace (if dec_is_dyn d then set_strict d (match k with None => true | Some b => b end) (snd w1) else (d, snd w1))
      with (with_strict k d, strict_heap k d (snd w1))
      by (unfold with_strict, strict_heap; fold (strict_of k); destruct (dec_is_dyn d); [symmetry; apply set_strict_split|reflexivity]).
    cbn [fst snd on_reg]. split; [exact H1|]. intros w2 H2. split; [|reflexivity]. apply dec_step; assumption.
Qed.
Lemma keeps_get_decoder m k ts : keeps_inv (dec_inv m) (fun r => r = find_decoder m k ts) (p_get_decoder k ts).
Proof. apply keeps_get_decoder_fuel. pose proof (opens_length ts). lia. Qed.

(** *** Steps on the other half of the registry *)
Definition stable_d (I : world -> Prop) : Prop :=
  (forall r h c, I (r, h) -> I (set_dcache r c, h)) /\ (forall r h h', I (r, h) -> I (r, h')) /\ (forall r h m, I (r, h) -> I (set_decs r m, h)).
Definition stable_e (I : world -> Prop) : Prop :=
  (forall r h c, I (r, h) -> I (set_ecache r c, h)) /\ (forall r h m, I (r, h) -> I (set_encs r m, h)).
Lemma enc_stable m : stable_d (enc_inv m).
Proof. repeat split; intros; destruct H as [A B]; assumption. Qed.
Lemma dec_stable m : stable_e (dec_inv m).
Proof. repeat split; intros; destruct H as [A B]; assumption. Qed.
Lemma any_get_encoder_fuel I fuel : stable_e I -> forall ts, keeps_inv I (fun _ => True) (p_get_encoder_fuel fuel ts).
Proof.
  intro St. induction fuel as [|f IH]; intro ts; cbn [p_get_encoder_fuel keeps_inv look fst snd]; intros w Hw; (split; [exact Hw|]);
    (destruct (ecache_get (r_ecache (fst w)) ts); [exact Logic.I|]); [exact Logic.I|].
  clear w Hw. apply (keeps_bind _ (fun _ => True)); [apply any_registration|]. intros reg _. apply (keeps_bind _ (fun _ => True)).
  - destruct reg as [[c|e]|e]; try exact Logic.I. destruct (enc_plan c ts) as [[l build]|e]; [|exact Logic.I].
    apply (keeps_bind _ (fun _ => True)); [apply keeps_seq_any; intros; apply IH|]. intros [es|e] _; exact Logic.I.
  - intros [e|e] _; [|exact Logic.I]. cbn [keeps_inv on_reg fst snd]. intros [r2 h2] H2. split; [|exact Logic.I]. apply (proj1 St). exact H2.
Qed.
Lemma any_get_decoder_fuel I fuel : stable_d I -> forall k ts, keeps_inv I (fun _ => True) (p_get_decoder_fuel fuel k ts).
Proof.
  intro St. induction fuel as [|f IH]; intros k ts; cbn [p_get_decoder_fuel keeps_inv look fst snd]; intros w Hw; (split; [exact Hw|]);
    (destruct (dcache_get (r_dcache (fst w)) (ts, k)); [exact Logic.I|]); [exact Logic.I|].
  clear w Hw. apply (keeps_bind _ (fun _ => True)); [apply any_registration|]. intros reg _. apply (keeps_bind _ (fun _ => True)).
  - destruct reg as [[c|e]|e]; try exact Logic.I. destruct (dec_plan c ts) as [[l build]|e]; [|exact Logic.I].
    apply (keeps_bind _ (fun _ => True)); [apply keeps_seq_any; intros; apply IH|]. intros [es|e] _; exact Logic.I.
  - intros [d|e] _; [|exact Logic.I]. cbn [keeps_inv]. intros [r2 h2] H2. cbn [fst snd]. destruct (if dec_is_dyn d then _ else _) as [d' h']. cbn [fst snd].
    split; [apply (proj1 (proj2 St)) with h2; exact H2|]. cbn [on_reg fst snd]. intros [r3 h3] H3. split; [|exact Logic.I]. apply (proj1 St). exact H3.
Qed.
Lemma any_has_type I t : stable_e I -> keeps_inv I (fun _ => True) (p_is_encodable_type t).
Proof.
  intro St. destruct t; try exact Logic.I. cbn [p_is_encodable_type]. unfold p_has_encoder. apply (keeps_bind _ (fun _ => True)); [apply any_get_encoder_fuel; exact St|].
  intros; exact Logic.I.
Qed.
Lemma any_get_encoder_py I t : stable_e I -> keeps_inv I (fun _ => True) (p_get_encoder_py t).
Proof. intro St. destruct t; try exact Logic.I. apply any_get_encoder_fuel. exact St. Qed.
Lemma keeps_out {A} I (P : A -> Prop) (Q : answer -> Prop) (c : A -> answer) p : keeps_inv I P p -> (forall a, P a -> Q (c a)) -> keeps_inv I Q (pbind p (fun a => Ret (c a))).
Proof. intros H K. apply (keeps_bind _ P); [exact H|]. intros a Ha. exact (K a Ha). Qed.
Lemma any_update_d I p : stable_d I -> keeps_inv I (fun _ => True) p -> keeps_inv I (fun _ => True) (p_update_d p).
Proof. intros St K. cbn [p_update_d keeps_inv]. intros [r h] H. split; [apply (proj1 St); exact H|exact K]. Qed.
Lemma any_update_e I p : stable_e I -> keeps_inv I (fun _ => True) p -> keeps_inv I (fun _ => True) (p_update_e p).
Proof. intros St K. cbn [p_update_e keeps_inv]. intros [r h] H. split; [apply (proj1 St); exact H|exact K]. Qed.

(** *** Calls *)
Definition enc_answer (m : mapping enc_reg) (o : op) : answer :=
  match o with
  | OGetEncoder ts => AEncoder (find_encoder m ts)
  | OHasEncoder ts => ABool (has_of (find_encoder m ts))
  | OEncode types args => ABytes (pure_encode m types args)
  | OIsEncodable typ arg => ABool (pure_is_encodable m typ arg)
  | OIsEncodableType typ => ABool (pure_has m typ)
  | _ => ADone (Ok tt)
  end.
Lemma enc_answer_run o w : uses_encoders o = true -> ecache_ok (fst w) -> fst (run o w) = enc_answer (r_encs (fst w)) o.
Proof.
  intros U C. destruct o; try discriminate U; cbn [run enc_answer]; unfold on_registry.
  - destruct (get_encoder_pure _ ts C) as (? & -> & _). reflexivity.
  - destruct (has_encoder_pure ts _ C) as (? & -> & _). reflexivity.
  - destruct (api_encode_pure types args _ C) as (? & -> & _). reflexivity.
  - destruct (api_is_encodable_pure typ arg _ C) as (? & -> & _). reflexivity.
  - destruct (api_is_encodable_type_pure typ _ C) as (? & -> & _). reflexivity.
Qed.
Definition dec_answer (m : mapping dec_reg) (o : op) : answer :=
  match o with
  | OGetDecoder k ts => ADecoder (find_decoder m k ts)
  | ODecode types data strict => AValue (pure_decode m types data strict)
  | _ => ADone (Ok tt)
  end.
Definition dec_exact (r : registry) (o : op) : Prop :=
  match o with OGetDecoder _ _ => True | ODecode _ _ _ => unshared_registry r | _ => False end.
Lemma dec_answer_run o w : dec_exact (fst w) o -> dcache_ok (fst w) -> fst (run o w) = dec_answer (r_decs (fst w)) o.
Proof.
  intros U C. destruct o; try contradiction; cbn [run dec_answer]; unfold on_world.
  - destruct (get_decoder_pure w k ts C) as (? & -> & _). reflexivity.
  - destruct (api_decode_value types data strict w C U) as (? & -> & _). reflexivity.
Qed.
Lemma keeps_enc m o : changes_encoders o = false -> keeps_inv (enc_inv m) (fun a => uses_encoders o = true -> a = enc_answer m o) (prog_of o).
Proof.
  intro Ch. destruct o; try discriminate Ch; cbn [prog_of uses_encoders enc_answer].
  - apply (keeps_out _ (fun _ => True)); [apply any_update_d; [apply enc_stable|apply any_register, enc_stable]|discriminate].
  - apply (keeps_out _ (fun _ => True)); [apply any_update_d; [apply enc_stable|apply any_unregister, enc_stable]|discriminate].
  - apply (keeps_out _ (fun r => r = find_encoder m ts)); [apply keeps_get_encoder|]. intros; subst; reflexivity.
  - apply (keeps_out _ (fun r => r = has_of (find_encoder m ts))); [|intros; subst; reflexivity]. unfold p_has_encoder.
    apply (keeps_bind _ (fun r => r = find_encoder m ts)); [apply keeps_get_encoder|]. intros r ->. destruct (find_encoder m ts) as [e|[]]; reflexivity.
  - apply (keeps_out _ (fun _ => True)); [apply any_get_decoder_fuel; apply enc_stable|discriminate].
  - apply (keeps_out _ (fun r => r = pure_encode m types args)); [|intros; subst; reflexivity]. unfold p_encode, pure_encode.
    destruct (validate_list_like_param types) as [ts|e]; [|reflexivity]. destruct (validate_list_like_param args); [|reflexivity]. cbn [bind].
    apply (keeps_bind _ (fun r => r = mapM (find_py (find_encoder m)) ts)).
    + apply keeps_seq. intros x _. destruct x; try reflexivity. apply keeps_get_encoder.
    + intros r ->. destruct (mapM _ ts); reflexivity.
  - apply (keeps_out _ (fun r => r = pure_is_encodable m typ arg)); [|intros; subst; reflexivity]. unfold p_is_encodable, pure_is_encodable.
    destruct typ; try reflexivity. cbn [p_is_encodable_type find_py p_get_encoder_py]. unfold p_has_encoder.
    apply (keeps_bind _ (fun r => r = match find_encoder m s with Ok _ => Ok true | Err MultipleEntriesFound => Err MultipleEntriesFound | Err _ => Ok false end)).
    + apply (keeps_bind _ (fun r => r = find_encoder m s)); [apply keeps_get_encoder|]. intros r ->. reflexivity.
    + intros r ->. destruct (find_encoder m s) as [e|[]] eqn:F; try reflexivity.
      apply (keeps_bind _ (fun r => r = find_encoder m s)); [apply keeps_get_encoder|]. intros r ->. rewrite F. reflexivity.
  - apply (keeps_out _ (fun r => r = pure_has m typ)); [|intros; subst; reflexivity]. unfold pure_has. destruct typ; try reflexivity.
    cbn [p_is_encodable_type find_py]. unfold p_has_encoder. apply (keeps_bind _ (fun r => r = find_encoder m s)); [apply keeps_get_encoder|]. intros r ->. reflexivity.
  - apply (keeps_out _ (fun _ => True)); [|discriminate]. unfold p_decode. destruct (validate_list_like_param types) as [ts|]; [|exact Logic.I].
    destruct (validate_bytes_param data); [|exact Logic.I]. apply (keeps_bind _ (fun _ => True)).
    + apply keeps_seq_any. intros x _. destruct x; try exact Logic.I. apply any_get_decoder_fuel, enc_stable.
    + intros [ds|e] _; [|exact Logic.I]. cbn [keeps_inv fst snd]. auto.
Qed.
Lemma decode_value_flags m ts ds b h strict : Forall (fun pv => unshared (snd pv)) (m_values m) -> mapM (find_py (find_decoder m (Some strict))) ts = Ok ds ->
  decode_with h (mk_dtuple ds) b new_stream = decode_with [] (mk_dtuple ds) b new_stream.
Proof.
  intros C M. apply decode_no_ref. apply mk_dtuple_no_ref. eapply mapM_forall; [|exact M].
  intros x y F. destruct x; try discriminate F. eapply find_no_ref; [exact C|reflexivity|exact F].
Qed.
Lemma keeps_dec r0 o : changes_decoders o = false ->
  keeps_inv (dec_inv (r_decs r0)) (fun a => dec_exact r0 o -> a = dec_answer (r_decs r0) o) (prog_of o).
Proof.
  intro Ch. set (m := r_decs r0). destruct o; try discriminate Ch; cbn [prog_of dec_exact dec_answer].
  - apply (keeps_out _ (fun _ => True)); [apply any_update_e; [apply dec_stable|apply any_register, dec_stable]|contradiction].
  - apply (keeps_out _ (fun _ => True)); [apply any_update_e; [apply dec_stable|apply any_unregister, dec_stable]|contradiction].
  - apply (keeps_out _ (fun _ => True)); [apply any_get_encoder_fuel; apply dec_stable|contradiction].
  - apply (keeps_out _ (fun _ => True)); [|contradiction]. apply (any_has_type _ (PStr ts)). apply dec_stable.
  - apply (keeps_out _ (fun r => r = find_decoder m k ts)); [apply keeps_get_decoder|]. intros; subst; reflexivity.
  - apply (keeps_out _ (fun _ => True)); [|contradiction]. unfold p_encode. destruct (validate_list_like_param types) as [ts|]; [|exact Logic.I].
    destruct (validate_list_like_param args); [|exact Logic.I]. apply (keeps_bind _ (fun _ => True)).
    + apply keeps_seq_any. intros x _. apply any_get_encoder_py, dec_stable.
    + intros [es|e] _; exact Logic.I.
  - apply (keeps_out _ (fun _ => True)); [|contradiction]. unfold p_is_encodable. apply (keeps_bind _ (fun _ => True)); [apply any_has_type, dec_stable|].
    intros [[]|e] _; try exact Logic.I. apply (keeps_bind _ (fun _ => True)); [apply any_get_encoder_py, dec_stable|]. intros [e|e] _; exact Logic.I.
  - apply (keeps_out _ (fun _ => True)); [|contradiction]. apply any_has_type, dec_stable.
  - apply (keeps_out _ (fun r => unshared_registry r0 -> r = pure_decode m types data strict)); [|intros a H U; rewrite (H U); reflexivity].
    unfold p_decode, pure_decode, pure_decoders.
    destruct (validate_list_like_param types) as [ts|e]; [|intros _; reflexivity]. destruct (validate_bytes_param data) as [b|e]; [|intros _; reflexivity]. cbn [bind].
    apply (keeps_bind _ (fun r => r = mapM (find_py (find_decoder m (Some strict))) ts)).
    + apply keeps_seq. intros x _. destruct x; try reflexivity. apply keeps_get_decoder.
    + intros r ->. destruct (mapM _ ts) as [ds|e] eqn:M; [|intros _; reflexivity]. cbn [keeps_inv bind fst snd]. intros w Hw. split; [exact Hw|].
      intro U. rewrite (decode_value_flags m ts ds b (snd w) strict U M). reflexivity.
Qed.
Lemma keeps_thread I (P : op -> answer -> Prop) ops : Forall (fun o => keeps_inv I (P o) (prog_of o)) ops -> keeps_inv I (Forall2 P ops) (thread ops).
Proof.
  induction 1 as [|o ops H F IH]; [constructor|]. cbn [thread]. apply (keeps_bind _ (P o)); [exact H|]. intros a Ha.
  apply (keeps_bind _ (Forall2 P ops)); [exact IH|]. intros l Hl. constructor; assumption.
Qed.

(** *** Schedules *)
Definition pool_ok (I : world -> Prop) (Ps : list (list answer -> Prop)) (c : pool) : Prop :=
  I (snd c) /\ Forall2 (fun P p => keeps_inv I P p) Ps (fst c).
Lemma step_ok (I : world -> Prop) (Ps : list (list answer -> Prop)) i : forall l w, I w -> Forall2 (fun P p => keeps_inv I P p) Ps l ->
  I (snd (step_at i l w)) /\ Forall2 (fun P (p : prog (list answer)) => keeps_inv I P p) Ps (fst (step_at i l w)).
Proof.
  revert i. induction Ps as [|P Ps IH]; intros i l w Hw F; inv F; [split; [exact Hw|constructor]|]. take (keeps_inv I P _) as K. take (Forall2 _ Ps _) as F.
  rename y into p. destruct i as [|i].
  - destruct p as [a|X s k]; cbn [step_at]; [split; [exact Hw|constructor; assumption]|]. cbn [keeps_inv] in K. destruct (K w Hw) as [H1 H2].
    destruct (s w) as [x w']. split; [exact H1|constructor; assumption].
  - assert (E : step_at (S i) (p :: l') w = (p :: fst (step_at i l' w), snd (step_at i l' w))) by (destruct p; cbn [step_at]; destruct (step_at i l' w); reflexivity).
    rewrite E. cbn [fst snd]. destruct (IH i l' w Hw F) as [H1 H2]. split; [exact H1|constructor; assumption].
Qed.
Lemma schedule_ok I Ps sched : forall c, pool_ok I Ps c -> pool_ok I Ps (schedule sched c).
Proof. induction sched as [|i s IH]; intros c H; [exact H|]. apply (IH (step_at i (fst c) (snd c))). destruct H as [H1 H2]. exact (step_ok I Ps i (fst c) (snd c) H1 H2). Qed.
Lemma schedule_thread (I : world -> Prop) (P : op -> answer -> Prop) ts w sched : I w -> Forall (Forall (fun o => keeps_inv I (P o) (prog_of o))) ts ->
  let c := schedule sched (start_threads ts w) in
  I (snd c) /\ forall i ops l, nth_error ts i = Some ops -> finished c i l -> Forall2 P ops l.
Proof.
  intros Hw F c. assert (K : pool_ok I (map (Forall2 P) ts) c).
  { apply schedule_ok. split; [exact Hw|]. unfold start_threads. cbn [fst]. clear -F. induction F; cbn [map]; constructor; [apply keeps_thread; assumption|assumption]. }
  destruct K as [K1 K2]. split; [exact K1|]. intros i ops l Hi Hf. unfold finished in Hf. revert K2 Hf. generalize (fst c). clear -Hi. intros ps K2 Hf. revert i ts Hi K2 Hf.
  induction ps as [|p ps IH]; intros i ts Hi K Hf; [destruct i; discriminate Hf|]. destruct ts as [|t ts]; [destruct i; discriminate Hi|]. cbn [map] in K. inv K.
  destruct i as [|i]; cbn [nth_error] in *; [inv Hi; inv Hf; assumption|]. eapply IH; eassumption.
Qed.
Theorem concurrent_encoders ts w sched : reachable w -> Forall (Forall (fun o => changes_encoders o = false)) ts ->
  let c := schedule sched (start_threads ts w) in
  (forall i ops l, nth_error ts i = Some ops -> finished c i l -> Forall2 (fun o a => uses_encoders o = true -> a = fst (run o w)) ops l)
  /\ (forall o, uses_encoders o = true -> fst (run o (snd c)) = fst (run o w)).
Proof.
  intros R F c. apply reachable_caches in R. destruct R as [Ce _].
  destruct (schedule_thread (enc_inv (r_encs (fst w))) (fun o a => uses_encoders o = true -> a = enc_answer (r_encs (fst w)) o) ts w sched) as [A B].
  - split; [reflexivity|exact Ce].
  - eapply Forall_impl; [|exact F]. intros ops Fo. eapply Forall_impl; [|exact Fo]. intros o Ho. apply keeps_enc. exact Ho.
  - split.
    + intros i ops l Hi Hl. specialize (B i ops l Hi Hl). clear -B Ce. induction B; constructor; auto. intro U. rewrite (enc_answer_run _ w U Ce). auto.
    + intros o U. destruct A as [A1 A2]. rewrite (enc_answer_run o w U Ce). fold c in A1, A2. rewrite (enc_answer_run o (snd c) U A2), A1. reflexivity.
Qed.
Theorem concurrent_decoders ts w sched : reachable w -> Forall (Forall (fun o => changes_decoders o = false)) ts ->
  let c := schedule sched (start_threads ts w) in
  (forall i ops l, nth_error ts i = Some ops -> finished c i l -> Forall2 (fun o a => dec_exact (fst w) o -> a = fst (run o w)) ops l)
  /\ (forall o, dec_exact (fst w) o -> fst (run o (snd c)) = fst (run o w)).
Proof.
  intros R F c. apply reachable_caches in R. destruct R as [_ Cd].
  destruct (schedule_thread (dec_inv (r_decs (fst w))) (fun o a => dec_exact (fst w) o -> a = dec_answer (r_decs (fst w)) o) ts w sched) as [A B].
  - split; [reflexivity|exact Cd].
  - eapply Forall_impl; [|exact F]. intros ops Fo. eapply Forall_impl; [|exact Fo]. intros o Ho. apply keeps_dec. exact Ho.
  - split.
    + intros i ops l Hi Hl. specialize (B i ops l Hi Hl). clear -B Cd. induction B; constructor; auto. intro U. rewrite (dec_answer_run _ w U Cd). auto.
    + intros o U. destruct A as [A1 A2]. rewrite (dec_answer_run o w U Cd). fold c in A1, A2.
      rewrite (dec_answer_run o (snd c)); [rewrite A1; reflexivity| |exact A2]. destruct o; cbn [dec_exact] in *; try contradiction; try exact Logic.I.
      unfold unshared_registry in *. rewrite A1. exact U.
Qed.
