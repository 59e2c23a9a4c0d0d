(** What the strategies of eth_abi/tools/_strategies.py generate. *)
From Coq Require Import Strings.Byte Strings.String.
From Verif Require Import Tac Bytes BytesProofs Decimals DecimalsProofs Keccak Address Grammar GrammarSpec GrammarProofs NormalizeProofs
  Encoding Decoding Registry RaisingSpec Codec Histories Spec ReadSpec TypeSpec AddressProofs CacheProofs LookupProofs TypeProofs ArgsProofs EncodeApi DecodeApi NumericProofs EncodeProofs EncodeCases ApiProofs Strategies StrategySpec.
Open Scope Z_scope.

(** ** Addresses *)
Section Keccak.
Local Transparent keccak256.
Lemma keccak_round_length st rc : length (keccak_round st rc) = 25%nat.
Proof. unfold keccak_round. reflexivity. Qed.
Lemma keccak_f_length st : length (keccak_f st) = 25%nat.
Proof. unfold keccak_f, round_constants. cbn [fold_left]. apply keccak_round_length. Qed.
Lemma absorb_length bl st : length st = 25%nat -> length (fold_left absorb bl st) = 25%nat.
Proof. revert st. induction bl as [|b bl IH]; intros st H; [exact H|]. cbn [fold_left]. apply IH. apply keccak_f_length. Qed.
Lemma bytes_of_lane_length n x : length (bytes_of_lane n x) = n.
Proof. revert x. induction n as [|n IH]; intro x; [reflexivity|]. cbn [bytes_of_lane length]. rewrite IH. reflexivity. Qed.
Lemma keccak_length b : length (keccak256 b) = 32%nat.
Proof.
  unfold keccak256. cbv zeta. set (st := fold_left absorb _ _). assert (L : length st = 25%nat) by (apply absorb_length; reflexivity). clearbody st.
  do 4 (destruct st as [|? st]; [discriminate L|]). cbn [firstn flat_map]. rewrite !app_length, !bytes_of_lane_length. reflexivity.
Qed.
End Keccak.

Lemma nibbles_length b : length (nibbles b) = (2 * length b)%nat.
Proof. unfold nibbles. induction b as [|x b IH]; [reflexivity|]. cbn [flat_map app length]. rewrite IH. lia. Qed.
(** Upper-casing any of the digits leaves their values. *)
Lemma hex_pairs_case d b ns : hex_pairs d b -> (length d <= length ns)%nat ->
  hex_pairs (map (fun p => if (97 <=? fst p)%N && (8 <=? snd p) then (fst p - 32)%N else fst p) (combine d ns)) b.
Proof.
  assert (V : forall c n h, hex_value c = Some h -> hex_value (if (97 <=? c)%N && (8 <=? n) then (c - 32)%N else c) = Some h).
  { intros c n h H. destruct ((97 <=? c)%N && (8 <=? n)) eqn:E; [|exact H]. apply andb_true_iff in E. destruct E as [E _]. apply N.leb_le in E.
    unfold hex_value in *. destruct (N.leb_spec 48 c), (N.leb_spec c 57), (N.leb_spec 97 c), (N.leb_spec c 102); cbn [andb] in H; try discriminate H; try lia;
    destruct (N.leb_spec 48 (c - 32)), (N.leb_spec (c - 32) 57), (N.leb_spec 97 (c - 32)), (N.leb_spec (c - 32) 102), (N.leb_spec 65 (c - 32)), (N.leb_spec (c - 32) 70), (N.leb_spec 65 c), (N.leb_spec c 70);
      cbn [andb] in *; try lia; try discriminate H; inv H; f_equal; lia. }
  intro H. revert ns. induction H as [|c0 c1 h l x s bs H0 H1 E H IH]; intros ns L; [constructor|].
  destruct ns as [|n0 [|n1 ns]]; cbn [length] in L; try lia. cbn [combine map fst snd].
  econstructor; [apply V; exact H0|apply V; exact H1|exact E|]. apply IH. lia.
Qed.
Lemma checksum_bytes b : len b = 20 -> map_checksum (PBytes b) = Ok (PStr (lit "0x" ++ eip55 b)) /\ address_text (lit "0x" ++ eip55 b) b.
Proof.
  intro L. split.
  - unfold map_checksum, to_checksum_address. rewrite to_normalized_bytes by exact L. cbn [bind]. rewrite checksum_eq. reflexivity.
  - exists (lit "0x"), (eip55 b). split; [reflexivity|]. split; [auto|]. split; [exact L|]. split; [|auto].
    unfold eip55. apply hex_pairs_case; [apply hex_pairs_hex_lower|]. rewrite nibbles_length, keccak_length. unfold hex_lower. rewrite map_length, nibbles_length.
    apply (length_len b 20) in L. lia.
Qed.

(** ** The strategy of each ABI type *)
Fixpoint strat_of (t : sty) : strategy :=
  match t with
  | SUInt m => StIntegers 0 (2 ^ m - 1)
  | SInt m => StIntegers (- 2 ^ (m - 1)) (2 ^ (m - 1) - 1)
  | SBool => StBooleans
  | SAddr => address_strategy
  | SUFixed m n => StMap (map_scale n) (StDecimals 0 (2 ^ m - 1))
  | SFixed m n => StMap (map_scale n) (StDecimals (- 2 ^ (m - 1)) (2 ^ (m - 1) - 1))
  | SBytesM k => StBinary k k
  | SBytes => bytes_strategy
  | SString => StText
  | SArr t => StLists (strat_of t) 0 None
  | SSized n t => StLists (strat_of t) n (Some n)
  | STuple ts => StTuples (map strat_of ts)
  end.

Lemma scale_draw n z : 1 <= n <= 80 -> Z.abs z < pow10 78 ->
  exists d, map_scale n (PDec (dec_of_Z z)) = Ok (PDec d) /\ scaled d n z.
Proof.
  intros Hn Hz. exists (DFin (z <? 0) (Z.to_N (Z.abs z)) (- n)). split.
  - unfold map_scale, scale_places, dec_of_Z. rewrite dec_mul_bound by lia. reflexivity.
  - cbn [scaled]. unfold scaled_cmp. rewrite Z.add_opp_diag_l. cbn [Z.leb Z.compare]. change (10 ^ 0) with 1. rewrite Z.mul_1_r, Z2N.id by lia.
    apply Z.compare_eq_iff. destruct (Z.ltb_spec z 0); lia.
Qed.

(** Every drawn value is one, stands for an ABI value, and is exact. *)
Definition good (t : sty) (r : result pyval) : Prop :=
  exists v a, r = Ok v /\ denotes t v a /\ leaves exact_leaf t v.
Lemma good_list t l : Forall (fun v => good t (Ok v)) l -> exists vs, Forall2 (denotes t) l vs /\ Forall (leaves exact_leaf t) l.
Proof.
  induction 1 as [|v l (v' & a & E & D & X) F (vs & D' & X')]; [exists []; split; constructor|]. inv E. exists (a :: vs). split; constructor; assumption.
Qed.
Theorem draw_good t : wf t -> forall r, draw (strat_of t) r -> good t r.
Proof.
  induction t as [m|m| | |m n|m n|k| | |t IH|n t IH|ts IH] using sty_ind'; intros W r D; cbn [strat_of] in D.
  - inv W. take (int_size m) as Hm. destruct Hm as [Hm _]. assert (0 < 2 ^ m) by (apply pow2_pos; lia). inv D; [|lia].
    eexists _, _. split; [reflexivity|]. split; [apply D_uint; lia|exact I].
  - inv W. take (int_size m) as Hm. destruct Hm as [Hm _]. assert (0 < 2 ^ (m - 1)) by (apply pow2_pos; lia). inv D; [|lia].
    eexists _, _. split; [reflexivity|]. split; [apply D_int; lia|exact I].
  - inv D. eexists _, _. split; [reflexivity|]. split; [constructor|exact I].
  - unfold address_strategy in D. inv D; take (draw _ _) as D; inv D; [|lia]. assert (L : len b = 20) by lia. destruct (checksum_bytes b L) as [-> A].
    eexists _, _. split; [reflexivity|]. split; [apply D_addr_text; exact A|exact I].
  - inv W. take (int_size m) as Hm. destruct Hm as [Hm _]. take (frac_size n) as Hn. assert (0 < 2 ^ m) by (apply pow2_pos; lia).
    pose proof (pow_2_m_bound m ltac:(lia)). inv D; take (draw _ _) as D; inv D; [|lia]. destruct (scale_draw n z Hn ltac:(lia)) as (d & -> & S).
    eexists _, _. split; [reflexivity|]. split; [apply D_ufixed; [exact S|lia]|]. cbn. destruct d; try contradiction S. eauto.
  - inv W. take (int_size m) as Hm. destruct Hm as [Hm _]. take (frac_size n) as Hn. assert (0 < 2 ^ (m - 1)) by (apply pow2_pos; lia).
    pose proof (pow_2_m_bound (m - 1) ltac:(lia)). inv D; take (draw _ _) as D; inv D; [|lia]. destruct (scale_draw n z Hn ltac:(lia)) as (d & -> & S).
    eexists _, _. split; [reflexivity|]. split; [apply D_fixed; [exact S|lia]|]. cbn. destruct d; try contradiction S. eauto.
  - inv W. inv D; [|lia]. eexists _, _. split; [reflexivity|]. split; [constructor; [left; reflexivity|lia]|exact I].
  - unfold bytes_strategy in D. inv D; [|lia]. eexists _, _. split; [reflexivity|]. split; [constructor; left; reflexivity|exact I].
  - inv D. eexists _, _. split; [reflexivity|]. split; [constructor; assumption|exact I].
  - inv W. specialize (IH ltac:(assumption)). inv D.
    + take (Forall _ l) as F. destruct (good_list t l) as (vs & D & X); [eapply Forall_impl; [|exact F]; intros v Hv; apply IH, Hv|].
      eexists _, _. split; [reflexivity|]. split; [eapply D_arr; [left; reflexivity|exact D]|exact X].
    + take (draw _ _) as D. destruct (IH _ D) as (? & ? & Q & _). discriminate Q.
  - inv W. specialize (IH ltac:(assumption)). inv D.
    + take (Forall _ l) as F. destruct (good_list t l) as (vs & D & X); [eapply Forall_impl; [|exact F]; intros v Hv; apply IH, Hv|].
      take (forall n0, Some n = Some n0 -> _) as Hn. specialize (Hn n eq_refl).
      eexists _, _. split; [reflexivity|]. split; [eapply D_sized; [left; reflexivity|lia|exact D]|exact X].
    + take (draw _ _) as D. destruct (IH _ D) as (? & ? & Q & _). discriminate Q.
    + lia.
  - inv W. take (Forall wf ts) as Wt. inv D.
    + take (Forall2 _ _ l) as F. 
      assert (G : exists vs, Forall3 denotes ts l vs /\ leaves exact_leaf (STuple ts) (PTuple l)).
      { clear -IH Wt F. remember (map strat_of ts) as ss eqn:E. revert ts E IH Wt. induction F as [|s v ss l D F IHF]; intros ts E IH Wt.
        - destruct ts; [|discriminate]. exists []. split; [constructor|exact I].
        - destruct ts as [|t ts]; inv E. inv IH. inv Wt. take (wf t -> _) as Ht. destruct (IHF ts eq_refl) as (vs & D' & X'); [assumption..|].
          destruct (Ht ltac:(assumption) _ D) as (v' & a & Q & D1 & X1). inv Q. exists (a :: vs). split; [constructor; assumption|]. cbn. split; [exact X1|exact X']. }
      destruct G as (vs & D & X). eexists _, _. split; [reflexivity|]. split; [eapply D_tuple; [right; left; reflexivity|exact D]|exact X].
    + take (In _ _) as Is. take (draw _ _) as D. apply in_map_iff in Is. destruct Is as (t & <- & It). rewrite Forall_forall in IH, Wt.
      destruct (IH t It (Wt t It) _ D) as (? & ? & Q & _). discriminate Q.
Qed.

(** ** Lookups *)
(** No "bool" with a suffix occurs. *)
Fixpoint plain (T : abi_type) : bool :=
  match T with
  | Basic b sub _ => negb (str_eqb b (lit "bool") && match sub with SubNone => false | _ => true end)
  | Tup ts _ => forallb plain ts
  end.
Lemma plain_expand T : plain (expand T) = plain T.
Proof.
  induction T as [b sub arr|ts arr IH] using abi_type_ind'.
  - destruct sub; try reflexivity. cbn [expand]. destruct (alias_of b) as [[b' sub']|] eqn:E; [|reflexivity].
    unfold alias_of in E. cbn [plain]. rewrite andb_false_r.
    repeat match type of E with (if ?c then _ else _) = _ => destruct c end; inv E; reflexivity.
  - cbn [expand plain]. induction IH as [|T ts H F IHF]; [reflexivity|]. cbn [map forallb]. rewrite H, IHF. reflexivity.
Qed.
Lemma plain_set_arr arr T : plain (set_arr arr T) = plain T.
Proof. destruct T; reflexivity. Qed.
Lemma type_name_plain : (forall s t, type_name false s t -> exists T, g_type s T /\ plain T = true)
  /\ (forall s ts, type_names false s ts -> exists Ts, g_components s Ts /\ forallb plain Ts = true).
Proof.
  assert (B : forall b ss sub, alphas b -> g_sub ss sub -> plain (Basic b sub []) = true -> exists T, g_type (b ++ ss) T /\ plain T = true)
    by (intros b ss sub A S H; eexists; split; [apply g_basic; eassumption|exact H]).
  assert (N0 : forall b, alphas b -> exists T, g_type b T /\ plain T = true).
  { intros b A. rewrite <- (app_nil_r b). eapply B; [exact A|constructor|]. cbn. rewrite andb_false_r. reflexivity. }
  apply tn_mut; intros; try discriminate.
  all: try (apply N0; alpha).
  all: try (eapply B; [alpha|constructor; eassumption|reflexivity]).
  - destruct H as (T & G & P). eexists. split; [apply g_type_snoc; exact G|]. rewrite plain_set_arr. exact P.
  - destruct H as (T & G & P). eexists. split; [apply g_type_snoc; [exact G|eassumption]|]. rewrite plain_set_arr. exact P.
  - destruct H as (Ts & C & P). exists (Tup Ts []). split; [exact (G_tuple s Ts [] [] C GA_nil)|exact P].
  - destruct H as (T & G & P). exists [T]. split; [constructor; exact G|]. cbn. rewrite P. reflexivity.
  - destruct H as (T & G & P), H0 as (Ts & C & Ps). exists (T :: Ts). split; [constructor; assumption|]. cbn. rewrite P. exact Ps.
Qed.

(** What is registered for a tree. *)
Definition strat_reg (T : abi_type) : option strategy_reg :=
  match T with
  | Basic b sub [] =>
      let bare := match sub with SubNone => true | _ => false end in
      if str_eqb b (lit "uint") then Some (RFactory FUint)
      else if str_eqb b (lit "int") then Some (RFactory FInt)
      else if str_eqb b (lit "address") then if bare then Some (RInst address_strategy) else None
      else if str_eqb b (lit "bool") then if bare then Some (RInst bool_strategy) else None
      else if str_eqb b (lit "ufixed") then Some (RFactory FUFixed)
      else if str_eqb b (lit "fixed") then Some (RFactory FFixed)
      else if str_eqb b (lit "bytes") then if bare then Some (RInst bytes_strategy) else Some (RFactory FBytes)
      else if str_eqb b (lit "function") then if bare then Some (RFactory FBytes) else None
      else if str_eqb b (lit "string") then if bare then Some (RInst string_strategy) else None
      else None
  | Tup _ [] => Some (RFactory FTuple)
  | _ => Some (RFactory FArray)
  end.
Lemma find_strategy ts T : parse ts = Ok T ->
  base_get_registration strategy_registry ts = match strat_reg T with Some r => Ok r | None => Err NoEntriesFound end.
Proof.
  intro P. unfold base_get_registration.
  assert (M : m_find strategy_registry ts = match strat_reg T with Some r => Done r | None => Raised NoEntriesFound (Ok true) end).
  { unfold m_find. change (m_values strategy_registry) with
      (map (fun x => let '(l, v, _) := x in (match l with LPred p => p | _ => mkPred KHasArrlist None end, v)) strategy_registrations).
    unfold strategy_registrations. cbn [map m_scan fst pred_call pkind be l_has_arrlist l_is_base_tuple]. unfold base_equals, has_arrlist, is_base_tuple. rewrite P.
    destruct T as [b sub [|d arr]|cs [|d arr]]; try reflexivity.
    unfold strat_reg. cbn [arrlist_of]. base_cases b; try (destruct sub; reflexivity).
    repeat match goal with E : str_eqb b ?x = false |- _ => rewrite E; clear E end. destruct sub; reflexivity. }
  rewrite M. destruct (strat_reg T); [reflexivity|]. cbn. rewrite P. reflexivity.
Qed.
Lemma ast_sty_item T t : ast_sty T = Some t -> arrlist_of T <> [] ->
  exists t0, ast_sty (set_arr (removelast (arrlist_of T)) T) = Some t0 /\ t = dim_sty t0 (last (arrlist_of T) None).
Proof.
  intros E Ne. destruct T as [b sub arr|ts arr]; cbn [arrlist_of set_arr ast_sty] in *.
  - destruct (basic_sty b sub) as [t1|]; inv E. cbn [option_map]. eexists. split; [reflexivity|]. apply dims_last. exact Ne.
  - destruct (all_some (map ast_sty ts)) as [l|]; inv E. cbn [option_map]. eexists. split; [reflexivity|]. apply dims_last. exact Ne.
Qed.
Lemma leaf_strategy b sub t get : bare_byte (Basic b sub []) = false -> ast_sty (expand (Basic b sub [])) = Some t ->
  match strat_reg (Basic b sub []) with
  | Some (RInst s) => plain (Basic b sub []) = true /\ s = strat_of t
  | Some (RFactory f) => plain (Basic b sub []) = true /\ call_factory get f (expand (Basic b sub [])) = Ok (strat_of t)
  | None => plain (Basic b sub []) = false
  end.
Proof.
  intros Bb E. unfold strat_reg. base_cases b.
  - destruct sub as [|m|m n]; cbn -[int_sizeb Z.pow] in E; try discriminate; [|destruct (int_sizeb m); [|discriminate]]; inv E; (split; [reflexivity|]); reflexivity.
  - destruct sub as [|m|m n]; cbn -[int_sizeb Z.pow] in E; try discriminate; [|destruct (int_sizeb m); [|discriminate]]; inv E; (split; [reflexivity|]); reflexivity.
  - destruct sub as [|m|m n]; cbn in E; try discriminate. inv E. split; reflexivity.
  - destruct sub as [|m|m n]; cbn in E; inv E; [split; reflexivity|reflexivity|reflexivity].
  - destruct sub as [|m|m n]; cbn -[int_sizeb frac_sizeb Z.pow] in E; try discriminate; [|destruct (int_sizeb m && frac_sizeb n); [|discriminate]]; inv E; (split; [reflexivity|]); reflexivity.
  - destruct sub as [|m|m n]; cbn -[int_sizeb frac_sizeb Z.pow] in E; try discriminate; [|destruct (int_sizeb m && frac_sizeb n); [|discriminate]]; inv E; (split; [reflexivity|]); reflexivity.
  - destruct sub as [|m|m n]; cbn -[Z.leb] in E; try discriminate; [inv E; split; reflexivity|]. destruct ((1 <=? m) && (m <=? 32)); inv E. split; reflexivity.
  - destruct sub as [|m|m n]; cbn in E; try discriminate. inv E. split; reflexivity.
  - destruct sub as [|m|m n]; cbn in E; try discriminate. inv E. split; reflexivity.
  - exfalso. assert (X : expand (Basic b sub []) = Basic b sub []).
    { destruct sub; try reflexivity. cbn [expand]. unfold alias_of. cbn [bare_byte] in Bb.
      repeat match goal with E : str_eqb b ?x = false |- _ => rewrite E; clear E end. reflexivity. }
    rewrite X in E. cbn [ast_sty] in E. unfold basic_sty in E.
    repeat match goal with Q : str_eqb b ?x = false |- _ => rewrite Q in E; clear Q end. discriminate E.
Qed.
Lemma get_fuel fuel : forall ts T t, parse ts = Ok T -> bare_byte T = false -> ast_sty (expand T) = Some t -> (opens ts < fuel)%nat ->
  get_strategy_fuel fuel strategy_registry ts = if plain T then Ok (strat_of t) else Err NoEntriesFound.
Proof.
  induction fuel as [|fuel IHf]; intros ts T t P Bb E Hf; [lia|]. cbn [get_strategy_fuel]. rewrite (find_strategy ts T P).
  pose proof (parse_normalize ts T P) as PN. destruct (opens_parse ts _ PN) as [Ho Ha].
  assert (IH : forall T' t', (depth T' < opens ts)%nat -> ast_ok T' -> expand T' = T' -> ast_sty T' = Some t' ->
    get_strategy_fuel fuel strategy_registry (to_type_str T') = if plain T' then Ok (strat_of t') else Err NoEntriesFound).
  { intros T' t' H A X E'. apply IHf; [apply parse_print_ast; exact A|apply bare_byte_expanded; exact X|congruence|rewrite opens_print by exact A; lia]. }
  destruct (arrlist_of T) as [|d0 a0] eqn:Arr.
  - destruct T as [b sub arr|cs arr]; cbn [arrlist_of] in Arr; subst arr.
    + pose proof (leaf_strategy b sub t (get_strategy_fuel fuel strategy_registry) Bb E) as L. destruct (strat_reg (Basic b sub [])) as [[s|f]|].
      * destruct L as [-> ->]. reflexivity.
      * destruct L as [-> L]. rewrite PN. exact L.
      * rewrite L. reflexivity.
    + cbn [strat_reg]. rewrite PN. cbn [bind expand call_factory]. cbn [expand ast_sty] in E.
      destruct (all_some (map ast_sty (map expand cs))) as [l|] eqn:L; inv E. apply all_some_Forall2 in L.
      assert (Cs : Forall (fun T' => (depth T' < opens ts)%nat /\ ast_ok T' /\ expand T' = T') (map expand cs)).
      { apply Forall_forall. intros T' H. rewrite Ho. cbn [expand depth]. pose proof (depth_component _ _ H).
        split; [lia|]. cbn [expand] in Ha. inv Ha. take (Forall ast_ok _) as F. rewrite Forall_forall in F. split; [auto|].
        apply in_map_iff in H. destruct H as (T0 & <- & _). apply expand_idem. }
      assert (Pl : plain (Tup cs []) = forallb plain (map expand cs)) by exact (eq_sym (plain_expand (Tup cs []))).
      rewrite Pl. change (strat_of (dims_sty [] (STuple l))) with (StTuples (map strat_of l)).
      assert (M : mapM (fun c => get_strategy_fuel fuel strategy_registry (to_type_str c)) (map expand cs)
                  = if forallb plain (map expand cs) then Ok (map strat_of l) else Err NoEntriesFound).
      { clear -L Cs IH. revert l L. induction Cs as [|T Ts (H1 & H2 & H3) Cs IHc]; intros l L; inv L; [reflexivity|]. cbn [mapM forallb].
        rewrite (IH T y) by assumption. destruct (plain T); [|reflexivity]. cbn [bind andb]. rewrite (IHc l') by assumption.
        destruct (forallb plain Ts); reflexivity. }
      rewrite M. destruct (forallb plain (map expand cs)); reflexivity.
  - assert (Ne : arrlist_of (expand T) <> []) by (rewrite arrlist_expand, Arr; discriminate).
    assert (R : strat_reg T = Some (RFactory FArray)) by (destruct T as [b sub [|d a]|cs [|d a]]; try discriminate Arr; reflexivity).
    rewrite R, PN. cbn [bind call_factory]. rewrite (item_set_arr _ Ne). cbn [bind].
    destruct (ast_sty_item _ _ E Ne) as (t0 & E0 & ->). set (it := set_arr (removelast (arrlist_of (expand T))) (expand T)) in *.
    destruct (item_type_facts _ _ Ha (item_set_arr _ Ne)) as [I1 I2]. fold it in I1, I2. rewrite <- Ho in I2.
    rewrite (IH it t0 I2 I1); [|unfold it; rewrite expand_set_arr, expand_idem; reflexivity|exact E0].
    unfold it. rewrite plain_set_arr, plain_expand. destruct (plain T); [|reflexivity]. cbn [bind]. destruct (last (arrlist_of (expand T)) None); reflexivity.
Qed.
(** get_abi_strategy on the supported types *)
Theorem get_abi_strategy_cases s t : supported s t ->
  (get_abi_strategy s = Ok (strat_of t)) \/ (get_abi_strategy s = Err NoEntriesFound /\ ~ type_name false s t).
Proof.
  intros S. pose proof S as [H B]. apply type_name_iff in H. destruct H as (T & P & E).
  assert (Bb : bare_byte T = false) by (destruct (bare_byte T) eqn:Q; [apply (byte_tree s T P) in Q; congruence|reflexivity]).
  unfold get_abi_strategy, get_strategy. rewrite (get_fuel _ s T t P Bb E) by (pose proof (opens_length s); lia).
  destruct (plain T) eqn:Pl; [left; reflexivity|right; split; [reflexivity|]]. intro N. apply type_name_plain in N. destruct N as (T' & G & Pl').
  apply parse_spec in G. congruence.
Qed.
Theorem strategy_generates s t g r : supported s t -> get_abi_strategy s = Ok g -> draw g r ->
  exists v a, r = Ok v /\ denotes t v a /\ leaves exact_leaf t v.
Proof.
  intros S G D. destruct (get_abi_strategy_cases s t S) as [Q|[Q _]]; [|congruence]. assert (g = strat_of t) by congruence. subst g.
  apply draw_good; [eapply supported_wf; exact S|exact D].
Qed.
Theorem strategy_exists s t : type_name false s t -> s <> lit "byte" -> exists g, get_abi_strategy s = Ok g.
Proof.
  intros N B. destruct (get_abi_strategy_cases s t) as [Q|[_ Q]]; [split; [apply type_name_weaken; exact N|exact B]|eauto|contradiction].
Qed.
Theorem strategy_encodes w s t g r : supported s t -> get_abi_strategy s = Ok g -> draw g r -> used false w ->
  exists v a, r = Ok v /\ denotes t v a
    /\ (fits (PList [v]) -> is_encodable_in w (PStr s) v = Ok true
        /\ encode_in w (PList [PStr s]) (PList [v]) = Ok (spec_enc (STuple [t]) (VSeq [a]))).
Proof.
  intros S G D U. destruct (strategy_generates s t g r S G D) as (v & a & -> & Dn & X). exists v, a. split; [reflexivity|]. split; [exact Dn|]. intro F.
  assert (E : encode_in w (PList [PStr s]) (PList [v]) = Ok (spec_enc (STuple [t]) (VSeq [a]))).
  { apply (encode_denoted false w _ [t] _ (VSeq [a]) U (one_args s t S)); [apply denotes_one; eauto|exact F]. }
  split; [|exact E].
  destruct (is_encodable_cases w (PStr s) v U F) as [(s' & t' & _ & _ & [C|[C|[C|C]]])|(N & _ & e & _ & C)]; try apply C.
  - destruct C as (_ & e & C & _). congruence.
  - destruct C as (_ & C & _). congruence.
  - congruence.
Qed.
Theorem strategy_round_trip w w' s t g r b strict : supported s t -> get_abi_strategy s = Ok g -> draw g r -> used false w -> used false w' ->
  exists v a, r = Ok v /\ denotes t v a
    /\ (encode_in w (PList [PStr s]) (PList [v]) = Ok b -> len b <= maxsize ->
        exists q, decode_in w' (PList [PStr s]) (PBytes b) strict = Ok (PTuple [q]) /\ canon t a q).
Proof.
  intros S G D U U'. destruct (strategy_generates s t g r S G D) as (v & a & -> & Dn & X). exists v, a. split; [reflexivity|]. split; [exact Dn|]. intros E L.
  destruct (round_trip w w' _ _ b strict U U' E L) as (ts & a' & q & T & D' & C & Q).
  { intros ts T. assert (ts = [t]) by (eapply type_args_fun; [exact T|apply one_args; exact S]). subst ts. cbn. auto. }
  assert (ts = [t]) by (eapply type_args_fun; [exact T|apply one_args; exact S]). subst ts.
  apply denotes_one in D'. destruct D' as (a1 & -> & D1). assert (a1 = a) by (eapply denotes_fun; eassumption). subst a1.
  inv C. take (Forall3 _ _ _ _) as F. inv F. take (Forall3 _ [] _ _) as F. inv F. eauto.
Qed.

(** ** Coverage: every ABI value whose byte strings are short can be drawn *)
Lemma draw_all t : wf t -> forall a, has_type t a -> short_bytes t a -> exists v, draw (strat_of t) (Ok v) /\ denotes t v a.
Proof.
  assert (Seq : forall t l, (forall a, has_type t a -> short_bytes t a -> exists v, draw (strat_of t) (Ok v) /\ denotes t v a) ->
    Forall (has_type t) l -> Forall (short_bytes t) l -> exists vs, Forall (fun v => draw (strat_of t) (Ok v)) vs /\ Forall2 (denotes t) vs l).
  { clear t. intros t l H F. induction F as [|a l T F IHF]; intro B; inv B; [exists []; split; constructor|].
    destruct (H a T ltac:(assumption)) as (v & D & N). destruct IHF as (vs & D' & N'); [assumption|]. exists (v :: vs). split; constructor; assumption. }
  induction t as [m|m| | |m n|m n|k| | |t IH|n t IH|ts IH] using sty_ind'; intros W a T B; cbn [strat_of].
  - inv T. exists (PInt z). split; constructor; lia.
  - inv T. exists (PInt z). split; constructor; lia.
  - inv T. eexists. split; constructor.
  - inv T. destruct (checksum_bytes b ltac:(assumption)) as [E A]. eexists. split; [|apply D_addr_text; exact A]. rewrite <- E. apply Dr_map. constructor. lia.
  - inv T. inv W. pose proof (pow_2_m_bound m ltac:(take (int_size m) as Hm; destruct Hm; lia)).
    destruct (scale_draw n z ltac:(assumption) ltac:(lia)) as (d & E & S). exists (PDec d). split; [rewrite <- E; apply Dr_map; constructor; lia|apply D_ufixed; [exact S|lia]].
  - inv T. inv W. pose proof (pow_2_m_bound (m - 1) ltac:(take (int_size m) as Hm; destruct Hm; lia)).
    destruct (scale_draw n z ltac:(assumption) ltac:(lia)) as (d & E & S). exists (PDec d). split; [rewrite <- E; apply Dr_map; constructor; lia|apply D_fixed; [exact S|lia]].
  - inv T. exists (PBytes b). split; [constructor; lia|]. replace (VBytes b) with (VBytes (b ++ repeat x00 (Z.to_nat (len b - len b)))); [constructor; [left; reflexivity|lia]|].
    rewrite Z.sub_diag. cbn. rewrite app_nil_r. reflexivity.
  - inv T. inv B; [|contradiction]. exists (PBytes b). split; [unfold bytes_strategy; constructor; pose proof (len_nonneg b); lia|constructor; left; reflexivity].
  - inv T. exists (PStr s). split; constructor; assumption.
  - inv T. inv W. inv B; [|contradiction]. destruct (Seq t l (IH ltac:(assumption))) as (vs & D & N); [assumption..|].
    exists (PList vs). split; [constructor; [apply len_nonneg|discriminate|exact D]|eapply D_arr; [left; reflexivity|exact N]].
  - inv T. inv W. inv B; [|contradiction]. destruct (Seq t l (IH ltac:(assumption))) as (vs & D & N); [assumption..|].
    assert (L : len vs = len l) by (exact (Forall2_len _ _ _ N)).
    exists (PList vs). split; [constructor; [lia|intros ? Q; inv Q; lia|exact D]|eapply D_sized; [left; reflexivity|exact L|exact N]].
  - inv T. inv W. inv B; [|contradiction]. take (Forall wf ts) as Wt. take (Forall2 has_type ts l) as F. take (Forall2 short_bytes ts l) as Sb.
    assert (Q : exists vs, Forall2 (fun s v => draw s (Ok v)) (map strat_of ts) vs /\ Forall3 denotes ts vs l).
    { clear -IH Wt F Sb. revert IH Wt Sb. induction F as [|t a ts l T F IHF]; intros IH Wt Sb; [exists []; split; constructor|]. inv IH. inv Wt. inv Sb.
      take (wf t -> _) as Ht. destruct (Ht ltac:(assumption) a T ltac:(assumption)) as (v & D & N). destruct IHF as (vs & D' & N'); [assumption..|].
      exists (v :: vs). split; constructor; assumption. }
    destruct Q as (vs & D & N). exists (PTuple vs). split; [constructor; exact D|eapply D_tuple; [right; left; reflexivity|exact N]].
Qed.
Theorem strategy_covers s t g a : supported s t -> get_abi_strategy s = Ok g -> has_type t a -> short_bytes t a ->
  exists v, draw g (Ok v) /\ denotes t v a.
Proof.
  intros S G. destruct (get_abi_strategy_cases s t S) as [Q|[Q _]]; [|congruence]. assert (g = strat_of t) by congruence. subst g.
  apply draw_all. eapply supported_wf; exact S.
Qed.
Theorem strategy_or_none s t : supported s t ->
  (exists g, get_abi_strategy s = Ok g) \/ (get_abi_strategy s = Err NoEntriesFound /\ ~ type_name false s t).
Proof. intro S. destruct (get_abi_strategy_cases s t S) as [Q|Q]; eauto. Qed.
Section Sample.
Local Transparent keccak256 len.
Lemma address_draw : draw address_strategy (Ok (PStr (lit "0xCdCDCdCdcdcdcdCdcDcDCdcDcDCdCdcdCdcDCDcD"))).
Proof.
  unfold address_strategy. replace (Ok (PStr (lit "0xCdCDCdCdcdcdcdCdcDcDCdcDcDCdCdcdCdcDCDcD"))) with (map_checksum (PBytes (repeat xcd 20))) by (lazy; reflexivity).
  apply Dr_map. constructor. split; lazy; discriminate.
Qed.
End Sample.
