(** What the default and packed registries hold, and the coder each type
    string gets. *)
From Coq Require Import Strings.String.
From Verif Require Import Tac Bytes Utf8 Address Grammar GrammarSpec GrammarProofs NormalizeProofs Encoding Decoding Registry RaisingSpec Spec
  EncodeProofs DecLeafProofs DecodeProofs CacheProofs.
Open Scope Z_scope.

(** ** The ABI type a syntax tree stands for *)
Definition int_sizeb (m : Z) : bool := (8 <=? m) && (m <=? 256) && (m mod 8 =? 0).
Definition frac_sizeb (n : Z) : bool := (1 <=? n) && (n <=? 80).
Definition basic_sty (b : pystr) (sub : subtype) : option sty :=
  if str_eqb b (lit "uint") then
    match sub with SubInt m => if int_sizeb m then Some (SUInt m) else None | _ => None end
  else if str_eqb b (lit "int") then
    match sub with SubInt m => if int_sizeb m then Some (SInt m) else None | _ => None end
  else if str_eqb b (lit "address") then match sub with SubNone => Some SAddr | _ => None end
  else if str_eqb b (lit "bool") then Some SBool
  else if str_eqb b (lit "ufixed") then
    match sub with SubPair m n => if int_sizeb m && frac_sizeb n then Some (SUFixed m n) else None | _ => None end
  else if str_eqb b (lit "fixed") then
    match sub with SubPair m n => if int_sizeb m && frac_sizeb n then Some (SFixed m n) else None | _ => None end
  else if str_eqb b (lit "bytes") then
    match sub with
    | SubNone => Some SBytes
    | SubInt k => if (1 <=? k) && (k <=? 32) then Some (SBytesM k) else None
    | _ => None
    end
  else if str_eqb b (lit "string") then match sub with SubNone => Some SString | _ => None end
  else None.
Definition dim_sty (t : sty) (d : dim) : sty := match d with None => SArr t | Some n => SSized n t end.
Definition dims_sty (arr : list dim) (t : sty) : sty := fold_left dim_sty arr t.
Fixpoint all_some {A} (l : list (option A)) : option (list A) :=
  match l with
  | [] => Some []
  | None :: _ => None
  | Some x :: l' => option_map (cons x) (all_some l')
  end.
(** The type of a tree without aliases. *)
Fixpoint ast_sty (T : abi_type) : option sty :=
  match T with
  | Basic b sub arr => option_map (dims_sty arr) (basic_sty b sub)
  | Tup ts arr => option_map (fun l => dims_sty arr (STuple l)) (all_some (map ast_sty ts))
  end.

Lemma int_sizeb_spec m : int_sizeb m = true <-> int_size m.
Proof. unfold int_sizeb, int_size. lia. Qed.
Lemma frac_sizeb_spec m : frac_sizeb m = true <-> frac_size m.
Proof. unfold frac_sizeb, frac_size. lia. Qed.
Lemma basic_wf b sub t : basic_sty b sub = Some t -> wf t.
Proof.
  unfold basic_sty. intro H.
  repeat match type of H with
    | (if str_eqb b ?x then _ else _) = _ => destruct (str_eqb b x)
    | (match sub with _ => _ end) = _ => destruct sub
    | (if ?c then _ else _) = _ => destruct c eqn:?
    end; inv H; rewrite ?andb_true_iff in *;
    constructor; rewrite <- ?int_sizeb_spec, <- ?frac_sizeb_spec; try tauto. lia.
Qed.
Lemma dims_wf arr t : Forall dim_ok arr -> wf t -> wf (dims_sty arr t).
Proof.
  intro F. revert t. induction F as [|d arr D F IH]; intros t W; [exact W|]. apply (IH (dim_sty t d)).
  destruct d as [n|]; constructor; auto.
Qed.
Lemma all_some_Forall2 {A} (l : list (option A)) l' : all_some l = Some l' <-> Forall2 (fun o x => o = Some x) l l'.
Proof.
  revert l'. induction l as [|[x|] l IH]; intro l'; cbn [all_some].
  - split; intro H; inv H; constructor.
  - destruct (all_some l) as [l0|]; cbn [option_map].
    + split; intro H; inv H; [constructor; [reflexivity|apply IH; reflexivity]|]. take (Some x = Some _) as E. inv E.
      take (Forall2 _ l _) as F. apply IH in F. congruence.
    + split; intro H; [discriminate|]. inv H. take (Forall2 _ l _) as F. apply IH in F. congruence.
  - split; intro H; [discriminate|]. inv H. congruence.
Qed.
Lemma all_some_none {A} (l : list (option A)) : all_some l = None <-> In None l.
Proof.
  induction l as [|[x|] l IH]; cbn [all_some In].
  - split; [discriminate|intros []].
  - destruct (all_some l); cbn [option_map]; rewrite <- IH; split; intro H; try discriminate; try tauto.
    destruct H as [H|H]; discriminate.
  - split; auto.
Qed.
Theorem ast_wf T t : ast_ok T -> ast_sty T = Some t -> wf t.
Proof.
  revert t. induction T as [b sub arr|ts arr IH] using abi_type_ind'; intros t A H; inv A; cbn [ast_sty] in H.
  - destruct (basic_sty b sub) as [t0|] eqn:E; [|discriminate]. inv H. apply dims_wf; [assumption|]. eapply basic_wf; exact E.
  - destruct (all_some (map ast_sty ts)) as [l|] eqn:E; [|discriminate]. inv H. apply dims_wf; [assumption|].
    apply all_some_Forall2 in E. take (Forall ast_ok ts) as A. take (ts <> []) as Ne. constructor.
    + destruct ts; [congruence|]. inv E. discriminate.
    + clear -IH E A. revert l E. induction IH as [|t ts Ht F IHts]; intros l E; inv E; [constructor|]. inv A. constructor; auto.
Qed.

(** ** Contents of the registries *)
Definition std_class (b : pystr) (sub : subtype) : option (enc_class * dec_class) :=
  if str_eqb b (lit "uint") then Some (CUInt, CDUInt)
  else if str_eqb b (lit "int") then Some (CInt, CDInt)
  else if str_eqb b (lit "address") then Some (CAddr, CDAddr)
  else if str_eqb b (lit "bool") then Some (CBool, CDBool)
  else if str_eqb b (lit "ufixed") then Some (CUFixed, CDUFixed)
  else if str_eqb b (lit "fixed") then Some (CFixed, CDFixed)
  else if str_eqb b (lit "bytes") then match sub with SubNone => Some (CByteString, CDByteString) | _ => Some (CBytesM, CDBytesM) end
  else if str_eqb b (lit "function") then Some (CBytesM, CDBytesM)
  else if str_eqb b (lit "string") then Some (CText, CDString)
  else None.
Definition packed_class (c : enc_class) : enc_class :=
  match c with
  | CUInt => CPackedUInt | CInt => CPackedInt | CAddr => CPackedAddr | CBool => CPackedBool | CUFixed => CPackedUFixed
  | CFixed => CPackedFixed | CByteString => CPackedByteString | CBytesM => CPackedBytesM | CText => CPackedText
  | CBaseArray => CPackedArray | c => c
  end.
Definition pack (pk : bool) (c : enc_class) : enc_class := if pk then packed_class c else c.
Definition class_of (T : abi_type) : option (enc_class * dec_class) :=
  match T with
  | Basic b sub [] => std_class b sub
  | Tup _ [] => Some (CTuple, CDTuple)
  | _ => Some (CBaseArray, CDBaseArray)
  end.
Definition encs (pk : bool) : mapping enc_reg := r_encs (if pk then registry_packed else default_registry).
Definition decs : mapping dec_reg := r_decs default_registry.

Definition std_preds (off : N) : list pred :=
  [ mkPred (KBaseEquals (lit "uint") None) (Some (off + 1)%N); mkPred (KBaseEquals (lit "int") None) (Some (off + 2)%N);
    mkPred (KBaseEquals (lit "address") None) (Some (off + 3)%N); mkPred (KBaseEquals (lit "bool") None) (Some (off + 4)%N);
    mkPred (KBaseEquals (lit "ufixed") None) (Some (off + 5)%N); mkPred (KBaseEquals (lit "fixed") None) (Some (off + 6)%N);
    mkPred (KBaseEquals (lit "bytes") (Some true)) (Some (off + 7)%N); mkPred (KBaseEquals (lit "bytes") (Some false)) (Some (off + 8)%N);
    mkPred (KBaseEquals (lit "function") None) (Some (off + 9)%N); mkPred (KBaseEquals (lit "string") None) (Some (off + 10)%N);
    mkPred KHasArrlist (Some 100%N); mkPred KIsBaseTuple (Some 101%N) ].
Definition std_encs : list enc_class := [CUInt; CInt; CAddr; CBool; CUFixed; CFixed; CBytesM; CByteString; CBytesM; CText; CBaseArray; CTuple].
Definition std_decs : list dec_class := [CDUInt; CDInt; CDAddr; CDBool; CDUFixed; CDFixed; CDBytesM; CDByteString; CDBytesM; CDString; CDBaseArray; CDTuple].
Lemma encs_values pk : m_values (encs pk) =
  combine (std_preds (if pk then 20 else 0)) (map (fun c => EClass (pack pk c)) std_encs).
Proof. destruct pk; reflexivity. Qed.
Lemma decs_values : m_values decs = combine (std_preds 0) (map DClass std_decs).
Proof. reflexivity. Qed.

(** Which predicates hold of a parseable string. *)
Definition hits (T : abi_type) : list bool :=
  match T with
  | Basic b sub [] =>
      [ str_eqb b (lit "uint"); str_eqb b (lit "int"); str_eqb b (lit "address"); str_eqb b (lit "bool");
        str_eqb b (lit "ufixed"); str_eqb b (lit "fixed");
        match sub with SubNone => false | _ => true end && str_eqb b (lit "bytes");
        match sub with SubNone => true | _ => false end && str_eqb b (lit "bytes");
        str_eqb b (lit "function"); str_eqb b (lit "string"); false; false ]
  | Tup _ [] => [false; false; false; false; false; false; false; false; false; false; false; true]
  | _ => [false; false; false; false; false; false; false; false; false; false; true; false]
  end.
Lemma preds_hits off ts T : parse ts = Ok T -> map (fun p => pred_call p ts) (std_preds off) = map Done (hits T).
Proof.
  intro P. unfold std_preds. cbn [map pred_call pkind]. unfold base_equals, has_arrlist, is_base_tuple. rewrite P.
  destruct T as [b sub [|d arr]|cs [|d arr]]; try reflexivity.
Qed.
Lemma preds_miss off ts e : parse ts = Err e -> map (fun p => pred_call p ts) (std_preds off) = map Done (repeat false 12).
Proof.
  intro P. unfold std_preds. cbn [map pred_call pkind]. unfold base_equals, has_arrlist, is_base_tuple. rewrite P. reflexivity.
Qed.
Fixpoint select {V} (bs : list bool) (vs : list V) : list V :=
  match bs, vs with
  | b :: bs', v :: vs' => if b then v :: select bs' vs' else select bs' vs'
  | _, _ => []
  end.
Lemma scan_select {V} (ps : list pred) bs (vs : list V) ts : map (fun p => pred_call p ts) ps = map Done bs -> length ps = length vs ->
  m_scan (combine ps vs) ts = Done (select bs vs).
Proof.
  revert bs vs. induction ps as [|p ps IH]; intros [|b bs] [|v vs] E L; try discriminate; [reflexivity|].
  cbn [map] in E. injection E as E1 E2. cbn [combine m_scan select]. rewrite E1, (IH bs vs E2) by (cbn in L; lia). destruct b; reflexivity.
Qed.
Lemma filter_select {V} (ps : list pred) (vs : list V) ts : length ps = length vs ->
  map snd (filter (fun pv => hit (fst pv) ts) (combine ps vs)) = select (map (fun p => hit p ts) ps) vs.
Proof.
  revert vs. induction ps as [|p ps IH]; intros [|v vs] L; try discriminate; [reflexivity|].
  cbn [combine filter map select fst]. destruct (hit p ts); cbn [map snd]; rewrite IH by (cbn in L; lia); reflexivity.
Qed.
Lemma hit_done (ps : list pred) bs ts : map (fun p => pred_call p ts) ps = map Done bs -> map (fun p => hit p ts) ps = bs.
Proof.
  revert bs. induction ps as [|p ps IH]; intros [|b bs] E; try discriminate; [reflexivity|]. cbn [map] in *. injection E as E1 E2.
  unfold hit at 1. rewrite E1, (IH bs E2). reflexivity.
Qed.
(** The loop of find: the first exception, or the values of the matchers that
    answer yes. *)
Lemma scan_spec {V} (l : list (pred * V)) ts : m_scan l ts =
  match first_raise l ts with
  | Some (e, says) => Raised e says
  | None => Done (map snd (filter (fun pv => hit (fst pv) ts) l))
  end.
Proof.
  induction l as [|[p v] l IH]; [reflexivity|]. cbn [m_scan first_raise filter fst]. unfold hit at 1. destruct (pred_call p ts) as [b|e says]; [|reflexivity].
  rewrite IH. destruct (first_raise l ts) as [[e says]|]; [reflexivity|]. destruct b; reflexivity.
Qed.
Lemma m_find_spec {V} (m : mapping V) ts : m_find m ts =
  match first_raise (m_values m) ts with
  | Some (e, says) => Raised e says
  | None => chosen ts (Done (map snd (filter (fun pv => hit (fst pv) ts) (m_values m))))
  end.
Proof. unfold m_find. rewrite scan_spec. destruct (first_raise _ _) as [[e says]|]; reflexivity. Qed.
Lemma first_raise_none {V} (l : list (pred * V)) ts : first_raise l ts = None <-> (forall p v, In (p, v) l -> raising p ts = false).
Proof.
  induction l as [|[p v] l IH]; cbn [first_raise]; [split; [intros _ ? ? []|reflexivity]|]. destruct (pred_call p ts) as [b|e says] eqn:E.
  - rewrite IH. split; intros H q u; [intros [I|I]; [inv I; unfold raising; rewrite E; reflexivity|exact (H q u I)]|intro I; exact (H q u (or_intror I))].
  - split; [discriminate|]. intro H. specialize (H p v (or_introl eq_refl)). unfold raising in H. rewrite E in H. discriminate.
Qed.
Lemma quiet_find {V} (m : mapping V) ts : none_raises m ts -> m_find m ts = chosen ts (Done (map snd (filter (fun pv => hit (fst pv) ts) (m_values m)))).
Proof. intro Q. apply (first_raise_none (m_values m)) in Q. rewrite m_find_spec, Q. reflexivity. Qed.
Lemma first_raise_app {V} (l l' : list (pred * V)) ts : first_raise (l ++ l') ts = match first_raise l ts with Some x => Some x | None => first_raise l' ts end.
Proof. induction l as [|[p v] l IH]; [reflexivity|]. cbn [app first_raise]. destruct (pred_call p ts); [exact IH|reflexivity]. Qed.

Lemma str_eqb_cases b (l : list pystr) : In b l \/ Forall (fun x => str_eqb b x = false) l.
Proof.
  induction l as [|x l [H|H]]; [right; constructor|left; right; exact H|].
  destruct (str_eqb b x) eqn:E; [left; left; apply str_eqb_eq in E; auto|right; constructor; assumption].
Qed.
Definition bases : list pystr :=
  [lit "uint"; lit "int"; lit "address"; lit "bool"; lit "ufixed"; lit "fixed"; lit "bytes"; lit "function"; lit "string"].
Ltac base_cases b :=
  let H := fresh "H" in
  destruct (str_eqb_cases b bases) as [H|H];
  [cbn [bases In] in H; repeat (destruct H as [<-|H]); try contradiction
  |unfold bases in H; repeat match goal with F : Forall _ (_ :: _) |- _ => inv F end].
(** At most one predicate holds. *)
Lemma select_class {V} (f : enc_class * dec_class -> V) T :
  select (hits T) (map f (combine std_encs std_decs)) = match class_of T with Some c => [f c] | None => [] end.
Proof.
  destruct T as [b sub [|d arr]|cs [|d arr]]; try reflexivity. unfold class_of, std_class, hits.
  base_cases b; try (destruct sub; reflexivity).
  repeat match goal with E : str_eqb b ?x = false |- _ => rewrite E; clear E end. rewrite !andb_false_r. reflexivity.
Qed.
Lemma scan_encs pk ts : m_scan (m_values (encs pk)) ts =
  Done (match parse ts with Ok T => match class_of T with Some c => [EClass (pack pk (fst c))] | None => [] end | Err _ => [] end).
Proof.
  rewrite encs_values. destruct (parse ts) as [T|e] eqn:P.
  - rewrite (scan_select _ _ _ _ (preds_hits _ _ _ P)) by reflexivity.
    pose proof (select_class (fun c => EClass (pack pk (fst c))) T) as E. cbn [combine std_encs std_decs map fst] in E.
    change (map (fun c => EClass (pack pk c)) std_encs) with
      (map (fun c => EClass (pack pk (fst c))) (combine std_encs std_decs)). cbn [combine std_encs std_decs map fst].
    rewrite E. reflexivity.
  - rewrite (scan_select _ _ _ _ (preds_miss _ _ _ P)) by reflexivity. reflexivity.
Qed.
Lemma scan_decs ts : m_scan (m_values decs) ts =
  Done (match parse ts with Ok T => match class_of T with Some c => [DClass (snd c)] | None => [] end | Err _ => [] end).
Proof.
  rewrite decs_values. destruct (parse ts) as [T|e] eqn:P.
  - rewrite (scan_select _ _ _ _ (preds_hits _ _ _ P)) by reflexivity.
    pose proof (select_class (fun c => DClass (snd c)) T) as E. cbn [combine std_encs std_decs map snd] in E.
    cbn [std_decs map]. rewrite E. reflexivity.
  - rewrite (scan_select _ _ _ _ (preds_miss _ _ _ P)) by reflexivity. reflexivity.
Qed.
Lemma find_encs pk ts T : parse ts = Ok T ->
  m_find (encs pk) ts = match class_of T with Some c => Done (EClass (pack pk (fst c))) | None => Raised NoEntriesFound (Ok true) end.
Proof. intro P. unfold m_find. rewrite scan_encs, P. destruct (class_of T); reflexivity. Qed.
Lemma find_decs ts T : parse ts = Ok T ->
  m_find decs ts = match class_of T with Some c => Done (DClass (snd c)) | None => Raised NoEntriesFound (Ok true) end.
Proof. intro P. unfold m_find. rewrite scan_decs, P. destruct (class_of T); reflexivity. Qed.
Lemma registration_encs pk ts : base_get_registration (encs pk) ts =
  match parse ts with
  | Err e => Err e
  | Ok T => match class_of T with Some c => Ok (EClass (pack pk (fst c))) | None => Err NoEntriesFound end
  end.
Proof.
  unfold base_get_registration, m_find. rewrite scan_encs. destruct (parse ts) as [T|e] eqn:P; [destruct (class_of T)|]; cbn; rewrite ?P; reflexivity.
Qed.
Lemma registration_decs ts : base_get_registration decs ts =
  match parse ts with
  | Err e => Err e
  | Ok T => match class_of T with Some c => Ok (DClass (snd c)) | None => Err NoEntriesFound end
  end.
Proof.
  unfold base_get_registration, m_find. rewrite scan_decs. destruct (parse ts) as [T|e] eqn:P; [destruct (class_of T)|]; cbn; rewrite ?P; reflexivity.
Qed.

(** ** The outcome of a lookup, on trees *)
(** [resolve T]: the ABI type of the tree [T] (in which aliases have been
    expanded), or the exception of the lookup. *)
Definition resolve_basic (b : pystr) (sub : subtype) : result sty :=
  match std_class b sub with
  | None => Err NoEntriesFound
  | Some _ =>
      if str_eqb b (lit "function") then Err ValueError
      else validate_basic b sub ;;; match basic_sty b sub with Some t => Ok t | None => Err OutOfFuel end
  end.
Definition map_result {A B} (f : A -> result B) : list A -> result (list B) :=
  fix go (l : list A) :=
    match l with
    | [] => Ok []
    | x :: l' => y <- f x ;; ys <- go l' ;; Ok (y :: ys)
    end.
Fixpoint resolve (T : abi_type) : result sty :=
  match T with
  | Basic b sub [] => resolve_basic b sub
  | Basic b sub arr => validate_basic b sub ;;; t <- resolve_basic b sub ;; Ok (dims_sty arr t)
  | Tup ts arr => validate_type T ;;; l <- map_result resolve ts ;; Ok (dims_sty arr (STuple l))
  end.
Definition bare_byte (T : abi_type) : bool :=
  match T with Basic b SubNone [] => str_eqb b (lit "byte") | _ => false end.
(** ... for the tree of the string that was passed. *)
Definition lookup_sty (T : abi_type) : result sty :=
  if bare_byte T then Err NoEntriesFound else resolve (expand T).

(** *** Leaves *)
Lemma parse_type_str_leaf ts x b sub b' sub' : parse ts = Ok (Basic b sub []) -> expand (Basic b sub []) = Basic b' sub' [] ->
  parse_type_str (Some x) false ts = (raise_if (negb (str_eqb b' x)) ValueError ;;; validate_basic b' sub' ;;; Ok (Basic b' sub' [])).
Proof. intros P E. unfold parse_type_str. rewrite (parse_normalize ts _ P), E. reflexivity. Qed.
Ltac rif := repeat match goal with |- context[raise_if ?c _] =>
  lazymatch c with false => fail | _ => replace c with false by lia end end.
Lemma check_sizes_ok m : int_size m -> check_sizes m 32 = Ok tt /\ check_sizes m (m / 8) = Ok tt /\ check_dec_sizes m = Ok tt.
Proof.
  unfold int_size. intro H. assert (m = 8 * (m / 8)) by lia.
  unfold check_sizes, check_dec_sizes. rif. repeat split; reflexivity.
Qed.
Lemma check_frac_ok n : frac_size n -> check_frac n = Ok tt /\ check_dec_frac n = Ok tt.
Proof.
  unfold frac_size. intro H. unfold check_frac, check_dec_frac.
  rif. repeat split; reflexivity.
Qed.
Definition enc_ok (pk : bool) (r : result sty) : result encoder := t <- r ;; Ok (enc_of pk t).
Definition dec_ok (s : bool) (r : result sty) : result decoder := t <- r ;; Ok (dec_of s t).
Lemma basic_int b m : b = lit "uint" \/ b = lit "int" ->
  (int_size m /\ validate_basic b (SubInt m) = Ok tt) \/ (int_sizeb m = false /\ validate_basic b (SubInt m) = Err ABITypeError).
Proof.
  intro B. assert (V : validate_basic b (SubInt m) =
    (raise_if ((m <? 8) || (256 <? m)) ABITypeError ;;; raise_if (negb (m mod 8 =? 0)) ABITypeError)) by (destruct B as [-> | ->]; reflexivity).
  rewrite V. destruct (int_sizeb m) eqn:E.
  - left. apply int_sizeb_spec in E. split; [exact E|]. unfold int_size in E.
    rif. reflexivity.
  - right. split; [reflexivity|]. unfold int_sizeb in E.
    destruct ((m <? 8) || (256 <? m)) eqn:C; [reflexivity|]. replace (negb (m mod 8 =? 0)) with true by lia. reflexivity.
Qed.
Lemma basic_fixed b m n : b = lit "ufixed" \/ b = lit "fixed" ->
  (int_size m /\ frac_size n /\ validate_basic b (SubPair m n) = Ok tt)
  \/ (int_sizeb m && frac_sizeb n = false /\ validate_basic b (SubPair m n) = Err ABITypeError).
Proof.
  intro B. assert (V : validate_basic b (SubPair m n) =
    (raise_if ((m <? 8) || (256 <? m)) ABITypeError ;;; raise_if (negb (m mod 8 =? 0)) ABITypeError ;;;
     raise_if ((n <? 1) || (80 <? n)) ABITypeError)) by (destruct B as [-> | ->]; reflexivity).
  rewrite V. destruct (int_sizeb m && frac_sizeb n) eqn:E.
  - left. apply andb_true_iff in E. destruct E as [E1 E2]. apply int_sizeb_spec in E1. apply frac_sizeb_spec in E2.
    split; [exact E1|]. split; [exact E2|]. unfold int_size, frac_size in *.
    rif. reflexivity.
  - right. split; [reflexivity|]. unfold int_sizeb, frac_sizeb in E.
    destruct ((m <? 8) || (256 <? m)) eqn:C; [reflexivity|]. destruct (negb (m mod 8 =? 0)) eqn:C2; [reflexivity|].
    replace ((n <? 1) || (80 <? n)) with true by lia. reflexivity.
Qed.
Lemma basic_bytes k : 1 <= k ->
  (k <= 32 /\ validate_basic (lit "bytes") (SubInt k) = Ok tt) \/ (32 < k /\ validate_basic (lit "bytes") (SubInt k) = Err ABITypeError).
Proof.
  intro H. change (validate_basic (lit "bytes") (SubInt k)) with (raise_if (32 <? k) ABITypeError).
  destruct (Z.ltb_spec 32 k); [right|left]; auto.
Qed.

(** What the class of a leaf type makes of its type string. *)
Definition leaf_ok (ec : enc_class) (dc : dec_class) (b : pystr) : Prop :=
  forall ts sub, sub_ok sub -> parse ts = Ok (Basic b sub []) ->
  (forall pk, enc_leaf_from_type_str (pack pk ec) ts = Some (enc_ok pk (resolve (expand (Basic b sub [])))))
  /\ dec_leaf_from_type_str dc ts = Some (dec_ok true (resolve (expand (Basic b sub [])))).
Ltac leaf_start P :=
  cbn [fst snd pack packed_class enc_leaf_from_type_str dec_leaf_from_type_str];
  try (erewrite parse_type_str_leaf by (exact P || reflexivity)).
Ltac leaf_eq := change (negb (str_eqb ?a ?a)) with false;
  cbn [bind raise_if sub_int sub_pair].
Lemma leaf_uint : leaf_ok CUInt CDUInt (lit "uint").
Proof.
  intros ts [|m|m n] Hs P; [split; [intros []|]; leaf_start P; reflexivity| |split; [intros []|]; leaf_start P; reflexivity].
  assert (R : resolve (expand (Basic (lit "uint") (SubInt m) [])) =
      (validate_basic (lit "uint") (SubInt m) ;;; if int_sizeb m then Ok (SUInt m) else Err OutOfFuel)).
  { cbn [expand resolve]. unfold resolve_basic. cbn -[validate_basic int_sizeb]. destruct (int_sizeb m); reflexivity. }
  rewrite R. destruct (basic_int (lit "uint") m ltac:(auto)) as [[Hi HV]|[Hi HV]];
    (split; [intros []|]); leaf_start P; rewrite HV; try reflexivity;
    destruct (check_sizes_ok m Hi) as (C1 & C2 & C3); pose proof Hi as Hi'; apply int_sizeb_spec in Hi'; rewrite Hi';
    leaf_eq; unfold mk_uint, mk_duint; rewrite ?C1, ?C2, ?C3; reflexivity.
Qed.
Lemma leaf_int : leaf_ok CInt CDInt (lit "int").
Proof.
  intros ts [|m|m n] Hs P; [split; [intros []|]; leaf_start P; reflexivity| |split; [intros []|]; leaf_start P; reflexivity].
  assert (R : resolve (expand (Basic (lit "int") (SubInt m) [])) =
      (validate_basic (lit "int") (SubInt m) ;;; if int_sizeb m then Ok (SInt m) else Err OutOfFuel)).
  { cbn [expand resolve]. unfold resolve_basic. cbn -[validate_basic int_sizeb]. destruct (int_sizeb m); reflexivity. }
  rewrite R. destruct (basic_int (lit "int") m ltac:(auto)) as [[Hi HV]|[Hi HV]];
    (split; [intros []|]); leaf_start P; rewrite HV; try reflexivity;
    destruct (check_sizes_ok m Hi) as (C1 & C2 & C3); pose proof Hi as Hi'; apply int_sizeb_spec in Hi'; rewrite Hi';
    leaf_eq; unfold mk_sint, mk_dint; rewrite ?C1, ?C2, ?C3; reflexivity.
Qed.
Lemma leaf_ufixed : leaf_ok CUFixed CDUFixed (lit "ufixed").
Proof.
  intros ts [|m|m n] Hs P; [split; [intros []|]; leaf_start P; reflexivity|split; [intros []|]; leaf_start P; reflexivity|].
  assert (R : resolve (expand (Basic (lit "ufixed") (SubPair m n) [])) =
      (validate_basic (lit "ufixed") (SubPair m n) ;;; if int_sizeb m && frac_sizeb n then Ok (SUFixed m n) else Err OutOfFuel)).
  { cbn [expand resolve]. unfold resolve_basic. cbn -[validate_basic int_sizeb frac_sizeb]. destruct (int_sizeb m && frac_sizeb n); reflexivity. }
  rewrite R. destruct (basic_fixed (lit "ufixed") m n ltac:(auto)) as [(Hi & Hf & HV)|[Hi HV]];
    (split; [intros []|]); leaf_start P; rewrite HV; try reflexivity;
    destruct (check_sizes_ok m Hi) as (C1 & C2 & C3); destruct (check_frac_ok n Hf) as (F1 & F2);
    pose proof Hi as Hi'; apply int_sizeb_spec in Hi'; rewrite Hi'; pose proof Hf as Hf'; apply frac_sizeb_spec in Hf'; rewrite Hf';
    leaf_eq; unfold mk_ufixed, mk_dufixed; rewrite ?C1, ?C2, ?C3, ?F1, ?F2; reflexivity.
Qed.
Lemma leaf_fixed : leaf_ok CFixed CDFixed (lit "fixed").
Proof.
  intros ts [|m|m n] Hs P; [split; [intros []|]; leaf_start P; reflexivity|split; [intros []|]; leaf_start P; reflexivity|].
  assert (R : resolve (expand (Basic (lit "fixed") (SubPair m n) [])) =
      (validate_basic (lit "fixed") (SubPair m n) ;;; if int_sizeb m && frac_sizeb n then Ok (SFixed m n) else Err OutOfFuel)).
  { cbn [expand resolve]. unfold resolve_basic. cbn -[validate_basic int_sizeb frac_sizeb]. destruct (int_sizeb m && frac_sizeb n); reflexivity. }
  rewrite R. destruct (basic_fixed (lit "fixed") m n ltac:(auto)) as [(Hi & Hf & HV)|[Hi HV]];
    (split; [intros []|]); leaf_start P; rewrite HV; try reflexivity;
    destruct (check_sizes_ok m Hi) as (C1 & C2 & C3); destruct (check_frac_ok n Hf) as (F1 & F2);
    pose proof Hi as Hi'; apply int_sizeb_spec in Hi'; rewrite Hi'; pose proof Hf as Hf'; apply frac_sizeb_spec in Hf'; rewrite Hf';
    leaf_eq; unfold mk_sfixed, mk_dfixed; rewrite ?C1, ?C2, ?C3, ?F1, ?F2; reflexivity.
Qed.
Lemma leaf_bool : leaf_ok CBool CDBool (lit "bool").
Proof. intros ts [|m|m n] Hs P; (split; [intros []|]); leaf_start P; reflexivity. Qed.
Lemma leaf_addr : leaf_ok CAddr CDAddr (lit "address").
Proof. intros ts [|m|m n] Hs P; (split; [intros []|]); leaf_start P; reflexivity. Qed.
Lemma leaf_text : leaf_ok CText CDString (lit "string").
Proof. intros ts [|m|m n] Hs P; (split; [intros []|]); leaf_start P; reflexivity. Qed.
Lemma leaf_function : leaf_ok CBytesM CDBytesM (lit "function").
Proof. intros ts [|m|m n] Hs P; (split; [intros []|]); leaf_start P; reflexivity. Qed.
Lemma leaf_bytes ts sub : sub_ok sub -> parse ts = Ok (Basic (lit "bytes") sub []) ->
  exists c, std_class (lit "bytes") sub = Some c
  /\ (forall pk, enc_leaf_from_type_str (pack pk (fst c)) ts = Some (enc_ok pk (resolve (expand (Basic (lit "bytes") sub [])))))
  /\ dec_leaf_from_type_str (snd c) ts = Some (dec_ok true (resolve (expand (Basic (lit "bytes") sub [])))).
Proof.
  destruct sub as [|m|m n]; intros Hs P; (eexists; split; [reflexivity|]);
    [split; [intros []|]; leaf_start P; reflexivity| |split; [intros []|]; leaf_start P; reflexivity].
  cbn [sub_ok] in Hs.
  assert (R : resolve (expand (Basic (lit "bytes") (SubInt m) [])) =
      (validate_basic (lit "bytes") (SubInt m) ;;; if (1 <=? m) && (m <=? 32) then Ok (SBytesM m) else Err OutOfFuel)).
  { cbn [expand resolve]. unfold resolve_basic. cbn -[validate_basic Z.leb]. destruct ((1 <=? m) && (m <=? 32)); reflexivity. }
  rewrite R. destruct (basic_bytes m Hs) as [[Hi HV]|[Hi HV]];
    (split; [intros []|]); leaf_start P; rewrite HV; try reflexivity;
    replace ((1 <=? m) && (m <=? 32)) with true by lia; leaf_eq; unfold mk_bytesM, mk_dbytesM, check_sizes, check_dec_sizes; rif; reflexivity.
Qed.
Lemma leaf_all ts b sub : sub_ok sub -> parse ts = Ok (Basic b sub []) ->
  (std_class b sub = None /\ lookup_sty (Basic b sub []) = Err NoEntriesFound)
  \/ exists c, std_class b sub = Some c
     /\ (forall pk, enc_leaf_from_type_str (pack pk (fst c)) ts = Some (enc_ok pk (lookup_sty (Basic b sub []))))
     /\ dec_leaf_from_type_str (snd c) ts = Some (dec_ok true (lookup_sty (Basic b sub []))).
Proof.
  intros Hs P. assert (B : bare_byte (Basic b sub []) = true -> b = lit "byte" /\ sub = SubNone).
  { destruct sub; try discriminate. cbn. intro E. apply str_eqb_eq in E. auto. }
  unfold lookup_sty. destruct (bare_byte (Basic b sub [])) eqn:Bb.
  { destruct (B eq_refl) as [-> ->]. left. split; reflexivity. }
  base_cases b; try (right; eexists; split; [reflexivity|]).
  - apply leaf_uint; assumption.
  - apply leaf_int; assumption.
  - apply leaf_addr; assumption.
  - apply leaf_bool; assumption.
  - apply leaf_ufixed; assumption.
  - apply leaf_fixed; assumption.
  - right. apply leaf_bytes; assumption.
  - apply leaf_function; assumption.
  - apply leaf_text; assumption.
  - left. assert (SC : forall s, std_class b s = None).
    { intro s. unfold std_class. repeat match goal with E : str_eqb b ?x = false |- _ => rewrite E end. reflexivity. }
    split; [apply SC|]. replace (expand (Basic b sub [])) with (Basic b sub []).
    + cbn [resolve]. unfold resolve_basic. rewrite SC. reflexivity.
    + destruct sub; try reflexivity. cbn [expand]. unfold alias_of. cbn [bare_byte] in Bb.
      repeat match goal with E : str_eqb b ?x = false |- _ => rewrite E; clear E end. reflexivity.
Qed.

(** *** Arrays and tuples *)
Definition set_arr (arr : list dim) (T : abi_type) : abi_type :=
  match T with Basic b sub _ => Basic b sub arr | Tup ts _ => Tup ts arr end.
Lemma expand_set_arr arr T : expand (set_arr arr T) = set_arr arr (expand T).
Proof. destruct T as [b [|m|m n] a|ts a]; try reflexivity. cbn [set_arr expand]. destruct (alias_of b) as [[b' sub]|]; reflexivity. Qed.
Lemma arrlist_expand T : arrlist_of (expand T) = arrlist_of T.
Proof. destruct T as [b [|m|m n] a|ts a]; try reflexivity. cbn [expand]. destruct (alias_of b) as [[b' sub]|]; reflexivity. Qed.
Lemma validate_set_arr arr T : validate_type (set_arr arr T) = validate_type T.
Proof. destruct T; reflexivity. Qed.
Lemma item_set_arr T : arrlist_of T <> [] -> item_type T = Ok (set_arr (removelast (arrlist_of T)) T).
Proof. destruct T as [b sub [|d a]|ts [|d a]]; cbn [arrlist_of]; intro H; try congruence; reflexivity. Qed.
Definition core (T : abi_type) : result sty :=
  match T with
  | Basic b sub _ => resolve_basic b sub
  | Tup ts _ => l <- map_result resolve ts ;; Ok (STuple l)
  end.
(** Once the tree validates, its dimensions only wrap the core. *)
Lemma resolve_core T : validate_type T = Ok tt -> resolve T = (t <- core T ;; Ok (dims_sty (arrlist_of T) t)).
Proof.
  destruct T as [b sub arr|ts arr]; intro V.
  - cbn [validate_type] in V. destruct arr; cbn [resolve core arrlist_of]; rewrite ?V; cbn [bind]; [|reflexivity].
    destruct (resolve_basic b sub); reflexivity.
  - cbn [resolve]. rewrite V. cbn [bind core arrlist_of]. destruct (map_result resolve ts); reflexivity.
Qed.
Lemma core_set_arr arr T : core (set_arr arr T) = core T.
Proof. destruct T; reflexivity. Qed.
Lemma dims_last arr t : arr <> [] -> dims_sty arr t = dim_sty (dims_sty (removelast arr) t) (last arr None).
Proof. intro H. rewrite (app_removelast_last None H) at 1. unfold dims_sty. rewrite fold_left_app. reflexivity. Qed.
Lemma resolve_arr T : arrlist_of T <> [] ->
  resolve T = (validate_type T ;;; t <- resolve (set_arr (removelast (arrlist_of T)) T) ;; Ok (dim_sty t (last (arrlist_of T) None))).
Proof.
  intro Ne. destruct (validate_type T) as [[]|e] eqn:V; cbn [bind].
  - rewrite (resolve_core T V), resolve_core, core_set_arr by (rewrite validate_set_arr; exact V).
    destruct (core T) as [t|e]; cbn [bind]; [|reflexivity].
    replace (arrlist_of (set_arr (removelast (arrlist_of T)) T)) with (removelast (arrlist_of T)) by (destruct T; reflexivity).
    rewrite dims_last by exact Ne. reflexivity.
  - destruct T as [b sub [|d arr]|ts arr]; cbn [arrlist_of] in Ne; try congruence; cbn [resolve validate_type] in *; rewrite V; reflexivity.
Qed.
Lemma set_arr_ok arr T : ast_ok T -> Forall dim_ok arr -> ast_ok (set_arr arr T).
Proof. intros H F. inv H; constructor; assumption. Qed.
Lemma arr_ok T : ast_ok T -> Forall dim_ok (arrlist_of T).
Proof. intro H. inv H; assumption. Qed.

Lemma sequence_lift {A} (f : pystr -> result A) (g : sty -> A) (R : abi_type -> result sty) Ts :
  Forall (fun T => f (to_type_str T) = (t <- R T ;; Ok (g t))) Ts ->
  fst (sequenceM (lift f) (map to_type_str Ts) tt) = (l <- map_result R Ts ;; Ok (map g l)).
Proof.
  induction 1 as [|T Ts H F IH]; [reflexivity|]. cbn [map sequenceM]. unfold lift at 1. rewrite H.
  change (map_result R (T :: Ts)) with (y <- R T ;; ys <- map_result R Ts ;; Ok (y :: ys)).
  destruct (R T) as [t|e]; cbn [bind]; [|reflexivity].
  destruct (sequenceM (lift f) (map to_type_str Ts) tt) as [[ys|e] []]; cbn [fst] in IH;
    destruct (map_result R Ts) as [l|e0]; cbn [bind fst map] in *; congruence.
Qed.
Lemma with_strict_of k t : with_strict k (dec_of true t) = dec_of (strict_of k) t.
Proof. unfold with_strict. rewrite dec_is_dyn_of. destruct t; try reflexivity; cbn; destruct (sdyn t) || destruct (existsb sdyn ts); reflexivity. Qed.
Lemma enc_array pk t d :
  match pack pk CBaseArray, d with
  | CPackedArray, n => Ok (EPackedArr n (enc_of pk t))
  | _, Some n => mk_sized n (enc_of pk t)
  | _, None => Ok (EDyn (enc_of pk t))
  end = Ok (enc_of pk (dim_sty t d)).
Proof. destruct pk, d as [n|]; try reflexivity. cbn [pack]. unfold mk_sized. rewrite enc_dyn_attr_of. reflexivity. Qed.
Lemma dec_array t d :
  match d with Some n => mk_dsized n (dec_of true t) | None => mk_ddyn (dec_of true t) end = Ok (dec_of true (dim_sty t d)).
Proof. destruct d as [n|]; unfold mk_dsized, mk_ddyn, mk_item; rewrite dec_dyn_attr_of; cbn [bind dim_sty dec_of]; rewrite wrap_of; reflexivity. Qed.

Lemma parse_print_ast T : ast_ok T -> parse (to_type_str T) = Ok T.
Proof. intro H. apply parse_iff. auto. Qed.
Lemma bare_byte_expanded T : expand T = T -> bare_byte T = false.
Proof.
  destruct T as [b [|m|m n] [|d a]|ts a]; try reflexivity. cbn [expand bare_byte]. intro H.
  destruct (str_eqb b (lit "byte")) eqn:E; [|reflexivity]. apply str_eqb_eq in E. subst b. discriminate H.
Qed.

(** ** Every lookup in the default and packed registries *)
Lemma find_std n : forall ts T, (opens ts <= n)%nat -> parse ts = Ok T ->
  (forall pk, find_encoder (encs pk) ts = enc_ok pk (lookup_sty T))
  /\ (forall k, find_decoder decs k ts = dec_ok (strict_of k) (lookup_sty T)).
Proof.
  induction n as [n IHn] using (well_founded_induction lt_wf). intros ts T Hn P.
  assert (IH : forall T', (depth T' < opens ts)%nat -> ast_ok T' -> expand T' = T' ->
    (forall pk, find_encoder (encs pk) (to_type_str T') = enc_ok pk (resolve T'))
    /\ (forall k, find_decoder decs k (to_type_str T') = dec_ok (strict_of k) (resolve T'))).
  { intros T' H A E. destruct (IHn (depth T') ltac:(lia) (to_type_str T') T') as [H1 H2].
    - rewrite opens_print by exact A. lia.
    - apply parse_print_ast. exact A.
    - unfold lookup_sty in H1, H2. rewrite bare_byte_expanded, E in H1, H2 by exact E. auto. }
  clear IHn Hn. pose proof (parse_normalize ts T P) as PN. destruct (opens_parse ts _ PN) as [Ho Ha].
  pose proof (proj1 (parse_iff ts T) P) as [HaT _].
  assert (Strict : forall k (r : result sty) (r' : result decoder), r' = dec_ok true r ->
            match r' with Err e => Err e | Ok d => Ok (with_strict k d) end = dec_ok (strict_of k) r).
  { intros k r r' ->. destruct r as [t|e]; [|reflexivity]. unfold dec_ok. cbn [bind]. rewrite with_strict_of. reflexivity. }
  destruct (arrlist_of T) as [|d0 a0] eqn:Arr.
  - destruct T as [b sub arr|cs arr]; cbn [arrlist_of] in Arr; subst arr.
    + (* leaves *)
      inv HaT. take (sub_ok sub) as Hs. destruct (leaf_all ts b sub Hs P) as [[SC L]|(c & SC & LE & LD)].
      * split; intro k; rewrite ?find_encoder_eq, ?find_decoder_eq, ?registration_encs, ?registration_decs, P; cbn [class_of];
          rewrite SC, L; reflexivity.
      * split; intro k; rewrite ?find_encoder_eq, ?find_decoder_eq, ?registration_encs, ?registration_decs, P; cbn [class_of];
          rewrite SC; unfold enc_from_type_str, dec_from_type_str.
        -- rewrite LE. reflexivity.
        -- apply Strict. rewrite LD. reflexivity.
    + (* tuples *)
      change (lookup_sty (Tup cs [])) with (resolve (expand (Tup cs []))).
      assert (PT : parse_tuple_type_str ts = (validate_type (expand (Tup cs [])) ;;; Ok (map expand cs))).
      { unfold parse_tuple_type_str. rewrite PN. reflexivity. }
      assert (RT : resolve (expand (Tup cs [])) = (validate_type (expand (Tup cs [])) ;;; l <- map_result resolve (map expand cs) ;; Ok (STuple l))) by reflexivity.
      assert (Cs : Forall (fun T' => (depth T' < opens ts)%nat /\ ast_ok T' /\ expand T' = T') (map expand cs)).
      { apply Forall_forall. intros T' H. rewrite Ho. cbn [expand depth]. pose proof (depth_component _ _ H).
        split; [lia|]. cbn [expand] in Ha. inv Ha. take (Forall ast_ok _) as F. rewrite Forall_forall in F. split; [auto|].
        apply in_map_iff in H. destruct H as (T0 & <- & _). apply expand_idem. }
      split; intro k; rewrite ?find_encoder_eq, ?find_decoder_eq, ?registration_encs, ?registration_decs, P; cbn [class_of fst snd];
        rewrite RT.
      * replace (pack k CTuple) with CTuple by (destruct k; reflexivity). unfold enc_from_type_str. cbn [enc_leaf_from_type_str].
        rewrite PT. destruct (validate_type (expand (Tup cs []))) as [[]|e]; cbn [bind]; [|reflexivity].
        pose proof (sequence_lift (find_encoder (encs k)) (enc_of k) resolve (map expand cs)) as Q.
        destruct (sequenceM (lift (find_encoder (encs k))) (map to_type_str (map expand cs)) tt) as [res []]. cbn [fst] in Q.
        rewrite Q; [destruct (map_result resolve (map expand cs)); reflexivity|].
        eapply Forall_impl; [|exact Cs]. intros T' (H1 & H2 & H3). apply IH; assumption.
      * apply Strict. unfold dec_from_type_str. cbn [dec_leaf_from_type_str].
        rewrite PT. destruct (validate_type (expand (Tup cs []))) as [[]|e]; cbn [bind]; [|reflexivity].
        pose proof (sequence_lift (find_decoder decs None) (dec_of true) resolve (map expand cs)) as Q.
        destruct (sequenceM (lift (find_decoder decs None)) (map to_type_str (map expand cs)) tt) as [res []]. cbn [fst] in Q.
        rewrite Q; [destruct (map_result resolve (map expand cs)); reflexivity|].
        eapply Forall_impl; [|exact Cs]. intros T' (H1 & H2 & H3). apply (proj2 (IH T' H1 H2 H3)).
  - (* arrays *)
    assert (Ne : arrlist_of (expand T) <> []) by (rewrite arrlist_expand, Arr; discriminate).
    assert (L : lookup_sty T = resolve (expand T)) by (unfold lookup_sty; destruct T as [b [|m|m n'] [|d a]|cs a]; try reflexivity; discriminate Arr).
    rewrite L, (resolve_arr _ Ne). set (it := set_arr (removelast (arrlist_of (expand T))) (expand T)).
    assert (PA : (t <- parse_type_str None true ts;; it <- item_type t;; Ok (t, it)) = (validate_type (expand T) ;;; Ok (expand T, it))).
    { unfold parse_type_str. rewrite PN. cbn [bind]. destruct (arrlist_of (expand T)) as [|d1 a1] eqn:Arr'; [congruence|].
      cbn [negb andb raise_if bind]. destruct (validate_type (expand T)) as [[]|e]; cbn [bind]; [|reflexivity].
      rewrite item_set_arr by congruence. unfold it. rewrite Arr'. reflexivity. }
    assert (It : (depth it < opens ts)%nat /\ ast_ok it /\ expand it = it).
    { destruct (item_type_facts _ _ Ha (item_set_arr _ Ne)) as [I1 I2]. rewrite Ho. split; [exact I2|]. split; [exact I1|].
      unfold it. rewrite expand_set_arr, expand_idem. reflexivity. }
    destruct It as (I1 & I2 & I3). destruct (IH it I1 I2 I3) as [IE ID].
    assert (Cl : class_of T = Some (CBaseArray, CDBaseArray)) by (destruct T as [b sub [|d a]|cs [|d a]]; try discriminate Arr; reflexivity).
    split; intro k; rewrite ?find_encoder_eq, ?find_decoder_eq, ?registration_encs, ?registration_decs, P, Cl; cbn [fst snd].
    + assert (Q : forall u : unit, enc_from_type_str (lift (find_encoder (encs k))) (pack k CBaseArray) ts u =
         match (t <- parse_type_str None true ts;; it <- item_type t;; Ok (t, it)) with
         | Err e => (Err e, u)
         | Ok (t, it) => match lift (find_encoder (encs k)) (to_type_str it) u with
                         | (Err e, s1) => (Err e, s1)
                         | (Ok ie, s1) => (match pack k CBaseArray, last (arrlist_of t) None with
                                           | CPackedArray, n => Ok (EPackedArr n ie)
                                           | _, Some n => mk_sized n ie
                                           | _, None => Ok (EDyn ie)
                                           end, s1)
                         end
         end) by (destruct k; reflexivity).
      rewrite Q, PA. destruct (validate_type (expand T)) as [[]|e]; cbn [bind]; [|reflexivity].
      unfold lift. rewrite IE. fold it. destruct (resolve it) as [t|e]; cbn [bind enc_ok fst]; [|reflexivity]. apply enc_array.
    + apply Strict. unfold dec_from_type_str. cbn [dec_leaf_from_type_str]. rewrite PA.
      destruct (validate_type (expand T)) as [[]|e]; cbn [bind]; [|reflexivity].
      unfold lift. rewrite ID. cbn [strict_of]. fold it. destruct (resolve it) as [t|e]; cbn [bind dec_ok fst]; [|reflexivity]. apply dec_array.
Qed.
Theorem find_encoder_std pk ts :
  find_encoder (encs pk) ts = match parse ts with Err e => Err e | Ok T => enc_ok pk (lookup_sty T) end.
Proof.
  destruct (parse ts) as [T|e] eqn:P; [apply (find_std (opens ts) ts T ltac:(lia) P)|].
  rewrite find_encoder_eq, registration_encs, P. reflexivity.
Qed.
Theorem find_decoder_std k ts :
  find_decoder decs k ts = match parse ts with Err e => Err e | Ok T => dec_ok (strict_of k) (lookup_sty T) end.
Proof.
  destruct (parse ts) as [T|e] eqn:P; [apply (find_std (opens ts) ts T ltac:(lia) P)|].
  rewrite find_decoder_eq, registration_decs, P. reflexivity.
Qed.
