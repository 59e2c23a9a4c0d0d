(** C79: matchers as objects.  [ht] and [hf] stand for Python's hash functions;
    the theorems hold whatever they are. *)
From Coq Require Import Strings.String Lia.
From Verif Require Import Tac Py Grammar Spec TypeSpec Encoding Decoding Registry RaisingSpec RegistryProofs LookupProofs Matchers MatchersSpec MatchersProofs Codec Histories Bytes Samples.
Open Scope string_scope.
Open Scope list_scope.
Open Scope Z_scope.
Local Transparent Keccak.keccak256 Z.pow Decimals.pow10 Decimals.prec Decimals.Etop Decimals.Etiny Decimals.Emax Decimals.ndigits word be_bytes len.

(** Two matchers that are equal have the same hash. *)
Theorem C79_hash : forall ht hf st a b, singles st ->
  pred_eqb (matcher st a) (matcher st b) = true -> hash_of ht hf st a = hash_of ht hf st b.
Proof. exact equal_hash. Qed.
Print Assumptions C79_hash.

(** Every call has an outcome. *)
Theorem C79_total : forall ht hf V (s : state V) c, exists a s', step ht hf s c a s'.
Proof. exact @step_total. Qed.
Print Assumptions C79_total.

(** As long as no matcher is assigned to after it was registered, every
    program gives what it gives with the mapping of Registry.v, in which
    matchers are compared by their attributes: hashes make no difference. *)
Theorem C79_steady : forall ht hf V st (cs : list (call V)) replies s,
  singles st -> Forall proper cs -> keeps_matchers [] cs ->
  steps ht hf (st, mkTable [] []) cs replies s ->
  plain_steps st empty_mapping cs = (replies, (fst s, seen (fst s) (snd s))).
Proof. exact @program. Qed.
Print Assumptions C79_steady.

(** Then an attribute of the registered matcher [s_key s] is assigned to, so
    that it becomes [k].  A lookup goes by what the matcher is now. *)
Theorem C79_lookup : forall V st (t : table V) o k ts,
  finds (assign st o k) t ts = m_find (re_mapping o k (seen st t)) ts.
Proof.
  intros. unfold finds, m_find, re_mapping, seen. cbn [m_values]. rewrite map_map. do 2 f_equal. apply map_ext. intro x. cbn [fst snd].
  unfold re_pred, matcher, assign. cbn [pid pid_eqb]. destruct (N.eqb (s_key x) o); reflexivity.
Qed.
Print Assumptions C79_lookup.

(** Unregistering it by its label frees the label and does one of three things:
    it removes the entry; it removes another entry, whose matcher equals what
    this one is now; or, if there is none such, it may raise KeyError and leave
    the entry. *)
Theorem C79_unregister : forall ht hf V st (t : table V) i s k l r t',
  reached ht hf st t -> nth_error (t_values t) i = Some s -> has_attributes k ->
  hash_of ht hf (assign st (s_key s) k) (s_key s) <> s_hash s ->
  find (fun x => str_eqb (fst x) l) (t_labels t) = Some (l, s_key s) ->
  removes_label ht hf (assign st (s_key s) k) t l r t' <->
  t_labels t' = unlabel (t_labels t) l
  /\ (r = Ok tt /\ (exists j, t_values t' = without j (t_values t)
        /\ (j = i \/ exists y, nth_error (t_values t) j = Some y
                     /\ pred_eqb (matcher st (s_key y)) (mkPred k (Some (s_key s))) = true))
      \/ r = Err KeyError /\ t_values t' = t_values t
        /\ forall y, In y (t_values t) -> pred_eqb (matcher st (s_key y)) (mkPred k (Some (s_key s))) = false).
Proof. intros ht hf V st t i s k l r t' R N A C. exact (unregister_changed ht hf st t i s k R N A C l r t'). Qed.
Print Assumptions C79_unregister.

(** Registering another matcher equal to what it is now is not refused: the
    table then has two equal matchers. *)
Theorem C79_twice : forall ht hf V st (t : table V) i s k o v label r t',
  reached ht hf st t -> nth_error (t_values t) i = Some s -> has_attributes k ->
  hash_of ht hf (assign st (s_key s) k) (s_key s) <> s_hash s ->
  o <> s_key s -> st o = k -> ~ In o (map s_key (t_values t)) ->
  (forall y, In y (t_values t) -> pred_eqb (matcher st (s_key y)) (mkPred k (Some (s_key s))) = false) ->
  (forall l, label = Some l -> label_known (t_labels t) l = false) ->
  adds ht hf (assign st (s_key s) k) t o v label r t' ->
  r = Ok tt /\ exists slot, t_values t' = t_values t ++ [slot] /\ s_key slot = o /\ s_value slot = v.
Proof.
  intros ht hf V st t i s k o v label r t' R N A C D K U Q L H.
  destruct (register_changed ht hf st t i s k R N A C o v label r t' D K U Q L H) as [E1 E2]. split; [exact E1|]. eexists. split; [exact E2|]. split; reflexivity.
Qed.
Print Assumptions C79_twice.

(** An entry whose matcher has been assigned to and has no label left stays,
    whatever calls follow, unless they name the object. *)
Theorem C79_stuck : forall ht hf V (x y : state V) cs replies s,
  steps ht hf x cs replies y -> singles (fst x) -> Forall proper cs ->
  In s (t_values (snd x)) -> s_hash s <> hash_of ht hf (fst x) (s_key s) ->
  Forall (leaves (s_key s)) cs -> (forall l, ~ In (l, s_key s) (t_labels (snd x))) ->
  In s (t_values (snd y)) /\ fst y (s_key s) = fst x (s_key s).
Proof.
  intros ht hf V x y cs replies s R S P I H L B. apply (steps_stuck ht hf x y cs replies R s S P I H L). intros [l J]. exact (B l J).
Qed.
Print Assumptions C79_stuck.

(** A type string looked up before keeps its coder. *)
Theorem C79_cached : forall o k ts e r, ecache_get (r_ecache r) ts = Some e ->
  get_encoder ts (reassigned o k r) = (Ok e, reassigned o k r).
Proof. exact cached_encoder. Qed.
Print Assumptions C79_cached.
(** The matcher of "uint" (object 1 in [start]) made to match "int": "uint8",
    looked up before, is still encoded; "uint16" has no encoder any more and
    "int8" has two. *)
Example C79_cached_sample :
  let w := snd (run (OEncode (types ["uint8"]) (PList [PInt 1])) start) in
  let w' := (reassigned 1 (KBaseEquals (lit "int") None) (fst w), snd w) in
  map (fun o => fst (run o w')) [OEncode (types ["uint8"]) (PList [PInt 1]); OEncode (types ["uint16"]) (PList [PInt 1]); OEncode (types ["int8"]) (PList [PInt 1])]
  = [ABytes (Ok (word 1)); ABytes (Err NoEntriesFound); ABytes (Err MultipleEntriesFound)].
Proof. lazy. reflexivity. Qed.

(** ** A program: two matchers registered, the first one made equal to the second *)
Definition toy_hash (l : list attr) : Z := match l with AStr s :: _ => Z.of_nat (length s) | _ => 0 end.
Definition no_hash (_ : N) : Z := 7.
Definition nothing : objects := fun _ => KFun (fun _ => Done false).
Definition two_matchers : list (call nat) :=
  [CAssign 1 (KBaseEquals (lit "abc") None); CAdd 1 10%nat (Some (lit "first"));
   CAssign 2 (KBaseEquals (lit "wxyz") None); CAdd 2 20%nat (Some (lit "second"))]%N.
Definition both : table nat :=
  mkTable [mkSlot 3 1%N 10%nat; mkSlot 4 2%N 20%nat] [(lit "first", 1%N); (lit "second", 2%N)].
Definition now : objects := assign (assign nothing 1 (KBaseEquals (lit "abc") None)) 2 (KBaseEquals (lit "wxyz") None).
Lemma nothing_single : singles nothing.
Proof. intro o. split; discriminate. Qed.
Lemma both_reached : reached toy_hash no_hash now both.
Proof.
  exists nothing, two_matchers, [RDone (Ok tt); RDone (Ok tt); RDone (Ok tt); RDone (Ok tt)].
  split; [exact nothing_single|]. split; [unfold two_matchers; repeat (apply Forall_cons; [first [exact I|split; discriminate]|]); apply Forall_nil|]. split; [cbn; intuition congruence|].
  eapply steps_cons; [apply step_assign|]. eapply steps_cons; [apply step_add; eapply add_labelled; [apply Miss; intros x []|reflexivity|reflexivity]|].
  eapply steps_cons; [apply step_assign|]. eapply steps_cons; [|apply steps_nil].
  apply step_add. match goal with |- adds _ _ _ ?t _ _ _ _ _ =>
    change both with (mkTable (t_values t ++ [mkSlot (hash_of toy_hash no_hash now 2) 2%N 20%nat]) (t_labels t ++ [(lit "second", 2%N)])) end.
  eapply (add_labelled toy_hash no_hash now _ 2%N 20%nat _ (lit "second")); [|reflexivity|reflexivity].
  apply Miss. intros x [<-|[]] H. discriminate H.
Qed.
Example C79_sample :
  (* before: the hypotheses of C79_unregister hold *)
  nth_error (t_values both) 0 = Some (mkSlot 3 1%N 10%nat)
  /\ hash_of toy_hash no_hash (assign now 1 (KBaseEquals (lit "wxyz") None)) 1 <> 3
  /\ find (fun x => str_eqb (fst x) (lit "first")) (t_labels both) = Some (lit "first", 1%N)
  (* made equal to the second: unregistering "first" may remove the entry of "second" *)
  /\ removes_label toy_hash no_hash (assign now 1 (KBaseEquals (lit "wxyz") None)) both (lit "first") (Ok tt)
       (mkTable [mkSlot 3 1%N 10%nat] [(lit "second", 2%N)])
  (* made something new: unregistering "first" may fail, with the entry in place *)
  /\ removes_label toy_hash no_hash (assign now 1 (KBaseEquals (lit "vwxyz") None)) both (lit "first") (Err KeyError)
       (mkTable (t_values both) [(lit "second", 2%N)]).
Proof.
  split; [reflexivity|]. split; [discriminate|]. split; [reflexivity|]. split.
  - apply (label_removed toy_hash no_hash _ both (lit "first") (lit "first") 1%N 1); [reflexivity|]. apply Hit with (s := mkSlot 4 2%N 20%nat); [reflexivity|]. right. split; reflexivity.
  - apply (label_dangling toy_hash no_hash _ both (lit "first") (lit "first") 1%N); [reflexivity|]. apply Miss. intros x [<-|[<-|[]]] H; discriminate H.
Qed.

(** "Unregistering a label removes the entry registered with it" is false once
    attributes are assigned to. *)
Theorem C79_unregister_refuted : ~ (forall ht hf st (t : table nat) k l o r t',
  reached ht hf st t -> has_attributes k -> find (fun x => str_eqb (fst x) l) (t_labels t) = Some (l, o) ->
  removes_label ht hf (assign st o k) t l r t' -> ~ In o (map s_key (t_values t'))).
Proof.
  intro H. pose proof C79_sample as (_ & _ & F & R & _).
  apply (H _ _ _ _ (KBaseEquals (lit "wxyz") None) _ _ _ _ both_reached I F R). left. reflexivity.
Qed.
Print Assumptions C79_unregister_refuted.
