(** What a registry of strategies should be: a list of entries; which strategy
    it gives for a type string. *)
From Coq Require Import Strings.String.
From Verif Require Import Py Bytes Grammar GrammarSpec Registry RaisingSpec RegistrySpec Strategies.
Open Scope Z_scope.

(** The calls that change it. *)
Inductive strategy_call :=
| Register (l : lookup) (v : strategy_reg) (label : option pystr)
| Unregister (l : lookup).
(** on the program *)
Definition called (c : strategy_call) (m : mapping strategy_reg) : result unit * mapping strategy_reg :=
  match c with Register l v label => register_strategy l v label m | Unregister l => unregister_strategy l m end.
Fixpoint after_calls (cs : list strategy_call) (m : mapping strategy_reg) : list (result unit) * mapping strategy_reg :=
  match cs with
  | [] => ([], m)
  | c :: cs' => let '(r, m1) := called c m in let '(rs, m2) := after_calls cs' m1 in (r :: rs, m2)
  end.
(** on entries *)
Definition specified (c : strategy_call) (es : list (entry strategy_reg)) : result unit * list (entry strategy_reg) :=
  match c with Register l v label => s_register es l v label | Unregister l => s_unregister es l end.
Fixpoint entries_after (cs : list strategy_call) (es : list (entry strategy_reg)) : list (result unit) * list (entry strategy_reg) :=
  match cs with
  | [] => ([], es)
  | c :: cs' => let '(r, es1) := specified c es in let '(rs, es2) := entries_after cs' es1 in (r :: rs, es2)
  end.
(** Matchers are objects, and a labelled entry is removed by its label or by the
    object it was made with. *)
Fixpoint orderly (cs : list strategy_call) (es : list (entry strategy_reg)) : Prop :=
  match cs with
  | [] => True
  | c :: cs' =>
      match c with Register l _ _ => held l | Unregister l => held l /\ same_object es l end
      /\ orderly cs' (snd (specified c es))
  end.

(** ** Lookups *)

(** No matcher raises; these are the ones that accept. *)
Definition willing (es : list (entry strategy_reg)) (ts : pystr) (found : list strategy_reg) : Prop :=
  (forall x, In x es -> raising (e_pred x) ts = false) /\ map e_value (filter (fun x => hit (e_pred x) ts) es) = found.
(** The last dimension. *)
Inductive last_dim : abi_type -> abi_type -> dim -> Prop :=
| LD_basic b sub arr d : last_dim (Basic b sub (arr ++ [d])) (Basic b sub arr) d
| LD_tuple cs arr d : last_dim (Tup cs (arr ++ [d])) (Tup cs arr) d.
(** The factories that need the parsed type only. *)
Inductive makes : factory -> abi_type -> result strategy -> Prop :=
| MK_uint b n arr : makes FUint (Basic b (SubInt n) arr) (Ok (StIntegers 0 (2 ^ n - 1)))
| MK_int b n arr : makes FInt (Basic b (SubInt n) arr) (Ok (StIntegers (- 2 ^ (n - 1)) (2 ^ (n - 1) - 1)))
| MK_ufixed b n k arr : makes FUFixed (Basic b (SubPair n k) arr) (Ok (StMap (map_scale k) (StDecimals 0 (2 ^ n - 1))))
| MK_fixed b n k arr : makes FFixed (Basic b (SubPair n k) arr) (Ok (StMap (map_scale k) (StDecimals (- 2 ^ (n - 1)) (2 ^ (n - 1) - 1))))
| MK_bytes b n arr : makes FBytes (Basic b (SubInt n) arr) (Ok (StBinary n n))
| MK_user f t : makes (FUser f) t (f t).
Definition or_else (r : result strategy) (k : strategy -> strategy) : result strategy := match r with Ok s => Ok (k s) | Err e => Err e end.
(** All of them, or the first exception. *)
Fixpoint all_of (rs : list (result strategy)) : result (list strategy) :=
  match rs with
  | [] => Ok []
  | Err e :: _ => Err e
  | Ok s :: rs' => match all_of rs' with Ok ss => Ok (s :: ss) | Err e => Err e end
  end.
(** [provides es ts r]: the registry with the entries [es] answers [r] for [ts]. *)
Inductive provides (es : list (entry strategy_reg)) : pystr -> result strategy -> Prop :=
| P_none ts T : willing es ts [] -> g_type ts T -> provides es ts (Err NoEntriesFound)
| P_many ts T v v' vs : willing es ts (v :: v' :: vs) -> g_type ts T -> provides es ts (Err MultipleEntriesFound)
| P_strategy ts s : willing es ts [RInst s] -> provides es ts (Ok s)
| P_factory ts f n T r : willing es ts [RFactory f] -> normalized ts n -> g_type n T -> makes f T r -> provides es ts r
| P_array ts n T item d s r : willing es ts [RFactory FArray] -> normalized ts n -> g_type n T -> last_dim T item d ->
    g_type s item -> provides es s r ->
    provides es ts (or_else r (fun x => match d with None => StLists x 0 None | Some k => StLists x k (Some k) end))
| P_tuple ts n cs arr ss rs : willing es ts [RFactory FTuple] -> normalized ts n -> g_type n (Tup cs arr) ->
    Forall2 g_type ss cs -> Forall2 (provides es) ss rs ->
    provides es ts (match all_of rs with Ok l => Ok (StTuples l) | Err e => Err e end).
