(** eth_abi/tools/_strategies.py.  A hypothesis strategy is modelled as the
    expression that builds it, and [draw] says what an example drawn from it can
    be: a value, or the exception a mapped function or the validation of the
    strategy's own arguments raises.  Hypothesis itself is trusted to generate
    only such values; which of them it picks, how it shrinks them, and its
    limits on the size of examples are not modelled. *)
From Coq Require Import Strings.String.
From Verif Require Import Py Bytes Decimals Address Grammar Registry.
Open Scope Z_scope.

(** ** Hypothesis *)
Inductive strategy :=
| StIntegers (lo hi : Z)                           (* st.integers *)
| StBooleans                                       (* st.booleans *)
| StBinary (lo hi : Z)                             (* st.binary *)
| StText                                           (* st.text() *)
| StDecimals (lo hi : Z)                           (* st.decimals(min_value, max_value, places=0) *)
| StMap (f : pyval -> result pyval) (s : strategy) (* .map *)
| StLists (s : strategy) (lo : Z) (hi : option Z)  (* st.lists *)
| StTuples (ss : list strategy)                    (* st.tuples *)
| StInvalid.                                       (* arguments of a wrong type, which hypothesis reports on drawing *)

(** The default alphabet of st.text() is all code points but the surrogates.
    st.decimals(places=0) draws an int and quantizes it to exponent 0.
    InvalidArgument is a TypeError. *)
Inductive draw : strategy -> result pyval -> Prop :=
| Dr_integers lo hi z : lo <= z <= hi -> draw (StIntegers lo hi) (Ok (PInt z))
| Dr_booleans b : draw StBooleans (Ok (PBool b))
| Dr_binary lo hi b : lo <= len b <= hi -> draw (StBinary lo hi) (Ok (PBytes b))
| Dr_text s : Forall (fun c => (c < 0xD800 \/ 0xDFFF < c < 0x110000)%N) s -> draw StText (Ok (PStr s))
| Dr_decimals lo hi z : lo <= z <= hi -> draw (StDecimals lo hi) (Ok (PDec (dec_of_Z z)))
| Dr_map f s v : draw s (Ok v) -> draw (StMap f s) (f v)
| Dr_map_err f s e : draw s (Err e) -> draw (StMap f s) (Err e)
| Dr_lists s lo hi l : lo <= len l -> (forall n, hi = Some n -> len l <= n) -> Forall (fun v => draw s (Ok v)) l ->
    draw (StLists s lo hi) (Ok (PList l))
| Dr_lists_err s lo hi e : (forall n, hi = Some n -> 0 < n) -> draw s (Err e) -> draw (StLists s lo hi) (Err e)
| Dr_tuples ss l : Forall2 (fun s v => draw s (Ok v)) ss l -> draw (StTuples ss) (Ok (PTuple l))
| Dr_tuples_err ss s e : In s ss -> draw s (Err e) -> draw (StTuples ss) (Err e)
| Dr_integers_bad lo hi : hi < lo -> draw (StIntegers lo hi) (Err TypeError)
| Dr_binary_bad lo hi : hi < lo \/ lo < 0 -> draw (StBinary lo hi) (Err TypeError)
| Dr_decimals_bad lo hi : hi < lo -> draw (StDecimals lo hi) (Err TypeError)
| Dr_lists_bad s lo n : n < lo \/ lo < 0 -> draw (StLists s lo (Some n)) (Err TypeError)
| Dr_invalid : draw StInvalid (Err TypeError).

(** ** Registrations *)

(** The factories of _strategies.py, and any other callable a user registers
    (assumed to look at the type only). *)
Inductive factory :=
| FUint | FInt | FUFixed | FFixed | FBytes | FArray | FTuple | FUser (f : abi_type -> result strategy).
(** _strategies.py:37-38 StrategyFactory, StrategyRegistration *)
Inductive strategy_reg := RInst (s : strategy) | RFactory (f : factory).

(** The function [.map] applies in _strategies.py:103, 116, 128. *)
Definition map_checksum (v : pyval) : result pyval := s <- to_checksum_address v ;; Ok (PStr s).
Definition map_scale (places : Z) (v : pyval) : result pyval :=
  match v with
  | PDec d => d' <- scale_places places d ;; Ok (PDec d')
  | _ => Err TypeError
  end.

(** _strategies.py:103-104, 142-143 *)
Definition address_strategy : strategy := StMap map_checksum (StBinary 20 20).
Definition bool_strategy : strategy := StBooleans.
Definition bytes_strategy : strategy := StBinary 0 4096.
Definition string_strategy : strategy := StText.

(** [registration(abi_type, self)]; [get] is [registry.get_strategy].
    _strategies.py:81-100, 107-139, 146-171 *)
Definition call_factory (get : pystr -> result strategy) (f : factory) (t : abi_type) : result strategy :=
  match f with
  | FUint => bits <- sub_int t ;; Ok (StIntegers 0 (2 ^ bits - 1))
  | FInt => bits <- sub_int t ;; Ok (StIntegers (- 2 ^ (bits - 1)) (2 ^ (bits - 1) - 1))
  | FUFixed => '(bits, places) <- sub_pair t ;; Ok (StMap (map_scale places) (StDecimals 0 (2 ^ bits - 1)))
  | FFixed => '(bits, places) <- sub_pair t ;;
      Ok (StMap (map_scale places) (StDecimals (- 2 ^ (bits - 1)) (2 ^ (bits - 1) - 1)))
  | FBytes => match t with Basic _ (SubInt n) _ => Ok (StBinary n n) | _ => Ok StInvalid end
  | FArray =>
      it <- item_type t ;;
      s <- get (to_type_str it) ;;
      match last (arrlist_of t) None with
      | None => Ok (StLists s 0 None)
      | Some n => Ok (StLists s n (Some n))
      end
  | FTuple =>
      match t with
      | Tup cs _ => ss <- mapM (fun c => get (to_type_str c)) cs ;; Ok (StTuples ss)
      | Basic _ _ _ => Err AttributeError
      end
  | FUser f => f t
  end.

(** _strategies.py:56-78 get_strategy.  [fuel] bounds the nesting of types. *)
Fixpoint get_strategy_fuel (fuel : nat) (m : mapping strategy_reg) (ts : pystr) : result strategy :=
  match fuel with
  | O => Err OutOfFuel
  | S fuel' =>
      match base_get_registration m ts with
      | Err e => Err e
      | Ok (RInst s) => Ok s
      | Ok (RFactory f) => t <- parse (normalize ts) ;; call_factory (get_strategy_fuel fuel' m) f t
      end
  end.
Definition get_strategy (m : mapping strategy_reg) (ts : pystr) : result strategy := get_strategy_fuel (S (length ts)) m ts.

(** _strategies.py:45-54 *)
Definition register_strategy (l : lookup) (v : strategy_reg) (label : option pystr) (m : mapping strategy_reg) := base_register m l v label.
Definition unregister_strategy (l : lookup) (m : mapping strategy_reg) := base_unregister m l.

(** _strategies.py:174-235 *)
Definition strategy_registrations : list (lookup * strategy_reg * pystr) :=
  [ (be (lit "uint") None 41, RFactory FUint, lit "uint");
    (be (lit "int") None 42, RFactory FInt, lit "int");
    (be (lit "address") (Some false) 43, RInst address_strategy, lit "address");
    (be (lit "bool") (Some false) 44, RInst bool_strategy, lit "bool");
    (be (lit "ufixed") None 45, RFactory FUFixed, lit "ufixed");
    (be (lit "fixed") None 46, RFactory FFixed, lit "fixed");
    (be (lit "bytes") (Some true) 47, RFactory FBytes, lit "bytes<M>");
    (be (lit "bytes") (Some false) 48, RInst bytes_strategy, lit "bytes");
    (be (lit "function") (Some false) 49, RFactory FBytes, lit "function");
    (be (lit "string") (Some false) 50, RInst string_strategy, lit "string");
    (l_has_arrlist, RFactory FArray, lit "has_arrlist");
    (l_is_base_tuple, RFactory FTuple, lit "is_base_tuple") ].
Definition strategy_registry : mapping strategy_reg :=
  fold_left (fun m x => let '(l, v, lab) := x in snd (register_strategy l v (Some lab) m)) strategy_registrations empty_mapping.
(** _strategies.py:237 *)
Definition get_abi_strategy (ts : pystr) : result strategy := get_strategy strategy_registry ts.
