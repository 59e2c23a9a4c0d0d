(** eth_abi/registry.py (predicates, mappings, registries and their caches),
    the decorators of eth_abi/base.py and the from_type_str methods of
    eth_abi/encoding.py and eth_abi/decoding.py. *)
From Coq Require Import Strings.String.
From Verif Require Import Py Bytes Utf8 Grammar Encoding Decoding.
Open Scope Z_scope.

(** ** Predicates (registry.py:162-277) *)

(** What a call does: it returns, or it raises an exception.  For the exception
    of a matcher, [says] is what the test ["No matching" in e.args[0]] of
    registry.py:332 gives; that test itself raises IndexError if the exception
    has no arguments, and TypeError if the first one is a number. *)
Inductive outcome (A : Type) := Done (a : A) | Raised (e : exc) (says : result bool).
Arguments Done {A} a.
Arguments Raised {A} e says.

(** A matcher object: what it computes, and the identity of the object (which
    Python's [is], and equality of plain functions, look at). *)
Inductive pred_kind :=
(* registry.py:190-204 *)
| KEquals (value : pystr)
(* registry.py:207-253 *)
| KBaseEquals (base : pystr) (with_sub : option bool)
(* registry.py:256-265 *)
| KHasArrlist
(* registry.py:268-277 *)
| KIsBaseTuple
(* a user-supplied function, by what it does and the truth of what it returns *)
| KFun (f : pystr -> outcome bool).

(** [pid]: [Some n] for objects the caller holds; [None] for the Equals object
    created inside _register (registry.py:306), which no caller can name. *)
Record pred := mkPred { pkind : pred_kind; pid : option N }.

Definition opt_bool_eqb (a b : option bool) : bool :=
  match a, b with
  | None, None => true
  | Some x, Some y => Bool.eqb x y
  | _, _ => false
  end.
Definition pid_eqb (a b : option N) : bool :=
  match a, b with Some x, Some y => N.eqb x y | _, _ => false end.

(** [==] / dict-key equality: registry.py:183-187 for Predicate subclasses,
    identity for functions. *)
Definition pred_eqb (p q : pred) : bool :=
  match pkind p, pkind q with
  | KEquals a, KEquals b => str_eqb a b
  | KBaseEquals a wa, KBaseEquals b wb => str_eqb a b && opt_bool_eqb wa wb
  | KHasArrlist, KHasArrlist => true
  | KIsBaseTuple, KIsBaseTuple => true
  | KFun _, KFun _ => pid_eqb (pid p) (pid q)
  | _, _ => false
  end.

(** [is]: same object.  has_arrlist and is_base_tuple are single objects. *)
Definition pred_is (p q : pred) : bool :=
  pred_eqb p q
  && match pkind p with
     | KHasArrlist | KIsBaseTuple => true
     | _ => pid_eqb (pid p) (pid q)
     end.

(** registry.py:222-242 BaseEquals.__call__ *)
Definition base_equals (base : pystr) (with_sub : option bool) (ts : pystr) : bool :=
  match parse ts with
  | Err _ => false
  | Ok (Tup _ _) => false
  | Ok (Basic b sub arr) =>
      match arr with
      | _ :: _ => false
      | [] =>
          let sub_ok :=
            match with_sub, sub with
            | None, _ => true
            | Some true, SubNone => false
            | Some true, _ => true
            | Some false, SubNone => true
            | Some false, _ => false
            end in
          sub_ok && str_eqb b base
      end
  end.

(** registry.py:256-265 *)
Definition has_arrlist (ts : pystr) : bool :=
  match parse ts with
  | Err _ => false
  | Ok t => match arrlist_of t with [] => false | _ => true end
  end.

(** registry.py:268-277 *)
Definition is_base_tuple (ts : pystr) : bool :=
  match parse ts with
  | Ok (Tup _ []) => true
  | _ => false
  end.

(** [predicate(type_str)] *)
Definition pred_call (p : pred) (ts : pystr) : outcome bool :=
  match pkind p with
  | KEquals v => Done (str_eqb v ts)
  | KBaseEquals base ws => Done (base_equals base ws ts)
  | KHasArrlist => Done (has_arrlist ts)
  | KIsBaseTuple => Done (is_base_tuple ts)
  | KFun f => f ts
  end.

(** ** PredicateMapping (registry.py:51-159) *)

Record mapping (V : Type) := mkMapping {
  m_values : list (pred * V);       (* _values, in insertion order *)
  m_labels : list (pystr * pred)    (* _labeled_predicates *)
}.
Arguments mkMapping {V} _ _.
Arguments m_values {V} _.
Arguments m_labels {V} _.

Definition empty_mapping {V} : mapping V := mkMapping [] [].

Definition has_pred {V} (m : mapping V) (p : pred) : bool :=
  existsb (fun pv => pred_eqb (fst pv) p) (m_values m).
Definition has_label {V} (m : mapping V) (l : pystr) : bool :=
  existsb (fun lp => str_eqb (fst lp) l) (m_labels m).

(** registry.py:63-78 add: the state after the call and how it returned *)
Definition m_add {V} (m : mapping V) (p : pred) (v : V) (label : option pystr)
  : result unit * mapping V :=
  if has_pred m p then (Err ValueError, m)
  else
    match label with
    | Some l =>
        if has_label m l then (Err ValueError, m)
        else (Ok tt, mkMapping (m_values m ++ [(p, v)]) (m_labels m ++ [(l, p)]))
    | None => (Ok tt, mkMapping (m_values m ++ [(p, v)]) (m_labels m))
    end.

(** registry.py:81-85, the loop of find: every matcher is called *)
Fixpoint m_scan {V} (l : list (pred * V)) (ts : pystr) : outcome (list V) :=
  match l with
  | [] => Done []
  | (p, v) :: l' =>
      match pred_call p ts with
      | Raised e says => Raised e says
      | Done b =>
          match m_scan l' ts with
          | Raised e says => Raised e says
          | Done vs => Done (if b then v :: vs else vs)
          end
      end
  end.
(** registry.py:87-105, the rest of find.  The messages quote the type string,
    so that of MultipleEntriesFound contains "No matching" if the type string
    does. *)
Definition chosen {V} (ts : pystr) (found : outcome (list V)) : outcome V :=
  match found with
  | Raised e says => Raised e says
  | Done [] => Raised NoEntriesFound (Ok true)
  | Done [v] => Done v
  | Done _ => Raised MultipleEntriesFound (Ok (contains (lit "No matching") ts))
  end.
(** registry.py:80-105 find *)
Definition m_find {V} (m : mapping V) (ts : pystr) : outcome V := chosen ts (m_scan (m_values m) ts).

(** [del self._values[p]] *)
Definition del_value {V} (m : mapping V) (p : pred) : list (pred * V) :=
  filter (fun pv => negb (pred_eqb (fst pv) p)) (m_values m).
(** [del self._labeled_predicates[l]] *)
Definition del_label {V} (m : mapping V) (l : pystr) : list (pystr * pred) :=
  filter (fun lp => negb (str_eqb (fst lp) l)) (m_labels m).

(** registry.py:107-131 remove_by_equality, _label_for_predicate *)
Definition m_remove_by_equality {V} (m : mapping V) (p : pred) : result unit * mapping V :=
  if has_pred m p then
    let values := del_value m p in
    match find (fun lp => pred_is (snd lp) p) (m_labels m) with
    | Some (l, _) => (Ok tt, mkMapping values (del_label m l))
    | None => (Ok tt, mkMapping values (m_labels m))
    end
  else (Err KeyError, m).

(** registry.py:133-140 remove_by_label *)
Definition m_remove_by_label {V} (m : mapping V) (l : pystr) : result unit * mapping V :=
  match find (fun lp => str_eqb (fst lp) l) (m_labels m) with
  | None => (Err KeyError, m)
  | Some (_, p) =>
      let m1 := mkMapping (m_values m) (del_label m l) in
      if has_pred m1 p then (Ok tt, mkMapping (del_value m1 p) (m_labels m1))
      else (Err KeyError, m1)
  end.

(** registry.py:153-159 copy *)
Definition m_copy {V} (m : mapping V) : mapping V := mkMapping (m_values m) (m_labels m).

(** ** BaseRegistry (registry.py:298-339) *)

(** A lookup argument: a str, a callable, or something else. *)
Inductive lookup :=
| LStr (s : pystr)
| LPred (p : pred)
| LOther.

(** registry.py:299-311 _register *)
Definition base_register {V} (m : mapping V) (l : lookup) (v : V) (label : option pystr)
  : result unit * mapping V :=
  match l with
  | LPred p => m_add m p v label
  | LStr s => m_add m (mkPred (KEquals s) None) v (Some s)
  | LOther => (Err TypeError, m)
  end.

(** registry.py:313-326 _unregister *)
Definition base_unregister {V} (m : mapping V) (l : lookup) : result unit * mapping V :=
  match l with
  | LPred p => m_remove_by_equality m p
  | LStr s => m_remove_by_label m s
  | LOther => (Err TypeError, m)
  end.

(** registry.py:330-337: what happens to the outcome of find *)
Definition reparsed {V} (ts : pystr) (r : outcome V) : result V :=
  match r with
  | Done v => Ok v
  | Raised e says =>
      if is_value_error e
      then b <- says ;; (if b then parse ts ;;; Err e else Err e)
      else Err e
  end.
(** registry.py:328-339 _get_registration *)
Definition base_get_registration {V} (m : mapping V) (ts : pystr) : result V := reparsed ts (m_find m ts).

(** ** Coder classes *)

Inductive enc_class :=
| CUInt | CPackedUInt | CInt | CPackedInt | CBool | CPackedBool | CAddr | CPackedAddr
| CUFixed | CPackedUFixed | CFixed | CPackedFixed | CBytesM | CPackedBytesM
| CByteString | CPackedByteString | CText | CPackedText
| CTuple | CBaseArray | CPackedArray
(* a user-defined BaseEncoder subclass, by its from_type_str; it is assumed not
   to consult the registry *)
| CUserEnc (f : pystr -> result encoder).

Inductive dec_class :=
| CDUInt | CDInt | CDBool | CDAddr | CDUFixed | CDFixed | CDBytesM
| CDByteString | CDString | CDTuple | CDBaseArray
| CUserDec (f : pystr -> result decoder).

(** What is registered: a BaseCoder subclass or an instance/callable
    (registry.py:352-355). *)
Inductive enc_reg := EClass (c : enc_class) | EInst (e : encoder).
Inductive dec_reg := DClass (c : dec_class) | DInst (d : decoder).

(** base.py:11-74 parse_type_str: the checks made before the wrapped method *)
Definition parse_type_str (expected_base : option pystr) (with_arrlist : bool) (ts : pystr)
  : result abi_type :=
  t <- parse (normalize ts) ;;
  (match expected_base with
   | None => Ok tt
   | Some b =>
       match t with
       | Tup _ _ => Err ValueError
       | Basic base _ _ => raise_if (negb (str_eqb base b)) ValueError
       end
   end) ;;;
  let has_arr := match arrlist_of t with [] => false | _ => true end in
  raise_if (negb with_arrlist && has_arr) ValueError ;;;
  raise_if (with_arrlist && negb has_arr) ValueError ;;;
  validate_type t ;;;
  Ok t.

(** base.py:77-108 parse_tuple_type_str.  No test of arrlist is made. *)
Definition parse_tuple_type_str (ts : pystr) : result (list abi_type) :=
  t <- parse (normalize ts) ;;
  match t with
  | Basic _ _ _ => Err ValueError
  | Tup cs _ => validate_type t ;;; Ok cs
  end.

(** [abi_type.sub] where an int is expected; arithmetic on None or a tuple is a
    TypeError. *)
Definition sub_int (t : abi_type) : result Z :=
  match t with Basic _ (SubInt n) _ => Ok n | _ => Err TypeError end.
(** [value_bit_size, frac_places = abi_type.sub] *)
Definition sub_pair (t : abi_type) : result (Z * Z) :=
  match t with Basic _ (SubPair a b) _ => Ok (a, b) | _ => Err TypeError end.

(** from_type_str of the encoder classes that do not recurse into the registry;
    [None] for those that do. *)
Definition enc_leaf_from_type_str (c : enc_class) (ts : pystr) : option (result encoder) :=
  match c with
  | CUInt =>          (* encoding.py:283-285 *)
      Some (t <- parse_type_str (Some (lit "uint")) false ts ;; n <- sub_int t ;; mk_uint n 32)
  | CPackedUInt =>    (* encoding.py:292-297 *)
      Some (t <- parse_type_str (Some (lit "uint")) false ts ;; n <- sub_int t ;; mk_uint n (n / 8))
  | CInt =>           (* encoding.py:318-320 *)
      Some (t <- parse_type_str (Some (lit "int")) false ts ;; n <- sub_int t ;; mk_sint n 32)
  | CPackedInt =>     (* encoding.py:324-329 *)
      Some (t <- parse_type_str (Some (lit "int")) false ts ;; n <- sub_int t ;; mk_sint n (n / 8))
  | CBool =>          (* encoding.py:231-233 *)
      Some (parse_type_str (Some (lit "bool")) false ts ;;; Ok (EBool 32))
  | CPackedBool =>    (* encoding.py:231-237 *)
      Some (parse_type_str (Some (lit "bool")) false ts ;;; Ok (EBool 1))
  | CAddr =>          (* encoding.py:465-467 *)
      Some (parse_type_str (Some (lit "address")) false ts ;;; Ok (EAddr 32))
  | CPackedAddr =>    (* encoding.py:465-471 *)
      Some (parse_type_str (Some (lit "address")) false ts ;;; Ok (EAddr 20))
  | CUFixed =>        (* encoding.py:381-388 *)
      Some (t <- parse_type_str (Some (lit "ufixed")) false ts ;;
            ' (n, f) <- sub_pair t ;; mk_ufixed n f 32)
  | CPackedUFixed =>  (* encoding.py:392-400 *)
      Some (t <- parse_type_str (Some (lit "ufixed")) false ts ;;
            ' (n, f) <- sub_pair t ;; mk_ufixed n f (n / 8))
  | CFixed =>         (* encoding.py:427-434 *)
      Some (t <- parse_type_str (Some (lit "fixed")) false ts ;;
            ' (n, f) <- sub_pair t ;; mk_sfixed n f 32)
  | CPackedFixed =>   (* encoding.py:438-446 *)
      Some (t <- parse_type_str (Some (lit "fixed")) false ts ;;
            ' (n, f) <- sub_pair t ;; mk_sfixed n f (n / 8))
  | CBytesM =>        (* encoding.py:493-495 *)
      Some (t <- parse_type_str (Some (lit "bytes")) false ts ;; n <- sub_int t ;; mk_bytesM (n * 8) 32)
  | CPackedBytesM =>  (* encoding.py:499-504 *)
      Some (t <- parse_type_str (Some (lit "bytes")) false ts ;; n <- sub_int t ;; mk_bytesM (n * 8) n)
  | CByteString =>    (* encoding.py:525-527 *)
      Some (parse_type_str (Some (lit "bytes")) false ts ;;; Ok (EByteString false))
  | CPackedByteString => (* encoding.py:525-536 *)
      Some (parse_type_str (Some (lit "bytes")) false ts ;;; Ok (EByteString true))
  | CText =>          (* encoding.py:559-561 *)
      Some (parse_type_str (Some (lit "string")) false ts ;;; Ok (EText false))
  | CPackedText =>    (* encoding.py:559-570 *)
      Some (parse_type_str (Some (lit "string")) false ts ;;; Ok (EText true))
  | CUserEnc f => Some (f ts)
  | CTuple | CBaseArray | CPackedArray => None
  end.

Definition dec_leaf_from_type_str (c : dec_class) (ts : pystr) : option (result decoder) :=
  match c with
  | CDUInt =>       (* decoding.py:466-468 *)
      Some (t <- parse_type_str (Some (lit "uint")) false ts ;; n <- sub_int t ;; mk_duint n)
  | CDInt =>        (* decoding.py:501-503 *)
      Some (t <- parse_type_str (Some (lit "int")) false ts ;; n <- sub_int t ;; mk_dint n)
  | CDBool =>       (* decoding.py:444-446 *)
      Some (parse_type_str (Some (lit "bool")) false ts ;;; Ok DBool)
  | CDAddr =>       (* decoding.py:454-456 *)
      Some (parse_type_str (Some (lit "address")) false ts ;;; Ok DAddr)
  | CDUFixed =>     (* decoding.py:544-548 *)
      Some (t <- parse_type_str (Some (lit "ufixed")) false ts ;;
            ' (n, f) <- sub_pair t ;; mk_dufixed n f)
  | CDFixed =>      (* decoding.py:578-582 *)
      Some (t <- parse_type_str (Some (lit "fixed")) false ts ;;
            ' (n, f) <- sub_pair t ;; mk_dfixed n f)
  | CDBytesM =>     (* decoding.py:516-518 *)
      Some (t <- parse_type_str (Some (lit "bytes")) false ts ;; n <- sub_int t ;; mk_dbytesM (n * 8))
  | CDByteString => (* decoding.py:618-620; strict is the class attribute True until
                       the registry sets it *)
      Some (parse_type_str (Some (lit "bytes")) false ts ;;; Ok (DByteString (SConst true)))
  | CDString =>     (* decoding.py:623-630 *)
      Some (parse_type_str (Some (lit "string")) false ts ;;;
            Ok (DString (SConst true) utf8_decode))
  | CUserDec f => Some (f ts)
  | CDTuple | CDBaseArray => None
  end.

(** ** ABIRegistry (registry.py:342-499) *)

Record registry := mkRegistry {
  r_encs : mapping enc_reg;
  r_decs : mapping dec_reg;
  (* functools.cache over _get_encoder_uncached (registry.py:346) *)
  r_ecache : list (pystr * encoder);
  (* functools.cache over _get_decoder_uncached (registry.py:347): a call
     without [strict] and a call with [strict=b] have different keys *)
  r_dcache : list ((pystr * option bool) * decoder)
}.

(** registry.py:343-347 *)
Definition new_registry : registry := mkRegistry empty_mapping empty_mapping [] [].

Definition set_ecache (r : registry) (c : list (pystr * encoder)) : registry :=
  mkRegistry (r_encs r) (r_decs r) c (r_dcache r).
Definition set_dcache (r : registry) (c : list ((pystr * option bool) * decoder)) : registry :=
  mkRegistry (r_encs r) (r_decs r) (r_ecache r) c.
Definition set_encs (r : registry) (m : mapping enc_reg) : registry :=
  mkRegistry m (r_decs r) (r_ecache r) (r_dcache r).
Definition set_decs (r : registry) (m : mapping dec_reg) : registry :=
  mkRegistry (r_encs r) m (r_ecache r) (r_dcache r).

Definition dkey_eqb (a b : pystr * option bool) : bool :=
  str_eqb (fst a) (fst b) && opt_bool_eqb (snd a) (snd b).

Fixpoint ecache_get (c : list (pystr * encoder)) (ts : pystr) : option encoder :=
  match c with
  | [] => None
  | (k, e) :: c' => if str_eqb k ts then Some e else ecache_get c' ts
  end.
Fixpoint dcache_get (c : list ((pystr * option bool) * decoder)) (k : pystr * option bool)
  : option decoder :=
  match c with
  | [] => None
  | (k', d) :: c' => if dkey_eqb k' k then Some d else dcache_get c' k
  end.

(** Stateful sequence of lookups: [tuple(registry.get_encoder(c) for c in cs)]. *)
Fixpoint sequenceM {S A B} (f : A -> S -> result B * S) (l : list A) (s : S)
  : result (list B) * S :=
  match l with
  | [] => (Ok [], s)
  | x :: l' =>
      match f x s with
      | (Err e, s1) => (Err e, s1)
      | (Ok y, s1) =>
          match sequenceM f l' s1 with
          | (Err e, s2) => (Err e, s2)
          | (Ok ys, s2) => (Ok (y :: ys), s2)
          end
      end
  end.

(** The from_type_str methods that recurse: encoding.py:155-161 (tuple),
    611-624 (array), 646-657 (packed array). [ge] is registry.get_encoder. *)
Definition enc_from_type_str {S} (ge : pystr -> S -> result encoder * S)
    (c : enc_class) (ts : pystr) (s : S) : result encoder * S :=
  match enc_leaf_from_type_str c ts with
  | Some r => (r, s)
  | None =>
      match c with
      | CTuple =>
          match parse_tuple_type_str ts with
          | Err e => (Err e, s)
          | Ok cs =>
              match sequenceM ge (map to_type_str cs) s with
              | (Err e, s1) => (Err e, s1)
              | (Ok es, s1) => (Ok (ETuple es), s1)
              end
          end
      | _ =>
          match (t <- parse_type_str None true ts ;; it <- item_type t ;; Ok (t, it)) with
          | Err e => (Err e, s)
          | Ok (t, it) =>
              match ge (to_type_str it) s with
              | (Err e, s1) => (Err e, s1)
              | (Ok ie, s1) =>
                  (match c, last (arrlist_of t) None with
                   | CPackedArray, n => Ok (EPackedArr n ie)
                   | _, Some n => mk_sized n ie
                   | _, None => Ok (EDyn ie)
                   end, s1)
              end
          end
      end
  end.

(** decoding.py:230-236 (tuple) and 286-299 (array) *)
Definition dec_from_type_str {S} (gd : pystr -> S -> result decoder * S)
    (c : dec_class) (ts : pystr) (s : S) : result decoder * S :=
  match dec_leaf_from_type_str c ts with
  | Some r => (r, s)
  | None =>
      match c with
      | CDTuple =>
          match parse_tuple_type_str ts with
          | Err e => (Err e, s)
          | Ok cs =>
              match sequenceM gd (map to_type_str cs) s with
              | (Err e, s1) => (Err e, s1)
              | (Ok ds, s1) => (Ok (mk_dtuple ds), s1)
              end
          end
      | _ =>
          match (t <- parse_type_str None true ts ;; it <- item_type t ;; Ok (t, it)) with
          | Err e => (Err e, s)
          | Ok (t, it) =>
              match gd (to_type_str it) s with
              | (Err e, s1) => (Err e, s1)
              | (Ok id, s1) =>
                  (match last (arrlist_of t) None with
                   | Some n => mk_dsized n id
                   | None => mk_ddyn id
                   end, s1)
              end
          end
      end
  end.

(** registry.py:346, 349-355, 455-456 get_encoder, with its cache.  Exceptions
    are not cached.  [fuel] bounds the nesting; [get_encoder] supplies enough
    (RegistryProofs.v). *)
Fixpoint get_encoder_fuel (fuel : nat) (ts : pystr) (r : registry) : result encoder * registry :=
  match ecache_get (r_ecache r) ts with
  | Some e => (Ok e, r)
  | None =>
      match fuel with
      | O => (Err OutOfFuel, r)
      | S f =>
          let '(res, r1) :=
            match base_get_registration (r_encs r) ts with
            | Err e => (Err e, r)
            | Ok (EInst e) => (Ok e, r)
            | Ok (EClass c) => enc_from_type_str (get_encoder_fuel f) c ts r
            end in
          match res with
          | Ok e => (Ok e, set_ecache r1 ((ts, e) :: r_ecache r1))
          | Err x => (Err x, r1)
          end
      end
  end.
Definition get_encoder (ts : pystr) (r : registry) : result encoder * registry :=
  get_encoder_fuel (S (length ts)) ts r.

(** registry.py:477-481: [decoder.strict = strict] on a dynamic decoder.  On a
    fresh instance this fixes its flag; on a registered instance it writes the
    shared cell; on tuple and array decoders it has no observable effect. *)
Definition set_strict (d : decoder) (b : bool) (h : heap) : decoder * heap :=
  match d with
  | DByteString (SConst _) => (DByteString (SConst b), h)
  | DByteString (SRef id) => (d, heap_set h id b)
  | DString (SConst _) hd => (DString (SConst b) hd, h)
  | DString (SRef id) _ => (d, heap_set h id b)
  | DCustom true (SConst _) f => (DCustom true (SConst b) f, h)
  | DCustom true (SRef id) _ => (d, heap_set h id b)
  | _ => (d, h)
  end.

(** A registry together with the strict flags of registered instances. *)
Definition world := (registry * heap)%type.

(** registry.py:347, 349-355, 474-483 get_decoder, with its cache; [k] is the
    [strict] keyword argument if given. *)
Fixpoint get_decoder_fuel (fuel : nat) (k : option bool) (ts : pystr) (w : world)
  : result decoder * world :=
  match dcache_get (r_dcache (fst w)) (ts, k) with
  | Some d => (Ok d, w)
  | None =>
      match fuel with
      | O => (Err OutOfFuel, w)
      | S f =>
          let '(res, w1) :=
            match base_get_registration (r_decs (fst w)) ts with
            | Err e => (Err e, w)
            | Ok (DInst d) => (Ok d, w)
            | Ok (DClass c) => dec_from_type_str (get_decoder_fuel f None) c ts w
            end in
          match res with
          | Err x => (Err x, w1)
          | Ok d =>
              let '(d', h') :=
                if dec_is_dyn d
                then set_strict d (match k with None => true | Some b => b end) (snd w1)
                else (d, snd w1) in
              (Ok d', (set_dcache (fst w1) (((ts, k), d') :: r_dcache (fst w1)), h'))
          end
      end
  end.
Definition get_decoder (k : option bool) (ts : pystr) (w : world) : result decoder * world :=
  get_decoder_fuel (S (length ts)) k ts w.

(** registry.py:458-472 has_encoder *)
Definition has_encoder (ts : pystr) (r : registry) : result bool * registry :=
  match get_encoder ts r with
  | (Ok _, r1) => (Ok true, r1)
  | (Err MultipleEntriesFound, r1) => (Err MultipleEntriesFound, r1)
  | (Err _, r1) => (Ok false, r1)
  end.

(** registry.py:280-295, 357-401: the cache is cleared, then the mapping is
    changed *)
Definition register_encoder (l : lookup) (v : enc_reg) (label : option pystr) (r : registry)
  : result unit * registry :=
  let r0 := set_ecache r [] in
  let '(res, m) := base_register (r_encs r0) l v label in (res, set_encs r0 m).
Definition unregister_encoder (l : lookup) (r : registry) : result unit * registry :=
  let r0 := set_ecache r [] in
  let '(res, m) := base_unregister (r_encs r0) l in (res, set_encs r0 m).
Definition register_decoder (l : lookup) (v : dec_reg) (label : option pystr) (r : registry)
  : result unit * registry :=
  let r0 := set_dcache r [] in
  let '(res, m) := base_register (r_decs r0) l v label in (res, set_decs r0 m).
Definition unregister_decoder (l : lookup) (r : registry) : result unit * registry :=
  let r0 := set_dcache r [] in
  let '(res, m) := base_unregister (r_decs r0) l in (res, set_decs r0 m).

(** registry.py:403-445 register *)
Definition register (l : lookup) (e : enc_reg) (d : dec_reg) (label : option pystr) (r : registry)
  : result unit * registry :=
  match register_encoder l e label r with
  | (Ok _, r1) => register_decoder l d label r1
  | (Err x, r1) => (Err x, r1)
  end.
(** registry.py:447-453 unregister *)
Definition unregister (l : lookup) (r : registry) : result unit * registry :=
  match unregister_encoder l r with
  | (Ok _, r1) => unregister_decoder l r1
  | (Err x, r1) => (Err x, r1)
  end.

(** registry.py:485-499 copy: fresh caches *)
Definition copy_registry (r : registry) : registry :=
  mkRegistry (m_copy (r_encs r)) (m_copy (r_decs r)) [] [].

(** ** The module-level registries *)

Definition be (base : pystr) (ws : option bool) (id : N) : lookup :=
  LPred (mkPred (KBaseEquals base ws) (Some id)).
Definition l_has_arrlist : lookup := LPred (mkPred KHasArrlist (Some 100%N)).
Definition l_is_base_tuple : lookup := LPred (mkPred KIsBaseTuple (Some 101%N)).

(** registry.py:504-575: the arguments of the registry.register calls, in order *)
Definition default_registrations : list (lookup * enc_class * dec_class * pystr) :=
  [ (be (lit "uint") None 1, CUInt, CDUInt, lit "uint");
    (be (lit "int") None 2, CInt, CDInt, lit "int");
    (be (lit "address") None 3, CAddr, CDAddr, lit "address");
    (be (lit "bool") None 4, CBool, CDBool, lit "bool");
    (be (lit "ufixed") None 5, CUFixed, CDUFixed, lit "ufixed");
    (be (lit "fixed") None 6, CFixed, CDFixed, lit "fixed");
    (be (lit "bytes") (Some true) 7, CBytesM, CDBytesM, lit "bytes<M>");
    (be (lit "bytes") (Some false) 8, CByteString, CDByteString, lit "bytes");
    (be (lit "function") None 9, CBytesM, CDBytesM, lit "function");
    (be (lit "string") None 10, CText, CDString, lit "string");
    (l_has_arrlist, CBaseArray, CDBaseArray, lit "has_arrlist");
    (l_is_base_tuple, CTuple, CDTuple, lit "is_base_tuple") ].

(** registry.py:579-638: registry_packed.register_encoder calls *)
Definition packed_registrations : list (lookup * enc_class * pystr) :=
  [ (be (lit "uint") None 21, CPackedUInt, lit "uint");
    (be (lit "int") None 22, CPackedInt, lit "int");
    (be (lit "address") None 23, CPackedAddr, lit "address");
    (be (lit "bool") None 24, CPackedBool, lit "bool");
    (be (lit "ufixed") None 25, CPackedUFixed, lit "ufixed");
    (be (lit "fixed") None 26, CPackedFixed, lit "fixed");
    (be (lit "bytes") (Some true) 27, CPackedBytesM, lit "bytes<M>");
    (be (lit "bytes") (Some false) 28, CPackedByteString, lit "bytes");
    (be (lit "function") None 29, CPackedBytesM, lit "function");
    (be (lit "string") None 30, CPackedText, lit "string");
    (l_has_arrlist, CPackedArray, lit "has_arrlist");
    (l_is_base_tuple, CTuple, lit "is_base_tuple") ].

(** registry.py:502-575 *)
Definition default_registry : registry :=
  fold_left (fun r x => let '(l, e, d, lab) := x in
                        snd (register l (EClass e) (DClass d) (Some lab) r))
            default_registrations new_registry.

(** registry.py:577-638 *)
Definition registry_packed : registry :=
  fold_left (fun r x => let '(l, e, lab) := x in
                        snd (register_encoder l (EClass e) (Some lab) r))
            packed_registrations new_registry.
