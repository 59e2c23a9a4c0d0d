(** Registry calls as programs made of atomic steps, and their interleavings.

    A step is one access to shared state: one lookup, store or clear of a
    functools.cache, one operation on a dict of a PredicateMapping, one item of
    a loop over such a dict, one write of a strict flag.  Simplifications: the
    search of a dict for a key, which may call __hash__ and __eq__ of user
    predicates, is one step, and so is decoding; a loop over a dict that has the
    size it began with goes on with the item at the next place (CPython: at the
    next slot, which is a different item if entries were removed and others
    added meanwhile). *)
From Coq Require Import Strings.String.
From Verif Require Import Py Grammar Bytes Encoding Decoding Registry Codec Histories.
Open Scope Z_scope.

Inductive prog (A : Type) : Type :=
| Ret (a : A)
| Step {X : Type} (f : world -> X * world) (k : X -> prog A).
Arguments Ret {A} _.
Arguments Step {A X} _ _.

Fixpoint pbind {A B} (p : prog A) (f : A -> prog B) : prog B :=
  match p with
  | Ret a => f a
  | Step s k => Step s (fun x => pbind (k x) f)
  end.
(** Running a program with no other thread in between. *)
Fixpoint exec {A} (p : prog A) (w : world) : A * world :=
  match p with
  | Ret a => (a, w)
  | Step s k => let '(x, w') := s w in exec (k x) w'
  end.
Fixpoint pseq {A B} (g : A -> prog (result B)) (l : list A) : prog (result (list B)) :=
  match l with
  | [] => Ret (Ok [])
  | x :: l' =>
      pbind (g x) (fun r => match r with
      | Err e => Ret (Err e)
      | Ok y => pbind (pseq g l') (fun r => match r with Err e => Ret (Err e) | Ok ys => Ret (Ok (y :: ys)) end)
      end)
  end.
Definition on_reg {X} (f : registry -> X * registry) (w : world) : X * world := let '(x, r) := f (fst w) in (x, (r, snd w)).
Definition look {X} (f : registry -> X) (w : world) : X * world := (f (fst w), w).

(** ** Lookups *)

(** The from_type_str methods (encoding.py:155-161, 611-624, 646-657;
    decoding.py:230-236, 286-299) as the lookups they make and what they build
    from the results; ThreadProofs.v shows this is enc_from_type_str and
    dec_from_type_str of Registry.v. *)
Definition enc_plan (c : enc_class) (ts : pystr) : result (list pystr * (list encoder -> result encoder)) :=
  match enc_leaf_from_type_str c ts with
  | Some r => Ok ([], fun _ => r)
  | None =>
      match c with
      | CTuple => cs <- parse_tuple_type_str ts ;; Ok (map to_type_str cs, fun es => Ok (ETuple es))
      | _ =>
          ' (t, it) <- (t <- parse_type_str None true ts ;; it <- item_type t ;; Ok (t, it)) ;;
          Ok ([to_type_str it], fun es => match es with
            | [ie] => match c, last (arrlist_of t) None with
                      | CPackedArray, n => Ok (EPackedArr n ie)
                      | _, Some n => mk_sized n ie
                      | _, None => Ok (EDyn ie)
                      end
            | _ => Err OutOfFuel
            end)
      end
  end.
Definition dec_plan (c : dec_class) (ts : pystr) : result (list pystr * (list decoder -> result decoder)) :=
  match dec_leaf_from_type_str c ts with
  | Some r => Ok ([], fun _ => r)
  | None =>
      match c with
      | CDTuple => cs <- parse_tuple_type_str ts ;; Ok (map to_type_str cs, fun ds => Ok (mk_dtuple ds))
      | _ =>
          ' (t, it) <- (t <- parse_type_str None true ts ;; it <- item_type t ;; Ok (t, it)) ;;
          Ok ([to_type_str it], fun ds => match ds with
            | [id] => match last (arrlist_of t) None with Some n => mk_dsized n id | None => mk_ddyn id end
            | _ => Err OutOfFuel
            end)
      end
  end.

(** ** The dicts of a mapping *)
Section Mapping.
Context {V : Type} (get : registry -> mapping V) (set : registry -> mapping V -> registry).
(** Iteration over [_values.items()] (registry.py:81-85) from place [i] on; a
    dict of another size than at the beginning raises RuntimeError *)
Fixpoint p_scan (ts : pystr) (n todo i : nat) (found : list V) : prog (outcome (list V)) :=
  Step (look (fun r => (length (m_values (get r)), nth_error (m_values (get r)) i))) (fun '(n', x) =>
  if Nat.eqb n' n then
    match todo, x with
    | S todo', Some (p, v) =>
        match pred_call p ts with
        | Raised e says => Ret (Raised e says)
        | Done b => p_scan ts n todo' (S i) (if b then found ++ [v] else found)
        end
    | _, _ => Ret (Done found)
    end
  else Ret (Raised RuntimeError (Ok false))).
(** registry.py:80-105 *)
Definition p_find (ts : pystr) : prog (outcome V) :=
  Step (look (fun r => length (m_values (get r)))) (fun n =>
  pbind (p_scan ts n n 0 []) (fun r => Ret (chosen ts r))).
(** registry.py:328-339 *)
Definition p_get_registration (ts : pystr) : prog (result V) :=
  pbind (p_find ts) (fun r => Ret (reparsed ts r)).

(** [d[k] = v] *)
Definition put_value (p : pred) (v : V) (m : mapping V) : mapping V :=
  mkMapping (if has_pred m p then map (fun pv => if pred_eqb (fst pv) p then (fst pv, v) else pv) (m_values m) else m_values m ++ [(p, v)]) (m_labels m).
Definition put_label (l : pystr) (p : pred) (m : mapping V) : mapping V :=
  mkMapping (m_values m) (if has_label m l then map (fun lp => if str_eqb (fst lp) l then (fst lp, p) else lp) (m_labels m) else m_labels m ++ [(l, p)]).
(** [del d[k]] *)
Definition drop_value (p : pred) (m : mapping V) : result unit * mapping V :=
  if has_pred m p then (Ok tt, mkMapping (del_value m p) (m_labels m)) else (Err KeyError, m).
Definition drop_label (l : pystr) (m : mapping V) : result unit * mapping V :=
  if has_label m l then (Ok tt, mkMapping (m_values m) (del_label m l)) else (Err KeyError, m).
Definition p_put (f : mapping V -> mapping V) : world -> unit * world := on_reg (fun r => (tt, set r (f (get r)))).
Definition p_del (f : mapping V -> result unit * mapping V) : world -> result unit * world :=
  on_reg (fun r => let '(res, m) := f (get r) in (res, set r m)).
(** registry.py:63-78 *)
Definition p_add (p : pred) (v : V) (label : option pystr) : prog (result unit) :=
  Step (look (fun r => has_pred (get r) p)) (fun taken : bool =>
  if taken then Ret (Err ValueError)
  else match label with
       | None => Step (p_put (put_value p v)) (fun _ => Ret (Ok tt))
       | Some l =>
           Step (look (fun r => has_label (get r) l)) (fun taken : bool =>
           if taken then Ret (Err ValueError)
           else Step (p_put (put_label l p)) (fun _ => Step (p_put (put_value p v)) (fun _ => Ret (Ok tt))))
       end).
(** registry.py:122-131 _label_for_predicate: the loop *)
Fixpoint p_label_for (p : pred) (n todo i : nat) : prog (result (option pystr)) :=
  Step (look (fun r => (length (m_labels (get r)), nth_error (m_labels (get r)) i))) (fun '(n', x) =>
  if Nat.eqb n' n then
    match todo, x with
    | S todo', Some (l, q) => if pred_is q p then Ret (Ok (Some l)) else p_label_for p n todo' (S i)
    | _, _ => Ret (Ok None)
    end
  else Ret (Err RuntimeError)).
(** registry.py:107-120 *)
Definition p_remove_by_equality (p : pred) : prog (result unit) :=
  Step (p_del (drop_value p)) (fun r => match r with
  | Err e => Ret (Err e)
  | Ok _ =>
      Step (look (fun r => length (m_labels (get r)))) (fun n =>
      pbind (p_label_for p n n 0) (fun r => match r with
      | Err e => Ret (Err e)
      | Ok None => Ret (Ok tt)
      | Ok (Some l) => Step (p_del (drop_label l)) (fun r => Ret r)
      end))
  end).
(** registry.py:133-140 *)
Definition p_remove_by_label (l : pystr) : prog (result unit) :=
  Step (look (fun r => find (fun lp => str_eqb (fst lp) l) (m_labels (get r)))) (fun x => match x with
  | None => Ret (Err KeyError)
  | Some (_, p) => Step (p_del (drop_label l)) (fun r => match r with
      | Err e => Ret (Err e)
      | Ok _ => Step (p_del (drop_value p)) (fun r => Ret r)
      end)
  end).
(** registry.py:299-326 *)
Definition p_register (l : lookup) (v : V) (label : option pystr) : prog (result unit) :=
  match l with
  | LPred p => p_add p v label
  | LStr s => p_add (mkPred (KEquals s) None) v (Some s)
  | LOther => Ret (Err TypeError)
  end.
Definition p_unregister (l : lookup) : prog (result unit) :=
  match l with
  | LPred p => p_remove_by_equality p
  | LStr s => p_remove_by_label s
  | LOther => Ret (Err TypeError)
  end.
End Mapping.

(** functools.cache (registry.py:346): look in the cache; on a miss call
    _get_encoder_uncached (registry.py:349-355, 455-456), then store *)
Fixpoint p_get_encoder_fuel (fuel : nat) (ts : pystr) : prog (result encoder) :=
  Step (look (fun r => ecache_get (r_ecache r) ts)) (fun hit =>
  match hit, fuel with
  | Some e, _ => Ret (Ok e)
  | None, O => Ret (Err OutOfFuel)
  | None, S f =>
      pbind (p_get_registration r_encs ts) (fun reg =>
      pbind (match reg with
             | Err e => Ret (Err e)
             | Ok (EInst e) => Ret (Ok e)
             | Ok (EClass c) =>
                 match enc_plan c ts with
                 | Err e => Ret (Err e)
                 | Ok (l, build) => pbind (pseq (p_get_encoder_fuel f) l) (fun r => match r with Err e => Ret (Err e) | Ok es => Ret (build es) end)
                 end
             end) (fun res =>
      match res with
      | Err x => Ret (Err x)
      | Ok e => Step (on_reg (fun r => (tt, set_ecache r ((ts, e) :: r_ecache r)))) (fun _ => Ret (Ok e))
      end))
  end).
Definition p_get_encoder (ts : pystr) : prog (result encoder) := p_get_encoder_fuel (S (length ts)) ts.

(** registry.py:347, 349-355, 474-483: as above, with the write of the strict
    flag before the store *)
Fixpoint p_get_decoder_fuel (fuel : nat) (k : option bool) (ts : pystr) : prog (result decoder) :=
  Step (look (fun r => dcache_get (r_dcache r) (ts, k))) (fun hit =>
  match hit, fuel with
  | Some d, _ => Ret (Ok d)
  | None, O => Ret (Err OutOfFuel)
  | None, S f =>
      pbind (p_get_registration r_decs ts) (fun reg =>
      pbind (match reg with
             | Err e => Ret (Err e)
             | Ok (DInst d) => Ret (Ok d)
             | Ok (DClass c) =>
                 match dec_plan c ts with
                 | Err e => Ret (Err e)
                 | Ok (l, build) => pbind (pseq (p_get_decoder_fuel f None) l) (fun r => match r with Err e => Ret (Err e) | Ok ds => Ret (build ds) end)
                 end
             end) (fun res =>
      match res with
      | Err x => Ret (Err x)
      | Ok d =>
          Step (fun w => let '(d', h) := if dec_is_dyn d then set_strict d (match k with None => true | Some b => b end) (snd w) else (d, snd w) in
                         (d', (fst w, h))) (fun d' =>
          Step (on_reg (fun r => (tt, set_dcache r (((ts, k), d') :: r_dcache r)))) (fun _ => Ret (Ok d')))
      end))
  end).
Definition p_get_decoder (k : option bool) (ts : pystr) : prog (result decoder) := p_get_decoder_fuel (S (length ts)) k ts.

(** registry.py:458-472 *)
Definition p_has_encoder (ts : pystr) : prog (result bool) :=
  pbind (p_get_encoder ts) (fun r => Ret (match r with Ok _ => Ok true | Err MultipleEntriesFound => Err MultipleEntriesFound | Err _ => Ok false end)).

(** ** codec.py *)
Definition p_get_encoder_py (t : pyval) : prog (result encoder) := match t with PStr s => p_get_encoder s | _ => Ret (Err TypeError) end.
Definition p_get_decoder_py (k : option bool) (t : pyval) : prog (result decoder) := match t with PStr s => p_get_decoder k s | _ => Ret (Err TypeError) end.
(** codec.py:55-76 *)
Definition p_encode (types args : pyval) : prog (result bytes) :=
  match validate_list_like_param types, validate_list_like_param args with
  | Err e, _ => Ret (Err e)
  | _, Err e => Ret (Err e)
  | Ok ts, Ok _ => pbind (pseq p_get_encoder_py ts) (fun r => match r with Err e => Ret (Err e) | Ok es => Ret (encode_with (ETuple es) args) end)
  end.
(** codec.py:108-120 *)
Definition p_is_encodable_type (typ : pyval) : prog (result bool) := match typ with PStr s => p_has_encoder s | _ => Ret (Ok false) end.
(** codec.py:78-106 *)
Definition p_is_encodable (typ arg : pyval) : prog (result bool) :=
  pbind (p_is_encodable_type typ) (fun r => match r with
  | Err e => Ret (Err e)
  | Ok false => Ret (Ok false)
  | Ok true => pbind (p_get_encoder_py typ) (fun r => match r with Err e => Ret (Err e) | Ok e => Ret (check_encodable e arg) end)
  end).
(** codec.py:130-163 *)
Definition p_decode (types data : pyval) (strict : bool) : prog (result pyval) :=
  match validate_list_like_param types, validate_bytes_param data with
  | Err e, _ => Ret (Err e)
  | _, Err e => Ret (Err e)
  | Ok ts, Ok b =>
      pbind (pseq (p_get_decoder_py (Some strict)) ts) (fun r => match r with
      | Err e => Ret (Err e)
      | Ok ds => Step (fun w => (' (v, _) <- decode_with (snd w) (mk_dtuple ds) b new_stream ;; Ok v, w)) (fun v => Ret v)
      end)
  end.

(** ** Updates: registry.py:280-295 clears the cache, then calls the method
    (registry.py:357-401) *)
Definition p_clear_e : world -> unit * world := on_reg (fun r => (tt, set_ecache r [])).
Definition p_clear_d : world -> unit * world := on_reg (fun r => (tt, set_dcache r [])).
Definition p_update_e (p : prog (result unit)) : prog (result unit) := Step p_clear_e (fun _ => p).
Definition p_update_d (p : prog (result unit)) : prog (result unit) := Step p_clear_d (fun _ => p).
(** registry.py:403-453 *)
Definition p_both p q : prog (result unit) := pbind (p_update_e p) (fun r => match r with Err e => Ret (Err e) | Ok _ => p_update_d q end).

Definition prog_of (o : op) : prog answer :=
  let out {A} (c : A -> answer) (p : prog A) := pbind p (fun a => Ret (c a)) in
  match o with
  | ORegisterEncoder l v label => out ADone (p_update_e (p_register r_encs set_encs l v label))
  | OUnregisterEncoder l => out ADone (p_update_e (p_unregister r_encs set_encs l))
  | ORegisterDecoder l v label => out ADone (p_update_d (p_register r_decs set_decs l v label))
  | OUnregisterDecoder l => out ADone (p_update_d (p_unregister r_decs set_decs l))
  | ORegister l e d label => out ADone (p_both (p_register r_encs set_encs l e label) (p_register r_decs set_decs l d label))
  | OUnregister l => out ADone (p_both (p_unregister r_encs set_encs l) (p_unregister r_decs set_decs l))
  | OGetEncoder ts => out AEncoder (p_get_encoder ts)
  | OHasEncoder ts => out ABool (p_has_encoder ts)
  | OGetDecoder k ts => out ADecoder (p_get_decoder k ts)
  | OEncode types args => out ABytes (p_encode types args)
  | OIsEncodable typ arg => out ABool (p_is_encodable typ arg)
  | OIsEncodableType typ => out ABool (p_is_encodable_type typ)
  | ODecode types data strict => out AValue (p_decode types data strict)
  end.

(** ** Threads *)

(** A thread makes calls one after the other; its result is their answers. *)
Fixpoint thread (ops : list op) : prog (list answer) :=
  match ops with
  | [] => Ret []
  | o :: ops' => pbind (prog_of o) (fun a => pbind (thread ops') (fun l => Ret (a :: l)))
  end.
(** Several threads and the state they share. *)
Definition pool := (list (prog (list answer)) * world)%type.
Fixpoint step_at {A} (i : nat) (l : list (prog A)) (w : world) {struct l} : list (prog A) * world :=
  match l, i with
  | [], _ => ([], w)
  | Step s k :: l', O => let '(x, w') := s w in (k x :: l', w')
  | Ret a :: l', O => (Ret a :: l', w)
  | p :: l', S i' => let '(l'', w') := step_at i' l' w in (p :: l'', w')
  end.
(** A schedule says which thread moves next. *)
Definition schedule (sched : list nat) (c : pool) : pool := fold_left (fun c i => step_at i (fst c) (snd c)) sched c.
Definition start_threads (ts : list (list op)) (w : world) : pool := (map thread ts, w).
(** Thread [i] has finished with these answers. *)
Definition finished (c : pool) (i : nat) (l : list answer) : Prop := nth_error (fst c) i = Some (Ret l).

(** Calls that touch the encoder or the decoder registrations. *)
Definition changes_encoders (o : op) : bool :=
  match o with ORegisterEncoder _ _ _ | OUnregisterEncoder _ | ORegister _ _ _ _ | OUnregister _ => true | _ => false end.
Definition changes_decoders (o : op) : bool :=
  match o with ORegisterDecoder _ _ _ | OUnregisterDecoder _ | ORegister _ _ _ _ | OUnregister _ => true | _ => false end.
Definition uses_encoders (o : op) : bool :=
  match o with OGetEncoder _ | OHasEncoder _ | OEncode _ _ | OIsEncodable _ _ | OIsEncodableType _ => true | _ => false end.
Definition uses_decoders (o : op) : bool := match o with OGetDecoder _ _ | ODecode _ _ _ => true | _ => false end.
