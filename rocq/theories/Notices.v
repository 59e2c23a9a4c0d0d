(** What the exceptions of the registry say.

    The functions of Registry.v again, but a failure carries what goes into the
    message of the exception: which table, which matchers, which label or type.
    NoticeProofs.v shows that they give the same results. *)
From Coq Require Import Strings.String.
From Verif Require Import Py Bytes Utf8 Grammar Encoding Decoding Registry.
Open Scope Z_scope.

(** [_name] of the two PredicateMappings (registry.py:344-345): "encoder
    registry" and "decoder registry" *)
Inductive table := Encoders | Decoders.
(** What base.py says is wrong with a type *)
Inductive trouble :=
(* base.py:34-38 "non-basic type" *)
| NotBasic
(* base.py:41-48 "expected type with base '...'" *)
| NotBase (expected : pystr)
(* base.py:51-57 "expected type with no array dimension list" *)
| HasDims
(* base.py:59-65 "expected type with array dimension list" *)
| LacksDims
(* base.py:97-102 "non-tuple type" *)
| NotTuple.
Inductive notice :=
(* registry.py:65-67 "Matcher {p} already exists in {t}" *)
| MatcherTaken (t : table) (p : pred)
(* registry.py:71-74 "Matcher {p} with label '{l}' already exists in {t}" *)
| LabelTaken (t : table) (p : pred) (l : pystr)
(* registry.py:88-90 "No matching entries for '{ts}' in {t}" *)
| NoMatch (t : table) (ts : pystr)
(* registry.py:95-103 "Multiple matching entries for '{ts}' in {t}: {ps}. ..." *)
| ManyMatch (t : table) (ts : pystr) (ps : list pred)
(* registry.py:112 "Matcher {p} not found in {t}" *)
| MatcherMissing (t : table) (p : pred)
(* registry.py:137 "Label '{l}' not found in {t}" *)
| LabelMissing (t : table) (l : pystr)
(* registry.py:309-311, 323-326 "... must be a callable or a value of type `str`" *)
| WrongLookup
(* base.py:25-30 "Cannot create {cls} for type {ts} (normalized to {normal}): ..." *)
| Misfit (cls : string) (ts : pystr) (normal : option pystr) (why : trouble)
(* exceptions raised elsewhere: by the parser, validate, constructors, matchers and coders
   of the user, and the bare KeyError of registry.py:140 *)
| Other (e : exc).
Definition exc_of (n : notice) : exc :=
  match n with
  | MatcherTaken _ _ | LabelTaken _ _ _ | Misfit _ _ _ _ => ValueError
  | NoMatch _ _ => NoEntriesFound
  | ManyMatch _ _ _ => MultipleEntriesFound
  | MatcherMissing _ _ | LabelMissing _ _ => KeyError
  | WrongLookup => TypeError
  | Other e => e
  end.

Inductive noted (A : Type) := Fine (a : A) | Note (n : notice).
Arguments Fine {A}. Arguments Note {A}.
Definition nbind {A B} (m : noted A) (f : A -> noted B) : noted B := match m with Fine a => f a | Note n => Note n end.
Notation "x <~ m ;; f" := (nbind m (fun x => f)) (at level 61, m at next level, right associativity).
Notation "' p <~ m ;; f" := (nbind m (fun p => f)) (at level 61, p pattern, m at next level, right associativity).
Notation "m ;~ f" := (nbind m (fun _ => f)) (at level 61, right associativity).
Definition quietly {A} (r : result A) : noted A := match r with Ok a => Fine a | Err e => Note (Other e) end.
(** The exception alone. *)
Definition unread {A} (m : noted A) : result A := match m with Fine a => Ok a | Note n => Err (exc_of n) end.
Definition unread_at {A S} (x : noted A * S) : result A * S := (unread (fst x), snd x).

(** ** PredicateMapping; [t] is its name *)
Section Mapping.
Context {V : Type} (t : table).
(** registry.py:63-78 *)
Definition add_noted (m : mapping V) (p : pred) (v : V) (label : option pystr) : noted unit * mapping V :=
  if has_pred m p then (Note (MatcherTaken t p), m)
  else
    match label with
    | Some l =>
        if has_label m l then (Note (LabelTaken t p l), m)
        else (Fine tt, mkMapping (m_values m ++ [(p, v)]) (m_labels m ++ [(l, p)]))
    | None => (Fine tt, mkMapping (m_values m ++ [(p, v)]) (m_labels m))
    end.
(** registry.py:81-85 *)
Fixpoint scan_noted (l : list (pred * V)) (ts : pystr) : outcome (list (pred * V)) :=
  match l with
  | [] => Done []
  | (p, v) :: l' =>
      match pred_call p ts with
      | Raised e says => Raised e says
      | Done b =>
          match scan_noted l' ts with
          | Raised e says => Raised e says
          | Done found => Done (if b then (p, v) :: found else found)
          end
      end
  end.
(** registry.py:80-105: the value, or the notice and the answer of the test
    ["No matching" in e.args[0]] *)
Definition find_noted (m : mapping V) (ts : pystr) : V + notice * result bool :=
  match scan_noted (m_values m) ts with
  | Raised e says => inr (Other e, says)
  | Done [] => inr (NoMatch t ts, Ok true)
  | Done [(_, v)] => inl v
  | Done found => inr (ManyMatch t ts (map fst found), Ok (contains (lit "No matching") ts))
  end.
(** registry.py:107-131 *)
Definition remove_by_equality_noted (m : mapping V) (p : pred) : noted unit * mapping V :=
  if has_pred m p then
    let values := del_value m p in
    match find (fun lp => pred_is (snd lp) p) (m_labels m) with
    | Some (l, _) => (Fine tt, mkMapping values (del_label m l))
    | None => (Fine tt, mkMapping values (m_labels m))
    end
  else (Note (MatcherMissing t p), m).
(** registry.py:133-140 *)
Definition remove_by_label_noted (m : mapping V) (l : pystr) : noted unit * mapping V :=
  match find (fun lp => str_eqb (fst lp) l) (m_labels m) with
  | None => (Note (LabelMissing t l), m)
  | Some (_, p) =>
      let m1 := mkMapping (m_values m) (del_label m l) in
      if has_pred m1 p then (Fine tt, mkMapping (del_value m1 p) (m_labels m1))
      else (Note (Other KeyError), m1)
  end.
(** registry.py:299-326 *)
Definition register_noted_in (m : mapping V) (l : lookup) (v : V) (label : option pystr) : noted unit * mapping V :=
  match l with
  | LPred p => add_noted m p v label
  | LStr s => add_noted m (mkPred (KEquals s) None) v (Some s)
  | LOther => (Note WrongLookup, m)
  end.
Definition unregister_noted_in (m : mapping V) (l : lookup) : noted unit * mapping V :=
  match l with
  | LPred p => remove_by_equality_noted m p
  | LStr s => remove_by_label_noted m s
  | LOther => (Note WrongLookup, m)
  end.
(** registry.py:328-339 *)
Definition get_registration_noted (m : mapping V) (ts : pystr) : noted V :=
  match find_noted m ts with
  | inl v => Fine v
  | inr (n, says) =>
      if is_value_error (exc_of n)
      then b <~ quietly says ;; (if b then quietly (parse ts) ;~ Note n else Note n)
      else Note n
  end.
End Mapping.

(** ** base.py *)

(** base.py:25-30 type_str_repr *)
Definition misfit {A} (cls : string) (ts : pystr) (why : trouble) : noted A :=
  Note (Misfit cls ts (if str_eqb ts (normalize ts) then None else Some (normalize ts)) why).
(** base.py:11-74 parse_type_str *)
Definition checked (cls : string) (expected_base : option pystr) (with_arrlist : bool) (ts : pystr) : noted abi_type :=
  t <~ quietly (parse (normalize ts)) ;;
  (match expected_base with
   | None => Fine tt
   | Some b =>
       match t with
       | Tup _ _ => misfit cls ts NotBasic
       | Basic base _ _ => if negb (str_eqb base b) then misfit cls ts (NotBase b) else Fine tt
       end
   end) ;~
  let has_arr := match arrlist_of t with [] => false | _ => true end in
  (if negb with_arrlist && has_arr then misfit cls ts HasDims else Fine tt) ;~
  (if with_arrlist && negb has_arr then misfit cls ts LacksDims else Fine tt) ;~
  quietly (validate_type t) ;~
  Fine t.
(** base.py:77-108 parse_tuple_type_str *)
Definition checked_tuple (cls : string) (ts : pystr) : noted (list abi_type) :=
  t <~ quietly (parse (normalize ts)) ;;
  match t with
  | Basic _ _ _ => misfit cls ts NotTuple
  | Tup cs _ => quietly (validate_type t) ;~ Fine cs
  end.

(** ** from_type_str *)

(** [cls.__name__] *)
Definition enc_name (c : enc_class) : string :=
  match c with
  | CUInt => "UnsignedIntegerEncoder"
  | CInt => "SignedIntegerEncoder"
  | CBool => "BooleanEncoder"
  | CAddr => "AddressEncoder"
  | CUFixed => "UnsignedFixedEncoder"
  | CFixed => "SignedFixedEncoder"
  | CBytesM => "BytesEncoder"
  | CByteString => "ByteStringEncoder"
  | CText => "TextStringEncoder"
  | CPackedUInt => "PackedUnsignedIntegerEncoder"
  | CPackedInt => "PackedSignedIntegerEncoder"
  | CPackedBool => "PackedBooleanEncoder"
  | CPackedAddr => "PackedAddressEncoder"
  | CPackedUFixed => "PackedUnsignedFixedEncoder"
  | CPackedFixed => "PackedSignedFixedEncoder"
  | CPackedBytesM => "PackedBytesEncoder"
  | CPackedByteString => "PackedByteStringEncoder"
  | CPackedText => "PackedTextStringEncoder"
  | CTuple => "TupleEncoder"
  | CBaseArray => "BaseArrayEncoder"
  | CPackedArray => "PackedArrayEncoder"
  | CUserEnc _ => ""
  end.

Definition dec_name (c : dec_class) : string :=
  match c with
  | CDUInt => "UnsignedIntegerDecoder"
  | CDInt => "SignedIntegerDecoder"
  | CDBool => "BooleanDecoder"
  | CDAddr => "AddressDecoder"
  | CDUFixed => "UnsignedFixedDecoder"
  | CDFixed => "SignedFixedDecoder"
  | CDBytesM => "BytesDecoder"
  | CDByteString => "ByteStringDecoder"
  | CDString => "StringDecoder"
  | CDTuple => "TupleDecoder"
  | CDBaseArray => "BaseArrayDecoder"
  | CUserDec _ => ""
  end.

Definition enc_leaf_noted (c : enc_class) (ts : pystr) : option (noted encoder) :=
  let cls := enc_name c in
  match c with
  | CUInt =>          (* encoding.py:283-285 *)
      Some (t <~ checked cls (Some (lit "uint")) false ts ;; n <~ quietly (sub_int t) ;; quietly (mk_uint n 32))
  | CPackedUInt =>    (* encoding.py:292-297 *)
      Some (t <~ checked cls (Some (lit "uint")) false ts ;; n <~ quietly (sub_int t) ;; quietly (mk_uint n (n / 8)))
  | CInt =>           (* encoding.py:318-320 *)
      Some (t <~ checked cls (Some (lit "int")) false ts ;; n <~ quietly (sub_int t) ;; quietly (mk_sint n 32))
  | CPackedInt =>     (* encoding.py:324-329 *)
      Some (t <~ checked cls (Some (lit "int")) false ts ;; n <~ quietly (sub_int t) ;; quietly (mk_sint n (n / 8)))
  | CBool =>          (* encoding.py:231-233 *)
      Some (checked cls (Some (lit "bool")) false ts ;~ Fine (EBool 32))
  | CPackedBool =>    (* encoding.py:231-237 *)
      Some (checked cls (Some (lit "bool")) false ts ;~ Fine (EBool 1))
  | CAddr =>          (* encoding.py:465-467 *)
      Some (checked cls (Some (lit "address")) false ts ;~ Fine (EAddr 32))
  | CPackedAddr =>    (* encoding.py:465-471 *)
      Some (checked cls (Some (lit "address")) false ts ;~ Fine (EAddr 20))
  | CUFixed =>        (* encoding.py:381-388 *)
      Some (t <~ checked cls (Some (lit "ufixed")) false ts ;;
            ' (n, f) <~ quietly (sub_pair t) ;; quietly (mk_ufixed n f 32))
  | CPackedUFixed =>  (* encoding.py:392-400 *)
      Some (t <~ checked cls (Some (lit "ufixed")) false ts ;;
            ' (n, f) <~ quietly (sub_pair t) ;; quietly (mk_ufixed n f (n / 8)))
  | CFixed =>         (* encoding.py:427-434 *)
      Some (t <~ checked cls (Some (lit "fixed")) false ts ;;
            ' (n, f) <~ quietly (sub_pair t) ;; quietly (mk_sfixed n f 32))
  | CPackedFixed =>   (* encoding.py:438-446 *)
      Some (t <~ checked cls (Some (lit "fixed")) false ts ;;
            ' (n, f) <~ quietly (sub_pair t) ;; quietly (mk_sfixed n f (n / 8)))
  | CBytesM =>        (* encoding.py:493-495 *)
      Some (t <~ checked cls (Some (lit "bytes")) false ts ;; n <~ quietly (sub_int t) ;; quietly (mk_bytesM (n * 8) 32))
  | CPackedBytesM =>  (* encoding.py:499-504 *)
      Some (t <~ checked cls (Some (lit "bytes")) false ts ;; n <~ quietly (sub_int t) ;; quietly (mk_bytesM (n * 8) n))
  | CByteString =>    (* encoding.py:525-527 *)
      Some (checked cls (Some (lit "bytes")) false ts ;~ Fine (EByteString false))
  | CPackedByteString => (* encoding.py:525-536 *)
      Some (checked cls (Some (lit "bytes")) false ts ;~ Fine (EByteString true))
  | CText =>          (* encoding.py:559-561 *)
      Some (checked cls (Some (lit "string")) false ts ;~ Fine (EText false))
  | CPackedText =>    (* encoding.py:559-570 *)
      Some (checked cls (Some (lit "string")) false ts ;~ Fine (EText true))
  | CUserEnc f => Some (quietly (f ts))
  | CTuple | CBaseArray | CPackedArray => None
  end.

Definition dec_leaf_noted (c : dec_class) (ts : pystr) : option (noted decoder) :=
  let cls := dec_name c in
  match c with
  | CDUInt =>       (* decoding.py:466-468 *)
      Some (t <~ checked cls (Some (lit "uint")) false ts ;; n <~ quietly (sub_int t) ;; quietly (mk_duint n))
  | CDInt =>        (* decoding.py:501-503 *)
      Some (t <~ checked cls (Some (lit "int")) false ts ;; n <~ quietly (sub_int t) ;; quietly (mk_dint n))
  | CDBool =>       (* decoding.py:444-446 *)
      Some (checked cls (Some (lit "bool")) false ts ;~ Fine DBool)
  | CDAddr =>       (* decoding.py:454-456 *)
      Some (checked cls (Some (lit "address")) false ts ;~ Fine DAddr)
  | CDUFixed =>     (* decoding.py:544-548 *)
      Some (t <~ checked cls (Some (lit "ufixed")) false ts ;;
            ' (n, f) <~ quietly (sub_pair t) ;; quietly (mk_dufixed n f))
  | CDFixed =>      (* decoding.py:578-582 *)
      Some (t <~ checked cls (Some (lit "fixed")) false ts ;;
            ' (n, f) <~ quietly (sub_pair t) ;; quietly (mk_dfixed n f))
  | CDBytesM =>     (* decoding.py:516-518 *)
      Some (t <~ checked cls (Some (lit "bytes")) false ts ;; n <~ quietly (sub_int t) ;; quietly (mk_dbytesM (n * 8)))
  | CDByteString => (* decoding.py:618-620; strict is the class attribute True until
                       the registry sets it *)
      Some (checked cls (Some (lit "bytes")) false ts ;~ Fine (DByteString (SConst true)))
  | CDString =>     (* decoding.py:623-630 *)
      Some (checked cls (Some (lit "string")) false ts ;~
            Fine (DString (SConst true) utf8_decode))
  | CUserDec f => Some (quietly (f ts))
  | CDTuple | CDBaseArray => None
  end.

Fixpoint each {S A B} (f : A -> S -> noted B * S) (l : list A) (s : S) : noted (list B) * S :=
  match l with
  | [] => (Fine [], s)
  | x :: l' =>
      match f x s with
      | (Note n, s1) => (Note n, s1)
      | (Fine y, s1) =>
          match each f l' s1 with
          | (Note n, s2) => (Note n, s2)
          | (Fine ys, s2) => (Fine (y :: ys), s2)
          end
      end
  end.
(** encoding.py:155-161, 611-624, 646-657 *)
Definition enc_built_noted {S} (ge : pystr -> S -> noted encoder * S) (c : enc_class) (ts : pystr) (s : S) : noted encoder * S :=
  match enc_leaf_noted c ts with
  | Some r => (r, s)
  | None =>
      match c with
      | CTuple =>
          match checked_tuple (enc_name c) ts with
          | Note n => (Note n, s)
          | Fine cs =>
              match each ge (map to_type_str cs) s with
              | (Note n, s1) => (Note n, s1)
              | (Fine es, s1) => (Fine (ETuple es), s1)
              end
          end
      | _ =>
          match (t <~ checked (enc_name c) None true ts ;; it <~ quietly (item_type t) ;; Fine (t, it)) with
          | Note n => (Note n, s)
          | Fine (t, it) =>
              match ge (to_type_str it) s with
              | (Note n, s1) => (Note n, s1)
              | (Fine ie, s1) =>
                  (match c, last (arrlist_of t) None with
                   | CPackedArray, n => Fine (EPackedArr n ie)
                   | _, Some n => quietly (mk_sized n ie)
                   | _, None => Fine (EDyn ie)
                   end, s1)
              end
          end
      end
  end.
(** decoding.py:230-236, 286-299 *)
Definition dec_built_noted {S} (gd : pystr -> S -> noted decoder * S) (c : dec_class) (ts : pystr) (s : S) : noted decoder * S :=
  match dec_leaf_noted c ts with
  | Some r => (r, s)
  | None =>
      match c with
      | CDTuple =>
          match checked_tuple (dec_name c) ts with
          | Note n => (Note n, s)
          | Fine cs =>
              match each gd (map to_type_str cs) s with
              | (Note n, s1) => (Note n, s1)
              | (Fine ds, s1) => (Fine (mk_dtuple ds), s1)
              end
          end
      | _ =>
          match (t <~ checked (dec_name c) None true ts ;; it <~ quietly (item_type t) ;; Fine (t, it)) with
          | Note n => (Note n, s)
          | Fine (t, it) =>
              match gd (to_type_str it) s with
              | (Note n, s1) => (Note n, s1)
              | (Fine id, s1) =>
                  (match last (arrlist_of t) None with
                   | Some n => quietly (mk_dsized n id)
                   | None => quietly (mk_ddyn id)
                   end, s1)
              end
          end
      end
  end.

(** ** ABIRegistry *)

(** registry.py:346, 349-355, 455-456 *)
Fixpoint get_encoder_noted_fuel (fuel : nat) (ts : pystr) (r : registry) : noted encoder * registry :=
  match ecache_get (r_ecache r) ts with
  | Some e => (Fine e, r)
  | None =>
      match fuel with
      | O => (Note (Other OutOfFuel), r)
      | S f =>
          let '(res, r1) :=
            match get_registration_noted Encoders (r_encs r) ts with
            | Note n => (Note n, r)
            | Fine (EInst e) => (Fine e, r)
            | Fine (EClass c) => enc_built_noted (get_encoder_noted_fuel f) c ts r
            end in
          match res with
          | Fine e => (Fine e, set_ecache r1 ((ts, e) :: r_ecache r1))
          | Note n => (Note n, r1)
          end
      end
  end.
Definition get_encoder_noted (ts : pystr) (r : registry) : noted encoder * registry := get_encoder_noted_fuel (S (length ts)) ts r.
(** registry.py:347, 349-355, 474-483 *)
Fixpoint get_decoder_noted_fuel (fuel : nat) (k : option bool) (ts : pystr) (w : world) : noted decoder * world :=
  match dcache_get (r_dcache (fst w)) (ts, k) with
  | Some d => (Fine d, w)
  | None =>
      match fuel with
      | O => (Note (Other OutOfFuel), w)
      | S f =>
          let '(res, w1) :=
            match get_registration_noted Decoders (r_decs (fst w)) ts with
            | Note n => (Note n, w)
            | Fine (DInst d) => (Fine d, w)
            | Fine (DClass c) => dec_built_noted (get_decoder_noted_fuel f None) c ts w
            end in
          match res with
          | Note n => (Note n, w1)
          | Fine d =>
              let '(d', h') :=
                if dec_is_dyn d
                then set_strict d (match k with None => true | Some b => b end) (snd w1)
                else (d, snd w1) in
              (Fine d', (set_dcache (fst w1) (((ts, k), d') :: r_dcache (fst w1)), h'))
          end
      end
  end.
Definition get_decoder_noted (k : option bool) (ts : pystr) (w : world) : noted decoder * world := get_decoder_noted_fuel (S (length ts)) k ts w.

(** registry.py:357-401 *)
Definition register_encoder_noted (l : lookup) (v : enc_reg) (label : option pystr) (r : registry) : noted unit * registry :=
  let r0 := set_ecache r [] in
  let '(res, m) := register_noted_in Encoders (r_encs r0) l v label in (res, set_encs r0 m).
Definition unregister_encoder_noted (l : lookup) (r : registry) : noted unit * registry :=
  let r0 := set_ecache r [] in
  let '(res, m) := unregister_noted_in Encoders (r_encs r0) l in (res, set_encs r0 m).
Definition register_decoder_noted (l : lookup) (v : dec_reg) (label : option pystr) (r : registry) : noted unit * registry :=
  let r0 := set_dcache r [] in
  let '(res, m) := register_noted_in Decoders (r_decs r0) l v label in (res, set_decs r0 m).
Definition unregister_decoder_noted (l : lookup) (r : registry) : noted unit * registry :=
  let r0 := set_dcache r [] in
  let '(res, m) := unregister_noted_in Decoders (r_decs r0) l in (res, set_decs r0 m).
(** registry.py:403-453 *)
Definition register_noted (l : lookup) (e : enc_reg) (d : dec_reg) (label : option pystr) (r : registry) : noted unit * registry :=
  match register_encoder_noted l e label r with
  | (Fine _, r1) => register_decoder_noted l d label r1
  | (Note n, r1) => (Note n, r1)
  end.
Definition unregister_noted (l : lookup) (r : registry) : noted unit * registry :=
  match unregister_encoder_noted l r with
  | (Fine _, r1) => unregister_decoder_noted l r1
  | (Note n, r1) => (Note n, r1)
  end.
