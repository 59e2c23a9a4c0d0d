(** The decoders of valid ABI types as frame-free readers.

    [pd s t buf p] reads a value of type [t] at absolute position [p]; it has no
    stream, no frames and no cursor.  The main theorem ([pd_refines]) says that
    [decode_with] computes exactly this, leaving the frame stack and base
    offset untouched. *)
From Coq Require Import Strings.Byte Strings.String.
From Verif Require Import Tac Bytes BytesProofs Utf8 Address Decimals DecimalsProofs Decoding Spec EncLeafProofs
  Utf8Proofs AddressProofs EncodeProofs DecLeafProofs.
Open Scope Z_scope.

(** ** Readers *)
Record rdr := mkR { r_dyn : bool; r_size : Z; r_fn : Z -> result aval }.

Section Readers.
Variable buf : bytes.

(** The bytes of a byte string at [p]. *)
Definition rd_bytes (s : bool) (p : Z) : result bytes :=
  n <- word_at buf p ;;
  if maxsize <? ceil32 n then Err OverflowError
  else if s then
    if len buf <? p + 32 + ceil32 n then Err InsufficientDataBytes
    else if bytes_eqb (slice buf (p + 32 + n) (ceil32 n - n)) (zeros (ceil32 n - n))
    then Ok (slice buf (p + 32) n) else Err NonEmptyPaddingBytes
  else Ok (slice buf (p + 32) n).

(** First pass over a head section beginning at [start]: offsets are checked
    against [hi] and the end of the payload, static members are read. *)
Fixpoint tcheck (start hi : Z) (rs : list rdr) (p : Z) : result unit :=
  match rs with
  | [] => Ok tt
  | r :: rs' =>
      if r_dyn r then
        z <- word_at buf p ;;
        if (start + z <? hi) || (len buf <=? start + z) then Err InvalidPointer
        else tcheck start hi rs' (p + 32)
      else r_fn r p ;;; tcheck start hi rs' (p + r_size r)
  end.
(** Second pass: offsets are followed. *)
Fixpoint tread (start : Z) (rs : list rdr) (p : Z) : result (list aval) :=
  match rs with
  | [] => Ok []
  | r :: rs' =>
      if r_dyn r then
        z <- word_at buf p ;;
        v <- r_fn r (start + z) ;;
        vs <- tread start rs' (p + 32) ;; Ok (v :: vs)
      else
        v <- r_fn r p ;;
        vs <- tread start rs' (p + r_size r) ;; Ok (v :: vs)
  end.

(** The number of head words the decoder counts for a member. *)
Definition slots (t : sty) : Z :=
  if sdyn t then 1 else match t with SSized n _ => n | _ => 1 end.
Definition slots_of (ts : list sty) : Z := fold_right (fun t acc => slots t + acc) 0 ts.

Definition rd_array (dyn : bool) (r : rdr) (n start : Z) : result aval :=
  let rs := repeat r (Z.to_nat n) in
  (if dyn then tcheck start (start + 32 * n) rs start else Ok tt) ;;;
  vs <- tread start rs start ;; Ok (VSeq vs).
Definition rd_tuple (rs : list rdr) (n start : Z) : result aval :=
  tcheck start (start + 32 * n) rs start ;;;
  vs <- tread start rs start ;; Ok (VSeq vs).

Fixpoint pd (s : bool) (t : sty) (p : Z) {struct t} : result aval :=
  match t with
  | SBytes => b <- rd_bytes s p ;; Ok (VBytes b)
  | SString => b <- rd_bytes s p ;; u <- utf8_decode b ;; Ok (VStr u)
  | SArr t' =>
      n <- word_at buf p ;;
      rd_array (sdyn t') (mkR (sdyn t') (static_size t') (pd true t')) n (p + 32)
  | SSized n t' => rd_array (sdyn t') (mkR (sdyn t') (static_size t') (pd true t')) n p
  | STuple ts =>
      rd_tuple (map (fun t' => mkR (sdyn t') (static_size t') (pd true t')) ts) (slots_of ts) p
  | _ => if p + 32 <=? len buf then leaf_val t (slice buf p 32) else Err InsufficientDataBytes
  end.
Definition rdr_of (s : bool) (t : sty) : rdr := mkR (sdyn t) (static_size t) (pd s t).
(** The whole payload read as the member list [ts]. *)
Definition pd_args (s : bool) (ts : list sty) : result aval :=
  rd_tuple (map (rdr_of s) ts) (slots_of ts) 0.
End Readers.

(** ** The decoder of a type *)
Fixpoint dec_of (s : bool) (t : sty) : decoder :=
  match t with
  | SUInt m => DUInt m
  | SInt m => DInt m
  | SBool => DBool
  | SAddr => DAddr
  | SUFixed m n => DUFixed m n
  | SFixed m n => DFixed m n
  | SBytesM k => DBytesM (k * 8)
  | SBytes => DByteString (SConst s)
  | SString => DString (SConst s) utf8_decode
  | SArr t' => DDyn (wrap (dec_of true t'))
  | SSized n t' => DSized n (wrap (dec_of true t'))
  | STuple ts => mk_dtuple (map (dec_of true) ts)
  end.

Lemma dec_dyn_attr_of s t : dec_dyn_attr (dec_of s t) = Some (sdyn t).
Proof.
  revert s. induction t as [m|m| | |m n|m n|k| | |t IH|n t IH|ts IH] using sty_ind'; intro s; try reflexivity.
  - cbn [dec_of dec_dyn_attr sdyn]. unfold wrap, dec_is_dyn. rewrite IH. destruct (sdyn t) eqn:E; cbn; [reflexivity|].
    rewrite IH. congruence.
  - cbn [dec_of sdyn]. unfold mk_dtuple. cbn [dec_dyn_attr]. f_equal.
    induction IH as [|t ts Ht IH IHts]; [reflexivity|]. cbn [map existsb]. rewrite IHts. f_equal.
    unfold wrap, dec_is_dyn. rewrite Ht. destruct (sdyn t) eqn:E; cbn; [reflexivity|]. rewrite Ht. congruence.
Qed.
Lemma dec_is_dyn_of s t : dec_is_dyn (dec_of s t) = sdyn t.
Proof. unfold dec_is_dyn. rewrite dec_dyn_attr_of. reflexivity. Qed.
Lemma wrap_of s t : wrap (dec_of s t) = if sdyn t then DHeadTail (dec_of s t) else dec_of s t.
Proof. unfold wrap. rewrite dec_is_dyn_of. reflexivity. Qed.
Lemma is_headtail_of s t : is_headtail (wrap (dec_of s t)) = sdyn t.
Proof. rewrite wrap_of. destruct (sdyn t); [reflexivity|]. destruct t; reflexivity. Qed.
Lemma array_size_of s t : array_size_attr (wrap (dec_of s t)) = slots t.
Proof. rewrite wrap_of. unfold slots. destruct (sdyn t); [reflexivity|]. destruct t; reflexivity. Qed.

(** ** Loops *)
Fixpoint iterM {S} (n : nat) (f : S -> result S) (s : S) : result S :=
  match n with O => Ok s | S n' => s' <- f s ;; iterM n' f s' end.
Lemma iterM_add {S} a b (f : S -> result S) s : iterM (a + b) f s = (s' <- iterM a f s ;; iterM b f s').
Proof.
  revert s. induction a as [|a IH]; intro s; [reflexivity|]. cbn [Nat.add iterM].
  destruct (f s); [|reflexivity]. cbn [bind]. apply IH.
Qed.
Lemma loop_pos_iterM {S} p (f : S -> result S) s : loop_pos p f s = iterM (Pos.to_nat p) f s.
Proof.
  revert s. induction p as [p IH|p IH|]; intro s; cbn [loop_pos].
  - replace (Pos.to_nat p~1) with (1 + (Pos.to_nat p + Pos.to_nat p))%nat by lia.
    cbn [Nat.add iterM]. destruct (f s); [|reflexivity]. cbn [bind]. rewrite iterM_add, IH.
    destruct (iterM _ f a); [|reflexivity]. cbn [bind]. apply IH.
  - replace (Pos.to_nat p~0) with (Pos.to_nat p + Pos.to_nat p)%nat by lia.
    rewrite iterM_add, IH. destruct (iterM _ f s); [|reflexivity]. cbn [bind]. apply IH.
  - change (Pos.to_nat 1) with 1%nat. cbn [iterM]. destruct (f s); reflexivity.
Qed.
Lemma loop_Z_iterM {S} n (f : S -> result S) s : loop_Z n f s = iterM (Z.to_nat n) f s.
Proof. destruct n; [reflexivity|apply loop_pos_iterM|reflexivity]. Qed.

(** ** Member passes of the model *)
Section Model.
Variables (h : heap) (buf : bytes).
Section Check.
Variables start hi : Z.
Fixpoint vp (ds : list decoder) (st : stream) : result stream :=
  match ds with
  | [] => Ok st
  | d :: ds' =>
      st' <- (if is_headtail d then check_pointer buf start hi st
              else ' (_, st') <- decode_with h d buf st ;; Ok st') ;;
      vp ds' st'
  end.
End Check.
Fixpoint go (ds : list decoder) (st : stream) : result (list pyval * stream) :=
  match ds with
  | [] => Ok ([], st)
  | d :: ds' =>
      ' (v, st') <- decode_with h d buf st ;;
      ' (vs, st'') <- go ds' st' ;;
      Ok (v :: vs, st'')
  end.
Lemma decode_tuple_eq ds st : decode_with h (DTuple ds) buf st =
  (st1 <- vp (pos st) (pos st + 32 * fold_right (fun d acc => array_size_attr d + acc) 0 ds) ds st ;;
   st2 <- seek (pos st) st1 ;;
   ' (vs, st3) <- go ds st2 ;;
   Ok (PTuple vs, st3)).
Proof. reflexivity. Qed.

Lemma loop_check_eq start hi d n st : is_headtail d = true ->
  iterM n (check_pointer buf start hi) st = vp start hi (repeat d n) st.
Proof.
  intro H. revert st. induction n as [|n IH]; intro st; [reflexivity|].
  cbn [iterM repeat vp]. rewrite H. destruct (check_pointer _ _ _ st); [|reflexivity]. apply IH.
Qed.
Lemma loop_items_eq d n st : loop_items n (decode_with h d buf) st = go (repeat d (Z.to_nat n)) st.
Proof.
  unfold loop_items. rewrite loop_Z_iterM.
  assert (G : forall k acc st,
    iterM k (fun s : list pyval * stream => ' (v, st') <- decode_with h d buf (snd s) ;; Ok (v :: fst s, st')) (acc, st)
    = (' (vs, st') <- go (repeat d k) st ;; Ok (rev vs ++ acc, st'))).
  { clear. induction k as [|k IH]; intros acc st; [reflexivity|].
    cbn [iterM repeat go fst snd]. destruct (decode_with h d buf st) as [[v st']|]; [|reflexivity].
    cbn [bind]. rewrite IH. destruct (go _ st') as [[vs st'']|]; [|reflexivity].
    cbn [bind rev]. rewrite <- app_assoc. reflexivity. }
  rewrite G. destruct (go _ st) as [[vs st']|]; [|reflexivity]. cbn [bind].
  rewrite app_nil_r, rev_involutive. reflexivity.
Qed.

(** ** Refinement *)
Hypothesis Hbuf : len buf <= maxsize.

Definition agrees (t : sty) (st : stream) (r : result aval) (m : result (pyval * stream)) : Prop :=
  match r with
  | Ok a => exists p', m = Ok (py_of t a, mkStream p' (frames st) (total st)) /\ 0 <= p' <= maxsize
                       /\ (sdyn t = false -> p' = pos st + static_size t)
  | Err e => m = Err e
  end.
Definition refines (t : sty) (d : decoder) (f : Z -> result aval) : Prop :=
  forall st, 0 <= pos st <= maxsize -> (sdyn t = true -> total st = pos st) ->
  agrees t st (f (pos st)) (decode_with h d buf st).

Lemma seek_ok p st : 0 <= p <= maxsize -> seek p st = Ok (mkStream p (frames st) (total st)).
Proof.
  intro H. unfold seek. destruct (Z.ltb_spec p 0); [lia|]. destruct (Z.ltb_spec maxsize p); [lia|reflexivity].
Qed.

(** A member of a head section. *)
Definition member (start : Z) (t : sty) (f : Z -> result aval) (p : Z) : result aval :=
  if sdyn t then z <- word_at buf p ;; f (start + z) else f p.
Definition member_size (t : sty) : Z := if sdyn t then 32 else static_size t.
Definition magrees (t : sty) (st : stream) (r : result aval) (m : result (pyval * stream)) : Prop :=
  match r with
  | Ok a => m = Ok (py_of t a, mkStream (pos st + member_size t) (frames st) (total st))
            /\ 0 <= pos st + member_size t <= maxsize
  | Err e => m = Err e
  end.
Lemma member_refines s t f : refines t (dec_of s t) f ->
  forall start st, 0 <= pos st <= maxsize -> 0 <= start ->
  (sdyn t = true -> total st = start /\ forall z, word_at buf (pos st) = Ok z -> start + z < len buf) ->
  magrees t st (member start t f (pos st)) (decode_with h (wrap (dec_of s t)) buf st).
Proof.
  intros R start st Hp Hs Hd. rewrite wrap_of. unfold member, magrees, member_size. destruct (sdyn t) eqn:D.
  - destruct (Hd eq_refl) as [Ht Hz]. cbn [decode_with]. rewrite decode_uint_256_eq by lia.
    destruct (word_at buf (pos st)) as [z|e] eqn:W; [|reflexivity]. cbn [bind].
    pose proof (word_at_range _ _ _ (proj1 Hp) W) as Zr. specialize (Hz z eq_refl).
    apply word_at_ok in W. destruct W as [W _].
    unfold push_frame, seek_in_frame. cbn [total adv pos frames]. rewrite Ht.
    rewrite seek_ok by lia. cbn [bind frames total]. rewrite Z.add_0_r.
    match goal with |- context [decode_with h _ buf ?x] => specialize (R x) end.
    cbn [pos total] in R. specialize (R ltac:(lia) ltac:(auto)). unfold agrees in R.
    destruct (f (start + z)) as [a|e].
    + destruct R as (p' & -> & Hp' & _). cbn [bind frames total]. unfold pop_frame. cbn [frames total].
      rewrite seek_ok by lia. cbn [bind frames total]. split; [|lia].
      do 3 f_equal. lia.
    + rewrite R. reflexivity.
  - specialize (R st Hp ltac:(congruence)). unfold agrees in R. destruct (f (pos st)) as [a|e]; [|exact R].
    destruct R as (p' & E & Hp' & Q). specialize (Q D). subst p'. split; [exact E|exact Hp'].
Qed.

(** Every offset found on the way points inside the payload. *)
Fixpoint ptrs_ok (start : Z) (rs : list rdr) (p : Z) : Prop :=
  match rs with
  | [] => True
  | r :: rs' =>
      if r_dyn r then (forall z, word_at buf p = Ok z -> start + z < len buf) /\ ptrs_ok start rs' (p + 32)
      else ptrs_ok start rs' (p + r_size r)
  end.
Lemma tcheck_ptrs start hi rs p : tcheck buf start hi rs p = Ok tt -> ptrs_ok start rs p.
Proof.
  revert p. induction rs as [|r rs IH]; intros p H; cbn [tcheck ptrs_ok] in *; [exact I|].
  destruct (r_dyn r).
  - bok H. destruct ((start + x <? hi) || (len buf <=? start + x)) eqn:E; [discriminate|].
    apply orb_false_iff in E. split; [|apply IH; exact H].
    intros z Hz. rewrite Hz in Hx. inv Hx. lia.
  - bok H. apply IH. exact H.
Qed.
Lemma static_ptrs start rs p : Forall (fun r => r_dyn r = false) rs -> ptrs_ok start rs p.
Proof.
  intro F. revert p. induction F as [|r rs Hr F IH]; intro p; cbn [ptrs_ok]; [exact I|]. rewrite Hr. apply IH.
Qed.

Definition mrefines (ts : list sty) (ds : list decoder) (rs : list rdr) : Prop :=
  Forall3 (fun t d r => exists s f, d = wrap (dec_of s t) /\ r = mkR (sdyn t) (static_size t) f /\ refines t (dec_of s t) f) ts ds rs.
Definition py_tuple : list sty -> list aval -> list pyval :=
  fix go (ts : list sty) (l : list aval) : list pyval :=
    match ts, l with
    | t' :: ts', x :: l' => py_of t' x :: go ts' l'
    | _, _ => []
    end.
Definition members_size (ts : list sty) : Z := fold_right (fun t acc => member_size t + acc) 0 ts.

Lemma vp_refines start hi ts ds rs : 0 <= start -> mrefines ts ds rs ->
  forall st, 0 <= pos st <= maxsize ->
  match tcheck buf start hi rs (pos st) with
  | Ok _ => exists p', vp start hi ds st = Ok (mkStream p' (frames st) (total st))
  | Err e => vp start hi ds st = Err e
  end.
Proof.
  intros Hs R. induction R as [|t d r ts ds rs (s & f & -> & -> & R) RS IH]; intros st Hp; cbn [tcheck vp].
  - exists (pos st). destruct st; reflexivity.
  - rewrite is_headtail_of. cbn [r_dyn r_fn r_size]. destruct (sdyn t) eqn:D.
    + unfold check_pointer. rewrite decode_uint_256_eq by lia.
      destruct (word_at buf (pos st)) as [z|e] eqn:W; [|reflexivity]. cbn [bind].
      destruct ((start + z <? hi) || (len buf <=? start + z)); [reflexivity|]. cbn [bind].
      apply word_at_ok in W. destruct W as [W _].
      specialize (IH (adv 32 st)). cbn [adv pos frames total] in IH. apply IH. lia.
    + pose proof (member_refines s t f R start st Hp Hs ltac:(congruence)) as M.
      unfold member, magrees, member_size in M. rewrite D in M. destruct (f (pos st)) as [a|e].
      * destruct M as [-> Hp']. cbn [bind]. specialize (IH (mkStream (pos st + static_size t) (frames st) (total st))).
        cbn [adv pos frames total] in IH. apply IH. exact Hp'.
      * rewrite M. reflexivity.
Qed.
Lemma go_refines start ts ds rs : 0 <= start -> mrefines ts ds rs ->
  forall st, 0 <= pos st <= maxsize -> (existsb sdyn ts = true -> total st = start) -> ptrs_ok start rs (pos st) ->
  match tread buf start rs (pos st) with
  | Ok l => go ds st = Ok (py_tuple ts l, mkStream (pos st + members_size ts) (frames st) (total st))
            /\ 0 <= pos st + members_size ts <= maxsize
  | Err e => go ds st = Err e
  end.
Proof.
  intros Hs R. induction R as [|t d r ts ds rs (s & f & -> & -> & R) RS IH]; intros st Hp Ht P; cbn [tread go].
  - cbn. rewrite Z.add_0_r. destruct st; auto.
  - cbn [existsb] in Ht. cbn [ptrs_ok r_dyn r_fn r_size] in *.
    pose proof (member_refines s t f R start st Hp Hs) as M. unfold member, magrees, member_size in M.
    assert (Em : members_size (t :: ts) = (if sdyn t then 32 else static_size t) + members_size ts) by reflexivity.
    rewrite Em; clear Em. destruct (sdyn t) eqn:D.
    + destruct P as [P1 P2]. specialize (M ltac:(auto)). cbn [orb] in Ht.
      destruct (word_at buf (pos st)) as [z|e]; [|cbn [bind] in *; rewrite M; reflexivity]. cbn [bind] in *.
      destruct (f (start + z)) as [a|e]; [|rewrite M; reflexivity]. destruct M as [-> Hp']. cbn [bind].
      specialize (IH (mkStream (pos st + 32) (frames st) (total st))). cbn [pos frames total] in IH.
      specialize (IH Hp' ltac:(auto) P2). destruct (tread _ _ _ _) as [l|e]; [|rewrite IH; reflexivity].
      destruct IH as [-> Hq]. cbn [bind py_tuple]. split; [|lia]. do 3 f_equal. lia.
    + specialize (M ltac:(discriminate)). cbn [orb] in Ht.
      destruct (f (pos st)) as [a|e]; [|rewrite M; reflexivity]. destruct M as [-> Hp']. cbn [bind].
      specialize (IH (mkStream (pos st + static_size t) (frames st) (total st))). cbn [pos frames total] in IH.
      specialize (IH Hp' Ht P). destruct (tread _ _ _ _) as [l|e]; [|rewrite IH; reflexivity].
      destruct IH as [-> Hq]. cbn [bind py_tuple]. split; [|lia]. do 3 f_equal. lia.
Qed.
Lemma py_tuple_repeat t l n : length l = n -> py_tuple (repeat t n) l = map (py_of t) l.
Proof.
  revert n. induction l as [|x l IH]; intros [|n] H; cbn in *; try discriminate; [reflexivity|].
  f_equal. apply IH. lia.
Qed.
Lemma tread_length start rs p l : tread buf start rs p = Ok l -> length l = length rs.
Proof.
  revert p l. induction rs as [|r rs IH]; intros p l H; cbn [tread] in H; [inv H; reflexivity|].
  destruct (r_dyn r); repeat (bok H); inv H; cbn; f_equal; eapply IH; eassumption.
Qed.
Lemma members_static ts : existsb sdyn ts = false -> members_size ts = fold_right (fun t acc => static_size t + acc) 0 ts.
Proof.
  induction ts as [|t ts IH]; intro H; [reflexivity|]. cbn [existsb] in H. apply orb_false_iff in H. destruct H as [H1 H2].
  change (members_size (t :: ts)) with (member_size t + members_size ts). unfold member_size.
  rewrite H1, IH by exact H2. reflexivity.
Qed.
Lemma members_repeat t n : members_size (repeat t n) = Z.of_nat n * member_size t.
Proof. induction n as [|n IH]; [reflexivity|]. 
  cbn [repeat]. change (members_size (t :: repeat t n)) with (member_size t + members_size (repeat t n)). lia. Qed.
Lemma existsb_repeat {A} (f : A -> bool) x n : existsb f (repeat x n) = true -> f x = true.
Proof. induction n; cbn; [discriminate|]. destruct (f x); auto. Qed.
Lemma mrefines_repeat s t f n : refines t (dec_of s t) f ->
  mrefines (repeat t n) (repeat (wrap (dec_of s t)) n) (repeat (mkR (sdyn t) (static_size t) f) n).
Proof. intro R. induction n; constructor; eauto. Qed.

Lemma array_refines t f n start st : 0 <= n -> refines t (dec_of true t) f ->
  0 <= pos st <= maxsize -> start = pos st -> (sdyn t = true -> total st = start) ->
  let m := (st1 <- array_validate_pointers (is_headtail (wrap (dec_of true t))) n buf st ;;
            ' (vs, st2) <- loop_items n (decode_with h (wrap (dec_of true t)) buf) st1 ;;
            Ok (PTuple vs, st2)) in
  match rd_array buf (sdyn t) (mkR (sdyn t) (static_size t) f) n start with
  | Ok a => exists l, a = VSeq l /\ m = Ok (PTuple (map (py_of t) l), mkStream (pos st + n * member_size t) (frames st) (total st))
            /\ 0 <= pos st + n * member_size t <= maxsize
  | Err e => m = Err e
  end.
Proof.
  intros Hn R Hp -> Ht m. subst m. rewrite is_headtail_of. unfold array_validate_pointers, rd_array.
  set (rs := repeat (mkR (sdyn t) (static_size t) f) (Z.to_nat n)).
  assert (MR : mrefines (repeat t (Z.to_nat n)) (repeat (wrap (dec_of true t)) (Z.to_nat n)) rs)
    by (apply mrefines_repeat; exact R).
  assert (G : ptrs_ok (pos st) rs (pos st) ->
    match (vs <- tread buf (pos st) rs (pos st) ;; Ok (VSeq vs)) with
    | Ok a => exists l, a = VSeq l /\ (' (vs, st2) <- loop_items n (decode_with h (wrap (dec_of true t)) buf) st ;; Ok (PTuple vs, st2))
              = Ok (PTuple (map (py_of t) l), mkStream (pos st + n * member_size t) (frames st) (total st))
            /\ 0 <= pos st + n * member_size t <= maxsize
    | Err e => (' (vs, st2) <- loop_items n (decode_with h (wrap (dec_of true t)) buf) st ;; Ok (PTuple vs, st2)) = Err e
    end).
  { intro P. rewrite loop_items_eq.
    pose proof (go_refines (pos st) _ _ _ (proj1 Hp) MR st Hp ltac:(intro E; apply existsb_repeat in E; auto) P) as Q.
    destruct (tread _ _ _ _) as [l|e] eqn:E; cbn [bind]; [|rewrite Q; reflexivity].
    rewrite members_repeat in Q. replace (Z.of_nat (Z.to_nat n)) with n in Q by lia. destruct Q as [-> Q].
    exists l. split; [reflexivity|]. split; [|exact Q]. cbn [bind]. rewrite py_tuple_repeat; [reflexivity|].
    apply tread_length in E. rewrite E. subst rs. apply repeat_length. }
  destruct (sdyn t) eqn:D.
  - rewrite loop_Z_iterM, (loop_check_eq _ _ (wrap (dec_of true t))) by (rewrite is_headtail_of; exact D).
    pose proof (vp_refines (pos st) (pos st + 32 * n) _ _ _ (proj1 Hp) MR st Hp) as V.
    destruct (tcheck _ _ _ _ _) as [[]|e] eqn:C; cbn [bind]; [|rewrite V; reflexivity].
    destruct V as [p' ->]. cbn [bind]. rewrite seek_ok by exact Hp. cbn [bind frames total].
    apply tcheck_ptrs in C. specialize (G C). destruct st; exact G.
  - apply G. apply static_ptrs. subst rs. clear. induction (Z.to_nat n); constructor; auto.
Qed.

Lemma mrefines_tuple s ts : (forall t, In t ts -> refines t (dec_of s t) (pd buf s t)) ->
  mrefines ts (map wrap (map (dec_of s) ts)) (map (rdr_of buf s) ts).
Proof.
  induction ts as [|t ts IH]; intro H; cbn [map]; constructor.
  - exists s, (pd buf s t). split; [reflexivity|]. split; [reflexivity|]. apply H. left. reflexivity.
  - apply IH. intros t' Ht. apply H. right. exact Ht.
Qed.
Lemma slots_fold s ts : fold_right (fun d acc => array_size_attr d + acc) 0 (map wrap (map (dec_of s) ts)) = slots_of ts.
Proof.
  induction ts as [|t ts IH]; [reflexivity|]. cbn [map fold_right slots_of]. rewrite array_size_of, IH. reflexivity.
Qed.
Lemma tuple_refines s ts st : (forall t, In t ts -> refines t (dec_of s t) (pd buf s t)) ->
  0 <= pos st <= maxsize -> (existsb sdyn ts = true -> total st = pos st) ->
  match rd_tuple buf (map (rdr_of buf s) ts) (slots_of ts) (pos st) with
  | Ok a => exists l, a = VSeq l /\ decode_with h (mk_dtuple (map (dec_of s) ts)) buf st
              = Ok (PTuple (py_tuple ts l), mkStream (pos st + members_size ts) (frames st) (total st))
            /\ 0 <= pos st + members_size ts <= maxsize
  | Err e => decode_with h (mk_dtuple (map (dec_of s) ts)) buf st = Err e
  end.
Proof.
  intros R Hp Ht. unfold mk_dtuple. rewrite decode_tuple_eq, slots_fold. unfold rd_tuple.
  pose proof (mrefines_tuple s ts R) as MR.
  pose proof (vp_refines (pos st) (pos st + 32 * slots_of ts) _ _ _ (proj1 Hp) MR st Hp) as V.
  destruct (tcheck _ _ _ _ _) as [[]|e] eqn:C; cbn [bind]; [|rewrite V; reflexivity].
  destruct V as [p' ->]. cbn [bind]. rewrite seek_ok by exact Hp. cbn [bind frames total].
  apply tcheck_ptrs in C.
  pose proof (go_refines (pos st) _ _ _ (proj1 Hp) MR st Hp Ht C) as G.
  replace (mkStream (pos st) (frames st) (total st)) with st by (destruct st; reflexivity).
  destruct (tread _ _ _ _) as [l|e]; cbn [bind]; [|rewrite G; reflexivity].
  destruct G as [-> G]. cbn [bind]. exists l. auto.
Qed.

Lemma slice_drop p c n : 0 <= p -> 0 <= n <= c -> drop_z n (slice buf p c) = slice buf (p + n) (c - n).
Proof.
  intros Hp Hn. unfold slice. rewrite !take_z_firstn, (drop_z_skipn n) by lia.
  rewrite skipn_firstn_comm. replace (Z.to_nat (c - n)) with (Z.to_nat c - Z.to_nat n)%nat by lia. f_equal.
  rewrite <- drop_z_skipn, drop_z_drop_z by lia. f_equal. lia.
Qed.
Lemma slice_take p c n : 0 <= p -> 0 <= n <= c -> take_z n (slice buf p c) = slice buf p n.
Proof.
  intros Hp Hn. unfold slice. rewrite !take_z_firstn by lia. rewrite firstn_firstn. f_equal. lia.
Qed.
Lemma read_bytestring_eq s st : 0 <= pos st ->
  match rd_bytes buf s (pos st) with
  | Ok b => exists p', read_bytestring s buf st = Ok (b, mkStream p' (frames st) (total st)) /\ 0 <= p' <= len buf
  | Err e => read_bytestring s buf st = Err e
  end.
Proof.
  intro Hp. unfold rd_bytes, read_bytestring. rewrite decode_uint_256_eq by exact Hp.
  destruct (word_at buf (pos st)) as [n|e] eqn:W; [|reflexivity]. cbn [bind].
  pose proof (word_at_range _ _ _ Hp W) as R. apply word_at_ok in W. destruct W as [W _].
  pose proof (ceil32_spec n (proj1 R)) as [C _]. set (c := ceil32 n) in *. clearbody c.
  unfold read. destruct (maxsize <? c); [reflexivity|]. cbn [bind adv pos frames total].
  change (take_z c (drop_z (pos st + 32) buf)) with (slice buf (pos st + 32) c).
  rewrite slice_take, slice_drop, slice_len_le by lia.
  assert (B : 0 <= pos st + 32 + Z.min c (Z.max 0 (len buf - (pos st + 32))) <= len buf) by lia.
  destruct s; [|eexists; split; [reflexivity|exact B]].
  destruct (Z.ltb_spec (len buf) (pos st + 32 + c)) as [L|L].
  - destruct (Z.ltb_spec (Z.min c (Z.max 0 (len buf - (pos st + 32)))) c); [reflexivity|lia].
  - destruct (Z.ltb_spec (Z.min c (Z.max 0 (len buf - (pos st + 32)))) c); [lia|].
    destruct (bytes_eqb _ _); cbn [negb]; [|reflexivity]. eexists; split; [reflexivity|exact B].
Qed.

Lemma leaf_refines t d big bits fn check : wf t -> leaf t = true ->
  (forall st, decode_with h d buf st = decode_word big bits fn check buf st) ->
  (forall raw, len raw = 32 -> word_fn big bits fn check raw = (a <- leaf_val t raw ;; Ok (py_of t a))) ->
  refines t d (fun p => if p + 32 <=? len buf then leaf_val t (slice buf p 32) else Err InsufficientDataBytes).
Proof.
  intros W L E F st Hp _. unfold agrees. rewrite E, decode_word_eq by lia.
  destruct (Z.leb_spec (pos st + 32) (len buf)); [|reflexivity].
  rewrite F by (apply slice_len; lia). destruct (leaf_val t _) as [a|e]; [|reflexivity]. cbn [bind].
  exists (pos st + 32). split; [reflexivity|]. split; [lia|]. intros _. destruct t; try discriminate L; reflexivity.
Qed.

Theorem pd_refines t : wf t -> forall s, refines t (dec_of s t) (pd buf s t).
Proof.
  induction t as [m|m| | |m n|m n|k| | |t IH|n t IH|ts IH] using sty_ind'; intros W s.
  - eapply leaf_refines; [exact W|reflexivity|reflexivity|]. intros raw Hl. inv W.
    rewrite (uint_word m raw ltac:(assumption) Hl PInt). cbn [leaf_val]. destruct (canonical _ _); reflexivity.
  - eapply leaf_refines; [exact W|reflexivity|reflexivity|]. intros raw Hl. inv W.
    rewrite (sint_word m raw) by assumption. cbn [leaf_val]. destruct (canonical _ _); reflexivity.
  - eapply leaf_refines; [exact W|reflexivity|reflexivity|]. exact bool_word.
  - eapply leaf_refines; [exact W|reflexivity|reflexivity|]. exact addr_word.
  - eapply leaf_refines; [exact W|reflexivity|reflexivity|]. intros raw Hl. inv W.
    rewrite (ufixed_word m n raw) by assumption. cbn [leaf_val]. destruct (canonical _ _); reflexivity.
  - eapply leaf_refines; [exact W|reflexivity|reflexivity|]. intros raw Hl. inv W.
    rewrite (sfixed_word m n raw) by assumption. cbn [leaf_val]. destruct (canonical _ _); reflexivity.
  - eapply leaf_refines; [exact W|reflexivity|reflexivity|]. intros raw Hl. inv W.
    apply bytesM_word; assumption.
  - intros st Hp _. unfold agrees. cbn [dec_of pd decode_with strict_val].
    pose proof (read_bytestring_eq s st ltac:(lia)) as R. destruct (rd_bytes buf s (pos st)) as [b|e]; cbn [bind].
    + destruct R as (p' & -> & B). cbn [bind]. exists p'. split; [reflexivity|]. split; [lia|discriminate].
    + rewrite R. reflexivity.
  - intros st Hp _. unfold agrees. cbn [dec_of pd decode_with strict_val].
    pose proof (read_bytestring_eq s st ltac:(lia)) as R. destruct (rd_bytes buf s (pos st)) as [b|e]; cbn [bind].
    + destruct R as (p' & -> & B). cbn [bind]. destruct (utf8_decode b) as [u|e]; cbn [bind]; [|reflexivity].
      exists p'. split; [reflexivity|]. split; [lia|discriminate].
    + rewrite R. reflexivity.
  - inv W. intros st Hp Ht. specialize (Ht eq_refl). unfold agrees. cbn [dec_of pd decode_with].
    rewrite decode_uint_256_eq by lia. destruct (word_at buf (pos st)) as [n|e] eqn:Wd; cbn [bind]; [|reflexivity].
    pose proof (word_at_range _ _ _ (proj1 Hp) Wd) as R. apply word_at_ok in Wd. destruct Wd as [Wd _].
    unfold push_frame, seek_in_frame. cbn [adv pos frames total]. rewrite Ht, Z.add_0_r.
    rewrite seek_ok by lia. cbn [bind frames total].
    set (st2 := mkStream (pos st + 32) ((32, pos st + 32) :: frames st) (pos st + 32)).
    pose proof (array_refines t (pd buf true t) n (pos st + 32) st2 (proj1 R) (IH ltac:(assumption) true)
                  ltac:(cbn; lia) eq_refl ltac:(reflexivity)) as A.
    cbn zeta in A. destruct (rd_array _ _ _ _ _) as [a|e].
    + destruct A as (l & -> & A & B). apply bind_Ok in A. destruct A as (st3 & A1 & A2). rewrite A1. cbn [bind].
      apply bind_Ok in A2. destruct A2 as ((vs & st4) & A2 & A3). rewrite A2. cbn [bind]. inv A3.
      unfold pop_frame. cbn [frames total st2]. rewrite seek_ok by lia. cbn [bind frames total].
      exists (pos st + 32). split; [|split; [lia|discriminate]]. cbn [py_of]. do 3 f_equal. lia.
    + apply bind_Err in A. destruct A as [A|(st3 & A1 & A2)]; [rewrite A; reflexivity|]. rewrite A1. cbn [bind].
      apply bind_Err in A2. destruct A2 as [A2|((vs & st4) & A2 & A3)]; [rewrite A2; reflexivity|discriminate].
  - inv W. intros st Hp Ht. unfold agrees. cbn [dec_of pd decode_with].
    pose proof (array_refines t (pd buf true t) n (pos st) st ltac:(lia) (IH ltac:(assumption) true) Hp eq_refl Ht) as A.
    cbn zeta in A. destruct (rd_array _ _ _ _ _) as [a|e]; [|exact A].
    destruct A as (l & -> & A & B). eexists. split; [exact A|]. split; [exact B|].
    cbn [sdyn]. intro D. unfold member_size. rewrite D. reflexivity.
  - inv W. take (Forall wf ts) as Wt. intros st Hp Ht. unfold agrees. cbn [dec_of].
    assert (R : forall t, In t ts -> refines t (dec_of true t) (pd buf true t)).
    { rewrite Forall_forall in IH, Wt. auto. }
    pose proof (tuple_refines true ts st R Hp Ht) as T. cbn [pd].
    change (map (fun t' => mkR (sdyn t') (static_size t') (pd buf true t')) ts) with (map (rdr_of buf true) ts).
    destruct (rd_tuple _ _ _ _) as [a|e]; [|exact T].
    destruct T as (l & -> & T & B). eexists. split; [exact T|]. split; [exact B|].
    cbn [sdyn]. intro D. rewrite members_static by exact D. reflexivity.
Qed.

(** [decode] of a whole payload. *)
Theorem pd_args_refines s ts : Forall wf ts ->
  (' (v, _) <- decode_with h (mk_dtuple (map (dec_of s) ts)) buf new_stream ;; Ok v) =
  (a <- pd_args buf s ts ;; Ok (py_of (STuple ts) a)).
Proof.
  intro W. pose proof (tuple_refines s ts new_stream) as T. cbn [pos new_stream] in T. unfold pd_args.
  specialize (T ltac:(intros t Ht; apply pd_refines; rewrite Forall_forall in W; auto)
                ltac:(rewrite maxsize_eq; lia) ltac:(reflexivity)).
  destruct (rd_tuple _ _ _ _) as [a|e].
  - destruct T as (l & -> & -> & _). reflexivity.
  - rewrite T. reflexivity.
Qed.
End Model.
