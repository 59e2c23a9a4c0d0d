(** ContextFramesBytesIO. *)
From Coq Require Import Lia.
From Verif Require Import Tac Py Bytes BytesProofs Decoding Stream StreamSpec.
Open Scope Z_scope.

Definition cursor_ok (st : stream) : Prop := 0 <= pos st <= maxsize /\ Forall (fun f => 0 <= snd f <= maxsize) (frames st).
Lemma maxsize_pos : 0 < maxsize.
Proof. reflexivity. Qed.
Lemma f_seek_spec buf p w st : frames (snd (f_seek buf p w st)) = frames st /\ total (snd (f_seek buf p w st)) = total st
  /\ (len buf <= maxsize -> 0 <= pos st <= maxsize -> 0 <= pos (snd (f_seek buf p w st)) <= maxsize).
Proof.
  pose proof (len_nonneg buf). unfold f_seek, fits_ssize.
  repeat match goal with |- context[if ?c then _ else _] => destruct c eqn:? end; cbn [snd at_pos frames total pos]; (split; [reflexivity|]; split; [reflexivity|]);
    intros; lia.
Qed.
Lemma f_read_spec buf n st : frames (snd (f_read buf n st)) = frames st /\ total (snd (f_read buf n st)) = total st
  /\ (len buf <= maxsize -> 0 <= pos st <= maxsize -> 0 <= pos (snd (f_read buf n st)) <= maxsize).
Proof.
  assert (D : forall n, 0 <= pos st -> len (take_z n (drop_z (pos st) buf)) <= Z.max 0 (len buf - pos st)).
  { intros k P. destruct (Z.leb_spec 0 k).
    - rewrite len_take_z, len_drop_z by lia. lia.
    - unfold take_z. destruct (Z.leb_spec (len (drop_z (pos st) buf)) k); [pose proof (len_nonneg (drop_z (pos st) buf)); lia|].
      replace (Z.to_nat k) with 0%nat by lia. cbn [firstn]. rewrite len_nil. lia. }
  assert (D' : 0 <= pos st -> len (drop_z (pos st) buf) <= Z.max 0 (len buf - pos st)) by (intro; rewrite len_drop_z by lia; lia).
  pose proof (len_nonneg (drop_z (pos st) buf)). unfold f_read.
  destruct n as [k|]; [destruct (negb (fits_ssize k)); [|destruct (k <? 0)]|]; cbn [snd at_pos frames total pos];
    (split; [reflexivity|]; split; [reflexivity|]); intros; try lia.
  specialize (D k ltac:(lia)). pose proof (len_nonneg (take_z k (drop_z (pos st) buf))). lia.
Qed.
Lemma f_seek_in_spec buf p w st : frames (snd (f_seek_in buf p w st)) = frames st /\ total (snd (f_seek_in buf p w st)) = total st
  /\ (len buf <= maxsize -> 0 <= pos st <= maxsize -> 0 <= pos (snd (f_seek_in buf p w st)) <= maxsize).
Proof. unfold f_seek_in. pose proof (f_seek_spec buf (total st + p) w st) as H. destruct (f_seek buf (total st + p) w st). exact H. Qed.

Definition keeps_sum (st : stream) : Prop := total st = sum_offsets (frames st).
Lemma call_sum buf op st : keeps_sum st -> keeps_sum (snd (f_call buf op st)).
Proof.
  unfold keeps_sum. intro H. destruct op as [n|p w|p w|o|]; cbn [f_call].
  - destruct (f_read_spec buf n st) as (-> & -> & _). exact H.
  - destruct (f_seek_spec buf p w st) as (-> & -> & _). exact H.
  - destruct (f_seek_in_spec buf p w st) as (-> & -> & _). exact H.
  - unfold f_push. destruct (f_seek_in_spec buf 0 0 (mkStream (pos st) ((o, pos st) :: frames st) (total st + o))) as (-> & -> & _).
    cbn [frames total sum_offsets fold_right fst]. fold (sum_offsets (frames st)). lia.
  - unfold f_pop. destruct (frames st) as [|[o ret] fs] eqn:F; [cbn [snd]; rewrite F; exact H|].
    pose proof (f_seek_spec buf ret 0 (mkStream (pos st) fs (total st - o))) as S.
    destruct (f_seek buf ret 0 (mkStream (pos st) fs (total st - o))) as [r st1]. cbn [snd] in *. destruct S as (-> & -> & _).
    cbn [frames total]. cbn [sum_offsets fold_right fst] in H. fold (sum_offsets fs) in H. lia.
Qed.
Lemma call_cursor buf op st : len buf <= maxsize -> cursor_ok st -> cursor_ok (snd (f_call buf op st)).
Proof.
  unfold cursor_ok. intros B [P F]. destruct op as [n|p w|p w|o|]; cbn [f_call].
  - destruct (f_read_spec buf n st) as (-> & _ & H). auto.
  - destruct (f_seek_spec buf p w st) as (-> & _ & H). auto.
  - destruct (f_seek_in_spec buf p w st) as (-> & _ & H). auto.
  - unfold f_push. destruct (f_seek_in_spec buf 0 0 (mkStream (pos st) ((o, pos st) :: frames st) (total st + o))) as (-> & _ & H).
    split; [apply H; assumption|]. constructor; assumption.
  - unfold f_pop. destruct (frames st) as [|[o ret] fs] eqn:E; [cbn [snd]; rewrite E; auto|]. inv F.
    pose proof (f_seek_spec buf ret 0 (mkStream (pos st) fs (total st - o))) as S.
    destruct (f_seek buf ret 0 (mkStream (pos st) fs (total st - o))) as [r st1]. cbn [snd] in *. destruct S as (-> & _ & H).
    split; [apply H; assumption|assumption].
Qed.
Lemma calls_app buf a b st : f_calls buf (a ++ b) st = f_calls buf b (f_calls buf a st).
Proof. apply fold_left_app. Qed.
Lemma calls_cons buf op ops st : f_calls buf (op :: ops) st = f_calls buf ops (snd (f_call buf op st)).
Proof. reflexivity. Qed.
Lemma calls_sum buf ops : forall st, keeps_sum st -> keeps_sum (f_calls buf ops st).
Proof. induction ops as [|op ops IH]; intros st H; [exact H|]. rewrite calls_cons. apply IH, call_sum, H. Qed.
Lemma calls_cursor buf ops : len buf <= maxsize -> forall st, cursor_ok st -> cursor_ok (f_calls buf ops st).
Proof. intro B. induction ops as [|op ops IH]; intros st H; [exact H|]. rewrite calls_cons. apply IH, call_cursor; assumption. Qed.
Theorem made_offset buf st : made buf st -> total st = sum_offsets (frames st).
Proof. intros [ops ->]. apply calls_sum. reflexivity. Qed.
Lemma made_cursor_ok buf st : len buf <= maxsize -> made buf st -> cursor_ok st.
Proof. intros B [ops ->]. apply calls_cursor; [exact B|]. pose proof maxsize_pos. split; [cbn; lia|constructor]. Qed.
Theorem made_cursor buf st : len buf <= maxsize -> made buf st -> 0 <= pos st <= maxsize.
Proof. intros B M. apply (made_cursor_ok buf st B M). Qed.

(** ** Single calls *)
Theorem push_result buf o st : 0 <= total st + o <= maxsize ->
  f_push buf o st = (Ok FNone, mkStream (total st + o) ((o, pos st) :: frames st) (total st + o)).
Proof.
  intro H. pose proof maxsize_pos. unfold f_push, f_seek_in, f_seek. cbn [total]. rewrite Z.add_0_r.
  unfold fits_ssize. replace ((- maxsize - 1 <=? total st + o) && (total st + o <=? maxsize)) with true by lia.
  replace (total st + o <? 0) with false by lia. reflexivity.
Qed.
Theorem push_raises buf o st : total st + o < 0 \/ maxsize < total st + o -> exists x,
  f_push buf o st = (Err x, mkStream (pos st) ((o, pos st) :: frames st) (total st + o))
  /\ (x = ValueError /\ - maxsize - 1 <= total st + o \/ x = OverflowError /\ (total st + o < - maxsize - 1 \/ maxsize < total st + o)).
Proof.
  intro H. pose proof maxsize_pos. unfold f_push, f_seek_in, f_seek. cbn [total]. rewrite Z.add_0_r. unfold fits_ssize.
  destruct ((- maxsize - 1 <=? total st + o) && (total st + o <=? maxsize)) eqn:E; cbn [negb].
  - replace (total st + o <? 0) with true by lia. cbn [andb]. change (0 =? 0) with true. cbn [bind]. eexists. split; [reflexivity|]. left. split; [reflexivity|lia].
  - cbn [bind]. eexists. split; [reflexivity|]. right. split; [reflexivity|lia].
Qed.
Theorem pop_result buf o ret fs p tot : 0 <= ret <= maxsize ->
  f_pop buf (mkStream p ((o, ret) :: fs) tot) = (Ok FNone, mkStream ret fs (tot - o)).
Proof.
  intro H. pose proof maxsize_pos. unfold f_pop, f_seek. cbn [frames total pos]. unfold fits_ssize.
  replace ((- maxsize - 1 <=? ret) && (ret <=? maxsize)) with true by lia. replace (ret <? 0) with false by lia. reflexivity.
Qed.
Theorem pop_empty buf st : frames st = [] -> f_pop buf st = (Err IndexError, st).
Proof. intro E. unfold f_pop. rewrite E. reflexivity. Qed.

(** ** Frames *)
Lemma push_state buf o st : exists q, snd (f_push buf o st) = mkStream q ((o, pos st) :: frames st) (total st + o).
Proof.
  destruct (Z.ltb_spec (total st + o) 0); [destruct (push_raises buf o st ltac:(lia)) as (x & -> & _); eexists; reflexivity|].
  destruct (Z.ltb_spec maxsize (total st + o)); [destruct (push_raises buf o st ltac:(lia)) as (x & -> & _); eexists; reflexivity|].
  rewrite push_result by lia. eexists; reflexivity.
Qed.
(** Properly nested calls keep the frames, whatever they raise. *)
Lemma nested_keeps buf ops : len buf <= maxsize -> nested ops -> forall st, cursor_ok st ->
  frames (f_calls buf ops st) = frames st /\ total (f_calls buf ops st) = total st.
Proof.
  intros B N. induction N as [|n ops N IH|p w ops N IH|p w ops N IH|o body ops N1 IH1 N2 IH2]; intros st C.
  - split; reflexivity.
  - rewrite calls_cons. destruct (IH _ (call_cursor buf (FRead n) st B C)) as [-> ->]. cbn [f_call]. destruct (f_read_spec buf n st) as (-> & -> & _). auto.
  - rewrite calls_cons. destruct (IH _ (call_cursor buf (FSeek p w) st B C)) as [-> ->]. cbn [f_call]. destruct (f_seek_spec buf p w st) as (-> & -> & _). auto.
  - rewrite calls_cons. destruct (IH _ (call_cursor buf (FSeekIn p w) st B C)) as [-> ->]. cbn [f_call]. destruct (f_seek_in_spec buf p w st) as (-> & -> & _). auto.
  - rewrite calls_cons, calls_app, calls_cons. pose proof (call_cursor buf (FPush o) st B C) as C1. cbn [f_call] in *.
    destruct (push_state buf o st) as [q Q]. destruct (IH1 _ C1) as [F T]. rewrite Q in F, T. cbn [frames total] in F, T. rewrite Q.
    rewrite Q in C1. pose proof (calls_cursor buf body B _ C1) as C2.
    destruct (f_calls buf body (mkStream q ((o, pos st) :: frames st) (total st + o))) as [p2 fs2 t2]. cbn [frames total] in F, T. subst fs2 t2.
    rewrite pop_result by (destruct C as [C _]; exact C). cbn [snd]. replace (total st + o - o) with (total st) by lia.
    apply (IH2 (mkStream (pos st) (frames st) (total st))). exact C.
Qed.
(** A frame is undone by pop_frame: cursor, frames and offset are as before,
    even if push_frame or the calls in between raised. *)
Theorem frame_restored buf o body st : len buf <= maxsize -> made buf st -> nested body ->
  f_calls buf (FPush o :: body ++ [FPop]) st = st
  /\ fst (f_pop buf (f_calls buf (FPush o :: body) st)) = Ok FNone.
Proof.
  intros B M N. pose proof (made_cursor_ok buf st B M) as C.
  rewrite !calls_cons, calls_app. pose proof (call_cursor buf (FPush o) st B C) as C1. cbn [f_call] in *.
  destruct (push_state buf o st) as [q Q]. rewrite Q in *. destruct (nested_keeps buf body B N _ C1) as [F T]. cbn [frames total] in F, T.
  destruct (f_calls buf body (mkStream q ((o, pos st) :: frames st) (total st + o))) as [p2 fs2 t2]. cbn [frames total] in F, T. subst fs2 t2.
  change (f_calls buf [FPop] ?s) with (snd (f_pop buf s)). rewrite pop_result by (destruct C as [C _]; exact C). cbn [fst snd].
  split; [|reflexivity]. replace (total st + o - o) with (total st) by lia. destruct st; reflexivity.
Qed.

(** ** The methods of Decoding.v are these methods *)
Lemma read_same buf n st : 0 <= n -> Decoding.read buf n st =
  match f_call buf (FRead (Some n)) st with (Ok (FData d), st') => Ok (d, st') | (Ok _, _) => Err OutOfFuel | (Err x, _) => Err x end.
Proof.
  intro H. pose proof maxsize_pos. unfold Decoding.read. cbn [f_call]. unfold f_read, fits_ssize.
  destruct (Z.ltb_spec maxsize n).
  - replace ((- maxsize - 1 <=? n) && (n <=? maxsize)) with false by lia. reflexivity.
  - replace ((- maxsize - 1 <=? n) && (n <=? maxsize)) with true by lia. cbn [negb]. replace (n <? 0) with false by lia. reflexivity.
Qed.
Lemma seek_same buf p st : - maxsize - 1 <= p -> Decoding.seek p st =
  match f_call buf (FSeek p 0) st with (Ok _, st') => Ok st' | (Err x, _) => Err x end.
Proof.
  intro H. pose proof maxsize_pos. unfold Decoding.seek. cbn [f_call]. unfold f_seek, fits_ssize.
  destruct (Z.ltb_spec p 0).
  - replace ((- maxsize - 1 <=? p) && (p <=? maxsize)) with true by lia. reflexivity.
  - destruct (Z.ltb_spec maxsize p).
    + replace ((- maxsize - 1 <=? p) && (p <=? maxsize)) with false by lia. reflexivity.
    + replace ((- maxsize - 1 <=? p) && (p <=? maxsize)) with true by lia. reflexivity.
Qed.
Lemma push_same buf o st : - maxsize - 1 <= total st + o -> Decoding.push_frame o st =
  match f_call buf (FPush o) st with (Ok _, st') => Ok st' | (Err x, _) => Err x end.
Proof.
  intro H. unfold Decoding.push_frame, Decoding.seek_in_frame. cbn [total]. rewrite (seek_same buf) by lia. cbn [f_call]. unfold f_push, f_seek_in.
  cbn [total]. destruct (f_seek buf (total st + o + 0) 0 _) as [[v|x] st']; reflexivity.
Qed.
Lemma pop_same buf st : Forall (fun f => - maxsize - 1 <= snd f) (frames st) -> Decoding.pop_frame st =
  match f_call buf FPop st with (Ok _, st') => Ok st' | (Err x, _) => Err x end.
Proof.
  intro H. unfold Decoding.pop_frame. cbn [f_call]. unfold f_pop. destruct (frames st) as [|[o ret] fs]; [reflexivity|]. inv H.
  rewrite (seek_same buf) by assumption. cbn [f_call]. destruct (f_seek buf ret 0 _) as [[v|x] st']; reflexivity.
Qed.

(** ** What calls do *)
Theorem seek_iff buf p w st q : fst (f_seek buf p w st) = Ok (FPos q) <-> seek_to (len buf) (pos st) p w q.
Proof.
  pose proof (len_nonneg buf). pose proof maxsize_pos. unfold f_seek, fits_ssize, seek_to.
  repeat match goal with |- context[if ?c then _ else _] => destruct c eqn:? end; cbn [fst]; split; intro E; try discriminate E;
    try (destruct E as (E1 & base & E2 & E3 & E4); exfalso; lia).
  - inv E. split; [lia|]. exists 0. lia.
  - destruct E as (E1 & base & E2 & E3 & E4). do 2 f_equal. lia.
  - injection E as <-. split; [lia|]. exists (pos st). lia.
  - destruct E as (E1 & base & E2 & E3 & E4). do 2 f_equal. lia.
  - injection E as <-. split; [lia|]. exists (len buf). lia.
  - destruct E as (E1 & base & E2 & E3 & E4). do 2 f_equal. lia.
Qed.
Theorem seek_moves buf p w st v st' : f_seek buf p w st = (Ok v, st') -> v = FPos (pos st') /\ frames st' = frames st /\ total st' = total st.
Proof.
  unfold f_seek. repeat match goal with |- context[if ?c then _ else _] => destruct c eqn:? end; intro E; inv E; repeat split; reflexivity.
Qed.
Theorem read_gives buf n st v st' : 0 <= pos st -> f_read buf n st = (Ok v, st') ->
  exists d, v = FData d /\ read_at buf (pos st) n d /\ pos st' = pos st + len d /\ frames st' = frames st /\ total st' = total st.
Proof.
  intros P E. pose proof (take_drop_z (pos st) buf P) as TD. pose proof (len_take_z (pos st) buf P) as LT. pose proof (len_drop_z (pos st) buf P) as LD.
  assert (K : exists d, v = FData d /\ st' = at_pos (pos st + len d) st
    /\ (d = drop_z (pos st) buf /\ match n with Some k => k < 0 | None => True end \/ exists k, n = Some k /\ 0 <= k /\ d = take_z k (drop_z (pos st) buf))).
  { unfold f_read in E. destruct n as [k|]; [destruct (negb (fits_ssize k)); [discriminate E|]; destruct (Z.ltb_spec k 0)|]; inv E; eexists; (split; [reflexivity|]; split; [reflexivity|]).
    - left. auto.
    - right. exists k. auto.
    - left. auto. }
  destruct K as (d & -> & -> & K). exists d. split; [reflexivity|]. split; [|repeat split; reflexivity].
  destruct (Z.ltb_spec (len buf) (pos st)) as [L|L].
  - left. split; [exact L|]. rewrite (drop_z_all (pos st) buf) in K by lia. destruct K as [[K _]|(k & _ & Hk & K)]; [exact K|]. rewrite K, take_z_firstn by exact Hk. apply firstn_nil.
  - right. destruct K as [[-> K]|(k & -> & Hk & ->)].
    + exists (take_z (pos st) buf), []. rewrite app_nil_r. split; [symmetry; exact TD|]. split; [lia|]. destruct n; auto.
    + exists (take_z (pos st) buf), (drop_z k (drop_z (pos st) buf)). split; [rewrite (take_drop_z k _ Hk); symmetry; exact TD|]. split; [lia|].
      left. split; [exact Hk|]. rewrite (len_take_z k _ Hk). destruct (Z.leb_spec k (len (drop_z (pos st) buf))); [left; lia|]. right. split; [lia|]. apply drop_z_all. lia.
Qed.
Theorem read_raises buf n st x st' : f_read buf n st = (Err x, st') -> x = OverflowError /\ st' = st /\ exists k, n = Some k /\ (k < - maxsize - 1 \/ maxsize < k).
Proof.
  unfold f_read, fits_ssize. destruct n as [k|]; [|discriminate]. destruct (negb _) eqn:C; [|discriminate]. intro E. inv E. split; [reflexivity|]. split; [reflexivity|].
  exists k. split; [reflexivity|lia].
Qed.
Theorem seek_in_is_seek buf p w st : f_seek_in buf p w st = (fst (f_seek buf (total st + p) w st) ;;; Ok FNone, snd (f_seek buf (total st + p) w st)).
Proof. unfold f_seek_in. destruct (f_seek buf (total st + p) w st). reflexivity. Qed.
Lemma seek_raises buf p w st x st' : f_seek buf p w st = (Err x, st') -> st' = st.
Proof. unfold f_seek. repeat match goal with |- context[if ?c then _ else _] => destruct c eqn:? end; intro E; inv E; reflexivity. Qed.
Theorem raises_unchanged buf op st x st' : len buf <= maxsize -> made buf st -> (forall o, op <> FPush o) -> f_call buf op st = (Err x, st') -> st' = st.
Proof.
  intros B M N E. apply made_cursor_ok in M; [|exact B]. destruct M as [_ F]. destruct op as [n|p w|p w|o|]; cbn [f_call] in E.
  - apply read_raises in E. tauto.
  - eapply seek_raises; exact E.
  - rewrite seek_in_is_seek in E. destruct (f_seek buf (total st + p) w st) as [[v|y] st1] eqn:S; cbn [fst snd bind] in E; inv E. eapply seek_raises; exact S.
  - destruct (N o eq_refl).
  - destruct (frames st) as [|[o ret] fs] eqn:Fr; [rewrite (pop_empty buf st Fr) in E; congruence|]. inv F. destruct st as [p fr t]. cbn [frames] in Fr. subst fr.
    rewrite (pop_result buf o ret fs p t H1) in E. discriminate E.
Qed.
Theorem seek_fails_iff buf p w st x st' : f_seek buf p w st = (Err x, st') <-> st' = st /\ seek_fails (len buf) (pos st) p w x.
Proof.
  pose proof maxsize_pos. unfold f_seek, fits_ssize, seek_fails.
  repeat match goal with |- context[if ?c then _ else _] => destruct c eqn:? end; split; intro E;
    first [discriminate E | injection E as <- <-; split; [reflexivity|]; first [left; split; [reflexivity|lia] | right; split; [reflexivity|lia]]
          | destruct E as [-> [[-> E]|[-> E]]]; first [reflexivity | exfalso; lia]].
Qed.
