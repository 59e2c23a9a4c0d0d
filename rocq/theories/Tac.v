(** Shared tactics and list lemmas. *)
From Coq Require Strings.Byte.
From Coq Require Export Lia.
From Coq Require Export ZifyBool ZifyNat ZifyN.
From Verif Require Export Py.
Open Scope Z_scope.

Ltac Zify.zify_post_hook ::= Z.div_mod_to_equations.

Ltac inv H := inversion H; subst; clear H.

(** Destructs the innermost scrutinee of a [match] in the goal. *)
Ltac dm :=
  match goal with
  | |- context [match ?x with _ => _ end] =>
      lazymatch x with context [match _ with _ => _ end] => fail | _ => destruct x eqn:? end
  end.
Ltac dmh H :=
  match type of H with
  | context [match ?x with _ => _ end] =>
      lazymatch x with context [match _ with _ => _ end] => fail | _ => destruct x eqn:? end
  end.

(** Names the hypothesis of the given form. *)
Tactic Notation "take" open_constr(T) "as" ident(N) :=
  match goal with H : ?X |- _ => unify X T; rename H into N end.

Lemma bind_Ok {A B} (r : result A) (k : A -> result B) b :
  bind r k = Ok b <-> exists a, r = Ok a /\ k a = Ok b.
Proof.
  destruct r as [a|e]; cbn [bind]; split.
  - intro H; exists a; auto.
  - intros (a' & Ha & Hk); inv Ha; exact Hk.
  - discriminate.
  - intros (a' & Ha & _); discriminate.
Qed.
Lemma bind_Err {A B} (r : result A) (k : A -> result B) e :
  bind r k = Err e <-> r = Err e \/ exists a, r = Ok a /\ k a = Err e.
Proof.
  destruct r as [a|e']; cbn [bind]; split.
  - intro H; right; exists a; auto.
  - intros [H|(a' & Ha & Hk)]; [discriminate|inv Ha; exact Hk].
  - intro H; left; congruence.
  - intros [H|(a0 & Ha & _)]; [congruence|discriminate].
Qed.
Lemma raise_if_Ok c e u : raise_if c e = Ok u <-> c = false.
Proof. destruct c, u; cbn; split; congruence. Qed.
Lemma raise_if_Err c e e' : raise_if c e = Err e' <-> c = true /\ e' = e.
Proof.
  destruct c; cbn; split.
  - intro H; inv H; auto.
  - intros [_ ->]; reflexivity.
  - discriminate.
  - intros [H _]; discriminate.
Qed.

Ltac bok H :=
  match type of H with
  | bind _ _ = Ok _ =>
      let x := fresh "x" in let Hx := fresh "Hx" in
      apply bind_Ok in H; destruct H as (x & Hx & H)
  end.

(** ** Lengths *)
Lemma len_nonneg {A} (l : list A) : 0 <= len l.
Proof. unfold len; lia. Qed.
Lemma len_nil {A} : len (@nil A) = 0.
Proof. reflexivity. Qed.
Lemma len_cons {A} (x : A) l : len (x :: l) = 1 + len l.
Proof. unfold len; cbn [length]; lia. Qed.
Lemma len_app {A} (l1 l2 : list A) : len (l1 ++ l2) = len l1 + len l2.
Proof. unfold len; rewrite app_length; lia. Qed.
Lemma len_map {A B} (f : A -> B) l : len (map f l) = len l.
Proof. unfold len; rewrite map_length; reflexivity. Qed.
Lemma len_repeat {A} (x : A) n : len (repeat x n) = Z.of_nat n.
Proof. unfold len; rewrite repeat_length; reflexivity. Qed.
Lemma len_rev {A} (l : list A) : len (rev l) = len l.
Proof. unfold len; rewrite rev_length; reflexivity. Qed.
Lemma len_firstn {A} n (l : list A) : len (firstn n l) = Z.min (Z.of_nat n) (len l).
Proof. unfold len; rewrite firstn_length; lia. Qed.
Lemma len_skipn {A} n (l : list A) : len (skipn n l) = Z.max 0 (len l - Z.of_nat n).
Proof. unfold len; rewrite skipn_length; lia. Qed.
Lemma len_0 {A} (l : list A) : len l = 0 -> l = [].
Proof. destruct l; [reflexivity|rewrite len_cons; pose proof (len_nonneg l); lia]. Qed.
Global Opaque len.

Ltac lens :=
  repeat first
    [ match goal with |- context [@len ?A (@nil ?B)] => change (@len A (@nil B)) with 0 end
    | rewrite len_cons | rewrite len_app | rewrite len_map | rewrite len_repeat
    | rewrite len_rev | rewrite len_firstn | rewrite len_skipn ];
  repeat match goal with
    | H : context [len _] |- _ =>
        first
          [ match type of H with context [@len ?A (@nil ?B)] => change (@len A (@nil B)) with 0 in H end
          | rewrite len_cons in H | rewrite len_app in H
          | rewrite len_map in H | rewrite len_repeat in H | rewrite len_rev in H
          | rewrite len_firstn in H | rewrite len_skipn in H ]
    end.

(** ** Equality tests *)
Lemma list_eqb_spec {A} (eqb : A -> A -> bool) (Heq : forall x y, eqb x y = true <-> x = y) l1 l2 :
  list_eqb eqb l1 l2 = true <-> l1 = l2.
Proof.
  revert l2; induction l1 as [|x l1 IH]; intros [|y l2]; cbn; try (split; congruence).
  rewrite andb_true_iff, Heq, IH. split; [intros []; congruence|intro H; inv H; auto].
Qed.
Lemma str_eqb_eq s1 s2 : str_eqb s1 s2 = true <-> s1 = s2.
Proof. apply list_eqb_spec, N.eqb_eq. Qed.
Lemma str_eqb_refl s : str_eqb s s = true.
Proof. apply str_eqb_eq; reflexivity. Qed.
Lemma str_eqb_neq s1 s2 : str_eqb s1 s2 = false <-> s1 <> s2.
Proof. rewrite <- str_eqb_eq; destruct (str_eqb s1 s2); split; congruence. Qed.
Lemma byte_eqb_eq x y : Byte.eqb x y = true <-> x = y.
Proof.
  split; [apply Byte.byte_dec_bl|apply Byte.byte_dec_lb].
Qed.
Lemma bytes_eqb_eq s1 s2 : bytes_eqb s1 s2 = true <-> s1 = s2.
Proof. apply list_eqb_spec, byte_eqb_eq. Qed.
Lemma bytes_eqb_refl s : bytes_eqb s s = true.
Proof. apply bytes_eqb_eq; reflexivity. Qed.
Lemma bytes_eqb_neq s1 s2 : bytes_eqb s1 s2 = false <-> s1 <> s2.
Proof. rewrite <- bytes_eqb_eq; destruct (bytes_eqb s1 s2); split; congruence. Qed.
