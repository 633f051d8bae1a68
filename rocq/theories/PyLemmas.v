(** Facts about the Python built-ins of Py.v. *)
From Coq Require Import List ZArith QArith Qabs Bool Arith Permutation Sorted Lia Lqa.
From Verif Require Import Py.
Import ListNotations.
Open Scope nat_scope.
Open Scope list_scope.

Lemma Qltb_iff x y : Qltb x y = true <-> (x < y)%Q.
Proof.
  unfold Qltb. rewrite negb_true_iff. destruct (Qle_bool y x) eqn:E.
  - apply Qle_bool_iff in E. split; [discriminate|]. intros H. lra.
  - split; auto. intros _. apply Qnot_le_lt. intros H. apply Qle_bool_iff in H. congruence.
Qed.
Lemma Qltb_niff x y : Qltb x y = false <-> (y <= x)%Q.
Proof.
  rewrite <- not_true_iff_false, Qltb_iff. split; intros H; [now apply Qnot_lt_le|lra].
Qed.
Lemma Qleb_iff x y : Qleb x y = true <-> (x <= y)%Q.
Proof. apply Qle_bool_iff. Qed.
Lemma Qleb_niff x y : Qleb x y = false <-> (y < x)%Q.
Proof.
  rewrite <- not_true_iff_false, Qleb_iff. split; intros H; [now apply Qnot_le_lt|lra].
Qed.
Lemma Qeqb_iff x y : Qeqb x y = true <-> (x == y)%Q.
Proof. apply Qeq_bool_iff. Qed.
Lemma Qeqb_niff x y : Qeqb x y = false <-> ~ (x == y)%Q.
Proof. rewrite <- not_true_iff_false, Qeqb_iff. reflexivity. Qed.

Ltac qb := rewrite ?andb_true_iff, ?orb_true_iff, ?negb_true_iff, ?andb_false_iff, ?orb_false_iff,
  ?negb_false_iff, ?Qltb_iff, ?Qltb_niff, ?Qleb_iff, ?Qleb_niff, ?Qeqb_iff, ?Qeqb_niff in *.

Lemma bind_Ok {A B} (r : res A) (f : A -> res B) b :
  bind r f = Ok b -> exists a, r = Ok a /\ f a = Ok b.
Proof. destruct r; cbn; [eauto|discriminate]. Qed.

Lemma py_nth_Ok {A} (l : list A) i x : py_nth l i = Ok x <-> nth_error l i = Some x.
Proof. unfold py_nth. destruct (nth_error l i); split; congruence. Qed.
Lemma py_nth_lt {A} (l : list A) i : i < length l -> exists x, py_nth l i = Ok x.
Proof.
  intros H. unfold py_nth. destruct (nth_error l i) eqn:E; eauto.
  apply nth_error_None in E. lia.
Qed.

Section Upd.
  Context {A : Type}.
  Implicit Types (l : list A).

  Lemma upd_length l i f : length (upd l i f) = length l.
  Proof. revert i; induction l; intros [|i]; cbn; auto. Qed.

  Lemma nth_error_upd l i f j :
    nth_error (upd l i f) j =
    if (i =? j)%nat then option_map f (nth_error l j) else nth_error l j.
  Proof.
    revert i j; induction l as [|x l IH]; intros [|i] [|j]; cbn; auto;
      destruct (i =? j)%nat; auto.
  Qed.

  Lemma upd_split l i f x :
    nth_error l i = Some x ->
    exists l1 l2, l = l1 ++ x :: l2 /\ length l1 = i /\ upd l i f = l1 ++ f x :: l2.
  Proof.
    revert i; induction l as [|y l IH]; intros [|i]; cbn; try discriminate.
    - intros [= ->]. exists [], l. auto.
    - intros H. destruct (IH i H) as (l1 & l2 & -> & <- & ->). exists (y :: l1), l2. auto.
  Qed.

  Lemma Forall2_refl (R : A -> A -> Prop) l : (forall x, R x x) -> Forall2 R l l.
  Proof. intros H; induction l; auto. Qed.

  Lemma Forall2_upd (R : A -> A -> Prop) l i f :
    (forall x, R x x) -> (forall x, nth_error l i = Some x -> R x (f x)) ->
    Forall2 R l (upd l i f).
  Proof.
    intros Hr. revert i; induction l as [|y l IH]; intros [|i] H; cbn; constructor;
      auto using Forall2_refl.
  Qed.

  Lemma Forall2_trans (R S T : A -> A -> Prop) l1 l2 l3 :
    (forall x y z, R x y -> S y z -> T x z) ->
    Forall2 R l1 l2 -> Forall2 S l2 l3 -> Forall2 T l1 l3.
  Proof.
    intros H H1. revert l3. induction H1; intros l3 H2; inversion H2; subst; constructor; eauto.
  Qed.

  Lemma Forall2_impl' (R S : A -> A -> Prop) l1 l2 :
    (forall x y, R x y -> S x y) -> Forall2 R l1 l2 -> Forall2 S l1 l2.
  Proof. intros H H1. induction H1; auto. Qed.
End Upd.

Lemma Forall2_In_r {A B} (R : A -> B -> Prop) l l' y :
  Forall2 R l l' -> In y l' -> exists x, In x l /\ R x y.
Proof.
  intros H. induction H; cbn; [tauto|]. intros [<-|I]; eauto. destruct (IHForall2 I) as (z & ? & ?); eauto.
Qed.
Lemma Forall2_In_l {A B} (R : A -> B -> Prop) l l' x :
  Forall2 R l l' -> In x l -> exists y, In y l' /\ R x y.
Proof.
  intros H. induction H; cbn; [tauto|]. intros [<-|I]; eauto. destruct (IHForall2 I) as (z & ? & ?); eauto.
Qed.
Lemma Forall2_nth {A B} (R : A -> B -> Prop) l l' :
  Forall2 R l l' -> forall i x, nth_error l i = Some x -> exists y, nth_error l' i = Some y /\ R x y.
Proof.
  intros H. induction H; intros [|i] z; cbn; try discriminate.
  - intros [= <-]. eauto.
  - apply IHForall2.
Qed.
Lemma Forall2_nth_r {A B} (R : A -> B -> Prop) l l' :
  Forall2 R l l' -> forall i y, nth_error l' i = Some y -> exists x, nth_error l i = Some x /\ R x y.
Proof.
  intros H. induction H; intros [|i] z; cbn; try discriminate.
  - intros [= <-]. eauto.
  - apply IHForall2.
Qed.

(** Forall2 commutes with permutations. *)
Lemma Forall2_perm {A B} (R : A -> B -> Prop) l l' m :
  Forall2 R l l' -> Permutation l' m -> exists k, Permutation l k /\ Forall2 R k m.
Proof.
  intros H P. revert l H. induction P; intros k H.
  - inversion H; subst. exists []. auto.
  - inversion H; subst. destruct (IHP _ H4) as (k' & ? & ?). exists (x0 :: k'). auto.
  - inversion H; subst. inversion H4; subst. exists (x1 :: x0 :: l1). split; [apply perm_swap|auto].
  - destruct (IHP1 _ H) as (k' & ? & ?). destruct (IHP2 _ H1) as (k'' & ? & ?).
    exists k''. split; [eapply perm_trans; eauto|auto].
Qed.

Lemma filter_perm {A} (f : A -> bool) l l' : Permutation l l' -> Permutation (filter f l) (filter f l').
Proof.
  intros H; induction H; cbn; auto.
  - destruct (f x); auto.
  - destruct (f x), (f y); auto using perm_swap.
  - eapply perm_trans; eauto.
Qed.

(** ** sorted *)
Section Sorted.
  Context {A : Type}.
  Variable lt : A -> A -> bool.

  Lemma py_insert_perm x l : Permutation (x :: l) (py_insert lt x l).
  Proof.
    induction l as [|y l IH]; cbn; auto. destruct (lt y x); auto.
    eapply perm_trans; [apply perm_swap|]. auto.
  Qed.
  Lemma py_sorted_perm l : Permutation l (py_sorted lt l).
  Proof.
    induction l; cbn; auto. eapply perm_trans; [|apply py_insert_perm]. auto.
  Qed.
  Lemma py_sorted_length l : length (py_sorted lt l) = length l.
  Proof. symmetry. apply Permutation_length, py_sorted_perm. Qed.

  Definition py_le (x y : A) : Prop := lt y x = false.
  Definition py_tie (x y : A) : bool := negb (lt x y) && negb (lt y x).
  Hypothesis le_trans : forall x y z, py_le x y -> py_le y z -> py_le x z.
  Hypothesis asym : forall x y, lt x y = true -> lt y x = false.

  Lemma py_insert_sorted x l :
    StronglySorted py_le l -> StronglySorted py_le (py_insert lt x l).
  Proof.
    induction 1 as [|y l S IH F]; cbn; [repeat constructor|].
    destruct (lt y x) eqn:E.
    - constructor; auto. apply Forall_forall. intros z Iz.
      apply (Permutation_in z (Permutation_sym (py_insert_perm x l))) in Iz.
      destruct Iz as [<-|Iz]; [unfold py_le; auto|].
      rewrite Forall_forall in F. auto.
    - constructor; [constructor; auto|]. constructor; auto.
      apply Forall_forall. intros z Iz. rewrite Forall_forall in F.
      apply le_trans with y; [exact E|auto].
  Qed.
  Lemma py_sorted_sorted l : StronglySorted py_le (py_sorted lt l).
  Proof. induction l; cbn; [constructor|]. now apply py_insert_sorted. Qed.

  Lemma py_insert_stable a x l : filter (py_tie a) (py_insert lt x l) = filter (py_tie a) (x :: l).
  Proof.
    induction l as [|y l IH]; auto. cbn [py_insert]. destruct (lt y x) eqn:E; auto.
    cbn [filter] in *. rewrite IH.
    destruct (py_tie a x) eqn:Ex, (py_tie a y) eqn:Ey; auto.
    exfalso. unfold py_tie in *. apply andb_true_iff in Ex, Ey.
    rewrite !negb_true_iff in *. destruct Ex as [E1 E2], Ey as [E3 E4].
    assert (py_le x y) as H by (apply le_trans with a; [exact E1|exact E4]).
    unfold py_le in H. congruence.
  Qed.
  Lemma py_sorted_stable a l : filter (py_tie a) (py_sorted lt l) = filter (py_tie a) l.
  Proof.
    induction l as [|x l IH]; auto. cbn [py_sorted]. rewrite py_insert_stable.
    cbn. now rewrite IH.
  Qed.
End Sorted.

Section SortedM.
  Context {A : Type}.
  Variable lt : A -> A -> res bool.

  Lemma py_insertM_perm x l l' : py_insertM lt x l = Ok l' -> Permutation (x :: l) l'.
  Proof.
    revert l'; induction l as [|y l IH]; cbn; intros l' H; [injection H as <-; auto|].
    apply bind_Ok in H. destruct H as (b & E & H). destruct b.
    - apply bind_Ok in H. destruct H as (k & Ek & H). injection H as <-.
      eapply perm_trans; [apply perm_swap|]. auto.
    - injection H as <-. auto.
  Qed.
  Lemma py_sortedM_perm l l' : py_sortedM lt l = Ok l' -> Permutation l l'.
  Proof.
    revert l'; induction l as [|y l IH]; cbn; intros l' H; [injection H as <-; auto|].
    apply bind_Ok in H. destruct H as (k & E & H).
    eapply perm_trans; [|eapply py_insertM_perm; eauto]. auto.
  Qed.
End SortedM.

Lemma mapM_Forall2 {A B} (f : A -> res B) l l' :
  mapM f l = Ok l' -> Forall2 (fun x y => f x = Ok y) l l'.
Proof.
  revert l'; induction l as [|x l IH]; cbn; intros l' H; [injection H as <-; auto|].
  apply bind_Ok in H. destruct H as (y & E & H). apply bind_Ok in H. destruct H as (ys & E' & H).
  injection H as <-. constructor; auto.
Qed.
Lemma mapM_Ok {A B} (f : A -> res B) l :
  (forall x, In x l -> exists y, f x = Ok y) -> exists l', mapM f l = Ok l'.
Proof.
  induction l as [|x l IH]; cbn; intros H; eauto.
  destruct (H x) as (y & ->); auto. destruct IH as (ys & ->); auto. cbn. eauto.
Qed.
Lemma Forall2_len {A B} (R : A -> B -> Prop) l l' : Forall2 R l l' -> length l = length l'.
Proof. induction 1; cbn; auto. Qed.
Lemma mapM_length {A B} (f : A -> res B) l l' : mapM f l = Ok l' -> length l' = length l.
Proof. intros H. apply mapM_Forall2 in H. symmetry. eapply Forall2_len; eauto. Qed.
