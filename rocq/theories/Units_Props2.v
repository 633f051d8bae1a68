(** More on products and quotients of quantities: C10. *)
From Coq Require Import List ZArith QArith Qpower Qfield Lqa Bool String Lia Setoid Morphisms.
From Verif Require Import Py StrUtil Units_Model Units_Spec Units_Proofs Units_Algebra Units_Proofs2.
Import ListNotations.
Open Scope Q_scope.
Open Scope list_scope.

Lemma nodup_left {X} (a b : list X) : NoDup (a ++ b) -> NoDup a.
Proof.
  induction a as [|x a IH]; intros H; [constructor|]. inversion H as [|? ? A B]; subst. constructor; [intros I; apply A, in_or_app; now left|auto].
Qed.
Definition raised (k : Z) (l : list (named * Z)) : list (named * Z) := map (fun bp => (fst bp, (snd bp * k)%Z)) l.
Lemma fold_fresh k l acc : NoDup (ids (acc ++ l)) -> fold_left (collect_inner k) l acc = acc ++ raised k l.
Proof.
  revert acc. induction l as [|[n p] l IH]; intros acc H; cbn [fold_left raised map]; [now rewrite app_nil_r|].
  assert (F : in_bases n acc = false).
  { apply not_true_iff_false. rewrite in_bases_iff. intros I. rewrite ids_app in H. cbn in H. apply NoDup_remove_2 in H. apply H. apply in_or_app. now left. }
  assert (collect_inner k acc (n, p) = acc ++ [(n, p * k)%Z]) as -> by (cbn; now rewrite F).
  rewrite IH; [rewrite <- app_assoc; reflexivity|]. rewrite <- app_assoc. cbn [app]. rewrite ids_app in *. cbn [ids map fst] in *. exact H.
Qed.
Lemma raised_1 l : raised 1 l = l.
Proof. unfold raised. induction l as [|[n p] l IH]; cbn; [reflexivity|]. now rewrite IH, Z.mul_1_r. Qed.
Lemma outer_fresh acc u k : NoDup (ids (acc ++ unit_bases u)) -> collect_outer acc (u, k) = acc ++ raised k (unit_bases u).
Proof.
  intros H. destruct u as [n|c].
  - cbn [unit_bases] in H. unfold collect_outer. rewrite ids_app in H. cbn in H.
    assert (in_bases n acc = false) as ->.
    { apply not_true_iff_false. rewrite in_bases_iff. intros I. apply NoDup_remove_2 in H. apply H. apply in_or_app. now left. }
    cbn. destruct k; reflexivity.
  - apply fold_fresh. exact H.
Qed.
Lemma inv_bases u : wf_unit u -> unit_bases (u_inv u) = raised (-1) (unit_bases u).
Proof.
  intros W. transitivity (collect_outer [] (u, (-1)%Z)).
  - destruct u as [n|c]; reflexivity.
  - rewrite outer_fresh; auto.
Qed.
Lemma mul_bases a b : NoDup (ids (unit_bases a ++ unit_bases b)) -> is_unity a = false -> is_unity b = false ->
  unit_bases (u_mul a b) = unit_bases a ++ unit_bases b.
Proof.
  intros N A B. unfold u_mul. rewrite A, B. transitivity (collect_outer (collect_outer [] (a, 1%Z)) (b, 1%Z)); [destruct a, b; reflexivity|].
  rewrite (outer_fresh [] a), app_nil_l, raised_1.
  - rewrite outer_fresh, raised_1; auto.
  - rewrite app_nil_l. rewrite ids_app in N. exact (nodup_left _ _ N).
Qed.
Lemma raised_exponent l i : listed_exponent (raised (-1) l) i = (- listed_exponent l i)%Z.
Proof. induction l as [|[n p] l IH]; cbn; [reflexivity|]. unfold raised in IH. rewrite IH. destruct (Nat.eqb _ _); lia. Qed.
Lemma raised_size l : (forall n p, In (n, p) l -> ~ n_scale n == 0) -> product_size (raised (-1) l) == / product_size l.
Proof.
  induction l as [|[n p] l IH]; intros H; cbn; [reflexivity|]. unfold raised in IH. rewrite IH by (intros m q I; apply (H m q); now right).
  assert (~ n_scale n == 0) by (apply (H n p); now left). rewrite Qinv_mult_distr. apply Qmult_comp; [|reflexivity].
  rewrite <- Z.opp_eq_mul_m1. apply Qpower_opp.
Qed.

Lemma not_unity e : unit_bases (eval e) <> [] -> is_unity (eval e) = false.
Proof.
  intros H. apply not_true_iff_false. intros U. apply H. clear H.
  induction e; cbn [eval] in *; unfold u_div, u_inv, u_pow in *; cbn [is_unity unit_bases] in *; try discriminate; try now apply mk_unity.
  unfold u_mul in *. destruct (is_unity (eval e2)) eqn:U2; auto.
  destruct (is_unity (eval e1)) eqn:U1; [congruence|]. cbn [is_unity unit_bases] in *. now apply mk_unity.
Qed.

(** A number divided by a quantity: the SI value is the quotient, and every base unit has the
    opposite exponent.  Dividing by a zero quantity is an error. *)
Theorem C10_number_over_quantity :
  forall reg a x y, (forall i, ~ n_scale (reg i) == 0) -> from_registry reg a ->
    (~ y == 0 -> exists s, q_rdiv (mkQty y (eval a)) x = Ok s /\
       si_value s == x / (y * si_size (eval a)) /\
       forall i, shown_exponent (q_unit s) i = (- shown_exponent (eval a) i)%Z) /\
    (y == 0 -> q_rdiv (mkQty y (eval a)) x = Raise ZeroDivisionError).
Proof.
  intros reg a x y N R. unfold q_rdiv, py_div. cbn [q_data q_unit]. split.
  - intros Y. assert (Qeq_bool y 0 = false) as -> by (apply not_true_iff_false; rewrite Qeq_bool_iff; exact Y). cbn [bind]. eexists. split; [reflexivity|].
    assert (RL : reg_list reg (unit_bases (eval a))) by (now apply reg_eval). assert (W : wf_unit (eval a)) by apply wf_eval.
    split.
    + unfold si_value. cbn [q_data q_unit]. rewrite !si_size_bases, inv_bases by auto. rewrite raised_size.
      * unfold Qdiv. rewrite Qinv_mult_distr. ring.
      * intros n p I. rewrite (RL n p I). apply N.
    + intros i. cbn [q_unit]. unfold shown_exponent. rewrite inv_bases by auto. apply raised_exponent.
  - intros Y. apply Qeq_bool_iff in Y. now rewrite Y.
Qed.
(** The base units of a product are listed in the order of its factors (and so is its dimension,
    which matters to conversions: C06). *)
Theorem C10_product_order :
  forall a b x y da db, dimension (eval a) = Ok da -> dimension (eval b) = Ok db -> da <> db ->
    NoDup (map (fun bp => n_id (fst bp)) (unit_bases (eval a) ++ unit_bases (eval b))) ->
    unit_bases (eval a) <> [] -> unit_bases (eval b) <> [] ->
    exists s, q_mul (mkQty x (eval a)) (OQty (mkQty y (eval b))) = Ok s /\ q_data s == x * y /\
      unit_bases (q_unit s) = unit_bases (eval a) ++ unit_bases (eval b).
Proof.
  intros a b x y da db Da Db Ne N A B. unfold q_mul. cbn [q_unit q_data]. rewrite Da, Db. cbn [bind].
  assert (String.eqb da db = false) as -> by now apply String.eqb_neq. eexists. split; [reflexivity|]. split; [cbn [q_data]; reflexivity|].
  cbn [q_unit]. apply mul_bases; auto; apply not_unity; auto.
Qed.

Example C10_more_example :
  (exists s, q_rdiv (mkQty 4 (eval (EDiv (EName u_km) (EName u_hr)))) 2 = Ok s /\ si_value s == 18 # 10) /\
  exists da db, dimension (UN u_m) = Ok da /\ dimension (UN u_s) = Ok db /\ da <> db /\
    NoDup (map (fun bp => n_id (fst bp)) (unit_bases (UN u_m) ++ unit_bases (UN u_s))).
Proof.
  split; [eexists; split; vm_compute; reflexivity|]. exists "L"%string, "T"%string. split; [reflexivity|]. split; [reflexivity|]. split; [discriminate|].
  cbn. repeat constructor; cbn; intuition discriminate.
Qed.
Print Assumptions C10_number_over_quantity.
Print Assumptions C10_product_order.
