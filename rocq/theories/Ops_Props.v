(** Operators between numbers, units and quantities: C138, C139, C140. *)
From Coq Require Import String Ascii List ZArith QArith Qabs Bool Lia.
From Verif Require Import Py PyLemmas Units_Model Units_Spec Units_Proofs Units_Algebra Units_Proofs2 Units_Props Ops_Model Ops_Spec.
Import ListNotations.
Open Scope list_scope.

(** ** C138: products, quotients, sums and differences have the right kind *)
Lemma dispatch_kind (l r : res method) k :
  (forall v, l = Ok (Some v) -> k = Some (kind_of v)) -> (forall v, r = Ok (Some v) -> l = Ok None -> k = Some (kind_of v)) ->
  (forall e, l = Raise e -> k = None -> e = TypeError) -> (forall e, r = Raise e -> l = Ok None -> k = None -> e = TypeError) ->
  as_expected k (dispatch l r).
Proof.
  intros A B C D. unfold dispatch. destruct l as [[v|]|e]; cbn [bind].
  - rewrite (A v eq_refl). reflexivity.
  - destruct r as [[v|]|e]; cbn [bind].
    + rewrite (B v eq_refl eq_refl). reflexivity.
    + destruct k; cbn; auto.
    + destruct k; cbn; auto.
  - destruct k; cbn; auto.
Qed.
Lemma qreturns_kind r v : qreturns r = Ok (Some v) -> kind_of v = AQuantity.
Proof. unfold qreturns, returns. destruct r; cbn [bind]; intros H; [injection H as <-; reflexivity|discriminate]. Qed.
Ltac kinds a b :=
  destruct a, b; apply dispatch_kind; cbn [unit_mul unit_rmul unit_div unit_rdiv qty_method qty_sub_method qty_rdiv kind_of product_kind quotient_kind sum_kind];
  unfold not_implemented, returns; intros;
  repeat match goal with
  | H : context [Qeq_bool ?x 1] |- _ => destruct (Qeq_bool x 1)
  | H : bind (py_div ?x ?y) _ = _ |- _ => destruct (py_div x y); cbn [bind] in H
  | H : qreturns _ = Ok (Some ?v) |- _ => apply qreturns_kind in H; rewrite H; clear H
  end;
  try match goal with H : Ok (Some _) = Ok (Some _) |- _ => injection H as <- end; try congruence; try reflexivity.

(** Full claim: each operation returns what it should, or raises.  Products of units with
    quantities and other objects are wrong. *)
Theorem C138_products_partial :
  forall a b, ~ odd_product (kind_of a) (kind_of b) -> as_expected (product_kind (kind_of a) (kind_of b)) (py_mul a b).
Proof.
  intros a b O. unfold py_mul. unfold odd_product in O.
  destruct a, b; try (exfalso; apply O; cbn; first [left; repeat split; congruence|right; repeat split; congruence]); clear O;
  apply dispatch_kind; cbn [unit_mul unit_rmul qty_method kind_of product_kind]; unfold not_implemented, returns; intros;
  repeat match goal with H : qreturns _ = Ok (Some ?v) |- _ => apply qreturns_kind in H; rewrite H; clear H end;
  try match goal with H : Ok (Some _) = Ok (Some _) |- _ => injection H as <- end; try congruence; try reflexivity.
Qed.
Theorem C138_products_refuted :
  forall a b, odd_product (kind_of a) (kind_of b) -> py_mul a b = Ok VNone.
Proof. intros a b [(A & B & C)|(A & B & C)]; destruct a, b; cbn [kind_of] in *; try congruence; reflexivity. Qed.
Theorem C138_quotients :
  forall a b, as_expected (quotient_kind (kind_of a) (kind_of b)) (py_truediv a b).
Proof. intros a b. unfold py_truediv. kinds a b. Qed.
Theorem C138_sums :
  forall a b, as_expected (sum_kind (kind_of a) (kind_of b)) (py_add a b) /\ as_expected (sum_kind (kind_of a) (kind_of b)) (py_sub a b).
Proof. intros a b. split; [unfold py_add|unfold py_sub]; kinds a b. Qed.
(** Only the number one can be divided by a unit. *)
Theorem C138_number_over_unit :
  forall x u, py_truediv (VNum x) (VUnit u) = if Qeq_bool x 1 then Ok (VUnit (u_inv u)) else Raise TypeError.
Proof. intros x u. unfold py_truediv, dispatch. cbn. destruct (Qeq_bool x 1); reflexivity. Qed.
(** Numbers with quantities: a factor scales the quantity; a summand is in the unit of the quantity. *)
Theorem C138_numbers :
  forall x q,
    (exists s, py_mul (VNum x) (VQty q) = Ok (VQty s) /\ q_unit s = q_unit q /\ si_value s == x * si_value q) /\
    (exists s, py_mul (VQty q) (VNum x) = Ok (VQty s) /\ q_unit s = q_unit q /\ si_value s == x * si_value q) /\
    (~ x == 0 -> exists s, py_truediv (VQty q) (VNum x) = Ok (VQty s) /\ q_unit s = q_unit q /\ si_value s == si_value q / x) /\
    (exists s, py_add (VQty q) (VNum x) = Ok (VQty s) /\ q_unit s = q_unit q /\ q_data s == q_data q + x) /\
    (exists s, py_add (VNum x) (VQty q) = Ok (VQty s) /\ q_unit s = q_unit q /\ q_data s == q_data q + x) /\
    (exists s, py_sub (VQty q) (VNum x) = Ok (VQty s) /\ q_unit s = q_unit q /\ q_data s == q_data q - x) /\
    (exists s, py_sub (VNum x) (VQty q) = Ok (VQty s) /\ q_unit s = q_unit q /\ q_data s == x - q_data q).
Proof.
  intros x q. unfold si_value. repeat match goal with |- _ /\ _ => split end;
    try (intros N; unfold py_truediv, dispatch; cbn [qty_method q_div]; unfold py_div; destruct (Qeq_bool x 0) eqn:E; [apply Qeq_bool_iff in E; contradiction|cbn [bind qreturns returns]];
         eexists; split; [reflexivity|]; cbn [q_unit q_data]; split; [reflexivity|]; field; exact N);
    (eexists; split; [reflexivity|]; cbn [q_unit q_data q_neg]; split; [reflexivity|]; try ring).
Qed.
(** The difference of two quantities, in the right order. *)
Theorem C138_difference :
  forall env q r d, sized env (q_unit q) -> sized env (q_unit r) -> dimension (q_unit q) = Ok d -> dimension (q_unit r) = Ok d ->
    exists s, py_sub (VQty q) (VQty r) = Ok (VQty s) /\ q_unit s = q_unit q /\ si_value s == si_value q - si_value r.
Proof.
  intros env q r d Sq Sr Dq Dr. destruct (C07_add_sub env q r d Sq Sr Dq Dr) as (_ & (s & E & U & V) & _). exists s. split; auto.
  unfold py_sub, dispatch. cbn [qty_sub_method]. rewrite E. reflexivity.
Qed.
(** The product of two quantities, as C10 says. *)
Theorem C138_product_value :
  forall env reg a b x y da db,
    (forall i, sized_named env (reg i)) -> from_registry reg a -> from_registry reg b -> dimension (eval a) = Ok da -> dimension (eval b) = Ok db ->
    exists s, py_mul (VQty (mkQty x (eval a))) (VQty (mkQty y (eval b))) = Ok (VQty s) /\ si_value s == (x * si_size (eval a)) * (y * si_size (eval b)).
Proof.
  intros env reg a b x y da db E Ra Rb Da Db. destruct (C10_product env reg a b x y da db E Ra Rb Da Db) as (s & M & V). exists s. split; auto.
  unfold py_mul, dispatch. cbn [qty_method]. rewrite M. reflexivity.
Qed.
(** An expression without odd products gives a number, a unit or a quantity, or raises. *)
Theorem C138_expressions_partial :
  forall e v, careful e -> run e = Ok v -> kind_of v = Number \/ kind_of v = AUnit \/ kind_of v = AQuantity.
Proof.
  assert (K : forall k r v, as_expected k r -> r = Ok v -> k = Some (kind_of v)).
  { intros k r v A ->. cbn in A. destruct k; [now rewrite A|destruct A]. }
  induction e as [w|a IHa b IHb|a IHa b IHb|a IHa b IHb|a IHa b IHb|a IHa]; intros v C H; cbn [run careful] in *.
  - injection H as ->. destruct C. destruct v; cbn in *; auto; congruence.
  - destruct C as (Ca & Cb & O). apply bind_Ok in H. destruct H as (x & Ex & H). apply bind_Ok in H. destruct H as (y & Ey & H).
    apply (K _ _ _ (C138_products_partial x y (O x y Ex Ey))) in H. destruct (kind_of x), (kind_of y); cbn in H; try discriminate; injection H as <-; auto.
  - destruct C as (Ca & Cb). apply bind_Ok in H. destruct H as (x & Ex & H). apply bind_Ok in H. destruct H as (y & Ey & H).
    apply (K _ _ _ (C138_quotients x y)) in H. destruct (kind_of x), (kind_of y); cbn in H; try discriminate; injection H as <-; auto.
  - destruct C as (Ca & Cb). apply bind_Ok in H. destruct H as (x & Ex & H). apply bind_Ok in H. destruct H as (y & Ey & H).
    apply (K _ _ _ (proj1 (C138_sums x y))) in H. destruct (kind_of x), (kind_of y); cbn in H; try discriminate; injection H as <-; auto.
  - destruct C as (Ca & Cb). apply bind_Ok in H. destruct H as (x & Ex & H). apply bind_Ok in H. destruct H as (y & Ey & H).
    apply (K _ _ _ (proj2 (C138_sums x y))) in H. destruct (kind_of x), (kind_of y); cbn in H; try discriminate; injection H as <-; auto.
  - apply bind_Ok in H. destruct H as (x & Ex & H). destruct x; cbn in H; try discriminate; injection H as <-; cbn; auto.
Qed.

(** ** C139: [sum] of quantities *)
Lemma sum_from_ok env d l : forall q, sized env (q_unit q) -> dimension (q_unit q) = Ok d ->
  (forall r, In r l -> sized env (q_unit r) /\ dimension (q_unit r) = Ok d) ->
  exists s, sum_from (VQty q) (map VQty l) = Ok (VQty s) /\ q_unit s = q_unit q /\ si_value s == si_value q + total_si l.
Proof.
  induction l as [|r l IH]; intros q Sq Dq H; cbn [map sum_from total_si].
  - exists q. split; auto. split; auto. ring.
  - destruct (H r (or_introl eq_refl)) as (Sr & Dr). destruct (C07_add_sub env q r d Sq Sr Dq Dr) as ((s & E & U & V) & _).
    assert (A : py_add (VQty q) (VQty r) = Ok (VQty s)) by (unfold py_add, dispatch; cbn [qty_method]; rewrite E; reflexivity).
    rewrite A. cbn [bind]. destruct (IH s) as (t & Et & Ut & Vt).
    + now rewrite U. + now rewrite U. + intros x I. apply H. now right.
    + exists t. split; auto. split; [congruence|]. rewrite Vt, V. ring.
Qed.
Theorem C139_sum :
  forall env d q l, (forall r, In r (q :: l) -> sized env (q_unit r) /\ dimension (q_unit r) = Ok d) ->
    exists s, py_sum (map VQty (q :: l)) = Ok (VQty s) /\ q_unit s = q_unit q /\ si_value s == total_si (q :: l).
Proof.
  intros env d q l H. destruct (H q (or_introl eq_refl)) as (Sq & Dq). unfold py_sum. cbn [map sum_from].
  change (py_add (VNum 0) (VQty q)) with (Ok (VQty (mkQty (q_data q + 0) (q_unit q)))). cbn [bind].
  destruct (sum_from_ok env d l (mkQty (q_data q + 0) (q_unit q)) Sq Dq) as (s & E & U & V); [intros r I; apply H; now right|].
  exists s. split; auto. split; auto. rewrite V. cbn [total_si]. unfold si_value. cbn [q_data q_unit]. ring.
Qed.
Theorem C139_empty : py_sum [] = Ok (VNum 0).
Proof. reflexivity. Qed.
(** Quantities of different dimensions, or a unit among the quantities, raise. *)
Theorem C139_mixed_raises :
  forall env d d' q l r m, (forall x, In x (q :: l) -> sized env (q_unit x) /\ dimension (q_unit x) = Ok d) -> dimension (q_unit r) = Ok d' -> d <> d' ->
    py_sum (map VQty (q :: l) ++ VQty r :: m) = Raise ArithmeticError.
Proof.
  intros env d d' q l r m H Dr N.
  assert (A : forall l1 a, sum_from a (l1 ++ VQty r :: m) = (s <- sum_from a l1 ;; sum_from s (VQty r :: m))).
  { induction l1 as [|x l1 IH]; intros a; cbn [app sum_from]; [reflexivity|]. destruct (py_add a x); cbn [bind]; auto. }
  destruct (C139_sum env d q l H) as (s & E & U & _). unfold py_sum in *. rewrite A, E. cbn [bind sum_from].
  destruct (H q (or_introl eq_refl)) as (_ & Dq).
  assert (P : py_add (VQty s) (VQty r) = Raise ArithmeticError).
  { unfold py_add, dispatch. cbn [qty_method]. unfold q_add. rewrite U, Dq, Dr. cbn [bind]. destruct (String.eqb_spec d d'); [contradiction|reflexivity]. }
  rewrite P. reflexivity.
Qed.

(** ** C140: equal powers *)
(** Full claim: a quantity in [u ** p] can be converted to [v ** p'] if [u] and [v] have the same
    dimension and [p] and [p'] are equal numbers.  It holds if both are ints or both are floats. *)
Theorem C140_same_powers_partial :
  forall float_str n m p d, (forall x y, x == y -> float_str x = float_str y) ->
    dict_get unit_to_dimension (n_name n) = Ok d -> dict_get unit_to_dimension (n_name m) = Ok d ->
    forall p', number_value p == number_value p' ->
    (exists z, p = PInt z /\ p' = PInt z) \/ (exists x y, p = PFloat x /\ p' = PFloat y) ->
    power_convertible float_str n p m p' = Ok tt.
Proof.
  intros fs n m p d Fs Dn Dm p' E K. unfold power_convertible, power_bases.
  assert (Q0 : Qeq_bool (number_value p) 0 = Qeq_bool (number_value p') 0).
  { apply eq_true_iff_eq. rewrite !Qeq_bool_iff, E. reflexivity. }
  rewrite <- Q0. destruct (Qeq_bool (number_value p) 0); [reflexivity|]. cbn [power_dimension]. rewrite Dn, Dm. cbn [bind].
  assert (Q1 : Qeq_bool (Qabs (number_value p)) 1 = Qeq_bool (Qabs (number_value p')) 1).
  { apply eq_true_iff_eq. rewrite !Qeq_bool_iff, E. reflexivity. }
  assert (Q2 : Qltb 0 (number_value p) = Qltb 0 (number_value p')).
  { apply eq_true_iff_eq. rewrite !Qltb_iff, E. reflexivity. }
  rewrite <- Q1, <- Q2. assert (S : number_abs_str fs p = number_abs_str fs p').
  { destruct K as [(z & -> & ->)|(x & y & -> & ->)]; cbn in *; auto. apply Fs. now rewrite E. }
  rewrite <- S, String.eqb_refl. reflexivity.
Qed.
(** [m ** 2] and [m ** 2.0] are different dimensions. *)
Theorem C140_float_power_refuted :
  forall float_str n m d z x, (forall y k, float_str y <> nat_str k) ->
    dict_get unit_to_dimension (n_name n) = Ok d -> dict_get unit_to_dimension (n_name m) = Ok d ->
    inject_Z z == x -> (2 <= Z.abs z)%Z ->
    power_convertible float_str n (PInt z) m (PFloat x) = Raise ValueError /\
    power_convertible float_str n (PFloat x) m (PInt z) = Raise ValueError.
Proof.
  intros fs n m d z x Fs Dn Dm E Hz. unfold power_convertible, power_bases. cbn [number_value].
  assert (Q0 : Qeq_bool x 0 = Qeq_bool (inject_Z z) 0) by (apply eq_true_iff_eq; rewrite !Qeq_bool_iff, E; reflexivity).
  rewrite Q0. assert (Qeq_bool (inject_Z z) 0 = false) as ->. { apply not_true_iff_false. rewrite Qeq_bool_iff. unfold Qeq, inject_Z. cbn. lia. }
  cbn [power_dimension]. rewrite Dn, Dm. cbn [bind number_value].
  assert (Q1 : Qeq_bool (Qabs x) 1 = Qeq_bool (Qabs (inject_Z z)) 1) by (apply eq_true_iff_eq; rewrite !Qeq_bool_iff, E; reflexivity).
  assert (Q2 : Qltb 0 x = Qltb 0 (inject_Z z)) by (apply eq_true_iff_eq; rewrite !Qltb_iff, E; reflexivity).
  rewrite Q1, Q2. assert (Qeq_bool (Qabs (inject_Z z)) 1 = false) as ->. { apply not_true_iff_false. rewrite Qeq_bool_iff. unfold Qeq, inject_Z, Qabs. cbn. lia. }
  cbn [number_abs_str]. assert (App : forall a b c : string, append a b = append a c -> b = c) by (induction a as [|h a IH]; cbn; intros b c H; [auto|injection H as H; auto]).
  assert (N : abs_str z <> fs (Qabs x)) by (intros H; symmetry in H; exact (Fs _ _ H)).
  split; destruct (Qltb 0 (inject_Z z)); match goal with |- context [String.eqb ?a ?b] => destruct (String.eqb_spec a b) as [H|H] end; try reflexivity; exfalso; apply N;
    repeat (apply App in H); auto; try (apply (App "1 / "%string) in H); repeat (apply App in H); auto.
Qed.

(** ** Cases *)
Example C138_case : py_mul (VQty (mkQty 5 (UN u_s))) (VUnit (UN u_m)) = Ok VNone /\
  py_mul (VNum 5) (VUnit (UN u_m)) = Ok (VUnit (u_scale 5 (UN u_m))) /\ py_truediv (VNum 2) (VUnit (UN u_m)) = Raise TypeError.
Proof. split; [|split]; reflexivity. Qed.
Example C138_expression_case : careful (XDiv (XAdd (XVal (VQty (mkQty 5 (UN u_km)))) (XVal (VNum 1))) (XMul (XVal (VNum 2)) (XVal (VQty (mkQty 4 (UN u_s)))))) /\
  match run (XDiv (XAdd (XVal (VQty (mkQty 5 (UN u_km)))) (XVal (VNum 1))) (XMul (XVal (VNum 2)) (XVal (VQty (mkQty 4 (UN u_s)))))) with
  | Ok (VQty q) => Qeq_bool (q_data q) (6 # 8) | _ => false end = true.
Proof.
  split; [|vm_compute; reflexivity]. cbn [careful kind_of run]. repeat split; try congruence. intros x y [= <-] [= <-]. cbn [kind_of].
  intros [(? & _)|(? & _)]; discriminate.
Qed.
Example C139_case : match py_sum (map VQty [mkQty 1 (UN u_km); mkQty 500 (UN u_m)]) with Ok (VQty s) => Qeq_bool (q_data s) (3 # 2) | _ => false end = true.
Proof. vm_compute. reflexivity. Qed.
(** A possible text of floats: the fraction behind a letter. *)
Definition some_float_str (q : Q) : string := append "f" (scale_str q).
Example C140_case : (forall x y, x == y -> some_float_str x = some_float_str y) /\ (forall y k, some_float_str y <> nat_str k) /\
  power_convertible some_float_str u_km (PInt 2) u_m (PFloat 2) = Raise ValueError /\
  power_convertible some_float_str u_km (PInt 2) u_m (PInt 2) = Ok tt.
Proof.
  split; [|split; [|split; vm_compute; reflexivity]].
  - intros x y E. unfold some_float_str, scale_str. now rewrite (Qred_complete x y E).
  - intros y k. unfold some_float_str, nat_str. intros H. assert (D : forall u, match DecimalString.NilZero.string_of_uint u with String "f"%char _ => False | _ => True end).
    { intros u. destruct u; exact Logic.I. } specialize (D (Nat.to_uint k)). rewrite <- H in D. exact D.
Qed.

Print Assumptions C138_products_partial.
Print Assumptions C138_products_refuted.
Print Assumptions C138_quotients.
Print Assumptions C138_sums.
Print Assumptions C138_number_over_unit.
Print Assumptions C138_numbers.
Print Assumptions C138_difference.
Print Assumptions C138_product_value.
Print Assumptions C138_expressions_partial.
Print Assumptions C139_sum.
Print Assumptions C139_empty.
Print Assumptions C139_mixed_raises.
Print Assumptions C140_same_powers_partial.
Print Assumptions C140_float_power_refuted.
