(** The units properties (C01-C12). *)
From Coq Require Import List ZArith QArith Qpower Qfield Lqa Bool String Lia.
From Verif Require Import Py StrUtil Units_Model Units_Spec Units_Proofs Units_Algebra Units_Proofs2.
Import ListNotations.
Open Scope Q_scope.
Open Scope list_scope.
Open Scope string_scope.

(** The predefined units give an environment and a registry that meet the
    hypotheses used below. *)
Definition std_env (name : string) : Q :=
  match find (fun n => String.eqb name (n_name n)) unit_table with
  | Some n => n_scale n
  | None => 1
  end.
Definition std_reg (i : nat) : named := nth i unit_table u_m.

Lemma std_sized : forall n, In n unit_table -> sized_named std_env n.
Proof.
  intros n H. cbn [unit_table In] in H.
  repeat (destruct H as [<-|H]; [split; vm_compute; reflexivity|]). destruct H.
Qed.

Lemma std_reg_sized : forall i, sized_named std_env (std_reg i).
Proof.
  intros i. unfold std_reg.
  destruct (nth_in_or_default i unit_table u_m) as [H|H].
  - now apply std_sized.
  - rewrite H. apply std_sized. now left.
Qed.

(** C01. Converting preserves the physical magnitude, for named units (also user
    defined ones) and products, quotients and powers. *)
Theorem C01_conversion_preserves_magnitude :
  forall env cp q v d,
    sized env (q_unit q) -> sized env v ->
    dimension (q_unit q) = Ok d -> dimension v = Ok d ->
    exists q', convert_to cp q v = Ok q' /\
               q_data q' * si_size v == q_data q * si_size (q_unit q) /\
               to_ q v = Ok (q_data q') /\
               repr_unit (q_unit q') = repr_unit v /\
               si_size (q_unit q') == si_size v.
Proof.
  intros env cp q v d Su Sv Du Dv.
  destruct (convert_to_spec env cp q v d Su Sv Du Dv) as (q' & A & B & C & _ & _ & D).
  exists q'. split; [exact A|]. split; [|split; [|split; [exact C|exact D]]].
  - unfold si_value in B. rewrite <- D. exact B.
  - unfold to_, convert_to in *. rewrite Du, Dv in *. cbn [bind] in *.
    destruct (negb (String.eqb d d)); [discriminate|].
    destruct (negb (String.eqb (repr_unit (q_unit q)) (repr_unit v))).
    + destruct (get_unit_scale (q_unit q)); cbn [bind] in *; [|discriminate].
      destruct (get_unit_scale v); cbn [bind] in *; [|discriminate].
      destruct (py_div a a0); cbn [bind rmap] in *; [|discriminate].
      injection A as <-. reflexivity.
    + injection A as <-. reflexivity.
Qed.

Example C01_example :
  to_ (mkQty 90 (eval (EDiv (EName u_km) (EName u_hr)))) (eval (EDiv (EName u_m) (EName u_s)))
  = Ok (90 * ((1 * (1000 # 1) * (1 # 3600)) / (1 * 1 * 1))) /\
  sized std_env (eval (EDiv (EName u_km) (EName u_hr))) /\
  dimension (eval (EDiv (EName u_km) (EName u_hr))) = Ok "L / T".
Proof.
  split; [|split].
  - vm_compute. reflexivity.
  - repeat constructor.
  - vm_compute. reflexivity.
Qed.

(** C02. Round trip and composition. *)
Theorem C02_conversion_round_trip :
  forall env q v d,
    sized env (q_unit q) -> sized env v ->
    dimension (q_unit q) = Ok d -> dimension v = Ok d ->
    forall cp, exists q1 x, convert_to cp q v = Ok q1 /\ to_ q1 (q_unit q) = Ok x /\ x == q_data q.
Proof.
  intros env q v d Su Sv Du Dv cp.
  destruct (convert_to_spec env cp q v d Su Sv Du Dv) as (q1 & A & B & _ & C & D & _).
  destruct (to_spec env q1 (q_unit q) d D Su C Du) as (x & E & F).
  exists q1, x. split; auto. split; auto.
  apply (scale_eq x (q_data q) (si_size (q_unit q))); [now apply (si_size_pos env)|].
  rewrite F, B. reflexivity.
Qed.

Theorem C02_conversion_composes :
  forall env q v w d,
    sized env (q_unit q) -> sized env v -> sized env w ->
    dimension (q_unit q) = Ok d -> dimension v = Ok d -> dimension w = Ok d ->
    forall cp, exists q1 x y, convert_to cp q v = Ok q1 /\ to_ q1 w = Ok x /\ to_ q w = Ok y /\ x == y.
Proof.
  intros env q v w d Su Sv Sw Du Dv Dw cp.
  destruct (convert_to_spec env cp q v d Su Sv Du Dv) as (q1 & A & B & _ & C & D & _).
  destruct (to_spec env q1 w d D Sw C Dw) as (x & E & F).
  destruct (to_spec env q w d Su Sw Du Dw) as (y & G & H).
  exists q1, x, y. repeat split; auto.
  apply (scale_eq x y (si_size w)); [now apply (si_size_pos env)|].
  rewrite F, H. exact B.
Qed.

Example C02_example : exists q1, convert_to (fun i => i) (mkQty 5 (UN u_mi)) (UN u_inch) = Ok q1 /\
  exists x, to_ q1 (UN u_mi) = Ok x /\ x == 5.
Proof. eexists. split; [vm_compute; reflexivity|]. eexists. split; vm_compute; reflexivity. Qed.

(** C03. Different dimensions are always rejected; equal ones never are. *)
Definition raises_arith {A} (r : res A) : Prop := r = Raise ArithmeticError.

Theorem C03_mixed_dimensions_rejected :
  forall q r dq dr,
    dimension (q_unit q) = Ok dq -> dimension (q_unit r) = Ok dr ->
    (exists dim, In dim ["L"; "T"; "D"; "A"] /\
       dim_exponent dim (base_names (q_unit q)) <> dim_exponent dim (base_names (q_unit r))) ->
    (forall cp, convert_to cp q (q_unit r) = Raise ValueError) /\
    to_ q (q_unit r) = Raise ValueError /\
    raises_arith (q_add q (OQty r)) /\ raises_arith (q_sub q (OQty r)) /\
    raises_arith (q_eq q (OQty r)) /\ raises_arith (q_ne q (OQty r)) /\
    raises_arith (q_lt q (OQty r)) /\ raises_arith (q_gt q (OQty r)) /\
    raises_arith (q_le q (OQty r)) /\ raises_arith (q_ge q (OQty r)).
Proof.
  intros q r dq dr Dq Dr (dim & I & X).
  assert (dq <> dr) as N.
  { intros <-. apply X. eapply dimension_sound; eauto. }
  pose proof N as N'. apply String.eqb_neq in N'.
  assert (C : forall f, q_cmp f q (OQty r) = Raise ArithmeticError).
  { intros f. unfold q_cmp. rewrite Dq, Dr. cbn [bind]. now rewrite N'. }
  assert (forall cp, convert_to cp q (q_unit r) = Raise ValueError) as V.
  { intros cp. eapply convert_dim_mismatch; eauto. }
  unfold raises_arith, q_eq, q_ne, q_lt, q_gt, q_le, q_ge, py_eq_expr, py_ord_expr, q_ne_m, q_le_m,
    q_ge_m, q_eq_m, q_lt_m, q_gt_m, q_sub, to_.
  rewrite !C, V. cbn [bind rmap o_neg q_add q_unit q_neg]. rewrite Dq, Dr. cbn [bind].
  rewrite N'. cbn. repeat split; auto.
Qed.

Theorem C03_equal_dimensions_accepted :
  forall env q r d,
    sized env (q_unit q) -> sized env (q_unit r) ->
    dimension (q_unit q) = Ok d -> dimension (q_unit r) = Ok d ->
    (exists x, to_ q (q_unit r) = Ok x) /\
    (exists x, q_add q (OQty r) = Ok x) /\ (exists x, q_sub q (OQty r) = Ok x) /\
    (exists b, q_eq q (OQty r) = Ok b) /\ (exists b, q_lt q (OQty r) = Ok b) /\
    (exists b, q_gt q (OQty r) = Ok b).
Proof.
  intros env q r d Sq Sr Dq Dr.
  destruct (comparisons_spec env q r d Sq Sr Dq Dr) as ((b1 & B1 & _) & _ & (b2 & B2 & _) & (b3 & B3 & _) & _).
  destruct (q_add_spec env q r d Sq Sr Dq Dr) as (s & A & _).
  destruct (q_sub_spec env q r d Sq Sr Dq Dr) as (t & T & _).
  destruct (to_spec env q (q_unit r) d Sq Sr Dq Dr) as (x & X & _).
  repeat split; eauto.
Qed.

Example C03_example :
  q_add (mkQty 1 (UN u_m)) (OQty (mkQty 1 (UN u_s))) = Raise ArithmeticError /\
  to_ (mkQty 1 (UN u_dy)) (UN u_jd2000) = Raise ValueError /\
  dim_exponent "L" (base_names (UN u_m)) <> dim_exponent "L" (base_names (UN u_s)).
Proof. repeat split; vm_compute; try reflexivity. discriminate. Qed.

(** C04. Unit algebra.  Full statement: [forall e i, shown_exponent (eval e) i =
    exponent e i] and [si_size (eval e) == size e].  False when dividing by a
    product that shares a base unit with the dividend (core.py:281); proved for
    all other expressions, of any depth. *)
Theorem C04_unit_algebra_partial :
  forall e, safe_divisions e ->
    (forall i, shown_exponent (eval e) i = exponent e i) /\
    (forall reg, (forall i, ~ n_scale (reg i) == 0) -> from_registry reg e ->
       si_size (eval e) == size e).
Proof.
  intros e S. split; [intros i; now apply eval_exponent|]. intros reg N R. now apply (eval_size reg).
Qed.

(** The exact exponents of a quotient by a product: on bases of the dividend the
    exponents are added instead of subtracted. *)
Theorem C04_division_exact :
  forall a b c i, eval b = UC c ->
    shown_exponent (eval (EDiv a b)) i =
    (if existsb (Nat.eqb i) (ids (unit_bases (eval a)))
     then shown_exponent (eval a) i + shown_exponent (eval b) i
     else shown_exponent (eval a) i - shown_exponent (eval b) i)%Z.
Proof.
  intros a b c i H. cbn [eval]. rewrite H. apply u_div_compound_exponent; [apply wf_eval|].
  rewrite <- H. apply wf_eval.
Qed.

Theorem C04_unit_algebra_refuted :
  exists e i, from_registry std_reg e /\ shown_exponent (eval e) i <> exponent e i /\
    exists x, to_ (mkQty 1 (eval e)) (eval (EDiv (EPow (EName u_m) 2) (EName u_s))) = Ok x.
Proof.
  (* m / (m * s) is displayed and converted as m2 / s *)
  exists (EDiv (EName u_m) (EMul (EName u_m) (EName u_s))), 0%nat.
  split; [cbn; repeat split; discriminate|]. split; [vm_compute; discriminate|].
  eexists. vm_compute. reflexivity.
Qed.

Example C04_example :
  let e := EMul (EDiv (EPow (EName u_km) 2) (EName u_hr)) (EInv (EMul (EName u_s) (EName u_km))) in
  safe_divisions e /\ from_registry std_reg e /\ shown_exponent (eval e) 3 = 1%Z /\
  repr_unit (eval e) = "CompoundUnit(""km / hr s"")".
Proof. cbn -[eval]. repeat split; try (left; eexists; reflexivity); try discriminate; vm_compute; reflexivity. Qed.

(** C05. Numeric factors.  Full statement: a quantity [x] in unit [k*u] converts
    to [u] as [k*x].  False: the factor is ignored by conversions. *)
Theorem C05_factor_refuted :
  to_ (mkQty 1 (u_scale 1000 (UN u_m))) (UN u_m) = Ok (1 * (1 * 1 / 1)) /\
  ~ 1 * (1 * 1 / 1) == 1000 * 1.
Proof. split; [vm_compute; reflexivity|]. vm_compute. discriminate. Qed.

(** Exactly what happens: conversion of [k*u] behaves as conversion of [u]. *)
Theorem C05_factor_ignored :
  forall env reg k a x v d,
    (forall i, sized_named env (reg i)) -> from_registry reg a -> sized env v ->
    dimension (u_scale k (eval a)) = Ok d -> dimension v = Ok d ->
    exists y, to_ (mkQty x (u_scale k (eval a))) v = Ok y /\ y * si_size v == x * si_size (eval a).
Proof.
  intros env reg k a x v d E R Sv D Dv.
  assert (forall i, ~ n_scale (reg i) == 0) as NZ.
  { intros i C. destruct (E i) as [_ P]. rewrite C in P. now apply Qlt_irrefl in P. }
  assert (reg_list reg (unit_bases (u_scale k (eval a)))) as RL.
  { apply reg_mk. cbn. intros u j [I|[]]. injection I as <- <-. now apply reg_eval. }
  assert (sized env (u_scale k (eval a))) as S.
  { cbn. apply Forall_forall. intros [n p] I. cbn. rewrite (RL n p I). apply E. }
  assert (si_size (u_scale k (eval a)) == si_size (eval a)) as Z.
  { rewrite !si_size_bases. rewrite !(product_total reg) by (auto using reg_eval).
    etransitivity; [apply (ut_mk1 Q Qeq Qmult 1 Qpower (QW reg));
      auto using QW_add, QW_0, Qpw_op, Qpw_1, Qpw_W, wf_eval, Qmult_comm, Qmult_assoc, Qmult_1_l|].
    cbn. reflexivity. }
  destruct (to_spec env (mkQty x (u_scale k (eval a))) v d S Sv D Dv) as (y & A & B).
  exists y. split; auto. rewrite B. unfold si_value. cbn [q_data q_unit]. now rewrite Z.
Qed.

(** What is kept: a unit defined from [k * named] has the right size ... *)
Theorem C05_factor_in_definition_partial :
  forall id name k n, n_scale (new_unit id name (Some (u_scale k (UN n)))) == k * n_scale n.
Proof. intros. cbn. reflexivity. Qed.

(** ... but one defined from a quotient has lost the sizes of its parts. *)
Theorem C05_definition_from_quotient_refuted :
  exists id name, ~ n_scale (new_unit id name (Some (eval (EDiv (EName u_km) (EName u_hr)))))
                    == size (EDiv (EName u_km) (EName u_hr)).
Proof. exists 100%nat, "kph". vm_compute. discriminate. Qed.

(** C06. Dimensions.  Full statement: every unit over the predefined units has a
    dimension, and it only depends on the total exponents.  False in both parts. *)
Theorem C06_dimension_crashes_refuted :
  dimension (eval (EDiv (EName u_m) (EName u_km))) = Raise AttributeError.
Proof. vm_compute. reflexivity. Qed.

Theorem C06_dimension_order_refuted :
  exists d1 d2, dimension (eval (EMul (EName u_m) (EName u_s))) = Ok d1 /\
    dimension (eval (EMul (EName u_s) (EName u_m))) = Ok d2 /\ d1 <> d2 /\
    to_ (mkQty 1 (eval (EMul (EName u_m) (EName u_s)))) (eval (EMul (EName u_s) (EName u_m)))
    = Raise ValueError.
Proof. exists "L T", "T L". repeat split; vm_compute; try reflexivity. discriminate. Qed.

(** What holds: equal dimension strings mean equal physical dimension, and the
    dimension exists when no two factors of one physical dimension have exponents
    of opposite sign. *)
Theorem C06_dimension_sound_partial :
  forall u v d, dimension u = Ok d -> dimension v = Ok d ->
    forall dim, In dim ["L"; "T"; "D"; "A"] ->
    dim_exponent dim (base_names u) = dim_exponent dim (base_names v).
Proof. exact dimension_sound. Qed.

Theorem C06_dimension_exists_partial :
  forall u, (forall n p, In (n, p) (base_names u) -> dim_of n <> None) ->
    same_sign (base_names u) -> exists d, dimension u = Ok d.
Proof. exact dimension_same_sign. Qed.

Example C06_example :
  let u := eval (EDiv (EMul (EName u_km) (EName u_m)) (EName u_s)) in
  dimension u = Ok "L2 / T" /\ same_sign (base_names u) /\
  (forall n p, In (n, p) (base_names u) -> dim_of n <> None).
Proof.
  cbn. split; [vm_compute; reflexivity|]. split.
  - intros n1 p1 n2 p2 I1 I2. 
    repeat (destruct I1 as [I1|I1]; [injection I1 as <- <-|]); try destruct I1;
    (repeat (destruct I2 as [I2|I2]; [injection I2 as <- <-|]); try destruct I2); cbn; intros; try lia; discriminate.
  - intros n p I. repeat (destruct I as [I|I]; [injection I as <- <-; discriminate|]). destruct I.
Qed.

(** C07. Addition and subtraction. *)
Theorem C07_add_sub :
  forall env q r d,
    sized env (q_unit q) -> sized env (q_unit r) ->
    dimension (q_unit q) = Ok d -> dimension (q_unit r) = Ok d ->
    (exists s, q_add q (OQty r) = Ok s /\ q_unit s = q_unit q /\ si_value s == si_value q + si_value r) /\
    (exists s, q_sub q (OQty r) = Ok s /\ q_unit s = q_unit q /\ si_value s == si_value q - si_value r) /\
    (exists s t, q_add q (OQty r) = Ok s /\ q_add r (OQty q) = Ok t /\ si_value s == si_value t) /\
    (exists s t, q_sub q (OQty r) = Ok s /\ q_sub r (OQty q) = Ok t /\ si_value s == - si_value t).
Proof.
  intros env q r d Sq Sr Dq Dr.
  destruct (q_add_spec env q r d Sq Sr Dq Dr) as (s & A1 & A2 & A3).
  destruct (q_sub_spec env q r d Sq Sr Dq Dr) as (t & B1 & B2 & B3).
  destruct (q_add_spec env r q d Sr Sq Dr Dq) as (s' & A1' & A2' & A3').
  destruct (q_sub_spec env r q d Sr Sq Dr Dq) as (t' & B1' & B2' & B3').
  repeat split.
  - exists s; auto.
  - exists t; auto.
  - exists s, s'. repeat split; auto. rewrite A3, A3'. ring.
  - exists t, t'. repeat split; auto. rewrite B3, B3'. ring.
Qed.

Theorem C07_add_assoc :
  forall env p q r d,
    sized env (q_unit p) -> sized env (q_unit q) -> sized env (q_unit r) ->
    dimension (q_unit p) = Ok d -> dimension (q_unit q) = Ok d -> dimension (q_unit r) = Ok d ->
    exists s1 s2 t1 t2,
      q_add p (OQty q) = Ok s1 /\ q_add s1 (OQty r) = Ok s2 /\
      q_add q (OQty r) = Ok t1 /\ q_add p (OQty t1) = Ok t2 /\
      si_value s2 == si_value t2 /\ q_unit s2 = q_unit t2.
Proof.
  intros env p q r d Sp Sq Sr Dp Dq Dr.
  destruct (q_add_spec env p q d Sp Sq Dp Dq) as (s1 & A1 & A2 & A3).
  destruct (q_add_spec env s1 r d) as (s2 & B1 & B2 & B3); auto; try (rewrite A2; auto).
  destruct (q_add_spec env q r d Sq Sr Dq Dr) as (t1 & C1 & C2 & C3).
  destruct (q_add_spec env p t1 d) as (t2 & D1 & D2 & D3); auto; try (rewrite C2; auto).
  exists s1, s2, t1, t2. repeat split; auto; [|congruence].
  rewrite B3, A3, D3, C3. ring.
Qed.

Theorem C07_scalars :
  forall q x,
    q_add q (ONum x) = Ok (mkQty (q_data q + x) (q_unit q)) /\
    (exists s, q_sub q (ONum x) = Ok s /\ q_unit s = q_unit q /\ q_data s == q_data q - x) /\
    (exists s, q_rsub q (ONum x) = Ok s /\ q_unit s = q_unit q /\ q_data s == x - q_data q).
Proof.
  intros q x. cbn. repeat split; eexists; (split; [reflexivity|]); cbn; (split; [reflexivity|]); ring.
Qed.

Example C07_example :
  exists s, q_add (mkQty 5 (UN u_m)) (OQty (mkQty (1 # 10) (UN u_km))) = Ok s /\ q_data s == 105.
Proof. eexists; split; vm_compute; reflexivity. Qed.

(** C08. Comparisons. *)
Theorem C08_comparisons :
  forall env q r d,
    sized env (q_unit q) -> sized env (q_unit r) ->
    dimension (q_unit q) = Ok d -> dimension (q_unit r) = Ok d ->
    (exists b, q_eq q (OQty r) = Ok b /\ (b = true <-> si_value q == si_value r)) /\
    (exists b, q_ne q (OQty r) = Ok b /\ (b = true <-> ~ si_value q == si_value r)) /\
    (exists b, q_lt q (OQty r) = Ok b /\ (b = true <-> si_value q < si_value r)) /\
    (exists b, q_gt q (OQty r) = Ok b /\ (b = true <-> si_value r < si_value q)) /\
    (exists b, q_le q (OQty r) = Ok b /\ (b = true <-> si_value q <= si_value r)) /\
    (exists b, q_ge q (OQty r) = Ok b /\ (b = true <-> si_value r <= si_value q)).
Proof. exact comparisons_spec. Qed.

Example C08_example :
  q_le (mkQty 1 (UN u_mi)) (OQty (mkQty 1609 (UN u_m))) = Ok false /\
  q_eq (mkQty 2 (UN u_hr)) (OQty (mkQty 120 (UN u_min))) = Ok true.
Proof. split; vm_compute; reflexivity. Qed.

(** C09. [!=] is the negation of [==].  False for operands that are not
    quantities (both are False); proved for quantities. *)
Theorem C09_ne_refuted :
  exists q, q_eq q (ONum 5) = Ok false /\ q_ne q (ONum 5) = Ok false.
Proof. exists (mkQty 5 (UN u_m)). split; vm_compute; reflexivity. Qed.

Theorem C09_ne_negates_eq_partial :
  forall q r, q_ne q (OQty r) = rmap negb (q_eq q (OQty r)).
Proof.
  intros q r. unfold q_ne, q_eq, py_eq_expr, q_ne_m, q_eq_m, q_cmp.
  destruct (dimension (q_unit q)); cbn; auto.
  destruct (dimension (q_unit r)); cbn; auto.
  destruct (String.eqb a a0); cbn; auto.
  destruct (to_ r (q_unit q)); cbn; auto.
Qed.

Theorem C09_ne_wrong_exactly :
  forall q o, (forall r, o <> OQty r) -> q_eq q o = Ok false /\ q_ne q o = Ok false.
Proof. intros q [x|r|] H; [split; reflexivity| |split; reflexivity]. now destruct (H r). Qed.

(** C10. Products and quotients of quantities. *)
Theorem C10_product :
  forall env reg a b x y da db,
    (forall i, sized_named env (reg i)) -> from_registry reg a -> from_registry reg b ->
    dimension (eval a) = Ok da -> dimension (eval b) = Ok db ->
    exists s, q_mul (mkQty x (eval a)) (OQty (mkQty y (eval b))) = Ok s /\
              si_value s == (x * si_size (eval a)) * (y * si_size (eval b)).
Proof. exact q_mul_spec. Qed.

(** Quotients: false for compound units sharing a base unit ... *)
Theorem C10_quotient_refuted :
  let v := eval (EDiv (EName u_m) (EName u_s)) in
  (* speed / speed should be dimensionless *)
  (exists s, q_div (mkQty 6 v) (OQty (mkQty 2 v)) = Ok s /\
     dimension (q_unit s) = Ok "L2 / T2") /\
  (* distance / speed should be a time *)
  (exists s, q_div (mkQty 10 (UN u_m)) (OQty (mkQty 2 v)) = Ok s /\
     dimension (q_unit s) = Ok "L2 T").
Proof. cbn zeta. split; eexists; split; vm_compute; reflexivity. Qed.

(** ... and right otherwise. *)
Theorem C10_quotient_partial :
  forall env reg a b x y da db,
    (forall i, sized_named env (reg i)) -> from_registry reg a -> from_registry reg b ->
    dimension (eval a) = Ok da -> dimension (eval b) = Ok db -> ~ y == 0 ->
    (da = db /\ is_named (eval a)) \/
    (da <> db /\ (is_named (eval b) \/ ~ shares_base (eval a) (eval b))) ->
    exists s, q_div (mkQty x (eval a)) (OQty (mkQty y (eval b))) = Ok s /\
              si_value s == (x * si_size (eval a)) / (y * si_size (eval b)) /\
              (da = db -> unit_bases (q_unit s) = []).
Proof. exact q_div_spec. Qed.

Example C10_example :
  from_registry std_reg (EDiv (EName u_km) (EName u_hr)) /\
  (exists s, q_mul (mkQty 90 (eval (EDiv (EName u_km) (EName u_hr)))) (OQty (mkQty 2 (UN u_hr))) = Ok s /\
     si_value s == 180000) /\
  (exists s, q_div (mkQty 1 (UN u_mi)) (OQty (mkQty 2 (UN u_m))) = Ok s /\ si_value s == 1609344 # 2000).
Proof.
  split; [cbn; repeat split; discriminate|]. split; eexists; split; vm_compute; reflexivity.
Qed.

(** C11. The unit table. *)
Lemma table_conversion u v k x :
  In u unit_table -> In v unit_table -> dimension (UN u) = dimension (UN v) ->
  (exists d, dimension (UN u) = Ok d) -> n_scale u == k * n_scale v ->
  exists y, to_ (mkQty x (UN u)) (UN v) = Ok y /\ y == k * x.
Proof.
  intros Iu Iv E (d & D) K.
  destruct (to_spec std_env (mkQty x (UN u)) (UN v) d) as (y & A & B); cbn [q_unit sized];
    auto using std_sized; try congruence.
  exists y. split; auto.
  apply (scale_eq y (k * x) (n_scale v)); [now apply (std_sized v)|].
  rewrite B. unfold si_value. cbn. rewrite K. ring.
Qed.

Definition table_facts : list (named * named * Q) :=
  [(u_min, u_s, 60); (u_hr, u_min, 60); (u_dy, u_hr, 24); (u_dy, u_s, 86400);
   (u_deg, u_arcmin, 60); (u_arcmin, u_arcsec, 60); (u_deg, u_arcsec, 3600);
   (u_hourangle, u_deg, 15); (u_m, u_cm, 100); (u_m, u_mm, 1000); (u_km, u_m, 1000);
   (u_cm, u_mm, 10); (u_inch, u_cm, 254 # 100); (u_mi, u_km, 1609344 # 1000000)].

Theorem C11_table_partial :
  forall u v k x, In (u, v, k) table_facts ->
    exists y, to_ (mkQty x (UN u)) (UN v) = Ok y /\ y == k * x.
Proof.
  intros u v k x H. cbn [table_facts In] in H.
  repeat (destruct H as [H|H];
    [injection H as <- <- <-; apply table_conversion;
     [cbn; tauto|cbn; tauto|vm_compute; reflexivity|eexists; vm_compute; reflexivity|vm_compute; reflexivity]|]).
  destruct H.
Qed.

(** 3 ft = 1 yd = 36 inch and 1760 yd = 1 mi fail: the table has ft = 0.305 m and
    yd = 0.914 m. *)
Theorem C11_imperial_refuted :
  (exists y, to_ (mkQty 3 (UN u_ft)) (UN u_yd) = Ok y /\ ~ y == 1) /\
  (exists y, to_ (mkQty 1 (UN u_ft)) (UN u_inch) = Ok y /\ ~ y == 12) /\
  (exists y, to_ (mkQty 1760 (UN u_yd)) (UN u_mi) = Ok y /\ ~ y == 1).
Proof. repeat split; eexists; (split; [vm_compute; reflexivity|vm_compute; discriminate]). Qed.

(** C12. Namespaces: after any history of registrations each name is bound to what
    it was bound to initially, else to the first unit registered under it. *)
Theorem C12_namespace_first_wins :
  forall ns history name,
    ns_get (fold_left ns_insert history ns) name =
    match ns_get ns name with
    | Some u => Some u
    | None => find (fun n => String.eqb name (n_name n)) history
    end.
Proof. intros ns history name. apply ns_history. Qed.

Example C12_example :
  ns_get (fold_left ns_insert [u_m; u_km; new_unit 99 "m" None] []) "m" = Some u_m.
Proof. reflexivity. Qed.

(** The arithmetic of dates and durations used by the scheduler (see Sched_Model):
    seconds to days, and sums and comparisons of Julian dates are those of the
    numbers. *)
Theorem jd2000_arithmetic :
  forall x y,
    (exists z, to_ (mkQty x (UN u_s)) (UN u_dy) = Ok z /\ z == x / 86400) /\
    q_add (mkQty x (UN u_jd2000)) (OQty (mkQty y (UN u_jd2000))) = Ok (mkQty (x + y) (UN u_jd2000)) /\
    q_lt (mkQty x (UN u_jd2000)) (OQty (mkQty y (UN u_jd2000))) = Ok (Qltb x y) /\
    q_eq (mkQty x (UN u_jd2000)) (OQty (mkQty y (UN u_jd2000))) = Ok (Qeqb x y) /\
    (exists b, q_le (mkQty x (UN u_jd2000)) (OQty (mkQty y (UN u_jd2000))) = Ok b /\ (b = true <-> x <= y)) /\
    to_ (mkQty x (UN u_jd2000)) (UN u_jd2000) = Ok x.
Proof.
  intros x y. split; [|split; [|split; [|split; [|split]]]].
  - destruct (table_conversion u_s u_dy (1 # 86400) x) as (z & A & B);
      [cbn; tauto|cbn; tauto|vm_compute; reflexivity|eexists; vm_compute; reflexivity|vm_compute; reflexivity|].
    exists z. split; auto. rewrite B. field.
  - reflexivity.
  - reflexivity.
  - reflexivity.
  - assert (S : sized_named std_env u_jd2000) by (apply std_sized; cbn; tauto).
    destruct (comparisons_spec std_env (mkQty x (UN u_jd2000)) (mkQty y (UN u_jd2000)) "D" S S eq_refl eq_refl)
      as (_ & _ & _ & _ & (b & A & B) & _).
    exists b. split; auto. rewrite B. unfold si_value. cbn. rewrite !Qmult_1_r. reflexivity.
  - reflexivity.
Qed.

Print Assumptions C01_conversion_preserves_magnitude.
Print Assumptions C02_conversion_round_trip.
Print Assumptions C02_conversion_composes.
Print Assumptions C03_mixed_dimensions_rejected.
Print Assumptions C03_equal_dimensions_accepted.
Print Assumptions C04_unit_algebra_partial.
Print Assumptions C04_division_exact.
Print Assumptions C04_unit_algebra_refuted.
Print Assumptions C05_factor_refuted.
Print Assumptions C05_factor_ignored.
Print Assumptions C05_factor_in_definition_partial.
Print Assumptions C05_definition_from_quotient_refuted.
Print Assumptions C06_dimension_crashes_refuted.
Print Assumptions C06_dimension_order_refuted.
Print Assumptions C06_dimension_sound_partial.
Print Assumptions C06_dimension_exists_partial.
Print Assumptions C07_add_sub.
Print Assumptions C07_add_assoc.
Print Assumptions C07_scalars.
Print Assumptions C08_comparisons.
Print Assumptions C09_ne_refuted.
Print Assumptions C09_ne_negates_eq_partial.
Print Assumptions C09_ne_wrong_exactly.
Print Assumptions C10_product.
Print Assumptions C10_quotient_refuted.
Print Assumptions C10_quotient_partial.
Print Assumptions C11_table_partial.
Print Assumptions C11_imperial_refuted.
Print Assumptions C12_namespace_first_wins.
Print Assumptions jd2000_arithmetic.
