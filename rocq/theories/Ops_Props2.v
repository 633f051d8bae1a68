(** Quotients of numbers and quantities as expressions: C138. *)
From Coq Require Import String Ascii List ZArith QArith Qabs Qfield Bool Lia.
From Verif Require Import Py PyLemmas Units_Model Units_Spec Units_Proofs Units_Algebra Units_Proofs2 Units_Props Units_Props2 Ops_Model Ops_Spec.
Import ListNotations.
Open Scope list_scope.
Open Scope Q_scope.

(** [x / q]: the reciprocal unit, with the reciprocal powers. *)
Theorem C138_number_over_quantity :
  forall reg a x y, (forall i, ~ n_scale (reg i) == 0) -> from_registry reg a ->
    (~ y == 0 -> exists s, py_truediv (VNum x) (VQty (mkQty y (eval a))) = Ok (VQty s) /\
       si_value s == x / (y * si_size (eval a)) /\ forall i, shown_exponent (q_unit s) i = (- shown_exponent (eval a) i)%Z) /\
    (y == 0 -> py_truediv (VNum x) (VQty (mkQty y (eval a))) = Raise ZeroDivisionError).
Proof.
  intros reg a x y N R. destruct (C10_number_over_quantity reg a x y N R) as (A & B). split.
  - intros Y. destruct (A Y) as (s & E & F). exists s. split; [|exact F]. unfold py_truediv, dispatch. cbn [not_implemented bind qty_rdiv qreturns returns]. rewrite E. reflexivity.
  - intros Y. unfold py_truediv, dispatch. cbn [not_implemented bind qty_rdiv qreturns returns]. rewrite (B Y). reflexivity.
Qed.
(** [q / r], under the conditions of C10, and the same from the method of the divisor. *)
Theorem C138_quotient_value_partial :
  forall env reg a b x y da db,
    (forall i, sized_named env (reg i)) -> from_registry reg a -> from_registry reg b ->
    dimension (eval a) = Ok da -> dimension (eval b) = Ok db -> ~ y == 0 ->
    (da = db /\ is_named (eval a) /\ is_named (eval b)) \/
    (da <> db /\ (is_named (eval b) \/ ~ shares_base (eval a) (eval b))) ->
    let value_of s := si_value s == (x * si_size (eval a)) / (y * si_size (eval b)) /\ (da = db -> unit_bases (q_unit s) = []) in
    (exists s, py_truediv (VQty (mkQty x (eval a))) (VQty (mkQty y (eval b))) = Ok (VQty s) /\ value_of s) /\
    (exists s, qty_rdiv (mkQty y (eval b)) (VQty (mkQty x (eval a))) = Ok (Some (VQty s)) /\ value_of s).
Proof.
  intros env reg a b x y da db E Ra Rb Da Db Y C value_of. split.
  - destruct (C10_quotient_partial env reg a b x y da db E Ra Rb Da Db Y) as (s & D & V); [tauto|]. exists s. split; [|exact V].
    unfold py_truediv, dispatch. cbn [qty_method qreturns]. rewrite D. reflexivity.
  - cbn [qty_rdiv]. unfold q_rdiv_q. cbn [q_unit q_data]. rewrite Da, Db. cbn [bind].
    assert (SZ : forall e, from_registry reg e -> ~ si_size (eval e) == 0).
    { intros e R K. pose proof (si_size_pos env (eval e) (sized_eval env reg e E R)) as P. rewrite K in P. now apply Qlt_irrefl in P. }
    destruct C as [(<- & _ & n & Hb)|(N & C)].
    + rewrite String.eqb_refl. destruct (to_spec env (mkQty x (eval a)) (eval b) da) as (z & -> & Z); cbn [q_unit]; eauto using sized_eval.
      cbn [bind]. unfold py_div. rewrite Qeqb_nz by auto. cbn [bind qreturns returns]. eexists. split; [reflexivity|].
      unfold value_of, si_value in *. cbn [q_data q_unit] in *. pose proof (SZ b Rb) as SB. rewrite Hb in *. rewrite u_div_self_named.
      cbn [si_size c_bases product_size unit_bases] in *. split; [|reflexivity]. rewrite <- Z. field. split; auto.
    + destruct (String.eqb_spec db da) as [K|_]; [congruence|]. unfold py_div. rewrite Qeqb_nz by auto. cbn [bind qreturns returns]. eexists. split; [reflexivity|].
      unfold value_of, si_value. cbn [q_data q_unit]. assert (NZ : forall i, ~ n_scale (reg i) == 0). { intros i K. destruct (E i) as [_ P]. rewrite K in P. now apply Qlt_irrefl in P. }
      rewrite (u_div_size reg) by auto. split; [|tauto]. field. split; auto.
Qed.
(** Six metres over two seconds, and one over four kilometres per hour. *)
Example C138_quotient_case :
  (exists da db, dimension (eval (EName u_m)) = Ok da /\ dimension (eval (EName u_s)) = Ok db /\ da <> db /\ is_named (eval (EName u_s))) /\
  (exists s, py_truediv (VQty (mkQty 6 (eval (EName u_m)))) (VQty (mkQty 2 (eval (EName u_s)))) = Ok (VQty s) /\ si_value s == 3) /\
  (exists s, py_truediv (VNum 2) (VQty (mkQty 4 (eval (EDiv (EName u_km) (EName u_hr))))) = Ok (VQty s) /\ si_value s == 18 # 10).
Proof.
  split; [exists "L"%string, "T"%string; repeat split; try reflexivity; [discriminate|exists u_s; reflexivity]|].
  split; eexists; (split; [vm_compute; reflexivity|vm_compute; reflexivity]).
Qed.

Print Assumptions C138_number_over_quantity.
Print Assumptions C138_quotient_value_partial.
