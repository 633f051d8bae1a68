(** Proofs about the units model, continued: unit algebra instances and the
    Quantity operators. *)
From Coq Require Import List ZArith QArith Qpower Qfield Lqa Bool String Lia Setoid Morphisms.
From Verif Require Import Py StrUtil Units_Model Units_Spec Units_Proofs Units_Algebra.
Import ListNotations.
Open Scope Q_scope.
Open Scope list_scope.

(** ** Exponents *)
Lemma listed_total i l :
  listed_exponent l i = total Z Z.add 0%Z (fun j p => if Nat.eqb j i then p else 0%Z) l.
Proof. induction l as [|[n p] l IH]; cbn; [reflexivity|]. now rewrite IH. Qed.

Lemma exponent_sem i e :
  exponent e i = sem Z Z.add Z.mul (fun j p => if Nat.eqb j i then p else 0%Z) e.
Proof. induction e; cbn; rewrite <- ?IHe, <- ?IHe1, <- ?IHe2; lia. Qed.

Lemma eval_exponent e i : safe_divisions e -> shown_exponent (eval e) i = exponent e i.
Proof.
  intros S. unfold shown_exponent. rewrite listed_total, exponent_sem.
  apply (eval_sem Z eq Z.add 0%Z Z.mul); auto; intros; try lia;
  try (destruct (Nat.eqb _ _); lia).
Qed.

(** Exact exponents of a quotient: exponents of shared bases are added. *)
Lemma listed_exponent_notin l i : ~ In i (ids l) -> listed_exponent l i = 0%Z.
Proof.
  induction l as [|[n p] l IH]; cbn; auto. intros H.
  destruct (Nat.eqb_spec (n_id n) i); [exfalso; auto|]. rewrite IH; auto.
Qed.

Lemma inner_total_exponent i acc bs :
  NoDup (ids bs) ->
  inner_total Z Z.add 0%Z (fun j p => if Nat.eqb j i then p else 0%Z) (-1) acc bs =
  (if existsb (Nat.eqb i) (ids acc) then listed_exponent bs i else - listed_exponent bs i)%Z.
Proof.
  intros H. induction bs as [|[n p] bs IH]; cbn.
  - destruct (existsb _ _); reflexivity.
  - inversion H as [|? ? A B]; subst. rewrite IH by auto.
    destruct (Nat.eqb_spec (n_id n) i) as [E|E].
    + subst i. rewrite (listed_exponent_notin bs (n_id n)) by auto.
      assert (in_bases n acc = existsb (Nat.eqb (n_id n)) (ids acc)) as ->.
      { apply eq_true_iff_eq. rewrite in_bases_iff, existsb_exists. split.
        - intros I. exists (n_id n). split; auto. apply Nat.eqb_refl.
        - intros (x & I & E). apply Nat.eqb_eq in E. now subst. }
      destruct (existsb _ _); lia.
    + destruct (existsb _ _); lia.
Qed.

Lemma u_div_compound_exponent a c i :
  wf_unit a -> wf_unit (UC c) ->
  shown_exponent (u_div a (UC c)) i =
  (if existsb (Nat.eqb i) (ids (unit_bases a))
   then shown_exponent a i + shown_exponent (UC c) i
   else shown_exponent a i - shown_exponent (UC c) i)%Z.
Proof.
  intros Ha Hc. unfold shown_exponent at 1. unfold u_div.
  assert (unit_bases (UC (mk_compound 1 [(a, 1%Z); (UC c, (-1)%Z)])) =
          fold_left (collect_inner (-1)) (c_bases c) (collect_outer [] (a, 1%Z))) as ->.
  { unfold mk_compound. destruct a; reflexivity. }
  set (acc := collect_outer [] (a, 1%Z)).
  assert (acc = unit_bases a) as ->.
  { unfold acc. destruct a as [n|d]; cbn; auto. clear - Ha. unfold wf_unit in Ha. cbn in Ha.
    assert (forall l acc, NoDup (ids (acc ++ l)) -> fold_left (collect_inner 1) l acc = acc ++ l) as G.
    { induction l as [|[n p] l IH]; intros acc H; cbn [fold_left]; [now rewrite app_nil_r|].
      assert (collect_inner 1 acc (n, p) = acc ++ [(n, p)]) as ->.
      { cbn. assert (in_bases n acc = false) as ->.
        { apply not_true_iff_false. rewrite in_bases_iff. intros I. rewrite ids_app in H. cbn in H.
          apply NoDup_remove_2 in H. apply H. apply in_or_app. now left. }
        cbn. now rewrite Z.mul_1_r. }
      rewrite IH; rewrite <- app_assoc; auto. }
    apply (G _ []). auto. }
  rewrite listed_total.
  rewrite (total_fold Z eq Z.add 0%Z); auto; intros; try lia; try (destruct (Nat.eqb _ _); lia).
  rewrite inner_total_exponent by exact Hc. rewrite <- listed_total.
  unfold shown_exponent. cbn [unit_bases]. destruct (existsb _ _); lia.
Qed.

(** ** Sizes *)
Definition reg_list (reg : nat -> named) (l : list (named * Z)) : Prop :=
  forall n p, In (n, p) l -> n = reg (n_id n).

Lemma reg_handle reg b p l : reg_list reg l -> reg_list reg (handle_repeated b p l).
Proof.
  unfold reg_list. induction l as [|[n q] l IH]; cbn; auto. intros H m r.
  destruct (Nat.eqb (n_id b) (n_id n)).
  - destruct (q + p =? 0)%Z; cbn; intros I; [eauto|].
    destruct I as [I|I]; [injection I as <- <-; eauto|eauto].
  - cbn. intros [I|I]; [injection I as <- <-; eauto|]. eapply IH; eauto.
Qed.

Lemma reg_fold reg k bs acc :
  reg_list reg bs -> reg_list reg acc -> reg_list reg (fold_left (collect_inner k) bs acc).
Proof.
  revert acc. induction bs as [|[b p] bs IH]; intros acc Hb Ha; cbn [fold_left]; auto.
  apply IH.
  - intros n q I. apply (Hb n q). now right.
  - cbn. destruct (in_bases b acc); cbn.
    + now apply reg_handle.
    + intros n q I. apply in_app_or in I. destruct I as [I|[I|[]]]; [eauto|].
      injection I as <- <-. apply (Hb b p). now left.
Qed.

Lemma reg_outer reg acc u k :
  reg_list reg (unit_bases u) -> reg_list reg acc -> reg_list reg (collect_outer acc (u, k)).
Proof.
  intros Hu Ha. destruct u as [n|c]; cbn.
  - destruct (in_bases n acc); cbn.
    + now apply reg_handle.
    + intros m q I. apply in_app_or in I. destruct I as [I|[I|[]]]; [eauto|].
      injection I as <- <-. apply (Hu n 1%Z). now left.
  - now apply reg_fold.
Qed.

Lemma reg_expand reg l :
  (forall u k, In (u, k) l -> reg_list reg (unit_bases u)) -> reg_list reg (expand_and_collect l).
Proof.
  unfold expand_and_collect. assert (reg_list reg []) as H by (intros ? ? []). revert H.
  generalize (@nil (named * Z)). induction l as [|[u k] l IH]; intros acc Ha Hl; cbn [fold_left]; auto.
  apply IH.
  - apply reg_outer; auto. apply (Hl u k). now left.
  - intros v j I. apply (Hl v j). now right.
Qed.

Lemma reg_mk reg q l :
  (forall u k, In (u, k) l -> reg_list reg (unit_bases u)) -> reg_list reg (c_bases (mk_compound q l)).
Proof.
  intros H. unfold mk_compound.
  destruct l as [|[[n|c] p] [|x l]]; try now apply reg_expand.
  destruct (0 <=? p)%Z; [|now apply reg_expand].
  specialize (H (UN n) p (or_introl eq_refl) n 1%Z (or_introl eq_refl)).
  destruct (p =? 0)%Z; cbn; intros m r I; [destruct I|].
  destruct I as [I|[]]. now injection I as <- <-.
Qed.

Lemma reg_eval reg e : from_registry reg e -> reg_list reg (unit_bases (eval e)).
Proof.
  induction e; cbn [from_registry eval]; intros H.
  - cbn. intros m r [I|[]]. injection I as <- <-. tauto.
  - destruct H as [H1 H2]. unfold u_mul. destruct (is_unity (eval e2)); auto.
    destruct (is_unity (eval e1)); auto. apply reg_mk. cbn. intros u k [I|[I|[]]]; injection I as <- <-; auto.
  - destruct H as [H1 H2]. apply reg_mk. cbn. intros u k [I|[I|[]]]; injection I as <- <-; auto.
  - apply reg_mk. cbn. intros u k [I|[]]; injection I as <- <-; auto.
  - apply reg_mk. cbn. intros u j [I|[]]; injection I as <- <-; auto.
Qed.

Definition QW (reg : nat -> named) (i : nat) (p : Z) : Q := Qpower (n_scale (reg i)) p.

Lemma product_total reg l :
  reg_list reg l -> product_size l == total Q Qmult 1 (QW reg) l.
Proof.
  induction l as [|[n p] l IH]; intros H; cbn; [reflexivity|].
  rewrite IH by (intros m q I; apply (H m q); now right).
  unfold QW. rewrite <- (H n p (or_introl eq_refl)). reflexivity.
Qed.

Lemma si_size_bases u : si_size u == product_size (unit_bases u).
Proof. destruct u; cbn; [|reflexivity]. ring. Qed.

Lemma size_sem reg e :
  from_registry reg e -> size e == sem Q Qmult Qpower (QW reg) e.
Proof.
  induction e; cbn; intros H.
  - destruct H as [H _]. unfold QW. rewrite <- H. cbn. reflexivity.
  - destruct H. now rewrite IHe1, IHe2.
  - destruct H. rewrite IHe1, IHe2 by auto. reflexivity.
  - rewrite IHe by auto. reflexivity.
  - rewrite IHe by auto. reflexivity.
Qed.

Section Reg.
  Variable reg : nat -> named.
  Hypothesis reg_nz : forall i, ~ n_scale (reg i) == 0.

  Let e1 : forall a b, a * b == b * a := Qmult_comm.
  Let e2 : forall a b c, a * (b * c) == a * b * c := Qmult_assoc.
  Let e3 : forall a, 1 * a == a := Qmult_1_l.
  Lemma QW_add i p q : QW reg i (p + q) == QW reg i p * QW reg i q.
  Proof. unfold QW. apply Qpower_plus. apply reg_nz. Qed.
  Lemma QW_0 i : QW reg i 0 == 1.
  Proof. reflexivity. Qed.
  Lemma Qpw_op a b k : (a * b) ^ k == a ^ k * b ^ k.
  Proof. apply Qmult_power. Qed.
  Lemma Qpw_1 k : 1 ^ k == 1.
  Proof. apply Qpower_1. Qed.
  Lemma Qpw_W i p k : (QW reg i p) ^ k == QW reg i (p * k).
  Proof. unfold QW. symmetry. apply Qpower_mult. Qed.

  Lemma eval_size e : from_registry reg e -> safe_divisions e -> si_size (eval e) == size e.
  Proof.
    intros R S. rewrite si_size_bases, (product_total reg) by now apply reg_eval.
    rewrite (size_sem reg) by auto.
    apply (eval_sem Q Qeq Qmult 1 Qpower); auto using QW_add, QW_0, Qpw_op, Qpw_1, Qpw_W.
  Qed.

  Lemma u_mul_size a b :
    from_registry reg a -> from_registry reg b ->
    si_size (u_mul (eval a) (eval b)) == si_size (eval a) * si_size (eval b).
  Proof.
    intros A B. rewrite !si_size_bases.
    rewrite (product_total reg (unit_bases (eval a))) by now apply reg_eval.
    rewrite (product_total reg (unit_bases (eval b))) by now apply reg_eval.
    rewrite (product_total reg) by (apply (reg_eval reg (EMul a b)); cbn; auto).
    apply (ut_mul Q Qeq Qmult 1 Qpower); auto using QW_add, QW_0, Qpw_op, Qpw_1, Qpw_W.
  Qed.

  Lemma u_pow_size a k :
    from_registry reg a -> si_size (u_pow (eval a) k) == Qpower (si_size (eval a)) k.
  Proof.
    intros A. rewrite !si_size_bases.
    rewrite (product_total reg (unit_bases (eval a))) by now apply reg_eval.
    rewrite (product_total reg) by (apply (reg_eval reg (EPow a k)); cbn; auto).
    apply (ut_mk1 Q Qeq Qmult 1 Qpower); auto using QW_add, QW_0, Qpw_op, Qpw_1, Qpw_W, wf_eval.
  Qed.

  Lemma u_div_size a b :
    from_registry reg a -> from_registry reg b ->
    (is_named (eval b) \/ ~ shares_base (eval a) (eval b)) ->
    si_size (u_div (eval a) (eval b)) == si_size (eval a) / si_size (eval b).
  Proof.
    intros A B C. rewrite !si_size_bases.
    rewrite (product_total reg (unit_bases (eval a))) by now apply reg_eval.
    rewrite (product_total reg (unit_bases (eval b))) by now apply reg_eval.
    rewrite (product_total reg) by (apply (reg_eval reg (EDiv a b)); cbn; auto).
    unfold u_div.
    etransitivity; [apply (ut_mk2 Q Qeq Qmult 1 Qpower (QW reg));
      auto using QW_add, QW_0, Qpw_op, Qpw_1, Qpw_W, wf_eval; tauto|reflexivity].
  Qed.
End Reg.

Lemma sized_eval env reg e :
  (forall i, sized_named env (reg i)) -> from_registry reg e -> sized env (eval e).
Proof.
  intros H R. pose proof (reg_eval reg e R) as G. unfold reg_list in G.
  destruct (eval e) as [n|c]; cbn in *.
  - rewrite (G n 1%Z (or_introl eq_refl)). apply H.
  - apply Forall_forall. intros [n p] I. cbn. rewrite (G n p I). apply H.
Qed.

(** ** Quantity operators *)
Lemma dims_eqb d : String.eqb d d = true.
Proof. apply String.eqb_refl. Qed.

Lemma q_add_spec env q r d :
  sized env (q_unit q) -> sized env (q_unit r) ->
  dimension (q_unit q) = Ok d -> dimension (q_unit r) = Ok d ->
  exists s, q_add q (OQty r) = Ok s /\ q_unit s = q_unit q /\
            si_value s == si_value q + si_value r.
Proof.
  intros Sq Sr Dq Dr. unfold q_add. rewrite Dq, Dr. cbn [bind]. rewrite dims_eqb. cbn [negb].
  destruct (to_spec env r (q_unit q) d Sr Sq Dr Dq) as (x & -> & X). cbn [bind].
  eexists; split; [reflexivity|]. split; [reflexivity|]. unfold si_value in *. cbn. rewrite <- X. ring.
Qed.

Lemma q_sub_spec env q r d :
  sized env (q_unit q) -> sized env (q_unit r) ->
  dimension (q_unit q) = Ok d -> dimension (q_unit r) = Ok d ->
  exists s, q_sub q (OQty r) = Ok s /\ q_unit s = q_unit q /\
            si_value s == si_value q - si_value r.
Proof.
  intros Sq Sr Dq Dr. unfold q_sub. cbn [o_neg].
  destruct (q_add_spec env q (q_neg r) d Sq Sr Dq Dr) as (s & A & B & C).
  exists s. repeat split; auto. rewrite C. unfold si_value. cbn. ring.
Qed.

Lemma q_cmp_spec env f q r d :
  sized env (q_unit q) -> sized env (q_unit r) ->
  dimension (q_unit q) = Ok d -> dimension (q_unit r) = Ok d ->
  exists x, q_cmp f q (OQty r) = Ok (CBool (f (q_data q) x)) /\
            x * si_size (q_unit q) == si_value r.
Proof.
  intros Sq Sr Dq Dr. unfold q_cmp. rewrite Dq, Dr. cbn [bind]. rewrite dims_eqb. cbn [negb].
  destruct (to_spec env r (q_unit q) d Sr Sq Dr Dq) as (x & -> & X). cbn [bind]. eauto.
Qed.

Lemma Qltb_iff a b : Qltb a b = true <-> a < b.
Proof.
  unfold Qltb. rewrite negb_true_iff. split.
  - intros H. apply Qnot_le_lt. intros L. apply Qle_bool_iff in L. congruence.
  - intros H. apply not_true_iff_false. rewrite Qle_bool_iff. now apply Qlt_not_le.
Qed.

Lemma Qleb_iff a b : Qleb a b = true <-> a <= b.
Proof. apply Qle_bool_iff. Qed.

Lemma Qeqb_iff a b : Qeqb a b = true <-> a == b.
Proof. apply Qeq_bool_iff. Qed.

Lemma scale_lt a b s : 0 < s -> (a < b <-> a * s < b * s).
Proof. intros H. symmetry. now apply Qmult_lt_r. Qed.

Lemma scale_eq a b s : 0 < s -> (a == b <-> a * s == b * s).
Proof.
  intros H. split; [intros ->; reflexivity|]. intros E.
  apply (Qmult_inj_r a b s); auto. intros C. rewrite C in H. now apply Qlt_irrefl in H.
Qed.

Lemma comparisons_spec env q r d :
  sized env (q_unit q) -> sized env (q_unit r) ->
  dimension (q_unit q) = Ok d -> dimension (q_unit r) = Ok d ->
  (exists b, q_eq q (OQty r) = Ok b /\ (b = true <-> si_value q == si_value r)) /\
  (exists b, q_ne q (OQty r) = Ok b /\ (b = true <-> ~ si_value q == si_value r)) /\
  (exists b, q_lt q (OQty r) = Ok b /\ (b = true <-> si_value q < si_value r)) /\
  (exists b, q_gt q (OQty r) = Ok b /\ (b = true <-> si_value r < si_value q)) /\
  (exists b, q_le q (OQty r) = Ok b /\ (b = true <-> si_value q <= si_value r)) /\
  (exists b, q_ge q (OQty r) = Ok b /\ (b = true <-> si_value r <= si_value q)).
Proof.
  intros Sq Sr Dq Dr.
  pose proof (si_size_pos env _ Sq) as P.
  assert (exists x, to_ r (q_unit q) = Ok x /\ x * si_size (q_unit q) == si_value r) as (x & T & X)
    by (apply (to_spec env r (q_unit q) d); auto).
  assert (forall f, q_cmp f q (OQty r) = Ok (CBool (f (q_data q) x))) as C.
  { intros f. unfold q_cmp. rewrite Dq, Dr. cbn [bind]. rewrite dims_eqb. cbn [negb]. now rewrite T. }
  unfold q_eq, q_ne, q_lt, q_gt, q_le, q_ge, py_eq_expr, py_ord_expr, q_ne_m, q_le_m, q_ge_m,
    q_eq_m, q_lt_m, q_gt_m.
  rewrite !C. cbn [bind].
  assert (EQ : q_data q == x <-> si_value q == si_value r).
  { rewrite <- X. unfold si_value. now apply scale_eq. }
  assert (LT : q_data q < x <-> si_value q < si_value r).
  { rewrite <- X. unfold si_value. now apply scale_lt. }
  assert (GT : x < q_data q <-> si_value r < si_value q).
  { rewrite <- X. unfold si_value. now apply scale_lt. }
  repeat split.
  - eexists; split; [reflexivity|]. now rewrite Qeqb_iff.
  - eexists; split; [reflexivity|]. rewrite negb_true_iff, <- not_true_iff_false, Qeqb_iff. now rewrite EQ.
  - eexists; split; [reflexivity|]. now rewrite Qltb_iff.
  - eexists; split; [reflexivity|]. now rewrite Qltb_iff.
  - destruct (Qeqb (q_data q) x) eqn:E; cbn [bind py_or].
    + eexists; split; [reflexivity|]. apply Qeqb_iff in E. apply EQ in E. rewrite E. split; auto. intros _. apply Qle_refl.
    + eexists; split; [reflexivity|]. rewrite Qltb_iff, LT.
      assert (~ si_value q == si_value r) as N by (rewrite <- EQ, <- Qeqb_iff; congruence).
      split; [apply Qlt_le_weak|]. intros H. apply Qle_lteq in H. tauto.
  - destruct (Qeqb (q_data q) x) eqn:E; cbn [bind py_or].
    + eexists; split; [reflexivity|]. apply Qeqb_iff in E. apply EQ in E. rewrite E. split; auto. intros _. apply Qle_refl.
    + eexists; split; [reflexivity|]. rewrite Qltb_iff, GT.
      assert (~ si_value q == si_value r) as N by (rewrite <- EQ, <- Qeqb_iff; congruence).
      split; [apply Qlt_le_weak|]. intros H. apply Qle_lteq in H. destruct H as [H|H]; auto. symmetry in H. tauto.
Qed.

Lemma q_mul_spec env reg a b x y da db :
  (forall i, sized_named env (reg i)) -> from_registry reg a -> from_registry reg b ->
  dimension (eval a) = Ok da -> dimension (eval b) = Ok db ->
  exists s, q_mul (mkQty x (eval a)) (OQty (mkQty y (eval b))) = Ok s /\
            si_value s == (x * si_size (eval a)) * (y * si_size (eval b)).
Proof.
  intros E Ra Rb Da Db.
  assert (forall i, ~ n_scale (reg i) == 0) as NZ.
  { intros i C. destruct (E i) as [_ P]. rewrite C in P. now apply Qlt_irrefl in P. }
  unfold q_mul. cbn [q_unit q_data]. rewrite Da, Db. cbn [bind].
  destruct (String.eqb_spec da db) as [<-|N].
  - destruct (to_spec env (mkQty y (eval b)) (eval a) da) as (z & -> & Z); cbn [q_unit];
      eauto using sized_eval.
    cbn [bind]. eexists; split; [reflexivity|]. unfold si_value in *. cbn [q_data q_unit] in *.
    rewrite (u_pow_size reg) by auto. cbn [Qpower Qpower_positive pow_pos]. rewrite <- Z. ring.
  - eexists; split; [reflexivity|]. unfold si_value. cbn [q_data q_unit].
    rewrite (u_mul_size reg) by auto. ring.
Qed.

Lemma u_div_self_named n : u_div (UN n) (UN n) = UC (mkCompound 1 [] true).
Proof.
  unfold u_div, mk_compound, expand_and_collect. cbn. rewrite Nat.eqb_refl. reflexivity.
Qed.

Lemma Qeqb_nz s : ~ s == 0 -> Qeq_bool s 0 = false.
Proof. intros H. apply not_true_iff_false. now rewrite Qeq_bool_iff. Qed.

Lemma q_div_spec env reg a b x y da db :
  (forall i, sized_named env (reg i)) -> from_registry reg a -> from_registry reg b ->
  dimension (eval a) = Ok da -> dimension (eval b) = Ok db -> ~ y == 0 ->
  (da = db /\ is_named (eval a)) \/
  (da <> db /\ (is_named (eval b) \/ ~ shares_base (eval a) (eval b))) ->
  exists s, q_div (mkQty x (eval a)) (OQty (mkQty y (eval b))) = Ok s /\
            si_value s == (x * si_size (eval a)) / (y * si_size (eval b)) /\
            (da = db -> unit_bases (q_unit s) = []).
Proof.
  intros E Ra Rb Da Db Y C.
  assert (forall i, ~ n_scale (reg i) == 0) as NZ.
  { intros i K. destruct (E i) as [_ P]. rewrite K in P. now apply Qlt_irrefl in P. }
  assert (forall e, from_registry reg e -> ~ si_size (eval e) == 0) as SZ.
  { intros e R K. pose proof (si_size_pos env (eval e) (sized_eval env reg e E R)) as P.
    rewrite K in P. now apply Qlt_irrefl in P. }
  unfold q_div. cbn [q_unit q_data]. rewrite Da, Db. cbn [bind].
  destruct C as [[<- [n Ha]]|[N C]].
  - rewrite dims_eqb.
    destruct (to_spec env (mkQty y (eval b)) (eval a) da) as (z & -> & Z); cbn [q_unit];
      eauto using sized_eval.
    cbn [bind]. unfold si_value in Z. cbn [q_data q_unit] in Z.
    assert (~ z == 0) as ZN.
    { intros K. rewrite K in Z. pose proof (SZ b Rb). apply Y.
      apply (Qmult_inj_r y 0 (si_size (eval b))); auto. rewrite <- Z. ring. }
    unfold py_div. rewrite Qeqb_nz by auto. cbn [bind].
    eexists; split; [reflexivity|]. unfold si_value. cbn [q_data q_unit].
    pose proof (SZ a Ra) as SA. rewrite Ha in *. rewrite u_div_self_named. cbn [si_size c_bases product_size unit_bases] in *.
    split; [|reflexivity]. rewrite <- Z. field. split; auto.
  - destruct (String.eqb_spec da db) as [K|_]; [contradiction|].
    unfold py_div. rewrite Qeqb_nz by auto. cbn [bind].
    eexists; split; [reflexivity|]. unfold si_value. cbn [q_data q_unit].
    rewrite (u_div_size reg) by auto. split; [|tauto]. field. split; auto.
Qed.

(** ** Namespaces *)
Lemma ns_get_app ns n k :
  ns_get (ns ++ [(n_name n, n)]) k =
  match ns_get ns k with
  | Some v => Some v
  | None => if String.eqb k (n_name n) then Some n else None
  end.
Proof.
  induction ns as [|[k' v] ns IH]; cbn; auto. destruct (String.eqb k k'); auto.
Qed.

Lemma ns_insert_get ns n k :
  ns_get (ns_insert ns n) k =
  match ns_get ns k with
  | Some v => Some v
  | None => if String.eqb k (n_name n) then Some n else None
  end.
Proof.
  unfold ns_insert. destruct (ns_get ns (n_name n)) eqn:E.
  - destruct (ns_get ns k) eqn:F; auto. destruct (String.eqb_spec k (n_name n)); auto. subst. congruence.
  - apply ns_get_app.
Qed.

Lemma ns_history ns l k :
  ns_get (fold_left ns_insert l ns) k =
  match ns_get ns k with
  | Some v => Some v
  | None => find (fun n => String.eqb k (n_name n)) l
  end.
Proof.
  revert ns. induction l as [|n l IH]; intros ns; cbn.
  - destruct (ns_get ns k); auto.
  - rewrite IH, ns_insert_get. destruct (ns_get ns k); auto. destruct (String.eqb k (n_name n)); auto.
Qed.
