(** The unit algebra of celest/units/core.py: what the collected bases amount to.
    One generic induction, instantiated with exponents (in Z) and sizes (in Q). *)
From Coq Require Import List ZArith QArith Qpower Qfield Bool String Lia Setoid Morphisms.
From Verif Require Import Py Units_Model Units_Spec.
Import ListNotations.
Close Scope Q_scope.
Open Scope nat_scope.
Open Scope list_scope.

Definition ids (l : list (named * Z)) : list nat := map (fun bp => n_id (fst bp)) l.

Lemma in_bases_iff b l : in_bases b l = true <-> In (n_id b) (ids l).
Proof.
  unfold in_bases, ids. rewrite existsb_exists, in_map_iff. split.
  - intros ([n p] & I & E). apply Nat.eqb_eq in E. exists (n, p). split; auto.
  - intros ([n p] & E & I). exists (n, p). split; auto. apply Nat.eqb_eq. auto.
Qed.

Lemma ids_app l1 l2 : ids (l1 ++ l2) = ids l1 ++ ids l2.
Proof. apply map_app. Qed.

Lemma ids_handle b p l i : In i (ids (handle_repeated b p l)) -> In i (ids l).
Proof.
  induction l as [|[n q] l IH]; cbn; auto.
  destruct (Nat.eqb_spec (n_id b) (n_id n)).
  - destruct (q + p =? 0)%Z; cbn; auto.
  - cbn. intuition.
Qed.

Lemma ids_handle_other b p l i :
  i <> n_id b -> In i (ids l) -> In i (ids (handle_repeated b p l)).
Proof.
  intros N. induction l as [|[n q] l IH]; cbn; auto.
  destruct (Nat.eqb_spec (n_id b) (n_id n)).
  - destruct (q + p =? 0)%Z; cbn; intuition congruence.
  - cbn. intuition.
Qed.

Lemma nodup_handle b p l : NoDup (ids l) -> NoDup (ids (handle_repeated b p l)).
Proof.
  induction l as [|[n q] l IH]; cbn; intros H; [constructor|].
  inversion H as [|? ? A B]; subst.
  destruct (Nat.eqb_spec (n_id b) (n_id n)).
  - destruct (q + p =? 0)%Z; cbn; auto.
  - cbn. constructor; auto. intros I. apply A. eapply ids_handle; eauto.
Qed.

Lemma nodup_snoc l (b : named) p : NoDup (ids l) -> in_bases b l = false -> NoDup (ids (l ++ [(b, p)])).
Proof.
  intros H N. rewrite ids_app. cbn. apply NoDup_rev in H. rewrite <- (rev_involutive (ids l ++ [n_id b])).
  apply NoDup_rev. rewrite rev_app_distr. cbn. constructor; auto.
  rewrite <- in_rev. rewrite <- in_bases_iff. congruence.
Qed.

Lemma nodup_inner power acc bp : NoDup (ids acc) -> NoDup (ids (collect_inner power acc bp)).
Proof.
  destruct bp as [b p]. intros H. cbn. destruct (in_bases b acc) eqn:E; cbn.
  - now apply nodup_handle.
  - now apply nodup_snoc.
Qed.

Lemma nodup_inner_fold power bs acc :
  NoDup (ids acc) -> NoDup (ids (fold_left (collect_inner power) bs acc)).
Proof. revert acc. induction bs; cbn; auto. intros acc H. apply IHbs. now apply nodup_inner. Qed.

Lemma nodup_outer acc up : NoDup (ids acc) -> NoDup (ids (collect_outer acc up)).
Proof.
  destruct up as [[n|c] p]; intros H; cbn.
  - destruct (in_bases n acc) eqn:E; cbn; [now apply nodup_handle|now apply nodup_snoc].
  - now apply nodup_inner_fold.
Qed.

Lemma nodup_expand l : NoDup (ids (expand_and_collect l)).
Proof.
  unfold expand_and_collect. assert (NoDup (ids [])) as H by constructor. revert H.
  generalize (@nil (named * Z)). induction l; cbn; auto. intros acc H. apply IHl. now apply nodup_outer.
Qed.

Lemma nodup_mk k l : NoDup (ids (c_bases (mk_compound k l))).
Proof.
  unfold mk_compound.
  destruct l as [|[[n|c] p] [|x l]]; try apply nodup_expand.
  destruct (0 <=? p)%Z; [|apply nodup_expand].
  destruct (p =? 0)%Z; cbn; repeat constructor; cbn; tauto.
Qed.

Definition wf_unit (u : punit) : Prop := NoDup (ids (unit_bases u)).

Lemma wf_named n : wf_unit (UN n).
Proof. unfold wf_unit. cbn. repeat constructor. cbn. tauto. Qed.

Lemma wf_eval e : wf_unit (eval e).
Proof.
  induction e; cbn.
  - apply wf_named.
  - unfold u_mul. destruct (is_unity (eval e2)); auto. destruct (is_unity (eval e1)); auto. apply nodup_mk.
  - apply nodup_mk.
  - apply nodup_mk.
  - apply nodup_mk.
Qed.

(** Membership after adding one base. *)
Lemma in_inner power acc b p b' :
  n_id b' <> n_id b -> in_bases b' (collect_inner power acc (b, p)) = in_bases b' acc.
Proof.
  intros N. apply eq_true_iff_eq. rewrite !in_bases_iff. cbn.
  destruct (in_bases b acc); cbn.
  - split; [apply ids_handle|]. now apply ids_handle_other.
  - rewrite ids_app, in_app_iff. cbn. intuition congruence.
Qed.

Lemma mk_unity k l : c_unity (mk_compound k l) = true -> c_bases (mk_compound k l) = [].
Proof.
  unfold mk_compound. 
  assert (G : c_unity (mkCompound k (expand_and_collect l)
     (match expand_and_collect l with [] => true | _ => false end)) = true -> expand_and_collect l = []).
  { destruct (expand_and_collect l); cbn; [auto|intros H; discriminate H]. }
  destruct l as [|[[n|c] p] [|x l]]; auto.
  destruct (0 <=? p)%Z; auto. destruct (p =? 0)%Z; cbn; intros H; discriminate H.
Qed.

Section Weights.
  Variable T : Type.
  Variable eqT : T -> T -> Prop.
  Context {EQ : Equivalence eqT}.
  Variable op : T -> T -> T.
  Variable e0 : T.
  Variable pw : T -> Z -> T.
  Context {OPP : Proper (eqT ==> eqT ==> eqT) op}.
  Context {PWP : Proper (eqT ==> eq ==> eqT) pw}.
  Variable W : nat -> Z -> T.
  Hypothesis op_comm : forall a b, eqT (op a b) (op b a).
  Hypothesis op_assoc : forall a b c, eqT (op a (op b c)) (op (op a b) c).
  Hypothesis op_e : forall a, eqT (op e0 a) a.
  Hypothesis W_add : forall i p q, eqT (W i (p + q)) (op (W i p) (W i q)).
  Hypothesis W_0 : forall i, eqT (W i 0) e0.
  Hypothesis pw_op : forall a b k, eqT (pw (op a b) k) (op (pw a k) (pw b k)).
  Hypothesis pw_e : forall k, eqT (pw e0 k) e0.
  Hypothesis pw_W : forall i p k, eqT (pw (W i p) k) (W i (p * k)).

  Fixpoint total (l : list (named * Z)) : T :=
    match l with
    | [] => e0
    | (n, p) :: r => op (W (n_id n) p) (total r)
    end.

  Fixpoint scaled (k : Z) (l : list (named * Z)) : T :=
    match l with
    | [] => e0
    | (n, p) :: r => op (W (n_id n) (p * k)) (scaled k r)
    end.

  (** What dividing by (or multiplying with) the bases [bs] really does given the
      bases [acc] already collected. *)
  Fixpoint inner_total (k : Z) (acc bs : list (named * Z)) : T :=
    match bs with
    | [] => e0
    | (n, p) :: r =>
        op (W (n_id n) (if in_bases n acc then p else p * k)%Z) (inner_total k acc r)
    end.

  Lemma op_e_r a : eqT (op a e0) a.
  Proof. rewrite op_comm. apply op_e. Qed.

  Lemma total_app l1 l2 : eqT (total (l1 ++ l2)) (op (total l1) (total l2)).
  Proof.
    induction l1 as [|[n p] l IH]; cbn; [now rewrite op_e|]. now rewrite IH, op_assoc.
  Qed.

  Lemma pw_total k l : eqT (pw (total l) k) (scaled k l).
  Proof.
    induction l as [|[n p] l IH]; cbn; [apply pw_e|]. now rewrite pw_op, pw_W, IH.
  Qed.

  Lemma scaled_1 l : eqT (scaled 1 l) (total l).
  Proof. induction l as [|[n p] l IH]; cbn; [reflexivity|]. rewrite IH, Z.mul_1_r. reflexivity. Qed.

  Lemma total_handle b p l :
    in_bases b l = true -> eqT (total (handle_repeated b p l)) (op (total l) (W (n_id b) p)).
  Proof.
    induction l as [|[n q] l IH]; cbn; [discriminate|].
    destruct (Nat.eqb_spec (n_id b) (n_id n)) as [E|E]; cbn.
    - intros _. rewrite E. destruct (Z.eqb_spec (q + p) 0) as [Z0|Z0].
      + rewrite <- op_assoc, (op_comm (total l)), op_assoc, <- W_add, Z0, W_0, op_e. reflexivity.
      + cbn. rewrite W_add. rewrite <- !op_assoc. now rewrite (op_comm (W _ p)).
    - intros H. rewrite IH by auto. now rewrite op_assoc.
  Qed.

  Lemma total_inner power acc b p :
    eqT (total (collect_inner power acc (b, p)))
        (op (total acc) (W (n_id b) (if in_bases b acc then p else p * power)%Z)).
  Proof.
    cbn. destruct (in_bases b acc) eqn:E; cbn.
    - now apply total_handle.
    - rewrite total_app. cbn. now rewrite op_e_r.
  Qed.

  Lemma inner_total_ext k acc acc' bs :
    (forall n p, In (n, p) bs -> in_bases n acc = in_bases n acc') ->
    eqT (inner_total k acc bs) (inner_total k acc' bs).
  Proof.
    induction bs as [|[n p] bs IH]; intros H; cbn; [reflexivity|].
    rewrite (H n p (or_introl eq_refl)). rewrite IH; [reflexivity|].
    intros n' p' I. apply (H n' p'). now right.
  Qed.

  Lemma total_fold power bs acc :
    NoDup (ids bs) ->
    eqT (total (fold_left (collect_inner power) bs acc)) (op (total acc) (inner_total power acc bs)).
  Proof.
    revert acc. induction bs as [|[b p] bs IH]; intros acc H; cbn [fold_left inner_total].
    - now rewrite op_e_r.
    - inversion H as [|? ? A B]; subst. rewrite IH by auto. rewrite total_inner.
      rewrite <- op_assoc. 
      rewrite (inner_total_ext power (collect_inner power acc (b, p)) acc bs); [reflexivity|].
      intros n q I. apply in_inner. intros E. apply A. rewrite <- E.
      apply (in_map (fun bp => n_id (fst bp)) bs (n, q) I).
  Qed.

  Lemma inner_total_disjoint k acc bs :
    (forall n p, In (n, p) bs -> in_bases n acc = false) ->
    eqT (inner_total k acc bs) (scaled k bs).
  Proof.
    induction bs as [|[n p] bs IH]; intros H; cbn; [reflexivity|].
    rewrite (H n p (or_introl eq_refl)). rewrite IH; [reflexivity|].
    intros n' p' I. apply (H n' p'). now right.
  Qed.

  Lemma inner_total_1 acc bs : eqT (inner_total 1 acc bs) (total bs).
  Proof.
    induction bs as [|[n p] bs IH]; cbn; [reflexivity|].
    rewrite IH, Z.mul_1_r. now destruct (in_bases n acc).
  Qed.

  Definition ut (u : punit) : T := total (unit_bases u).

  Lemma total_outer_nil u k : wf_unit u -> eqT (total (collect_outer [] (u, k))) (pw (ut u) k).
  Proof.
    intros H. destruct u as [n|c]; unfold ut; cbn [collect_outer unit_bases].
    - cbn. rewrite pw_op, pw_e, pw_W, Z.mul_1_l. reflexivity.
    - rewrite total_fold by exact H. cbn [total]. rewrite op_e.
      rewrite inner_total_disjoint by reflexivity. now rewrite pw_total.
  Qed.

  Lemma total_outer acc u k :
    wf_unit u ->
    (k = 1%Z \/ is_named u \/ (forall n p, In (n, p) (unit_bases u) -> in_bases n acc = false)) ->
    eqT (total (collect_outer acc (u, k))) (op (total acc) (pw (ut u) k)).
  Proof.
    intros H C. destruct u as [n|c]; unfold ut; cbn [collect_outer unit_bases].
    - cbn [total]. rewrite pw_op, pw_e, pw_W, Z.mul_1_l, op_e_r.
      destruct (in_bases n acc) eqn:E; cbn.
      + now apply total_handle.
      + rewrite total_app. cbn. now rewrite op_e_r.
    - rewrite total_fold by exact H. rewrite pw_total.
      destruct C as [->|[[n C]|C]]; [|discriminate|].
      + now rewrite inner_total_1, scaled_1.
      + now rewrite inner_total_disjoint.
  Qed.

  Lemma ut_mk1 k u p : wf_unit u -> eqT (ut (UC (mk_compound k [(u, p)]))) (pw (ut u) p).
  Proof.
    intros H. unfold mk_compound. 
    assert (G : eqT (ut (UC (mkCompound k (expand_and_collect [(u, p)])
              (match expand_and_collect [(u, p)] with [] => true | _ => false end)))) (pw (ut u) p)).
    { unfold ut. cbn [unit_bases c_bases]. unfold expand_and_collect. cbn [fold_left].
      now rewrite total_outer_nil. }
    destruct u as [n|c]; auto.
    destruct (0 <=? p)%Z eqn:E; auto.
    unfold ut. cbn [unit_bases]. destruct (Z.eqb_spec p 0) as [->|N]; cbn [c_bases total].
    - rewrite pw_op, pw_e, pw_W, op_e_r. cbn. now rewrite W_0.
    - rewrite pw_op, pw_e, pw_W. now rewrite Z.mul_1_l.
  Qed.

  Lemma pw_1 u : eqT (pw (ut u) 1) (ut u).
  Proof. unfold ut. now rewrite pw_total, scaled_1. Qed.

  (** Exact value of a product or quotient of two units. *)
  Lemma ut_mk2 a b k :
    wf_unit a -> wf_unit b ->
    (k = 1%Z \/ is_named b \/ ~ shares_base a b) ->
    eqT (ut (UC (mk_compound 1 [(a, 1%Z); (b, k)]))) (op (ut a) (pw (ut b) k)).
  Proof.
    intros Ha Hb C. assert (mk_compound 1 [(a, 1%Z); (b, k)] =
      mkCompound 1 (expand_and_collect [(a, 1%Z); (b, k)])
        (match expand_and_collect [(a, 1%Z); (b, k)] with [] => true | _ => false end)) as ->.
    { unfold mk_compound. destruct a; reflexivity. }
    unfold ut at 1. cbn [unit_bases c_bases]. unfold expand_and_collect. cbn [fold_left].
    rewrite total_outer; auto.
    - rewrite total_outer_nil by auto. now rewrite pw_1.
    - destruct C as [C|[C|C]]; auto. right. right. intros n p I.
      apply not_true_iff_false. rewrite in_bases_iff. intros J. apply C.
      assert (In (n_id n) (ids (unit_bases a))) as K.
      { clear - J. destruct a as [m|c]; cbn [collect_outer] in J; auto.
        assert (forall acc, In (n_id n) (ids (fold_left (collect_inner 1) (c_bases c) acc)) ->
                In (n_id n) (ids acc) \/ In (n_id n) (ids (c_bases c))) as G.
        { clear. induction (c_bases c) as [|[b p] l IH]; cbn [fold_left]; auto.
          intros acc I. apply IH in I. destruct I as [I|I]; [|right; now right].
          cbn in I. destruct (in_bases b acc); cbn in I.
          - left. eapply ids_handle; eauto.
          - rewrite ids_app, in_app_iff in I. cbn in I. destruct I as [I|[I|[]]]; auto. right. left. auto. }
        apply G in J. cbn in J. tauto. }
      unfold ids in K. apply in_map_iff in K as ([m q] & E & K).
      exists m, q, n, p. auto.
  Qed.

  Lemma ut_unity u : is_unity u = true -> (exists e, u = eval e) -> eqT (ut u) e0.
  Proof.
    intros H [e ->]. assert (unit_bases (eval e) = []) as E.
    { induction e; cbn [eval] in *; unfold u_div, u_inv, u_pow in *;
      cbn [is_unity unit_bases] in *; try discriminate; try now apply mk_unity.
      unfold u_mul in *. destruct (is_unity (eval e2)) eqn:U2; auto.
      destruct (is_unity (eval e1)) eqn:U1; [congruence|]. cbn [is_unity unit_bases] in *. now apply mk_unity. }
    unfold ut. now rewrite E.
  Qed.

  Fixpoint sem (e : uexpr) : T :=
    match e with
    | EName n => W (n_id n) 1
    | EMul a b => op (sem a) (sem b)
    | EDiv a b => op (sem a) (pw (sem b) (-1))
    | EInv a => pw (sem a) (-1)
    | EPow a k => pw (sem a) k
    end.

  Lemma ut_mul a b : eqT (ut (u_mul (eval a) (eval b))) (op (ut (eval a)) (ut (eval b))).
  Proof.
    unfold u_mul. destruct (is_unity (eval b)) eqn:B; [|destruct (is_unity (eval a)) eqn:A].
    - rewrite (ut_unity (eval b)) by eauto. now rewrite op_e_r.
    - rewrite (ut_unity (eval a)) by eauto. now rewrite op_e.
    - rewrite ut_mk2; auto using wf_eval. now rewrite pw_1.
  Qed.

  Theorem eval_sem e : safe_divisions e -> eqT (ut (eval e)) (sem e).
  Proof.
    induction e; cbn [eval sem safe_divisions]; intros S.
    - unfold ut. cbn. now rewrite op_e_r.
    - destruct S as [S1 S2]. rewrite ut_mul. now rewrite IHe1, IHe2.
    - destruct S as (S1 & S2 & S3). unfold u_div. rewrite ut_mk2; auto using wf_eval.
      now rewrite IHe1, IHe2.
    - unfold u_inv. rewrite ut_mk1 by apply wf_eval. now rewrite IHe.
    - unfold u_pow. rewrite ut_mk1 by apply wf_eval. now rewrite IHe.
  Qed.
End Weights.
