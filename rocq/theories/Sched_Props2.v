(** Insertion totality (C74) and float look angles (C40). *)
From Coq Require Import List ZArith QArith Bool Arith Permutation Lia.
From Verif Require Import Py PyLemmas Sched_Model Sched_Spec Sched_Proofs Sched_Proofs2
  Sched_Proofs3 Sched_Proofs4 Sched_Props.
Import ListNotations.
Open Scope nat_scope.
Open Scope list_scope.

(** A request is well formed when every window has positive length and, if a look angle is
    wanted, the look angle is a quantity and the window's attitude is sampled at its rise
    and set times, with one pitch per sample time. *)
Definition well_formed (r : request) : Prop :=
  forall v, In v (r_vtws r) ->
    (v_rise v < v_set v)%Q /\
    match r_look r with
    | NoLook => True
    | LookFloat _ => False
    | LookQty _ => length (a_pitch (v_att v)) = length (a_time (v_att v)) /\
        (exists t, In t (a_time (v_att v)) /\ (t == v_rise v)%Q) /\
        (exists t, In t (a_time (v_att v)) /\ (t == v_set v)%Q)
    end.

(** C74. Greedy and minimum-opportunity insertion and the initial solution never fail. *)
Theorem C74_insertion_never_fails :
  forall h n, reachable h -> (forall r, In r (reqs h) -> well_formed r) ->
    (exists h', greedy_insertion h n = Ok h') /\
    (exists h', minimum_opportunity_insertion h n = Ok h') /\
    (exists h', initialize_solution h = Ok h').
Proof.
  intros h n R W. destruct (reachable_inv h R) as (C & V).
  assert (G : forall g m, h_n g = length (reqs g) -> filled (reqs g) ->
     (forall r, In r (reqs g) -> well_formed r) -> exists h', insert_first_n g m = Ok h').
  { intros g m Cg Fg Wg. unfold insert_first_n. apply insert_loop_ok; auto.
    intros i I. apply in_seq in I. lia. }
  assert (Pm : forall lt, Permutation (reqs h) (py_sorted lt (reqs h))) by (intros; apply py_sorted_perm).
  assert (K : forall lt m, exists h', insert_first_n (mkH (py_sorted lt (reqs h)) (h_n h) (h_nsched h)) m = Ok h').
  { intros lt m. apply G; cbn.
    - rewrite py_sorted_length. apply C.
    - intros r I. apply (valid_filled h V). eapply Permutation_in; [symmetry; apply Pm|exact I].
    - intros r I. apply W. eapply Permutation_in; [symmetry; apply Pm|exact I]. }
  split; [apply K|]. split; [apply K|].
  unfold initialize_solution. cbv zeta.
  set (h1 := sort_by_decreasing_priority h). pose proof (sort_vtws_rise_spec h1) as F.
  assert (I1 : forall q, In q (reqs h1) -> In q (reqs h)).
  { intros q I. eapply Permutation_in; [symmetry; apply Pm|exact I]. }
  apply G.
  - cbn. rewrite map_length, py_sorted_length. apply C.
  - intros r I. destruct (Forall2_In_r _ _ _ _ F I) as (q & Iq & (_ & (E1 & E2 & E3 & _))).
    rewrite E1, E2, E3. apply (valid_filled h V). auto.
  - intros r I. destruct (Forall2_In_r _ _ _ _ F I) as (q & Iq & ((_ & _ & _ & _ & _ & EL & Pv) & _)).
    intros v Iv. rewrite EL. apply (W q (I1 q Iq)). eapply Permutation_in; [symmetry; exact Pv|exact Iv].
Qed.
Example C74_example : reachable ex_h /\ forall r, In r (reqs ex_h) -> well_formed r.
Proof.
  split; [exact ex_h_reachable|]. intros r Ir v Iv. vm_compute in Ir.
  repeat (destruct Ir as [<-|Ir]; [vm_compute in Iv;
      repeat (destruct Iv as [<-|Iv]; [split; [reflexivity|exact I]|]); destruct Iv|]). destruct Ir.
Qed.
(** C40. A plain-number look angle, as documented, makes insertion fail: with such a
    request (unscheduled, with at least one window) no initial solution is ever produced. *)
Theorem C40_float_look_angle_refuted :
  forall h r x, reachable h -> In r (reqs h) -> r_sched r = false -> r_look r = LookFloat x ->
    r_vtws r <> [] -> forall h', initialize_solution h <> Ok h'.
Proof.
  intros h r x R Ir Sr Lr Wr h' H. destruct (reachable_inv h R) as (C & V).
  unfold initialize_solution in H. cbv zeta in H.
  destruct (sorted_handler (fun x y => (r_prio y <? r_prio x)%Z) h C) as (C1 & _).
  fold (sort_by_decreasing_priority h) in C1.
  set (h1 := sort_by_decreasing_priority h) in *. pose proof (sort_vtws_rise_spec h1) as F.
  assert (C2 : counters_ok (sort_vtws_by_increasing_rise_time h1)) by (eapply counters_reorder; eauto).
  set (h2 := sort_vtws_by_increasing_rise_time h1) in *.
  assert (I1 : In r (reqs h1)) by (eapply Permutation_in; [apply py_sorted_perm|exact Ir]).
  destruct (Forall2_In_l _ _ _ _ F I1) as (r2 & I2 & ((_ & _ & _ & _ & _ & EL & Pv) & (ES & _))).
  assert (F2 : filled (reqs h2)).
  { intros q I. destruct (Forall2_In_r _ _ _ _ F I) as (q1 & Iq & (_ & (E1 & E2 & E3 & _))).
    rewrite E1, E2, E3. apply (valid_filled h V).
    eapply Permutation_in; [symmetry; apply (py_sorted_perm (fun x y => (r_prio y <? r_prio x)%Z))|exact Iq]. }
  unfold insert_first_n in H.
  pose proof (insert_loop_step _ _ _ _ H) as (St & _).
  apply In_nth_error in I2. destruct I2 as (i & Ni).
  destruct (Forall2_nth _ _ _ St _ _ Ni) as (r3 & N3 & Sr3).
  destruct Sr3 as [->|(_ & _ & k & v & s & _ & _ & Ps)].
  - assert (Li : i < length (reqs h2)) by (apply nth_error_Some; congruence).
    assert (D : done_with h' i).
    { eapply insert_loop_done; [exact H| | | |].
      - right. rewrite seq_length. lia.
      - apply C2.
      - auto.
      - apply in_seq. rewrite (proj1 C2). lia. }
    destruct (r_vtws r2) as [|v l] eqn:Ev.
    { apply Wr. apply Permutation_sym, Permutation_nil in Pv. auto. }
    specialize (D r2 N3 (eq_trans ES Sr) v). rewrite Ev in D. specialize (D (or_introl eq_refl)).
    unfold try_window in D. rewrite EL, Lr in D. discriminate.
  - unfold proposed_start in Ps. rewrite EL, Lr in Ps. discriminate.
Qed.
Example C40_example : exists h, reachable h /\ initialize_solution h = Raise AttributeError.
Proof.
  exists (run [OpAdd 0 100 day 5 1 (LookFloat 10) [win 0 10]]).
  split; [apply run_reachable; vm_compute; reflexivity|vm_compute; reflexivity].
Qed.
(** A look angle given as a quantity works, and a float is harmless when the request has
    no window. *)
Example C40_quantity_works :
  exists h', initialize_solution (run [OpAdd 0 100 day 5 1 (LookQty 5)
     [mkVtw 0 9 (mkAtt [0; 3; 6; 9] [] [-9; 0; 6; 12] [] 0%nat)%Q]]) = Ok h' /\ scheduled_count h' = 1%Z.
Proof. eexists. split; vm_compute; reflexivity. Qed.

Print Assumptions C74_insertion_never_fails.
Print Assumptions C40_float_look_angle_refuted.
