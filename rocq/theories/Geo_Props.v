(** Theorems on altitudes: C59, C86-C88. *)
From Coq Require Import List Reals Arith Bool Lia Lra Psatz.
From Verif Require Import Py PyLemmas Num Time_Model Rot_Model Rot_Spec Rot_Proofs Geo_Model Geo_Spec Geo_Alt Geo_Alt2 Geo_Acc.
Import ListNotations.
Open Scope R_scope.
Open Scope list_scope.

Definition km_list (n : nat) (p : position R) : list vec := map (kilometres p) (seq 0 n).
Lemma vec_ext u v : vx u = vx v -> vy u = vy v -> vz u = vz v -> u = v.
Proof. destruct u, v. cbn. congruence. Qed.
Lemma combine3 (x y z : list R) n : length x = n -> length y = n -> length z = n ->
  map (fun p => V (fst (fst p)) (snd (fst p)) (snd p)) (combine (combine x y) z)
  = map (fun i => V (nth i x 0) (nth i y 0) (nth i z 0)) (seq 0 n).
Proof.
  revert y z n. induction x as [|a x IH]; intros [|b y] [|c z] [|n] H1 H2 H3; cbn in *; try lia; auto.
  f_equal. rewrite <- seq_shift, map_map. apply IH; lia.
Qed.
Lemma km_points_ok n p : of_size n p -> km_points p = Ok (km_list n p).
Proof.
  intros (_ & X & Y & Z). unfold km_points, columns. rewrite !map_length, X, Y, Z, Nat.eqb_refl. cbn [andb]. f_equal.
  rewrite (combine3 _ _ _ n) by now rewrite map_length. apply map_ext_in. intros i I. apply in_seq in I.
  assert (N : forall l, length l = n -> nth i (map (to_km (p_unit p)) l) 0 = p_unit p / 1000 * nth i l 0).
  { intros l L. rewrite (nth_indep _ 0 (to_km (p_unit p) 0)) by (rewrite map_length; lia). rewrite map_nth. unfold to_km. ring. }
  apply vec_ext; unfold kilometres, times, point; cbn [vx vy vz]; now apply N.
Qed.
Lemma altitude_iff n p result : of_size n p -> (altitude_returns p result <-> altitude_loop (km_list n p) (map first_vals (km_list n p)) result).
Proof.
  intros S. unfold altitude_returns. rewrite (km_points_ok n) by auto. split.
  - intros (l & E & L). injection E as <-. exact L.
  - intros L. eexists. split; eauto.
Qed.
Lemma km_forall n p (P : vec -> Prop) : (forall i, (i < n)%nat -> P (kilometres p i)) -> Forall P (km_list n p).
Proof. intros H. apply Forall_forall. intros v I. apply in_map_iff in I. destruct I as (i & <- & I). apply in_seq in I. apply H. lia. Qed.
Lemma km_nth n p j i : (i < n)%nat -> nth i (map fst (states (km_list n p) j)) NaN = fst (vals (kilometres p i) j).
Proof.
  intros L. unfold states, km_list. rewrite !map_map. rewrite (nth_indep _ NaN (fst (vals (kilometres p 0) j))) by (rewrite map_length, seq_length; auto).
  rewrite (map_nth (fun x => fst (vals (kilometres p x) j))). now rewrite seq_nth.
Qed.

(** ** C88: the computation ends *)
Lemma outside_far v : outside v -> far_point v.
Proof.
  intros (O & R). rewrite wb in R. split.
  - unfold axis_distance. apply sqrt_lt_R0. pose proof (pow2_ge_0 (vx v)). pose proof (pow2_ge_0 (vy v)).
    destruct O as [O|O]; [assert (0 < vx v ^ 2)|assert (0 < vy v ^ 2)]; try lra; (rewrite <- Rsqr_pow2; now apply Rsqr_pos_lt).
  - unfold rr. rewrite axis2. unfold norm, dot in R. replace (vx v ^ 2 + vy v ^ 2 + vz v * vz v) with (vx v * vx v + vy v * vy v + vz v * vz v) by ring. exact R.
Qed.
Theorem C88_altitude_ends :
  forall n itrs, of_size n itrs -> (forall i, (i < n)%nat -> outside (kilometres itrs i)) ->
    exists result, satellite_altitude itrs result /\ length result = n /\
      (forall i, (i < n)%nat -> exists x, nth i result NaN = Fin x) /\
      (forall other, satellite_altitude itrs other -> other = result).
Proof.
  intros n p S O. unfold satellite_altitude. set (l := km_list n p).
  assert (F : Forall far_point l) by (apply km_forall; intros; apply outside_far; auto).
  destruct (stops l F) as (m & K). destruct (loop_from l m 0 F K) as (j & J). exists (map fst (states l j)).
  assert (L : altitude_loop l (map first_vals l) (map fst (states l j))) by now rewrite first_states.
  split; [now apply (altitude_iff n)|]. split; [|split].
  - unfold states, l, km_list. now rewrite !map_length, seq_length.
  - intros i I. unfold l. rewrite km_nth by auto. eexists. reflexivity.
  - intros other R. apply (altitude_iff n) in R; auto. eapply loop_unique; eauto.
Qed.

(** ** C59: altitude and height *)
Lemma above_outside f h v : above f h v -> 0 <= h -> off_axis v -> outside v.
Proof.
  intros P H O. split; auto. pose proof (r_bounds _ _ _ _ _ _ (above_meridian f h v P H O)) as R.
  unfold rr in R. rewrite axis2 in R. unfold norm, dot. rewrite wb.
  replace (vx v * vx v + vy v * vy v + vz v * vz v) with (vx v ^ 2 + vy v ^ 2 + vz v * vz v) by ring. lra.
Qed.
(** For points above the ellipsoid the computation ends and every altitude is within 11 km of
    the height. *)
Theorem C59_altitude_partial :
  forall n itrs (foot : nat -> vec) (height : nat -> R),
    of_size n itrs ->
    (forall i, (i < n)%nat -> above (foot i) (height i) (kilometres itrs i) /\ 0 <= height i /\ off_axis (kilometres itrs i)) ->
    exists result, satellite_altitude itrs result /\ length result = n /\
      forall i, (i < n)%nat -> exists x, nth i result NaN = Fin x /\ Rabs (x - height i) < 10.71.
Proof.
  intros n p foot height S H. unfold satellite_altitude. set (l := km_list n p).
  assert (F : Forall far_point l) by (apply km_forall; intros i I; destruct (H i I) as (A1 & A2 & A3); apply outside_far; eapply above_outside; eauto).
  destruct (stops l F) as (m & K). destruct (loop_from l m 0 F K) as (j & J). exists (map fst (states l j)).
  split; [apply (altitude_iff n); auto; fold l; now rewrite first_states|]. split.
  - unfold states, l, km_list. now rewrite !map_length, seq_length.
  - intros i I. unfold l. rewrite km_nth by auto. eexists. split; [reflexivity|].
    destruct (H i I) as (A1 & A2 & A3). destruct (value_near _ _ _ _ _ _ j (above_meridian _ _ _ A1 A2 A3)) as (V & _).
    pose proof sqrtAB_num. pose proof A_val. lra.
Qed.
(** On the equator it is 10.7 km too much, for every array of points there: the iteration
    stops before its first step. *)
Lemma equator_h p m : 0 < p -> h_ p 0 m = p - A.
Proof.
  intros P. unfold h_, Q_, S_. replace (p * p + 0 * m * (0 * m)) with (p * p) by ring.
  replace (p * p + kap * (0 * m * (0 * m))) with (p * p) by ring. rewrite sqrt_square by lra. field. lra.
Qed.
Lemma equator_rr p : 0 < p -> rr p 0 = p.
Proof. intros P. unfold rr. replace (p * p + 0 * 0) with (p * p) by ring. now apply sqrt_square, Rlt_le. Qed.
Lemma vz_in_equator v : vz v = 0 -> forall m, atan (vz v / axis_distance v * m) = 0.
Proof. intros -> m. unfold Rdiv. rewrite Rmult_0_l, Rmult_0_l. apply atan_0. Qed.
Theorem C59_altitude_refuted :
  forall n itrs (foot : nat -> vec) (height : nat -> R),
    (0 < n)%nat -> of_size n itrs ->
    (forall i, (i < n)%nat -> above (foot i) (height i) (kilometres itrs i) /\ 0 <= height i /\ off_axis (kilometres itrs i)) ->
    (forall i, (i < n)%nat -> vz (foot i) = 0) ->
    forall result, satellite_altitude itrs result ->
      forall i, (i < n)%nat -> exists x, nth i result NaN = Fin x /\ 10.7 < x - height i.
Proof.
  intros n p foot height N S H E result R i I. apply (altitude_iff n) in R; auto. set (l := km_list n p) in *.
  assert (F : Forall far_point l) by (apply km_forall; intros k K; destruct (H k K) as (A1 & A2 & A3); apply outside_far; eapply above_outside; eauto).
  assert (Z : forall v, In v l -> vz v = 0).
  { intros v IN. apply in_map_iff in IN. destruct IN as (k & <- & IN). apply in_seq in IN. destruct (H k ltac:(lia)) as ((_ & A1) & _).
    rewrite A1. unfold plus, times, gradient. cbn [vz]. rewrite (E k) by lia. unfold Rdiv. ring. }
  rewrite first_states in R by auto.
  assert (KG : keep_going (states l 0) (states l 1) = false).
  { rewrite keep_going_states. rewrite !mean_stop; auto.
    - unfold tolerance. lra.
    - intros v IN. rewrite !vz_in_equator by auto. unfold tolerance. lra.
    - pose proof A_pos. unfold tolerance. lra.
    - intros v IN. assert (P : 0 < axis_distance v). { eapply Forall_forall in F; [|exact IN]. apply F. }
      rewrite (Z v IN). cbn [hk]. rewrite equator_h by auto. unfold h0. rewrite equator_rr by auto.
      pose proof sqrtAB. pose proof A_pos. unfold tolerance. lra. }
  assert (R2 : result = map fst (states l 0)).
  { eapply loop_unique; [exact R|]. apply loop_ends. now rewrite next_states. }
  subst result. unfold l. rewrite km_nth by auto. eexists. split; [reflexivity|].
  destruct (H i I) as (A1 & A2 & A3). set (v := kilometres p i) in *.
  assert (ZV : vz v = 0) by (apply Z, in_map_iff; exists i; split; auto; apply in_seq; lia).
  pose proof (above_meridian _ _ _ A1 A2 A3) as M. pose proof (meridian_far _ _ _ _ _ _ M) as (P & _). fold v in P.
  rewrite ZV. unfold h0. cbn [hk]. unfold h0. rewrite equator_rr by auto.
  pose proof (star_fix _ _ _ _ _ _ M) as (_ & HS). rewrite ZV in HS. rewrite equator_h in HS by auto.
  pose proof sqrtAB_num. pose proof A_val. lra.
Qed.
