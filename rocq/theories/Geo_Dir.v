(** Angles between vectors as computed by [_get_ang]. *)
From Coq Require Import List Reals Arith Bool Lia Lra Psatz.
From Verif Require Import Py PyLemmas Num Time_Model Rot_Model Rot_Spec Rot_Proofs Geo_Model Geo_Spec Geo_Alt.
Import ListNotations.
Open Scope R_scope.

Lemma dot_pos v : 0 <= dot v v.
Proof. unfold dot. pose proof (sq0 (vx v)). pose proof (sq0 (vy v)). pose proof (sq0 (vz v)). lra. Qed.
Lemma norm_fin v : nv_norm (fin_vec v) = Fin (norm v).
Proof. unfold nv_norm, nv_dot, fin_vec. cbn [nx ny nz n_mul n_add]. rewrite sqrt_fin; [reflexivity|]. apply dot_pos. Qed.
Lemma sub_fin u v : nv_sub (fin_vec u) (fin_vec v) = fin_vec (sub u v). Proof. reflexivity. Qed.
Lemma dot_fin u v : nv_dot (fin_vec u) (fin_vec v) = Fin (dot u v). Proof. reflexivity. Qed.
Lemma norm_pos v : v <> zero -> 0 < norm v.
Proof.
  intros N. unfold norm. apply sqrt_lt_R0. pose proof (dot_pos v) as D. destruct (Rle_lt_or_eq_dec _ _ D) as [H|H]; auto. exfalso. apply N.
  unfold dot in H. pose proof (sq0 (vx v)). pose proof (sq0 (vy v)). pose proof (sq0 (vz v)).
  destruct v as [x y z]. cbn [vx vy vz] in *. unfold zero. f_equal; nra.
Qed.
Lemma norm_zero v : norm v = 0 -> v = zero.
Proof.
  intros N. unfold norm in N. apply sqrt_eq_0 in N; [|apply dot_pos]. unfold dot in N.
  pose proof (sq0 (vx v)). pose proof (sq0 (vy v)). pose proof (sq0 (vz v)). destruct v as [x y z]. cbn [vx vy vz] in *. unfold zero. f_equal; nra.
Qed.
Lemma norm2 v : norm v * norm v = dot v v. Proof. apply sqrt_sqrt, dot_pos. Qed.
Definition cross_ (u v : vec) : vec := V (vy u * vz v - vz u * vy v) (vz u * vx v - vx u * vz v) (vx u * vy v - vy u * vx v).
Lemma lagrange u v : dot u u * dot v v = dot u v * dot u v + dot (cross_ u v) (cross_ u v).
Proof. unfold dot, cross_. cbn [vx vy vz]. ring. Qed.
Lemma cauchy u v : Rabs (dot u v) <= norm u * norm v.
Proof.
  assert (P : 0 <= norm u * norm v) by (apply Rmult_le_pos; apply sqrt_pos).
  rewrite <- (Rabs_right (norm u * norm v)) by lra. apply Rsqr_le_abs_0. unfold Rsqr.
  replace (norm u * norm v * (norm u * norm v)) with ((norm u * norm u) * (norm v * norm v)) by ring. rewrite !norm2, lagrange.
  pose proof (dot_pos (cross_ u v)). lra.
Qed.
(** Equality in Cauchy's inequality. *)
Lemma cauchy_eq u v : u <> zero -> v <> zero -> (dot u v = norm u * norm v <-> same_direction u v).
Proof.
  intros U V_. pose proof (norm_pos _ U) as NU. pose proof (norm_pos _ V_) as NV. pose proof (norm2 u) as U2. pose proof (norm2 v) as V2. split.
  - intros E. exists (norm u / norm v). split; [now apply Rdiv_lt_0_compat|].
    assert (Z : sub u (times (norm u / norm v) v) = zero).
    { apply norm_zero. assert (D : dot (sub u (times (norm u / norm v) v)) (sub u (times (norm u / norm v) v)) = 0).
      { set (k := norm u / norm v). transitivity (dot u u - 2 * k * dot u v + k * k * dot v v).
        - unfold dot, sub, times. cbn [vx vy vz]. ring.
        - rewrite E, <- U2, <- V2. unfold k. field. lra. }
      set (w := sub u _) in *. change (norm w) with (sqrt (dot w w)). rewrite D. apply sqrt_0. }
    destruct u as [a b c]. unfold sub, times, zero in *. cbn [vx vy vz] in *. injection Z as Z1 Z2 Z3. f_equal; lra.
  - intros (k & K & ->).
    assert (E : norm (times k v) = k * norm v).
    { unfold norm. transitivity (sqrt (k * k) * sqrt (dot v v)); [|now rewrite sqrt_square by lra]. rewrite <- sqrt_mult; [f_equal; unfold dot, times; cbn [vx vy vz]; ring|nra|apply dot_pos]. }
    rewrite E. transitivity (k * dot v v); [unfold dot, times; cbn [vx vy vz]; ring|]. rewrite <- V2. ring.
Qed.
Lemma opposite_nz v : v <> zero -> opposite v <> zero.
Proof. intros N E. apply N. destruct v as [x y z]. unfold opposite, times, zero in *. cbn [vx vy vz] in *. injection E as E1 E2 E3. f_equal; lra. Qed.
Lemma norm_opposite v : norm (opposite v) = norm v.
Proof. unfold norm, opposite, dot, times. cbn [vx vy vz]. f_equal. ring. Qed.
Lemma dot_opposite u v : dot u (opposite v) = - dot u v.
Proof. unfold opposite, dot, times. cbn [vx vy vz]. ring. Qed.
Lemma acos_180 c : -1 <= c <= 1 -> 0 <= acos c * (180 / PI) <= 180.
Proof.
  intros _. pose proof (acos_bound c) as (L & H). pose proof PI_RGT_0 as P. assert (Q : 0 < 180 / PI) by (apply Rdiv_lt_0_compat; lra).
  split; [apply Rmult_le_pos; lra|]. replace 180 with (PI * (180 / PI)) at 2 by (field; lra). apply Rmult_le_compat_r; lra.
Qed.
Lemma get_ang_fin u v : u <> zero -> v <> zero -> exists x,
  get_ang (fin_vec u) (fin_vec v) = Fin x /\ 0 <= x <= 180 /\ dot u v = norm u * norm v * cos (x * (PI / 180)).
Proof.
  intros U V_. pose proof (norm_pos _ U) as NU. pose proof (norm_pos _ V_) as NV. unfold get_ang. rewrite dot_fin, !norm_fin. cbn [n_mul].
  assert (P : 0 < norm u * norm v) by nra. rewrite div_fin by lra.
  assert (C : -1 <= dot u v / (norm u * norm v) <= 1).
  { pose proof (cauchy u v) as H. assert (H1 := Rle_abs (dot u v)). assert (H2 := Rle_abs (- dot u v)). rewrite Rabs_Ropp in H2.
    split; apply Rmult_le_reg_r with (norm u * norm v); auto; unfold Rdiv; rewrite Rmult_assoc, Rinv_l by lra; lra. }
  unfold n_arccos. destruct (Rlt_dec _ (-1)) as [X|_]; [lra|]. destruct (Rlt_dec 1 _) as [X|_]; [lra|]. cbn [n_mul].
  eexists. split; [reflexivity|]. split; [now apply acos_180|].
  replace (acos (dot u v / (norm u * norm v)) * (180 / PI) * (PI / 180)) with (acos (dot u v / (norm u * norm v))) by (field; apply PI_neq0).
  rewrite cos_acos by auto. field. lra.
Qed.
Lemma deg_cos x : 0 <= x <= 180 -> 0 <= x * (PI / 180) <= PI.
Proof.
  intros (L & H). pose proof PI_RGT_0 as P. assert (0 < PI / 180) by lra. split; [apply Rmult_le_pos; lra|].
  replace PI with (180 * (PI / 180)) at 2 by field. apply Rmult_le_compat_r; lra.
Qed.
Lemma cos_1_0 x : 0 <= x <= 180 -> (cos (x * (PI / 180)) = 1 <-> x = 0).
Proof.
  intros X. pose proof (deg_cos x X) as D. split.
  - intros E. rewrite <- cos_0 in E. pose proof PI_RGT_0. apply cos_inj in E; [|lra|lra]. assert (0 < PI / 180) by lra. nra.
  - intros ->. rewrite Rmult_0_l. apply cos_0.
Qed.
Lemma cos_m1 x : 0 <= x <= 180 -> (cos (x * (PI / 180)) = -1 <-> x = 180).
Proof.
  intros X. pose proof (deg_cos x X) as D. split.
  - intros E. rewrite <- cos_PI in E. pose proof PI_RGT_0. apply cos_inj in E; [|lra|lra]. assert (0 < PI / 180) by lra. nra.
  - intros ->. replace (180 * (PI / 180)) with PI by field. apply cos_PI.
Qed.
Lemma cos_90 x : 0 <= x <= 180 -> (cos (x * (PI / 180)) = 0 <-> x = 90).
Proof.
  intros X. pose proof (deg_cos x X) as D. split.
  - intros E. rewrite <- cos_PI2 in E. pose proof PI_RGT_0. apply cos_inj in E; [|lra|lra]. assert (0 < PI / 180) by lra. nra.
  - intros ->. replace (90 * (PI / 180)) with (PI / 2) by field. apply cos_PI2.
Qed.
(** The angle is 0 exactly for the same direction, 180 for the opposite one, 90 for
    perpendicular vectors. *)
Lemma ang_cases u v x : u <> zero -> v <> zero -> 0 <= x <= 180 -> dot u v = norm u * norm v * cos (x * (PI / 180)) ->
  (x = 0 <-> same_direction u v) /\ (x = 180 <-> same_direction u (opposite v)) /\ (x = 90 <-> dot u v = 0).
Proof.
  intros U V_ X E. pose proof (norm_pos _ U) as NU. pose proof (norm_pos _ V_) as NV. assert (P : 0 < norm u * norm v) by nra. repeat split.
  - intros ->. apply cauchy_eq; auto. rewrite E, Rmult_0_l, cos_0. ring.
  - intros S. apply cauchy_eq in S; auto. apply cos_1_0; auto. rewrite S in E. set (c := cos _) in *. nra.
  - intros ->. apply cauchy_eq; auto using opposite_nz. rewrite norm_opposite, dot_opposite, E.
    replace (180 * (PI / 180)) with PI by field. rewrite cos_PI. ring.
  - intros S. apply cauchy_eq in S; auto using opposite_nz. rewrite norm_opposite, dot_opposite in S. apply cos_m1; auto.
    set (c := cos _) in *. nra.
  - intros ->. rewrite E. replace (90 * (PI / 180)) with (PI / 2) by field. rewrite cos_PI2. ring.
  - intros S. apply cos_90; auto. rewrite S in E. set (c := cos _) in *. nra.
Qed.
