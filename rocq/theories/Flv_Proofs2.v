(** Rounding errors of the matrix of the LVLH frame. *)
From Coq Require Import ZArith Reals Lra Lia Psatz.
From Flocq Require Import Core.Core IEEE754.BinarySingleNaN IEEE754.Binary IEEE754.Bits.
From Verif Require Import Py Fl_Model Fl_Spec Fl_Proofs Flg_Model Flg_Spec Rot_Model Rot_Spec Rot_Proofs Geo_Spec Lvlh_Spec Lvlh_Proofs Flg_Proofs Flg_Proofs2 Flg_Proofs3 Flg_Proofs7
  Flc_Model Flr_Model Flr_Spec Flr_Proofs Flv_Model Flv_Spec Flv_Proofs.
Open Scope R_scope.
#[local] Strategy 1000 [fmul fadd fsub fdiv fneg].

Definition exact_rows (p v : vec) : mat := M (forward p v) (right p v) (down p).
Lemma ordinary_bpow v : ordinary v -> finite_vec v /\ bpow radix2 (-45) <= norm (vector v) <= bpow radix2 45.
Proof. intros (F & A & B). split; auto. change (bpow radix2 (-45)) with (bpow radix2 (- Z.of_nat 45)). change (bpow radix2 45) with (bpow radix2 (Z.of_nat 45)). rewrite bpow_opp, <- !pow_bpow. auto. Qed.
Lemma ee_small2 s : bpow radix2 (-200) <= s -> 600 * ee <= uu * s.
Proof.
  intros H. apply Rle_trans with (uu * bpow radix2 (-200)); [|apply Rmult_le_compat_l; [left; apply uu_pos|auto]].
  assert (U : uu = bpow radix2 (-53)) by (unfold uu; change (/ 2) with (bpow radix2 (-1)); now rewrite <- bpow_plus).
  rewrite U, <- bpow_plus. unfold ee. apply Rle_trans with (bpow radix2 10 * bpow radix2 (-1060)); [apply Rmult_le_compat_r; [apply bpow_ge_0|]; change (bpow radix2 10) with 1024; lra|].
  rewrite <- bpow_plus. apply bpow_le. lia.
Qed.
Lemma near_entries d a b : norm (sub a b) <= d -> vec_near d a b.
Proof. intros H. destruct (comp_norm (sub a b)) as (X & Y & Z). unfold vec_near, vec_within. cbn [sub vx vy vz] in *. repeat split; lra. Qed.
Lemma rows_ok p v k : ordinary p -> ordinary v -> 1 <= k <= 2000 -> norm (vector p) * norm (vector v) <= k * norm (product (vector p) (vector v)) ->
  finite_mat (flvlh_rows p v) /\ mat_near (41 * k * uu) (matrix (flvlh_rows p v)) (exact_rows (vector p) (vector v)) /\ product (vector p) (vector v) <> zero.
Proof.
  intros Op Ov K H. destruct (ordinary_bpow p Op) as (Fp & P1 & P2). destruct (ordinary_bpow v Ov) as (Fv & V1 & V2). clear Op Ov.
  set (P := norm (vector p) * norm (vector v)) in *. set (C := norm (product (vector p) (vector v))) in *. pose proof uu_pos as U.
  assert (L1 : bpow radix2 (-90) <= P). { change (-90)%Z with (-45 + -45)%Z. rewrite bpow_plus. unfold P. pose proof (bpow_gt_0 radix2 (-45)). apply Rmult_le_compat; lra. }
  assert (L2 : P <= bpow radix2 90). { change 90%Z with (45 + 45)%Z. rewrite bpow_plus. unfold P. pose proof (bpow_gt_0 radix2 (-45)). apply Rmult_le_compat; lra. }
  assert (L2' : C <= P) by apply norm_product_le.
  assert (Sp : sizes p) by (split; auto; apply Rle_trans with (1 := P2), bpow_le; lia). assert (Sv : sizes v) by (split; auto; apply Rle_trans with (1 := V2), bpow_le; lia).
  assert (Zp : sized p). { split; auto. split; [apply Rle_trans with (2 := P1), bpow_le; lia|exact (proj2 Sp)]. }
  destruct (cross_ok p v Sp Sv) as (Fc & Ec). fold P in Ec.
  pose proof (ee_small2 P) as ES. assert (bpow radix2 (-200) <= bpow radix2 (-90)) by (apply bpow_le; lia). specialize (ES ltac:(lra)).
  set (c := fcross p v) in *. assert (C0 : bpow radix2 (-110) <= C).
  { pose proof (bpow_gt_0 radix2 (-110)). assert (1048576 * bpow radix2 (-110) <= P). { change 1048576 with (bpow radix2 20). rewrite <- bpow_plus. exact L1. } nra. }
  pose proof (bpow_gt_0 radix2 (-110)) as B0.
  assert (PK : uu * P <= uu * (k * C)) by (apply Rmult_le_compat_l; lra).
  assert (KU : 0 <= k * uu <= / 1000000000000) by (split; [apply Rmult_le_pos; lra|]; rewrite uu_value; lra).
  assert (E1 : norm (sub (vector c) (product (vector p) (vector v))) <= 404 / 100 * (k * uu) * C) by (pose proof ee_pos; lra).
  destruct (unit_near (vector c) (product (vector p) (vector v)) (404 / 100 * (k * uu))) as (Pc & Ny); [fold C; lra|lra|exact E1|].
  pose proof (norm_near (vector c) (product (vector p) (vector v))) as Nc. apply Rabs_le_inv in Nc. fold C in Nc.
  assert (Small : 404 / 100 * (k * uu) * C <= C / 2) by nra.
  assert (Zc : sized c).
  { split; auto. split.
    - apply Rle_trans with (bpow radix2 (-1) * bpow radix2 (-110)); [rewrite <- bpow_plus; apply bpow_le; lia|]. change (bpow radix2 (-1)) with (/ 2). lra.
    - apply Rle_trans with (bpow radix2 1 * bpow radix2 90); [change (bpow radix2 1) with 2; lra|]. rewrite <- bpow_plus. apply bpow_le. lia. }
  destruct (minus_unit_ok p Zp) as (Fz & Ez). destruct (minus_unit_ok c Zc) as (Fy & Ey).
  set (z := fvover (fvneg p) (fnorm p)) in *. set (y := fvover (fvneg c) (fnorm c)) in *.
  assert (NZ : product (vector p) (vector v) <> zero).
  { intros E. unfold C in C0. rewrite E in C0. change zero with (V 0 0 0) in C0. rewrite norm_0 in C0. lra. }
  pose proof (bpow_gt_0 radix2 (-45)) as B1.
  assert (Nd : norm (down (vector p)) = 1) by (unfold down; rewrite norm_opposite, norm_unit; lra).
  assert (Nr : norm (right (vector p) (vector v)) = 1) by (unfold right; rewrite norm_opposite, norm_unit; fold C; lra).
  fold (down (vector p)) in Ez.
  assert (Ey' : norm (sub (vector y) (right (vector p) (vector v))) <= 22 * (k * uu)).
  { pose proof (norm_tri (vector y) (opposite (unit_of (vector c))) (right (vector p) (vector v))) as T. unfold right in T at 2. rewrite sub_opposite in T.
    assert (uu <= k * uu) by nra. lra. }
  pose proof (norm_diff (vector y) (right (vector p) (vector v))) as Ly. pose proof (norm_diff (vector z) (down (vector p))) as Lz. rewrite Nr in Ly. rewrite Nd in Lz.
  assert (UK : uu <= k * uu) by nra.
  assert (B100 : 2 <= bpow radix2 100) by (change 2 with (bpow radix2 1); apply bpow_le; lia).
  assert (Sy : sizes y) by (split; auto; lra). assert (Sz : sizes z) by (split; auto; lra).
  destruct (cross_ok y z Sy Sz) as (Fx & Ex).
  pose proof (product_near (right (vector p) (vector v)) (down (vector p)) (vector y) (vector z)) as Px. rewrite Nr in Px.
  assert (Ex' : norm (sub (vector (fcross y z)) (forward (vector p) (vector v))) <= 41 * (k * uu)).
  { pose proof (norm_tri (vector (fcross y z)) (product (vector y) (vector z)) (forward (vector p) (vector v))) as T. unfold forward in T at 2.
    pose proof (norm_pos (vector y)) as Qy. pose proof (norm_pos (vector z)) as Qz. 
    assert (W1 : norm (vector y) * norm (vector z) <= 101 / 100 * (101 / 100)) by (apply Rmult_le_compat; lra).
    assert (W2 : uu * (norm (vector y) * norm (vector z)) <= uu * (101 / 100 * (101 / 100))) by (apply Rmult_le_compat_l; lra).
    assert (W3 : norm (sub (vector y) (right (vector p) (vector v))) * norm (vector z) <= 22 * (k * uu) * (101 / 100)).
    { apply Rmult_le_compat; try apply norm_pos; lra. }
    assert (W4 : 600 * ee <= uu * 1) by (apply ee_small2; change 1 with (bpow radix2 0); apply bpow_le; lia). lra. }
  split; [|split; [|exact NZ]].
  - split; [exact Fx|]. split; [exact Fy|exact Fz].
  - replace (41 * k * uu) with (41 * (k * uu)) by ring. split; [|split]; apply near_entries.
    + exact Ex'. + change (norm (sub (vector y) (right (vector p) (vector v))) <= 41 * (k * uu)). lra.
    + change (norm (sub (vector z) (down (vector p))) <= 41 * (k * uu)). lra.
Qed.
Lemma rotation_rigid m : rotation m -> rigid (mat_vec m).
Proof. intros H. exact H. Qed.
Section Numpy.
Variable L : arrays.
Hypothesis G : accurate_arrays L.
Lemma rows_step p v k : ordinary p -> ordinary v -> 1 <= k <= 2000 -> norm (vector p) * norm (vector v) <= k * norm (product (vector p) (vector v)) ->
  moved (2 ^ 99) (213 * k) tt (fmat_vec L (flvlh_rows p v)) (on_axes (vector p) (vector v)).
Proof.
  intros Op Ov K H. destruct (rows_ok p v k Op Ov K H) as (F & N & Z).
  pose proof (near_step L G _ _ (41 * k) F N (frame _ _ Z) ltac:(lra)) as M. eapply moved_le; [exact M|lra|lra|lra].
Qed.
End Numpy.
