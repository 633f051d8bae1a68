(** A numpy that rounds correctly. *)
From Coq Require Import ZArith Reals Lra Lia Psatz QArith Qreals.
From Flocq Require Import Core.Core IEEE754.BinarySingleNaN IEEE754.Binary IEEE754.Bits.
From Verif Require Import Py Fl_Model Fl_Spec Fl_Proofs Flc_Spec Flg_Model Flg_Spec Rot_Model Rot_Spec Rot_Proofs Time_Model Flg_Proofs Flg_Num Flg_Proofs2 Flg_Proofs3 Flg_Proofs4 Flg_Proofs5 Flg_Proofs6 Flg_Proofs7 Flg_Best Geo_Model
  Flr_Model Flr_Spec Flr_Proofs.
Open Scope R_scope.

Definition to_vec (v : vec) : fvec := FV (to_float (vx v)) (to_float (vy v)) (to_float (vz v)).
Definition to_mat (m : mat) : fmat := FM (to_vec (r0 m)) (to_vec (r1 m)) (to_vec (r2 m)).
Definition best_arrays : arrays := Arrays
  (fun x => to_float (sin (value x))) (fun x => to_float (cos (value x))) (fun x p => to_float (value x ^ p)) fdot (fun m => Ok (to_mat (inv_of (matrix m)))).

Lemma to_vec_ok v : vec_within (5 / 2) v -> finite_vec (to_vec v) /\ vec_near (5 * uu) (vector (to_vec v)) v.
Proof.
  intros (A & B & C).
  assert (H : forall r, Rabs r <= (5 / 2) -> finite (to_float r) /\ Rabs (value (to_float r) - r) <= 5 * uu).
  { intros r Hr. destruct (to_float_ok r) as (F & E). { apply small_abs. lra. } split; auto. unfold nearest in E. rewrite E.
    pose proof (rnd_1err r (5 / 2) Hr ltac:(lra)) as H. pose proof uu_pos. fold (rnd r). eapply Rle_trans; [exact H|]. lra. }
  destruct (H _ A) as (F1 & E1). destruct (H _ B) as (F2 & E2). destruct (H _ C) as (F3 & E3).
  split; [split; [exact F1|split; [exact F2|exact F3]]|]. split; [exact E1|split; [exact E2|exact E3]].
Qed.
Lemma minor a b c d e : Rabs a <= 101 / 100 -> Rabs b <= 101 / 100 -> Rabs c <= 101 / 100 -> Rabs d <= 101 / 100 -> 99 / 100 <= e <= 101 / 100 -> Rabs ((a * b - c * d) / e) <= (5 / 2).
Proof.
  intros A B C D E. unfold Rdiv. rewrite Rabs_mult.
  assert (P : Rabs (a * b - c * d) <= (20402 / 10000)).
  { assert (P1 : Rabs (a * b) <= 101 / 100 * (101 / 100)) by (rewrite Rabs_mult; apply Rmult_le_compat; auto using Rabs_pos).
    assert (P2 : Rabs (c * d) <= 101 / 100 * (101 / 100)) by (rewrite Rabs_mult; apply Rmult_le_compat; auto using Rabs_pos).
    apply Rabs_le_inv in P1, P2. apply Rabs_le. lra. }
  assert (I : Rabs (/ e) <= 100 / 99). { rewrite Rabs_pos_eq by (apply Rlt_le, Rinv_0_lt_compat; lra). replace (100 / 99) with (/ (99 / 100)) by field. apply Rinv_le_contravar; lra. }
  apply Rle_trans with ((20402 / 10000) * (100 / 99)); [apply Rmult_le_compat; auto using Rabs_pos|lra].
Qed.
Lemma inv_within m : mat_within (101 / 100) m -> 99 / 100 <= np_det m <= 101 / 100 -> mat_within (5 / 2) (inv_of m) /\ mat_mul (inv_of m) m = unit_mat.
Proof.
  intros W D. unfold inv_of, np_inv. cbv zeta. destruct (Req_EM_T (np_det m) 0) as [Z|Z]; [lra|].
  destruct m as [[a b c] [d e f] [g h i]]. destruct W as ((A1 & A2 & A3) & (B1 & B2 & B3) & (C1 & C2 & C3)). cbn [r0 r1 r2 vx vy vz] in *. split.
  - assert (H : forall p q r s, Rabs p <= 101 / 100 -> Rabs q <= 101 / 100 -> Rabs r <= 101 / 100 -> Rabs s <= 101 / 100 -> Rabs ((p * q - r * s) / np_det (M (V a b c) (V d e f) (V g h i))) <= (5 / 2)) by (intros; now apply minor).
    split; [|split]; (split; [|split]); cbn [r0 r1 r2 vx vy vz]; apply H; auto.
  - unfold mat_mul, row_mat, unit_mat. unfold np_det in *. cbn [r0 r1 r2 vx vy vz] in *. f_equal; f_equal; field; exact Z.
Qed.
Lemma row_near r s m : vec_near (5 * uu) r s -> mat_within (101 / 100) m -> vec_near (/ 2 ^ 42) (row_mat r m) (row_mat s m).
Proof.
  intros (A & B & C) ((A1 & A2 & A3) & (B1 & B2 & B3) & (C1 & C2 & C3)). cbn [vx vy vz] in *. pose proof uu_pos as U.
  assert (H : forall p q t, Rabs p <= 101 / 100 -> Rabs q <= 101 / 100 -> Rabs t <= 101 / 100 ->
    Rabs (vx r * p + vy r * q + vz r * t - (vx s * p + vy s * q + vz s * t)) <= / 2 ^ 42).
  { intros p q t P Q T.
    replace (vx r * p + vy r * q + vz r * t - (vx s * p + vy s * q + vz s * t)) with ((vx r - vx s) * p + (vy r - vy s) * q + (vz r - vz s) * t) by ring.
    eapply Rle_trans; [apply Rabs_triang|]. eapply Rle_trans; [apply Rplus_le_compat_r, Rabs_triang|]. rewrite !Rabs_mult.
    assert (Rabs (vx r - vx s) * Rabs p <= 5 * uu * (101 / 100)) by (apply Rmult_le_compat; auto using Rabs_pos).
    assert (Rabs (vy r - vy s) * Rabs q <= 5 * uu * (101 / 100)) by (apply Rmult_le_compat; auto using Rabs_pos).
    assert (Rabs (vz r - vz s) * Rabs t <= 5 * uu * (101 / 100)) by (apply Rmult_le_compat; auto using Rabs_pos).
    rewrite uu_value in *. lra. }
  split; [|split]; unfold row_mat; cbn [vx vy vz]; apply H; auto.
Qed.
Lemma best_arrays_accurate : accurate_arrays best_arrays.
Proof.
  pose proof best_rounded as BR. pose proof (rounded_accurate _ BR) as BA.
  assert (U4 : / 2 ^ 51 = 4 * uu) by (rewrite uu_value; lra). pose proof uu_pos as U. split; cbn [a_sin a_cos a_pow a_contract a_inv best_arrays].
  - intros x F _. destruct (to_float_ok (sin (value x))) as (F1 & V). { apply small_abs, Rabs_le. pose proof (SIN_bound (value x)). lra. }
    split; auto. rewrite V, U4. eapply Rle_trans; [apply (rnd_1err _ 1); [apply Rabs_le, SIN_bound|lra]|]. lra.
  - intros x F _. destruct (to_float_ok (cos (value x))) as (F1 & V). { apply small_abs, Rabs_le. pose proof (COS_bound (value x)). lra. }
    split; auto. rewrite V, U4. eapply Rle_trans; [apply (rnd_1err _ 1); [apply Rabs_le, COS_bound|lra]|]. lra.
  - intros x p F H P. assert (B : Rabs (value x ^ p) <= bpow radix2 100).
    { rewrite <- RPow_abs. apply Rle_trans with ((2 ^ 10) ^ p); [apply pow_incr; split; auto using Rabs_pos|]. rewrite <- pow_mult.
      apply Rle_trans with (2 ^ 100); [apply Rle_pow; [lra|lia]|]. rewrite pow_bpow. apply bpow_le. lia. }
    destruct (to_float_ok (value x ^ p)) as (F1 & V). { eapply Rle_trans; [exact B|apply bpow_le; lia]. }
    split; auto. rewrite V, U4. eapply Rle_trans; [apply rnd_mul_err|]. pose proof (Rabs_pos (value x ^ p)) as P0.
    assert (E : ee <= / 2 ^ 1000) by (rewrite pow_bpow, <- bpow_opp; unfold ee; apply bpow_le; lia).
    assert (uu * Rabs (value x ^ p) <= 4 * uu * Rabs (value x ^ p)) by (apply Rmult_le_compat_r; lra). lra.
  - exact (dot_good _ BA).
  - intros m Fm W D. destruct (inv_within _ W D) as (I & Eq). eexists. split; [reflexivity|].
    destruct I as (I0 & I1 & I2). destruct (to_vec_ok _ I0) as (F0 & E0). destruct (to_vec_ok _ I1) as (F1 & E1). destruct (to_vec_ok _ I2) as (F2 & E2).
    split; [split; [exact F0|split; [exact F1|exact F2]]|]. pose proof uu14 as U'.
    assert (Le : forall r s, vec_near (5 * uu) r s -> vec_within (5 / 2) s -> vec_within 3 r).
    { intros r s N V. destruct (vec_near_within _ _ _ _ N V) as (X & Y & Z). split; [|split]; lra. }
    split; [split; [exact (Le _ _ E0 I0)|split; [exact (Le _ _ E1 I1)|exact (Le _ _ E2 I2)]]|].
    rewrite <- Eq. split; [|split]; apply row_near; auto.
Qed.
