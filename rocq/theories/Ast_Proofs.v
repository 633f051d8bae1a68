(** Trigonometric lemmas for Ast_Props.v, which stays clear of the floating-point files. *)
From Coq Require Import List ZArith Reals Lra Lia Psatz.
From Flocq Require Import Core.Core.
From Verif Require Import Time_Model Time_Spec Time_Proofs Flc_Spec Ast_Spec Flg_Num.
Open Scope R_scope.

Ltac decimals := unfold Q2R; cbn [QArith_base.Qnum QArith_base.Qden].
Lemma sin_lip x y : Rabs (sin x - sin y) <= Rabs (x - y).
Proof.
  rewrite form4. rewrite !Rabs_mult, (Rabs_pos_eq 2) by lra.
  assert (A : Rabs (cos ((x + y) / 2)) <= 1) by (apply Rabs_le, COS_bound).
  assert (B : Rabs (sin ((x - y) / 2)) <= Rabs ((x - y) / 2)).
  { set (t := (x - y) / 2). clearbody t. destruct (Rle_dec 0 t) as [T|T].
    - rewrite (Rabs_pos_eq t) by auto. apply Rabs_le. destruct (Req_dec t 0) as [-> |]; [rewrite sin_0; lra|]. pose proof (SIN_bound t). 
      assert (sin t < t) by (apply sin_lt_x; lra). split; [|lra]. destruct (Rle_dec t PI); [assert (0 <= sin t) by (apply sin_ge_0; lra); lra|pose proof PI_RGT_0; pose proof PI2_1; lra].
    - rewrite <- Rabs_Ropp, <- sin_neg, (Rabs_left t) by lra. set (s := - t). assert (S : 0 < s) by (unfold s; lra). clearbody s. apply Rabs_le. pose proof (SIN_bound s).
      assert (sin s < s) by (apply sin_lt_x; lra). split; [|lra]. destruct (Rle_dec s PI); [assert (0 <= sin s) by (apply sin_ge_0; lra); lra|pose proof PI_RGT_0; pose proof PI2_1; lra]. }
  assert (C : Rabs ((x - y) / 2) = Rabs (x - y) / 2) by (unfold Rdiv; rewrite Rabs_mult, (Rabs_pos_eq (/ 2)) by lra; reflexivity).
  rewrite C in B. pose proof (Rabs_pos (sin ((x - y) / 2))). pose proof (Rabs_pos (cos ((x + y) / 2))). nra.
Qed.
Lemma cos_lip x y : Rabs (cos x - cos y) <= Rabs (x - y).
Proof. rewrite !cos_sin. replace (x - y) with (PI / 2 + x - (PI / 2 + y)) by ring. apply sin_lip. Qed.
Lemma sin_turns x j : sin (x + IZR j * (2 * PI)) = sin x /\ cos (x + IZR j * (2 * PI)) = cos x.
Proof.
  assert (H : forall y n, sin (y + INR n * (2 * PI)) = sin y /\ cos (y + INR n * (2 * PI)) = cos y).
  { intros y n. replace (y + INR n * (2 * PI)) with (y + 2 * INR n * PI) by ring. split; [apply sin_period|apply cos_period]. }
  destruct (Z_lt_le_dec j 0) as [N|N].
  - destruct (H (x + IZR j * (2 * PI)) (Z.to_nat (- j))) as (A & B). rewrite INR_IZR_INZ, Z2Nat.id, opp_IZR in A, B by lia.
    replace (x + IZR j * (2 * PI) + - IZR j * (2 * PI)) with x in A, B by ring. auto.
  - specialize (H x (Z.to_nat j)). now rewrite INR_IZR_INZ, Z2Nat.id in H by lia.
Qed.
Lemma atan2_sin_cos y x rho : 0 < rho -> rho * rho = y * y + x * x -> sin (atan2 y x) = y / rho /\ cos (atan2 y x) = x / rho.
Proof.
  intros R0 E. assert (X0 : forall u, x <> 0 -> u = y / x -> sqrt (1 + Rsqr u) = rho / Rabs x).
  { intros u X ->. unfold Rsqr. apply sqrt_lem_1; [pose proof (Rle_0_sqr (y / x)); unfold Rsqr in *; lra| |].
    - apply Rlt_le, Rdiv_lt_0_compat; [lra|now apply Rabs_pos_lt].
    - replace (rho / Rabs x * (rho / Rabs x)) with (rho * rho / (Rabs x * Rabs x)) by (field; now apply Rabs_no_R0).
      replace (Rabs x * Rabs x) with (x * x) by (rewrite <- Rabs_mult, Rabs_right; [ring|apply Rle_ge; pose proof (Rle_0_sqr x); unfold Rsqr in *; lra]). rewrite E. field. exact X. }
  unfold atan2. destruct (Rlt_dec 0 x) as [P|P].
  - rewrite sin_atan, cos_atan, (X0 (y / x)) by (auto; lra). rewrite Rabs_right by lra. split; field; lra.
  - destruct (Rlt_dec x 0) as [N|N].
    + assert (S : sin (atan (y / x)) = - (y / rho) /\ cos (atan (y / x)) = - (x / rho)).
      { rewrite sin_atan, cos_atan, (X0 (y / x)) by (auto; lra). rewrite Rabs_left by lra. split; field; lra. }
      destruct S as (S & C). destruct (Rlt_dec y 0) as [Y|Y].
      * unfold Rminus. rewrite sin_plus, cos_plus, sin_neg, cos_neg, sin_PI, cos_PI, S, C. split; ring.
      * rewrite neg_sin, neg_cos, S, C. split; ring.
    + assert (x = 0) by lra. subst x. destruct (Rlt_dec 0 y) as [Y|Y].
      * rewrite sin_PI2, cos_PI2. assert (rho = y) by (apply Rsqr_inj; unfold Rsqr; lra). subst. split; field; lra.
      * destruct (Rlt_dec y 0) as [Y'|Y'].
        -- rewrite sin_neg, cos_neg, sin_PI2, cos_PI2. assert (rho = - y) by (apply Rsqr_inj; unfold Rsqr; lra). subst. split; field; lra.
        -- exfalso. assert (y = 0) by lra. subst. nra.
Qed.
Lemma half_sin t : Rabs t <= PI / 2 -> Rabs t <= 2 * Rabs (sin t).
Proof.
  assert (P : forall u, 0 <= u <= PI / 2 -> u <= 2 * sin u).
  { intros u U. pose proof PI_near. pose proof (sin_lower u ltac:(lra)). assert (u * u <= 5 / 2) by nra. assert (u * (u * u) <= u * (5 / 2)) by nra. lra. }
  intros T. unfold Rabs at 1 in T. unfold Rabs at 1. destruct (Rcase_abs t).
  - specialize (P (- t) ltac:(lra)). rewrite sin_neg in P. pose proof (Rle_abs (- sin t)) as A. rewrite Rabs_Ropp in A. lra.
  - specialize (P t ltac:(lra)). pose proof (Rle_abs (sin t)). lra.
Qed.
Lemma cos_near d s : 0 <= s -> 1 - cos d <= 2 * (s * s) -> exists k, Rabs (d - IZR k * (2 * PI)) <= 4 * s.
Proof.
  intros S H. pose proof PI_near as P. set (k := Int_part ((d + PI) / (2 * PI))). exists k.
  pose proof (Rmod_range (d + PI) (2 * PI) ltac:(lra)) as R. unfold Rmod in R. fold k in R.
  set (t := (d - IZR k * (2 * PI)) / 2). assert (T : Rabs t <= PI / 2) by (apply Rabs_le; unfold t; lra).
  assert (E : cos d = 1 - 2 * (sin t * sin t)).
  { replace (cos d) with (cos (2 * t)). - rewrite cos_2a_sin. ring. - replace (2 * t) with (d + IZR (- k) * (2 * PI)) by (unfold t; rewrite opp_IZR; field). apply sin_turns. }
  apply half_sin in T. assert (Q : Rabs (sin t) <= s). { assert (W : Rsqr (sin t) <= Rsqr s) by (unfold Rsqr; lra). apply Rsqr_le_abs_0 in W. rewrite (Rabs_pos_eq s) in W; lra. }
  replace (d - IZR k * (2 * PI)) with (2 * t) by (unfold t; field). rewrite Rabs_mult, (Rabs_pos_eq 2) by lra. lra.
Qed.
Lemma atan2_near y x y' x' h : 3 / 4 <= y * y + x * x -> Rabs x <= 1 -> Rabs y <= 1 -> 0 <= h <= 1 / 100 -> Rabs (y' - y) <= h -> Rabs (x' - x) <= h ->
  apart_at_most (2 * PI) (4 * h) (atan2 y' x') (atan2 y x) /\ (x' <> 0 \/ y' <> 0).
Proof.
  intros N X Y Hh Dy Dx. apply Rabs_le_inv in X, Y, Dy, Dx.
  assert (N' : 1 / 2 <= y' * y' + x' * x').
  { assert (y' * y' >= y * y - 2 * h) by (set (d := y' - y) in *; replace y' with (y + d) by (unfold d; ring); clearbody d; nra).
    assert (x' * x' >= x * x - 2 * h) by (set (d := x' - x) in *; replace x' with (x + d) by (unfold d; ring); clearbody d; nra). lra. }
  split; [|destruct (Req_dec x' 0) as [-> |]; [|tauto]; destruct (Req_dec y' 0) as [-> |]; [lra|tauto]].
  assert (Sq : forall u, 1 / 2 <= u -> 1 / 2 <= sqrt u /\ sqrt u * sqrt u = u).
  { intros u U. assert (E : sqrt u * sqrt u = u) by (apply sqrt_sqrt; lra). split; auto. pose proof (sqrt_pos u). nra. }
  destruct (Sq _ N') as (P' & E'). destruct (Sq (y * y + x * x) ltac:(lra)) as (P & E). set (r := sqrt (y * y + x * x)) in *. set (r' := sqrt (y' * y' + x' * x')) in *. clearbody r r'.
  assert (P2 : 8 / 10 <= r) by nra. assert (P2' : 7 / 10 <= r') by nra.
  destruct (atan2_sin_cos y x r ltac:(lra) E) as (S & C). destruct (atan2_sin_cos y' x' r' ltac:(lra) E') as (S' & C').
  assert (K : 1 - cos (atan2 y' x' - atan2 y x) <= 2 * (h * h)).
  { rewrite cos_minus, S, C, S', C'. replace (x' / r' * (x / r) + y' / r' * (y / r)) with ((x' * x + y' * y) / (r * r')) by (field; split; lra).
    assert (rr : 56 / 100 <= r * r') by nra.
    assert (Dd : r * r' - (x' * x + y' * y) <= h * h).
    { assert (A1 : (y' - y) * (y' - y) <= h * h) by nra. assert (A2 : (x' - x) * (x' - x) <= h * h) by nra. pose proof (Rle_0_sqr (r - r')) as A3. unfold Rsqr in A3. nra. }
    set (p := x' * x + y' * y) in *. set (q := r * r') in *. clearbody p q. apply (Rmult_le_reg_r q); [lra|]. unfold Rdiv. rewrite Rmult_minus_distr_r, Rmult_assoc, Rinv_l by lra.
    pose proof (Rle_0_sqr h) as Hs. unfold Rsqr in Hs. set (w := h * h) in *. clearbody w. nra. }
  destruct (cos_near _ h ltac:(lra) K) as (k & Ek). exists k. exact Ek.
Qed.
(** Every angle of a point is [atan2] up to turns. *)
Lemma angle_atan2 a x y : angle_of_point a x y -> apart_at_most (2 * PI) 0 (atan2 y x) a.
Proof.
  intros (r & Rp & -> & ->). pose proof (sin2_cos2 a) as Q. unfold Rsqr in Q.
  destruct (atan2_sin_cos (r * sin a) (r * cos a) r Rp) as (S & C). { replace (r * r) with (r * r * 1) by ring. rewrite <- Q. ring. }
  destruct (cos_near (atan2 (r * sin a) (r * cos a) - a) 0) as (k & K); [lra| |].
  - rewrite cos_minus, S, C. replace (r * cos a / r * cos a + r * sin a / r * sin a) with (sin a * sin a + cos a * cos a) by (field; lra). lra.
  - exists k. lra.
Qed.
