(** How far the direction of a point changes when the point moves a little. *)
From Coq Require Import Reals Lra Psatz.
From Verif Require Import Rot_Model Rot_Spec Geo_Model Geo_Spec Geo_Alt Geo_Alt2.
Open Scope R_scope.

Lemma square_le x e : 0 <= e -> x ^ 2 <= e ^ 2 -> Rabs x <= e.
Proof. intros E H. rewrite <- (Rabs_pos_eq e E). apply Rsqr_le_abs_0. unfold Rsqr. lra. Qed.
Lemma turn r a x y e : 0 <= e < r -> (x - r * cos a) ^ 2 + (y - r * sin a) ^ 2 <= e ^ 2 ->
  exists d, Rabs d <= e / (r - e) /\ x = sqrt (x ^ 2 + y ^ 2) * cos (a + d) /\ y = sqrt (x ^ 2 + y ^ 2) * sin (a + d).
Proof.
  intros E H. pose proof (sin2_cos2 a) as T. unfold Rsqr in T. set (c := cos a) in *. set (s := sin a) in *.
  set (X := x * c + y * s). set (Y := y * c - x * s).
  assert (Q : (X - r) ^ 2 + Y ^ 2 <= e ^ 2).
  { apply Rle_trans with (2 := H). apply Req_le. unfold X, Y. transitivity ((x ^ 2 + y ^ 2) * (s * s + c * c) - 2 * r * (x * c + y * s) + r ^ 2); [ring|]. rewrite T. transitivity (x ^ 2 + y ^ 2 - 2 * r * (x * c + y * s) + r ^ 2 * (s * s + c * c)); [rewrite T; ring|ring]. }
  pose proof (pow2_ge_0 (X - r)) as P1. pose proof (pow2_ge_0 Y) as P2.
  assert (B1 : Rabs (X - r) <= e) by (apply square_le; lra). assert (B2 : Rabs Y <= e) by (apply square_le; lra).
  assert (X0 : r - e <= X) by (pose proof (Rle_abs (-(X - r))) as W; rewrite Rabs_Ropp in W; lra). assert (XP : 0 < X) by lra.
  assert (HH : x ^ 2 + y ^ 2 = X ^ 2 + Y ^ 2) by (unfold X, Y; transitivity ((x ^ 2 + y ^ 2) * (s * s + c * c)); [rewrite T; ring|ring]).
  exists (atan (Y / X)). rewrite cos_plus, sin_plus. fold c s. rewrite HH, cos_atan, sin_atan.
  assert (R1 : sqrt (1 + (Y / X)²) = sqrt (X ^ 2 + Y ^ 2) / X).
  { rewrite <- (sqrt_square X) at 3 by lra. rewrite <- sqrt_div_alt by nra. f_equal. unfold Rsqr. field. lra. }
  assert (HP : 0 < sqrt (X ^ 2 + Y ^ 2)) by (apply sqrt_lt_R0; nra). rewrite R1. set (h := sqrt (X ^ 2 + Y ^ 2)) in *. split; [|split].
  - pose proof (atan_lip (Y / X) 0) as L. rewrite atan_0, !Rminus_0_r in L. apply Rle_trans with (1 := L). unfold Rdiv. rewrite Rabs_mult, Rabs_inv, (Rabs_pos_eq X) by lra. apply Rmult_le_compat; [apply Rabs_pos|apply Rlt_le, Rinv_0_lt_compat; lra|exact B2|apply Rinv_le_contravar; lra].
  - transitivity (c * X - s * Y); [|field; split; lra]. unfold X, Y. transitivity (x * (s * s + c * c)); [rewrite T|]; ring.
  - transitivity (s * X + c * Y); [|field; split; lra]. unfold X, Y. transitivity (y * (s * s + c * c)); [rewrite T|]; ring.
Qed.
(** An angle with a positive cosine not far from the right half is the arc tangent. *)
Lemma atan_of r a x y : 0 < x -> 0 < r -> x = r * cos a -> y = r * sin a -> - (3 * (PI / 2)) < a < 3 * (PI / 2) -> atan (y / x) = a.
Proof.
  intros X R EX EY B. pose proof PI_RGT_0 as P.
  assert (C : 0 < cos a) by (apply Rmult_lt_reg_l with r; [exact R|rewrite Rmult_0_r; lra]).
  assert (I : - (PI / 2) < a < PI / 2).
  { split; apply Rnot_le_lt; intros K.
    - assert (cos (- a) <= 0) by (apply cos_le_0; lra). rewrite cos_neg in H. lra.
    - assert (cos a <= 0) by (apply cos_le_0; lra). lra. }
  rewrite <- (atan_tan a I). f_equal. unfold tan. rewrite EX, EY. field. split; lra.
Qed.
