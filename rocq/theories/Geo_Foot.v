(** Every point outside the ellipsoid is vertically above some point of it. *)
From Coq Require Import List Reals Lia Lra Psatz.
From Verif Require Import Py PyLemmas Num Time_Model Rot_Model Rot_Spec Rot_Proofs Geo_Model Geo_Spec Geo_Alt Geo_Alt2 Geo_Acc Geo_Props.
Open Scope R_scope.

Definition not_below (v : vec) : Prop := 1 <= (vx v ^ 2 + vy v ^ 2) / wgs84_a ^ 2 + vz v ^ 2 / wgs84_b ^ 2.
Lemma meets X Z a b : 0 <= X -> 0 <= Z -> 1 <= X + Z -> 0 < b <= a -> exists s, 0 <= s /\ X / (1 + s / a) ^ 2 + Z / (1 + s / b) ^ 2 = 1.
Proof.
  intros HX HZ H AB. set (G := fun s => (1 + s / a) * (1 + s / a) * ((1 + s / b) * (1 + s / b)) - X * ((1 + s / b) * (1 + s / b)) - Z * ((1 + s / a) * (1 + s / a))).
  assert (C : continuity G) by (unfold G, Rdiv; reg). set (t := a * (2 * X + 2 * Z + 1)).
  assert (G0 : G 0 <= 0) by (unfold G, Rdiv; rewrite !Rmult_0_l, !Rplus_0_r; lra).
  assert (T0 : 0 < t) by (unfold t; nra).
  assert (G1 : 0 <= G t).
  { unfold G. assert (V : 1 + t / a = 2 * X + 2 * Z + 2) by (unfold t; field; lra). assert (U : 1 + t / a <= 1 + t / b). { apply Rplus_le_compat_l. unfold Rdiv. apply Rmult_le_compat_l; [lra|]. apply Rinv_le_contravar; lra. }
    rewrite V in *. set (u := 1 + t / b) in *. set (v := 2 * X + 2 * Z + 2) in *. assert (K1 : 2 * X + 1 <= v * v) by (unfold v; nra). assert (K2 : 2 * Z + 1 <= u * u) by (assert (2 * Z + 2 <= u) by (unfold v in U; lra); nra).
    set (uu := u * u) in *. set (vv := v * v) in *. clearbody uu vv. assert (X * uu <= (vv - 1) / 2 * uu) by (apply Rmult_le_compat_r; lra). assert (Z * vv <= (uu - 1) / 2 * vv) by (apply Rmult_le_compat_r; lra). lra. }
  destruct (IVT_cor G 0 t C ltac:(lra) ltac:(nra)) as (s & (S0 & _) & E). exists s. split; auto. unfold G in E. 
  assert (0 <= s / a) by (apply Rmult_le_pos; [lra|]; apply Rlt_le, Rinv_0_lt_compat; lra). assert (0 <= s / b) by (apply Rmult_le_pos; [lra|]; apply Rlt_le, Rinv_0_lt_compat; lra).
  set (u := 1 + s / b) in *. set (v := 1 + s / a) in *. assert (1 <= u) by (unfold u; lra). assert (1 <= v) by (unfold v; lra). clearbody u v. apply Rmult_eq_reg_r with (u * u * (v * v)); [|assert (0 < u * u) by nra; assert (0 < v * v) by nra; apply Rgt_not_eq; nra]. replace ((X / v ^ 2 + Z / u ^ 2) * (u * u * (v * v))) with (X * (u * u) + Z * (v * v)) by (field; lra). lra.
Qed.
Lemma foot_exists v : not_below v -> exists f h, above f h v /\ 0 <= h.
Proof.
  unfold not_below. intros H. pose proof A_pos as HA. pose proof B_pos as HB. pose proof B_lt_A as LT. rewrite wa, wb in H.
  destruct (meets ((vx v ^ 2 + vy v ^ 2) / A ^ 2) (vz v ^ 2 / B ^ 2) (A * A) (B * B)) as (s & S0 & E).
  - apply Rmult_le_pos; [|apply Rlt_le, Rinv_0_lt_compat; nra]. pose proof (pow2_ge_0 (vx v)). pose proof (pow2_ge_0 (vy v)). lra.
  - apply Rmult_le_pos; [apply pow2_ge_0|apply Rlt_le, Rinv_0_lt_compat; nra].
  - exact H.
  - split; nra.
  - set (k := 1 + s / (A * A)) in *. set (l := 1 + s / (B * B)) in *.
    assert (K : 1 <= k). { unfold k. assert (0 <= s / (A * A)) by (apply Rmult_le_pos; [lra|]; apply Rlt_le, Rinv_0_lt_compat; nra). lra. }
    assert (L : 1 <= l). { unfold l. assert (0 <= s / (B * B)) by (apply Rmult_le_pos; [lra|]; apply Rlt_le, Rinv_0_lt_compat; nra). lra. }
    set (f := V (vx v / k) (vy v / k) (vz v / l)). assert (ON : on_ellipsoid f).
    { unfold on_ellipsoid, f. cbn [vx vy vz]. rewrite wa, wb. rewrite <- E. field. repeat split; lra. }
    set (g := norm (gradient f)). assert (G0 : 0 <= g) by apply sqrt_pos.
    assert (G : g <> 0).
    { intros Z. unfold g, norm in Z. apply sqrt_eq_0 in Z; [|unfold dot; pose proof (sq0 (vx (gradient f))); pose proof (sq0 (vy (gradient f))); pose proof (sq0 (vz (gradient f))); lra].
      unfold dot in Z. pose proof (sq0 (vx (gradient f))) as Q1. pose proof (sq0 (vy (gradient f))) as Q2. pose proof (sq0 (vz (gradient f))) as Q3.
      assert (Z1 : vx (gradient f) = 0) by nra. assert (Z2 : vy (gradient f) = 0) by nra. assert (Z3 : vz (gradient f) = 0) by nra. unfold gradient in Z1, Z2, Z3. cbn [vx vy vz] in Z1, Z2, Z3. rewrite wa in Z1, Z2. rewrite wb in Z3.
      assert (W : forall x a, a <> 0 -> x / a ^ 2 = 0 -> x = 0). { intros x a Na Q. apply (f_equal (fun y => y * a ^ 2)) in Q. unfold Rdiv in Q. rewrite Rmult_assoc, Rinv_l, Rmult_1_r, Rmult_0_l in Q; auto. now apply pow_nonzero. }
      apply W in Z1; [|lra]. apply W in Z2; [|lra]. apply W in Z3; [|lra]. unfold on_ellipsoid in ON. rewrite Z1, Z2, Z3 in ON. unfold Rdiv in ON. rewrite pow_ne_zero, Rplus_0_l, !Rmult_0_l in ON by lia. lra. }
    exists f, (s * g). split; [split; [exact ON|]|apply Rmult_le_pos; lra]. fold g. replace (s * g / g) with s by (field; exact G).
    apply vec_ext; unfold plus, times, gradient, f; cbn [vx vy vz]; rewrite ?wa, ?wb; unfold k, l; field; repeat split; try lra; nra.
Qed.
(** There is only one. *)
Lemma decreasing X s t a : 0 <= X -> 0 < a -> 0 <= s < t -> X / (1 + t / a) ^ 2 <= X / (1 + s / a) ^ 2 /\ (0 < X -> X / (1 + t / a) ^ 2 < X / (1 + s / a) ^ 2).
Proof.
  intros HX HA ST. assert (I : 0 < / a) by now apply Rinv_0_lt_compat. assert (U1 : 0 <= s / a) by (apply Rmult_le_pos; lra). assert (U2 : s / a < t / a) by (apply Rmult_lt_compat_r; lra). assert (U : 1 <= 1 + s / a < 1 + t / a) by lra. set (u := 1 + s / a) in *. set (v := 1 + t / a) in *. clearbody u v.
  assert (L : / v ^ 2 < / u ^ 2) by (apply Rinv_lt_contravar; [|nra]; apply Rmult_lt_0_compat; nra). unfold Rdiv. split; [apply Rmult_le_compat_l; lra|intros; apply Rmult_lt_compat_l; lra].
Qed.
Lemma foot_of f h v : above f h v -> 0 <= h -> exists s, 0 <= s /\ f = V (vx v / (1 + s / (A * A))) (vy v / (1 + s / (A * A))) (vz v / (1 + s / (B * B))) /\ h = s * norm (gradient f) /\
  (vx v ^ 2 + vy v ^ 2) / A ^ 2 / (1 + s / (A * A)) ^ 2 + vz v ^ 2 / B ^ 2 / (1 + s / (B * B)) ^ 2 = 1.
Proof.
  intros (ON & E) H. pose proof A_pos as HA. pose proof B_pos as HB. set (g := norm (gradient f)) in *. assert (G0 : 0 <= g) by apply sqrt_pos.
  assert (G : g <> 0).
  { intros Z. unfold g, norm in Z. apply sqrt_eq_0 in Z; [|unfold dot; pose proof (sq0 (vx (gradient f))); pose proof (sq0 (vy (gradient f))); pose proof (sq0 (vz (gradient f))); lra].
    unfold dot in Z. pose proof (sq0 (vx (gradient f))) as Q1. pose proof (sq0 (vy (gradient f))) as Q2. pose proof (sq0 (vz (gradient f))) as Q3.
    assert (Z1 : vx (gradient f) = 0) by nra. assert (Z2 : vy (gradient f) = 0) by nra. assert (Z3 : vz (gradient f) = 0) by nra. unfold gradient in Z1, Z2, Z3. cbn [vx vy vz] in Z1, Z2, Z3. rewrite wa in Z1, Z2. rewrite wb in Z3.
    assert (W : forall x a, a <> 0 -> x / a ^ 2 = 0 -> x = 0). { intros x a Na Q. apply (f_equal (fun y => y * a ^ 2)) in Q. unfold Rdiv in Q. rewrite Rmult_assoc, Rinv_l, Rmult_1_r, Rmult_0_l in Q; auto. now apply pow_nonzero. }
    apply W in Z1; [|lra]. apply W in Z2; [|lra]. apply W in Z3; [|lra]. unfold on_ellipsoid in ON. rewrite Z1, Z2, Z3 in ON. unfold Rdiv in ON. rewrite pow_ne_zero, Rplus_0_l, !Rmult_0_l in ON by lia. lra. }
  set (s := h / g) in *. assert (S0 : 0 <= s) by (apply Rmult_le_pos; [lra|]; apply Rlt_le, Rinv_0_lt_compat; lra). exists s. split; auto.
  assert (K : 0 < 1 + s / (A * A)). { assert (0 <= s / (A * A)) by (apply Rmult_le_pos; [lra|]; apply Rlt_le, Rinv_0_lt_compat; nra). lra. }
  assert (L : 0 < 1 + s / (B * B)). { assert (0 <= s / (B * B)) by (apply Rmult_le_pos; [lra|]; apply Rlt_le, Rinv_0_lt_compat; nra). lra. }
  assert (X : vx v = vx f * (1 + s / (A * A))) by (rewrite E; unfold plus, times, gradient; cbn [vx]; rewrite wa; field; lra).
  assert (Y : vy v = vy f * (1 + s / (A * A))) by (rewrite E; unfold plus, times, gradient; cbn [vy]; rewrite wa; field; lra).
  assert (Z : vz v = vz f * (1 + s / (B * B))) by (rewrite E; unfold plus, times, gradient; cbn [vz]; rewrite wb; field; lra).
  assert (DV : forall x k, 0 < k -> x = x * k / k) by (intros; field; lra). split; [apply vec_ext; cbn [vx vy vz]; rewrite ?X, ?Y, ?Z; now apply DV|]. split; [unfold s; field; exact G|].
  rewrite X, Y, Z. unfold on_ellipsoid in ON. rewrite wa, wb in ON. transitivity ((vx f ^ 2 + vy f ^ 2) / A ^ 2 + vz f ^ 2 / B ^ 2); [|exact ON]. clear X Y Z E. set (k := 1 + s / (A * A)) in *. set (l := 1 + s / (B * B)) in *. clearbody k l. field. repeat split; lra.
Qed.
(** ** C59: what the true height is: every point on or outside the ellipsoid is above exactly one point of it,
    at exactly one height. *)
Theorem C59_one_height :
  forall v, not_below v ->
    exists foot height, above foot height v /\ 0 <= height /\
      forall foot' height', above foot' height' v -> 0 <= height' -> foot' = foot /\ height' = height.
Proof.
  intros v N. destruct (foot_exists v N) as (f & h & P & H). exists f, h. split; auto. split; auto. intros f' h' P' H'.
  destruct (foot_of _ _ _ P H) as (s & S0 & E & Eh & Q). destruct (foot_of _ _ _ P' H') as (s' & S0' & E' & Eh' & Q').
  assert (S : s' = s); [|subst s'; rewrite <- E in E'; subst f'; split; [reflexivity|congruence]].
  pose proof A_pos as HA. pose proof B_pos as HB. unfold not_below in N. rewrite wa, wb in N.
  set (X := (vx v ^ 2 + vy v ^ 2) / A ^ 2) in *. set (Z := vz v ^ 2 / B ^ 2) in *.
  assert (X0 : 0 <= X) by (apply Rmult_le_pos; [pose proof (pow2_ge_0 (vx v)); pose proof (pow2_ge_0 (vy v)); lra|apply Rlt_le, Rinv_0_lt_compat; nra]).
  assert (Z0 : 0 <= Z) by (apply Rmult_le_pos; [apply pow2_ge_0|apply Rlt_le, Rinv_0_lt_compat; nra]).
  assert (D : forall a b, 0 <= a < b -> X / (1 + b / (A * A)) ^ 2 + Z / (1 + b / (B * B)) ^ 2 < X / (1 + a / (A * A)) ^ 2 + Z / (1 + a / (B * B)) ^ 2).
  { intros a b AB. destruct (decreasing X a b (A * A) X0 ltac:(nra) AB) as (D1 & D2). destruct (decreasing Z a b (B * B) Z0 ltac:(nra) AB) as (D3 & D4). destruct (Rle_lt_or_eq_dec 0 X X0) as [XP|XE]; [specialize (D2 XP); lra|]. specialize (D4 ltac:(lra)). lra. }
  destruct (Rtotal_order s' s) as [L|[L|L]]; auto; [specialize (D s' s ltac:(lra))|specialize (D s s' ltac:(lra))]; lra.
Qed.
Example C59_one_height_case : not_below (V 4200 0 5600) /\ not_below (V 0 0 6400).
Proof.
  pose proof A_val as VA. pose proof B_val as VB. assert (D : forall x d y, 0 < d -> y * d <= x -> y <= x / d). { intros x d y D H. apply Rmult_le_reg_r with d; auto. unfold Rdiv. rewrite Rmult_assoc, Rinv_l by lra. lra. }
  unfold not_below. cbn [vx vy vz]. rewrite wa, wb, VA, VB. split.
  - pose proof (D (4200 ^ 2 + 0 ^ 2) (6378.137 ^ 2) 0.43 ltac:(lra) ltac:(lra)). pose proof (D (5600 ^ 2) (6356.752314245 ^ 2) 0.77 ltac:(lra) ltac:(lra)). lra.
  - pose proof (D (0 ^ 2 + 0 ^ 2) (6378.137 ^ 2) 0 ltac:(lra) ltac:(lra)). pose proof (D (6400 ^ 2) (6356.752314245 ^ 2) 1 ltac:(lra) ltac:(lra)). lra.
Qed.
Print Assumptions C59_one_height.
