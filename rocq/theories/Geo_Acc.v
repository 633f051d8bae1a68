(** How near the values of [_altitude] are to the height. *)
From Coq Require Import List Reals Arith Bool Lia Lra Psatz.
From Verif Require Import Py PyLemmas Num Time_Model Rot_Model Rot_Spec Rot_Proofs Geo_Model Geo_Spec Geo_Alt Geo_Alt2.
Import ListNotations.
Open Scope R_scope.
Open Scope list_scope.

Lemma wa : wgs84_a = A. Proof. now rewrite A_val. Qed.
Lemma wb : wgs84_b = B. Proof. now rewrite B_val. Qed.

(** A point above the ellipsoid in the half-plane through the axis: [rho] and [w] are the
    coordinates of the foot, [g] the length of the gradient there. *)
Record meridian (rho w g h p z : R) : Prop := {
  mer_rho : 0 < rho;
  mer_g : 0 < g;
  mer_ell : rho * rho * (B * B) + w * w * (A * A) = A * A * (B * B);
  mer_grad : g * g * (A * A * (A * A) * (B * B * (B * B))) = rho * rho * (B * B * (B * B)) + w * w * (A * A * (A * A));
  mer_h : 0 <= h;
  mer_p : p = rho + h / g * (rho / (A * A));
  mer_z : z = w + h / g * (w / (B * B)) }.

Lemma axis_scale k v : 0 <= k -> axis_distance (V (k * vx v) (k * vy v) 0) = k * axis_distance v.
Proof.
  intros K. unfold axis_distance. cbn [vx vy]. rewrite <- (sqrt_square k) at 3 by auto. 
  rewrite <- sqrt_mult; [f_equal; ring|nra|]. pose proof (pow2_ge_0 (vx v)). pose proof (pow2_ge_0 (vy v)). lra.
Qed.
Lemma above_meridian f h P : above f h P -> 0 <= h -> off_axis P ->
  meridian (axis_distance f) (vz f) (norm (gradient f)) h (axis_distance P) (vz P).
Proof.
  intros (E & ->) H O. unfold on_ellipsoid in E. rewrite wa, wb in E. pose proof A_pos as HA. pose proof B_pos as HB.
  assert (A2 : 0 < A * A) by nra. assert (B2 : 0 < B * B) by nra.
  set (g := norm (gradient f)) in *.
  assert (F2 : axis_distance f * axis_distance f = vx f ^ 2 + vy f ^ 2) by apply axis2.
  assert (ELL : axis_distance f * axis_distance f * (B * B) + vz f * vz f * (A * A) = A * A * (B * B)).
  { rewrite F2. transitivity (A * A * (B * B) * ((vx f ^ 2 + vy f ^ 2) / A ^ 2 + vz f ^ 2 / B ^ 2)); [field; split; lra|rewrite E; ring]. }
  assert (GG : g * g = (axis_distance f * axis_distance f) / (A * A * (A * A)) + (vz f * vz f) / (B * B * (B * B))).
  { unfold g, norm. rewrite sqrt_sqrt.
    - unfold dot, gradient. cbn [vx vy vz]. rewrite wa, wb, F2. field. split; lra.
    - unfold dot. pose proof (sq0 (vx (gradient f))). pose proof (sq0 (vy (gradient f))). pose proof (sq0 (vz (gradient f))). lra. }
  assert (G2 : 0 < g * g).
  { rewrite GG. pose proof (sq0 (axis_distance f)) as Q1. pose proof (sq0 (vz f)) as Q2.
    assert (P1 : 0 < / (A * A * (A * A))) by (apply Rinv_0_lt_compat; nra).
    assert (P2 : 0 < / (B * B * (B * B))) by (apply Rinv_0_lt_compat; nra).
    unfold Rdiv. destruct (Rle_lt_or_eq_dec _ _ Q2) as [Q|Q]; [nra|]. rewrite <- Q in *.
    assert (0 < axis_distance f * axis_distance f) by nra. nra. }
  assert (G0 : 0 < g). { assert (0 <= g) by apply sqrt_pos. nra. }
  assert (K : 0 < 1 + h / g * / (A * A)).
  { assert (0 <= h / g) by (apply Rmult_le_pos; auto; apply Rlt_le, Rinv_0_lt_compat; auto).
    assert (0 < / (A * A)) by (apply Rinv_0_lt_compat; auto). nra. }
  assert (PE : axis_distance (plus f (times (h / g) (gradient f))) = (1 + h / g * / (A * A)) * axis_distance f).
  { rewrite <- axis_scale by lra. unfold axis_distance. cbn [vx vy]. unfold gradient, plus, times. cbn [vx vy]. rewrite wa. f_equal. field. lra. }
  constructor; auto.
  - assert (0 <= axis_distance f) by apply sqrt_pos. destruct (Rle_lt_or_eq_dec 0 (axis_distance f)) as [Q|Q]; auto. exfalso.
    rewrite <- Q in F2. assert (vx f = 0 /\ vy f = 0) as (X & Y). { split; nra. }
    unfold off_axis, plus, times, gradient in O. cbn [vx vy] in O. rewrite X, Y in O. unfold Rdiv in O. destruct O as [O|O]; apply O; ring.
  - rewrite GG. field. split; lra.
  - rewrite PE. field. split; lra.
  - unfold plus, times, gradient. cbn [vz]. rewrite wb. field. split; lra.
Qed.

Definition m_star (g h : R) : R := (1 + h / (A * A * g)) / (kap + h / (A * A * g)).
Lemma g_aux a2 b2 r w g : 0 < b2 -> b2 < a2 -> 0 <= r -> 0 <= w -> r * b2 + w * a2 = a2 * b2 ->
  g * (a2 * a2 * (b2 * b2)) = r * (b2 * b2) + w * (a2 * a2) -> g * b2 <= 1 /\ 1 <= g * a2.
Proof.
  intros B2 AB R W E GG. assert (P1 : 0 < a2 * b2) by nra. split.
  - apply Rmult_le_reg_r with (a2 * a2 * b2); [nra|].
    replace (g * b2 * (a2 * a2 * b2)) with (g * (a2 * a2 * (b2 * b2))) by ring. rewrite GG.
    replace (1 * (a2 * a2 * b2)) with (a2 * (a2 * b2)) by ring. rewrite <- E.
    assert (0 <= (a2 - b2) * (r * b2)) by (apply Rmult_le_pos; [lra|apply Rmult_le_pos; lra]). lra.
  - apply Rmult_le_reg_r with (a2 * b2 * b2); [nra|].
    replace (g * a2 * (a2 * b2 * b2)) with (g * (a2 * a2 * (b2 * b2))) by ring. rewrite GG.
    replace (1 * (a2 * b2 * b2)) with (b2 * (a2 * b2)) by ring. rewrite <- E.
    assert (0 <= (a2 - b2) * (w * a2)) by (apply Rmult_le_pos; [lra|apply Rmult_le_pos; lra]). lra.
Qed.
Lemma inv_between g x y : 0 < g -> 0 < x -> 0 < y -> g * g * (x * x) <= 1 -> 1 <= g * g * (y * y) -> x <= / g <= y.
Proof.
  intros G X Y L1 L2. split.
  - apply Rmult_le_reg_r with g; auto. rewrite Rinv_l by lra. assert (0 < x * g) by nra. nra.
  - apply Rmult_le_reg_r with g; auto. rewrite Rinv_l by lra. assert (0 < y * g) by nra. nra.
Qed.
Lemma g_bounds rho w g h p z : meridian rho w g h p z -> B <= / g <= A.
Proof.
  intros [R0 G0 E GG H _ _]. pose proof A_pos as HA. pose proof B_pos as HB. pose proof B_lt_A.
  destruct (g_aux (A * A) (B * B) (rho * rho) (w * w) (g * g)) as (L1 & L2); auto using sq0; try nra.
  now apply inv_between.
Qed.
(** The foot lies between the two spheres, and so does the point. *)
Lemma r_bounds rho w g h p z : meridian rho w g h p z -> B + h <= rr p z <= A + h.
Proof.
  intros M. pose proof (g_bounds _ _ _ _ _ _ M) as G. destruct M as [R0 G0 E GG H -> ->].
  pose proof A_pos as HA. pose proof B_pos as HB. pose proof B_lt_A as AB. pose proof (sq0 w) as W. pose proof (sq0 rho) as R2.
  set (k := / g) in *.
  assert (N2 : (rho / (A * A)) * (rho / (A * A)) + (w / (B * B)) * (w / (B * B)) = g * g).
  { apply Rmult_eq_reg_r with (A * A * (A * A) * (B * B * (B * B))); [|apply Rgt_not_eq; repeat apply Rmult_lt_0_compat; auto].
    transitivity (rho * rho * (B * B * (B * B)) + w * w * (A * A * (A * A))); [field; split; lra|rewrite <- GG; ring]. }
  assert (FN : rho * (rho / (A * A)) + w * (w / (B * B)) = 1).
  { apply Rmult_eq_reg_r with (A * A * (B * B)); [|apply Rgt_not_eq; repeat apply Rmult_lt_0_compat; auto].
    transitivity (rho * rho * (B * B) + w * w * (A * A)); [field; split; lra|rewrite E; ring]. }
  assert (Q : (rho + h / g * (rho / (A * A))) * (rho + h / g * (rho / (A * A))) + (w + h / g * (w / (B * B))) * (w + h / g * (w / (B * B)))
    = (rho * rho + w * w) + 2 * h * k + h * h).
  { set (u := rho / (A * A)) in *. set (v := w / (B * B)) in *.
    transitivity ((rho * rho + w * w) + 2 * (h / g) * (rho * u + w * v) + (h / g) * (h / g) * (u * u + v * v)); [ring|].
    rewrite N2, FN. unfold k. field. lra. }
  assert (F2 : B * B <= rho * rho + w * w <= A * A).
  { assert (L : B * B < A * A) by nra. set (a2 := A * A) in *. set (b2 := B * B) in *. assert (0 < b2) by (unfold b2; nra). clearbody a2 b2.
    set (r := rho * rho) in *. set (s := w * w) in *. clearbody r s. split.
    - apply Rmult_le_reg_r with a2; [lra|]. assert (0 <= r * (a2 - b2)) by (apply Rmult_le_pos; lra). lra.
    - apply Rmult_le_reg_r with b2; [lra|]. assert (0 <= s * (a2 - b2)) by (apply Rmult_le_pos; lra). lra. }
  unfold rr. rewrite Q. split.
  - rewrite <- (sqrt_square (B + h)) by lra. apply sqrt_le_1_alt. nra.
  - rewrite <- (sqrt_square (A + h)) by lra. apply sqrt_le_1_alt. nra.
Qed.
Lemma meridian_far rho w g h p z : meridian rho w g h p z -> far p z.
Proof.
  intros M. pose proof (r_bounds _ _ _ _ _ _ M) as R. destruct M as [R0 G0 E GG H -> ->]. split; [|lra].
  pose proof A_pos. assert (0 <= h / g * (rho / (A * A))); [|lra].
  apply Rmult_le_pos; [apply Rmult_le_pos; auto; apply Rlt_le, Rinv_0_lt_compat; auto|]. apply Rlt_le, Rdiv_lt_0_compat; nra.
Qed.
(** The multiplier of the true latitude is a fixed point that gives the true height. *)
Lemma star_S rho w g h p z : meridian rho w g h p z -> S_ p z (m_star g h) = A + h / (A * g).
Proof.
  intros [R0 G0 E GG H -> ->]. pose proof A_pos as HA. pose proof B_pos as HB.
  assert (K0 : 0 <= h / (A * A * g)) by (apply Rmult_le_pos; auto; apply Rlt_le, Rinv_0_lt_compat; repeat apply Rmult_lt_0_compat; auto).
  unfold S_. assert (Z : (w + h / g * (w / (B * B))) * m_star g h = w * (A * A) / (B * B) * (1 + h / (A * A * g))).
  { clear E GG. unfold m_star, kap. set (k := h / (A * A * g)) in *. assert (KE : h = k * (A * A * g)) by (unfold k; field; lra).
    clearbody k. subst h. field. repeat split; try lra. apply Rgt_not_eq. nra. }
  rewrite Z. assert (P : rho + h / g * (rho / (A * A)) = rho * (1 + h / (A * A * g))) by (field; lra). rewrite P.
  assert (T : A + h / (A * g) = A * (1 + h / (A * A * g))) by (field; lra). rewrite T.
  set (u := 1 + h / (A * A * g)) in *. assert (0 < u) by (unfold u; lra). clearbody u.
  rewrite <- (sqrt_square (A * u)) by nra. f_equal. unfold kap.
  apply Rmult_eq_reg_r with (B * B); [|nra].
  transitivity (u * u * (rho * rho * (B * B) + w * w * (A * A))); [field; split; lra|]. rewrite E. ring.
Qed.
Lemma star_Q rho w g h p z : meridian rho w g h p z -> Q_ p z (m_star g h) = A * A * g + h.
Proof.
  intros [R0 G0 E GG H -> ->]. pose proof A_pos as HA. pose proof B_pos as HB.
  assert (K0 : 0 <= h / (A * A * g)) by (apply Rmult_le_pos; auto; apply Rlt_le, Rinv_0_lt_compat; repeat apply Rmult_lt_0_compat; auto).
  unfold Q_. assert (Z : (w + h / g * (w / (B * B))) * m_star g h = w * (A * A) / (B * B) * (1 + h / (A * A * g))).
  { clear E GG. unfold m_star, kap. set (k := h / (A * A * g)) in *. assert (KE : h = k * (A * A * g)) by (unfold k; field; lra).
    clearbody k. subst h. field. repeat split; try lra. apply Rgt_not_eq. nra. }
  rewrite Z. assert (P : rho + h / g * (rho / (A * A)) = rho * (1 + h / (A * A * g))) by (field; lra). rewrite P.
  assert (T : A * A * g + h = A * A * g * (1 + h / (A * A * g))) by (field; lra). rewrite T.
  set (u := 1 + h / (A * A * g)) in *. assert (0 < u) by (unfold u; lra). clearbody u.
  rewrite <- (sqrt_square (A * A * g * u)) by (repeat apply Rmult_le_pos; lra). f_equal.
  apply Rmult_eq_reg_r with (B * B * (B * B)); [|apply Rgt_not_eq; repeat apply Rmult_lt_0_compat; auto].
  transitivity (u * u * (rho * rho * (B * B * (B * B)) + w * w * (A * A * (A * A)))); [field; lra|]. rewrite <- GG. ring.
Qed.
Lemma star_fix rho w g h p z : meridian rho w g h p z -> g_ p z (m_star g h) = m_star g h /\ h_ p z (m_star g h) = h.
Proof.
  intros M. unfold g_, h_. rewrite (star_S _ _ _ _ _ _ M), (star_Q _ _ _ _ _ _ M). destruct M as [R0 G0 E GG H -> ->].
  pose proof A_pos as HA. pose proof B_pos as HB.
  assert (K0 : 0 <= h / (A * A * g)) by (apply Rmult_le_pos; auto; apply Rlt_le, Rinv_0_lt_compat; repeat apply Rmult_lt_0_compat; auto).
  set (k := h / (A * A * g)) in *. assert (KE : h = k * (A * A * g)) by (unfold k; field; lra). unfold m_star. fold k. clearbody k. subst h.
  pose proof kap_bounds. split.
  - rewrite cc_kap. field. repeat split; try lra. apply Rgt_not_eq. assert (0 < A * k + A * kap) by nra. nra.
  - field. repeat split; try lra. apply Rgt_not_eq. nra.
Qed.
Lemma sqrtAB_num : 6367.435 < sqrt (A * B) < 6367.436.
Proof.
  rewrite A_val, B_val. split.
  - rewrite <- (sqrt_square 6367.435) by lra. apply sqrt_lt_1_alt. lra.
  - rewrite <- (sqrt_square 6367.436) at 1 by lra. apply sqrt_lt_1_alt. lra.
Qed.
Lemma star_ge1 rho w g h p z : meridian rho w g h p z -> 1 <= m_star g h.
Proof.
  intros [R0 G0 _ _ H _ _]. pose proof A_pos. pose proof kap_bounds.
  assert (K0 : 0 <= h / (A * A * g)) by (apply Rmult_le_pos; auto; apply Rlt_le, Rinv_0_lt_compat; repeat apply Rmult_lt_0_compat; auto).
  unfold m_star. set (k := h / (A * A * g)) in *. apply Rmult_le_reg_r with (kap + k); [lra|]. unfold Rdiv. rewrite Rmult_assoc, Rinv_l; lra.
Qed.
Lemma start_near rho w g h p z : meridian rho w g h p z -> Rabs (h0 p z - h) <= A - sqrt (A * B).
Proof.
  intros M. pose proof (r_bounds _ _ _ _ _ _ M) as R. unfold h0. pose proof sqrtAB_num. pose proof A_val. pose proof B_val.
  apply Rabs_le. lra.
Qed.
Lemma m_near rho w g h p z k : meridian rho w g h p z -> Rabs (mk p z k - m_star g h) <= Rabs (m0 p z - m_star g h).
Proof.
  intros M. pose proof (meridian_far _ _ _ _ _ _ M) as F. induction k; [cbn; lra|]. cbn [mk].
  rewrite <- (proj1 (star_fix _ _ _ _ _ _ M)) at 1. pose proof (mk_range p z k F). pose proof (star_ge1 _ _ _ _ _ _ M).
  eapply Rle_trans; [apply g_lip; auto; lra|]. pose proof (Rabs_pos (mk p z k - m_star g h)). lra.
Qed.
Lemma first_m_near rho w g h p z : meridian rho w g h p z ->
  (h + 19229) * Rabs (m0 p z - m_star g h) <= 0.5.
Proof.
  intros M. pose proof (start_near _ _ _ _ _ _ M) as N. pose proof (r_bounds _ _ _ _ _ _ M) as R.
  pose proof (meridian_far _ _ _ _ _ _ M) as F. pose proof (g_bounds _ _ _ _ _ _ M) as G.
  pose proof (star_S _ _ _ _ _ _ M) as SS. pose proof (proj1 (star_fix _ _ _ _ _ _ M)) as SF. unfold g_ in SF. rewrite SS in SF.
  destruct M as [_ G0 _ _ H _ _]. pose proof sqrtAB_num as AB. pose proof A_val as HA. pose proof B_val as HB. pose proof cc_bounds as C.
  assert (T : 0.9966 * h <= h / (A * g) <= h).
  { replace (h / (A * g)) with (h * (/ g / A)) by (field; lra). 
    assert (0.9966 <= / g / A <= 1).
    { split; (apply Rmult_le_reg_r with A; [lra|]); unfold Rdiv; rewrite Rmult_assoc, Rinv_l, Rmult_1_r by lra; lra. }
    set (q := / g / A) in *. clearbody q. split; nra. }
  set (e := h / (A * g)) in *. clearbody e. rewrite <- SF. unfold m0, h0. set (s := A + (rr p z - sqrt (A * B))).
  assert (S1 : h + 6356 <= s) by (unfold s; lra).
  assert (S2 : Rabs (A + e - s) <= 10.71 + 0.0034 * h). { apply Rabs_le. unfold s. lra. }
  clearbody s. clear SS SF. set (u := A + e) in *. assert (U : 0.9966 * (h + 6378) <= u) by (unfold u; lra). clearbody u.
  assert (E : s / (s - cc) - u / (u - cc) = cc * (u - s) / ((s - cc) * (u - cc))) by (field; lra).
  rewrite E. unfold Rdiv. rewrite !Rabs_mult, Rabs_inv, Rabs_mult. rewrite (Rabs_right cc), (Rabs_right (s - cc)), (Rabs_right (u - cc)) by lra.
  assert (D1 : h + 6313 <= s - cc) by lra. assert (D2 : 0.9966 * (h + 6313) <= u - cc) by lra.
  assert (D : 0.9966 * (h + 6313) * (h + 6313) <= (s - cc) * (u - cc)) by nra.
  assert (P : 0 < (s - cc) * (u - cc)) by nra.
  apply Rmult_le_reg_r with ((s - cc) * (u - cc)); auto.
  replace ((h + 19229) * (cc * Rabs (u - s) * / ((s - cc) * (u - cc))) * ((s - cc) * (u - cc))) with ((h + 19229) * (cc * Rabs (u - s))) by (field; lra).
  apply Rle_trans with ((h + 19229) * (42.74 * (10.71 + 0.0034 * h))).
  - apply Rmult_le_compat_l; [lra|]. pose proof (Rabs_pos (u - s)). nra.
  - apply Rle_trans with (0.5 * (0.9966 * (h + 6313) * (h + 6313))); [nra|lra].
Qed.
Lemma value_near rho w g h p z k : meridian rho w g h p z -> Rabs (hk p z k - h) <= A - sqrt (A * B) /\ (k <> O -> Rabs (hk p z k - h) <= 0.5).
Proof.
  intros M. destruct k as [|k]; cbn [hk].
  - split; [now apply (start_near rho w g)|congruence].
  - assert (N : Rabs (h_ p z (mk p z k) - h) <= 0.5).
    { rewrite <- (proj2 (star_fix _ _ _ _ _ _ M)) at 1. pose proof (meridian_far _ _ _ _ _ _ M) as F.
      pose proof (mk_range p z k F). pose proof (star_ge1 _ _ _ _ _ _ M). eapply Rle_trans; [apply h_lip; auto; lra|].
      pose proof (m_near _ _ _ _ _ _ k M) as MN. pose proof (r_bounds _ _ _ _ _ _ M) as R. pose proof (z_rr p z) as Z.
      pose proof (Rabs_pos (mk p z k - m_star g h)). pose proof (Rabs_pos z). pose proof A_val.
      eapply Rle_trans; [|apply (first_m_near _ _ _ _ _ _ M)]. apply Rmult_le_compat; lra. }
    split; auto. pose proof sqrtAB_num. pose proof A_val. lra.
Qed.
