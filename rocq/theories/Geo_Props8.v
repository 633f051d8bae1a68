(** The whole horizon seen from the northern hemisphere: the rest of C61. *)
From Coq Require Import List Reals Arith Bool Lia Lra Psatz.
From Verif Require Import Py PyLemmas Num Time_Model Time_Proofs Rot_Model Rot_Spec Rot_Proofs Geo_Model Geo_Spec Geo_Alt Geo_Alt2 Geo_Acc Geo_Dir Geo_Props Geo_Props3 Geo_Props4 Geo_Props5 Geo_Props6 Geo_Props7.
Import ListNotations.
Open Scope R_scope.
Open Scope list_scope.

(** The square of the distance of the location from the centre against the square of the
    radius of the code. *)
Lemma eta_bound n h r s c : 0 < s -> 0 < c -> s * s + c * c = 1 -> 0 <= h ->
  A <= n < 6400 -> B <= r - h <= A -> n * n * (1 - e2 * s ^ 2) = A * A -> Rabs (r - h - A * A / n) <= 0.1445 * (c * c) + 2 / 10 ^ 12 ->
  let rho := (n + h) * c in let z := (n * (1 - e2) + h) * s in
  Rabs (1 - (rho * rho + z * z) / (r * r)) <= 0.000058 /\ rho * rho + z * z <= 1.001 * (r * r).
Proof.
  intros S0 C0 T H NB RB NS RC rho z. pose proof A_val as HA. pose proof B_val as HB. pose proof ecc2 as E2. set (e := e2) in *. clearbody e.
  set (q := A * A / n) in *. assert (QE : q = n * (1 - e * (s * s))) by (unfold q; rewrite <- NS; field; lra).
  assert (G : rho * rho + z * z = (q + h) * (q + h) + e * n * s * c * (e * n * s * c)).
  { rewrite QE. unfold rho, z. replace ((n + h) * c * ((n + h) * c)) with ((n + h) * (n + h) * (1 - s * s)) by (replace (1 - s * s) with (c * c) by lra; ring).
    replace (e * n * s * c * (e * n * s * c)) with (e * n * s * (e * n * s) * (1 - s * s)) by (replace (1 - s * s) with (c * c) by lra; ring). ring. }
  clearbody q. assert (SC : 0 <= s * c <= 0.5). { split; [apply Rmult_le_pos; lra|]. pose proof (sq0 (s - c)). replace ((s - c) * (s - c)) with (s * s + c * c - 2 * (s * c)) in * by ring. lra. } assert (EN : 0 <= e * n * s * c <= 21.5). { assert (0 <= e * n <= 43) by nra. set (en := e * n) in *. replace (en * s * c) with (en * (s * c)) by ring. nra. }
  set (w := e * n * s * c) in *. clearbody w. assert (W2 : 0 <= w * w <= 463) by nra.
  assert (QR : Rabs (r - (q + h)) <= 0.1446). { replace (r - (q + h)) with (r - h - q) by ring. assert (c * c <= 1) by nra. lra. }
  assert (RP : 6356 < r) by lra. set (y := q + h) in *. clearbody y.
  assert (D : Rabs (r * r - (y * y + w * w)) <= 0.000058 * (r * r)).
  { assert (- 0.1446 <= r - y <= 0.1446) by (unfold Rabs in QR; destruct (Rcase_abs _); lra). set (dd := r - y) in *. assert (y = r - dd) by (unfold dd; ring). clearbody dd. subst y.
    replace (r * r - ((r - dd) * (r - dd) + w * w)) with (2 * dd * r - dd * dd - w * w) by ring.
    assert (B1 : 6356 * r <= r * r) by nra. assert (0 <= dd * dd <= 0.03) by nra. assert (- 0.2892 * r <= 2 * dd * r <= 0.2892 * r) by nra. apply Rabs_le. lra. }
  rewrite G. split.
  - replace (1 - (y * y + w * w) / (r * r)) with ((r * r - (y * y + w * w)) * / (r * r)) by (field; lra).
    rewrite Rabs_mult, (Rabs_right (/ (r * r))) by (apply Rle_ge, Rlt_le, Rinv_0_lt_compat; nra).
    apply Rmult_le_reg_r with (r * r); [nra|]. rewrite Rmult_assoc, Rinv_l by nra. rewrite Rmult_1_r. exact D.
  - unfold Rabs in D. destruct (Rcase_abs _); nra.
Qed.
Lemma cos_one : cos (1 * (PI / 180)) * cos (1 * (PI / 180)) < 0.9997.
Proof.
  pose proof PI_low. pose proof PI_high. pose proof (sc2 (1 * (PI / 180))) as T. set (x := 1 * (PI / 180)) in *. assert (X : 0.01744 < x < 0.01747) by (unfold x; lra).
  pose proof (sin_lower7 x ltac:(lra)) as S. clearbody x.
  assert (0 <= x ^ 5 / 120) by (assert (0 <= x ^ 5) by (apply pow_le; lra); lra). assert (x ^ 3 <= 0.00001) by (assert (x * x <= 0.0004) by nra; nra).
  assert (x ^ 7 <= 0.000001). { assert (x * x <= 0.0004) by nra. assert (0 <= x * x) by nra. assert (x ^ 4 <= 0.0001) by nra. assert (0 <= x ^ 4) by nra. nra. }
  assert (0.01743 < sin x) by lra. nra.
Qed.
Lemma near_angle a x : 0 <= a <= 180 -> 0 <= x <= 180 -> 0 <= cos ((a - x) * (PI / 180)) -> 0.9998 <= cos ((a - x) * (PI / 180)) * cos ((a - x) * (PI / 180)) -> Rabs (x - a) < 1.
Proof.
  intros A0 X0 C0 C2. pose proof PI_RGT_0 as P. pose proof cos_one as C1. destruct (Rlt_le_dec (Rabs (x - a)) 1) as [|L]; auto. exfalso.
  assert (E : cos ((a - x) * (PI / 180)) = cos (Rabs (x - a) * (PI / 180))).
  { unfold Rabs. destruct (Rcase_abs _); [f_equal; ring|]. rewrite <- cos_neg. f_equal. ring. }
  rewrite E in *. assert (Rabs (x - a) <= 180) by (apply Rabs_le; lra).
  assert (cos (Rabs (x - a) * (PI / 180)) <= cos (1 * (PI / 180))).
  { pose proof (deg_cos (Rabs (x - a)) ltac:(lra)). apply cos_decr_1; nra. }
  nra.
Qed.
(** A direction close to one at angle [a] from the unit vector [T / w]. *)
Lemma angle_close a x e b1 b2 : e * e + b1 * b1 + b2 * b2 > 0 -> 0 <= a <= 180 -> 0 <= x <= 180 ->
  e = sin (a * (PI / 180)) -> Rabs (b1 - cos (a * (PI / 180))) <= 0.003 -> Rabs b2 <= 0.01 ->
  b1 = sqrt (e * e + b1 * b1 + b2 * b2) * cos (x * (PI / 180)) -> Rabs (x - a) < 1.
Proof.
  intros P A0 X0 E B1 B2 CX. pose proof PI_RGT_0. set (ar := a * (PI / 180)) in *. set (xr := x * (PI / 180)) in *. pose proof (sc2 ar) as TA. pose proof (sc2 xr) as TX.
  set (m := sqrt (e * e + b1 * b1 + b2 * b2)) in *. assert (M2 : m * m = e * e + b1 * b1 + b2 * b2) by (apply sqrt_sqrt; lra). assert (M0 : 0 < m) by (apply sqrt_lt_R0; lra). clearbody m.
  assert (SA : 0 <= sin ar) by (pose proof (deg_cos a A0); apply sin_ge_0; unfold ar; lra). assert (SX : 0 <= sin xr) by (pose proof (deg_cos x X0); apply sin_ge_0; unfold xr; lra).
  assert (CD : cos ((a - x) * (PI / 180)) = cos ar * cos xr + sin ar * sin xr). { replace ((a - x) * (PI / 180)) with (ar - xr) by (unfold ar, xr; ring). apply cos_minus. }
  assert (ES : e <= m * sin xr).
  { assert ((m * sin xr) * (m * sin xr) = e * e + b2 * b2). { replace (m * sin xr * (m * sin xr)) with (m * m * (sin xr * sin xr)) by ring. replace (sin xr * sin xr) with (1 - cos xr * cos xr) by lra.
      replace (m * m * (1 - cos xr * cos xr)) with (m * m - (m * cos xr) * (m * cos xr)) by ring. rewrite <- CX, M2. ring. }
    assert (0 <= m * sin xr) by nra. nra. }
  assert (LOW : sin ar * e + cos ar * b1 <= m * cos ((a - x) * (PI / 180))).
  { rewrite CD, CX. replace (m * (cos ar * cos xr + sin ar * sin xr)) with (sin ar * (m * sin xr) + cos ar * (m * cos xr)) by ring. nra. }
  remember (cos ((a - x) * (PI / 180))) as cd eqn:ECD.
  assert (C1 : -1 <= cos ar <= 1) by apply COS_bound.
  set (d := b1 - cos ar) in *. assert (B1E : b1 = cos ar + d) by (unfold d; ring). assert (DB : - 0.003 <= d <= 0.003) by (unfold Rabs in B1; destruct (Rcase_abs _); lra). clearbody d.
  assert (B2S : b2 * b2 <= 0.0001) by (unfold Rabs in B2; destruct (Rcase_abs _); nra).
  set (ca := cos ar) in *. set (sa := sin ar) in *. clear CD. clearbody ca sa. clear CX. subst e b1.
  assert (X1 : 1 + ca * d <= m * cd) by nra. assert (M2' : m * m <= (1 + ca * d) * (1 + ca * d) + 0.000109 /\ 0.99 <= m * m).
  { rewrite M2. split; nra. }
  assert (XD : 0.997 <= 1 + ca * d) by nra. set (y := 1 + ca * d) in *. clearbody y.
  assert (CP : 0 < cd) by nra.
  apply near_angle; auto; rewrite <- ECD; [lra|]. clear ECD. assert (y * y <= (m * m) * (cd * cd)) by nra. assert (0 < cd * cd) by nra. set (c2 := cd * cd) in *. clearbody c2. set (m2 := m * m) in *. clearbody m2. set (y2 := y * y) in *. assert (0.994 <= y2) by (unfold y2; nra). clearbody y2. nra.
Qed.
(** Two vectors of the plane: the products with a third one are bounded by the lengths. *)
Lemma lagrange2 a b c d : (a * c + b * d) * (a * c + b * d) + (a * d - b * c) * (a * d - b * c) = (a * a + b * b) * (c * c + d * d).
Proof. ring. Qed.
Lemma part_le x y w : 0 <= w -> x * x + y * y = w * w -> Rabs x <= w /\ Rabs y <= w.
Proof. intros W E. pose proof (sq0 x). pose proof (sq0 y). split; apply Rabs_le; split; nra. Qed.
Lemma plane_parts rho z t k u v X Y W g2 mu eta R0 : 0 < X -> Rabs Y <= 0.0086 * X -> 0 < R0 ->
  X = - rho * u + (t - z) * v -> Y = - rho * v - (t - z) * u -> 0 <= W -> W * W = rho * rho + (t - z) * (t - z) ->
  g2 = rho * rho + z * z -> g2 <= 1.001 * (R0 * R0) -> Rabs eta <= 0.000058 -> Rabs mu * R0 <= 20 -> 0.9999 <= u * u + v * v <= 1 -> -1 <= k <= 1 ->
  let b1 := (k * X + mu * eta * (- rho * rho + (t - z) * z)) / W in
  let b2 := (k * Y + mu * eta * (- rho * z - (t - z) * rho)) / W in
  0 < W /\ Rabs (b1 - k) <= 0.003 /\ Rabs b2 <= 0.01.
Proof.
  intros XP YB RP XE YE W0 W2 GE GB EB MB PB KB b1 b2.
  assert (L1 : X * X + Y * Y = W * W * (u * u + v * v)) by (rewrite W2, XE, YE; ring).
  set (p2 := u * u + v * v) in *. clearbody p2.
  assert (WP : 0 < W). { destruct (Req_dec W 0) as [->|]; [|lra]. exfalso. pose proof (sq0 Y). nra. }
  assert (Y2 : Y * Y <= 0.000074 * (X * X)). { unfold Rabs in YB. destruct (Rcase_abs Y); nra. }
  assert (XW : 0.9998 * W <= X <= W). { pose proof (sq0 Y). split; nra. }
  set (G1 := - rho * rho + (t - z) * z) in *. set (G2 := - rho * z - (t - z) * rho) in *.
  assert (L2 : G1 * G1 + G2 * G2 = W * W * g2) by (rewrite W2, GE; unfold G1, G2; ring).
  assert (GB' : forall G, G * G <= W * W * g2 -> Rabs (mu * eta * G) <= 0.0012 * W).
  { intros G GG. rewrite !Rabs_mult. assert (G3 : Rabs G <= 1.001 * R0 * W).
    { apply Rabs_le. assert (G * G <= (1.001 * R0 * W) * (1.001 * R0 * W)).
      { eapply Rle_trans; [exact GG|]. replace (1.001 * R0 * W * (1.001 * R0 * W)) with (W * W * (1.002001 * (R0 * R0))) by lra. apply Rmult_le_compat_l; nra. }
      assert (0 <= 1.001 * R0 * W) by nra. split; nra. }
    pose proof (Rabs_pos mu) as MP. pose proof (Rabs_pos eta) as EP. pose proof (Rabs_pos G) as GP. set (am := Rabs mu) in *. set (ae := Rabs eta) in *. set (ag := Rabs G) in *. clearbody am ae ag.
    apply Rle_trans with (am * ae * (1.001 * R0 * W)); [apply Rmult_le_compat_l; nra|].
    replace (am * ae * (1.001 * R0 * W)) with (1.001 * (am * R0) * ae * W) by ring. apply Rmult_le_compat_r; [lra|].
    assert (0 <= am * R0) by nra. set (q := am * R0) in *. clearbody q. nra. }
  pose proof (GB' G1 ltac:(pose proof (sq0 G2); lra)) as H1. pose proof (GB' G2 ltac:(pose proof (sq0 G1); lra)) as H2.
  split; [exact WP|]. split.
  - unfold b1. replace ((k * X + mu * eta * G1) / W - k) with ((k * (X - W) + mu * eta * G1) * / W) by (field; lra).
    rewrite Rabs_mult, (Rabs_right (/ W)) by (apply Rle_ge, Rlt_le, Rinv_0_lt_compat; lra). apply Rmult_le_reg_r with W; [lra|]. rewrite Rmult_assoc, Rinv_l, Rmult_1_r by lra.
    eapply Rle_trans; [apply Rabs_triang|]. assert (Rabs (k * (X - W)) <= 0.0002 * W). { apply Rabs_le. nra. } lra.
  - unfold b2, Rdiv. rewrite Rabs_mult, (Rabs_right (/ W)) by (apply Rle_ge, Rlt_le, Rinv_0_lt_compat; lra). apply Rmult_le_reg_r with W; [lra|]. rewrite Rmult_assoc, Rinv_l, Rmult_1_r by lra.
    eapply Rle_trans; [apply Rabs_triang|]. assert (Rabs (k * Y) <= 0.0086 * W). { rewrite Rabs_mult. assert (Rabs k <= 1) by (apply Rabs_le; lra). pose proof (Rabs_pos k). pose proof (Rabs_pos Y). nra. } lra.
Qed.
Lemma north_part n h r s c : 0 < s -> 0 < c -> s * s + c * c = 1 -> 0 <= h -> A <= n < 6400 -> B <= r - h <= A ->
  let rho := (n + h) * c in let z := (n * (1 - e2) + h) * s in let k := (- s * rho + c * z) / (r * r) in
  rho * rho + z * z <= 1.001 * (r * r) -> 0.9999 <= (- s - k * rho) * (- s - k * rho) + (c - k * z) * (c - k * z) <= 1.
Proof.
  intros S0 C0 T H NB RB rho z k GB. pose proof A_val as HA. pose proof B_val as HB. pose proof ecc2 as E2. set (e := e2) in *.
  assert (RP : 6356 < r) by lra. set (w := - s * rho + c * z) in *. assert (WE : w = - (e * n * s * c)) by (unfold w, rho, z, e; ring). clearbody e.
  assert (SC : 0 <= s * c <= 0.5). { split; [apply Rmult_le_pos; lra|]. pose proof (sq0 (s - c)). replace ((s - c) * (s - c)) with (s * s + c * c - 2 * (s * c)) in * by ring. lra. }
  assert (EN : 0 <= e * n * s * c <= 21.5). { assert (0 <= e * n <= 43) by nra. set (en := e * n) in *. replace (en * s * c) with (en * (s * c)) by ring. nra. }
  assert (W2 : 0 <= w * w <= 463) by (rewrite WE; nra).
  assert (E : (- s - k * rho) * (- s - k * rho) + (c - k * z) * (c - k * z) = 1 - w * w / (r * r) * (2 - (rho * rho + z * z) / (r * r))).
  { transitivity (s * s + c * c - 2 * k * w + k * k * (rho * rho + z * z)); [unfold w; ring|]. rewrite T. unfold k. field. lra. }
  rewrite E. set (g2 := rho * rho + z * z) in *. assert (G0 : 0 <= g2) by (unfold g2; pose proof (sq0 rho); pose proof (sq0 z); lra). clearbody g2 w.
  assert (Q1 : 0 <= g2 / (r * r) <= 1.001).
  { split; [apply Rmult_le_pos; [lra|apply Rlt_le, Rinv_0_lt_compat; nra]|]. apply Rmult_le_reg_r with (r * r); [nra|]. unfold Rdiv. rewrite Rmult_assoc, Rinv_l by nra. lra. }
  assert (Q2 : 0 <= w * w / (r * r) <= 0.00002).
  { split; [apply Rmult_le_pos; [lra|apply Rlt_le, Rinv_0_lt_compat; nra]|]. apply Rmult_le_reg_r with (r * r); [nra|]. unfold Rdiv. rewrite Rmult_assoc, Rinv_l by nra. nra. }
  set (x := g2 / (r * r)) in *. set (y := w * w / (r * r)) in *. clearbody x y. nra.
Qed.
(** Any direction: [bearing] degrees clockwise from north on the ellipsoid, and up or down by
    a multiple of the position of the location (up to twenty times the horizontal part). *)
Theorem C61_horizon_partial :
  forall n itrs l result, of_size n itrs -> 0 <= height_km l -> itrs_to_azel itrs l = Ok result ->
    0 < sin (lat_rad l) -> 0.0001 <= cos (lat_rad l) ->
    forall i r bearing up, (i < n)%nat -> 0 < r -> Rabs up * radius l <= 20 * r -> 0 <= bearing < 360 ->
      sub (kilometres itrs i) (itrs_of l) =
        plus (plus (times (r * sin (bearing * (PI / 180))) (east (lon_rad l)))
                   (times (r * cos (bearing * (PI / 180))) (north (lat_rad l) (lon_rad l))))
             (times up (itrs_of l)) ->
      exists x, nth i (az_azimuth result) NaN = Fin x /\ Rabs (x - bearing) < 1.
Proof.
  intros n p l res S H E S0 C0 i r a m I RP MB AB DE. rewrite (azel_ok n) in E by auto. injection E as <-. cbn [az_azimuth]. rewrite km_map_nth by auto.
  assert (H' : -6000 <= height_km l) by lra. assert (S1 : sin (lat_rad l) <> 0) by lra. assert (C1 : cos (lat_rad l) <> 0) by lra. assert (C2 : 0 < cos (lat_rad l)) by lra.
  pose proof (plane_bounds (Np (lat_rad l)) (height_km l) (radius l) (sin (lat_rad l)) (cos (lat_rad l)) S0 C0 (sc2 _) H (Np_bounds _) (radius_bounds l) (Np_sq _) (radius_close l)) as PB.
  pose proof (eta_bound (Np (lat_rad l)) (height_km l) (radius l) (sin (lat_rad l)) (cos (lat_rad l)) S0 C2 (sc2 _) H (Np_bounds _) (radius_bounds l) (Np_sq _) (radius_close l)) as EB.
  pose proof (north_part (Np (lat_rad l)) (height_km l) (radius l) (sin (lat_rad l)) (cos (lat_rad l)) S0 C2 (sc2 _) H (Np_bounds _) (radius_bounds l)) as NB.
  cbv zeta in PB, EB, NB. pose proof (radius_pos l H') as R0P. pose proof (n_h l H') as NH. pose proof (n_h' l H') as NH'.
  set (d := sub (kilometres p i) (itrs_of l)) in *. pose proof (azimuth_half l H' S1 C1 (kilometres p i)) as HALF. cbv zeta in HALF. fold d in HALF.
  assert (RHO : 0 < (Np (lat_rad l) + height_km l) * cos (lat_rad l)) by (apply Rmult_lt_0_compat; lra).
  assert (ZP : 0 < (Np (lat_rad l) * (1 - e2) + height_km l) * sin (lat_rad l)) by (apply Rmult_lt_0_compat; lra).
  assert (TAU : 0 < radius l / sin (lat_rad l)) by (apply Rdiv_lt_0_compat; lra).
  pose proof (sc2 (lat_rad l)) as T. pose proof (sc2 (lon_rad l)) as TL.
  set (s := sin (lat_rad l)) in *. set (c := cos (lat_rad l)) in *. set (R0 := radius l) in *.
  set (rho := (Np (lat_rad l) + height_km l) * c) in *. set (z := (Np (lat_rad l) * (1 - e2) + height_km l) * s) in *. set (t := R0 / s) in *.
  assert (G : itrs_of l = flat (lon_rad l) rho z) by reflexivity.
  assert (TG : tangent l = flat (lon_rad l) (- rho) (t - z)). { unfold tangent. fold R0 s t. rewrite G. unfold sub, flat. apply vec_ext; cbn [vx vy vz]; ring. }
  destruct EB as (EB & GB). specialize (NB GB). set (k0 := (- s * rho + c * z) / (R0 * R0)) in *. set (g2 := rho * rho + z * z) in *. set (eta := 1 - g2 / (R0 * R0)) in *.
  set (u := - s - k0 * rho) in *. set (v := c - k0 * z) in *. destruct PB as (XP & YB). set (X := - rho * u + (t - z) * v) in *. set (Y := - rho * v - (t - z) * u) in *.
  set (sa := sin (a * (PI / 180))) in *. set (ca := cos (a * (PI / 180))) in *. pose proof (sc2 (a * (PI / 180))) as TA. fold sa ca in TA.
  assert (DEast : dot d (east (lon_rad l)) = r * sa).
  { rewrite DE, G. unfold dot, plus, times, east, north, flat. cbn [vx vy vz]. fold s. transitivity (r * sa * (sin (lon_rad l) * sin (lon_rad l) + cos (lon_rad l) * cos (lon_rad l))); [ring|]. rewrite TL. ring. }
  assert (IP : in_plane l d = plus (times (r * sa) (east (lon_rad l))) (flat (lon_rad l) (r * ca * u + m * eta * rho) (r * ca * v + m * eta * z))).
  { unfold in_plane. fold R0. assert (DG : dot d (itrs_of l) = r * ca * (- s * rho + c * z) + m * g2).
    { rewrite DE, G. unfold dot, plus, times, east, north, flat. cbn [vx vy vz]. fold s c.
      transitivity ((r * ca * - s * rho + m * rho * rho) * (sin (lon_rad l) * sin (lon_rad l) + cos (lon_rad l) * cos (lon_rad l)) + r * ca * c * z + m * z * z); [ring|]. rewrite TL. unfold g2. ring. }
    rewrite DG, G, DE, G. unfold eta, u, v, k0, plus, sub, times, east, north, flat. fold s c. apply vec_ext; cbn [vx vy vz]; field; lra. }
  (* not above or below the location *)
  assert (NP : forall k, d <> times k (itrs_of l)).
  { intros k F. assert (Z0 : r * sa = 0). { rewrite <- DEast, F. transitivity (k * dot (itrs_of l) (east (lon_rad l))); [unfold dot, times; cbn [vx vy vz]; ring|]. rewrite g_east. ring. }
    assert (SA0 : sa = 0) by (apply Rmult_integral in Z0 as [|]; lra). rewrite F in DE. rewrite SA0, G in DE.
    pose proof (f_equal vx DE) as X1. pose proof (f_equal vy DE) as Y1. pose proof (f_equal vz DE) as Z1. unfold times, plus, east, north, flat in *. cbn [vx vy vz] in *. fold s c in X1, Y1, Z1.
    assert (R1 : k * rho = r * ca * - s + m * rho).
    { transitivity (k * rho * (sin (lon_rad l) * sin (lon_rad l) + cos (lon_rad l) * cos (lon_rad l))); [rewrite TL; ring|].
      transitivity (cos (lon_rad l) * (k * (rho * cos (lon_rad l))) + sin (lon_rad l) * (k * (rho * sin (lon_rad l)))); [ring|]. rewrite X1, Y1.
      transitivity ((r * ca * - s + m * rho) * (sin (lon_rad l) * sin (lon_rad l) + cos (lon_rad l) * cos (lon_rad l))); [ring|]. rewrite TL. ring. }
    assert (Q : r * ca * (s * z + c * rho) = 0). { replace (r * ca * (s * z + c * rho)) with (rho * (r * ca * c) - z * (r * ca * - s)) by ring.
      replace (r * ca * - s) with ((k - m) * rho) by lra. replace (r * ca * c) with ((k - m) * z) by lra. ring. }
    assert (0 < s * z + c * rho) by nra. apply Rmult_integral in Q as [Q|Q]; [|lra]. apply Rmult_integral in Q as [Q|Q]; [lra|]. rewrite SA0, Q in TA. lra. }
  destruct (HALF NP) as (x & XR & D & CASES & _). rewrite DEast in CASES.
  set (W := norm (tangent l)) in *.
  assert (W2 : W * W = rho * rho + (t - z) * (t - z)) by (unfold W; rewrite norm2, TG, flat_dot; ring).
  assert (W0 : 0 <= W) by apply sqrt_pos.
  destruct (plane_parts rho z t ca u v X Y W g2 (m / r) eta R0 XP YB R0P eq_refl eq_refl W0 W2 eq_refl GB EB) as (WP & B1 & B2).
  { unfold Rdiv. rewrite Rabs_mult, (Rabs_right (/ r)) by (apply Rle_ge, Rlt_le, Rinv_0_lt_compat; lra). apply Rmult_le_reg_r with r; [lra|].
    replace (Rabs m * / r * R0 * r) with (Rabs m * R0) by (field; lra). exact MB. }
  { exact NB. } { apply COS_bound. }
  set (b1 := (ca * X + m / r * eta * (- rho * rho + (t - z) * z)) / W) in *. set (b2 := (ca * Y + m / r * eta * (- rho * z - (t - z) * rho)) / W) in *.
  assert (TP : dot (tangent l) (in_plane l d) = r * W * b1).
  { rewrite IP, TG. transitivity (dot (flat (lon_rad l) (- rho) (t - z)) (flat (lon_rad l) (r * ca * u + m * eta * rho) (r * ca * v + m * eta * z)) + r * sa * dot (flat (lon_rad l) (- rho) (t - z)) (east (lon_rad l))); [unfold dot, plus, times; cbn [vx vy vz]; ring|].
    rewrite flat_dot. replace (dot (flat (lon_rad l) (- rho) (t - z)) (east (lon_rad l))) with 0 by (unfold dot, flat, east; cbn [vx vy vz]; ring). unfold b1, X. field. lra. }
  assert (NP2 : norm (in_plane l d) = r * sqrt (sa * sa + b1 * b1 + b2 * b2)).
  { unfold norm. transitivity (sqrt (r * r) * sqrt (sa * sa + b1 * b1 + b2 * b2)); [|now rewrite sqrt_square by lra]. pose proof (sq0 sa). pose proof (sq0 b1). pose proof (sq0 b2). rewrite <- sqrt_mult by nra. f_equal.
    set (U := r * ca * u + m * eta * rho). set (V_ := r * ca * v + m * eta * z).
    assert (PP : dot (in_plane l d) (in_plane l d) = r * sa * (r * sa) + (U * U + V_ * V_)).
    { rewrite IP. fold U V_. transitivity (r * sa * (r * sa) * (sin (lon_rad l) * sin (lon_rad l) + cos (lon_rad l) * cos (lon_rad l)) + dot (flat (lon_rad l) U V_) (flat (lon_rad l) U V_)); [unfold dot, plus, times, east, flat; cbn [vx vy vz]; ring|]. rewrite TL, flat_dot. ring. }
    rewrite PP. assert (BB : r * r * (b1 * b1 + b2 * b2) = U * U + V_ * V_); [|replace (r * r * (sa * sa + b1 * b1 + b2 * b2)) with (r * sa * (r * sa) + r * r * (b1 * b1 + b2 * b2)) by ring; lra].
    assert (E1 : r * b1 = (- rho * U + (t - z) * V_) / W) by (unfold b1, U, V_, X; field; lra).
    assert (E2 : r * b2 = (- rho * V_ - (t - z) * U) / W) by (unfold b2, U, V_, Y; field; lra).
    replace (r * r * (b1 * b1 + b2 * b2)) with ((r * b1) * (r * b1) + (r * b2) * (r * b2)) by ring. rewrite E1, E2.
    replace ((- rho * U + (t - z) * V_) / W * ((- rho * U + (t - z) * V_) / W) + (- rho * V_ - (t - z) * U) / W * ((- rho * V_ - (t - z) * U) / W))
      with ((rho * rho + (t - z) * (t - z)) * (U * U + V_ * V_) / (W * W)) by (field; lra). rewrite <- W2. field. lra. }
  rewrite TP, NP2 in D. assert (CX : b1 = sqrt (sa * sa + b1 * b1 + b2 * b2) * cos (x * (PI / 180))).
  { apply Rmult_eq_reg_l with (r * W); [|nra]. rewrite D. ring. }
  assert (PP : sa * sa + b1 * b1 + b2 * b2 > 0).
  { pose proof (norm_pos _ (in_plane_nz l d NP)) as NN. rewrite NP2 in NN. destruct (Rlt_le_dec 0 (sa * sa + b1 * b1 + b2 * b2)) as [|Q]; [lra|]. rewrite (sqrt_neg_0 _ Q) in NN. lra. }
  assert (TR : 0 < t * rho) by (apply Rmult_lt_0_compat; auto). pose proof PI_RGT_0 as PI0.
  destruct (Rle_lt_dec a 180) as [A1|A1].
  - assert (SA : 0 <= sa). { pose proof (deg_cos a ltac:(lra)). apply sin_ge_0; lra. }
    destruct CASES as [(_ & ->)|(Q & _)]; [|exfalso; assert (0 <= t * rho * (r * sa)) by (apply Rmult_le_pos; nra); lra].
    exists x. split; [reflexivity|]. apply (angle_close a x sa b1 b2); auto. lra.
  - assert (F : sin ((360 - a) * (PI / 180)) = - sa /\ cos ((360 - a) * (PI / 180)) = ca).
    { replace ((360 - a) * (PI / 180)) with (- (a * (PI / 180)) + 2 * PI) by field. rewrite sin_plus, cos_plus, sin_2PI, cos_2PI, sin_neg, cos_neg. fold sa ca. split; ring. }
    assert (SA : sa < 0). { destruct F as (F & _). assert (0 < sin ((360 - a) * (PI / 180))); [|lra]. apply sin_gt_0; nra. }
    destruct CASES as [(Q & _)|(_ & ->)]. { exfalso. assert (0 < t * rho * (r * - sa)); [|lra]. apply Rmult_lt_0_compat; nra. }
    exists (360 - x). split; [reflexivity|]. replace (360 - x - a) with (- (x - (360 - a))) by ring. rewrite Rabs_Ropp.
    replace (sa * sa) with (- sa * - sa) in * by ring. apply (angle_close (360 - a) x (- sa) b1 b2); auto; try lra; destruct F as (F1 & F2); solve [now rewrite F1 | now rewrite F2 | lra].
Qed.
(** A satellite north-east of Saskatoon, about half an Earth radius up. *)
Example C61_horizon_case :
  let l := saskatoon in
  let d := plus (plus (times (sin (45 * (PI / 180))) (east (lon_rad l))) (times (cos (45 * (PI / 180))) (north (lat_rad l) (lon_rad l)))) (times 0.001 (itrs_of l)) in
  of_size 1 (sent l 500 d) /\ (exists res, itrs_to_azel (sent l 500 d) l = Ok res) /\
  0 < sin (lat_rad l) /\ 0.0001 <= cos (lat_rad l) /\ Rabs 0.5 * radius l <= 20 * 500 /\
  sub (kilometres (sent l 500 d) 0) (itrs_of l) =
    plus (plus (times (500 * sin (45 * (PI / 180))) (east (lon_rad l))) (times (500 * cos (45 * (PI / 180))) (north (lat_rad l) (lon_rad l)))) (times 0.5 (itrs_of l)).
Proof.
  cbv zeta. destruct saskatoon_angles as (C & S & HH). set (d := plus (plus _ _) _). repeat split; auto.
  - eexists. apply (azel_ok 1). apply sent_size.
  - pose proof (radius_bounds saskatoon) as RB. pose proof A_val. assert (height_km saskatoon = 0.482) as E by (unfold height_km, to_km; cbn [length_scale loc_height saskatoon]; lra). rewrite E in RB. rewrite Rabs_right by lra. lra.
  - rewrite sent_km. unfold d, plus, times. apply vec_ext; cbn [vx vy vz]; lra.
Qed.
Print Assumptions C61_horizon_partial.
