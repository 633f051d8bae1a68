(** North and south on the horizon: the rest of C61. *)
From Coq Require Import List Reals Arith Bool Lia Lra Psatz.
From Verif Require Import Py PyLemmas Num Time_Model Time_Proofs Rot_Model Rot_Spec Rot_Proofs Geo_Model Geo_Spec Geo_Alt Geo_Alt2 Geo_Acc Geo_Dir Geo_Props Geo_Props3 Geo_Props4 Geo_Props5.
Import ListNotations.
Open Scope R_scope.
Open Scope list_scope.

(** The direction of north on the ellipsoid. *)
Definition north (latitude longitude : R) : vec := V (- sin latitude * cos longitude) (- sin latitude * sin longitude) (cos latitude).

(** Vectors of a meridian plane. *)
Definition flat (lam a b : R) : vec := V (a * cos lam) (a * sin lam) b.
Lemma flat_dot lam a b a' b' : dot (flat lam a b) (flat lam a' b') = a * a' + b * b'.
Proof. unfold dot, flat. cbn [vx vy vz]. transitivity (a * a' * (sin lam * sin lam + cos lam * cos lam) + b * b'); [ring|]. rewrite sc2. ring. Qed.

(** [sqrt_close]: two positive numbers with close squares *)
Lemma sqrt_close x y m d : m <= x -> m <= y -> 0 < m -> Rabs (x * x - y * y) <= d -> Rabs (x - y) <= d / (2 * m).
Proof.
  intros X Y M D. assert (E : Rabs (x * x - y * y) = Rabs (x - y) * (x + y)).
  { replace (x * x - y * y) with ((x - y) * (x + y)) by ring. rewrite Rabs_mult, (Rabs_right (x + y)) by lra. reflexivity. }
  apply Rmult_le_reg_r with (2 * m); [lra|]. replace (d / (2 * m) * (2 * m)) with d by (field; lra).
  pose proof (Rabs_pos (x - y)). nra.
Qed.
Lemma radius_close l : let c := cos (lat_rad l) in
  Rabs (radius l - height_km l - A * A / Np (lat_rad l)) <= 0.1445 * (c * c) + 2 / 10 ^ 12.
Proof.
  intros c. set (s := sin (lat_rad l)). pose proof (sc2 (lat_rad l)) as T. fold s c in T.
  pose proof (Np_sq (lat_rad l)) as NS. pose proof (Np_bounds (lat_rad l)) as NB. fold s in NS. set (n := Np (lat_rad l)) in *. pose proof A_pos. pose proof B_pos. pose proof B_lt_A.
  pose proof (radius_bounds l) as RB. set (r := radius l - height_km l) in *.
  assert (RS : r * r * (A * A * (c * c) + B * B * (s * s)) = A * A * (A * A) * (c * c) + B * B * (B * B) * (s * s)).
  { unfold r, radius. fold c s. set (num := _ + (B ^ 2 * s) ^ 2). set (den := _ + (B * s) ^ 2).
    assert (D : den = A * A * (c * c) + B * B * (s * s)) by (unfold den; ring). assert (0 < den). { rewrite D. pose proof (sq0 c). pose proof (sq0 s). assert (0 < B * B < A * A) by (split; nra). nra. }
    replace (sqrt (num / den) + height_km l - height_km l) with (sqrt (num / den)) by ring. rewrite sqrt_sqrt.
    - rewrite <- D. transitivity num; [field; lra|]. unfold num. ring.
    - apply Rmult_le_pos; [unfold num; nra|apply Rlt_le, Rinv_0_lt_compat; lra]. }
  set (q := A * A / n).
  assert (QS : q * q = A * A * (c * c) + A * A * (1 - e2) * (s * s)).
  { assert (q * q = A * A * (1 - e2 * s ^ 2)).
    { unfold q. replace (A * A / n * (A * A / n)) with (A * A * (A * A) / (n * n)) by (field; lra). rewrite <- NS at 1. field. lra. }
    rewrite H2. replace (c * c) with (1 - s * s) by lra. ring. }
  assert (D0 : 0 <= A * A * (1 - e2) - B * B <= 2 / 10 ^ 8) by (rewrite A_val, B_val, ecc_val; lra).
  clearbody r. assert (CS : 0 <= c * c <= 1 /\ 0 <= s * s <= 1) by (pose proof (sq0 c); pose proof (sq0 s); lra).
  set (den := A * A * (c * c) + B * B * (s * s)) in *.
  assert (DB : B * B <= den). { unfold den. assert (B * B <= A * A) by nra. nra. }
  assert (Q1 : 0 <= q * q - den <= 2 / 10 ^ 8). { rewrite QS. unfold den. destruct CS as (_ & CS). set (w := s * s) in *. clearbody w. set (a2 := A * A) in *. set (b2 := B * B) in *. clearbody a2 b2. set (v := a2 * (1 - e2)) in *. clearbody v. nra. }
  assert (R1 : r * r - den = c * c * (s * s) * ((A * A - B * B) * (A * A - B * B)) / den).
  { apply Rmult_eq_reg_r with den; [|nra]. replace ((r * r - den) * den) with (r * r * den - den * den) by ring. rewrite RS.
    replace (c * c * (s * s) * ((A * A - B * B) * (A * A - B * B)) / den * den) with (c * c * (s * s) * ((A * A - B * B) * (A * A - B * B))) by (field; nra).
    unfold den. replace (s * s) with (1 - c * c) by lra. ring. }
  assert (R2 : 0 <= r * r - den <= 1836 * (c * c)).
  { rewrite R1. assert (NU : 0 <= (A * A - B * B) * (A * A - B * B) <= 1836 * (B * B)) by (rewrite A_val, B_val; lra).
    set (w := (A * A - B * B) * (A * A - B * B)) in *. clearbody w. destruct CS as (CC & SS). set (c2 := c * c) in *. set (s2 := s * s) in *. clearbody c2 s2. clearbody den. clear - NU CC SS DB H0.
    assert (0 < B * B) by nra. set (b2 := B * B) in *. clearbody b2. split.
    - apply Rmult_le_pos; [apply Rmult_le_pos; nra|apply Rlt_le, Rinv_0_lt_compat; lra].
    - apply Rmult_le_reg_r with den; [lra|]. replace (c2 * s2 * w / den * den) with (c2 * s2 * w) by (field; lra).
      assert (c2 * s2 <= c2) by nra. assert (0 <= c2 * s2) by nra. apply Rle_trans with (c2 * w); [nra|]. nra. }
  assert (QB : B <= q). { assert (0 < q). { unfold q. apply Rdiv_lt_0_compat; nra. } nra. }
  eapply Rle_trans; [apply (sqrt_close r q B (1836 * (c * c) + 2 / 10 ^ 8)); try lra|].
  - apply Rabs_le. lra.
  - rewrite B_val. destruct CS as (CC & _). set (c2 := c * c) in *. clearbody c2. lra.
Qed.
(** Small angles. *)
Lemma sin_half : 0.0087 < sin (0.5 * (PI / 180)).
Proof. pose proof PI_low. pose proof PI_high. pose proof (sin_lower7 (0.5 * (PI / 180)) ltac:(lra)) as S. set (x := 0.5 * (PI / 180)) in *. assert (0.00872 < x < 0.00874) by (unfold x; lra). clearbody x. eapply Rlt_le_trans; [|exact S].
  assert (0 <= x ^ 5 / 120) by (assert (0 <= x ^ 5) by (apply pow_le; lra); lra). assert (x ^ 3 <= 0.000001) by (assert (x * x <= 0.0001) by nra; nra).
  assert (x ^ 7 <= 0.000001). { assert (x * x <= 0.0001) by nra. assert (0 <= x * x) by nra. assert (x ^ 4 <= 0.0001) by nra. assert (0 <= x ^ 4) by nra. nra. } lra.
Qed.
Lemma small_angle x X Y W : 0 <= x <= 180 -> 0 < X -> 0 <= W -> W * W = X * X + Y * Y -> Rabs Y <= 0.0086 * X ->
  (X = W * cos (x * (PI / 180)) -> x < 0.5) /\ (- X = W * cos (x * (PI / 180)) -> 179.5 < x).
Proof.
  intros XR XP WP E YB. pose proof PI_low. pose proof PI_high. pose proof sin_half as S. set (C := cos (0.5 * (PI / 180))).
  pose proof (sc2 (0.5 * (PI / 180))) as T. fold C in T. set (S0 := sin (0.5 * (PI / 180))) in *. clearbody S0.
  assert (C0 : 0 < C) by (apply cos_gt_0; lra).
  assert (KEY : X <= W * C -> False).
  { intros L. assert (Y2 : Y * Y <= 0.0086 * X * (0.0086 * X)). { pose proof (Rabs_pos Y). destruct (Rcase_abs Y) as [N|N]; [rewrite Rabs_left in YB by auto|rewrite Rabs_right in YB by auto]; nra. }
    assert (X * X <= W * C * (W * C)) by nra. replace (W * C * (W * C)) with ((W * W) * (C * C)) in * by ring.
    assert (CC : C * C <= 1 - 0.0087 * 0.0087) by nra. assert (0 <= C * C) by nra. rewrite E in *. set (c2 := C * C) in *. clearbody c2. set (x2 := X * X) in *. assert (0 < x2) by (unfold x2; nra).
    set (y2 := Y * Y) in *. assert (0 <= y2) by (unfold y2; nra). assert (y2 <= 0.0086 * 0.0086 * x2) by (unfold x2; lra). clearbody x2 y2. nra. }
  assert (D : 0 <= x * (PI / 180) <= PI) by (apply deg_cos; auto). split; intros F.
  - destruct (Rlt_le_dec x 0.5) as [|G]; auto. exfalso. apply KEY. rewrite F. apply Rmult_le_compat_l; auto. apply cos_decr_1; nra.
  - destruct (Rlt_le_dec 179.5 x) as [|G]; auto. exfalso. apply KEY. replace X with (W * - cos (x * (PI / 180))) by lra. apply Rmult_le_compat_l; auto.
    replace (- cos (x * (PI / 180))) with (cos (PI - x * (PI / 180))). 2:{ rewrite cos_minus, cos_PI, sin_PI. ring. } apply cos_decr_1; nra.
Qed.
(** The plane problem: north seen from a location at sine [s] and cosine [c] of the latitude. *)
Lemma plane_bounds n h r s c : 0 < s -> 0.0001 <= c -> s * s + c * c = 1 -> 0 <= h ->
  A <= n < 6400 -> B <= r - h <= A -> n * n * (1 - e2 * s ^ 2) = A * A -> Rabs (r - h - A * A / n) <= 0.1445 * (c * c) + 2 / 10 ^ 12 ->
  let rho := (n + h) * c in let z := (n * (1 - e2) + h) * s in let t := r / s in
  let k := (- s * rho + c * z) / (r * r) in
  let X := - rho * (- s - k * rho) + (t - z) * (c - k * z) in
  let Y := - rho * (c - k * z) - (t - z) * (- s - k * rho) in
  0 < X /\ Rabs Y <= 0.0086 * X.
Proof.
  intros S0 C0 T H NB RB NS RC rho z t k X Y. pose proof A_val as HA. pose proof B_val as HB. pose proof ecc2 as E2. set (e := e2) in *. clearbody e.
  assert (KE : k = - (e * n * s * c) / (r * r)) by (unfold k, rho, z; f_equal; ring).
  assert (RP : 6356 < r) by lra. assert (C1 : c <= 1) by nra. assert (S1 : s <= 1) by nra.
  assert (YE : Y = (r - h - A * A / n) - e * n * (c * c) * ((n + h) / r)).
  { unfold Y. transitivity (r - (rho * c + z * s) + k * (t * rho)); [unfold t; field; lra|]. rewrite KE. unfold rho, z, t.
    assert (Q : (n + h) * c * c + (n * (1 - e) + h) * s * s = A * A / n + h).
    { transitivity (n * (1 - e * s ^ 2) + h); [|rewrite <- NS; field; lra]. replace (c * c) with (1 - s * s) by lra. replace ((n + h) * c * c) with ((n + h) * (1 - s * s)) by (rewrite <- T; ring). ring. }
    rewrite Q. field. lra. }
  assert (Q1 : 0 <= (n + h) / r <= 1.01).
  { split; [apply Rmult_le_pos; [lra|apply Rlt_le, Rinv_0_lt_compat; lra]|]. apply Rmult_le_reg_r with r; [lra|]. replace ((n + h) / r * r) with (n + h) by (field; lra). lra. }
  assert (XB : 6300 * c <= X).
  { assert (XE : X = e * n * s * c + r * c / s - e * n * s * c * ((rho * rho + z * z) / (r * r)) + e * n * c * (z / r)).
    { unfold X. transitivity ((rho * s - z * c) + t * c + k * (rho * rho + z * z) - k * (t * z)); [ring|]. rewrite KE. unfold t. replace (rho * s - z * c) with (e * n * s * c) by (unfold rho, z; ring). field. lra. }
    rewrite XE. assert (Z0 : 0 <= z / r). { apply Rmult_le_pos; [unfold z; apply Rmult_le_pos; nra|apply Rlt_le, Rinv_0_lt_compat; lra]. }
    assert (G2 : (rho * rho + z * z) / (r * r) <= 1.03).
    { apply Rmult_le_reg_r with (r * r); [nra|]. replace ((rho * rho + z * z) / (r * r) * (r * r)) with (rho * rho + z * z) by (field; lra).
      assert (rho * rho + z * z <= (n + h) * (n + h)).
      { unfold rho, z. assert (0 <= n * (1 - e) + h <= n + h) by nra. replace ((n + h) * (n + h)) with ((n + h) * (n + h) * (c * c) + (n + h) * (n + h) * (s * s)) by (rewrite <- Rmult_plus_distr_l; replace (c * c + s * s) with 1 by lra; ring).
        set (u := n * (1 - e) + h) in *. set (v := n + h) in *. clearbody u v. assert (u * u <= v * v) by nra. assert (0 <= s * s) by nra. replace (v * c * (v * c) + u * s * (u * s)) with (v * v * (c * c) + u * u * (s * s)) by ring. nra. }
      assert ((n + h) <= 1.01 * r) by lra. nra. }
    assert (EN : 0 <= e * n * s * c <= 43.2 * c). { assert (0 <= e * n <= 43) by nra. assert (0 <= s * c <= c) by nra. set (en := e * n) in *. replace (en * s * c) with (en * (s * c)) by ring. nra. }
    assert (RS : r * c <= r * c / s). { apply Rmult_le_reg_r with s; [lra|]. replace (r * c / s * s) with (r * c) by (field; lra). assert (0 < r * c) by nra. nra. }
    assert (LAST : 0 <= e * n * c * (z / r)). { apply Rmult_le_pos; auto. apply Rmult_le_pos; [nra|lra]. }
    set (w := e * n * s * c) in *. set (v := (rho * rho + z * z) / (r * r)) in *. clearbody w v. assert (w * v <= 1.03 * w) by nra. assert (6356 * c <= r * c) by nra. lra. }
  split; [lra|].
  assert (YB : Rabs Y <= 45 * (c * c)).
  { rewrite YE. set (a := r - h - A * A / n) in *. clearbody a. assert (C2 : 1 / 10 ^ 8 <= c * c) by nra.
    assert (W : 0 <= e * n * (c * c) * ((n + h) / r) <= 43.8 * (c * c)).
    { set (q := (n + h) / r) in *. clearbody q. assert (0 <= e * n <= 43) by nra. set (en := e * n) in *. clearbody en. replace (en * (c * c) * q) with ((en * q) * (c * c)) by ring. assert (0 <= en * q <= 43.8) by nra. nra. }
    set (w := e * n * (c * c) * ((n + h) / r)) in *. clearbody w. set (c2 := c * c) in *. clearbody c2. unfold Rabs in *. destruct (Rcase_abs a); destruct (Rcase_abs (a - w)); lra. }
  eapply Rle_trans; [exact YB|]. eapply Rle_trans; [|apply Rmult_le_compat_l; [lra|exact XB]]. nra.
Qed.
Theorem C61_north_partial :
  forall n itrs l result, of_size n itrs -> 0 <= height_km l -> itrs_to_azel itrs l = Ok result ->
    0 < sin (lat_rad l) -> 0.0001 <= cos (lat_rad l) ->
    forall i, (i < n)%nat ->
      let from_ground := sub (kilometres itrs i) (itrs_of l) in
      let northwards := north (lat_rad l) (lon_rad l) in
      (same_direction from_ground northwards -> exists x, nth i (az_azimuth result) NaN = Fin x /\ 0 <= x < 0.5) /\
      (same_direction from_ground (opposite northwards) -> exists x, nth i (az_azimuth result) NaN = Fin x /\ 179.5 < x <= 180).
Proof.
  intros n p l r S H E S0 C0 i I d w. rewrite (azel_ok n) in E by auto. injection E as <-. cbn [az_azimuth]. rewrite km_map_nth by auto.
  assert (H' : -6000 <= height_km l) by lra. assert (S1 : sin (lat_rad l) <> 0) by lra. assert (C1 : cos (lat_rad l) <> 0) by lra.
  pose proof (plane_bounds (Np (lat_rad l)) (height_km l) (radius l) (sin (lat_rad l)) (cos (lat_rad l)) S0 C0 (sc2 _) H (Np_bounds _) (radius_bounds l) (Np_sq _) (radius_close l)) as PB.
  cbv zeta in PB. set (s := sin (lat_rad l)) in *. set (c := cos (lat_rad l)) in *. set (R0 := radius l) in *.
  set (rho := (Np (lat_rad l) + height_km l) * c) in *. set (z := (Np (lat_rad l) * (1 - e2) + height_km l) * s) in *. set (t := R0 / s) in *.
  assert (G : itrs_of l = flat (lon_rad l) rho z) by reflexivity.
  assert (W : w = flat (lon_rad l) (- s) c) by reflexivity.
  assert (TG : tangent l = flat (lon_rad l) (- rho) (t - z)). { unfold tangent. fold R0 s t. rewrite G. unfold sub, flat. apply vec_ext; cbn [vx vy vz]; ring. }
  assert (RP : 0 < R0) by (apply radius_pos; auto).
  assert (IP : forall k, in_plane l (times k w) = flat (lon_rad l) (k * (- s - (- s * rho + c * z) / (R0 * R0) * rho)) (k * (c - (- s * rho + c * z) / (R0 * R0) * z))).
  { intros k. unfold in_plane. fold R0. rewrite G, W. assert (D : dot (times k (flat (lon_rad l) (- s) c)) (flat (lon_rad l) rho z) = k * (- s * rho + c * z)).
    { transitivity (k * dot (flat (lon_rad l) (- s) c) (flat (lon_rad l) rho z)); [unfold dot, times; cbn [vx vy vz]; ring|]. now rewrite flat_dot. }
    rewrite D. unfold sub, times, flat. apply vec_ext; cbn [vx vy vz]; field; lra. }
  set (k0 := (- s * rho + c * z) / (R0 * R0)) in *. set (u := - s - k0 * rho) in *. set (v := c - k0 * z) in *.
  destruct PB as (XP & YB). set (X := - rho * u + (t - z) * v) in *. set (Y := - rho * v - (t - z) * u) in *.
  assert (KEY : forall k, k <> 0 -> d = times k w -> exists x, azimuth l (kilometres p i) = Fin x /\ 0 <= x <= 180 /\
    k * X = Rabs k * (norm (tangent l) * norm (flat (lon_rad l) u v)) * cos (x * (PI / 180))).
  { intros k K F. assert (NP : forall m, d <> times m (itrs_of l)).
    { intros m M. assert (Z : in_plane l d = flat (lon_rad l) (k * u) (k * v)) by (rewrite F; apply IP).
      assert (Z2 : dot (tangent l) (in_plane l d) = k * X) by (rewrite Z, TG, flat_dot; unfold X; ring).
      rewrite F, G, W in M. assert (PX : k * - s = m * rho /\ k * c = m * z).
      { pose proof (f_equal vx M) as X1. pose proof (f_equal vy M) as Y1. pose proof (f_equal vz M) as Z1. unfold times, flat in *. cbn [vx vy vz] in *. split; [|exact Z1].
        transitivity (k * - s * (sin (lon_rad l) * sin (lon_rad l) + cos (lon_rad l) * cos (lon_rad l))); [rewrite sc2; ring|].
        transitivity (m * rho * (sin (lon_rad l) * sin (lon_rad l) + cos (lon_rad l) * cos (lon_rad l))); [|rewrite sc2; ring].
        transitivity (sin (lon_rad l) * (k * (- s * sin (lon_rad l))) + cos (lon_rad l) * (k * (- s * cos (lon_rad l)))); [ring|]. rewrite X1, Y1. ring. }
      destruct PX as (P1 & P2). pose proof (n_h l H'). pose proof (n_h' l H'). assert (0 < rho) by (apply Rmult_lt_0_compat; lra). assert (0 < z) by (apply Rmult_lt_0_compat; lra).
      assert (k * (s * z + c * rho) = 0). { replace (k * (s * z + c * rho)) with (- (k * - s) * z + (k * c) * rho) by ring. rewrite P1, P2. ring. }
      apply Rmult_integral in H4 as [|H4]; [contradiction|]. nra. }
    pose proof (azimuth_half l H' S1 C1 (kilometres p i)) as HALF. cbv zeta in HALF. fold d in HALF. destruct (HALF NP) as (x & XR & D & CASES & _).
    assert (DE : dot d (east (lon_rad l)) = 0). { rewrite F, W. unfold dot, times, flat, east. cbn [vx vy vz]. ring. }
    rewrite DE in CASES. destruct CASES as [(_ & E)|(Q & _)]; [|lra]. exists x. split; [exact E|]. split; [exact XR|].
    rewrite F, IP in D. rewrite TG, flat_dot in D. rewrite <- TG in D.
    assert (NN : norm (flat (lon_rad l) (k * u) (k * v)) = Rabs k * norm (flat (lon_rad l) u v)).
    { unfold norm. rewrite !flat_dot. rewrite <- sqrt_Rsqr_abs, <- sqrt_mult; [f_equal; unfold Rsqr; ring|apply Rle_0_sqr|nra]. }
    rewrite NN in D. unfold X. replace (k * (- rho * u + (t - z) * v)) with (- rho * (k * u) + (t - z) * (k * v)) by ring. rewrite D. ring. }
  set (ww := norm (tangent l) * norm (flat (lon_rad l) u v)) in *.
  assert (W0 : 0 <= ww) by (apply Rmult_le_pos; apply sqrt_pos).
  assert (W2 : ww * ww = X * X + Y * Y).
  { unfold ww. replace (norm (tangent l) * norm (flat (lon_rad l) u v) * (norm (tangent l) * norm (flat (lon_rad l) u v))) with
      ((norm (tangent l) * norm (tangent l)) * (norm (flat (lon_rad l) u v) * norm (flat (lon_rad l) u v))) by ring. rewrite !norm2, TG, !flat_dot. unfold X, Y. ring. }
  split; intros (k & K & F).
  - destruct (KEY k ltac:(lra) F) as (x & E & XR & Q). exists x. split; [exact E|]. split; [lra|]. apply (small_angle x X Y ww); auto.
    rewrite Rabs_right in Q by lra. apply Rmult_eq_reg_l with k; lra.
  - assert (F' : d = times (- k) w) by (rewrite F; unfold opposite, times; apply vec_ext; cbn [vx vy vz]; ring).
    destruct (KEY (- k) ltac:(lra) F') as (x & E & XR & Q). exists x. split; [exact E|]. split; [|lra]. apply (small_angle x X Y ww); auto.
    rewrite Rabs_left in Q by lra. apply Rmult_eq_reg_l with k; lra.
Qed.

Print Assumptions C61_north_partial.
