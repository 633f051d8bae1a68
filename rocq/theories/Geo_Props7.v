(** Theorem on the conversion to WGS84 and back: C58. *)
From Coq Require Import List Reals Arith Bool Lia Lra Psatz.
From Verif Require Import Py PyLemmas Num Time_Model Time_Proofs Rot_Model Rot_Spec Rot_Proofs Geo_Model Geo_Spec Geo_Alt Geo_Alt2 Geo_Acc Geo_Dir Geo_Props Geo_Props2 Geo_Props3 Geo_Props4.
Import ListNotations.
Open Scope R_scope.
Open Scope list_scope.

Lemma atan2_polar r a : 0 < r -> - PI < a <= PI -> atan2 (r * sin a) (r * cos a) = a.
Proof.
  intros R AB. pose proof PI_RGT_0 as P. unfold atan2.
  assert (Q : forall b, cos b <> 0 -> (r * sin b) / (r * cos b) = tan b) by (intros; unfold tan; field; split; lra).
  destruct (Rlt_dec 0 (r * cos a)) as [C|C].
  - assert (0 < cos a) by nra. rewrite Q by lra. apply atan_tan.
    destruct (Rlt_le_dec (- (PI / 2)) a) as [L|L].
    + destruct (Rlt_le_dec a (PI / 2)) as [U|U]; [lra|]. exfalso. pose proof (cos_le_0 a ltac:(lra) ltac:(lra)). lra.
    + exfalso. pose proof (cos_le_0 (- a) ltac:(lra) ltac:(lra)) as D. rewrite cos_neg in D. lra.
  - assert (C' : cos a <= 0) by nra. destruct (Rlt_dec (r * cos a) 0) as [C2|C2].
    + assert (cos a < 0) by nra. rewrite Q by lra.
      assert (SHIFT : forall b, tan (b + PI) = tan b) by (intros b; unfold tan; rewrite neg_sin, neg_cos; unfold Rdiv; rewrite Rinv_opp; ring).
      destruct (Rlt_dec (r * sin a) 0) as [S|S].
      * assert (sin a < 0) by nra. assert (A0 : a < - (PI / 2)).
        { destruct (Rlt_le_dec a (- (PI / 2))) as [|L]; auto. exfalso. destruct (Rlt_le_dec (PI / 2) a) as [L2|L2].
          - assert (0 <= sin a) by (apply sin_ge_0; lra). lra.
          - pose proof (cos_ge_0 a L L2). lra. }
        assert (E : atan (tan a) = a + PI). { rewrite <- (atan_tan (a + PI)) by lra. f_equal. symmetry. apply SHIFT. }
        rewrite E. ring.
      * assert (0 <= sin a) by nra. assert (A0 : PI / 2 < a).
        { destruct (Rlt_le_dec (PI / 2) a) as [|L]; auto. exfalso. destruct (Rlt_le_dec a (- (PI / 2))) as [L2|L2].
          - assert (0 < sin (- a)) by (apply sin_gt_0; lra). rewrite sin_neg in *. lra.
          - pose proof (cos_ge_0 a L2 L). lra. }
        assert (E : atan (tan a) = a - PI). { rewrite <- (atan_tan (a - PI)) by lra. f_equal. rewrite <- (SHIFT (a - PI)). f_equal. ring. }
        rewrite E. ring.
    + assert (C0 : cos a = 0) by nra.
      assert (S1 : sin a * sin a = 1) by (pose proof (sc2 a) as T; rewrite C0 in T; lra).
      destruct (Rlt_dec 0 (r * sin a)) as [S|S].
      * assert (0 < sin a) by nra. assert (0 < a). { destruct (Rlt_le_dec 0 a) as [|L]; auto. exfalso. pose proof (sin_ge_0 (- a) ltac:(lra) ltac:(lra)) as D. rewrite sin_neg in D. lra. }
        symmetry. apply cos_inj; try lra. now rewrite cos_PI2.
      * destruct (Rlt_dec (r * sin a) 0) as [S2|S2]; [|exfalso; assert (sin a = 0) by nra; nra].
        assert (sin a < 0) by nra. assert (a < 0). { destruct (Rlt_le_dec a 0) as [|L]; auto. exfalso. pose proof (sin_ge_0 a ltac:(lra) ltac:(lra)). lra. }
        assert (- a = PI / 2); [|lra]. apply cos_inj; try lra. now rewrite cos_neg, cos_PI2.
Qed.

(** The point given to a latitude, longitude and height. *)
Section point.
Variables phi lam h : R.
Hypothesis Phi : - (PI / 2) < phi < PI / 2.
Hypothesis Lam : - PI < lam <= PI.
Hypothesis H : 0 <= h.
Let v := wgs84_point phi lam h.
Let rho := (Np phi + h) * cos phi.
Lemma cos_phi : 0 < cos phi. Proof. apply cos_gt_0; lra. Qed.
Lemma rho_pos : 0 < rho.
Proof. unfold rho. pose proof (Np_bounds phi). pose proof A_pos. pose proof cos_phi. apply Rmult_lt_0_compat; lra. Qed.
Lemma v_axis : axis_distance v = rho.
Proof.
  unfold axis_distance, v, wgs84_point. cbn [vx vy]. change (A / sqrt (1 - e2 * sin phi ^ 2)) with (Np phi). fold rho.
  replace ((rho * cos lam) ^ 2 + (rho * sin lam) ^ 2) with (rho * rho * (sin lam * sin lam + cos lam * cos lam)) by ring. rewrite sc2, Rmult_1_r. apply sqrt_square. apply Rlt_le, rho_pos.
Qed.
Lemma v_z : vz v = (Np phi * (1 - e2) + h) * sin phi. Proof. reflexivity. Qed.
Lemma v_outside : outside v.
Proof.
  pose proof rho_pos as RP. split.
  - destruct (Req_dec (vx v) 0) as [X|]; [right|now left]. intros Y. pose proof (axis2 v) as E. rewrite v_axis, X, Y in E. nra.
  - rewrite wb. apply Rsqr_incr_0_var; [|apply sqrt_pos]. unfold Rsqr. rewrite norm2. unfold dot. pose proof (axis2 v) as E. rewrite v_axis in E.
    replace (vx v * vx v + vy v * vy v + vz v * vz v) with (vx v ^ 2 + vy v ^ 2 + vz v * vz v) by ring. rewrite <- E, v_z. unfold rho.
    pose proof (Np_sq phi) as NS. pose proof (Np_bounds phi) as NB. pose proof (sc2 phi) as T. pose proof cos_phi as C. set (n := Np phi) in *. set (c := cos phi) in *. set (s := sin phi) in *. clearbody n c s.
    assert (D0 : B * B <= A * A * (1 - e2)) by (rewrite A_val, B_val, ecc_val; lra). pose proof ecc2 as E2. set (e := e2) in *. clearbody e. pose proof A_pos.
    (* without the height the point is on the ellipsoid *)
    assert (L : B * B <= n * c * (n * c) + n * (1 - e) * s * (n * (1 - e) * s)).
    { replace (n * c * (n * c) + n * (1 - e) * s * (n * (1 - e) * s)) with (n * n * ((1 - s * s) + (1 - e) * (1 - e) * (s * s))) by (replace (1 - s * s) with (c * c) by lra; ring).
      assert (N2 : n * n * (1 - e * (s * s)) = A * A) by (rewrite <- NS; ring).
      assert (S2 : 0 <= s * s <= 1) by nra. set (w := s * s) in *. clearbody w. set (n2 := n * n) in *. assert (0 < n2) by (unfold n2; nra). clearbody n2.
      apply Rle_trans with (A * A * (1 - e)); auto. rewrite <- N2.
      assert (0 <= n2 * (e * (1 - w))) by (apply Rmult_le_pos; nra). replace (n2 * (1 - w + (1 - e) * (1 - e) * w)) with (n2 * (1 - e * w) * (1 - e) + n2 * (e * (1 - w))) by ring. lra. }
    assert (n * c <= (n + h) * c) by nra. assert (0 <= n * c) by nra.
    assert ((n * (1 - e) * s) * (n * (1 - e) * s) <= ((n * (1 - e) + h) * s) * ((n * (1 - e) + h) * s)).
    { replace (n * (1 - e) * s * (n * (1 - e) * s)) with ((n * (1 - e)) * (n * (1 - e)) * (s * s)) by ring.
      replace ((n * (1 - e) + h) * s * ((n * (1 - e) + h) * s)) with ((n * (1 - e) + h) * (n * (1 - e) + h) * (s * s)) by ring.
      assert (0 <= n * (1 - e)) by nra. apply Rmult_le_compat_r; nra. }
    nra.
Qed.
Lemma v_longitude : wgs84_longitude v = Fin lam.
Proof. unfold wgs84_longitude. f_equal. apply (atan2_polar rho); auto. apply rho_pos. Qed.
Definition ratio : R := (Np phi * (1 - e2) + h) / (Np phi + h).
Lemma ratio_bounds : 0.9933 <= ratio < 1.
Proof.
  unfold ratio. pose proof (Np_bounds phi). pose proof A_pos. pose proof ecc2. split.
  - apply Rmult_le_reg_r with (Np phi + h); [lra|]. unfold Rdiv. rewrite Rmult_assoc, Rinv_l by lra. nra.
  - apply Rmult_lt_reg_r with (Np phi + h); [lra|]. unfold Rdiv. rewrite Rmult_assoc, Rinv_l by lra. nra.
Qed.
Lemma v_latitude : wgs84_latitude v = Fin (atan (ratio * tan phi)).
Proof.
  pose proof rho_pos as RP. unfold wgs84_latitude. rewrite v_axis, div_fin by lra. cbn [n_arctan]. do 2 f_equal. rewrite v_z. unfold rho, ratio, tan.
  pose proof (Np_bounds phi). pose proof A_pos. pose proof cos_phi. field. lra.
Qed.
End point.
Lemma atan_shrink k x : 0.9933 <= k < 1 -> 0 < x -> 0 < atan (k * x) < atan x /\ atan x - atan (k * x) < 0.0034.
Proof.
  intros K X. assert (KX : 0 < k * x < x) by nra. split; [split|].
  - rewrite <- atan_0. apply atan_increasing. lra.
  - apply atan_increasing. lra.
  - destruct (MVT_cor2 atan (fun x => / (1 + x ^ 2)) (k * x) x (proj2 KX)) as (c & -> & C). { intros. apply derivable_pt_lim_atan. }
    assert (P : 0 < 1 + c ^ 2) by nra. apply Rmult_lt_reg_l with (1 + c ^ 2); auto. rewrite <- Rmult_assoc, Rinv_r, Rmult_1_l by lra.
    set (y := k * x) in *. assert (K1 : 0.9933 * x <= y) by (unfold y; apply Rmult_le_compat_r; lra). clearbody y.
    assert (Y2 : y * y <= c ^ 2) by nra. assert (Y3 : 2 * y <= 1 + c ^ 2) by (pose proof (sq0 (y - 1)); nra). lra.
Qed.

Lemma point_combine (f : R * R -> R -> vec) lats lons hs n : length lats = n -> length lons = n -> length hs = n ->
  forall i, (i < n)%nat -> nth i (map2 f (combine lats lons) hs) zero = f (nth i lats 0, nth i lons 0) (nth i hs 0).
Proof.
  intros L1 L2 L3 i I. unfold map2. rewrite (nth_indep _ zero (f (0, 0) 0)).
  2:{ rewrite map_length, !combine_length. lia. }
  change (f (0, 0) 0) with ((fun p => f (fst p) (snd p)) ((0, 0), 0)). rewrite map_nth, combine_nth by (rewrite combine_length; lia). rewrite combine_nth by lia. reflexivity.
Qed.
Lemma itrs_km t lats lons hs ang len n : length t = n -> length lats = n -> length lons = n -> length hs = n ->
  of_size n (wgs84_to_itrs t lats lons hs ang len) /\
  forall i, (i < n)%nat -> kilometres (wgs84_to_itrs t lats lons hs ang len) i =
    wgs84_point (to_rad ang (nth i lats 0)) (to_rad ang (nth i lons 0)) (to_km len (nth i hs 0)).
Proof.
  intros L0 L1 L2 L3. set (l := map2 (fun a b => wgs84_point (to_rad ang (fst a)) (to_rad ang (snd a)) (to_km len b)) (combine lats lons) hs).
  assert (LL : length l = n) by (unfold l, map2; rewrite map_length, !combine_length; lia).
  assert (E : wgs84_to_itrs t lats lons hs ang len = in_km t l) by reflexivity. rewrite E. split; [rewrite <- LL; apply in_km_size; lia|].
  intros i I. transitivity (nth i l zero); [|unfold l; now rewrite (point_combine _ _ _ _ n)].
  unfold kilometres, point, in_km, times. cbn [p_unit p_x p_y p_z].
  assert (P : forall f, f zero = 0 -> nth i (map f l) 0 = f (nth i l zero)) by (intros f <-; apply map_nth).
  rewrite !P by reflexivity. apply vec_ext; cbn [vx vy vz]; field.
Qed.
(** Inputs of a round trip: [n] latitudes, longitudes and heights, the units given by their
    scales, not at a pole and not below the ellipsoid. *)
Record trip (n : nat) (t lats lons hs : list R) (ang len : R) : Prop := {
  trip_t : length t = n; trip_lat : length lats = n; trip_lon : length lons = n; trip_h : length hs = n;
  trip_phi : forall i, (i < n)%nat -> - (PI / 2) < to_rad ang (nth i lats 0) < PI / 2;
  trip_lam : forall i, (i < n)%nat -> - PI < to_rad ang (nth i lons 0) <= PI;
  trip_above : forall i, (i < n)%nat -> 0 <= to_km len (nth i hs 0) }.
Lemma trip_result n t lats lons hs ang len result : trip n t lats lons hs ang len -> itrs_to_wgs84 (wgs84_to_itrs t lats lons hs ang len) result ->
  w_time result = t /\ forall i, (i < n)%nat ->
    nth i (w_longitude result) NaN = Fin (to_rad ang (nth i lons 0)) /\
    nth i (w_latitude result) NaN = Fin (atan (ratio (to_rad ang (nth i lats 0)) (to_km len (nth i hs 0)) * tan (to_rad ang (nth i lats 0)))).
Proof.
  intros [] (points & heights & E & _ & ->). destruct (itrs_km t lats lons hs ang len n) as (S & K); auto. rewrite (km_points_ok n) in E by auto. injection E as <-.
  cbn [w_time w_longitude w_latitude]. split; [reflexivity|]. intros i I. rewrite !km_map_nth, K by auto. split; [apply v_longitude; auto|apply v_latitude; auto].
Qed.
(** The longitude comes back exactly; the latitude is too close to the equator, by less than
    0.0034 radians (0.2 degrees), and right only on the equator. *)
Theorem C58_round_trip_partial :
  forall n t lats lons hs ang len, trip n t lats lons hs ang len ->
    exists result, itrs_to_wgs84 (wgs84_to_itrs t lats lons hs ang len) result /\ w_time result = t /\
      forall i, (i < n)%nat ->
        let latitude := to_rad ang (nth i lats 0) in
        nth i (w_longitude result) NaN = Fin (to_rad ang (nth i lons 0)) /\
        (exists h, nth i (w_height result) NaN = Fin h) /\
        exists x, nth i (w_latitude result) NaN = Fin x /\ Rabs (x - latitude) < 0.0034 /\ (latitude = 0 -> x = 0).
Proof.
  intros n t lats lons hs ang len T. pose proof T as T0. destruct T. destruct (itrs_km t lats lons hs ang len n) as (S & K); auto.
  destruct (C88_altitude_ends n (wgs84_to_itrs t lats lons hs ang len) S) as (heights & R & L & F & _).
  { intros i I. rewrite K by auto. apply v_outside; auto. }
  eexists. assert (W : itrs_to_wgs84 (wgs84_to_itrs t lats lons hs ang len) (Wgs84 t (map wgs84_latitude (km_list n (wgs84_to_itrs t lats lons hs ang len))) (map wgs84_longitude (km_list n (wgs84_to_itrs t lats lons hs ang len))) heights)).
  { exists (km_list n (wgs84_to_itrs t lats lons hs ang len)), heights. split; [now apply km_points_ok|]. split; [exact R|reflexivity]. }
  split; [exact W|]. destruct (trip_result _ _ _ _ _ _ _ _ T0 W) as (_ & Q). split; [reflexivity|]. intros i I phi. destruct (Q i I) as (Q1 & Q2). split; [exact Q1|]. split; [now apply F|].
  eexists. split; [exact Q2|]. fold phi. set (k := ratio _ _). assert (KB : 0.9933 <= k < 1) by (apply ratio_bounds; auto). pose proof (trip_phi0 i I) as PB. fold phi in PB.
  assert (AT : atan (tan phi) = phi) by (apply atan_tan; auto).
  destruct (Rtotal_order phi 0) as [N|[Z|P]].
  - assert (TN : 0 < - tan phi) by (assert (tan phi < 0) by (apply tan_lt_0; lra); lra).
    destruct (atan_shrink k (- tan phi) KB TN) as ((A1 & A2) & A3). replace (k * - tan phi) with (- (k * tan phi)) in * by ring. rewrite !atan_opp, AT in *.
    split; [rewrite Rabs_right by lra; lra|lra].
  - rewrite Z, tan_0, Rmult_0_r, atan_0, Rminus_0_r, Rabs_R0. split; [lra|reflexivity].
  - assert (TN : 0 < tan phi) by (apply tan_gt_0; lra). destruct (atan_shrink k (tan phi) KB TN) as ((A1 & A2) & A3). rewrite AT in *.
    split; [rewrite Rabs_left by lra; lra|lra].
Qed.
Theorem C58_latitude_refuted :
  forall n t lats lons hs ang len result, trip n t lats lons hs ang len -> itrs_to_wgs84 (wgs84_to_itrs t lats lons hs ang len) result ->
    forall i, (i < n)%nat ->
      let latitude := to_rad ang (nth i lats 0) in
      exists x, nth i (w_latitude result) NaN = Fin x /\ (0 < latitude -> 0 < x < latitude) /\ (latitude < 0 -> latitude < x < 0).
Proof.
  intros n t lats lons hs ang len result T W i I phi. destruct (trip_result _ _ _ _ _ _ _ _ T W) as (_ & Q). destruct (Q i I) as (_ & Q2). eexists. split; [exact Q2|]. fold phi. set (k := ratio _ _).
  destruct T. assert (KB : 0.9933 <= k < 1) by (apply ratio_bounds; auto). pose proof (trip_phi0 i I) as PB. fold phi in PB. assert (AT : atan (tan phi) = phi) by (apply atan_tan; auto). split; intros P.
  - assert (TN : 0 < tan phi) by (apply tan_gt_0; lra). destruct (atan_shrink k (tan phi) KB TN) as ((A1 & A2) & A3). rewrite AT in *. lra.
  - assert (TN : 0 < - tan phi) by (assert (tan phi < 0) by (apply tan_lt_0; lra); lra).
    destruct (atan_shrink k (- tan phi) KB TN) as ((A1 & A2) & A3). replace (k * - tan phi) with (- (k * tan phi)) in * by ring. rewrite !atan_opp, AT in *. lra.
Qed.
(** On the equator the height is wrong instead. *)
Lemma equator_point lam h : above (V (A * cos lam) (A * sin lam) 0) h (wgs84_point 0 lam h).
Proof.
  pose proof A_pos. pose proof (sc2 lam) as T.
  assert (N0 : Np 0 = A). { unfold Np, radius_of_curvature_in_prime_vertical. rewrite sin_0. replace (1 - e2 * 0 ^ 2) with 1 by ring. rewrite sqrt_1. field. }
  split.
  - unfold on_ellipsoid. cbn [vx vy vz]. rewrite wa. transitivity ((sin lam * sin lam + cos lam * cos lam)); [|exact T]. pose proof B_pos as HB. rewrite wb. field. lra.
  - assert (G : norm (gradient (V (A * cos lam) (A * sin lam) 0)) = / A).
    { unfold norm, gradient, dot. cbn [vx vy vz]. rewrite wa, wb. pose proof B_pos as HB.
      replace (A * cos lam / A ^ 2 * (A * cos lam / A ^ 2) + A * sin lam / A ^ 2 * (A * sin lam / A ^ 2) + 0 / B ^ 2 * (0 / B ^ 2)) with (/ A * / A * (sin lam * sin lam + cos lam * cos lam)) by (field; lra).
      rewrite T, Rmult_1_r. apply sqrt_square. apply Rlt_le, Rinv_0_lt_compat. lra. }
    rewrite G. unfold wgs84_point. change (A / sqrt (1 - e2 * sin 0 ^ 2)) with (Np 0). rewrite N0, sin_0, cos_0. unfold plus, times, gradient. cbn [vx vy vz]. rewrite wa, wb. pose proof B_pos as HB.
    apply vec_ext; cbn [vx vy vz]; field; lra.
Qed.
Theorem C58_height_refuted :
  forall n t lats lons hs ang len result, trip n t lats lons hs ang len -> itrs_to_wgs84 (wgs84_to_itrs t lats lons hs ang len) result ->
    (forall i, (i < n)%nat -> to_rad ang (nth i lats 0) = 0) ->
    forall i, (i < n)%nat -> exists x, nth i (w_height result) NaN = Fin x /\ 10.7 < x - to_km len (nth i hs 0).
Proof.
  intros n t lats lons hs ang len result T W Z i I. destruct T. destruct (itrs_km t lats lons hs ang len n) as (S & K); auto.
  destruct W as (points & heights & E & R & ->). cbn [w_height].
  apply (C59_altitude_refuted n (wgs84_to_itrs t lats lons hs ang len) (fun i => V (A * cos (to_rad ang (nth i lons 0))) (A * sin (to_rad ang (nth i lons 0))) 0) (fun i => to_km len (nth i hs 0))); auto; [lia|].
  intros k Kn. split; [|split; [auto|]]; rewrite K by auto.
  - rewrite (Z k Kn). apply equator_point.
  - apply (v_outside (to_rad ang (nth k lats 0)) (to_rad ang (nth k lons 0)) (to_km len (nth k hs 0))); auto.
Qed.

(** ** Cases *)
(** Saskatoon and Cordoba; a satellite 500 km to the east of each, seen horizontally. *)
Definition saskatoon : location := Location 52.1579 (-106.6702) 482 1 1.
Definition cordoba : location := Location (-31.4) (-64.2) 390 1 1.
Definition quito : location := Location 0 (-78.4) 2850 1 1.
Definition sent (l : location) (k : R) (d : vec) : position R := in_km [2460462.5] [plus (itrs_of l) (times k d)].
Lemma sent_size l k d : of_size 1 (sent l k d). Proof. repeat split; reflexivity. Qed.
Lemma sent_km l k d : sub (kilometres (sent l k d) 0) (itrs_of l) = times k d.
Proof. unfold sent, in_km, kilometres, point, sub, plus, times. cbn [map nth p_unit p_x p_y p_z vx vy vz]. apply vec_ext; cbn [vx vy vz]; field. Qed.
Lemma saskatoon_angles : 0.0001 <= cos (lat_rad saskatoon) /\ 0 < sin (lat_rad saskatoon) /\ 0 <= height_km saskatoon.
Proof.
  pose proof PI_low. pose proof PI_high. assert (L : 0.9 < lat_rad saskatoon < 0.92) by (unfold lat_rad, to_rad, deg_per_rad; cbn [angular_scale loc_latitude saskatoon]; lra).
  repeat split.
  - rewrite <- sin_shift. assert (PI / 2 - lat_rad saskatoon > 0.5) by lra. apply Rle_trans with (sin 0.5).
    + pose proof (sin_lower7 0.5 ltac:(lra)). lra.
    + apply sin_incr_1; lra.
  - apply sin_gt_0; lra.
  - unfold height_km, to_km. cbn [length_scale loc_height saskatoon]. lra.
Qed.
Lemma cordoba_angles : 0 < cos (lat_rad cordoba) /\ sin (lat_rad cordoba) < 0 /\ 0 <= height_km cordoba.
Proof.
  pose proof PI_low. pose proof PI_high. assert (L : -0.6 < lat_rad cordoba < -0.5) by (unfold lat_rad, to_rad, deg_per_rad; cbn [angular_scale loc_latitude cordoba]; lra).
  repeat split.
  - apply cos_gt_0; lra.
  - apply sin_lt_0_var; lra.
  - unfold height_km, to_km. cbn [length_scale loc_height cordoba]. lra.
Qed.
Example C60_case : let d := east (lon_rad saskatoon) in
  of_size 1 (sent saskatoon 500 d) /\ -6000 <= height_km saskatoon /\ sin (lat_rad saskatoon) <> 0 /\ cos (lat_rad saskatoon) <> 0 /\
  sub (kilometres (sent saskatoon 500 d) 0) (itrs_of saskatoon) <> zero /\
  forall k, sub (kilometres (sent saskatoon 500 d) 0) (itrs_of saskatoon) <> times k (itrs_of saskatoon).
Proof.
  intros d. destruct saskatoon_angles as (C & S & H). rewrite sent_km. pose proof (sc2 (lon_rad saskatoon)) as T.
  assert (D : dot (times 500 d) d = 500). { unfold dot, times, d, east. cbn [vx vy vz]. transitivity (500 * (sin (lon_rad saskatoon) * sin (lon_rad saskatoon) + cos (lon_rad saskatoon) * cos (lon_rad saskatoon))); [ring|]. rewrite T. ring. }
  split; [apply sent_size|]. split; [lra|]. split; [lra|]. split; [lra|]. split.
  - intros E. rewrite E in D. unfold dot, zero in D. cbn [vx vy vz] in D. lra.
  - intros k E. rewrite E in D. pose proof (g_east saskatoon) as G.
    assert (dot (times k (itrs_of saskatoon)) d = k * dot (itrs_of saskatoon) d) by (unfold dot, times; cbn [vx vy vz]; ring). unfold d in *. rewrite G in H0. lra.
Qed.
Example C61_case :
  same_direction (sub (kilometres (sent saskatoon 500 (east (lon_rad saskatoon))) 0) (itrs_of saskatoon)) (east (lon_rad saskatoon)) /\
  sin (lat_rad cordoba) < 0 /\ 0 < cos (lat_rad cordoba) /\
  same_direction (sub (kilometres (sent cordoba 500 (east (lon_rad cordoba))) 0) (itrs_of cordoba)) (east (lon_rad cordoba)).
Proof. destruct cordoba_angles as (C & S & _). split; [|split; [|split]]; auto; exists 500; (split; [lra|apply sent_km]). Qed.
Example C89_case : sin (lat_rad quito) = 0 /\ -6000 <= height_km quito.
Proof. unfold lat_rad, to_rad, height_km, to_km. cbn [angular_scale loc_latitude loc_height length_scale quito]. rewrite Rmult_0_l, sin_0. lra. Qed.
Example C58_case : trip 2 [2460462.5; 2460463.5] [52.1579; 0] [-106.6702; 45] [482; 500000] 1 1.
Proof.
  pose proof PI_low. pose proof PI_high. constructor; try reflexivity; intros [|[|i]] I; try lia; cbn [nth]; unfold to_rad, to_km, deg_per_rad; lra.
Qed.

Print Assumptions C58_round_trip_partial.
Print Assumptions C58_latitude_refuted.
Print Assumptions C58_height_refuted.
