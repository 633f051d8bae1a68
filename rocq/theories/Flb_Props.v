(** Theorems on radii and azimuths in floating point: C160 to C162. *)
From Coq Require Import List ZArith Reals Lra Lia Psatz.
From Flocq Require Import Core.Core IEEE754.BinarySingleNaN IEEE754.Binary IEEE754.Bits.
From Verif Require Import Py Num Fl_Model Fl_Spec Fl_Proofs Flg_Model Flg_Spec Rot_Model Rot_Spec Time_Proofs Geo_Model Geo_Spec Lvlh_Spec Lvlh_Proofs Geo_Alt Geo_Acc Geo_Props3 Geo_Props4 Geo_Props6 Geo_Props8 Flg_Proofs Flg_Num Flg_Proofs2 Flg_Proofs3 Flg_Proofs5 Flg_Proofs6 Flg_Proofs7 Flg_Best Flg_Cases Flr_Model Flr_Spec Flr_Best Flv_Model Flv_Proofs Fly_Model Flb_Model Fln_Spec Fln_Proofs4 Flb_Spec Flb_Proofs Flb_Proofs2 Flb_Proofs3.
Import ListNotations.
Open Scope R_scope.
#[local] Strategy 1000 [fmul fadd fsub fdiv fneg of_Z].

(** ** C160: the radius of a location *)
Lemma foot_norm lat lon foot : foot_at lat lon foot ->
  norm foot = sqrt (((A ^ 2 * cos lat) ^ 2 + (B ^ 2 * sin lat) ^ 2) / ((A * cos lat) ^ 2 + (B * sin lat) ^ 2)).
Proof.
  intros (O & k & K & E). unfold on_ellipsoid, gradient, times, up in *. rewrite wa, wb in *. pose proof A_pos as HA. pose proof B_pos as HB.
  pose proof (f_equal vx E) as X. pose proof (f_equal vy E) as Y. pose proof (f_equal vz E) as Z. cbn [vx vy vz Fln_Spec.up] in X, Y, Z. clear E.
  assert (X' : vx foot = A ^ 2 * (k * (cos lat * cos lon))) by (rewrite <- X; field; lra). assert (Y' : vy foot = A ^ 2 * (k * (cos lat * sin lon))) by (rewrite <- Y; field; lra). assert (Z' : vz foot = B ^ 2 * (k * sin lat)) by (rewrite <- Z; field; lra).
  clear X Y Z. pose proof (sc2 lon) as T. pose proof (sc2 lat) as T'. set (c := cos lat) in *. set (s := sin lat) in *. set (c' := cos lon) in *. set (s' := sin lon) in *.
  assert (XY : vx foot ^ 2 + vy foot ^ 2 = A ^ 4 * (k * k * (c * c))). { rewrite X', Y'. transitivity (A ^ 4 * (k * k * (c * c)) * (s' * s' + c' * c')); [ring|]. rewrite T. ring. }
  assert (O' : k * k * ((A * c) ^ 2 + (B * s) ^ 2) = 1). { rewrite XY, Z' in O. rewrite <- O. field. lra. }
  assert (Q : (A * c) ^ 2 + (B * s) ^ 2 <> 0) by (intros Q; rewrite Q in O'; lra).
  unfold norm. f_equal. transitivity (vx foot ^ 2 + vy foot ^ 2 + vz foot ^ 2); [unfold dot; ring|]. rewrite XY, Z'.
  transitivity (k * k * ((A ^ 2 * c) ^ 2 + (B ^ 2 * s) ^ 2)); [ring|]. replace (k * k) with (/ ((A * c) ^ 2 + (B * s) ^ 2)); [field; exact Q|]. apply Rmult_eq_reg_r with ((A * c) ^ 2 + (B * s) ^ 2); [|exact Q]. rewrite O'. field. exact Q.
Qed.
Theorem C160_float_radius :
  forall (M : maths) square, accurate M -> accurate_square square -> forall l, on_earth l ->
    (exists foot, foot_at (latitude_at l) (longitude_at l) foot) /\
    forall foot, foot_at (latitude_at l) (longitude_at l) foot ->
      exists r, fradius M square l = Ok r /\ finite r /\ Rabs (value r - (norm foot + km (fl_length l) (fl_height l))) <= 1 / 10 ^ 10.
Proof.
  intros M sq HM HQ l O. split; [destruct (foot_exact (latitude_at l) (longitude_at l)) as (f & H & _); now exists f|].
  intros foot F. destruct (radius_ok M sq HM HQ l O) as (lat & r & _ & _ & E & Fr & B). exists r. split; [exact E|]. split; [exact Fr|].
  rewrite (foot_norm _ _ _ F). unfold radius in B. rewrite lat_rad_eq in B.
  replace (km (fl_length l) (fl_height l)) with (height_km (exact_location l)) by (unfold height_km, to_km, km, exact_location; cbn [loc_height length_scale]; field). lra.
Qed.

(** ** C161: how far rounding moves an azimuth *)
Theorem C161_float_azimuth_rounding :
  forall (M : maths) (L : arrays) square, accurate M -> accurate_arrays L -> accurate_square square ->
  forall l unit p, on_earth l -> mid_latitude l -> in_orbit unit p ->
    let ground := itrs_of (exact_location l) in let satellite := exact_km unit p in let from_ground := from_to ground satellite in
    let distance_from_vertical := norm (product from_ground ground) / norm ground in
    let eastwards := dot from_ground (east (longitude_at l)) in
    1 <= distance_from_vertical ->
    let error := (4 + 11 / distance_from_vertical) / 10 ^ 6 in
    exists computed exact, fazimuth M L square l unit p = Ok computed /\ azimuth (exact_location l) satellite = Fin exact /\
      ((is_NaN computed /\ (exact <= error \/ Rabs (exact - 180) <= error \/ 360 - error <= exact)) \/
       (finite computed /\ (Rabs (value computed - exact) <= error \/ (Rabs eastwards < 1 / 250 /\ Rabs (value computed - (360 - exact)) <= error)))).
Proof.
  intros M L sq HM HL HQ l unit p O ML IO ground satellite from_ground dv ew FAR error. exact (azimuth_ok M L sq HM HL HQ l unit p O ML IO FAR).
Qed.

(** ** C162: compass bearings *)
Definition one_point (v : vec) : position R := Position [0] [vx v] [vy v] [vz v] 1000.
Lemma one_size v : of_size 1 (one_point v). Proof. repeat split. Qed.
Lemma one_km v : kilometres (one_point v) 0 = v.
Proof. destruct v as [x y z]. unfold kilometres, one_point, point, times. cbn [p_unit p_x p_y p_z nth vx vy vz]. f_equal; field. Qed.
Lemma one_azimuth v l : exists result, itrs_to_azel (one_point v) l = Ok result /\ nth 0 (az_azimuth result) NaN = azimuth l v.
Proof.
  rewrite (azel_ok 1) by apply one_size. eexists. split; [reflexivity|]. cbn [az_azimuth]. rewrite km_map_nth by lia. now rewrite one_km.
Qed.
Lemma vertical_distance l h k : on_earth l -> let G := itrs_of (exact_location l) in let lat := latitude_at l in let lon := longitude_at l in
  forall e n, h = plus (times e (east lon)) (times n (north lat lon)) -> 99 / 100 * sqrt (e * e + n * n) <= norm (product (plus h (times k G)) G) / norm G.
Proof.
  intros O G lat lon e n E. pose proof (ground_norm l O) as (NG & _). fold G in NG. apply Rmult_le_reg_r with (norm G); [lra|]. match goal with |- _ <= ?q / _ * _ => replace (q / norm G * norm G) with q by (field; lra) end.
  assert (PE : product (plus h (times k G)) G = product h G) by (unfold product, plus, times; cbn [vx vy vz]; f_equal; ring). rewrite PE.
  assert (HH : dot h h = e * e + n * n).
  { rewrite E. unfold dot, plus, times, east, north. cbn [vx vy vz]. pose proof (sc2 lat) as T. pose proof (sc2 lon) as T'. set (s := sin lat) in *. set (c := cos lat) in *. set (s' := sin lon) in *. set (c' := cos lon) in *.
    transitivity (e * e * (s' * s' + c' * c') + n * n * (s * s * (s' * s' + c' * c') + c * c)); [ring|]. rewrite T'. replace (s * s * 1 + c * c) with 1 by lra. ring. }
  assert (HG : Rabs (dot h G) <= 43 * sqrt (e * e + n * n)).
  { assert (DG : dot h G = n * - (eccentricity ^ 2 * radius_of_curvature_in_prime_vertical lat * (sin lat * cos lat))).
    { rewrite E. unfold G, itrs_of, itrs_x, itrs_y, itrs_z. rewrite lat_rad_eq, lon_rad_eq. fold lat lon. unfold dot, plus, times, east, north. cbn [vx vy vz]. pose proof (sc2 lon) as T'. set (s' := sin lon) in *. set (c' := cos lon) in *. set (N := radius_of_curvature_in_prime_vertical lat).
      transitivity (n * (- sin lat * cos lat * (N + height_km (exact_location l)) * (s' * s' + c' * c') + cos lat * sin lat * (N * (1 - eccentricity ^ 2) + height_km (exact_location l)))); [ring|]. rewrite T'. ring. }
    pose proof (curvature_range lat) as CR. rewrite DG, ecc_sq, Rabs_mult, Rabs_Ropp. set (N := radius_of_curvature_in_prime_vertical lat) in *.
    assert (SC : Rabs (sin lat * cos lat) <= 1). { rewrite Rabs_mult. replace 1 with (1 * 1) by ring. apply Rmult_le_compat; try apply Rabs_pos; apply Rabs_le; [apply SIN_bound|apply COS_bound]. }
    assert (X : Rabs (0.08181919084296284 * 0.08181919084296284 * N * (sin lat * cos lat)) <= 43).
    { rewrite Rabs_mult, (Rabs_pos_eq (_ * N)) by lra. replace 43 with (43 * 1) by ring. apply Rmult_le_compat; try apply Rabs_pos; try lra. }
    assert (NN : Rabs n <= sqrt (e * e + n * n)). { rewrite <- sqrt_Rsqr_abs. apply sqrt_le_1_alt. unfold Rsqr. nra. }
    rewrite Rmult_comm. apply Rmult_le_compat; try apply Rabs_pos; auto. }
  set (r := sqrt (e * e + n * n)) in *. assert (R0 : 0 <= r) by apply sqrt_pos. assert (RR : r * r = e * e + n * n) by (apply sqrt_sqrt; nra). rewrite <- RR in HH.
  assert (LG : dot (product h G) (product h G) = r * r * (norm G * norm G) - dot h G * dot h G) by (rewrite Flg_Proofs.norm_sq, <- HH; unfold dot, product; cbn [vx vy vz]; ring).
  unfold norm at 2. rewrite LG. rewrite <- (sqrt_square (99 / 100 * r * norm G)) by (apply Rmult_le_pos; lra). apply sqrt_le_1_alt.
  assert (Q : dot h G * dot h G <= 43 * r * (43 * r)). { replace (dot h G * dot h G) with (Rabs (dot h G) * Rabs (dot h G)) by (rewrite <- Rabs_mult; apply Rabs_pos_eq; nra). apply Rmult_le_compat; auto using Rabs_pos. }
  assert (GG : 5000 * 5000 <= norm G * norm G) by (apply Rmult_le_compat; lra). set (g := norm G) in *. clearbody g.
  replace (99 / 100 * r * g * (99 / 100 * r * g)) with (9801 / 10000 * (r * r * (g * g))) by field. assert (r * r * (5000 * 5000) <= r * r * (g * g)) by (apply Rmult_le_compat_l; [nra|lra]). assert (0 <= r * r) by nra. lra.
Qed.
Theorem C162_float_bearing_partial :
  forall (M : maths) (L : arrays) square, accurate M -> accurate_arrays L -> accurate_square square ->
  forall l unit p, on_earth l -> mid_latitude l -> in_orbit unit p ->
    0 < sin (latitude_at l) -> 0 <= km (fl_length l) (fl_height l) ->
    let ground := itrs_of (exact_location l) in let satellite := exact_km unit p in
    forall r bearing up, 2 <= r -> Rabs up * 7400 <= 20 * r -> 0 <= bearing < 360 ->
      from_to ground satellite =
        plus (plus (times (r * sin (bearing * (PI / 180))) (east (longitude_at l)))
                   (times (r * cos (bearing * (PI / 180))) (north (latitude_at l) (longitude_at l))))
             (times up ground) ->
      exists a, fazimuth M L square l unit p = Ok a /\
        ((is_NaN a /\ (bearing < 1.001 \/ Rabs (bearing - 180) < 1.001 \/ 358.999 < bearing)) \/
         (finite a /\ (Rabs (value a - bearing) < 1.001 \/ (Rabs (r * sin (bearing * (PI / 180))) < 1 / 250 /\ Rabs (value a - (360 - bearing)) < 1.001)))).
Proof.
  intros M L sq HM HL HQ l unit p O ML IO S0 H0 G S r b u R2 UB BB DE. pose proof ML as (_ & C0). destruct (tight_norm l O) as (_ & RB & _). set (lat := latitude_at l) in *. set (lon := longitude_at l) in *.
  set (sb := sin (b * (PI / 180))) in *. set (cb := cos (b * (PI / 180))) in *. pose proof (sc2 (b * (PI / 180))) as T. fold sb cb in T.
  pose proof (vertical_distance l _ u O (r * sb) (r * cb) eq_refl) as VD. cbv zeta in VD. fold G lat lon in VD. rewrite <- DE in VD.
  replace (r * sb * (r * sb) + r * cb * (r * cb)) with (r * r) in VD by (transitivity (r * r * (sb * sb + cb * cb)); [rewrite T|]; ring). rewrite sqrt_square in VD by lra.
  pose proof (azimuth_ok M L sq HM HL HQ l unit p O ML IO) as AZ. fold G S in AZ. set (off := norm (product (from_to G S) G) / norm G) in *. destruct (AZ ltac:(lra)) as (a & x & E & X & CASES). clear AZ. exists a. split; [exact E|].
  assert (OF : 11 / off <= 11). { unfold Rdiv. rewrite <- Rmult_1_r. apply Rmult_le_compat_l; [lra|]. rewrite <- Rinv_1. apply Rinv_le_contravar; lra. }
  assert (OF0 : 0 < 11 / off) by (apply Rdiv_lt_0_compat; lra). set (tol := (4 + 11 / off) / 10 ^ 6) in *. assert (TL : 0 < tol <= 2 / 100000) by (unfold tol; lra). clearbody tol.
  destruct (one_azimuth S (exact_location l)) as (result & ER & NR).
  destruct (C61_horizon_partial 1 (one_point S) (exact_location l) result (one_size S)) with (i := 0%nat) (r := r) (bearing := b) (up := u) as (x' & X' & BX); auto; try lia; try lra.
  - replace (height_km (exact_location l)) with (km (fl_length l) (fl_height l)) by (unfold height_km, to_km, km, exact_location; cbn [loc_height length_scale]; field). exact H0.
  - now rewrite lat_rad_eq.
  - rewrite lat_rad_eq. fold lat. lra.
  - assert (Rabs u * radius (exact_location l) <= Rabs u * 7400) by (apply Rmult_le_compat_l; [apply Rabs_pos|lra]). lra.
  - rewrite one_km, lat_rad_eq, lon_rad_eq. exact DE.
  - rewrite NR, X in X'. injection X' as <-. 
    assert (EE : dot (from_to G S) (east lon) = r * sb).
    { rewrite DE. pose proof (Geo_Props4.g_east (exact_location l)) as GE. rewrite lon_rad_eq in GE. fold G lon in GE. pose proof (sc2 lon) as T'.
      transitivity (r * sb * (sin lon * sin lon + cos lon * cos lon) + u * dot G (east lon)); [unfold dot, plus, times, east, north; cbn [vx vy vz]; ring|]. rewrite T', GE. ring. }
    change (dot (from_to (itrs_of (exact_location l)) (exact_km unit p)) (east (longitude_at l)) = r * sb) in EE. fold G S lon in CASES, EE. rewrite EE in CASES. unfold Rabs in BX; destruct (Rcase_abs (x - b)) in BX.
    all: destruct CASES as [(N & [H|[H|H]])|(F & [H|(He & H)])]; [left; split; [exact N|]|left; split; [exact N|]|left; split; [exact N|]|right; split; [exact F|]|right; split; [exact F|]].
    all: try (apply Rabs_le_inv in H).
    all: first [left; lra|right; left; apply Rabs_def1; lra|right; right; lra|left; apply Rabs_def1; lra|right; split; [exact He|apply Rabs_def1; lra]].
Qed.
(** South of the equator a satellite to the east gets an azimuth in the west. *)
Theorem C162_float_bearing_refuted :
  forall (M : maths) (L : arrays) square, accurate M -> accurate_arrays L -> accurate_square square ->
  forall l unit p, on_earth l -> mid_latitude l -> in_orbit unit p -> sin (latitude_at l) < 0 ->
    let ground := itrs_of (exact_location l) in let from_ground := from_to ground (exact_km unit p) in
    1 <= norm (product from_ground ground) / norm ground -> 1 / 250 <= dot from_ground (east (longitude_at l)) ->
    exists a, fazimuth M L square l unit p = Ok a /\ (is_NaN a \/ (finite a /\ 180 - 2 / 10 ^ 5 <= value a <= 360 + 2 / 10 ^ 5)).
Proof.
  intros M L sq HM HL HQ l unit p O ML IO S0 G D FAR EW. pose proof ML as (_ & C0).
  pose proof (azimuth_ok M L sq HM HL HQ l unit p O ML IO) as AZ. fold G D in AZ. set (off := norm (product D G) / norm G) in *. destruct (AZ ltac:(lra)) as (a & x & E & X & CASES). clear AZ. exists a. split; [exact E|].
  assert (OF : 11 / off <= 11). { unfold Rdiv. rewrite <- Rmult_1_r. apply Rmult_le_compat_l; [lra|]. rewrite <- Rinv_1. apply Rinv_le_contravar; lra. }
  assert (OF0 : 0 < 11 / off) by (apply Rdiv_lt_0_compat; lra). set (tol := (4 + 11 / off) / 10 ^ 6) in *. assert (TL : 0 < tol <= 2 / 100000) by (unfold tol; lra). clearbody tol.
  destruct (one_azimuth (exact_km unit p) (exact_location l)) as (result & ER & NR). destruct (tight_norm l O) as (_ & _ & HB & _).
  destruct (C61_azimuth_south_refuted 1 (one_point (exact_km unit p)) (exact_location l) result (one_size _) ltac:(lra) ER ltac:(rewrite lat_rad_eq; exact S0) ltac:(rewrite lat_rad_eq; lra) 0%nat ltac:(lia)) as (C & _).
  rewrite one_km, lon_rad_eq, NR, X in C. destruct C as (x' & EX & BX). { change (0 < dot D (east (longitude_at l))). lra. } injection EX as <-.
  destruct CASES as [(N & _)|(F & [H|(He & _)])]; [now left|right; split; [exact F|]; apply Rabs_le_inv in H; lra|]. rewrite Rabs_pos_eq in He by lra. lra.
Qed.

(** ** Cases: a location at 45 degrees north or south on the meridian of Greenwich, and a satellite over the ocean at 90 degrees east *)
Definition best_square (x : float) : float := to_float (value x ^ 2).
Lemma best_square_accurate : accurate_square best_square.
Proof.
  intros x F B. assert (P : 0 <= value x ^ 2 <= bpow radix2 300).
  { split; [nra|]. replace (value x ^ 2) with (Rabs (value x) * Rabs (value x)) by (rewrite <- Rabs_mult, Rabs_pos_eq by nra; ring). rewrite pow_bpow in B. change 300%Z with (150 + 150)%Z. rewrite bpow_plus.
    assert (bpow radix2 (Z.of_nat 100) <= bpow radix2 150) by (apply bpow_le; lia). apply Rmult_le_compat; try apply Rabs_pos; lra. }
  destruct (to_float_ok (value x ^ 2)) as (F1 & V1). { rewrite Rabs_pos_eq by lra. eapply Rle_trans; [exact (proj2 P)|]. apply bpow_le. lia. }
  split; [exact F1|]. unfold best_square. fold (rnd (value x ^ 2)) in V1. rewrite V1. eapply Rle_trans; [apply rnd_mul_err|]. rewrite Rabs_pos_eq by lra.
  assert (E4 : ee <= / 2 ^ 1000). { rewrite pow_bpow, <- bpow_opp. unfold ee. apply bpow_le. lia. } replace (/ 2 ^ 51) with (4 * uu) by (rewrite uu_value; lra). pose proof uu_pos. nra.
Qed.
Definition station (degrees : Z) : flocation := FLocation (of_Z degrees) (of_Z 0) (of_Z 0) Udeg Um.
Definition eastern : fvec := FV (of_Z 0) (of_Z 8000) (of_Z 0).
Lemma station_ok z : (z = 45 \/ z = -45)%Z -> let l := station z in
  on_earth l /\ mid_latitude l /\ in_orbit Ukm eastern /\ (z = 45%Z -> 0 < sin (latitude_at l)) /\ (z = (-45)%Z -> sin (latitude_at l) < 0) /\ longitude_at l = 0 /\ km (fl_length l) (fl_height l) = 0.
Proof.
  intros HZ. cbv zeta. destruct (of_Z_ok 0 ltac:(lia)) as (F0 & V0). destruct (of_Z_ok 8000 ltac:(lia)) as (F8 & V8). destruct (of_Z_ok z ltac:(lia)) as (Fz & Vz). pose proof PI_near as PN.
  assert (ZR : IZR z = 45 \/ IZR z = -45) by (destruct HZ as [-> | ->]; auto).
  assert (LZ : latitude_at (station z) = IZR z / 57.29577951308232). { unfold latitude_at, radians, station. cbn [fl_angle fl_latitude size]. rewrite Vz. unfold Rdiv. ring. }
  set (y := 45 / 57.29577951308232). assert (Y : PI / 6 <= y <= PI / 3) by (unfold y; lra). assert (SY : 1 / 2 <= sin y). { rewrite <- sin_PI6. apply sin_incr_1; lra. } assert (CY : 1 / 2 <= cos y). { rewrite <- cos_PI3. apply cos_decr_1; lra. }
  split; [|split; [|split; [|split; [|split; [|split]]]]].
  - unfold on_earth, station. cbn [fl_latitude fl_longitude fl_height fl_angle fl_length measures size]. rewrite V0, Vz.
    split; [apply moderate_Z; lia|]. split; [apply moderate_Z; lia|]. split; [apply moderate_Z; lia|]. split; [reflexivity|]. split; [reflexivity|]. repeat apply conj; apply Rabs_le; lra.
  - unfold mid_latitude. rewrite LZ. destruct ZR as [-> | ->]; [|replace (-45 / 57.29577951308232) with (- y) by (unfold y; lra); rewrite sin_neg, cos_neg, Rabs_Ropp]; fold y; rewrite Rabs_pos_eq by lra; lra.
  - unfold in_orbit, eastern. cbn [fx fy fz measures size]. split; [reflexivity|]. split; [apply finite_Z; lia|]. split; [apply finite_Z; lia|]. split; [apply finite_Z; lia|].
    unfold exact_km. cbn [fx fy fz size]. rewrite V0, V8. unfold norm, dot. cbn [vx vy vz]. replace (0 * 1000 / 1000 * (0 * 1000 / 1000) + 8000 * 1000 / 1000 * (8000 * 1000 / 1000) + 0 * 1000 / 1000 * (0 * 1000 / 1000)) with (8000 * 8000) by field. rewrite sqrt_square; lra.
  - intros ->. rewrite LZ. fold y. lra.
  - intros ->. rewrite LZ. replace (-45 / 57.29577951308232) with (- y) by (unfold y; lra). rewrite sin_neg. lra.
  - unfold longitude_at, radians, station. cbn [fl_angle fl_longitude size]. rewrite V0. unfold Rdiv. ring.
  - unfold km, station. cbn [fl_length fl_height size]. rewrite V0. field.
Qed.
Lemma eastern_from l : longitude_at l = 0 -> let G := itrs_of (exact_location l) in
  from_to G (exact_km Ukm eastern) = plus (plus (times (8000 * sin (90 * (PI / 180))) (east (longitude_at l))) (times (8000 * cos (90 * (PI / 180))) (north (latitude_at l) (longitude_at l)))) (times (-1) G).
Proof.
  intros H. cbv zeta. destruct (of_Z_ok 0 ltac:(lia)) as (F0 & V0). destruct (of_Z_ok 8000 ltac:(lia)) as (F8 & V8). replace (90 * (PI / 180)) with (PI / 2) by field. rewrite sin_PI2, cos_PI2, H.
  unfold from_to, exact_km, eastern, plus, times, east, north. cbn [fx fy fz size vx vy vz]. rewrite V0, V8, sin_0, cos_0. f_equal; field.
Qed.
Example C160_case : accurate best /\ accurate_square best_square /\ on_earth (station 45).
Proof. split; [apply rounded_accurate, best_rounded|]. split; [exact best_square_accurate|]. apply station_ok. auto. Qed.
Lemma eastern_facts l : on_earth l -> longitude_at l = 0 -> let G := itrs_of (exact_location l) in let D := from_to G (exact_km Ukm eastern) in
  1 <= norm (product D G) / norm G /\ dot D (east (longitude_at l)) = 8000.
Proof.
  intros O H G D. pose proof (eastern_from l H) as E. cbv zeta in E. fold G D in E. pose proof (vertical_distance l _ (-1) O (8000 * sin (90 * (PI / 180))) (8000 * cos (90 * (PI / 180))) eq_refl) as VD. cbv zeta in VD. fold G in VD. rewrite <- E in VD.
  replace (90 * (PI / 180)) with (PI / 2) in VD by field. rewrite sin_PI2, cos_PI2 in VD. replace (8000 * 1 * (8000 * 1) + 8000 * 0 * (8000 * 0)) with (8000 * 8000) in VD by ring. rewrite sqrt_square in VD by lra. split; [lra|].
  pose proof (Geo_Props4.g_east (exact_location l)) as GE. rewrite lon_rad_eq in GE. fold G in GE. rewrite H in *. unfold D, from_to, exact_km, eastern. destruct (of_Z_ok 0 ltac:(lia)) as (F0 & V0). destruct (of_Z_ok 8000 ltac:(lia)) as (F8 & V8).
  unfold dot, east in *. cbn [fx fy fz size vx vy vz] in *. rewrite V0, V8. rewrite sin_0, cos_0 in *. lra.
Qed.
Example C161_case : accurate_arrays best_arrays /\ let l := station 45 in let ground := itrs_of (exact_location l) in let from_ground := from_to ground (exact_km Ukm eastern) in
  on_earth l /\ mid_latitude l /\ in_orbit Ukm eastern /\ 1 <= norm (product from_ground ground) / norm ground /\ dot from_ground (east (longitude_at l)) = 8000.
Proof. split; [exact best_arrays_accurate|]. destruct (station_ok 45 ltac:(auto)) as (A1 & A2 & A3 & _ & _ & A4 & _). cbv zeta. split; [exact A1|]. split; [exact A2|]. split; [exact A3|]. exact (eastern_facts (station 45) A1 A4). Qed.
Example C162_case : let l := station 45 in 0 < sin (latitude_at l) /\ 0 <= km (fl_length l) (fl_height l) /\ 2 <= 8000 /\ Rabs (-1) * 7400 <= 20 * 8000 /\
  from_to (itrs_of (exact_location l)) (exact_km Ukm eastern) =
    plus (plus (times (8000 * sin (90 * (PI / 180))) (east (longitude_at l))) (times (8000 * cos (90 * (PI / 180))) (north (latitude_at l) (longitude_at l)))) (times (-1) (itrs_of (exact_location l))).
Proof. destruct (station_ok 45 ltac:(auto)) as (A1 & A2 & A3 & A4 & _ & A5 & A6). cbv zeta. split; [auto|]. split; [lra|]. split; [lra|]. split; [rewrite Rabs_left; lra|]. exact (eastern_from (station 45) A5). Qed.
Example C162_south_case : let l := station (-45) in let ground := itrs_of (exact_location l) in let from_ground := from_to ground (exact_km Ukm eastern) in
  on_earth l /\ mid_latitude l /\ in_orbit Ukm eastern /\ sin (latitude_at l) < 0 /\ 1 <= norm (product from_ground ground) / norm ground /\ 1 / 250 <= dot from_ground (east (longitude_at l)).
Proof. destruct (station_ok (-45) ltac:(auto)) as (A1 & A2 & A3 & _ & A4 & A5 & _). cbv zeta. split; [exact A1|]. split; [exact A2|]. split; [exact A3|]. split; [auto|]. destruct (eastern_facts (station (-45)) A1 A5) as (B1 & B2). split; [exact B1|]. rewrite B2. lra. Qed.

Print Assumptions C160_float_radius.
Print Assumptions C161_float_azimuth_rounding.
Print Assumptions C162_float_bearing_partial.
Print Assumptions C162_float_bearing_refuted.
Print Assumptions C162_case.
