(** Theorems on azimuth, elevation, distance and look angle: C60, C61, C64, C89, C90. *)
From Coq Require Import List Reals Arith Bool Lia Lra Psatz.
From Verif Require Import Py PyLemmas Num Time_Model Rot_Model Rot_Spec Rot_Proofs Geo_Model Geo_Spec Geo_Alt Geo_Alt2 Geo_Acc Geo_Dir Geo_Props Geo_Props3.
Import ListNotations.
Open Scope R_scope.
Open Scope list_scope.

Section location.
Variable l : location.
Hypothesis deep : -6000 <= height_km l.
Let g := itrs_of l.
Let c := cos (lat_rad l).
Let s := sin (lat_rad l).
Let rho := (Np (lat_rad l) + height_km l) * c.
Lemma g_x : vx g = rho * cos (lon_rad l). Proof. reflexivity. Qed.
Lemma g_y : vy g = rho * sin (lon_rad l). Proof. reflexivity. Qed.
Lemma g_z : vz g = (Np (lat_rad l) * (1 - e2) + height_km l) * s. Proof. reflexivity. Qed.
Lemma n_h : 0 < Np (lat_rad l) + height_km l.
Proof. pose proof (Np_bounds (lat_rad l)). pose proof A_val. lra. Qed.
Lemma n_h' : 0 < Np (lat_rad l) * (1 - e2) + height_km l.
Proof. pose proof (Np_bounds (lat_rad l)). pose proof A_val. pose proof ecc2. nra. Qed.
Lemma radius_pos : 0 < radius l.
Proof. pose proof (radius_bounds l). pose proof B_val. lra. Qed.
Lemma rho_g : vx g * vx g + vy g * vy g = rho * rho.
Proof. rewrite g_x, g_y. transitivity (rho * rho * (sin (lon_rad l) * sin (lon_rad l) + cos (lon_rad l) * cos (lon_rad l))); [ring|]. rewrite sc2. ring. Qed.
Lemma g_nz : g <> zero.
Proof.
  intros E. pose proof rho_g as R. pose proof g_z as Z. rewrite E in R, Z. cbn [vx vy vz zero] in R, Z. pose proof n_h. pose proof n_h'. pose proof (sc2 (lat_rad l)) as T. fold s c in T.
  assert (s = 0) by (apply Rmult_integral in Z as H1 || (symmetry in Z; apply Rmult_integral in Z as [H1|H1]; lra)).
  assert (c = 0). { assert (rho = 0) by nra. unfold rho in *. match goal with H : _ * c = 0 |- _ => apply Rmult_integral in H as [H'|H']; lra end. } nra.
Qed.

(** ** Azimuth off the equator, in real numbers *)
Section direction.
Hypothesis off_equator : s <> 0.
Let tau := radius l / s.
Definition tangent : vec := sub (V 0 0 tau) g.
Definition in_plane (d : vec) : vec := sub d (times (dot d g / (radius l * radius l)) g).
Lemma azimuth_real sat : azimuth l sat =
  let ang := get_ang (fin_vec tangent) (fin_vec (in_plane (sub sat g))) in
  if n_lt (Fin (dot (in_plane (sub sat g)) (cross_ tangent g))) (Fin 0) then n_sub (Fin 360) (n_mul (Fin 1) ang) else n_sub (Fin 0) (n_mul (Fin (-1)) ang).
Proof.
  unfold azimuth. rewrite sub_fin, dot_fin. cbn [n_mul]. rewrite !div_fin; [reflexivity|exact off_equator|]. pose proof radius_pos. nra.
Qed.
Lemma cross_tangent : cross_ tangent g = times (tau * rho) (east (lon_rad l)).
Proof.
  assert (E : cross_ tangent g = V (- tau * vy g) (tau * vx g) 0) by (unfold cross_, tangent, sub; cbn [vx vy vz]; apply vec_ext; cbn [vx vy vz]; ring).
  rewrite E, g_x, g_y. unfold times, east. cbn [vx vy vz]. apply vec_ext; cbn [vx vy vz]; ring.
Qed.
Lemma g_east : dot g (east (lon_rad l)) = 0.
Proof. unfold dot, east. cbn [vx vy vz]. rewrite g_x, g_y. ring. Qed.
Lemma tangent_east : dot tangent (east (lon_rad l)) = 0.
Proof. pose proof g_east as E. unfold dot, tangent, sub, east in *. cbn [vx vy vz] in *. lra. Qed.
Lemma side d : dot (in_plane d) (cross_ tangent g) = tau * rho * dot d (east (lon_rad l)).
Proof.
  rewrite cross_tangent. set (e := east _). pose proof g_east as E. fold e in E. unfold in_plane. set (k := _ / _).
  transitivity (tau * rho * (dot d e - k * dot g e)); [unfold dot, sub, times; cbn [vx vy vz]; ring|]. rewrite E. ring.
Qed.
Hypothesis off_pole : c <> 0.
Lemma rho_nz : rho <> 0.
Proof. unfold rho. pose proof n_h. apply Rmult_integral_contrapositive. split; [lra|exact off_pole]. Qed.
Lemma tau_nz : tau <> 0.
Proof. unfold tau. pose proof radius_pos. apply Rmult_integral_contrapositive. split; [lra|now apply Rinv_neq_0_compat]. Qed.
Lemma tangent_nz : tangent <> zero.
Proof.
  intros E. pose proof rho_g as R. pose proof rho_nz as N. pose proof (f_equal vx E) as X. pose proof (f_equal vy E) as Y. unfold tangent, sub, zero in X, Y. cbn [vx vy] in X, Y.
  assert (vx g = 0) by lra. assert (vy g = 0) by lra. nra.
Qed.
Lemma in_plane_nz d : (forall k, d <> times k g) -> in_plane d <> zero.
Proof.
  intros H E. apply (H (dot d g / (radius l * radius l))). unfold in_plane in E. set (k := _ / _) in *.
  pose proof (f_equal vx E) as X. pose proof (f_equal vy E) as Y. pose proof (f_equal vz E) as Z. unfold sub, times, zero in *. cbn [vx vy vz] in *.
  apply vec_ext; cbn [vx vy vz]; lra.
Qed.
(** The two halves of the horizon. *)
Lemma azimuth_half sat : let d := sub sat g in (forall k, d <> times k g) ->
  exists x, 0 <= x <= 180 /\ dot tangent (in_plane d) = norm tangent * norm (in_plane d) * cos (x * (PI / 180)) /\
    ((0 <= tau * rho * dot d (east (lon_rad l)) /\ azimuth l sat = Fin x) \/
     (tau * rho * dot d (east (lon_rad l)) < 0 /\ azimuth l sat = Fin (360 - x))) /\
    (dot d (east (lon_rad l)) <> 0 -> 0 < x < 180).
Proof.
  intros d H. rewrite azimuth_real. fold d. destruct (get_ang_fin tangent (in_plane d) tangent_nz (in_plane_nz d H)) as (x & E & X & D).
  exists x. split; [exact X|]. split; [exact D|]. split.
  - cbv zeta. rewrite E, side. cbn [n_lt n_mul n_sub]. destruct (Rlt_dec _ 0) as [N|N]; [right|left]; split; try lra; f_equal; ring.
  - intros N. destruct (ang_cases _ _ _ tangent_nz (in_plane_nz d H) X D) as (A0 & A180 & _).
    assert (S : dot (in_plane d) (cross_ tangent g) <> 0).
    { rewrite side. apply Rmult_integral_contrapositive. split; [|exact N]. apply Rmult_integral_contrapositive. split; [apply tau_nz|apply rho_nz]. }
    assert (T0 : x <> 0).
    { intros ->. apply S. destruct (proj1 A0 eq_refl) as (k & K & ET). set (P := in_plane d) in *. rewrite ET. unfold dot, cross_, times. cbn [vx vy vz]. ring. }
    assert (T1 : x <> 180).
    { intros ->. apply S. destruct (proj1 A180 eq_refl) as (k & K & ET). set (P := in_plane d) in *. rewrite ET. unfold dot, cross_, opposite, times. cbn [vx vy vz]. ring. }
    lra.
Qed.
(** Horizontally to the east or west: perpendicular to the tangent. *)
Lemma azimuth_sideways sat k : sub sat g = times k (east (lon_rad l)) -> k <> 0 ->
  azimuth l sat = Fin (if Rlt_dec (tau * rho * k) 0 then 270 else 90).
Proof.
  intros E K. set (e := east (lon_rad l)) in *.
  assert (EE : dot e e = 1) by (unfold dot, e, east; cbn [vx vy vz]; pose proof (sc2 (lon_rad l)); lra).
  assert (DE : dot (times k e) e = k) by (transitivity (k * dot e e); [unfold dot, times; cbn [vx vy vz]; ring|rewrite EE; ring]).
  assert (NP : forall m, times k e <> times m g).
  { intros m F. assert (dot (times m g) e = 0). { transitivity (m * dot g e); [unfold dot, times; cbn [vx vy vz]; ring|]. unfold e. rewrite g_east. ring. } rewrite <- F, DE in *. lra. }
  pose proof (azimuth_half sat) as H. cbv zeta in H. rewrite E in H. fold e in H. destruct (H NP) as (x & X & D & C & _). rewrite DE in C.
  assert (DG : dot (times k e) g = 0). { transitivity (k * dot g e); [unfold dot, times; cbn [vx vy vz]; ring|]. unfold e. rewrite g_east. ring. }
  assert (X90 : x = 90).
  { apply (ang_cases tangent (in_plane (times k e)) x tangent_nz (in_plane_nz _ NP) X D). unfold in_plane. rewrite DG.
    transitivity (k * dot tangent e); [unfold dot, sub, times, Rdiv; cbn [vx vy vz]; ring|]. unfold e. rewrite tangent_east. ring. }
  subst x. destruct (Rlt_dec _ 0) as [N|N]; destruct C as [(C & ->)|(C & ->)]; try lra; f_equal; ring.
Qed.
End direction.
End location.

(** ** C60: ranges *)
Lemma elevation_real l sat : -6000 <= height_km l -> sat <> itrs_of l ->
  exists x, elevation l sat = Fin x /\ -90 <= x <= 90 /\ (x = 90 <-> same_direction (sub sat (itrs_of l)) (itrs_of l)).
Proof.
  intros H N. set (g := itrs_of l) in *. assert (D : sub sat g <> zero).
  { intros E. apply N. pose proof (f_equal vx E). pose proof (f_equal vy E). pose proof (f_equal vz E). unfold sub, zero in *. cbn [vx vy vz] in *. apply vec_ext; lra. }
  destruct (get_ang_fin (sub sat g) g D (g_nz l H)) as (x & E & X & C). exists (90 - x). unfold elevation. rewrite sub_fin. fold g. rewrite E. split; [reflexivity|]. split; [lra|].
  destruct (ang_cases _ _ _ D (g_nz l H) X C) as (A0 & _). fold g in A0. rewrite <- A0. split; intros; lra.
Qed.
(** The arrays of the result: one entry for each point. *)
Lemma azel_ok n itrs l : of_size n itrs ->
  itrs_to_azel itrs l = Ok (Azel (p_time itrs) (map (azimuth l) (km_list n itrs)) (map (elevation l) (km_list n itrs)) l).
Proof.
  intros S. unfold itrs_to_azel. rewrite (km_points_ok n) by auto. cbn [bind]. rewrite !map_length. now rewrite Nat.eqb_refl, andb_false_r.
Qed.
Lemma km_map_nth {X} (f : vec -> X) n itrs i d : (i < n)%nat -> nth i (map f (km_list n itrs)) d = f (kilometres itrs i).
Proof.
  intros I. unfold km_list. rewrite map_map. rewrite nth_indep with (d' := f (kilometres itrs 0)) by now rewrite map_length, seq_length.
  rewrite (map_nth (fun i => f (kilometres itrs i))), seq_nth by auto. reflexivity.
Qed.
Theorem C60_azimuth_elevation_ranges :
  forall n itrs l, of_size n itrs -> -6000 <= height_km l ->
    exists result, itrs_to_azel itrs l = Ok result /\
      az_time result = p_time itrs /\ az_location result = l /\
      length (az_azimuth result) = n /\ length (az_elevation result) = n /\
      forall i, (i < n)%nat ->
        let from_ground := sub (kilometres itrs i) (itrs_of l) in
        (from_ground <> zero ->
           exists x, nth i (az_elevation result) NaN = Fin x /\ -90 <= x <= 90 /\
                     (x = 90 <-> same_direction from_ground (itrs_of l))) /\
        (sin (lat_rad l) <> 0 -> cos (lat_rad l) <> 0 -> (forall k, from_ground <> times k (itrs_of l)) ->
           exists x, nth i (az_azimuth result) NaN = Fin x /\ 0 <= x < 360).
Proof.
  intros n p l S H. eexists. split; [now apply (azel_ok n)|]. cbn [az_time az_location az_azimuth az_elevation]. rewrite !map_length. unfold km_list at 1 2. rewrite !map_length, !seq_length.
  do 4 (split; [reflexivity|]). intros i I. set (d := sub (kilometres p i) (itrs_of l)). rewrite !km_map_nth by auto. split.
  - intros N. apply elevation_real; auto. intros E. apply N. unfold d. rewrite E. unfold sub, zero. apply vec_ext; cbn [vx vy vz]; ring.
  - intros S0 C0 P. destruct (azimuth_half l H S0 C0 (kilometres p i) P) as (x & X & _ & [(Q & E)|(Q & E)] & N); rewrite E; eexists; (split; [reflexivity|]); [lra|].
    assert (dot d (east (lon_rad l)) <> 0). { intros Z. fold d in Q. rewrite Z in Q. lra. } specialize (N H0). lra.
Qed.

(** ** C61: the horizon *)
(** North of the equator: the eastern half is (0, 180), the western half (180, 360), due east is 90 and due west 270. *)
Theorem C61_azimuth_north_partial :
  forall n itrs l result, of_size n itrs -> -6000 <= height_km l -> itrs_to_azel itrs l = Ok result ->
    0 < sin (lat_rad l) -> 0 < cos (lat_rad l) ->
    forall i, (i < n)%nat ->
      let from_ground := sub (kilometres itrs i) (itrs_of l) in
      let eastwards := dot from_ground (east (lon_rad l)) in
      (0 < eastwards -> exists x, nth i (az_azimuth result) NaN = Fin x /\ 0 < x < 180) /\
      (eastwards < 0 -> exists x, nth i (az_azimuth result) NaN = Fin x /\ 180 < x < 360) /\
      (same_direction from_ground (east (lon_rad l)) -> nth i (az_azimuth result) NaN = Fin 90) /\
      (same_direction from_ground (opposite (east (lon_rad l))) -> nth i (az_azimuth result) NaN = Fin 270).
Proof.
  intros n p l r S H E S0 C0 i I d w. rewrite (azel_ok n) in E by auto. injection E as <-. cbn [az_azimuth]. rewrite km_map_nth by auto.
  assert (S1 : sin (lat_rad l) <> 0) by lra. assert (C1 : cos (lat_rad l) <> 0) by lra.
  pose proof (radius_pos l H) as R. pose proof (n_h l H) as NH.
  assert (TR : 0 < radius l / sin (lat_rad l) * ((Np (lat_rad l) + height_km l) * cos (lat_rad l))).
  { apply Rmult_lt_0_compat; [now apply Rdiv_lt_0_compat|now apply Rmult_lt_0_compat]. }
  assert (NP : w <> 0 -> forall k, d <> times k (itrs_of l)).
  { intros W k F. apply W. unfold w. rewrite F. transitivity (k * dot (itrs_of l) (east (lon_rad l))); [unfold dot, times; cbn [vx vy vz]; ring|]. rewrite g_east; auto; ring. }
  pose proof (azimuth_half l H S1 C1 (kilometres p i)) as HALF. cbv zeta in HALF. fold d in HALF. fold w in HALF.
  set (tr := radius l / sin (lat_rad l) * ((Np (lat_rad l) + height_km l) * cos (lat_rad l))) in *.
  repeat split.
  - intros W. destruct (HALF (NP ltac:(lra))) as (x & X & _ & [(Q & E)|(Q & E)] & N); rewrite E; [|nra]. exists x. split; [reflexivity|]. apply N. lra.
  - intros W. destruct (HALF (NP ltac:(lra))) as (x & X & _ & [(Q & E)|(Q & E)] & N); rewrite E; [nra|]. exists (360 - x). split; [reflexivity|]. specialize (N ltac:(lra)). lra.
  - intros (k & K & F). rewrite (azimuth_sideways l H S1 C1 _ k F) by lra. fold tr. destruct (Rlt_dec _ 0); [nra|reflexivity].
  - intros (k & K & F). assert (F' : d = times (- k) (east (lon_rad l))) by (rewrite F; unfold opposite, times; apply vec_ext; cbn [vx vy vz]; ring).
    rewrite (azimuth_sideways l H S1 C1 _ (- k) F') by lra. fold tr. destruct (Rlt_dec _ 0); [reflexivity|nra].
Qed.
(** South of the equator it is the other way round everywhere. *)
Theorem C61_azimuth_south_refuted :
  forall n itrs l result, of_size n itrs -> -6000 <= height_km l -> itrs_to_azel itrs l = Ok result ->
    sin (lat_rad l) < 0 -> 0 < cos (lat_rad l) ->
    forall i, (i < n)%nat ->
      let from_ground := sub (kilometres itrs i) (itrs_of l) in
      let eastwards := dot from_ground (east (lon_rad l)) in
      (0 < eastwards -> exists x, nth i (az_azimuth result) NaN = Fin x /\ 180 < x < 360) /\
      (eastwards < 0 -> exists x, nth i (az_azimuth result) NaN = Fin x /\ 0 < x < 180) /\
      (same_direction from_ground (east (lon_rad l)) -> nth i (az_azimuth result) NaN = Fin 270) /\
      (same_direction from_ground (opposite (east (lon_rad l))) -> nth i (az_azimuth result) NaN = Fin 90).
Proof.
  intros n p l r S H E S0 C0 i I d w. rewrite (azel_ok n) in E by auto. injection E as <-. cbn [az_azimuth]. rewrite km_map_nth by auto.
  assert (S1 : sin (lat_rad l) <> 0) by lra. assert (C1 : cos (lat_rad l) <> 0) by lra.
  pose proof (radius_pos l H) as R. pose proof (n_h l H) as NH.
  assert (TR : radius l / sin (lat_rad l) * ((Np (lat_rad l) + height_km l) * cos (lat_rad l)) < 0).
  { assert (0 < (Np (lat_rad l) + height_km l) * cos (lat_rad l)) by now apply Rmult_lt_0_compat.
    assert (radius l / sin (lat_rad l) < 0). { unfold Rdiv. pose proof (Rinv_lt_0_compat _ S0). nra. } nra. }
  assert (NP : w <> 0 -> forall k, d <> times k (itrs_of l)).
  { intros W k F. apply W. unfold w. rewrite F. transitivity (k * dot (itrs_of l) (east (lon_rad l))); [unfold dot, times; cbn [vx vy vz]; ring|]. rewrite g_east; auto; ring. }
  pose proof (azimuth_half l H S1 C1 (kilometres p i)) as HALF. cbv zeta in HALF. fold d in HALF. fold w in HALF.
  set (tr := radius l / sin (lat_rad l) * ((Np (lat_rad l) + height_km l) * cos (lat_rad l))) in *.
  repeat split.
  - intros W. destruct (HALF (NP ltac:(lra))) as (x & X & _ & [(Q & E)|(Q & E)] & N); rewrite E; [nra|]. exists (360 - x). split; [reflexivity|]. specialize (N ltac:(lra)). lra.
  - intros W. destruct (HALF (NP ltac:(lra))) as (x & X & _ & [(Q & E)|(Q & E)] & N); rewrite E; [|nra]. exists x. split; [reflexivity|]. apply N. lra.
  - intros (k & K & F). rewrite (azimuth_sideways l H S1 C1 _ k F) by lra. fold tr. destruct (Rlt_dec _ 0); [reflexivity|nra].
  - intros (k & K & F). assert (F' : d = times (- k) (east (lon_rad l))) by (rewrite F; unfold opposite, times; apply vec_ext; cbn [vx vy vz]; ring).
    rewrite (azimuth_sideways l H S1 C1 _ (- k) F') by lra. fold tr. destruct (Rlt_dec _ 0); [nra|reflexivity].
Qed.

Print Assumptions C60_azimuth_elevation_ranges.
Print Assumptions C61_azimuth_north_partial.
Print Assumptions C61_azimuth_south_refuted.
