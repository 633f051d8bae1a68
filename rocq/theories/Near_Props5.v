(** Latitudes against geodetic latitudes, on exact numbers: C189. *)
From Coq Require Import List ZArith Reals Lra Lia Psatz.
From Verif Require Import Py Num Rot_Model Rot_Spec Geo_Model Geo_Spec Geo_Alt Geo_Alt2 Geo_Acc Geo_Props Geo_Props2 Geo_Props4 Geo_Props7 Geo_Foot Near_Spec Near_Props Near_Spec2 Near_Lat Near_Props4.
Import ListNotations.
Open Scope R_scope.

Lemma latitude_fin v : off_axis v -> wgs84_latitude v = Fin (atan (vz v / sqrt (vx v ^ 2 + vy v ^ 2))).
Proof.
  intros O. assert (R0 : 0 < axis_distance v). { apply sqrt_lt_R0. destruct O as [O|O]; [pose proof (pow2_ge_0 (vy v)); assert (0 < vx v ^ 2) by (rewrite <- Rsqr_pow2; apply Rsqr_pos_lt; exact O)|pose proof (pow2_ge_0 (vx v)); assert (0 < vy v ^ 2) by (rewrite <- Rsqr_pow2; apply Rsqr_pos_lt; exact O)]; lra. }
  unfold wgs84_latitude. rewrite div_fin by lra. reflexivity.
Qed.
(** ** C189, without rounding: the latitude is also never farther from the equator than the geodetic latitude. *)
Theorem C189_exact_latitude :
  forall n itrs, of_size n itrs ->
    (forall i, (i < n)%nat -> not_below (kilometres itrs i) /\ off_axis (kilometres itrs i)) ->
    (exists result, itrs_to_wgs84 itrs result) /\
    forall result, itrs_to_wgs84 itrs result -> length (w_latitude result) = n /\
      forall i, (i < n)%nat -> exists latitude true_latitude,
        nth i (w_latitude result) NaN = Fin latitude /\ geodetic_latitude (kilometres itrs i) true_latitude /\
        Rabs (latitude - true_latitude) < 0.0034 /\ (0 <= latitude <= true_latitude \/ true_latitude <= latitude <= 0).
Proof.
  intros n p S H. split.
  - destruct (C185_altitude_distance n p S H) as (hs & A & _). eexists. exists (km_list n p), hs. split; [apply km_points_ok; exact S|]. split; [exact A|reflexivity].
  - intros result (points & hs & E & _ & ->). rewrite (km_points_ok n) in E by exact S. injection E as <-. cbn [w_latitude]. split; [unfold km_list; now rewrite !map_length, seq_length|].
    intros i I. destruct (H i I) as (N & O). destruct (one_latitude _ N) as (t & G & _). eexists _, t. rewrite km_map_nth by exact I. split; [apply latitude_fin; exact O|]. split; [exact G|]. split; [apply latitudes_near; auto|].
    apply nearer_equator; auto.
Qed.
(** The bound is almost the best possible: a point where the latitude is more than 0.0033 radians too small. *)
Theorem C189_not_geodetic :
  exists itrs, of_size 1 itrs /\ not_below (kilometres itrs 0) /\ off_axis (kilometres itrs 0) /\ geodetic_latitude (kilometres itrs 0) (PI / 4) /\
    forall result, itrs_to_wgs84 itrs result -> exists latitude, nth 0 (w_latitude result) NaN = Fin latitude /\ latitude < PI / 4 - 0.0033.
Proof.
  exists (in_km [0] [middle]). assert (S : of_size 1 (in_km [0] [middle])) by (apply (in_km_size [0] [middle]); reflexivity).
  assert (K : kilometres (in_km [0] [middle]) 0 = middle).
  { unfold kilometres, point, in_km. cbn [p_unit p_x p_y p_z map nth]. unfold times. cbn [vx vy vz]. destruct middle as [x y z]. cbn [vx vy vz]. f_equal; field. }
  destruct C189_latitudes_differ as (N & O & G & D). rewrite K. split; [exact S|]. split; [exact N|]. split; [exact O|]. split; [exact G|].
  intros result (points & hs & E & _ & ->). rewrite in_km_points in E. injection E as <-. cbn [w_latitude map nth]. eexists. split; [apply latitude_fin; exact O|exact D].
Qed.
Example C189_exact_case : of_size 2 (in_km [0; 1] [V 4200 0 5600; middle]) /\ not_below (V 4200 0 5600) /\ off_axis (V 4200 0 5600) /\ not_below middle /\ off_axis middle.
Proof. split; [apply (in_km_size [0; 1] [V 4200 0 5600; middle]); reflexivity|]. destruct C185_case as (A1 & A2 & _). destruct C189_latitudes_differ as (B1 & B2 & _). auto. Qed.
Print Assumptions C189_exact_latitude.
Print Assumptions C189_not_geodetic.
Print Assumptions C189_exact_case.
