(** Theorems on distances, look angles and special places: C64, C89, C90. *)
From Coq Require Import List Reals Arith Bool Lia Lra Psatz.
From Verif Require Import Py PyLemmas Num Time_Model Time_Proofs Rot_Model Rot_Spec Rot_Proofs Geo_Model Geo_Spec Geo_Alt Geo_Alt2 Geo_Acc Geo_Dir Geo_Props Geo_Props3 Geo_Props4.
Import ListNotations.
Open Scope R_scope.
Open Scope list_scope.

Lemma sub_zero u v : sub u v = zero <-> u = v.
Proof.
  split.
  - intros E. pose proof (f_equal vx E). pose proof (f_equal vy E). pose proof (f_equal vz E). unfold sub, zero in *. cbn [vx vy vz] in *. apply vec_ext; lra.
  - intros ->. apply vec_ext; unfold sub, zero; cbn [vx vy vz]; ring.
Qed.
(** ** C64: distance and look angle *)
Definition distance_between (u v : vec) : R := sqrt ((vx u - vx v) ^ 2 + (vy u - vy v) ^ 2 + (vz u - vz v) ^ 2).
Theorem C64_distance :
  forall n itrs l, of_size n itrs ->
    exists result, satellite_distance itrs l = Ok result /\ length result = n /\
      forall i, (i < n)%nat ->
        nth i result NaN = Fin (distance_between (kilometres itrs i) (itrs_of l)) /\
        0 <= distance_between (kilometres itrs i) (itrs_of l) /\
        (distance_between (kilometres itrs i) (itrs_of l) = 0 <-> kilometres itrs i = itrs_of l).
Proof.
  intros n p l S. unfold satellite_distance. rewrite (km_points_ok n) by auto. cbn [bind]. eexists. split; [reflexivity|]. split; [unfold km_list; now rewrite !map_length, seq_length|].
  intros i I. rewrite km_map_nth by auto. set (u := kilometres p i). set (v := itrs_of l).
  assert (E : distance_between u v = norm (sub u v)) by (unfold distance_between, norm, dot, sub; cbn [vx vy vz]; f_equal; ring).
  rewrite E. split; [unfold distance_to; now rewrite sub_fin, norm_fin|]. split; [apply sqrt_pos|]. split.
  - intros Z. now apply sub_zero, norm_zero.
  - intros Z. apply sub_zero in Z. rewrite Z. unfold norm, dot, zero. cbn [vx vy vz]. replace (0 * 0 + 0 * 0 + 0 * 0) with 0 by ring. apply sqrt_0.
Qed.
(** The unit in which the position is given does not matter. *)
Theorem C64_units :
  forall n a b l, of_size n a -> of_size n b -> (forall i, (i < n)%nat -> kilometres a i = kilometres b i) ->
    satellite_distance a l = satellite_distance b l /\ satellite_look_angle a l = satellite_look_angle b l.
Proof.
  intros n a b l SA SB E. unfold satellite_distance, satellite_look_angle. rewrite !(km_points_ok n) by auto. cbn [bind].
  assert (L : km_list n a = km_list n b) by (apply map_ext_in; intros i I; apply in_seq in I; apply E; lia). now rewrite L.
Qed.
(** The look angle is the angle at the satellite between the location and the centre of the
    Earth. *)
Theorem C64_look_angle :
  forall n itrs l, of_size n itrs ->
    exists result, satellite_look_angle itrs l = Ok result /\ length result = n /\
      forall i, (i < n)%nat ->
        let sat := kilometres itrs i in
        sat <> itrs_of l -> sat <> zero ->
        exists x, nth i result NaN = Fin x /\ 0 <= x <= 180 /\
          dot (sub (itrs_of l) sat) (sub zero sat) = norm (sub (itrs_of l) sat) * norm (sub zero sat) * cos (x * (PI / 180)) /\
          (x = 0 <-> same_direction (sub (itrs_of l) sat) (sub zero sat)) /\
          (itrs_of l <> zero -> (exists k, 1 < k /\ sat = times k (itrs_of l)) -> x = 0).
Proof.
  intros n p l S. unfold satellite_look_angle. rewrite (km_points_ok n) by auto. cbn [bind]. eexists. split; [reflexivity|]. split; [unfold km_list; now rewrite !map_length, seq_length|].
  intros i I. rewrite km_map_nth by auto. set (u := kilometres p i). set (v := itrs_of l). intros N Z.
  assert (D : sub u v <> zero) by (intros E; now apply N, sub_zero).
  destruct (get_ang_fin (sub u v) u D Z) as (x & E & X & C). exists x. unfold look_angle_to. rewrite sub_fin. fold v. split; [exact E|]. split; [exact X|].
  assert (E1 : norm (sub v u) = norm (sub u v)) by (unfold norm, dot, sub; cbn [vx vy vz]; f_equal; ring).
  assert (E2 : norm (sub zero u) = norm u) by (unfold norm, dot, sub, zero; cbn [vx vy vz]; f_equal; ring).
  split; [|split].
  - rewrite E1, E2, <- C. unfold dot, sub, zero. cbn [vx vy vz]. ring.
  - destruct (ang_cases _ _ _ D Z X C) as (-> & _). split; intros (k & K & Q); exists k; (split; [exact K|]); pose proof (f_equal vx Q); pose proof (f_equal vy Q); pose proof (f_equal vz Q);
      unfold sub, times, zero in *; cbn [vx vy vz] in *; apply vec_ext; cbn [vx vy vz]; lra.
  - intros VN (k & K & Q). apply (ang_cases _ _ _ D Z X C). exists (1 - / k). assert (0 < / k < 1). { split; [apply Rinv_0_lt_compat; lra|]. rewrite <- Rinv_1. apply Rinv_lt_contravar; lra. }
    split; [lra|]. rewrite Q. unfold sub, times. apply vec_ext; cbn [vx vy vz]; field; lra.
Qed.

(** ** C89: directions that are not computed *)
(** At the satellite itself nothing is defined; everywhere on the equator the azimuth is not
    a number, whatever the satellite. *)
Lemma equator_ang a b P : get_ang (NV (Fin a) (Fin b) (Inf false)) (fin_vec P) = NaN.
Proof.
  unfold get_ang, nv_norm. assert (E : nv_dot (NV (Fin a) (Fin b) (Inf false)) (NV (Fin a) (Fin b) (Inf false)) = Inf false) by reflexivity.
  rewrite E. change (n_sqrt (Inf false)) with (Inf false). fold (nv_norm (fin_vec P)). rewrite norm_fin.
  unfold nv_dot, fin_vec. cbn [nx ny nz n_mul n_add]. unfold n_scale. destruct (Rlt_dec 0 (norm P)) as [_|_].
  - destruct (Rlt_dec 0 (vz P)); [reflexivity|]. destruct (Rlt_dec (vz P) 0); reflexivity.
  - destruct (Rlt_dec (norm P) 0); destruct (Rlt_dec 0 (vz P)); try (destruct (Rlt_dec (vz P) 0)); reflexivity.
Qed.
Lemma azimuth_equator l sat : -6000 <= height_km l -> sin (lat_rad l) = 0 -> azimuth l sat = NaN.
Proof.
  intros H S. pose proof (radius_pos l H) as R. unfold azimuth. rewrite sub_fin, dot_fin, S. cbn [n_mul].
  rewrite (div_fin (dot _ _)) by nra. unfold n_div. destruct (Req_EM_T 0 0) as [_|N]; [|lra]. destruct (Rlt_dec 0 (radius l)) as [_|N]; [|lra].
  set (T := nv_sub (NV (Fin 0) (Fin 0) (Inf false)) _). change (nv_scale (Fin ?k) (fin_vec ?v)) with (fin_vec (times k v)). rewrite sub_fin.
  assert (E : T = NV (Fin (0 - itrs_x l)) (Fin (0 - itrs_y l)) (Inf false)) by reflexivity. rewrite E, equator_ang. destruct (n_lt _ _); reflexivity.
Qed.
Lemma ang_zero u : get_ang (fin_vec u) (fin_vec zero) = NaN.
Proof.
  unfold get_ang. rewrite dot_fin, !norm_fin. cbn [n_mul].
  assert (Z : norm zero = 0). { unfold norm, dot, zero. cbn [vx vy vz]. replace (0 * 0 + 0 * 0 + 0 * 0) with 0 by ring. apply sqrt_0. }
  rewrite Z. unfold n_div. destruct (Req_EM_T _ 0) as [_|N]; [|exfalso; apply N; ring].
  assert (D : dot u zero = 0) by (unfold dot, zero; cbn [vx vy vz]; ring). rewrite D. destruct (Rlt_dec 0 0); [lra|reflexivity].
Qed.
Theorem C89_azimuth_equator_refuted :
  forall n itrs l result, of_size n itrs -> -6000 <= height_km l -> itrs_to_azel itrs l = Ok result ->
    sin (lat_rad l) = 0 -> forall i, (i < n)%nat -> nth i (az_azimuth result) (Fin 0) = NaN.
Proof.
  intros n p l r S H E S0 i I. rewrite (azel_ok n) in E by auto. injection E as <-. cbn [az_azimuth]. rewrite km_map_nth by auto. now apply azimuth_equator.
Qed.
(** Everywhere else it is a number, unless the satellite is on the line through the location
    and the centre of the Earth. *)
Theorem C89_azimuth_defined_partial :
  forall n itrs l result, of_size n itrs -> -6000 <= height_km l -> itrs_to_azel itrs l = Ok result ->
    sin (lat_rad l) <> 0 -> cos (lat_rad l) <> 0 ->
    forall i, (i < n)%nat -> (forall k, kilometres itrs i <> times k (itrs_of l)) ->
    exists x, nth i (az_azimuth result) NaN = Fin x.
Proof.
  intros n p l r S H E S0 C0 i I N. destruct (C60_azimuth_elevation_ranges n p l S H) as (r' & E' & _ & _ & _ & _ & Q). rewrite E in E'. injection E' as <-.
  destruct (Q i I) as (_ & Q2). destruct (Q2 S0 C0) as (x & X & _); [|now exists x]. intros k F. apply (N (k + 1)).
  pose proof (f_equal vx F). pose proof (f_equal vy F). pose proof (f_equal vz F). unfold sub, times in *. cbn [vx vy vz] in *. apply vec_ext; cbn [vx vy vz]; lra.
Qed.

(** ** C90: the zenith *)
(** The direction of the plumb line of the ellipsoid at a latitude and longitude. *)
Definition vertical (latitude longitude : R) : vec := V (cos latitude * cos longitude) (cos latitude * sin longitude) (sin latitude).
Lemma vertical_par l k : -6000 <= height_km l -> times k (vertical (lat_rad l) (lon_rad l)) = itrs_of l ->
  sin (lat_rad l) * cos (lat_rad l) = 0.
Proof.
  intros H E. pose proof (n_h l H) as NH. pose proof (Np_bounds (lat_rad l)) as NB. pose proof A_pos. pose proof ecc2 as E2.
  pose proof (f_equal vx E) as X. pose proof (f_equal vy E) as Y. pose proof (f_equal vz E) as Z. rewrite g_x in X. rewrite g_y in Y. rewrite g_z in Z. unfold vertical, times in *. cbn [vx vy vz] in *.
  set (c := cos (lat_rad l)) in *. set (s := sin (lat_rad l)) in *. set (N := Np (lat_rad l)) in *. set (h := height_km l) in *. pose proof (sc2 (lon_rad l)) as T.
  set (c' := cos (lon_rad l)) in *. set (s' := sin (lon_rad l)) in *. clearbody c s N h c' s'.
  assert (K1 : k * c = (N + h) * c). { transitivity (k * c * (s' * s' + c' * c')); [rewrite T; ring|]. transitivity ((N + h) * c * (s' * s' + c' * c')); [|rewrite T; ring].
    transitivity (s' * (k * (c * s')) + c' * (k * (c * c'))); [ring|]. rewrite X, Y. ring. }
  assert (K2 : (N * e2) * (s * c) = 0). { assert (k * c * s = (N + h) * c * s) by (rewrite K1; ring). assert (k * s * c = (N * (1 - e2) + h) * s * c) by (rewrite Z; ring). nra. }
  apply Rmult_integral in K2 as [K2|K2]; [|exact K2]. exfalso. nra.
Qed.
Theorem C90_zenith_refuted :
  forall n itrs l result, of_size n itrs -> -6000 <= height_km l -> itrs_to_azel itrs l = Ok result ->
    sin (lat_rad l) <> 0 -> cos (lat_rad l) <> 0 ->
    forall i, (i < n)%nat -> same_direction (sub (kilometres itrs i) (itrs_of l)) (vertical (lat_rad l) (lon_rad l)) ->
    exists x, nth i (az_elevation result) NaN = Fin x /\ x < 90.
Proof.
  intros n p l r S H E S0 C0 i I (k & K & D). rewrite (azel_ok n) in E by auto. injection E as <-. cbn [az_elevation]. rewrite km_map_nth by auto.
  set (d := sub (kilometres p i) (itrs_of l)) in *. set (v := vertical (lat_rad l) (lon_rad l)) in *.
  assert (N : kilometres p i <> itrs_of l).
  { intros F. assert (Z : d = zero) by (now apply sub_zero). rewrite Z in D. pose proof (f_equal vz D) as DZ. unfold zero, times, v, vertical in DZ. cbn [vz] in DZ. symmetry in DZ. apply Rmult_integral in DZ as [DZ|DZ]; [lra|contradiction]. }
  destruct (elevation_real l _ H N) as (x & X & B & Q). exists x. split; [exact X|]. destruct (Req_dec x 90) as [E|E]; [|lra]. exfalso.
  destruct (proj1 Q E) as (m & M & F). fold d in F. rewrite D in F.
  assert (Z : sin (lat_rad l) * cos (lat_rad l) = 0).
  { apply (vertical_par l (k / m) H). fold v. pose proof (f_equal vx F) as X1. pose proof (f_equal vy F) as Y1. pose proof (f_equal vz F) as Z1. unfold times in *. cbn [vx vy vz] in *.
    apply vec_ext; cbn [vx vy vz]; apply Rmult_eq_reg_l with m; try lra; [rewrite <- X1|rewrite <- Y1|rewrite <- Z1]; field; lra. }
  apply Rmult_integral in Z as [Z|Z]; contradiction.
Qed.
(** On the equator and at the poles the line from the centre of the Earth is vertical. *)
Theorem C90_zenith_partial :
  forall n itrs l result, of_size n itrs -> -6000 <= height_km l -> itrs_to_azel itrs l = Ok result ->
    sin (lat_rad l) = 0 \/ cos (lat_rad l) = 0 ->
    forall i, (i < n)%nat -> same_direction (sub (kilometres itrs i) (itrs_of l)) (vertical (lat_rad l) (lon_rad l)) ->
    nth i (az_elevation result) NaN = Fin 90.
Proof.
  intros n p l r S H E S0 i I (k & K & D). rewrite (azel_ok n) in E by auto. injection E as <-. cbn [az_elevation]. rewrite km_map_nth by auto.
  set (d := sub (kilometres p i) (itrs_of l)) in *. pose proof (n_h l H) as NH. pose proof (n_h' l H) as NH'.
  set (N := Np (lat_rad l)) in *. set (m := if Req_EM_T (sin (lat_rad l)) 0 then N + height_km l else N * (1 - e2) + height_km l).
  assert (M : 0 < m) by (unfold m; destruct (Req_EM_T _ _); lra).
  assert (G : itrs_of l = times m (vertical (lat_rad l) (lon_rad l))).
  { apply vec_ext; rewrite ?g_x, ?g_y, ?g_z; unfold times, vertical; cbn [vx vy vz]; fold N; unfold m; destruct (Req_EM_T _ _) as [Q|Q]; try (destruct S0 as [S0|S0]; [contradiction|]); try rewrite Q; try rewrite S0; ring. }
  assert (V0 : vertical (lat_rad l) (lon_rad l) <> zero).
  { intros F. apply (g_nz l H). rewrite G, F. unfold times, zero. apply vec_ext; cbn [vx vy vz]; ring. }
  assert (SD : same_direction d (itrs_of l)).
  { exists (k / m). split; [now apply Rdiv_lt_0_compat|]. rewrite D, G. unfold times. apply vec_ext; cbn [vx vy vz]; field; lra. }
  assert (NE : kilometres p i <> itrs_of l).
  { intros F. assert (Z : d = zero) by (now apply sub_zero). rewrite Z in D. apply V0. pose proof (f_equal vx D). pose proof (f_equal vy D). pose proof (f_equal vz D). unfold times, zero in *. cbn [vx vy vz] in *.
    apply vec_ext; cbn [vx vy vz]; apply Rmult_eq_reg_l with k; lra. }
  destruct (elevation_real l _ H NE) as (x & X & B & Q). rewrite X. f_equal. now apply Q.
Qed.

Print Assumptions C64_distance.
Print Assumptions C64_units.
Print Assumptions C64_look_angle.
Print Assumptions C89_azimuth_equator_refuted.
Print Assumptions C89_azimuth_defined_partial.
Print Assumptions C90_zenith_refuted.
Print Assumptions C90_zenith_partial.
