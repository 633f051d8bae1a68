(** C52-C55, C81, C82: times and astronomical angles. *)
From Coq Require Import List Reals Arith Lia Lra Psatz.
From Verif Require Import Py PyLemmas Time_Model Time_Spec Time_Proofs.
Import ListNotations.
Open Scope R_scope.
Open Scope list_scope.

(** ** C52: solar times and hour angles *)
Lemma utc_congruent jd : congruent 24 (24 * Rmod jd 1 - 12) (universal_hours jd).
Proof.
  destruct (Rmod_congruent jd 1) as (k & E). exists (k - 1)%Z. unfold universal_hours. rewrite minus_IZR. lra.
Qed.

Theorem C52_mean_solar_time :
  forall julian longitude k, fits (length julian) (length longitude) k ->
    exists out, mean_solar_time julian longitude = Ok out /\ length out = k /\
      forall i, (i < k)%nat ->
        normal_form 24 (nth i out 0) (universal_hours (entry julian i) + entry longitude i / 15).
Proof.
  intros julian lon k F. unfold mean_solar_time.
  destruct (broadcast_ok Rplus (map (fun jd => 24 * Rmod jd 1 - 12) julian) (map (fun x => x / 15) lon) k) as (s & E & L & P).
  { now rewrite !map_length. }
  rewrite E. cbn [bind]. eexists. split; [reflexivity|]. rewrite map_length. split; auto. intros i I.
  assert (I' : (i < length s)%nat) by lia.
  rewrite (nth_indep _ 0 (Rmod 0 24)) by now rewrite map_length. rewrite (map_nth (fun x => Rmod x 24)).
  rewrite P by auto. unfold fits in F. rewrite (entry_map (fun jd => 24 * Rmod jd 1 - 12)), (entry_map (fun x => x / 15)) by lia.
  eapply normal_form_congruent; [apply Rmod_normal; lra|]. apply congruent_plus; [apply utc_congruent|apply congruent_refl].
Qed.
(** True solar time is mean solar time plus the equation of time. *)
Theorem C52_true_solar_time :
  forall julian longitude k, fits (length julian) (length longitude) k ->
    exists out, true_solar_time julian longitude = Ok out /\ length out = k /\
      forall i, (i < k)%nat ->
        normal_form 24 (nth i out 0)
          (universal_hours (entry julian i) + entry longitude i / 15 + rad_to_deg (equation_of_time (entry julian i)) / 15).
Proof.
  intros julian lon k F. unfold true_solar_time.
  destruct (broadcast_ok Rplus lon (map (fun jd => rad_to_deg (equation_of_time jd)) julian) k) as (s & E & L & P).
  { rewrite !map_length. now apply fits_sym. }
  rewrite E. cbn [bind].
  destruct (broadcast_ok Rplus (map (fun jd => 24 * Rmod jd 1 - 12) julian) (map (fun x => x / 15) s) k) as (s' & E' & L' & P').
  { rewrite !map_length. rewrite L. unfold fits in *. lia. }
  rewrite E'. cbn [bind]. eexists. split; [reflexivity|]. rewrite map_length. split; auto. intros i I.
  rewrite (nth_indep _ 0 (Rmod 0 24)) by (rewrite map_length; lia). rewrite (map_nth (fun x => Rmod x 24)).
  rewrite P' by auto. unfold fits in F. rewrite (entry_map (fun jd => 24 * Rmod jd 1 - 12)), (entry_map (fun x => x / 15)) by lia.
  rewrite (entry_same s) by lia. rewrite P by auto. rewrite (entry_map (fun jd => rad_to_deg (equation_of_time jd))) by lia.
  eapply normal_form_congruent; [apply Rmod_normal; lra|].
  replace (universal_hours (entry julian i) + entry lon i / 15 + rad_to_deg (equation_of_time (entry julian i)) / 15)
    with (universal_hours (entry julian i) + (entry lon i + rad_to_deg (equation_of_time (entry julian i))) / 15) by lra.
  apply congruent_plus; [apply utc_congruent|apply congruent_refl].
Qed.
(** Hour angles are twelve hours less. *)
Theorem C52_hour_angles :
  forall julian longitude k, fits (length julian) (length longitude) k ->
    exists mean true mean_angle true_angle,
      mean_solar_time julian longitude = Ok mean /\ true_solar_time julian longitude = Ok true /\
      mean_hour_angle julian longitude = Ok mean_angle /\ true_hour_angle julian longitude = Ok true_angle /\
      length mean_angle = k /\ length true_angle = k /\
      forall i, (i < k)%nat ->
        normal_form 24 (nth i mean_angle 0) (nth i mean 0 - 12) /\
        normal_form 24 (nth i true_angle 0) (nth i true 0 - 12).
Proof.
  intros julian lon k F. destruct (C52_mean_solar_time julian lon k F) as (m & E & L & _).
  destruct (C52_true_solar_time julian lon k F) as (t & E' & L' & _).
  unfold mean_hour_angle, true_hour_angle. rewrite E, E'. cbn [bind].
  do 4 eexists. repeat (split; [reflexivity|]). rewrite !map_length. split; auto. split; auto. intros i I.
  rewrite !(nth_indep (map _ _) 0 (Rmod (0 - 12) 24)) by (rewrite map_length; lia). rewrite !(map_nth (fun x => Rmod (x - 12) 24)).
  split; apply Rmod_normal; lra.
Qed.
Theorem C52_ut1 :
  forall julian, exists out, ut1 julian = Ok out /\ length out = length julian /\
    forall i, (i < length julian)%nat -> normal_form 24 (nth i out 0) (universal_hours (nth i julian 0)).
Proof.
  intros julian. destruct (C52_mean_solar_time julian [0] (length julian)) as (out & E & L & P).
  { right. right. auto. }
  exists out. split; auto. split; auto. intros i I. specialize (P i I). rewrite entry_1, entry_same in P by lia.
  now replace (universal_hours (nth i julian 0) + 0 / 15) with (universal_hours (nth i julian 0)) in P by lra.
Qed.
(** Fifteen degrees to the east the clock is one hour ahead. *)
Theorem C52_time_zones :
  forall julian longitude k, fits (length julian) (length longitude) k ->
    exists a b c d,
      mean_solar_time julian longitude = Ok a /\ mean_solar_time julian (map (fun x => x + 15) longitude) = Ok b /\
      true_solar_time julian longitude = Ok c /\ true_solar_time julian (map (fun x => x + 15) longitude) = Ok d /\
      forall i, (i < k)%nat ->
        normal_form 24 (nth i b 0) (nth i a 0 + 1) /\ normal_form 24 (nth i d 0) (nth i c 0 + 1).
Proof.
  intros julian lon k F.
  assert (F' : fits (length julian) (length (map (fun x => x + 15) lon)) k) by now rewrite map_length.
  destruct (C52_mean_solar_time julian lon k F) as (a & Ea & La & Pa).
  destruct (C52_mean_solar_time julian _ k F') as (b & Eb & Lb & Pb).
  destruct (C52_true_solar_time julian lon k F) as (c & Ec & Lc & Pc).
  destruct (C52_true_solar_time julian _ k F') as (d & Ed & Ld & Pd).
  exists a, b, c, d. do 4 (split; [assumption|]). intros i H. clear F'; unfold fits in F. split.
  - destruct (Pa i H) as (_ & (m & Qa)). destruct (Pb i H) as (Rb & (n & Qb)). split; [exact Rb|].
    rewrite (entry_map (fun x => x + 15)) in Qb by lia. exists (n - m)%Z. rewrite minus_IZR. lra.
  - destruct (Pc i H) as (_ & (m & Qa)). destruct (Pd i H) as (Rb & (n & Qb)). split; [exact Rb|].
    rewrite (entry_map (fun x => x + 15)) in Qb by lia. exists (n - m)%Z. rewrite minus_IZR. lra.
Qed.
(** Arrays that do not fit are rejected. *)
Theorem C52_shapes :
  forall julian longitude, (forall k, ~ fits (length julian) (length longitude) k) ->
    mean_solar_time julian longitude = Raise ValueError /\ true_solar_time julian longitude = Raise ValueError /\
    mean_hour_angle julian longitude = Raise ValueError /\ true_hour_angle julian longitude = Raise ValueError.
Proof.
  intros julian lon F. unfold mean_hour_angle, true_hour_angle, mean_solar_time, true_solar_time.
  rewrite (broadcast_raise _ (map (fun jd => 24 * Rmod jd 1 - 12) julian) (map (fun x => x / 15) lon)) by now rewrite !map_length.
  rewrite (broadcast_raise _ lon (map (fun jd => rad_to_deg (equation_of_time jd)) julian)); [auto|].
  rewrite map_length. intros k G. now apply (F k), fits_sym.
Qed.
(** Noon of 1 January 2000 in Greenwich, at three longitudes. *)
Example C52_example : fits (length [2451545]) (length [0; 150; -75]) 3 /\
  mean_solar_time [2451545] [0; 150; -75] = Ok [12; 22; 7].
Proof.
  split; [right; left; auto|].
  destruct (C52_mean_solar_time [2451545] [0; 150; -75] 3) as (out & E & L & P); [right; left; auto|].
  rewrite E. f_equal. destruct out as [|a [|b [|c [|]]]]; try discriminate L.
  assert (Pa := P 0%nat ltac:(lia)). assert (Pb := P 1%nat ltac:(lia)). assert (Pc := P 2%nat ltac:(lia)). cbn in Pa, Pb, Pc.
  unfold universal_hours in *.
  rewrite (normal_form_unique 24 a 12 _ ltac:(lra) Pa). 2:{ split; [lra|]. exists (-2451545)%Z. lra. }
  rewrite (normal_form_unique 24 b 22 _ ltac:(lra) Pb). 2:{ split; [lra|]. exists (-2451545)%Z. lra. }
  rewrite (normal_form_unique 24 c 7 _ ltac:(lra) Pc). 2:{ split; [lra|]. exists (-2451545)%Z. lra. }
  reflexivity.
Qed.

(** ** C54: astronomical angles *)
(** The polynomials are those documented (Meeus, chapter 22; Koks, page 12). *)
Theorem C54_rotation_and_nutation_angles :
  forall jd, let T := T_of jd in
    normal_form 360 (earth_rotation_angle jd) (280.46 + 360.9856123035484 * (jd - 2451545)) /\
    match nutation_angles jd with
    | (d, m, n, f, o) =>
        normal_form 360 d (297.85036 + 445267.111480 * T - 0.0019142 * T ^ 2 + T ^ 3 / 189474) /\
        normal_form 360 m (357.52772 + 35999.050340 * T - 0.0001603 * T ^ 2 - T ^ 3 / 300000) /\
        normal_form 360 n (134.96298 + 477198.867398 * T + 0.0086972 * T ^ 2 + T ^ 3 / 56250) /\
        normal_form 360 f (93.27191 + 483202.017538 * T - 0.0036825 * T ^ 2 + T ^ 3 / 327270) /\
        normal_form 360 o (125.04452 - 1934.136261 * T + 0.0020708 * T ^ 2 + T ^ 3 / 450000)
    end.
Proof.
  intros jd T. split.
  - eapply normal_form_congruent; [apply Rmod_normal; lra|]. apply congruent_eq.
    unfold earth_rotation_rate_deg_per_day, era_at_jd2000_deg, jd2000_date. lra.
  - cbn [nutation_angles]. repeat split; try (apply Rmod_range; lra); apply Rmod_congruent.
Qed.
Lemma amplitude k x : 0 <= k -> -1 <= x <= 1 -> - k <= k * x <= k.
Proof. intros. nra. Qed.
Theorem C54_nutation_bounded :
  forall jd, -18.96 <= fst (nutation_components jd) <= 18.96 /\ -9.96 <= snd (nutation_components jd) <= 9.96.
Proof.
  intros jd. unfold nutation_components. cbn [fst snd]. unfold nutation_in_longitude, nutation_in_obliquity. cbv zeta.
  set (o := deg_to_rad (longitude_of_ascending_node jd)). set (l := deg_to_rad (mean_longitude_of_sun jd)).
  set (l' := deg_to_rad (mean_longitude_of_moon jd)).
  pose proof (sin_abs o). pose proof (sin_abs (2 * l)). pose proof (sin_abs (2 * l')). pose proof (sin_abs (2 * o)).
  pose proof (cos_abs o). pose proof (cos_abs (2 * l)). pose proof (cos_abs (2 * l')). pose proof (cos_abs (2 * o)).
  split; lra.
Qed.
Theorem C54_sun_right_ascension : forall jd, 0 <= sun_right_ascension jd < 2 * PI.
Proof. intros jd. pose proof PI_RGT_0. apply Rmod_range. lra. Qed.
(** At the epoch the Earth rotation angle is 280.46 degrees, one and a half days later it is
    past a full turn. *)
Example C54_example : earth_rotation_angle 2451545 = 280.46 /\ earth_rotation_angle 2451546.5 = 101.9384184553226.
Proof.
  unfold earth_rotation_angle, earth_rotation_rate_deg_per_day, era_at_jd2000_deg, jd2000_date. split.
  - rewrite Rmod_id; lra.
  - apply (normal_form_unique 360 _ _ (280.46 + 360.9856123035484 * 1.5)); [lra| |].
    + eapply normal_form_congruent; [apply Rmod_normal; lra|]. apply congruent_eq. lra.
    + split; [lra|]. exists (-2)%Z. lra.
Qed.

(** ** C53: sidereal times *)
Lemma equinoxes_bound jd : -18.96 / 15 <= equation_of_equinoxes jd <= 18.96 / 15.
Proof.
  unfold equation_of_equinoxes. destruct (C54_nutation_bounded jd) as (A & _).
  pose proof (cos_abs (deg_to_rad (apparent_obliquity jd))) as B. set (x := fst _) in *. set (c := cos _) in *.
  assert (-18.96 <= x * c <= 18.96) by nra. lra.
Qed.
Lemma hours_of_degrees a b : normal_form 360 a b -> normal_form 24 (a / 15) (b / 15).
Proof. intros (A & (k & E)). split; [lra|]. exists k. lra. Qed.

Theorem C53_gmst :
  forall jd, let T := T_of jd in
    normal_form 24 (gmst jd) ((280.46 + 360.98564736629 * (jd - 2451545) + 0.000387933 * T ^ 2 - T ^ 3 / 38710000) / 15).
Proof.
  intros jd T. unfold gmst. cbv zeta. apply hours_of_degrees.
  eapply normal_form_congruent; [apply Rmod_normal; lra|]. apply congruent_eq.
  change (centuries jd) with T. unfold era_at_jd2000_deg, days_in_century.
  replace (360.98564736629 * T * 36525) with (360.98564736629 * (jd - 2451545)); [reflexivity|].
  unfold T, T_of. set (x := 360.98564736629). field.
Qed.
Theorem C53_local_sidereal_times :
  forall julian longitude k, fits (length julian) (length longitude) k ->
    exists angle mean apparent,
      mean_hour_angle julian longitude = Ok angle /\
      lmst julian longitude = Ok mean /\ last_ julian longitude = Ok apparent /\
      length mean = k /\ length apparent = k /\
      forall i, (i < k)%nat ->
        normal_form 24 (nth i mean 0) (nth i angle 0 + rad_to_hourangle (sun_right_ascension (entry julian i))) /\
        normal_form 24 (nth i apparent 0) (nth i mean 0 + equation_of_equinoxes (entry julian i) / 3600).
Proof.
  intros julian lon k F.
  destruct (C52_hour_angles julian lon k F) as (m & tt0 & angle & ta & Em & Et & Ea & Eta & La & Lta & Pa).
  destruct (C52_mean_solar_time julian lon k F) as (m' & Em' & Lm & Pm). assert (m' = m) by congruence. subst m'.
  destruct (C52_ut1 julian) as (u & Eu & Lu & Pu).
  unfold lmst, last_. rewrite Ea, Eu. cbn [bind].
  set (ra := map (fun jd => rad_to_hourangle (sun_right_ascension jd)) julian).
  assert (Lra : length ra = length julian) by apply map_length.
  destruct (broadcast_ok Rplus angle ra k) as (s & -> & Ls & Ps). { rewrite Lra, La. unfold fits in *. lia. }
  destruct (broadcast_ok Rplus (map (fun x => x - 12) u) ra (length julian)) as (v & -> & Lv & Pv).
  { rewrite map_length, Lu, Lra. left. auto. }
  cbn [bind].
  destruct (broadcast_ok Rplus v (map (fun jd => arcsec_to_deg (equation_of_equinoxes jd)) julian) (length julian)) as (w & -> & Lw & Pw).
  { rewrite map_length, Lv. left. auto. }
  cbn [bind].
  destruct (broadcast_ok Rplus w (map (fun x => x / 15) lon) k) as (z & -> & Lz & Pz). { now rewrite map_length, Lw. }
  cbn [bind]. do 3 eexists. repeat (split; [reflexivity|]). rewrite !map_length. split; auto. split; auto. intros i I.
  rewrite !(nth_indep (map _ _) 0 (Rmod 0 24)) by (rewrite map_length; lia). rewrite !(map_nth (fun x => Rmod x 24)).
  assert (J : (i < length julian \/ length julian = 1)%nat) by (unfold fits in F; lia).
  assert (Jl : (i < length lon \/ length lon = 1)%nat) by (unfold fits in F; lia).
  rewrite Ps, (entry_same angle) by lia. unfold ra. rewrite (entry_map (fun jd => rad_to_hourangle (sun_right_ascension jd))) by auto.
  set (a := rad_to_hourangle (sun_right_ascension (entry julian i))) in *.
  split; [apply Rmod_normal; lra|].
  eapply normal_form_congruent; [apply Rmod_normal; lra|].
  rewrite Pz by auto.
  assert (X : exists j, (j < length julian)%nat /\ entry julian i = nth j julian 0 /\
     entry w i = nth j w 0 /\ (length julian <> 1%nat -> j = i)).
  { unfold entry. rewrite Lw. destruct (Nat.eqb_spec (length julian) 1) as [E1|E1].
    - exists 0%nat. repeat split; auto; lia.
    - exists i. repeat split; auto; lia. }
  destruct X as (j & Jj & Xj & Wj & Cj).
  rewrite Wj, Pw by auto. rewrite (entry_same v), Pv by lia. rewrite (entry_map (fun x => x - 12)) by lia.
  rewrite (entry_same u) by lia. unfold ra.
  rewrite (entry_map (fun jd => rad_to_hourangle (sun_right_ascension jd))), (entry_map (fun jd => arcsec_to_deg (equation_of_equinoxes jd))) by lia.
  rewrite (entry_map (fun x => x / 15)) by auto.
  rewrite (entry_same julian j) by auto. rewrite <- Xj. fold a. unfold arcsec_to_deg.
  destruct (Pa i I) as ((_ & (k1 & E1)) & _). destruct (Pm i I) as (_ & (k2 & E2)).
  destruct (Pu j Jj) as (_ & (k3 & E3)). rewrite <- Xj in E3.
  destruct (Rmod_congruent (nth i angle 0 + a) 24) as (k4 & E4).
  exists (k3 - k1 - k2 - k4)%Z. rewrite !minus_IZR. lra.
Qed.
(** Greenwich apparent sidereal time is not reduced ... *)
Theorem C53_gast_partial :
  forall jd, gast jd = gmst jd + equation_of_equinoxes jd / 3600 /\ -0.00036 < gast jd < 24.00036.
Proof.
  intros jd. assert (E : gast jd = gmst jd + equation_of_equinoxes jd / 3600) by (unfold gast, arcsec_to_deg; lra).
  split; auto. rewrite E. pose proof (equinoxes_bound jd). destruct (C53_gmst jd) as (A & _). lra.
Qed.
(** ... and at about 17:17 on 1 January 2000 it is negative. *)
Theorem C53_gast_refuted : exists jd, gast jd < 0.
Proof.
  exists 2451545.22034119. destruct (C53_gast_partial 2451545.22034119) as (-> & _).
  assert (Tj : T_of 2451545.22034119 = 0.22034119 / 36525) by (unfold T_of; lra).
  assert (G : 0 <= gmst 2451545.22034119 <= 0.000001).
  { pose proof (C53_gmst 2451545.22034119) as N. cbv zeta in N. rewrite Tj in N.
    set (raw := (280.46 + 360.98564736629 * (2451545.22034119 - 2451545) + 0.000387933 * (0.22034119 / 36525) ^ 2 - (0.22034119 / 36525) ^ 3 / 38710000) / 15) in *.
    assert (Rw : 24 <= raw <= 24.000001) by (unfold raw; lra).
    assert (E : gmst 2451545.22034119 = raw - 24).
    { apply (normal_form_unique 24 _ _ raw); [lra|exact N|]. split; [lra|]. exists (-1)%Z. lra. }
    rewrite E. lra. }
  assert (Ps : fst (nutation_components 2451545.22034119) <= -6.84).
  { unfold nutation_components. cbn [fst]. unfold nutation_in_longitude. cbv zeta.
    set (l := deg_to_rad (mean_longitude_of_sun _)). set (l' := deg_to_rad (mean_longitude_of_moon _)).
    set (o := deg_to_rad (longitude_of_ascending_node _)).
    assert (O : 2 <= o <= 2.3).
    { unfold o, longitude_of_ascending_node. cbv zeta. change centuries with T_of. rewrite Tj. rewrite Rmod_id by lra.
      unfold deg_to_rad, deg_per_rad. lra. }
    assert (1 / 2 <= sin o).
    { pose proof PI_low. pose proof PI_high. replace (1 / 2) with (sin (PI - PI / 6)) by (rewrite sin_PI_x; apply sin_PI6).
      apply sin_decr_1; lra. }
    pose proof (sin_abs (2 * l)). pose proof (sin_abs (2 * l')). pose proof (sin_abs (2 * o)). lra. }
  assert (Ob : 0.4 <= deg_to_rad (apparent_obliquity 2451545.22034119) <= 0.42).
  { unfold apparent_obliquity. destruct (C54_nutation_bounded 2451545.22034119) as (_ & B).
    unfold mean_obliquity. cbv zeta. change centuries with T_of. rewrite Tj. unfold deg_to_rad, deg_per_rad, arcsec_to_deg. 
    set (x := snd _) in *. clearbody x. lra. }
  unfold equation_of_equinoxes. set (e := deg_to_rad _) in *. set (x := fst _) in *.
  pose proof (cos_lower e ltac:(lra)) as C. assert (C' : 0.9 <= cos e) by nra.
  assert (x * cos e <= - 6) by nra. lra.
Qed.

(** ** C55: the time object *)
Theorem C55_time_shape :
  (forall x offset, time_init (Scalar x) offset = Ok [x + offset]) /\
  (forall l offset, exists out, time_init (Vector l) offset = Ok out /\ length out = length l /\
     forall i x, nth_error l i = Some x -> nth_error out i = Some (x + offset)) /\
  (forall rows offset, time_init (Nested rows) offset = Raise ValueError).
Proof.
  split; [reflexivity|]. split; [|reflexivity]. intros l offset. eexists. split; [reflexivity|]. rewrite map_length. split; auto.
  intros i x E. now rewrite nth_error_map, E.
Qed.
Example C55_example : time_init (Vector [21545; 30000]) 2430000 = Ok [21545 + 2430000; 30000 + 2430000].
Proof. reflexivity. Qed.

(** ** C81: the equation of time is at most twenty minutes in the centuries around 2000 *)
Theorem C81_equation_of_time_bounded :
  forall jd, -1 <= T_of jd <= 1 -> -20 / 60 < rad_to_deg (equation_of_time jd) / 15 < 20 / 60.
Proof.
  intros jd T.
  assert (Ob : 0.4 <= deg_to_rad (apparent_obliquity jd) <= 0.41).
  { unfold apparent_obliquity. destruct (C54_nutation_bounded jd) as (_ & B).
    assert (M : 23.41 <= mean_obliquity jd <= 23.47).
    { unfold mean_obliquity. cbv zeta. change centuries with T_of. set (u := T_of jd / 100). assert (U : -0.01 <= u <= 0.01) by (unfold u; lra).
      assert (P : forall n, -0.01 <= u ^ S n <= 0.01).
      { induction n as [|n IH]; [lra|]. change (u ^ S (S n)) with (u * u ^ S n). nra. }
      pose proof (P 1%nat). pose proof (P 2%nat). pose proof (P 3%nat). pose proof (P 4%nat). pose proof (P 5%nat).
      pose proof (P 6%nat). pose proof (P 7%nat). pose proof (P 8%nat). pose proof (P 9%nat).
      set (u2 := u ^ 2) in *. set (u3 := u ^ 3) in *. set (u4 := u ^ 4) in *. set (u5 := u ^ 5) in *. set (u6 := u ^ 6) in *.
      set (u7 := u ^ 7) in *. set (u8 := u ^ 8) in *. set (u9 := u ^ 9) in *. set (u10 := u ^ 10) in *.
      clearbody u2 u3 u4 u5 u6 u7 u8 u9 u10. lra. }
    unfold deg_to_rad, deg_per_rad, arcsec_to_deg. set (x := snd _) in *. clearbody x. lra. }
  unfold equation_of_time. cbv zeta. set (e := earth_eccentricity jd).
  assert (Ee : 0.0166 <= e <= 0.01676).
  { unfold e, earth_eccentricity. cbv zeta. change centuries with T_of. set (t := T_of jd) in *. nra. }
  set (h := deg_to_rad (apparent_obliquity jd) / 2) in *. assert (H : 0.2 <= h <= 0.205) by (unfold h; lra). clearbody h. clear Ob.
  assert (Y : 0 <= tan h ^ 2 <= 0.044).
  { pose proof (cos_lower h ltac:(lra)) as C. pose proof (sin_upper h ltac:(lra)) as S1.
    pose proof PI_low. pose proof PI_high. pose proof (sin_ge_0 h ltac:(lra) ltac:(lra)) as S0.
    assert (C' : 0.978 <= cos h) by nra. unfold tan.
    assert (Q : 0 <= sin h / cos h <= 0.2097).
    { split; [apply Rmult_le_pos; [lra|left; apply Rinv_0_lt_compat; lra]|]. apply (Rmult_le_reg_r (cos h)); [lra|]. unfold Rdiv. rewrite Rmult_assoc, Rinv_l by lra. nra. }
    set (q := sin h / cos h) in *. clearbody q. split; nra. }
  set (y := tan h ^ 2) in *. clearbody y e.
  set (l := deg_to_rad (mean_longitude_of_sun jd)). set (m := deg_to_rad (mean_anomaly_of_sun jd)).
  pose proof (sin_abs (2 * l)) as A1. pose proof (sin_abs m) as A2. pose proof (cos_abs (2 * l)) as A3. pose proof (sin_abs (4 * l)) as A4. pose proof (sin_abs (2 * m)) as A5.
  set (a1 := sin (2 * l)) in *. set (a2 := sin m) in *. set (a3 := cos (2 * l)) in *. set (a4 := sin (4 * l)) in *. set (a5 := sin (2 * m)) in *.
  clearbody a1 a2 a3 a4 a5.
  assert (B1 : -0.044 <= y * a1 <= 0.044) by nra.
  assert (B2 : -0.03352 <= 2 * e * a2 <= 0.03352) by nra.
  assert (Bp : -1 <= a2 * a3 <= 1) by nra.
  assert (Bey : 0 <= 4 * e * y <= 0.00295) by nra.
  assert (B3 : -0.00295 <= 4 * e * y * a2 * a3 <= 0.00295) by nra.
  assert (By : 0 <= y ^ 2 <= 0.002) by nra.
  assert (B4 : -0.001 <= 0.5 * y ^ 2 * a4 <= 0.001) by nra.
  assert (Be : 0 <= 1.25 * e ^ 2 <= 0.0004) by nra.
  assert (B5 : -0.0004 <= 1.25 * e ^ 2 * a5 <= 0.0004) by nra.
  unfold rad_to_deg, deg_per_rad. lra.
Qed.
Example C81_example : -1 <= T_of 2456293.54167 <= 1.
Proof. unfold T_of. lra. Qed.

(** ** C82: local sidereal time *)
(** Moving east adds the longitude ... *)
Theorem C82_local_sidereal_time_partial :
  forall julian longitude shift k, fits (length julian) (length longitude) k ->
    exists a b c d,
      lmst julian longitude = Ok a /\ lmst julian (map (fun x => x + shift) longitude) = Ok b /\
      last_ julian longitude = Ok c /\ last_ julian (map (fun x => x + shift) longitude) = Ok d /\
      forall i, (i < k)%nat ->
        normal_form 24 (nth i b 0) (nth i a 0 + shift / 15) /\ normal_form 24 (nth i d 0) (nth i c 0 + shift / 15).
Proof.
  intros julian lon shift k F.
  assert (F' : fits (length julian) (length (map (fun x => x + shift) lon)) k) by now rewrite map_length.
  destruct (C52_mean_solar_time julian lon k F) as (m1 & Em1 & Lm1 & Pm1).
  destruct (C52_mean_solar_time julian _ k F') as (m2 & Em2 & Lm2 & Pm2).
  destruct (C52_hour_angles julian lon k F) as (m & t & h1 & h' & Em & _ & Eh1 & _ & Lh1 & _ & Ph1).
  destruct (C52_hour_angles julian _ k F') as (m' & t' & h2 & h'' & Em' & _ & Eh2 & _ & Lh2 & _ & Ph2).
  destruct (C53_local_sidereal_times julian lon k F) as (g1 & a & c & Eg1 & Ea & Ec & La & Lc & P1).
  destruct (C53_local_sidereal_times julian _ k F') as (g2 & b & d & Eg2 & Eb & Ed & Lb & Ld & P2).
  exists a, b, c, d. do 4 (split; [assumption|]). intros i I.
  assert (m = m1) by congruence. assert (m' = m2) by congruence. assert (g1 = h1) by congruence. assert (g2 = h2) by congruence. subst.
  destruct (Pm1 i I) as (_ & (k1 & E1)). destruct (Pm2 i I) as (_ & (k2 & E2)).
  rewrite (entry_map (fun x => x + shift)) in E2 by (unfold fits in F; lia).
  destruct (Ph1 i I) as ((_ & (k3 & E3)) & _). destruct (Ph2 i I) as ((_ & (k4 & E4)) & _).
  destruct (P1 i I) as ((_ & (k5 & E5)) & (_ & (k6 & E6))). destruct (P2 i I) as ((R7 & (k7 & E7)) & (R8 & (k8 & E8))).
  split; split; auto.
  - exists (k7 + k4 + k2 - k1 - k3 - k5)%Z. rewrite !minus_IZR, !plus_IZR. lra.
  - exists (k8 + k7 + k4 + k2 - k1 - k3 - k5 - k6)%Z. rewrite !minus_IZR, !plus_IZR. lra.
Qed.
(** ... but at Greenwich the local sidereal time is not the Greenwich sidereal time: at noon
    of 1 January 2000 it is more than a minute ahead. *)
Lemma right_ascension_at_epoch : 280.76 / 57.29577951308232 < sun_right_ascension 2451545 < 6.
Proof.
  assert (T0 : centuries 2451545 = 0) by (unfold centuries, jd2000_date, days_in_century; lra).
  pose proof PI_low as PL. pose proof PI_high as PH.
  assert (MA : mean_anomaly_of_sun 2451545 = 357.52772).
  { unfold mean_anomaly_of_sun. cbv zeta. rewrite T0, !pow_i by lia. rewrite Rmod_id; lra. }
  assert (ML : mean_longitude_of_sun 2451545 = 280.46645) by (unfold mean_longitude_of_sun; rewrite T0; lra).
  assert (MO : mean_obliquity 2451545 = 84381.448 / 3600).
  { unfold mean_obliquity. cbv zeta. rewrite T0. replace (0 / 100) with 0 by lra. rewrite !pow_i by lia. lra. }
  unfold sun_right_ascension. cbv zeta. rewrite MA, ML, MO, T0, !pow_i by lia. clear T0 MA ML MO.
  set (m := deg_to_rad 357.52772). assert (M : -0.045 <= m - 2 * PI <= -0.04) by (unfold m, deg_to_rad, deg_per_rad; lra).
  assert (S : forall n : nat, (1 <= n <= 3)%nat -> -0.045 * INR n <= sin (INR n * m) <= 0).
  { intros n N.
    replace (INR n * m) with (INR n * (m - 2 * PI) + 2 * INR n * PI) by ring. rewrite sin_period.
    assert (Nr : 1 <= INR n <= 3) by (destruct N as (N1 & N2); apply le_INR in N1, N2; cbn in N1, N2; lra).
    set (w := INR n * (m - 2 * PI)). assert (W : -0.045 * INR n <= w <= 0) by (unfold w; nra).
    replace w with (- (- w)) by ring. rewrite sin_neg. pose proof (sin_upper (- w) ltac:(lra)).
    pose proof (sin_ge_0 (- w) ltac:(lra) ltac:(lra)). lra. }
  pose proof (S 1%nat ltac:(lia)) as S1. pose proof (S 2%nat ltac:(lia)) as S2. pose proof (S 3%nat ltac:(lia)) as S3.
  cbn [INR] in S1, S2, S3. clear S.
  replace (1 * m) with m in S1 by ring. replace ((1 + 1) * m) with (2 * m) in S2 by ring.
  replace ((1 + 1 + 1) * m) with (3 * m) in S3 by ring.
  set (center := _ + 0.000289 * sin (3 * m)). assert (Ce : -0.09 <= center <= 0) by (unfold center; lra).
  clearbody center. clear S1 S2 S3 M. clearbody m. clear m.
  set (b := radians (280.46645 + center) - 3 * (PI / 2)).
  assert (B : 0.180 <= b <= 0.184) by (unfold b, radians; nra).
  replace (radians (280.46645 + center)) with (b + 3 * (PI / 2)) by (unfold b; ring). clearbody b.
  rewrite cos_plus, sin_plus. rewrite cos_3PI2, sin_3PI2.
  set (e := deg_to_rad (84381.448 / 3600)). assert (E : 0.409 <= e <= 0.4092) by (unfold e, deg_to_rad, deg_per_rad; lra). clearbody e.
  assert (CE : 0.9 <= cos e <= 0.9178).
  { pose proof (cos_lower e ltac:(lra)). pose proof (cos_upper e ltac:(lra)). assert (0.167 <= e ^ 2 <= 0.1675) by nra.
    replace (e ^ 4) with (e ^ 2 * e ^ 2) in * by ring. nra. }
  assert (SB : 0.1785 <= sin b <= 0.184).
  { pose proof (sin_lower b ltac:(lra)). pose proof (sin_upper b ltac:(lra)). assert (b ^ 3 <= 0.00624) by (replace (b ^ 3) with (b * b * b) by ring; assert (b * b <= 0.033856) by nra; nra). lra. }
  assert (CB : 0.98 <= cos b <= 1). { pose proof (cos_lower b ltac:(lra)). pose proof (COS_bound b). nra. }
  replace (cos b * 0 - sin b * -1) with (sin b) by ring. replace (sin b * 0 + cos b * -1) with (- cos b) by ring.
  unfold atan2. destruct (Rlt_dec 0 (sin b)) as [_|N]; [|lra].
  replace (cos e * - cos b / sin b) with (- (cos e * cos b / sin b)) by (field; lra). rewrite atan_opp.
  set (z := cos e * cos b / sin b).
  assert (Z1 : 1 < z). { unfold z. apply Rmult_lt_reg_r with (sin b); [lra|]. unfold Rdiv. rewrite Rmult_assoc, Rinv_l by lra. nra. }
  assert (A1 : PI / 4 < atan z) by (rewrite <- atan_1; now apply atan_increasing).
  pose proof (atan_bound z) as AB.
  assert (RM : Rmod (- atan z) (2 * PI) = 2 * PI - atan z).
  { apply normal_form_unique with (2 * PI) (- atan z); [lra|apply Rmod_normal; lra|]. split; [lra|]. exists (1)%Z. ring. }
  rewrite RM. split; [|lra].
  set (c := 280.76 / 57.29577951308232) in *. set (d := c - 3 * (PI / 2)).
  assert (D : 0.186 <= d <= 0.1888) by (unfold d, c; lra).
  cut (atan z < PI / 2 - d). { unfold d. lra. }
  rewrite <- (atan_tan (PI / 2 - d)) by lra. apply atan_increasing.
  unfold tan. rewrite sin_shift, cos_shift.
  assert (SD : 0 < sin d <= 0.1888) by (pose proof (sin_upper d ltac:(lra)); pose proof (sin_gt_0 d ltac:(lra) ltac:(lra)); lra).
  assert (CD : 0.982 <= cos d) by (pose proof (cos_lower d ltac:(lra)); nra).
  unfold z. apply Rmult_lt_reg_r with (sin b * sin d); [nra|].
  replace (cos e * cos b / sin b * (sin b * sin d)) with (cos e * cos b * sin d) by (field; lra).
  replace (cos d / sin d * (sin b * sin d)) with (cos d * sin b) by (field; lra).
  assert (cos e * cos b <= 0.9178) by nra. assert (cos e * cos b * sin d <= 0.9178 * 0.1888) by nra. nra.
Qed.
Theorem C82_local_sidereal_time_refuted :
  exists jd t, lmst [jd] [0] = Ok [t] /\ 0 <= gmst jd < 24 /\ gmst jd + 1 / 60 < t < 24.
Proof.
  exists 2451545.
  assert (T0 : centuries 2451545 = 0) by (unfold centuries, jd2000_date, days_in_century; lra).
  assert (G : gmst 2451545 = 280.46 / 15).
  { unfold gmst, era_at_jd2000_deg. cbv zeta. rewrite T0, !pow_i by lia. rewrite Rmod_id; lra. }
  destruct (C53_local_sidereal_times [2451545] [0] 1) as (h & a & c & Eh & Ea & _ & La & _ & P1); [left; auto|].
  destruct (C52_hour_angles [2451545] [0] 1) as (m & t & h1 & h' & Em & _ & Eh1 & _ & Lh1 & _ & Ph1); [left; auto|].
  destruct (C52_mean_solar_time [2451545] [0] 1) as (m1 & Em1 & Lm1 & Pm1); [left; auto|].
  assert (m = m1) by congruence. assert (h1 = h) by congruence. subst m1 h1.
  destruct a as [|x [|]]; try discriminate La. exists x. split; [assumption|].
  pose proof (proj1 (P1 0%nat ltac:(lia))) as Q1. pose proof (proj1 (Ph1 0%nat ltac:(lia))) as Q2. pose proof (Pm1 0%nat ltac:(lia)) as Q3.
  cbn [nth entry length] in Q1. set (m0 := nth 0 m 0) in *. set (h0 := nth 0 h 0) in *.
  assert (H3 : m0 = 12). { refine (normal_form_unique 24 _ _ _ _ Q3 _); [lra|]. split; [lra|]. exists (-2451545)%Z. cbn. unfold universal_hours. lra. }
  assert (H2 : h0 = 0). { refine (normal_form_unique 24 _ _ _ _ Q2 _); [lra|]. split; [lra|]. exists 0%Z. lra. }
  rewrite H2 in Q1. cbn in Q1. pose proof right_ascension_at_epoch as RA. unfold rad_to_hourangle in Q1.
  assert (H1 : x = 0 + sun_right_ascension 2451545 * (deg_per_rad / 15)).
  { refine (normal_form_unique 24 _ _ _ _ Q1 _); [lra|]. unfold deg_per_rad. split; [lra|]. exists 0%Z. lra. }
  rewrite G, H1. unfold deg_per_rad. lra.
Qed.
Example C82_case : fits (length [2451545; 2460000.25]) (length [7.5]) 2.
Proof. right. right. auto. Qed.

Print Assumptions C52_mean_solar_time.
Print Assumptions C52_true_solar_time.
Print Assumptions C52_hour_angles.
Print Assumptions C52_ut1.
Print Assumptions C52_time_zones.
Print Assumptions C52_shapes.
Print Assumptions C54_rotation_and_nutation_angles.
Print Assumptions C54_nutation_bounded.
Print Assumptions C54_sun_right_ascension.
Print Assumptions C53_gmst.
Print Assumptions C53_local_sidereal_times.
Print Assumptions C53_gast_partial.
Print Assumptions C53_gast_refuted.
Print Assumptions C55_time_shape.
Print Assumptions C81_equation_of_time_bounded.
Print Assumptions C82_local_sidereal_time_partial.
Print Assumptions C82_local_sidereal_time_refuted.
