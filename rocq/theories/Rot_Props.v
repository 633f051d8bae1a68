(** Theorems on the conversions between the celestial and the terrestrial frame, and on the
    position constructors: C56, C57, C65, C83-C85. *)
From Coq Require Import List Reals Arith Lia Lra Psatz.
From Verif Require Import Py PyLemmas Time_Model Time_Spec Time_Proofs Time_Props Rot_Model Rot_Spec Rot_Proofs.
Import ListNotations.
Open Scope R_scope.
Open Scope list_scope.

(** ** C56: inverse conversions *)
Definition accepted {A} (r : res A) : Prop := exists a, r = Ok a.
Lemma image_size {U} n t (f : R -> vec -> vec) (p : position U) u : of_size n p -> t = p_time p ->
  let l := map2 f (p_time p) (points p) in of_size n (Position t (map vx l) (map vy l) (map vz l) u : position U).
Proof.
  intros S -> l. assert (L : length (points p) = n) by now apply points_length.
  pose proof (proj1 S) as T. unfold of_size. cbn. rewrite !map_length. unfold l. rewrite map2_length by lia. auto.
Qed.
Theorem C56_gcrs_to_itrs_and_back :
  forall (U : Type) n (gcrs : position U), of_size n gcrs ->
    exists itrs, gcrs_to_itrs gcrs = Ok itrs /\ of_size n itrs /\ same_record gcrs itrs /\ itrs_to_gcrs itrs = Ok gcrs.
Proof.
  intros U n g S. rewrite (gcrs_to_itrs_ok n g S). eexists. split; [reflexivity|].
  split; [now apply image_size|]. split; [split; reflexivity|].
  rewrite (itrs_to_gcrs_ok n) by now apply image_size. cbn [p_time p_unit]. rewrite points_of, map2_comp.
  rewrite (map2_ext _ (fun _ y => y)) by apply to_gcrs_itrs.
  rewrite map2_snd by (rewrite (points_length n) by auto; apply S). f_equal. now apply position_eta with n.
Qed.
Theorem C56_itrs_to_gcrs_and_back :
  forall (U : Type) n (itrs : position U), of_size n itrs ->
    exists gcrs, itrs_to_gcrs itrs = Ok gcrs /\ of_size n gcrs /\ same_record itrs gcrs /\ gcrs_to_itrs gcrs = Ok itrs.
Proof.
  intros U n g S. rewrite (itrs_to_gcrs_ok n g S). eexists. split; [reflexivity|].
  split; [now apply image_size|]. split; [split; reflexivity|].
  rewrite (gcrs_to_itrs_ok n) by now apply image_size. cbn [p_time p_unit]. rewrite points_of, map2_comp.
  rewrite (map2_ext _ (fun _ y => y)) by apply to_itrs_gcrs.
  rewrite map2_snd by (rewrite (points_length n) by auto; apply S). f_equal. now apply position_eta with n.
Qed.
(** One time for all points works as well, in both directions ... *)
Lemma broadcast_one {A B C} (f : A -> B -> C) a l : np_broadcast f [a] l = Ok (map (f a) l).
Proof. unfold np_broadcast. destruct l as [|b [|c l]]; reflexivity. Qed.
Lemma rotate_one l a : rotate_by_earth_rotation_angle l [a] = Ok (map (rotate_row a) l).
Proof. unfold rotate_by_earth_rotation_angle. destruct l as [|b [|c l]]; reflexivity. Qed.
Lemma columns_same {U} (p : position U) : length (p_x p) = length (p_y p) -> length (p_y p) = length (p_z p) ->
  columns (p_x p) (p_y p) (p_z p) = Ok (points p) /\ map vx (points p) = p_x p /\ map vy (points p) = p_y p /\ map vz (points p) = p_z p.
Proof.
  intros E F. split. { unfold columns. rewrite E, F, Nat.eqb_refl. reflexivity. } now apply split_points.
Qed.
Lemma one_time_itrs {U} (p : position U) t : p_time p = [t] -> length (p_x p) = length (p_y p) -> length (p_y p) = length (p_z p) ->
  let l := map (to_itrs t) (points p) in gcrs_to_itrs p = Ok (Position [t] (map vx l) (map vy l) (map vz l) (p_unit p)).
Proof.
  intros T E F l. unfold gcrs_to_itrs. cbv zeta. rewrite T. destruct (columns_same p E F) as (-> & _). cbn [bind map].
  rewrite broadcast_one. cbn [bind]. rewrite broadcast_one. cbn [bind]. rewrite rotate_one. cbn [bind].
  rewrite position3d_ok by now rewrite !map_length. unfold l, to_itrs. now rewrite !map_map.
Qed.
Lemma one_time_gcrs {U} (p : position U) t : p_time p = [t] -> length (p_x p) = length (p_y p) -> length (p_y p) = length (p_z p) ->
  let l := map (to_gcrs t) (points p) in itrs_to_gcrs p = Ok (Position [t] (map vx l) (map vy l) (map vz l) (p_unit p)).
Proof.
  intros T E F l. unfold itrs_to_gcrs. cbv zeta. rewrite T. destruct (columns_same p E F) as (-> & _). cbn [bind map mapM].
  rewrite rotate_one. cbn [bind]. destruct (inv_of_ok _ (nutation_rigid t)) as (-> & _). destruct (inv_of_ok _ (precession_rigid t)) as (-> & _).
  destruct (inv_of_ok _ bias_rigid) as (-> & _). cbn [bind]. rewrite broadcast_one. cbn [bind]. rewrite broadcast_one. cbn [bind].
  rewrite position3d_ok by now rewrite !map_length. unfold l, to_gcrs. now rewrite !map_map.
Qed.
Lemma map_ext_id {A} (f : A -> A) l : (forall x, f x = x) -> map f l = l.
Proof. intros H. rewrite (map_ext f (fun x => x)) by exact H. apply map_id. Qed.
Theorem C56_one_time :
  forall (U : Type) t (p : position U),
    p_time p = [t] -> length (p_x p) = length (p_y p) -> length (p_y p) = length (p_z p) ->
    (exists q, gcrs_to_itrs p = Ok q /\ same_record p q /\ itrs_to_gcrs q = Ok p) /\
    (exists q, itrs_to_gcrs p = Ok q /\ same_record p q /\ gcrs_to_itrs q = Ok p).
Proof.
  intros U t p T E F. destruct (columns_same p E F) as (_ & X & Y & Z). split.
  - rewrite (one_time_itrs p t) by auto. eexists. split; [reflexivity|]. split; [split; auto|].
    rewrite (one_time_gcrs _ t) by (cbn; rewrite ?map_length; auto). cbn [p_unit]. rewrite points_of.
    assert (I : map (to_gcrs t) (map (to_itrs t) (points p)) = points p) by (rewrite map_map; apply map_ext_id; apply to_gcrs_itrs).
    rewrite I, X, Y, Z, <- T. now destruct p.
  - rewrite (one_time_gcrs p t) by auto. eexists. split; [reflexivity|]. split; [split; auto|].
    rewrite (one_time_itrs _ t) by (cbn; rewrite ?map_length; auto). cbn [p_unit]. rewrite points_of.
    assert (I : map (to_itrs t) (map (to_gcrs t) (points p)) = points p) by (rewrite map_map; apply map_ext_id; apply to_itrs_gcrs).
    rewrite I, X, Y, Z, <- T. now destruct p.
Qed.
(** ... but several times for a single point only from GCRS to ITRS. *)
Theorem C56_one_point :
  forall (U : Type) t1 t2 times x y z (u : U),
    let p := Position (t1 :: t2 :: times) [x] [y] [z] u in
    accepted (position3d (array1 (p_time p)) (array1 [x]) (array1 [y]) (array1 [z]) u) /\
    accepted (gcrs_to_itrs p) /\ itrs_to_gcrs p = Raise ValueError.
Proof.
  intros U t1 t2 ts x y z u p. split; [eexists; reflexivity|]. split; [|reflexivity].
  unfold gcrs_to_itrs. cbv zeta. cbn [p_time p_x p_y p_z p]. unfold columns. cbn [length Nat.eqb andb bind combine map fst snd].
  assert (BR : forall A B C (f : A -> B -> C) a b l y, np_broadcast f (a :: b :: l) [y] = Ok (map (fun x => f x y) (a :: b :: l))) by reflexivity.
  rewrite BR. cbn [bind].
  rewrite broadcast_same by (cbn [length map]; now rewrite !map_length). cbn [bind].
  unfold rotate_by_earth_rotation_angle. cbn [length]. rewrite map2_length by (cbn [length map]; now rewrite !map_length).
  cbn [length map]. rewrite !map_length, Nat.eqb_refl. cbn [bind]. rewrite position3d_ok by now rewrite !map_length. eexists. reflexivity.
Qed.

Example C56_case : of_size 2 (Position [2451545; 2459000.25] [7000; 0] [0; -6900.5] [100; 200] tt).
Proof. repeat split. Qed.

(** ** C57: rigid rotations *)
Lemma image_point {U} n (f : R -> vec -> vec) (p : position U) u i : of_size n p -> (i < n)%nat ->
  let l := map2 f (p_time p) (points p) in
  point (Position (p_time p) (map vx l) (map vy l) (map vz l) u : position U) i = f (nth i (p_time p) 0) (point p i).
Proof.
  intros S I l. assert (S' : of_size n (Position (p_time p) (map vx l) (map vy l) (map vz l) u : position U)) by now apply image_size.
  rewrite <- (point_nth n) by auto. rewrite points_of. unfold l.
  assert (L : length (points p) = n) by now apply points_length. pose proof (proj1 S) as T.
  rewrite (nth_map2 _ _ _ _ 0 (V 0 0 0)) by lia. now rewrite (point_nth n).
Qed.
Lemma to_gcrs_rigid jd : rigid (to_gcrs jd).
Proof.
  destruct (to_itrs_rigid jd) as (D & E). split; intros.
  - now rewrite <- D, !to_itrs_gcrs.
  - now rewrite <- E, !to_itrs_gcrs.
Qed.
(** Any three points given at the same time keep their mutual products, hence lengths,
    distances and angles, and their orientation. *)
Theorem C57_rigid :
  forall (U : Type) n (a b c a' b' c' : position U),
    of_size n a -> of_size n b -> of_size n c -> p_time b = p_time a -> p_time c = p_time a ->
    (gcrs_to_itrs a = Ok a' /\ gcrs_to_itrs b = Ok b' /\ gcrs_to_itrs c = Ok c') \/
    (itrs_to_gcrs a = Ok a' /\ itrs_to_gcrs b = Ok b' /\ itrs_to_gcrs c = Ok c') ->
    forall i, (i < n)%nat ->
      dot (point a' i) (point b' i) = dot (point a i) (point b i) /\
      norm (sub (point a' i) (point b' i)) = norm (sub (point a i) (point b i)) /\
      volume (point a' i) (point b' i) (point c' i) = volume (point a i) (point b i) (point c i).
Proof.
  intros U n a b c a' b' c' Sa Sb Sc Tb Tc H i I.
  assert (G : exists f, rigid f /\ point a' i = f (point a i) /\ point b' i = f (point b i) /\ point c' i = f (point c i)).
  { destruct H as [(A & B & C)|(A & B & C)].
    - exists (to_itrs (nth i (p_time a) 0)). split; [apply to_itrs_rigid|].
      rewrite (gcrs_to_itrs_ok n) in A, B, C by auto. injection A as <-. injection B as <-. injection C as <-.
      rewrite !(image_point n) by auto. now rewrite Tb, Tc.
    - exists (to_gcrs (nth i (p_time a) 0)). split; [apply to_gcrs_rigid|].
      rewrite (itrs_to_gcrs_ok n) in A, B, C by auto. injection A as <-. injection B as <-. injection C as <-.
      rewrite !(image_point n) by auto. now rewrite Tb, Tc. }
  destruct G as (f & (D & Vo) & -> & -> & ->). rewrite D, Vo. split; auto. split; auto.
  unfold norm. f_equal.
  assert (Ex : forall p q, dot (sub p q) (sub p q) = dot p p - 2 * dot p q + dot q q) by (intros; unfold dot, sub; cbn; ring).
  now rewrite !Ex, !D.
Qed.
Example C57_case :
  exists itrs, gcrs_to_itrs (Position [2451545] [7000] [0] [0] tt) = Ok itrs /\ norm (point itrs 0) = 7000.
Proof.
  set (g := Position [2451545] [7000] [0] [0] tt). set (o := Position [2451545] [0] [0] [0] tt).
  assert (S : of_size 1 g) by (repeat split). assert (So : of_size 1 o) by (repeat split).
  destruct (C56_gcrs_to_itrs_and_back unit 1 g S) as (i & E & _). exists i. split; auto.
  destruct (C57_rigid unit 1 g g g i i i S S S eq_refl eq_refl (or_introl (conj E (conj E E))) 0%nat) as (D & _); [lia|].
  unfold norm. rewrite D. unfold dot, point. cbn. replace (7000 * 7000 + 0 * 0 + 0 * 0) with (7000 * 7000) by ring.
  apply sqrt_square. lra.
Qed.

(** ** C65: sizes of positions *)
(** The exact condition: rank one, and two neighbouring arrays (in the order time, x, y, z)
    of the same length. *)
Theorem C65_position_sizes_partial :
  forall (U : Type) (time x y z : ndarray) (u : U),
    let n := fun a => length (a_data a) in
    (accepted (position3d time x y z u) <->
       a_ndim time = 1%nat /\ a_ndim x = 1%nat /\ a_ndim y = 1%nat /\ a_ndim z = 1%nat /\
       (n time = n x \/ n x = n y \/ n y = n z)) /\
    (accepted (position2d time x y u) <->
       a_ndim time = 1%nat /\ a_ndim x = 1%nat /\ a_ndim y = 1%nat /\ (n time = n x \/ n x = n y)) /\
    (position3d time x y z u = Raise ValueError \/ position3d time x y z u = Ok (Position (a_data time) (a_data x) (a_data y) (a_data z) u)) /\
    (position2d time x y u = Raise ValueError \/ position2d time x y u = Ok (Position (a_data time) (a_data x) (a_data y) (a_data y) u)).
Proof.
  intros U time x y z u n. unfold n, position3d, position2d, accepted.
  destruct (Nat.eqb_spec (a_ndim time) 1), (Nat.eqb_spec (a_ndim x) 1), (Nat.eqb_spec (a_ndim y) 1), (Nat.eqb_spec (a_ndim z) 1),
    (Nat.eqb_spec (length (a_data time)) (length (a_data x))), (Nat.eqb_spec (length (a_data x)) (length (a_data y))), (Nat.eqb_spec (length (a_data y)) (length (a_data z)));
  cbn; (split; [|split; [|split]]);
  try (split; [intros (p & E); try discriminate E; intuition lia|intros H; try (eexists; reflexivity); exfalso; intuition lia]); auto.
Qed.
Theorem C65_position_sizes_refuted :
  exists time x y z,
    accepted (position3d (array1 time) (array1 x) (array1 y) (array1 z) tt) /\ length y <> length x /\ length z <> length y /\
    accepted (position2d (array1 time) (array1 x) (array1 y) tt).
Proof.
  exists [0; 1], [2; 3], [4], []. cbn. repeat split; try discriminate; eexists; reflexivity.
Qed.

(** ** C83: precession at the epoch *)
Definition rotation_about_z (a : R) (v : vec) : vec :=
  V (cos a * vx v - sin a * vy v) (sin a * vx v + cos a * vy v) (vz v).
(** At the epoch J2000.0 the precession matrix turns everything about the z axis by more
    than five arcseconds ... *)
Lemma precession_at_epoch :
  let a := - (arcsec_to_rad (2.59796176 + 2.5976176)) in
  forall v, mat_vec (precession_matrix 2451545) v = rotation_about_z a v.
Proof.
  intros a v. unfold precession_matrix, zeta_precession_angle, theta_precession_angle, z_precession_angle.
  assert (T0 : centuries 2451545 = 0) by (unfold centuries, jd2000_date, days_in_century; lra).
  cbv zeta. rewrite T0. rewrite !pow_i by lia.
  set (a1 := arcsec_to_rad (2.59796176 + _ + _ + _ - _ - _)). set (a2 := arcsec_to_rad (2004.1917476 * 0 - _ - _ - _ - _)). set (a3 := - arcsec_to_rad (-2.5976176 + _ + _ + _ + _ - _)).
  assert (E2 : a2 = 0) by (unfold a2, arcsec_to_rad; lra).
  assert (E : a = - (a1 + a3)) by (unfold a, a1, a3, arcsec_to_rad; lra).
  rewrite E2, E, cos_0, sin_0. unfold rotation_about_z. rewrite cos_neg, sin_neg, cos_plus, sin_plus.
  clearbody a1 a3. apply vec_eq; unfold mat_vec, row_times; cbn [vx vy vz r0 r1 r2]; ring.
Qed.
Theorem C83_precession_at_epoch_partial :
  exists a, (forall v, mat_vec (precession_matrix 2451545) v = rotation_about_z a v) /\ -5.2 / 3600 * (PI / 180) < a < 0.
Proof.
  eexists. split; [apply precession_at_epoch|]. unfold arcsec_to_rad, deg_per_rad. pose proof PI_low. lra.
Qed.
Theorem C83_precession_at_epoch_refuted :
  exists v, mat_vec (precession_matrix 2451545) v <> v /\ norm v = 1 /\ 5 / 3600 * (PI / 180) < norm (sub (mat_vec (precession_matrix 2451545) v) v).
Proof.
  exists (V 1 0 0). rewrite precession_at_epoch. unfold rotation_about_z. cbn [vx vy vz].
  rewrite sin_neg, cos_neg. set (a := arcsec_to_rad _).
  assert (A : 0.00002515 < a < 0.00003) by (unfold a, arcsec_to_rad, deg_per_rad; lra).
  assert (SA : 0.0000251 < sin a) by (pose proof (sin_lower a ltac:(lra)); assert (a ^ 3 < 0.00000000001) by (replace (a ^ 3) with (a * a * a) by ring; nra); lra).
  split; [|split].
  - intros E. apply (f_equal vy) in E. cbn in E. lra.
  - unfold norm, dot. cbn. replace (1 * 1 + 0 * 0 + 0 * 0) with 1 by ring. apply sqrt_1.
  - apply Rlt_trans with (sin a). { pose proof PI_high. lra. }
    unfold norm. apply Rle_lt_trans with (sqrt (sin a * sin a)). { rewrite sqrt_square by lra. lra. }
    apply sqrt_lt_1; unfold dot, sub; cbn [vx vy vz]; [nra| |].
    + pose proof (Rle_0_sqr (cos a * 1 - - sin a * 0 - 1)). unfold Rsqr in *. nra.
    + assert (C : cos a < 1). { pose proof (cos_upper a ltac:(lra)). assert (0 < a ^ 2 < 0.01) by nra. replace (a ^ 4) with (a ^ 2 * a ^ 2) in * by ring. nra. }
      nra.
Qed.

(** ** C84: nutation and the ecliptic *)
(** The mean and the true obliquity used by the nutation matrix, and the pole of the
    ecliptic in equatorial coordinates for a given obliquity. *)
Definition mean_obl (jd : R) : R := radians (nutation_obliquity jd / 3600).
Definition true_obl (jd : R) : R := radians (nutation_obliquity jd / 3600 + arcsec_to_deg (snd (nutation_components jd))).
Definition ecliptic_pole (obliquity : R) : vec := V 0 (- sin obliquity) (cos obliquity).
Definition nutation_longitude (jd : R) : R := arcsec_to_rad (fst (nutation_components jd)).
Lemma nutation_of_pole jd :
  mat_vec (nutation_matrix jd) (ecliptic_pole (mean_obl jd)) =
  V (sin (nutation_longitude jd)) (- sin (true_obl jd) * cos (nutation_longitude jd)) (cos (true_obl jd) * cos (nutation_longitude jd)).
Proof.
  unfold nutation_matrix. cbv zeta. fold (mean_obl jd). fold (true_obl jd). fold (nutation_longitude jd).
  unfold ecliptic_pole, mat_vec, row_times. cbn [vx vy vz r0 r1 r2]. rewrite !sin_neg, !cos_neg.
  pose proof (sc (mean_obl jd)) as H. set (s := sin (mean_obl jd)) in *. set (c := cos (mean_obl jd)) in *.
  set (d := nutation_longitude jd). set (e := true_obl jd). clearbody s c.
  apply vec_eq; cbn [vx vy vz].
  - transitivity ((s * s + c * c) * sin d); [ring|rewrite H; ring].
  - transitivity ((s * s + c * c) * (- sin e * cos d)); [ring|rewrite H; ring].
  - transitivity ((s * s + c * c) * (cos e * cos d)); [ring|rewrite H; ring].
Qed.
(** The pole of the ecliptic goes to the true pole exactly when there is no nutation in
    longitude (or half a turn of it); the equinox moves by the nutation in longitude. *)
Theorem C84_nutation_partial :
  forall jd,
    dot (V 1 0 0) (mat_vec (nutation_matrix jd) (V 1 0 0)) = cos (nutation_longitude jd) /\
    (mat_vec (nutation_matrix jd) (ecliptic_pole (mean_obl jd)) = ecliptic_pole (true_obl jd) <-> nutation_longitude jd = 0).
Proof.
  intros jd. split.
  - unfold nutation_matrix. cbv zeta. fold (nutation_longitude jd). unfold dot, mat_vec, row_times. cbn [vx vy vz r0 r1 r2].
    rewrite cos_neg. ring.
  - rewrite nutation_of_pole. unfold ecliptic_pole. split.
    + intros E. apply (f_equal vx) in E. cbn in E.
      destruct (C54_nutation_bounded jd) as (B & _). unfold nutation_longitude in *. pose proof PI_low.
      set (d := arcsec_to_rad _) in *. assert (D : -1 < d < 1) by (unfold d, arcsec_to_rad, deg_per_rad; lra). clearbody d.
      destruct (Rtotal_order d 0) as [L|[Z|G]]; auto; exfalso.
      * pose proof (sin_gt_0 (- d) ltac:(lra) ltac:(lra)) as K. rewrite sin_neg in K. lra.
      * pose proof (sin_gt_0 d ltac:(lra) ltac:(lra)). lra.
    + intros ->. rewrite sin_0, cos_0. apply vec_eq; cbn; ring.
Qed.
Theorem C84_nutation_refuted :
  exists jd, mat_vec (nutation_matrix jd) (ecliptic_pole (mean_obl jd)) <> ecliptic_pole (true_obl jd).
Proof.
  exists 2451545. rewrite (proj2 (C84_nutation_partial 2451545)). intros E.
  unfold nutation_longitude, nutation_components in E. cbn [fst] in E.
  assert (T0 : centuries 2451545 = 0) by (unfold centuries, jd2000_date, days_in_century; lra).
  assert (N : longitude_of_ascending_node 2451545 = 125.04452).
  { unfold longitude_of_ascending_node. cbv zeta. rewrite T0, !pow_i by lia. rewrite Rmod_id; lra. }
  unfold nutation_in_longitude in E. rewrite N in E.
  pose proof PI_low. pose proof PI_high.
  set (node := deg_to_rad 125.04452) in *. assert (Nr : 2.18 < node < 2.19) by (unfold node, deg_to_rad, deg_per_rad; lra).
  assert (S1 : 0.5 < sin node).
  { rewrite <- (sin_PI_x node). pose proof (sin_lower (PI - node) ltac:(lra)). assert (0.95 < PI - node < 0.9622) by lra.
    set (x := PI - node) in *. assert (x ^ 3 < 1) by (replace (x ^ 3) with (x * x * x) by ring; nra). lra. }
  pose proof (SIN_bound (2 * node)). pose proof (SIN_bound (2 * deg_to_rad (mean_longitude_of_sun 2451545))).
  pose proof (SIN_bound (2 * deg_to_rad (mean_longitude_of_moon 2451545))). unfold arcsec_to_rad, deg_per_rad in E. lra.
Qed.

(** ** C85: velocities *)
(** A velocity is turned like a position: speed and radial speed are those of the celestial
    frame ... *)
Theorem C85_velocity_partial :
  forall (U W : Type) n (position' itrs : position U) (velocity itrs_velocity : position W),
    of_size n position' -> of_size n velocity -> p_time velocity = p_time position' ->
    gcrs_to_itrs position' = Ok itrs -> gcrs_to_itrs velocity = Ok itrs_velocity ->
    forall i, (i < n)%nat ->
      norm (point itrs_velocity i) = norm (point velocity i) /\
      dot (point itrs i) (point itrs_velocity i) = dot (point position' i) (point velocity i).
Proof.
  intros U W n a a' b b' Sa Sb T A B i I.
  rewrite (gcrs_to_itrs_ok n) in A by auto. rewrite (gcrs_to_itrs_ok n) in B by auto. injection A as <-. injection B as <-.
  rewrite !(image_point n (U := U)) by auto. rewrite !(image_point n (U := W)) by auto. rewrite T. destruct (to_itrs_rigid (nth i (p_time a) 0)) as (D & _).
  unfold norm. now rewrite !D.
Qed.
(** ... so the result is not the rate of change of the terrestrial position: a point at rest
    in the celestial frame gets terrestrial velocity zero at all times, while its
    terrestrial position moves. *)
Lemma unit_bounds v : dot v v = 1 -> -1 <= vx v <= 1 /\ -1 <= vy v <= 1 /\ -1 <= vz v <= 1.
Proof. unfold dot. intros H. repeat split; nra. Qed.
Lemma small_first_row m v d e : rigid (mat_vec m) -> dot v v = 1 -> 1 - d <= vx v -> 0 <= d <= 1 -> 0 <= e <= 1 ->
  1 - e <= vx (r0 m) -> - e <= vy (r0 m) <= e -> - e <= vz (r0 m) <= e ->
  dot (mat_vec m v) (mat_vec m v) = 1 /\ 1 - (d + 3 * e) <= vx (mat_vec m v).
Proof.
  intros (D & _) N X Dd Ee A B C. split; [now rewrite D|]. destruct (unit_bounds v N) as (U1 & U2 & U3).
  unfold mat_vec, row_times. cbn [vx].
  assert (1 - d - e <= vx (r0 m) * vx v) by nra. assert (- e <= vy (r0 m) * vy v) by nra. assert (- e <= vz (r0 m) * vz v) by nra. lra.
Qed.
Lemma sin_small a e : - e <= a <= e -> 0 <= e -> - e <= sin a <= e.
Proof.
  intros A E. destruct (Rle_dec 0 a).
  - pose proof (sin_upper a ltac:(lra)). pose proof (SIN_bound a). pose proof PI_low.
    destruct (Rle_dec a 3). { pose proof (sin_ge_0 a ltac:(lra) ltac:(lra)). lra. } lra.
  - pose proof (sin_upper (- a) ltac:(lra)) as Q. rewrite sin_neg in Q. pose proof (SIN_bound a). pose proof PI_low.
    destruct (Rle_dec (- a) 3). { pose proof (sin_ge_0 (- a) ltac:(lra) ltac:(lra)) as K. rewrite sin_neg in K. lra. } lra.
Qed.
Lemma cos_small a e : - e <= a <= e -> 0 <= e <= 1 -> 1 - e <= cos a <= 1.
Proof. intros A E. pose proof (cos_lower a ltac:(lra)). pose proof (COS_bound a). nra. Qed.

Lemma almost_first jd : -0.001 <= centuries jd <= 0.001 ->
  let w := mat_vec (nutation_matrix jd) (mat_vec (precession_matrix jd) (mat_vec bias_matrix (V 1 0 0))) in
  dot w w = 1 /\ 0.996 <= vx w.
Proof.
  intros T w. pose proof PI_low. pose proof PI_high.
  set (u := mat_vec bias_matrix (V 1 0 0)) in *. set (p := mat_vec (precession_matrix jd) u) in *.
  destruct (small_first_row bias_matrix (V 1 0 0) 0 0.0003 bias_rigid) as (Nu & Xu); fold u; try (unfold dot; cbn; lra).
  - unfold bias_matrix. cbv zeta. set (a1 := radians (-0.01460 / 3600)). set (a2 := radians (-0.0166170 / 3600)).
    assert (A1 : -0.0001 <= a1 <= 0.0001) by (unfold a1, radians; lra). assert (A2 : -0.0001 <= a2 <= 0.0001) by (unfold a2, radians; lra).
    cbn [vx r0]. pose proof (cos_small a1 0.0001 ltac:(lra) ltac:(lra)). pose proof (cos_small a2 0.0001 ltac:(lra) ltac:(lra)). nra.
  - unfold bias_matrix. cbv zeta. set (a1 := radians (-0.01460 / 3600)). set (a2 := radians (-0.0166170 / 3600)).
    assert (A1 : -0.0001 <= a1 <= 0.0001) by (unfold a1, radians; lra). assert (A2 : -0.0001 <= a2 <= 0.0001) by (unfold a2, radians; lra).
    cbn [vy r0]. pose proof (sin_small a1 0.0001 ltac:(lra) ltac:(lra)). pose proof (COS_bound a2). nra.
  - unfold bias_matrix. cbv zeta. set (a2 := radians (-0.0166170 / 3600)).
    assert (A2 : -0.0001 <= a2 <= 0.0001) by (unfold a2, radians; lra). cbn [vz r0]. pose proof (sin_small a2 0.0001 ltac:(lra) ltac:(lra)). lra.
  - fold u in Nu, Xu.
    assert (T2 : 0 <= centuries jd ^ 2 <= 0.000001) by nra.
    assert (T3 : -0.000001 <= centuries jd ^ 3 <= 0.000001) by (replace (centuries jd ^ 3) with (centuries jd ^ 2 * centuries jd) by ring; nra).
    assert (T4 : -0.000001 <= centuries jd ^ 4 <= 0.000001) by (replace (centuries jd ^ 4) with (centuries jd ^ 2 * centuries jd ^ 2) by ring; nra).
    assert (T5 : -0.000001 <= centuries jd ^ 5 <= 0.000001) by (replace (centuries jd ^ 5) with (centuries jd ^ 3 * centuries jd ^ 2) by ring; nra).
    set (a1 := arcsec_to_rad (zeta_precession_angle jd)). set (a2 := arcsec_to_rad (theta_precession_angle jd)). set (a3 := - arcsec_to_rad (z_precession_angle jd)).
    assert (A1 : -0.0001 <= a1 <= 0.0001) by (unfold a1, arcsec_to_rad, deg_per_rad, zeta_precession_angle; cbv zeta; lra).
    assert (A2 : -0.0001 <= a2 <= 0.0001) by (unfold a2, arcsec_to_rad, deg_per_rad, theta_precession_angle; cbv zeta; lra).
    assert (A3 : -0.0001 <= a3 <= 0.0001) by (unfold a3, arcsec_to_rad, deg_per_rad, z_precession_angle; cbv zeta; lra).
    pose proof (cos_small a1 0.0001 ltac:(lra) ltac:(lra)) as C1. pose proof (cos_small a2 0.0001 ltac:(lra) ltac:(lra)) as C2. pose proof (cos_small a3 0.0001 ltac:(lra) ltac:(lra)) as C3.
    pose proof (sin_small a1 0.0001 ltac:(lra) ltac:(lra)) as S1. pose proof (sin_small a2 0.0001 ltac:(lra) ltac:(lra)) as S2. pose proof (sin_small a3 0.0001 ltac:(lra) ltac:(lra)) as S3.
    destruct (small_first_row (precession_matrix jd) u 0.0009 0.0005 (precession_rigid jd) Nu) as (Np & Xp); fold p; try lra.
    + unfold precession_matrix. cbv zeta. fold a1 a2 a3. cbn [vx r0].
      assert (0.9997 <= cos a1 * cos a2 * cos a3). { assert (0.9998 <= cos a1 * cos a2 <= 1) by nra. nra. }
      assert (-0.0001 <= sin a1 * sin a3 <= 0.0001) by nra.
      lra.
    + unfold precession_matrix. cbv zeta. fold a1 a2 a3. cbn [vy r0].
      assert (-0.0001 <= cos a1 * sin a3 <= 0.0001) by nra.
      assert (-0.0001 <= sin a1 * cos a2 * cos a3 <= 0.0001). { assert (-0.0001 <= sin a1 * cos a2 <= 0.0001) by nra. nra. } lra.
    + unfold precession_matrix. cbv zeta. fold a1 a2 a3. cbn [vz r0]. nra.
    + fold p in Np, Xp. destruct (C54_nutation_bounded jd) as (B & _).
      destruct (small_first_row (nutation_matrix jd) p 0.0024 0.0005 (nutation_rigid jd) Np) as (Nw & Xw); try lra.
      * unfold nutation_matrix; cbv zeta; cbn [vx vy vz r0]. set (b1 := radians (nutation_obliquity jd / 3600)). set (b2 := - arcsec_to_rad (fst _)).
        assert (B2 : -0.0002 <= b2 <= 0.0002) by (unfold b2, arcsec_to_rad, deg_per_rad; lra).
        pose proof (cos_small b2 0.0002 ltac:(lra) ltac:(lra)). pose proof (sin_small b2 0.0002 ltac:(lra) ltac:(lra)). pose proof (SIN_bound b1). pose proof (COS_bound b1). nra.
      * unfold nutation_matrix; cbv zeta; cbn [vx vy vz r0]. set (b1 := radians (nutation_obliquity jd / 3600)). set (b2 := - arcsec_to_rad (fst _)).
        assert (B2 : -0.0002 <= b2 <= 0.0002) by (unfold b2, arcsec_to_rad, deg_per_rad; lra).
        pose proof (cos_small b2 0.0002 ltac:(lra) ltac:(lra)). pose proof (sin_small b2 0.0002 ltac:(lra) ltac:(lra)). pose proof (SIN_bound b1). pose proof (COS_bound b1). nra.
      * unfold nutation_matrix; cbv zeta; cbn [vx vy vz r0]. set (b1 := radians (nutation_obliquity jd / 3600)). set (b2 := - arcsec_to_rad (fst _)).
        assert (B2 : -0.0002 <= b2 <= 0.0002) by (unfold b2, arcsec_to_rad, deg_per_rad; lra).
        pose proof (cos_small b2 0.0002 ltac:(lra) ltac:(lra)). pose proof (sin_small b2 0.0002 ltac:(lra) ltac:(lra)). pose proof (SIN_bound b1). pose proof (COS_bound b1). nra.
      * fold w in Nw, Xw. split; [exact Nw|lra].
Qed.
Lemma norm_ge_x v : vx v <= norm v /\ - vx v <= norm v.
Proof.
  assert (H : Rabs (vx v) <= norm v).
  { unfold norm. rewrite <- sqrt_Rsqr_abs. apply sqrt_le_1; unfold Rsqr, dot; nra. }
  unfold Rabs in H. destruct (Rcase_abs (vx v)); lra.
Qed.
Theorem C85_velocity_refuted :
  (forall times, let zeros := repeat 0 (length times) in
     exists v, gcrs_to_itrs (Position times zeros zeros zeros tt) = Ok v /\ forall i, (i < length times)%nat -> point v i = V 0 0 0) /\
  exists i, gcrs_to_itrs (Position [2451545; 2451545.5] [7000; 7000] [0; 0] [0; 0] tt) = Ok i /\
    1000 < norm (sub (point i 0) (point i 1)).
Proof.
  split.
  - intros times zeros. set (p := Position times zeros zeros zeros tt).
    assert (S : of_size (length times) p) by (repeat split; apply repeat_length).
    rewrite (gcrs_to_itrs_ok (length times)) by auto. eexists. split; [reflexivity|]. intros i I.
    rewrite (image_point (length times)) by auto.
    assert (P : point p i = V 0 0 0).
    { unfold point, p. cbn. assert (Z : nth i zeros 0 = 0) by apply nth_repeat. now rewrite Z. }
    rewrite P. destruct (to_itrs_rigid (nth i (p_time p) 0)) as (D & _). specialize (D (V 0 0 0) (V 0 0 0)).
    set (w := to_itrs _ _) in *. unfold dot in D. cbn [vx vy vz] in D. clearbody w.
    pose proof (Rle_0_sqr (vx w)). pose proof (Rle_0_sqr (vy w)). pose proof (Rle_0_sqr (vz w)). unfold Rsqr in *.
    apply vec_eq; cbn [vx vy vz]; apply Rsqr_0_uniq; unfold Rsqr; lra.
  - set (p := Position _ _ _ _ _). assert (S : of_size 2 p) by (repeat split).
    rewrite (gcrs_to_itrs_ok 2) by auto. eexists. split; [reflexivity|]. rewrite !(image_point 2) by (auto; lia).
    cbn [nth p_time p]. unfold point, p. cbn [nth p_x p_y p_z].
    assert (Sc : forall jd, to_itrs jd (V 7000 0 0) = let w := to_itrs jd (V 1 0 0) in V (7000 * vx w) (7000 * vy w) (7000 * vz w)).
    { intros jd. unfold to_itrs, rotate_row, mat_vec, row_times. cbn [vx vy vz]. apply vec_eq; cbn [vx vy vz]; ring. }
    rewrite !Sc. cbv zeta. pose proof PI_low. pose proof PI_high.
    assert (T1 : centuries 2451545 = 0) by (unfold centuries, jd2000_date, days_in_century; lra).
    assert (T2 : 0 <= centuries 2451545.5 <= 0.001) by (unfold centuries, jd2000_date, days_in_century; lra).
    assert (E1 : earth_rotation_angle 2451545 = 280.46).
    { unfold earth_rotation_angle, jd2000_date, era_at_jd2000_deg, earth_rotation_rate_deg_per_day. cbv zeta. rewrite Rmod_id; lra. }
    assert (E2 : 100.9 <= earth_rotation_angle 2451545.5 <= 101).
    { unfold earth_rotation_angle, jd2000_date, era_at_jd2000_deg, earth_rotation_rate_deg_per_day. cbv zeta.
      rewrite (normal_form_unique 360 (Rmod _ 360) (360.9856123035484 * 0.5 + 280.46 - 360) (360.9856123035484 * (2451545.5 - 2451545) + 280.46)); [lra|lra|apply Rmod_normal; lra|].
      split; [lra|]. exists (-1)%Z. lra. }
    unfold to_itrs. destruct (almost_first 2451545 ltac:(lra)) as (N1 & X1). destruct (almost_first 2451545.5 ltac:(lra)) as (N2 & X2).
    set (w1 := mat_vec _ (mat_vec (precession_matrix 2451545) _)) in *. set (w2 := mat_vec _ (mat_vec (precession_matrix 2451545.5) _)) in *.
    clearbody w1 w2. unfold dot in N1, N2.
    assert (Y1 : -0.09 <= vy w1 <= 0.09) by nra. assert (Y2 : -0.09 <= vy w2 <= 0.09) by nra.
    assert (U1 : vx w1 <= 1) by nra. assert (U2 : vx w2 <= 1) by nra.
    apply Rlt_le_trans with (2 := proj1 (norm_ge_x _)). unfold sub, rotate_row. cbv zeta. cbn [vx].
    rewrite E1. set (e2 := earth_rotation_angle 2451545.5) in *.
    assert (D : forall x, deg_to_rad (- x) = - deg_to_rad x) by (intros; unfold deg_to_rad; ring). rewrite !D, !cos_neg, !sin_neg.
    set (b1 := deg_to_rad 280.46 - 3 * (PI / 2)). set (b2 := deg_to_rad e2 - PI / 2).
    assert (B1 : 0.181 <= b1 <= 0.184) by (unfold b1, deg_to_rad, deg_per_rad; lra).
    assert (B2 : 0.189 <= b2 <= 0.193) by (unfold b2, deg_to_rad, deg_per_rad; lra).
    replace (deg_to_rad 280.46) with (b1 + 3 * (PI / 2)) by (unfold b1; ring). replace (deg_to_rad e2) with (b2 + PI / 2) by (unfold b2; ring).
    clearbody b1 b2. rewrite !cos_plus, !sin_plus, cos_3PI2, sin_3PI2, cos_PI2, sin_PI2.
    assert (C1 : 0.17 <= sin b1 <= 0.19).
    { pose proof (sin_lower b1 ltac:(lra)). pose proof (sin_upper b1 ltac:(lra)). assert (b1 ^ 3 <= 0.01) by (replace (b1 ^ 3) with (b1 * b1 * b1) by ring; assert (b1 * b1 <= 0.04) by nra; nra). lra. }
    assert (C2 : 0.17 <= sin b2 <= 0.2).
    { pose proof (sin_lower b2 ltac:(lra)). pose proof (sin_upper b2 ltac:(lra)). assert (b2 ^ 3 <= 0.01) by (replace (b2 ^ 3) with (b2 * b2 * b2) by ring; assert (b2 * b2 <= 0.04) by nra; nra). lra. }
    pose proof (COS_bound b1). pose proof (COS_bound b2).
    assert (0.169 <= sin b1 * vx w1) by nra. assert (0.169 <= sin b2 * vx w2) by nra.
    assert (-0.09 <= cos b1 * vy w1 <= 0.09) by nra. assert (-0.09 <= cos b2 * vy w2 <= 0.09) by nra. nra.
Qed.

Print Assumptions C56_gcrs_to_itrs_and_back.
Print Assumptions C56_itrs_to_gcrs_and_back.
Print Assumptions C56_one_time.
Print Assumptions C56_one_point.
Print Assumptions C57_rigid.
Print Assumptions C65_position_sizes_partial.
Print Assumptions C65_position_sizes_refuted.
Print Assumptions C83_precession_at_epoch_partial.
Print Assumptions C83_precession_at_epoch_refuted.
Print Assumptions C84_nutation_partial.
Print Assumptions C84_nutation_refuted.
Print Assumptions C85_velocity_partial.
Print Assumptions C85_velocity_refuted.
