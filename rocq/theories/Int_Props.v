(** Theorems on coordinates given as arrays of integers: C144, C145. *)
From Coq Require Import List Reals ZArith Arith Lia Lra Psatz.
From Verif Require Import Py PyLemmas Num Time_Model Time_Proofs Time_Props Rot_Model Rot_Spec Rot_Proofs Rot_Props
  Geo_Model Int_Model Int_Spec Flg_Num.
Import ListNotations.
Open Scope R_scope.
Open Scope list_scope.

(** ** Cutting off *)
Lemma floor_facts x : IZR (Int_part x) <= x < IZR (Int_part x) + 1.
Proof. destruct (base_Int_part x). lra. Qed.
Lemma toward_zero_cut x : cut_off x (toward_zero x).
Proof.
  unfold cut_off, toward_zero. destruct (Rle_dec 0 x) as [P|P].
  - pose proof (floor_facts x) as F. split; [eexists; reflexivity|]. split; [lra|]. intros Q. assert (x = 0) by lra. subst x.
    assert (E : Int_part 0 = 0%Z).
    { assert (A : (Int_part 0 < 1)%Z) by (apply lt_IZR; lra). assert (B : (-1 < Int_part 0)%Z) by (apply lt_IZR; lra). lia. }
    rewrite E. lra.
  - pose proof (floor_facts (- x)) as F. split; [exists (- Int_part (- x))%Z; now rewrite opp_IZR|]. split; lra.
Qed.
Lemma cut_off_unique x k l : cut_off x k -> cut_off x l -> k = l.
Proof.
  intros ((a & ->) & A & B) ((b & ->) & C & D). f_equal. destruct (Rle_or_lt 0 x) as [P|P].
  - specialize (A P). specialize (C P). assert (a < b + 1)%Z by (apply lt_IZR; rewrite plus_IZR; lra).
    assert (b < a + 1)%Z by (apply lt_IZR; rewrite plus_IZR; lra). lia.
  - assert (Q : x <= 0) by lra. specialize (B Q). specialize (D Q). assert (a - 1 < b)%Z by (apply lt_IZR; rewrite minus_IZR; lra).
    assert (b - 1 < a)%Z by (apply lt_IZR; rewrite minus_IZR; lra). lia.
Qed.
Lemma cut_whole x : whole x -> cut_off x x.
Proof. intros H. split; auto. lra. Qed.
Lemma toward_zero_whole x : toward_zero x = x <-> whole x.
Proof.
  split; intros H.
  - rewrite <- H. apply toward_zero_cut.
  - apply (cut_off_unique x); [apply toward_zero_cut|now apply cut_whole].
Qed.
Lemma cut_small x k : cut_off x k -> k * k <= x * x /\ (x - k) * (x - k) < 1.
Proof.
  intros ((z & ->) & A & B). destruct (Rle_or_lt 0 x) as [P|P].
  - specialize (A P). assert (Z : (-1 < z)%Z) by (apply lt_IZR; lra). assert (0 <= IZR z) by (apply IZR_le; lia). split; nra.
  - assert (Q : x <= 0) by lra. specialize (B Q). assert (Z : (z < 1)%Z) by (apply lt_IZR; lra).
    assert (IZR z <= 0) by (apply IZR_le; lia). split; nra.
Qed.

(** ** The conversions *)
Lemma rotate_row_float a v : rotate_row_into F64 a v = rotate_row a v.
Proof. reflexivity. Qed.
Lemma rotate_float l k : rotate_into F64 l k = rotate_by_earth_rotation_angle l k.
Proof. reflexivity. Qed.
(** What happens after the rotation. *)
Definition celestial (jd : R) (v : vec) : vec :=
  mat_vec (inv_of bias_matrix) (mat_vec (inv_of (precession_matrix jd)) (mat_vec (inv_of (nutation_matrix jd)) v)).
Lemma inv_rigid m : rigid (mat_vec m) -> rigid (mat_vec (inv_of m)).
Proof.
  intros H. destruct (inv_of_ok m H) as (_ & _ & B). destruct H as (D & E).
  split; intros; [now rewrite <- D, !B|now rewrite <- E, !B].
Qed.
Lemma celestial_rigid jd : rigid (celestial jd).
Proof.
  unfold celestial.
  exact (rigid_comp _ _ (inv_rigid _ bias_rigid) (rigid_comp _ _ (inv_rigid _ (precession_rigid jd)) (inv_rigid _ (nutation_rigid jd)))).
Qed.
Definition to_gcrs_into (t : dtype) (jd : R) (v : vec) : vec := celestial jd (rotate_row_into t (earth_rotation_angle jd) v).
Lemma t_itrs_to_gcrs_ok {U} n (p : typed U) : of_size n (data p) ->
  let l := map2 (to_gcrs_into (data_type p)) (p_time (data p)) (points (data p)) in
  t_itrs_to_gcrs p = Ok (Typed F64 F64 F64 (Position (p_time (data p)) (map vx l) (map vy l) (map vz l) (p_unit (data p)))).
Proof.
  intros S l. unfold t_itrs_to_gcrs. cbv zeta. set (g := data p) in *. rewrite (columns_ok n) by auto. cbn [bind].
  assert (L : length (p_time g) = length (points g)) by (rewrite (points_length n) by auto; apply S).
  unfold rotate_into. rewrite !map_length, L, Nat.eqb_refl. cbn [bind].
  assert (MN : mapM np_inv (map nutation_matrix (p_time g)) = Ok (map (fun t => inv_of (nutation_matrix t)) (p_time g))).
  { rewrite mapM_map. apply mapM_all. intros t. apply (inv_of_ok _ (nutation_rigid t)). }
  assert (MP : mapM np_inv (map precession_matrix (p_time g)) = Ok (map (fun t => inv_of (precession_matrix t)) (p_time g))).
  { rewrite mapM_map. apply mapM_all. intros t. apply (inv_of_ok _ (precession_rigid t)). }
  rewrite MN, MP. cbn [bind]. destruct (inv_of_ok _ bias_rigid) as (B & _). rewrite B.
  rewrite map2_left. rewrite broadcast_same by (rewrite map_length, map2_length; auto). cbn [bind].
  rewrite map2_left, map2_comp.
  rewrite broadcast_same by (rewrite map_length, map2_length; auto). cbn [bind].
  rewrite map2_left, map2_comp. rewrite map_map2.
  rewrite position3d_ok by now rewrite !map_length. reflexivity.
Qed.
Lemma bind_rmap {A B C} (f : B -> C) (r : res A) (k : A -> res B) : rmap f (bind r k) = bind r (fun a => rmap f (k a)).
Proof. now destruct r. Qed.

(** ** C144: from ITRS to GCRS *)
(** If one of the three arrays is of floats, the numbers alone matter. *)
Theorem C144_one_array_of_floats_partial :
  forall (U : Type) (p : typed U), ~ all_integers p ->
    t_itrs_to_gcrs p = rmap (Typed F64 F64 F64) (itrs_to_gcrs (data p)) /\
    t_itrs_to_gcrs p = t_itrs_to_gcrs (as_floats p).
Proof.
  intros U p H. assert (E : forall q : typed U, data_type q = F64 -> t_itrs_to_gcrs q = rmap (Typed F64 F64 F64) (itrs_to_gcrs (data q))).
  { intros q Q. unfold t_itrs_to_gcrs, itrs_to_gcrs. cbv zeta. rewrite Q. cbn [common].
    destruct (columns _ _ _); [cbn [bind]|reflexivity]. rewrite rotate_float.
    destruct (rotate_by_earth_rotation_angle _ _); [cbn [bind]|reflexivity].
    destruct (mapM np_inv (map nutation_matrix _)); [cbn [bind]|reflexivity].
    destruct (np_broadcast _ _ _); [cbn [bind]|reflexivity].
    destruct (mapM np_inv (map precession_matrix _)); [cbn [bind]|reflexivity].
    destruct (np_broadcast _ _ _); [cbn [bind]|reflexivity].
    destruct (np_inv bias_matrix); [cbn [bind]|reflexivity].
    now destruct (position3d _ _ _ _ _). }
  assert (F : data_type p = F64).
  { destruct p as [[] [] [] q]; try reflexivity. exfalso. apply H. repeat split. }
  rewrite (E p F), (E (as_floats p)) by reflexivity. split; reflexivity.
Qed.
(** In the other direction they always do. *)
Theorem C144_gcrs_to_itrs :
  forall (U : Type) (p : typed U),
    t_gcrs_to_itrs p = rmap (Typed F64 F64 F64) (gcrs_to_itrs (data p)).
Proof.
  intros U p. unfold t_gcrs_to_itrs, gcrs_to_itrs. cbv zeta. cbn [common].
  destruct (columns _ _ _); [cbn [bind]|reflexivity].
  destruct (np_broadcast _ _ _); [cbn [bind]|reflexivity].
  destruct (np_broadcast _ _ _); [cbn [bind]|reflexivity]. rewrite rotate_float.
  destruct (rotate_by_earth_rotation_angle _ _); [cbn [bind]|reflexivity].
  now destruct (position3d _ _ _ _ _).
Qed.

Lemma dot_diff p q : dot (sub p q) (sub p q) = dot p p - 2 * dot p q + dot q q.
Proof. unfold dot, sub; cbn; ring. Qed.
Lemma rigid_norm f a b : rigid f -> norm (f a) = norm a /\ norm (sub (f a) (f b)) = norm (sub a b).
Proof. intros (D & _). unfold norm. rewrite !dot_diff, !D. auto. Qed.
Lemma rigid_inj f a b : rigid f -> f a = f b -> a = b.
Proof.
  intros (D & _) E. assert (Z : dot (sub a b) (sub a b) = 0) by (rewrite dot_diff, <- (D a a), <- (D a b), <- (D b b), E; ring).
  unfold dot, sub in Z. cbn [vx vy vz] in Z.
  assert (N : forall x y z : R, x * x + y * y + z * z = 0 -> x = 0 /\ y = 0 /\ z = 0).
  { clear. intros x y z H. pose proof (Rle_0_sqr x) as A. pose proof (Rle_0_sqr y) as B. pose proof (Rle_0_sqr z) as C. unfold Rsqr in *.
    repeat split; apply Rsqr_0_uniq; unfold Rsqr; lra. }
  apply N in Z. apply vec_eq; lra.
Qed.
(** Three arrays of integers: the point is turned with the Earth, its coordinates are cut off, and
    the result is converted.  Exactly when the turned point has whole coordinates nothing is lost;
    never more than the square root of two units; never is the result further from the centre of
    the Earth. *)
Theorem C144_arrays_of_integers_partial :
  forall (U : Type) n (p : typed U), stored n p -> all_integers p ->
    exists r g, t_itrs_to_gcrs p = Ok r /\ t_itrs_to_gcrs (as_floats p) = Ok g /\
      stored n r /\ same_record (data p) (data r) /\ same_record (data p) (data g) /\
      forall i, (i < n)%nat ->
        let v := turned (earth_rotation_angle (nth i (p_time (data p)) 0)) (point (data p) i) in
        let got := point (data r) i in
        let right := point (data g) i in
        (exists w, cut_off_point v w /\ norm got = norm w /\ norm (sub got right) = norm (sub w v)) /\
        norm right = norm (point (data p) i) /\ norm got <= norm right /\
        norm (sub got right) < sqrt 2 /\
        (got = right <-> whole (vx v) /\ whole (vy v)).
Proof.
  intros U n p (S & Hx & Hy & Hz) (Ax & Ay & Az).
  assert (T : data_type p = I64) by (unfold data_type; rewrite Ax, Ay, Az; reflexivity).
  rewrite (t_itrs_to_gcrs_ok n) by auto. rewrite (t_itrs_to_gcrs_ok n (as_floats p)) by auto.
  eexists. eexists. split; [reflexivity|]. split; [reflexivity|]. cbn [as_floats data x_type y_type z_type].
  change (data_type (as_floats p)) with F64. rewrite T.
  split. { split; [now apply image_size|]. repeat split; intros; discriminate. }
  split; [split; reflexivity|]. split; [split; reflexivity|].
  intros i I. cbv zeta. rewrite !(image_point n) by auto. set (q := point (data p) i). set (jd := nth i (p_time (data p)) 0).
  set (v := turned _ q). unfold to_gcrs_into.
  assert (R : rotate_row_into F64 (earth_rotation_angle jd) q = v) by reflexivity. rewrite R.
  set (w := rotate_row_into I64 (earth_rotation_angle jd) q).
  assert (Wq : whole (vz q)).
  { apply (Hz Az). unfold q, point. cbn [vz]. apply nth_In. destruct S as (_ & _ & _ & S). lia. }
  assert (Cx : cut_off (vx v) (vx w)) by apply toward_zero_cut.
  assert (Cy : cut_off (vy v) (vy w)) by apply toward_zero_cut.
  assert (Ez : vz w = vz v) by (now apply toward_zero_whole).
  assert (Cz : cut_off (vz v) (vz w)) by (rewrite Ez; now apply cut_whole).
  destruct (rigid_norm (celestial jd) w v (celestial_rigid jd)) as (N1 & N2).
  destruct (rigid_norm (celestial jd) v v (celestial_rigid jd)) as (N3 & _).
  assert (N4 : norm v = norm q).
  { rewrite <- R, rotate_row_float. unfold norm. now rewrite (proj1 (rotate_rigid (earth_rotation_angle jd))). }
  destruct (cut_small _ _ Cx) as (X1 & X2). destruct (cut_small _ _ Cy) as (Y1 & Y2).
  split. { exists w. split; [exact (conj Cx (conj Cy Cz))|]. split; [exact N1|exact N2]. }
  split; [now rewrite N3|]. split.
  { rewrite N1, N3. apply sqrt_le_1_alt. unfold dot. rewrite Ez. lra. }
  split. { rewrite N2. apply sqrt_lt_1_alt. unfold dot, sub. cbn [vx vy vz]. rewrite Ez.
    pose proof (Rle_0_sqr (vx v - vx w)) as QX. pose proof (Rle_0_sqr (vy v - vy w)) as QY. unfold Rsqr in QX, QY.
    replace ((vx w - vx v) * (vx w - vx v) + (vy w - vy v) * (vy w - vy v) + (vz v - vz v) * (vz v - vz v))
      with ((vx v - vx w) * (vx v - vx w) + (vy v - vy w) * (vy v - vy w)) by ring. lra. }
  split.
  - intros E. apply (rigid_inj _ _ _ (celestial_rigid jd)) in E. rewrite <- E. split; [apply Cx|apply Cy].
  - intros (Wx & Wy). f_equal. apply vec_eq; [| |exact Ez]; now apply toward_zero_whole.
Qed.
(** A satellite (or a velocity) one unit along the x axis, at noon of the first of January 2000:
    given in integers it is put at the centre of the Earth. *)
Lemma noon_angle : let a := 280.46 * (1 / 57.29577951308232) in 0 < cos a < 1 /\ -1 < sin a < 0.
Proof.
  intros a. pose proof PI_near as P. assert (A : 4.89 < a < 4.9) by (unfold a; lra). clearbody a.
  assert (S : sin a < 0) by (apply sin_lt_0; lra).
  assert (C : 0 < cos a).
  { replace a with (a - 2 * PI + 2 * INR 1 * PI) by (cbn; ring). rewrite cos_period. apply cos_gt_0; lra. }
  pose proof (sc a). split; split; nra.
Qed.
Theorem C144_integers_or_floats_refuted :
  exists p : typed R, stored 1 p /\ all_integers p /\
    exists r g, t_itrs_to_gcrs p = Ok r /\ t_itrs_to_gcrs (as_floats p) = Ok g /\
      norm (point (data g) 0) = 1 /\ norm (point (data r) 0) = 0.
Proof.
  set (p := Typed I64 I64 I64 (Position [2451545] [1] [0] [0] 1000)).
  assert (S : stored 1 p).
  { split; [repeat split|]. repeat split; intros _ x [<-|[]]; [now exists 1%Z|now exists 0%Z|now exists 0%Z]. }
  exists p. split; [exact S|]. split; [repeat split|].
  destruct (C144_arrays_of_integers_partial R 1 p S) as (r & g & A & B & _ & _ & _ & C); [repeat split|].
  exists r, g. split; [exact A|]. split; [exact B|]. specialize (C 0%nat ltac:(lia)). cbv zeta in C.
  destruct C as ((w & (Wx & Wy & Wz) & N & _) & M & _).
  assert (Q : point (data p) 0 = V 1 0 0) by reflexivity. rewrite Q in *.
  assert (E : earth_rotation_angle (nth 0 (p_time (data p)) 0) = 280.46) by apply C54_example. rewrite E in *.
  split. { rewrite M. unfold norm, dot. cbn [vx vy vz]. replace (1 * 1 + 0 * 0 + 0 * 0) with (1 * 1) by ring. apply sqrt_square. lra. }
  rewrite N. unfold turned in *. cbn [vx vy vz] in *. pose proof noon_angle as G. cbv zeta in G.
  set (a := 280.46 * _) in *. clearbody a.
  assert (Z : forall x k, -1 < x < 1 -> cut_off x k -> k = 0).
  { intros x k X K. apply (cut_off_unique x); [exact K|]. split; [now exists 0%Z|]. lra. }
  apply Z in Wx; [|lra]. apply Z in Wy; [|lra]. apply Z in Wz; [|lra].
  unfold norm, dot. rewrite Wx, Wy, Wz. replace (0 * 0 + 0 * 0 + 0 * 0) with 0 by ring. apply sqrt_0.
Qed.
Example C144_case :
  ~ all_integers (Typed I64 F64 I64 (Position [2451545] [7000] [0.5] [0] tt)) /\
  stored 1 (Typed I64 I64 I64 (Position [2451545] [7000] [-20] [0] tt)).
Proof.
  split; [intros (_ & H & _); discriminate|]. split; [repeat split|].
  repeat split; intros _ x [<-|[]]; [now exists 7000%Z|now exists (-20)%Z|now exists 0%Z].
Qed.

(** ** C145: other units *)
Lemma to_km_same x : to_km 1000 x = x.
Proof. unfold to_km. field. Qed.
Lemma t_to_float from to l : to <> 0 -> t_to from to F64 l = Ok (map (fun x => x * (from / to)) l).
Proof.
  intros H. unfold t_to. destruct (Req_EM_T from to) as [->|]; [|reflexivity]. f_equal.
  rewrite <- (map_id l) at 1. apply map_ext. intros x. field. exact H.
Qed.
Lemma t_to_cases from to t l : to <> 0 ->
  t_to from to t l = (if match t with I64 => if Req_EM_T from to then false else true | F64 => false end
                      then Raise TypeError else Ok (map (fun x => x * (from / to)) l)).
Proof.
  intros H. destruct t; [now apply t_to_float|]. unfold t_to. destruct (Req_EM_T from to) as [->|]; [|reflexivity]. f_equal.
  rewrite <- (map_id l) at 1. apply map_ext. intros x. field. exact H.
Qed.
Lemma km_points_cases p :
  (p_unit (data p) = 1000 \/ (x_type p = F64 /\ y_type p = F64 /\ z_type p = F64) -> t_km_points p = km_points (data p)) /\
  (p_unit (data p) <> 1000 -> ~ (x_type p = F64 /\ y_type p = F64 /\ z_type p = F64) -> t_km_points p = Raise TypeError).
Proof.
  unfold t_km_points, km_points. cbv zeta. rewrite !t_to_cases by lra. change (fun x => x * (p_unit (data p) / 1000)) with (to_km (p_unit (data p))).
  split.
  - intros [E|(-> & -> & ->)]; [|reflexivity]. destruct (Req_EM_T (p_unit (data p)) 1000) as [_|N]; [|contradiction].
    destruct (x_type p), (y_type p), (z_type p); reflexivity.
  - intros N M. destruct (Req_EM_T (p_unit (data p)) 1000) as [E|_]; [contradiction|].
    destruct (x_type p), (y_type p), (z_type p); try reflexivity. exfalso. auto.
Qed.
(** Coordinates in kilometres, or arrays of floats: only the numbers matter. *)
Theorem C145_kilometres_or_floats_partial :
  forall (p : typed R) l,
    p_unit (data p) = 1000 \/ (x_type p = F64 /\ y_type p = F64 /\ z_type p = F64) ->
    t_satellite_distance p l = satellite_distance (data p) l /\
    t_satellite_look_angle p l = satellite_look_angle (data p) l /\
    t_itrs_to_azel p l = itrs_to_azel (data p) l.
Proof.
  intros p l H. unfold t_satellite_distance, t_satellite_look_angle, t_itrs_to_azel.
  rewrite (proj1 (km_points_cases p) H). repeat split.
Qed.
(** Otherwise nothing is computed: never is the result wrong. *)
Theorem C145_other_units_refuted :
  forall (p : typed R) l,
    p_unit (data p) <> 1000 -> ~ (x_type p = F64 /\ y_type p = F64 /\ z_type p = F64) ->
    t_satellite_distance p l = Raise TypeError /\
    t_satellite_look_angle p l = Raise TypeError /\
    t_itrs_to_azel p l = Raise TypeError.
Proof.
  intros p l H K. unfold t_satellite_distance, t_satellite_look_angle, t_itrs_to_azel.
  rewrite (proj2 (km_points_cases p) H K). repeat split.
Qed.
(** Latitudes, longitudes and heights: right with arrays of floats, and for integers if the angles
    are in radians and the heights in kilometres; a TypeError if angles are integers in degrees. *)
Theorem C145_wgs84_partial :
  forall tlat tlon th julian lat lon h ang len,
    ((tlat = F64 /\ tlon = F64) \/ ang = 57.29577951308232) -> (th = F64 \/ len = 1000) ->
    t_wgs84_to_itrs tlat tlon th julian lat lon h ang len =
    Ok (Typed F64 F64 F64 (wgs84_to_itrs julian lat lon h ang len)).
Proof.
  intros tlat tlon th julian lat lon h ang len A B. unfold t_wgs84_to_itrs. assert (D : deg_per_rad <> 0) by (unfold deg_per_rad; lra).
  change 57.29577951308232 with deg_per_rad in A.
  rewrite !t_to_cases by (auto; lra).
  assert (E : (if match tlat with I64 => if Req_EM_T ang deg_per_rad then false else true | F64 => false end then true else false) = false).
  { destruct A as [(-> & _)|A]; auto. destruct tlat; auto. destruct (Req_EM_T ang deg_per_rad); auto. contradiction. }
  assert (F : (if match tlon with I64 => if Req_EM_T ang deg_per_rad then false else true | F64 => false end then true else false) = false).
  { destruct A as [(_ & ->)|A]; auto. destruct tlon; auto. destruct (Req_EM_T ang deg_per_rad); auto. contradiction. }
  assert (G : (if match th with I64 => if Req_EM_T len 1000 then false else true | F64 => false end then true else false) = false).
  { destruct B as [->|B]; auto. destruct th; auto. destruct (Req_EM_T len 1000); auto. contradiction. }
  destruct (match tlat with I64 => _ | F64 => _ end); [discriminate|].
  destruct (match tlon with I64 => _ | F64 => _ end); [discriminate|].
  destruct (match th with I64 => _ | F64 => _ end); [discriminate|].
  cbn [bind]. unfold wgs84_to_itrs.
  assert (M : map2 (fun (a : R * R) b => wgs84_point (fst a) (snd a) b)
      (combine (map (fun x => x * (ang / deg_per_rad)) lat) (map (fun x => x * (ang / deg_per_rad)) lon)) (map (fun x => x * (len / 1000)) h)
    = map2 (fun a b => wgs84_point (to_rad ang (fst a)) (to_rad ang (snd a)) (to_km len b)) (combine lat lon) h).
  { clear. revert lon h. induction lat as [|a lat IH]; intros [|b lon] [|c h]; cbn; auto. f_equal. apply IH. }
  rewrite M. reflexivity.
Qed.
Theorem C145_wgs84_refuted :
  forall tlat tlon th julian lat lon h ang len,
    (tlat = I64 \/ tlon = I64) /\ ang <> 57.29577951308232 \/ th = I64 /\ len <> 1000 ->
    t_wgs84_to_itrs tlat tlon th julian lat lon h ang len = Raise TypeError.
Proof.
  intros tlat tlon th julian lat lon h ang len H. unfold t_wgs84_to_itrs. assert (D : deg_per_rad <> 0) by (unfold deg_per_rad; lra).
  change 57.29577951308232 with deg_per_rad in H. rewrite !t_to_cases by (auto; lra).
  destruct (Req_EM_T ang deg_per_rad), (Req_EM_T len 1000), tlat, tlon, th; try reflexivity;
    exfalso; destruct H as [([|] & ?)|(? & ?)]; congruence.
Qed.
Example C145_case :
  t_wgs84_to_itrs I64 I64 I64 [2451545] [45] [-75] [0] 1 1000 = Raise TypeError /\
  t_satellite_distance (Typed I64 I64 I64 (Position [2451545] [7000000] [0] [0] 1)) (Location 0 0 0 1 1000) = Raise TypeError.
Proof.
  split; [apply C145_wgs84_refuted; left; split; [now left|lra]|].
  apply C145_other_units_refuted; cbn; [lra|]. intros (H & _). discriminate.
Qed.

Print Assumptions C144_one_array_of_floats_partial.
Print Assumptions C144_gcrs_to_itrs.
Print Assumptions C144_arrays_of_integers_partial.
Print Assumptions C144_integers_or_floats_refuted.
Print Assumptions C145_kilometres_or_floats_partial.
Print Assumptions C145_other_units_refuted.
Print Assumptions C145_wgs84_partial.
Print Assumptions C145_wgs84_refuted.
