(** The attitude of a satellite: C63, C91. *)
From Coq Require Import List Reals Arith Lia Lra Psatz.
From Verif Require Import Py PyLemmas Num Time_Model Rot_Model Rot_Spec Rot_Proofs Rot_Props Geo_Model Geo_Spec Geo_Props Geo_Alt Geo_Dir Geo_Props7 Lvlh_Model Lvlh_Spec Lvlh_Proofs Lvlh_Props.
Import ListNotations.
Open Scope R_scope.
Open Scope list_scope.

(** ** Angles of a point of the plane *)
Lemma atan2_sin_cos y x rho : 0 < rho -> rho * rho = y * y + x * x -> sin (atan2 y x) = y / rho /\ cos (atan2 y x) = x / rho.
Proof.
  intros R0 E. assert (X0 : forall u, x <> 0 -> u = y / x -> sqrt (1 + Rsqr u) = rho / Rabs x).
  { intros u X ->. unfold Rsqr. apply sqrt_lem_1; [pose proof (Rle_0_sqr (y / x)); unfold Rsqr in *; lra| |].
    - apply Rlt_le, Rdiv_lt_0_compat; [lra|now apply Rabs_pos_lt].
    - replace (rho / Rabs x * (rho / Rabs x)) with (rho * rho / (Rabs x * Rabs x)) by (field; now apply Rabs_no_R0).
      replace (Rabs x * Rabs x) with (x * x) by (rewrite <- Rabs_mult, Rabs_right; [ring|apply Rle_ge; pose proof (Rle_0_sqr x); unfold Rsqr in *; lra]). rewrite E. field. exact X. }
  unfold atan2. destruct (Rlt_dec 0 x) as [P|P].
  - rewrite sin_atan, cos_atan, (X0 (y / x)) by (auto; lra). rewrite Rabs_right by lra. split; field; lra.
  - destruct (Rlt_dec x 0) as [N|N].
    + assert (S : sin (atan (y / x)) = - (y / rho) /\ cos (atan (y / x)) = - (x / rho)).
      { rewrite sin_atan, cos_atan, (X0 (y / x)) by (auto; lra). rewrite Rabs_left by lra. split; field; lra. }
      destruct S as (S & C). destruct (Rlt_dec y 0) as [Y|Y].
      * unfold Rminus. rewrite sin_plus, cos_plus, sin_neg, cos_neg, sin_PI, cos_PI, S, C. split; ring.
      * rewrite neg_sin, neg_cos, S, C. split; ring.
    + assert (x = 0) by lra. subst x. destruct (Rlt_dec 0 y) as [Y|Y].
      * rewrite sin_PI2, cos_PI2. assert (rho = y) by (apply Rsqr_inj; unfold Rsqr; lra). subst. split; field; lra.
      * destruct (Rlt_dec y 0) as [Y'|Y'].
        -- rewrite sin_neg, cos_neg, sin_PI2, cos_PI2. assert (rho = - y) by (apply Rsqr_inj; unfold Rsqr; lra). subst. split; field; lra.
        -- exfalso. assert (y = 0) by lra. subst. nra.
Qed.
Lemma asin_cos x : -1 <= x <= 1 -> cos (asin x) = sqrt (1 - x * x) /\ sin (asin x) = x.
Proof. intros X. split; [now rewrite cos_asin|now apply sin_asin]. Qed.

(** ** The matrix encoded by the angles *)
Lemma euler_turns roll pitch yaw v : mat_vec (euler_213 roll pitch yaw) v = turn_about_z (- yaw) (turn_about_x (- roll) (turn_about_y (- pitch) v)).
Proof.
  unfold turn_about_x, turn_about_y, turn_about_z, euler_213, mat_vec, row_times. cbn [r0 r1 r2 vx vy vz]. rewrite !sin_neg, !cos_neg. f_equal; ring.
Qed.
Lemma euler_rotation roll pitch yaw : rotation (euler_213 roll pitch yaw).
Proof.
  assert (F : rigid (fun v => turn_about_z (- yaw) (turn_about_x (- roll) (turn_about_y (- pitch) v)))).
  { assert (H : forall a, sin a * sin a + cos a * cos a = 1) by apply sc.
    apply (rigid_comp (turn_about_z (- yaw))).
    - apply (rigid_ext (turn_z (cos (- yaw)) (- sin (- yaw)))); [intros v; unfold turn_z, turn_about_z; f_equal; ring|]. apply turn_z_rigid. rewrite <- (H (- yaw)). ring.
    - apply (rigid_comp (turn_about_x (- roll))).
      + apply (rigid_ext (turn_x (cos (- roll)) (- sin (- roll)))); [intros v; unfold turn_x, turn_about_x; f_equal; ring|]. apply turn_x_rigid. rewrite <- (H (- roll)). ring.
      + apply (rigid_ext (turn_y (cos (- pitch)) (- sin (- pitch)))); [intros v; unfold turn_y, turn_about_y; f_equal; ring|]. apply turn_y_rigid. rewrite <- (H (- pitch)). ring. }
  destruct F as (D & W). split; intros; rewrite !euler_turns; [apply D|apply W].
Qed.
Definition g_roll (g : vec) : R := asin (vy g).
Definition g_pitch (g : vec) : R := atan2 (- vx g) (vz g).
Definition g_yaw (g : vec) : R := atan2 (- (vx g * vy g / (1 + vz g))) (1 - vy g * vy g / (1 + vz g)).
Lemma unit_parts g : dot g g = 1 -> 1 + vz g <> 0 -> 0 < 1 + vz g /\ -1 <= vy g <= 1 /\ -1 <= vz g <= 1.
Proof.
  unfold dot. destruct g as [x y z]. cbn [vx vy vz]. intros U N.
  pose proof (Rle_0_sqr x). pose proof (Rle_0_sqr y). pose proof (Rle_0_sqr z). unfold Rsqr in *. repeat split; nra.
Qed.
Lemma euler_columns g : dot g g = 1 -> 1 + vz g <> 0 ->
  let m := euler_213 (g_roll g) (g_pitch g) (g_yaw g) in
  mat_vec m nadir = g /\ mat_vec m (V (- vy g) (vx g) 0) = V (- vy g) (vx g) 0 /\ 0 <= cos (g_roll g).
Proof.
  intros U N m. destruct (unit_parts g U N) as (P & Y & Z). destruct (asin_cos (vy g) Y) as (C & S). unfold m, g_roll.
  destruct g as [x y z]. unfold dot in U. cbn [vx vy vz] in *. set (k := cos (asin y)) in *.
  assert (K0 : 0 <= k) by (rewrite C; apply sqrt_pos). assert (K2 : k * k = x * x + z * z) by (rewrite C, sqrt_sqrt; nra).
  unfold euler_213, nadir, mat_vec, row_times. cbn [r0 r1 r2 vx vy vz]. fold k. rewrite S. unfold g_pitch, g_yaw. cbn [vx vy vz].
  destruct (Rle_lt_or_eq_dec 0 k K0) as [KP|KZ].
  - destruct (atan2_sin_cos (- x) z k) as (SP & CP); [auto|lra|].
    destruct (atan2_sin_cos (- (x * y / (1 + z))) (1 - y * y / (1 + z)) k) as (SY & CY); [auto| |].
    { apply Rmult_eq_reg_r with ((1 + z) * (1 + z)); [|nra]. transitivity (x * y * (x * y) + (1 + z - y * y) * (1 + z - y * y)); [|field; lra].
      rewrite K2. replace (x * x) with (1 - y * y - z * z) by lra. replace (x * y * (x * y)) with (x * x * (y * y)) by ring. replace (x * x) with (1 - y * y - z * z) by lra. ring. }
    rewrite SP, CP, SY, CY. split; [|split; [|exact K0]].
    + f_equal.
      * transitivity (x * (1 - y * y) / (k * k)); [field; lra|]. rewrite K2. replace (1 - y * y) with (x * x + z * z) by lra. field. nra.
      * transitivity (y * (x * x + (1 + z) * z - z * (y * y)) / ((1 + z) * (k * k))); [field; lra|].
        replace (x * x + (1 + z) * z - z * (y * y)) with ((x * x + z * z) * (1 + z)) by (replace (y * y) with (1 - x * x - z * z) by lra; ring). rewrite K2. field. split; nra.
      * field. lra.
    + f_equal.
      * transitivity (- y * ((z * (1 + z - y * y) + x * x * (y * y) + x * x * (k * k)) / ((1 + z) * (k * k)))); [field; lra|].
        replace (z * (1 + z - y * y) + x * x * (y * y) + x * x * (k * k)) with ((k * k) * (1 + z)); [field; lra|].
        rewrite K2. replace (y * y) with (1 - x * x - z * z) by lra. ring.
      * transitivity (x * ((1 + z - y * y) * k * k + y * y * (1 + z - y * y) - y * y * z) / ((1 + z) * (k * k))); [field; lra|].
        replace ((1 + z - y * y) * k * k + y * y * (1 + z - y * y) - y * y * z) with ((1 + z) * (k * k)); [field; lra|].
        replace ((1 + z - y * y) * k * k) with ((1 + z - y * y) * (k * k)) by ring. rewrite K2. replace (x * x) with (1 - y * y - z * z) by lra. ring.
      * transitivity (x * y - x * y); [field; lra|ring].
  - assert (KK : k * k = 0) by (rewrite <- KZ; ring). assert (XX : x * x = 0) by (pose proof (Rle_0_sqr x); pose proof (Rle_0_sqr z); unfold Rsqr in *; lra).
    assert (ZZ : z * z = 0) by (pose proof (Rle_0_sqr x); pose proof (Rle_0_sqr z); unfold Rsqr in *; lra).
    assert (x = 0) by (apply Rsqr_0_uniq; exact XX). assert (z = 0) by (apply Rsqr_0_uniq; exact ZZ). subst x z. rewrite <- KZ.
    assert (A0 : atan2 (- 0) 0 = 0) by (unfold atan2; destruct (Rlt_dec 0 0); [lra|]; destruct (Rlt_dec 0 (- 0)); [lra|]; destruct (Rlt_dec (-0) 0); [lra|reflexivity]).
    replace (- (0 * y / (1 + 0))) with (- 0) by field. replace (1 - y * y / (1 + 0)) with 0 by (assert (y * y = 1) as -> by lra; field).
    rewrite A0, sin_0, cos_0. assert (Y1 : y * y = 1) by lra. split; [|split; [|lra]]; f_equal; try ring.
Qed.

(** ** The angles of one row *)
Lemma angles_real R0 gl : 0 < R0 -> let e := sub gl (V 0 0 (- R0)) in e <> zero ->
  let g := unit_of e in 1 + vz g <> 0 ->
  attitude_angles (fin_vec (V 0 0 (- R0))) (fin_vec gl) = (Fin (g_roll g), Fin (g_pitch g), Fin (g_yaw g)).
Proof.
  intros P e E g N. assert (U : dot g g = 1) by now apply unit_dot. destruct (unit_parts g U N) as (NP & YB & _).
  pose proof (norm_pos e E) as NE.
  assert (NR : norm (V 0 0 (- R0)) = R0). { unfold norm, dot. cbn [vx vy vz]. replace (0 * 0 + 0 * 0 + - R0 * - R0) with (R0 * R0) by ring. apply sqrt_square. lra. }
  unfold attitude_angles. cbv zeta. rewrite sub_fin. fold e. rewrite !norm_fin, NR, opp_fin, !divide_fin by lra.
  fold (unit_of e). fold g.
  assert (S : times (/ R0) (opposite (V 0 0 (- R0))) = nadir) by (unfold times, opposite, times, nadir; cbn [vx vy vz]; apply vec_ext; cbn [vx vy vz]; field; lra).
  rewrite S, cross_fin, dot_fin.
  assert (VV : product nadir g = V (- vy g) (vx g) 0) by (unfold product, nadir; cbn [vx vy vz]; f_equal; ring).
  assert (DD : dot nadir g = vz g) by (unfold dot, nadir; cbn [vx vy vz]; ring). rewrite VV, DD. unfold fin_vec. cbn [nx ny nz vx vy vz n_add n_mul n_opp n_div n_sub].
  set (d := 1 + vz g) in *. destruct (Req_EM_T d 0) as [F|_]; [lra|]. cbn [n_add n_sub n_arctan2 n_arcsin n_opp].
  replace (- vy g + vx g * 0 / d) with (- vy g) by (field; lra). destruct (Rlt_dec (- vy g) (-1)) as [F|_]; [lra|]. destruct (Rlt_dec 1 (- vy g)) as [F|_]; [lra|]. cbn [n_opp].
  rewrite asin_opp, Ropp_involutive. unfold g_roll, g_pitch, g_yaw. fold d. f_equal; [f_equal|]; f_equal; f_equal.
  - field. lra.
  - unfold dot in U. apply Rmult_eq_reg_r with d; [|lra]. transitivity (d - (vy g * vy g + vx g * vx g)); [field; lra|]. unfold d. replace (vy g * vy g + vx g * vx g) with (1 - vz g * vz g) by lra. ring.
  - field. lra.
  - field. lra.
Qed.
Lemma angles_above R0 k : 0 < R0 -> 0 < k -> attitude_angles (fin_vec (V 0 0 (- R0))) (fin_vec (V 0 0 (- (R0 + k)))) = (NaN, NaN, NaN).
Proof.
  intros P K.
  assert (NR : forall q, 0 < q -> norm (V 0 0 (- q)) = q). { intros q Q. unfold norm, dot. cbn [vx vy vz]. replace (0 * 0 + 0 * 0 + - q * - q) with (q * q) by ring. apply sqrt_square. lra. }
  unfold attitude_angles. cbv zeta. rewrite sub_fin.
  replace (sub (V 0 0 (- (R0 + k))) (V 0 0 (- R0))) with (V 0 0 (- k)) by (unfold sub; cbn [vx vy vz]; apply vec_ext; cbn [vx vy vz]; ring).
  rewrite !norm_fin, !NR, opp_fin, !divide_fin by lra.
  assert (S : times (/ R0) (opposite (V 0 0 (- R0))) = nadir) by (unfold times, opposite, times, nadir; cbn [vx vy vz]; apply vec_ext; cbn [vx vy vz]; field; lra).
  assert (G : times (/ k) (V 0 0 (- k)) = V 0 0 (-1)) by (unfold times; cbn [vx vy vz]; apply vec_ext; cbn [vx vy vz]; field; lra).
  rewrite S, G, cross_fin, dot_fin. unfold product, dot, nadir, fin_vec. cbn [nx ny nz vx vy vz n_add n_mul n_opp n_div n_sub].
  destruct (Req_EM_T (1 + (0 * 0 + 0 * 0 + 1 * -1)) 0) as [_|F]; [|lra].
  assert (Z : forall a, a = 0 -> (if Rlt_dec 0 a then Inf false else if Rlt_dec a 0 then Inf true else NaN) = NaN).
  { intros a ->. destruct (Rlt_dec 0 0); [lra|reflexivity]. }
  rewrite !Z by ring. reflexivity.
Qed.

(** ** The whole computation *)
Lemma to_gcrs_times jd k v : to_gcrs jd (times k v) = times k (to_gcrs jd v).
Proof.
  unfold to_gcrs. generalize (inv_of bias_matrix) (inv_of (precession_matrix jd)) (inv_of (nutation_matrix jd)). intros a b c.
  assert (MT : forall m u, mat_vec m (times k u) = times k (mat_vec m u)) by (intros; unfold mat_vec, row_times, times; cbn [vx vy vz]; f_equal; ring).
  assert (RT : forall q u, rotate_row q (times k u) = times k (rotate_row q u)) by (intros; unfold rotate_row, times; cbn [vx vy vz]; f_equal; ring).
  now rewrite RT, !MT.
Qed.
Lemma scaled_points s f n (p : position R) : of_size n p -> (forall x, f x = s * x) ->
  columns (map f (p_x p)) (map f (p_y p)) (map f (p_z p)) = Ok (upto n (fun i => times s (point p i))).
Proof.
  intros (_ & X & Y & Z) F. unfold columns. rewrite !map_length, X, Y, Z, Nat.eqb_refl. cbn [andb]. f_equal.
  rewrite (combine3 _ _ _ n) by now rewrite map_length. apply map_ext_in. intros i I. apply in_seq in I.
  assert (N : forall l, length l = n -> nth i (map f l) 0 = s * nth i l 0).
  { intros l L. rewrite (nth_indep _ 0 (f 0)) by (rewrite map_length; lia). now rewrite map_nth. }
  apply vec_ext; unfold times, point; cbn [vx vy vz]; now apply N.
Qed.
Lemma nvecs_upto n f g h : nvecs (upto n f) (upto n g) (upto n h) = upto n (fun i => NV (f i) (g i) (h i)).
Proof. unfold nvecs, upto. induction (seq 0 n) as [|k l IH]; [reflexivity|]. cbn [map combine fst snd]. now rewrite IH. Qed.
Lemma repeat_nth i n (x : R) : (i < n)%nat -> nth i (repeat x n) 0 = x.
Proof. revert i. induction n as [|n IH]; intros i I; [lia|]. destruct i; [reflexivity|]. cbn. apply IH. lia. Qed.

Section attitude.
Variables (n : nat) (p v : position R) (l : location).
Hypotheses (SP : of_size n p) (SV : of_size n v) (ST : p_time v = p_time p).
Let G i := to_gcrs (nth i (p_time p) 0).
Let r i := point p i.
Let w i := point v i.
Let k := p_unit p / 1000.
Definition a_position i : nvec :=
  let q := nm_vec (lvlh_rows (G i (r i)) (G i (w i))) (fin_vec (G i (r i))) in
  NV (n_to_km (p_unit p) (nx q)) (n_to_km (p_unit p) (ny q)) (n_to_km (p_unit p) (nz q)).
Definition a_ground i : nvec :=
  nm_vec (lvlh_rows (times k (G i (r i))) (times (p_unit v) (G i (w i)))) (fin_vec (G i (itrs_of l))).
Lemma attitude_ok : satellite_attitude (Satellite p (Some v)) l =
  Ok (let a := upto n (fun i => attitude_angles (a_position i) (a_ground i)) in
      Attitude (p_time p) (map (fun a => fst (fst a)) a) (map (fun a => snd (fst a)) a) (map snd a) l).
Proof.
  unfold satellite_attitude. cbn [sat_velocity sat_position]. rewrite (itrs_to_gcrs_ok n p), (itrs_to_gcrs_ok n v) by auto. cbn [bind].
  assert (S1 : of_size n (let l := map2 to_gcrs (p_time p) (points p) in Position (p_time p) (map vx l) (map vy l) (map vz l) (p_unit p) : position R)) by now apply image_size.
  assert (S2 : of_size n (let l := map2 to_gcrs (p_time v) (points v) in Position (p_time v) (map vx l) (map vy l) (map vz l) (p_unit v) : position R)) by now apply image_size.
  pose proof (fun i I => image_point n to_gcrs p (p_unit p) i SP I) as I1. pose proof (fun i I => image_point n to_gcrs v (p_unit v) i SV I) as I2.
  set (gp := Position (p_time p) _ _ _ _) in *. set (gv := Position (p_time v) _ _ _ _) in *.
  assert (T1 : p_time gp = p_time p) by reflexivity. assert (U1 : p_unit gp = p_unit p) by reflexivity. assert (U2 : p_unit gv = p_unit v) by reflexivity.
  change (of_size n gp) in S1. change (of_size n gv) in S2. cbv zeta in I1, I2. change (forall i, (i < n)%nat -> point gp i = to_gcrs (nth i (p_time p) 0) (point p i)) in I1.
  change (forall i, (i < n)%nat -> point gv i = to_gcrs (nth i (p_time v) 0) (point v i)) in I2. clearbody gp gv.
  unfold km_points at 1. rewrite (scaled_points k _ n gp) by (auto; intros; rewrite U1; unfold to_km, k; ring). cbn [bind].
  unfold speed_points. rewrite (scaled_points (p_unit v) _ n gv) by (auto; intros; rewrite U2; field). cbn [bind].
  rewrite (lvlh_ok n) by auto. cbn [bind fst]. unfold lvlh_km, lvlh_of. cbn [l_x l_y l_z l_unit]. rewrite !upto_map, nvecs_upto, upto_length.
  rewrite position3d_ok by now rewrite !repeat_length. cbn [bind].
  set (gi := Position (p_time p) (repeat (itrs_x l) n) (repeat (itrs_y l) n) (repeat (itrs_z l) n) 1000).
  assert (S3 : of_size n gi) by (split; [apply SP|]; repeat split; apply repeat_length).
  rewrite (itrs_to_gcrs_ok n gi) by auto. cbn [bind].
  assert (S4 : of_size n (let l := map2 to_gcrs (p_time gi) (points gi) in Position (p_time gi) (map vx l) (map vy l) (map vz l) (p_unit gi) : position R)) by now apply image_size.
  pose proof (fun i I => image_point n to_gcrs gi (p_unit gi) i S3 I) as I3. set (gg := Position (p_time gi) _ _ _ _) in *. change (of_size n gg) in S4. cbv zeta in I3.
  change (forall i, (i < n)%nat -> point gg i = to_gcrs (nth i (p_time gi) 0) (point gi i)) in I3. assert (U3 : p_unit gg = 1000) by reflexivity. clearbody gg.
  unfold km_points. rewrite (scaled_points 1 _ n gg) by (auto; intros; rewrite U3; unfold to_km; field). cbn [bind].
  rewrite matrix_upto. cbn [bind]. rewrite !upto_map, upto_broadcast. cbn [bind]. rewrite upto_broadcast. cbn [bind]. f_equal.
  set (a := upto n _). assert (E : a = upto n (fun i => attitude_angles (a_position i) (a_ground i))); [|rewrite E; now rewrite !upto_map].
  unfold a. apply upto_ext. intros i I. unfold a_position, a_ground, G, r, w. rewrite I1, I2, I3, U1, ST by auto. f_equal. f_equal. f_equal.
  change (p_time gi) with (p_time p). assert (E : point gi i = itrs_of l).
  { unfold point, gi. cbn [p_x p_y p_z]. rewrite !repeat_nth by auto. reflexivity. }
  rewrite E. unfold times. apply vec_ext; cbn [vx vy vz]; ring.
Qed.
Hypotheses (K0 : 0 < p_unit p) (K1 : 0 < p_unit v).
Lemma rows_real i : product (kilometres p i) (w i) <> zero ->
  a_position i = fin_vec (V 0 0 (- norm (kilometres p i))) /\ a_ground i = fin_vec (on_axes (kilometres p i) (w i) (itrs_of l)).
Proof.
  intros H. assert (K : 0 < k) by (unfold k; apply Rdiv_lt_0_compat; lra). pose proof (to_gcrs_rigid (nth i (p_time p) 0)) as RG. fold (G i) in RG.
  assert (H' : product (r i) (w i) <> zero).
  { intros Z. apply H. unfold kilometres. fold k (r i). transitivity (times k (product (r i) (w i))); [unfold product, times; cbn [vx vy vz]; apply vec_ext; cbn [vx vy vz]; ring|]. rewrite Z. unfold times, zero. cbn [vx vy vz]. f_equal; ring. }
  assert (N : norm (kilometres p i) = k * norm (r i)).
  { unfold kilometres. fold k (r i). unfold norm. replace (dot (times k (r i)) (times k (r i))) with (k * k * dot (r i) (r i)) by (unfold dot, times; cbn [vx vy vz]; ring).
    rewrite sqrt_mult by (try apply dot_pos; nra). now rewrite sqrt_square by lra. }
  split.
  - unfold a_position. rewrite lvlh_rows_real, nm_fin, on_axes_mat, on_axes_down by now apply rigid_product. unfold fin_vec, n_to_km. cbn [nx ny nz vx vy vz n_mul].
    destruct RG as (D & _). assert (NG : norm (G i (r i)) = norm (r i)) by (unfold norm; now rewrite D). rewrite NG, N. fold k. f_equal; f_equal; ring.
  - unfold a_ground. assert (HG : product (G i (r i)) (G i (w i)) <> zero) by now apply rigid_product. destruct (scaled_axes k (p_unit v) _ _ (G i (itrs_of l)) K K1 HG) as (HP & HA).
    rewrite lvlh_rows_real, nm_fin, on_axes_mat by exact HP. rewrite HA, rigid_axes by auto.
    destruct (scaled_axes k 1 _ _ (itrs_of l) K Rlt_0_1 H') as (_ & HB). unfold kilometres. fold k (r i). replace (times 1 (w i)) with (w i) in HB; [now rewrite HB|].
    unfold times. apply vec_ext; cbn [vx vy vz]; ring.
Qed.
End attitude.

(** ** C63 *)
Lemma same_direction_sym u v : same_direction u v -> same_direction v u.
Proof. intros (k & K & ->). exists (/ k). split; [now apply Rinv_0_lt_compat|]. unfold times. apply vec_ext; cbn [vx vy vz]; field; lra. Qed.
Lemma unit_on_axes r w d : product r w <> zero -> unit_of (on_axes r w d) = on_axes r w (unit_of d).
Proof. intros H. unfold unit_of. now rewrite on_axes_norm, on_axes_times by auto. Qed.
Lemma on_axes_nz r w d : product r w <> zero -> d <> zero -> on_axes r w d <> zero.
Proof.
  intros H D E. pose proof (norm_pos d D) as P. rewrite <- (on_axes_norm r w), E in P by auto.
  unfold norm, dot, zero in P. cbn [vx vy vz] in P. replace (0 * 0 + 0 * 0 + 0 * 0) with 0 in P by ring. rewrite sqrt_0 in P. lra.
Qed.
Lemma sub_nz a b : a <> b -> sub a b <> zero.
Proof. intros H E. apply H. unfold sub, zero in E. injection E as E1 E2 E3. apply vec_ext; lra. Qed.
Theorem C63_points_at_target :
  forall n position velocity l, of_size n position -> of_size n velocity -> p_time velocity = p_time position ->
    0 < p_unit position -> 0 < p_unit velocity ->
    exists a, satellite_attitude (Satellite position (Some velocity)) l = Ok a /\
      t_time a = p_time position /\ t_location a = l /\ length (t_roll a) = n /\ length (t_pitch a) = n /\ length (t_yaw a) = n /\
      forall i, (i < n)%nat ->
        let r := kilometres position i in let w := point velocity i in
        let to_target := sub (itrs_of l) r in
        product r w <> zero -> itrs_of l <> r -> ~ same_direction to_target r ->
        let target := on_axes r w (unit_of to_target) in
        exists roll pitch yaw,
          nth i (t_roll a) NaN = Fin roll /\ nth i (t_pitch a) NaN = Fin pitch /\ nth i (t_yaw a) NaN = Fin yaw /\
          - (PI / 2) <= roll <= PI / 2 /\
          rotation (euler_213 roll pitch yaw) /\
          mat_vec (euler_213 roll pitch yaw) nadir = target /\
          mat_vec (euler_213 roll pitch yaw) (product nadir target) = product nadir target.
Proof.
  intros n p v l SP SV ST K0 K1. rewrite (attitude_ok n p v l SP SV ST). eexists. split; [reflexivity|]. cbn [t_time t_location t_roll t_pitch t_yaw].
  do 2 (split; [reflexivity|]). do 3 (split; [now rewrite map_length, upto_length|]).
  intros i I. set (r := kilometres p i). set (w := point v i). set (d := sub (itrs_of l) r). intros H T NS. set (target := on_axes r w (unit_of d)). rewrite !upto_map, !upto_nth by auto. cbv beta. destruct (rows_real p v l K0 K1 i H) as (E1 & E2). rewrite E1, E2. fold r w.
  assert (RP : 0 < norm r) by (apply norm_pos; now apply product_nz with w).
  assert (DN : d <> zero) by now apply sub_nz.
  assert (ES : sub (on_axes r w (itrs_of l)) (V 0 0 (- norm r)) = on_axes r w d) by (rewrite <- (on_axes_down r w) by exact H; now rewrite <- on_axes_sub).
  assert (UG : unit_of (on_axes r w d) = target) by now apply unit_on_axes.
  assert (UU : dot target target = 1) by (rewrite <- UG; apply unit_dot; now apply on_axes_nz).
  assert (NZ : 1 + vz target <> 0).
  { intros Z. apply NS. apply same_direction_sym. apply cauchy_eq; auto; [now apply product_nz with w|]. unfold target, on_axes, down, unit_of in Z. cbn [vz] in Z.
    pose proof (norm_pos d DN) as DP. assert (Q : dot r d / (norm r * norm d) = 1).
    { transitivity (1 - (1 + dot (opposite (times (/ norm r) r)) (times (/ norm d) d))); [|rewrite Z; ring]. unfold opposite, times, dot. cbn [vx vy vz]. field. lra. }
    transitivity (norm r * norm d * (dot r d / (norm r * norm d))); [field; lra|]. rewrite Q. ring. }
  rewrite angles_real; [|exact RP|rewrite ES; now apply on_axes_nz|rewrite ES, UG; exact NZ]. rewrite ES, UG. cbn [fst snd].
  exists (g_roll target), (g_pitch target), (g_yaw target). do 3 (split; [reflexivity|]). destruct (unit_parts target UU NZ) as (_ & YB & _).
  split; [unfold g_roll; destruct (asin_bound (vy target)); lra|]. split; [apply euler_rotation|].
  destruct (euler_columns target UU NZ) as (C1 & C2 & _). split; [exact C1|].
  replace (product nadir target) with (V (- vy target) (vx target) 0) by (unfold product, nadir; cbn [vx vy vz]; f_equal; ring). exact C2.
Qed.
(** Looking straight away from the Earth there is no shortest turn: the angles are
    not-a-number. *)
Theorem C63_straight_up :
  forall n position velocity l a, of_size n position -> of_size n velocity -> p_time velocity = p_time position ->
    0 < p_unit position -> 0 < p_unit velocity ->
    satellite_attitude (Satellite position (Some velocity)) l = Ok a ->
    forall i, (i < n)%nat ->
      let r := kilometres position i in
      product r (point velocity i) <> zero -> same_direction (sub (itrs_of l) r) r ->
      nth i (t_roll a) (Fin 0) = NaN /\ nth i (t_pitch a) (Fin 0) = NaN /\ nth i (t_yaw a) (Fin 0) = NaN.
Proof.
  intros n p v l a SP SV ST K0 K1 E i I r H (k & K & D). rewrite (attitude_ok n p v l SP SV ST) in E. injection E as <-. cbn [t_roll t_pitch t_yaw].
  rewrite !upto_map, !upto_nth by auto. cbv beta. destruct (rows_real p v l K0 K1 i H) as (E1 & E2). rewrite E1, E2. fold r. set (w := point v i) in *.
  assert (RP : 0 < norm r) by (apply norm_pos; now apply product_nz with w).
  assert (EG : on_axes r w (itrs_of l) = V 0 0 (- (norm r + k * norm r))).
  { replace (itrs_of l) with (times (1 + k) r).
    - rewrite on_axes_times, on_axes_down by auto. unfold times. cbn [vx vy vz]. f_equal; ring.
    - clearbody r. set (t := itrs_of l) in *. clearbody t. clear - D. unfold sub, times in D. injection D as D1 D2 D3. unfold times. apply vec_ext; cbn [vx vy vz]; lra. }
  rewrite EG, angles_above by nra. auto.
Qed.
Theorem C63_needs_velocity : forall position l, satellite_attitude (Satellite position None) l = Raise ValueError.
Proof. reflexivity. Qed.

(** ** C91 *)
(** Turning the satellite by the right-hand rule about its pitch, roll and yaw axes points
    it at the target when all three angles are negated ... *)
Theorem C91_right_hand_partial :
  forall n position velocity l a, of_size n position -> of_size n velocity -> p_time velocity = p_time position ->
    0 < p_unit position -> 0 < p_unit velocity ->
    satellite_attitude (Satellite position (Some velocity)) l = Ok a ->
    forall i, (i < n)%nat ->
      let r := kilometres position i in let w := point velocity i in
      let to_target := sub (itrs_of l) r in
      product r w <> zero -> itrs_of l <> r -> ~ same_direction to_target r ->
      exists roll pitch yaw,
        nth i (t_roll a) NaN = Fin roll /\ nth i (t_pitch a) NaN = Fin pitch /\ nth i (t_yaw a) NaN = Fin yaw /\
        turn_about_z (- yaw) (turn_about_x (- roll) (turn_about_y (- pitch) nadir)) = on_axes r w (unit_of to_target).
Proof.
  intros n p v l a SP SV ST K0 K1 E i I r w d H T NS. destruct (C63_points_at_target n p v l SP SV ST K0 K1) as (a' & E' & _ & _ & _ & _ & _ & ALL).
  rewrite E in E'. injection E' as <-. destruct (ALL i I H T NS) as (roll & pitch & yaw & A & B & C & _ & _ & D & _).
  exists roll, pitch, yaw. rewrite <- euler_turns. auto.
Qed.
(** ... but not with the angles as they are: a satellite flying east over the equator, with
    the target on its right, gets a roll alone, and rolling by it by the right-hand rule
    points the camera to the left. *)
Lemma ok_inj {A} (a b : A) : Ok a = Ok b -> a = b. Proof. congruence. Qed.
Definition equator_point : location := Location 0 0 0 1 1000.
Lemma equator_itrs : itrs_of equator_point = V 6378.137 0 0.
Proof.
  assert (L : lat_rad equator_point = 0 /\ lon_rad equator_point = 0 /\ height_km equator_point = 0).
  { unfold lat_rad, lon_rad, height_km, to_rad, to_km. cbn [angular_scale loc_latitude loc_longitude loc_height length_scale equator_point]. repeat split; ring. }
  destruct L as (L1 & L2 & L3). unfold itrs_of, itrs_x, itrs_y, itrs_z, radius_of_curvature_in_prime_vertical. rewrite L1, L2, L3, sin_0, cos_0.
  replace (1 - eccentricity ^ 2 * 0 ^ 2) with 1 by ring. rewrite sqrt_1, A_val. apply vec_ext; cbn [vx vy vz]; field.
Qed.
Lemma down_dot r u : norm r * dot (down r) u = - dot r u \/ norm r = 0.
Proof. destruct (Req_EM_T (norm r) 0) as [E|E]; [now right|left]. unfold down, unit_of, opposite, times, dot. cbn [vx vy vz]. field. exact E. Qed.
Theorem C91_right_hand_refuted :
  exists position velocity l a roll,
    of_size 1 position /\ of_size 1 velocity /\ p_time velocity = p_time position /\
    satellite_attitude (Satellite position (Some velocity)) l = Ok a /\
    t_roll a = [Fin roll] /\ t_pitch a = [Fin 0] /\ t_yaw a = [Fin 0] /\
    let r := kilometres position 0 in
    let target := on_axes r (point velocity 0) (unit_of (sub (itrs_of l) r)) in
    vx target = 0 /\ 0 < vy target /\ 0 < vz target /\
    vy (turn_about_x roll nadir) < 0 /\
    turn_about_x roll nadir = V (vx target) (- vy target) (vz target).
Proof.
  set (p := Position [2460462.5] [7000] [0] [500] 1000). set (v := Position [2460462.5] [0] [7.5] [0] 1000).
  assert (SP : of_size 1 p) by (repeat split; reflexivity). assert (SV : of_size 1 v) by (repeat split; reflexivity).
  destruct (C63_points_at_target 1 p v equator_point SP SV eq_refl) as (a & E & _ & _ & L1 & L2 & L3 & _); try (cbn [p v p_unit]; lra).
  pose proof E as E'. rewrite (attitude_ok 1 p v equator_point SP SV eq_refl) in E'. apply ok_inj in E'.
  assert (R : kilometres p 0 = V 7000 0 500) by (unfold kilometres, point, times, p; cbn [p_unit p_x p_y p_z nth vx vy vz]; apply vec_ext; cbn [vx vy vz]; field).
  assert (W : point v 0 = V 0 7.5 0) by reflexivity.
  assert (H : product (kilometres p 0) (point v 0) <> zero). { rewrite R, W. unfold product, zero. cbn [vx vy vz]. intros Z. injection Z as Z _ _. lra. }
  destruct (rows_real p v equator_point ltac:(cbn [p p_unit]; lra) ltac:(cbn [v p_unit]; lra) 0 H) as (E1 & E2).
  set (r := kilometres p 0) in *. set (w := point v 0) in *. set (d := sub (itrs_of equator_point) r).
  assert (D : d = V (-621.863) 0 (-500)) by (unfold d; rewrite equator_itrs, R; unfold sub; cbn [vx vy vz]; apply vec_ext; cbn [vx vy vz]; lra).
  assert (DN : d <> zero) by (rewrite D; unfold zero; intros Z; injection Z as Z _; lra).
  assert (RP : 0 < norm r) by (apply norm_pos; now apply product_nz with w).
  assert (ES : sub (on_axes r w (itrs_of equator_point)) (V 0 0 (- norm r)) = on_axes r w d) by (rewrite <- (on_axes_down r w) by exact H; now rewrite <- on_axes_sub).
  set (target := on_axes r w (unit_of d)). assert (UG : unit_of (on_axes r w d) = target) by now apply unit_on_axes.
  pose proof (norm_pos d DN) as ND. pose proof (norm_pos _ H) as NP.
  assert (T : 0 < vz target /\ vx target = 0 /\ 0 < vy target).
  { assert (TV : target = times (/ norm d) (seen r w d)) by (unfold target; rewrite <- seen_axes by exact H; unfold unit_of; now rewrite on_axes_times).
    pose proof (Rinv_0_lt_compat _ ND) as IP. set (q := / norm d) in *. rewrite TV. unfold seen. rewrite <- norm_product. set (np := norm (product r w)) in *. set (nr := norm r) in *. clearbody np nr q.
    clear - IP NP RP R W D. unfold times. cbn [vx vy vz]. rewrite R, W, D. unfold dot, volume. cbn [vx vy vz]. split; [|split].
    - apply Rmult_lt_0_compat; [auto|]. apply Rdiv_lt_0_compat; lra.
    - field. lra.
    - apply Rmult_lt_0_compat; [auto|]. apply Rdiv_lt_0_compat; lra. }
  assert (UU : dot target target = 1) by (rewrite <- UG; apply unit_dot; now apply on_axes_nz).
  assert (NZ : 1 + vz target <> 0) by lra.
  assert (AN : attitude_angles (a_position p v 0) (a_ground p v equator_point 0) = (Fin (g_roll target), Fin (g_pitch target), Fin (g_yaw target))).
  { rewrite E1, E2. rewrite angles_real; [|exact RP|rewrite ES; now apply on_axes_nz|rewrite ES, UG; exact NZ]. now rewrite ES, UG. }
  destruct T as (TZ & TX & TY). destruct (unit_parts target UU NZ) as (P1 & YB & _).
  assert (A0 : forall x, 0 < x -> atan2 (- 0) x = 0) by (intros x X; unfold atan2; destruct (Rlt_dec 0 x); [|lra]; replace (- 0 / x) with 0 by (field; lra); apply atan_0).
  assert (PI0 : g_pitch target = 0) by (unfold g_pitch; rewrite TX; now apply A0).
  assert (X2 : vy target * vy target = 1 - vz target * vz target) by (unfold dot in UU; rewrite TX in UU; lra).
  assert (YA : g_yaw target = 0).
  { unfold g_yaw. rewrite TX. replace (- (0 * vy target / (1 + vz target))) with (- 0) by (field; lra). apply A0.
    rewrite X2. replace (1 - (1 - vz target * vz target) / (1 + vz target)) with (vz target) by (field; lra). exact TZ. }
  exists p, v, equator_point, a, (g_roll target). do 3 (split; [auto|]). split; [exact E|].
  rewrite <- E'. cbn [t_roll t_pitch t_yaw]. unfold upto. cbn [seq map]. rewrite AN. cbn [fst snd]. rewrite PI0, YA. do 3 (split; [reflexivity|]). cbv zeta. fold r w d target.
  do 3 (split; [auto|]). destruct (asin_cos (vy target) YB) as (C & S). unfold turn_about_x, nadir, g_roll. cbn [vx vy vz]. rewrite C, S, X2. split; [lra|].
  replace (1 - (1 - vz target * vz target)) with (vz target * vz target) by ring. rewrite sqrt_square by lra. rewrite TX. f_equal; ring.
Qed.
Definition case_position : position R := Position [2460462.5] [7000] [0] [500] 1000.
Definition case_velocity : position R := Position [2460462.5] [0] [7.5] [0] 1000.
Example C63_case :
  let r := kilometres case_position 0 in
  of_size 1 case_position /\ of_size 1 case_velocity /\ product r (point case_velocity 0) <> zero /\ itrs_of equator_point <> r /\
  ~ same_direction (sub (itrs_of equator_point) r) r.
Proof.
  cbv zeta. assert (R : kilometres case_position 0 = V 7000 0 500) by (unfold kilometres, point, times, case_position; cbn [p_unit p_x p_y p_z nth vx vy vz]; apply vec_ext; cbn [vx vy vz]; field).
  rewrite R, equator_itrs. change (point case_velocity 0) with (V 0 7.5 0). split; [repeat split; reflexivity|]. split; [repeat split; reflexivity|]. split; [|split].
  - unfold product, zero. cbn [vx vy vz]. intros Z. injection Z as Z _ _. lra.
  - intros Z. injection Z as Z _. lra.
  - intros (k & K & E). unfold sub, times in E. cbn [vx vy vz] in E. injection E as E1 _. lra.
Qed.
(** A satellite below the ground, so that the target is above it. *)
Example C63_up_case :
  let r := kilometres (Position [2460462.5] [3000] [0] [0] 1000) 0 in
  product r (point case_velocity 0) <> zero /\ same_direction (sub (itrs_of equator_point) r) r.
Proof.
  cbv zeta. assert (R : kilometres (Position [2460462.5] [3000] [0] [0] 1000) 0 = V 3000 0 0) by (unfold kilometres, point, times; cbn [p_unit p_x p_y p_z nth vx vy vz]; apply vec_ext; cbn [vx vy vz]; field).
  rewrite R, equator_itrs. change (point case_velocity 0) with (V 0 7.5 0). split.
  - unfold product, zero. cbn [vx vy vz]. intros Z. injection Z as Z. lra.
  - exists (3378.137 / 3000). split; [lra|]. unfold sub, times. cbn [vx vy vz]. f_equal; lra.
Qed.

(** ** C92: the constructor *)
Theorem C92_satellite :
  (forall p, make_satellite (InITRS p) None = Ok (Satellite p None)) /\
  (forall p v, make_satellite (InITRS p) (Some (InITRS v)) = Ok (Satellite p (Some v))) /\
  (forall v, make_satellite InOther v = Raise ValueError) /\
  (forall p, make_satellite (InITRS p) (Some InOther) = Raise ValueError) /\
  forall n g h, of_size n g -> of_size n h ->
    exists p v, itrs_to_gcrs p = Ok g /\ itrs_to_gcrs v = Ok h /\ gcrs_to_itrs g = Ok p /\ gcrs_to_itrs h = Ok v /\
      make_satellite (InGCRS g) None = Ok (Satellite p None) /\
      make_satellite (InGCRS g) (Some (InGCRS h)) = Ok (Satellite p (Some v)) /\
      (forall u, make_satellite (InGCRS g) (Some (InITRS u)) = Ok (Satellite p (Some u))) /\
      (forall q, make_satellite (InITRS q) (Some (InGCRS h)) = Ok (Satellite q (Some v))).
Proof.
  do 4 (split; [reflexivity|]). intros n g h G H. destruct (C56_gcrs_to_itrs_and_back R n g G) as (p & P & _ & _ & P').
  destruct (C56_gcrs_to_itrs_and_back R n h H) as (v & W & _ & _ & W'). exists p, v. unfold make_satellite, to_itrs_frame. rewrite P, W. cbn [bind].
  repeat split; auto.
Qed.
Example C92_case : of_size 1 case_position /\ of_size 1 case_velocity. Proof. repeat split; reflexivity. Qed.
Print Assumptions C63_points_at_target.
Print Assumptions C63_straight_up.
Print Assumptions C63_needs_velocity.
Print Assumptions C91_right_hand_partial.
Print Assumptions C91_right_hand_refuted.
Print Assumptions C92_satellite.
