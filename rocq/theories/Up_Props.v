(** Elevations against elevations above the true horizon: C190. *)
From Coq Require Import List ZArith Reals Lra Lia Psatz.
From Flocq Require Import Core.Core IEEE754.BinarySingleNaN IEEE754.Binary IEEE754.Bits.
From Verif Require Import Py Num Fl_Model Fl_Spec Fl_Proofs Rot_Model Rot_Spec Geo_Model Geo_Spec Geo_Alt Geo_Alt2 Geo_Dir Geo_Props Geo_Props3 Geo_Props4
  Flg_Model Flg_Spec Lvlh_Proofs Flg_Proofs Flg_Proofs4 Flg_Cases Flg_Props Flg_Proofs2 Flc_Spec Flr_Model Flr_Spec Flz_Model Flz_Spec Flz_Proofs Flz_Proofs2 Flz_Props Flg_Num Flg_Best Up_Spec.
Import ListNotations.
Open Scope R_scope.
#[local] Strategy 1000 [fmul fadd fsub fdiv fneg of_Z].

Lemma up_norm l : norm (up l) = 1.
Proof.
  unfold norm, dot, up. cbn [vx vy vz]. pose proof (sin2_cos2 (lat_rad l)) as A. pose proof (sin2_cos2 (lon_rad l)) as B. unfold Rsqr in A, B. set (s := sin (lat_rad l)) in *. set (c := cos (lat_rad l)) in *. set (s' := sin (lon_rad l)) in *. set (c' := cos (lon_rad l)) in *.
  replace (c * c' * (c * c') + c * s' * (c * s') + s * s) with 1; [apply sqrt_1|]. transitivity (c * c * (s' * s' + c' * c') + s * s); [rewrite B; lra|ring].
Qed.
Lemma acos_tan d x r : 0 < d -> r = sqrt (d ^ 2 + x ^ 2) -> acos (d / r) <= Rabs x / d.
Proof.
  intros D ->. assert (Q0 : 0 <= Rabs x / d) by (apply Rmult_le_pos; [apply Rabs_pos|apply Rlt_le, Rinv_0_lt_compat; exact D]).
  assert (E : d / sqrt (d ^ 2 + x ^ 2) = cos (atan (Rabs x / d))).
  { rewrite cos_atan. assert (R1 : sqrt (1 + (Rabs x / d)²) = sqrt (d ^ 2 + x ^ 2) / d). { rewrite <- (sqrt_square d) at 3 by lra. pose proof (pow2_ge_0 x) as X. rewrite <- sqrt_div_alt by nra. f_equal. replace (x ^ 2) with (Rabs x ^ 2) by apply pow2_abs. unfold Rsqr. field. lra. }
    rewrite R1. assert (0 < sqrt (d ^ 2 + x ^ 2)) by (apply sqrt_lt_R0; pose proof (pow2_ge_0 x); nra). field. split; lra. }
  rewrite E. pose proof (atan_bound (Rabs x / d)) as B. assert (P : 0 <= atan (Rabs x / d)). { rewrite <- atan_0. destruct Q0 as [Q0|Q0]; [apply Rlt_le, atan_increasing; exact Q0|rewrite <- Q0; lra]. }
  rewrite acos_cos by lra. pose proof (atan_lip (Rabs x / d) 0) as L. rewrite atan_0, !Rminus_0_r in L. rewrite (Rabs_pos_eq _ P), (Rabs_pos_eq _ Q0) in L. exact L.
Qed.
(** The vertical and the direction from the centre of the Earth are less than 0.0034 radians apart. *)
Lemma up_near l : -50 <= height_km l -> 0 < norm (itrs_of l) /\ ang (itrs_of l) (up l) < 0.0034.
Proof.
  intros H. pose proof (Np_bounds (lat_rad l)) as NB. pose proof ecc2 as E2. pose proof A_val as VA. pose proof (sin2_cos2 (lat_rad l)) as A. pose proof (sin2_cos2 (lon_rad l)) as B. unfold Rsqr in A, B. rewrite VA in NB.
  assert (DT : dot (itrs_of l) (up l) = Np (lat_rad l) + height_km l - Np (lat_rad l) * e2 * sin (lat_rad l) ^ 2).
  { unfold dot, up, itrs_of, itrs_x, itrs_y, itrs_z. cbn [vx vy vz]. fold (Np (lat_rad l)). set (s := sin (lat_rad l)) in *. set (c := cos (lat_rad l)) in *. set (s' := sin (lon_rad l)) in *. set (c' := cos (lon_rad l)) in *. set (N := Np (lat_rad l)) in *. set (h := height_km l) in *. set (e := e2) in *. clearbody s c s' c' N h e.
    transitivity ((N + h) * (c * c) * (s' * s' + c' * c') + (N * (1 - e) + h) * s * s); [ring|]. rewrite B. transitivity ((N + h) * (s * s + c * c) - N * e * s ^ 2); [ring|rewrite A; ring]. }
  assert (NM : norm (itrs_of l) = sqrt (dot (itrs_of l) (up l) ^ 2 + (Np (lat_rad l) * e2 * (sin (lat_rad l) * cos (lat_rad l))) ^ 2)).
  { rewrite DT. unfold norm. f_equal. unfold dot, itrs_of, itrs_x, itrs_y, itrs_z. cbn [vx vy vz]. fold (Np (lat_rad l)). set (s := sin (lat_rad l)) in *. set (c := cos (lat_rad l)) in *. set (s' := sin (lon_rad l)) in *. set (c' := cos (lon_rad l)) in *. set (N := Np (lat_rad l)) in *. set (h := height_km l) in *. set (e := e2) in *. clearbody s c s' c' N h e.
    transitivity ((N + h) ^ 2 * (c * c) * (s' * s' + c' * c') + (N * (1 - e) + h) ^ 2 * (s * s)); [ring|]. rewrite B. assert (C : c * c = 1 - s * s) by lra. transitivity ((N + h) ^ 2 * (c * c) + (N * (1 - e) + h) ^ 2 * (s * s)); [ring|].
    transitivity ((N + h - N * e * s ^ 2) ^ 2 + (N * e) ^ 2 * (s * s) * (c * c)); [|ring]. rewrite C. ring. }
  set (s := sin (lat_rad l)) in *. set (c := cos (lat_rad l)) in *. set (N := Np (lat_rad l)) in *. set (h := height_km l) in *. set (e := e2) in *. clearbody s c N e h.
  assert (S1 : 0 <= s ^ 2 <= 1) by nra. assert (NE : 0 <= N * e <= N * 0.0066943800) by nra. assert (D0 : N * 0.9933056 - 50 <= dot (itrs_of l) (up l)) by (rewrite DT; nra).
  assert (X : Rabs (N * e * (s * c)) <= N * 0.00334719). { rewrite Rabs_mult. rewrite (Rabs_pos_eq (N * e)) by apply NE. assert (SC : Rabs (s * c) <= 1 / 2) by (pose proof (Rle_0_sqr (s - c)) as Z1; pose proof (Rle_0_sqr (s + c)) as Z2; unfold Rsqr in Z1, Z2; apply Rabs_le; lra). apply Rle_trans with (N * 0.0066943800 * (1 / 2)); [apply Rmult_le_compat; try lra; apply Rabs_pos|lra]. }
  assert (P : 0 < dot (itrs_of l) (up l)) by lra. split.
  - rewrite NM. apply sqrt_lt_R0. pose proof (pow2_ge_0 (N * e * (s * c))). nra.
  - unfold ang, cosine. rewrite up_norm, Rmult_1_r. apply Rle_lt_trans with (1 := acos_tan _ _ _ P NM). apply Rmult_lt_reg_r with (dot (itrs_of l) (up l)); [exact P|]. unfold Rdiv. rewrite Rmult_assoc, Rinv_l by lra. lra.
Qed.
Lemma horizon_near l sat : -50 <= height_km l -> 0 < norm (from_to (itrs_of l) sat) -> Rabs (elevation_of (itrs_of l) sat - true_elevation l sat) < 0.195.
Proof.
  intros H D. destruct (up_near l H) as (N & U). change (from_to (itrs_of l) sat) with (sub sat (itrs_of l)) in D. unfold elevation_of, true_elevation, in_degrees. change (from_to (itrs_of l) sat) with (sub sat (itrs_of l)). rewrite angle_fold. set (d := sub sat (itrs_of l)) in *.
  assert (E : dot d (up l) / norm d = cosine d (up l)) by (unfold cosine; now rewrite up_norm, Rmult_1_r). rewrite E. change (acos (cosine d (up l))) with (ang d (up l)).
  assert (N1 : 0 < norm (up l)) by (rewrite up_norm; lra).
  pose proof (triangle d (itrs_of l) (up l) D N N1) as T1. pose proof (triangle d (up l) (itrs_of l) D N1 N) as T2. rewrite (ang_sym (up l)) in T2.
  set (a := ang d (itrs_of l)) in *. set (b := ang d (up l)) in *. set (g := ang (itrs_of l) (up l)) in *. clearbody a b g. pose proof Flg_Num.PI_near as P.
  replace (90 - a * (180 / PI) - (90 - b * (180 / PI))) with ((b - a) * (180 / PI)) by ring. rewrite Rabs_mult. assert (K : 0 < 180 / PI) by (apply Rdiv_lt_0_compat; lra). rewrite (Rabs_pos_eq (180 / PI)) by lra.
  assert (K1 : 180 / PI <= 57.33) by (apply Rmult_le_reg_r with PI; [lra|]; unfold Rdiv; rewrite Rmult_assoc, Rinv_l by lra; lra).
  assert (AB : Rabs (b - a) < 0.0034) by (apply Rabs_def1; lra). pose proof (Rabs_pos (b - a)). nra.
Qed.
Lemma elevation_value l sat : -50 <= height_km l -> 0 < norm (from_to (itrs_of l) sat) -> elevation l sat = Fin (elevation_of (itrs_of l) sat).
Proof.
  intros H D. destruct (up_near l H) as (N & _). change (from_to (itrs_of l) sat) with (sub sat (itrs_of l)) in D.
  assert (NZ : forall u, 0 < norm u -> u <> zero). { intros u U ->. unfold norm, dot, zero in U. cbn [vx vy vz] in U. replace (0 * 0 + 0 * 0 + 0 * 0) with 0 in U by ring. rewrite sqrt_0 in U. lra. }
  unfold elevation, elevation_of, in_degrees, angle. rewrite sub_fin. change (from_to (itrs_of l) sat) with (sub sat (itrs_of l)). set (d := sub sat (itrs_of l)) in *.
  destruct (get_ang_fin d (itrs_of l) (NZ _ D) (NZ _ N)) as (x & E & X & C). rewrite E. cbn [n_sub]. f_equal. f_equal. rewrite C. replace (norm d * norm (itrs_of l) * cos (x * (PI / 180)) / (norm d * norm (itrs_of l))) with (cos (x * (PI / 180))) by (field; split; lra).
  pose proof PI_RGT_0. rewrite acos_cos by (split; [apply Rmult_le_pos; lra|]; nra). field. lra.
Qed.

(** ** C190: the elevation is within 0.195 degrees of the elevation above the true horizon *)
Theorem C190_exact_elevation :
  forall n itrs l, of_size n itrs -> -50 <= height_km l ->
    exists result, itrs_to_azel itrs l = Ok result /\ length (az_elevation result) = n /\
      forall i, (i < n)%nat -> kilometres itrs i <> itrs_of l ->
        exists x, nth i (az_elevation result) NaN = Fin x /\ Rabs (x - true_elevation l (kilometres itrs i)) < 0.195.
Proof.
  intros n p l S H. eexists. split; [now apply (azel_ok n)|]. cbn [az_elevation]. split; [unfold km_list; now rewrite !map_length, seq_length|].
  intros i I NE. rewrite km_map_nth by exact I. assert (D : 0 < norm (from_to (itrs_of l) (kilometres p i))).
  { apply Geo_Dir.norm_pos. intros Z. apply NE. pose proof (f_equal vx Z) as Z1. pose proof (f_equal vy Z) as Z2. pose proof (f_equal vz Z) as Z3. unfold from_to, zero in Z1, Z2, Z3. cbn [vx vy vz] in Z1, Z2, Z3. apply vec_ext; lra. }
  eexists. split; [apply elevation_value; auto|]. apply horizon_near; auto.
Qed.
(** In floating point, for positions in the ITRS frame. *)
Theorem C190_float_elevation :
  forall M l unit p, accurate M -> on_earth l -> in_orbit unit p -> -50 <= height_km (exact_location l) ->
    let sat := exact_km unit p in 100 <= norm (from_to (itrs_of (exact_location l)) sat) ->
    exists x, felevation M l unit p = Ok x /\
      ((finite x /\ Rabs (value x - true_elevation (exact_location l) sat) < 0.1951) \/ (is_NaN x /\ 89.8 < Rabs (true_elevation (exact_location l) sat))).
Proof.
  intros M l unit p HM O IO H sat D. destruct (C133_elevation_partial M l unit p HM O IO D) as (x & E & C). exists x. split; [exact E|]. fold sat in C, D.
  pose proof (horizon_near (exact_location l) sat H ltac:(lra)) as N. set (e := elevation_of _ _) in *. set (t := true_elevation _ _) in *. clearbody e t. destruct C as [(C1 & C2)|(C1 & C2 & _)].
  - right. split; [exact C1|]. pose proof (Rabs_triang (e - t) t) as T. replace (e - t + t) with e in T by ring. lra.
  - left. split; [exact C1|]. pose proof (Flg_Proofs2.err_trans _ _ _ _ _ C2 (Rlt_le _ _ N)). lra.
Qed.
(** In floating point, for positions in the GCRS frame. *)
Theorem C190_celestial_elevation :
  forall A M l unit jd v sat, accurate_arrays A -> accurate M -> on_earth l -> dated jd -> within_km 1000 900000 unit v -> placed unit jd v sat -> -50 <= height_km (exact_location l) ->
    101 <= norm (from_to (itrs_of (exact_location l)) sat) ->
    exists x, felevation M l unit (fgcrs_to_itrs A jd v) = Ok x /\
      ((finite x /\ Rabs (value x - true_elevation (exact_location l) sat) < 0.1951) \/ (is_NaN x /\ 89.8 < Rabs (true_elevation (exact_location l) sat))).
Proof.
  intros A M l unit jd v sat HA HM O D B P H F.
  assert (Q : exists x, felevation M l unit (fgcrs_to_itrs A jd v) = Ok x /\ ((finite x /\ Rabs (value x - elevation_of (itrs_of (exact_location l)) sat) <= 5 / 100000) \/ (is_NaN x /\ 90 - 5 / 100000 <= Rabs (elevation_of (itrs_of (exact_location l)) sat)))).
  { destruct (gcrs_elevation_ok A M l unit jd v sat HA HM O D P B F) as (x & E & C). exists x. split; auto. destruct C; auto. }
  destruct Q as (x & E & C). exists x. split; [exact E|].
  pose proof (horizon_near (exact_location l) sat H ltac:(lra)) as N. set (e := elevation_of _ _) in *. set (t := true_elevation _ _) in *. clearbody e t. destruct C as [(C1 & C2)|(C1 & C2)].
  - left. split; [exact C1|]. pose proof (Flg_Proofs2.err_trans _ _ _ _ _ C2 (Rlt_le _ _ N)). lra.
  - right. split; [exact C1|]. pose proof (Rabs_triang (e - t) t) as T. replace (e - t + t) with e in T by ring. lra.
Qed.
(** A satellite in view of a place, in each frame. *)
Example C190_case : accurate best /\ on_earth here /\ -50 <= height_km (exact_location here) /\
  in_orbit Ukm (Flg_Cases.up 1000) /\ 100 <= norm (from_to (itrs_of (exact_location here)) (exact_km Ukm (Flg_Cases.up 1000))) /\
  dated a_date2 /\ within_km 1000 900000 Ukm far_out /\ exists sat, placed Ukm a_date2 far_out sat /\ 101 <= norm (from_to (itrs_of (exact_location here)) sat).
Proof.
  destruct C176_case as (_ & A & O & D & W & X). destruct C133_case as (P & F & _). split; [exact A|]. split; [exact O|]. split; [|auto].
  unfold height_km, to_km, exact_location, here. cbn [loc_height length_scale fl_height fl_length size]. destruct (of_Z_ok 0 ltac:(lia)) as (_ & V0). rewrite V0. lra.
Qed.
Print Assumptions C190_exact_elevation.
Print Assumptions C190_float_elevation.
Print Assumptions C190_celestial_elevation.
Print Assumptions C190_case.
