(** Theorems on places given by latitude, longitude and height and measured from a location, in floating point: C179. *)
From Coq Require Import List ZArith Reals Lra Lia Psatz.
From Flocq Require Import Core.Core IEEE754.BinarySingleNaN IEEE754.Binary IEEE754.Bits.
From Verif Require Import Py Num Fl_Model Fl_Spec Fl_Proofs Rot_Model Rot_Spec Time_Proofs Geo_Model Geo_Spec Lvlh_Spec Lvlh_Proofs Geo_Alt Geo_Acc Geo_Props3
  Flg_Model Flg_Spec Flg_Proofs Flg_Num Flg_Proofs2 Flg_Proofs3 Flg_Proofs4 Flg_Proofs5 Flg_Proofs6 Flg_Proofs7 Flg_Best Flg_Cases
  Flr_Model Flr_Spec Flr_Best Fly_Model Fly_Spec Fly_Proofs Fly_Props Fln_Model Fln_Spec Fln_Props Flz_Spec Flz_Proofs Flq_Model.
Import ListNotations.
Open Scope R_scope.
#[local] Strategy 1000 [fmul fadd fsub fdiv fneg of_Z].

(** How far a place is from the centre of the Earth *)
Lemma foot_sizes lat lon foot : foot_at lat lon foot -> norm foot <= 6400 /\ 6335 <= dot foot (up lat lon) /\ norm (up lat lon) = 1.
Proof.
  intros (O & k & K & E). unfold on_ellipsoid, gradient, Geo_Spec.times, up in *. rewrite wa, wb in *. pose proof A_val as HA. pose proof B_val as HB.
  pose proof (f_equal vx E) as X. pose proof (f_equal vy E) as Y. pose proof (f_equal vz E) as Z. cbn [vx vy vz] in X, Y, Z. clear E.
  assert (X' : vx foot = A ^ 2 * (k * (cos lat * cos lon))) by (rewrite <- X; field; lra). assert (Y' : vy foot = A ^ 2 * (k * (cos lat * sin lon))) by (rewrite <- Y; field; lra). assert (Z' : vz foot = B ^ 2 * (k * sin lat)) by (rewrite <- Z; field; lra).
  clear X Y Z. pose proof (sc2 lon) as T. pose proof (sc2 lat) as T'. set (c := cos lat) in *. set (s := sin lat) in *. set (c' := cos lon) in *. set (s' := sin lon) in *.
  assert (XY : vx foot ^ 2 + vy foot ^ 2 = A ^ 4 * (k * k * (c * c))). { rewrite X', Y'. transitivity (A ^ 4 * (k * k * (c * c)) * (s' * s' + c' * c')); [ring|]. rewrite T. ring. }
  assert (O' : k * k * (A ^ 2 * (c * c) + B ^ 2 * (s * s)) = 1). { rewrite XY, Z' in O. rewrite <- O. field. lra. }
  assert (DU : dot foot (V (c * c') (c * s') s) = k * (A ^ 2 * (c * c) + B ^ 2 * (s * s))).
  { unfold dot. cbn [vx vy vz]. rewrite X', Y', Z'. transitivity (k * (A ^ 2 * (c * c) * (s' * s' + c' * c') + B ^ 2 * (s * s))); [ring|]. rewrite T. ring. }
  assert (NN : norm foot * norm foot = k * k * (A ^ 2 * A ^ 2 * (c * c) + B ^ 2 * B ^ 2 * (s * s))).
  { rewrite Flg_Proofs.norm_sq. transitivity (vx foot ^ 2 + vy foot ^ 2 + vz foot ^ 2); [unfold dot; ring|]. rewrite XY, Z'. ring. }
  assert (NU : norm (V (c * c') (c * s') s) = 1).
  { unfold norm. rewrite <- sqrt_1. f_equal. unfold dot. cbn [vx vy vz]. transitivity (c * c * (s' * s' + c' * c') + s * s); [ring|]. rewrite T. lra. }
  assert (C0 : 0 <= c * c) by nra. assert (S0 : 0 <= s * s) by nra. set (cc := c * c) in *. set (ss := s * s) in *.
  assert (EC : cc = 1 - ss) by lra. clearbody cc ss. subst cc. clear T XY O X' Y' Z'.
  assert (A2 : 40680000 <= A ^ 2 <= 40681000) by (replace (A ^ 2) with (A * A) by ring; split; [apply Rle_trans with (6378.13 * 6378.13)|apply Rle_trans with (6378.14 * 6378.14)]; try lra; apply Rmult_le_compat; lra).
  assert (B2 : 40408000 <= B ^ 2 <= 40409000) by (replace (B ^ 2) with (B * B) by ring; split; [apply Rle_trans with (6356.75 * 6356.75)|apply Rle_trans with (6356.76 * 6356.76)]; try lra; apply Rmult_le_compat; lra).
  set (a := A ^ 2) in *. set (b := B ^ 2) in *. clearbody a b. set (Q := a * (1 - ss) + b * ss) in *. assert (HQ : 40408000 <= Q <= 40681000) by (unfold Q; nra).
  assert (K1 : 6335 <= k * Q). { clearbody Q. assert (XX : k * Q * (k * Q) = Q) by (transitivity (k * k * Q * Q); [ring|rewrite O'; ring]). assert (0 < k * Q) by (apply Rmult_lt_0_compat; lra). set (x := k * Q) in *. clearbody x. apply Rnot_lt_le. intros LT. assert (x * x <= 6335 * 6335) by (apply Rmult_le_compat; lra). lra. }
  split; [|split; [rewrite DU; exact K1|exact NU]].
  assert (N2 : norm foot * norm foot <= 40681000 * 40681000 / 40408000).
  { rewrite NN. assert (QQ : a * a * (1 - ss) + b * b * ss <= 40681000 * Q).
    { assert (P1 : 0 <= a * (1 - ss) * (40681000 - a)) by (apply Rmult_le_pos; [apply Rmult_le_pos|]; lra). assert (P2 : 0 <= b * ss * (40681000 - b)) by (apply Rmult_le_pos; [apply Rmult_le_pos|]; lra). unfold Q. lra. } 
    assert (KK : k * k <= / 40408000).
    { clearbody Q. apply Rmult_le_reg_r with Q; [lra|]. rewrite O'. apply Rmult_le_reg_l with 40408000; [lra|]. rewrite <- Rmult_assoc, Rinv_r by lra. lra. }
    apply Rle_trans with (k * k * (40681000 * Q)); [apply Rmult_le_compat_l; nra|]. replace (k * k * (40681000 * Q)) with (40681000 * (k * k * Q)) by ring. rewrite O'. lra. }
  pose proof (norm_pos foot). nra.
Qed.
Lemma place_sizes lat lon foot h : foot_at lat lon foot -> -6000 <= h <= 100000 -> 6335 + h <= norm (plus foot (times h (up lat lon))) <= 106400.
Proof.
  intros F H. destruct (foot_sizes lat lon foot F) as (N & D & U). set (u := up lat lon) in *. set (P := plus foot (times h u)).
  assert (DP : dot P u = dot foot u + h * (norm u * norm u)) by (rewrite Flg_Proofs.norm_sq; unfold P, dot, plus, times; cbn [vx vy vz]; ring). rewrite U in DP.
  pose proof (cauchy_norm P u) as C. rewrite U in C. apply Flg_Proofs.Rabs_le_inv in C. split; [lra|].
  assert (PP : norm P * norm P = norm foot * norm foot + 2 * (h * dot foot u) + h * h * (norm u * norm u)) by (rewrite !Flg_Proofs.norm_sq; unfold P, dot, plus, times; cbn [vx vy vz]; ring).
  rewrite U in PP. pose proof (cauchy_norm foot u) as C'. rewrite U in C'. apply Flg_Proofs.Rabs_le_inv in C'. pose proof (norm_pos P). pose proof (norm_pos foot). clearbody P u. clear F U DP C.
  set (n := norm P) in *. set (f := norm foot) in *. set (d := dot foot u) in *. clearbody n f d.
  assert (Q1 : h * d <= 100000 * 6400) by nra. assert (Q2 : h * h <= 100000 * 100000) by nra. assert (Q3 : f * f <= 6400 * 6400) by nra. nra.
Qed.

(** ** C179: what is measured of a place given by its latitude, longitude and height *)
(** [place] is the point at the given height on the vertical of the ellipsoid. *)
Theorem C179_place_measured :
  forall L J M l latitude longitude height angle length, accurate_arrays L -> accurate_geodesy J -> accurate M -> on_earth l ->
  around_earth latitude longitude height angle length -> -6000 <= km length height ->
    let lat := radians angle latitude in let lon := radians angle longitude in
    exists foot, foot_at lat lon foot /\
    let place := plus foot (times (km length height) (up lat lon)) in let ground := itrs_of (exact_location l) in
    (1 / 500 <= norm (from_to ground place) ->
       exists x, fplace_distance L J M l latitude longitude height angle length = Ok x /\ finite x /\ Rabs (value x - norm (from_to ground place)) <= 5 / 10 ^ 9) /\
    (101 <= norm (from_to ground place) ->
       (exists x, fplace_elevation L J M l latitude longitude height angle length = Ok x /\
          let e := elevation_of ground place in
          ((is_NaN x /\ 90 - 5 / 10 ^ 6 <= Rabs e) \/ (finite x /\ Rabs (value x - e) <= 5 / 10 ^ 6 /\ (Rabs e <= 88 -> Rabs (value x - e) <= 5 / 10 ^ 9)))) /\
       (exists x, fplace_look_angle L J M l latitude longitude height angle length = Ok x /\
          let t := look_angle_of ground place in
          ((is_NaN x /\ (t <= 5 / 10 ^ 6 \/ 180 - 5 / 10 ^ 6 <= t)) \/ (finite x /\ Rabs (value x - t) <= 5 / 10 ^ 6 /\ (2 <= t <= 178 -> Rabs (value x - t) <= 5 / 10 ^ 9))))).
Proof.
  intros L J M l la lo he angle length HL HJ HM O AE LO lat lon.
  destruct (C157_float_wgs84_to_itrs L J HL HJ la lo he angle length AE) as (p & foot & E & FP & FA & H). cbv zeta in H. fold lat lon in FA, H. exists foot. split; [exact FA|]. intros place G. fold place in H.
  unfold fplace_distance, fplace_elevation, fplace_look_angle. rewrite E. cbn [bind].
  assert (HB : Rabs (km length he) <= 100000).
  { destruct AE as (_ & _ & _ & _ & _ & _ & _ & B). unfold km. unfold Rdiv. rewrite Rabs_mult, (Rabs_pos_eq (/ 1000)) by lra. lra. }
  assert (HR : -6000 <= km length he <= 100000) by (apply Flg_Proofs.Rabs_le_inv in HB; lra).
  pose proof (place_sizes lat lon foot (km length he) FA HR) as PS. fold place in PS. destruct (foot_sizes lat lon foot FA) as (_ & _ & U).
  set (h := km length he) in *. set (S := exact_km Ukm p).
  assert (SE : S = vector p) by (unfold S, exact_km, vector; cbn [size]; f_equal; field).
  assert (W : (6401 + Rabs h) / 10 ^ 14 + / 10 ^ 11 <= 12 / 10 ^ 10) by lra.
  assert (D : norm (sub S place) <= 24 / 10 ^ 10).
  { rewrite SE. destruct H as (H1 & H2 & H3). pose proof (norm_two (sub (vector p) place) (V 0 0 0) 0 (12 / 10 ^ 10) ltac:(lra) ltac:(lra)) as N.
    eapply Rle_trans; [apply N|lra]; unfold sub, vector; cbn [vx vy vz]; lra. }
  pose proof (norm_near S place) as T. apply Flg_Proofs.Rabs_le_inv in T.
  pose proof (from_to_move G place S) as T2. apply Flg_Proofs.Rabs_le_inv in T2.
  assert (IO : in_orbit Ukm p) by (destruct FP as (F1 & F2 & F3); repeat (split; auto); fold S; lra).
  clearbody h. split.
  - intros FAR. destruct (distance_ok M l Ukm p HM O IO ltac:(fold G S; lra)) as (x & Ex & Fx & X). fold G S in X. exists x. split; auto. split; auto. apply Flg_Proofs.Rabs_le_inv in X. apply Rabs_le. lra.
  - intros FAR. pose proof (ground_norm l O) as Ng. fold G in Ng. split.
    + destruct (elevation_ok M l Ukm p HM O IO ltac:(fold G S; lra)) as (x & Ex & X). fold G S in X. exists x. split; [exact Ex|]. cbv zeta. set (e := elevation_of G place) in *.
      pose proof (moved_elevation G place S (24 / 10 ^ 12) ltac:(lra) ltac:(lra) ltac:(lra) ltac:(lra)) as Mv. fold e in Mv. set (e' := elevation_of G S) in *. clearbody e e'.
      pose proof (Rabs_triang_inv2 e' e) as T3. apply Flg_Proofs.Rabs_le_inv in T3. pose proof Mv as Mv'. apply Flg_Proofs.Rabs_le_inv in Mv'. destruct X as [(Nn & X)|(Fx & X & X2)]; [left|right]; split; auto; try lra.
      apply Flg_Proofs.Rabs_le_inv in X. split; [apply Rabs_le; lra|]. intros EB. specialize (X2 ltac:(lra)). apply Flg_Proofs.Rabs_le_inv in X2. apply Rabs_le. lra.
    + destruct (look_ok M l Ukm p HM O IO ltac:(fold G S; lra)) as (x & Ex & X). fold G S in X. exists x. split; [exact Ex|]. cbv zeta. set (t := look_angle_of G place) in *.
      destruct (Rle_or_lt 100 (norm place)) as [NP|NP].
      * pose proof (moved_look G place S (24 / 10 ^ 12) (24 / 10 ^ 12) ltac:(lra) ltac:(lra) ltac:(lra) ltac:(lra) ltac:(lra) ltac:(lra)) as Mv. fold t in Mv. set (t' := look_angle_of G S) in *. clearbody t t'. apply Flg_Proofs.Rabs_le_inv in Mv.
        destruct X as [(Nn & X)|(Fx & X & X2)]; [left|right]; split; auto; [destruct X; [left|right]; lra|]. apply Flg_Proofs.Rabs_le_inv in X. split; [apply Rabs_le; lra|]. intros EB. specialize (X2 ltac:(lra)). apply Flg_Proofs.Rabs_le_inv in X2. apply Rabs_le. lra.
      * exfalso. lra.
Qed.

(** A geostationary satellite over the equator at the date line, 35786 km high, seen from [here]. *)
Example C179_case : accurate_arrays best_arrays /\ accurate_geodesy best_geodesy /\ accurate best /\ on_earth here /\
  around_earth (of_Z 0) (of_Z 180) (of_Z 35786) Udeg Ukm /\ -6000 <= km Ukm (of_Z 35786) /\
  forall foot, foot_at (radians Udeg (of_Z 0)) (radians Udeg (of_Z 180)) foot ->
    101 <= norm (from_to (itrs_of (exact_location here)) (plus foot (times (km Ukm (of_Z 35786)) (up (radians Udeg (of_Z 0)) (radians Udeg (of_Z 180)))))).
Proof.
  destruct (of_Z_ok 0 ltac:(lia)) as (_ & V0). destruct (of_Z_ok 180 ltac:(lia)) as (_ & V1). destruct (of_Z_ok 35786 ltac:(lia)) as (_ & V2).
  assert (K : km Ukm (of_Z 35786) = 35786) by (unfold km; cbn [size]; rewrite V2; field).
  split; [exact best_arrays_accurate|]. split; [exact best_geodesy_accurate|]. split; [exact (rounded_accurate _ best_rounded)|]. split; [exact here_on_earth|]. split; [|split; [rewrite K; lra|]].
  - unfold around_earth. cbn [size measures]. rewrite V0, V1, V2. repeat split; try (apply moderate_Z; lia); apply Rabs_le; lra.
  - intros foot F. rewrite K. pose proof (place_sizes _ _ foot 35786 F ltac:(lra)) as N. set (P := plus foot _) in *. pose proof (ground_norm here here_on_earth) as Ng. set (G := itrs_of (exact_location here)) in *.
    pose proof (norm_near (from_to G P) P) as T. assert (E : norm (sub (from_to G P) P) = norm G) by (unfold norm, dot, sub, from_to; cbn [vx vy vz]; f_equal; ring). rewrite E in T. apply Flg_Proofs.Rabs_le_inv in T. lra.
Qed.

Print Assumptions C179_place_measured.
