(** Concrete places and positions in floating point. *)
From Coq Require Import List ZArith Reals Lra Lia Psatz.
From Flocq Require Import Core.Core Mult_error IEEE754.BinarySingleNaN IEEE754.Binary IEEE754.Bits.
From Verif Require Import Py PyLemmas Fl_Model Fl_Spec Fl_Proofs Flc_Spec Flg_Model Flg_Spec Rot_Model Rot_Spec Time_Model Flg_Proofs Flg_Num Flg_Proofs2 Flg_Proofs3 Flg_Proofs4 Flg_Proofs5 Flg_Proofs6 Flg_Proofs7 Flg_Best Geo_Model
  Vtw_Model Vtw_Spec Vtw_Proofs Vis_Proofs Flw_Model Flw_Spec Flw_Proofs.
Import ListNotations.
Open Scope R_scope.
Open Scope list_scope.

Lemma between a b x : (Z.abs a < 9007199254740992)%Z -> (Z.abs b < 9007199254740992)%Z ->
  flt (of_Z a) x = true -> flt x (of_Z b) = true -> is_finite 53 1024 x = true -> finite x /\ IZR a < value x < IZR b.
Proof.
  intros Ha Hb A B F. destruct (of_Z_ok a Ha) as (Fa & Va). destruct (of_Z_ok b Hb) as (Fb & Vb). split; [exact F|].
  rewrite <- Va, <- Vb. split; [exact (proj1 (flt_iff _ _ Fa F) A)|exact (proj1 (flt_iff _ _ F Fb) B)].
Qed.
Lemma moderate_of x : finite x -> value x = 0 \/ 1 <= Rabs (value x) <= 1000000000 -> moderate x.
Proof.
  intros F [Z|H]; split; auto. right. split; [|apply Rle_trans with 1000000000; [lra|]].
  - apply Rle_trans with 1; [|lra]. rewrite <- Rinv_1. apply Rinv_le_contravar; [lra|]. apply pow_R1_Rle. lra.
  - apply Rle_trans with (2 ^ 30); [lra|]. apply Rle_pow; [lra|lia].
Qed.
Lemma moderate_Z z : (0 <= Z.abs z <= 1000000000)%Z -> moderate (of_Z z).
Proof.
  intros H. destruct (of_Z_ok z ltac:(lia)) as (F & V). apply moderate_of; auto. rewrite V. destruct (Z.eq_dec z 0) as [->|N]; [now left|right].
  rewrite <- abs_IZR. split; apply IZR_le; lia.
Qed.
Lemma finite_Z z : (0 <= Z.abs z <= 1000000000)%Z -> finite (of_Z z).
Proof. intros H. exact (proj1 (of_Z_ok z ltac:(lia))). Qed.
Lemma here_on_earth : on_earth here.
Proof.
  unfold on_earth, here. cbn [fl_latitude fl_longitude fl_height fl_angle fl_length measures size].
  split; [apply moderate_Z; lia|]. split; [apply moderate_Z; lia|]. split; [apply moderate_Z; lia|]. split; [reflexivity|]. split; [reflexivity|].
  destruct (of_Z_ok 0 ltac:(lia)) as (_ & ->). destruct (of_Z_ok 30 ltac:(lia)) as (_ & ->). repeat apply conj; apply Rabs_le; lra.
Qed.
(** The exact place *)
Lemma here_flat : let G := itrs_of (exact_location here) in Rabs (vx G) <= 6401 /\ Rabs (vy G) <= 6401 /\ vz G = 0.
Proof.
  cbv zeta. unfold itrs_of, itrs_x, itrs_y, itrs_z. cbn [vx vy vz].
  assert (H : height_km (exact_location here) = 0).
  { unfold height_km, to_km, exact_location, here. cbn [loc_height length_scale fl_height fl_length]. destruct (of_Z_ok 0 ltac:(lia)) as (_ & ->). ring. }
  assert (L : lat_rad (exact_location here) = 0).
  { unfold lat_rad, to_rad, exact_location, here. cbn [loc_latitude angular_scale fl_latitude fl_angle]. destruct (of_Z_ok 0 ltac:(lia)) as (_ & ->). ring. }
  rewrite H, L, sin_0, cos_0. pose proof (curvature_range 0) as C. set (n := radius_of_curvature_in_prime_vertical 0) in *. clearbody n.
  pose proof (COS_bound (lon_rad (exact_location here))). pose proof (SIN_bound (lon_rad (exact_location here))).
  split; [apply Rabs_le; nra|]. split; [apply Rabs_le; nra|ring].
Qed.
Lemma over_range : (finite (fx overhead) /\ 11000 < value (fx overhead) < 11100) /\ (finite (fy overhead) /\ 6378 < value (fy overhead) < 6379).
Proof.
  split.
  - apply (between 11000 11100); [lia|lia|vm_compute; reflexivity|vm_compute; reflexivity|vm_compute; reflexivity].
  - apply (between 6378 6379); [lia|lia|vm_compute; reflexivity|vm_compute; reflexivity|vm_compute; reflexivity].
Qed.
Lemma norm_lower v : Rabs (vx v) <= norm v /\ Rabs (vz v) <= norm v.
Proof. destruct (comp_norm v) as (A & _ & B). auto. Qed.
(** Positions above [here] with a third coordinate *)
Definition up (z : Z) : fvec := FV (fx overhead) (fy overhead) (of_Z z).
Lemma km_exact p : exact_km Ukm p = vector p.
Proof. unfold exact_km, vector, size. f_equal; field. Qed.
Lemma up_far z : (0 <= Z.abs z <= 100000)%Z -> in_orbit Ukm (up z) /\ 100 <= norm (from_to (itrs_of (exact_location here)) (exact_km Ukm (up z))).
Proof.
  intros Z. destruct over_range as ((F1 & V1) & (F2 & V2)). destruct (of_Z_ok z ltac:(lia)) as (F3 & V3). rewrite km_exact.
  assert (Bz : Rabs (value (of_Z z)) <= 100000) by (rewrite V3, <- abs_IZR; apply IZR_le; lia).
  split.
  - unfold in_orbit. rewrite km_exact. split; [reflexivity|]. split; [exact F1|].
    split; [exact F2|]. split; [apply finite_Z; lia|]. split.
    + destruct (norm_lower (vector (up z))) as (A & _). cbn [vector vx up fx] in A. rewrite Rabs_pos_eq in A by lra. cbn [vector vx up fx] in *. lra.
    + apply (norm_box _ 100000 100000 100000); try lra; cbn [vector vx vy vz up fx fy fz]; try exact Bz; apply Rabs_le; lra.
  - destruct here_flat as (X & _). destruct (norm_lower (from_to (itrs_of (exact_location here)) (vector (up z)))) as (A & _). apply Rabs_le_inv in X.
    unfold from_to at 1 in A. cbn [vx vector up fx] in A, X. rewrite Rabs_pos_eq in A by lra. lra.
Qed.
Definition far_side : fvec := FV (of_Z 0) (of_Z 0) (of_Z 20000).
Lemma far_side_far : in_orbit Ukm far_side /\ 100 <= norm (from_to (itrs_of (exact_location here)) (exact_km Ukm far_side)).
Proof.
  destruct (of_Z_ok 0 ltac:(lia)) as (F0 & V0). destruct (of_Z_ok 20000 ltac:(lia)) as (F3 & V3). rewrite km_exact. split.
  - unfold in_orbit. rewrite km_exact. split; [reflexivity|]. split; [apply finite_Z; lia|]. split; [apply finite_Z; lia|]. split; [apply finite_Z; lia|]. split.
    + destruct (norm_lower (vector far_side)) as (_ & A). cbn [vector vz far_side fz] in A. rewrite V3, Rabs_pos_eq in A by lra. cbn [vector vz far_side fz] in *. lra.
    + apply (norm_box _ 20000 20000 20000); try lra; cbn [vector vx vy vz far_side fx fy fz]; rewrite ?V0, ?V3; apply Rabs_le; lra.
  - destruct here_flat as (_ & _ & X). destruct (norm_lower (from_to (itrs_of (exact_location here)) (vector far_side))) as (_ & A).
    unfold from_to at 1 in A. cbn [vz vector far_side fz] in A, X. rewrite X, V3, Rabs_pos_eq in A by lra. lra.
Qed.
(** The elevation when the cosine is known roughly *)
Lemma elevation_from M g p q : rounded M -> q = fdiv (fdot (fvsub p g) g) (fmul (fnorm (fvsub p g)) (fsqrt (fdot g g))) ->
  is_finite 53 1024 q = true -> Rabs (value q) <= 1 ->
  finite (felevation_at M g p) /\ Rabs (value (felevation_at M g p) - (90 - in_degrees (acos (value q)))) <= / 1000000.
Proof.
  intros Rm E F B. pose proof (rounded_accurate M Rm) as A. destruct (arccos_good M A q F B) as (Fa & Ea). 
  unfold felevation_at, fget_ang, fnorm_1d. rewrite (dot_plain M Rm), <- E.
  pose proof (acos_bound (value q)) as Ba. destruct (fdegrees_ok _ _ Fa Ba Ea) as (Fd & Ed). set (a := fdegrees (m_arccos M q)) in *. clearbody a.
  assert (Ht : 0 <= in_degrees (acos (value q)) <= 180). { rewrite <- in_degrees_PI. pose proof deg_factor. unfold in_degrees. split; nra. }
  set (t := in_degrees (acos (value q))) in *. clearbody t. apply Rabs_le_inv in Ed.
  destruct (of_Z_ok 90 ltac:(lia)) as (F90 & V90). destruct (fsub_ok (of_Z 90) a F90 Fd) as (Fs & Vs). { rewrite V90. apply small_abs, Rabs_le. lra. }
  split; [exact Fs|]. rewrite Vs.
  assert (R : Rabs (rnd (value (of_Z 90) - value a) - (value (of_Z 90) - value a)) <= 100 * uu).
  { pose proof (rnd_add_err (value (of_Z 90)) (- value a) (value_fmt _) (generic_format_opp _ _ _ (value_fmt a))) as R.
    eapply Rle_trans; [exact R|]. rewrite Rmult_comm. pose proof uu_pos. apply Rmult_le_compat_r; [lra|]. rewrite V90. apply Rabs_le. lra. }
  assert (U : 100 * uu <= / 10000000000) by (rewrite uu_value; lra). apply Rabs_le_inv in R. rewrite V90 in *. apply Rabs_le. lra.
Qed.
Definition half : float := fdiv (of_Z 1) (of_Z 2).
Lemma half_ok : finite half /\ value half = / 2.
Proof. split; [vm_compute; reflexivity|]. unfold half. destruct (of_Z_ok 1 ltac:(lia)) as (F1 & V1). destruct (of_Z_ok 2 ltac:(lia)) as (F2 & V2).
  destruct (fdiv_ok (of_Z 1) (of_Z 2) F1 ltac:(rewrite V2; lra)) as (_ & V). { rewrite V1, V2. apply small_abs, Rabs_le. lra. } rewrite V, V1, V2.
  replace (1 / 2) with (bpow radix2 (-1)) by (cbn; lra). rewrite rnd_fmt by (apply fmt_pow; lia). reflexivity. Qed.
Lemma high_from M g p : rounded M -> let q := fdiv (fdot (fvsub p g) g) (fmul (fnorm (fvsub p g)) (fsqrt (fdot g g))) in
  is_finite 53 1024 q = true -> flt half q = true -> fle q (of_Z 1) = true -> finite (felevation_at M g p) /\ 20 < value (felevation_at M g p).
Proof.
  intros Rm q F L H. destruct half_ok as (Fh & Vh). destruct (of_Z_ok 1 ltac:(lia)) as (F1 & V1).
  assert (Q : / 2 < value q <= 1). { rewrite <- Vh, <- V1. split; [exact (proj1 (flt_iff _ _ Fh F) L)|exact (proj1 (fle_iff _ _ F F1) H)]. }
  destruct (elevation_from M g p q Rm eq_refl F ltac:(apply Rabs_le; lra)) as (Fe & Ee). split; [exact Fe|]. apply Rabs_le_inv in Ee. clearbody q.
  assert (C : acos (value q) <= PI / 3).
  { rewrite <- (acos_cos (PI / 3)) by (pose proof PI_RGT_0; lra). rewrite cos_PI3. apply acos_le; lra. }
  assert (in_degrees (acos (value q)) <= 60). { replace 60 with (in_degrees (PI / 3)) by (unfold in_degrees; field; pose proof PI_RGT_0; lra). unfold in_degrees. apply Rmult_le_compat_r; [pose proof deg_factor; lra|exact C]. }
  lra.
Qed.
Lemma low_from M g p : rounded M -> let q := fdiv (fdot (fvsub p g) g) (fmul (fnorm (fvsub p g)) (fsqrt (fdot g g))) in
  is_finite 53 1024 q = true -> flt q (of_Z 0) = true -> fle (of_Z (-1)) q = true -> finite (felevation_at M g p) /\ value (felevation_at M g p) < 1.
Proof.
  intros Rm q F L H. destruct (of_Z_ok (-1) ltac:(lia)) as (Fh & Vh). destruct (of_Z_ok 0 ltac:(lia)) as (F1 & V1).
  assert (Q : -1 <= value q < 0). { pose proof (proj1 (fle_iff _ _ Fh F) H) as Q1. pose proof (proj1 (flt_iff _ _ F F1) L) as Q2. rewrite Vh in Q1. rewrite V1 in Q2. split; [exact Q1|exact Q2]. }
  destruct (elevation_from M g p q Rm eq_refl F ltac:(apply Rabs_le; lra)) as (Fe & Ee). split; [exact Fe|]. apply Rabs_le_inv in Ee. clearbody q.
  assert (C : PI / 2 <= acos (value q)) by (rewrite <- acos_0; apply acos_le; lra).
  assert (90 <= in_degrees (acos (value q))). { replace 90 with (in_degrees (PI / 2)) by (unfold in_degrees; field; pose proof PI_RGT_0; lra). unfold in_degrees. apply Rmult_le_compat_r; [pose proof deg_factor; lra|exact C]. }
  lra.
Qed.
Lemma cosines s : let g := FV ground_x ground_y (B754_zero 53 1024 s) in
  let q p := fdiv (fdot (fvsub p g) g) (fmul (fnorm (fvsub p g)) (fsqrt (fdot g g))) in
  (is_finite 53 1024 (q (up 1000)) = true /\ flt half (q (up 1000)) = true /\ fle (q (up 1000)) (of_Z 1) = true) /\
  (is_finite 53 1024 (q (up (-1000))) = true /\ flt half (q (up (-1000))) = true /\ fle (q (up (-1000))) (of_Z 1) = true) /\
  (is_finite 53 1024 (q far_side) = true /\ flt (q far_side) (of_Z 0) = true /\ fle (of_Z (-1)) (q far_side) = true).
Proof. destruct s; repeat apply conj; vm_compute; reflexivity. Qed.
(** A pass in four samples: behind the Earth, high, straight overhead, high *)
Definition pass : list fvec := [far_side; up 1000; overhead; up (-1000)].
Definition clock : list float := [of_Z 2459000; of_Z 2459001; of_Z 2459002; of_Z 2459003].
Definition suns : list float := [of_Z 0; of_Z 0; of_Z 0; of_Z 0].
Lemma elevation_at M g p : fitrs M here = Ok g -> fkm Ukm p = Ok p -> felevation M here Ukm p = Ok (felevation_at M g p).
Proof. intros E K. unfold felevation. rewrite K, E. reflexivity. Qed.
Lemma km_same p : fkm Ukm p = Ok p. Proof. destruct p. reflexivity. Qed.
Lemma pass_elevations M : rounded M -> exists e0 e1 e2 e3, mapM (felevation M here Ukm) pass = Ok [e0; e1; e2; e3] /\
  felevation M here Ukm (up 1000) = Ok e1 /\ felevation M here Ukm overhead = Ok e2 /\ felevation M here Ukm (up (-1000)) = Ok e3 /\
  (finite e0 /\ value e0 < 1) /\ (finite e1 /\ 20 < value e1) /\ is_NaN e2 /\ (finite e3 /\ 20 < value e3).
Proof.
  intros Rm. destruct (here_ground M Rm) as (s & E). set (g := FV ground_x ground_y (B754_zero 53 1024 s)) in *.
  destruct (cosines s) as ((A1 & A2 & A3) & (B1 & B2 & B3) & (C1 & C2 & C3)). cbv beta in *.
  pose proof (low_from M g far_side Rm C1 C2 C3) as H0. pose proof (high_from M g (up 1000) Rm A1 A2 A3) as H1. pose proof (high_from M g (up (-1000)) Rm B1 B2 B3) as H3.
  destruct (overhead_nan M Rm) as (x & _ & Ex & Nx & _). rewrite (elevation_at M g overhead E (km_same _)) in Ex. injection Ex as Ex.
  exists (felevation_at M g far_side), (felevation_at M g (up 1000)), (felevation_at M g overhead), (felevation_at M g (up (-1000))).
  unfold pass. cbn [mapM]. rewrite !(elevation_at M g _ E (km_same _)). cbn [bind].
  split; [reflexivity|]. split; [reflexivity|]. split; [reflexivity|]. split; [reflexivity|]. split; [exact H0|]. split; [exact H1|]. split; [rewrite Ex; exact Nx|exact H3].
Qed.
Lemma pass_split M : rounded M -> fgenerate_windows M here Ukm clock pass suns (of_Z 10) Anytime =
  Ok [(of_Z 2459000, of_Z 2459001); (of_Z 2459002, of_Z 2459003)].
Proof.
  intros Rm. destruct (pass_elevations M Rm) as (e0 & e1 & e2 & e3 & E & _ & _ & _ & (F0 & V0) & (F1 & V1) & N2 & (F3 & V3)).
  destruct (of_Z_ok 10 ltac:(lia)) as (F10 & V10). unfold fgenerate_windows. rewrite E.
  assert (flt (of_Z 10) (of_Z 0) = false) as -> by (vm_compute; reflexivity). assert (flt (of_Z 90) (of_Z 10) = false) as -> by (vm_compute; reflexivity). cbn [orb bind map].
  assert (flt (of_Z 10) e0 = false) as -> by (apply (bool_iff _ _ (flt_iff _ _ F10 F0)); rewrite V10; lra).
  assert (flt (of_Z 10) e1 = true) as -> by (apply (flt_iff _ _ F10 F1); rewrite V10; lra).
  assert (flt (of_Z 10) e2 = false) as -> by now apply flt_nan.
  assert (flt (of_Z 10) e3 = true) as -> by (apply (flt_iff _ _ F10 F3); rewrite V10; lra).
  reflexivity.
Qed.
(** The exact elevation straight overhead is not negative *)
Lemma overhead_up : 0 <= elevation_of (itrs_of (exact_location here)) (exact_km Ukm overhead).
Proof.
  set (G := itrs_of (exact_location here)). rewrite km_exact. pose proof (ground_norm here here_on_earth) as NG. fold G in NG.
  destruct (here_ground best best_rounded) as (s & E). destruct (ground_ok best here (rounded_accurate _ best_rounded) here_on_earth) as (g & E' & _ & H). rewrite E in E'. injection E' as <-. fold G in H.
  set (g := FV ground_x ground_y (B754_zero 53 1024 s)) in *.
  assert (D2 : forall x, is_finite 53 1024 x = true -> Rabs (value x) <= 10000 -> value (fmul (of_Z 2) x) = 2 * value x).
  { intros x F B. destruct (of_Z_ok 2 ltac:(lia)) as (F2 & V2). destruct (fmul_ok (of_Z 2) x F2 F) as (_ & V). { rewrite V2. apply small_abs. rewrite Rabs_mult, (Rabs_pos_eq 2) by lra. lra. }
    rewrite V, V2. apply rnd_fmt. rewrite Rmult_comm. change 2 with (bpow radix2 1). apply mult_bpow_pos_exact_FLT; [apply value_fmt|lia]. }
  assert (Bx : finite ground_x /\ 5000 < value ground_x < 6000) by (apply (between 5000 6000); [lia|lia|vm_compute; reflexivity|vm_compute; reflexivity|vm_compute; reflexivity]).
  assert (By : finite ground_y /\ 3000 < value ground_y < 4000) by (apply (between 3000 4000); [lia|lia|vm_compute; reflexivity|vm_compute; reflexivity|vm_compute; reflexivity]).
  assert (Ox : value (fx overhead) = 2 * value ground_x) by (apply D2; [apply Bx|apply Rabs_le; lra]).
  assert (Oy : value (fy overhead) = 2 * value ground_y) by (apply D2; [apply By|apply Rabs_le; lra]).
  destruct (of_Z_ok 0 ltac:(lia)) as (_ & V0).
  assert (P : 0 < dot (from_to G (vector overhead)) G).
  { assert (Q : dot (from_to G (vector overhead)) G = dot G G + 2 * dot (sub (vector g) G) G).
    { unfold dot, from_to, sub. cbn [vx vy vz vector]. rewrite Ox, Oy. unfold g. cbn [fx fy fz overhead]. rewrite V0. change (value (B754_zero 53 1024 s)) with 0. ring. }
    rewrite Q. pose proof (cauchy_norm (sub (vector g) G) G) as C. apply Rabs_le_inv in C. rewrite <- norm_sq. pose proof (norm_pos (sub (vector g) G)) as N0.
    set (n := norm G) in *. set (d := norm (sub (vector g) G)) in *. clearbody n d. assert (d * n <= / 10000000000 * n) by (apply Rmult_le_compat_r; lra). nra. }
  assert (N1 : 0 < norm (from_to G (vector overhead))).
  { destruct (Rle_lt_or_eq_dec _ _ (norm_pos (from_to G (vector overhead)))) as [K|K]; auto. exfalso. pose proof (cauchy_norm (from_to G (vector overhead)) G) as C. rewrite <- K, Rmult_0_l in C. apply Rabs_le_inv in C. lra. }
  unfold elevation_of. rewrite angle_fold. unfold ang.
  assert (C : 0 <= cosine (from_to G (vector overhead)) G). { unfold cosine. apply Rmult_le_pos; [lra|]. left. apply Rinv_0_lt_compat. apply Rmult_lt_0_compat; lra. }
  pose proof (cosine_range (from_to G (vector overhead)) G N1 ltac:(lra)) as C2.
  assert (A : acos (cosine (from_to G (vector overhead)) G) <= PI / 2) by (rewrite <- acos_0; apply acos_le; lra).
  assert (in_degrees (acos (cosine (from_to G (vector overhead)) G)) <= 90). { replace 90 with (in_degrees (PI / 2)) by (unfold in_degrees; field; pose proof PI_RGT_0; lra). unfold in_degrees. apply Rmult_le_compat_r; [pose proof deg_factor; lra|exact A]. }
  lra.
Qed.
Lemma pass_high : forall i, (1 <= i <= 3)%nat -> exists e, elevation_is here Ukm pass i e /\ 19 < e.
Proof.
  intros i I. pose proof (rounded_accurate _ best_rounded) as A. destruct (pass_elevations best best_rounded) as (e0 & e1 & e2 & e3 & _ & E1 & E2 & E3 & _ & (F1 & V1) & N2 & (F3 & V3)).
  assert (W : forall p x, in_orbit Ukm p /\ 100 <= norm (from_to (itrs_of (exact_location here)) (exact_km Ukm p)) -> felevation best here Ukm p = Ok x -> finite x -> 20 < value x ->
    19 < elevation_of (itrs_of (exact_location here)) (exact_km Ukm p)).
  { intros p x (P & D) E F V. destruct (elevation_ok best here Ukm p A here_on_earth P D) as (y & Ey & H). rewrite E in Ey. injection Ey as <-.
    destruct H as [(N & _)|(_ & H & _)]; [exfalso; exact (nan_or _ F N)|]. apply Rabs_le_inv in H. lra. }
  assert (J : (i = 1 \/ i = 2 \/ i = 3)%nat) by lia. destruct J as [-> |[-> | ->]]; (eexists; split; [eexists; split; [reflexivity|reflexivity]|]).
  - apply (W _ e1 (up_far 1000 ltac:(lia)) E1 F1 V1).
  - destruct (up_far 0 ltac:(lia)) as (P & D). destruct (elevation_ok best here Ukm overhead A here_on_earth P D) as (y & Ey & H). rewrite E2 in Ey. injection Ey as <-.
    pose proof overhead_up as U. destruct H as [(_ & H)|(F & _)]; [|exfalso; exact (nan_or _ F N2)]. rewrite Rabs_pos_eq in H by exact U. lra.
  - apply (W _ e3 (up_far (-1000) ltac:(lia)) E3 F3 V3).
Qed.
Lemma pass_far : all_far here Ukm pass.
Proof.
  intros p I. unfold pass in I. destruct I as [<-|[<-|[<-|[<-|[]]]]].
  - exact far_side_far. - apply (up_far 1000). lia. - apply (up_far 0). lia. - apply (up_far (-1000)). lia.
Qed.
