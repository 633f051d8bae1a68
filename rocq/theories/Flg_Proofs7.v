(** Distances, elevations and look angles of floating-point positions. *)
From Coq Require Import ZArith Reals Lra Lia Psatz.
From Flocq Require Import Core.Core IEEE754.BinarySingleNaN IEEE754.Binary IEEE754.Bits Relative.
From Verif Require Import Py Fl_Model Fl_Spec Fl_Proofs Flg_Model Flg_Spec Rot_Model Rot_Spec Time_Model Flg_Proofs Flg_Num Flg_Proofs2 Flg_Proofs3 Flg_Proofs4 Flg_Proofs5 Flg_Proofs6 Geo_Model.
Open Scope R_scope.

Lemma norm_tri a b c : norm (sub a c) <= norm (sub a b) + norm (sub b c).
Proof.
  pose proof (norm_near (sub a c) (sub a b)) as H. 
  assert (E : norm (sub (sub a c) (sub a b)) = norm (sub b c)) by (unfold norm, dot, sub; cbn [vx vy vz]; f_equal; ring).
  rewrite E in H. apply Rabs_le_inv in H. lra.
Qed.
Lemma norm_scaled d a k : 0 <= k -> Rabs (vx d) <= k * Rabs (vx a) -> Rabs (vy d) <= k * Rabs (vy a) -> Rabs (vz d) <= k * Rabs (vz a) -> norm d <= k * norm a.
Proof.
  intros K X Y Z. rewrite <- (Rabs_pos_eq (norm d)) by apply norm_pos. apply sq_le; [apply Rmult_le_pos; auto; apply norm_pos|].
  replace (k * norm a * (k * norm a)) with (k * k * (norm a * norm a)) by ring. rewrite !norm_sq. unfold dot.
  assert (S : forall p q, Rabs p <= k * Rabs q -> p * p <= k * k * (q * q)).
  { intros p q H. assert (Rabs p * Rabs p <= k * Rabs q * (k * Rabs q)) by (apply Rmult_le_compat; auto using Rabs_pos).
    assert (Qq : forall x, Rabs x * Rabs x = x * x) by (intros x; rewrite <- Rabs_mult; apply Rabs_pos_eq; nra).
    rewrite Qq in H0. replace (k * Rabs q * (k * Rabs q)) with (k * k * (Rabs q * Rabs q)) in H0 by ring. now rewrite Qq in H0. }
  apply S in X, Y, Z. lra.
Qed.
Lemma norm_box d a b c : Rabs (vx d) <= a -> Rabs (vy d) <= b -> Rabs (vz d) <= c -> forall r, 0 <= r -> a * a + b * b + c * c <= r * r -> norm d <= r.
Proof.
  intros X Y Z r R H. rewrite <- (Rabs_pos_eq (norm d)) by apply norm_pos. apply sq_le; auto. rewrite norm_sq. unfold dot.
  assert (S : forall p q, Rabs p <= q -> p * p <= q * q).
  { intros p q K. assert (Rabs p * Rabs p <= q * q) by (apply Rmult_le_compat; auto using Rabs_pos).
    rewrite <- Rabs_mult, Rabs_pos_eq in H0 by nra. auto. }
  apply S in X, Y, Z. lra.
Qed.
Lemma sub_from_to a b : from_to a b = sub b a. Proof. reflexivity. Qed.

(** The location *)
Lemma ground_ok M l : accurate M -> on_earth l -> exists g, fitrs M l = Ok g /\ finite_vec g /\
  norm (sub (vector g) (itrs_of (exact_location l))) <= / 10000000000.
Proof.
  intros A O. destruct (fitrs_ok M l A O) as (g & E & (F1 & X & _) & (F2 & Y & _) & (F3 & Z & _)). exists g. split; auto. split; [repeat split; auto|].
  apply (norm_box (sub (vector g) (itrs_of (exact_location l))) _ _ _ X Y Z); [lra|]. rewrite uu_value. lra.
Qed.
Lemma ground_norm l : on_earth l -> 5000 <= norm (itrs_of (exact_location l)) <= 13000.
Proof.
  intros (_ & _ & _ & _ & _ & _ & _ & H). assert (Hh : -1000 <= height_km (exact_location l) <= 1000).
  { unfold height_km, to_km. cbn [length_scale loc_height exact_location]. apply Rabs_le_inv in H. replace (value (fl_height l) * (size (fl_length l) / 1000)) with (value (fl_height l) * size (fl_length l) / 1000) by field. lra. }
  set (L := exact_location l) in *. clearbody L. unfold itrs_of, itrs_x, itrs_y, itrs_z.
  pose proof (curvature_range (lat_rad L)) as C. set (n := radius_of_curvature_in_prime_vertical (lat_rad L)) in *. clearbody n.
  set (h := height_km L) in *. clearbody h. pose proof (sin2_cos2 (lat_rad L)) as T1. pose proof (sin2_cos2 (lon_rad L)) as T2. unfold Rsqr in *.
  set (s := sin (lat_rad L)) in *. set (c := cos (lat_rad L)) in *. set (s' := sin (lon_rad L)) in *. set (c' := cos (lon_rad L)) in *. clearbody s c s' c'.
  rewrite ecc_sq. set (f := 1 - _). assert (Hf : 99 / 100 <= f <= 1) by (unfold f; lra). clearbody f.
  set (a := n + h). set (b := n * f + h). assert (Ha : 5000 <= a <= 7401) by (unfold a; lra). assert (Hb : 5000 <= b <= 7401) by (unfold b; split; nra). clearbody a b.
  assert (D : dot (V (a * c * c') (a * c * s') (b * s)) (V (a * c * c') (a * c * s') (b * s)) = a * a * (c * c) + b * b * (s * s)).
  { unfold dot. cbn [vx vy vz]. replace (a * c * c' * (a * c * c') + a * c * s' * (a * c * s') + b * s * (b * s)) with (a * a * (c * c) * (s' * s' + c' * c') + b * b * (s * s)) by ring. rewrite T2. ring. }
  unfold norm. rewrite D. assert (0 <= c * c) by nra. assert (0 <= s * s) by nra.
  assert (Xa : 5000 * 5000 <= a * a <= 7401 * 7401) by nra. assert (Xb : 5000 * 5000 <= b * b <= 7401 * 7401) by nra. split.
  - rewrite <- (sqrt_square 5000) by lra. apply sqrt_le_1_alt. nra.
  - rewrite <- (sqrt_square 13000) by lra. apply sqrt_le_1_alt. nra.
Qed.
Lemma norm_two d a k t : 0 <= k -> 0 <= t -> Rabs (vx d) <= k * Rabs (vx a) + t -> Rabs (vy d) <= k * Rabs (vy a) + t -> Rabs (vz d) <= k * Rabs (vz a) + t ->
  norm d <= k * norm a + 2 * t.
Proof.
  intros K T X Y Z. pose proof (norm_pos a) as P. apply (norm_box d _ _ _ X Y Z); [nra|].
  assert (Q : forall x, Rabs x * Rabs x = x * x) by (intros x; rewrite <- Rabs_mult; apply Rabs_pos_eq; nra).
  assert (N : norm a * norm a = Rabs (vx a) * Rabs (vx a) + Rabs (vy a) * Rabs (vy a) + Rabs (vz a) * Rabs (vz a)) by (rewrite norm_sq, !Q; reflexivity).
  pose proof (Rabs_pos (vx a)) as Px. pose proof (Rabs_pos (vy a)) as Py. pose proof (Rabs_pos (vz a)) as Pz.
  set (n := norm a) in *. set (x := Rabs (vx a)) in *. set (y := Rabs (vy a)) in *. set (z := Rabs (vz a)) in *. clearbody n x y z.
  assert (S : x + y + z <= 2 * n).
  { rewrite <- (Rabs_pos_eq (x + y + z)) by lra. apply sq_le; [lra|]. pose proof (Rle_0_sqr (x - y)). pose proof (Rle_0_sqr (y - z)). pose proof (Rle_0_sqr (x - z)). unfold Rsqr in *. nra. }
  assert (0 <= k * t) by (apply Rmult_le_pos; auto). assert (k * t * (x + y + z) <= k * t * (2 * n)) by (apply Rmult_le_compat_l; auto).
  replace ((k * n + 2 * t) * (k * n + 2 * t)) with (k * k * (n * n) + 2 * (k * t * (2 * n)) + 4 * (t * t)) by ring. rewrite N.
  replace ((k * x + t) * (k * x + t) + (k * y + t) * (k * y + t) + (k * z + t) * (k * z + t)) with (k * k * (x * x + y * y + z * z) + 2 * (k * t * (x + y + z)) + 3 * (t * t)) by ring.
  nra.
Qed.
(** The satellite *)
Lemma km_coordinate x unit : kind_of unit = Length -> finite x -> Rabs (value x * size unit / 1000) <= 1000000000 ->
  exists y, fconvert x unit Ukm = Ok y /\ finite y /\ Rabs (value y - value x * size unit / 1000) <= 65 / 10 * uu * Rabs (value x * size unit / 1000) + uu / 100.
Proof.
  intros K Fx B. pose proof uu_pos as U. pose proof uu_small as U'.
  assert (K' : kind_of unit = kind_of Ukm) by (rewrite K; reflexivity). unfold fconvert.
  assert (kind_eqb (kind_of unit) (kind_of Ukm) = true) as -> by now apply kind_eqb_iff. cbn [negb].
  destruct (unit_eqb unit Ukm) eqn:E.
  - apply unit_eqb_iff in E. subst unit. exists x. split; auto. split; auto. change (size Ukm) with 1000.
    replace (value x - value x * 1000 / 1000) with 0 by field. rewrite Rabs_R0. pose proof (Rabs_pos (value x * 1000 / 1000)). nra.
  - eexists. split; [reflexivity|]. destruct (factor_ok unit Ukm K') as (Fc & (e & He & Ee)). change (size Ukm) with 1000 in *.
    set (c := fdiv (unit_scale unit) (unit_scale Ukm)) in *. clearbody c.
    assert (Q : value x * value c = value x * size unit / 1000 * (1 + e)) by (rewrite Ee; field).
    set (s := value x * size unit / 1000) in *. clearbody s. pose proof He as He'. apply Rabs_le_inv in He'.
    assert (Hi : Rabs (value x * value c) <= bpow radix2 1000).
    { rewrite Q. apply Rle_trans with (bpow radix2 40); [|apply bpow_le; lia]. rewrite Rabs_mult. pose proof (Rabs_pos s). assert (Rabs (1 + e) <= 2) by (apply Rabs_le; lra). pose proof (Rabs_pos (1 + e)).
      apply Rle_trans with (1000000000 * 2); [apply Rmult_le_compat; lra|]. cbn. lra. }
    destruct (fmul_ok x c Fx Fc Hi) as (F & V). split; auto. rewrite V, Q.
    destruct (error_N_FLT radix2 (-1074) 53 eq_refl (fun n => negb (Z.even n)) (s * (1 + e))) as (f & t & Hf & Ht & _ & Ef).
    replace (rnd (s * (1 + e))) with (s * (1 + e) * (1 + f) + t) by (symmetry; exact Ef).
    assert (Ht' : Rabs t <= uu / 100).
    { eapply Rle_trans; [exact Ht|]. rewrite uu_value. assert (bpow radix2 (-1074) <= bpow radix2 (-120)) by (apply bpow_le; lia).
      assert (bpow radix2 (-120) <= / 9007199254740992 / 1000000000000000000); [|lra].
      change (-120)%Z with (- (120))%Z. rewrite bpow_opp. rewrite <- IZR_Zpower by lia. change (Zpower radix2 120) with 1329227995784915872903807060280344576%Z. lra. }
    assert (Hf' : Rabs f <= uu) by exact Hf.
    replace (s * (1 + e) * (1 + f) + t - s) with (s * (e + f + e * f) + t) by ring.
    eapply Rle_trans; [apply Rabs_triang|]. apply Rplus_le_compat; [|exact Ht']. rewrite Rabs_mult, (Rmult_comm _ (Rabs s)).
    apply Rmult_le_compat_l; [apply Rabs_pos|]. apply Rabs_le_inv in Hf'. assert (uu <= / 100) by lra. apply Rabs_le. split; nra.
Qed.
Lemma km_any unit p : measures unit = Lengths -> finite (fx p) -> finite (fy p) -> finite (fz p) -> 1 <= norm (exact_km unit p) <= 1000000000 ->
  exists s, fkm unit p = Ok s /\ finite_vec s /\ norm (sub (vector s) (exact_km unit p)) <= 7 * uu * norm (exact_km unit p).
Proof.
  intros K F1 F2 F3 (N1 & N2). apply measures_length in K. change (kind_of Ukm) with Length in K.
  destruct (comp_norm (exact_km unit p)) as (C1 & C2 & C3). unfold exact_km in C1 at 1. unfold exact_km in C2 at 1. unfold exact_km in C3 at 1. cbn [vx vy vz] in C1, C2, C3.
  destruct (km_coordinate _ _ K F1 ltac:(lra)) as (x & E1 & G1 & O1). destruct (km_coordinate _ _ K F2 ltac:(lra)) as (y & E2 & G2 & O2). destruct (km_coordinate _ _ K F3 ltac:(lra)) as (z & E3 & G3 & O3).
  unfold fkm. rewrite E1, E2, E3. cbn [bind]. eexists. split; [reflexivity|]. split; [repeat split; auto|].
  pose proof uu_pos as U.
  eapply Rle_trans; [apply (norm_two (sub (vector (FV x y z)) (exact_km unit p)) (exact_km unit p) (65 / 10 * uu) (uu / 100) ltac:(lra) ltac:(lra) O1 O2 O3)|]. nra.
Qed.
Lemma km_ok unit p : in_orbit unit p -> exists s, fkm unit p = Ok s /\ finite_vec s /\
  norm (sub (vector s) (exact_km unit p)) <= 7 * uu * norm (exact_km unit p).
Proof. intros (K & F1 & F2 & F3 & N). apply km_any; auto. lra. Qed.
(** The difference *)
Lemma sub_ok s g : finite_vec s -> finite_vec g -> norm (vector s) <= 2000000 -> norm (vector g) <= 2000000 ->
  finite_vec (fvsub s g) /\ norm (sub (vector (fvsub s g)) (sub (vector s) (vector g))) <= uu * norm (sub (vector s) (vector g)).
Proof.
  intros (F1 & F2 & F3) (G1 & G2 & G3) S G. destruct (comp_norm (vector s)) as (A1 & A2 & A3). destruct (comp_norm (vector g)) as (B1 & B2 & B3). cbn [vector vx vy vz] in *.
  assert (T : forall x y, finite x -> finite y -> Rabs (value x) <= 2000000 -> Rabs (value y) <= 2000000 ->
    finite (fsub x y) /\ Rabs (value (fsub x y) - (value x - value y)) <= uu * Rabs (value x - value y)).
  { intros x y Fx Fy X Y. apply Rabs_le_inv in X, Y. destruct (fsub_ok x y Fx Fy) as (F & V). { apply small_abs, Rabs_le. lra. } split; auto. rewrite V.
    exact (rnd_add_err (value x) (- value y) (value_fmt x) (generic_format_opp _ _ _ (value_fmt y))). }
  destruct (T (fx s) (fx g)) as (H1 & X1); auto; try lra. destruct (T (fy s) (fy g)) as (H2 & X2); auto; try lra. destruct (T (fz s) (fz g)) as (H3 & X3); auto; try lra.
  split; [repeat split; auto|]. pose proof uu_pos. apply norm_scaled; [lra|exact X1|exact X2|exact X3].
Qed.
Lemma norm_sub_sym a b : norm (sub a b) = norm (sub b a). Proof. unfold norm, dot, sub. cbn [vx vy vz]. f_equal. ring. Qed.

(** What the computation works on, for a distance [d] from the location to the satellite *)
Lemma setting M l unit p : accurate M -> on_earth l -> in_orbit unit p ->
  let G := itrs_of (exact_location l) in let S := exact_km unit p in
  / 1000 <= norm (from_to G S) ->
  exists s g, fkm unit p = Ok s /\ fitrs M l = Ok g /\ sized s /\ sized g /\ sized (fvsub s g) /\
    norm (sub (vector s) S) <= 7 * uu * norm S /\ norm (sub (vector g) G) <= / 10000000000 /\
    norm (sub (vector (fvsub s g)) (from_to G S)) <= / 1000000000 /\ norm (from_to G S) <= 1013000.
Proof.
  intros A O P G S D. destruct (ground_ok M l A O) as (g & Eg & Fg & Hg). destruct (km_ok unit p P) as (s & Es & Fs & Hs).
  pose proof (ground_norm l O) as Ng. pose proof P as (_ & _ & _ & _ & Np). fold G in Hg, Ng. fold S in Hs, Np.
  exists s, g. split; auto. split; auto. pose proof uu_pos as U. pose proof uu_small as U'. pose proof uu_value as UV.
  assert (Hs' : norm (sub (vector s) S) <= 78 / 100000000000) by (rewrite UV in Hs; lra).
  pose proof (norm_near (vector s) S) as Ns. apply Rabs_le_inv in Ns. pose proof (norm_near (vector g) G) as Ng'. apply Rabs_le_inv in Ng'.
  destruct (sub_ok s g Fs Fg ltac:(lra) ltac:(lra)) as (Fw & Hw).
  assert (T1 : norm (sub (sub (vector s) (vector g)) (from_to G S)) <= 88 / 100000000000).
  { pose proof (norm_tri (sub (vector s) (vector g)) (sub S (vector g)) (from_to G S)) as T.
    assert (E1 : norm (sub (sub (vector s) (vector g)) (sub S (vector g))) = norm (sub (vector s) S)) by (unfold norm, dot, sub; cbn [vx vy vz]; f_equal; ring).
    assert (E2 : norm (sub (sub S (vector g)) (from_to G S)) = norm (sub (vector g) G)) by (unfold norm, dot, sub, from_to; cbn [vx vy vz]; f_equal; ring).
    rewrite E1, E2 in T. lra. }
  assert (T2 : norm (from_to G S) <= 1013000).
  { pose proof (norm_near (from_to G S) S) as T. assert (E : norm (sub (from_to G S) S) = norm G) by (unfold norm, dot, sub, from_to; cbn [vx vy vz]; f_equal; ring). rewrite E in T. apply Rabs_le_inv in T. lra. }
  pose proof (norm_near (sub (vector s) (vector g)) (from_to G S)) as T3. apply Rabs_le_inv in T3.
  assert (T4 : norm (sub (vector (fvsub s g)) (sub (vector s) (vector g))) <= 115 / 1000000000000) by nra.
  pose proof (norm_tri (vector (fvsub s g)) (sub (vector s) (vector g)) (from_to G S)) as T5.
  pose proof (norm_near (vector (fvsub s g)) (from_to G S)) as T6. apply Rabs_le_inv in T6.
  assert (B1 : bpow radix2 (-400) <= / 2000).
  { change (-400)%Z with (- (400))%Z. rewrite bpow_opp. apply Rinv_le_contravar; [lra|]. apply Rle_trans with (bpow radix2 11); [cbn; lra|apply bpow_le; lia]. }
  assert (B2 : 2000000 <= bpow radix2 100) by (apply Rle_trans with (bpow radix2 21); [cbn; lra|apply bpow_le; lia]).
  assert (Sw : sized (fvsub s g)) by (split; [exact Fw|lra]). assert (Ss : sized s) by (split; [exact Fs|lra]). assert (Sg : sized g) by (split; [exact Fg|lra]).
  split; [exact Ss|]. split; [exact Sg|]. split; [exact Sw|]. split; [lra|]. split; [lra|]. split; lra.
Qed.
Lemma distance_ok M l unit p : accurate M -> on_earth l -> in_orbit unit p ->
  let G := itrs_of (exact_location l) in let S := exact_km unit p in
  / 1000 <= norm (from_to G S) ->
  exists x, fdistance M l unit p = Ok x /\ finite x /\ Rabs (value x - norm (from_to G S)) <= 2 / 1000000000.
Proof.
  intros A O P G S D. destruct (setting M l unit p A O P D) as (s & g & Es & Eg & Ss & Sg & Sw & Hs & Hg & Hw & Hd). fold G S in Hs, Hg, Hw, Hd.
  unfold fdistance. rewrite Es, Eg. cbn [bind]. eexists. split; [reflexivity|]. destruct (fnorm_ok _ Sw) as (F & E). split; [exact F|].
  pose proof (norm_near (vector (fvsub s g)) (from_to G S)) as T. pose proof T as T'. apply Rabs_le_inv in T'. pose proof (Rle_trans _ _ _ T Hw) as T2.
  eapply Rle_trans; [apply (err_trans _ _ _ _ _ E T2)|]. rewrite uu_value. lra.
Qed.
Lemma elevation_ok M l unit p : accurate M -> on_earth l -> in_orbit unit p ->
  let G := itrs_of (exact_location l) in let S := exact_km unit p in
  100 <= norm (from_to G S) ->
  exists x, felevation M l unit p = Ok x /\
    ((is_NaN x /\ 90 - 4 / 1000000 <= Rabs (elevation_of G S)) \/
     (finite x /\ Rabs (value x - elevation_of G S) <= 4 / 1000000 /\
      (Rabs (elevation_of G S) <= 89 -> Rabs (value x - elevation_of G S) <= 2 / 1000000000))).
Proof.
  intros A O P G S D. destruct (setting M l unit p A O P ltac:(fold G S; lra)) as (s & g & Es & Eg & Ss & Sg & Sw & Hs & Hg & Hw & Hd). fold G S in Hs, Hg, Hw, Hd.
  unfold felevation. rewrite Es, Eg. cbn [bind]. eexists. split; [reflexivity|]. unfold felevation_at.
  destruct (fnorm_1d_ok M g A Sg) as (Fn & En). pose proof (ground_norm l O) as Ng. fold G in Ng.
  destruct (near_angle (from_to G S) (vector (fvsub s g)) (/ 100000000000) ltac:(lra) ltac:(lra) ltac:(lra)) as (_ & A1).
  destruct (near_angle G (vector g) (/ 10000000000000) ltac:(lra) ltac:(lra) ltac:(lra)) as (_ & A2).
  pose proof (get_ang_ok M (fvsub s g) g (fnorm_1d M g) (from_to G S) G (/ 100000000000 * (105 / 100)) A Sw Sg Fn En ltac:(lra) ltac:(lra) ltac:(lra) ltac:(lra)) as H.
  cbv zeta in H. unfold elevation_of. set (a := fget_ang M (fvsub s g) g (fnorm_1d M g)) in *. set (t := in_degrees (angle (from_to G S) G)) in *. clearbody a.
  assert (Ht : 0 <= t <= 180).
  { unfold t. rewrite angle_fold. destruct (ang_range (from_to G S) G) as (R1 & R2). rewrite <- in_degrees_PI. pose proof deg_factor. unfold in_degrees. split; nra. }
  clearbody t. destruct H as [(N & H)|(F & E1 & E2)].
  - left. split; [now apply nan_sub|]. unfold Rabs. destruct (Rcase_abs (90 - t)); destruct H; lra.
  - right. destruct (of_Z_ok 90 ltac:(lia)) as (F90 & V90). apply Rabs_le_inv in E1. destruct (fsub_ok (of_Z 90) a F90 F) as (Fs & Vs). { rewrite V90. apply small_abs, Rabs_le. lra. }
    split; [exact Fs|]. rewrite Vs.
    assert (R : Rabs (rnd (value (of_Z 90) - value a) - (value (of_Z 90) - value a)) <= 100 * uu).
    { pose proof (rnd_add_err (value (of_Z 90)) (- value a) (value_fmt _) (generic_format_opp _ _ _ (value_fmt a))) as R.
      eapply Rle_trans; [exact R|]. rewrite Rmult_comm. pose proof uu_pos. apply Rmult_le_compat_r; [lra|]. rewrite V90. apply Rabs_le. lra. }
    assert (U : 100 * uu <= / 10000000000) by (rewrite uu_value; lra). apply Rabs_le_inv in R. rewrite V90 in *. split.
    + apply Rabs_le. lra.
    + intros T. apply Rabs_le_inv in T. specialize (E2 ltac:(lra)). apply Rabs_le_inv in E2. apply Rabs_le. lra.
Qed.
Lemma look_ok M l unit p : accurate M -> on_earth l -> in_orbit unit p ->
  let G := itrs_of (exact_location l) in let S := exact_km unit p in let t := look_angle_of G S in
  100 <= norm (from_to G S) ->
  exists x, flook_angle M l unit p = Ok x /\
    ((is_NaN x /\ (t <= 4 / 1000000 \/ 180 - 4 / 1000000 <= t)) \/
     (finite x /\ Rabs (value x - t) <= 4 / 1000000 /\ (1 <= t <= 179 -> Rabs (value x - t) <= 2 / 1000000000))).
Proof.
  intros A O P G S t D. destruct (setting M l unit p A O P ltac:(fold G S; lra)) as (s & g & Es & Eg & Ss & Sg & Sw & Hs & Hg & Hw & Hd). fold G S in Hs, Hg, Hw, Hd.
  unfold flook_angle. rewrite Es, Eg. cbn [bind]. eexists. split; [reflexivity|].
  destruct (fnorm_ok s Ss) as (Fn & En). pose proof P as (_ & _ & _ & _ & Np). fold S in Np.
  destruct (near_angle (from_to G S) (vector (fvsub s g)) (/ 100000000000) ltac:(lra) ltac:(lra) ltac:(lra)) as (_ & A1).
  destruct (near_angle S (vector s) (7 * uu) ltac:(lra) ltac:(rewrite uu_value; lra) ltac:(lra)) as (_ & A2).
  pose proof (get_ang_ok M (fvsub s g) s (fnorm s) (from_to G S) S (/ 100000000000 * (105 / 100)) A Sw Ss Fn En ltac:(lra) ltac:(lra) ltac:(rewrite uu_value in A2; lra) ltac:(lra)) as H.
  cbv zeta in H.
  assert (Et : in_degrees (angle (from_to G S) S) = t).
  { unfold t, look_angle_of, angle. do 2 f_equal. unfold norm, dot, from_to. cbn [vx vy vz]. f_equal; [ring|]. do 2 f_equal; f_equal; ring. }
  rewrite Et in H. set (a := fget_ang M (fvsub s g) s (fnorm s)) in *. clearbody a t.
  destruct H as [(N & H)|(F & E1 & E2)].
  - left. split; auto. destruct H; [left|right]; lra.
  - right. split; [exact F|]. split; [lra|]. intros T. specialize (E2 ltac:(lra)). lra.
Qed.
