(** Rounding errors of vector products, unit vectors and of the axes of a satellite. *)
From Coq Require Import ZArith Reals Lra Lia Psatz.
From Flocq Require Import Core.Core IEEE754.BinarySingleNaN IEEE754.Binary IEEE754.Bits.
From Verif Require Import Py Fl_Model Fl_Spec Fl_Proofs Flg_Model Flg_Spec Rot_Model Rot_Spec Rot_Proofs Geo_Spec Lvlh_Spec Flg_Proofs Flg_Proofs2 Flg_Proofs3 Flg_Proofs7
  Flc_Model Flr_Model Flr_Spec Flr_Proofs Flv_Model.
Open Scope R_scope.
#[local] Strategy 1000 [fmul fadd fsub fdiv fneg].

(** ** Exact vectors *)
Lemma norm_product_le a b : norm (product a b) <= norm a * norm b.
Proof.
  rewrite <- (Rabs_pos_eq (norm (product a b))) by apply norm_pos. apply sq_le; [apply Rmult_le_pos; apply norm_pos|].
  replace (norm a * norm b * (norm a * norm b)) with ((norm a * norm a) * (norm b * norm b)) by ring. rewrite !norm_sq.
  assert (E : dot (product a b) (product a b) = dot a a * dot b b - dot a b * dot a b) by (unfold dot, product; cbn [vx vy vz]; ring).
  rewrite E. pose proof (Rle_0_sqr (dot a b)) as Q. unfold Rsqr in Q. lra.
Qed.
Lemma norm_opposite a : norm (opposite a) = norm a.
Proof. unfold norm. f_equal. unfold dot, opposite, times. cbn [vx vy vz]. ring. Qed.
Lemma norm_times k a : norm (times k a) = Rabs k * norm a.
Proof.
  unfold norm. replace (dot (times k a) (times k a)) with ((k * k) * dot a a) by (unfold dot, times; cbn [vx vy vz]; ring).
  rewrite sqrt_mult; [|nra|apply dot_pos]. f_equal. now rewrite <- sqrt_Rsqr_abs.
Qed.
Lemma norm_unit a : 0 < norm a -> norm (unit_of a) = 1.
Proof. intros P. unfold unit_of. rewrite norm_times, Rabs_pos_eq by (left; now apply Rinv_0_lt_compat). field. lra. Qed.
Lemma sub_opposite a b : norm (sub (opposite a) (opposite b)) = norm (sub a b).
Proof. unfold norm. f_equal. unfold dot, sub, opposite, times. cbn [vx vy vz]. ring. Qed.
Lemma norm_sum a b : norm (V (vx a + vx b) (vy a + vy b) (vz a + vz b)) <= norm a + norm b.
Proof.
  pose proof (norm_diff (V (vx a + vx b) (vy a + vy b) (vz a + vz b)) a) as H.
  replace (sub (V (vx a + vx b) (vy a + vy b) (vz a + vz b)) a) with b in H; [lra|]. destruct b as [b1 b2 b3]. unfold sub. cbn [vx vy vz]. f_equal; ring.
Qed.
Lemma product_near a b a' b' : norm (sub (product a' b') (product a b)) <= norm (sub a' a) * norm b' + norm a * norm (sub b' b).
Proof.
  pose proof (norm_sum (product (sub a' a) b') (product a (sub b' b))) as H. pose proof (norm_product_le (sub a' a) b') as H1. pose proof (norm_product_le a (sub b' b)) as H2.
  replace (V (vx (product (sub a' a) b') + vx (product a (sub b' b))) (vy (product (sub a' a) b') + vy (product a (sub b' b))) (vz (product (sub a' a) b') + vz (product a (sub b' b))))
    with (sub (product a' b') (product a b)) in H; [lra|]. unfold product, sub. cbn [vx vy vz]. f_equal; ring.
Qed.
Lemma unit_near a b e : 0 < norm b -> 0 <= e <= 1 / 1000 -> norm (sub a b) <= e * norm b -> 0 < norm a /\ norm (sub (unit_of a) (unit_of b)) <= 2.01 * e.
Proof.
  intros P E H. pose proof (norm_near a b) as N. apply Rabs_le_inv in N. set (n := norm a) in *. set (m := norm b) in *.
  assert (A : 999 / 1000 * m <= n) by nra. assert (P' : 0 < n) by lra. split; auto.
  pose proof (norm_sum (times (/ n) (sub a b)) (times (/ n - / m) b)) as S. rewrite !norm_times in S. fold m in S.
  replace (V (vx (times (/ n) (sub a b)) + vx (times (/ n - / m) b)) (vy (times (/ n) (sub a b)) + vy (times (/ n - / m) b)) (vz (times (/ n) (sub a b)) + vz (times (/ n - / m) b)))
    with (sub (unit_of a) (unit_of b)) in S by (unfold unit_of; fold n m; unfold times, sub; cbn [vx vy vz]; f_equal; ring).
  rewrite (Rabs_pos_eq (/ n)) in S by (left; now apply Rinv_0_lt_compat). set (d := norm (sub a b)) in *.
  assert (T : Rabs (/ n - / m) * m <= / n * d).
  { replace (/ n - / m) with (/ n * / m * (m - n)) by (field; lra). rewrite !Rabs_mult, (Rabs_pos_eq (/ n)), (Rabs_pos_eq (/ m)) by (left; now apply Rinv_0_lt_compat).
    replace (/ n * / m * Rabs (m - n) * m) with (/ n * Rabs (m - n)) by (field; lra). apply Rmult_le_compat_l; [left; now apply Rinv_0_lt_compat|]. apply Rabs_le. lra. }
  assert (Q : / n * d <= 1001 / 1000 * e * (1001 / 1000)).
  { apply Rmult_le_reg_l with n; auto. replace (n * (/ n * d)) with d by (field; lra). nra. }
  nra.
Qed.

(** ** Rounding *)
Definition sizes (v : fvec) : Prop := finite_vec v /\ norm (vector v) <= bpow radix2 100.
Lemma sizes_big v : sizes v -> Rabs (value (fx v)) <= big /\ Rabs (value (fy v)) <= big /\ Rabs (value (fz v)) <= big.
Proof.
  intros (_ & B). destruct (comp_norm (vector v)) as (X & Y & Z). cbn [vector vx vy vz] in *. assert (bpow radix2 100 <= big) by (apply bpow_le; lia). lra.
Qed.
Lemma minus_ok x y z t : finite x -> finite y -> finite z -> finite t -> Rabs (value x) <= big -> Rabs (value y) <= big -> Rabs (value z) <= big -> Rabs (value t) <= big ->
  forall s, Rabs (value x * value y) + Rabs (value z * value t) <= s ->
  finite (fsub (fmul x y) (fmul z t)) /\ Rabs (value (fsub (fmul x y) (fmul z t)) - (value x * value y - value z * value t)) <= 201 / 100 * uu * s + 3 * ee.
Proof.
  intros X Y Z T Bx By Bz Bt s S. destruct (prod_ok x y X Y Bx By) as (F1 & E1 & M1). destruct (prod_ok z t Z T Bz Bt) as (F2 & E2 & M2).
  set (p := fmul x y) in *. set (q := fmul z t) in *. destruct (fsub_ok p q F1 F2) as (F & E).
  { eapply Rle_trans; [apply (Rabs_triang (value p) (- value q))|]. rewrite Rabs_Ropp. apply Rle_trans with (4 * bpow radix2 400); [lra|].
    change 4 with (bpow radix2 2). rewrite <- bpow_plus. apply bpow_le. lia. }
  split; auto. rewrite E. pose proof (rnd_add_err (value p) (- value q) (value_fmt p) (generic_format_opp _ _ _ (value_fmt q))) as R.
  replace (value p + - value q) with (value p - value q) in R by ring. clear E F F1 F2 M1 M2. set (r := rnd (value p - value q)) in *. clearbody r.
  set (a := value x * value y) in *. set (b := value z * value t) in *. set (p' := value p) in *. set (q' := value q) in *. clearbody a b p' q'.
  assert (D : Rabs (p' - q' - (a - b)) <= uu * s + 2 * ee).
  { pose proof uu_pos. replace (p' - q' - (a - b)) with ((p' - a) - (q' - b)) by ring. pose proof (Rabs_triang (p' - a) (- (q' - b))) as W. rewrite Rabs_Ropp in W.
    change (p' - a + - (q' - b)) with (p' - a - (q' - b)) in W. nra. }
  pose proof (err_trans _ _ _ _ _ R D) as K. pose proof (err_abs _ _ _ D) as D'. pose proof (Rabs_triang a (- b)) as W. rewrite Rabs_Ropp in W. change (a + - b) with (a - b) in W.
  pose proof (Rabs_pos a). pose proof (Rabs_pos b). pose proof ee_pos as EP. pose proof uu_pos as U. pose proof (uu_shrink2 s ltac:(lra)). pose proof (uu_shrink ee ltac:(lra)).
  assert (0 <= uu * s) by (apply Rmult_le_pos; lra).
  assert (uu * Rabs (p' - q') <= uu * (s + (uu * s + 2 * ee))) by (apply Rmult_le_compat_l; lra). lra.
Qed.
Lemma two_parts a b c d : Rabs (a * b) + Rabs (c * d) <= sqrt (a * a + c * c) * sqrt (b * b + d * d).
Proof.
  rewrite <- sqrt_mult by nra. rewrite !Rabs_mult. pose proof (Rabs_pos a). pose proof (Rabs_pos b). pose proof (Rabs_pos c). pose proof (Rabs_pos d).
  rewrite <- (sqrt_square (Rabs a * Rabs b + Rabs c * Rabs d)) by nra. apply sqrt_le_1_alt.
  replace (a * a) with (Rabs a * Rabs a) by (rewrite <- Rabs_mult; apply Rabs_pos_eq; nra). replace (b * b) with (Rabs b * Rabs b) by (rewrite <- Rabs_mult; apply Rabs_pos_eq; nra).
  replace (c * c) with (Rabs c * Rabs c) by (rewrite <- Rabs_mult; apply Rabs_pos_eq; nra). replace (d * d) with (Rabs d * Rabs d) by (rewrite <- Rabs_mult; apply Rabs_pos_eq; nra).
  set (x := Rabs a) in *. set (y := Rabs b) in *. set (z := Rabs c) in *. set (t := Rabs d) in *. clearbody x y z t. 
  replace ((x * x + z * z) * (y * y + t * t)) with ((x * y + z * t) * (x * y + z * t) + (x * t - z * y) * (x * t - z * y)) by ring. pose proof (Rle_0_sqr (x * t - z * y)) as Q. unfold Rsqr in Q. lra.
Qed.
Lemma two_norm u v a b c d : a * a + c * c <= dot u u -> b * b + d * d <= dot v v -> Rabs (a * b) + Rabs (c * d) <= norm u * norm v.
Proof.
  intros H K. eapply Rle_trans; [apply two_parts|]. unfold norm. apply Rmult_le_compat; try apply sqrt_pos; apply sqrt_le_1_alt; auto.
Qed.
Lemma cross_ok u v : sizes u -> sizes v -> finite_vec (fcross u v) /\
  norm (sub (vector (fcross u v)) (product (vector u) (vector v))) <= 402 / 100 * uu * (norm (vector u) * norm (vector v)) + 6 * ee.
Proof.
  intros Su Sv. destruct (sizes_big u Su) as (B1 & B2 & B3). destruct (sizes_big v Sv) as (C1 & C2 & C3). destruct Su as ((F1 & F2 & F3) & _). destruct Sv as ((G1 & G2 & G3) & _).
  set (s := norm (vector u) * norm (vector v)).
  assert (SX : Rabs (value (fy u) * value (fz v)) + Rabs (value (fz u) * value (fy v)) <= s).
  { apply two_norm; unfold dot; cbn [vector vx vy vz]; nra. }
  assert (SY : Rabs (value (fz u) * value (fx v)) + Rabs (value (fx u) * value (fz v)) <= s).
  { apply two_norm; unfold dot; cbn [vector vx vy vz]; nra. }
  assert (SZ : Rabs (value (fx u) * value (fy v)) + Rabs (value (fy u) * value (fx v)) <= s).
  { apply two_norm; unfold dot; cbn [vector vx vy vz]; nra. }
  destruct (minus_ok _ _ _ _ F2 G3 F3 G2 B2 C3 B3 C2 s SX) as (H1 & E1). destruct (minus_ok _ _ _ _ F3 G1 F1 G3 B3 C1 B1 C3 s SY) as (H2 & E2). destruct (minus_ok _ _ _ _ F1 G2 F2 G1 B1 C2 B2 C1 s SZ) as (H3 & E3).
  split; [split; [exact H1|split; [exact H2|exact H3]]|].
  assert (0 <= s) by (apply Rmult_le_pos; apply norm_pos). pose proof uu_pos as U. pose proof ee_pos. assert (0 <= uu * s) by (apply Rmult_le_pos; lra).
  replace (402 / 100 * uu * s + 6 * ee) with (2 * (201 / 100 * uu * s + 3 * ee)) by field. apply norm_within; [lra|]. split; [exact E1|split; [exact E2|exact E3]].
Qed.

(** Unit vectors *)
Lemma fneg_ok' x : finite x -> finite (fneg x) /\ value (fneg x) = - value x.
Proof. intros F. unfold fneg, b64_opp, finite, value in *. split; [now rewrite is_finite_Bopp|apply B2R_Bopp]. Qed.
Lemma vneg_ok v : finite_vec v -> finite_vec (fvneg v) /\ vector (fvneg v) = opposite (vector v).
Proof.
  intros (F1 & F2 & F3). destruct (fneg_ok' _ F1) as (G1 & E1). destruct (fneg_ok' _ F2) as (G2 & E2). destruct (fneg_ok' _ F3) as (G3 & E3).
  split; [split; [exact G1|split; [exact G2|exact G3]]|]. unfold vector, fvneg, opposite, times. cbn [fx fy fz vx vy vz]. rewrite E1, E2, E3. f_equal; ring.
Qed.
Lemma over_ok v n : finite_vec v -> 0 < norm (vector v) -> Rabs (value n - norm (vector v)) <= 5 * uu * norm (vector v) ->
  finite_vec (fvover v n) /\ norm (sub (vector (fvover v n)) (unit_of (vector v))) <= 13 * uu.
Proof.
  intros (F1 & F2 & F3) P E. set (m := norm (vector v)) in *. set (k := value n) in *. pose proof uu_pos as U. pose proof (uu_shrink m ltac:(lra)) as US. apply Rabs_le_inv in E.
  assert (0 <= uu * m) by (apply Rmult_le_pos; lra). assert (K : 0 < k) by lra.
  assert (C : forall x, finite x -> Rabs (value x) <= m -> finite (fdiv x n) /\ Rabs (value (fdiv x n) - / m * value x) <= 65 / 10 * uu).
  { intros x Fx X. set (t := value x) in *. assert (Q : Rabs (t / k) <= 102 / 100).
    { unfold Rdiv. rewrite Rabs_mult, (Rabs_pos_eq (/ k)) by (left; now apply Rinv_0_lt_compat). apply Rmult_le_reg_r with k; auto. rewrite Rmult_assoc, Rinv_l by lra. lra. }
    destruct (fdiv_ok x n Fx) as (F & V); [fold k; lra| |]. { fold t k. apply small_abs. lra. }
    split; auto. rewrite V. fold t k. pose proof (rnd_mul_err (t / k)) as R.
    assert (D : Rabs (t / k - / m * t) <= 51 / 10 * uu).
    { replace (t / k - / m * t) with (t * (m - k) * / (k * m)) by (field; lra). rewrite !Rabs_mult, (Rabs_pos_eq (/ (k * m))) by (left; apply Rinv_0_lt_compat; nra).
      apply Rmult_le_reg_r with (k * m); [nra|]. rewrite Rmult_assoc, Rinv_l, Rmult_1_r by nra.
      assert (W : Rabs (m - k) <= 5 * uu * m) by (apply Rabs_le; lra). assert (Rabs t * Rabs (m - k) <= m * (5 * uu * m)) by (apply Rmult_le_compat; auto using Rabs_pos).
      assert (m * m <= 102 / 100 * (k * m)) by nra. nra. }
    eapply Rle_trans; [apply (err_trans _ _ _ _ _ R D)|]. assert (uu * Rabs (t / k) <= uu * (102 / 100)) by (apply Rmult_le_compat_l; lra).
    assert (ee <= uu / 100). { apply Rle_trans with (bpow radix2 (-60)); [apply bpow_le; lia|]. rewrite uu_value. change (bpow radix2 (-60)) with (/ 1152921504606846976). lra. } lra. }
  destruct (comp_norm (vector v)) as (X & Y & Z). fold m in X, Y, Z.
  destruct (C _ F1 X) as (G1 & E1). destruct (C _ F2 Y) as (G2 & E2). destruct (C _ F3 Z) as (G3 & E3).
  split; [split; [exact G1|split; [exact G2|exact G3]]|].
  replace (13 * uu) with (2 * (65 / 10 * uu)) by field. apply norm_within; [lra|]. split; [exact E1|split; [exact E2|exact E3]].
Qed.
Lemma unit_opposite a : unit_of (opposite a) = opposite (unit_of a).
Proof. unfold unit_of. rewrite norm_opposite. unfold times, opposite, times. cbn [vx vy vz]. f_equal; ring. Qed.
Lemma minus_unit_ok v : sized v -> finite_vec (fvover (fvneg v) (fnorm v)) /\
  norm (sub (vector (fvover (fvneg v) (fnorm v))) (opposite (unit_of (vector v)))) <= 13 * uu.
Proof.
  intros S. destruct (fnorm_ok v S) as (Fn & En). destruct S as (F & N1 & N2). destruct (vneg_ok v F) as (Fg & Eg).
  pose proof (bpow_gt_0 radix2 (-400)). destruct (over_ok (fvneg v) (fnorm v) Fg) as (Fo & Eo). { rewrite Eg, norm_opposite. lra. } { rewrite Eg, norm_opposite. exact En. }
  split; auto. now rewrite Eg, unit_opposite in Eo.
Qed.
Lemma plus_unit_ok v : sized v -> finite_vec (fvover v (fnorm v)) /\ norm (sub (vector (fvover v (fnorm v))) (unit_of (vector v))) <= 13 * uu.
Proof.
  intros S. destruct (fnorm_ok v S) as (Fn & En). destruct S as (F & N1 & N2). pose proof (bpow_gt_0 radix2 (-400)). apply over_ok; auto. lra.
Qed.
