(** Angles between vectors: triangle inequality, nearby vectors, nearby cosines. *)
From Coq Require Import ZArith Reals Lra Lia Psatz.
From Verif Require Import Rot_Model Rot_Spec Time_Proofs.
Open Scope R_scope.

Lemma dot_sym a b : dot a b = dot b a. Proof. unfold dot. ring. Qed.
Lemma dot_pos a : 0 <= dot a a. Proof. unfold dot. nra. Qed.
Lemma norm_pos a : 0 <= norm a. Proof. apply sqrt_pos. Qed.
Lemma norm_sq a : norm a * norm a = dot a a. Proof. apply sqrt_sqrt, dot_pos. Qed.
Lemma cauchy a b : dot a b * dot a b <= dot a a * dot b b.
Proof.
  destruct a as [a1 a2 a3], b as [b1 b2 b3]. unfold dot; cbn [vx vy vz].
  pose proof (Rle_0_sqr (a1 * b2 - a2 * b1)) as P. pose proof (Rle_0_sqr (a1 * b3 - a3 * b1)) as Q. pose proof (Rle_0_sqr (a2 * b3 - a3 * b2)) as W.
  unfold Rsqr in *. nra.
Qed.
Lemma Rabs_le_inv x y : Rabs x <= y -> - y <= x <= y.
Proof. unfold Rabs. destruct (Rcase_abs x); lra. Qed.
Lemma sq_le x y : 0 <= y -> x * x <= y * y -> Rabs x <= y.
Proof. intros Y H. apply Rabs_le. split; nra. Qed.
Lemma cauchy_norm a b : Rabs (dot a b) <= norm a * norm b.
Proof.
  apply sq_le; [apply Rmult_le_pos; apply norm_pos|]. pose proof (cauchy a b) as H. rewrite <- (norm_sq a), <- (norm_sq b) in H.
  replace (norm a * norm b * (norm a * norm b)) with (norm a * norm a * (norm b * norm b)) by ring. exact H.
Qed.
Definition cosine (a b : vec) : R := dot a b / (norm a * norm b).
Lemma div_abs x y : 0 < y -> Rabs x <= y -> -1 <= x / y <= 1.
Proof.
  intros Y H. apply Rabs_le_inv in H. unfold Rdiv.
  pose proof (Rinv_0_lt_compat y Y) as P. assert (E : y * / y = 1) by (apply Rinv_r; lra). split; nra.
Qed.
Lemma cosine_range a b : 0 < norm a -> 0 < norm b -> -1 <= cosine a b <= 1.
Proof. intros A B. apply div_abs; [now apply Rmult_lt_0_compat|apply cauchy_norm]. Qed.
Lemma cosine_sym a b : cosine a b = cosine b a.
Proof. unfold cosine. rewrite dot_sym, (Rmult_comm (norm a)). reflexivity. Qed.

(** Three unit vectors span a box of non-negative squared volume. *)
Lemma gram a b c : 0 < norm a -> 0 < norm b -> 0 < norm c ->
  0 <= 1 + 2 * cosine a b * cosine b c * cosine a c - cosine a b ^ 2 - cosine b c ^ 2 - cosine a c ^ 2.
Proof.
  intros A B C. set (g := 1 + _ - _ - _ - _). pose proof (norm_sq a) as Na. pose proof (norm_sq b) as Nb. pose proof (norm_sq c) as Nc.
  assert (E : g * ((norm a * norm b * norm c) ^ 2) = volume a b c ^ 2).
  { unfold g, cosine. set (na := norm a) in *. set (nb := norm b) in *. set (nc := norm c) in *. clearbody na nb nc. clear g.
    transitivity ((na * na) * (nb * nb) * (nc * nc) + 2 * dot a b * dot b c * dot a c - dot a b ^ 2 * (nc * nc) - dot b c ^ 2 * (na * na) - dot a c ^ 2 * (nb * nb)).
    - field. lra.
    - rewrite Na, Nb, Nc. destruct a as [a1 a2 a3], b as [b1 b2 b3], c as [c1 c2 c3]. unfold dot, volume; cbn [vx vy vz]. ring. }
  assert (P : 0 < (norm a * norm b * norm c) ^ 2) by (apply pow_lt; repeat apply Rmult_lt_0_compat; auto).
  assert (Q : 0 <= volume a b c ^ 2) by nra. clearbody g. set (p := (norm a * norm b * norm c) ^ 2) in *. clearbody p. nra.
Qed.

Lemma acos_le x y : -1 <= x <= 1 -> -1 <= y <= 1 -> x <= y -> acos y <= acos x.
Proof.
  intros X Y H. destruct (Rle_dec (acos y) (acos x)) as [L|L]; auto. exfalso. apply Rnot_le_lt in L.
  pose proof (acos_bound x) as Bx. pose proof (acos_bound y) as By.
  pose proof (cos_decreasing_1 (acos x) (acos y)) as D. rewrite !cos_acos in D by auto. lra.
Qed.
Definition ang (a b : vec) : R := acos (cosine a b).
Lemma ang_sym a b : ang a b = ang b a. Proof. unfold ang. now rewrite cosine_sym. Qed.
Lemma ang_range a b : 0 <= ang a b <= PI. Proof. apply acos_bound. Qed.
Lemma triangle a b c : 0 < norm a -> 0 < norm b -> 0 < norm c -> ang a c <= ang a b + ang b c.
Proof.
  intros A B C. pose proof (gram a b c A B C) as G. unfold ang.
  pose proof (cosine_range a b A B) as X. pose proof (cosine_range b c B C) as Y. pose proof (cosine_range a c A C) as Z.
  set (x := cosine a b) in *. set (y := cosine b c) in *. set (z := cosine a c) in *. clearbody x y z.
  pose proof (acos_bound x) as Bx. pose proof (acos_bound y) as By. pose proof (acos_bound z) as Bz.
  destruct (Rle_dec PI (acos x + acos y)) as [P|P]; [lra|]. apply Rnot_le_lt in P.
  rewrite <- (acos_cos (acos x + acos y)) by lra. apply acos_le; auto; [apply COS_bound|].
  rewrite cos_plus, !cos_acos, !sin_acos by auto.
  assert (Sx : 0 <= 1 - x²) by (unfold Rsqr; nra). assert (Sy : 0 <= 1 - y²) by (unfold Rsqr; nra).
  pose proof (sqrt_pos (1 - x²)) as Px. pose proof (sqrt_pos (1 - y²)) as Py. pose proof (sqrt_sqrt _ Sx) as Ex. pose proof (sqrt_sqrt _ Sy) as Ey.
  set (p := sqrt (1 - x²)) in *. set (q := sqrt (1 - y²)) in *. clearbody p q. unfold Rsqr in *.
  assert (H : (z - x * y) * (z - x * y) <= (p * q) * (p * q)).
  { replace (p * q * (p * q)) with (p * p * (q * q)) by ring. rewrite Ex, Ey. nra. }
  apply sq_le in H; [|now apply Rmult_le_pos]. apply Rabs_le_inv in H. lra.
Qed.
Lemma ang_change a b a' b' : 0 < norm a -> 0 < norm b -> 0 < norm a' -> 0 < norm b' ->
  Rabs (ang a b - ang a' b') <= ang a a' + ang b b'.
Proof.
  intros A B A' B'. apply Rabs_le.
  pose proof (triangle a a' b A A' B) as T1. pose proof (triangle a' b' b A' B' B) as T2.
  pose proof (triangle a' a b' A' A B') as T3. pose proof (triangle a b b' A B B') as T4.
  rewrite (ang_sym b' b) in T2. rewrite (ang_sym a' a) in T3. lra.
Qed.

(** [sin t <= e] for a small [e] *)
Lemma small_angle t e : 0 <= t <= PI / 2 -> 0 <= e <= 1 / 1000 -> sin t <= e -> t <= 1.001 * e.
Proof.
  intros T E H. pose proof PI_4 as P4. pose proof (sin_lower t ltac:(lra)) as L.
  assert (B : t <= 3 * e).
  { assert (W : t * t <= 4) by nra. assert (V : t ^ 3 <= t * 4) by (replace (t ^ 3) with (t * (t * t)) by ring; nra). lra. }
  assert (W : t * t <= 9 / 1000000) by nra. assert (V : t ^ 3 <= t * (9 / 1000000)) by (replace (t ^ 3) with (t * (t * t)) by ring; nra). lra.
Qed.
Lemma cos_diff x y : -1 <= x <= 1 -> -1 <= y <= 1 ->
  x - y = 2 * sin ((acos x + acos y) / 2) * sin ((acos y - acos x) / 2).
Proof.
  intros X Y. rewrite <- (cos_acos x) at 1 by auto. rewrite <- (cos_acos y) at 1 by auto.
  set (a := acos x). set (b := acos y).
  replace (cos a) with (cos ((a + b) / 2 - (b - a) / 2)) by (f_equal; lra). replace (cos b) with (cos ((a + b) / 2 + (b - a) / 2)) by (f_equal; lra).
  rewrite cos_minus, cos_plus. ring.
Qed.
Lemma acos_gap1 x y e : -1 <= x <= y -> y <= 1 -> 0 <= e <= 1 / 1000 -> y - x <= 2 * (e * e) -> acos x - acos y <= 2.002 * e.
Proof.
  intros X Y E H. pose proof (cos_diff y x ltac:(lra) ltac:(lra)) as D. pose proof (acos_bound x) as Bx. pose proof (acos_bound y) as By.
  pose proof (acos_le x y ltac:(lra) ltac:(lra) ltac:(lra)) as L.
  set (t := (acos x - acos y) / 2) in *. set (s := (acos y + acos x) / 2) in *.
  assert (T : 0 <= t <= PI / 2) by (unfold t; lra). assert (S1 : t <= s <= PI - t) by (unfold t, s; lra).
  assert (P : sin t <= sin s).
  { pose proof PI_4. destruct (Rle_dec s (PI / 2)) as [Q|Q].
    - apply sin_incr_1; lra.
    - apply Rnot_le_lt in Q. rewrite <- (sin_PI_x s). apply sin_incr_1; lra. }
  assert (N : 0 <= sin t) by (apply sin_ge_0; lra).
  assert (K : sin t <= e) by (pose proof (sq_le (sin t) e ltac:(lra)) as W; rewrite Rabs_pos_eq in W by auto; apply W; nra).
  pose proof (small_angle t e T E K). unfold t in *. lra.
Qed.
Lemma acos_gap x y e : -1 <= x <= 1 -> -1 <= y <= 1 -> 0 <= e <= 1 / 1000 -> Rabs (x - y) <= 2 * (e * e) -> Rabs (acos x - acos y) <= 2.002 * e.
Proof.
  intros X Y E H. apply Rabs_le_inv in H. apply Rabs_le. destruct (Rle_dec x y) as [L|L].
  - pose proof (acos_gap1 x y e ltac:(lra) ltac:(lra) E ltac:(lra)). pose proof (acos_le x y ltac:(lra) ltac:(lra) L). lra.
  - apply Rnot_le_lt in L. pose proof (acos_gap1 y x e ltac:(lra) ltac:(lra) E ltac:(lra)). pose proof (acos_le y x ltac:(lra) ltac:(lra) ltac:(lra)). lra.
Qed.
(** Away from [0] and [PI] the arc cosine does not magnify much. *)
Lemma acos_mild1 x y d : -1 <= x <= y -> y <= 1 -> 0 <= d <= 1 / 1000000 -> y - x <= d -> 1 / 100 <= acos y -> acos x <= PI - 1 / 100 -> acos x - acos y <= 102 * d.
Proof.
  intros X Y E H Lo Hi. pose proof (cos_diff y x ltac:(lra) ltac:(lra)) as D. pose proof (acos_bound x) as Bx. pose proof (acos_bound y) as By.
  pose proof (acos_le x y ltac:(lra) ltac:(lra) ltac:(lra)) as L.
  set (t := (acos x - acos y) / 2) in *. set (s := (acos y + acos x) / 2) in *.
  assert (T : 0 <= t <= PI / 2) by (unfold t; lra). assert (S1 : 1 / 100 <= s <= PI - 1 / 100) by (unfold s; lra).
  assert (P : 0.0099 <= sin s).
  { pose proof PI_4. pose proof (sin_lower (1 / 100) ltac:(lra)) as W. pose proof PI2_1. apply Rle_trans with (sin (1 / 100)); [lra|]. destruct (Rle_dec s (PI / 2)) as [Q|Q].
    - apply sin_incr_1; lra.
    - apply Rnot_le_lt in Q. rewrite <- (sin_PI_x s). apply sin_incr_1; lra. }
  assert (N : 0 <= sin t) by (apply sin_ge_0; lra).
  assert (V : 0.0099 * sin t <= sin s * sin t) by (apply Rmult_le_compat_r; auto).
  assert (K : sin t <= d / 0.0198) by lra.
  pose proof (small_angle t (d / 0.0198) T ltac:(lra) K). unfold t in *. lra.
Qed.
Lemma acos_mild x y d : -1 <= x <= 1 -> -1 <= y <= 1 -> 0 <= d <= 1 / 1000000 -> Rabs (x - y) <= d ->
  1 / 100 <= acos x <= PI - 1 / 100 -> 1 / 100 <= acos y <= PI - 1 / 100 -> Rabs (acos x - acos y) <= 102 * d.
Proof.
  intros X Y E H Ax Ay. apply Rabs_le_inv in H. apply Rabs_le. destruct (Rle_dec x y) as [L|L].
  - pose proof (acos_mild1 x y d ltac:(lra) ltac:(lra) E ltac:(lra) ltac:(lra) ltac:(lra)). pose proof (acos_le x y ltac:(lra) ltac:(lra) L). lra.
  - apply Rnot_le_lt in L. pose proof (acos_mild1 y x d ltac:(lra) ltac:(lra) E ltac:(lra) ltac:(lra) ltac:(lra)). pose proof (acos_le y x ltac:(lra) ltac:(lra) ltac:(lra)). lra.
Qed.

(** Nearby vectors have nearby directions. *)
Lemma norm_near a b : Rabs (norm a - norm b) <= norm (sub a b).
Proof.
  apply sq_le; [apply norm_pos|]. rewrite norm_sq.
  replace ((norm a - norm b) * (norm a - norm b)) with (norm a * norm a + norm b * norm b - 2 * (norm a * norm b)) by ring. rewrite !norm_sq.
  pose proof (cauchy_norm a b) as H. apply Rabs_le_inv in H.
  replace (dot (sub a b) (sub a b)) with (dot a a + dot b b - 2 * dot a b) by (unfold dot, sub; cbn [vx vy vz]; ring). lra.
Qed.
Lemma near_angle a b e : 0 < norm a -> 0 <= e <= 1 / 1000 -> norm (sub b a) <= e * norm a -> 0 < norm b /\ ang a b <= 1.001 * e.
Proof.
  intros A E H. pose proof (norm_near b a) as N. apply Rabs_le_inv in N. assert (B : 0 < norm b) by nra. split; auto.
  pose proof (cosine_range a b A B) as C. unfold ang. pose proof (acos_bound (cosine a b)) as Bd.
  assert (Q : dot (sub b a) (sub b a) = norm a * norm a + norm b * norm b - 2 * (norm a * norm b * cosine a b)).
  { unfold cosine. replace (norm a * norm b * (dot a b / (norm a * norm b))) with (dot a b) by (field; lra). rewrite !norm_sq. unfold dot, sub; cbn [vx vy vz]; ring. }
  rewrite <- norm_sq in Q. pose proof (norm_pos (sub b a)) as P.
  set (c := cosine a b) in *. set (na := norm a) in *. set (nb := norm b) in *. set (n := norm (sub b a)) in *. clearbody c na nb n.
  assert (W : n * n <= (e * na) * (e * na)) by (apply Rmult_le_compat; lra).
  assert (Hc : 0 < c).
  { assert (K1 : 0 < na * na) by nra. assert (K2 : 0 < nb * nb) by nra. assert (K3 : e * e <= 1) by nra.
    assert (K4 : e * na * (e * na) <= na * na) by (replace (e * na * (e * na)) with (e * e * (na * na)) by ring; nra).
    assert (K5 : 0 < na * nb * c) by lra. assert (K6 : 0 < na * nb) by nra. nra. }
  assert (S2 : (1 - c * c) * (na * na) <= e * e * (na * na)).
  { pose proof (Rle_0_sqr (nb - na * c)) as R0. unfold Rsqr in R0. nra. }
  assert (S3 : 1 - c * c <= e * e) by (apply Rmult_le_reg_r with (na * na); [nra|exact S2]).
  apply small_angle; auto.
  - split; [lra|]. rewrite <- acos_0. apply acos_le; lra.
  - rewrite sin_acos by auto. rewrite <- (sqrt_square e) by lra. apply sqrt_le_1_alt. unfold Rsqr. exact S3.
Qed.
