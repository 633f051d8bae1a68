(** The frame of a satellite, one point. *)
From Coq Require Import List Reals Arith Lia Lra Psatz.
From Verif Require Import Py PyLemmas Num Time_Model Rot_Model Rot_Spec Rot_Proofs Rot_Props Geo_Model Geo_Spec Geo_Props Geo_Dir Lvlh_Model Lvlh_Spec.
Import ListNotations.
Open Scope R_scope.
Open Scope list_scope.

Lemma binet y z a b : dot (product y z) a * dot (product y z) b =
  dot y y * (dot z z * dot a b - dot z b * dot a z) - dot y z * (dot z y * dot a b - dot z b * dot a y)
  + dot y b * (dot z y * dot a z - dot z z * dot a y).
Proof. unfold dot, product. cbn [vx vy vz]. ring. Qed.
Lemma det_volume m a b c : volume (mat_vec m a) (mat_vec m b) (mat_vec m c) = volume (r0 m) (r1 m) (r2 m) * volume a b c.
Proof. unfold volume, mat_vec, row_times. cbn [r0 r1 r2 vx vy vz]. ring. Qed.
Lemma triad y z : dot y y = 1 -> dot z z = 1 -> dot y z = 0 -> rotation (M (product y z) y z).
Proof.
  intros Y Z O. assert (O' : dot z y = 0) by (rewrite <- O; unfold dot; ring). split.
  - intros a b. unfold mat_vec. cbn [r0 r1 r2].
    transitivity (dot (product y z) a * dot (product y z) b + dot y a * dot y b + dot z a * dot z b); [unfold dot, row_times; cbn [vx vy vz]; ring|].
    rewrite binet, Y, Z, O, O'. unfold dot. ring.
  - intros a b c. rewrite det_volume. cbn [r0 r1 r2].
    assert (D : volume (product y z) y z = 1).
    { transitivity (dot (product y z) (product y z)); [unfold volume, dot, product; cbn [vx vy vz]; ring|].
      transitivity (dot y y * dot z z - dot y z * dot y z); [unfold dot, product; cbn [vx vy vz]; ring|]. rewrite Y, Z, O. ring. }
    rewrite D. ring.
Qed.
Lemma unit_dot v : v <> zero -> dot (unit_of v) (unit_of v) = 1.
Proof.
  intros H. pose proof (norm_pos v H) as P. unfold unit_of. transitivity (/ norm v * / norm v * dot v v); [unfold dot, times; cbn [vx vy vz]; ring|].
  rewrite <- norm2. field. lra.
Qed.
Lemma opposite_dot u v : dot (opposite u) (opposite v) = dot u v.
Proof. unfold dot, opposite, times. cbn [vx vy vz]. ring. Qed.
Lemma product_nz r w : product r w <> zero -> r <> zero.
Proof. intros H ->. apply H. unfold product, zero. cbn [vx vy vz]. f_equal; ring. Qed.
Lemma frame r w : product r w <> zero -> rotation (M (forward r w) (right r w) (down r)).
Proof.
  intros H. apply triad.
  - unfold right. rewrite opposite_dot. now apply unit_dot.
  - unfold down. rewrite opposite_dot. apply unit_dot. now apply product_nz with w.
  - unfold right, down. rewrite opposite_dot. unfold unit_of. transitivity (/ norm (product r w) * / norm r * dot (product r w) r); [unfold dot, times; cbn [vx vy vz]; ring|].
    replace (dot (product r w) r) with 0; [ring|]. unfold dot, product. cbn [vx vy vz]. ring.
Qed.
Lemma divide_fin v k : k <> 0 -> nv_divide (fin_vec v) (Fin k) = fin_vec (times (/ k) v).
Proof. intros K. unfold nv_divide, fin_vec, n_div, times. cbn [nx ny nz vx vy vz]. destruct (Req_EM_T k 0); [lra|]. f_equal; f_equal; unfold Rdiv; ring. Qed.
Lemma opp_fin v : nv_opp (fin_vec v) = fin_vec (opposite v).
Proof. unfold nv_opp, fin_vec, opposite, times. cbn [nx ny nz vx vy vz n_opp]. f_equal; f_equal; ring. Qed.
Lemma cross_fin u v : nv_cross (fin_vec u) (fin_vec v) = fin_vec (product u v).
Proof. reflexivity. Qed.
Lemma nm_fin x y z a : nm_vec (NM (fin_vec x) (fin_vec y) (fin_vec z)) (fin_vec a) = fin_vec (mat_vec (M x y z) a).
Proof. reflexivity. Qed.
Lemma times_opposite k v : times k (opposite v) = opposite (times k v).
Proof. unfold times, opposite, times. cbn [vx vy vz]. f_equal; ring. Qed.
Lemma lvlh_rows_real r w : product r w <> zero ->
  lvlh_rows r w = NM (fin_vec (forward r w)) (fin_vec (right r w)) (fin_vec (down r)).
Proof.
  intros H. pose proof (norm_pos _ H) as P. pose proof (norm_pos _ (product_nz _ _ H)) as P'.
  unfold lvlh_rows. rewrite cross_fin, !norm_fin, !opp_fin, !divide_fin, cross_fin by lra. now rewrite !times_opposite.
Qed.
Lemma on_axes_mat r w d : mat_vec (M (forward r w) (right r w) (down r)) d = on_axes r w d.
Proof. reflexivity. Qed.
Lemma on_axes_down r w : product r w <> zero -> on_axes r w r = V 0 0 (- norm r).
Proof.
  intros H. pose proof (norm_pos _ H) as P. pose proof (norm_pos _ (product_nz _ _ H)) as P'. unfold on_axes. f_equal.
  - unfold forward, right, down, unit_of. unfold opposite, times, product, dot. cbn [vx vy vz]. ring.
  - unfold right, unit_of. unfold opposite, times, product, dot. cbn [vx vy vz]. ring.
  - unfold down, unit_of. transitivity (- / norm r * dot r r); [unfold opposite, times, dot; cbn [vx vy vz]; ring|]. rewrite <- norm2. field. lra.
Qed.
Lemma on_axes_velocity r w : product r w <> zero ->
  on_axes r w w = V (norm (product r w) / norm r) 0 (- dot r w / norm r).
Proof.
  intros H. pose proof (norm_pos _ H) as P. pose proof (norm_pos _ (product_nz _ _ H)) as P'. unfold on_axes. f_equal.
  - unfold forward, right, down, unit_of. transitivity (/ norm (product r w) * / norm r * dot (product r w) (product r w)).
    + set (a := / norm (product r w)). set (b := / norm r). unfold opposite, times, product, dot. cbn [vx vy vz]. ring.
    + rewrite <- norm2. field. lra.
  - unfold right, unit_of. set (a := / norm (product r w)). unfold opposite, times, product, dot. cbn [vx vy vz]. ring.
  - unfold down, unit_of. unfold opposite, times, dot. cbn [vx vy vz]. field. lra.
Qed.
(** In terms of products and volumes only. *)
Definition seen (r w d : vec) : vec :=
  V ((dot r r * dot w d - dot r w * dot r d) / (sqrt (dot r r * dot w w - dot r w * dot r w) * norm r))
    (- volume r w d / sqrt (dot r r * dot w w - dot r w * dot r w)) (- dot r d / norm r).
Lemma norm_product r w : norm (product r w) = sqrt (dot r r * dot w w - dot r w * dot r w).
Proof. unfold norm. f_equal. unfold dot, product. cbn [vx vy vz]. ring. Qed.
Lemma seen_axes r w d : product r w <> zero -> on_axes r w d = seen r w d.
Proof.
  intros H. pose proof (norm_pos _ H) as P. pose proof (norm_pos _ (product_nz _ _ H)) as P'. unfold on_axes, seen. rewrite <- norm_product. f_equal.
  - unfold forward, right, down, unit_of. transitivity (/ norm (product r w) * / norm r * (dot r r * dot w d - dot r w * dot r d)).
    + set (a := / norm (product r w)). set (b := / norm r). unfold opposite, times, product, dot. cbn [vx vy vz]. ring.
    + field. lra.
  - unfold right, unit_of. transitivity (- / norm (product r w) * volume r w d).
    + set (a := / norm (product r w)). unfold opposite, times, product, dot, volume. cbn [vx vy vz]. ring.
    + field. lra.
  - unfold down, unit_of. unfold opposite, times, dot. cbn [vx vy vz]. field. lra.
Qed.
Lemma rigid_product f r w : rigid f -> product r w <> zero -> product (f r) (f w) <> zero.
Proof.
  intros (D & _) H E. apply H, norm_zero. transitivity (norm (product (f r) (f w))); [now rewrite !norm_product, !D|]. rewrite E. unfold norm, dot, zero. cbn [vx vy vz].
  replace (0 * 0 + 0 * 0 + 0 * 0) with 0 by ring. apply sqrt_0.
Qed.
Lemma rigid_axes f r w d : rigid f -> product r w <> zero -> on_axes (f r) (f w) (f d) = on_axes r w d.
Proof. intros F H. rewrite !seen_axes by (auto; now apply rigid_product). destruct F as (D & W). unfold seen, norm. now rewrite !D, W. Qed.
Lemma scaled_axes a b r w d : 0 < a -> 0 < b -> product r w <> zero ->
  product (times a r) (times b w) <> zero /\ on_axes (times a r) (times b w) d = on_axes r w d.
Proof.
  intros A B H. assert (E : product (times a r) (times b w) = times (a * b) (product r w)) by (unfold product, times; cbn [vx vy vz]; f_equal; ring).
  assert (U : forall k v, 0 < k -> v <> zero -> unit_of (times k v) = unit_of v).
  { intros k v K V. pose proof (norm_pos v V). assert (N : norm (times k v) = k * norm v).
    { unfold norm. replace (dot (times k v) (times k v)) with (k * k * dot v v) by (unfold dot, times; cbn [vx vy vz]; ring).
      rewrite sqrt_mult by (try apply dot_pos; nra). now rewrite sqrt_square by lra. }
    unfold unit_of. rewrite N. unfold times. cbn [vx vy vz]. f_equal; field; lra. }
  assert (P : 0 < a * b) by nra. split.
  - rewrite E. clear E U. set (p := product r w) in *. clearbody p. intros Z. apply H. apply norm_zero.
    assert (D : dot p p = 0); [|unfold norm; rewrite D; apply sqrt_0].
    assert (D : a * b * (a * b) * dot p p = 0). { transitivity (dot (times (a * b) p) (times (a * b) p)); [unfold dot, times; cbn [vx vy vz]; ring|]. rewrite Z. unfold dot, zero. cbn [vx vy vz]. ring. }
    apply Rmult_integral in D as [D|D]; [nra|exact D].
  - unfold on_axes, forward, right, down. rewrite E, !U by (auto; now apply product_nz with w). reflexivity.
Qed.
Lemma on_axes_sub r w a b : on_axes r w (sub a b) = sub (on_axes r w a) (on_axes r w b).
Proof. unfold on_axes, sub, dot. cbn [vx vy vz]. f_equal; ring. Qed.
Lemma on_axes_times r w k a : on_axes r w (times k a) = times k (on_axes r w a).
Proof. unfold on_axes, times, dot. cbn [vx vy vz]. f_equal; ring. Qed.
Lemma on_axes_norm r w d : product r w <> zero -> norm (on_axes r w d) = norm d.
Proof. intros H. destruct (frame r w H) as (D & _). unfold norm. rewrite <- on_axes_mat, D. reflexivity. Qed.
