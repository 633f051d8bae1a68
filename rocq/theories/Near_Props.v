(** Altitudes and the distance to the ellipsoid: C185, in exact arithmetic. *)
From Coq Require Import List Reals Lia Lra Psatz.
From Verif Require Import Py PyLemmas Num Time_Model Rot_Model Rot_Spec Rot_Proofs Geo_Model Geo_Spec Geo_Alt Geo_Alt2 Geo_Acc Geo_Props Geo_Foot Near_Spec.
Import ListNotations.
Open Scope R_scope.

Lemma apart_sym u v : apart u v = apart v u.
Proof. unfold apart. f_equal. ring. Qed.
Lemma gradient_pos f : on_ellipsoid f -> 0 < norm (gradient f).
Proof.
  intros ON. pose proof A_pos as HA. pose proof B_pos as HB. unfold norm. apply sqrt_lt_R0. unfold dot, gradient. cbn [vx vy vz]. unfold on_ellipsoid in ON. rewrite wa, wb in *.
  assert (K : forall x d, 0 < d -> 0 <= x / d * (x / d)) by (intros; apply Rle_0_sqr).
  pose proof (K (vx f) (A ^ 2) ltac:(nra)) as K1. pose proof (K (vy f) (A ^ 2) ltac:(nra)) as K2. pose proof (K (vz f) (B ^ 2) ltac:(nra)) as K3.
  destruct (Rtotal_order 0 (vx f / A ^ 2 * (vx f / A ^ 2) + vy f / A ^ 2 * (vy f / A ^ 2) + vz f / B ^ 2 * (vz f / B ^ 2))) as [G|[G|G]]; [exact G| |lra]. exfalso.
  assert (W : forall x d, 0 < d -> x / d * (x / d) = 0 -> x = 0). { intros x d D H. assert (x / d = 0) by nra. replace x with (x / d * d) by (field; lra). rewrite H0. ring. }
  assert (vx f = 0) as E1 by (apply (W _ (A ^ 2)); nra). assert (vy f = 0) as E2 by (apply (W _ (A ^ 2)); nra). assert (vz f = 0) as E3 by (apply (W _ (B ^ 2)); nra).
  rewrite E1, E2, E3 in ON. unfold Rdiv in ON. nra.
Qed.
(** The foot of the vertical is the nearest point of the ellipsoid, and the height is the distance to it. *)
Lemma above_nearest f h v : above f h v -> 0 <= h -> distance_to_ellipsoid v h.
Proof.
  intros (ON & E) H. pose proof A_pos as HA. pose proof B_pos as HB. pose proof (gradient_pos f ON) as G. set (s := h / norm (gradient f)) in *.
  assert (S0 : 0 <= s) by (apply Rmult_le_pos; [lra|]; apply Rlt_le, Rinv_0_lt_compat; lra).
  assert (D : apart v f = h).
  { assert (Q : norm (gradient f) * norm (gradient f) = dot (gradient f) (gradient f)). { unfold norm. apply sqrt_sqrt. unfold dot. nra. }
    unfold apart. rewrite E. unfold plus, times. cbn [vx vy vz]. rewrite <- (sqrt_square h) by lra. f_equal.
    replace h with (s * norm (gradient f)) at 1 2 by (unfold s; field; lra).
    transitivity (s * s * dot (gradient f) (gradient f)); [unfold dot; ring|]. rewrite <- Q. ring. }
  split; [exists f; auto|]. intros g OG. rewrite <- D. unfold apart. apply sqrt_le_1_alt. rewrite E. unfold plus, times, gradient. cbn [vx vy vz].
  unfold on_ellipsoid in ON, OG. rewrite wa, wb in *. clearbody s. clear E D G.
  set (x := vx f) in *. set (y := vy f) in *. set (z := vz f) in *. set (a := vx g) in *. set (b := vy g) in *. set (c := vz g) in *. clearbody x y z a b c.
  assert (I1 : 0 < / A ^ 2) by (apply Rinv_0_lt_compat; nra). assert (I2 : 0 < / B ^ 2) by (apply Rinv_0_lt_compat; nra). unfold Rdiv in *. set (p := / A ^ 2) in *. set (q := / B ^ 2) in *. clearbody p q.
  assert (C : (x * a + y * b) * p + z * c * q <= 1).
  { assert (0 <= ((x - a) ^ 2 + (y - b) ^ 2) * p + (z - c) ^ 2 * q) by (pose proof (pow2_ge_0 (x - a)); pose proof (pow2_ge_0 (y - b)); pose proof (pow2_ge_0 (z - c)); apply Rplus_le_le_0_compat; apply Rmult_le_pos; lra).
    replace (((x - a) ^ 2 + (y - b) ^ 2) * p + (z - c) ^ 2 * q) with ((x ^ 2 + y ^ 2) * p + z ^ 2 * q + ((a ^ 2 + b ^ 2) * p + c ^ 2 * q) - 2 * ((x * a + y * b) * p + z * c * q)) in H0 by ring. rewrite ON, OG in H0. lra. }
  assert (X : 0 <= s * (1 - ((x * a + y * b) * p + z * c * q))) by (apply Rmult_le_pos; lra).
  assert (Y : (x + s * (x * p) - a) ^ 2 + (y + s * (y * p) - b) ^ 2 + (z + s * (z * q) - c) ^ 2 - ((x + s * (x * p) - x) ^ 2 + (y + s * (y * p) - y) ^ 2 + (z + s * (z * q) - z) ^ 2)
    = (x - a) ^ 2 + (y - b) ^ 2 + (z - c) ^ 2 + 2 * (s * ((x ^ 2 + y ^ 2) * p + z ^ 2 * q - ((x * a + y * b) * p + z * c * q)))) by ring.
  rewrite ON in Y. pose proof (pow2_ge_0 (x - a)). pose proof (pow2_ge_0 (y - b)). pose proof (pow2_ge_0 (z - c)). lra.
Qed.
Lemma distance_unique v d e : distance_to_ellipsoid v d -> distance_to_ellipsoid v e -> d = e.
Proof. intros ((f & F1 & F2) & F3) ((g & G1 & G2) & G3). specialize (F3 g G1). specialize (G3 f F1). lra. Qed.
Lemma distance_above v d f h : distance_to_ellipsoid v d -> above f h v -> 0 <= h -> h = d.
Proof. intros D P H. exact (distance_unique _ _ _ (above_nearest _ _ _ P H) D). Qed.

(** ** C185: the height is the distance to the nearest point *)
(** There is a nearest point for every point on or outside the ellipsoid. *)
Theorem C185_nearest_exists : forall v, not_below v -> exists d, 0 <= d /\ distance_to_ellipsoid v d /\ forall e, distance_to_ellipsoid v e -> e = d.
Proof. intros v N. destruct (foot_exists v N) as (f & h & P & H). exists h. pose proof (above_nearest _ _ _ P H) as D. split; auto. split; auto. intros e E. exact (distance_unique _ _ _ E D). Qed.
(** The altitudes of all points outside the ellipsoid and off the axis are within 11 km of the distance to
    the ellipsoid. *)
Theorem C185_altitude_distance :
  forall n itrs, of_size n itrs ->
    (forall i, (i < n)%nat -> not_below (kilometres itrs i) /\ off_axis (kilometres itrs i)) ->
    exists result, satellite_altitude itrs result /\ length result = n /\
      forall i, (i < n)%nat -> exists x d, nth i result NaN = Fin x /\ distance_to_ellipsoid (kilometres itrs i) d /\ Rabs (x - d) < 10.71.
Proof.
  intros n p S H.
  assert (Q : forall m, (m <= n)%nat -> exists (foot : nat -> vec) (height : nat -> R), forall i, (i < m)%nat -> above (foot i) (height i) (kilometres p i) /\ 0 <= height i /\ off_axis (kilometres p i)).
  { induction m as [|m IH]; intros M; [exists (fun _ => zero), (fun _ => 0); intros; lia|]. destruct (IH ltac:(lia)) as (foot & height & K). destruct (H m ltac:(lia)) as (N & O). destruct (foot_exists _ N) as (f & h & P & H0).
    exists (fun i => if Nat.eqb i m then f else foot i), (fun i => if Nat.eqb i m then h else height i). intros i I. destruct (Nat.eqb_spec i m) as [->|NE]; [auto|]. apply K. lia. }
  destruct (Q n ltac:(lia)) as (foot & height & K). destruct (C59_altitude_partial n p foot height S K) as (result & R1 & R2 & R3). exists result. split; auto. split; auto. intros i I. destruct (R3 i I) as (x & X1 & X2). destruct (K i I) as (K1 & K2 & _). exists x, (height i). split; auto. split; auto. eapply above_nearest; eauto.
Qed.
Example C185_case : not_below (V 4200 0 5600) /\ off_axis (V 4200 0 5600) /\ distance_to_ellipsoid (V 7000 0 0) (7000 - wgs84_a).
Proof.
  split; [apply C59_one_height_case|]. split; [left; cbn; lra|]. pose proof A_val as VA. pose proof B_val as VB. apply above_nearest with (f := V A 0 0); [|rewrite wa; lra].
  assert (G : norm (gradient (V A 0 0)) = 1 / A).
  { unfold norm, dot, gradient. cbn [vx vy vz]. rewrite wa, wb. rewrite <- (sqrt_square (1 / A)) by (apply Rlt_le, Rdiv_lt_0_compat; lra). f_equal. field. lra. }
  split; [unfold on_ellipsoid; cbn [vx vy vz]; rewrite wa, wb; field; lra|]. rewrite G. unfold plus, times, gradient. cbn [vx vy vz]. rewrite wa, wb. f_equal; field; lra.
Qed.
Print Assumptions C185_nearest_exists.
Print Assumptions C185_altitude_distance.
