(** Products of matrices and vectors in floating point, up to rotations. *)
From Coq Require Import List ZArith QArith Qreals Reals Lra Lia Psatz Bool.
From Flocq Require Import Core.Core IEEE754.BinarySingleNaN IEEE754.Binary IEEE754.Bits.
From Verif Require Import Py Fl_Model Fl_Spec Fl_Proofs Flg_Model Flg_Spec Rot_Model Rot_Spec Rot_Proofs Flg_Proofs Flg_Num Flg_Proofs2 Flg_Proofs3
  Flc_Model Flc_Proofs2 Flg_Proofs5 Flr_Model Flr_Spec Flx_Expr.
Open Scope R_scope.

Lemma dot_diff p q : dot (sub p q) (sub p q) = dot p p - 2 * dot p q + dot q q.
Proof. unfold dot, sub; cbn; ring. Qed.
Lemma rigid_norm f a b : rigid f -> norm (f a) = norm a /\ norm (sub (f a) (f b)) = norm (sub a b).
Proof. intros (D & _). unfold norm. rewrite !dot_diff, !D. auto. Qed.
Lemma norm_tri a b c : norm (sub a c) <= norm (sub a b) + norm (sub b c).
Proof.
  pose proof (norm_near (sub a c) (sub b c)) as H. replace (sub (sub a c) (sub b c)) with (sub a b) in H by (unfold sub; cbn [vx vy vz]; f_equal; ring).
  apply Rabs_le_inv in H. lra.
Qed.
Lemma norm_diff a b : norm a <= norm b + norm (sub a b).
Proof. pose proof (norm_near a b) as H. apply Rabs_le_inv in H. lra. Qed.
Lemma norm_within d v : 0 <= d -> vec_within d v -> norm v <= 2 * d.
Proof.
  intros D (A & B & C). unfold norm. rewrite <- (sqrt_square (2 * d)) by lra. apply sqrt_le_1_alt. unfold dot.
  apply Rabs_le_inv in A, B, C. nra.
Qed.
Lemma within_norm v : vec_within (norm v) v. Proof. apply comp_norm. Qed.
Lemma norm_sub_sym a b : norm (sub a b) = norm (sub b a).
Proof. unfold norm. f_equal. unfold dot, sub. cbn [vx vy vz]. ring. Qed.
Lemma norm_0 : norm (V 0 0 0) = 0.
Proof. unfold norm, dot. cbn [vx vy vz]. replace (0 * 0 + 0 * 0 + 0 * 0) with 0 by ring. apply sqrt_0. Qed.

(** ** A computed map close to an exact one *)
Definition moved (D k t : R) (f : fvec -> fvec) (g : vec -> vec) : Prop :=
  forall v, finite_vec v -> norm (vector v) <= D ->
    finite_vec (f v) /\ norm (sub (vector (f v)) (g (vector v))) <= k * uu * norm (vector v) + t.
Lemma moved_le D k t f g D' k' t' : moved D k t f g -> D' <= D -> k <= k' -> t <= t' -> moved D' k' t' f g.
Proof.
  intros M HD HK HT v F N. destruct (M v F ltac:(lra)) as (F' & E). split; auto. eapply Rle_trans; [exact E|].
  pose proof uu_pos. pose proof (norm_pos (vector v)). assert (k * uu * norm (vector v) <= k' * uu * norm (vector v)) by (apply Rmult_le_compat_r; nra). lra.
Qed.
Lemma moved_comp D k t f g D' k' t' f' g' : rigid g -> rigid g' -> moved D k t f g -> moved D' k' t' f' g' ->
  0 <= k <= 1000000 -> 0 <= k' <= 1000000 -> 0 <= t <= 1 -> 2 * D + 1 <= D' ->
  moved D (k + k' + 1) (2 * t + t') (fun v => f' (f v)) (fun v => g' (g v)).
Proof.
  intros R1 R2 M1 M2 K1 K2 T HD v F N. destruct (M1 v F N) as (F1 & E1). pose proof uu_pos as U. pose proof uu14 as U'.
  set (n := norm (vector v)) in *. assert (N0 : 0 <= n) by apply norm_pos.
  pose proof (norm_diff (vector (f v)) (g (vector v))) as N1. rewrite (proj1 (rigid_norm g (vector v) (vector v) R1)) in N1. fold n in N1.
  assert (K1u : 0 <= k * uu <= / 1000000000) by nra. assert (K2u : 0 <= k' * uu <= / 1000000000) by nra.
  set (ku := k * uu) in *. set (ku' := k' * uu) in *.
  assert (P1 : 0 <= ku * n <= / 1000000000 * n) by (split; [apply Rmult_le_pos; lra|apply Rmult_le_compat_r; lra]).
  destruct (M2 (f v) F1 ltac:(lra)) as (F2 & E2). split; auto. fold ku' in E2.
  pose proof (norm_tri (vector (f' (f v))) (g' (vector (f v))) (g' (g (vector v)))) as T1.
  rewrite (proj2 (rigid_norm g' (vector (f v)) (g (vector v)) R2)) in T1. 
  set (n1 := norm (vector (f v))) in *. assert (Q : ku' * n1 <= ku' * n + ku' * (ku * n) + ku' * t).
  { replace (ku' * n + ku' * (ku * n) + ku' * t) with (ku' * (n + (ku * n + t))) by ring. apply Rmult_le_compat_l; lra. }
  assert (Q2 : ku' * (ku * n) <= uu * n).
  { unfold ku, ku'. replace (k' * uu * (k * uu * n)) with ((k' * k * uu) * (uu * n)) by ring. rewrite <- (Rmult_1_l (uu * n)) at 2. apply Rmult_le_compat_r; [apply Rmult_le_pos; lra|].
    assert (k' * k <= 1000000 * 1000000) by (apply Rmult_le_compat; lra). assert (0 <= k' * k) by nra. nra. }
  assert (Q3 : ku' * t <= t) by nra.
  replace ((k + k' + 1) * uu * n) with (ku * n + ku' * n + uu * n) by (unfold ku, ku'; ring). lra.
Qed.

(** ** Matrices *)
Definition op_near (k : R) (m : mat) (g : vec -> vec) : Prop := forall v, norm (sub (mat_vec m v) (g v)) <= k * uu * norm v.
Lemma row_bound r v d : 0 <= d -> vec_within d r -> Rabs (row_times r v) <= 2 * d * norm v.
Proof.
  intros D W. change (row_times r v) with (dot r v). eapply Rle_trans; [apply cauchy_norm|]. apply Rmult_le_compat_r; [apply norm_pos|]. now apply norm_within.
Qed.
Lemma mat_bound m v d : 0 <= d -> mat_within d m -> norm (mat_vec m v) <= 4 * d * norm v.
Proof.
  intros D (A & B & C). replace (4 * d * norm v) with (2 * (2 * d * norm v)) by ring. apply norm_within; [pose proof (norm_pos v); nra|].
  split; [|split]; now apply row_bound.
Qed.
Lemma near_op m n d : 0 <= d -> mat_near (d * uu) m n -> op_near (4 * d) m (mat_vec n).
Proof.
  intros D (A & B & C) v. pose proof uu_pos. set (k := M (sub (r0 m) (r0 n)) (sub (r1 m) (r1 n)) (sub (r2 m) (r2 n))).
  replace (sub (mat_vec m v) (mat_vec n v)) with (mat_vec k v).
  2:{ unfold k, mat_vec, sub, row_times. cbn [r0 r1 r2 vx vy vz]. f_equal; ring. }
  replace (4 * d * uu * norm v) with (4 * (d * uu) * norm v) by ring. apply mat_bound; [nra|]. split; [|split]; assumption.
Qed.
Lemma rigid_within m : rigid (mat_vec m) -> mat_within 1 m.
Proof.
  intros R. assert (C : forall e, norm e = 1 -> vec_within 1 (mat_vec m e)).
  { intros e E. rewrite <- E, <- (proj1 (rigid_norm _ e e R)). apply within_norm. }
  assert (E1 : norm (V 1 0 0) = 1) by (unfold norm, dot; cbn [vx vy vz]; replace (1 * 1 + 0 * 0 + 0 * 0) with 1 by ring; apply sqrt_1).
  assert (E2 : norm (V 0 1 0) = 1) by (unfold norm, dot; cbn [vx vy vz]; replace (0 * 0 + 1 * 1 + 0 * 0) with 1 by ring; apply sqrt_1).
  assert (E3 : norm (V 0 0 1) = 1) by (unfold norm, dot; cbn [vx vy vz]; replace (0 * 0 + 0 * 0 + 1 * 1) with 1 by ring; apply sqrt_1).
  apply C in E1, E2, E3. unfold mat_vec, row_times, vec_within in *. cbn [vx vy vz] in *.
  rewrite !Rmult_0_r, !Rmult_1_r, !Rplus_0_r in E1. rewrite !Rmult_0_r, !Rmult_1_r, !Rplus_0_r, !Rplus_0_l in E2. rewrite !Rmult_0_r, !Rmult_1_r, !Rplus_0_l in E3.
  unfold mat_within, vec_within. tauto.
Qed.
Lemma vec_near_within e d v w : vec_near e v w -> vec_within d w -> vec_within (d + e) v.
Proof.
  intros (A & B & C) (A' & B' & C'). cbn [vx vy vz] in *. apply err_abs in A, B, C. split; [|split]; lra.
Qed.
Lemma near_within e d m n : mat_near e m n -> mat_within d n -> mat_within (d + e) m.
Proof. intros (A & B & C) (A' & B' & C'). split; [|split]; eauto using vec_near_within. Qed.
Lemma within_le d d' m : mat_within d m -> d <= d' -> mat_within d' m.
Proof. intros ((A & B & C) & (D & E & F) & (G & H & I)) L. repeat split; lra. Qed.
(** Determinants of close matrices *)
Lemma prod3 x y z x' y' z' e : 0 <= e <= / 1000 -> Rabs x' <= 1 -> Rabs y' <= 1 -> Rabs z' <= 1 -> Rabs (x - x') <= e -> Rabs (y - y') <= e -> Rabs (z - z') <= e ->
  Rabs (x * (y * z) - x' * (y' * z')) <= 4 * e.
Proof.
  intros E X Y Z Dx Dy Dz. pose proof (err_abs _ _ _ Dx) as Ax. pose proof (err_abs _ _ _ Dy) as Ay. pose proof (err_abs _ _ _ Dz) as Az.
  replace (x * (y * z) - x' * (y' * z')) with ((x - x') * (y * z) + x' * ((y - y') * z) + x' * (y' * (z - z'))) by ring.
  eapply Rle_trans; [apply Rabs_triang|]. eapply Rle_trans; [apply Rplus_le_compat_r, Rabs_triang|]. rewrite !Rabs_mult.
  assert (B : Rabs y * Rabs z <= 1.01 * 1.01) by (apply Rmult_le_compat; auto using Rabs_pos; lra).
  assert (P1 : Rabs (x - x') * (Rabs y * Rabs z) <= e * (1.01 * 1.01)) by (apply Rmult_le_compat; auto using Rabs_pos; apply Rmult_le_pos; apply Rabs_pos).
  assert (P2 : Rabs (y - y') * Rabs z <= e * 1.01) by (apply Rmult_le_compat; auto using Rabs_pos; lra).
  assert (P2' : Rabs x' * (Rabs (y - y') * Rabs z) <= 1 * (e * 1.01)) by (apply Rmult_le_compat; auto using Rabs_pos; apply Rmult_le_pos; apply Rabs_pos).
  assert (P3 : Rabs y' * Rabs (z - z') <= 1 * e) by (apply Rmult_le_compat; auto using Rabs_pos).
  assert (P3' : Rabs x' * (Rabs y' * Rabs (z - z')) <= 1 * (1 * e)) by (apply Rmult_le_compat; auto using Rabs_pos; apply Rmult_le_pos; apply Rabs_pos).
  lra.
Qed.
Lemma det_near m n e : 0 <= e <= / 1000 -> mat_near e m n -> mat_within 1 n -> Rabs (np_det m - np_det n) <= 24 * e.
Proof.
  intros E ((A & B & C) & (D & F & G) & (H & J & K)) ((A' & B' & C') & (D' & F' & G') & (H' & J' & K')). cbn [vx vy vz] in *.
  unfold np_det.
  pose proof (prod3 _ _ _ _ _ _ e E A' F' K' A F K) as Q1. pose proof (prod3 _ _ _ _ _ _ e E A' G' J' A G J) as Q2.
  pose proof (prod3 _ _ _ _ _ _ e E B' D' K' B D K) as Q3. pose proof (prod3 _ _ _ _ _ _ e E B' G' H' B G H) as Q4.
  pose proof (prod3 _ _ _ _ _ _ e E C' D' J' C D J) as Q5. pose proof (prod3 _ _ _ _ _ _ e E C' F' H' C F H) as Q6.
  apply Rabs_le_inv in Q1, Q2, Q3, Q4, Q5, Q6. apply Rabs_le. lra.
Qed.

Section Numpy.
Variable L : arrays.
Hypothesis G : accurate_arrays L.
Definition tt : R := / 2 ^ 900.
Lemma tt_pos : 0 < tt. Proof. apply Rinv_0_lt_compat, pow_lt. lra. Qed.
Lemma two_le (n m : nat) : (n <= m)%nat -> 2 ^ n <= 2 ^ m. Proof. intros. apply Rle_pow; [lra|lia]. Qed.
Lemma two_1000 : 100 * / 2 ^ 1000 <= tt.
Proof.
  unfold tt. replace (2 ^ 1000) with (2 ^ 900 * 2 ^ 100) by (rewrite <- pow_add; reflexivity). rewrite Rinv_mult.
  pose proof tt_pos as T. unfold tt in T. set (x := / 2 ^ 900) in *. assert (/ 2 ^ 100 <= / 1000) by (apply Rinv_le_contravar; [lra|]; apply Rle_trans with (2 ^ 10); [lra|apply two_le; lia]). nra.
Qed.
Lemma mat_step m g k : finite_mat m -> mat_within 3 (matrix m) -> op_near k (matrix m) g -> moved (2 ^ 99) (49 + k) tt (fmat_vec L m) g.
Proof.
  intros (F0 & F1 & F2) (W0 & W1 & W2) O v Fv N. pose proof uu_pos as U. set (n := norm (vector v)) in *. assert (N0 : 0 <= n) by apply norm_pos.
  assert (N1 : n <= 2 ^ 100) by (eapply Rle_trans; [exact N|apply two_le; lia]).
  assert (C : forall r, finite_vec r -> vec_within 3 (vector r) -> finite (a_contract L r v) /\ Rabs (value (a_contract L r v) - row_times (vector r) (vector v)) <= 24 * uu * n + / 2 ^ 1000).
  { intros r Fr Wr. pose proof (norm_within 3 _ ltac:(lra) Wr) as Nr.
    destruct (np_einsum_good L G r v Fr Fv) as (F & E); auto. { apply Rle_trans with (2 ^ 10); [lra|apply two_le; lia]. }
    split; auto. change (row_times (vector r) (vector v)) with (dot (vector r) (vector v)). eapply Rle_trans; [exact E|]. fold n.
    replace (4 / 2 ^ 53) with (4 * uu) by (rewrite uu_pow53; lra). apply Rplus_le_compat_r.
    replace (24 * uu * n) with (4 * uu * (6 * n)) by ring. apply Rmult_le_compat_l; [lra|]. apply Rmult_le_compat_r; lra. }
  destruct (C _ F0 W0) as (A0 & E0). destruct (C _ F1 W1) as (A1 & E1). destruct (C _ F2 W2) as (A2 & E2).
  split; [split; [|split]; assumption|].
  pose proof (norm_tri (vector (fmat_vec L m v)) (mat_vec (matrix m) (vector v)) (g (vector v))) as T. pose proof (O (vector v)) as Ov. fold n in Ov.
  assert (S : norm (sub (vector (fmat_vec L m v)) (mat_vec (matrix m) (vector v))) <= 2 * (24 * uu * n + / 2 ^ 1000)).
  { apply norm_within; [|split; [|split]; assumption]. pose proof (Rabs_pos (value (a_contract L (f0 m) v) - row_times (vector (f0 m)) (vector v))). lra. }
  pose proof two_1000. assert (0 < / 2 ^ 1000) by (apply Rinv_0_lt_compat, pow_lt; lra). 
  assert (0 <= uu * n) by (apply Rmult_le_pos; lra). replace ((49 + k) * uu * n) with (49 * (uu * n) + k * uu * n) by ring. lra.
Qed.
Lemma near_step m n d : finite_mat m -> mat_near (d * uu) (matrix m) n -> rigid (mat_vec n) -> 0 <= d <= 100000 ->
  moved (2 ^ 99) (49 + 4 * d) tt (fmat_vec L m) (mat_vec n).
Proof.
  intros F N R D. pose proof uu_pos. pose proof uu14. apply mat_step; auto.
  - eapply within_le; [eapply near_within; [exact N|now apply rigid_within]|]. nra.
  - apply near_op; auto. lra.
Qed.
(** The inverse *)
Lemma inv_step m n d : finite_mat m -> mat_near (d * uu) (matrix m) n -> rigid (mat_vec n) -> 0 <= d <= 100000 ->
  exists i, a_inv L m = Ok i /\ moved (2 ^ 99) (49 + (8192 + 48 * d)) tt (fmat_vec L i) (mat_vec (inv_of n)).
Proof.
  intros F N R D. pose proof uu_pos as U. pose proof uu14 as U'. assert (DU : 0 <= d * uu <= / 1000000000) by nra.
  pose proof (rigid_within _ R) as W. pose proof (det_near (matrix m) n (d * uu) ltac:(lra) N W) as Dt. rewrite (rigid_det _ R) in Dt. apply Rabs_le_inv in Dt.
  destruct (np_inv_good L G m F) as (i & Ei & Fi & Wi & Ui).
  { eapply within_le; [eapply near_within; [exact N|exact W]|]. lra. } { lra. }
  exists i. split; auto. apply mat_step; auto. intros w. destruct (inv_of_ok _ R) as (_ & _ & B).
  set (u := mat_vec (inv_of n) w). assert (Ew : w = mat_vec n u) by (unfold u; now rewrite B).
  assert (Nw : norm w = norm u) by (rewrite Ew; apply (proj1 (rigid_norm _ u u R))). rewrite Nw. clearbody u. rewrite Ew. clear w Ew Nw B.
  set (a := mat_vec (mat_mul (matrix i) (matrix m)) u).
  assert (Ea : a = mat_vec (matrix i) (mat_vec (matrix m) u)).
  { unfold a, mat_vec, mat_mul, row_mat, row_times. cbn [r0 r1 r2 vx vy vz]. f_equal; ring. }
  pose proof (norm_tri (mat_vec (matrix i) (mat_vec n u)) a u) as T.
  assert (T1 : norm (sub a u) <= 8192 * uu * norm u).
  { assert (E1 : / 2 ^ 42 = 2048 * uu) by (rewrite uu_value; lra). rewrite E1 in Ui. pose proof (near_op _ _ 2048 ltac:(lra) Ui u) as O. fold a in O.
    replace (mat_vec unit_mat u) with u in O by (apply vec_eq; unfold mat_vec, unit_mat, row_times; cbn [r0 r1 r2 vx vy vz]; ring). lra. }
  assert (T2 : norm (sub (mat_vec (matrix i) (mat_vec n u)) a) <= 48 * d * uu * norm u).
  { rewrite Ea. replace (sub (mat_vec (matrix i) (mat_vec n u)) (mat_vec (matrix i) (mat_vec (matrix m) u))) with (mat_vec (matrix i) (sub (mat_vec n u) (mat_vec (matrix m) u))).
    2:{ unfold mat_vec, row_times, sub. cbn [r0 r1 r2 vx vy vz]. f_equal; ring. }
    eapply Rle_trans; [apply (mat_bound _ _ 3); [lra|auto]|]. rewrite norm_sub_sym. pose proof (near_op _ _ d ltac:(lra) N u). lra. }
  lra.
Qed.
(** The rotation about the z axis *)
Definition turn (a : R) (v : vec) : vec := V (cos a * vx v - sin a * vy v) (sin a * vx v + cos a * vy v) (vz v).
Lemma turn_rigid a : rigid (turn a).
Proof.
  apply rigid_ext with (turn_z (cos a) (- sin a)).
  - intros v. apply vec_eq; unfold turn, turn_z; cbn [vx vy vz]; ring.
  - apply turn_z_rigid. rewrite Rmult_opp_opp. apply sc.
Qed.
Definition fturn (a : float) (v : fvec) : fvec :=
  FV (fsub (fmul (a_cos L a) (fx v)) (fmul (a_sin L a) (fy v))) (fadd (fmul (a_sin L a) (fx v)) (fmul (a_cos L a) (fy v))) (fz v).
Lemma part_ok c r x n : finite c -> Rabs (value c - r) <= 4 * uu -> Rabs r <= 1 -> finite x -> Rabs (value x) <= n -> n <= 2 ^ 99 ->
  finite (fmul c x) /\ Rabs (value (fmul c x) - r * value x) <= 6 * uu * n + ee /\ Rabs (value (fmul c x)) <= 2 * n + ee.
Proof.
  intros Fc Ec R Fx X N. pose proof uu_pos as U. pose proof uu14 as U'. pose proof ee_pos as Ep. pose proof (err_abs _ _ _ Ec) as C.
  assert (N0 : 0 <= n) by (pose proof (Rabs_pos (value x)); lra).
  assert (P : Rabs (value c * value x) <= 1.01 * n) by (rewrite Rabs_mult; apply Rmult_le_compat; auto using Rabs_pos; lra).
  destruct (fmul_ok c x Fc Fx) as (F & V).
  { eapply Rle_trans; [exact P|]. apply Rle_trans with (2 ^ 100); [replace (2 ^ 100) with (2 * 2 ^ 99) by (cbn [pow]; ring); lra|]. rewrite pow_bpow. apply bpow_le. lia. }
  split; auto. rewrite V. pose proof (rnd_mul_err (value c * value x)) as Er.
  assert (D : Rabs (value c * value x - r * value x) <= 4 * uu * n).
  { replace (value c * value x - r * value x) with ((value c - r) * value x) by ring. rewrite Rabs_mult. apply Rmult_le_compat; auto using Rabs_pos. }
  assert (uu * Rabs (value c * value x) <= uu * (1.01 * n)) by (apply Rmult_le_compat_l; lra). assert (Un : 0 <= uu * n <= / 1000 * n) by (split; nra).
  split. - eapply Rle_trans; [apply (err_trans _ _ _ _ _ Er D)|]. lra.
  - apply err_abs in Er. lra.
Qed.
Lemma turn_step a : finite a -> Rabs (value a) <= 1000 -> moved (2 ^ 99) 40 tt (fturn a) (turn (value a)).
Proof.
  intros Fa Ba v (Fx & Fy & Fz) N. set (n := norm (vector v)) in *. destruct (comp_norm (vector v)) as (Cx & Cy & _). fold n in Cx, Cy. cbn [vector vx vy] in Cx, Cy.
  pose proof uu_pos as U. pose proof uu14 as U'. pose proof ee_pos as Ep. assert (N0 : 0 <= n) by apply norm_pos.
  assert (U4 : / 2 ^ 51 = 4 * uu) by (rewrite uu_value; lra).
  assert (B30 : Rabs (value a) <= 2 ^ 30) by (eapply Rle_trans; [exact Ba|]; apply Rle_trans with (2 ^ 10); [lra|apply two_le; lia]).
  destruct (np_cos_good L G a Fa B30) as (Fc & Ec). destruct (np_sin_good L G a Fa B30) as (Fs & Es). rewrite U4 in Ec, Es.
  assert (C1 : Rabs (cos (value a)) <= 1) by apply Rabs_le, COS_bound. assert (S1 : Rabs (sin (value a)) <= 1) by apply Rabs_le, SIN_bound.
  destruct (part_ok _ _ _ n Fc Ec C1 Fx Cx N) as (F1 & E1 & B1). destruct (part_ok _ _ _ n Fs Es S1 Fy Cy N) as (F2 & E2 & B2).
  destruct (part_ok _ _ _ n Fs Es S1 Fx Cx N) as (F3 & E3 & B3). destruct (part_ok _ _ _ n Fc Ec C1 Fy Cy N) as (F4 & E4 & B4).
  set (p1 := fmul (a_cos L a) (fx v)) in *. set (p2 := fmul (a_sin L a) (fy v)) in *. set (p3 := fmul (a_sin L a) (fx v)) in *. set (p4 := fmul (a_cos L a) (fy v)) in *.
  set (q1 := cos (value a) * value (fx v)) in *. set (q2 := sin (value a) * value (fy v)) in *. set (q3 := sin (value a) * value (fx v)) in *. set (q4 := cos (value a) * value (fy v)) in *.
  assert (Big : 4 * n + 2 * ee <= bpow radix2 1000).
  { assert (ee <= 1). { unfold ee. change 1 with (bpow radix2 0). apply bpow_le. lia. }
    assert (2 ^ 99 >= 1) by (apply Rle_ge; change 1 with (2 ^ 0); apply two_le; lia).
    apply Rle_trans with (2 ^ 102). { replace (2 ^ 102) with (8 * 2 ^ 99) by (cbn [pow]; ring). lra. } rewrite pow_bpow. apply bpow_le. lia. }
  assert (S12 : Rabs (value p1 - value p2) <= 4 * n + 2 * ee) by (unfold Rminus; eapply Rle_trans; [apply Rabs_triang|rewrite Rabs_Ropp; lra]).
  assert (S34 : Rabs (value p3 + value p4) <= 4 * n + 2 * ee) by (eapply Rle_trans; [apply Rabs_triang|lra]).
  destruct (fsub_ok p1 p2 F1 F2 ltac:(lra)) as (G1 & V1). destruct (fadd_ok p3 p4 F3 F4 ltac:(lra)) as (G2 & V2).
  split; [split; [|split]; assumption|].
  pose proof (rnd_add_err (value p1) (- value p2) (value_fmt p1) (generic_format_opp _ _ _ (value_fmt p2))) as R1.
  change (value p1 + - value p2) with (value p1 - value p2) in R1.
  pose proof (rnd_add_err _ _ (value_fmt p3) (value_fmt p4)) as R2.
  assert (Q1 : uu * Rabs (value p1 - value p2) <= uu * (4 * n + 2 * ee)) by (apply Rmult_le_compat_l; lra).
  assert (Q2 : uu * Rabs (value p3 + value p4) <= uu * (4 * n + 2 * ee)) by (apply Rmult_le_compat_l; lra).
  assert (Ue : uu * ee <= ee) by nra.
  assert (D1 : Rabs (value (fsub p1 p2) - (q1 - q2)) <= 16 * uu * n + 5 * ee).
  { rewrite V1. apply Rabs_le_inv in R1, E1, E2. apply Rabs_le. lra. }
  assert (D2 : Rabs (value (fadd p3 p4) - (q3 + q4)) <= 16 * uu * n + 5 * ee).
  { rewrite V2. apply Rabs_le_inv in R2, E3, E4. apply Rabs_le. lra. }
  assert (T5 : 10 * ee <= tt).
  { assert (10 * ee <= bpow radix2 4 * ee) by (apply Rmult_le_compat_r; [lra|cbn; lra]). eapply Rle_trans; [eassumption|]. unfold ee, tt. rewrite <- bpow_plus, pow_bpow, <- bpow_opp. apply bpow_le. lia. }
  assert (Un : 0 <= uu * n) by (apply Rmult_le_pos; lra).
  apply Rle_trans with (2 * (16 * uu * n + 5 * ee)); [|lra].
  apply norm_within; [lra|]. split; [exact D1|split; [exact D2|]]. cbn [vector turn fturn sub vx vy vz fx fy fz]. rewrite Rminus_eq_0, Rabs_R0. lra.
Qed.
End Numpy.
