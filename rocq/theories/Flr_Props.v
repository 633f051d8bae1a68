(** Theorems on the conversions between GCRS and ITRS in floating point: C146-C148. *)
From Coq Require Import List ZArith QArith Qreals Reals Lra Lia Psatz Bool.
From Flocq Require Import Core.Core IEEE754.BinarySingleNaN IEEE754.Binary IEEE754.Bits.
From Verif Require Import Py Fl_Model Fl_Spec Fl_Proofs Flg_Model Flg_Spec Time_Model Time_Spec Rot_Model Rot_Spec Rot_Proofs Flg_Proofs Flg_Proofs2 Flg_Proofs3
  Flc_Model Flc_Spec Flc_Props Flr_Model Flr_Spec Flx_Expr Flr_Proofs Flr_Proofs7 Flr_Best.
Import ListNotations.
Open Scope R_scope.

Lemma big80 : 2 ^ 80 <= 2 ^ 90. Proof. apply two_le. lia. Qed.
Lemma tiny800 k : 0 <= k <= 1000 -> k * tt <= / 2 ^ 800.
Proof.
  intros K. unfold tt. replace (2 ^ 900) with (2 ^ 800 * 2 ^ 100) by (rewrite <- pow_add; reflexivity). rewrite Rinv_mult.
  assert (0 < / 2 ^ 800) by (apply Rinv_0_lt_compat, pow_lt; lra). set (x := / 2 ^ 800) in *. clearbody x.
  assert (I : / 2 ^ 100 <= / 1024) by (apply Rinv_le_contravar; [lra|]; apply Rle_trans with (2 ^ 10); [lra|apply two_le; lia]).
  assert (0 < / 2 ^ 100) by (apply Rinv_0_lt_compat, pow_lt; lra). set (y := / 2 ^ 100) in *. clearbody y. 
  assert (k * y <= 1000 * (/ 1024)) by (apply Rmult_le_compat; lra). replace (k * (x * y)) with (x * (k * y)) by ring. nra.
Qed.

(** ** C146: close to the exact conversion *)
Theorem C146_float_frames_close :
  forall (A : arrays), accurate_arrays A ->
  forall (U : Type) (u : U) jd v, dated jd -> finite_vec v -> norm (vector v) <= 2 ^ 80 ->
    let d := 6 / 10 ^ 9 * norm (vector v) + / 2 ^ 800 in
    (exists itrs, gcrs_to_itrs (one_row jd v u) = Ok itrs /\
       finite_vec (fgcrs_to_itrs A jd v) /\ norm (sub (vector (fgcrs_to_itrs A jd v)) (point itrs 0)) <= d) /\
    (exists gcrs w, itrs_to_gcrs (one_row jd v u) = Ok gcrs /\ fitrs_to_gcrs A jd v = Ok w /\
       finite_vec w /\ norm (sub (vector w) (point gcrs 0)) <= d).
Proof.
  intros A G U u jd v D F N d. destruct (close A G jd D) as (M1 & h & E & M2). pose proof big80 as B. pose proof uu_pos as P.
  assert (S : of_size 1 (one_row jd v u)) by (repeat split).
  assert (K : 6 / 1000000000 / uu * uu = 6 / 10 ^ 9) by (field; lra). pose proof (tiny800 15 ltac:(lra)) as T.
  destruct (M1 v F ltac:(lra)) as (F1 & E1). destruct (M2 v F ltac:(lra)) as (F2 & E2). rewrite K in E1, E2. split.
  - rewrite (gcrs_to_itrs_ok 1 _ S). eexists. split; [reflexivity|]. split; [exact F1|].
    change (point _ 0) with (to_itrs (value jd) (vector v)). unfold d. lra.
  - rewrite (itrs_to_gcrs_ok 1 _ S). eexists. exists (h v). split; [reflexivity|]. split; [apply E|]. split; [exact F2|].
    change (point _ 0) with (to_gcrs (value jd) (vector v)). unfold d. lra.
Qed.

(** ** C147: distances *)
Lemma dist_keep (g : vec -> vec) k t a b v w : rigid g -> norm (sub a (g v)) <= k * norm v + t -> norm (sub b (g w)) <= k * norm w + t ->
  Rabs (norm a - norm v) <= k * norm v + t /\ Rabs (norm (sub a b) - norm (sub v w)) <= k * (norm v + norm w) + 2 * t.
Proof.
  intros R A B. split.
  - rewrite <- (proj1 (rigid_norm g v v R)). eapply Rle_trans; [apply norm_near|]. rewrite (proj1 (rigid_norm g v v R)). exact A.
  - rewrite <- (proj2 (rigid_norm g v w R)). eapply Rle_trans; [apply norm_near|].
    replace (sub (sub a b) (sub (g v) (g w))) with (sub (sub a (g v)) (sub b (g w))) by (unfold sub; cbn [vx vy vz]; f_equal; ring).
    pose proof (norm_tri (sub a (g v)) (V 0 0 0) (sub b (g w))) as T.
    rewrite (norm_sub_sym (V 0 0 0)) in T. 
    assert (Z : forall x, sub x (V 0 0 0) = x) by (intros [x y z]; unfold sub; cbn [vx vy vz]; f_equal; ring). rewrite !Z in T. lra.
Qed.
Theorem C147_float_frames_keep_distances :
  forall (A : arrays), accurate_arrays A ->
  forall jd v w, dated jd -> finite_vec v -> finite_vec w -> norm (vector v) <= 2 ^ 80 -> norm (vector w) <= 2 ^ 80 ->
    (let v' := vector (fgcrs_to_itrs A jd v) in let w' := vector (fgcrs_to_itrs A jd w) in
     Rabs (norm v' - norm (vector v)) <= 1 / 10 ^ 13 * norm (vector v) + / 2 ^ 800 /\
     Rabs (norm (sub v' w') - norm (sub (vector v) (vector w))) <= 1 / 10 ^ 13 * (norm (vector v) + norm (vector w)) + / 2 ^ 800) /\
    (exists v' w', fitrs_to_gcrs A jd v = Ok v' /\ fitrs_to_gcrs A jd w = Ok w' /\
     Rabs (norm (vector v') - norm (vector v)) <= 4 / 10 ^ 12 * norm (vector v) + / 2 ^ 800 /\
     Rabs (norm (sub (vector v') (vector w')) - norm (sub (vector v) (vector w))) <= 4 / 10 ^ 12 * (norm (vector v) + norm (vector w)) + / 2 ^ 800).
Proof.
  intros A G jd v w D Fv Fw Nv Nw. destruct (self A G jd D) as (g & g' & R & R' & _ & _ & M1 & h & E & M2). pose proof big80 as B. pose proof uu_pos as P.
  pose proof (tiny800 30 ltac:(lra)) as T. pose proof tt_pos as T0. pose proof (norm_pos (vector v)) as Pv. pose proof (norm_pos (vector w)) as Pw.
  destruct (M1 v Fv ltac:(lra)) as (_ & E1). destruct (M2 v Fv ltac:(lra)) as (_ & E2). destruct (M1 w Fw ltac:(lra)) as (_ & E3). destruct (M2 w Fw ltac:(lra)) as (_ & E4).
  destruct (dist_keep g _ _ _ _ _ _ R E1 E3) as (Q1 & Q2). destruct (dist_keep g' _ _ _ _ _ _ R' E2 E4) as (Q3 & Q4).
  set (nv := norm (vector v)) in *. set (nw := norm (vector w)) in *. clearbody nv nw.
  assert (K : 670 * uu <= 1 / 10 ^ 13) by (rewrite uu_value; lra). assert (K' : 30526 * uu <= 4 / 10 ^ 12) by (rewrite uu_value; lra).
  assert (670 * uu * nv <= 1 / 10 ^ 13 * nv) by (apply Rmult_le_compat_r; lra). assert (30526 * uu * nv <= 4 / 10 ^ 12 * nv) by (apply Rmult_le_compat_r; lra).
  assert (670 * uu * (nv + nw) <= 1 / 10 ^ 13 * (nv + nw)) by (apply Rmult_le_compat_r; lra). assert (30526 * uu * (nv + nw) <= 4 / 10 ^ 12 * (nv + nw)) by (apply Rmult_le_compat_r; lra).
  split; [cbv zeta; split; lra|]. exists (h v), (h w). rewrite !E. split; auto. split; auto. split; lra.
Qed.

(** ** C148: there and back *)
Theorem C148_float_frames_back :
  forall (A : arrays), accurate_arrays A ->
  forall jd v, dated jd -> finite_vec v -> norm (vector v) <= 2 ^ 80 ->
    let d := 4 / 10 ^ 12 * norm (vector v) + / 2 ^ 800 in
    (exists w, fitrs_to_gcrs A jd (fgcrs_to_itrs A jd v) = Ok w /\ finite_vec w /\ norm (sub (vector w) (vector v)) <= d) /\
    (exists w, fitrs_to_gcrs A jd v = Ok w /\ finite_vec (fgcrs_to_itrs A jd w) /\ norm (sub (vector (fgcrs_to_itrs A jd w)) (vector v)) <= d).
Proof.
  intros A G jd v D F N d. destruct (self A G jd D) as (g & g' & R & R' & B1 & B2 & M1 & h & E & M2). pose proof uu_pos as P.
  pose proof (tiny800 45 ltac:(lra)) as T. pose proof tt_pos as T0. pose proof (norm_pos (vector v)) as Pv. pose proof tt_le as T1.
  assert (B : 2 * 2 ^ 80 + 1 <= 2 ^ 90).
  { replace (2 ^ 90) with (2 ^ 80 * 2 ^ 10) by (rewrite <- pow_add; reflexivity). assert (1 <= 2 ^ 80) by (apply pow_R1_Rle; lra). set (x := 2 ^ 80) in *. clearbody x. lra. }
  assert (M1' : moved (2 ^ 80) 670 (15 * tt) (fgcrs_to_itrs A jd) g) by (apply (moved_le _ _ _ _ _ _ _ _ M1); [apply big80|lra|lra]).
  assert (M2' : moved (2 ^ 80) 30526 (15 * tt) h g') by (apply (moved_le _ _ _ _ _ _ _ _ M2); [apply big80|lra|lra]).
  destruct (moved_comp _ _ _ _ _ _ _ _ _ _ R R' M1' M2 ltac:(lra) ltac:(lra) ltac:(lra) B v F N) as (F1 & E1).
  destruct (moved_comp _ _ _ _ _ _ _ _ _ _ R' R M2' M1 ltac:(lra) ltac:(lra) ltac:(lra) B v F N) as (F2 & E2).
  rewrite B1 in E1. rewrite B2 in E2. unfold d. set (nv := norm (vector v)) in *. clearbody nv.
  assert (K : 31197 * uu <= 4 / 10 ^ 12) by (rewrite uu_value; lra). assert (31197 * uu * nv <= 4 / 10 ^ 12 * nv) by (apply Rmult_le_compat_r; lra).
  assert (E1' : (670 + 30526 + 1) * uu * nv = 31197 * uu * nv) by ring. assert (E2' : (30526 + 670 + 1) * uu * nv = 31197 * uu * nv) by ring.
  split.
  - exists (h (fgcrs_to_itrs A jd v)). split; [apply E|]. split; [exact F1|]. lra.
  - exists (h v). split; [apply E|]. split; [exact F2|]. lra.
Qed.

(** A numpy, a date and points to which the theorems apply. *)
Definition a_point : fvec := FV (of_Z 7000) (of_Z 0) (of_Z (-250)).
Example C146_case : accurate_arrays best_arrays /\ dated (literal 4918001 2) /\ finite_vec a_point /\ 7000 <= norm (vector a_point) <= 2 ^ 80.
Proof.
  split; [exact best_arrays_accurate|]. split; [apply dated_literal; lia|].
  destruct (of_Z_ok 7000 ltac:(lia)) as (F1 & V1). destruct (of_Z_ok 0 ltac:(lia)) as (F2 & V2). destruct (of_Z_ok (-250) ltac:(lia)) as (F3 & V3).
  split; [split; [exact F1|split; [exact F2|exact F3]]|]. unfold norm, dot, a_point. cbn [vector vx vy vz fx fy fz]. rewrite V1, V2, V3. split.
  - apply Rle_trans with (sqrt (7000 * 7000)); [rewrite sqrt_square; lra|]. apply sqrt_le_1_alt. lra.
  - apply Rle_trans with (sqrt (8000 * 8000)); [apply sqrt_le_1_alt; lra|]. rewrite sqrt_square by lra. apply Rle_trans with (2 ^ 13); [lra|apply two_le; lia].
Qed.

Print Assumptions C146_float_frames_close.
Print Assumptions C147_float_frames_keep_distances.
Print Assumptions C148_float_frames_back.
