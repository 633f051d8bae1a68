(** The conversions in floating point: the steps put together. *)
From Coq Require Import List ZArith QArith Qreals Reals Lra Lia Psatz Bool.
From Flocq Require Import Core.Core IEEE754.BinarySingleNaN IEEE754.Binary IEEE754.Bits.
From Verif Require Import Py Fl_Model Fl_Spec Fl_Proofs Fla_Proofs4 Flg_Model Flg_Spec Time_Model Time_Spec Time_Proofs Rot_Model Rot_Spec Rot_Proofs Flg_Proofs Flg_Num Flg_Proofs2 Flg_Proofs3
  Flc_Model Flc_Spec Flc_Proofs Flc_Proofs2 Flc_Proofs3 Flc_Proofs4 Flc_Proofs5 Flg_Proofs5 Flr_Model Flr_Spec Flx_Expr Flr_Proofs Flr_Proofs2 Flr_Proofs3 Flr_Proofs4 Flr_Proofs5 Flr_Proofs6.
Open Scope R_scope.
#[local] Strategy 1000 [fmul fadd fsub fdiv fneg literal of_Z fpymod].

Lemma to_self x a : appr x a 1000 3 -> appr x (value x) 0 4.
Proof.
  intros (F & E & B). split; auto. split.
  - unfold Rminus. rewrite Rplus_opp_r, Rabs_R0. lra.
  - apply err_abs in E. pose proof uu14. lra.
Qed.
Lemma to_four x a : appr x a 1000 3 -> appr x a 1000 4.
Proof. intros H. eapply appr_le; [exact H|lra|lra]. Qed.

Section Numpy.
Variable L : arrays.
Hypothesis G : accurate_arrays L.
Definition moves (D k t : R) (f : fvec -> res fvec) (g : vec -> vec) : Prop :=
  exists h, (forall v, f v = Ok (h v)) /\ moved D k t h g.

(** For angles that are taken as they are, and for the exact angles *)
Lemma steps jd : dated jd -> let m := value jd in
  (exists B P N, rigid (mat_vec B) /\ rigid (mat_vec P) /\ rigid (mat_vec N) /\
    finite_mat (fbias_matrix L) /\ mat_near (40 * uu) (matrix (fbias_matrix L)) B /\
    finite_mat (fprecession_matrix L jd) /\ mat_near (40 * uu) (matrix (fprecession_matrix L jd)) P /\
    finite_mat (fnutation_matrix L jd) /\ mat_near (40 * uu) (matrix (fnutation_matrix L jd)) N) /\
  (finite_mat (fbias_matrix L) /\ mat_near (6000 * uu) (matrix (fbias_matrix L)) bias_matrix /\
    finite_mat (fprecession_matrix L jd) /\ mat_near (6000 * uu) (matrix (fprecession_matrix L jd)) (precession_matrix m) /\
    finite_mat (fnutation_matrix L jd) /\ mat_near (6000 * uu) (matrix (fnutation_matrix L jd)) (nutation_matrix m)).
Proof.
  intros D m. destruct (bias_angles L G) as (B1 & B2 & B3). destruct (nut_angles L G jd D) as (N1 & N2 & N3).
  pose proof (zeta_ok L G jd D) as P1. pose proof (theta_ok L G jd D) as P2. pose proof (z_ok L G jd D) as P3.
  assert (E40 : Q2R 40 = 40) by (unfold Q2R; cbn; lra). assert (E6 : Q2R 6000 = 6000) by (unfold Q2R; cbn; lra).
  split.
  - destruct (bias_self L G _ _ _ _ _ _ (to_self _ _ B1) (to_self _ _ B2) (to_self _ _ B3)) as (F1 & M1).
    destruct (precession_self L G _ _ _ _ _ _ (to_self _ _ P1) (to_self _ _ P2) (to_self _ _ P3)) as (F2 & M2).
    destruct (nutation_self L G _ _ _ _ _ _ (to_self _ _ N1) (to_self _ _ N2) (to_self _ _ N3)) as (F3 & M3).
    rewrite E40 in M1, M2, M3. eexists. eexists. eexists.
    split; [|split; [|split; [|split; [exact F1|split; [exact M1|split; [exact F2|split; [exact M2|split; [exact F3|exact M3]]]]]]]].
    + apply bmat_rigid. + apply pmat_rigid. + apply nmat_rigid.
  - destruct (bias_close L G _ _ _ _ _ _ (to_four _ _ B1) (to_four _ _ B2) (to_four _ _ B3)) as (F1 & M1).
    destruct (precession_close L G _ _ _ _ _ _ (to_four _ _ P1) (to_four _ _ P2) (to_four _ _ P3)) as (F2 & M2).
    destruct (nutation_close L G _ _ _ _ _ _ (to_four _ _ N1) (to_four _ _ N2) (to_four _ _ N3)) as (F3 & M3).
    rewrite E6 in M1, M2, M3. split; [exact F1|split; [exact M1|split; [exact F2|split; [exact M2|split; [exact F3|exact M3]]]]].
Qed.
Lemma tt_le : tt <= / 1000000.
Proof. unfold tt. apply Rinv_le_contravar; [lra|]. apply Rle_trans with (2 ^ 20); [lra|apply two_le; lia]. Qed.
Lemma big99 : 2 * 2 ^ 90 + 1 <= 2 ^ 99.
Proof. replace (2 ^ 99) with (2 ^ 90 * 2 ^ 9) by (rewrite <- pow_add; reflexivity). pose proof (pow_lt 2 90 ltac:(lra)). assert (1 <= 2 ^ 90) by (apply pow_R1_Rle; lra). set (x := 2 ^ 90) in *. clearbody x. lra. Qed.

(** Four steps one after the other *)
Lemma four k1 k2 k3 k4 f1 f2 f3 f4 g1 g2 g3 g4 : rigid g1 -> rigid g2 -> rigid g3 -> rigid g4 ->
  moved (2 ^ 99) k1 tt f1 g1 -> moved (2 ^ 99) k2 tt f2 g2 -> moved (2 ^ 99) k3 tt f3 g3 -> moved (2 ^ 99) k4 tt f4 g4 ->
  0 <= k1 <= 300000 -> 0 <= k2 <= 300000 -> 0 <= k3 <= 300000 -> 0 <= k4 <= 300000 ->
  moved (2 ^ 90) (k1 + k2 + k3 + k4 + 3) (15 * tt) (fun v => f4 (f3 (f2 (f1 v)))) (fun v => g4 (g3 (g2 (g1 v)))).
Proof.
  intros R1 R2 R3 R4 M1 M2 M3 M4 K1 K2 K3 K4. pose proof big99 as B. pose proof tt_pos as T. pose proof tt_le as T'. 
  assert (M0 : moved (2 ^ 90) k1 tt f1 g1) by (apply (moved_le _ _ _ _ _ (2 ^ 90) k1 tt M1); [apply two_le; lia|lra|lra]).
  set (x90 := 2 ^ 90) in *. set (x99 := 2 ^ 99) in *. clearbody x90 x99.
  pose proof (moved_comp _ _ _ _ _ _ _ _ _ _ R1 R2 M0 M2 ltac:(lra) ltac:(lra) ltac:(lra) B) as C2.
  pose proof (rigid_comp _ _ R2 R1) as R12.
  pose proof (moved_comp _ _ _ _ _ _ _ _ _ _ R12 R3 C2 M3 ltac:(lra) ltac:(lra) ltac:(lra) B) as C3.
  pose proof (rigid_comp _ _ R3 R12) as R123.
  pose proof (moved_comp _ _ _ _ _ _ _ _ _ _ R123 R4 C3 M4 ltac:(lra) ltac:(lra) ltac:(lra) B) as C4.
  apply (moved_le _ _ _ _ _ _ _ _ C4); lra.
Qed.

Lemma self jd : dated jd -> exists g g', rigid g /\ rigid g' /\ (forall v, g' (g v) = v) /\ (forall v, g (g' v) = v) /\
  moved (2 ^ 90) 670 (15 * tt) (fgcrs_to_itrs L jd) g /\ moves (2 ^ 90) 30526 (15 * tt) (fitrs_to_gcrs L jd) g'.
Proof.
  intros D. destruct (steps jd D) as ((B & P & N & RB & RP & RN & FB & MB & FP & MP & FN & MN) & _).
  destruct (era_angle L G jd D) as (Fa & Fn & Ba & Vn & _). set (a := fto (fearth_rotation_angle jd) Udeg Urad) in *. set (n := fto (fneg (fearth_rotation_angle jd)) Udeg Urad) in *.
  pose proof (turn_step L G a Fa ltac:(lra)) as Ta. pose proof (turn_step L G n Fn ltac:(rewrite Vn, Rabs_Ropp; lra)) as Tn. rewrite Vn in Tn.
  destruct (inv_step L G _ _ 40 FB MB RB ltac:(lra)) as (ib & EB & IB). destruct (inv_step L G _ _ 40 FP MP RP ltac:(lra)) as (ip & EP & IP).
  destruct (inv_step L G _ _ 40 FN MN RN ltac:(lra)) as (jn & EN & IN).
  pose proof (near_step L G _ _ 40 FB MB RB ltac:(lra)) as SB. pose proof (near_step L G _ _ 40 FP MP RP ltac:(lra)) as SP. pose proof (near_step L G _ _ 40 FN MN RN ltac:(lra)) as SN.
  exists (fun v => turn (- value a) (mat_vec N (mat_vec P (mat_vec B v)))), (fun v => mat_vec (inv_of B) (mat_vec (inv_of P) (mat_vec (inv_of N) (turn (value a) v)))).
  pose proof (inv_rigid _ RB) as RB'. pose proof (inv_rigid _ RP) as RP'. pose proof (inv_rigid _ RN) as RN'.
  destruct (inv_of_ok _ RB) as (_ & B1 & B2). destruct (inv_of_ok _ RP) as (_ & P1 & P2). destruct (inv_of_ok _ RN) as (_ & N1 & N2).
  split; [exact (rigid_comp _ _ (turn_rigid _) (rigid_comp _ _ RN (rigid_comp _ _ RP RB)))|].
  split; [exact (rigid_comp _ _ RB' (rigid_comp _ _ RP' (rigid_comp _ _ RN' (turn_rigid _))))|].
  split; [intros v; rewrite (proj2 (turn_back (value a) _)), N1, P1, B1; reflexivity|].
  split; [intros v; rewrite B2, P2, N2; apply turn_back|].
  split.
  - apply (moved_le _ _ _ _ _ (2 ^ 90) 670 (15 * tt) (four _ _ _ _ _ _ _ _ _ _ _ _ RB RP RN (turn_rigid _) SB SP SN Tn ltac:(lra) ltac:(lra) ltac:(lra) ltac:(lra))); lra.
  - exists (fun v => fmat_vec L ib (fmat_vec L ip (fmat_vec L jn (fturn L a v)))). split.
    + intros v. unfold fitrs_to_gcrs. cbv zeta. rewrite EN. cbn [bind]. rewrite EP. cbn [bind]. rewrite EB. cbn [bind]. reflexivity.
    + apply (moved_le _ _ _ _ _ (2 ^ 90) 30526 (15 * tt) (four _ _ _ _ _ _ _ _ _ _ _ _ (turn_rigid _) RN' RP' RB' Ta IN IP IB ltac:(lra) ltac:(lra) ltac:(lra) ltac:(lra))); lra.
Qed.

Lemma close jd : dated jd ->
  moved (2 ^ 90) (6 / 1000000000 / uu) (15 * tt) (fgcrs_to_itrs L jd) (to_itrs (value jd)) /\ 
  moves (2 ^ 90) (6 / 1000000000 / uu) (15 * tt) (fitrs_to_gcrs L jd) (to_gcrs (value jd)).
Proof.
  intros D. destruct (steps jd D) as (_ & FB & MB & FP & MP & FN & MN).
  destruct (era_angle L G jd D) as (Fa & Fn & Ba & Vn & j & J & Ej). set (a := fto (fearth_rotation_angle jd) Udeg Urad) in *. set (n := fto (fneg (fearth_rotation_angle jd)) Udeg Urad) in *.
  pose proof (turn_step L G a Fa ltac:(lra)) as Ta. pose proof (turn_step L G n Fn ltac:(rewrite Vn, Rabs_Ropp; lra)) as Tn. rewrite Vn in Tn.
  pose proof bias_rigid as RB. pose proof (precession_rigid (value jd)) as RP. pose proof (nutation_rigid (value jd)) as RN.
  destruct (inv_step L G _ _ 6000 FB MB RB ltac:(lra)) as (ib & EB & IB). destruct (inv_step L G _ _ 6000 FP MP RP ltac:(lra)) as (ip & EP & IP).
  destruct (inv_step L G _ _ 6000 FN MN RN ltac:(lra)) as (jn & EN & IN).
  pose proof (near_step L G _ _ 6000 FB MB RB ltac:(lra)) as SB. pose proof (near_step L G _ _ 6000 FP MP RP ltac:(lra)) as SP. pose proof (near_step L G _ _ 6000 FN MN RN ltac:(lra)) as SN.
  pose proof (inv_rigid _ RB) as RB'. pose proof (inv_rigid _ RP) as RP'. pose proof (inv_rigid _ RN) as RN'.
  pose proof uu_pos as U. pose proof uu14 as U'. set (E := earth_rotation_angle (value jd)) in *.
  assert (Kd : 6 / 1000000000 / uu * uu = 6 / 1000000000) by (field; lra).
  assert (Ta' : forall w, norm (sub (turn (value a) w) (rotate_row E w)) <= 5.24 / 1000000000 * norm w).
  { intros w. change (rotate_row E w) with (turn (deg_to_rad E) w). rewrite <- (turn_whole (deg_to_rad E) j w) by lia. eapply Rle_trans; [apply turn_near|]. apply Rmult_le_compat_r; [apply norm_pos|exact Ej]. }
  assert (Tn' : forall w, norm (sub (turn (- value a) w) (rotate_row (- E) w)) <= 5.24 / 1000000000 * norm w).
  { intros w. change (rotate_row (- E) w) with (turn (deg_to_rad (- E)) w). rewrite <- (turn_whole (deg_to_rad (- E)) (- j) w) by lia. eapply Rle_trans; [apply turn_near|]. apply Rmult_le_compat_r; [apply norm_pos|].
    replace (- value a - (deg_to_rad (- E) + IZR (- j) * (2 * PI))) with (- (value a - (deg_to_rad E + IZR j * (2 * PI)))) by (rewrite opp_IZR; unfold deg_to_rad; ring). now rewrite Rabs_Ropp. }
  split.
  - pose proof (four _ _ _ _ _ _ _ _ _ _ _ _ RB RP RN (turn_rigid _) SB SP SN Tn ltac:(lra) ltac:(lra) ltac:(lra) ltac:(lra)) as M.
    intros v Fv Nv. destruct (M v Fv Nv) as (F & Er). split; [exact F|].
    set (w := mat_vec (nutation_matrix (value jd)) (mat_vec (precession_matrix (value jd)) (mat_vec bias_matrix (vector v)))) in *.
    assert (Nw : norm w = norm (vector v)) by exact (proj1 (rigid_norm _ (vector v) (vector v) (rigid_comp _ _ RN (rigid_comp _ _ RP RB)))).
    change (to_itrs (value jd) (vector v)) with (rotate_row (- E) w).
    change (fmat_vec L (fnutation_matrix L jd) _) with (fmat_vec L (fnutation_matrix L jd) (fmat_vec L (fprecession_matrix L jd) (fmat_vec L (fbias_matrix L) v))) in Er.
    eapply Rle_trans; [apply (norm_tri _ (turn (- value a) w))|]. pose proof (Tn' w) as T. rewrite Nw in T.
    change (fturn L n _) with (fgcrs_to_itrs L jd v) in Er. set (o := vector (fgcrs_to_itrs L jd v)) in *. rewrite Kd. 
    pose proof (norm_pos (vector v)) as P0. set (nv := norm (vector v)) in *. clearbody nv o w. 
    assert ((49 + 4 * 6000 + (49 + 4 * 6000) + (49 + 4 * 6000) + 40 + 3) * uu * nv <= 1 / 10000000000 * nv) by (apply Rmult_le_compat_r; lra). decimals. unfold Q2R in T. cbn [Qnum Qden] in T. lra.
  - exists (fun v => fmat_vec L ib (fmat_vec L ip (fmat_vec L jn (fturn L a v)))). split.
    { intros v. unfold fitrs_to_gcrs. cbv zeta. rewrite EN. cbn [bind]. rewrite EP. cbn [bind]. rewrite EB. cbn [bind]. reflexivity. }
    pose proof (four _ _ _ _ _ _ _ _ _ _ _ _ (turn_rigid _) RN' RP' RB' Ta IN IP IB ltac:(lra) ltac:(lra) ltac:(lra) ltac:(lra)) as M.
    intros v Fv Nv. destruct (M v Fv Nv) as (F & Er). split; [exact F|].
    set (o := vector (fmat_vec L ib _)) in *. clearbody o.
    pose proof (rigid_comp _ _ RB' (rigid_comp _ _ RP' RN')) as R3. set (h := fun w => mat_vec (inv_of bias_matrix) (mat_vec (inv_of (precession_matrix (value jd))) (mat_vec (inv_of (nutation_matrix (value jd))) w))) in *.
    change (to_gcrs (value jd) (vector v)) with (h (rotate_row E (vector v))). change (norm (sub o (h (turn (value a) (vector v)))) <= (40 + (49 + (8192 + 48 * 6000)) + (49 + (8192 + 48 * 6000)) + (49 + (8192 + 48 * 6000)) + 3) * uu * norm (vector v) + 15 * tt) in Er.
    eapply Rle_trans; [apply (norm_tri _ (h (turn (value a) (vector v))))|]. rewrite (proj2 (rigid_norm h _ _ R3)). pose proof (Ta' (vector v)) as T. rewrite Kd.
    pose proof (norm_pos (vector v)) as P0. set (nv := norm (vector v)) in *. 
    assert ((40 + (49 + (8192 + 48 * 6000)) + (49 + (8192 + 48 * 6000)) + (49 + (8192 + 48 * 6000)) + 3) * uu * nv <= 1 / 10000000000 * nv).
    { apply Rmult_le_compat_r; [lra|]. rewrite uu_value. lra. }
    unfold Q2R in T. cbn [Qnum Qden] in T. lra.
Qed.
End Numpy.
