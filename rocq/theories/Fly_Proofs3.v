(** One step of the altitude loop in floating point. *)
From Coq Require Import ZArith Reals Lra Lia Psatz.
From Flocq Require Import Core.Core IEEE754.BinarySingleNaN IEEE754.Binary IEEE754.Bits.
From Verif Require Import Py Fl_Model Fl_Spec Fl_Proofs Flg_Model Flg_Spec Flg_Proofs2 Flg_Proofs3 Rot_Model Rot_Spec Geo_Model Geo_Spec Geo_Alt Geo_Alt2 Geo_Acc
  Flr_Model Flr_Spec Flv_Model Fly_Model Fly_Spec Fly_Proofs Fly_Proofs2.
Open Scope R_scope.
#[local] Strategy 1000 [fmul fadd fsub fdiv fneg of_Z].

Lemma ee_lt : 0 < ee <= uu / 1000.
Proof.
  split; [apply ee_pos|]. apply Rle_trans with (bpow radix2 (-63)); [apply bpow_le; lia|]. unfold uu. change (-53 + 1)%Z with (11 + -63)%Z. rewrite bpow_plus. change (bpow radix2 11) with 2048. pose proof (bpow_gt_0 radix2 (-63)). lra.
Qed.
Section Step.
Variable L : arrays.
Variable J : geodesy.
Hypothesis HL : accurate_arrays L.
Hypothesis HJ : accurate_geodesy J.
Variables p z : R.
Hypothesis HF : far p z.
Hypothesis HR : rr p z <= 100000.
Hypothesis HZ : Rabs z <= 1000 * p.
Variables P Z : float.
Hypothesis RP : rc (20 * uu) P p.
Hypothesis RZ : finite Z /\ Rabs (value Z - z) <= 7 * uu * Rabs z + ee.

Lemma p_range : 6 <= p <= 100000.
Proof.
  destruct HF as (P0 & R). split; [|pose proof (p_rr p z ltac:(lra)); lra].
  assert (Q : rr p z * rr p z = p * p + z * z) by (apply sqrt_sqrt; pose proof (sq0 p); pose proof (sq0 z); lra). pose proof B_val as BV.
  assert (ZZ : z * z <= 1000 * p * (1000 * p)). { rewrite <- (Rabs_pos_eq (z * z)), Rabs_mult by apply sq0. apply Rmult_le_compat; auto using Rabs_pos. }
  assert (6356 * 6356 <= rr p z * rr p z) by (apply Rmult_le_compat; lra). destruct (Rle_lt_dec 6 p); auto. assert (p * p <= 36) by nra. lra.
Qed.
Lemma tau_range : Rabs (z / p) <= 1000.
Proof. pose proof p_range. unfold Rdiv. rewrite Rabs_mult, Rabs_inv, (Rabs_pos_eq p) by lra. apply Rmult_le_reg_r with p; [lra|]. rewrite Rmult_assoc, Rinv_l by lra. lra. Qed.
Lemma zp_close : finite (fdiv Z P) /\ Rabs (value (fdiv Z P) - z / p) <= 29 * uu * Rabs (z / p) + 2 * ee.
Proof.
  pose proof p_range as PR. pose proof tau_range as TR. pose proof uu16 as U. pose proof ee_lt as EL. destruct RZ as (FZ & EZ). pose proof (rc_value _ _ _ RP ltac:(lra)) as VP.
  assert (PP : 0 < 999 / 1000 * p <= value P) by nra. set (t := z / p) in *. assert (ZT : z = t * p) by (unfold t; field; lra).
  assert (D : Rabs (value Z / value P - t) <= 276 / 10 * uu * Rabs t + 1 / 5 * ee).
  { replace (value Z / value P - t) with ((value Z - z - t * (value P - p)) / value P) by (rewrite ZT; field; lra). unfold Rdiv. rewrite Rabs_mult, Rabs_inv, (Rabs_pos_eq (value P)) by lra.
    apply Rmult_le_reg_r with (value P); [lra|]. rewrite Rmult_assoc, Rinv_l, Rmult_1_r by lra. unfold Rminus at 1. eapply Rle_trans; [apply Rabs_triang|]. rewrite Rabs_Ropp, Rabs_mult.
    destruct RP as (_ & EP). rewrite (Rabs_pos_eq p) in EP by lra. pose proof (Rabs_pos t) as T0. set (a := Rabs t) in *.
    assert (AZ : Rabs z = a * p) by (rewrite ZT, Rabs_mult, (Rabs_pos_eq p) by lra; reflexivity). rewrite AZ in EZ.
    assert (K1 : a * Rabs (value P - p) <= a * (20 * uu * p)) by (apply Rmult_le_compat_l; auto).
    assert (K2 : (276 / 10 * uu * a + 1 / 5 * ee) * (999 / 1000 * p) <= (276 / 10 * uu * a + 1 / 5 * ee) * value P).
    { apply Rmult_le_compat_l; [|lra]. assert (0 <= uu * a) by (apply Rmult_le_pos; lra). lra. }
    assert (0 <= uu * a * p) by (apply Rmult_le_pos; [apply Rmult_le_pos|]; lra). assert (ee <= 1 / 5 * ee * (999 / 1000 * p)) by nra. lra. }
  pose proof (err_abs _ _ _ D) as AD. pose proof (rnd_mul_err (value Z / value P)) as R.
  destruct (fdiv_ok Z P FZ) as (F & V); [lra| |].
  { pose proof pow_1000. assert (276 / 10 * uu * Rabs t <= 276 / 10 * uu * 1000) by (apply Rmult_le_compat_l; lra). lra. }
  split; auto. rewrite V. eapply Rle_trans; [apply (err_trans _ _ _ _ _ R D)|]. pose proof (Rabs_pos t) as T0. set (a := Rabs t) in *. clearbody a.
  assert (0 <= uu * a) by (apply Rmult_le_pos; lra). assert (uu * a <= 1 / 10000 * a) by (apply Rmult_le_compat_r; lra). assert (uu * Rabs (value Z / value P) <= uu * (101 / 100 * a + ee)) by (apply Rmult_le_compat_l; lra). assert (uu * ee <= 1 / 1000 * ee) by (apply Rmult_le_compat_r; lra). lra.
Qed.
Lemma finish q Q k : rc k q Q -> 0 <= k <= 1 / 100000000 -> 1 / 10000 <= Q <= 68 / 10000 -> let phi := g_arctan J (fmul (fdiv Z P) (fdiv (of_Z 1) (fsub (of_Z 1) q))) in
  finite phi /\ Rabs (value phi - atan (z / p * / (1 - Q))) <= 1001 / 1000 * ((69 / 10000 * k + 33 * uu) * cos (atan (z / p * / (1 - Q)))) + 81 / 10 * uu.
Proof.
  intros (Fq & Eq) K HQ phi. pose proof uu16 as U. pose proof ee_lt as EL. destruct one_ok as (F1 & V1). rewrite (Rabs_pos_eq Q) in Eq by lra.
  assert (KQ : k * Q <= k * (68 / 10000)) by (apply Rmult_le_compat_l; lra).
  destruct (ab_sub 0 (68 / 10000 * k) (of_Z 1) q 1 Q F1 Fq) as (FD & ED); [rewrite V1; replace (1 - 1) with 0 by ring; rewrite Rabs_R0; lra|lra|rewrite Rabs_pos_eq by lra; lra|].
  rewrite (Rabs_pos_eq (1 - Q)) in ED by lra. assert (K2 : uu * (1 - Q + 0 + 68 / 10000 * k) <= uu * 1) by (apply Rmult_le_compat_l; lra).
  assert (RD : rc (6848 / 1000000 * k + 101 / 100 * uu) (fsub (of_Z 1) q) (1 - Q)).
  { apply (rc_of _ _ _ _ FD ED). rewrite Rabs_pos_eq by lra. apply Rle_trans with ((6848 / 1000000 * k + 101 / 100 * uu) * (9932 / 10000)); [lra|apply Rmult_le_compat_l; lra]. }
  assert (R1 : rc 0 (of_Z 1) 1). { split; auto. rewrite V1. replace (1 - 1) with 0 by ring. rewrite Rabs_R0. lra. }
  assert (G : 1 <= / (1 - Q) <= 1007 / 1000). { split; [rewrite <- Rinv_1 at 1; apply Rinv_le_contravar; lra|]. rewrite <- (Rinv_inv (1007 / 1000)). apply Rinv_le_contravar; lra. }
  pose proof (rc_div _ _ _ _ _ _ R1 RD ltac:(lra) ltac:(apply mid_pos; unfold Rdiv; lra) ltac:(lra) ltac:(lra)) as RG. replace (1 / (1 - Q)) with (/ (1 - Q)) in RG by (field; lra).
  set (r := fdiv (of_Z 1) (fsub (of_Z 1) q)) in *. set (g := / (1 - Q)) in *.
  assert (RG' : rc (687 / 100000 * k + 21 / 10 * uu) r g) by (eapply rc_le; [exact RG|lra]). clear RG. clearbody r g.
  destruct RG' as (Fr & Er). rewrite (Rabs_pos_eq g) in Er by lra. destruct zp_close as (Ft & Et). set (t := z / p) in *. set (T := fdiv Z P) in *. pose proof tau_range as TR. fold t in TR. clearbody T t.
  assert (Vr : Rabs (value r) <= 10001 / 10000 * g). { eapply Rle_trans; [apply (err_abs _ _ _ Er)|]. rewrite (Rabs_pos_eq g) by lra. assert ((687 / 100000 * k + 21 / 10 * uu) * g <= 1 / 100000 * g) by (apply Rmult_le_compat_r; lra). lra. }
  assert (M : Rabs (value T * value r - t * g) <= (687 / 100000 * k + 312 / 10 * uu) * Rabs (t * g) + 21 / 10 * ee).
  { replace (value T * value r - t * g) with ((value T - t) * value r + t * (value r - g)) by ring. eapply Rle_trans; [apply Rabs_triang|]. rewrite !Rabs_mult. rewrite (Rabs_pos_eq g) by lra.
    pose proof (Rabs_pos t). set (a := Rabs t) in *. assert (a * Rabs (value r - g) <= a * ((687 / 100000 * k + 21 / 10 * uu) * g)) by (apply Rmult_le_compat_l; lra).
    assert (UA : 0 <= uu * a) by (apply Rmult_le_pos; lra). assert (Rabs (value T - t) * Rabs (value r) <= (29 * uu * a + 2 * ee) * (10001 / 10000 * g)) by (apply Rmult_le_compat; try apply Rabs_pos; lra).
    assert (0 <= uu * a * g) by (apply Rmult_le_pos; lra). assert (ee * g <= ee * (1007 / 1000)) by (apply Rmult_le_compat_l; lra). lra. }
  set (x := t * g) in *. assert (X : Rabs x <= 1010). { unfold x. rewrite Rabs_mult, (Rabs_pos_eq g) by lra. pose proof (Rabs_pos t). nra. } clearbody x. pose proof (Rabs_pos x) as X0.
  pose proof (err_abs _ _ _ M) as AM. assert (SM : (687 / 100000 * k + 312 / 10 * uu) * Rabs x <= 1 / 1000 * Rabs x) by (apply Rmult_le_compat_r; lra).
  pose proof (rnd_mul_err (value T * value r)) as R. destruct (fmul_ok T r Ft Fr) as (Fm & Vm); [pose proof pow_1000; lra|].
  assert (D : Rabs (value (fmul T r) - x) <= (687 / 100000 * k + 323 / 10 * uu) * Rabs x + 4 * ee).
  { rewrite Vm. eapply Rle_trans; [apply (err_trans _ _ _ _ _ R M)|]. assert (uu * Rabs (value T * value r) <= uu * (1001 / 1000 * Rabs x + 21 / 10 * ee)) by (apply Rmult_le_compat_l; lra). assert (uu * ee <= 1 / 1000 * ee) by (apply Rmult_le_compat_r; lra). assert (0 <= uu * Rabs x) by (apply Rmult_le_pos; lra). lra. }
  destruct (arctan_good J HJ _ Fm) as (Fp & Ep). fold phi in Fp, Ep. split; auto. rewrite pow50 in Ep.
  pose proof (atan_close x (value (fmul T r)) _ _ D ltac:(lra) ltac:(lra)) as AC. eapply Rle_trans; [apply (err_trans _ _ _ _ _ Ep AC)|].
  pose proof (cos_atan_pos x) as C0. assert ((687 / 100000 * k + 323 / 10 * uu) * cos (atan x) <= (69 / 10000 * k + 33 * uu) * cos (atan x)) by (apply Rmult_le_compat_r; lra). lra.
Qed.
(** The exact quantities of a step. *)
Lemma exact_parts m : 1 <= m <= 1.01 -> let th := atan (z / p * m) in let Qm := Q_ p z m in let Sm := S_ p z m in
  cos th = p / Qm /\ cos th * cos th + kap * (sin th * sin th) = (Sm / Qm) * (Sm / Qm) /\ 6335 <= Sm /\ 0.9966 * Qm <= Sm <= Qm /\ Qm <= 101000.
Proof.
  intros M th Qm Sm. pose proof p_range as PR. pose proof kap_bounds as K. pose proof (S_far p z m HF ltac:(lra)) as SF. fold Sm in SF. pose proof (ratio_bound p z m ltac:(lra)) as RB. pose proof AB_val as AB. fold Qm Sm in RB.
  pose proof (Q_pos p z m ltac:(lra)) as Q0. fold Qm in Q0. pose proof (T_Q p z m ltac:(lra)) as ET. fold Qm in ET. set (t := z / p * m) in *. set (T := sqrt (1 + t * t)) in *.
  assert (T0 : 0 < T) by (apply sqrt_lt_R0; nra). assert (T2 : T * T = 1 + t * t) by (apply sqrt_sqrt; nra). assert (C : cos th = 1 / T) by (unfold th; rewrite cos_atan; reflexivity). assert (Sn : sin th = t / T) by (unfold th; rewrite sin_atan; reflexivity).
  assert (S2 : Sm * Sm = p * p + kap * (z * m * (z * m))) by (apply sqrt_sqrt; pose proof (sq0 p); pose proof (Rmult_le_pos kap _ ltac:(lra) (sq0 (z * m))); lra).
  assert (Q2 : Qm * Qm = p * p + z * m * (z * m)) by (apply sqrt_sqrt; pose proof (sq0 p); pose proof (sq0 (z * m)); lra).
  split; [rewrite C, <- ET; field; lra|]. split; [|split; [lra|split; [split|]]].
  - rewrite C, Sn. replace (Sm / Qm * (Sm / Qm)) with (Sm * Sm / (Qm * Qm)) by (field; lra). rewrite S2, <- ET. replace (z * m) with (t * p) by (unfold t; field; lra). field. lra.
  - assert (A / B * Sm <= 1.0034 * Sm) by (apply Rmult_le_compat_r; lra). lra.
  - apply Rsqr_incr_0_var; [|lra]. unfold Rsqr. rewrite S2, Q2. pose proof (sq0 (z * m)). nra.
  - assert (Qm <= 1.01 * rr p z); [|lra]. apply Rsqr_incr_0_var; [|destruct HF; pose proof B_val; lra]. unfold Rsqr. rewrite Q2.
    assert (Q : rr p z * rr p z = p * p + z * z) by (apply sqrt_sqrt; pose proof (sq0 p); pose proof (sq0 z); lra). replace (1.01 * rr p z * (1.01 * rr p z)) with (1.01 * 1.01 * (p * p + z * z)) by (rewrite <- Q; ring).
    replace (z * m * (z * m)) with (z * z * (m * m)) by ring. assert (m * m <= 1.01 * 1.01) by nra. pose proof (sq0 z). assert (z * z * (m * m) <= z * z * (1.01 * 1.01)) by (apply Rmult_le_compat_l; lra). pose proof (sq0 p). lra.
Qed.
Lemma c_low m : 1 <= m <= 1.01 -> 98 / 100000 <= p / Q_ p z m <= 1.
Proof.
  intros M. destruct (exact_parts m M) as (C & _). pose proof (COS_bound (atan (z / p * m))) as CB. rewrite C in CB. pose proof p_range as PR.
  pose proof (Q_pos p z m ltac:(lra)) as Q0. split; [|lra]. apply Rmult_le_reg_r with (Q_ p z m); auto. unfold Rdiv at 2. rewrite Rmult_assoc, Rinv_l, Rmult_1_r by lra.
  assert (Q_ p z m <= 1020 * p); [|lra]. apply Rsqr_incr_0_var; [|lra]. unfold Rsqr, Q_. rewrite sqrt_sqrt by (pose proof (sq0 p); pose proof (sq0 (z * m)); lra).
  assert (ZZ : z * z <= 1000 * p * (1000 * p)). { rewrite <- (Rabs_pos_eq (z * z)), Rabs_mult by apply sq0. apply Rmult_le_compat; auto using Rabs_pos. }
  replace (z * m * (z * m)) with (z * z * (m * m)) by ring. assert (m * m <= 1.0201) by nra. pose proof (sq0 z). assert (z * z * (m * m) <= z * z * 1.0201) by (apply Rmult_le_compat_l; lra). nra.
Qed.
End Step.
