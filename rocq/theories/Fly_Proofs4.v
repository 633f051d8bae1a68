(** The values of the altitude loop in floating point follow the exact ones. *)
From Coq Require Import ZArith Reals Lra Lia Psatz.
From Flocq Require Import Core.Core IEEE754.BinarySingleNaN IEEE754.Binary IEEE754.Bits.
From Verif Require Import Py Fl_Model Fl_Spec Fl_Proofs Flg_Model Flg_Spec Flg_Proofs2 Flg_Proofs3 Rot_Model Rot_Spec Geo_Model Geo_Spec Geo_Alt Geo_Alt2 Geo_Acc
  Flg_Proofs6 Flr_Model Flr_Spec Flv_Model Fly_Model Fly_Spec Fly_Proofs Fly_Proofs2 Fly_Proofs3.
Open Scope R_scope.
#[local] Strategy 1000 [fmul fadd fsub fdiv fneg of_Z].

Lemma sq_close x s : finite x -> Rabs (value x - s) <= 68 * uu -> Rabs s <= 1 -> finite (fsquare x) /\ Rabs (value (fsquare x) - s * s) <= 138 * uu.
Proof.
  intros F E S1. pose proof uu16 as U. pose proof ee_lt as EL. pose proof (err_abs _ _ _ E) as AX.
  assert (D : Rabs (value x * value x - s * s) <= 1361 / 10 * uu).
  { replace (value x * value x - s * s) with ((value x - s) * (value x + s)) by ring. rewrite Rabs_mult. assert (Rabs (value x + s) <= 2 + 68 * uu) by (eapply Rle_trans; [apply Rabs_triang|lra]).
    apply Rle_trans with (68 * uu * (2 + 68 * uu)); [apply Rmult_le_compat; auto using Rabs_pos|]. assert (uu * uu <= 1 / 1000000 * uu) by (apply Rmult_le_compat_r; lra). lra. }
  pose proof (err_abs _ _ _ D) as AD. assert (SS : Rabs (s * s) <= 1) by (rewrite Rabs_mult; pose proof (Rabs_pos s); nra). pose proof (rnd_mul_err (value x * value x)) as R.
  unfold fsquare. destruct (fmul_ok x x F F) as (F' & V); [pose proof pow_1000; lra|]. split; auto. rewrite V. eapply Rle_trans; [apply (err_trans _ _ _ _ _ R D)|].
  assert (uu * Rabs (value x * value x) <= uu * (101 / 100)) by (apply Rmult_le_compat_l; lra). lra.
Qed.
Lemma mul_close k s K S : finite k -> finite s -> Rabs (value k - K) <= 14 * uu -> Rabs (value s - S) <= 138 * uu -> 0 <= K <= 1 -> 0 <= S <= 1 ->
  finite (fmul k s) /\ Rabs (value (fmul k s) - K * S) <= 154 * uu.
Proof.
  intros Fk Fs Ek Es HK HS. pose proof uu16 as U. pose proof ee_lt as EL.
  assert (D : Rabs (value k * value s - K * S) <= 1525 / 10 * uu).
  { replace (value k * value s - K * S) with ((value k - K) * value s + K * (value s - S)) by ring. eapply Rle_trans; [apply Rabs_triang|]. rewrite !Rabs_mult. pose proof (err_abs _ _ _ Es) as A. rewrite (Rabs_pos_eq S) in A by lra. rewrite (Rabs_pos_eq K) by lra.
    assert (Rabs (value k - K) * Rabs (value s) <= 14 * uu * (101 / 100)) by (apply Rmult_le_compat; try apply Rabs_pos; lra). assert (K * Rabs (value s - S) <= 1 * (138 * uu)) by (apply Rmult_le_compat; try apply Rabs_pos; lra). lra. }
  pose proof (err_abs _ _ _ D) as AD. assert (SS : Rabs (K * S) <= 1) by (rewrite Rabs_pos_eq by nra; nra). pose proof (rnd_mul_err (value k * value s)) as R.
  destruct (fmul_ok k s Fk Fs) as (F' & V); [pose proof pow_1000; lra|]. split; auto. rewrite V. eapply Rle_trans; [apply (err_trans _ _ _ _ _ R D)|].
  assert (uu * Rabs (value k * value s) <= uu * (101 / 100)) by (apply Rmult_le_compat_l; lra). lra.
Qed.
Section Step.
Variable L : arrays.
Variable J : geodesy.
Hypothesis HL : accurate_arrays L.
Hypothesis HJ : accurate_geodesy J.
Variables p z : R.
Hypothesis HF : far p z.
Hypothesis HR : rr p z <= 100000.
Hypothesis HZ : Rabs z <= 1000 * p.
Variables P Z : float.
Hypothesis RP : rc (20 * uu) P p.
Hypothesis RZ : finite Z /\ Rabs (value Z - z) <= 7 * uu * Rabs z + ee.

(** The radius of curvature *)
Lemma radius_close phi m : 1 <= m <= 1.01 -> finite phi -> Rabs (value phi - atan (z / p * m)) <= 64 * uu ->
  finite (a_cos L phi) /\ Rabs (value (a_cos L phi) - p / Q_ p z m) <= 68 * uu /\
  rc (153 * uu) (fdiv fmajor_axis (fsqrt (fadd (fsquare (a_cos L phi)) (fmul (fratio J) (fsquare (a_sin L phi)))))) (A * Q_ p z m / S_ p z m).
Proof.
  intros M F E. pose proof uu16 as U. destruct (exact_parts p z HF HR HZ m M) as (C & W & S1 & SQ & Q1). pose proof (p_range p z HF HR HZ) as PR. set (th := atan (z / p * m)) in *.
  assert (TH : Rabs th <= 2). { pose proof (atan_bound (z / p * m)) as AB. fold th in AB. pose proof PI_4. apply Rabs_le. lra. } pose proof (err_abs _ _ _ E) as AP.
  assert (B30 : Rabs (value phi) <= 2 ^ 30) by lra. destruct (np_cos_good L HL phi F B30) as (Fc & Ec). destruct (np_sin_good L HL phi F B30) as (Fs & Es). rewrite pow51 in Ec, Es.
  assert (CL : Rabs (cos (value phi) - cos th) <= 64 * uu) by (eapply Rle_trans; [apply Flg_Proofs6.cos_lip|exact E]). assert (SL : Rabs (sin (value phi) - sin th) <= 64 * uu) by (eapply Rle_trans; [apply Flg_Proofs6.sin_lip|exact E]).
  assert (EC : Rabs (value (a_cos L phi) - cos th) <= 68 * uu) by (pose proof (err_trans _ _ _ _ _ Ec CL); lra). assert (ES : Rabs (value (a_sin L phi) - sin th) <= 68 * uu) by (pose proof (err_trans _ _ _ _ _ Es SL); lra).
  split; auto. split; [rewrite <- C; exact EC|].
  destruct (sq_close _ _ Fc EC) as (Fc2 & Ec2); [apply Rabs_le; apply COS_bound|]. destruct (sq_close _ _ Fs ES) as (Fs2 & Es2); [apply Rabs_le; apply SIN_bound|].
  destruct (ratio_rc J HJ) as (FK & EK). pose proof kap_bounds as K. rewrite (Rabs_pos_eq kap) in EK by lra. assert (EK' : Rabs (value (fratio J) - kap) <= 14 * uu) by nra.
  assert (SS : 0 <= sin th * sin th <= 1) by (pose proof (SIN_bound th); nra).
  destruct (mul_close _ _ _ _ FK Fs2 EK' Es2 ltac:(lra) SS) as (Fks & Eks).
  set (w := S_ p z m / Q_ p z m) in *. assert (Wr : 0.9966 <= w <= 1).
  { unfold w. split; apply Rmult_le_reg_r with (Q_ p z m); try lra; unfold Rdiv; rewrite Rmult_assoc, Rinv_l by lra; lra. }
  destruct (ab_add _ _ _ _ _ _ Fc2 Fks Ec2 Eks) as (Fw & Ew); [rewrite W, Rabs_pos_eq by nra; nra|]. rewrite W in Ew. rewrite (Rabs_pos_eq (w * w)) in Ew by nra.
  assert (W2 : 0.9932 <= w * w <= 1) by nra. assert (RW : rc (297 * uu) (fadd (fsquare (a_cos L phi)) (fmul (fratio J) (fsquare (a_sin L phi)))) (w * w)).
  { apply (rc_of _ _ _ _ Fw Ew). rewrite (Rabs_pos_eq (w * w)) by lra. assert (uu * (w * w + 138 * uu + 154 * uu) <= uu * (101 / 100)) by (apply Rmult_le_compat_l; lra). assert (297 * uu * (9932 / 10000) <= 297 * uu * (w * w)) by (apply Rmult_le_compat_l; lra). lra. }
  assert (SW : sqrt (w * w) = w) by (apply sqrt_square; lra).
  pose proof (rc_sqrt _ _ _ RW ltac:(lra) ltac:(apply mid_pos; lra) ltac:(rewrite SW; apply mid_pos; lra) ltac:(lra)) as RS. rewrite SW in RS.
  assert (NE : A * Q_ p z m / S_ p z m = A / w) by (unfold w; field; lra). rewrite NE. pose proof A_val as VA.
  assert (AW : A <= A / w <= 6500). { split; apply Rmult_le_reg_r with w; try lra; unfold Rdiv; rewrite ?Rmult_assoc, ?Rinv_l by lra; nra. }
  eapply rc_le; [apply (rc_div _ _ _ _ _ _ major_rc RS); [lra|apply mid_pos; lra|lra|lra]|lra].
Qed.
Lemma step phi m : 1 <= m <= 1.01 -> finite phi -> Rabs (value phi - atan (z / p * m)) <= 64 * uu ->
  let r := fnew_vals L J P phi Z in
  finite (fst r) /\ Rabs (value (fst r) - h_ p z m) <= / 1000000 /\ finite (snd r) /\ Rabs (value (snd r) - atan (z / p * g_ p z m)) <= 64 * uu.
Proof.
  intros M F E. destruct (radius_close phi m M F E) as (Fc & Ec & RN). pose proof uu16 as U. destruct (exact_parts p z HF HR HZ m M) as (C & W & S1 & SQ & Q1).
  pose proof (p_range p z HF HR HZ) as PR. pose proof (c_low p z HF HR HZ m M) as CR. pose proof kap_bounds as K. pose proof cc_bounds as CB. pose proof cc_kap as CK. pose proof A_val as VA.
  cbv zeta. unfold fnew_vals, flatitude_from. set (N := fdiv fmajor_axis _) in *. cbv zeta. cbn [fst snd]. set (pc := fdiv P (a_cos L phi)).
  pose proof (cos_atan_ratio (z / p) (g_ p z m) m) as CAR. pose proof (g_range p z m HF ltac:(lra)) as GR. specialize (CAR ltac:(lra) ltac:(lra)). rewrite C in CAR.
  unfold h_. set (Qm := Q_ p z m) in *. set (Sm := S_ p z m) in *. set (c := p / Qm) in *. set (Nm := A * Qm / Sm) in *.
  assert (PC : p / c = Qm) by (unfold c; field; lra). set (i := 68 * uu / c). assert (I : 0 <= i <= 69388 * uu /\ i * c = 68 * uu).
  { assert (i * c = 68 * uu) by (unfold i; field; lra). split; auto. split; [apply Rlt_le, Rdiv_lt_0_compat; lra|]. apply Rmult_le_reg_r with c; [lra|]. rewrite H. assert (69388 * uu * (98 / 100000) <= 69388 * uu * c) by (apply Rmult_le_compat_l; lra). lra. } destruct I as (I1 & I2).
  assert (RC : rc i (a_cos L phi) c) by (apply (rc_of _ _ _ _ Fc Ec); rewrite Rabs_pos_eq by lra; lra).
  pose proof (rc_div _ _ _ _ _ _ RP RC ltac:(lra) ltac:(rewrite PC; apply mid_pos; lra) ltac:(lra) ltac:(lra)) as RQ. rewrite PC in RQ. fold pc in RQ.
  set (rho := 1001 / 1000 * i + 22 * uu). assert (RQ' : rc rho pc Qm) by (eapply rc_le; [exact RQ|unfold rho; lra]). clear RQ. assert (RHO : 0 <= rho <= 69480 * uu) by (unfold rho; lra).
  assert (NR : 6335 <= Nm <= 6410 /\ Nm <= 1007 / 1000 * Qm).
  { assert (EN : Nm * Sm = A * Qm) by (unfold Nm; field; lra). rewrite VA in EN. split; [split|]; apply Rmult_le_reg_r with Sm; try lra; rewrite EN; nra. } destruct NR as (NR & NQ). assert (NS : Nm = A * Qm / Sm) by reflexivity.
  clearbody N pc Nm c i. destruct RN as (FN & EN). rewrite (Rabs_pos_eq Nm) in EN by lra. destruct RQ' as (FQ & EQ). rewrite (Rabs_pos_eq Qm) in EQ by lra.
  assert (EN' : Rabs (value N - Nm) <= 981000 * uu). { assert (153 * uu * Nm <= 153 * uu * 6410) by (apply Rmult_le_compat_l; lra). lra. }
  assert (EQ' : Rabs (value pc - Qm) <= 69480 * uu * 101000). { apply Rle_trans with (rho * Qm); auto. apply Rmult_le_compat; lra. }
  assert (QN : Rabs (Qm - Nm) <= 108000) by (apply Rabs_le; lra).
  destruct (ab_sub _ _ _ _ _ _ FQ FN EQ' EN') as (Fh & Eh); [lra|]. split; auto. split.
  { eapply Rle_trans; [exact Eh|]. assert (uu * (Rabs (Qm - Nm) + 69480 * uu * 101000 + 981000 * uu) <= uu * 109000) by (apply Rmult_le_compat_l; lra). lra. }
  (* n + h *)
  set (h := fsub pc N) in *. assert (Vh : Rabs (value h - (value pc - value N)) <= 101 / 100 * uu * Qm).
  { unfold h. destruct (fsub_ok pc N FQ FN) as (_ & V). { pose proof pow_1000. pose proof (err_abs _ _ _ EQ'). pose proof (err_abs _ _ _ EN'). rewrite (Rabs_pos_eq Qm) in * by lra. rewrite (Rabs_pos_eq Nm) in * by lra. unfold Rminus. eapply Rle_trans; [apply Rabs_triang|]. rewrite Rabs_Ropp. lra. }
    rewrite V. eapply Rle_trans; [apply (rnd_add_err (value pc) (- value N) (value_fmt pc) (generic_format_opp _ _ _ (value_fmt N)))|].
    assert (B1 : Rabs (value pc + - value N) <= 101 / 100 * Qm). { apply Rabs_le_inv in EN. apply Rabs_le_inv in EQ. assert (153 * uu * Nm <= 1 / 1000 * Qm) by (apply Rle_trans with (153 * uu * (1007 / 1000 * Qm)); [apply Rmult_le_compat_l; lra|]; nra). assert (rho * Qm <= 1 / 1000 * Qm) by (apply Rmult_le_compat_r; lra). apply Rabs_le. lra. }
    apply Rle_trans with (uu * (101 / 100 * Qm)); [apply Rmult_le_compat_l; lra|lra]. }
  clearbody h. destruct (fadd_ok N h FN Fh) as (Fn & Vn). { pose proof pow_1000. pose proof (err_abs _ _ _ Vh). pose proof (err_abs _ _ _ EQ'). pose proof (err_abs _ _ _ EN'). rewrite (Rabs_pos_eq Qm) in * by lra. rewrite (Rabs_pos_eq Nm) in * by lra.
    assert (Rabs (value pc - value N) <= Rabs (value pc) + Rabs (value N)) by (unfold Rminus; eapply Rle_trans; [apply Rabs_triang|]; rewrite Rabs_Ropp; lra). assert (101 / 100 * uu * Qm <= 1 * 101000) by (apply Rmult_le_compat; lra). eapply Rle_trans; [apply Rabs_triang|]. lra. }
  assert (Rn : rc (rho + 3 * uu) (fadd N h) Qm).
  { split; auto. rewrite Vn, (Rabs_pos_eq Qm) by lra. pose proof (rnd_add_err _ _ (value_fmt N) (value_fmt h)) as R.
    assert (D : Rabs (value N + value h - value pc) <= 101 / 100 * uu * Qm) by (replace (value N + value h - value pc) with (value h - (value pc - value N)) by ring; exact Vh).
    pose proof (err_trans _ _ _ _ _ D EQ) as D2. pose proof (err_abs _ _ _ D2) as AD. rewrite (Rabs_pos_eq Qm) in AD by lra. pose proof (err_trans _ _ _ _ _ R D2) as D3. eapply Rle_trans; [exact D3|].
    assert (UQ : 0 <= uu * Qm) by (apply Rmult_le_pos; lra). assert (uu * Qm <= 1 / 1000 * Qm) by (apply Rmult_le_compat_r; lra). assert (rho * Qm <= 1 / 1000 * Qm) by (apply Rmult_le_compat_r; lra).
    assert (uu * Rabs (value N + value h) <= uu * (101 / 100 * Qm)) by (apply Rmult_le_compat_l; lra). lra. }
  clear Vn. set (nh := fadd N h) in *. clearbody nh.
  assert (RN' : rc (153 * uu) N Nm) by (split; auto; rewrite (Rabs_pos_eq Nm) by lra; exact EN).
  assert (ENm : (1 - kap) * Nm / Qm = cc / Sm) by (rewrite CK, NS; field; lra).
  assert (CS : 1 / 10000 <= cc / Sm <= 68 / 10000). { assert (E0 : cc / Sm * Sm = cc) by (field; lra). split; apply Rmult_le_reg_r with Sm; try lra; rewrite E0; lra. }
  assert (KN : 40 <= (1 - kap) * Nm <= 50) by nra.
  pose proof (rc_mul _ _ _ _ _ _ (e2_rc J HJ) RN' ltac:(apply mid_pos; lra) ltac:(lra) ltac:(lra)) as Re.
  pose proof (rc_div _ _ _ _ _ _ Re Rn ltac:(lra) ltac:(rewrite ENm; apply mid_pos; lra) ltac:(lra) ltac:(lra)) as Rq. rewrite ENm in Rq.
  set (k := 1002 / 1000 * rho + 2370 * uu). assert (KR : 0 <= k <= 1 / 100000000) by (unfold k; lra).
  assert (Rq' : rc k (fdiv (fmul (fe_squared J) N) nh) (cc / Sm)) by (eapply rc_le; [exact Rq|unfold k; lra]). clear Rq.
  destruct (finish J HJ p z HF HR HZ P Z RP RZ _ _ _ Rq' KR CS) as (Ff & Ef). split; auto. assert (G : / (1 - cc / Sm) = g_ p z m) by (unfold g_; fold Sm; field; lra). rewrite G in Ef.
  eapply Rle_trans; [exact Ef|]. pose proof (cos_atan_pos (z / p * g_ p z m)) as C0. pose proof (COS_bound (atan (z / p * g_ p z m))) as C1. set (x := cos (atan (z / p * g_ p z m))) in *. clearbody x.
  assert (IX : i * x <= i * (102 / 100 * c)) by (apply Rmult_le_compat_l; lra). assert (UX : uu * x <= uu * 1) by (apply Rmult_le_compat_l; lra). unfold k, rho. lra.
Qed.
Lemma first R0 : rc (20 * uu) R0 (rr p z) ->
  let h := fsub R0 (fsqrt (fmul fmajor_axis fminor_axis)) in let phi := flatitude_from J P Z fmajor_axis h in
  finite h /\ Rabs (value h - h0 p z) <= / 1000000 /\ finite phi /\ Rabs (value phi - atan (z / p * m0 p z)) <= 64 * uu.
Proof.
  intros RR. cbv zeta. pose proof uu16 as U. pose proof A_val as VA. pose proof B_val as VB. pose proof sqrtAB_num as SA. pose proof kap_bounds as K. pose proof cc_bounds as CB. pose proof cc_kap as CK. destruct HF as (P0 & F0).
  assert (AB : 40000000 <= A * B <= 41000000) by (rewrite VA, VB; lra).
  pose proof (rc_mul _ _ _ _ _ _ major_rc minor_rc ltac:(apply mid_pos; lra) ltac:(lra) ltac:(lra)) as R1.
  pose proof (rc_sqrt _ _ _ R1 ltac:(lra) ltac:(apply mid_pos; lra) ltac:(apply mid_pos; lra) ltac:(lra)) as R2. set (s := fsqrt (fmul fmajor_axis fminor_axis)) in *. clearbody s.
  destruct R2 as (Fs & Es). destruct RR as (Fr & Er). rewrite (Rabs_pos_eq (rr p z)) in Er by lra. rewrite (Rabs_pos_eq (sqrt (A * B))) in Es by lra.
  assert (Es' : Rabs (value s - sqrt (A * B)) <= 19200 * uu). { eapply Rle_trans; [exact Es|]. apply Rle_trans with (3 * uu * 6368); [apply Rmult_le_compat; lra|lra]. }
  assert (H0 : Rabs (h0 p z) <= rr p z) by (unfold h0; apply Rabs_le; lra). assert (UR : 0 <= uu * rr p z <= uu * 100000) by (split; [apply Rmult_le_pos|apply Rmult_le_compat_l]; lra).
  destruct (ab_sub _ _ _ _ _ _ Fr Fs Er Es') as (Fh & Eh); [fold (h0 p z); lra|]. fold (h0 p z) in Eh. set (h := fsub R0 s) in *. clearbody h.
  assert (Eh' : Rabs (value h - h0 p z) <= 21 * uu * rr p z + 19300 * uu).
  { eapply Rle_trans; [exact Eh|]. assert (uu * (Rabs (h0 p z) + 20 * uu * rr p z + 19200 * uu) <= uu * (rr p z + 1)) by (apply Rmult_le_compat_l; lra). lra. }
  split; auto. split; [lra|]. unfold flatitude_from. destruct major_rc as (FA & EA). rewrite (Rabs_pos_eq A) in EA by lra. pose proof (start_big p z (conj P0 F0)) as SB.
  assert (UA : uu * A <= uu * 6379) by (apply Rmult_le_compat_l; lra). destruct (ab_add _ _ _ _ _ _ FA Fh EA Eh') as (Fn & En); [rewrite Rabs_pos_eq by lra; unfold h0; lra|]. set (t := A + h0 p z) in *. assert (T : rr p z <= t <= 200000) by (unfold t, h0; lra).
  rewrite (Rabs_pos_eq t) in En by lra. assert (UT : uu * rr p z <= uu * t) by (apply Rmult_le_compat_l; lra). assert (UT2 : uu * 6335 <= uu * t <= uu * 200000) by (split; apply Rmult_le_compat_l; lra).
  assert (Rn : rc (28 * uu) (fadd fmajor_axis h) t).
  { apply (rc_of _ _ _ _ Fn En). rewrite (Rabs_pos_eq t) by lra. assert (uu * (t + uu * A + (21 * uu * rr p z + 19300 * uu)) <= uu * (t + 1)) by (apply Rmult_le_compat_l; lra). assert (uu * A <= uu * 6379) by (apply Rmult_le_compat_l; lra). lra. }
  clear En Fn. set (nh := fadd fmajor_axis h) in *. clearbody nh. assert (EQ : (1 - kap) * A / t = cc / t) by (rewrite CK; field; lra).
  assert (CS : 1 / 10000 <= cc / t <= 68 / 10000). { assert (E0 : cc / t * t = cc) by (field; lra). split; apply Rmult_le_reg_r with t; try lra; rewrite E0; lra. }
  pose proof (rc_mul _ _ _ _ _ _ (e2_rc J HJ) major_rc ltac:(apply mid_pos; lra) ltac:(lra) ltac:(lra)) as Re.
  pose proof (rc_div _ _ _ _ _ _ Re Rn ltac:(lra) ltac:(rewrite EQ; apply mid_pos; lra) ltac:(lra) ltac:(lra)) as Rq. rewrite EQ in Rq.
  assert (Rq' : rc (2300 * uu) (fdiv (fmul (fe_squared J) fmajor_axis) nh) (cc / t)) by (eapply rc_le; [exact Rq|lra]). clear Rq.
  destruct (finish J HJ p z HF HR HZ P Z RP RZ _ _ _ Rq' ltac:(lra) CS) as (Ff & Ef). split; auto. assert (G : / (1 - cc / t) = m0 p z) by (unfold m0; fold t; field; lra). rewrite G in Ef.
  eapply Rle_trans; [exact Ef|]. pose proof (COS_bound (atan (z / p * m0 p z))) as C1. set (x := cos (atan (z / p * m0 p z))) in *. clearbody x. assert (UX : uu * x <= uu * 1) by (apply Rmult_le_compat_l; lra). lra.
Qed.
End Step.
