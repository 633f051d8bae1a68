(** From a position in some unit to the numbers of the altitude loop. *)
From Coq Require Import List ZArith Reals Lra Lia Psatz.
From Flocq Require Import Core.Core IEEE754.BinarySingleNaN IEEE754.Binary IEEE754.Bits.
From Verif Require Import Py Fl_Model Fl_Spec Fl_Proofs Flg_Model Flg_Spec Rot_Model Rot_Spec Geo_Model Geo_Spec Lvlh_Spec Lvlh_Proofs Flg_Proofs Flg_Proofs2 Flg_Proofs3 Geo_Alt Geo_Alt2 Geo_Acc
  Flr_Model Flr_Spec Flv_Model Flv_Spec Flv_Proofs Flv_Proofs2 Flv_Proofs3 Fly_Model Fly_Spec Fly_Proofs Fly_Proofs2 Fly_Proofs3 Fly_Proofs4.
Import ListNotations.
Open Scope R_scope.
#[local] Strategy 1000 [fmul fadd fsub fdiv fneg of_Z].

Lemma ee_tiny : 0 < ee <= uu / 1000000000000000.
Proof.
  split; [apply ee_pos|]. apply Rle_trans with (bpow radix2 (-112)); [apply bpow_le; lia|]. unfold uu. change (-53 + 1)%Z with (60 + -112)%Z. rewrite bpow_plus. pose proof pow_60. pose proof (bpow_gt_0 radix2 (-112)). nra.
Qed.
Lemma coord_km unit x : measures unit = Lengths -> finite x -> Rabs (value x) <= bpow radix2 60 -> exists y, fconvert x unit Ukm = Ok y /\ finite y /\
  Rabs (value y - size unit / 1000 * value x) <= 61 / 10 * uu * Rabs (size unit / 1000 * value x) + ee.
Proof.
  intros K Fx Bx. apply Flg_Proofs6.measures_length in K. pose proof uu_pos as U. pose proof ee_pos as EP. pose proof (size_bounds unit) as SB. set (q := size unit / 1000). assert (Q : 0 < q <= 90) by (unfold q; lra).
  unfold fconvert. rewrite K. cbn [kind_of kind_eqb negb]. destruct (unit_eqb unit Ukm) eqn:E.
  - apply unit_eqb_iff in E. subst unit. exists x. split; auto. split; auto. unfold q. cbn [size]. replace (value x - 1000 / 1000 * value x) with 0 by field. rewrite Rabs_R0.
    pose proof (Rabs_pos (1000 / 1000 * value x)). assert (0 <= uu * Rabs (1000 / 1000 * value x)) by (apply Rmult_le_pos; lra). lra.
  - eexists. split; [reflexivity|]. destruct (factor_ok unit Ukm K) as (Fc & Oc). apply scale_err; auto; [|split; [lra|]; apply Rle_trans with (bpow radix2 7); [change (bpow radix2 7) with 128; lra|apply bpow_le; lia]].
    destruct Oc as (e & A & B). change (size Ukm) with 1000 in B. fold q in B. rewrite B. replace (q * (1 + e) - q) with (e * q) by ring. rewrite Rabs_mult, (Rabs_pos_eq q) by lra. apply Rmult_le_compat_r; lra.
Qed.
Definition near_coord (x : float) (a : R) : Prop := finite x /\ Rabs (value x - a) <= 61 / 10 * uu * Rabs a + ee.
Lemma coord_square x a : near_coord x a -> Rabs a <= 100000 -> finite (fsquare x) /\ Rabs (value (fsquare x) - a * a) <= 135 / 10 * uu * (a * a) + uu / 10000.
Proof.
  intros (F & E) A. pose proof uu16 as U. pose proof ee_tiny as EL. pose proof (Rabs_pos a) as A0. assert (AA : Rabs a * Rabs a = a * a) by (rewrite <- Rabs_mult; apply Rabs_pos_eq, sq0).
  set (b := Rabs a) in *. pose proof (err_abs _ _ _ E) as AX. fold b in AX. assert (UB : 0 <= uu * b <= 1 / 1000000 * b) by (split; [apply Rmult_le_pos|apply Rmult_le_compat_r]; lra).
  assert (EB : 0 <= ee * b <= ee * 100000) by (split; [apply Rmult_le_pos|apply Rmult_le_compat_l]; lra). assert (BB : 0 <= b * b) by apply sq0. assert (UBB : 0 <= uu * (b * b)) by (apply Rmult_le_pos; lra).
  assert (D : Rabs (value x * value x - a * a) <= 123 / 10 * uu * (b * b) + uu / 20000).
  { replace (value x * value x - a * a) with ((value x - a) * (value x + a)) by ring. rewrite Rabs_mult. assert (S2 : Rabs (value x + a) <= 2001 / 1000 * b + ee) by (eapply Rle_trans; [apply Rabs_triang|]; fold b; lra).
    apply Rle_trans with ((61 / 10 * uu * b + ee) * (2001 / 1000 * b + ee)); [apply Rmult_le_compat; auto using Rabs_pos|]. assert (uu * b * ee <= ee * 1) by (rewrite Rmult_comm; apply Rmult_le_compat_l; lra). assert (ee * ee <= ee * 1) by (apply Rmult_le_compat_l; lra). lra. }
  pose proof (err_abs _ _ _ D) as AD. rewrite (Rabs_pos_eq (a * a)) in AD by apply sq0. rewrite AA in *. assert (A2 : a * a <= 100000 * 100000) by (rewrite <- AA; apply Rmult_le_compat; lra).
  assert (UA : uu * (a * a) <= 1 / 1000000 * (a * a)) by (apply Rmult_le_compat_r; lra).
  unfold fsquare. pose proof (rnd_mul_err (value x * value x)) as R. destruct (fmul_ok x x F F) as (F' & V); [pose proof pow_1000; lra|]. split; auto. rewrite V. eapply Rle_trans; [apply (err_trans _ _ _ _ _ R D)|].
  assert (uu * Rabs (value x * value x) <= uu * (1001 / 1000 * (a * a) + 1 / 1000000)) by (apply Rmult_le_compat_l; lra). lra.
Qed.
Lemma point_rc x y z X Y Z : near_coord X x -> near_coord Y y -> near_coord Z z -> let p := sqrt (x ^ 2 + y ^ 2) in far p z -> rr p z <= 100000 -> Rabs z <= 1000 * p ->
  rc (20 * uu) (faxis_distance (FV X Y Z)) p /\ rc (20 * uu) (fsqrt (fadd (fadd (fsquare X) (fsquare Y)) (fsquare Z))) (rr p z).
Proof.
  intros NX NY NZ p HF HR HZ. pose proof uu16 as U. pose proof (p_range p z HF HR HZ) as PR. pose proof (z_rr p z) as ZR.
  assert (PP : p * p = x * x + y * y). { unfold p. rewrite sqrt_sqrt; [ring|]. pose proof (pow2_ge_0 x). pose proof (pow2_ge_0 y). lra. }
  pose proof (sq0 x) as X2. pose proof (sq0 y) as Y2. pose proof (sq0 z) as Z2.
  assert (LE : forall u, u * u <= p * p -> Rabs u <= 100000). { intros u H. rewrite <- (Rabs_pos_eq 100000) by lra. apply Rsqr_le_abs_0. unfold Rsqr. assert (p * p <= 100000 * 100000) by (apply Rmult_le_compat; lra). lra. }
  destruct (coord_square X x NX) as (FX & EX); [apply LE; lra|]. destruct (coord_square Y y NY) as (FY & EY); [apply LE; lra|]. destruct (coord_square Z z NZ) as (FZ & EZ); [lra|].
  assert (P2 : 6 * 6 <= p * p <= 100000 * 100000) by (split; apply Rmult_le_compat; lra). assert (ZZ : z * z <= 100000 * 100000) by (rewrite <- (Rabs_pos_eq (z * z)), Rabs_mult by lra; apply Rmult_le_compat; auto using Rabs_pos; lra).
  assert (UP : uu * 36 <= uu * (p * p) <= uu * 10000000000) by (split; apply Rmult_le_compat_l; lra). assert (UX : 0 <= uu * (x * x)) by (apply Rmult_le_pos; lra). assert (UY : 0 <= uu * (y * y)) by (apply Rmult_le_pos; lra). assert (UZ : 0 <= uu * (z * z) <= uu * 10000000000) by (split; [apply Rmult_le_pos|apply Rmult_le_compat_l]; lra).
  assert (UPP : uu * (p * p) = uu * (x * x) + uu * (y * y)) by (rewrite PP; ring).
  destruct (ab_add _ _ _ _ _ _ FX FY EX EY) as (F1 & E1); [rewrite <- PP, Rabs_pos_eq by lra; lra|]. rewrite <- PP in E1. rewrite (Rabs_pos_eq (p * p)) in E1 by lra.
  assert (R1 : rc (15 * uu) (fadd (fsquare X) (fsquare Y)) (p * p)).
  { apply (rc_of _ _ _ _ F1 E1). rewrite (Rabs_pos_eq (p * p)) by lra. assert (uu * (p * p + (135 / 10 * uu * (x * x) + uu / 10000) + (135 / 10 * uu * (y * y) + uu / 10000)) <= uu * (p * p + 1)) by (apply Rmult_le_compat_l; lra). lra. }
  assert (SP : sqrt (p * p) = p) by (apply sqrt_square; lra). split.
  - unfold faxis_distance. cbn [fx fy]. pose proof (rc_sqrt _ _ _ R1 ltac:(lra) ltac:(apply mid_pos; lra) ltac:(rewrite SP; apply mid_pos; lra) ltac:(lra)) as R2. rewrite SP in R2. eapply rc_le; [exact R2|lra].
  - set (s := fadd (fsquare X) (fsquare Y)) in *. clearbody s. clear E1 F1. destruct R1 as (F1 & E1). rewrite (Rabs_pos_eq (p * p)) in E1 by lra.
    destruct (ab_add _ _ _ _ _ _ F1 FZ E1 EZ) as (F2 & E2); [rewrite Rabs_pos_eq by lra; lra|]. rewrite (Rabs_pos_eq (p * p + z * z)) in E2 by lra.
    assert (R2 : rc (17 * uu) (fadd s (fsquare Z)) (p * p + z * z)).
    { apply (rc_of _ _ _ _ F2 E2). rewrite (Rabs_pos_eq (_ + _)) by lra. assert (uu * (p * p + z * z + 15 * uu * (p * p) + (135 / 10 * uu * (z * z) + uu / 10000)) <= uu * (p * p + z * z + 1)) by (apply Rmult_le_compat_l; lra). lra. }
    assert (RB : B <= rr p z) by apply HF. pose proof B_val as VB. unfold rr in *. pose proof (rc_sqrt _ _ _ R2 ltac:(lra) ltac:(apply mid_pos; lra) ltac:(apply mid_pos; lra) ltac:(lra)) as R3. eapply rc_le; [exact R3|lra].
Qed.
(** A point of the loop and its true place *)
Definition tracked (v : vec) (s : fvec) : Prop :=
  far (axis_distance v) (vz v) /\ rr (axis_distance v) (vz v) <= 100000 /\ Rabs (vz v) <= 1000 * axis_distance v /\
  near_coord (fx s) (vx v) /\ near_coord (fy s) (vy v) /\ near_coord (fz s) (vz v).
Lemma rr_norm v : rr (axis_distance v) (vz v) = norm v.
Proof. unfold rr, norm, dot. rewrite axis2. f_equal. ring. Qed.
Lemma km_tracked unit p : measures unit = Lengths -> finite_vec p -> clear_of_poles (place unit p) -> far (axis_distance (place unit p)) (vz (place unit p)) ->
  exists s, fkm unit p = Ok s /\ tracked (place unit p) s.
Proof.
  intros K (F1 & F2 & F3) (N & C) HF. pose proof (size_bounds unit) as SB. set (q := size unit / 1000). assert (Q : 1 / 4000000 <= q) by (unfold q; lra).
  assert (NP : norm (place unit p) = q * norm (vector p)) by (unfold place; rewrite norm_times, Rabs_pos_eq by (unfold q in Q; lra); reflexivity). rewrite NP in N.
  assert (N' : norm (vector p) <= bpow radix2 60). { pose proof pow_60. assert (0 <= norm (vector p)) by apply sqrt_pos. assert (1 / 4000000 * norm (vector p) <= q * norm (vector p)) by (apply Rmult_le_compat_r; auto). lra. }
  destruct (comp_norm (vector p)) as (X & Y & Z). cbn [vector vx vy vz] in X, Y, Z.
  destruct (coord_km unit (fx p) K F1 ltac:(lra)) as (x & E1 & G1 & O1). destruct (coord_km unit (fy p) K F2 ltac:(lra)) as (y & E2 & G2 & O2). destruct (coord_km unit (fz p) K F3 ltac:(lra)) as (z & E3 & G3 & O3).
  unfold fkm. rewrite E1, E2, E3. cbn [bind]. exists (FV x y z). split; [reflexivity|]. split; [exact HF|]. split; [rewrite rr_norm, NP; exact N|]. split; [exact C|].
  unfold near_coord. split; [split; [exact G1|exact O1]|]. split; [split; [exact G2|exact O2]|]. split; [exact G3|exact O3].
Qed.
Section Values.
Variable L : arrays.
Variable J : geodesy.
Hypothesis HL : accurate_arrays L.
Hypothesis HJ : accurate_geodesy J.
(** The values after [k] rounds *)
Definition follows (k : nat) (v : vec) (e : float * float) : Prop := let p := axis_distance v in let z := vz v in
  finite (fst e) /\ Rabs (value (fst e) - hk p z k) <= / 1000000 /\ finite (snd e) /\ Rabs (value (snd e) - atan (z / p * mk p z k)) <= 64 * uu.
Lemma z_near s v : tracked v s -> finite (fz s) /\ Rabs (value (fz s) - vz v) <= 7 * uu * Rabs (vz v) + ee.
Proof. intros (_ & _ & _ & _ & _ & F & E). split; auto. pose proof uu16. pose proof (Rabs_pos (vz v)). assert (0 <= uu * Rabs (vz v)) by (apply Rmult_le_pos; lra). lra. Qed.
Lemma first_follows v s : tracked v s -> follows 0 v (ffirst_vals J s).
Proof.
  intros T. pose proof (z_near s v T) as ZN. destruct s as [X Y Z]. destruct T as (HF & HR & HZ & NX & NY & NZ). cbn [fx fy fz] in *.
  destruct (point_rc _ _ _ _ _ _ NX NY NZ HF HR HZ) as (R1 & R2). exact (first J HJ _ _ HF HR HZ _ _ R1 ZN _ R2).
Qed.
Lemma next_follows v s k e : tracked v s -> follows k v e -> follows (S k) v (fnew_vals L J (faxis_distance s) (snd e) (fz s)).
Proof.
  intros T (_ & _ & F & E). pose proof (z_near s v T) as ZN. destruct s as [X Y Z]. destruct T as (HF & HR & HZ & NX & NY & NZ). cbn [fx fy fz] in *.
  destruct (point_rc _ _ _ _ _ _ NX NY NZ HF HR HZ) as (R1 & R2). pose proof (mk_range _ _ k HF) as MR. exact (step L J HL HJ _ _ HF HR HZ _ _ R1 ZN _ _ MR F E).
Qed.
End Values.
