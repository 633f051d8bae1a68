(** The angles of an attitude in floating point, from the two unit vectors. *)
From Coq Require Import ZArith Reals Lra Lia Psatz.
From Flocq Require Import Core.Core IEEE754.BinarySingleNaN IEEE754.Binary IEEE754.Bits.
From Verif Require Import Py Fl_Model Fl_Spec Fl_Proofs Flg_Model Flg_Spec Rot_Model Rot_Spec Rot_Proofs Geo_Model Geo_Spec Lvlh_Spec Lvlh_Proofs Lvlh_Props2 Flg_Proofs Flg_Proofs2 Flg_Proofs3 Flg_Proofs7
  Flc_Model Flc_Spec Flk_Proofs5 Flr_Model Flr_Spec Flr_Proofs Time_Model Flk_Model Flk_Spec Flv_Model Flv_Spec Flv_Proofs Flv_Proofs2.
Open Scope R_scope.
#[local] Strategy 1000 [fmul fadd fsub fdiv fneg of_Z].

(** ** Floats close to reals of about 1 *)
Definition cl (h : R) (x : float) (r : R) : Prop := finite x /\ Rabs (value x - r) <= h.
Lemma cl_le h h' x r : cl h x r -> h <= h' -> cl h' x r.
Proof. intros (F & E) H. split; auto. lra. Qed.
Lemma ee_uu : ee <= uu. Proof. pose proof (ee_small2 1 ltac:(change 1 with (bpow radix2 0); apply bpow_le; lia)). pose proof ee_pos. lra. Qed.
Lemma cl_neg h x r : cl h x r -> cl h (fneg x) (- r).
Proof. intros (F & E). destruct (fneg_ok' x F) as (F' & V). split; auto. rewrite V. replace (- value x - - r) with (- (value x - r)) by ring. now rewrite Rabs_Ropp. Qed.
Lemma cl_rnd y r q h : Rabs (y - r) <= h -> h <= 1 -> Rabs r <= q -> q <= 3 -> Rabs (rnd y - r) <= h + 5 * uu /\ Rabs y <= 4.
Proof.
  intros H H1 Q Q3. pose proof (rnd_mul_err y) as R. pose proof (err_abs _ _ _ H) as A. pose proof (err_trans _ _ _ _ _ R H). pose proof ee_uu. pose proof uu_pos. split; [|lra].
  assert (uu * Rabs y <= uu * 4) by (apply Rmult_le_compat_l; lra). lra.
Qed.
Lemma cl_add a b x y r q : cl a x r -> cl b y q -> a + b <= 1 -> Rabs (r + q) <= 3 -> cl (a + b + 5 * uu) (fadd x y) (r + q).
Proof.
  intros (F & E) (F' & E') H Q. pose proof (err_plus _ _ _ _ _ _ E E') as P. destruct (cl_rnd _ _ 3 _ P H Q ltac:(lra)) as (R & B).
  destruct (fadd_ok x y F F') as (F2 & V); [apply small_abs; lra|]. split; auto. rewrite V. exact R.
Qed.
Lemma cl_sub a b x y r q : cl a x r -> cl b y q -> a + b <= 1 -> Rabs (r - q) <= 3 -> cl (a + b + 5 * uu) (fsub x y) (r - q).
Proof.
  intros (F & E) (F' & E') H Q. assert (P : Rabs (value x - value y - (r - q)) <= a + b).
  { replace (value x - value y - (r - q)) with ((value x - r) - (value y - q)) by ring. eapply Rle_trans; [apply (Rabs_triang (value x - r) (- (value y - q)))|]. rewrite Rabs_Ropp. lra. }
  destruct (cl_rnd _ _ 3 _ P H Q ltac:(lra)) as (R & B).
  destruct (fsub_ok x y F F') as (F2 & V); [apply small_abs; lra|]. split; auto. rewrite V. exact R.
Qed.
Lemma cl_mul a b x y r q s t : cl a x r -> cl b y q -> Rabs r <= s -> Rabs q <= t -> s <= 1 -> t <= 1 -> a <= 1 / 10 -> b <= 1 / 10 ->
  cl (a * t + b * s + a * b + 5 * uu) (fmul x y) (r * q).
Proof.
  intros (F & E) (F' & E') S T S1 T1 A1 B1. pose proof (Rabs_pos r). pose proof (Rabs_pos q). pose proof (Rabs_pos (value x - r)). pose proof (Rabs_pos (value y - q)).
  assert (P : Rabs (value x * value y - r * q) <= a * t + b * s + a * b).
  { replace (value x * value y - r * q) with ((value x - r) * q + (value y - q) * r + (value x - r) * (value y - q)) by ring.
    eapply Rle_trans; [apply Rabs_triang|]. eapply Rle_trans; [apply Rplus_le_compat_r, Rabs_triang|]. rewrite !Rabs_mult.
    assert (Rabs (value x - r) * Rabs q <= a * t) by (apply Rmult_le_compat; lra). assert (Rabs (value y - q) * Rabs r <= b * s) by (apply Rmult_le_compat; lra).
    assert (Rabs (value x - r) * Rabs (value y - q) <= a * b) by (apply Rmult_le_compat; lra). lra. }
  assert (Q : Rabs (r * q) <= 1) by (rewrite Rabs_mult; nra).
  destruct (cl_rnd _ _ 1 _ P ltac:(nra) Q ltac:(lra)) as (R & B).
  destruct (fmul_ok x y F F') as (F2 & V); [apply small_abs; lra|]. split; auto. rewrite V. exact R.
Qed.
Lemma cl_div a b x y r q s : cl a x r -> cl b y q -> 1 <= q - b -> Rabs (r / q) <= s -> s <= 1 -> a <= 1 / 10 -> b <= 1 / 10 ->
  cl (a + b * s + 5 * uu) (fdiv x y) (r / q).
Proof.
  intros (F & E) (F' & E') Q S S1 A B. pose proof (Rabs_le_inv _ _ E') as E2. set (Y := value y) in *. assert (Y1 : 1 <= Y) by lra. pose proof (Rabs_pos (Y - q)) as P0. pose proof (Rabs_pos (value x - r)) as P1. pose proof (Rabs_pos (r / q)) as P2.
  assert (P : Rabs (value x / Y - r / q) <= a + b * s).
  { replace (value x / Y - r / q) with (((value x - r) - (r / q) * (Y - q)) * / Y) by (field; lra). rewrite Rabs_mult, (Rabs_pos_eq (/ Y)) by (left; apply Rinv_0_lt_compat; lra).
    assert (I : / Y <= 1) by (rewrite <- Rinv_1; apply Rinv_le_contravar; lra). assert (0 < / Y) by (apply Rinv_0_lt_compat; lra).
    assert (N : Rabs (value x - r - r / q * (Y - q)) <= a + b * s).
    { eapply Rle_trans; [apply (Rabs_triang (value x - r) (- (r / q * (Y - q))))|]. rewrite Rabs_Ropp, Rabs_mult. assert (Rabs (r / q) * Rabs (Y - q) <= s * b) by (apply Rmult_le_compat; lra). lra. }
    pose proof (Rabs_pos (value x - r - r / q * (Y - q))). nra. }
  assert (H1 : a + b * s <= 1) by nra.
  destruct (cl_rnd _ _ s _ P H1 S ltac:(lra)) as (R & B'). destruct (fdiv_ok x y F) as (F2 & V); [fold Y; lra|fold Y; apply small_abs; lra|]. split; auto. rewrite V. exact R.
Qed.

(** ** The entries *)
Section Core.
Variables (s g : fvec) (t : vec) (n : R).
Hypothesis Fs : finite_vec s.
Hypothesis Fg : finite_vec g.
Hypothesis Es : norm (sub (vector s) nadir) <= n.
Hypothesis Eg : norm (sub (vector g) t) <= n.
Hypothesis T1 : dot t t = 1.
Hypothesis T2 : / 100 <= vz t.
Hypothesis N1 : n <= / 100000.
Hypothesis N2 : 100000 * uu <= n.
Let th := 201 / 100 * n.

Lemma comps : Rabs (vx t) <= 1 /\ Rabs (vy t) <= 1 /\ vz t <= 1 /\ norm t = 1.
Proof.
  assert (norm t = 1) by (unfold norm; rewrite T1; apply sqrt_1). destruct (comp_norm t) as (X & Y & Z). apply Rabs_le_inv in Z. repeat split; lra.
Qed.
Lemma norm_nadir : norm nadir = 1.
Proof. unfold norm, dot, nadir. cbn [vx vy vz]. replace (0 * 0 + 0 * 0 + 1 * 1) with 1 by ring. apply sqrt_1. Qed.
Lemma near_one a b : norm b = 1 -> norm (sub a b) <= n -> 1 - n <= norm a <= 1 + n.
Proof. intros B H. pose proof (norm_near a b) as N. apply Rabs_le_inv in N. lra. Qed.
Lemma sized_one a b : finite_vec a -> norm b = 1 -> norm (sub (vector a) b) <= n -> sized a.
Proof.
  intros F B H. pose proof (near_one _ _ B H) as N. split; auto. pose proof uu_pos.
  assert (bpow radix2 (-400) <= / 2) by (change (/ 2) with (bpow radix2 (-1)); apply bpow_le; lia). assert (2 <= bpow radix2 100) by (change 2 with (bpow radix2 1); apply bpow_le; lia). lra.
Qed.
Lemma v_close : let v := fcross s g in cl th (fx v) (- vy t) /\ cl th (fy v) (vx t) /\ cl th (fz v) 0.
Proof.
  cbv zeta. destruct comps as (_ & _ & _ & NT). pose proof norm_nadir as NN. pose proof (near_one _ _ NN Es) as Ns. pose proof (near_one _ _ NT Eg) as Ng. pose proof uu_pos as U.
  pose proof (sized_one _ _ Fs NN Es) as (_ & S1 & S2). pose proof (sized_one _ _ Fg NT Eg) as (_ & S3 & S4).
  destruct (cross_ok s g (conj Fs S2) (conj Fg S4)) as (F & E). pose proof ee_uu as EU.
  pose proof (product_near nadir t (vector s) (vector g)) as P. rewrite NN in P.
  pose proof (norm_tri (vector (fcross s g)) (product (vector s) (vector g)) (product nadir t)) as T.
  assert (W1 : norm (vector s) * norm (vector g) <= 1001 / 1000 * (1001 / 1000)) by (apply Rmult_le_compat; try apply norm_pos; lra).
  assert (W2 : uu * (norm (vector s) * norm (vector g)) <= uu * (1001 / 1000 * (1001 / 1000))) by (apply Rmult_le_compat_l; lra).
  assert (W3 : norm (sub (vector s) nadir) * norm (vector g) <= n * (1001 / 1000)) by (apply Rmult_le_compat; try apply norm_pos; lra).
  assert (X : norm (sub (vector (fcross s g)) (product nadir t)) <= th) by (unfold th; lra).
  assert (PN : product nadir t = V (- vy t) (vx t) 0) by (unfold product, nadir; cbn [vx vy vz]; f_equal; ring). rewrite PN in X.
  destruct F as (F1 & F2 & F3). destruct (comp_norm (sub (vector (fcross s g)) (V (- vy t) (vx t) 0))) as (C1 & C2 & C3).
  change (Rabs (value (fx (fcross s g)) - - vy t) <= norm (sub (vector (fcross s g)) (V (- vy t) (vx t) 0))) in C1.
  change (Rabs (value (fy (fcross s g)) - vx t) <= norm (sub (vector (fcross s g)) (V (- vy t) (vx t) 0))) in C2.
  change (Rabs (value (fz (fcross s g)) - 0) <= norm (sub (vector (fcross s g)) (V (- vy t) (vx t) 0))) in C3.
  split; [|split]; (split; [assumption|lra]).
Qed.
Lemma c_close : cl th (fdot s g) (vz t).
Proof.
  destruct comps as (_ & _ & _ & NT). pose proof norm_nadir as NN. pose proof (near_one _ _ NN Es) as Ns. pose proof (near_one _ _ NT Eg) as Ng. pose proof uu_pos as U.
  destruct (dot_ok s g (sized_one _ _ Fs NN Es) (sized_one _ _ Fg NT Eg)) as (F & E). split; auto.
  assert (W1 : norm (vector s) * norm (vector g) <= 1001 / 1000 * (1001 / 1000)) by (apply Rmult_le_compat; try apply norm_pos; lra).
  assert (W2 : uu * (norm (vector s) * norm (vector g)) <= uu * (1001 / 1000 * (1001 / 1000))) by (apply Rmult_le_compat_l; lra).
  assert (D : Rabs (dot (vector s) (vector g) - vz t) <= 2001 / 1000 * n).
  { replace (dot (vector s) (vector g) - vz t) with (dot (sub (vector s) nadir) (vector g) + dot nadir (sub (vector g) t)) by (unfold dot, sub, nadir; cbn [vx vy vz]; ring).
    eapply Rle_trans; [apply Rabs_triang|]. pose proof (cauchy_norm (sub (vector s) nadir) (vector g)) as C1. pose proof (cauchy_norm nadir (sub (vector g) t)) as C2. rewrite NN in C2.
    assert (W3 : norm (sub (vector s) nadir) * norm (vector g) <= n * (1001 / 1000)) by (apply Rmult_le_compat; try apply norm_pos; lra). lra. }
  pose proof (err_trans _ _ _ _ _ E D). unfold th. lra.
Qed.
Lemma entries_close : let v := fcross s g in let d := fadd (of_Z 1) (fdot s g) in let h := 11 * n in
  cl h (fadd (fx v) (fdiv (fmul (fy v) (fz v)) d)) (- vy t) /\
  cl h (fadd (fneg (fy v)) (fdiv (fmul (fx v) (fz v)) d)) (- vx t) /\
  cl h (fsub (of_Z 1) (fdiv (fadd (fsquare (fx v)) (fsquare (fy v))) d)) (vz t) /\
  cl h (fadd (fneg (fz v)) (fdiv (fmul (fx v) (fy v)) d)) (- (vx t * vy t / (1 + vz t))) /\
  cl h (fsub (of_Z 1) (fdiv (fadd (fsquare (fx v)) (fsquare (fz v))) d)) (1 - vy t * vy t / (1 + vz t)).
Proof.
  cbv zeta. destruct comps as (X & Y & Z & _). destruct v_close as (C0 & C1 & C2). pose proof c_close as CC. set (v := fcross s g) in *. clearbody v. set (c := fdot s g) in *. clearbody c.
  pose proof uu_pos as U. assert (H0 : 0 <= th <= / 40000) by (unfold th; lra). assert (HU : 5 * uu <= th / 10000) by (unfold th; lra).
  assert (TT : 11 * n >= 54 / 10 * th) by (unfold th; lra). clearbody th. set (h := 11 * n) in *. clearbody h.
  set (x := vx t) in *. set (y := vy t) in *. set (z := vz t) in *. assert (SQ : x * x + y * y + z * z = 1) by exact T1. clearbody x y z.
  assert (One : cl 0 (of_Z 1) 1). { destruct (of_Z_ok 1 ltac:(lia)) as (F & V). split; auto. rewrite V. replace (1 - 1) with 0 by ring. rewrite Rabs_R0. lra. }
  assert (Z1 : Rabs (1 + z) <= 3) by (apply Rabs_le; lra).
  pose proof (cl_le _ (1001 / 1000 * th) _ _ (cl_add _ _ _ _ _ _ One CC ltac:(lra) Z1) ltac:(lra)) as CD. set (d := fadd (of_Z 1) c) in *. clearbody d.
  assert (Y' : Rabs (- y) <= 1) by (rewrite Rabs_Ropp; lra). assert (Z0 : Rabs 0 <= 0) by (rewrite Rabs_R0; lra). assert (TS : th * th <= th / 40000) by nra.
  assert (DV : forall a r, 0 <= a <= / 100 -> Rabs r <= 1 + z -> forall q : float, cl a q r -> cl (a + 1001 / 1000 * th + 5 * uu) (fdiv q d) (r / (1 + z))).
  { intros a r A R q Q. assert (B1 : Rabs (r / (1 + z)) <= 1). { unfold Rdiv. rewrite Rabs_mult, (Rabs_pos_eq (/ (1 + z))) by (left; apply Rinv_0_lt_compat; lra). apply Rmult_le_reg_r with (1 + z); [lra|]. rewrite Rmult_assoc, Rinv_l by lra. lra. }
    apply (cl_le _ _ _ _ (cl_div _ _ _ _ _ _ 1 Q CD ltac:(lra) B1 ltac:(lra) ltac:(lra) ltac:(lra))). lra. }
  assert (D0 : forall a, 0 <= a <= / 100 -> forall q : float, cl a q 0 -> cl (a + 5 * uu) (fdiv q d) 0).
  { intros a A q Q. assert (E : 0 / (1 + z) = 0) by (unfold Rdiv; ring). assert (B1 : Rabs (0 / (1 + z)) <= 0) by (rewrite E; exact Z0).
    rewrite <- E. apply (cl_le _ _ _ _ (cl_div _ _ _ _ _ _ 0 Q CD ltac:(lra) B1 ltac:(lra) ltac:(lra) ltac:(lra))). lra. }
  assert (M1 : cl (1001 / 1000 * th) (fmul (fy v) (fz v)) 0). { replace 0 with (x * 0) by ring. apply (cl_le _ _ _ _ (cl_mul _ _ _ _ _ _ 1 0 C1 C2 X Z0 ltac:(lra) ltac:(lra) ltac:(lra) ltac:(lra))). lra. }
  assert (M2 : cl (1001 / 1000 * th) (fmul (fx v) (fz v)) 0). { replace 0 with (- y * 0) by ring. apply (cl_le _ _ _ _ (cl_mul _ _ _ _ _ _ 1 0 C0 C2 Y' Z0 ltac:(lra) ltac:(lra) ltac:(lra) ltac:(lra))). lra. }
  assert (M3 : cl (2001 / 1000 * th) (fmul (fx v) (fy v)) (- y * x)). { apply (cl_le _ _ _ _ (cl_mul _ _ _ _ _ _ 1 1 C0 C1 Y' X ltac:(lra) ltac:(lra) ltac:(lra) ltac:(lra))). lra. }
  assert (M4 : cl (2001 / 1000 * th) (fsquare (fx v)) (- y * - y)). { apply (cl_le _ _ _ _ (cl_mul _ _ _ _ _ _ 1 1 C0 C0 Y' Y' ltac:(lra) ltac:(lra) ltac:(lra) ltac:(lra))). lra. }
  assert (M5 : cl (2001 / 1000 * th) (fsquare (fy v)) (x * x)). { apply (cl_le _ _ _ _ (cl_mul _ _ _ _ _ _ 1 1 C1 C1 X X ltac:(lra) ltac:(lra) ltac:(lra) ltac:(lra))). lra. }
  assert (M6 : cl (1 / 1000 * th) (fsquare (fz v)) (0 * 0)). { apply (cl_le _ _ _ _ (cl_mul _ _ _ _ _ _ 0 0 C2 C2 Z0 Z0 ltac:(lra) ltac:(lra) ltac:(lra) ltac:(lra))). lra. }
  apply Rabs_le_inv in X as X2. apply Rabs_le_inv in Y as Y2.
  assert (XX : 0 <= x * x) by nra. assert (YY : 0 <= y * y) by nra. assert (ZZ : z * z <= 1) by nra.
  assert (S1 : cl (4003 / 1000 * th) (fadd (fsquare (fx v)) (fsquare (fy v))) (1 - z * z)).
  { replace (1 - z * z) with (- y * - y + x * x) by lra. assert (B : Rabs (- y * - y + x * x) <= 3) by (apply Rabs_le; nra).
    apply (cl_le _ _ _ _ (cl_add _ _ _ _ _ _ M4 M5 ltac:(lra) B)). lra. }
  assert (S2 : cl (2003 / 1000 * th) (fadd (fsquare (fx v)) (fsquare (fz v))) (y * y)).
  { replace (y * y) with (- y * - y + 0 * 0) by ring. assert (B : Rabs (- y * - y + 0 * 0) <= 3) by (apply Rabs_le; nra).
    apply (cl_le _ _ _ _ (cl_add _ _ _ _ _ _ M4 M6 ltac:(lra) B)). lra. }
  split; [|split; [|split; [|split]]].
  - pose proof (D0 (1001 / 1000 * th) ltac:(lra) _ M1) as Q. replace (- y) with (- y + 0) by ring. assert (B : Rabs (- y + 0) <= 3) by (apply Rabs_le; lra). apply (cl_le _ _ _ _ (cl_add _ _ _ _ _ _ C0 Q ltac:(lra) B)). lra.
  - pose proof (D0 (1001 / 1000 * th) ltac:(lra) _ M2) as Q. replace (- x) with (- x + 0) by ring. assert (B : Rabs (- x + 0) <= 3) by (apply Rabs_le; lra). apply (cl_le _ _ _ _ (cl_add _ _ _ _ _ _ (cl_neg _ _ _ C1) Q ltac:(lra) B)). lra.
  - assert (B : Rabs (1 - z * z) <= 1 + z) by (apply Rabs_le; nra). pose proof (DV (4003 / 1000 * th) _ ltac:(lra) B _ S1) as Q.
    replace ((1 - z * z) / (1 + z)) with (1 - z) in Q by (field; lra). replace z with (1 - (1 - z)) at 1 by ring. assert (B' : Rabs (1 - (1 - z)) <= 3) by (apply Rabs_le; lra). apply (cl_le _ _ _ _ (cl_sub _ _ _ _ _ _ One Q ltac:(lra) B')). lra.
  - assert (B : Rabs (- y * x) <= 1 + z). { apply Rabs_le. split; nra. } pose proof (DV (2001 / 1000 * th) _ ltac:(lra) B _ M3) as Q.
    assert (B' : Rabs (- y * x / (1 + z)) <= 1). { unfold Rdiv. rewrite Rabs_mult, (Rabs_pos_eq (/ (1 + z))) by (left; apply Rinv_0_lt_compat; lra). apply Rmult_le_reg_r with (1 + z); [lra|]. rewrite Rmult_assoc, Rinv_l by lra. lra. }
    replace (- (x * y / (1 + z))) with (- 0 + - y * x / (1 + z)) by (field; lra). assert (B2 : Rabs (- 0 + - y * x / (1 + z)) <= 3) by (rewrite Ropp_0, Rplus_0_l; lra).
    apply (cl_le _ _ _ _ (cl_add _ _ _ _ _ _ (cl_neg _ _ _ C2) Q ltac:(lra) B2)). lra.
  - assert (B : Rabs (y * y) <= 1 + z). { apply Rabs_le. split; nra. } pose proof (DV (2003 / 1000 * th) _ ltac:(lra) B _ S2) as Q.
    assert (B' : 0 <= y * y / (1 + z) <= 1). { split; [apply Rmult_le_pos; [lra|left; apply Rinv_0_lt_compat; lra]|]. apply Rmult_le_reg_r with (1 + z); [lra|]. unfold Rdiv. rewrite Rmult_assoc, Rinv_l by lra. nra. }
    assert (B2 : Rabs (1 - y * y / (1 + z)) <= 3) by (apply Rabs_le; lra). apply (cl_le _ _ _ _ (cl_sub _ _ _ _ _ _ One Q ltac:(lra) B2)). lra.
Qed.
End Core.
