(** The LVLH coordinates that attitudes are computed from. *)
From Coq Require Import ZArith Reals Lra Lia Psatz.
From Flocq Require Import Core.Core IEEE754.BinarySingleNaN IEEE754.Binary IEEE754.Bits.
From Verif Require Import Py Fl_Model Fl_Spec Fl_Proofs Flg_Model Flg_Spec Rot_Model Rot_Spec Rot_Proofs Geo_Spec Lvlh_Spec Lvlh_Proofs Flg_Proofs Flg_Proofs2 Flg_Proofs3 Flg_Proofs7
  Flc_Model Flr_Model Flr_Spec Flr_Proofs Flr_Proofs7 Flv_Model Flv_Spec Flv_Proofs Flv_Proofs2.
Open Scope R_scope.
#[local] Strategy 1000 [fmul fadd fsub fdiv fneg].

(** A relative error *)
Definition rel (e : R) (a b : vec) : Prop := norm (sub a b) <= e * norm b.
Lemma rel_norm e a b : rel e a b -> (1 - e) * norm b <= norm a <= (1 + e) * norm b.
Proof. unfold rel. intros H. pose proof (norm_near a b) as N. apply Rabs_le_inv in N. lra. Qed.
Lemma rel_le e e' a b : rel e a b -> e <= e' -> rel e' a b.
Proof. unfold rel. intros H E. pose proof (norm_pos b). nra. Qed.
Lemma rel_trans e f a b c : 0 <= e -> 0 <= f -> rel e a b -> rel f b c -> rel (e + f + e * f) a c.
Proof.
  unfold rel. intros E F A B. pose proof (norm_tri a b c) as T. pose proof (norm_diff b c) as D. pose proof (norm_pos c).
  assert (e * norm b <= e * (norm c + f * norm c)) by (apply Rmult_le_compat_l; lra). lra.
Qed.
Lemma rel_times e a b k : 0 < k -> rel e a b -> rel e (times k a) (times k b).
Proof.
  unfold rel. intros K H. replace (sub (times k a) (times k b)) with (times k (sub a b)) by (unfold sub, times; cbn [vx vy vz]; f_equal; ring).
  rewrite !norm_times, (Rabs_pos_eq k) by lra. nra.
Qed.

(** ** The axes at points close to others *)
Lemma product_rel p v p' v' e k : 0 <= e <= / 1000 -> 1 <= k -> rel e p' p -> rel e v' v -> norm p * norm v <= k * norm (product p v) ->
  rel (201 / 100 * (k * e)) (product p' v') (product p v).
Proof.
  intros E K P V H. pose proof (product_near p v p' v') as N. pose proof (rel_norm _ _ _ V) as NV. pose proof (norm_pos p). pose proof (norm_pos v). pose proof (norm_pos v'). unfold rel in *.
  pose proof (norm_pos (sub p' p)). pose proof (norm_pos (sub v' v)).
  assert (A : norm (sub p' p) * norm v' <= (e * norm p) * ((1 + e) * norm v)) by (apply Rmult_le_compat; lra).
  assert (B : norm p * norm (sub v' v) <= norm p * (e * norm v)) by (apply Rmult_le_compat_l; lra).
  assert (Q : 0 <= norm p * norm v) by (apply Rmult_le_pos; lra). set (s := norm p * norm v) in *.
  replace (e * norm p * ((1 + e) * norm v)) with (e * (1 + e) * s) in A by (unfold s; ring). replace (norm p * (e * norm v)) with (e * s) in B by (unfold s; ring).
  assert (e * s <= e * (k * norm (product p v))) by (apply Rmult_le_compat_l; lra). assert (0 <= e * s) by (apply Rmult_le_pos; lra).
  assert (e * (e * s) <= / 1000 * (e * s)) by (apply Rmult_le_compat_r; lra). lra.
Qed.
Lemma spread_near p v p' v' e k : 0 <= e -> 1 <= k -> k * e <= / 1000 -> rel e p' p -> rel e v' v -> norm p * norm v <= k * norm (product p v) ->
  norm p' * norm v' <= 101 / 100 * k * norm (product p' v').
Proof.
  intros E K KE P V H. assert (E' : e <= / 1000) by nra. pose proof (product_rel _ _ _ _ _ _ (conj E E') K P V H) as R. apply rel_norm in R. pose proof (rel_norm _ _ _ P) as NP. pose proof (rel_norm _ _ _ V) as NV.
  pose proof (norm_pos p). pose proof (norm_pos v). pose proof (norm_pos v'). pose proof (norm_pos p'). pose proof (norm_pos (product p v)).
  assert (A : norm p' * norm v' <= (1 + / 1000) * norm p * ((1 + / 1000) * norm v)) by (apply Rmult_le_compat; nra).
  assert (B : 997 / 1000 * norm (product p v) <= norm (product p' v')) by nra. nra.
Qed.
Lemma row_near a b x e : norm (sub a b) <= e -> Rabs (dot a x - dot b x) <= e * norm x.
Proof.
  intros H. replace (dot a x - dot b x) with (dot (sub a b) x) by (unfold dot, sub; cbn [vx vy vz]; ring). eapply Rle_trans; [apply cauchy_norm|].
  apply Rmult_le_compat_r; [apply norm_pos|exact H].
Qed.
Lemma axes_near p v p' v' e k x : 0 <= e -> 1 <= k -> k * e <= / 10000 -> 0 < norm p -> 0 < norm v -> rel e p' p -> rel e v' v -> norm p * norm v <= k * norm (product p v) ->
  norm (sub (on_axes p' v' x) (on_axes p v x)) <= 123 / 10 * (k * e) * norm x.
Proof.
  intros E K KE Pp Pv P V H. assert (E' : e <= / 1000) by nra. pose proof (product_rel _ _ _ _ _ _ (conj E E') K P V H) as R.
  assert (C : 0 < norm (product p v)). { assert (0 < norm p * norm v) by (apply Rmult_lt_0_compat; lra). nra. }
  destruct (unit_near p' p e Pp ltac:(lra) P) as (_ & D1). assert (Ke : 0 <= k * e) by (apply Rmult_le_pos; lra).
  destruct (unit_near _ _ (201 / 100 * (k * e)) C ltac:(lra) R) as (_ & D2). rewrite <- sub_opposite in D1, D2.
  fold (down p) (down p') in D1. fold (right p v) (right p' v') in D2. assert (e <= k * e) by nra.
  pose proof (product_near (right p v) (down p) (right p' v') (down p')) as D3. fold (forward p v) (forward p' v') in D3.
  assert (Nr : norm (right p v) = 1) by (unfold right; rewrite norm_opposite; now apply norm_unit).
  assert (Nd : norm (down p) = 1) by (unfold down; rewrite norm_opposite; now apply norm_unit).
  pose proof (norm_diff (down p') (down p)) as Nd'. rewrite Nd in Nd'. rewrite Nr in D3. pose proof (norm_pos (sub (right p' v') (right p v))). pose proof (norm_pos (down p')).
  assert (A : norm (sub (right p' v') (right p v)) * norm (down p') <= (4.0401 * (k * e)) * (1001 / 1000)) by (apply Rmult_le_compat; lra).
  assert (F : norm (sub (forward p' v') (forward p v)) <= 615 / 100 * (k * e)) by lra.
  replace (123 / 10 * (k * e) * norm x) with (2 * (615 / 100 * (k * e) * norm x)) by field. pose proof (norm_pos x).
  apply norm_within; [apply Rmult_le_pos; lra|]. unfold on_axes, sub. cbn [vx vy vz].
  split; [|split]; apply row_near; lra.
Qed.

(** ** Units *)
Lemma exact_km_times unit p : exact_km unit p = times (size unit / 1000) (vector p).
Proof. unfold exact_km, times, vector. cbn [vx vy vz]. f_equal; field. Qed.
Lemma scale_err c q x : finite c -> finite x -> Rabs (value c - q) <= 5 * uu * q -> 0 < q <= bpow radix2 30 -> Rabs (value x) <= bpow radix2 60 ->
  finite (fmul x c) /\ Rabs (value (fmul x c) - q * value x) <= 61 / 10 * uu * Rabs (q * value x) + ee.
Proof.
  intros Fc Fx E Q X. pose proof uu_pos as U. pose proof (uu_shrink q ltac:(lra)) as US. apply Rabs_le_inv in E.
  assert (C : Rabs (value c) <= bpow radix2 31). { change (bpow radix2 31) with (bpow radix2 (1 + 30)). rewrite bpow_plus. change (bpow radix2 1) with 2. apply Rabs_le. lra. }
  destruct (fmul_ok x c Fx Fc) as (F & V). { rewrite Rabs_mult. apply Rle_trans with (bpow radix2 60 * bpow radix2 31); [apply Rmult_le_compat; auto using Rabs_pos|]. rewrite <- bpow_plus. apply bpow_le. lia. }
  split; auto. rewrite V. pose proof (rnd_mul_err (value x * value c)) as R.
  assert (D : Rabs (value x * value c - q * value x) <= 5 * uu * Rabs (q * value x)).
  { replace (value x * value c - q * value x) with ((value c - q) * value x) by ring. rewrite !Rabs_mult, (Rabs_pos_eq q) by lra. rewrite <- Rmult_assoc. apply Rmult_le_compat_r; [apply Rabs_pos|]. apply Rabs_le. lra. }
  pose proof (err_trans _ _ _ _ _ R D) as T. pose proof (err_abs _ _ _ D) as T'. set (b := Rabs (q * value x)) in *. assert (0 <= b) by apply Rabs_pos.
  pose proof (uu_shrink2 b ltac:(lra)). assert (0 <= uu * b) by (apply Rmult_le_pos; lra).
  assert (uu * Rabs (value x * value c) <= uu * (b + 5 * uu * b)) by (apply Rmult_le_compat_l; lra). lra.
Qed.
Lemma box_err d a k t : 0 <= k -> 0 <= t -> Rabs (vx d) <= k * Rabs (vx a) + t -> Rabs (vy d) <= k * Rabs (vy a) + t -> Rabs (vz d) <= k * Rabs (vz a) + t -> norm d <= k * norm a + 2 * t.
Proof.
  intros K T X Y Z. set (b := V (Rabs (vx a)) (Rabs (vy a)) (Rabs (vz a))).
  assert (N : norm b = norm a) by (unfold norm, dot, b; cbn [vx vy vz]; rewrite <- !Rabs_mult, !Rabs_pos_eq by nra; reflexivity).
  pose proof (norm_sum (times k b) (V t t t)) as S. rewrite norm_times, N, (Rabs_pos_eq k) in S by lra.
  assert (N3 : norm (V t t t) <= 2 * t) by (apply norm_within; auto; unfold vec_within; cbn [vx vy vz]; rewrite Rabs_pos_eq by lra; lra).
  assert (M : norm d <= norm (V (vx (times k b) + vx (V t t t)) (vy (times k b) + vy (V t t t)) (vz (times k b) + vz (V t t t)))); [|lra].
  replace (norm d) with (1 * norm d) by ring. rewrite <- (Rmult_1_l (norm (V _ _ _))). rewrite Rmult_1_l. apply norm_scaled; [lra| | |]; unfold times, b; cbn [vx vy vz];
    rewrite Rmult_1_l, (Rabs_pos_eq (_ + t)); auto; pose proof (Rabs_pos (vx a)); pose proof (Rabs_pos (vy a)); pose proof (Rabs_pos (vz a)); nra.
Qed.
Lemma km_err unit p : measures unit = Lengths -> finite_vec p -> norm (vector p) <= bpow radix2 60 -> exists s, fkm unit p = Ok s /\ finite_vec s /\
  norm (sub (vector s) (times (size unit / 1000) (vector p))) <= 61 / 10 * uu * norm (times (size unit / 1000) (vector p)) + 2 * ee.
Proof.
  intros K (F1 & F2 & F3) N. apply Flg_Proofs6.measures_length in K. destruct (comp_norm (vector p)) as (X & Y & Z). cbn [vector vx vy vz] in X, Y, Z. pose proof uu_pos as U. pose proof ee_pos as EP.
  pose proof (size_bounds unit) as SB. set (q := size unit / 1000). assert (Q : 0 < q <= 90) by (unfold q; lra).
  assert (C : forall x, finite x -> Rabs (value x) <= norm (vector p) -> exists y, fconvert x unit Ukm = Ok y /\ finite y /\ Rabs (value y - q * value x) <= 61 / 10 * uu * Rabs (q * value x) + ee).
  { intros x Fx Bx. unfold fconvert. rewrite K. cbn [kind_of kind_eqb negb]. destruct (unit_eqb unit Ukm) eqn:E.
    - apply unit_eqb_iff in E. subst unit. exists x. split; auto. split; auto. unfold q. cbn [size]. replace (value x - 1000 / 1000 * value x) with 0 by field. rewrite Rabs_R0.
      pose proof (Rabs_pos (1000 / 1000 * value x)). assert (0 <= uu * Rabs (1000 / 1000 * value x)) by (apply Rmult_le_pos; lra). lra.
    - eexists. split; [reflexivity|]. destruct (factor_ok unit Ukm K) as (Fc & Oc). apply scale_err; auto; [|split; [lra|]; apply Rle_trans with (bpow radix2 7); [change (bpow radix2 7) with 128; lra|apply bpow_le; lia]|lra].
      destruct Oc as (e & A & B). change (size Ukm) with 1000 in B. fold q in B. rewrite B. replace (q * (1 + e) - q) with (e * q) by ring. rewrite Rabs_mult, (Rabs_pos_eq q) by lra. apply Rmult_le_compat_r; lra. }
  destruct (C _ F1 X) as (x & E1 & G1 & O1). destruct (C _ F2 Y) as (y & E2 & G2 & O2). destruct (C _ F3 Z) as (z & E3 & G3 & O3).
  unfold fkm. rewrite E1, E2, E3. cbn [bind]. exists (FV x y z). split; [reflexivity|]. split; [split; [exact G1|split; [exact G2|exact G3]]|].
  apply box_err; [lra|lra|exact O1|exact O2|exact O3].
Qed.
Lemma speed_err factor v : finite_vec v -> norm (vector v) <= bpow radix2 60 -> fair factor ->
  finite_vec (fspeed factor v) /\ norm (sub (vector (fspeed factor v)) (times (times_factor factor) (vector v))) <= 61 / 10 * uu * norm (times (times_factor factor) (vector v)) + 2 * ee.
Proof.
  intros (F1 & F2 & F3) N H. pose proof uu_pos as U. pose proof ee_pos as EP. destruct factor as [c|]; cbn [fair times_factor fspeed] in *.
  - destruct H as (Fc & C1 & C2). destruct (comp_norm (vector v)) as (X & Y & Z). cbn [vector vx vy vz] in X, Y, Z. set (q := value c) in *.
    assert (Q : 0 < q <= bpow radix2 30). { split; [apply Rlt_le_trans with (2 := C1); apply Rinv_0_lt_compat, pow_lt; lra|]. apply Rle_trans with (1 := C2). rewrite pow_bpow. apply bpow_le. lia. }
    assert (D : forall x, finite x -> Rabs (value x) <= norm (vector v) -> finite (fmul x c) /\ Rabs (value (fmul x c) - q * value x) <= 61 / 10 * uu * Rabs (q * value x) + ee).
    { intros x Fx Bx. apply scale_err; auto; [|lra]. fold q. replace (q - q) with 0 by ring. rewrite Rabs_R0. apply Rmult_le_pos; lra. }
    destruct (D _ F1 X) as (G1 & O1). destruct (D _ F2 Y) as (G2 & O2). destruct (D _ F3 Z) as (G3 & O3).
    split; [split; [exact G1|split; [exact G2|exact G3]]|]. apply box_err; [lra|lra|exact O1|exact O2|exact O3].
  - split; [split; [exact F1|split; [exact F2|exact F3]]|]. replace (sub (vector v) (times 1 (vector v))) with (V 0 0 0) by (unfold sub, times; cbn [vx vy vz]; f_equal; ring).
    rewrite norm_0. pose proof (norm_pos (times 1 (vector v))). assert (0 <= uu * norm (times 1 (vector v))) by (apply Rmult_le_pos; lra). lra.
Qed.
