(** Norms and cosines of vectors of floats, and the angle computed from them. *)
From Coq Require Import ZArith Reals Lra Lia Psatz.
From Flocq Require Import Core.Core IEEE754.BinarySingleNaN IEEE754.Binary IEEE754.Bits.
From Verif Require Import Py Fl_Model Fl_Spec Fl_Proofs Flg_Model Flg_Spec Rot_Model Rot_Spec Flg_Proofs Flg_Num Flg_Proofs2.
Open Scope R_scope.

(** A vector of floats of moderate size *)
Definition sized (v : fvec) : Prop := finite_vec v /\ bpow radix2 (-400) <= norm (vector v) <= bpow radix2 100.

Lemma comp_norm v : Rabs (vx v) <= norm v /\ Rabs (vy v) <= norm v /\ Rabs (vz v) <= norm v.
Proof.
  pose proof (norm_sq v) as N. pose proof (norm_pos v) as P. unfold dot in N.
  repeat split; apply sq_le; auto; nra.
Qed.
Lemma sized_big v : sized v -> Rabs (value (fx v)) <= big /\ Rabs (value (fy v)) <= big /\ Rabs (value (fz v)) <= big.
Proof.
  intros (_ & _ & H). destruct (comp_norm (vector v)) as (A & B & C). cbn [vector vx vy vz] in *.
  assert (bpow radix2 100 <= big) by (apply bpow_le; lia). lra.
Qed.
Lemma abs_cauchy u v : Rabs (vx u * vx v) + Rabs (vy u * vy v) + Rabs (vz u * vz v) <= norm u * norm v.
Proof.
  set (u' := V (Rabs (vx u)) (Rabs (vy u)) (Rabs (vz u))). set (v' := V (Rabs (vx v)) (Rabs (vy v)) (Rabs (vz v))).
  assert (Q : forall x, Rabs x * Rabs x = x * x) by (intros x; rewrite <- Rabs_mult; apply Rabs_pos_eq; nra).
  assert (Nu : norm u' = norm u) by (unfold norm, dot, u'; cbn [vx vy vz]; now rewrite !Q).
  assert (Nv : norm v' = norm v) by (unfold norm, dot, v'; cbn [vx vy vz]; now rewrite !Q).
  pose proof (cauchy_norm u' v') as C. rewrite Nu, Nv in C. rewrite !Rabs_mult. eapply Rle_trans; [|exact C]. apply Rle_abs.
Qed.
Lemma ee_small p : bpow radix2 (-800) <= p -> 4 * ee <= uu * p.
Proof.
  intros P. assert (E : 4 * ee = bpow radix2 (-1058)) by (unfold ee; change 4 with (bpow radix2 2); now rewrite <- bpow_plus).
  assert (U : uu = bpow radix2 (-53)) by (unfold uu; change (/ 2) with (bpow radix2 (-1)); now rewrite <- bpow_plus).
  rewrite E. apply Rle_trans with (uu * bpow radix2 (-800)).
  - rewrite U, <- bpow_plus. apply bpow_le. lia.
  - apply Rmult_le_compat_l; auto. left. apply uu_pos.
Qed.
Lemma sized_prod u v : sized u -> sized v -> bpow radix2 (-800) <= norm (vector u) * norm (vector v) <= bpow radix2 200.
Proof.
  intros (_ & A & B) (_ & C & D). pose proof (bpow_gt_0 radix2 (-400)) as P.
  change (-800)%Z with (-400 + -400)%Z. change 200%Z with (100 + 100)%Z. rewrite !bpow_plus. split; apply Rmult_le_compat; lra.
Qed.
(** The dot product *)
Lemma dot_ok u v : sized u -> sized v -> finite (fdot u v) /\
  Rabs (value (fdot u v) - dot (vector u) (vector v)) <= 5 * uu * (norm (vector u) * norm (vector v)).
Proof.
  intros Su Sv. destruct (fdot_ok u v (proj1 Su) (proj1 Sv) (sized_big u Su) (sized_big v Sv)) as (F & E). split; auto.
  eapply Rle_trans; [exact E|]. pose proof (abs_cauchy (vector u) (vector v)) as C. cbn [vector vx vy vz] in C. pose proof (ee_small _ (proj1 (sized_prod u v Su Sv))) as S.
  pose proof uu_pos as U. set (p := norm (vector u) * norm (vector v)) in *. clearbody p.
  assert (4 * uu * (Rabs (value (fx u) * value (fx v)) + Rabs (value (fy u) * value (fy v)) + Rabs (value (fz u) * value (fz v))) <= 4 * uu * p) by (apply Rmult_le_compat_l; lra).
  lra.
Qed.
(** Square roots *)
Lemma fsqrt_ok x : finite x -> 0 < value x -> finite (fsqrt x) /\ value (fsqrt x) = rnd (sqrt (value x)).
Proof.
  intros F P. unfold fsqrt, b64_sqrt, finite, value in *.
  match goal with |- context [Bsqrt _ _ ?a ?b ?c] => pose proof (Bsqrt_correct 53 1024 a b c mode_NE x) as C end.
  cbn [round_mode] in C. destruct C as (C1 & C2 & _). split; [|exact C1]. rewrite C2.
  destruct x as [s|s|s pl H|s m e H]; try discriminate F; [exfalso; cbn in P; lra|]. destruct s; auto.
  exfalso. cbn [B2R] in P. pose proof (F2R_lt_0 radix2 (Float radix2 (cond_Zopp true (Z.pos m)) e) ltac:(cbn; lia)) as N. lra.
Qed.
(** A norm from a dot product with a relative error of five units *)
Lemma sqrt_rel n d : 0 < n -> Rabs (d - n * n) <= 5 * uu * (n * n) -> 0 < d /\ Rabs (sqrt d - n) <= 3 * uu * n.
Proof.
  intros N H. pose proof uu_pos as U. pose proof uu_tiny as U'. apply Rabs_le_inv in H. assert (NN : 0 < n * n) by nra. set (m := n * n) in *.
  assert (UM : uu * m <= m / 1000) by (apply uu_shrink; lra). assert (D : 0 < d) by lra. split; auto.
  assert (L : (n - 3 * uu * n) * (n - 3 * uu * n) <= d).
  { replace ((n - 3 * uu * n) * (n - 3 * uu * n)) with (m - 6 * (uu * m) + 9 * (uu * (uu * m))) by (unfold m; ring).
    pose proof (uu_shrink2 m ltac:(lra)). assert (0 <= uu * m) by nra. lra. }
  assert (R : d <= (n + 3 * uu * n) * (n + 3 * uu * n)).
  { replace ((n + 3 * uu * n) * (n + 3 * uu * n)) with (m + 6 * (uu * m) + 9 * (uu * (uu * m))) by (unfold m; ring).
    assert (0 <= uu * m) by nra. assert (0 <= uu * (uu * m)) by nra. lra. }
  pose proof (uu_shrink n ltac:(lra)) as UN. assert (P : 0 <= uu * n) by nra.
  apply Rabs_le. split.
  - assert (n - 3 * uu * n <= sqrt d); [|lra]. rewrite <- (sqrt_square (n - 3 * uu * n)) by lra. now apply sqrt_le_1_alt.
  - assert (sqrt d <= n + 3 * uu * n); [|lra]. rewrite <- (sqrt_square (n + 3 * uu * n)) by lra. now apply sqrt_le_1_alt.
Qed.
Lemma norm_ok x n : finite x -> bpow radix2 (-400) <= n <= bpow radix2 100 -> Rabs (value x - n * n) <= 5 * uu * (n * n) ->
  finite (fsqrt x) /\ Rabs (value (fsqrt x) - n) <= 5 * uu * n.
Proof.
  intros F B H. pose proof (bpow_gt_0 radix2 (-400)) as P. destruct (sqrt_rel n (value x) ltac:(lra) H) as (D & S).
  destruct (fsqrt_ok x F D) as (Fs & V). split; auto. rewrite V.
  pose proof uu_pos as U. pose proof (uu_shrink n ltac:(lra)) as UN. assert (0 <= uu * n) by nra.
  apply Rabs_le_inv in S. assert (B2 : n / 2 <= sqrt (value x) <= 2 * n) by lra.
  destruct (rnd_rel' (sqrt (value x))) as (e & E & R).
  { right. rewrite Rabs_pos_eq by lra. apply Rle_trans with (bpow radix2 (-401)); [apply bpow_le; lia|]. change (-401)%Z with (-400 + -1)%Z. rewrite bpow_plus. change (bpow radix2 (-1)) with (/ 2). lra. }
  rewrite R. apply Rabs_le_inv in E. apply Rabs_le. pose proof (uu_shrink2 n ltac:(lra)). set (s := sqrt (value x)) in *. clearbody s.
  assert (- (uu * s) <= s * e <= uu * s) by nra. assert (uu * s <= uu * (n + 3 * uu * n)) by (apply Rmult_le_compat_l; lra). lra.
Qed.
Lemma fnorm_ok v : sized v -> finite (fnorm v) /\ Rabs (value (fnorm v) - norm (vector v)) <= 5 * uu * norm (vector v).
Proof.
  intros Sv. destruct (dot_ok v v Sv Sv) as (F & E). rewrite <- norm_sq in E. unfold fnorm. apply norm_ok; auto. exact (proj2 Sv).
Qed.
Lemma uu_pow53 : uu = / 2 ^ 53. Proof. rewrite uu_value. replace (2 ^ 53) with 9007199254740992 by lra. reflexivity. Qed.
Lemma pow_bpow n : (2 ^ n = bpow radix2 (Z.of_nat n))%R.
Proof. rewrite bpow_powerRZ, <- pow_powerRZ. reflexivity. Qed.
Lemma fnorm_1d_ok M v : accurate M -> sized v -> finite (fnorm_1d M v) /\ Rabs (value (fnorm_1d M v) - norm (vector v)) <= 5 * uu * norm (vector v).
Proof.
  intros A Sv. pose proof Sv as (Fv & B1 & B2). assert (P100 : 2 ^ 100 = bpow radix2 100) by (rewrite pow_bpow; reflexivity).
  destruct (dot_good M A v v Fv Fv) as (F & E); [lra|lra|]. unfold fnorm_1d. apply norm_ok; auto. rewrite norm_sq in *.
  eapply Rle_trans; [exact E|]. pose proof (ee_small _ (proj1 (sized_prod v v Sv Sv))) as S. rewrite norm_sq in S.
  assert (/ 2 ^ 1000 <= uu * dot (vector v) (vector v)).
  { rewrite <- norm_sq. apply Rle_trans with (uu * bpow radix2 (-800)); [|apply Rmult_le_compat_l; [left; apply uu_pos|exact (proj1 (sized_prod v v Sv Sv))]].
    rewrite pow_bpow, <- bpow_opp. assert (U : uu = bpow radix2 (-53)) by (unfold uu; change (/ 2) with (bpow radix2 (-1)); now rewrite <- bpow_plus).
    rewrite U, <- bpow_plus. apply bpow_le. lia. }
  unfold Rdiv. rewrite <- uu_pow53. lra.
Qed.

(** The cosine *)
Lemma quotient n n' p p' : 0 < p -> Rabs n <= p -> Rabs (n' - n) <= 5 * uu * p -> Rabs (p' - p) <= 12 * uu * p ->
  p' <> 0 /\ Rabs (n' / p' - n / p) <= 175 / 10 * uu.
Proof.
  intros P N Hn Hp. pose proof (uu_shrink p ltac:(lra)) as UP. pose proof uu_pos as U. assert (0 <= uu * p) by nra.
  apply Rabs_le_inv in Hn, Hp, N. assert (P' : 0 < p') by lra. split; [lra|].
  assert (E : n' / p' - n / p = ((n' - n) * p - n * (p' - p)) / (p' * p)) by (field; lra). rewrite E.
  assert (Q : 0 < p' * p) by nra. unfold Rdiv at 1. rewrite Rabs_mult, (Rabs_pos_eq (/ (p' * p))) by (left; now apply Rinv_0_lt_compat).
  apply Rmult_le_reg_r with (p' * p); auto. rewrite Rmult_assoc, Rinv_l, Rmult_1_r by lra.
  apply Rle_trans with (17 * uu * (p * p)).
  - apply Rabs_le. set (a := n' - n) in *. set (b := p' - p) in *. clearbody a b. 
    assert (- (5 * uu * p) * p <= a * p <= (5 * uu * p) * p) by (split; apply Rmult_le_compat_r; lra).
    assert (Rabs (n * b) <= p * (12 * uu * p)).
    { rewrite Rabs_mult. apply Rmult_le_compat; try apply Rabs_pos; apply Rabs_le; lra. }
    apply Rabs_le_inv in H1. lra.
  - assert (p - 12 * uu * p <= p') by lra. assert (W : 17 * uu * (p * p) <= 175 / 10 * uu * ((p - 12 * uu * p) * p)).
    { pose proof (uu_shrink2 (p * p) ltac:(nra)) as Z. assert (0 <= uu * (p * p)) by (apply Rmult_le_pos; nra).
      replace (175 / 10 * uu * ((p - 12 * uu * p) * p)) with (175 / 10 * (uu * (p * p)) - 210 * (uu * (uu * (p * p)))) by field. 
      assert (uu <= / 1000000). { rewrite uu_value. lra. } assert (uu * (uu * (p * p)) <= / 1000000 * (uu * (p * p))) by (apply Rmult_le_compat_r; auto). lra. }
    eapply Rle_trans; [exact W|]. apply Rmult_le_compat_l; [lra|]. apply Rmult_le_compat_r; lra.
Qed.
Lemma prod_norms a b a' b' : 0 < a -> 0 < b -> Rabs (a' - a) <= 5 * uu * a -> Rabs (b' - b) <= 5 * uu * b ->
  Rabs (a' * b' - a * b) <= 101 / 10 * uu * (a * b).
Proof.
  intros A B Ha Hb. pose proof uu_pos as U. assert (P : 0 < a * b) by nra.
  replace (a' * b' - a * b) with ((a' - a) * b + a * (b' - b) + (a' - a) * (b' - b)) by ring.
  eapply Rle_trans; [apply Rabs_triang|]. eapply Rle_trans; [apply Rplus_le_compat_r, Rabs_triang|]. rewrite !Rabs_mult, (Rabs_pos_eq a), (Rabs_pos_eq b) by lra.
  assert (X : Rabs (a' - a) * b <= 5 * uu * a * b) by (apply Rmult_le_compat_r; lra).
  assert (Y : a * Rabs (b' - b) <= a * (5 * uu * b)) by (apply Rmult_le_compat_l; lra).
  assert (Z : Rabs (a' - a) * Rabs (b' - b) <= 5 * uu * a * (5 * uu * b)) by (apply Rmult_le_compat; auto using Rabs_pos).
  pose proof (uu_shrink2 (a * b) ltac:(lra)) as W. assert (0 <= uu * (a * b)) by nra.
  replace (5 * uu * a * (5 * uu * b)) with (25 * (uu * (uu * (a * b)))) in Z by ring. assert (uu <= / 1000000) by (rewrite uu_value; lra).
  assert (uu * (uu * (a * b)) <= / 1000000 * (uu * (a * b))) by (apply Rmult_le_compat_r; auto). lra.
Qed.
Lemma cosine_ok u v nv : sized u -> sized v -> finite nv -> Rabs (value nv - norm (vector v)) <= 5 * uu * norm (vector v) ->
  finite (fdiv (fdot u v) (fmul (fnorm u) nv)) /\
  Rabs (value (fdiv (fdot u v) (fmul (fnorm u) nv)) - cosine (vector u) (vector v)) <= 20 * uu.
Proof.
  intros Su Sv Fn En. destruct (dot_ok u v Su Sv) as (Fd & Ed). destruct (fnorm_ok u Su) as (Fu & Eu).
  pose proof (bpow_gt_0 radix2 (-400)) as L. pose proof Su as (_ & U1 & U2). pose proof Sv as (_ & V1 & V2).
  pose proof (sized_prod u v Su Sv) as P. pose proof (cauchy_norm (vector u) (vector v)) as C.
  pose proof (prod_norms (norm (vector u)) (norm (vector v)) (value (fnorm u)) (value nv) ltac:(lra) ltac:(lra) Eu En) as E.
  set (p := norm (vector u) * norm (vector v)) in *. pose proof uu_pos as U. pose proof (bpow_gt_0 radix2 (-800)) as P0.
  pose proof (uu_shrink p ltac:(lra)) as UP. assert (Up : 0 <= uu * p) by nra.
  assert (B : p / 2 <= value (fnorm u) * value nv <= 2 * p) by (apply Rabs_le_inv in E; lra).
  destruct (fmul_ok (fnorm u) nv Fu Fn) as (Fp & Vp).
  { rewrite Rabs_pos_eq by lra. apply Rle_trans with (bpow radix2 201); [change 201%Z with (1 + 200)%Z; rewrite bpow_plus; change (bpow radix2 1) with 2; lra|apply bpow_le; lia]. }
  assert (Ep : Rabs (value (fmul (fnorm u) nv) - p) <= 12 * uu * p).
  { rewrite Vp. destruct (rnd_rel' (value (fnorm u) * value nv)) as (e & E1 & R).
    { right. rewrite Rabs_pos_eq by lra. apply Rle_trans with (bpow radix2 (-801)); [apply bpow_le; lia|]. change (-801)%Z with (-800 + -1)%Z. rewrite bpow_plus. change (bpow radix2 (-1)) with (/ 2). lra. }
    rewrite R. set (x := value (fnorm u) * value nv) in *. clearbody x. apply Rabs_le_inv in E1, E. apply Rabs_le. pose proof (uu_shrink2 p ltac:(lra)).
    assert (- (uu * x) <= x * e <= uu * x) by nra. assert (uu * x <= uu * (p + 101 / 10 * uu * p)) by (apply Rmult_le_compat_l; lra). lra. }
  destruct (quotient (dot (vector u) (vector v)) (value (fdot u v)) p (value (fmul (fnorm u) nv)) ltac:(lra) C Ed Ep) as (Nz & Q).
  fold (cosine (vector u) (vector v)) in Q. pose proof (cosine_range (vector u) (vector v) ltac:(lra) ltac:(lra)) as R. change (dot (vector u) (vector v) / p) with (cosine (vector u) (vector v)) in Q.
  pose proof uu_small as Us. apply Rabs_le_inv in Q.
  destruct (fdiv_ok (fdot u v) (fmul (fnorm u) nv) Fd Nz) as (Fq & Vq). { apply small_abs, Rabs_le. lra. }
  split; auto. rewrite Vq. set (q := value (fdot u v) / value (fmul (fnorm u) nv)) in *. clearbody q.
  pose proof (rnd_mul_err q) as M. apply Rabs_le_inv in M. assert (Aq : Rabs q <= 2) by (apply Rabs_le; lra).
  assert (E8 : 4 * ee <= uu * 1) by (apply ee_small; change 1 with (bpow radix2 0); apply bpow_le; lia).
  assert (Rabs q <= 1 + 175 / 10 * uu) by (apply Rabs_le; lra). assert (uu * Rabs q <= uu * (1 + 175 / 10 * uu)) by (apply Rmult_le_compat_l; lra).
  pose proof (uu_shrink uu ltac:(lra)). apply Rabs_le. lra.
Qed.
