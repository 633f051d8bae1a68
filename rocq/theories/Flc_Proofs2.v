(** Proofs about the calendar in floating point. *)
From Coq Require Import List ZArith QArith Qround Qreals Reals Lra Lia Bool Psatz.
From Flocq Require Import Core.Core IEEE754.BinarySingleNaN IEEE754.Binary IEEE754.Bits Relative Sterbenz.
From Verif Require Import Py PyLemmas Cal_Model Cal_Proofs Cal_Proofs2 Fl_Model Fl_Spec Fl_Proofs Flc_Model Flc_Proofs.
Import ListNotations.
Open Scope R_scope.
Open Scope list_scope.

Lemma rnd_err x : / 1000000000000000000 <= Rabs x -> Rabs (rnd x - x) <= uu * Rabs x.
Proof.
  intros H. destruct (rnd_rel' x) as (e & A & B). { right. pose proof pow_m1022. lra. }
  rewrite B. replace (x * (1 + e) - x) with (e * x) by ring. rewrite Rabs_mult. apply Rmult_le_compat_r; [apply Rabs_pos|auto].
Qed.
Lemma rnd_err_pos x : / 1000000000000000000 <= x -> x - uu * x <= rnd x <= x + uu * x.
Proof. intros H. pose proof (rnd_err x) as E. rewrite (Rabs_pos_eq x) in E by lra. specialize (E H). rewrite Rabs_bound in E. lra. Qed.
Lemma big a : (0 <= a < 9007199254740992)%Z -> 0 <= IZR a < 9007199254740992.
Proof. intros (A & B). split; [now apply (IZR_le 0)|now apply IZR_lt]. Qed.

(** A quotient of integers is not rounded across an integer. *)
Lemma quot_trunc n d : (0 <= n < 9007199254740992)%Z -> (0 < d < 1000000000)%Z -> Ztrunc (rnd (IZR n / IZR d)) = (n / d)%Z.
Proof.
  intros N D. pose proof (big n N) as Nr. assert (Dr : 1 <= IZR d <= 1000000000) by (split; apply IZR_le; lia).
  assert (Q : (n = d * (n / d) + n mod d)%Z) by (apply Z.div_mod; lia). pose proof (Z.mod_pos_bound n d ltac:(lia)) as M.
  assert (K : (0 <= n / d)%Z) by (apply Z.div_pos; lia).
  assert (K' : (n / d <= n)%Z) by (apply Z.div_le_upper_bound; nia).
  assert (P : 0 <= IZR n / IZR d) by (apply Rmult_le_pos; [lra|left; apply Rinv_0_lt_compat; lra]).
  assert (E : IZR n / IZR d * IZR d = IZR n) by (field; lra).
  assert (Lo : IZR (n / d) <= rnd (IZR n / IZR d)).
  { apply rnd_ge. - rewrite <- (Rmult_1_r (IZR (n / d))). apply (fmt_int (n / d) 0); lia.
    - apply Rmult_le_reg_r with (IZR d); [lra|]. rewrite E, <- mult_IZR. apply IZR_le. lia. }
  assert (Hi : rnd (IZR n / IZR d) < IZR (n / d) + 1).
  { destruct (Z.eq_dec n 0) as [->|N0].
    - unfold Rdiv. rewrite Rmult_0_l, rnd_0. assert (0 / d = 0)%Z as -> by (apply Z.div_0_l; lia). lra.
    - assert (U : rnd (IZR n / IZR d) <= IZR n / IZR d + uu * (IZR n / IZR d)).
      { apply rnd_err_pos. assert (1 <= IZR n) by (apply (IZR_le 1); lia). apply Rle_trans with (/ IZR d).
        - apply Rinv_le_contravar; lra.
        - unfold Rdiv. assert (0 < / IZR d) by (apply Rinv_0_lt_compat; lra). nra. }
      apply Rmult_lt_reg_r with (IZR d); [lra|].
      assert (A : IZR n <= (IZR (n / d) + 1) * IZR d - 1).
      { rewrite <- (plus_IZR _ 1), <- mult_IZR, <- minus_IZR. apply IZR_le. nia. }
      assert (B : uu * IZR n < 1) by (rewrite uu_value; lra).
      pose proof uu_pos. nra. }
  rewrite Ztrunc_floor by (apply (IZR_le 0) in K; lra). apply Zfloor_imp. rewrite plus_IZR. lra.
Qed.

(** A number within [1 / d] of a fraction that is not an integer has the same whole part. *)
Lemma near_trunc n d y : (0 <= n)%Z -> (0 < d)%Z -> (n mod d <> 0)%Z -> Rabs (y - IZR n / IZR d) < / IZR d -> Ztrunc y = (n / d)%Z.
Proof.
  intros N D M A. assert (Q : (n = d * (n / d) + n mod d)%Z) by (apply Z.div_mod; lia). pose proof (Z.mod_pos_bound n d D) as M'.
  assert (K : (0 <= n / d)%Z) by (apply Z.div_pos; lia). apply (IZR_le 0) in K.
  assert (Dr : 0 < IZR d) by now apply (IZR_lt 0). assert (Di : 0 < / IZR d) by now apply Rinv_0_lt_compat.
  apply Rabs_lt_inv in A.
  assert (E : IZR n / IZR d = IZR (n / d) + IZR (n mod d) * / IZR d).
  { rewrite Q at 1. rewrite plus_IZR, mult_IZR. field. lra. }
  assert (L : 1 <= IZR (n mod d) <= IZR d - 1). { rewrite <- minus_IZR. split; apply IZR_le; lia. }
  assert (L1 : IZR (n mod d) * / IZR d <= 1 - / IZR d).
  { apply Rle_trans with ((IZR d - 1) * / IZR d); [apply Rmult_le_compat_r; lra|]. right. field. lra. }
  assert (L2 : / IZR d <= IZR (n mod d) * / IZR d) by nra.
  rewrite E in A. rewrite Ztrunc_floor by lra. apply Zfloor_imp. rewrite plus_IZR. lra.
Qed.

Lemma literal_rnd n d : (0 < n < 9007199254740992)%Z -> (0 < d < 9007199254740992)%Z ->
  finite (literal n d) /\ value (literal n d) = rnd (IZR n / IZR d).
Proof.
  intros N D. destruct (of_Z_ok n) as (Fn & En); [lia|]. destruct (of_Z_ok d) as (Fd & Ed); [lia|].
  destruct (fdiv_ok (of_Z n) (of_Z d) Fn) as (F & V).
  - rewrite Ed. apply IZR_neq. lia.
  - rewrite En, Ed. assert (1 <= IZR d) by (apply (IZR_le 1); lia). pose proof (big n ltac:(lia)). pose proof pow_1000.
    assert (0 < / IZR d <= 1). { split; [apply Rinv_0_lt_compat; lra|]. rewrite <- Rinv_1. apply Rinv_le_contravar; lra. }
    unfold Rdiv. rewrite Rabs_pos_eq by nra. nra.
  - rewrite En, Ed in V. split; auto.
Qed.
Lemma literal_exact n d k e : (0 < n < 9007199254740992)%Z -> (0 < d < 9007199254740992)%Z ->
  (Z.abs k <= 9007199254740992)%Z -> (-1074 <= e)%Z -> IZR n / IZR d = IZR k * bpow radix2 e ->
  finite (literal n d) /\ value (literal n d) = IZR n / IZR d.
Proof. intros N D K E H. destruct (literal_rnd n d N D) as (F & V). split; auto. rewrite V, H. apply rnd_fmt. now apply fmt_int. Qed.
Lemma quarter : bpow radix2 (-2) = / 4. Proof. cbn. lra. Qed.
Lemma fmt_quarter k : (Z.abs k <= 9007199254740992)%Z -> fmt (IZR k / 4).
Proof. intros K. unfold Rdiv. rewrite <- quarter. apply fmt_int; lia. Qed.

(** ** The steps *)
Lemma fcentury n : (2291161 <= n <= 8388608)%Z ->
  astype_int (fdiv (fsub (of_Z n) (literal 186721625 100)) (of_Z 36525)) = century n.
Proof.
  intros N. assert (Nr : 2291161 <= IZR n <= 8388608) by (split; apply IZR_le; lia).
  destruct (of_Z_ok n ltac:(lia)) as (Fn & Vn). destruct (of_Z_ok 36525 ltac:(lia)) as (Fd & Vd).
  destruct (literal_exact 186721625 100 7468865 (-2)) as (Fl & Vl); try lia. { rewrite quarter. lra. }
  destruct (fsub_ok (of_Z n) (literal 186721625 100) Fn Fl) as (Fs & Vs). { apply small_abs. rewrite Vn, Vl. apply Rabs_le. lra. }
  assert (E : value (fsub (of_Z n) (literal 186721625 100)) = IZR (4 * n - 7468865) / 4).
  { rewrite Vs, Vn, Vl. replace (IZR n - 186721625 / 100) with (IZR (4 * n - 7468865) / 4) by (rewrite minus_IZR, mult_IZR; lra).
    apply rnd_fmt. apply fmt_quarter. lia. }
  assert (Q : value (fsub (of_Z n) (literal 186721625 100)) / value (of_Z 36525) = IZR (4 * n - 7468865) / IZR 146100).
  { rewrite E, Vd. lra. }
  destruct (fdiv_ok (fsub (of_Z n) (literal 186721625 100)) (of_Z 36525) Fs) as (Fq & Vq).
  - rewrite Vd. lra.
  - apply small_abs. rewrite Q. rewrite minus_IZR, mult_IZR. apply Rabs_le. lra.
  - rewrite Q in Vq. rewrite astype_ok; auto.
    + rewrite Vq. unfold century. apply quot_trunc; lia.
    + rewrite Vq. apply Rle_lt_trans with 1024; [|lra]. apply (rnd_abs_le _ 10); [lia|]. rewrite minus_IZR, mult_IZR. cbn. apply Rabs_le. lra.
Qed.
Lemma fdiv_int n d : (0 <= n <= 100000000)%Z -> (0 < d < 1000000000)%Z -> astype_int (fdiv (of_Z n) (of_Z d)) = (n / d)%Z.
Proof.
  intros N D. assert (Nr : 0 <= IZR n <= 100000000) by (split; apply IZR_le; lia). assert (Dr : 1 <= IZR d) by (apply (IZR_le 1); lia).
  destruct (of_Z_ok n ltac:(lia)) as (Fn & Vn). destruct (of_Z_ok d ltac:(lia)) as (Fd & Vd).
  assert (B : Rabs (value (of_Z n) / value (of_Z d)) <= 100000000).
  { rewrite Vn, Vd. assert (0 < / IZR d <= 1). { split; [apply Rinv_0_lt_compat; lra|]. rewrite <- Rinv_1. apply Rinv_le_contravar; lra. }
    unfold Rdiv. rewrite Rabs_pos_eq by nra. nra. }
  destruct (fdiv_ok (of_Z n) (of_Z d) Fn) as (Fq & Vq); [lra|now apply small_abs|].
  rewrite astype_ok; auto; rewrite Vq.
  - rewrite Vn, Vd. now apply quot_trunc; lia.
  - apply Rle_lt_trans with (bpow radix2 60); [|cbn; lra]. apply rnd_abs_le; [lia|]. eapply Rle_trans; [exact B|cbn; lra].
Qed.
Lemma fpart_c b : (1524 <= b <= 8388608)%Z ->
  astype_int (fdiv (fsub (of_Z b) (literal 1221 10)) (literal 36525 100)) = ((20 * b - 2442) / 7305)%Z.
Proof.
  intros N. assert (Nr : 1524 <= IZR b <= 8388608) by (split; apply IZR_le; lia).
  destruct (of_Z_ok b ltac:(lia)) as (Fn & Vn).
  destruct (literal_exact 36525 100 1461 (-2)) as (Fd & Vd); try lia. { rewrite quarter. lra. }
  destruct (literal_rnd 1221 10) as (Fl & Vl); try lia.
  assert (L : 1221 / 10 - 122 * uu - uu <= value (literal 1221 10) <= 1221 / 10 + 122 * uu + uu).
  { rewrite Vl. pose proof (rnd_err_pos (1221 / 10) ltac:(lra)). pose proof uu_pos. lra. }
  pose proof uu_small as U. pose proof uu_pos as U0.
  destruct (fsub_ok (of_Z b) (literal 1221 10) Fn Fl) as (Fs & Vs). { apply small_abs. rewrite Vn. apply Rabs_le. lra. }
  rewrite Vn in Vs. set (l := value (literal 1221 10)) in *. clearbody l.
  pose proof (rnd_err_pos (IZR b - l) ltac:(lra)) as S. rewrite <- Vs in S.
  assert (S' : IZR b - 1221 / 10 - / 1000000 <= value (fsub (of_Z b) (literal 1221 10)) <= IZR b - 1221 / 10 + / 1000000).
  { assert (uu * (IZR b - l) <= / 10000000); [|lra]. apply Rle_trans with (/ 1000000000000000 * 10000000); [|lra]. apply Rmult_le_compat; lra. }
  set (s := value (fsub (of_Z b) (literal 1221 10))) in *.
  assert (Q : Rabs (s / (36525 / 100) - IZR (20 * b - 2442) / IZR 7305) <= / 100000000).
  { rewrite minus_IZR, mult_IZR. apply Rabs_le. lra. }
  assert (Q0 : 1 <= s / (36525 / 100) <= 100000) by lra.
  destruct (fdiv_ok (fsub (of_Z b) (literal 1221 10)) (literal 36525 100) Fs) as (Fq & Vq); [lra|fold s; rewrite Vd; apply small_abs, Rabs_le; lra|].
  fold s in Vq. rewrite Vd in Vq. pose proof (rnd_err_pos (s / (36525 / 100)) ltac:(lra)) as T. rewrite <- Vq in T.
  assert (T' : Rabs (value (fdiv (fsub (of_Z b) (literal 1221 10)) (literal 36525 100)) - IZR (20 * b - 2442) / IZR 7305) <= / 10000000).
  { assert (uu * (s / (36525 / 100)) <= / 1000000000). { apply Rle_trans with (/ 1000000000000000 * 100000); [|lra]. apply Rmult_le_compat; lra. }
    rewrite Rabs_bound in *. lra. }
  rewrite astype_ok; auto.
  - apply near_trunc; try lia.
    + intros H. pose proof (Z.div_mod (20 * b - 2442) 7305 ltac:(lia)). lia.
    + eapply Rle_lt_trans; [exact T'|lra].
  - apply Rabs_lt. rewrite Rabs_bound in T'. assert (0 <= IZR (20 * b - 2442) / 7305 <= 1000000); [|lra].
    rewrite minus_IZR, mult_IZR. lra.
Qed.
Lemma fpart_d c : (0 <= c <= 100000)%Z -> astype_int (fmul (literal 36525 100) (of_Z c)) = (1461 * c / 4)%Z.
Proof.
  intros N. assert (Nr : 0 <= IZR c <= 100000) by (split; apply IZR_le; lia).
  destruct (of_Z_ok c ltac:(lia)) as (Fn & Vn).
  destruct (literal_exact 36525 100 1461 (-2)) as (Fd & Vd); try lia. { rewrite quarter. lra. }
  destruct (fmul_ok (literal 36525 100) (of_Z c) Fd Fn) as (F & V). { rewrite Vn, Vd. apply small_abs, Rabs_le. lra. }
  rewrite Vd, Vn in V. replace (36525 / 100 * IZR c) with (IZR (1461 * c) / IZR 4) in V by (rewrite mult_IZR; lra).
  rewrite astype_ok; auto; rewrite V.
  - apply quot_trunc; lia.
  - rewrite rnd_fmt by (apply fmt_quarter; lia). rewrite mult_IZR. apply Rabs_lt. lra.
Qed.
Lemma month_literal : finite (literal 306001 10000) /\ 306001 / 10000 - 31 * uu <= value (literal 306001 10000) <= 306001 / 10000 + 31 * uu.
Proof.
  destruct (literal_rnd 306001 10000) as (Fl & Vl); try lia. split; auto. rewrite Vl.
  pose proof (rnd_err_pos (306001 / 10000) ltac:(lra)). pose proof uu_pos. lra.
Qed.
Lemma fpart_e n : (1 <= n <= 1000)%Z -> astype_int (fdiv (of_Z n) (literal 306001 10000)) = (10000 * n / 306001)%Z.
Proof.
  intros N. assert (Nr : 1 <= IZR n <= 1000) by (split; apply IZR_le; lia).
  destruct (of_Z_ok n ltac:(lia)) as (Fn & Vn). destruct month_literal as (Fl & L). pose proof uu_pos as U0. pose proof uu_small as U.
  set (l := value (literal 306001 10000)) in *.
  assert (Li : / 31 <= / l <= / 30) by (split; apply Rinv_le_contravar; lra).
  assert (Q : Rabs (IZR n / l - IZR (10000 * n) / IZR 306001) <= / 10000000000).
  { rewrite mult_IZR. replace (IZR n / l - 10000 * IZR n / 306001) with (IZR n * (306001 / 10000 - l) * / l * (10000 / 306001)) by (field; lra).
    set (d := 306001 / 10000 - l) in *. assert (D : - (31 * uu) <= d <= 31 * uu) by (unfold d; lra). clearbody d. set (i := / l) in *. clearbody i.
    assert (D2 : Rabs (IZR n * d) <= / 30000000000). { apply Rabs_le. split; nra. }
    rewrite Rabs_mult, (Rabs_pos_eq (10000 / 306001)) by lra. rewrite Rabs_mult, (Rabs_pos_eq i) by lra.
    pose proof (Rabs_pos (IZR n * d)). set (q := Rabs (IZR n * d)) in *. clearbody q. nra. }
  assert (Q0 : / 1000 <= IZR n / l <= 1000) by (unfold Rdiv; set (i := / l) in *; clearbody i; split; nra).
  destruct (fdiv_ok (of_Z n) (literal 306001 10000) Fn) as (Fq & Vq); [fold l; lra|rewrite Vn; fold l; apply small_abs, Rabs_le; lra|].
  rewrite Vn in Vq. fold l in Vq. pose proof (rnd_err_pos (IZR n / l) ltac:(lra)) as T. rewrite <- Vq in T.
  set (q := IZR n / l) in *. clearbody q. clear Vq.
  assert (T' : Rabs (value (fdiv (of_Z n) (literal 306001 10000)) - IZR (10000 * n) / IZR 306001) <= / 1000000000).
  { assert (uu * q <= / 100000000000). { apply Rle_trans with (/ 1000000000000000 * 1000); [|lra]. apply Rmult_le_compat; lra. }
    rewrite Rabs_bound in *. lra. }
  rewrite astype_ok; auto.
  - apply near_trunc; try lia.
    + intros H. pose proof (Z.div_mod (10000 * n) 306001 ltac:(lia)) as W. rewrite H, Z.add_0_r in W. set (k := (10000 * n / 306001)%Z) in *. clearbody k.
      assert (306001 | 10000 * n)%Z as [j J] by (exists k; lia). 
      assert (D : (306001 | n)%Z). { apply Z.gauss with 10000%Z; [exists j; lia|reflexivity]. } destruct D as [w D]. lia.
    + eapply Rle_lt_trans; [exact T'|lra].
  - apply Rabs_lt. rewrite Rabs_bound in T'. assert (0 <= IZR (10000 * n) / 306001 <= 1000000); [|lra].
    rewrite mult_IZR. lra.
Qed.
Lemma fpart_f e : (1 <= e <= 15)%Z -> astype_int (fmul (literal 306001 10000) (of_Z e)) = (306001 * e / 10000)%Z.
Proof.
  intros N. assert (Nr : 1 <= IZR e <= 15) by (split; apply IZR_le; lia).
  destruct (of_Z_ok e ltac:(lia)) as (Fn & Vn). destruct month_literal as (Fl & L). pose proof uu_pos as U0. pose proof uu_small as U.
  set (l := value (literal 306001 10000)) in *.
  assert (Q0 : 1 <= l * IZR e <= 1000) by nra.
  destruct (fmul_ok (literal 306001 10000) (of_Z e) Fl Fn) as (Fq & Vq); [rewrite Vn; fold l; apply small_abs, Rabs_le; lra|].
  rewrite Vn in Vq. fold l in Vq. pose proof (rnd_err_pos (l * IZR e) ltac:(lra)) as T. rewrite <- Vq in T. clear Vq.
  assert (T' : Rabs (value (fmul (literal 306001 10000) (of_Z e)) - IZR (306001 * e) / IZR 10000) <= / 1000000000).
  { assert (uu * (l * IZR e) <= / 100000000000). { apply Rle_trans with (/ 1000000000000000 * 1000); [|lra]. apply Rmult_le_compat; lra. }
    rewrite mult_IZR. apply Rabs_bound. assert (- (/ 100000000000) <= (l - 306001 / 10000) * IZR e <= / 100000000000); [|lra]. split; nra. }
  rewrite astype_ok; auto.
  - apply near_trunc; try lia.
    + assert (e = 1 \/ e = 2 \/ e = 3 \/ e = 4 \/ e = 5 \/ e = 6 \/ e = 7 \/ e = 8 \/ e = 9 \/ e = 10 \/ e = 11 \/ e = 12 \/ e = 13 \/ e = 14 \/ e = 15)%Z as W by lia.
      clear -W. destruct W as [->|[->|[->|[->|[->|[->|[->|[->|[->|[->|[->|[->|[->|[->| ->]]]]]]]]]]]]]]; discriminate.
    + eapply Rle_lt_trans; [exact T'|lra].
  - apply Rabs_lt. rewrite Rabs_bound in T'. assert (0 <= IZR (306001 * e) / 10000 <= 1000000); [|lra].
    rewrite mult_IZR. lra.
Qed.
