(** Proofs about the floating-point search: the numbers. *)
From Coq Require Import List ZArith Bool Arith Reals Lra Lia Psatz.
From Flocq Require Import Core.Core IEEE754.BinarySingleNaN IEEE754.Binary IEEE754.Bits Relative Plus_error.
From Verif Require Import Py PyLemmas Fl_Model Fl_Spec Fl_Proofs Fls_Model Fls_Spec Fla_Model Fla_Spec.
Import ListNotations.
Open Scope R_scope.
Open Scope list_scope.
#[local] Instance prec53 : Prec_gt_0 53 := eq_refl.
#[local] Instance fexp_ok : Valid_exp (SpecFloat.fexp 53 1024).
Proof. apply (fexp_correct 53 1024). exact prec53. Qed.
#[local] Instance fexp_mono : Monotone_exp (SpecFloat.fexp 53 1024).
Proof. apply (fexp_monotone 53 1024). Qed.

(** ** Rounding *)
Definition eta0 : R := / 2 * bpow radix2 (-1074).
Lemma eta0_small : 0 < eta0 <= uu / 1000000000000000000.
Proof.
  unfold eta0. split; [pose proof (bpow_gt_0 radix2 (-1074)); lra|].
  rewrite uu_value. assert (bpow radix2 (-1074) <= bpow radix2 (-120)) by (apply bpow_le; lia).
  assert (bpow radix2 (-120) <= / 9007199254740992 / 1000000000000000000); [|lra].
  change (-120)%Z with (- (120))%Z. rewrite bpow_opp. rewrite <- IZR_Zpower by lia. change (Zpower radix2 120) with 1329227995784915872903807060280344576%Z. lra.
Qed.
Lemma rnd_any x : exists e t, Rabs e <= uu /\ Rabs t <= eta0 /\ rnd x = x * (1 + e) + t.
Proof.
  destruct (error_N_FLT radix2 (-1074) 53 eq_refl (fun n => negb (Z.even n)) x) as (e & t & He & Ht & _ & E).
  exists e, t. split; [exact He|]. split; [exact Ht|]. exact E.
Qed.
Lemma rnd_plus x y : fmt x -> fmt y -> exists e, Rabs e <= uu /\ rnd (x + y) = (x + y) * (1 + e).
Proof.
  intros Fx Fy. destruct (FLT_plus_error_N_ex radix2 (-1074) 53 (fun n => negb (Z.even n)) x y Fx Fy) as (e & He & E).
  exists e. split; [|exact E]. eapply Rle_trans; [exact He|]. change (u_ro radix2 53) with uu. pose proof uu_pos as P.
  apply Rmult_le_reg_r with (1 + uu); [lra|]. unfold Rdiv. rewrite Rmult_assoc, Rinv_l by lra. assert (0 <= uu * uu) by (apply Rmult_le_pos; lra). lra.
Qed.
Lemma rnd_ge x y : fmt x -> x <= y -> x <= rnd y.
Proof. intros F L. rewrite <- (rnd_fmt x F). now apply rnd_le. Qed.
Lemma rnd_le' x y : fmt y -> x <= y -> rnd x <= y.
Proof. intros F L. rewrite <- (rnd_fmt y F). now apply rnd_le. Qed.
Lemma fmt_0 : fmt 0. Proof. apply generic_format_0. Qed.
Lemma fmt_1 : fmt 1. Proof. change 1 with (bpow radix2 0). apply fmt_pow. lia. Qed.
Lemma rnd_nonneg x : 0 <= x -> 0 <= rnd x. Proof. intros. apply rnd_ge; auto. apply fmt_0. Qed.

(** Just above 1 is rounded to 1. *)
Lemma rnd_near_1 x : x < 1 + uu -> rnd x <= 1.
Proof.
  intros H. apply round_N_le_midp; [apply _|apply fmt_1|].
  change 1 with (bpow radix2 0) at 2. rewrite succ_eq_pos by apply bpow_ge_0. rewrite ulp_bpow.
  change (SpecFloat.fexp 53 1024 (0 + 1)) with (-52)%Z. rewrite uu_value in H. cbn. lra.
Qed.
(** A draw below 1 is at most the float before 1. *)
Lemma below_1 u : unit_draw u -> value u <= 1 - uu.
Proof.
  intros (F & U). pose proof (pred_ge_gt radix2 (SpecFloat.fexp 53 1024) (value u) 1 (value_fmt u) fmt_1 (proj2 U)) as P.
  rewrite pred_eq_pos in P by lra. unfold pred_pos in P.
  assert (M : (mag radix2 1 : Z) = 1%Z) by (change 1 with (bpow radix2 0); rewrite mag_bpow; reflexivity). rewrite M in P.
  change (bpow radix2 (1 - 1)) with 1 in P. rewrite Req_bool_true in P by reflexivity.
  change (SpecFloat.fexp 53 1024 (1 - 1)) with (-53)%Z in P. rewrite uu_value. replace (bpow radix2 (-53)) with (/ 9007199254740992) in P by (cbn; lra). exact P.
Qed.
(** A draw below 1 times a weight is below the weight. *)
Lemma draw_below u t : unit_draw u -> fmt t -> bpow radix2 (-900) <= t -> rnd (value u * t) < t.
Proof.
  intros U Ft L. pose proof (below_1 u U) as B. pose proof (bpow_gt_0 radix2 (-900)) as P. destruct U as (_ & U).
  assert (Pt : pred radix2 (SpecFloat.fexp 53 1024) t < t) by (apply pred_lt_id; lra).
  eapply Rle_lt_trans; [|exact Pt]. apply round_N_le_midp; [apply _|apply generic_format_pred; [apply _|exact Ft]|].
  rewrite succ_pred by (try apply _; exact Ft).
  assert (K : (t - pred radix2 (SpecFloat.fexp 53 1024) t) / 2 < uu * t); [|nra].
  rewrite pred_eq_pos by lra. unfold pred_pos.
  set (e := mag radix2 t : Z).
  assert (M : bpow radix2 (e - 1) <= t) by (rewrite <- (Rabs_pos_eq t) by lra; apply bpow_mag_le; lra).
  assert (E : (-899 <= e)%Z) by (apply mag_ge_bpow; rewrite Rabs_pos_eq by lra; exact L).
  assert (Eu : uu = bpow radix2 (-53)) by (rewrite uu_value; cbn; lra). rewrite Eu.
  assert (Hf : forall k, (-1000 <= k)%Z -> SpecFloat.fexp 53 1024 k = (k - 53)%Z) by (intros k Hk; rewrite fexp_FLT; unfold FLT_exp; lia).
  destruct (Req_bool_spec t (bpow radix2 (e - 1))) as [Q|Q].
  - fold e. rewrite Q at 1 3. rewrite <- bpow_plus. rewrite Hf by lia.
    replace (bpow radix2 (e - 1) - (bpow radix2 (e - 1) - bpow radix2 (e - 1 - 53))) with (bpow radix2 (e - 1 - 53)) by ring.
    replace (-53 + (e - 1))%Z with (e - 1 - 53)%Z by lia. pose proof (bpow_gt_0 radix2 (e - 1 - 53)). lra.
  - rewrite ulp_neq_0 by lra. unfold cexp. fold e. rewrite Hf by lia.
    replace (t - (t - bpow radix2 (e - 53))) with (bpow radix2 (e - 53)) by ring.
    assert (S : bpow radix2 (e - 1) < t) by (destruct M; [auto|]; exfalso; auto).
    replace (e - 53)%Z with (-53 + (e - 1) + 1)%Z by lia. rewrite !bpow_plus. replace (bpow radix2 1) with 2 by (cbn; lra).
    pose proof (bpow_gt_0 radix2 (-53)). set (a := bpow radix2 (-53)) in *. clearbody a. nra.
Qed.

(** ** New weights *)
Lemma finite_small x : Rabs x <= 1000000 -> Rabs x <= bpow radix2 1000.
Proof. intros H. pose proof pow_1000. lra. Qed.
Lemma abs_pos x k : 0 <= x <= k -> Rabs x <= k. Proof. intros. rewrite Rabs_pos_eq; lra. Qed.

Lemma new_weight_ok l s w : fraction l -> (0 <= s <= 3)%Z -> fraction w ->
  fraction (new_weight l s w) /\ value (new_weight l s w) = rnd (rnd (rnd (1 - value l) * value w) + rnd (rnd (value l * IZR s) / 6)).
Proof.
  intros (Fl & Ll) S (Fw & Lw). unfold new_weight, sum_score. pose proof uu_pos as UP. pose proof eta0_small as EP. pose proof uu_value as UV.
  destruct (of_Z_ok 1 ltac:(lia)) as (F1 & V1). destruct (of_Z_ok 6 ltac:(lia)) as (F6 & V6). destruct (of_Z_ok s ltac:(lia)) as (Fs & Vs).
  assert (Sr : 0 <= IZR s <= 3) by (split; apply IZR_le; lia).
  destruct (fsub_ok (of_Z 1) l F1 Fl) as (Fa & Va); [rewrite V1; apply finite_small, abs_pos; lra|]. rewrite V1 in Va.
  assert (A : 0 <= rnd (1 - value l) <= 1) by (split; [apply rnd_nonneg; lra|apply rnd_le'; [apply fmt_1|lra]]).
  assert (A' : rnd (1 - value l) <= 1 - value l + uu).
  { destruct (rnd_plus 1 (- value l) fmt_1) as (e & He & Ee); [apply generic_format_opp, value_fmt|]. unfold Rminus. rewrite Ee. apply Rabs_bound in He. nra. }
  destruct (fmul_ok (fsub (of_Z 1) l) w Fa Fw) as (Fm & Vm); [rewrite Va; apply finite_small, abs_pos; nra|]. rewrite Va in Vm.
  set (a := rnd (1 - value l)) in *.
  assert (M : 0 <= rnd (a * value w) <= a).
  { split; [apply rnd_nonneg; nra|]. apply rnd_le'; [apply fmt_rnd|nra]. }
  set (m := rnd (a * value w)) in *.
  destruct (fmul_ok l (of_Z s) Fl Fs) as (Ft & Vt); [rewrite Vs; apply finite_small, abs_pos; nra|]. rewrite Vs in Vt.
  assert (T : 0 <= rnd (value l * IZR s) <= 3 * value l * (1 + uu) + eta0).
  { split; [apply rnd_nonneg; nra|]. destruct (rnd_any (value l * IZR s)) as (e & t & He & Ht & ->). apply Rabs_bound in He. apply Rabs_bound in Ht.
    assert (value l * IZR s <= 3 * value l) by nra. assert (0 <= value l * IZR s) by nra. nra. }
  set (t := rnd (value l * IZR s)) in *.
  assert (T3 : t <= 4) by nra.
  destruct (fdiv_ok (fmul l (of_Z s)) (of_Z 6) Ft) as (Fd & Vd); [rewrite V6; lra|rewrite Vt, V6; apply finite_small, abs_pos; lra|]. rewrite Vt, V6 in Vd.
  assert (D : 0 <= rnd (t / 6) <= value l * 6 / 10 + 2 * eta0).
  { split; [apply rnd_nonneg; lra|]. destruct (rnd_any (t / 6)) as (e & r & He & Hr & ->). apply Rabs_bound in He. apply Rabs_bound in Hr.
    assert (t / 6 * (1 + e) <= t / 6 * (1 + uu)) by nra. assert (t / 6 * (1 + uu) <= (3 * value l * (1 + uu) + eta0) / 6 * (1 + uu)) by nra.
    assert ((3 * value l * (1 + uu) + eta0) / 6 * (1 + uu) <= value l * 6 / 10 + eta0); [|lra].
    rewrite UV in *. set (x := value l) in *. clearbody x. nra. }
  set (d := rnd (t / 6)) in *.
  destruct (fadd_ok (fmul (fsub (of_Z 1) l) w) (fdiv (fmul l (of_Z s)) (of_Z 6)) Fm Fd) as (Fr & Vr); [rewrite Vm, Vd; apply finite_small, abs_pos; rewrite UV in *; lra|].
  rewrite Vm, Vd in Vr. split; [|exact Vr]. split; [exact Fr|]. rewrite Vr. split; [apply rnd_nonneg; lra|].
  destruct (Rlt_le_dec (m + d) (1 + uu)) as [Lt|Ge]; [now apply rnd_near_1|]. 
  (* only possible for a tiny decay parameter *)
  assert (Sm : value l <= 10 * eta0) by nra.
  assert (D' : d <= 8 * eta0) by nra.
  apply rnd_near_1. assert (m <= 1) by lra. rewrite UV in *. nra.
Qed.

(** The weights after an update. *)
Lemma update_fraction l s i ws : fraction l -> (0 <= s <= 3)%Z -> (forall w, In w ws -> fraction w) ->
  forall w, In w (update_weights l s i ws) -> fraction w.
Proof.
  intros L S H w I. apply In_nth_error in I. destruct I as (j & N). unfold update_weights in N. rewrite nth_error_upd in N.
  destruct (i =? j)%nat; [|apply H; eapply nth_error_In; eauto]. destruct (nth_error ws j) as [w0|] eqn:N0; [|discriminate]. cbn in N. injection N as <-.
  apply new_weight_ok; auto. apply H. eapply nth_error_In; eauto.
Qed.
