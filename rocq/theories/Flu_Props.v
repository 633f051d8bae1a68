(** Quantities of any units in floating point (C171-C174). *)
From Coq Require Import String List ZArith QArith Qpower Qreals Reals Lra Lia Bool Psatz.
From Flocq Require Import Core.Core IEEE754.BinarySingleNaN IEEE754.Binary IEEE754.Bits Relative Plus_error.
From Verif Require Import Py Units_Model Units_Spec Units_Proofs Units_Algebra Units_Proofs2 Units_Props.
From Verif Require Import Fl_Model Fl_Spec Fl_Proofs Flu_Model Flu_Spec Flu_Proofs.
Import ListNotations.
Open Scope R_scope.
#[local] Strategy 1000 [fmul fadd fsub fdiv fneg of_Z].

Lemma gap_two u v : IZR (gap u v) + 1 = IZR (complexity u + complexity v + 3).
Proof. unfold gap. rewrite !plus_IZR. lra. Qed.

(** C171. A conversion between any two units of the same dimension keeps the magnitude up to
    a relative error of [2 ^ -53] times the complexity of the two units and three. *)
Theorem C171_conversion :
  forall scale pow env cp q v d,
    accurate_power pow -> sized env (fq_unit q) -> sized env v ->
    well_scaled scale (fq_unit q) -> well_scaled scale v ->
    (complexity (fq_unit q) <= 20)%Z -> (complexity v <= 20)%Z ->
    dimension (fq_unit q) = Ok d -> dimension v = Ok d -> sensible 400 (fq_data q) ->
    exists q', f_convert_to scale pow cp q v = Ok q' /\ f_to scale pow q v = Ok (fq_data q') /\
      finite (fq_data q') /\ repr_unit (fq_unit q') = repr_unit v /\ real_size (fq_unit q') = real_size v /\
      Rabs (magnitude q' - magnitude q) <= IZR (complexity (fq_unit q) + complexity v + 3) * / 2 ^ 53 * Rabs (magnitude q).
Proof.
  intros scale pow env cp q v d POW Su Sv Wu Wv Cu Cv Du Dv X. apply sensible_span in X as (Fx & Ix).
  destruct (convert_rel scale pow POW env cp q v d 400) as (q' & E & F & T & R & Z & _ & _ & _ & O); auto; [lia|].
  exists q'. repeat split; auto. pose proof (gap_bound _ _ Cu Cv) as G. pose proof (size_env env v Sv) as Pv. pose proof (size_env env _ Su) as Pu.
  apply rel_abs in O; [|lra]. rewrite gap_two in O. unfold magnitude. rewrite Z.
  replace (value (fq_data q') * real_size v - value (fq_data q) * real_size (fq_unit q))
    with ((value (fq_data q') - value (fq_data q) * (real_size (fq_unit q) / real_size v)) * real_size v) by (field; lra).
  rewrite Rabs_mult, (Rabs_pos_eq (real_size v)) by lra. eapply Rle_trans; [apply Rmult_le_compat_r; [lra|exact O]|]. right.
  rewrite Rmult_assoc. f_equal. rewrite <- (Rabs_pos_eq (real_size v)) at 2 by lra. rewrite <- Rabs_mult. f_equal. field. lra.
Qed.

(** Converting to another unit and back gives the number again, up to twice that error. *)
Theorem C171_round_trip :
  forall scale pow env cp q v d,
    accurate_power pow -> sized env (fq_unit q) -> sized env v ->
    well_scaled scale (fq_unit q) -> well_scaled scale v ->
    (complexity (fq_unit q) <= 20)%Z -> (complexity v <= 20)%Z ->
    dimension (fq_unit q) = Ok d -> dimension v = Ok d -> sensible 400 (fq_data q) ->
    exists q' x, f_convert_to scale pow cp q v = Ok q' /\ f_to scale pow q' (fq_unit q) = Ok x /\
      Rabs (value x - value (fq_data q)) <=
        IZR (2 * complexity (fq_unit q) + 2 * complexity v + 5) * / 2 ^ 53 * Rabs (value (fq_data q)).
Proof.
  intros scale pow env cp q v d POW Su Sv Wu Wv Cu Cv Du Dv X. apply sensible_span in X as (Fx & Ix).
  destruct (convert_rel scale pow POW env cp q v d 400) as (q' & E & F & T & R & Z & D & C & I & O); auto; [lia|].
  exists q'. pose proof (gap_bound _ _ Cu Cv) as G. pose proof (size_env env v Sv) as Pv. pose proof (size_env env _ Su) as Pu.
  destruct C as [C|(C1 & C2)].
  - destruct q' as [y v']. cbn [fq_unit fq_data] in *. subst v'. set (u := fq_unit q) in *.
    pose proof (rel_mul _ _ _ _ _ _ O (rel_refl (real_size v / real_size u))) as O1.
    replace (value (fq_data q) * (real_size u / real_size v) * (real_size v / real_size u)) with (value (fq_data q)) in O1 by (field; lra).
    assert (I1 : in_span (400 + 1) (value y * (real_size v / real_size u))) by (eapply in_span_rel; [|exact O1|exact Ix]; lra).
    destruct (convert_rel scale pow POW env cp (mkFQ y v) u d 401) as (q2 & _ & _ & T2 & _ & _ & _ & _ & _ & O2); auto; [lia|].
    exists (fq_data q2). split; auto. split; auto. cbn [fq_unit fq_data] in O2. pose proof (rel_trans _ _ _ _ _ O2 O1) as O3.
    pose proof (gap_bound _ _ Cv Cu). apply rel_abs in O3; [|lra]. eapply Rle_trans; [exact O3|]. apply Rmult_le_compat_r; [apply Rabs_pos|].
    apply Rmult_le_compat_r; [left; apply Rinv_0_lt_compat; apply pow_lt; lra|]. unfold gap. rewrite !plus_IZR, !mult_IZR. lra.
  - exists (fq_data q). split; auto. split.
    + unfold f_to, f_convert_to. rewrite D, Du. cbn [bind]. rewrite String.eqb_refl, C2, String.eqb_refl. cbn [negb rmap fq_data]. now rewrite C1.
    + unfold Rminus. rewrite Rplus_opp_r, Rabs_R0. apply Rmult_le_pos; [apply Rmult_le_pos|apply Rabs_pos].
      * apply IZR_le. pose proof (complexity_nonneg (fq_unit q)). pose proof (complexity_nonneg v). lia.
      * left. apply Rinv_0_lt_compat. apply pow_lt. lra.
Qed.

(** Units of different dimensions are refused. *)
Theorem C171_mixed_dimensions :
  forall scale pow cp q v d1 d2,
    dimension (fq_unit q) = Ok d1 -> dimension v = Ok d2 ->
    (exists dim, In dim ["L"; "T"; "D"; "A"]%string /\ dim_exponent dim (base_names (fq_unit q)) <> dim_exponent dim (base_names v)) ->
    f_convert_to scale pow cp q v = Raise ValueError /\ f_to scale pow q v = Raise ValueError /\
    (forall x, f_add scale pow q (FQty (mkFQ x v)) = Raise ArithmeticError /\ f_sub scale pow q (FQty (mkFQ x v)) = Raise ArithmeticError /\
       f_lt scale pow q (mkFQ x v) = Raise ArithmeticError /\ f_eq scale pow q (mkFQ x v) = Raise ArithmeticError).
Proof.
  intros scale pow cp q v d1 d2 D1 D2 (dim & I & N).
  assert (E : String.eqb d1 d2 = false).
  { apply String.eqb_neq. intros <-. apply N. now apply (dimension_sound (fq_unit q) v d1). }
  unfold f_to, f_convert_to, f_sub, f_add, f_lt, f_eq, f_compare, f_neg. cbn [fq_unit fq_data]. rewrite D1, D2. cbn [bind]. rewrite E. cbn [negb rmap]. repeat split.
Qed.

(** ** Sums *)
Lemma fneg_value x : finite x -> finite (fneg x) /\ value (fneg x) = - value x.
Proof. intros F. unfold fneg, b64_opp, finite, value in *. rewrite is_finite_Bopp, B2R_Bopp. auto. Qed.
#[local] Instance prec53' : Prec_gt_0 53 := eq_refl.
Lemma plus_rel x y : exists e, Rabs e <= uu /\ rnd (value x + value y) = (value x + value y) * (1 + e).
Proof.
  destruct (FLT_plus_error_N_ex radix2 (-1074) 53 (fun z => negb (Z.even z)) (value x) (value y) (value_fmt x) (value_fmt y)) as (e & He & Ee).
  exists e. split; [|exact Ee]. eapply Rle_trans; [exact He|].
  assert (U : u_ro radix2 53 = uu) by (unfold u_ro, uu; reflexivity). rewrite U. rewrite uu_value.
  apply Rmult_le_reg_r with (1 + / 9007199254740992); [lra|]. unfold Rdiv. rewrite Rmult_assoc, Rinv_l by lra. nra.
Qed.
Lemma two53 : / 2 ^ 53 = uu.
Proof. rewrite uu_value. f_equal. ring. Qed.

Section Two.
Context (scale : named -> float) (pow : float -> Z -> res float) (POW : accurate_power pow) (env : string -> Q).
Context (q r : fquantity) (d : string) (Su : sized env (fq_unit q)) (Sv : sized env (fq_unit r))
  (Wu : well_scaled scale (fq_unit q)) (Wv : well_scaled scale (fq_unit r))
  (Cu : (complexity (fq_unit q) <= 20)%Z) (Cv : (complexity (fq_unit r) <= 20)%Z).

Lemma ratio_span : span (289 + 289) (real_size (fq_unit r) / real_size (fq_unit q)).
Proof.
  destruct (scale_known scale pow POW env (fq_unit q) Su Wu Cu) as (f & _ & _ & _ & Sf).
  destruct (scale_known scale pow POW env (fq_unit r) Sv Wv Cv) as (g & _ & _ & _ & Sg). now apply span_div.
Qed.
Lemma to_other k : (0 <= k <= 400)%Z -> dimension (fq_unit q) = Ok d -> dimension (fq_unit r) = Ok d -> finite (fq_data r) -> in_span k (value (fq_data r)) ->
  exists y, f_to scale pow r (fq_unit q) = Ok y /\ finite y /\ in_span (k + 579) (value y) /\
    rel (IZR (gap (fq_unit r) (fq_unit q))) (value y) (value (fq_data r) * (real_size (fq_unit r) / real_size (fq_unit q))).
Proof.
  intros K Du Dv Fy Iy. destruct (convert_rel scale pow POW env (fun i => i) r (fq_unit q) d k) as (q' & E & F & T & _ & _ & _ & _ & _ & O); auto; [lia|].
  exists (fq_data q'). split; auto. split; auto. split; auto. pose proof (gap_bound _ _ Cv Cu).
  replace (k + 579)%Z with (k + (289 + 289) + 1)%Z by lia. eapply in_span_rel; [|exact O|]; [lra|]. apply in_span_mul; auto.
  pose proof ratio_span as S. rewrite Rabs_pos_eq; auto. left. eapply span_pos; exact S.
Qed.
Definition tolerance : R := IZR (complexity (fq_unit q) + complexity (fq_unit r) + 3) * / 2 ^ 53.
Lemma tolerance_range : 0 <= tolerance <= 43 * uu.
Proof.
  unfold tolerance. rewrite two53. pose proof uu_pos. pose proof (complexity_nonneg (fq_unit q)). pose proof (complexity_nonneg (fq_unit r)).
  assert (0 <= IZR (complexity (fq_unit q) + complexity (fq_unit r) + 3) <= 43) by (split; apply IZR_le; lia). split; nra.
Qed.
Lemma to_magnitude : dimension (fq_unit q) = Ok d -> dimension (fq_unit r) = Ok d -> sensible 400 (fq_data r) ->
  exists y, f_to scale pow r (fq_unit q) = Ok y /\ finite y /\ in_span 979 (value y) /\
    Rabs (value y * real_size (fq_unit q) - magnitude r) <= tolerance * Rabs (magnitude r).
Proof.
  intros Du Dv Y. apply sensible_span in Y as (Fy & Iy). destruct (to_other 400) as (y & E & F & I & O); auto; [lia|].
  exists y. split; auto. split; auto. split; auto. pose proof (size_env env _ Sv) as Pv. pose proof (size_env env _ Su) as Pu.
  pose proof (gap_bound _ _ Cv Cu). apply rel_abs in O; [|lra]. rewrite gap_two in O. unfold magnitude, tolerance.
  rewrite (Z.add_comm (complexity (fq_unit q)) (complexity (fq_unit r))).
  replace (value y * real_size (fq_unit q) - value (fq_data r) * real_size (fq_unit r))
    with ((value y - value (fq_data r) * (real_size (fq_unit r) / real_size (fq_unit q))) * real_size (fq_unit q)) by (field; lra).
  rewrite Rabs_mult, (Rabs_pos_eq (real_size (fq_unit q))) by lra. eapply Rle_trans; [apply Rmult_le_compat_r; [lra|exact O]|]. right.
  rewrite Rmult_assoc. f_equal. rewrite <- (Rabs_pos_eq (real_size (fq_unit q))) at 2 by lra. rewrite <- Rabs_mult. f_equal. field. lra.
Qed.

Lemma add_ok : dimension (fq_unit q) = Ok d -> dimension (fq_unit r) = Ok d -> sensible 400 (fq_data q) -> sensible 400 (fq_data r) ->
  exists s, f_add scale pow q (FQty r) = Ok s /\ fq_unit s = fq_unit q /\ finite (fq_data s) /\
    Rabs (magnitude s - (magnitude q + magnitude r)) <=
      IZR (complexity (fq_unit q) + complexity (fq_unit r) + 5) * / 2 ^ 53 * (Rabs (magnitude q) + Rabs (magnitude r)).
Proof.
  intros Du Dv X Y. destruct (to_magnitude Du Dv Y) as (y & E & F & I & O). apply sensible_span in X as (Fx & Ix).
  unfold f_add. rewrite Du, Dv. cbn [bind]. rewrite String.eqb_refl. cbn [negb]. rewrite E. cbn [bind].
  eexists. split; [reflexivity|]. cbn [fq_unit fq_data]. split; auto.
  destruct (fadd_ok (fq_data q) y Fx F) as (Fs & Vs).
  { eapply Rle_trans; [apply Rabs_triang|].
    assert (A : Rabs (value (fq_data q)) <= bpow radix2 999).
    { destruct Ix as [->|(_ & U)]; [rewrite Rabs_R0; apply bpow_ge_0|]. eapply Rle_trans; [exact U|apply bpow_le; lia]. }
    assert (B : Rabs (value y) <= bpow radix2 999).
    { destruct I as [->|(_ & U)]; [rewrite Rabs_R0; apply bpow_ge_0|]. eapply Rle_trans; [exact U|apply bpow_le; lia]. }
    change 1000%Z with (999 + 1)%Z. rewrite bpow_plus. change (bpow radix2 1) with 2. lra. }
  split; auto. unfold magnitude at 1. cbn [fq_unit fq_data]. rewrite Vs. destruct (plus_rel (fq_data q) y) as (e & He & ->).
  pose proof (size_env env _ Su) as Pu. pose proof tolerance_range as T. pose proof uu_pos as U. pose proof uu_small as V.
  replace (IZR (complexity (fq_unit q) + complexity (fq_unit r) + 5) * / 2 ^ 53) with (tolerance + 2 * uu) by (unfold tolerance; rewrite two53, !plus_IZR; ring).
  set (t := tolerance) in *. clearbody t. fold (magnitude q) in *. set (b := magnitude r) in *. clearbody b.
  set (a := magnitude q). assert (Ha : a = value (fq_data q) * real_size (fq_unit q)) by reflexivity. clearbody a.
  set (w := value y * real_size (fq_unit q)) in *.
  replace ((value (fq_data q) + value y) * (1 + e) * real_size (fq_unit q)) with ((a + w) * (1 + e)) by (unfold w; rewrite Ha; ring).
  clearbody w. replace ((a + w) * (1 + e) - (a + b)) with ((w - b) + e * (a + w)) by ring.
  eapply Rle_trans; [apply Rabs_triang|]. rewrite Rabs_mult.
  assert (W : Rabs (a + w) <= Rabs a + (1 + t) * Rabs b).
  { eapply Rle_trans; [apply Rabs_triang|]. assert (Rabs w <= Rabs b + Rabs (w - b)) by (replace w with (b + (w - b)) at 1 by ring; apply Rabs_triang). lra. }
  assert (M : Rabs e * Rabs (a + w) <= uu * (Rabs a + (1 + t) * Rabs b)) by (apply Rmult_le_compat; auto; apply Rabs_pos).
  pose proof (Rabs_pos a). pose proof (Rabs_pos b). assert (TS : t <= 1) by lra.
  assert (uu * (1 + t) * Rabs b <= 2 * uu * Rabs b) by (apply Rmult_le_compat_r; nra).
  nra.
Qed.
End Two.

(** C172. Sums, differences and comparisons. *)
Theorem C172_sum :
  forall scale pow env q r d,
    accurate_power pow -> sized env (fq_unit q) -> sized env (fq_unit r) ->
    well_scaled scale (fq_unit q) -> well_scaled scale (fq_unit r) ->
    (complexity (fq_unit q) <= 20)%Z -> (complexity (fq_unit r) <= 20)%Z ->
    dimension (fq_unit q) = Ok d -> dimension (fq_unit r) = Ok d -> sensible 400 (fq_data q) -> sensible 400 (fq_data r) ->
    let t := IZR (complexity (fq_unit q) + complexity (fq_unit r) + 5) * / 2 ^ 53 * (Rabs (magnitude q) + Rabs (magnitude r)) in
    (exists s, f_add scale pow q (FQty r) = Ok s /\ fq_unit s = fq_unit q /\ finite (fq_data s) /\
       Rabs (magnitude s - (magnitude q + magnitude r)) <= t) /\
    (exists s, f_sub scale pow q (FQty r) = Ok s /\ fq_unit s = fq_unit q /\ finite (fq_data s) /\
       Rabs (magnitude s - (magnitude q - magnitude r)) <= t).
Proof.
  intros scale pow env q r d POW Su Sv Wu Wv Cu Cv Du Dv X Y t. split; [now apply (add_ok scale pow POW env q r d)|].
  destruct (fneg_value (fq_data r) (proj1 Y)) as (Fn & Vn).
  assert (N : magnitude (f_neg r) = - magnitude r) by (unfold magnitude, f_neg; cbn [fq_data fq_unit]; rewrite Vn; ring).
  destruct (add_ok scale pow POW env q (f_neg r) d) as (s & E & U & F & B); auto.
  { split; [exact Fn|]. cbn [f_neg fq_data]. rewrite Vn, Rabs_Ropp. destruct Y as (_ & [->|Y]); [left; ring|now right]. }
  exists s. split; [exact E|]. split; auto. split; auto. rewrite N, Rabs_Ropp in B. exact B.
Qed.

Theorem C172_comparison :
  forall scale pow env q r d,
    accurate_power pow -> sized env (fq_unit q) -> sized env (fq_unit r) ->
    well_scaled scale (fq_unit q) -> well_scaled scale (fq_unit r) ->
    (complexity (fq_unit q) <= 20)%Z -> (complexity (fq_unit r) <= 20)%Z ->
    dimension (fq_unit q) = Ok d -> dimension (fq_unit r) = Ok d -> finite (fq_data q) -> sensible 400 (fq_data r) ->
    let a := magnitude q in let b := magnitude r in
    let t := IZR (complexity (fq_unit q) + complexity (fq_unit r) + 3) * / 2 ^ 53 * Rabs b in
    exists lt le gt ge eq ne,
      f_lt scale pow q r = Ok lt /\ f_le scale pow q r = Ok le /\ f_gt scale pow q r = Ok gt /\
      f_ge scale pow q r = Ok ge /\ f_eq scale pow q r = Ok eq /\ f_ne scale pow q r = Ok ne /\
      (a < b - t -> lt = true /\ le = true /\ gt = false /\ ge = false /\ eq = false /\ ne = true) /\
      (b + t < a -> lt = false /\ le = false /\ gt = true /\ ge = true /\ eq = false /\ ne = true) /\
      (repr_unit (fq_unit q) = repr_unit (fq_unit r) ->
         (lt = true <-> a < b) /\ (le = true <-> a <= b) /\ (gt = true <-> b < a) /\ (ge = true <-> b <= a) /\
         (eq = true <-> a = b) /\ (ne = true <-> a <> b)) /\
      (** one of three holds *)
      ((lt, gt, eq) = (true, false, false) \/ (lt, gt, eq) = (false, true, false) \/ (lt, gt, eq) = (false, false, true)) /\
      le = lt || eq /\ ge = gt || eq /\ ne = negb eq.
Proof.
  intros scale pow env q r d POW Su Sv Wu Wv Cu Cv Du Dv Fx Y a b t.
  destruct (to_magnitude scale pow POW env q r d) as (y & E & F & _ & O); auto. fold b in O.
  pose proof (size_env env _ Su) as Pu.
  assert (C : forall op, f_compare scale pow op q r = Ok (op (fq_data q) y)).
  { intros op. unfold f_compare. rewrite Du, Dv. cbn [bind]. rewrite String.eqb_refl. cbn [negb]. rewrite E. reflexivity. }
  pose proof (flt_iff (fq_data q) y Fx F) as L. pose proof (flt_iff y (fq_data q) F Fx) as G. pose proof (feq_iff (fq_data q) y Fx F) as Q.
  set (bl := flt (fq_data q) y) in *. set (bg := flt y (fq_data q)) in *. set (be := feq (fq_data q) y) in *.
  exists bl, (bl || be), bg, (bg || be), be, (negb be).
  assert (Wl : f_lt scale pow q r = Ok bl) by (unfold f_lt; now rewrite C).
  assert (Wg : f_gt scale pow q r = Ok bg) by (unfold f_gt; now rewrite C).
  assert (We : f_eq scale pow q r = Ok be) by (unfold f_eq; now rewrite C).
  split; [exact Wl|]. split; [unfold f_le; rewrite We; cbn [bind]; destruct be; [now rewrite orb_true_r|rewrite orb_false_r; exact Wl]|].
  split; [exact Wg|]. split; [unfold f_ge; rewrite We; cbn [bind]; destruct be; [now rewrite orb_true_r|rewrite orb_false_r; exact Wg]|].
  split; [exact We|]. split; [unfold f_ne; rewrite We; reflexivity|].
  fold (tolerance q r) in t. change (tolerance q r * Rabs b) with t in O. assert (T : Rabs (value y * real_size (fq_unit q) - b) <= t) by exact O. apply Rabs_bound in T.
  assert (A : a = value (fq_data q) * real_size (fq_unit q)) by reflexivity.
  set (s := real_size (fq_unit q)) in *. set (x := value (fq_data q)) in *. set (z := value y) in *.
  assert (Ls : x < z <-> x * s < z * s) by (split; intros H; [now apply Rmult_lt_compat_r|now apply Rmult_lt_reg_r in H]).
  assert (Gs : z < x <-> z * s < x * s) by (split; intros H; [now apply Rmult_lt_compat_r|now apply Rmult_lt_reg_r in H]).
  assert (Es : x = z <-> x * s = z * s) by (split; intros H; [now rewrite H|apply Rmult_eq_reg_r in H; lra]).
  assert (Tri : (bl, bg, be) = (true, false, false) /\ x * s < z * s \/ (bl, bg, be) = (false, true, false) /\ z * s < x * s \/ (bl, bg, be) = (false, false, true) /\ x * s = z * s).
  { destruct (Rtotal_order x z) as [H|[H|H]].
    - left. assert (bl = true) as -> by now apply L. assert (bg = false) as -> by (apply (bool_iff _ _ G); lra). assert (be = false) as -> by (apply (bool_iff _ _ Q); lra). split; [reflexivity|now apply Ls].
    - right. right. assert (bl = false) as -> by (apply (bool_iff _ _ L); lra). assert (bg = false) as -> by (apply (bool_iff _ _ G); lra). assert (be = true) as -> by now apply Q. split; [reflexivity|now apply Es].
    - right. left. assert (bl = false) as -> by (apply (bool_iff _ _ L); lra). assert (bg = true) as -> by now apply G. assert (be = false) as -> by (apply (bool_iff _ _ Q); lra). split; [reflexivity|now apply Gs]. }
  split; [|split; [|split; [|split; [|auto]]]].
  - intros H. destruct Tri as [(K & H')|[(K & H')|(K & H')]]; injection K as -> -> ->; try (exfalso; lra). cbn. auto 10.
  - intros H. destruct Tri as [(K & H')|[(K & H')|(K & H')]]; injection K as -> -> ->; try (exfalso; lra). cbn. auto 10.
  - intros R. assert (Z : z * s = b).
    { assert (Ey : y = fq_data r).
      { unfold f_to, f_convert_to in E. rewrite Du, Dv in E. cbn [bind] in E. rewrite String.eqb_refl, <- R, String.eqb_refl in E. cbn [negb rmap fq_data] in E. congruence. }
      unfold z, b, magnitude, s. rewrite Ey. f_equal. unfold real_size. apply Qeq_eqR. now apply (repr_same_size env (fq_unit q) (fq_unit r) d d). }
    rewrite Z in Tri. rewrite A. fold x s. destruct Tri as [(K & H')|[(K & H')|(K & H')]]; injection K as -> -> ->; cbn [orb negb];
      repeat split; intros; try lra; try discriminate; auto.
  - destruct Tri as [(K & _)|[(K & _)|(K & _)]]; rewrite K; auto.
Qed.

(** C173. Products. *)
Section Product.
Context (scale : named -> float) (pow : float -> Z -> res float) (POW : accurate_power pow) (env : string -> Q) (reg : nat -> named).
Context (a b : uexpr) (x y : float) (da db : string).
Context (E : forall i, sized_named env (reg i)) (Ra : from_registry reg a) (Rb : from_registry reg b)
  (Wa : well_scaled scale (eval a)) (Wb : well_scaled scale (eval b))
  (Ca : (complexity (eval a) <= 20)%Z) (Cb : (complexity (eval b) <= 20)%Z)
  (Da : dimension (eval a) = Ok da) (Db : dimension (eval b) = Ok db) (X : sensible 200 x) (Y : sensible 200 y).

Lemma reg_nonzero i : ~ (n_scale (reg i) == 0)%Q.
Proof. intros C. destruct (E i) as [_ P]. rewrite C in P. now apply Qlt_irrefl in P. Qed.
Lemma size_a : 0 < real_size (eval a). Proof. apply (size_env env). now apply (sized_eval env reg). Qed.
Lemma size_b : 0 < real_size (eval b). Proof. apply (size_env env). now apply (sized_eval env reg). Qed.
Lemma few : 0 <= IZR (complexity (eval a)) /\ 0 <= IZR (complexity (eval b)) /\ 0 <= IZR (complexity (eval a) + complexity (eval b) + 3) <= 43.
Proof.
  pose proof (complexity_nonneg (eval a)). pose proof (complexity_nonneg (eval b)). repeat split; try (apply IZR_le; lia).
Qed.
Lemma converted : da = db -> exists z, f_to scale pow (mkFQ y (eval b)) (eval a) = Ok z /\ finite z /\ in_span 779 (value z) /\
  rel (IZR (gap (eval b) (eval a))) (value z) (value y * (real_size (eval b) / real_size (eval a))).
Proof.
  intros D. apply sensible_span in Y as (Fy & Iy).
  apply (to_other scale pow POW env (mkFQ x (eval a)) (mkFQ y (eval b)) da (sized_eval env reg a E Ra) (sized_eval env reg b E Rb) Wa Wb Ca Cb 200); auto; [lia|].
  cbn [fq_unit]. congruence.
Qed.
Lemma product_ok : exists s, f_mul scale pow (mkFQ x (eval a)) (FQty (mkFQ y (eval b))) = Ok s /\ finite (fq_data s) /\
  let exact := magnitude (mkFQ x (eval a)) * magnitude (mkFQ y (eval b)) in
  Rabs (magnitude s - exact) <= IZR (complexity (eval a) + complexity (eval b) + 4) * / 2 ^ 53 * Rabs exact.
Proof.
  pose proof size_a as Pa. pose proof size_b as Pb. pose proof few as (Na & Nb & N). destruct (sensible_span _ _ X) as (Fx & Ix). destruct (sensible_span _ _ Y) as (Fy & Iy).
  unfold f_mul. cbn [fq_unit fq_data]. rewrite Da, Db. cbn [bind].
  assert (K : forall m z, rel (IZR (complexity (eval a) + complexity (eval b) + 3)) (value m * z) (magnitude (mkFQ x (eval a)) * magnitude (mkFQ y (eval b))) ->
     Rabs (value m * z - magnitude (mkFQ x (eval a)) * magnitude (mkFQ y (eval b))) <=
       IZR (complexity (eval a) + complexity (eval b) + 4) * / 2 ^ 53 * Rabs (magnitude (mkFQ x (eval a)) * magnitude (mkFQ y (eval b)))).
  { intros m z H. apply rel_abs in H; [|lra]. eapply Rle_trans; [exact H|]. right. f_equal. f_equal. rewrite !plus_IZR. lra. }
  destruct (String.eqb_spec da db) as [D|D].
  - destruct (converted D) as (z & -> & Fz & Iz & Oz). cbn [bind]. eexists. split; [reflexivity|]. cbn [fq_data].
    assert (Im : in_span (779 + 200) (value z * value x)).
    { destruct Ix as [Ix|Ix]; [left; rewrite Ix; ring|]. now apply in_span_mul. }
    rewrite Rmult_comm in Im. destruct (mul_rel (779 + 200) x z ltac:(lia) Fx Fz Im) as (Fm & Om). split; auto. cbv zeta. unfold magnitude at 1. cbn [fq_data fq_unit].
    apply K. unfold magnitude. cbn [fq_data fq_unit].
    assert (Z2 : real_size (u_pow (eval a) 2) = real_size (eval a) * real_size (eval a)).
    { unfold real_size. rewrite <- Q2R_mult. apply Qeq_eqR. rewrite (u_pow_size reg) by (auto; apply reg_nonzero). cbn [Qpower Qpower_positive pow_pos]. reflexivity. }
    rewrite Z2. pose proof (rel_mul _ _ _ _ _ _ (rel_refl (value x)) Oz) as O1. pose proof (rel_trans _ _ _ _ _ Om O1) as O2.
    pose proof (rel_mul _ _ _ _ _ _ O2 (rel_refl (real_size (eval a) * real_size (eval a)))) as O3.
    replace (value x * real_size (eval a) * (value y * real_size (eval b)))
      with (value x * (value y * (real_size (eval b) / real_size (eval a))) * (real_size (eval a) * real_size (eval a))) by (field; lra).
    eapply rel_le; [exact O3|]. unfold gap. rewrite !plus_IZR. lra.
  - eexists. split; [reflexivity|]. cbn [fq_data].
    assert (Im : in_span (200 + 200) (value x * value y)).
    { destruct Iy as [Iy|Iy]; [left; rewrite Iy; ring|]. now apply in_span_mul. }
    destruct (mul_rel (200 + 200) x y ltac:(lia) Fx Fy Im) as (Fm & Om). split; auto. cbv zeta. unfold magnitude at 1. cbn [fq_data fq_unit].
    apply K. unfold magnitude. cbn [fq_data fq_unit].
    assert (Z2 : real_size (u_mul (eval a) (eval b)) = real_size (eval a) * real_size (eval b)).
    { unfold real_size. rewrite <- Q2R_mult. apply Qeq_eqR. apply (u_mul_size reg); auto. apply reg_nonzero. }
    rewrite Z2. pose proof (rel_mul _ _ _ _ _ _ Om (rel_refl (real_size (eval a) * real_size (eval b)))) as O3.
    replace (value x * real_size (eval a) * (value y * real_size (eval b))) with (value x * value y * (real_size (eval a) * real_size (eval b))) by ring.
    eapply rel_le; [exact O3|]. rewrite !plus_IZR. lra.
Qed.

Lemma quotient_ok : value y <> 0 ->
  (da = db /\ is_named (eval a)) \/ (da <> db /\ (is_named (eval b) \/ ~ shares_base (eval a) (eval b))) ->
  exists s, f_div scale pow (mkFQ x (eval a)) (FQty (mkFQ y (eval b))) = Ok s /\ finite (fq_data s) /\
    (da = db -> unit_bases (fq_unit s) = []) /\
    let exact := magnitude (mkFQ x (eval a)) / magnitude (mkFQ y (eval b)) in
    Rabs (magnitude s - exact) <= IZR (complexity (eval a) + complexity (eval b) + 4) * / 2 ^ 53 * Rabs exact.
Proof.
  intros Ny C.
  pose proof size_a as Pa. pose proof size_b as Pb. pose proof few as (Na & Nb & N). destruct (sensible_span _ _ X) as (Fx & Ix). destruct (sensible_span _ _ Y) as (Fy & Iy).
  unfold f_div. cbn [fq_unit fq_data]. rewrite Da, Db. cbn [bind].
  assert (K : forall m z, rel (IZR (complexity (eval a) + complexity (eval b) + 3)) (value m * z) (magnitude (mkFQ x (eval a)) / magnitude (mkFQ y (eval b))) ->
     Rabs (value m * z - magnitude (mkFQ x (eval a)) / magnitude (mkFQ y (eval b))) <=
       IZR (complexity (eval a) + complexity (eval b) + 4) * / 2 ^ 53 * Rabs (magnitude (mkFQ x (eval a)) / magnitude (mkFQ y (eval b)))).
  { intros m z H. apply rel_abs in H; [|lra]. eapply Rle_trans; [exact H|]. right. f_equal. f_equal. rewrite !plus_IZR. lra. }
  assert (NZ : forall w, finite w -> value w <> 0 -> feq w (of_Z 0) = false).
  { intros w Fw Nw. destruct (of_Z_ok 0) as (F0 & E0); [lia|]. apply (bool_iff _ _ (feq_iff w (of_Z 0) Fw F0)). now rewrite E0. }
  destruct C as [(D & n & Hn)|(D & C)].
  - rewrite <- D, String.eqb_refl. destruct (converted D) as (z & -> & Fz & Iz & Oz). cbn [bind].
    assert (Nz : value z <> 0).
    { destruct Oz as (e & _ & ->). intros H. apply Rmult_integral in H as [H|H]; [|pose proof (exp_pos e); lra].
      apply Rmult_integral in H as [H|H]; [contradiction|]. apply Rmult_integral in H as [H|H]; [lra|]. apply Rinv_neq_0_compat in H; lra. }
    unfold fpy_div. rewrite (NZ z Fz Nz). cbn [bind]. eexists. split; [reflexivity|]. cbn [fq_data fq_unit].
    assert (Iq : in_span (200 + 779) (value x / value z)).
    { destruct Iz as [Iz|Iz]; [contradiction|]. apply in_span_mul; auto. rewrite Rabs_inv by auto. now apply span_inv. }
    destruct (div_rel (200 + 779) x z ltac:(lia) Fx Nz Iq) as (Fq & Oq). split; auto. rewrite Hn, u_div_self_named. cbn [unit_bases c_bases]. split; [reflexivity|]. rewrite <- Hn.
    cbv zeta. unfold magnitude at 1. cbn [fq_data fq_unit]. apply K. unfold magnitude. cbn [fq_data fq_unit].
    assert (Z1 : real_size (UC (mkCompound 1 [] true)) = 1) by (unfold real_size; cbn; unfold Q2R; cbn; lra). rewrite Z1, Rmult_1_r.
    assert (Nr : value y * (real_size (eval b) / real_size (eval a)) <> 0) by (destruct Oz as (e & _ & Ez); intros H; rewrite H in Ez; apply Nz; rewrite Ez; ring).
    pose proof (rel_div _ _ _ _ _ _ Nr (rel_refl (value x)) Oz) as O1. pose proof (rel_trans _ _ _ _ _ Oq O1) as O2.
    replace (value x * real_size (eval a) / (value y * real_size (eval b))) with (value x / (value y * (real_size (eval b) / real_size (eval a)))) by (field; lra).
    eapply rel_le; [exact O2|]. unfold gap. rewrite !plus_IZR. lra.
  - destruct (String.eqb_spec da db) as [Q|_]; [contradiction|]. unfold fpy_div. rewrite (NZ y Fy Ny). cbn [bind]. eexists. split; [reflexivity|]. cbn [fq_data fq_unit].
    assert (Iq : in_span (200 + 200) (value x / value y)).
    { destruct Iy as [Iy|Iy]; [contradiction|]. apply in_span_mul; auto. rewrite Rabs_inv by auto. now apply span_inv. }
    destruct (div_rel (200 + 200) x y ltac:(lia) Fx Ny Iq) as (Fq & Oq). split; auto. split; [intros; contradiction|].
    cbv zeta. unfold magnitude at 1. cbn [fq_data fq_unit]. apply K. unfold magnitude. cbn [fq_data fq_unit].
    assert (Z2 : real_size (u_div (eval a) (eval b)) = real_size (eval a) / real_size (eval b)).
    { unfold real_size, Rdiv. rewrite <- Q2R_inv, <- Q2R_mult.
      - apply Qeq_eqR. apply (u_div_size reg); auto. apply reg_nonzero.
      - intros H. unfold real_size in Pb. apply Qeq_eqR in H. rewrite H in Pb. unfold Q2R in Pb. cbn in Pb. lra. }
    rewrite Z2. pose proof (rel_mul _ _ _ _ _ _ Oq (rel_refl (real_size (eval a) / real_size (eval b)))) as O3.
    replace (value x * real_size (eval a) / (value y * real_size (eval b))) with (value x / value y * (real_size (eval a) / real_size (eval b))) by (field; lra).
    eapply rel_le; [exact O3|]. rewrite !plus_IZR. lra.
Qed.
End Product.

Theorem C173_product :
  forall scale pow env reg a b x y da db,
    accurate_power pow -> (forall i, sized_named env (reg i)) -> from_registry reg a -> from_registry reg b ->
    well_scaled scale (eval a) -> well_scaled scale (eval b) ->
    (complexity (eval a) <= 20)%Z -> (complexity (eval b) <= 20)%Z ->
    dimension (eval a) = Ok da -> dimension (eval b) = Ok db -> sensible 200 x -> sensible 200 y ->
    exists s, f_mul scale pow (mkFQ x (eval a)) (FQty (mkFQ y (eval b))) = Ok s /\ finite (fq_data s) /\
      let exact := magnitude (mkFQ x (eval a)) * magnitude (mkFQ y (eval b)) in
      Rabs (magnitude s - exact) <= IZR (complexity (eval a) + complexity (eval b) + 4) * / 2 ^ 53 * Rabs exact.
Proof. intros. now apply (product_ok scale pow H env reg a b x y da db). Qed.

(** C174. Quotients.  Full statement: the magnitude of a quotient is the quotient of the
    magnitudes, up to rounding.  False for products that share a base unit ... *)
Theorem C174_quotient_refuted :
  forall scale pow,
  let v := eval (EDiv (EName u_m) (EName u_s)) in
  (** 6 m/s over 2 m/s should be a number *)
  (exists s, f_div scale pow (mkFQ (of_Z 6) v) (FQty (mkFQ (of_Z 2) v)) = Ok s /\ dimension (fq_unit s) = Ok "L2 / T2"%string) /\
  (** 10 m over 2 m/s should be a time *)
  (exists s, f_div scale pow (mkFQ (of_Z 10) (UN u_m)) (FQty (mkFQ (of_Z 2) v)) = Ok s /\ dimension (fq_unit s) = Ok "L2 T"%string).
Proof.
  intros scale pow v.
  assert (Z2 : feq (of_Z 2) (of_Z 0) = false).
  { destruct (of_Z_ok 2 ltac:(lia)) as (F2 & V2). destruct (of_Z_ok 0 ltac:(lia)) as (F0 & V0). apply (bool_iff _ _ (feq_iff _ _ F2 F0)). rewrite V2, V0. lra. }
  assert (D : dimension v = Ok "L / T"%string) by (vm_compute; reflexivity).
  split.
  - assert (T : f_to scale pow (mkFQ (of_Z 2) v) v = Ok (of_Z 2)).
    { unfold f_to, f_convert_to. cbn [fq_unit fq_data]. rewrite D. cbn [bind]. rewrite !String.eqb_refl. reflexivity. }
    unfold f_div. cbn [fq_unit fq_data]. rewrite D. cbn [bind]. rewrite String.eqb_refl, T. cbn [bind]. unfold fpy_div. rewrite Z2. cbn [bind].
    eexists. split; [reflexivity|]. cbn [fq_unit]. vm_compute. reflexivity.
  - unfold f_div. cbn [fq_unit fq_data]. rewrite D. assert (L : dimension (UN u_m) = Ok "L"%string) by (vm_compute; reflexivity). rewrite L. cbn [bind].
    change (String.eqb "L" "L / T") with false. cbv iota. unfold fpy_div. rewrite Z2. cbn [bind]. eexists. split; [reflexivity|]. cbn [fq_unit]. vm_compute. reflexivity.
Qed.

(** ... and right otherwise. *)
Theorem C174_quotient_partial :
  forall scale pow env reg a b x y da db,
    accurate_power pow -> (forall i, sized_named env (reg i)) -> from_registry reg a -> from_registry reg b ->
    well_scaled scale (eval a) -> well_scaled scale (eval b) ->
    (complexity (eval a) <= 20)%Z -> (complexity (eval b) <= 20)%Z ->
    dimension (eval a) = Ok da -> dimension (eval b) = Ok db -> sensible 200 x -> sensible 200 y -> value y <> 0 ->
    (da = db /\ is_named (eval a)) \/ (da <> db /\ (is_named (eval b) \/ ~ shares_base (eval a) (eval b))) ->
    exists s, f_div scale pow (mkFQ x (eval a)) (FQty (mkFQ y (eval b))) = Ok s /\ finite (fq_data s) /\
      (da = db -> unit_bases (fq_unit s) = []) /\
      let exact := magnitude (mkFQ x (eval a)) / magnitude (mkFQ y (eval b)) in
      Rabs (magnitude s - exact) <= IZR (complexity (eval a) + complexity (eval b) + 4) * / 2 ^ 53 * Rabs exact.
Proof. intros. now apply (quotient_ok scale pow H env reg a b x y da db). Qed.
Theorem C174_by_zero :
  forall scale pow q r d1 d2, dimension (fq_unit q) = Ok d1 -> dimension (fq_unit r) = Ok d2 -> d1 <> d2 ->
    finite (fq_data r) -> value (fq_data r) = 0 -> f_div scale pow q (FQty r) = Raise ZeroDivisionError.
Proof.
  intros scale pow q r d1 d2 D1 D2 N F Z. unfold f_div. rewrite D1, D2. cbn [bind]. destruct (String.eqb_spec d1 d2); [contradiction|]. unfold fpy_div.
  destruct (of_Z_ok 0) as (F0 & E0); [lia|]. assert (feq (fq_data r) (of_Z 0) = true) as -> by (apply feq_iff; auto; now rewrite E0, Z). reflexivity.
Qed.

(** ** Plain numbers as operands: added to the data, multiplied and divided with it *)
Theorem C172_numbers :
  forall scale pow q x, sensible 400 (fq_data q) -> sensible 400 x ->
    (exists s, f_add scale pow q (FNum x) = Ok s /\ fq_unit s = fq_unit q /\ finite (fq_data s) /\
       Rabs (value (fq_data s) - (value (fq_data q) + value x)) <= / 2 ^ 53 * Rabs (value (fq_data q) + value x)) /\
    (exists s, f_sub scale pow q (FNum x) = Ok s /\ fq_unit s = fq_unit q /\ finite (fq_data s) /\
       Rabs (value (fq_data s) - (value (fq_data q) - value x)) <= / 2 ^ 53 * Rabs (value (fq_data q) - value x)) /\
    magnitude (f_neg q) = - magnitude q /\ fq_unit (f_neg q) = fq_unit q /\
    f_add scale pow q FOther = Raise TypeError /\ f_sub scale pow q FOther = Raise TypeError.
Proof.
  intros scale pow q x X Y. apply sensible_span in X as (Fx & Ix). apply sensible_span in Y as (Fy & Iy).
  destruct (fneg_value x Fy) as (Fn & Vn). destruct (fneg_value (fq_data q) Fx) as (Gn & Wn).
  assert (B : forall k z, in_span k z -> (k <= 999)%Z -> Rabs z <= bpow radix2 999).
  { intros k z [->|(_ & U)] K; [rewrite Rabs_R0; apply bpow_ge_0|]. eapply Rle_trans; [exact U|apply bpow_le; lia]. }
  assert (A : forall y, finite y -> Rabs (value y) <= bpow radix2 999 ->
     exists s, f_add scale pow q (FNum y) = Ok s /\ fq_unit s = fq_unit q /\ finite (fq_data s) /\
       Rabs (value (fq_data s) - (value (fq_data q) + value y)) <= / 2 ^ 53 * Rabs (value (fq_data q) + value y)).
  { intros y F U. cbn [f_add]. eexists. split; [reflexivity|]. cbn [fq_unit fq_data]. split; auto.
    destruct (fadd_ok (fq_data q) y Fx F) as (Fs & Vs).
    { eapply Rle_trans; [apply Rabs_triang|]. pose proof (B (Z.of_nat 400) (value (fq_data q)) Ix ltac:(lia)). change 1000%Z with (999 + 1)%Z. rewrite bpow_plus. change (bpow radix2 1) with 2. lra. }
    split; auto. rewrite Vs. destruct (plus_rel (fq_data q) y) as (e & He & ->).
    replace ((value (fq_data q) + value y) * (1 + e) - (value (fq_data q) + value y)) with (e * (value (fq_data q) + value y)) by ring.
    rewrite Rabs_mult, two53. apply Rmult_le_compat_r; auto. apply Rabs_pos. }
  pose proof (B (Z.of_nat 400) (value x) Iy ltac:(lia)) as U.
  split; [now apply A|]. split; [|split; [unfold magnitude, f_neg; cbn [fq_data fq_unit]; rewrite Wn; ring|repeat split]].
  destruct (A (fneg x) Fn) as (s & E & Z & F & H); [rewrite Vn, Rabs_Ropp; exact U|]. exists s. rewrite Vn in H. split; [exact E|]. auto.
Qed.
Theorem C173_numbers :
  forall scale pow q x, sensible 400 (fq_data q) -> sensible 400 x ->
    (exists s, f_mul scale pow q (FNum x) = Ok s /\ fq_unit s = fq_unit q /\ finite (fq_data s) /\
       Rabs (magnitude s - magnitude q * value x) <= 2 * / 2 ^ 53 * Rabs (magnitude q * value x)) /\
    f_mul scale pow q FOther = Raise TypeError.
Proof.
  intros scale pow q x X Y. apply sensible_span in X as (Fx & Ix). apply sensible_span in Y as (Fy & Iy). split; [|reflexivity].
  cbn [f_mul]. eexists. split; [reflexivity|]. cbn [fq_unit fq_data]. split; auto.
  assert (Im : in_span (400 + 400) (value (fq_data q) * value x)).
  { destruct Iy as [Iy|Iy]; [left; rewrite Iy; ring|]. now apply in_span_mul. }
  destruct (mul_rel (400 + 400) _ _ ltac:(lia) Fx Fy Im) as (F & O). split; auto. unfold magnitude. cbn [fq_data fq_unit].
  pose proof (rel_mul _ _ _ _ _ _ O (rel_refl (real_size (fq_unit q)))) as O2. apply rel_abs in O2; [|lra].
  replace (value (fq_data q) * real_size (fq_unit q) * value x) with (value (fq_data q) * value x * real_size (fq_unit q)) by ring.
  eapply Rle_trans; [exact O2|]. right. f_equal. f_equal. lra.
Qed.
Theorem C174_numbers_partial :
  forall scale pow q x, sensible 400 (fq_data q) -> sensible 400 x ->
    (value x <> 0 -> exists s, f_div scale pow q (FNum x) = Ok s /\ fq_unit s = fq_unit q /\ finite (fq_data s) /\
       Rabs (magnitude s - magnitude q / value x) <= 2 * / 2 ^ 53 * Rabs (magnitude q / value x)) /\
    (value x = 0 -> f_div scale pow q (FNum x) = Raise ZeroDivisionError) /\
    f_div scale pow q FOther = Raise TypeError.
Proof.
  intros scale pow q x X Y. apply sensible_span in X as (Fx & Ix). apply sensible_span in Y as (Fy & Iy).
  destruct (of_Z_ok 0) as (F0 & E0); [lia|]. pose proof (feq_iff x (of_Z 0) Fy F0) as Q. rewrite E0 in Q.
  split; [|split; [intros H|reflexivity]].
  - intros N. cbn [f_div]. unfold fpy_div. assert (feq x (of_Z 0) = false) as -> by now apply (bool_iff _ _ Q). cbn [bind].
    eexists. split; [reflexivity|]. cbn [fq_unit fq_data]. split; auto.
    assert (Im : in_span (400 + 400) (value (fq_data q) / value x)).
    { destruct Iy as [Iy|Iy]; [contradiction|]. apply in_span_mul; auto. rewrite Rabs_inv by auto. now apply span_inv. }
    destruct (div_rel (400 + 400) _ _ ltac:(lia) Fx N Im) as (F & O). split; auto. unfold magnitude. cbn [fq_data fq_unit].
    pose proof (rel_mul _ _ _ _ _ _ O (rel_refl (real_size (fq_unit q)))) as O2. apply rel_abs in O2; [|lra].
    replace (value (fq_data q) * real_size (fq_unit q) / value x) with (value (fq_data q) / value x * real_size (fq_unit q)) by (field; auto).
    eapply Rle_trans; [exact O2|]. right. f_equal. f_equal. lra.
  - cbn [f_div]. unfold fpy_div. rewrite (proj2 Q H). reflexivity.
Qed.

(** ** The predefined units and a correctly rounding power meet the hypotheses *)
Definition to_float (r : R) : float :=
  binary_normalize 53 1024 (eq_refl : Prec_gt_0 53) (eq_refl : Prec_lt_emax 53 1024) mode_NE
    (ZnearestE (scaled_mantissa radix2 (FLT_exp (-1074) 53) r)) (cexp radix2 (FLT_exp (-1074) 53) r) false.
Lemma to_float_ok r : Rabs r <= bpow radix2 1000 -> finite (to_float r) /\ value (to_float r) = rnd r.
Proof.
  intros B. unfold to_float, finite, value.
  match goal with |- context [binary_normalize _ _ ?a ?b _ ?m ?e] => pose proof (binary_normalize_correct 53 1024 a b mode_NE m e false) as C end.
  cbn [round_mode] in C. fold (rnd r) in C. change (F2R (Float radix2 (ZnearestE (scaled_mantissa radix2 (FLT_exp (-1074) 53) r)) (cexp radix2 (FLT_exp (-1074) 53) r))) with (rnd r) in C.
  change (SpecFloat.fexp 53 1024) with (FLT_exp (-1074) 53) in C.
  change (round radix2 (FLT_exp (-1074) 53) ZnearestE (rnd r)) with (rnd (rnd r)) in C.
  rewrite (rnd_fmt _ (fmt_rnd r)) in C. rewrite Rlt_bool_true in C; [destruct C as (C1 & C2 & _); auto|].
  apply Rle_lt_trans with (bpow radix2 1000); [apply rnd_abs_le; auto; lia|apply bpow_lt; lia].
Qed.
Definition best_power (x : float) (n : Z) : res float := Ok (to_float (powerRZ (value x) n)).
Lemma best_power_accurate : accurate_power best_power.
Proof.
  intros x n F (L & U). rewrite pow_bpow in L, U. destruct (to_float_ok _ U) as (Ff & V). eexists. split; [reflexivity|]. split; auto. rewrite V.
  destruct (rnd_rel' (powerRZ (value x) n)) as (e & He & ->).
  { right. eapply Rle_trans; [|exact L]. rewrite <- bpow_opp. apply bpow_le. lia. }
  replace (powerRZ (value x) n * (1 + e) - powerRZ (value x) n) with (e * powerRZ (value x) n) by ring. rewrite Rabs_mult. apply Rmult_le_compat_r; [apply Rabs_pos|].
  rewrite two53. pose proof uu_pos. lra.
Qed.
Definition predefined : list unit_name :=
  [Um; Umm; Ucm; Ukm; Uinch; Uft; Uyd; Umi; Us; Umin; Uhr; Udy; Ujd2000; Udeg; Urad; Uarcsec; Uarcmin; Uhourangle].
Definition std_scale (n : named) : float := unit_scale (nth (n_id n) predefined Um).
Lemma std_base n : In n unit_table ->
  finite (std_scale n) /\ / 2 ^ 17 <= Q2R (n_scale n) <= 2 ^ 17 /\ Rabs (value (std_scale n) - Q2R (n_scale n)) <= / 2 ^ 53 * Q2R (n_scale n).
Proof.
  intros I. assert (S : Q2R (n_scale n) = Fl_Spec.size (nth (n_id n) predefined Um)).
  { cbn [unit_table In] in I. repeat (destruct I as [<-|I]; [vm_compute; lra|]). destruct I. }
  destruct (scale_ok (nth (n_id n) predefined Um)) as (F & e & He & Ee). rewrite S. fold (std_scale n) in F, Ee.
  pose proof (size_bounds (nth (n_id n) predefined Um)) as B. set (z := Fl_Spec.size (nth (n_id n) predefined Um)) in *. clearbody z.
  split; auto. split; [lra|]. rewrite Ee. replace (z * (1 + e) - z) with (e * z) by ring. rewrite Rabs_mult, (Rabs_pos_eq z), two53 by lra.
  apply Rmult_le_compat_r; lra.
Qed.
Theorem C171_predefined : forall u, (forall n p, In (n, p) (unit_bases u) -> In n unit_table) -> well_scaled std_scale u.
Proof. intros u H n p I. apply std_base. now apply (H n p). Qed.

(** 90 km/hr in m/s: right to 19 units of [2 ^ -53] of 25 m/s. *)
Example C171_case :
  let u := eval (EDiv (EName u_km) (EName u_hr)) in let v := eval (EDiv (EName u_m) (EName u_s)) in
  exists y, f_to std_scale best_power (mkFQ (of_Z 90) u) v = Ok y /\ Rabs (value y - 25) <= 19 * / 2 ^ 53 * 25.
Proof.
  intros u v. destruct (of_Z_ok 90 ltac:(lia)) as (F & V).
  assert (SU : real_size u = 1000 / 3600) by (vm_compute; lra). assert (SV : real_size v = 1) by (vm_compute; lra).
  destruct (C171_conversion std_scale best_power std_env (fun i => i) (mkFQ (of_Z 90) u) v "L / T"%string)
    as (q' & _ & T & _ & _ & Z & B).
  - exact best_power_accurate.
  - repeat constructor.
  - repeat constructor.
  - apply C171_predefined. cbn [fq_unit]. intros n p I. vm_compute in I. destruct I as [I|[I|[]]]; injection I as <- <-; vm_compute; auto 20.
  - apply C171_predefined. intros n p I. vm_compute in I. destruct I as [I|[I|[]]]; injection I as <- <-; vm_compute; auto 20.
  - vm_compute. discriminate.
  - vm_compute. discriminate.
  - vm_compute. reflexivity.
  - vm_compute. reflexivity.
  - split; [exact F|right]. cbn [fq_data]. rewrite V, Rabs_pos_eq by lra. split.
    + apply Rle_trans with 1; [|lra]. rewrite <- Rinv_1. apply Rinv_le_contravar; [lra|]. apply pow_R1_Rle. lra.
    + apply Rle_trans with (2 ^ 7); [lra|]. apply Rle_pow; [lra|lia].
  - exists (fq_data q'). split; [exact T|].
    unfold magnitude in B. rewrite Z in B. cbn [fq_data fq_unit] in B. rewrite SU, SV, V in B.
    assert (C : IZR (complexity u + complexity v + 3) = 19) by (vm_compute; lra). rewrite C in B.
    replace (90 * (1000 / 3600)) with 25 in B by lra. rewrite Rmult_1_r, (Rabs_pos_eq 25) in B by lra. exact B.
Qed.

(** 90 km/hr times 2 hr, and over 2 s: the hypotheses of C173 and C174 hold. *)
Example C173_case :
  let a := EDiv (EName u_km) (EName u_hr) in
  accurate_power best_power /\ (forall i, sized_named std_env (std_reg i)) /\ from_registry std_reg a /\
  from_registry std_reg (EName u_hr) /\ from_registry std_reg (EName u_s) /\
  well_scaled std_scale (eval a) /\ well_scaled std_scale (eval (EName u_hr)) /\ well_scaled std_scale (eval (EName u_s)) /\
  (complexity (eval a) <= 20)%Z /\ dimension (eval a) = Ok "L / T"%string /\ dimension (eval (EName u_hr)) = Ok "T"%string /\
  is_named (eval (EName u_s)) /\ sensible 200 (of_Z 90) /\ sensible 200 (of_Z 2).
Proof.
  intros a. assert (S : forall z, (1 <= z <= 100)%Z -> sensible 200 (of_Z z)).
  { intros z Z. destruct (of_Z_ok z ltac:(lia)) as (F & V). split; [exact F|right]. assert (1 <= IZR z <= 100) by (split; apply IZR_le; lia).
    rewrite V, Rabs_pos_eq by lra. split.
    - apply Rle_trans with 1; [|lra]. rewrite <- Rinv_1. apply Rinv_le_contravar; [lra|]. apply pow_R1_Rle. lra.
    - apply Rle_trans with (2 ^ 7); [lra|]. apply Rle_pow; [lra|lia]. }
  split; [exact best_power_accurate|]. split; [exact std_reg_sized|]. split; [cbn; repeat split; discriminate|].
  split; [cbn; repeat split; discriminate|]. split; [cbn; repeat split; discriminate|].
  split; [|split; [|split]]; try (apply C171_predefined; intros n p I; vm_compute in I; repeat (destruct I as [I|I]; [injection I as <- <-; vm_compute; auto 20|]); destruct I).
  split; [vm_compute; discriminate|]. split; [vm_compute; reflexivity|]. split; [vm_compute; reflexivity|]. split; [eexists; reflexivity|].
  split; apply S; lia.
Qed.

Print Assumptions C171_conversion.
Print Assumptions C171_round_trip.
Print Assumptions C171_mixed_dimensions.
Print Assumptions C171_predefined.
Print Assumptions C172_sum.
Print Assumptions C172_comparison.
Print Assumptions C173_product.
Print Assumptions C174_quotient_refuted.
Print Assumptions C174_quotient_partial.
Print Assumptions C174_by_zero.
Print Assumptions C172_numbers.
Print Assumptions C173_numbers.
Print Assumptions C174_numbers_partial.
