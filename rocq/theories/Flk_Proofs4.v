(** True solar time and the apparent sidereal time of Greenwich in floating point. *)
From Coq Require Import List ZArith QArith Qreals Reals Lra Lia Psatz Bool.
From Flocq Require Import Core.Core IEEE754.BinarySingleNaN IEEE754.Binary IEEE754.Bits.
From Verif Require Import Py Fl_Model Fl_Spec Fl_Proofs Flg_Model Flg_Spec Time_Model Time_Spec Time_Proofs Rot_Model Rot_Spec Rot_Proofs Flg_Proofs Flg_Num Flg_Proofs2 Flg_Proofs3
  Flc_Model Flc_Spec Flc_Proofs Flc_Proofs2 Flc_Proofs3 Flc_Proofs4 Flc_Proofs5 Flg_Proofs5 Flr_Model Flr_Spec Flx_Expr Flr_Proofs Flr_Proofs2 Flr_Proofs3 Flr_Proofs4 Flr_Proofs5 Flk_Model Flk_Spec Flk_Proofs Flk_Proofs2 Flk_Proofs3.
Open Scope R_scope.
#[local] Strategy 1000 [fmul fadd fsub fdiv fneg literal of_Z fpymod].

Lemma exact_leaf x b : finite x -> Rabs (value x) <= Q2R b -> appr x (value x) (Q2R 0) (Q2R b).
Proof. intros F B. split; auto. split; auto. rewrite Rminus_diag_eq by reflexivity. rewrite Rabs_R0, Q2R_int. pose proof uu_pos. lra. Qed.
Section Numpy.
Variable L : arrays.
Hypothesis G : accurate_arrays L.
Variable B : more.
Hypothesis H : accurate_more B.
Section Solar.
Variables (u l eo : float) (ur lr eor : R).
Hypothesis U : appr u ur (Q2R 0) (Q2R 12).
Hypothesis Lo : appr l lr (Q2R 0) (Q2R 360).
Hypothesis Eo : appr eo eor (Q2R 25000000) (Q2R 20).
Let tst := Add (Leaf u ur 0 12) (Over (Add (Leaf l lr 0 360) (Leaf eo eor 25000000 20)) 15).
Lemma tst_bounds : appr (feval L tst) (reval tst) (Q2R 1700000) (Q2R 38).
Proof. apply (check_ok L 1700000 38 _ G); [|vm_compute; reflexivity]. cbn [leaves tst]. tauto. Qed.
End Solar.
Lemma utc_leaf jd : dated jd -> appr (futc jd) (24 * modulo (value jd) 1 - 12) (Q2R 0) (Q2R 12).
Proof.
  intros D. destruct (utc_ok jd D) as (F & V & _). rewrite <- V. apply exact_leaf; auto. rewrite V, Q2R_int.
  pose proof (modulo_range (value jd) 1 ltac:(lra)). apply Rabs_le. lra.
Qed.
Lemma tst_ok jd l : dated jd -> longitude l -> turned (2 / 10 ^ 10) 24 (24 * (value jd + / 2) + (value l + rad_to_deg (equation_of_time (value jd))) / 15) (ftrue_solar_time L B jd l).
Proof.
  intros D (Fl & Bl). pose proof (exact_leaf l 360 Fl ltac:(rewrite Q2R_int; apply Rabs_le; lra)) as Ll. destruct (eot_ok L G B H jd D) as (_ & Eo).
  pose proof (tst_bounds _ _ _ _ _ _ (utc_leaf jd D) Ll Eo) as T. cbn [reval] in T. rewrite ?Q2R_int in T. pose proof uu_value as Uv.
  assert (Tu : turned (2 / 10 ^ 10) 24 (24 * modulo (value jd) 1 - 12 + (value l + rad_to_deg (equation_of_time (value jd))) / 15) (ftrue_solar_time L B jd l)).
  { refine (turn_of 24 _ _ _ _ _ _ T _ _); [lia|lra|rewrite Uv; lra]. }
  destruct Tu as (F & R & A). split; auto. split; auto. destruct (modulo_shift (value jd) 1) as (q & Eq).
  apply (apart_turn _ _ _ _ (- q - 1)). rewrite Eq in A. set (z := (value l + _) / 15) in *. clearbody z.
  replace (24 * (value jd + / 2) + z + IZR (- q - 1) * 24) with (24 * (value jd - IZR q * 1) - 12 + z); [exact A|]. rewrite minus_IZR, opp_IZR. lra.
Qed.
Lemma tha_ok jd l : dated jd -> longitude l -> turned (21 / 10 ^ 11) 24 (24 * value jd + (value l + rad_to_deg (equation_of_time (value jd))) / 15) (ftrue_hour_angle L B jd l).
Proof.
  intros D Ll. destruct (tst_ok jd l D Ll) as (F & R & q & A). destruct (of_Z_ok 12 ltac:(lia)) as (F12 & V12). unfold ftrue_hour_angle. pose proof uu_value as Uv.
  set (t := ftrue_solar_time L B jd l) in *. clearbody t.
  destruct (fsub_ok t (of_Z 12) F F12) as (Fs & Vs). { rewrite V12. apply small_abs, Rabs_le. lra. }
  rewrite V12 in Vs. pose proof (rnd_abs_err (value t - 12) 12 ltac:(apply Rabs_le; lra) ltac:(lra)) as E1. rewrite <- Vs in E1.
  rewrite Rabs_bound, Uv in E1. set (b := fsub t (of_Z 12)) in *. clearbody b.
  destruct (fpymod_bounds b (of_Z 24) 24 ltac:(lia) eq_refl Fs) as (Fm & Vm & Rm). split; auto. split; auto.
  pose proof (modulo_range (value b) 24 ltac:(lra)) as Rq.
  pose proof (rnd_abs_err (modulo (value b) 24) 24 ltac:(rewrite Rabs_pos_eq; lra) ltac:(lra)) as E3. rewrite <- Vm in E3. rewrite Rabs_bound, Uv in E3.
  destruct (modulo_shift (value b) 24) as (k & Ek). rewrite Ek in E3. rewrite Rabs_bound in A.
  exists (q - k)%Z. rewrite minus_IZR. apply Rabs_bound. set (z := (value l + _) / 15) in *. clearbody z. lra.
Qed.
(** The apparent sidereal time: not reduced to a day again *)
Lemma gast_ok jd : dated jd -> let T := T_of (value jd) in
  finite (fgast L jd) /\ - (11 / 10000) <= value (fgast L jd) <= 24 + 11 / 10000 /\
  apart_at_most 24 (61 / 10 ^ 9) (value (fgast L jd))
    ((280.46 + 360.98564736629 * (value jd - 2451545) + 0.000387933 * T ^ 2 - T ^ 3 / 38710000) / 15 + arcsec_to_deg (equation_of_equinoxes (value jd))).
Proof.
  intros D T. destruct (gmst_ok L G jd D) as (F & R & q & A). fold T in A. destruct (obliquity_ok L G jd D) as (_ & _ & _ & _ & (Fe & Ee & Be)).
  unfold fgast. set (g := fgmst L jd) in *. set (e := fto _ Uarcsec Udeg) in *. set (er := arcsec_to_deg _) in *. clearbody g e er. pose proof uu_value as Uv.
  rewrite ?Q2R_int, Uv in Ee. replace (Q2R (1 # 1000)) with (1 / 1000) in Be by (unfold Q2R; cbn; lra). apply Rabs_le_inv in Ee, Be, A.
  destruct (fadd_ok g e F Fe) as (Fa & Va). { apply small_abs, Rabs_le. lra. }
  pose proof (rnd_abs_err (value g + value e) 25 ltac:(apply Rabs_le; lra) ltac:(lra)) as E1. rewrite <- Va in E1. rewrite Rabs_bound, Uv in E1.
  set (P := 280.46 + _ * (_ - _) + _ - _) in *. clearbody P. split; auto. split; [lra|]. exists q. apply Rabs_le. lra.
Qed.
End Numpy.
