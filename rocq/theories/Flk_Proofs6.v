(** Local sidereal times in floating point. *)
From Coq Require Import List ZArith QArith Qreals Reals Lra Lia Psatz Bool.
From Flocq Require Import Core.Core IEEE754.BinarySingleNaN IEEE754.Binary IEEE754.Bits.
From Verif Require Import Py Fl_Model Fl_Spec Fl_Proofs Flg_Model Flg_Spec Time_Model Time_Spec Time_Proofs Rot_Model Rot_Spec Rot_Proofs Flg_Proofs Flg_Num Flg_Proofs2 Flg_Proofs3
  Flc_Model Flc_Spec Flc_Proofs Flc_Proofs2 Flc_Proofs3 Flc_Proofs4 Flc_Proofs5 Flg_Proofs5 Flr_Model Flr_Spec Flx_Expr Flr_Proofs Flr_Proofs2 Flr_Proofs3 Flr_Proofs4 Flr_Proofs5 Lvlh_Props2 Flk_Model Flk_Spec Flk_Proofs Flk_Proofs2 Flk_Proofs3 Flk_Proofs4 Flk_Proofs5.
Open Scope R_scope.
#[local] Strategy 1000 [fmul fadd fsub fdiv fneg literal of_Z fpymod].

(** A number of hours, known but for whole days *)
Definition around (d r : R) (x : float) : Prop := finite x /\ Rabs (value x) <= 100 /\ apart_at_most 24 d (value x) r.
Lemma around_add d r x d' r' x' : around d r x -> around d' r' x' -> Rabs (value x + value x') <= 99 -> around (d + d' + 2 / 10 ^ 14) (r + r') (fadd x x').
Proof.
  intros (F & _ & k & A) (F' & _ & k' & A') Bd. pose proof uu_value as U.
  destruct (fadd_ok x x' F F') as (Fa & Va). { apply small_abs. lra. }
  pose proof (rnd_abs_err (value x + value x') 99 Bd ltac:(lra)) as E. rewrite <- Va in E. rewrite U in E. apply Rabs_le_inv in Bd, A, A', E.
  split; [exact Fa|]. split; [apply Rabs_le; lra|]. exists (k + k')%Z. rewrite plus_IZR. apply Rabs_le. lra.
Qed.
Lemma around_mod d r x : around d r x -> turned (d + / 10 ^ 14) 24 r (fpymod x (of_Z 24)).
Proof.
  intros (F & _ & k & A). pose proof uu_value as U. destruct (fpymod_bounds x (of_Z 24) 24 ltac:(lia) eq_refl F) as (Fm & Vm & Rm). split; auto. split; auto.
  pose proof (modulo_range (value x) 24 ltac:(lra)) as Rq.
  pose proof (rnd_abs_err (modulo (value x) 24) 24 ltac:(rewrite Rabs_pos_eq; lra) ltac:(lra)) as E. rewrite <- Vm in E. rewrite U in E.
  destruct (modulo_shift (value x) 24) as (q & Eq). rewrite Eq in E. apply Rabs_le_inv in A, E. exists (k - q)%Z. rewrite minus_IZR. apply Rabs_le. lra.
Qed.
Lemma around_exact r x : finite x -> Rabs (value x) <= 100 -> (exists k, value x = r + IZR k * 24) -> around 0 r x.
Proof. intros F Bd (k & E). split; auto. split; auto. exists k. rewrite E. replace (_ - _) with 0 by ring. rewrite Rabs_R0. lra. Qed.
Definition hour_leaf : appr (fdiv (unit_scale Urad) (unit_scale Uhourangle)) (size Urad / size Uhourangle) (Q2R (5 * 4)%Q) (Q2R 4).
Proof. apply (factor_leaf Urad Uhourangle); auto. unfold size, Q2R. cbn [Qnum Qden]. split; lra. Qed.
Lemma hour_size x : x * (size Urad / size Uhourangle) = rad_to_hourangle x.
Proof. unfold rad_to_hourangle, size, deg_per_rad. decimals. field. Qed.
(** A turn is 24 hours. *)
Lemma turn_hours : Rabs (2 * PI * (size Urad / size Uhourangle) - 24) <= / 10 ^ 14 /\ 38197 / 10000 <= size Urad / size Uhourangle <= 38198 / 10000.
Proof. pose proof PI_near. unfold size. split; [apply Rabs_le|]; lra. Qed.
Section Numpy.
Variable L : arrays.
Hypothesis G : accurate_arrays L.
Variable B : more.
Hypothesis H : accurate_more B.
Section Hours.
Variables (a c : float) (ar cr : R).
Hypothesis A : appr a ar (Q2R 2600000) (Q2R 7).
Hypothesis C : appr c cr (Q2R (5 * 4)%Q) (Q2R 4).
Let h := Mul (Leaf a ar 2600000 7) (Leaf c cr (5 * 4) 4).
Lemma hours_bounds : appr (feval L h) (reval h) (Q2R 10500000) (Q2R 29).
Proof. apply (check_ok L 10500000 29 _ G); [|vm_compute; reflexivity]. cbn [leaves h]. tauto. Qed.
End Hours.
Lemma hours_ok jd : dated jd -> around (117 / 10 ^ 11) (rad_to_hourangle (sun_right_ascension (value jd))) (fto (fsun_right_ascension L B jd) Urad Uhourangle) /\
  Rabs (value (fto (fsun_right_ascension L B jd) Urad Uhourangle)) <= 30.
Proof.
  intros D. destruct (ascension_ok L G B H jd D) as (F & R & A). apply apart_to_Rmod in A. rewrite <- sun_angle_mod in A.
  pose proof (Rmod_range (sun_angle (value jd)) (2 * PI) ltac:(pose proof PI_near; lra)) as Rr. rewrite <- sun_angle_mod in Rr.
  rewrite <- hour_size. destruct turn_hours as (T & Q). set (q := size Urad / size Uhourangle) in *.
  set (s := sun_right_ascension (value jd)) in *. clearbody s. destruct A as (k & A). set (a := fsun_right_ascension L B jd) in *. clearbody a. pose proof uu_value as U. pose proof PI_near as Pn.
  assert (K : (-1 <= k <= 1)%Z).
  { apply Rabs_le_inv in A. assert (IZR k < 2) by nra. assert (-2 < IZR k) by nra. apply (lt_IZR k 2) in H0. apply (lt_IZR (-2) k) in H1. lia. }
  assert (Kr : -1 <= IZR k <= 1) by (split; apply IZR_le; lia).
  assert (Aa : appr a (s + IZR k * (2 * PI)) (Q2R 2600000) (Q2R 7)).
  { rewrite !Q2R_int. split; [exact F|]. replace (value a - (s + IZR k * (2 * PI))) with (value a - s - IZR k * (2 * PI)) by ring.
    split; [eapply Rle_trans; [exact A|rewrite U; lra]|]. apply Rabs_le_inv in A. apply Rabs_le. lra. }
  pose proof (hours_bounds _ _ _ _ Aa hour_leaf) as (Fh & Eh & Bh). cbn [reval] in Eh, Bh. fold q in Eh, Bh. clearbody q.
  change (feval L _) with (fto a Urad Uhourangle) in Fh, Eh. rewrite !Q2R_int in *. rewrite U in Eh. set (x := fto a Urad Uhourangle) in *. clearbody x.
  pose proof (err_abs _ _ _ Eh) as Ex. assert (Bx : Rabs (value x) <= 30) by lra. split; [|exact Bx].
  split; [exact Fh|]. split; [lra|]. exists k. apply Rabs_le_inv in Eh, T.
  replace (value x - s * q - IZR k * 24) with ((value x - (s + IZR k * (2 * PI)) * q) + IZR k * (2 * PI * q - 24)) by ring.
  set (t := 2 * PI * q - 24) in *. clearbody t. assert (- / 10 ^ 14 <= IZR k * t <= / 10 ^ 14) by nra. apply Rabs_le. lra.
Qed.
Lemma lmst_ok jd l : dated jd -> longitude l -> turned (118 / 10 ^ 11) 24 (24 * value jd + value l / 15 + rad_to_hourangle (sun_right_ascension (value jd))) (flmst L B jd l).
Proof.
  intros D Ll. destruct (mha_ok jd l D Ll) as (F & R & A). destruct (hours_ok jd D) as (Ho & Bh).
  assert (Ha : around (2 / 100000000000000) (24 * value jd + value l / 15) (fmean_hour_angle jd l)). { split; [exact F|]. split; [apply Rabs_le; lra|exact A]. }
  assert (Bd : Rabs (value (fmean_hour_angle jd l) + value (fto (fsun_right_ascension L B jd) Urad Uhourangle)) <= 99). { apply Rabs_le_inv in Bh. apply Rabs_le. lra. }
  pose proof (around_mod _ _ _ (around_add _ _ _ _ _ _ Ha Ho Bd)) as (F1 & R1 & A1). split; [exact F1|]. split; [exact R1|].
  eapply apart_weaken; [exact A1|]. lra.
Qed.
Lemma equinox_around jd : dated jd -> around (2 / 10 ^ 14) (arcsec_to_deg (equation_of_equinoxes (value jd))) (fto (fequation_of_equinoxes L jd) Uarcsec Udeg) /\
  Rabs (value (fto (fequation_of_equinoxes L jd) Uarcsec Udeg)) <= 1.
Proof.
  intros D. destruct (obliquity_ok L G jd D) as (_ & _ & _ & _ & (F & E & Bd)). rewrite Q2R_int, uu_value in E. replace (Q2R (1 # 1000)) with (1 / 1000) in Bd by (unfold Q2R; cbn; lra).
  set (x := fto _ Uarcsec Udeg) in *. clearbody x. pose proof (err_abs _ _ _ E) as Ex. assert (Bx : Rabs (value x) <= 1) by lra. split; [|exact Bx].
  split; [exact F|]. split; [lra|]. exists 0%Z. rewrite Rmult_0_l, Rminus_0_r. eapply Rle_trans; [exact E|]. lra.
Qed.
Lemma last_ok jd l : dated jd -> longitude l ->
  turned (119 / 10 ^ 11) 24 (24 * value jd + rad_to_hourangle (sun_right_ascension (value jd)) + arcsec_to_deg (equation_of_equinoxes (value jd)) + value l / 15) (flast L B jd l).
Proof.
  intros D (Fl & Bl). destruct (ut1_ok jd D) as (F & R & q & A). destruct (hours_ok jd D) as (Ho & Bh). destruct (equinox_around jd D) as (Eq & Be). pose proof uu_value as U.
  destruct (of_Z_ok 12 ltac:(lia)) as (F12 & V12). destruct (of_Z_ok 15 ltac:(lia)) as (F15 & V15).
  assert (U1 : around 0 (24 * (value jd + / 2)) (fut1 jd)). { apply around_exact; [exact F|apply Rabs_le; lra|]. exists (- q)%Z. rewrite opp_IZR. lra. }
  assert (U2 : around (2 / 10 ^ 14) (24 * value jd) (fsub (fut1 jd) (of_Z 12)) /\ Rabs (value (fsub (fut1 jd) (of_Z 12))) <= 13).
  { destruct (fsub_ok (fut1 jd) (of_Z 12) F F12) as (Fs & Vs). { rewrite V12. apply small_abs, Rabs_le. lra. }
    rewrite V12 in Vs. pose proof (rnd_abs_err (value (fut1 jd) - 12) 12 ltac:(apply Rabs_le; lra) ltac:(lra)) as E1. rewrite <- Vs in E1. rewrite U in E1.
    set (b := fsub (fut1 jd) (of_Z 12)) in *. clearbody b. apply Rabs_le_inv in E1. assert (Bb : Rabs (value b) <= 13) by (apply Rabs_le; lra). split; [|exact Bb].
    split; [exact Fs|]. split; [lra|]. exists (- q)%Z. rewrite opp_IZR. apply Rabs_le. lra. }
  destruct U2 as (U2 & B2). unfold flast.
  assert (Lo : around (2 / 10 ^ 14) (value l / 15) (fdiv l (of_Z 15)) /\ Rabs (value (fdiv l (of_Z 15))) <= 25).
  { destruct (fdiv_ok l (of_Z 15) Fl) as (Fd & Vd); [lra|rewrite V15; apply small_abs, Rabs_le; lra|]. rewrite V15 in Vd.
    pose proof (rnd_abs_err (value l / 15) 24 ltac:(apply Rabs_le; lra) ltac:(lra)) as E1. rewrite <- Vd in E1. rewrite U in E1. set (b := fdiv l (of_Z 15)) in *. clearbody b. apply Rabs_le_inv in E1.
    assert (Bb : Rabs (value b) <= 25) by (apply Rabs_le; lra). split; [|exact Bb]. split; [exact Fd|]. split; [lra|]. exists 0%Z. apply Rabs_le. lra. }
  destruct Lo as (Lo & B4).
  set (x1 := fsub (fut1 jd) (of_Z 12)) in *. set (x2 := fto _ Urad Uhourangle) in *. set (x3 := fto _ Uarcsec Udeg) in *. set (x4 := fdiv l (of_Z 15)) in *.
  clearbody x1 x2 x3 x4. apply Rabs_le_inv in B2, B4, Bh, Be.
  assert (S : forall u v, finite u -> finite v -> Rabs (value u + value v) <= 99 -> Rabs (value (fadd u v) - (value u + value v)) <= / 10 ^ 13).
  { intros u v Fu Fv Bd. destruct (fadd_ok u v Fu Fv) as (Fa & Va). { apply small_abs. lra. }
    pose proof (rnd_abs_err _ 99 Bd ltac:(lra)) as E. rewrite <- Va in E. rewrite U in E. lra. }
  assert (C1 : Rabs (value x1 + value x2) <= 99) by (apply Rabs_le; lra). pose proof (around_add _ _ _ _ _ _ U2 Ho C1) as D1.
  pose proof (S _ _ (proj1 U2) (proj1 Ho) C1) as G1. apply Rabs_le_inv in G1. set (y1 := fadd x1 x2) in *. clearbody y1.
  assert (C2 : Rabs (value y1 + value x3) <= 99) by (apply Rabs_le; lra). pose proof (around_add _ _ _ _ _ _ D1 Eq C2) as D2.
  pose proof (S _ _ (proj1 D1) (proj1 Eq) C2) as G2. apply Rabs_le_inv in G2. set (y2 := fadd y1 x3) in *. clearbody y2.
  assert (C3 : Rabs (value y2 + value x4) <= 99) by (apply Rabs_le; lra). pose proof (around_add _ _ _ _ _ _ D2 Lo C3) as D3.
  pose proof (around_mod _ _ _ D3) as (F1 & R1 & A1). split; [exact F1|]. split; [exact R1|]. eapply apart_weaken; [exact A1|]. lra.
Qed.
End Numpy.
