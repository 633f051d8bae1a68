(** The obliquity of the ecliptic, the equation of the equinoxes and the equation of time in floating point. *)
From Coq Require Import List ZArith QArith Qreals Reals Lra Lia Psatz Bool.
From Flocq Require Import Core.Core IEEE754.BinarySingleNaN IEEE754.Binary IEEE754.Bits.
From Verif Require Import Py Fl_Model Fl_Spec Fl_Proofs Flg_Model Flg_Spec Time_Model Time_Spec Time_Proofs Rot_Model Rot_Spec Rot_Proofs Flg_Proofs Flg_Num Flg_Proofs2 Flg_Proofs3
  Flc_Model Flc_Spec Flc_Proofs Flc_Proofs2 Flc_Proofs3 Flc_Proofs4 Flc_Proofs5 Flg_Proofs5 Flr_Model Flr_Spec Flx_Expr Flr_Proofs Flr_Proofs2 Flr_Proofs3 Flr_Proofs4 Flk_Model Flk_Spec Flk_Proofs.
Open Scope R_scope.
#[local] Strategy 1000 [fmul fadd fsub fdiv fneg literal of_Z fpymod].

(** ** Sines of multiples *)
Lemma sin_turns x j : sin (x + IZR j * (2 * PI)) = sin x /\ cos (x + IZR j * (2 * PI)) = cos x.
Proof.
  assert (H : forall y n, sin (y + INR n * (2 * PI)) = sin y /\ cos (y + INR n * (2 * PI)) = cos y).
  { intros y n. replace (y + INR n * (2 * PI)) with (y + 2 * INR n * PI) by ring. split; [apply sin_period|apply cos_period]. }
  destruct (Z_lt_le_dec j 0) as [N|N].
  - destruct (H (x + IZR j * (2 * PI)) (Z.to_nat (- j))) as (A & B). rewrite INR_IZR_INZ, Z2Nat.id, opp_IZR in A, B by lia.
    replace (x + IZR j * (2 * PI) + - IZR j * (2 * PI)) with x in A, B by ring. auto.
  - specialize (H x (Z.to_nat j)). now rewrite INR_IZR_INZ, Z2Nat.id in H by lia.
Qed.
Lemma trig_turns k n j : (Z.abs j <= 1)%Z -> (1 <= k <= 4)%Z ->
  Rabs (sin (IZR k * ((n + IZR j * 360) * rad_ratio)) - sin (IZR k * (n * rad_ratio))) <= 4 * uu /\
  Rabs (cos (IZR k * ((n + IZR j * 360) * rad_ratio)) - cos (IZR k * (n * rad_ratio))) <= 4 * uu.
Proof.
  intros J K. set (d := 360 * rad_ratio - 2 * PI). assert (Dd : Rabs d <= uu) by exact two_pi_off.
  replace (IZR k * ((n + IZR j * 360) * rad_ratio)) with ((IZR k * (n * rad_ratio) + IZR (k * j) * d) + IZR (k * j) * (2 * PI)) by (rewrite mult_IZR; unfold d; ring).
  destruct (sin_turns (IZR k * (n * rad_ratio) + IZR (k * j) * d) (k * j)) as (-> & ->).
  set (x := IZR k * (n * rad_ratio)). assert (E : Rabs (IZR (k * j) * d) <= 4 * uu).
  { rewrite Rabs_mult. apply Rmult_le_compat; auto using Rabs_pos. rewrite <- abs_IZR. apply IZR_le. nia. }
  split; [eapply Rle_trans; [apply sin_lip|]|eapply Rle_trans; [apply cos_lip|]]; replace (x + IZR (k * j) * d - x) with (IZR (k * j) * d) by ring; exact E.
Qed.
Lemma deg_to_rad_ratio x : deg_to_rad x = x * rad_ratio.
Proof. unfold deg_to_rad, rad_ratio, deg_per_rad. decimals. reflexivity. Qed.

Section Numpy.
Variable L : arrays.
Hypothesis G : accurate_arrays L.
Section Trig.
Variables (n f : float) (N q : R).
Hypothesis Nn : appr n N (Q2R 18001000) (Q2R 400).
Hypothesis F : appr f q (Q2R (5 * (2 # 100))%Q) (Q2R (2 # 100)).
Let a := Mul (Leaf n N 18001000 400) (Leaf f q (5 * (2 # 100)) (2 # 100)).
Lemma sin_bounds :
  appr (feval L (Sin a)) (reval (Sin a)) (Q2R 400000) (Q2R 1) /\ appr (feval L (Sin (Mul (Whole 2) a))) (reval (Sin (Mul (Whole 2) a))) (Q2R 800000) (Q2R 1) /\
  appr (feval L (Sin (Mul (Whole 3) a))) (reval (Sin (Mul (Whole 3) a))) (Q2R 1200000) (Q2R 1).
Proof.
  split; [apply (check_ok L 400000 1 _ G)|split; [apply (check_ok L 800000 1 _ G)|apply (check_ok L 1200000 1 _ G)]]; try (vm_compute; reflexivity); cbn [leaves a]; tauto.
Qed.
End Trig.
Lemma anomaly_trig jd : dated jd -> let M := deg_to_rad (mean_anomaly_of_sun (value jd)) in let m := fto (fmean_anomaly_of_sun L jd) Udeg Urad in
  appr (a_sin L m) (sin M) (Q2R (400000 + 4)%Q) (Q2R 1) /\
  appr (a_sin L (fmul (of_Z 2) m)) (sin (2 * M)) (Q2R (800000 + 4)%Q) (Q2R 1) /\
  appr (a_sin L (fmul (of_Z 3) m)) (sin (3 * M)) (Q2R (1200000 + 4)%Q) (Q2R 1).
Proof.
  intros D M m. destruct (angles_ok L G jd D) as (_ & B & _). set (r := _ + _ - _ - _) in B.
  assert (EN : Rmod r 360 = mean_anomaly_of_sun (value jd)) by reflexivity. clearbody r.
  destruct (mod_any 360 _ _ _ _ B ltac:(lia) ltac:(lra)) as (Fm & Rm & A). pose proof uu_pos as U. pose proof uu14 as U'.
  destruct (apart_near 360 _ _ _ A ltac:(lra) ltac:(nra) Rm) as (j & J & E). rewrite EN in E. unfold M. rewrite deg_to_rad_ratio.
  pose proof (Rmod_range r 360 ltac:(lra)) as Rr. rewrite EN in Rr. set (N := mean_anomaly_of_sun (value jd)) in *. clearbody N.
  assert (H : appr (fmean_anomaly_of_sun L jd) (N + IZR j * 360) (Q2R 18001000) (Q2R 400)).
  { rewrite !Q2R_int. split; [exact Fm|]. split; [eapply Rle_trans; [exact E|nra]|]. apply Rabs_le_inv in E. apply Rabs_le. nra. }
  destruct (sin_bounds _ _ _ _ H rad_leaf) as (T1 & T2 & T3). cbn [reval] in T1, T2, T3.
  destruct (trig_turns 1 N j J ltac:(lia)) as (S1 & _). destruct (trig_turns 2 N j J ltac:(lia)) as (S2 & _). destruct (trig_turns 3 N j J ltac:(lia)) as (S3 & _). rewrite !Rmult_1_l in S1.
  assert (E4 : Q2R 4 * uu = 4 * uu) by (rewrite Q2R_int; reflexivity). rewrite <- E4 in S1, S2, S3.
  assert (B1 : forall x, Rabs (sin x) <= Q2R 1) by (intros x; rewrite Q2R_1'; apply Rabs_le, SIN_bound).
  split; [|split].
  - exact (move_leaf _ _ _ _ _ _ T1 S1 (B1 _)).
  - exact (move_leaf _ _ _ _ _ _ T2 S2 (B1 _)).
  - exact (move_leaf _ _ _ _ _ _ T3 S3 (B1 _)).
Qed.

(** ** Nutation, obliquity and equinoxes *)
Section Nutation.
Variables (d k s1 s2 c1 c2 : float) (r kr s1r s2r c1r c2r : R).
Hypothesis D : appr d r (Q2R 0) (Q2R 1742758).
Hypothesis K : appr k kr (Q2R (5 * (2 # 100))%Q) (Q2R (2 # 100)).
Hypothesis S1 : appr s1 s1r (Q2R (90000 + 2)%Q) (Q2R 1).
Hypothesis S2 : appr s2 s2r (Q2R (90000 + 2)%Q) (Q2R 1).
Hypothesis C1 : appr c1 c1r (Q2R (90000 + 2)%Q) (Q2R 1).
Hypothesis C2 : appr c2 c2r (Q2R (90000 + 2)%Q) (Q2R 1).
Let t (p : nat) := Pow (Over (Leaf d r 0 1742758) 36525) p.
Let lk := Leaf k kr (5 * (2 # 100)) (2 # 100).
Let ls1 := Leaf s1 s1r (90000 + 2) 1.
Let ls2 := Leaf s2 s2r (90000 + 2) 1.
Let lc1 := Leaf c1 c1r (90000 + 2) 1.
Let lc2 := Leaf c2 c2r (90000 + 2) 1.
Let lon := elon t lk ls1 ls2.
Let obl := eobl t lk lc1 lc2.
Let mean := emean t.
Let sun := esun t.
Lemma parts_bounds : appr (feval L lon) (reval lon) (Q2R 6100000) (Q2R 19) /\ appr (feval L obl) (reval obl) (Q2R 3000000) (Q2R 10) /\
  appr (feval L mean) (reval mean) (Q2R 296) (Q2R (242 # 10)) /\ appr (feval L sun) (reval sun) (Q2R 18000000) (Q2R 1720000).
Proof.
  split; [apply (check_ok L 6100000 19 _ G)|split; [apply (check_ok L 3000000 10 _ G)|split; [apply (check_ok L 296 (242 # 10) _ G)|apply (check_ok L 18000000 1720000 _ G)]]];
    try (vm_compute; reflexivity); cbn [leaves lon obl mean sun emean elon eobl esun emoon t lk ls1 ls2 lc1 lc2]; tauto.
Qed.
End Nutation.
Lemma parts_ok jd : dated jd ->
  appr (fst (fnutation_components L jd)) (fst (nutation_components (value jd))) (Q2R 6100000) (Q2R 19) /\
  appr (snd (fnutation_components L jd)) (snd (nutation_components (value jd))) (Q2R 3000000) (Q2R 10) /\
  appr (fmean_obliquity L jd) (mean_obliquity (value jd)) (Q2R 296) (Q2R (242 # 10)) /\
  appr (fmean_longitude_of_sun L jd) (mean_longitude_of_sun (value jd)) (Q2R 18000000) (Q2R 1720000).
Proof.
  intros D. destruct (node_trig L G jd D) as (S1 & S2 & C1 & C2).
  destruct (parts_bounds _ _ _ _ _ _ _ _ _ _ _ _ (days_leaf jd D) rad_leaf S1 S2 C1 C2) as (A & B & C & E).
  cbn [reval emean elon eobl esun emoon] in A, B, C, E. set (N := longitude_of_ascending_node (value jd)) in *.
  assert (Sun : forall c, 2 * deg_to_rad (280.46645 + 36000.76983 * c) = 2 * ((28046645 / 100000 + 3600076983 / 100000 * c ^ 1) * rad_ratio)).
  { intros c. unfold deg_to_rad, rad_ratio, deg_per_rad. decimals. field. }
  assert (Moon : forall c, 2 * deg_to_rad (218.3165 + 481267.8813 * c) = 2 * ((2183165 / 10000 + 4812678813 / 10000 * c ^ 1) * rad_ratio)).
  { intros c. unfold deg_to_rad, rad_ratio, deg_per_rad. decimals. field. }
  assert (Ec : centuries (value jd) = (value jd - 2451545) / 36525) by reflexivity. rewrite <- Ec in A, B, C, E.
  assert (Lon : fst (nutation_components (value jd)) = - 17.20 * sin (deg_to_rad N) + - 1.32 * sin (2 * deg_to_rad (280.46645 + 36000.76983 * centuries (value jd))) + - 0.23 * sin (2 * deg_to_rad (218.3165 + 481267.8813 * centuries (value jd))) + 0.21 * sin (2 * deg_to_rad N)) by reflexivity.
  assert (Obl : snd (nutation_components (value jd)) = 9.20 * cos (deg_to_rad N) + 0.57 * cos (2 * deg_to_rad (280.46645 + 36000.76983 * centuries (value jd))) + 0.10 * cos (2 * deg_to_rad (218.3165 + 481267.8813 * centuries (value jd))) + - 0.09 * cos (2 * deg_to_rad N)) by reflexivity.
  assert (Mean : mean_obliquity (value jd) = (84381.448 - 4680.93 * (centuries (value jd) / 100) - 1.55 * (centuries (value jd) / 100) ^ 2 + 1999.25 * (centuries (value jd) / 100) ^ 3 - 51.38 * (centuries (value jd) / 100) ^ 4 - 249.67 * (centuries (value jd) / 100) ^ 5
   - 39.05 * (centuries (value jd) / 100) ^ 6 + 7.12 * (centuries (value jd) / 100) ^ 7 + 27.87 * (centuries (value jd) / 100) ^ 8 + 5.79 * (centuries (value jd) / 100) ^ 9 + 2.45 * (centuries (value jd) / 100) ^ 10) / 3600) by reflexivity.
  assert (Lsun : mean_longitude_of_sun (value jd) = 280.46645 + 36000.76983 * centuries (value jd)) by reflexivity.
  set (c := centuries (value jd)) in *. rewrite <- Sun, <- Moon in A, B. 
  set (s1 := sin (deg_to_rad N)) in *. set (s2 := sin (2 * deg_to_rad N)) in *. set (c1 := cos (deg_to_rad N)) in *. set (c2 := cos (2 * deg_to_rad N)) in *.
  set (sun := sin (2 * deg_to_rad (280.46645 + 36000.76983 * c))) in *. set (moon := sin (2 * deg_to_rad (218.3165 + 481267.8813 * c))) in *.
  set (sun' := cos (2 * deg_to_rad (280.46645 + 36000.76983 * c))) in *. set (moon' := cos (2 * deg_to_rad (218.3165 + 481267.8813 * c))) in *. clearbody sun moon sun' moon' c s1 s2 c1 c2.
  rewrite Lon, Obl, Mean, Lsun. clear Lon Obl Mean Lsun Sun Moon.
  split; [|split; [|split]].
  - match type of A with appr _ ?x _ _ => match goal with |- appr _ ?y _ _ => replace y with x by (decimals; field) end end. exact A.
  - match type of B with appr _ ?x _ _ => match goal with |- appr _ ?y _ _ => replace y with x by (decimals; field) end end. exact B.
  - match type of C with appr _ ?x _ _ => match goal with |- appr _ ?y _ _ => replace y with x by (rewrite pow_1; decimals; field) end end. exact C.
  - match type of E with appr _ ?x _ _ => match goal with |- appr _ ?y _ _ => replace y with x by (rewrite pow_1; decimals; field) end end. exact E.
Qed.
End Numpy.
