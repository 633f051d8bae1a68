(** The conversions in floating point. *)
From Coq Require Import List ZArith QArith Qreals Reals Lra Lia Psatz Bool.
From Flocq Require Import Core.Core IEEE754.BinarySingleNaN IEEE754.Binary IEEE754.Bits.
From Verif Require Import Py Fl_Model Fl_Spec Fl_Proofs Flg_Model Flg_Spec Time_Model Time_Spec Time_Proofs Rot_Model Rot_Spec Rot_Proofs Flg_Proofs Flg_Num Flg_Proofs2 Flg_Proofs3
  Flc_Model Flc_Spec Flc_Proofs Flc_Proofs2 Flc_Proofs3 Flc_Proofs4 Flc_Proofs5 Flg_Proofs5 Flr_Model Flr_Spec Flx_Expr Flr_Proofs Flr_Proofs2 Flr_Proofs3 Flr_Proofs4.
Open Scope R_scope.

#[local] Strategy 1000 [fmul fadd fsub fdiv fneg literal of_Z].
Section Numpy.
Variable L : arrays.
Hypothesis G : accurate_arrays L.

Lemma da_leaf : appr (fdiv (unit_scale Udeg) (unit_scale Uarcsec)) (size Udeg / size Uarcsec) (Q2R (5 * 3600)%Q) (Q2R 3600).
Proof. apply (factor_leaf Udeg Uarcsec); auto. unfold size, Q2R. cbn [Qnum Qden]. split; lra. Qed.
Lemma ad_leaf : appr (fdiv (unit_scale Uarcsec) (unit_scale Udeg)) (size Uarcsec / size Udeg) (Q2R (5 * (1 # 3600))%Q) (Q2R (1 # 3600)).
Proof. apply (factor_leaf Uarcsec Udeg); auto. unfold size, Q2R. cbn [Qnum Qden]. split; lra. Qed.
Lemma nut_angles jd : dated jd ->
  appr (fradians (fdiv (fnutation_obliquity L jd) (of_Z 3600))) (radians (nutation_obliquity (value jd) / 3600)) 1000 3 /\
  appr (fneg (fto (fst (fnutation_components L jd)) Uarcsec Urad)) (- arcsec_to_rad (fst (nutation_components (value jd)))) 1000 3 /\
  appr (fneg (fradians (fadd (fdiv (fnutation_obliquity L jd) (of_Z 3600)) (fto (snd (fnutation_components L jd)) Uarcsec Udeg))))
    (- radians (nutation_obliquity (value jd) / 3600 + arcsec_to_deg (snd (nutation_components (value jd))))) 1000 3.
Proof.
  intros D. destruct (node_trig L G jd D) as (S1 & S2 & C1 & C2).
  destruct (nut_bounds L G _ _ _ _ _ _ _ _ _ _ _ _ _ _ _ _ _ _ _ _ (days_leaf jd D) rad_leaf S1 S2 C1 C2 sec_leaf da_leaf ad_leaf radians_leaf) as (A & B & C).
  rewrite Q1000, Q3 in A, B, C. cbn [feval reval eeps emean elon eobl esun emoon] in A, B, C.
  set (N := longitude_of_ascending_node (value jd)) in *. 
  assert (Sun : forall c, 2 * deg_to_rad (280.46645 + 36000.76983 * c) = 2 * ((28046645 / 100000 + 3600076983 / 100000 * c ^ 1) * rad_ratio)).
  { intros c. unfold deg_to_rad, rad_ratio, deg_per_rad. decimals. field. }
  assert (Moon : forall c, 2 * deg_to_rad (218.3165 + 481267.8813 * c) = 2 * ((2183165 / 10000 + 4812678813 / 10000 * c ^ 1) * rad_ratio)).
  { intros c. unfold deg_to_rad, rad_ratio, deg_per_rad. decimals. field. }
  assert (Ec : centuries (value jd) = (value jd - 2451545) / 36525) by reflexivity. rewrite <- Ec in A, B, C.
  set (c := centuries (value jd)) in *. rewrite <- Sun, <- Moon in B. rewrite <- Sun, <- Moon in C.
  assert (Lon : fst (nutation_components (value jd)) = - 17.20 * sin (deg_to_rad N) + - 1.32 * sin (2 * deg_to_rad (280.46645 + 36000.76983 * c)) + - 0.23 * sin (2 * deg_to_rad (218.3165 + 481267.8813 * c)) + 0.21 * sin (2 * deg_to_rad N)) by reflexivity.
  assert (Obl : snd (nutation_components (value jd)) = 9.20 * cos (deg_to_rad N) + 0.57 * cos (2 * deg_to_rad (280.46645 + 36000.76983 * c)) + 0.10 * cos (2 * deg_to_rad (218.3165 + 481267.8813 * c)) + - 0.09 * cos (2 * deg_to_rad N)) by reflexivity.
  assert (Eps : nutation_obliquity (value jd) = mean_obliquity (value jd) * (1 / (1 / 3600)) - 46.84024 * c - 0.00059 * c ^ 2 + 0.001813 * c ^ 3) by reflexivity.
  assert (Mean : mean_obliquity (value jd) = (84381.448 - 4680.93 * (c / 100) - 1.55 * (c / 100) ^ 2 + 1999.25 * (c / 100) ^ 3 - 51.38 * (c / 100) ^ 4 - 249.67 * (c / 100) ^ 5
   - 39.05 * (c / 100) ^ 6 + 7.12 * (c / 100) ^ 7 + 27.87 * (c / 100) ^ 8 + 5.79 * (c / 100) ^ 9 + 2.45 * (c / 100) ^ 10) / 3600) by reflexivity.
  set (s1 := sin (deg_to_rad N)) in *. set (s2 := sin (2 * deg_to_rad N)) in *. set (c1 := cos (deg_to_rad N)) in *. set (c2 := cos (2 * deg_to_rad N)) in *.
  set (sun := deg_to_rad (280.46645 + 36000.76983 * c)) in *. set (moon := deg_to_rad (218.3165 + 481267.8813 * c)) in *. clearbody sun moon c s1 s2 c1 c2.
  unfold fto in B, C. rewrite pow_1 in A, C.
  match type of A with appr _ (?x / 3600 * _) _ _ => assert (Ex : nutation_obliquity (value jd) = x) end.
  { rewrite Eps, Mean. unfold size. decimals. unfold Rdiv. reflexivity. }
  rewrite <- Ex in A, C. clear Ex Eps Mean. set (ep := nutation_obliquity (value jd)) in *. clearbody ep.
  split; [|split].
  - match type of A with appr _ ?x _ _ => assert (E : radians (ep / 3600) = x) end.
    { unfold radians. field. }
    rewrite E. unfold fradians, fnutation_components, fnutation_in_longitude, fnutation_in_obliquity, fmean_longitude_of_sun, fmean_longitude_of_moon, fnutation_obliquity, fmean_obliquity, ft, fcenturies, fto. cbv zeta. cbn [fst snd]. exact A.
  - match type of B with appr _ ?x _ _ => assert (E : - arcsec_to_rad (fst (nutation_components (value jd))) = x) end.
    { rewrite Lon. unfold arcsec_to_rad, sec_ratio, deg_per_rad. decimals. field. }
    rewrite E. unfold fradians, fnutation_components, fnutation_in_longitude, fnutation_in_obliquity, fmean_longitude_of_sun, fmean_longitude_of_moon, fnutation_obliquity, fmean_obliquity, ft, fcenturies, fto. cbv zeta. cbn [fst snd]. exact B.
  - match type of C with appr _ ?x _ _ => assert (E : - radians (ep / 3600 + arcsec_to_deg (snd (nutation_components (value jd)))) = x) end.
    { rewrite Obl. unfold radians, arcsec_to_deg, size. decimals. field. }
    rewrite E. unfold fradians, fnutation_components, fnutation_in_longitude, fnutation_in_obliquity, fmean_longitude_of_sun, fmean_longitude_of_moon, fnutation_obliquity, fmean_obliquity, ft, fcenturies, fto. cbv zeta. cbn [fst snd]. exact C.
Qed.
End Numpy.
