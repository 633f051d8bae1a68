(** The accuracy of the angles of nutation and of the rotation of the Earth. *)
From Coq Require Import List ZArith QArith Qreals Reals Lra Lia Psatz Bool.
From Flocq Require Import Core.Core IEEE754.BinarySingleNaN IEEE754.Binary IEEE754.Bits.
From Verif Require Import Py Fl_Model Fl_Spec Fl_Proofs Flg_Model Flg_Spec Time_Model Time_Spec Time_Proofs Rot_Model Rot_Spec Rot_Proofs Flg_Proofs Flg_Num Flg_Proofs2 Flg_Proofs3
  Flc_Model Flc_Spec Flc_Proofs Flc_Proofs2 Flc_Proofs3 Flc_Proofs4 Flc_Proofs5 Flg_Proofs5 Flr_Model Flr_Spec Flx_Expr Flr_Proofs Flr_Proofs2 Flr_Proofs3.
Open Scope R_scope.
#[local] Strategy 1000 [fmul fadd fsub fdiv fneg literal of_Z fpymod].

Section Numpy.
Variable L : arrays.
Hypothesis G : accurate_arrays L.
(** ** The node *)
Definition enode (t : nat -> expr) : expr :=
  Add (Add (Sub (Dec 12504452 100000) (Mul (Dec 1934136261 1000000) (t 1%nat))) (Mul (Dec 20708 10000000) (t 2%nat))) (Over (t 3%nat) 450000).
Lemma node_bound d r : appr d r (Q2R 0) (Q2R 1742758) -> let t p := Pow (Over (Leaf d r 0 1742758) 36525) p in
  appr (feval L (enode t)) (reval (enode t)) (Q2R 2000000) (Q2R 200000).
Proof. intros D t. apply (check_ok L 2000000 200000 _ G); [cbn [leaves enode t]; tauto|vm_compute; reflexivity]. Qed.
(** The remainder of a division by 360, up to a whole turn *)
Lemma mod_leaf x r e b : appr x r e b -> 0 <= e <= 1000000000 -> 
  exists j, (Z.abs j <= 1)%Z /\ appr (fpymod x (of_Z 360)) (Rmod r 360 + IZR j * 360) (e + 360) 361.
Proof.
  intros (F & E & _) He. pose proof uu_pos as U. pose proof uu14 as U'. assert (Eu : 0 <= e * uu <= / 1000000) by nra. apply Rabs_le_inv in E.
  destruct (fpymod_bounds x (of_Z 360) 360 ltac:(lia) eq_refl F) as (Fm & Vm & Rm).
  destruct (modulo_shift (value x) 360) as (k & Mk). pose proof (modulo_range (value x) 360 ltac:(lra)) as Mr.
  pose proof (rnd_abs_err (modulo (value x) 360) 360 ltac:(rewrite Rabs_pos_eq; lra) ltac:(lra)) as Er. rewrite <- Vm in Er. apply Rabs_le_inv in Er.
  pose proof (Rmod_range r 360 ltac:(lra)) as Rr. set (K := Int_part (r / 360)). assert (ER : Rmod r 360 = r - 360 * IZR K) by reflexivity.
  set (j := (K - k)%Z). assert (Ej : Rmod r 360 + IZR j * 360 = r - IZR k * 360) by (rewrite ER; unfold j; rewrite minus_IZR; ring).
  exists j. rewrite Ej. assert (Dv : Rabs (value (fpymod x (of_Z 360)) - (r - IZR k * 360)) <= (e + 360) * uu) by (apply Rabs_le; lra).
  assert (Bj : -1 / 100 <= r - IZR k * 360 <= 360 + 1 / 100) by (apply Rabs_le_inv in Dv; nra).
  split; [|split; [exact Fm|split; [exact Dv|apply Rabs_le; lra]]].
  assert (IZR j < 2) by lra. assert (-2 < IZR j) by lra. apply (lt_IZR j 2) in H. apply (lt_IZR (-2) j) in H0. lia.
Qed.
Section Trig.
Variables (n f : float) (N q : R).
Hypothesis Nn : appr n N (Q2R 2001000) (Q2R 400).
Hypothesis F : appr f q (Q2R (5 * (2 # 100))%Q) (Q2R (2 # 100)).
Let a := Mul (Leaf n N 2001000 400) (Leaf f q (5 * (2 # 100)) (2 # 100)).
Lemma trig_bounds :
  appr (feval L (Sin a)) (reval (Sin a)) (Q2R 90000) (Q2R 1) /\ appr (feval L (Sin (Mul (Whole 2) a))) (reval (Sin (Mul (Whole 2) a))) (Q2R 90000) (Q2R 1) /\
  appr (feval L (Cos a)) (reval (Cos a)) (Q2R 90000) (Q2R 1) /\ appr (feval L (Cos (Mul (Whole 2) a))) (reval (Cos (Mul (Whole 2) a))) (Q2R 90000) (Q2R 1).
Proof.
  split; [|split; [|split]]; (apply (check_ok L 90000 1 _ G); [cbn [leaves a]; tauto|vm_compute; reflexivity]).
Qed.
End Trig.
Lemma move_leaf x r s e b q : appr x r (Q2R e) (Q2R b) -> Rabs (r - s) <= Q2R q * uu -> Rabs s <= Q2R b -> appr x s (Q2R (e + q)%Q) (Q2R b).
Proof.
  intros (F & E & B) H S. split; auto. split; auto. rewrite Q2R_plus. pose proof (err_trans _ _ _ _ _ E H). lra.
Qed.
Lemma node_trig jd : dated jd -> let N := longitude_of_ascending_node (value jd) in let n := flongitude_of_ascending_node L jd in
  appr (a_sin L (fto n Udeg Urad)) (sin (deg_to_rad N)) (Q2R (90000 + 2)%Q) (Q2R 1) /\
  appr (a_sin L (fmul (of_Z 2) (fto n Udeg Urad))) (sin (2 * deg_to_rad N)) (Q2R (90000 + 2)%Q) (Q2R 1) /\
  appr (a_cos L (fto n Udeg Urad)) (cos (deg_to_rad N)) (Q2R (90000 + 2)%Q) (Q2R 1) /\
  appr (a_cos L (fmul (of_Z 2) (fto n Udeg Urad))) (cos (2 * deg_to_rad N)) (Q2R (90000 + 2)%Q) (Q2R 1).
Proof.
  intros D N n. pose proof (node_bound _ _ (days_leaf jd D)) as B. cbv zeta in B.
  match type of B with appr _ ?x _ _ => set (r := x) in B end.
  assert (ER : r = 125.04452 - 1934.136261 * centuries (value jd) + 0.0020708 * centuries (value jd) ^ 2 + centuries (value jd) ^ 3 / 450000).
  { unfold r. cbn [reval enode]. unfold centuries, jd2000_date, days_in_century. set (c := (_ - 2451545) / 36525). clearbody c. decimals. field. }
  assert (EN : Rmod r 360 = N) by (rewrite ER; reflexivity). clearbody r.
  replace (Q2R 2000000) with 2000000 in B by (unfold Q2R; cbn; lra).
  destruct (mod_leaf _ _ _ _ B ltac:(lra)) as (j & J & H). rewrite EN in H.
  change (fpymod (feval L _) (of_Z 360)) with n in H.
  assert (H' : appr n (N + IZR j * 360) (Q2R 2001000) (Q2R 400)).
  { eapply appr_le; [exact H| |]; unfold Q2R; cbn [Qnum Qden]; lra. }
  destruct (trig_bounds _ _ _ _ H' rad_leaf) as (T1 & T2 & T3 & T4). cbn [reval] in T1, T2, T3, T4.
  destruct (trig_turn 1 N j J ltac:(auto)) as (S1 & C1). destruct (trig_turn 2 N j J ltac:(auto)) as (S2 & C2). rewrite !Rmult_1_l in S1, C1.
  assert (ED : deg_to_rad N = N * rad_ratio). { unfold deg_to_rad, rad_ratio, deg_per_rad. decimals. reflexivity. } rewrite ED.
  assert (E2 : Q2R 2 * uu = 2 * uu) by (unfold Q2R; cbn; lra). rewrite <- E2 in S1, C1, S2, C2.
  assert (B1 : forall x, Rabs (sin x) <= Q2R 1 /\ Rabs (cos x) <= Q2R 1) by (intros x; rewrite Q2R_1'; split; apply Rabs_le; [apply SIN_bound|apply COS_bound]).
  split; [|split; [|split]].
  - exact (move_leaf _ _ _ _ _ _ T1 S1 (proj1 (B1 _))).
  - exact (move_leaf _ _ _ _ _ _ T2 S2 (proj1 (B1 _))).
  - exact (move_leaf _ _ _ _ _ _ T3 C1 (proj2 (B1 _))).
  - exact (move_leaf _ _ _ _ _ _ T4 C2 (proj2 (B1 _))).
Qed.

(** ** The angles of nutation *)
Definition esun (t : nat -> expr) := Add (Dec 28046645 100000) (Mul (Dec 3600076983 100000) (t 1%nat)).
Definition emoon (t : nat -> expr) := Add (Dec 2183165 10000) (Mul (Dec 4812678813 10000) (t 1%nat)).
Definition elon (t : nat -> expr) (k s1 s2 : expr) : expr :=
  Add (Add (Add (Mul (Neg (Dec 1720 100)) s1) (Mul (Neg (Dec 132 100)) (Sin (Mul (Whole 2) (Mul (esun t) k)))))
    (Mul (Neg (Dec 23 100)) (Sin (Mul (Whole 2) (Mul (emoon t) k))))) (Mul (Dec 21 100) s2).
Definition eobl (t : nat -> expr) (k c1 c2 : expr) : expr :=
  Add (Add (Add (Mul (Dec 920 100) c1) (Mul (Dec 57 100) (Cos (Mul (Whole 2) (Mul (esun t) k)))))
    (Mul (Dec 10 100) (Cos (Mul (Whole 2) (Mul (emoon t) k))))) (Mul (Neg (Dec 9 100)) c2).
Definition emean (t : nat -> expr) : expr :=
  let u := Over (t 1%nat) 100 in
  Over (Add (Add (Add (Add (Sub (Sub (Sub (Add (Sub (Sub (Dec 84381448 1000) (Mul (Dec 468093 100) u)) (Mul (Dec 155 100) (Pow u 2)))
    (Mul (Dec 199925 100) (Pow u 3))) (Mul (Dec 5138 100) (Pow u 4))) (Mul (Dec 24967 100) (Pow u 5))) (Mul (Dec 3905 100) (Pow u 6)))
    (Mul (Dec 712 100) (Pow u 7))) (Mul (Dec 2787 100) (Pow u 8))) (Mul (Dec 579 100) (Pow u 9))) (Mul (Dec 245 100) (Pow u 10))) 3600.
Definition eeps (t : nat -> expr) (k : expr) : expr :=
  Add (Sub (Sub (Mul (emean t) k) (Mul (Dec 4684024 100000) (t 1%nat))) (Mul (Dec 59 100000) (t 2%nat))) (Mul (Dec 1813 1000000) (t 3%nat)).
Section Nutation.
Variables (d k s1 s2 c1 c2 sec da ad pi : float) (r kr s1r s2r c1r c2r secr dar adr pir : R).
Hypothesis D : appr d r (Q2R 0) (Q2R 1742758).
Hypothesis K : appr k kr (Q2R (5 * (2 # 100))%Q) (Q2R (2 # 100)).
Hypothesis S1 : appr s1 s1r (Q2R (90000 + 2)%Q) (Q2R 1).
Hypothesis S2 : appr s2 s2r (Q2R (90000 + 2)%Q) (Q2R 1).
Hypothesis C1 : appr c1 c1r (Q2R (90000 + 2)%Q) (Q2R 1).
Hypothesis C2 : appr c2 c2r (Q2R (90000 + 2)%Q) (Q2R 1).
Hypothesis Sec : appr sec secr (Q2R (5 * (1 # 200000))%Q) (Q2R (1 # 200000)).
Hypothesis Da : appr da dar (Q2R (5 * 3600)%Q) (Q2R 3600).
Hypothesis Ad : appr ad adr (Q2R (5 * (1 # 3600))%Q) (Q2R (1 # 3600)).
Hypothesis Pi : appr pi pir (Q2R (1 # 10)) (Q2R (2 # 100)).
Let t (p : nat) := Pow (Over (Leaf d r 0 1742758) 36525) p.
Let lk := Leaf k kr (5 * (2 # 100)) (2 # 100).
Let ls1 := Leaf s1 s1r (90000 + 2) 1.
Let ls2 := Leaf s2 s2r (90000 + 2) 1.
Let lc1 := Leaf c1 c1r (90000 + 2) 1.
Let lc2 := Leaf c2 c2r (90000 + 2) 1.
Let lsec := Leaf sec secr (5 * (1 # 200000)) (1 # 200000).
Let lda := Leaf da dar (5 * 3600) 3600.
Let lad := Leaf ad adr (5 * (1 # 3600)) (1 # 3600).
Let lpi := Leaf pi pir (1 # 10) (2 # 100).
Let a1 := Mul (Over (eeps t lda) 3600) lpi.
Let a2 := Neg (Mul (elon t lk ls1 ls2) lsec).
Let a3 := Neg (Mul (Add (Over (eeps t lda) 3600) (Mul (eobl t lk lc1 lc2) lad)) lpi).
Lemma nut_bounds : appr (feval L a1) (reval a1) (Q2R 1000) (Q2R 3) /\ appr (feval L a2) (reval a2) (Q2R 1000) (Q2R 3) /\ appr (feval L a3) (reval a3) (Q2R 1000) (Q2R 3).
Proof.
  split; [|split]; (apply (check_ok L 1000 3 _ G); [cbn [leaves a1 a2 a3 eeps emean elon eobl esun emoon t lk ls1 ls2 lc1 lc2 lsec lda lad lpi]; tauto|vm_compute; reflexivity]).
Qed.
End Nutation.
End Numpy.
