(** The angles and the matrices in floating point. *)
From Coq Require Import List ZArith QArith Qreals Reals Lra Lia Psatz Bool.
From Flocq Require Import Core.Core IEEE754.BinarySingleNaN IEEE754.Binary IEEE754.Bits.
From Verif Require Import Py Fl_Model Fl_Spec Fl_Proofs Flg_Model Flg_Spec Time_Model Rot_Model Rot_Spec Rot_Proofs Flg_Proofs Flg_Num Flg_Proofs2 Flg_Proofs3
  Flc_Model Flc_Spec Flc_Proofs Flc_Proofs2 Flc_Proofs3 Flc_Proofs4 Flc_Proofs5 Flg_Proofs5 Flr_Model Flr_Spec Flx_Expr Flr_Proofs.
Open Scope R_scope.

(** ** Checked expressions *)
Definition check (d b : Q) (t : expr) : bool := match bound t with Some p => Qle_bool (fst p) d && Qle_bool (snd p) b | None => false end.
Lemma check_ok L d b t : accurate_arrays L -> leaves t -> check d b t = true -> appr (feval L t) (reval t) (Q2R d) (Q2R b).
Proof.
  unfold check. intros G H C. destruct (bound t) as [p|] eqn:E; [|discriminate]. apply andb_true_iff in C as (C1 & C2). apply qle in C1, C2.
  eapply appr_le; [eapply bound_ok; eauto| |]; auto.
Qed.
Definition erow := (expr * expr * expr)%type.
Definition emat := (erow * erow * erow)%type.
Definition frow L (t : erow) : fvec := FV (feval L (fst (fst t))) (feval L (snd (fst t))) (feval L (snd t)).
Definition fmatrix L (t : emat) : fmat := FM (frow L (fst (fst t))) (frow L (snd (fst t))) (frow L (snd t)).
Definition rrow (t : erow) : vec := V (reval (fst (fst t))) (reval (snd (fst t))) (reval (snd t)).
Definition rmatrix (t : emat) : mat := M (rrow (fst (fst t))) (rrow (snd (fst t))) (rrow (snd t)).
Definition over (P : expr -> Prop) (t : erow) : Prop := P (fst (fst t)) /\ P (snd (fst t)) /\ P (snd t).
Definition over_all (P : expr -> Prop) (t : emat) : Prop := over P (fst (fst t)) /\ over P (snd (fst t)) /\ over P (snd t).
Definition check3 d (t : erow) : bool := check d 4 (fst (fst t)) && check d 4 (snd (fst t)) && check d 4 (snd t).
Definition check9 d (t : emat) : bool := check3 d (fst (fst t)) && check3 d (snd (fst t)) && check3 d (snd t).
Lemma check3_ok L d t : accurate_arrays L -> over leaves t -> check3 d t = true ->
  finite_vec (frow L t) /\ vec_near (Q2R d * uu) (vector (frow L t)) (rrow t).
Proof.
  intros G (A & B & C) K. unfold check3 in K. rewrite !andb_true_iff in K. destruct K as ((K1 & K2) & K3).
  destruct (check_ok L _ _ _ G A K1) as (F1 & E1 & _). destruct (check_ok L _ _ _ G B K2) as (F2 & E2 & _). destruct (check_ok L _ _ _ G C K3) as (F3 & E3 & _).
  split; (split; [|split]); assumption.
Qed.
Lemma check9_ok L d t : accurate_arrays L -> over_all leaves t -> check9 d t = true ->
  finite_mat (fmatrix L t) /\ mat_near (Q2R d * uu) (matrix (fmatrix L t)) (rmatrix t).
Proof.
  intros G (A & B & C) K. unfold check9 in K. rewrite !andb_true_iff in K. destruct K as ((K1 & K2) & K3).
  destruct (check3_ok L _ _ G A K1) as (F1 & E1). destruct (check3_ok L _ _ G B K2) as (F2 & E2). destruct (check3_ok L _ _ G C K3) as (F3 & E3).
  split; (split; [|split]); assumption.
Qed.

(** ** The matrices for any three angles *)
Definition bmat (a1 a2 a3 : R) : mat :=
  let s1 := sin a1 in let c1 := cos a1 in let s2 := sin a2 in let c2 := cos a2 in let s3 := sin a3 in let c3 := cos a3 in
  M (V (c1 * c2) (s1 * c2) (- s2))
    (V (- s1 * c3 + c1 * s2 * s3) (c1 * c3 + s1 * s2 * s3) (c2 * s3))
    (V (s1 * s3 + c1 * s2 * c3) (- c1 * s3 + s1 * s2 * c3) (c2 * c3)).
Definition pmat (a1 a2 a3 : R) : mat :=
  let s1 := sin a1 in let c1 := cos a1 in let s2 := sin a2 in let c2 := cos a2 in let s3 := sin a3 in let c3 := cos a3 in
  M (V (- s1 * s3 + c1 * c2 * c3) (c1 * s3 + s1 * c2 * c3) (- s2 * c3))
    (V (- s1 * c3 - c1 * c2 * s3) (c1 * c3 - s1 * c2 * s3) (s2 * s3))
    (V (c1 * s2) (s1 * s2) c2).
Definition nmat (a1 a2 a3 : R) : mat :=
  let s1 := sin a1 in let c1 := cos a1 in let s2 := sin a2 in let c2 := cos a2 in let s3 := sin a3 in let c3 := cos a3 in
  M (V c2 (s1 * s2) (- c1 * s2))
    (V (s2 * s3) (c1 * c3 - s1 * c2 * s3) (s1 * c3 + c1 * c2 * s3))
    (V (s2 * c3) (- c1 * s3 - s1 * c2 * c3) (- s1 * s3 + c1 * c2 * c3)).
Lemma bmat_rigid a1 a2 a3 : rigid (mat_vec (bmat a1 a2 a3)).
Proof.
  unfold bmat. cbv zeta. apply rigid_ext with (fun v => turn_x (cos a3) (sin a3) (turn_y (cos a2) (sin a2) (turn_z (cos a1) (sin a1) v))).
  - matrix_eq.
  - exact (rigid_comp _ _ (turn_x_rigid _ _ (sc a3)) (rigid_comp _ _ (turn_y_rigid _ _ (sc a2)) (turn_z_rigid _ _ (sc a1)))).
Qed.
Lemma pmat_rigid a1 a2 a3 : rigid (mat_vec (pmat a1 a2 a3)).
Proof.
  unfold pmat. cbv zeta. apply rigid_ext with (fun v => turn_z (cos a3) (sin a3) (turn_y (cos a2) (sin a2) (turn_z (cos a1) (sin a1) v))).
  - matrix_eq.
  - exact (rigid_comp _ _ (turn_z_rigid _ _ (sc a3)) (rigid_comp _ _ (turn_y_rigid _ _ (sc a2)) (turn_z_rigid _ _ (sc a1)))).
Qed.
Lemma nmat_rigid a1 a2 a3 : rigid (mat_vec (nmat a1 a2 a3)).
Proof.
  unfold nmat. cbv zeta. apply rigid_ext with (fun v => turn_x (cos a3) (sin a3) (turn_y (cos a2) (sin a2) (turn_x (cos a1) (sin a1) v))).
  - matrix_eq.
  - exact (rigid_comp _ _ (turn_x_rigid _ _ (sc a3)) (rigid_comp _ _ (turn_y_rigid _ _ (sc a2)) (turn_x_rigid _ _ (sc a1)))).
Qed.
Definition bexp (a1 a2 a3 : expr) : emat :=
  let s1 := Sin a1 in let c1 := Cos a1 in let s2 := Sin a2 in let c2 := Cos a2 in let s3 := Sin a3 in let c3 := Cos a3 in
  ((Mul c1 c2, Mul s1 c2, Neg s2),
   (Add (Mul (Neg s1) c3) (Mul (Mul c1 s2) s3), Add (Mul c1 c3) (Mul (Mul s1 s2) s3), Mul c2 s3),
   (Add (Mul s1 s3) (Mul (Mul c1 s2) c3), Add (Mul (Neg c1) s3) (Mul (Mul s1 s2) c3), Mul c2 c3)).
Definition pexp (a1 a2 a3 : expr) : emat :=
  let s1 := Sin a1 in let c1 := Cos a1 in let s2 := Sin a2 in let c2 := Cos a2 in let s3 := Sin a3 in let c3 := Cos a3 in
  ((Add (Mul (Neg s1) s3) (Mul (Mul c1 c2) c3), Add (Mul c1 s3) (Mul (Mul s1 c2) c3), Mul (Neg s2) c3),
   (Sub (Mul (Neg s1) c3) (Mul (Mul c1 c2) s3), Sub (Mul c1 c3) (Mul (Mul s1 c2) s3), Mul s2 s3),
   (Mul c1 s2, Mul s1 s2, c2)).
Definition nexp (a1 a2 a3 : expr) : emat :=
  let s1 := Sin a1 in let c1 := Cos a1 in let s2 := Sin a2 in let c2 := Cos a2 in let s3 := Sin a3 in let c3 := Cos a3 in
  ((c2, Mul s1 s2, Mul (Neg c1) s2),
   (Mul s2 s3, Sub (Mul c1 c3) (Mul (Mul s1 c2) s3), Add (Mul s1 c3) (Mul (Mul c1 c2) s3)),
   (Mul s2 c3, Sub (Mul (Neg c1) s3) (Mul (Mul s1 c2) c3), Add (Mul (Neg s1) s3) (Mul (Mul c1 c2) c3))).

Section Numpy.
Variable L : arrays.
Hypothesis G : accurate_arrays L.
Section Angles.
Variables x1 x2 x3 : float.
Variables a1 a2 a3 : R.
Section Exact.
Hypothesis A1 : appr x1 a1 0 4.
Hypothesis A2 : appr x2 a2 0 4.
Hypothesis A3 : appr x3 a3 0 4.
Lemma Q04 x a : appr x a 0 4 -> appr x a (Q2R 0) (Q2R 4).
Proof. rewrite Q2R_0'. now replace (Q2R 4) with 4 by (unfold Q2R; cbn; lra). Qed.
Let t1 := Leaf x1 a1 0 4.
Let t2 := Leaf x2 a2 0 4.
Let t3 := Leaf x3 a3 0 4.
Lemma three_leaves : leaves t1 /\ leaves t2 /\ leaves t3.
Proof. split; [|split]; cbn [leaves]; now apply Q04. Qed.
Lemma bias_self : finite_mat (fbias_of L x1 x2 x3) /\ mat_near (Q2R 40 * uu) (matrix (fbias_of L x1 x2 x3)) (bmat a1 a2 a3).
Proof.
  destruct three_leaves as (H1 & H2 & H3). apply (check9_ok L 40 (bexp t1 t2 t3) G).
  - unfold over_all, over, bexp. cbn [fst snd leaves]. tauto.
  - vm_compute. reflexivity.
Qed.
Lemma precession_self : finite_mat (fprecession_of L x1 x2 x3) /\ mat_near (Q2R 40 * uu) (matrix (fprecession_of L x1 x2 x3)) (pmat a1 a2 a3).
Proof.
  destruct three_leaves as (H1 & H2 & H3). apply (check9_ok L 40 (pexp t1 t2 t3) G).
  - unfold over_all, over, pexp. cbn [fst snd leaves]. tauto.
  - vm_compute. reflexivity.
Qed.
Lemma nutation_self : finite_mat (fnutation_of L x1 x2 x3) /\ mat_near (Q2R 40 * uu) (matrix (fnutation_of L x1 x2 x3)) (nmat a1 a2 a3).
Proof.
  destruct three_leaves as (H1 & H2 & H3). apply (check9_ok L 40 (nexp t1 t2 t3) G).
  - unfold over_all, over, nexp. cbn [fst snd leaves]. tauto.
  - vm_compute. reflexivity.
Qed.
End Exact.
Section Near.
Hypothesis A1 : appr x1 a1 1000 4.
Hypothesis A2 : appr x2 a2 1000 4.
Hypothesis A3 : appr x3 a3 1000 4.
Let t1 := Leaf x1 a1 1000 4.
Let t2 := Leaf x2 a2 1000 4.
Let t3 := Leaf x3 a3 1000 4.
Lemma Q14 x a : appr x a 1000 4 -> appr x a (Q2R 1000) (Q2R 4).
Proof. replace (Q2R 1000) with 1000 by (unfold Q2R; cbn; lra). now replace (Q2R 4) with 4 by (unfold Q2R; cbn; lra). Qed.
Lemma three_leaves' : leaves t1 /\ leaves t2 /\ leaves t3.
Proof. split; [|split]; cbn [leaves]; now apply Q14. Qed.
Lemma bias_close : finite_mat (fbias_of L x1 x2 x3) /\ mat_near (Q2R 6000 * uu) (matrix (fbias_of L x1 x2 x3)) (bmat a1 a2 a3).
Proof.
  destruct three_leaves' as (H1 & H2 & H3). apply (check9_ok L 6000 (bexp t1 t2 t3) G).
  - unfold over_all, over, bexp. cbn [fst snd leaves]. tauto.
  - vm_compute. reflexivity.
Qed.
Lemma precession_close : finite_mat (fprecession_of L x1 x2 x3) /\ mat_near (Q2R 6000 * uu) (matrix (fprecession_of L x1 x2 x3)) (pmat a1 a2 a3).
Proof.
  destruct three_leaves' as (H1 & H2 & H3). apply (check9_ok L 6000 (pexp t1 t2 t3) G).
  - unfold over_all, over, pexp. cbn [fst snd leaves]. tauto.
  - vm_compute. reflexivity.
Qed.
Lemma nutation_close : finite_mat (fnutation_of L x1 x2 x3) /\ mat_near (Q2R 6000 * uu) (matrix (fnutation_of L x1 x2 x3)) (nmat a1 a2 a3).
Proof.
  destruct three_leaves' as (H1 & H2 & H3). apply (check9_ok L 6000 (nexp t1 t2 t3) G).
  - unfold over_all, over, nexp. cbn [fst snd leaves]. tauto.
  - vm_compute. reflexivity.
Qed.
End Near.
End Angles.
End Numpy.
