(** One velocity, or too many or too few, in the change to the LVLH frame: C182. *)
From Coq Require Import List Reals Lra Lia PeanoNat.
From Verif Require Import Py PyLemmas Num Time_Model Rot_Model Rot_Spec Rot_Proofs Rot_Props Geo_Model Geo_Spec Geo_Props Geo_Dir Lvlh_Model Lvlh_Spec Lvlh_Proofs Lvlh_Props.
Import ListNotations.
Open Scope R_scope.

(** The same point at every time. *)
Definition held {U} n (v : position U) : position U :=
  Position (repeat (nth 0 (p_time v) 0) n) (repeat (nth 0 (p_x v) 0) n) (repeat (nth 0 (p_y v) 0) n) (repeat (nth 0 (p_z v) 0) n) (p_unit v).
Lemma held_size {U} n (v : position U) : of_size n (held n v).
Proof. unfold of_size, held. cbn [p_time p_x p_y p_z]. now rewrite !repeat_length. Qed.
Lemma nth_repeat' {A} n i (a d : A) : (i < n)%nat -> nth i (repeat a n) d = a.
Proof. revert i. induction n; intros i L; [lia|]. destruct i; cbn; auto. apply IHn. lia. Qed.
Lemma held_point {U} n (v : position U) i : (i < n)%nat -> point (held n v) i = point v 0.
Proof. intros L. unfold point, held. cbn [p_x p_y p_z]. now rewrite !nth_repeat' by auto. Qed.

(** One velocity stands for all times; every other difference in length is refused. *)
Theorem C182_lvlh_lengths :
  forall (U W : Type) n m (gcrs : position U) (velocity : position W), of_size n gcrs -> of_size m velocity ->
    (m = 1%nat -> exists position' velocity', gcrs_to_lvlh gcrs velocity = Ok (position', velocity') /\ gcrs_to_lvlh gcrs (held n velocity) = Ok (position', velocity')) /\
    (m <> n -> m <> 1%nat -> gcrs_to_lvlh gcrs velocity = Raise ValueError).
Proof.
  intros U W n m p v P Q. split.
  - intros ->. destruct (Nat.eq_dec n 1) as [->|N].
    + rewrite (lvlh_ok 1 p v P Q), (lvlh_ok 1 p (held 1 v) P (held_size 1 v)). unfold upto. cbn [seq map]. rewrite (held_point 1 v 0) by lia. eauto.
    + rewrite (lvlh_ok n p (held n v) P (held_size n v)). unfold gcrs_to_lvlh. cbv zeta. rewrite (columns_upto n p), (columns_upto 1 v) by auto. cbn [bind].
      unfold gcrs_to_lvlh_matrix. rewrite !upto_length. destruct (1 =? n)%nat eqn:E; [apply Nat.eqb_eq in E; congruence|].
      change (upto 1 (point v)) with [point v 0]. cbv iota. rewrite upto_map. cbn [bind]. rewrite !upto_map, upto_broadcast. cbn [bind map].
      assert (B : np_broadcast nm_vec (upto n (fun i => lvlh_rows (point p i) (point v 0))) [fin_vec (point v 0)] =
                  Ok (upto n (fun i => nm_vec (lvlh_rows (point p i) (point v 0)) (fin_vec (point v 0))))).
      { unfold np_broadcast. rewrite upto_length. cbn [length]. rewrite (proj2 (Nat.eqb_neq n 1)) by auto. destruct (upto n _) as [|a [|b l]] eqn:F; try (rewrite <- F; now rewrite upto_map). 
        apply (f_equal (@length _)) in F. rewrite upto_length in F. cbn in F. lia. }
      rewrite B. cbn [bind]. eexists _, _. split; [reflexivity|]. f_equal. f_equal.
      * f_equal. apply upto_ext. intros i L. now rewrite held_point.
      * f_equal. apply upto_ext. intros i L. now rewrite held_point.
  - intros N1 N2. unfold gcrs_to_lvlh. cbv zeta. rewrite (columns_upto n p), (columns_upto m v) by auto. cbn [bind].
    unfold gcrs_to_lvlh_matrix. rewrite !upto_length, (proj2 (Nat.eqb_neq m n)) by auto.
    destruct (upto m (point v)) as [|a [|b l]] eqn:F; try reflexivity. apply (f_equal (@length _)) in F. rewrite upto_length in F. cbn in F. lia.
Qed.

(** Three positions and one velocity; three positions and two velocities. *)
Example C182_case : of_size 3 (Position [0; 1; 2] [7000; 0; 1] [0; 7000; 2] [0; 0; 7000] tt) /\ of_size 1 (Position [0] [1] [7.5] [0] tt) /\ of_size 2 (Position [0; 1] [1; 1] [7.5; 7] [0; 0] tt) /\ product (V 7000 0 0) (point (held 3 (Position [0] [1] [7.5] [0] tt)) 0) <> zero.
Proof. repeat split; auto. unfold product, point, held, zero. cbn. intros E. injection E. intros. lra. Qed.

Print Assumptions C182_lvlh_lengths.
