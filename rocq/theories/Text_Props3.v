(** Printed integers: C70. *)
From Coq Require Import String Ascii List Reals NArith ZArith Bool Arith Lia.
From Verif Require Import Py Num Text_Model Text_Spec Text_Num.
Import ListNotations.
Open Scope list_scope.

(** A numeral, with a minus sign in front of it for a negative number. *)
Definition integer_numeral (s : text) (z : Z) : Prop :=
  ((0 <= z)%Z -> numeral s (Z.to_N z)) /\ ((z < 0)%Z -> exists r, s = lit "-" ++ r /\ numeral r (Z.to_N (- z))).
Theorem C70_integers :
  forall z, integer_numeral (str_Z z) z.
Proof.
  intros z. split; intros H.
  - assert (E : str_Z z = str_N (Z.to_N z)) by (destruct z; try reflexivity; lia). rewrite E. apply str_N_ok.
  - destruct z as [|p|p]; try lia. exists (str_N (Npos p)). split; [reflexivity|]. cbn [Z.opp Z.to_N]. apply str_N_ok.
Qed.
(** Two integers with the same text are equal. *)
Theorem C70_integers_apart :
  forall z y, str_Z z = str_Z y -> z = y.
Proof.
  assert (D : forall r n, numeral (lit "-" ++ r) n -> False).
  { intros r n (F & _). inversion F as [|? ? Q]; subst. unfold is_digit in Q. cbn in Q. lia. }
  intros z y E. destruct (C70_integers z) as (A1 & A2). destruct (C70_integers y) as (B1 & B2). rewrite <- E in B1, B2.
  destruct (Z_lt_le_dec z 0) as [Z|Z], (Z_lt_le_dec y 0) as [Y|Y].
  - destruct (A2 Z) as (r & R & N1). destruct (B2 Y) as (r' & R' & N2). rewrite R in R'. apply app_inv_head in R'. subst r'.
    destruct N1 as (_ & V1 & _), N2 as (_ & V2 & _). rewrite V1 in V2. apply (f_equal Z.of_N) in V2. rewrite !Z2N.id in V2 by lia. lia.
  - destruct (A2 Z) as (r & R & _). specialize (B1 Y). rewrite R in B1. now apply D in B1.
  - destruct (B2 Y) as (r & R & _). specialize (A1 Z). rewrite R in A1. now apply D in A1.
  - destruct (A1 Z) as (_ & V1 & _). destruct (B1 Y) as (_ & V2 & _). rewrite V1 in V2. apply (f_equal Z.of_N) in V2. rewrite !Z2N.id in V2 by lia. lia.
Qed.
Example C70_integers_case : str_Z (-120) = lit "-120" /\ integer_numeral (lit "-120") (-120).
Proof. split; [reflexivity|exact (C70_integers (-120))]. Qed.

Print Assumptions C70_integers.
Print Assumptions C70_integers_apart.
