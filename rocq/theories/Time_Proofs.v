(** Lemmas on the real modulo, broadcasting, and bounds of trigonometric functions. *)
From Coq Require Import List Reals Arith Lia Lra Psatz.
From Verif Require Import Py PyLemmas Time_Model Time_Spec.
Import ListNotations.
Open Scope R_scope.
Open Scope list_scope.

(** ** Modulo *)
Lemma Rmod_range x m : 0 < m -> 0 <= Rmod x m < m.
Proof.
  intros M. unfold Rmod. destruct (base_Int_part (x / m)) as (A & B).
  assert (E : x = m * (x / m)) by (field; lra). set (q := x / m) in *. set (z := IZR (Int_part q)) in *.
  rewrite E at 1 2. split; nra.
Qed.
Lemma congruent_refl m a : congruent m a a.
Proof. exists 0%Z. lra. Qed.
Lemma congruent_sym m a b : congruent m a b -> congruent m b a.
Proof. intros (k & E). exists (- k)%Z. rewrite opp_IZR. lra. Qed.
Lemma congruent_trans m a b c : congruent m a b -> congruent m b c -> congruent m a c.
Proof. intros (k & E) (l & F). exists (k + l)%Z. rewrite plus_IZR. lra. Qed.
Lemma congruent_plus m a b c d : congruent m a b -> congruent m c d -> congruent m (a + c) (b + d).
Proof. intros (k & E) (l & F). exists (k + l)%Z. rewrite plus_IZR. lra. Qed.
Lemma congruent_eq m a b : a = b -> congruent m a b.
Proof. intros ->. apply congruent_refl. Qed.
Lemma congruent_scale m n a b c : congruent m a b -> m * c = n -> congruent n (a * c) (b * c).
Proof. intros (k & E) <-. exists k. rewrite <- Rmult_minus_distr_r, E. ring. Qed.
Lemma Rmod_congruent x m : congruent m (Rmod x m) x.
Proof. exists (- Int_part (x / m))%Z. unfold Rmod. rewrite opp_IZR. ring. Qed.
Lemma Rmod_normal x m : 0 < m -> normal_form m (Rmod x m) x.
Proof. intros M. split; [now apply Rmod_range|apply Rmod_congruent]. Qed.
Lemma normal_form_unique m a b c : 0 < m -> normal_form m a c -> normal_form m b c -> a = b.
Proof.
  intros M (A & CA) (B & CB). destruct (congruent_trans _ _ _ _ CA (congruent_sym _ _ _ CB)) as (k & E).
  assert (K : (-1 < k < 1)%Z).
  { split; apply lt_IZR; nra. }
  assert (k = 0)%Z as -> by lia. lra.
Qed.
Lemma normal_form_congruent m a b c : normal_form m a b -> congruent m b c -> normal_form m a c.
Proof. intros (A & C) D. split; auto. eapply congruent_trans; eauto. Qed.
Lemma Rmod_id x m : 0 <= x < m -> Rmod x m = x.
Proof.
  intros X. apply (normal_form_unique m _ _ x); [lra|apply Rmod_normal; lra|]. split; auto. apply congruent_refl.
Qed.

(** ** Broadcasting *)
Lemma entry_1 x i : entry [x] i = x.
Proof. reflexivity. Qed.
Lemma entry_same l i : (i < length l)%nat -> entry l i = nth i l 0.
Proof.
  intros I. unfold entry. destruct (Nat.eqb_spec (length l) 1) as [E|E]; auto.
  assert (i = 0)%nat as -> by lia. reflexivity.
Qed.
Lemma entry_map (f : R -> R) l i : (i < length l \/ length l = 1)%nat -> entry (map f l) i = f (entry l i).
Proof.
  intros H. unfold entry. rewrite map_length. set (j := if (length l =? 1)%nat then 0%nat else i).
  assert (J : (j < length l)%nat) by (unfold j; destruct (Nat.eqb_spec (length l) 1); lia).
  rewrite (nth_indep _ 0 (f 0)) by now rewrite map_length. apply map_nth.
Qed.
Lemma broadcast_ok f a b k : fits (length a) (length b) k ->
  exists out, np_broadcast f a b = Ok out /\ length out = k /\
    forall i, (i < k)%nat -> nth i out 0 = f (entry a i) (entry b i).
Proof.
  intros F. unfold np_broadcast.
  assert (Eq : length a = k -> length b = k ->
    exists out, Ok (map (fun p => f (fst p) (snd p)) (combine a b)) = Ok out /\ length out = k /\
    forall i, (i < k)%nat -> nth i out 0 = f (entry a i) (entry b i)).
  { intros A B. eexists. split; [reflexivity|]. rewrite map_length, combine_length. split; [lia|].
    intros i I. rewrite !entry_same by lia.
    rewrite (nth_indep _ 0 ((fun p => f (fst p) (snd p)) (0, 0))) by (rewrite map_length, combine_length; lia).
    rewrite (map_nth (fun p => f (fst p) (snd p))), combine_nth by lia. reflexivity. }
  destruct (Nat.eqb_spec (length a) (length b)) as [E|E].
  - apply Eq; unfold fits in F; lia.
  - destruct F as [(A & B)|[(A & B)|(A & B)]]; [lia| |].
    + destruct a as [|x [|y a]]; cbn [length] in A; try lia. eexists. split; [reflexivity|]. rewrite map_length. split; auto.
      intros i I. rewrite entry_1, entry_same by lia.
      rewrite (nth_indep _ 0 (f x 0)) by (rewrite map_length; lia). now rewrite map_nth.
    + destruct b as [|x [|y b]]; cbn [length] in B; try lia.
      assert (G : exists out, Ok (map (fun y => f y x) a) = Ok out /\ length out = k /\
        forall i, (i < k)%nat -> nth i out 0 = f (entry a i) (entry [x] i)).
      { eexists. split; [reflexivity|]. rewrite map_length. split; auto.
        intros i I. rewrite entry_1, entry_same by lia.
        rewrite (nth_indep _ 0 ((fun y => f y x) 0)) by (rewrite map_length; lia). now rewrite (map_nth (fun y => f y x)). }
      destruct a as [|y [|z a]]; auto.
Qed.
Lemma broadcast_raise (f : R -> R -> R) a b : (forall k, ~ fits (length a) (length b) k) -> np_broadcast f a b = Raise ValueError.
Proof.
  intros F. unfold np_broadcast. destruct (Nat.eqb_spec (length a) (length b)) as [E|E].
  - exfalso. apply (F (length a)). left. auto.
  - destruct a as [|x [|y a]]; [|exfalso; apply (F (length b)); right; left; auto|].
    + destruct b as [|z [|w b]]; auto. exfalso. apply (F 0%nat). right. right. auto.
    + destruct b as [|z [|w b]]; auto. exfalso. apply (F (length (x :: y :: a))). right. right. auto.
Qed.
Lemma fits_map {A B} (f : A -> B) (l : list A) n k : fits (length l) n k -> fits (length (map f l)) n k.
Proof. now rewrite map_length. Qed.
Lemma fits_sym m n k : fits m n k -> fits n m k.
Proof. unfold fits. tauto. Qed.

(** ** Trigonometric bounds *)
Lemma sin_lower x : 0 <= x <= 2 -> x - x ^ 3 / 6 <= sin x.
Proof.
  intros X. destruct (Rle_lt_or_eq_dec 0 x (proj1 X)) as [P|<-].
  2:{ rewrite sin_0. lra. }
  destruct (pre_sin_bound x 0) as (A & _); [lra|lra|]. unfold sin_approx, sin_term in A. cbn -[pow] in A. 
  replace (x - x ^ 3 / 6) with ((-1) ^ 0 * (x ^ 1 / 1) + (-1) ^ 1 * (x ^ 3 / (1 + 1 + 1 + 1 + 1 + 1))) by (field).
  lra.
Qed.
Lemma sin_upper x : 0 <= x -> sin x <= x.
Proof. intros X. destruct (Rle_lt_or_eq_dec 0 x X) as [P|<-]; [left; now apply sin_lt_x|rewrite sin_0; lra]. Qed.
Lemma cos_lower x : -2 <= x <= 2 -> 1 - x ^ 2 / 2 <= cos x.
Proof.
  intros X. destruct (pre_cos_bound x 0) as (A & _); [lra|lra|]. unfold cos_approx, cos_term in A. cbn -[pow] in A. 
  replace (1 - x ^ 2 / 2) with ((-1) ^ 0 * (x ^ 0 / 1) + (-1) ^ 1 * (x ^ 2 / (1 + 1))) by field. lra.
Qed.
Lemma cos_upper x : -2 <= x <= 2 -> cos x <= 1 - x ^ 2 / 2 + x ^ 4 / 24.
Proof.
  intros X. destruct (pre_cos_bound x 0) as (_ & A); [lra|lra|]. unfold cos_approx, cos_term in A. cbn -[pow INR] in A.
  replace (INR 24) with 24 in A by (cbn; lra). replace (INR 2) with 2 in A by (cbn; lra). replace (INR 1) with 1 in A by (cbn; lra).
  replace (1 - x ^ 2 / 2 + x ^ 4 / 24) with ((-1) ^ 0 * (x ^ 0 / 1) + (-1) ^ 1 * (x ^ 2 / 2) + (-1) ^ 2 * (x ^ 4 / 24)) by field. lra.
Qed.
Lemma sin_upper5 x : 0 <= x <= 2 -> sin x <= x - x ^ 3 / 6 + x ^ 5 / 120.
Proof.
  intros X. destruct (Rle_lt_or_eq_dec 0 x (proj1 X)) as [P|<-].
  2:{ rewrite sin_0. lra. }
  destruct (pre_sin_bound x 0) as (_ & A); [lra|lra|]. unfold sin_approx, sin_term in A. cbn -[pow INR] in A.
  replace (INR 120) with 120 in A by (rewrite INR_IZR_INZ; reflexivity). replace (INR 6) with 6 in A by (cbn; lra). replace (INR 1) with 1 in A by (cbn; lra).
  replace (x - x ^ 3 / 6 + x ^ 5 / 120) with ((-1) ^ 0 * (x ^ 1 / 1) + (-1) ^ 1 * (x ^ 3 / 6) + (-1) ^ 2 * (x ^ 5 / 120)) by field. lra.
Qed.
Lemma sin_lower7 x : 0 <= x <= 2 -> x - x ^ 3 / 6 + x ^ 5 / 120 - x ^ 7 / 5040 <= sin x.
Proof.
  intros X. destruct (Rle_lt_or_eq_dec 0 x (proj1 X)) as [P|<-].
  2:{ rewrite sin_0. lra. }
  destruct (pre_sin_bound x 1) as (A & _); [lra|lra|]. unfold sin_approx, sin_term in A.
  cbn [sum_f_R0] in A. change (2 * 1 + 1)%nat with 3%nat in A. cbn -[pow INR fact] in A.
  replace (INR (fact 7)) with 5040 in A by (rewrite INR_IZR_INZ; reflexivity).
  replace (INR (fact 5)) with 120 in A by (rewrite INR_IZR_INZ; reflexivity).
  replace (INR (fact 3)) with 6 in A by (rewrite INR_IZR_INZ; reflexivity). replace (INR (fact 1)) with 1 in A by (cbn; lra).
  replace (x - x ^ 3 / 6 + x ^ 5 / 120 - x ^ 7 / 5040) with
    ((-1) ^ 0 * (x ^ 1 / 1) + (-1) ^ 1 * (x ^ 3 / 6) + (-1) ^ 2 * (x ^ 5 / 120) + (-1) ^ 3 * (x ^ 7 / 5040)) by field. lra.
Qed.
Lemma PI_low : 3.141 < PI.
Proof.
  pose proof PI2_3_2 as P. pose proof PI_4 as P4.
  destruct (Rlt_le_dec 3.141 PI) as [A|A]; auto. exfalso.
  assert (B : sin (PI / 6) <= sin 0.5235) by (apply sin_incr_1; lra).
  rewrite sin_PI6 in B. pose proof (sin_upper5 0.5235 ltac:(lra)) as C. lra.
Qed.
Lemma PI_high : PI < 3.1422.
Proof.
  pose proof PI2_3_2 as P. pose proof PI_4 as P4.
  destruct (Rlt_le_dec PI 3.1422) as [A|A]; auto. exfalso.
  assert (B : sin 0.5237 <= sin (PI / 6)) by (apply sin_incr_1; lra).
  rewrite sin_PI6 in B. pose proof (sin_lower7 0.5237 ltac:(lra)) as C. lra.
Qed.
Lemma sin_abs x : -1 <= sin x <= 1.
Proof. apply SIN_bound. Qed.
Lemma cos_abs x : -1 <= cos x <= 1.
Proof. apply COS_bound. Qed.
