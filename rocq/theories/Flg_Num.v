(** Numerical bounds of sines, cosines and [PI] by their series, in whole multiples of
    [10 ^ -30]. *)
From Coq Require Import ZArith QArith Qreals Reals Lra Lia Machin.
From Flocq Require Import Core.Raux.
Open Scope R_scope.

Fixpoint qpow (q : Q) (n : nat) : Q := match n with O => 1%Q | S n => Qred (q * qpow q n) end.
Lemma Q2R_red q : Q2R (Qred q) = Q2R q. Proof. apply Qeq_eqR, Qred_correct. Qed.
Lemma Q2R_qpow q n : Q2R (qpow q n) = Q2R q ^ n.
Proof. induction n as [|n IH]; cbn [qpow pow]; [unfold Q2R; cbn; lra|]. now rewrite Q2R_red, Q2R_mult, IH. Qed.

Definition zunit : Z := 10 ^ 30.
Lemma zunit_pos : 0 < IZR zunit. Proof. change zunit with 1000000000000000000000000000000%Z. lra. Qed.
Lemma odd_pow i : (-1) ^ i = if Nat.odd i then -1 else 1.
Proof.
  induction i as [|i IH]; [reflexivity|]. cbn [pow]. rewrite IH, Nat.odd_succ, <- Nat.negb_odd. destruct (Nat.odd i); cbn [negb]; lra.
Qed.
Lemma zdiv_near a b : (0 < b)%Z -> IZR (a / b) <= IZR a / IZR b <= IZR (a / b) + 1.
Proof.
  intros B. pose proof (IZR_lt _ _ B) as B'. pose proof (Z.mul_div_le a b B) as L. pose proof (Z.mul_succ_div_gt a b B) as H.
  apply IZR_le in L. apply IZR_lt in H. rewrite mult_IZR in L, H. rewrite succ_IZR in H.
  split; [apply Rmult_le_reg_r with (IZR b)|apply Rmult_le_reg_r with (IZR b)]; auto; unfold Rdiv; rewrite Rmult_assoc, Rinv_l by lra; lra.
Qed.

(** ** The terms [q ^ k / k!] of the series of the sine and the cosine, and their sums *)
Definition next (a b : Z) (k : nat) (t : Z * Z) : Z * Z :=
  let c := (b * Z.of_nat k)%Z in (fst t * a / c, snd t * a / c + 1)%Z.
Fixpoint series (a b : Z) (k : nat) (t : Z * Z) (n : nat) : (Z * Z) * (Z * Z) :=
  match n with
  | O => (t, t)
  | S m => match series a b k t m with
           | (u, s) => match next a b (k + 2 * m + 2) (next a b (k + 2 * m + 1) u) with
                       | u' => (u', if Nat.odd n then (fst s - snd u', snd s - fst u')%Z else (fst s + fst u', snd s + snd u')%Z)
                       end
           end
  end.
Definition encloses (t : Z * Z) (r : R) : Prop := IZR (fst t) <= IZR zunit * r <= IZR (snd t).
Definition term (q : R) (k : nat) : R := q ^ k / INR (fact k).
Lemma next_ok a b k t r : (0 <= a)%Z -> (0 < b)%Z -> encloses t r -> encloses (next a b (S k) t) (r * (IZR a / IZR b) / INR (S k)).
Proof.
  intros A B (L & H). unfold next, encloses. cbv zeta. cbn [fst snd].
  assert (C : (0 < b * Z.of_nat (S k))%Z) by (apply Z.mul_pos_pos; lia).
  assert (E : forall x : R, x * IZR a / IZR (b * Z.of_nat (S k)) = x * (IZR a / IZR b) / INR (S k)).
  { intros x. rewrite mult_IZR, INR_IZR_INZ. unfold Rdiv. rewrite Rinv_mult. ring. }
  assert (P : 0 <= IZR a / IZR b / INR (S k)).
  { apply IZR_le in A. apply IZR_lt in B. pose proof (lt_0_INR (S k) ltac:(lia)) as K. apply Rmult_le_pos; [apply Rmult_le_pos; [lra|]|]; apply Rlt_le, Rinv_0_lt_compat; lra. }
  pose proof (zdiv_near (fst t * a) _ C) as N1. pose proof (zdiv_near (snd t * a) _ C) as N2. rewrite mult_IZR, E in N1. rewrite mult_IZR, E in N2.
  rewrite plus_IZR. replace (IZR zunit * (r * (IZR a / IZR b) / INR (S k))) with (IZR zunit * r * (IZR a / IZR b / INR (S k))) by (unfold Rdiv; ring).
  assert (M1 : IZR (fst t) * (IZR a / IZR b) / INR (S k) <= IZR zunit * r * (IZR a / IZR b / INR (S k))).
  { replace (IZR (fst t) * (IZR a / IZR b) / INR (S k)) with (IZR (fst t) * (IZR a / IZR b / INR (S k))) by (unfold Rdiv; ring). apply Rmult_le_compat_r; auto. }
  assert (M2 : IZR zunit * r * (IZR a / IZR b / INR (S k)) <= IZR (snd t) * (IZR a / IZR b) / INR (S k)).
  { replace (IZR (snd t) * (IZR a / IZR b) / INR (S k)) with (IZR (snd t) * (IZR a / IZR b / INR (S k))) by (unfold Rdiv; ring). apply Rmult_le_compat_r; auto. }
  lra.
Qed.
Lemma term_next q k : term q (S k) = term q k * q / INR (S k).
Proof.
  unfold term. rewrite fact_simpl, mult_INR. cbn [pow]. pose proof (INR_fact_neq_0 k). pose proof (not_0_INR (S k) ltac:(lia)). field. auto.
Qed.
Lemma series_ok a b k t n : (0 <= a)%Z -> (0 < b)%Z -> let q := IZR a / IZR b in encloses t (term q k) ->
  encloses (fst (series a b k t n)) (term q (k + 2 * n)) /\
  encloses (snd (series a b k t n)) (sum_f_R0 (fun i => (-1) ^ i * term q (k + 2 * i)) n).
Proof.
  intros A B q T. induction n as [|m (I1 & I2)].
  - cbn [series fst snd sum_f_R0 pow]. replace (k + 2 * 0)%nat with k by lia. rewrite Rmult_1_l. auto.
  - cbn [series sum_f_R0]. destruct (series a b k t m) as (u, s). cbn [fst snd] in *.
    assert (I3 : encloses (next a b (k + 2 * m + 2) (next a b (k + 2 * m + 1) u)) (term q (k + 2 * S m))).
    { replace (k + 2 * S m)%nat with (S (S (k + 2 * m))) by lia. replace (k + 2 * m + 2)%nat with (S (S (k + 2 * m))) by lia. replace (k + 2 * m + 1)%nat with (S (k + 2 * m)) by lia.
      rewrite !term_next. apply next_ok; auto. apply next_ok; auto. }
    set (u' := next a b _ (next a b _ u)) in *. clearbody u'. split; auto. rewrite odd_pow. destruct I2 as (L & H), I3 as (L' & H').
    destruct (Nat.odd (S m)); unfold encloses; cbn [fst snd]; rewrite ?minus_IZR, ?plus_IZR; lra.
Qed.
Definition qsin (q : Q) (n : nat) : Z * Z :=
  let a := Qnum q in let b := Z.pos (Qden q) in snd (series a b 1 (next a b 1 (zunit, zunit)) n).
Definition qcos (q : Q) (n : nat) : Z * Z :=
  let a := Qnum q in let b := Z.pos (Qden q) in snd (series a b 0 (zunit, zunit) n).
Lemma unit_enc q : encloses (zunit, zunit) (term q 0).
Proof. unfold encloses, term. cbn [fst snd pow fact INR]. lra. Qed.
Lemma qsin_ok q n : Qle_bool 0 q = true -> encloses (qsin q n) (sin_approx (Q2R q) n).
Proof.
  intros A. apply Qle_bool_iff in A. unfold Qle in A. cbn [Qnum Qden] in A. unfold qsin, sin_approx. cbv zeta.
  assert (P : (0 <= Qnum q)%Z) by lia.
  destruct (series_ok (Qnum q) (Z.pos (Qden q)) 1 (next (Qnum q) (Z.pos (Qden q)) 1 (zunit, zunit)) n P ltac:(lia)) as (_ & H).
  { rewrite term_next. apply next_ok; [auto|lia|apply unit_enc]. }
  assert (E : forall i, sin_term (Q2R q) i = (-1) ^ i * term (IZR (Qnum q) / IZR (Z.pos (Qden q))) (1 + 2 * i)) by (intros i; rewrite (Nat.add_comm 1 (2 * i)); reflexivity).
  rewrite (sum_eq _ _ n (fun i _ => E i)). exact H.
Qed.
Lemma qcos_ok q n : Qle_bool 0 q = true -> encloses (qcos q n) (cos_approx (Q2R q) n).
Proof.
  intros A. apply Qle_bool_iff in A. unfold Qle in A. cbn [Qnum Qden] in A. unfold qcos, cos_approx. cbv zeta.
  assert (P : (0 <= Qnum q)%Z) by lia.
  destruct (series_ok (Qnum q) (Z.pos (Qden q)) 0 (zunit, zunit) n P ltac:(lia) (unit_enc _)) as (_ & H).
  erewrite sum_eq; [exact H|]. intros i _. reflexivity.
Qed.
Definition below (q : Q) (z : Z) : bool := Z.leb (Qnum q * zunit) (z * Z.pos (Qden q)).
Definition above (q : Q) (z : Z) : bool := Z.leb (z * Z.pos (Qden q)) (Qnum q * zunit).
Lemma below_ok q z : below q z = true -> IZR zunit * Q2R q <= IZR z.
Proof.
  intros H. apply Z.leb_le in H. apply IZR_le in H. rewrite !mult_IZR in H. pose proof (IZR_lt 0 (Z.pos (Qden q)) ltac:(lia)) as D. unfold Q2R.
  apply Rmult_le_reg_r with (IZR (Z.pos (Qden q))); auto. rewrite !Rmult_assoc, Rinv_l by lra. lra.
Qed.
Lemma above_ok q z : above q z = true -> IZR z <= IZR zunit * Q2R q.
Proof.
  intros H. apply Z.leb_le in H. apply IZR_le in H. rewrite !mult_IZR in H. pose proof (IZR_lt 0 (Z.pos (Qden q)) ltac:(lia)) as D. unfold Q2R.
  apply Rmult_le_reg_r with (IZR (Z.pos (Qden q))); auto. rewrite !Rmult_assoc, Rinv_l by lra. lra.
Qed.
(** Bounds by the polynomials, checked by computation *)
Lemma sin_between q lo hi n : Qle_bool 0 q = true -> Qle_bool q 2 = true ->
  below lo (fst (qsin q (2 * n + 1))) = true -> above hi (snd (qsin q (2 * (n + 1)))) = true ->
  Q2R lo <= sin (Q2R q) <= Q2R hi.
Proof.
  intros A B L H. destruct (qsin_ok q (2 * n + 1) A) as (E1 & _). destruct (qsin_ok q (2 * (n + 1)) A) as (_ & E2).
  apply below_ok in L. apply above_ok in H. apply Qle_bool_iff in A, B. apply Qle_Rle in A, B.
  replace (Q2R 0) with 0 in A by (unfold Q2R; cbn; lra). replace (Q2R 2) with 2 in B by (unfold Q2R; cbn; lra).
  destruct (pre_sin_bound (Q2R q) n A) as (S1 & S2); [lra|]. pose proof zunit_pos as U.
  split; [eapply Rle_trans; [|exact S1]|eapply Rle_trans; [exact S2|]]; apply Rmult_le_reg_l with (IZR zunit); auto; lra.
Qed.
Lemma cos_between q lo hi n : Qle_bool 0 q = true -> Qle_bool q 2 = true ->
  below lo (fst (qcos q (2 * n + 1))) = true -> above hi (snd (qcos q (2 * (n + 1)))) = true ->
  Q2R lo <= cos (Q2R q) <= Q2R hi.
Proof.
  intros A B L H. destruct (qcos_ok q (2 * n + 1) A) as (E1 & _). destruct (qcos_ok q (2 * (n + 1)) A) as (_ & E2).
  apply below_ok in L. apply above_ok in H. apply Qle_bool_iff in A, B. apply Qle_Rle in A, B.
  replace (Q2R 0) with 0 in A by (unfold Q2R; cbn; lra). replace (Q2R 2) with 2 in B by (unfold Q2R; cbn; lra).
  destruct (pre_cos_bound (Q2R q) n) as (S1 & S2); [lra|lra|]. pose proof zunit_pos as U.
  split; [eapply Rle_trans; [|exact S1]|eapply Rle_trans; [exact S2|]]; apply Rmult_le_reg_l with (IZR zunit); auto; lra.
Qed.

(** ** [PI] *)
Definition pi_lo : Q := 314159265358979323846 # 100000000000000000000.
Definition pi_hi : Q := 314159265358979323847 # 100000000000000000000.
(** [PI] to 21 digits, by the series of the arc tangents of 1/3 and 1/7 in whole multiples of [10 ^ -30] *)
Definition zterm (i : nat) : Z :=
  let k := (2 * Z.of_nat i + 1)%Z in (2 * zunit / (k * 3 ^ k) + zunit / (k * 7 ^ k))%Z.
Fixpoint zalt (n : nat) : Z := match n with O => zterm O | S m => (zalt m + (if Nat.odd n then - zterm n else zterm n))%Z end.
Lemma ratan_Z c i : (0 < c)%Z -> let k := (2 * Z.of_nat i + 1)%Z in (0 < k * c ^ k)%Z /\ Ratan_seq (/ IZR c) i = / IZR (k * c ^ k).
Proof.
  intros C k. assert (K : (0 < k)%Z) by (unfold k; lia). pose proof (Z.pow_pos_nonneg c k C ltac:(lia)) as P. split; [now apply Z.mul_pos_pos|].
  unfold Ratan_seq. assert (E : Z.of_nat (2 * i + 1) = k) by (unfold k; lia).
  assert (N : IZR c <> 0) by (apply IZR_lt in C; lra).
  rewrite INR_IZR_INZ, E, mult_IZR, Rinv_mult, pow_inv. rewrite pow_IZR, E. unfold Rdiv. ring.
Qed.
Lemma zterm_near i : IZR (zterm i) <= IZR zunit * PI_2_3_7_tg i <= IZR (zterm i) + 2.
Proof.
  unfold PI_2_3_7_tg, zterm. cbv zeta. destruct (ratan_Z 3 i ltac:(lia)) as (A & ->). destruct (ratan_Z 7 i ltac:(lia)) as (B & ->).
  pose proof (zdiv_near (2 * zunit) _ A) as N1. pose proof (zdiv_near zunit _ B) as N2. rewrite plus_IZR. unfold Rdiv in N1, N2.
  rewrite (mult_IZR 2 zunit) in N1. lra.
Qed.
Lemma zalt_near n : Rabs (IZR zunit * sum_f_R0 (tg_alt PI_2_3_7_tg) n - IZR (zalt n)) <= 2 * INR (S n).
Proof.
  induction n as [|n IH].
  - cbn [sum_f_R0 zalt]. unfold tg_alt. pose proof (zterm_near 0). cbn [pow INR]. apply Rabs_le. lra.
  - cbn [sum_f_R0 zalt]. unfold tg_alt at 2. rewrite odd_pow, plus_IZR, (S_INR (S n)). pose proof (zterm_near (S n)) as T. apply Rabs_le_inv in IH. apply Rabs_le.
    destruct (Nat.odd (S n)); [rewrite opp_IZR|]; lra.
Qed.
Lemma PI_digits : Q2R pi_lo < PI < Q2R pi_hi.
Proof.
  destruct (PI_2_3_7_ineq 12) as (L & H). change (S (2 * 12)) with 25%nat in L. change (2 * 12)%nat with 24%nat in H.
  pose proof (zalt_near 25) as A. pose proof (zalt_near 24) as B. apply Rabs_le_inv in A, B. rewrite INR_IZR_INZ in A, B.
  set (sl := sum_f_R0 _ 25) in *. set (sh := sum_f_R0 _ 24) in *. clearbody sl sh.
  assert (A' : (785398163397448309615500000000 <= zalt 25)%Z) by (apply Z.leb_le; vm_compute; reflexivity).
  assert (B' : (zalt 24 <= 785398163397448309616750000000 - 1000)%Z) by (apply Z.leb_le; vm_compute; reflexivity).
  apply IZR_le in A', B'. set (zl := zalt 25) in *. set (zh := zalt 24) in *. clearbody zl zh.
  change (Z.of_nat 26) with 26%Z in A. change (Z.of_nat 25) with 25%Z in B. 
  change zunit with 1000000000000000000000000000000%Z in *. unfold Q2R, pi_lo, pi_hi. cbn [Qnum Qden]. 
  rewrite minus_IZR in B'. split; lra.
Qed.
Lemma PI_near : 3.14159265358979323846 < PI < 3.14159265358979323847.
Proof. pose proof PI_digits as (A & B). unfold Q2R, pi_lo, pi_hi in *. cbn [Qnum Qden] in *. lra. Qed.
