(** Printing of numbers. *)
From Coq Require Import String Ascii List Reals NArith ZArith Bool Arith Lia Lra.
From Verif Require Import Py Num Time_Model Text_Model Text_Spec.
Import ListNotations.
Open Scope R_scope.
Open Scope list_scope.

Lemma digits_value_app a b : digits_value (a ++ b) = fold_left (fun v c => 10 * v + (c - 48))%N b (digits_value a).
Proof. unfold digits_value. now rewrite fold_left_app. Qed.
Lemma digits_value_snoc a c : digits_value (a ++ [c]) = (10 * digits_value a + (c - 48))%N.
Proof. rewrite digits_value_app. reflexivity. Qed.

(** ** Integers *)
Lemma digits_ok : forall f n, (n < 2 ^ N.of_nat f)%N ->
  let s := digits (S f) n in
  numeral s n /\ (n < 10 ^ N.of_nat (length s))%N /\ ((1 < length s)%nat -> (10 ^ N.of_nat (length s - 1) <= n)%N) /\ (1 <= length s)%nat.
Proof.
  induction f; intros n H s; subst s.
  - cbn in H. assert (n = 0%N) by lia. subst. cbn. repeat split; auto; try lia. repeat constructor; lia.
  - remember (S f) as g. cbn [digits]. destruct (N.ltb_spec n 10) as [L|L].
    + cbn [length]. repeat split; auto; try lia; try (change (N.of_nat 1) with 1%N; lia).
      * constructor; [unfold is_digit; lia|constructor].
      * unfold digits_value. cbn [fold_left]. lia.
    + subst g. assert (Q : (n / 10 < 2 ^ N.of_nat f)%N).
      { apply N.div_lt_upper_bound; [lia|]. rewrite Nat2N.inj_succ, N.pow_succ_r' in H. lia. }
      destruct (IHf _ Q) as ((D & V & Z) & U & LO & P). set (t := digits (S f) (n / 10)) in *. clearbody t.
      assert (M : (n mod 10 < 10)%N) by (apply N.mod_lt; lia).
      assert (DM : n = (10 * (n / 10) + n mod 10)%N) by (apply N.div_mod; lia).
      assert (Q1 : (1 <= n / 10)%N) by (apply N.div_le_lower_bound; lia).
      set (m := (n mod 10)%N) in *. clearbody m. set (q := (n / 10)%N) in *. clearbody q.
      assert (LT : length (t ++ [(48 + m)%N]) = S (length t)) by (rewrite app_length; cbn; lia).
      rewrite LT. split; [split; [|split]|split; [|split]].
      * apply Forall_app. split; auto. constructor; [unfold is_digit; lia|constructor].
      * rewrite digits_value_snoc, V. lia.
      * right. destruct Z as [Z|(c & r & -> & C)].
        -- destruct t as [|c [|]]; try discriminate. exists c, [(48 + m)%N]. split; [reflexivity|]. intros ->. cbn in V.
           lia.
        -- exists c, (r ++ [(48 + m)%N]). auto.
      * rewrite Nat2N.inj_succ, N.pow_succ_r'. lia.
      * intros _. replace (S (length t) - 1)%nat with (length t) by lia.
        destruct (Nat.eq_dec (length t) 1) as [E|E].
        -- rewrite E. change (10 ^ N.of_nat 1)%N with 10%N. lia.
        -- assert (X : (10 ^ N.of_nat (length t - 1) <= q)%N) by (apply LO; lia).
           replace (N.of_nat (length t)) with (N.succ (N.of_nat (length t - 1))) by lia. rewrite N.pow_succ_r'. lia.
      * lia.
Qed.
Lemma str_N_ok n : let s := str_N n in
  numeral s n /\ (n < 10 ^ N.of_nat (length s))%N /\ ((1 < length s)%nat -> (10 ^ N.of_nat (length s - 1) <= n)%N) /\ (1 <= length s)%nat.
Proof. unfold str_N. apply digits_ok. rewrite N2Nat.id. apply N.size_gt. Qed.
Lemma str_N_length_le a k : (1 <= k)%nat -> (a < 10 ^ N.of_nat k)%N -> (length (str_N a) <= k)%nat.
Proof.
  intros K A. destruct (str_N_ok a) as (_ & _ & L & _). destruct (Nat.le_gt_cases (length (str_N a)) k) as [H|H]; auto.
  assert (X : (10 ^ N.of_nat (length (str_N a) - 1) <= a)%N) by (apply L; lia).
  assert (Y : (10 ^ N.of_nat k <= 10 ^ N.of_nat (length (str_N a) - 1))%N) by (apply N.pow_le_mono_r; lia). lia.
Qed.
Lemma str_N_mono a b : (a <= b)%N -> (length (str_N a) <= length (str_N b))%nat.
Proof. intros H. destruct (str_N_ok b) as (_ & U & _ & P). apply str_N_length_le; auto. lia. Qed.
Lemma zeros_value k s : digits_value (repeat 48%N k ++ s) = digits_value s.
Proof. rewrite digits_value_app. induction k; cbn [repeat]; [reflexivity|]. unfold digits_value in *. cbn [fold_left]. auto. Qed.
Lemma zeros_digits k : Forall is_digit (repeat 48%N k).
Proof. induction k; cbn; constructor; auto. unfold is_digit; lia. Qed.
Lemma zfill_ok k n : (1 <= k)%nat -> (n < 10 ^ N.of_nat k)%N -> figures k (zfill k (str_N n)) n.
Proof.
  intros K H. pose proof (str_N_length_le n k K H) as L. destruct (str_N_ok n) as ((D & V & _) & _). unfold zfill. repeat split.
  - apply Forall_app. split; auto. apply zeros_digits.
  - now rewrite zeros_value.
  - rewrite app_length, repeat_length. lia.
Qed.

(** ** Rounding *)
Lemma Rabs_le_inv x a : Rabs x <= a -> - a <= x <= a.
Proof. unfold Rabs. destruct (Rcase_abs x); lra. Qed.
Lemma Int_part_bounds x : IZR (Int_part x) <= x < IZR (Int_part x) + 1.
Proof. destruct (base_Int_part x). lra. Qed.
Lemma half_even_near x : Rabs (x - IZR (half_even x)) <= 1 / 2.
Proof.
  pose proof (Int_part_bounds x) as B. unfold half_even. destruct (Rlt_dec _ _) as [A|A]; [|destruct (Rlt_dec _ _) as [C|C]; [|destruct (Z.even _)]].
  - apply Rabs_le. lra.
  - rewrite plus_IZR. apply Rabs_le. lra.
  - apply Rabs_le. lra.
  - rewrite plus_IZR. apply Rabs_le. lra.
Qed.
Lemma half_even_mono x y : x <= y -> (half_even x <= half_even y)%Z.
Proof.
  intros H. destruct (Z.le_gt_cases (half_even x) (half_even y)) as [|G]; auto.
  assert (I : (half_even y + 1 <= half_even x)%Z) by lia. apply IZR_le in I. rewrite plus_IZR in I.
  pose proof (half_even_near x) as X. pose proof (half_even_near y) as Y. apply Rabs_le_inv in X, Y.
  assert (x = y) by lra. subst. lia.
Qed.
Lemma half_even_unique x z : Rabs (x - IZR z) < 1 / 2 -> half_even x = z.
Proof.
  intros H. pose proof (half_even_near x) as X. apply Rabs_le_inv in X. apply Rabs_def2 in H.
  assert (A : IZR (half_even x) < IZR (z + 1)) by (rewrite plus_IZR; lra). assert (B : IZR z < IZR (half_even x + 1)) by (rewrite plus_IZR; lra).
  apply lt_IZR in A, B. lia.
Qed.
Lemma half_even_IZR z : half_even (IZR z) = z.
Proof. apply half_even_unique. rewrite Rminus_diag_eq, Rabs_R0; lra. Qed.
Lemma half_even_nonneg x : 0 <= x -> (0 <= half_even x)%Z.
Proof. intros H. pose proof (half_even_mono 0 x H) as M. change 0 with (IZR 0) in M at 1. rewrite half_even_IZR in M. auto. Qed.

(** ** Decimals *)
Lemma pow10_N n : IZR (Z.of_N (10 ^ N.of_nat n)) = 10 ^ n.
Proof. rewrite N2Z.inj_pow, nat_N_Z. now rewrite <- pow_IZR. Qed.
Lemma pow10_pos n : 0 < 10 ^ n.
Proof. apply pow_lt; lra. Qed.
Definition scaled (n : nat) (x : R) : N := Z.to_N (half_even (x * 10 ^ n)).
Lemma scaled_near n x : 0 <= x -> Rabs (x - IZR (Z.of_N (scaled n x)) / 10 ^ n) <= / (2 * 10 ^ n).
Proof.
  intros H. pose proof (pow10_pos n) as P. assert (0 <= x * 10 ^ n) by (apply Rmult_le_pos; lra).
  unfold scaled. rewrite Z2N.id by now apply half_even_nonneg. pose proof (half_even_near (x * 10 ^ n)) as E. set (k := IZR (half_even (x * 10 ^ n))) in *. clearbody k. set (p := 10 ^ n) in *. clearbody p.
  replace (x - k / p) with ((x * p - k) * / p) by (field; lra). rewrite Rabs_mult, (Rabs_right (/ p)) by (apply Rle_ge, Rlt_le, Rinv_0_lt_compat; lra).
  replace (/ (2 * p)) with (1 / 2 * / p) by (field; lra). apply Rmult_le_compat_r; [apply Rlt_le, Rinv_0_lt_compat; lra|lra].
Qed.
Lemma scaled_mono n x y : x <= y -> (scaled n x <= scaled n y)%N.
Proof. intros H. unfold scaled. assert (M : (half_even (x * 10 ^ n) <= half_even (y * 10 ^ n))%Z) by (apply half_even_mono, Rmult_le_compat_r; [apply Rlt_le, pow10_pos|lra]). lia. Qed.
(** The parts of a printed number that is not negative. *)
Lemma fixed_abs_parts n x : (1 <= n)%nat ->
  exists whole part, fixed_abs n x = whole ++ lit "." ++ part /\ numeral whole (scaled n x / 10 ^ N.of_nat n)%N /\ figures n part (scaled n x mod 10 ^ N.of_nat n)%N /\
    length whole = length (str_N (scaled n x / 10 ^ N.of_nat n)).
Proof.
  intros K. unfold fixed_abs. change (Z.to_N (half_even (x * 10 ^ n))) with (scaled n x). destruct n as [|n']; [lia|]. set (n := S n') in *.
  exists (str_N (scaled n x / 10 ^ N.of_nat n)), (zfill n (str_N (scaled n x mod 10 ^ N.of_nat n))). split; [reflexivity|]. split; [apply str_N_ok|]. split; [|reflexivity].
  apply zfill_ok; auto. apply N.mod_lt. apply N.pow_nonzero. lia.
Qed.
Lemma whole_and_part n k : IZR (Z.of_N k) / 10 ^ n = IZR (Z.of_N (k / 10 ^ N.of_nat n)) + IZR (Z.of_N (k mod 10 ^ N.of_nat n)) / 10 ^ n.
Proof.
  assert (NZ : (10 ^ N.of_nat n <> 0)%N) by (apply N.pow_nonzero; lia). pose proof (N.div_mod k (10 ^ N.of_nat n) NZ) as E.
  assert (E' : IZR (Z.of_N k) = 10 ^ n * IZR (Z.of_N (k / 10 ^ N.of_nat n)) + IZR (Z.of_N (k mod 10 ^ N.of_nat n))).
  { rewrite E at 1. rewrite N2Z.inj_add, N2Z.inj_mul, plus_IZR, mult_IZR, pow10_N. reflexivity. }
  rewrite E'. field. pose proof (pow10_pos n); lra.
Qed.
(** A printed number reads as a number within half a unit of the last place. *)
Lemma fixed_reads n x : (1 <= n)%nat -> exists y, decimal n (fixed n (Fin x)) y /\ Rabs (x - y) <= / (2 * 10 ^ n).
Proof.
  intros K. cbn [fixed]. destruct (Rlt_dec x 0) as [L|L].
  - destruct (fixed_abs_parts n (- x) K) as (w & p & E & W & P & _). exists (- (IZR (Z.of_N (scaled n (- x))) / 10 ^ n)). split.
    + exists true, w, p, (scaled n (- x) / 10 ^ N.of_nat n)%N, (scaled n (- x) mod 10 ^ N.of_nat n)%N. rewrite E. split; [reflexivity|]. split; [auto|]. split; [auto|]. rewrite whole_and_part. ring.
    + rewrite <- Rabs_Ropp. replace (- (x - - (IZR (Z.of_N (scaled n (- x))) / 10 ^ n))) with (- x - IZR (Z.of_N (scaled n (- x))) / 10 ^ n) by ring. apply scaled_near. lra.
  - destruct (fixed_abs_parts n x K) as (w & p & E & W & P & _). exists (IZR (Z.of_N (scaled n x)) / 10 ^ n). split.
    + exists false, w, p, (scaled n x / 10 ^ N.of_nat n)%N, (scaled n x mod 10 ^ N.of_nat n)%N. rewrite E. split; [reflexivity|]. split; [auto|]. split; [auto|]. rewrite whole_and_part. ring.
    + apply scaled_near. lra.
Qed.
Lemma fixed_abs_length n x : length (fixed_abs n x) = (length (str_N (scaled n x / 10 ^ N.of_nat n)) + match n with O => 0 | S _ => S n end)%nat.
Proof.
  destruct n as [|n'].
  - unfold fixed_abs. rewrite app_nil_r. change (Z.to_N (half_even (x * 10 ^ 0))) with (scaled 0 x). lia.
  - destruct (fixed_abs_parts (S n') x ltac:(lia)) as (w & p & E & _ & (_ & _ & P) & L). rewrite E, !app_length, P, L. cbn [lit length map list_ascii_of_string]. lia.
Qed.
(** Larger numbers are not shorter. *)
Lemma fixed_longer n x y : 0 <= x <= y -> (length (fixed n (Fin x)) <= length (fixed n (Fin y)))%nat.
Proof.
  intros H. cbn [fixed]. destruct (Rlt_dec x 0); [lra|]. destruct (Rlt_dec y 0); [lra|]. rewrite !fixed_abs_length.
  assert (M : (length (str_N (scaled n x / 10 ^ N.of_nat n)) <= length (str_N (scaled n y / 10 ^ N.of_nat n)))%nat); [|lia].
  apply str_N_mono. apply N.div_le_mono; [apply N.pow_nonzero; lia|]. apply scaled_mono. lra.
Qed.
