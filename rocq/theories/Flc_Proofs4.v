(** Day of the year, datetimes and clock functions in floating point. *)
From Coq Require Import List ZArith QArith Qround Qreals Reals Lra Lia Bool Psatz.
From Flocq Require Import Core.Core IEEE754.BinarySingleNaN IEEE754.Binary IEEE754.Bits Relative Sterbenz.
From Verif Require Import Py PyLemmas Cal_Model Cal_Spec Cal_Proofs Cal_Proofs2 Fl_Model Fl_Spec Fl_Proofs Flc_Model Flc_Spec Flc_Proofs Flc_Proofs2 Flc_Proofs3.
Import ListNotations.
Open Scope R_scope.
Open Scope list_scope.

(** ** The day of the year *)
Definition daylike (d : float) : Prop := exists n j, (1 <= n <= 31)%Z /\ (0 <= j < 2147483648)%Z /\ value d = IZR n + IZR j * ww.
Lemma doy_entry z d q : (0 <= z <= 400)%Z -> is_exactly d q -> daylike d ->
  astype_int (fsub (fadd (of_Z z) d) (of_Z 30)) = Qtrunc (inject_Z z + q - 30).
Proof.
  intros Z (F & V) (n & j & N & J & E). destruct (of_Z_ok z ltac:(lia)) as (Fz & Vz). destruct (of_Z_ok 30 ltac:(lia)) as (Ft & Vt).
  assert (G : IZR z + value d = IZR ((z + n) * 2147483648 + j) * ww) by (rewrite E, plus_IZR, mult_IZR, plus_IZR; unfold ww; lra).
  assert (Zr : 0 <= IZR z <= 400) by (split; apply IZR_le; lia). assert (Nr : 1 <= IZR n <= 31) by (split; apply IZR_le; lia).
  assert (Jr : 0 <= IZR j * ww <= 1). { destruct J as (J1 & J2). apply (IZR_le 0) in J1. apply IZR_lt in J2. unfold ww. lra. }
  destruct (fadd_ok (of_Z z) d Fz F) as (Fa & Va). { rewrite Vz, E. apply small_abs, Rabs_le. lra. }
  rewrite Vz, G, rnd_fmt in Va by (apply fmt_ww; lia).
  destruct (fsub_ok (fadd (of_Z z) d) (of_Z 30) Fa Ft) as (Fs & Vs). { rewrite Va, Vt, <- G, E. apply small_abs, Rabs_le. lra. }
  rewrite Va, Vt in Vs. replace (IZR ((z + n) * 2147483648 + j) * ww - 30) with (IZR ((z + n - 30) * 2147483648 + j) * ww) in Vs.
  2:{ rewrite !plus_IZR, !mult_IZR, !minus_IZR, !plus_IZR. unfold ww. lra. }
  rewrite rnd_fmt in Vs by (apply fmt_ww; lia).
  assert (W : value (fsub (fadd (of_Z z) d) (of_Z 30)) = Q2R (inject_Z z + q - 30)).
  { rewrite Q2R_minus, Q2R_plus, Q2R_int, <- V. replace (Q2R 30) with 30 by (unfold Q2R; cbn; lra). rewrite Vs, <- (Rplus_0_r (_ * ww)).
    rewrite plus_IZR, mult_IZR, minus_IZR, plus_IZR, E. unfold ww. lra. }
  rewrite astype_ok; auto; rewrite W; [apply trunc_Q|].
  rewrite <- W, Vs. replace (IZR ((z + n - 30) * 2147483648 + j) * ww) with (IZR z + IZR n - 30 + IZR j * ww).
  2:{ rewrite plus_IZR, mult_IZR, minus_IZR, plus_IZR. unfold ww. lra. }
  apply Rabs_lt. lra.
Qed.
Lemma doy_entries zs : forall ds qs, Forall (fun z => (0 <= z <= 400)%Z) zs -> Forall2 is_exactly ds qs -> Forall daylike ds ->
  map astype_int (map2 (fun x y => fsub (fadd (of_Z x) y) (of_Z 30)) zs ds) = map Qtrunc (map2 (fun x y => (inject_Z x + y - 30)%Q) zs qs).
Proof.
  induction zs as [|z zs IH]; intros ds qs Z E D; [reflexivity|]. inversion E as [|d q ds1 qs1 E1 E2]; subst; [reflexivity|].
  inversion Z; subst. inversion D; subst. unfold map2 in *. cbn [combine map fst snd]. f_equal; [now apply doy_entry|]. apply IH; auto.
Qed.
Lemma ninth m : (1 <= m <= 12)%Z -> astype_int (fdiv (of_Z (275 * m)) (of_Z 9)) = Qtrunc (inject_Z (275 * m) / 9) /\
  (0 <= Qtrunc (inject_Z (275 * m) / 9) <= 366 /\ 30 <= Qtrunc (inject_Z (275 * m) / 9))%Z.
Proof.
  intros M. assert (E : Qtrunc (inject_Z (275 * m) / 9) = (275 * m / 9)%Z).
  { apply (Qtrunc_div (275 * m) 9); [lia|]. unfold Qdiv, Qinv, Qmult, Qeq, inject_Z. cbn -[Z.mul Z.add]. lia. }
  rewrite E, fdiv_int by lia. pose proof (Z.div_mod (275 * m) 9 ltac:(lia)). pose proof (Z.mod_pos_bound (275 * m) 9 ltac:(lia)). lia.
Qed.
Lemma twelfth m : (1 <= m <= 12)%Z -> astype_int (fdiv (of_Z (m + 9)) (of_Z 12)) = Qtrunc (inject_Z (m + 9) / 12) /\
  (0 <= Qtrunc (inject_Z (m + 9) / 12) <= 1)%Z.
Proof.
  intros M. assert (E : Qtrunc (inject_Z (m + 9) / 12) = ((m + 9) / 12)%Z).
  { apply (Qtrunc_div (m + 9) 12); [lia|]. unfold Qdiv, Qinv, Qmult, Qeq, inject_Z. cbn -[Z.mul Z.add]. lia. }
  rewrite E, fdiv_int by lia. pose proof (Z.div_mod (m + 9) 12 ltac:(lia)). pose proof (Z.mod_pos_bound (m + 9) 12 ltac:(lia)). lia.
Qed.
Lemma map2_ext_r {A B C} (f g : A -> B -> C) l : forall m, (forall y, In y m -> forall x, f x y = g x y) -> map2 f l m = map2 g l m.
Proof.
  induction l as [|x l IH]; intros m H; [reflexivity|]. destruct m as [|y m]; [reflexivity|]. unfold map2 in *. cbn [combine map fst snd].
  f_equal; [apply H; now left|]. apply IH. intros z I. apply H. now right.
Qed.
Lemma doy_ints ks : forall ms, Forall (fun k => k = 1 \/ k = 2)%Z ks -> Forall (fun m => (1 <= m <= 12)%Z) ms ->
  Forall (fun z => (0 <= z <= 400)%Z) (map2 Z.sub (map (fun m => Qtrunc (inject_Z (275 * m) / 9)) ms) (map2 (fun x m => (x * Qtrunc (inject_Z (m + 9) / 12))%Z) ks ms)).
Proof.
  induction ks as [|k ks IH]; intros ms K M.
  - destruct ms; constructor.
  - destruct ms as [|m ms]; [constructor|]. inversion K; subst. inversion M; subst. unfold map2 in *. cbn [combine map fst snd].
    constructor; [|apply IH; auto]. destruct (ninth m H3) as (_ & A & A'). destruct (twelfth m H3) as (_ & B). destruct H1; subst; lia.
Qed.
Theorem day_of_year_exact js qs : Forall dated js -> Forall2 is_exactly js qs -> fday_of_year js = day_of_year qs.
Proof.
  intros D S. pose proof (from_julian_exact js qs D S) as H. unfold fday_of_year, day_of_year.
  destruct (from_julian qs) as [[[ys ms] ds]|e]; [|rewrite H; reflexivity].
  destruct H as (ds' & -> & E & L & M). cbn [bind]. f_equal. cbv zeta.
  assert (M' : forall m, In m ms -> (1 <= m <= 12)%Z) by now apply Forall_forall.
  rewrite (map_ext_in (fun m => astype_int (fdiv (of_Z (275 * m)) (of_Z 9))) (fun m => Qtrunc (inject_Z (275 * m) / 9)) ms) by (intros m I; apply ninth; auto).
  rewrite (map2_ext_r (fun x m => (x * astype_int (fdiv (of_Z (m + 9)) (of_Z 12)))%Z) (fun x m => (x * Qtrunc (inject_Z (m + 9) / 12))%Z)).
  2:{ intros m I x. f_equal. apply twelfth. auto. }
  apply doy_entries; auto. apply doy_ints; auto. apply Forall_forall. intros k I. apply in_map_iff in I. destruct I as (y & <- & _).
  destruct (y mod 4 =? 0)%Z; auto.
Qed.

(** ** Datetimes *)
Lemma round_half_even_ok x : finite x -> Rabs (IZR (round_half_even x) - value x) <= / 2.
Proof.
  intros F. destruct x as [s|s|s pl H|s m e B]; cbn in F; try discriminate.
  - cbn [round_half_even]. change (value (B754_zero 53 1024 s)) with 0. rewrite Rminus_0_r, Rabs_R0. lra.
  - rewrite value_finite. cbn [round_half_even]. cbv zeta. destruct (Z.leb_spec 0 e) as [L|L].
    + rewrite mult_IZR. change (2 ^ e)%Z with (radix_val radix2 ^ e)%Z. rewrite IZR_Zpower by auto. unfold Rminus. rewrite Rplus_opp_r, Rabs_R0. lra.
    + set (z := signed s m). set (d := (2 ^ - e)%Z). assert (D : (0 < d)%Z) by (apply Z.pow_pos_nonneg; lia).
      assert (V : IZR z * bpow radix2 e = IZR z / IZR d).
      { unfold Rdiv. f_equal. unfold d. change 2%Z with (radix_val radix2). rewrite IZR_Zpower by lia. rewrite <- bpow_opp. f_equal. lia. }
      rewrite V. clearbody z d. pose proof (Z.div_mod z d ltac:(lia)) as Q. pose proof (Z.mod_pos_bound z d D) as M.
      set (q := (z / d)%Z) in *. set (r := (z mod d)%Z) in *. clearbody q r. assert (Dr : 0 < IZR d) by now apply (IZR_lt 0).
      assert (Di : 0 < / IZR d) by now apply Rinv_0_lt_compat.
      assert (E : IZR z / IZR d = IZR q + IZR r * / IZR d) by (rewrite Q, plus_IZR, mult_IZR; field; lra). rewrite E.
      assert (lo : (2 * r <= d)%Z -> 0 <= IZR r * / IZR d <= / 2).
      { intros X. apply IZR_le in X. rewrite mult_IZR in X. destruct M as (M & _). apply (IZR_le 0) in M. split; [apply Rmult_le_pos; lra|].
        apply Rmult_le_reg_r with (IZR d); auto. rewrite Rmult_assoc, Rinv_l by lra. lra. }
      assert (hi : (d <= 2 * r)%Z -> / 2 <= IZR r * / IZR d <= 1).
      { intros X. apply IZR_le in X. rewrite mult_IZR in X. destruct M as (_ & M). apply IZR_lt in M. split;
        (apply Rmult_le_reg_r with (IZR d); auto; rewrite ?(Rmult_assoc (IZR r)), Rinv_l by lra; lra). }
      destruct (Z.ltb_spec (2 * r) d) as [A|A]; [apply Rabs_le; specialize (lo ltac:(lia)); lra|].
      destruct (Z.ltb_spec d (2 * r)) as [A'|A'].
      * rewrite plus_IZR. apply Rabs_le. specialize (hi ltac:(lia)). lra.
      * specialize (lo ltac:(lia)). specialize (hi ltac:(lia)). destruct (Z.even q); [|rewrite plus_IZR]; apply Rabs_le; lra.
Qed.
(** The part of a day, in microseconds. *)
Lemma timedelta_ok f j : finite f -> (0 <= j < 2147483648)%Z -> value f = IZR j * ww ->
  (0 <= timedelta_of_days f < 86400000000)%Z /\ Rabs (IZR (timedelta_of_days f) - 86400000000 * value f) <= / 2 + / 100000.
Proof.
  intros F J V. destruct (of_Z_ok 86400000000 ltac:(lia)) as (Fu & Vu).
  assert (Jr : 0 <= value f <= 1 - ww). { rewrite V. destruct J as (J1 & J2). assert (j <= 2147483647)%Z as J3 by lia. apply (IZR_le 0) in J1. apply IZR_le in J3. unfold ww. lra. }
  destruct (fmul_ok (of_Z 86400000000) f Fu F) as (Fm & Vm). { rewrite Vu. pose proof pow_1000. rewrite Rabs_pos_eq by lra. unfold ww in Jr. lra. }
  rewrite Vu in Vm. pose proof (round_half_even_ok _ Fm) as R. fold (timedelta_of_days f) in R. rewrite Vm in R.
  set (p := value f) in *. clearbody p.
  assert (A : Rabs (rnd (86400000000 * p) - 86400000000 * p) <= / 100000).
  { destruct (Z.eq_dec j 0) as [->|J0].
    - rewrite V, !Rmult_0_l, Rmult_0_r, rnd_0, Rminus_0_r, Rabs_R0. lra.
    - assert (P : ww <= p). { rewrite V. assert (1 <= IZR j) by (apply (IZR_le 1); lia). pose proof ww_pos. nra. }
      unfold ww in *. pose proof (rnd_err_pos (86400000000 * p) ltac:(lra)) as E. pose proof uu_pos. pose proof uu_value as U.
      apply Rabs_le. assert (uu * (86400000000 * p) <= / 100000); [|lra]. rewrite U. lra. }
  split.
  - rewrite Rabs_bound in R, A. unfold ww in Jr. set (t := timedelta_of_days f) in *. clearbody t. split.
    + assert (-1 < t)%Z; [|lia]. apply lt_IZR. lra.
    + apply lt_IZR. lra.
  - rewrite Rabs_bound in *. lra.
Qed.

Definition close_to (us : Z) (f : Q) : Prop := (0 <= us < 86400000000)%Z /\ Rabs (IZR us - 86400000000 * Q2R f) <= / 2 + / 100000.
Definition same_datetime (e : Z * Z * Z * Z) (e' : Z * Z * Z * Q) : Prop :=
  match e, e' with (y, m, d, us), (y', m', d', f) => y = y' /\ m = m' /\ d = d' /\ close_to us f end.
Lemma daylike_parts d q : is_exactly d q -> daylike d -> astype_int d = Qtrunc q /\ close_to (timedelta_of_days (fpymod d (of_Z 1))) (Qpymod q 1).
Proof.
  intros (F & V) (n & j & N & J & E).
  assert (Nr : 1 <= IZR n <= 31) by (split; apply IZR_le; lia).
  assert (Jr : 0 <= IZR j * ww < 1). { destruct J as (J1 & J2). apply (IZR_le 0) in J1. apply IZR_lt in J2. unfold ww. lra. }
  split.
  - rewrite astype_ok; auto; [rewrite V; apply trunc_Q|]. rewrite E. apply Rabs_lt. lra.
  - assert (G : value d = IZR (n * 2147483648 + j) * ww) by (rewrite E, plus_IZR, mult_IZR; unfold ww; lra).
    destruct (frac_grid d _ F G) as (Ff & Vf & Mf). assert (K : ((n * 2147483648 + j) mod 2147483648 = j)%Z) by (rewrite Z.add_comm, Z.mod_add, Z.mod_small by lia; reflexivity).
    rewrite K in Vf. destruct (timedelta_ok _ j Ff J Vf) as (T1 & T2). split; auto.
    assert (Q1 : Q2R 1 = 1) by (unfold Q2R; cbn; lra).
    replace (Q2R (Qpymod q 1)) with (value (fpymod d (of_Z 1))); auto.
    rewrite Mf. unfold modulo, Qpymod. rewrite Q2R_minus, Q2R_mult, Q2R_int, <- V, Q1. f_equal. f_equal. f_equal.
    rewrite <- floor_Q. rewrite Q2R_div by (intros H; discriminate H). rewrite Q1, V. reflexivity.
Qed.
Theorem datetime_exact js qs : Forall dated js -> Forall2 is_exactly js qs ->
  match time_datetime qs with
  | Ok out => exists out', fdatetime js = Ok out' /\ Forall2 same_datetime out' out
  | Raise e => fdatetime js = Raise e
  end.
Proof.
  intros D S. pose proof (from_julian_exact js qs D S) as H. unfold fdatetime, time_datetime.
  destruct (from_julian qs) as [[[ys ms] ds]|e]; [|rewrite H; reflexivity].
  destruct H as (ds' & -> & E & L & _). cbn [bind]. fold daylike in L. change (Forall daylike ds') in L.
  generalize (combine ys ms). intros yms. revert ds' ds E L. clear. induction yms as [|(y, m) yms IH]; intros ds' ds E L.
  - cbn [combine mapM]. exists []. split; [reflexivity|constructor].
  - inversion E as [|d q ds1 qs1 E1 E2]; subst; [cbn [combine mapM]; exists []; split; [reflexivity|constructor]|]. inversion L; subst.
    cbn [combine mapM]. destruct (daylike_parts d q E1 H1) as (A & B). rewrite A.
    destruct (datetime_accepts y m (Qtrunc q)); [|reflexivity]. cbn [bind]. specialize (IH ds1 qs1 E2 H2).
    destruct (mapM _ (combine yms qs1)) as [out|ex]; [|rewrite IH; reflexivity].
    destruct IH as (out' & -> & W). cbn [bind]. eexists. split; [reflexivity|]. constructor; [|exact W]. repeat split; auto; apply B.
Qed.
