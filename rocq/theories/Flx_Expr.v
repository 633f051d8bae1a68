(** Rounding errors of expressions, computed: an expression in floating point is given as a
    syntax tree, a function on rational numbers bounds the error of its value, and that bound is
    proved once for all expressions. *)
From Coq Require Import List ZArith QArith Qreals Reals Lra Lia Psatz Bool.
From Flocq Require Import Core.Core IEEE754.BinarySingleNaN IEEE754.Binary IEEE754.Bits.
From Verif Require Import Py Fl_Model Fl_Spec Fl_Proofs Flg_Model Flg_Spec Rot_Model Rot_Spec Flg_Proofs Flg_Num Flg_Proofs2 Flg_Proofs3
  Flc_Model Flc_Proofs2 Flg_Proofs5 Flr_Model Flr_Spec.
Open Scope R_scope.

(** ** The rules *)
Definition lim : R := 1000000000000.
Lemma lim_mul x y : Rabs x <= 2 * lim -> Rabs y <= 2 * lim -> Rabs (x * y) <= bpow radix2 1000.
Proof.
  intros X Y. rewrite Rabs_mult. apply Rle_trans with (2 * lim * (2 * lim)); [apply Rmult_le_compat; auto using Rabs_pos|].
  apply Rle_trans with (bpow radix2 60 * bpow radix2 60); [|rewrite <- bpow_plus; apply bpow_le; lia].
  pose proof pow_60. unfold lim. assert (bpow radix2 60 * bpow radix2 60 >= 1000000000000000000 * 1000000000000000000) by nra. lra.
Qed.
Lemma lim_1000 x : Rabs x <= 5 * lim -> Rabs x <= bpow radix2 1000.
Proof. intros X. pose proof pow_1000. unfold lim in *. lra. Qed.
Lemma uu_lim e : 0 <= e <= lim -> e * uu <= / 1000.
Proof. intros E. rewrite uu_value. unfold lim in *. lra. Qed.
Definition tiny : R := / 1000000000000000000.
Lemma ee_tiny : ee <= tiny * uu.
Proof.
  assert (E8 : 4 * ee <= uu * bpow radix2 (-60)) by (apply ee_small, bpow_le; lia).
  assert (bpow radix2 (-60) <= tiny) by (unfold tiny; cbn; lra). pose proof uu_pos. pose proof ee_pos. nra.
Qed.

Section Rules.
Variables (x y : float) (a b ea eb A B : R).
Hypothesis X : appr x a ea A.
Hypothesis Y : appr y b eb B.
Hypothesis HEA : 0 <= ea <= lim.
Hypothesis HEB : 0 <= eb <= lim.
Hypothesis HA : 0 <= A <= lim.
Hypothesis HB : 0 <= B <= lim.
Lemma size_x : Rabs (value x) <= A + ea * uu.
Proof. destruct X as (_ & E & Bd). pose proof (err_abs _ _ _ E). lra. Qed.
Lemma size_y : Rabs (value y) <= B + eb * uu.
Proof. destruct Y as (_ & E & Bd). pose proof (err_abs _ _ _ E). lra. Qed.
Lemma appr_neg : appr (fneg x) (- a) ea A.
Proof.
  destruct X as (F & E & Bd). unfold appr, finite, fneg, value, b64_opp. rewrite is_finite_Bopp, B2R_Bopp. split; [exact F|]. fold (value x).
  rewrite Rabs_Ropp. split; auto. replace (- value x - - a) with (- (value x - a)) by ring. now rewrite Rabs_Ropp.
Qed.
Lemma x_add : appr (fadd x y) (a + b) ((ea + eb) * (1 + uu) + (A + B)) (A + B).
Proof.
  pose proof X as (Fx & Ex & Bx). pose proof Y as (Fy & Ey & By). pose proof size_x as Sx. pose proof size_y as Sy. pose proof (uu_lim ea HEA). pose proof (uu_lim eb HEB). pose proof uu_pos as U.
  assert (S : Rabs (value x + value y) <= A + B + (ea + eb) * uu) by (eapply Rle_trans; [apply Rabs_triang|lra]).
  destruct (fadd_ok x y Fx Fy) as (F & V). { apply lim_1000. unfold lim in *. lra. }
  split; auto. split; [|eapply Rle_trans; [apply Rabs_triang|lra]]. rewrite V.
  pose proof (rnd_add_err _ _ (value_fmt x) (value_fmt y)) as R. pose proof (err_plus _ _ _ _ _ _ Ex Ey) as D.
  eapply Rle_trans; [apply (err_trans _ _ _ _ _ R D)|].
  assert (uu * Rabs (value x + value y) <= uu * (A + B + (ea + eb) * uu)) by (apply Rmult_le_compat_l; lra). lra.
Qed.
End Rules.
Section Rules2.
Variables (x y : float) (a b ea eb A B : R).
Hypothesis X : appr x a ea A.
Hypothesis Y : appr y b eb B.
Hypothesis HEA : 0 <= ea <= lim.
Hypothesis HEB : 0 <= eb <= lim.
Hypothesis HA : 0 <= A <= lim.
Hypothesis HB : 0 <= B <= lim.
Lemma x_sub : appr (fsub x y) (a - b) ((ea + eb) * (1 + uu) + (A + B)) (A + B).
Proof.
  pose proof X as (Fx & Ex & Bx). pose proof Y as (Fy & Ey & By). pose proof (size_x _ _ _ _ X) as Sx. pose proof (size_y _ _ _ _ Y) as Sy.
  pose proof (uu_lim ea HEA). pose proof (uu_lim eb HEB). pose proof uu_pos as U.
  assert (S : Rabs (value x - value y) <= A + B + (ea + eb) * uu) by (unfold Rminus; eapply Rle_trans; [apply Rabs_triang|rewrite Rabs_Ropp; lra]).
  destruct (fsub_ok x y Fx Fy) as (F & V). { apply lim_1000. unfold lim in *. lra. }
  split; auto. split; [|unfold Rminus; eapply Rle_trans; [apply Rabs_triang|rewrite Rabs_Ropp; lra]]. rewrite V.
  assert (R : Rabs (rnd (value x - value y) - (value x - value y)) <= uu * Rabs (value x - value y)).
  { exact (rnd_add_err (value x) (- value y) (value_fmt x) (generic_format_opp _ _ _ (value_fmt y))). }
  assert (D : Rabs (value x - value y - (a - b)) <= ea * uu + eb * uu).
  { replace (value x - value y - (a - b)) with ((value x - a) + - (value y - b)) by ring. eapply Rle_trans; [apply Rabs_triang|]. rewrite Rabs_Ropp. lra. }
  eapply Rle_trans; [apply (err_trans _ _ _ _ _ R D)|].
  assert (uu * Rabs (value x - value y) <= uu * (A + B + (ea + eb) * uu)) by (apply Rmult_le_compat_l; lra). lra.
Qed.
Lemma x_mul : appr (fmul x y) (a * b) (ea * B + eb * A + ea * (eb * uu) + (A + ea * uu) * (B + eb * uu) + tiny) (A * B).
Proof.
  pose proof X as (Fx & Ex & Bx). pose proof Y as (Fy & Ey & By). pose proof (size_x _ _ _ _ X) as Sx. pose proof (size_y _ _ _ _ Y) as Sy.
  pose proof (uu_lim ea HEA). pose proof (uu_lim eb HEB). pose proof uu_pos as U.
  destruct (fmul_ok x y Fx Fy) as (F & V). { apply lim_mul; unfold lim in *; lra. }
  split; auto. split; [|rewrite Rabs_mult; apply Rmult_le_compat; auto using Rabs_pos]. rewrite V.
  pose proof (rnd_mul_err (value x * value y)) as R.
  assert (D : Rabs (value x * value y - a * b) <= (ea * B + eb * A + ea * (eb * uu)) * uu).
  { replace (value x * value y - a * b) with (a * (value y - b) + (value x - a) * b + (value x - a) * (value y - b)) by ring.
    eapply Rle_trans; [apply Rabs_triang|]. eapply Rle_trans; [apply Rplus_le_compat_r, Rabs_triang|]. rewrite !Rabs_mult.
    assert (P1 : Rabs a * Rabs (value y - b) <= A * (eb * uu)) by (apply Rmult_le_compat; try apply Rabs_pos; auto).
    assert (P2 : Rabs (value x - a) * Rabs b <= ea * uu * B) by (apply Rmult_le_compat; try apply Rabs_pos; auto).
    assert (P3 : Rabs (value x - a) * Rabs (value y - b) <= ea * uu * (eb * uu)) by (apply Rmult_le_compat; try apply Rabs_pos; auto).
    lra. }
  eapply Rle_trans; [apply (err_trans _ _ _ _ _ R D)|]. pose proof ee_tiny.
  assert (P : Rabs (value x * value y) <= (A + ea * uu) * (B + eb * uu)) by (rewrite Rabs_mult; apply Rmult_le_compat; auto using Rabs_pos).
  assert (uu * Rabs (value x * value y) <= uu * ((A + ea * uu) * (B + eb * uu))) by (apply Rmult_le_compat_l; lra). lra.
Qed.
Lemma x_div z : (0 < z < 1000000000000)%Z -> appr (fdiv x (of_Z z)) (a / IZR z) (ea * (1 + uu) / IZR z + A / IZR z + tiny) (A / IZR z).
Proof.
  intros Z. pose proof X as (Fx & Ex & Bx). pose proof (size_x _ _ _ _ X) as Sx. pose proof (uu_lim ea HEA). pose proof uu_pos as U.
  destruct (of_Z_ok z ltac:(lia)) as (Fz & Vz). assert (Zr : 1 <= IZR z) by (apply (IZR_le 1); lia).
  assert (I1 : 0 < / IZR z <= 1) by (split; [apply Rinv_0_lt_compat; lra|rewrite <- Rinv_1; apply Rinv_le_contravar; lra]).
  unfold Rdiv. set (i := / IZR z) in *.
  assert (S : Rabs (value x * i) <= (A + ea * uu) * i) by (rewrite Rabs_mult, (Rabs_pos_eq i) by lra; apply Rmult_le_compat_r; lra).
  destruct (fdiv_ok x (of_Z z) Fx) as (F & V). { rewrite Vz; lra. } { rewrite Vz. apply lim_1000. unfold Rdiv. fold i. unfold lim in *. nra. }
  split; auto. split; [|rewrite Rabs_mult, (Rabs_pos_eq i) by lra; apply Rmult_le_compat_r; lra]. rewrite V, Vz. unfold Rdiv. fold i.
  pose proof (rnd_mul_err (value x * i)) as R. pose proof ee_tiny.
  assert (D : Rabs (value x * i - a * i) <= ea * uu * i).
  { replace (value x * i - a * i) with ((value x - a) * i) by ring. rewrite Rabs_mult, (Rabs_pos_eq i) by lra. apply Rmult_le_compat_r; lra. }
  eapply Rle_trans; [apply (err_trans _ _ _ _ _ R D)|].
  assert (uu * Rabs (value x * i) <= uu * ((A + ea * uu) * i)) by (apply Rmult_le_compat_l; lra). lra.
Qed.
Lemma trig_lip f f' : (forall t, derivable_pt_lim f t (f' t)) -> (forall t, Rabs (f' t) <= 1) -> forall s t, Rabs (f s - f t) <= Rabs (s - t).
Proof.
  intros D1 D2 s t. assert (H : forall s t, s < t -> Rabs (f t - f s) <= t - s).
  { clear s t. intros s t L. destruct (MVT_cor2 f f' s t L) as (c & E & _); [intros; apply D1|]. rewrite E, Rabs_mult, (Rabs_pos_eq (t - s)) by lra.
    pose proof (D2 c). pose proof (Rabs_pos (f' c)). nra. }
  destruct (Rtotal_order s t) as [L|[->|L]].
  - rewrite Rabs_minus_sym, (Rabs_minus_sym s t). rewrite (Rabs_pos_eq (t - s)) by lra. auto.
  - rewrite !Rminus_eq_0, Rabs_R0. lra.
  - rewrite (Rabs_pos_eq (s - t)) by lra. auto.
Qed.
End Rules2.
Lemma sin_lip s t : Rabs (sin s - sin t) <= Rabs (s - t).
Proof. apply (trig_lip sin cos); [apply derivable_pt_lim_sin|]. intros u. apply Rabs_le. apply COS_bound. Qed.
Lemma cos_lip s t : Rabs (cos s - cos t) <= Rabs (s - t).
Proof. apply (trig_lip cos (fun x => - sin x)); [apply derivable_pt_lim_cos|]. intros u. rewrite Rabs_Ropp. apply Rabs_le. apply SIN_bound. Qed.
Lemma pow_lip m x y n : Rabs x <= m -> Rabs y <= m -> Rabs (x ^ n - y ^ n) <= INR n * m ^ (n - 1) * Rabs (x - y).
Proof.
  intros X Y. assert (M : 0 <= m) by (pose proof (Rabs_pos x); lra). induction n as [|n IH].
  - cbn [pow INR]. rewrite Rminus_eq_0, Rabs_R0. pose proof (Rabs_pos (x - y)). lra.
  - cbn [pow]. replace (x * x ^ n - y * y ^ n) with ((x - y) * x ^ n + y * (x ^ n - y ^ n)) by ring.
    eapply Rle_trans; [apply Rabs_triang|]. rewrite !Rabs_mult. rewrite S_INR. replace (S n - 1)%nat with n by lia.
    assert (P1 : Rabs (x ^ n) <= m ^ n) by (rewrite <- RPow_abs; apply pow_incr; split; auto using Rabs_pos).
    assert (P2 : Rabs y * Rabs (x ^ n - y ^ n) <= m * (INR n * m ^ (n - 1) * Rabs (x - y))) by (apply Rmult_le_compat; auto using Rabs_pos).
    assert (P3 : Rabs (x - y) * Rabs (x ^ n) <= Rabs (x - y) * m ^ n) by (apply Rmult_le_compat_l; auto using Rabs_pos).
    destruct n as [|n].
    + cbn [INR pow Nat.sub] in *. lra.
    + replace (m * (INR (S n) * m ^ (S n - 1) * Rabs (x - y))) with (INR (S n) * m ^ S n * Rabs (x - y)) in P2.
      2:{ replace (S n - 1)%nat with n by lia. cbn [pow]. ring. }
      lra.
Qed.

Section Library.
Variable L : arrays.
Hypothesis G : accurate_arrays L.
Lemma x_sin x a e A : appr x a e A -> 0 <= e <= lim -> 0 <= A <= 1000000000 -> appr (a_sin L x) (sin a) (e + 4) 1.
Proof.
  intros X E B. pose proof X as (F & Ex & Bx). pose proof (size_x _ _ _ _ X). pose proof (uu_lim e E).
  destruct (np_sin_good L G x F ltac:(lra)) as (Fs & Es). split; auto. split; [|apply Rabs_le, SIN_bound].
  eapply Rle_trans; [apply (err_trans _ _ _ _ _ Es (sin_lip _ _))|]. rewrite uu_value in *. lra.
Qed.
Lemma x_cos x a e A : appr x a e A -> 0 <= e <= lim -> 0 <= A <= 1000000000 -> appr (a_cos L x) (cos a) (e + 4) 1.
Proof.
  intros X E B. pose proof X as (F & Ex & Bx). pose proof (size_x _ _ _ _ X). pose proof (uu_lim e E).
  destruct (np_cos_good L G x F ltac:(lra)) as (Fs & Es). split; auto. split; [|apply Rabs_le, COS_bound].
  eapply Rle_trans; [apply (err_trans _ _ _ _ _ Es (cos_lip _ _))|]. rewrite uu_value in *. lra.
Qed.
Lemma x_pow x a e A p : appr x a e A -> 0 <= e <= lim -> 0 <= A <= 1000 -> (1 <= p <= 10)%nat ->
  appr (a_pow L x p) (a ^ p) (INR p * (A + e * uu) ^ (p - 1) * e + 4 * (A + e * uu) ^ p + tiny) (A ^ p).
Proof.
  intros X E B P. pose proof X as (F & Ex & Bx). pose proof (size_x _ _ _ _ X) as Sx. pose proof (uu_lim e E) as Ue. pose proof uu_pos as U.
  destruct (np_pow_good L G x p F ltac:(lra) P) as (Fs & Es). split; auto.
  split; [|rewrite <- RPow_abs; apply pow_incr; split; auto using Rabs_pos].
  set (m := A + e * uu) in *. assert (M0 : 0 <= e * uu) by nra.
  pose proof (pow_lip m (value x) a p Sx ltac:(unfold m; lra)) as D.
  eapply Rle_trans; [apply (err_trans _ _ _ _ _ Es D)|].
  assert (P1 : Rabs (value x ^ p) <= m ^ p) by (rewrite <- RPow_abs; apply pow_incr; split; auto using Rabs_pos).
  assert (C : 0 <= INR p * m ^ (p - 1)) by (apply Rmult_le_pos; [apply pos_INR|apply pow_le; unfold m; lra]).
  assert (Q : INR p * m ^ (p - 1) * Rabs (value x - a) <= INR p * m ^ (p - 1) * (e * uu)) by (apply Rmult_le_compat_l; auto).
  assert (T : / 2 ^ 1000 <= tiny * uu).
  { assert (2 ^ 1000 = bpow radix2 1000) as -> by (rewrite (pow_bpow 1000); f_equal).
    rewrite <- bpow_opp. apply Rle_trans with (bpow radix2 (-120)); [apply bpow_le; lia|]. unfold tiny. rewrite uu_value. cbn. lra. }
  assert (U4 : / 2 ^ 51 = 4 * uu) by (rewrite uu_value; lra). rewrite U4.
  assert (4 * uu * Rabs (value x ^ p) <= 4 * uu * m ^ p) by (apply Rmult_le_compat_l; lra). lra.
Qed.
End Library.

(** ** Expressions *)
Inductive expr :=
| Leaf (x : float) (r : R) (e b : Q)
| Whole (z : Z)
| Dec (n d : Z)
| Neg (s : expr) | Add (s t : expr) | Sub (s t : expr) | Mul (s t : expr) | Over (s : expr) (z : Z)
| Sin (s : expr) | Cos (s : expr) | Pow (s : expr) (p : nat).
(** In floating point *)
Fixpoint feval (L : arrays) (t : expr) : float :=
  match t with
  | Leaf x _ _ _ => x
  | Whole z => of_Z z
  | Dec n d => literal n d
  | Neg s => fneg (feval L s)
  | Add s t => fadd (feval L s) (feval L t)
  | Sub s t => fsub (feval L s) (feval L t)
  | Mul s t => fmul (feval L s) (feval L t)
  | Over s z => fdiv (feval L s) (of_Z z)
  | Sin s => a_sin L (feval L s)
  | Cos s => a_cos L (feval L s)
  | Pow s p => a_pow L (feval L s) p
  end.
(** Exactly *)
Fixpoint reval (t : expr) : R :=
  match t with
  | Leaf _ r _ _ => r
  | Whole z => IZR z
  | Dec n d => IZR n / IZR d
  | Neg s => - reval s
  | Add s t => reval s + reval t
  | Sub s t => reval s - reval t
  | Mul s t => reval s * reval t
  | Over s z => reval s / IZR z
  | Sin s => sin (reval s)
  | Cos s => cos (reval s)
  | Pow s p => reval s ^ p
  end.
Fixpoint leaves (t : expr) : Prop :=
  match t with
  | Leaf x r e b => appr x r (Q2R e) (Q2R b)
  | Whole _ | Dec _ _ => True
  | Neg s | Over s _ | Sin s | Cos s | Pow s _ => leaves s
  | Add s t | Sub s t | Mul s t => leaves s /\ leaves t
  end.
(** The error, in units of [uu], and a bound of the value *)
Definition qu : Q := 1 # 9007199254740992.
Definition qtiny : Q := 1 # 1000000000000000000.
Definition qlim : Q := 1000000000000 # 1.
Definition ok1 (p : Q * Q) : bool := Qle_bool 0 (fst p) && Qle_bool (fst p) qlim && Qle_bool 0 (snd p) && Qle_bool (snd p) qlim.
(** Rounded up to a multiple of [10 ^ -15], so that the numbers stay short *)
Definition qup (q : Q) : Q := (Qnum q * 1000000000000000 / Zpos (Qden q) + 1)%Z # 1000000000000000.
Definition up2 (p : Q * Q) : Q * Q := (qup (fst p), qup (snd p)).
Definition lift1 (f : Q * Q -> option (Q * Q)) (o : option (Q * Q)) : option (Q * Q) :=
  match o with Some p => if ok1 p then f p else None | None => None end.
Definition qmul_err (ea A eb B : Q) : Q := (ea * B + eb * A + ea * (eb * qu) + (A + ea * qu) * (B + eb * qu) + qtiny)%Q.
Definition qm (p : Q * Q) : Q := qup (snd p + fst p * qu)%Q.
Fixpoint rpow (q : Q) (n : nat) : Q := match n with O => 1%Q | S n => qup (q * rpow q n) end.
Fixpoint bound (t : expr) : option (Q * Q) :=
  match t with
  | Leaf _ _ e b => Some (e, b)
  | Whole z => if (Z.abs z <? 1000000000000)%Z then Some (0%Q, Z.abs z # 1) else None
  | Dec n d => if ((0 <? n) && (n <? 9007199254740992) && (0 <? d) && (d <? 9007199254740992))%Z
      then Some (n # Z.to_pos d, n # Z.to_pos d) else None
  | Neg s => bound s
  | Add s t | Sub s t => lift1 (fun p => lift1 (fun q =>
      let b := (snd p + snd q)%Q in Some (up2 ((fst p + fst q) * (1 + qu) + b, b)%Q)) (bound t)) (bound s)
  | Mul s t => lift1 (fun p => lift1 (fun q =>
      Some (up2 (qmul_err (fst p) (snd p) (fst q) (snd q), snd p * snd q)%Q)) (bound t)) (bound s)
  | Over s z => if ((0 <? z) && (z <? 1000000000000))%Z then lift1 (fun p =>
      Some (up2 (fst p * (1 + qu) * (1 # Z.to_pos z) + snd p * (1 # Z.to_pos z) + qtiny, snd p * (1 # Z.to_pos z))%Q)) (bound s) else None
  | Sin s | Cos s => lift1 (fun p => if Qle_bool (snd p) (1000000000 # 1) then Some (fst p + 4, 1)%Q else None) (bound s)
  | Pow s n => if ((1 <=? n) && (n <=? 10))%nat then lift1 (fun p => if Qle_bool (snd p) (1000 # 1) then
      Some (up2 ((Z.of_nat n # 1) * rpow (qm p) (n - 1) * fst p + (4 # 1) * rpow (qm p) n + qtiny, rpow (snd p) n)%Q) else None) (bound s) else None
  end.

Lemma Q2R_int z : Q2R (z # 1) = IZR z. Proof. unfold Q2R. cbn [Qnum Qden]. lra. Qed.
Lemma Q2R_frac n d : (0 < d)%Z -> Q2R (n # Z.to_pos d) = IZR n / IZR d.
Proof. intros D. unfold Q2R. cbn [Qnum Qden]. now rewrite Z2Pos.id. Qed.
Lemma Q2R_qu : Q2R qu = uu. Proof. unfold qu, Q2R. cbn [Qnum Qden]. rewrite uu_value. lra. Qed.
Lemma Q2R_qtiny : Q2R qtiny = tiny. Proof. unfold qtiny, Q2R, tiny. cbn [Qnum Qden]. lra. Qed.
Lemma Q2R_0' : Q2R 0 = 0. Proof. unfold Q2R. cbn. lra. Qed.
Lemma Q2R_1' : Q2R 1 = 1. Proof. unfold Q2R. cbn. lra. Qed.
Lemma qup_ge q : Q2R q <= Q2R (qup q).
Proof.
  unfold qup, Q2R. cbn [Qnum Qden]. set (n := Qnum q). set (d := Zpos (Qden q)). assert (D : (0 < d)%Z) by reflexivity.
  pose proof (Z.div_mod (n * 1000000000000000) d ltac:(lia)) as E. pose proof (Z.mod_pos_bound (n * 1000000000000000) d D) as Mb.
  set (k := (n * 1000000000000000 / d)%Z) in *. assert (H : (n * 1000000000000000 <= (k + 1) * d)%Z) by lia. clear E Mb. clearbody k n.
  apply IZR_le in H. rewrite !mult_IZR in H. apply (IZR_lt 0) in D. apply Rmult_le_reg_r with (IZR d); [exact D|].
  rewrite Rmult_assoc, Rinv_l, Rmult_1_r by lra. lra.
Qed.
Lemma rpow_ge q r n : 0 <= r -> r <= Q2R q -> r ^ n <= Q2R (rpow q n).
Proof.
  intros P H. induction n as [|n IH]; cbn [pow rpow]; [rewrite Q2R_1'; lra|]. eapply Rle_trans; [|apply qup_ge]. rewrite Q2R_mult.
  apply Rmult_le_compat; auto. now apply pow_le.
Qed.
Lemma up2_le x r p : appr x r (Q2R (fst p)) (Q2R (snd p)) -> appr x r (Q2R (fst (up2 p))) (Q2R (snd (up2 p))).
Proof. intros H. eapply appr_le; [exact H| |]; apply qup_ge. Qed.
Lemma qle a b : Qle_bool a b = true -> Q2R a <= Q2R b. Proof. intros H. apply Qle_Rle, Qle_bool_iff, H. Qed.
Lemma ok1_R p : ok1 p = true -> 0 <= Q2R (fst p) <= lim /\ 0 <= Q2R (snd p) <= lim.
Proof.
  unfold ok1. rewrite !andb_true_iff. intros (((A & B) & C) & D). apply qle in A, B, C, D. rewrite Q2R_0' in *. unfold qlim in *. rewrite Q2R_int in *. unfold lim. lra.
Qed.
Lemma lift1_some f o r : lift1 f o = Some r -> exists p, o = Some p /\ ok1 p = true /\ f p = Some r.
Proof. unfold lift1. destruct o as [p|]; [|discriminate]. destruct (ok1 p) eqn:E; [|discriminate]. eauto. Qed.

Theorem bound_ok L t p : accurate_arrays L -> leaves t -> bound t = Some p -> appr (feval L t) (reval t) (Q2R (fst p)) (Q2R (snd p)).
Proof.
  intros G. revert p. induction t as [x r e b|z|n d|s IH|s IHs t IHt|s IHs t IHt|s IHs t IHt|s IH z|s IH|s IH|s IH k]; intros p H E; cbn [bound leaves feval reval] in *.
  - now injection E as <-.
  - destruct (Z.abs z <? 1000000000000)%Z eqn:Q; [|discriminate]. apply Z.ltb_lt in Q. injection E as <-. cbn [fst snd]. rewrite Q2R_0', Q2R_int.
    destruct (of_Z_ok z ltac:(lia)) as (F & V). split; auto. rewrite V, Rminus_eq_0, Rabs_R0, abs_IZR. lra.
  - match type of E with (if ?c then _ else _) = _ => destruct c eqn:Q; [|discriminate] end. rewrite !andb_true_iff, !Z.ltb_lt in Q.
    injection E as <-. cbn [fst snd]. rewrite Q2R_frac by lia. destruct (literal_rnd n d) as (F & V); try lia. split; auto. rewrite V.
    assert (N1 : 1 <= IZR n < 9007199254740992) by (split; [apply (IZR_le 1)|apply IZR_lt]; lia).
    assert (D1 : 1 <= IZR d < 9007199254740992) by (split; [apply (IZR_le 1)|apply IZR_lt]; lia).
    assert (I : / 9007199254740992 <= / IZR d) by (apply Rinv_le_contravar; lra).
    assert (Pq : / 9007199254740992 <= IZR n / IZR d) by (unfold Rdiv; nra).
    pose proof (rnd_err (IZR n / IZR d)) as R. rewrite (Rabs_pos_eq (IZR n / IZR d)) in * by lra. split; [|lra].
    rewrite Rmult_comm. apply R. lra.
  - apply (appr_neg _ _ _ _ (IH _ H E)).
  - destruct H as (Hs & Ht). apply lift1_some in E as (p1 & E1 & O1 & E). apply lift1_some in E as (p2 & E2 & O2 & E). injection E as <-.
    destruct (ok1_R _ O1). destruct (ok1_R _ O2). apply up2_le. cbn [fst snd]. rewrite !Q2R_plus, Q2R_mult, !Q2R_plus, Q2R_qu, Q2R_1'.
    apply x_add; auto.
  - destruct H as (Hs & Ht). apply lift1_some in E as (p1 & E1 & O1 & E). apply lift1_some in E as (p2 & E2 & O2 & E). injection E as <-.
    destruct (ok1_R _ O1). destruct (ok1_R _ O2). apply up2_le. cbn [fst snd]. rewrite !Q2R_plus, Q2R_mult, !Q2R_plus, Q2R_qu, Q2R_1'.
    apply x_sub; auto.
  - destruct H as (Hs & Ht). apply lift1_some in E as (p1 & E1 & O1 & E). apply lift1_some in E as (p2 & E2 & O2 & E). injection E as <-.
    destruct (ok1_R _ O1). destruct (ok1_R _ O2). apply up2_le. unfold qmul_err. cbn [fst snd].
    rewrite ?Q2R_plus, ?Q2R_mult, ?Q2R_plus, ?Q2R_mult, ?Q2R_qu, ?Q2R_qtiny. apply x_mul; auto.
  - destruct ((0 <? z) && (z <? 1000000000000))%Z eqn:Q; [|discriminate]. rewrite andb_true_iff, !Z.ltb_lt in Q.
    apply lift1_some in E as (p1 & E1 & O1 & E). injection E as <-. destruct (ok1_R _ O1). apply up2_le. cbn [fst snd].
    rewrite ?Q2R_plus, ?Q2R_mult, ?Q2R_plus, ?Q2R_mult, ?Q2R_qu, ?Q2R_qtiny, Q2R_frac, Q2R_1' by lia.
    unfold Rdiv. rewrite !Rmult_1_l. apply x_div; auto.
  - apply lift1_some in E as (p1 & E1 & O1 & E). destruct (ok1_R _ O1). match type of E with (if ?c then _ else _) = _ => destruct c eqn:Q; [|discriminate] end.
    apply qle in Q. rewrite Q2R_int in Q. injection E as <-. cbn [fst snd]. rewrite Q2R_plus, Q2R_1'. replace (Q2R 4) with 4 by (unfold Q2R; cbn; lra).
    eapply x_sin; eauto. lra.
  - apply lift1_some in E as (p1 & E1 & O1 & E). destruct (ok1_R _ O1). match type of E with (if ?c then _ else _) = _ => destruct c eqn:Q; [|discriminate] end.
    apply qle in Q. rewrite Q2R_int in Q. injection E as <-. cbn [fst snd]. rewrite Q2R_plus, Q2R_1'. replace (Q2R 4) with 4 by (unfold Q2R; cbn; lra).
    eapply x_cos; eauto. lra.
  - destruct ((1 <=? k) && (k <=? 10))%nat eqn:K; [|discriminate]. rewrite andb_true_iff, !Nat.leb_le in K.
    apply lift1_some in E as (p1 & E1 & O1 & E). destruct (ok1_R _ O1). match type of E with (if ?c then _ else _) = _ => destruct c eqn:Q; [|discriminate] end.
    apply qle in Q. rewrite Q2R_int in Q. injection E as <-. apply up2_le. cbn [fst snd].
    rewrite ?Q2R_plus, ?Q2R_mult, !Q2R_int, Q2R_qtiny, <- INR_IZR_INZ. pose proof (qup_ge (snd p1 + fst p1 * qu)) as M. fold (qm p1) in M.
    rewrite Q2R_plus, Q2R_mult, Q2R_qu in M. pose proof uu_pos as U. assert (M0 : 0 <= Q2R (snd p1) + Q2R (fst p1) * uu) by nra.
    eapply appr_le; [apply (x_pow L G _ _ _ _ _ (IH _ H E1)); auto; lra| |apply rpow_ge; lra].
    pose proof (rpow_ge (qm p1) _ k M0 M) as R1. pose proof (rpow_ge (qm p1) _ (k - 1) M0 M) as R2. pose proof (pos_INR k) as K0.
    apply Rplus_le_compat_r, Rplus_le_compat; [|lra]. apply Rmult_le_compat_r; [lra|]. now apply Rmult_le_compat_l.
Qed.
