(** The altitude loop in floating point ends, with values near the exact ones. *)
From Coq Require Import List ZArith Reals Lra Lia Psatz Bool.
From Flocq Require Import Core.Core IEEE754.BinarySingleNaN IEEE754.Binary IEEE754.Bits.
From Verif Require Import Py Fl_Model Fl_Spec Fl_Proofs Flg_Model Flg_Spec Rot_Model Rot_Spec Geo_Model Geo_Spec Lvlh_Spec Lvlh_Proofs Flg_Proofs Flg_Proofs2 Flg_Proofs3 Geo_Alt Geo_Alt2 Geo_Acc
  Flr_Model Flr_Spec Flv_Model Fly_Model Fly_Spec Fly_Proofs Fly_Proofs2 Fly_Proofs3 Fly_Proofs4 Fly_Proofs5.
Import ListNotations.
Open Scope R_scope.
#[local] Strategy 1000 [fmul fadd fsub fdiv fneg of_Z].

Lemma total_le l b : (forall x, In x l -> value x <= b) -> total l <= b * INR (length l).
Proof.
  induction l as [|x l IH]; intros H; cbn [total fold_right length]; [cbn; lra|]. rewrite S_INR. fold (total l). specialize (IH ltac:(intros; apply H; now right)). specialize (H x ltac:(now left)). lra.
Qed.
Lemma f2_length {X Y} (R1 : X -> Y -> Prop) l k : Forall2 R1 l k -> length l = length k.
Proof. induction 1; cbn [length]; auto. Qed.
Section Loop.
Variable L : arrays.
Variable J : geodesy.
Hypothesis HL : accurate_arrays L.
Hypothesis HJ : accurate_geodesy J.

(** The mean of small changes is small. *)
Lemma mean_below l b m : l <> [] -> (Z.of_nat (length l) <= 2 ^ 40)%Z -> m <= 1000000 -> (forall x, In x l -> finite x /\ Rabs (value x) <= m /\ value x <= b) ->
  finite (g_mean J l) /\ value (g_mean J l) <= b + m / 1024 + / 1000000000000000.
Proof.
  intros NE LE M H. destruct (mean_good J HJ l m NE LE) as (F & E); [lra|intros x I; destruct (H x I) as (A1 & A2 & _); auto|]. split; auto. apply Rabs_le_inv in E.
  assert (M0 : 0 <= m). { destruct l as [|y l]; [congruence|]. destruct (H y ltac:(now left)) as (_ & A & _). pose proof (Rabs_pos (value y)). lra. }
  assert (LI : INR (length l) <= 2 ^ 40). { rewrite INR_IZR_INZ. replace (2 ^ 40) with (IZR (2 ^ 40)) by (rewrite pow_IZR; reflexivity). now apply IZR_le. }
  assert (MI : m * INR (length l) / 2 ^ 52 <= m / 1024). { apply Rle_trans with (m * 2 ^ 40 / 2 ^ 52); [|clear - M0; replace (m * 2 ^ 40 / 2 ^ 52) with (m / 4096) by field; lra]. apply Rmult_le_compat_r; [lra|]. now apply Rmult_le_compat_l. }
  assert (T : total l <= b * INR (length l)) by (apply total_le; intros x I; apply H; auto). assert (N : 0 < INR (length l)) by (apply lt_0_INR; destruct l; [congruence|cbn; lia]).
  assert (T' : total l / INR (length l) <= b). { apply Rmult_le_reg_r with (INR (length l)); auto. unfold Rdiv. rewrite Rmult_assoc, Rinv_l by lra. lra. } lra.
Qed.
Lemma threshold_ok : finite (fmul fmajor_axis ftolerance) /\ 6377 / 1000000000 <= value (fmul fmajor_axis ftolerance).
Proof.
  pose proof uu16 as U. pose proof A_val as VA. assert (RT : rc uu ftolerance (1 / 1000000000)) by (apply rc_lit; try lia; lra).
  assert (R : rc (4 * uu) (fmul fmajor_axis ftolerance) (A * (1 / 1000000000))) by (eapply rc_le; [apply (rc_mul _ _ _ _ _ _ major_rc RT); [apply mid_pos; lra|lra|lra]|lra]).
  split; [apply R|]. pose proof (rc_value _ _ _ R ltac:(lra)) as V. assert (4 * uu * (A * (1 / 1000000000)) <= 1 / 100000 * (A * (1 / 1000000000))) by (apply Rmult_le_compat_r; lra). lra.
Qed.
Lemma tolerance_ok : finite ftolerance /\ 999 / 1000000000000 <= value ftolerance.
Proof.
  pose proof uu16 as U. assert (RT : rc uu ftolerance (1 / 1000000000)) by (apply rc_lit; try lia; lra). split; [apply RT|]. pose proof (rc_value _ _ _ RT ltac:(lra)). lra.
Qed.
Lemma flt_no x y : finite x -> finite y -> value y <= value x -> flt x y = false.
Proof. intros Fx Fy H. apply (bool_iff _ _ (flt_iff x y Fx Fy)). lra. Qed.
(** When the loop stops *)
Lemma stop_when (vs : list vec) (old new : list (float * float)) bh bp : vs <> [] -> (Z.of_nat (length vs) <= 2 ^ 40)%Z -> length old = length vs -> length new = length vs ->
  (forall a b, In (a, b) (combine old new) -> let d := fsub (fst b) (fst a) in finite d /\ Rabs (value d) <= bh /\ value d <= 63 / 10000000 - bh / 1024) ->
  (forall a b, In (a, b) (combine old new) -> let d := fsub (snd b) (snd a) in finite d /\ Rabs (value d) <= bp) -> bh <= 1000 -> bp <= 9 / 10000000000 ->
  fkeep_going J old new = false.
Proof.
  intros NE LE L1 L2 H1 H2 B1 B2. destruct threshold_ok as (FT & VT). destruct tolerance_ok as (Ft & Vt).
  assert (LC : length (combine old new) = length vs) by (rewrite combine_length, L1, L2; apply Nat.min_id).
  assert (CE : combine old new <> []). { intros E. rewrite E in LC. destruct vs; [congruence|discriminate]. }
  assert (MN : forall f : float * float -> float, map (fun x => fsub (f (snd x)) (f (fst x))) (combine old new) <> []) by (intros f E; apply map_eq_nil in E; contradiction).
  assert (ML : forall f : float * float -> float, (Z.of_nat (length (map (fun x => fsub (f (snd x)) (f (fst x))) (combine old new))) <= 2 ^ 40)%Z) by (intros f; rewrite map_length, LC; exact LE).
  destruct (mean_below _ (63 / 10000000 - bh / 1024) bh (MN fst) (ML fst) ltac:(lra)) as (F1 & V1).
  { intros x I. apply in_map_iff in I. destruct I as ((a & b) & <- & I). cbn [fst snd]. destruct (H1 a b I) as (G1 & G2 & G3). auto. }
  destruct (mean_below _ bp bp (MN snd) (ML snd) ltac:(lra)) as (F2 & V2).
  { intros x I. apply in_map_iff in I. destruct I as ((a & b) & <- & I). cbn [fst snd]. destruct (H2 a b I) as (G1 & G2). apply Rabs_le_inv in G2 as G3. split; [exact G1|]. split; [exact G2|lra]. }
  unfold fkeep_going. cbv zeta. rewrite (flt_no _ _ FT F1) by lra. rewrite (flt_no _ _ Ft F2) by lra. reflexivity.
Qed.
Lemma change_ok x y a b e m : finite x -> finite y -> Rabs (value x - a) <= e -> Rabs (value y - b) <= e -> Rabs (a - b) <= m -> 0 <= e <= 1 -> m <= 1000000 ->
  finite (fsub x y) /\ Rabs (value (fsub x y) - (a - b)) <= 2 * e + uu * (m + 2).
Proof.
  intros Fx Fy Ex Ey M HE HM. destruct (ab_sub _ _ _ _ _ _ Fx Fy Ex Ey) as (F & E); [lra|]. split; auto. pose proof uu16. assert (uu * (Rabs (a - b) + e + e) <= uu * (m + 2)) by (apply Rmult_le_compat_l; lra). lra.
Qed.
Lemma forall2_in {X Y Z} (R1 : X -> Y -> Prop) (R2 : X -> Z -> Prop) vs l k a b : Forall2 R1 vs l -> Forall2 R2 vs k -> In (a, b) (combine l k) -> exists v, In v vs /\ R1 v a /\ R2 v b.
Proof.
  intros F. revert k. induction F as [|v a' vs l HA F IH]; intros k G I; inversion G; subst; [contradiction|]. cbn [combine] in I. destruct I as [I|I].
  - injection I as -> ->. exists v. split; [now left|auto].
  - match goal with G2 : Forall2 R2 vs _ |- _ => destruct (IH _ G2 I) as (v' & I' & A1 & A2) end. exists v'. split; [now right|auto].
Qed.
Lemma next_all vs ss k old : Forall2 tracked vs ss -> Forall2 (follows k) vs old -> Forall2 (follows (S k)) vs (fnext L J ss old).
Proof.
  intros T. revert old. induction T as [|v s vs ss HT T IH]; intros old F; inversion F; subst; [constructor|]. cbn [fnext combine map fst snd].
  constructor; [eapply next_follows; eauto|]. apply IH. assumption.
Qed.
Lemma first_all vs ss : Forall2 tracked vs ss -> Forall2 (follows 0) vs (map (ffirst_vals J) ss).
Proof. intros T. induction T; cbn [map]; constructor; auto. now apply first_follows. Qed.
Lemma stop_six vs ss old : vs <> [] -> (Z.of_nat (length vs) <= 2 ^ 40)%Z -> Forall2 tracked vs ss -> Forall2 (follows 6) vs old -> fkeep_going J old (fnext L J ss old) = false.
Proof.
  intros NE LE T F. pose proof (next_all _ _ _ _ T F) as G. pose proof uu16 as U.
  assert (TV : forall v, In v vs -> exists s, tracked v s). { intros v I. clear - T I. induction T; [contradiction|]. destruct I as [<-|I]; eauto. }
  apply (stop_when vs _ _ (4 / 1000000) (2 / 10000000000) NE LE); [symmetry; eapply f2_length; eassumption|symmetry; eapply f2_length; eassumption| | |lra|lra].
  - intros a b I d. destruct (forall2_in _ _ _ _ _ _ _ F G I) as (v & Iv & (Fa & Ea & _) & (Fb & Eb & _)). destruct (TV v Iv) as (s & HF & HR & HZ & _).
    pose proof (hk_step _ _ 5 HF) as HS. pose proof (z_rr (axis_distance v) (vz v)) as ZR. set (x := hk _ _ 7) in *. set (y := hk _ _ 6) in *. clearbody x y.
    assert (D : Rabs (x - y) <= 19 / 10000000). { eapply Rle_trans; [exact HS|]. apply Rle_trans with (112850 * 0.007 ^ 5); [apply Rmult_le_compat_r; lra|lra]. }
    destruct (change_ok _ _ _ _ _ _ Fb Fa Eb Ea D ltac:(lra) ltac:(lra)) as (Fd & Ed). fold d in Fd, Ed. pose proof (err_abs _ _ _ Ed) as Ad. split; auto. split; [lra|]. pose proof (Rle_abs (value d)). lra.
  - intros a b I d. destruct (forall2_in _ _ _ _ _ _ _ F G I) as (v & Iv & (_ & _ & Fa & Ea) & (_ & _ & Fb & Eb)). destruct (TV v Iv) as (s & HF & HR & HZ & _).
    pose proof (mk_step _ _ 6 HF) as MS. pose proof (tau_range _ _ HF HR HZ) as TR. set (t := vz v / axis_distance v) in *. set (m7 := mk _ _ 7) in *. set (m6 := mk _ _ 6) in *. clearbody t m7 m6.
    assert (D : Rabs (atan (t * m7) - atan (t * m6)) <= 13 / 100000000000).
    { eapply Rle_trans; [apply atan_lip|]. replace (t * m7 - t * m6) with (t * (m7 - m6)) by ring. rewrite Rabs_mult. apply Rle_trans with (1000 * 0.007 ^ 6); [apply Rmult_le_compat; auto using Rabs_pos|lra]. }
    destruct (change_ok _ _ _ _ _ _ Fb Fa Eb Ea D ltac:(lra) ltac:(lra)) as (Fd & Ed). fold d in Fd, Ed. pose proof (err_abs _ _ _ Ed) as Ad. split; auto. lra.
Qed.
Lemma loop_ends vs ss n : forall k old, (k + n = 6)%nat -> vs <> [] -> (Z.of_nat (length vs) <= 2 ^ 40)%Z -> Forall2 tracked vs ss -> Forall2 (follows k) vs old ->
  exists steps last, (k + steps <= 6)%nat /\ faltitude_loop L J ss old steps (map fst last) /\ Forall2 (follows (k + steps)) vs last.
Proof.
  induction n as [|n IH]; intros k old KN NE LE T F.
  - exists 0%nat, old. replace k with 6%nat in * by lia. split; [lia|]. split; [|exact F]. constructor. now apply (stop_six vs).
  - destruct (fkeep_going J old (fnext L J ss old)) eqn:E.
    + destruct (IH (S k) (fnext L J ss old) ltac:(lia) NE LE T (next_all _ _ _ _ T F)) as (steps & last & B & R & G). exists (S steps), last. split; [lia|]. split; [now constructor|]. now replace (k + S steps)%nat with (S k + steps)%nat by lia.
    + exists 0%nat, old. split; [lia|]. split; [now constructor|]. now rewrite Nat.add_0_r.
Qed.
Lemma loop_unique ss old n r : faltitude_loop L J ss old n r -> forall m q, faltitude_loop L J ss old m q -> m = n /\ q = r.
Proof.
  induction 1 as [old E|old n r E H IH]; intros m q G; inversion G; subst; try congruence; auto.
  match goal with H2 : faltitude_loop _ _ ss (fnext _ _ _ _) _ _ |- _ => destruct (IH _ _ H2) as (-> & ->) end. auto.
Qed.
(** On the equator the loop stops at once. *)
Lemma stop_equator vs ss old : vs <> [] -> (Z.of_nat (length vs) <= 2 ^ 40)%Z -> Forall2 tracked vs ss -> (forall v, In v vs -> vz v = 0) -> Forall2 (follows 0) vs old ->
  fkeep_going J old (fnext L J ss old) = false.
Proof.
  intros NE LE T EQ F. pose proof (next_all _ _ _ _ T F) as G. pose proof uu16 as U. pose proof A_val as VA. pose proof sqrtAB_num as SN.
  assert (TV : forall v, In v vs -> exists s, tracked v s). { intros v I. clear - T I. induction T; [contradiction|]. destruct I as [<-|I]; eauto. }
  apply (stop_when vs _ _ 11 (2 / 10000000000) NE LE); [symmetry; eapply f2_length; eassumption|symmetry; eapply f2_length; eassumption| | |lra|lra].
  - intros a b I d. destruct (forall2_in _ _ _ _ _ _ _ F G I) as (v & Iv & (Fa & Ea & _) & (Fb & Eb & _)). destruct (TV v Iv) as (s & HF & HR & HZ & _). cbn [hk] in Ea, Eb. rewrite (EQ v Iv) in *.
    set (p := axis_distance v) in *. destruct HF as (P0 & _). assert (RR : rr p 0 = p) by (unfold rr; replace (p * p + 0 * 0) with (p * p) by ring; apply sqrt_square; lra).
    assert (H1 : forall m, h_ p 0 m = p - A). { intros m. unfold h_, Q_, S_. replace (p * p + 0 * m * (0 * m)) with (p * p) by ring. replace (p * p + kap * (0 * m * (0 * m))) with (p * p) by ring. rewrite sqrt_square by lra. field. lra. }
    rewrite H1 in Eb. unfold h0 in Ea. rewrite RR in Ea.
    destruct (change_ok _ _ _ _ _ 10.71 Fb Fa Eb Ea) as (Fd & Ed); [apply Rabs_le; lra|lra|lra|]. fold d in Fd, Ed. split; auto. apply Rabs_le_inv in Ed. split; [apply Rabs_le|]; lra.
  - intros a b I d. destruct (forall2_in _ _ _ _ _ _ _ F G I) as (v & Iv & (_ & _ & Fa & Ea) & (_ & _ & Fb & Eb)). rewrite (EQ v Iv) in *. set (p := axis_distance v) in *.
    replace (0 / p * mk p 0 0) with 0 in Ea by (unfold Rdiv; ring). replace (0 / p * mk p 0 1) with 0 in Eb by (unfold Rdiv; ring).
    destruct (change_ok _ _ _ _ _ 0 Fb Fa Eb Ea) as (Fd & Ed); [replace (atan 0 - atan 0) with 0 by ring; rewrite Rabs_R0; lra|lra|lra|]. fold d in Fd, Ed. split; auto. replace (atan 0 - atan 0) with 0 in Ed by ring. rewrite Rminus_0_r in Ed. lra.
Qed.
(** What the test of the loop compares *)
Definition height_change (k : nat) (v : vec) : R := hk (axis_distance v) (vz v) (S k) - hk (axis_distance v) (vz v) k.
Definition angle_at (k : nat) (v : vec) : R := atan (vz v / axis_distance v * mk (axis_distance v) (vz v) k).
Definition angle_change (k : nat) (v : vec) : R := angle_at (S k) v - angle_at k v.
Lemma average_near l es e : Forall2 (fun d x => Rabs (value d - x) <= e) l es -> Rabs (total l - fold_right Rplus 0 es) <= e * INR (length l).
Proof.
  induction 1 as [|d x l es H F IH]; cbn [total fold_right length]; [cbn; rewrite Rminus_0_r, Rabs_R0; lra|]. rewrite S_INR. fold (total l).
  replace (value d + total l - (x + fold_right Rplus 0 es)) with ((value d - x) + (total l - fold_right Rplus 0 es)) by ring. eapply Rle_trans; [apply Rabs_triang|]. lra.
Qed.
Lemma mean_near l es e m : l <> [] -> (Z.of_nat (length l) <= 2 ^ 16)%Z -> m <= 1000000 -> Forall2 (fun d x => finite d /\ Rabs (value d) <= m /\ Rabs (value d - x) <= e) l es ->
  finite (g_mean J l) /\ Rabs (value (g_mean J l) - average es) <= e + m / 2 ^ 36 + / 1000000000000000.
Proof.
  intros NE LE M H. assert (HI : forall x, In x l -> finite x /\ Rabs (value x) <= m). { intros x I. clear - H I. induction H as [|d y l es (A1 & A2 & _) H IH]; [contradiction|]. destruct I as [<-|I]; auto. }
  destruct (mean_good J HJ l m NE ltac:(lia) ltac:(lra) HI) as (F & E). split; auto. assert (LL : length l = length es) by (eapply f2_length; exact H).
  assert (N : 0 < INR (length l)) by (apply lt_0_INR; destruct l; [congruence|cbn; lia]).
  assert (A : Rabs (total l - fold_right Rplus 0 es) <= e * INR (length l)). { apply average_near. clear - H. induction H as [|a b l es (_ & _ & G) H IH]; constructor; auto. }
  assert (D : Rabs (total l / INR (length l) - average es) <= e).
  { unfold average. rewrite <- LL. replace (total l / INR (length l) - fold_right Rplus 0 es / INR (length l)) with ((total l - fold_right Rplus 0 es) * / INR (length l)) by (field; lra). rewrite Rabs_mult, Rabs_inv, (Rabs_pos_eq (INR _)) by lra.
    apply Rmult_le_reg_r with (INR (length l)); auto. rewrite Rmult_assoc, Rinv_l by lra. lra. }
  assert (M0 : 0 <= m). { destruct l as [|y l]; [congruence|]. destruct (HI y ltac:(now left)) as (_ & A2). pose proof (Rabs_pos (value y)). lra. }
  assert (LI : INR (length l) <= 2 ^ 16). { rewrite INR_IZR_INZ. replace (2 ^ 16) with (IZR (2 ^ 16)) by (rewrite pow_IZR; reflexivity). now apply IZR_le. }
  assert (MI : m * INR (length l) / 2 ^ 52 <= m / 2 ^ 36). { apply Rle_trans with (m * 2 ^ 16 / 2 ^ 52); [|clear - M0; replace (m * 2 ^ 16 / 2 ^ 52) with (m / 2 ^ 36) by field; lra]. apply Rmult_le_compat_r; [lra|]. now apply Rmult_le_compat_l. }
  pose proof (err_trans _ _ _ _ _ E D). lra.
Qed.
Lemma change_bound p z k : far p z -> rr p z <= 100000 -> Rabs z <= 1000 * p -> Rabs (hk p z (S k) - hk p z k) <= 1200.
Proof.
  intros HF HR HZ. pose proof A_val as VA. pose proof sqrtAB_num as SN. assert (RB : 6356 <= rr p z) by (destruct HF; pose proof B_val; lra).
  assert (G : forall j, rr p z - 6450 <= hk p z j <= rr p z + 1000 - 6335).
  { intros [|j]; cbn [hk]; [unfold h0; lra|]. pose proof (mk_range p z j HF) as MR. destruct (exact_parts p z HF HR HZ _ MR) as (_ & _ & S1 & SQ & _). set (m := mk p z j) in *. unfold h_.
    assert (QL : Rabs (Q_ p z m - Q_ p z 1) <= 0.01 * rr p z). { eapply Rle_trans; [apply Q_lip|]. rewrite Rmult_comm. apply Rmult_le_compat; try apply Rabs_pos; [rewrite Rabs_pos_eq; lra|apply z_rr]. }
    assert (Q1 : Q_ p z 1 = rr p z) by (unfold Q_, rr; f_equal; ring). rewrite Q1 in QL. apply Rabs_le_inv in QL.
    assert (QM : rr p z <= Q_ p z m). { rewrite <- Q1. unfold Q_. apply sqrt_le_1_alt. apply Rplus_le_compat_l. replace (z * m * (z * m)) with (z * z * (m * m)) by ring. replace (z * 1 * (z * 1)) with (z * z * 1) by ring. apply Rmult_le_compat_l; [apply sq0|nra]. }
    set (Q := Q_ p z m) in *. set (S := S_ p z m) in *. assert (N : 6335 <= A * Q / S <= 6450).
    { assert (EN : A * Q / S * S = A * Q) by (field; lra). rewrite VA in *. split; apply Rmult_le_reg_r with S; try lra. }
    lra. }
  pose proof (G k). pose proof (G (S k)). apply Rabs_le. lra.
Qed.
Lemma test_means vs ss old k : vs <> [] -> (Z.of_nat (length vs) <= 2 ^ 16)%Z -> Forall2 tracked vs ss -> Forall2 (follows k) vs old -> let new := fnext L J ss old in
  let change f := g_mean J (map (fun x => fsub (f (snd x)) (f (fst x))) (combine old new)) in
  (finite (change fst) /\ Rabs (value (change fst) - average (map (height_change k) vs)) <= 23 / 10000000) /\
  (finite (change snd) /\ Rabs (value (change snd) - average (map (angle_change k) vs)) <= 8 / 100000000000).
Proof.
  intros NE LE T F new change. pose proof uu16 as U. pose proof (next_all _ _ _ _ T F) as G. fold new in G.
  assert (X : Forall2 (fun d x => finite d /\ Rabs (value d) <= 1300 /\ Rabs (value d - x) <= 21 / 10000000) (map (fun x => fsub (fst (snd x)) (fst (fst x))) (combine old new)) (map (height_change k) vs) /\
              Forall2 (fun d x => finite d /\ Rabs (value d) <= 5 /\ Rabs (value d - x) <= 2 / 100000000000000) (map (fun x => fsub (snd (snd x)) (snd (fst x))) (combine old new)) (map (angle_change k) vs)).
  { clearbody new. clear NE LE change. revert old new F G. induction T as [|v s vs ss HT T IH]; intros old new F G; inversion F as [|v1 a vs1 old1 HA F1]; subst; inversion G as [|v2 b vs2 new2 HB G2]; subst; [split; constructor|].
    destruct (IH _ _ F1 G2) as (I1 & I2). destruct HA as (Fa & Ea & Fa' & Ea'). destruct HB as (Fb & Eb & Fb' & Eb'). destruct HT as (HF & HR & HZ & _). cbn [combine map fst snd]. split; constructor; auto.
    - pose proof (change_bound _ _ k HF HR HZ) as CB. destruct (change_ok _ _ _ _ _ _ Fb Fa Eb Ea CB ltac:(lra) ltac:(lra)) as (Fd & Ed). fold (height_change k v) in CB, Ed. pose proof (err_abs _ _ _ Ed). split; [exact Fd|]. split; lra.
    - assert (CB : Rabs (angle_change k v) <= 4). { unfold angle_change, angle_at. pose proof (atan_bound (vz v / axis_distance v * mk (axis_distance v) (vz v) (S k))). pose proof (atan_bound (vz v / axis_distance v * mk (axis_distance v) (vz v) k)). pose proof PI_4. apply Rabs_le. lra. }
      destruct (change_ok _ _ _ _ _ _ Fb' Fa' Eb' Ea' CB ltac:(lra) ltac:(lra)) as (Fd & Ed). fold (angle_at (S k) v) (angle_at k v) in Ed. fold (angle_change k v) in Ed. pose proof (err_abs _ _ _ Ed). split; [exact Fd|]. split; lra. }
  destruct X as (X1 & X2). assert (LN : length old = length vs /\ length new = length vs) by (split; symmetry; eapply f2_length; eassumption). destruct LN as (LO & LN).
  assert (LC : length (combine old new) = length vs) by (rewrite combine_length, LO, LN; apply Nat.min_id). assert (CE : combine old new <> []). { intros E. rewrite E in LC. destruct vs; [congruence|discriminate]. }
  split.
  - destruct (mean_near _ _ (21 / 10000000) 1300 ltac:(intros E; apply map_eq_nil in E; exact (CE E)) ltac:(rewrite map_length, LC; exact LE) ltac:(lra) X1) as (F1 & E1). split; [exact F1|]. unfold change. lra.
  - destruct (mean_near _ _ (2 / 100000000000000) 5 ltac:(intros E; apply map_eq_nil in E; exact (CE E)) ltac:(rewrite map_length, LC; exact LE) ltac:(lra) X2) as (F1 & E1). split; [exact F1|]. unfold change. lra.
Qed.
Definition settled (k : nat) (vs : list vec) : Prop := average (map (height_change k) vs) <= 9 / 1000000 /\ average (map (angle_change k) vs) <= 11 / 10000000000.
Definition moving (k : nat) (vs : list vec) : Prop := 4 / 1000000 <= average (map (height_change k) vs) \/ 9 / 10000000000 <= average (map (angle_change k) vs).
Lemma threshold_above : value (fmul fmajor_axis ftolerance) <= 6379 / 1000000000 /\ value ftolerance <= 1001 / 1000000000000.
Proof.
  pose proof uu16 as U. pose proof A_val as VA. assert (RT : rc uu ftolerance (1 / 1000000000)) by (apply rc_lit; try lia; lra). split; [|pose proof (rc_value _ _ _ RT ltac:(lra)); lra].
  assert (R : rc (4 * uu) (fmul fmajor_axis ftolerance) (A * (1 / 1000000000))) by (eapply rc_le; [apply (rc_mul _ _ _ _ _ _ major_rc RT); [apply mid_pos; lra|lra|lra]|lra]).
  pose proof (rc_value _ _ _ R ltac:(lra)) as V. assert (4 * uu * (A * (1 / 1000000000)) <= 1 / 100000 * (A * (1 / 1000000000))) by (apply Rmult_le_compat_r; lra). lra.
Qed.
Lemma loop_trace vs ss old n r : faltitude_loop L J ss old n r -> vs <> [] -> (Z.of_nat (length vs) <= 2 ^ 16)%Z -> Forall2 tracked vs ss -> forall k, Forall2 (follows k) vs old ->
  settled (k + n) vs /\ forall j, (j < n)%nat -> moving (k + j) vs.
Proof.
  intros R NE LE T. destruct threshold_ok as (FT & VT). destruct tolerance_ok as (Ft & Vt). destruct threshold_above as (VT2 & Vt2).
  induction R as [old E|old n r E R IH]; intros k F; destruct (test_means vs ss old k NE LE T F) as ((F1 & E1) & (F2 & E2)); unfold fkeep_going in E; cbv zeta in E; apply Rabs_le_inv in E1; apply Rabs_le_inv in E2.
  - split; [|intros; lia]. rewrite Nat.add_0_r. apply orb_false_iff in E. destruct E as (C1 & C2). apply (bool_iff _ _ (flt_iff _ _ FT F1)) in C1. apply (bool_iff _ _ (flt_iff _ _ Ft F2)) in C2. split; lra.
  - destruct (IH (S k) (next_all _ _ _ _ T F)) as (I1 & I2). split; [now replace (k + S n)%nat with (S k + n)%nat by lia|]. intros [|j] HJ'; [|replace (k + S j)%nat with (S k + j)%nat by lia; apply I2; lia]. rewrite Nat.add_0_r.
    apply orb_true_iff in E. destruct E as [C|C]; [left; apply (flt_iff _ _ FT F1) in C|right; apply (flt_iff _ _ Ft F2) in C]; lra.
Qed.
End Loop.
