(** Theorems on printed angles and locations in floating point: C163, C164. *)
From Coq Require Import String Ascii List ZArith NArith Reals Lra Lia Psatz Bool.
From Flocq Require Import Core.Core IEEE754.BinarySingleNaN IEEE754.Binary IEEE754.Bits.
From Verif Require Import Py Num Time_Model Text_Model Text_Spec Text_Num Text_Proofs Text_Props Text_Props2 Save_Props Fl_Model Fl_Spec Fl_Proofs Fl_Props Flg_Model Flg_Spec Flg_Num Flg_Proofs2 Flg_Cases Flx_Model Flx_Spec Flx_Proofs.
Import ListNotations.
Open Scope list_scope.
Open Scope R_scope.
#[local] Strategy 1000 [fmul fadd fsub fdiv fneg of_Z].

(** ** The text *)
Lemma str_pos z : (0 <= z)%Z -> str_Z z = str_N (Z.to_N z).
Proof. destruct z; try reflexivity. lia. Qed.
Lemma parts d m sec : (0 <= d < 1000)%Z -> (0 <= m < 60)%Z -> 0 <= sec < 60 ->
  sexagesimal (firstn 3 (zfill 2 (str_Z d)) ++ [176%N] ++ firstn 2 (zfill 2 (str_Z m)) ++ [8242%N] ++ zfill 5 (fixed_abs 2 sec) ++ [8243%N]) (Z.to_N d) (Z.to_N m) (scaled 2 sec) /\ (scaled 2 sec <= 6000)%N.
Proof.
  intros DB MB S. rewrite (str_pos d), (str_pos m) by lia. assert (DN : (Z.to_N d < 1000)%N) by lia. assert (MN : (Z.to_N m < 60)%N) by lia. set (d' := Z.to_N d) in *. clearbody d'. set (m' := Z.to_N m) in *. clearbody m'.
  assert (K : (scaled 2 sec <= 6000)%N).
  { pose proof (scaled_mono 2 sec 60 ltac:(lra)) as H. replace (scaled 2 60) with 6000%N in H; auto. unfold scaled. replace (60 * 10 ^ 2) with (IZR 6000) by (cbn; lra). now rewrite half_even_IZR. }
  split; [|exact K].
  destruct (fixed_abs_parts 2 sec ltac:(lia)) as (ss & hs & E & SS & HS & LS). set (k := scaled 2 sec) in *. clearbody k.
  change (10 ^ N.of_nat 2)%N with 100%N in *.
  assert (L2 : (length ss <= 2)%nat). { rewrite LS. apply str_N_length_le; [lia|]. change (10 ^ N.of_nat 2)%N with 100%N. assert (k / 100 <= 60)%N by (apply (N.div_le_mono k 6000 100); lia). lia. }
  exists (firstn 3 (zfill 2 (str_N d'))), (firstn 2 (zfill 2 (str_N m'))), (repeat 48%N (2 - length ss) ++ ss), hs, (k / 100)%N, (k mod 100)%N.
  split; [|split; [|split; [|split; [|split]]]].
  - rewrite E. f_equal. f_equal. f_equal. f_equal. unfold zfill. rewrite <- !app_assoc. f_equal. f_equal.
    rewrite !app_length. destruct HS as (_ & _ & HS). rewrite HS. cbn [lit length map list_ascii_of_string]. lia.
  - destruct (N.lt_ge_cases d' 100) as [L|L].
    + left. pose proof (zfill_ok 2 d' ltac:(lia) L) as F. rewrite firstn_all2; [exact F|]. destruct F as (_ & _ & ->). lia.
    + right. unfold zfill. destruct (str_N_ok d') as ((D & V & _) & U & _). assert (L3 : (length (str_N d') = 3)%nat).
      { apply Nat.le_antisymm; [apply str_N_length_le; [lia|exact DN]|]. destruct (Nat.le_gt_cases 3 (length (str_N d'))) as [|G]; auto.
        assert (10 ^ N.of_nat (length (str_N d')) <= 10 ^ 2)%N by (apply N.pow_le_mono_r; lia). change (10 ^ 2)%N with 100%N in *. lia. }
      rewrite L3. cbn [repeat Nat.sub app]. rewrite firstn_all2 by lia. repeat split; auto.
  - pose proof (zfill_ok 2 m' ltac:(lia)) as F. change (10 ^ N.of_nat 2)%N with 100%N in F. specialize (F ltac:(lia)). rewrite firstn_all2; [exact F|]. destruct F as (_ & _ & ->). lia.
  - now apply pad_whole.
  - exact HS.
  - apply N.div_mod. lia.
Qed.
Lemma ffixed_pos n x : finite x -> 0 <= value x -> Bsign 53 1024 x = false -> ffixed n x = fixed_abs n (value x).
Proof.
  intros F P S. unfold value in *. destruct x as [s|s|s pl H|s m e B]; cbn in F; try discriminate; unfold ffixed; rewrite S; cbn [app]; now rewrite Rabs_pos_eq.
Qed.
Lemma ffixed_reads n x : (1 <= n)%nat -> finite x -> exists y, decimal n (ffixed n x) y /\ Rabs (value x - y) <= / (2 * 10 ^ n).
Proof.
  intros K F. pose proof (scaled_near n (Rabs (value x)) (Rabs_pos _)) as N. destruct (fixed_abs_parts n (Rabs (value x)) K) as (w & p & E & W & P & _).
  assert (E' : ffixed n x = (if Bsign 53 1024 x then lit "-" else []) ++ fixed_abs n (Rabs (value x))) by (destruct x; cbn in F; try discriminate; reflexivity).
  set (k := scaled n (Rabs (value x))) in *. exists ((if Bsign 53 1024 x then -1 else 1) * (IZR (Z.of_N k) / 10 ^ n)). split.
  - exists (Bsign 53 1024 x), w, p, (k / 10 ^ N.of_nat n)%N, (k mod 10 ^ N.of_nat n)%N. rewrite E', E. split; [reflexivity|]. split; [auto|]. split; [auto|]. unfold k. now rewrite whole_and_part.
  - assert (V : value x = (if Bsign 53 1024 x then -1 else 1) * Rabs (value x)).
    { destruct x as [s|s|s pl H|s m e B]; cbn in F; try discriminate; unfold value; cbn [B2R Bsign]; [rewrite Rabs_R0; destruct s; ring|].
      destruct s; cbn [cond_Zopp Z.opp]; [rewrite Rabs_left by (apply F2R_lt_0; reflexivity); ring|rewrite Rabs_pos_eq by (apply F2R_ge_0; cbn; lia); ring]. }
    rewrite V at 1. rewrite <- Rmult_minus_distr_l, Rabs_mult. replace (Rabs (if Bsign 53 1024 x then -1 else 1)) with 1; [rewrite Rmult_1_l; exact N|]. destruct (Bsign 53 1024 x); [rewrite Rabs_left; lra|rewrite Rabs_pos_eq; lra].
Qed.
Lemma nearly_sixty sec : 60 - 1 / 1000 <= sec < 60 -> scaled 2 sec = 6000%N.
Proof.
  intros H. unfold scaled. replace (half_even (sec * 10 ^ 2)) with 6000%Z; [reflexivity|]. symmetry. apply half_even_unique. apply Rabs_def1; cbn; lra.
Qed.
Lemma small_error t : 0 <= t <= 3600000 -> Rabs (rnd t - t) <= / 2 * (1 / 10 ^ 9).
Proof.
  intros T. eapply Rle_trans; [apply rnd_mul_err|]. rewrite Rabs_pos_eq by lra. assert (E4 : ee <= / 10 ^ 20). { unfold ee. eapply Rle_trans; [apply (bpow_le radix2 _ (-100)); lia|]. cbn. lra. }
  assert (U : uu * t <= uu * 3600000) by (apply Rmult_le_compat_l; [apply Rlt_le, uu_pos|lra]). assert (uu * 3600000 <= 4 / 10 ^ 10) by (rewrite uu_value; lra). lra.
Qed.

Definition angle_text (d m : Z) (sec : R) : text :=
  firstn 3 (zfill 2 (str_Z d)) ++ [176%N] ++ firstn 2 (zfill 2 (str_Z m)) ++ [8242%N] ++ zfill 5 (fixed_abs 2 sec) ++ [8243%N].
Lemma string_form x : finite x -> 0 <= value x < 1000 ->
  let Y := rnd (value x * 60) in let S := rnd (value x * 3600) in
  0 <= Y /\ 0 <= S /\
  fsexagesimal_string x = Ok (angle_text (Zfloor (value x)) (Zfloor (Y - 60 * IZR (Zfloor (Y / 60)))) (S - 60 * IZR (Zfloor (S / 60)))).
Proof.
  intros F B. cbv zeta. set (a := value x) in *.
  destruct (of_Z_ok 60 ltac:(lia)) as (F6 & V6). destruct (of_Z_ok 3600 ltac:(lia)) as (F36 & V36).
  destruct (fmul_ok x (of_Z 60) F F6) as (Fm & Vm). { rewrite V6. apply small_abs, Rabs_le. fold a. lra. } destruct (fmul_ok x (of_Z 3600) F F36) as (Fs & Vs). { rewrite V36. apply small_abs, Rabs_le. fold a. lra. } rewrite V6 in Vm. rewrite V36 in Vs. fold a in Vm, Vs.
  assert (F0 : fmt 0) by (replace 0 with (IZR 0 * bpow radix2 0) by (cbn; ring); apply fmt_int; lia).
  set (Y := rnd (a * 60)) in *. set (S := rnd (a * 3600)) in *. assert (Y0 : 0 <= Y) by (apply rnd_ge; [exact F0|lra]). assert (S0 : 0 <= S) by (apply rnd_ge; [exact F0|lra]).
  split; [exact Y0|]. split; [exact S0|].
  destruct (fremainder_ok _ 60 Fm ltac:(rewrite Vm; exact Y0) ltac:(lia)) as (Fr & Vr & _). destruct (fremainder_ok _ 60 Fs ltac:(rewrite Vs; exact S0) ltac:(lia)) as (Ft & Vt & St). rewrite Vm in Vr. rewrite Vs in Vt.
  assert (RB : forall z, 0 <= z - 60 * IZR (Zfloor (z / 60))). { intros z. pose proof (Zfloor_lb (z / 60)). lra. }
  unfold fsexagesimal_string. rewrite (fint_ok x F ltac:(fold a; lra)). fold a. rewrite (fint_ok _ Fr ltac:(rewrite Vr; apply RB)). rewrite Vr. cbn [bind]. rewrite (ffixed_pos 2 _ Ft ltac:(rewrite Vt; apply RB) St), Vt. reflexivity.
Qed.

Lemma smaller_error t : 0 <= t <= 60000 -> Rabs (rnd t - t) <= 1 / 10 ^ 11.
Proof.
  intros T. eapply Rle_trans; [apply rnd_mul_err|]. rewrite Rabs_pos_eq by lra. assert (E4 : ee <= / 10 ^ 20). { unfold ee. eapply Rle_trans; [apply (bpow_le radix2 _ (-100)); lia|]. cbn. lra. }
  assert (U : uu * t <= uu * 60000) by (apply Rmult_le_compat_l; [apply Rlt_le, uu_pos|lra]). assert (uu * 60000 <= 7 / 10 ^ 12) by (rewrite uu_value; lra). lra.
Qed.

(** ** C163 *)
Theorem C163_sexagesimal_partial :
  forall x, finite x -> 0 <= value x < 1000 ->
    exists s d m h, fsexagesimal_string x = Ok s /\ sexagesimal s d m h /\ (m < 60)%N /\ (h <= 6000)%N /\
      let angle := value x * 3600 in
      (Rabs (arcseconds d m h - angle) <= 1 / 200 + 1 / 10 ^ 9 \/
       (h = 6000%N /\ 0 < arcseconds d m h - (angle + 60) <= 1 / 10 ^ 9)).
Proof.
  intros x F B. pose proof (value_fmt x) as FM. set (a := value x) in *.
  destruct (string_form x F B) as (Y0 & S0 & STR). cbv zeta in STR. fold a in Y0, S0, STR.
  assert (FZ : forall z, (0 <= z <= 9007199254740992)%Z -> fmt (IZR z)) by (intros z Hz; replace (IZR z) with (IZR z * bpow radix2 0) by (cbn; ring); apply fmt_int; lia).
  set (Y := rnd (a * 60)) in *. set (S := rnd (a * 3600)) in *.
  pose proof (smaller_error (a * 60) ltac:(lra)) as EY. fold Y in EY. pose proof (small_error (a * 3600) ltac:(lra)) as ES. fold S in ES. apply Rabs_le_inv in EY, ES.
  set (D := Zfloor a). assert (DB : IZR D <= a < IZR D + 1) by (split; [apply Zfloor_lb|apply Zfloor_ub]).
  assert (DZ : (0 <= D < 1000)%Z). { split; [apply Zfloor_lub; lra|]. apply lt_IZR. lra. }
  set (Mi := Zfloor Y). assert (MB : IZR Mi <= Y < IZR Mi + 1) by (split; [apply Zfloor_lb|apply Zfloor_ub]).
  assert (M1 : (60 * D <= Mi)%Z). { apply Zfloor_lub. rewrite mult_IZR. unfold Y. apply rnd_ge; [|lra]. rewrite <- mult_IZR. apply FZ. lia. }
  assert (M2 : Y < 60 * (IZR D + 1)).
  { destruct (Rlt_le_dec a (/ 64)) as [L|L]. - assert (0 <= IZR D) by (apply IZR_le; lia). lra. - pose proof (below_stays a (D + 1) 60 FM ltac:(lra)) as H. rewrite plus_IZR in H. specialize (H ltac:(lra) ltac:(lra)). fold Y in H. lra. }
  assert (M3 : (Mi < 60 * D + 60)%Z). { apply lt_IZR. rewrite plus_IZR, mult_IZR. lra. }
  set (Q := Zfloor (S / 60)). assert (QB : IZR Q * 60 <= S < (IZR Q + 1) * 60). { pose proof (Zfloor_lb (S / 60)). pose proof (Zfloor_ub (S / 60)). fold Q in H, H0. lra. }
  assert (Q1 : (Q <= Mi)%Z).
  { destruct (Z.le_gt_cases Q 0) as [N|N]; [lia|]. apply Zfloor_lub. apply minutes_follow; try lra; [exact FM|lia|]. rewrite mult_IZR. fold S. lra. }
  assert (Q2 : (Mi - 1 <= Q)%Z). { assert (H : IZR Mi < IZR (Q + 2)) by (rewrite plus_IZR; lra). apply lt_IZR in H. lia. }
  set (sec := S - 60 * IZR Q). assert (SB : 0 <= sec < 60) by (unfold sec; lra).
  assert (ED : Zfloor (Y / 60) = D). { apply Zfloor_unique. split; [apply Rmult_le_reg_r with 60; [lra|]; apply IZR_le in M1; rewrite mult_IZR in M1; lra|lra]. }
  assert (EM : Zfloor (Y - 60 * IZR D) = (Mi - 60 * D)%Z) by (apply Zfloor_unique; rewrite minus_IZR, mult_IZR; lra).
  destruct (parts D (Mi - 60 * D) sec DZ ltac:(lia) SB) as (P & HB).
  eexists _, (Z.to_N D), (Z.to_N (Mi - 60 * D)), (scaled 2 sec). split; [|split; [exact P|split; [lia|split; [exact HB|]]]].
  - rewrite STR, ED, EM. reflexivity.
  - cbv zeta. unfold arcseconds. rewrite !Z2N.id by lia. rewrite minus_IZR, mult_IZR. pose proof (scaled_near 2 sec (proj1 SB)) as NR. replace (/ (2 * 10 ^ 2)) with (1 / 200) in NR by (cbn; lra). replace (10 ^ 2) with 100 in NR by (cbn; lra).
    assert (CQ : Q = Mi \/ Q = (Mi - 1)%Z) by lia. destruct CQ as [E|E].
    + left. apply Rabs_le_inv in NR. assert (sec = S - 60 * IZR Mi) by (unfold sec; now rewrite E). apply Rabs_le. lra.
    + right. assert (E' : sec = S - 60 * IZR Mi + 60) by (unfold sec; rewrite E, minus_IZR; ring). rewrite (nearly_sixty sec) by lra. split; [reflexivity|]. change (IZR (Z.of_N 6000)) with 6000.
      assert (LT : a * 3600 < 60 * IZR Mi). { apply Rnot_le_lt. intros G. assert (IZR (60 * Mi) <= S). { apply rnd_ge; [|rewrite mult_IZR; exact G]. apply FZ. lia. } rewrite mult_IZR in H. lra. } lra.
Qed.

(** Full statement: the first alternative always.  4.35 degrees are 4 degrees and 21 minutes and are
    printed as 4 degrees, 21 minutes and 60.00 seconds. *)
Definition some_angle : float := literal 435 100.
Lemma rnd_at t k n : (-1021 <= k)%Z -> bpow radix2 (k - 1) <= t < bpow radix2 k -> Rabs (t - IZR n * bpow radix2 (k - 53)) < / 2 * bpow radix2 (k - 53) -> rnd t = IZR n * bpow radix2 (k - 53).
Proof.
  intros K B H. unfold rnd, round, F2R, scaled_mantissa. rewrite (cexp_at t k K B). cbn [Fnum Fexp]. f_equal. f_equal. apply Znearest_imp. rewrite bpow_opp. pose proof (bpow_gt_0 radix2 (k - 53)) as P. set (p := bpow radix2 (k - 53)) in *. clearbody p.
  replace (t * / p - IZR n) with ((t - IZR n * p) * / p) by (field; lra). rewrite Rabs_mult, (Rabs_pos_eq (/ p)) by (apply Rlt_le, Rinv_0_lt_compat; lra). apply Rmult_lt_reg_r with p; [lra|]. rewrite Rmult_assoc, Rinv_l by lra. lra.
Qed.
Lemma some_angle_value : finite some_angle /\ value some_angle = 4897664594765414 / 1125899906842624.
Proof.
  destruct (of_Z_ok 435 ltac:(lia)) as (F1 & V1). destruct (of_Z_ok 100 ltac:(lia)) as (F2 & V2). destruct (fdiv_ok (of_Z 435) (of_Z 100) F1 ltac:(rewrite V2; lra)) as (F & V). { rewrite V1, V2. apply small_abs, Rabs_le. lra. }
  split; [exact F|]. unfold some_angle, literal. rewrite V, V1, V2. rewrite (rnd_at _ 3 4897664594765414); [cbn; lra|lia|cbn; lra|]. apply Rabs_def1; cbn; lra.
Qed.
Theorem C163_sexagesimal_refuted :
  Rabs (value some_angle - 4.35) <= 1 / 10 ^ 15 /\
  fsexagesimal_string some_angle = Ok (lit "04" ++ [176%N] ++ lit "21" ++ [8242%N] ++ lit "60.00" ++ [8243%N]) /\
  59 <= arcseconds 4 21 6000 - value some_angle * 3600.
Proof.
  destruct some_angle_value as (F & V). split; [rewrite V; apply Rabs_le; lra|]. split.
  2:{ rewrite V. unfold arcseconds. cbn [Z.of_N]. lra. }
  destruct (string_form some_angle F ltac:(rewrite V; lra)) as (_ & _ & ->). rewrite V.
  assert (Y : rnd (4897664594765414 / 1125899906842624 * 60) = 261). { rewrite (rnd_at _ 9 4591560557592576); [cbn; lra|lia|cbn; lra|]. apply Rabs_def1; cbn; lra. }
  assert (S : rnd (4897664594765414 / 1125899906842624 * 3600) = 8609176045486079 / 549755813888). { rewrite (rnd_at _ 14 8609176045486079); [cbn; lra|lia|cbn; lra|]. apply Rabs_def1; cbn; lra. }
  rewrite Y, S. rewrite (Zfloor_unique _ 4), (Zfloor_unique (261 / 60) 4), (Zfloor_unique (_ - 60 * 4) 21), (Zfloor_unique (_ / 60) 260) by lra.
  unfold angle_text, fixed_abs. replace (half_even _) with 6000%Z; [vm_compute; reflexivity|]. symmetry. apply half_even_unique. apply Rabs_def1; cbn; lra.
Qed.
Example C163_case : finite some_angle /\ 0 <= value some_angle < 1000.
Proof. destruct some_angle_value as (F & V). split; [exact F|]. rewrite V. lra. Qed.

(** ** C164: printed locations *)
Lemma angle_string_ok x unit (p n : string) : moderate x -> measures unit = Angles -> Rabs (value x * size unit) <= 180 ->
  exists s y d, fconvert x unit Udeg = Ok d /\ fsexagesimal_string (fabs d) = Ok s /\ angle_reads (s ++ (if fle (of_Z 0) x then lit p else lit n)) p n y /\
    let angle := value x * size unit * 3600 in (reads_right angle y \/ (a_minute_too_far angle y /\ almost_whole_minutes angle)).
Proof.
  intros Mx K B. pose proof (C108_conversion_accurate x unit Udeg Mx) as C. destruct (fconvert x unit Udeg) as [d|e]; [|destruct C as (_ & C); exfalso; apply C; rewrite K; reflexivity].
  destruct C as (_ & Fd & Ed). unfold physical in Ed. cbn [size] in Ed. rewrite Rmult_1_r in Ed. set (t := value x * size unit) in *.
  assert (T : Rabs t / 2 ^ 50 <= Rabs t * (1 / 10 ^ 15)) by (unfold Rdiv; apply Rmult_le_compat_l; [apply Rabs_pos|lra]). destruct (fabs_ok d Fd) as (Fa & Va).
  assert (SG : 0 <= value x <-> 0 <= t) by (unfold t; destruct unit; try discriminate K; cbn [size]; split; intros; lra).
  assert (AB : Rabs (Rabs (value d) - Rabs t) <= Rabs t * (1 / 10 ^ 15)) by (eapply Rle_trans; [apply Rabs_triang_inv2|lra]). apply Rabs_le_inv in AB.
  destruct (C163_sexagesimal_partial (fabs d) Fa ltac:(rewrite Va; split; [apply Rabs_pos|lra])) as (s & dd & m & h & E & SX & _ & _ & CASE). cbv zeta in CASE. rewrite Va in CASE.
  assert (FL : fle (of_Z 0) x = true <-> 0 <= t). { destruct (of_Z_ok 0 ltac:(lia)) as (F0 & V0). rewrite fle_iff by (auto; apply Mx). rewrite V0. exact SG. }
  assert (WM : h = 6000%N -> exists k : Z, arcseconds dd m h = IZR k * 60). { intros ->. exists (60 * Z.of_N dd + Z.of_N m + 1)%Z. unfold arcseconds. rewrite !plus_IZR, mult_IZR. cbn [Z.of_N]. lra. }
  set (v := arcseconds dd m h) in *.
  destruct (fle (of_Z 0) x) eqn:L.
  - assert (T0 : 0 <= t) by now apply FL. rewrite (Rabs_pos_eq t) in * by auto. exists s, v, d. split; [reflexivity|]. split; [exact E|]. split; [exists s, dd, m, h; auto|]. cbv zeta.
    destruct CASE as [A|(A & A')]; [left; apply Rabs_le_inv in A; apply Rabs_le; lra|right]. split; [left; split; [lra|apply Rabs_le; lra]|]. destruct (WM A) as (k & Ek). exists (k - 1)%Z. rewrite minus_IZR. apply Rabs_le. lra.
  - assert (T0 : t < 0) by (apply Rnot_le_lt; intros G; apply FL in G; discriminate). rewrite (Rabs_left t) in * by auto. exists s, (- v), d. split; [reflexivity|]. split; [exact E|]. split; [exists s, dd, m, h; auto|]. cbv zeta.
    destruct CASE as [A|(A & A')]; [left; apply Rabs_le_inv in A; apply Rabs_le; lra|right]. split; [right; split; [lra|apply Rabs_le; lra]|]. destruct (WM A) as (k & Ek). exists (- (k - 1))%Z. rewrite opp_IZR, minus_IZR. apply Rabs_le. lra.
Qed.
Theorem C164_location_partial :
  forall l, on_earth l ->
    exists s lat lon height x y z,
      flocation_string l = Ok s /\ s = lat ++ lit " " ++ lon ++ lit " " ++ height ++ length_symbol (fl_length l) /\
      (angle_reads lat "N" "S" x /\ let latitude := value (fl_latitude l) * size (fl_angle l) * 3600 in
        (reads_right latitude x \/ (a_minute_too_far latitude x /\ almost_whole_minutes latitude))) /\
      (angle_reads lon "E" "W" y /\ let longitude := value (fl_longitude l) * size (fl_angle l) * 3600 in
        (reads_right longitude y \/ (a_minute_too_far longitude y /\ almost_whole_minutes longitude))) /\
      decimal 2 height z /\ Rabs (value (fl_height l) - z) <= 1 / 200.
Proof.
  intros l (M1 & M2 & M3 & KA & KL & B1 & B2 & B3).
  destruct (angle_string_ok (fl_latitude l) (fl_angle l) "N" "S" M1 KA ltac:(lra)) as (s1 & x & d1 & C1 & E1 & R1 & X1). destruct (angle_string_ok (fl_longitude l) (fl_angle l) "E" "W" M2 KA B2) as (s2 & y & d2 & C2 & E2 & R2 & X2).
  destruct (ffixed_reads 2 (fl_height l) ltac:(lia) (proj1 M3)) as (z & Z1 & Z2).
  eexists _, _, _, (ffixed 2 (fl_height l)), x, y, z. split; [|split; [reflexivity|split; [split; [exact R1|exact X1]|split; [split; [exact R2|exact X2]|split; [exact Z1|]]]]].
  - unfold flocation_string, flatitude_string, flongitude_string. rewrite C1, C2. cbn [bind]. rewrite E1, E2. cbn [bind]. unfold fheight_string. replace (short_name (fl_length l)) with (length_symbol (fl_length l)) by (destruct (fl_length l); try discriminate KL; reflexivity). reflexivity.
  - replace (/ (2 * 10 ^ 2)) with (1 / 200) in Z2 by (cbn; lra). exact Z2.
Qed.
(** Full statement: every printed angle reads right. *)
Definition some_place : flocation := FLocation some_angle (of_Z 0) (of_Z 0) Udeg Um.
Theorem C164_location_refuted :
  on_earth some_place /\
  exists rest, flocation_string some_place = Ok (lit "04" ++ [176%N] ++ lit "21" ++ [8242%N] ++ lit "60.00" ++ [8243%N] ++ lit "N" ++ rest).
Proof.
  destruct some_angle_value as (F & V). destruct (of_Z_ok 0 ltac:(lia)) as (F0 & V0).
  assert (MS : moderate some_angle). { split; [exact F|]. right. rewrite V, Rabs_pos_eq by lra. split; [|eapply Rle_trans; [|apply (Rle_pow 2 10 900); [lra|lia]]; lra]. apply Rle_trans with (/ 2 ^ 1); [apply Rinv_le_contravar; [lra|apply Rle_pow; [lra|lia]]|lra]. }
  split.
  - unfold on_earth, some_place. cbn [fl_latitude fl_longitude fl_height fl_angle fl_length measures size]. rewrite V0, V. split; [exact MS|]. split; [apply moderate_Z; lia|]. split; [apply moderate_Z; lia|]. split; [reflexivity|]. split; [reflexivity|]. repeat apply conj; apply Rabs_le; lra.
  - destruct C163_sexagesimal_refuted as (_ & E & _). destruct (angle_string_ok (of_Z 0) Udeg "E" "W" ltac:(apply moderate_Z; lia) eq_refl ltac:(rewrite V0; cbn [size]; apply Rabs_le; lra)) as (s2 & y & d2 & C2 & E2 & _ & _).
    assert (AE : fabs some_angle = some_angle). { clear - F V. assert (P : 0 < value some_angle) by (rewrite V; lra). clear V. set (q := some_angle) in *. clearbody q. destruct q as [s|s|s pl H|s m e B]; cbn in F; try discriminate; [unfold value in P; cbn in P; lra|]. destruct s; [|reflexivity]. exfalso. unfold value in P. cbn [B2R cond_Zopp] in P. assert (F2R (Float radix2 (Z.neg m) e) < 0) by (apply F2R_lt_0; reflexivity). cbn [Z.opp] in P. lra. }
    assert (LE : fle (of_Z 0) some_angle = true) by (rewrite fle_iff by auto; rewrite V0, V; lra).
    eexists. unfold flocation_string, flatitude_string, flongitude_string, some_place. cbn [fl_latitude fl_longitude fl_height fl_angle fl_length]. rewrite C2. change (fconvert some_angle Udeg Udeg) with (Ok some_angle). cbn [bind]. rewrite AE, E, E2, LE. cbn [bind]. rewrite <- !app_assoc. reflexivity.
Qed.
Example C164_case : on_earth some_place. Proof. apply C164_location_refuted. Qed.

Print Assumptions C163_sexagesimal_partial.
Print Assumptions C163_sexagesimal_refuted.
Print Assumptions C164_location_partial.
Print Assumptions C164_location_refuted.
