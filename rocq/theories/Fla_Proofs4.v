(** Proofs about the floating-point search: it does not fail within a thousand rounds. *)
From Coq Require Import List ZArith Bool Arith Reals Lra Lia Psatz.
From Flocq Require Import Core.Core IEEE754.BinarySingleNaN IEEE754.Binary IEEE754.Bits.
From Verif Require Import Py PyLemmas Fl_Model Fl_Spec Fl_Proofs Fls_Model Fls_Spec Fla_Model Fla_Spec Fla_Proofs Fla_Proofs2 Fla_Proofs3.
Import ListNotations.
Open Scope R_scope.
Open Scope list_scope.

Lemma bpow_half e : bpow radix2 (e - 1) = / 2 * bpow radix2 e.
Proof. replace (e - 1)%Z with (-1 + e)%Z by lia. rewrite bpow_plus. replace (bpow radix2 (-1)) with (/ 2) by (cbn; lra). reflexivity. Qed.

(** ** Weights *)
Lemma new_weight_low l s w k : fraction l -> value l <= / 2 -> (0 <= s <= 3)%Z -> fraction w -> (-1000 <= k)%Z ->
  bpow radix2 k <= value w -> bpow radix2 (k - 1) <= value (new_weight l s w).
Proof.
  intros Fl Ll S Fw K W. destruct (new_weight_ok l s w Fl S Fw) as (_ & ->). pose proof (bpow_gt_0 radix2 k) as P.
  assert (A : / 2 <= rnd (1 - value l)).
  { apply rnd_ge; [replace (/ 2) with (bpow radix2 (-1)) by (cbn; lra); apply fmt_pow; lia|lra]. }
  assert (M : bpow radix2 (k - 1) <= rnd (rnd (1 - value l) * value w)).
  { apply rnd_ge; [apply fmt_pow; lia|]. rewrite bpow_half. apply Rmult_le_compat; lra. }
  apply rnd_ge; [apply fmt_pow; lia|]. assert (0 <= rnd (rnd (value l * IZR s) / 6)); [|lra].
  assert (0 <= IZR s) by (apply IZR_le; lia). destruct Fl as (_ & L0). assert (0 <= rnd (value l * IZR s)) by (apply rnd_nonneg; nra). apply rnd_nonneg. lra.
Qed.
Definition at_least (k : Z) (ws : list float) : Prop := forall w, In w ws -> bpow radix2 k <= value w.
Lemma update_low l s i ws k : fraction l -> value l <= / 2 -> (0 <= s <= 3)%Z -> all_fractions ws -> (-1000 <= k)%Z ->
  at_least k ws -> at_least (k - 1) (update_weights l s i ws).
Proof.
  intros L Ll S H K A w I. apply In_nth_error in I. destruct I as (j & N). unfold update_weights in N. rewrite nth_error_upd in N.
  assert (W : forall w0, nth_error ws j = Some w0 -> bpow radix2 (k - 1) <= value w0 /\ fraction w0).
  { intros w0 N0. apply nth_error_In in N0. split; [|now apply H]. apply Rle_trans with (bpow radix2 k); [apply bpow_le; lia|now apply A]. }
  destruct (i =? j)%nat; [|now apply W]. destruct (nth_error ws j) as [w0|] eqn:N0; [|discriminate]. cbn in N. injection N as <-.
  apply new_weight_low; auto; [now apply W|]. apply A. eapply nth_error_In; eauto.
Qed.

(** ** Temperature *)
Lemma fneg_ok x : finite x -> finite (fneg x) /\ value (fneg x) = - value x.
Proof. intros F. unfold fneg, b64_opp, finite, value in *. split; [rewrite is_finite_Bopp; exact F|apply B2R_Bopp]. Qed.
Lemma log_half_ok : finite log_half /\ - 12 / 16 <= value log_half <= - 11 / 16.
Proof.
  assert (F : finite log_half) by (vm_compute; reflexivity). split; [exact F|].
  assert (G : forall z, (Z.abs z < 1000)%Z -> finite (fdiv (of_Z z) (of_Z 16)) /\ value (fdiv (of_Z z) (of_Z 16)) = IZR z / 16).
  { intros z Z. destruct (of_Z_ok z ltac:(lia)) as (F1 & V1). destruct (of_Z_ok 16 ltac:(lia)) as (F2 & V2).
    assert (B : Rabs (IZR z / 16) <= 1000000) by (apply Rabs_bound; assert (-1000 <= IZR z <= 1000) by (split; apply IZR_le; lia); lra).
    destruct (fdiv_ok (of_Z z) (of_Z 16) F1) as (F3 & V3); [rewrite V2; lra|rewrite V1, V2; apply finite_small; exact B|]. split; auto. rewrite V3, V1, V2.
    apply rnd_fmt. replace (IZR z / 16) with (IZR z * bpow radix2 (-4)) by (cbn; lra). apply fmt_int; lia. }
  destruct (G (-11)%Z ltac:(lia)) as (F1 & V1). destruct (G (-12)%Z ltac:(lia)) as (F2 & V2).
  assert (C1 : fle log_half (fdiv (of_Z (-11)) (of_Z 16)) = true) by (vm_compute; reflexivity). apply fle_iff in C1; auto.
  assert (C2 : fle (fdiv (of_Z (-12)) (of_Z 16)) log_half = true) by (vm_compute; reflexivity). apply fle_iff in C2; auto. lra.
Qed.
Definition cost_range (c : Z) : Prop := (- 2 ^ 40 <= c < 0)%Z.
Lemma to_float_ok z : (Z.abs z < 9007199254740992)%Z -> to_float z = Ok (of_Z z) /\ finite (of_Z z) /\ value (of_Z z) = IZR z.
Proof. intros H. destruct (of_Z_ok z H) as (F & V). unfold to_float. rewrite F. auto. Qed.
Lemma first_temperature_ok c : cost_range c -> exists T, first_temperature c = Ok T /\ finite T /\ bpow radix2 (-4) <= value T <= bpow radix2 40.
Proof.
  intros C. unfold cost_range in C. change (2 ^ 40)%Z with 1099511627776%Z in C.
  unfold first_temperature. destruct (to_float_ok c ltac:(lia)) as (E & F1 & V1). rewrite E. cbn [bind].
  destruct (literal_ok 5 100 ltac:(lia) ltac:(lia)) as (Fl & e & He & Vl). destruct log_half_ok as (Fh & Vh). pose proof uu_value as UV. apply Rabs_bound in He.
  assert (Vl' : 499 / 10000 <= value (literal 5 100) <= 501 / 10000) by (rewrite Vl, UV in *; nra).
  assert (Cr : -1099511627776 <= IZR c <= -1) by (split; apply IZR_le; lia).
  set (q := value (literal 5 100)) in *. set (h := value log_half) in *.
  destruct (fmul_ok (literal 5 100) (of_Z c) Fl F1) as (Fm & Vm).
  { rewrite V1. fold q. eapply Rle_trans; [|apply pow_1000]. apply Rabs_bound. clearbody q. nra. }
  rewrite V1 in Vm. fold q in Vm.
  assert (Pr : 499 / 10000 * - IZR c <= - (q * IZR c) <= 501 / 10000 * - IZR c) by (clearbody q; nra).
  set (x := q * IZR c) in *. clearbody x.
  destruct (rnd_rel x) as (e1 & He1 & E1). { rewrite Rabs_left by lra. pose proof pow_m1022. lra. }
  apply Rabs_bound in He1. rewrite E1 in Vm. set (m := value (fmul (literal 5 100) (of_Z c))) in *.
  assert (Mr : 498 / 10000 * - IZR c <= - m <= 502 / 10000 * - IZR c) by (rewrite Vm, UV in *; nra).
  unfold py_div. destruct (of_Z_ok 0 ltac:(lia)) as (F0 & V0). destruct (feq log_half (of_Z 0)) eqn:Z; [apply feq_iff in Z; auto; fold h in Z; lra|].
  assert (Q : / 16 <= m / h <= 1099511627776).
  { assert (Em : m / h * - h = - m) by (field; lra). set (y := m / h) in *. clearbody y m h. clear - Em Mr Cr Vh. split.
    - destruct (Rlt_le_dec y (/ 16)); [exfalso; nra|lra].
    - destruct (Rlt_le_dec 1099511627776 y); [exfalso; nra|lra]. }
  destruct (fdiv_ok (fmul (literal 5 100) (of_Z c)) log_half Fm) as (Fd & Vd); [fold h; lra|fold m h; eapply Rle_trans; [|apply pow_1000]; apply Rabs_bound; lra|].
  fold m h in Vd. exists (fdiv (fmul (literal 5 100) (of_Z c)) log_half). split; [reflexivity|]. split; [exact Fd|]. rewrite Vd.
  assert (P4 : bpow radix2 (-4) = / 16) by (cbn; lra). assert (P40 : bpow radix2 40 = 1099511627776) by (cbn; lra).
  split; [apply rnd_ge|apply rnd_le']; try (apply fmt_pow; lia); rewrite ?P4, ?P40; lra.
Qed.
Lemma cool_ok p T k : finite p -> / 2 <= value p <= 1 -> finite T -> (-1000 <= k)%Z -> bpow radix2 k <= value T <= bpow radix2 40 ->
  finite (fmul p T) /\ bpow radix2 (k - 1) <= value (fmul p T) <= bpow radix2 40.
Proof.
  intros Fp P Ft K T0. pose proof (bpow_gt_0 radix2 k) as Pk. set (t := value T) in *.
  assert (B : / 2 * bpow radix2 k <= value p * t <= bpow radix2 40).
  { split; [apply Rmult_le_compat; lra|]. apply Rle_trans with (1 * t); [apply Rmult_le_compat_r; lra|lra]. }
  destruct (fmul_ok p T Fp Ft) as (F & V).
  { fold t. rewrite Rabs_pos_eq by lra. eapply Rle_trans; [apply B|]. apply bpow_le. lia. }
  fold t in V. split; auto. rewrite V. split; [apply rnd_ge|apply rnd_le']; try (apply fmt_pow; lia); rewrite ?bpow_half; lra.
Qed.

(** ** The exponent of the acceptance test *)
Definition real_exponent (T : R) (cc ct : Z) : R := 100 * (IZR ct - IZR cc) / (T * IZR cc).
Lemma exponent_ok T cc ct k : finite T -> (-940 <= k <= 0)%Z -> bpow radix2 k <= value T <= bpow radix2 40 -> cost_range cc -> cost_range ct ->
  exists x, exponent T cc ct = Ok x /\ finite x /\ (value x = 0 <-> ct = cc) /\ (IZR cc <= IZR ct -> value x <= 0) /\
    Rabs (value x - real_exponent (value T) cc ct) <= 4 * uu * Rabs (real_exponent (value T) cc ct).
Proof.
  intros FT K BT Hc Ht. unfold cost_range in Hc, Ht. change (2 ^ 40)%Z with 1099511627776%Z in Hc, Ht.
  unfold exponent. destruct (to_float_ok (100 * (ct - cc)) ltac:(lia)) as (-> & Fn & Vn). destruct (to_float_ok cc ltac:(lia)) as (-> & Fc & Vc). cbn [bind].
  rewrite mult_IZR, minus_IZR in Vn. set (n := 100 * (IZR ct - IZR cc)) in *. 
  assert (Cr : -1099511627776 <= IZR cc <= -1) by (split; apply IZR_le; lia). assert (Tr : -1099511627776 <= IZR ct <= -1) by (split; apply IZR_le; lia).
  assert (P40 : bpow radix2 40 = 1099511627776) by (cbn; lra). pose proof (bpow_gt_0 radix2 k) as Pk. set (t := value T) in *.
  assert (Tc : bpow radix2 k <= - (t * IZR cc) <= 1099511627776 * 1099511627776) by (rewrite P40 in *; split; nra).
  destruct (fmul_ok T (of_Z cc) FT Fc) as (Fm & Vm).
  { rewrite Vc. fold t. eapply Rle_trans; [|apply (bpow_le radix2 80); lia]. rewrite Rabs_left by lra. replace 80%Z with (40 + 40)%Z by lia. rewrite bpow_plus, P40. lra. }
  rewrite Vc in Vm. fold t in Vm.
  destruct (rnd_rel (t * IZR cc)) as (e1 & He1 & E1). { rewrite Rabs_left by lra. eapply Rle_trans; [|apply Tc]. apply bpow_le. lia. }
  rewrite E1 in Vm. set (y := t * IZR cc) in *. pose proof uu_value as UV. apply Rabs_bound in He1.
  assert (U : 0 < uu <= / 1000000) by (rewrite UV; lra).
  set (m := value (fmul T (of_Z cc))) in *. assert (Mr : m <= - (/ 2 * bpow radix2 k)) by (rewrite Vm; nra).
  unfold py_div. destruct (of_Z_ok 0 ltac:(lia)) as (F0 & V0). destruct (feq (fmul T (of_Z cc)) (of_Z 0)) eqn:Z; [apply feq_iff in Z; auto; fold m in Z; lra|].
  assert (Nr : Rabs n <= 100 * 1099511627776) by (apply Rabs_bound; unfold n; lra).
  assert (I2 : 0 < / - m <= 2 * bpow radix2 (- k)).
  { split; [apply Rinv_0_lt_compat; lra|]. rewrite bpow_opp. replace (2 * / bpow radix2 k) with (/ (/ 2 * bpow radix2 k)) by (field; lra). apply Rinv_le_contravar; lra. }
  assert (Q : Rabs (n / m) <= bpow radix2 1000).
  { unfold Rdiv. rewrite Rabs_mult, Rabs_inv, (Rabs_left m) by lra. apply Rle_trans with (bpow radix2 50 * (2 * bpow radix2 (- k))).
    - apply Rmult_le_compat; [apply Rabs_pos|lra| |lra]. cbn. lra.
    - replace 2 with (bpow radix2 1) by (cbn; lra). rewrite <- !bpow_plus. apply bpow_le. lia. }
  destruct (fdiv_ok (of_Z (100 * (ct - cc))) (fmul T (of_Z cc)) Fn) as (Fd & Vd); [fold m; lra|rewrite Vn; exact Q|]. rewrite Vn in Vd. fold m in Vd.
  exists (fdiv (of_Z (100 * (ct - cc))) (fmul T (of_Z cc))). split; [reflexivity|]. split; [exact Fd|].
  assert (N1 : n = 0 \/ 100 <= Rabs n).
  { destruct (Z.eq_dec ct cc) as [->|D]; [left; unfold n; lra|right]. unfold n. rewrite <- minus_IZR. assert (1 <= Z.abs (ct - cc))%Z by lia. rewrite Rabs_mult, (Rabs_pos_eq 100) by lra. rewrite <- abs_IZR.
    assert (1 <= IZR (Z.abs (ct - cc))) by (apply IZR_le; lia). lra. }
  assert (Low : n = 0 \/ bpow radix2 (-100) <= Rabs (n / m)).
  { destruct N1 as [->|N1]; [now left|right]. assert (Mu : - m <= bpow radix2 90).
    { rewrite Vm. replace 90%Z with (50 + 40)%Z by lia. rewrite bpow_plus, P40. replace (bpow radix2 50) with (1024 * 1099511627776) by (cbn; lra). nra. }
    unfold Rdiv. rewrite Rabs_mult, Rabs_inv, (Rabs_left m) by lra. apply Rle_trans with (1 * / bpow radix2 90); [rewrite Rmult_1_l, <- bpow_opp; apply bpow_le; lia|].
    apply Rmult_le_compat; [lra|left; apply Rinv_0_lt_compat, bpow_gt_0|lra|apply Rinv_le_contravar; lra]. }
  destruct (rnd_rel' (n / m)) as (e2 & He2 & E2).
  { destruct Low as [->|L]; [left; unfold Rdiv; ring|right]. eapply Rle_trans; [|exact L]. apply bpow_le. lia. }
  rewrite E2 in Vd. apply Rabs_bound in He2. rewrite Vd.
  assert (In0 : / m < 0) by (apply Rinv_lt_0_compat; lra).
  split; [|split].
  - split.
    + intros X. destruct N1 as [N1|N1]; [apply eq_IZR; unfold n in N1; lra|]. exfalso. assert (n <> 0) by (intros ->; rewrite Rabs_R0 in N1; lra).
      unfold Rdiv in X. assert (n * / m <> 0) by (apply Rmult_integral_contrapositive_currified; lra). assert (1 + e2 <> 0) by lra. now apply (Rmult_integral_contrapositive_currified _ _ H0 H1).
    + intros ->. replace n with 0 by (unfold n; ring). unfold Rdiv. ring.
  - intros L. assert (0 <= n) by (unfold n; lra). unfold Rdiv. assert (n * / m <= 0) by nra. nra.
  - unfold real_exponent. fold n y. assert (Y0 : y <> 0) by lra. assert (M0 : 1 + e1 <> 0) by lra.
    rewrite Vm. replace (n / (y * (1 + e1)) * (1 + e2) - n / y) with ((e2 - e1) * / (1 + e1) * (n / y)) by (field; auto).
    rewrite Rabs_mult. apply Rmult_le_compat_r; [apply Rabs_pos|]. assert (I1 : 0 < / (1 + e1) <= 2).
    { split; [apply Rinv_0_lt_compat; lra|]. replace 2 with (/ / 2) by field. apply Rinv_le_contravar; lra. }
    rewrite Rabs_mult, (Rabs_pos_eq (/ (1 + e1))) by lra. replace (4 * uu) with (2 * uu * 2) by ring. apply Rmult_le_compat; [apply Rabs_pos|lra|apply Rabs_bound; lra|lra].
Qed.

(** ** Totality *)
Section Total.
  Context {Sol : Type}.
  Variable pb : problem Sol.
  Variables (p l : float) (nr na : Z).
  Variable P : Sol -> Prop.
  Hypothesis Hdes : forall f rnd x, In f (p_destroy pb) -> P x -> exists y, f rnd x nr = Ok y /\ P y.
  Hypothesis Hrep : forall f rnd x, In f (p_repair pb) -> P x -> exists y, f rnd x na = Ok y /\ P y.
  Hypothesis Hcost : forall x, P x -> exists c, p_cost pb x = Ok c /\ cost_range c.
  Hypothesis Hcomp : forall x, P x -> exists b, p_complete pb x = Ok b.
  Hypothesis Hexp : quiet_exp (p_exp pb).
  Hypothesis Fl : fraction l.
  Hypothesis Hl : value l <= / 2.
  Hypothesis Fp : finite p.
  Hypothesis Hp : / 2 <= value p <= 1.
  Hypothesis Nd : (0 < Z.of_nat (length (p_destroy pb)) <= 1000000)%Z.
  Hypothesis Nr : (0 < Z.of_nat (length (p_repair pb)) <= 1000000)%Z.

  Lemma accept_ok u x cur T k : P x -> P cur -> finite T -> (-940 <= k <= 0)%Z -> bpow radix2 k <= value T <= bpow radix2 40 ->
    exists a, accept pb u x cur T = Ok a.
  Proof.
    intros Px Pc FT K HT. destruct (Hcost x Px) as (ct & Et & Rt). destruct (Hcost cur Pc) as (cc & Ec & Rc).
    unfold accept. rewrite Ec, Et. cbn [bind]. destruct (Z.ltb_spec ct cc) as [L|L]; [eauto|].
    destruct (exponent_ok T cc ct k FT K HT Rc Rt) as (y & -> & Fy & _ & N & _). cbn [bind].
    destruct (Hexp y) as (q & ->); [|cbn; eauto]. destruct (of_Z_ok 0 ltac:(lia)) as (F0 & V0).
    destruct (flt (of_Z 0) y) eqn:X; auto. apply flt_iff in X; auto. assert (value y <= 0) by (apply N; now apply IZR_le). lra.
  Qed.
  Lemma index_ok ws u k : (0 < Z.of_nat (length ws) <= 1000000)%Z -> all_fractions ws -> at_least k ws -> unit_draw u ->
    exists i, get_index ws u = Ok i /\ (i < length ws)%nat.
  Proof.
    intros L F A U. destruct (get_index_spec ws u) as (i & w & E & N & _); auto.
    - assert (H : (Z.of_nat (length ws) <= 1000000)%Z) by lia. apply IZR_le in H. now rewrite <- INR_IZR_INZ in H.
    - destruct ws as [|w ws]; [cbn in L; lia|]. exists w. split; [now left|]. pose proof (A w (or_introl eq_refl)). pose proof (bpow_gt_0 radix2 k). lra.
    - exists i. split; auto. apply nth_error_Some. congruence.
  Qed.

  Lemma rounds_ok : forall n k ds s, (forall m, unit_draws (ds m)) ->
    P (s_cur s) -> P (s_best s) -> (Z.of_nat n <= k + 940)%Z -> (k <= 0)%Z -> finite (s_T s) -> bpow radix2 k <= value (s_T s) <= bpow radix2 40 ->
    all_fractions (s_dw s) -> all_fractions (s_rw s) -> at_least k (s_dw s) -> at_least k (s_rw s) ->
    length (s_dw s) = length (p_destroy pb) -> length (s_rw s) = length (p_repair pb) ->
    exists best log, rounds pb p l nr na n ds s = Ok (best, log).
  Proof.
    induction n as [|n IH]; intros k ds s U Pc Pb K K0 FT HT W1 W2 A1 A2 L1 L2; cbn [rounds]; [eauto|].
    assert (K1 : (-940 <= k <= 0)%Z) by lia.
    assert (R : exists s' e fin, round pb p l nr na (ds 0%nat) s = Ok (s', e, fin)).
    { unfold round. destruct (U 0%nat) as (U1 & U2 & _).
      destruct (index_ok (s_dw s) (d_destroy (ds 0%nat)) k ltac:(lia) W1 A1 U1) as (i & Ei & Li).
      destruct (index_ok (s_rw s) (d_repair (ds 0%nat)) k ltac:(lia) W2 A2 U2) as (j & Ej & Lj).
      rewrite Ei, Ej. cbn [bind]. rewrite L1 in Li. rewrite L2 in Lj.
      destruct (nth_error (p_destroy pb) i) as [fd|] eqn:Nfd; [|apply nth_error_None in Nfd; lia].
      destruct (nth_error (p_repair pb) j) as [fr|] eqn:Nfr; [|apply nth_error_None in Nfr; lia].
      rewrite (proj2 (py_nth_Ok _ _ _) Nfd). cbn [bind].
      destruct (Hdes fd (d_rnd1 (ds 0%nat)) (s_cur s) (nth_error_In _ _ Nfd) Pc) as (t1 & Et & Pt). rewrite Et. cbn [bind].
      rewrite (proj2 (py_nth_Ok _ _ _) Nfr). cbn [bind].
      destruct (Hrep fr (d_rnd2 (ds 0%nat)) t1 (nth_error_In _ _ Nfr) Pt) as (tmp & Em & Pm). rewrite Em. cbn [bind].
      destruct (accept_ok (d_accept (ds 0%nat)) tmp (s_cur s) (s_T s) k Pm Pc FT K1 HT) as (a & Ea). rewrite Ea. cbn [bind]. cbv zeta.
      destruct (Hcost tmp Pm) as (ct & Ct & _). destruct (Hcost (s_best s) Pb) as (cb & Cb & _).
      assert (Sc : exists sc, (if a then c1 <- p_cost pb tmp;; c2 <- p_cost pb (if a then tmp else s_cur s);;
                   Ok (if (c2 <? c1)%Z then better_score else accept_score) else Ok reject_score) = Ok sc).
      { destruct a; eauto. rewrite Ct. cbn. eauto. }
      destruct Sc as (sc & Es). rewrite Es. cbn [bind]. rewrite Ct, Cb. cbn [bind].
      destruct (Hcomp (if (ct <? cb)%Z then tmp else s_best s)) as (fin & Ef); [destruct (ct <? cb)%Z; auto|].
      rewrite Ef. cbn [bind]. destruct fin; eauto. }
    destruct R as (s' & e & fin & R). rewrite R. cbn [bind]. destruct fin; [eauto|].
    apply round_inv in R.
    destruct R as (_ & _ & _ & _ & _ & _ & _ & (fd & Nfd & Fd) & (fr & Nfr & Ffr) & _ & Ec & (cx & cb & _ & _ & Es & Sc) & _ & Nx).
    destruct (Nx eq_refl) as (M1 & M2 & M3).
    destruct (Hdes fd (d_rnd1 (ds 0%nat)) (s_cur s) (nth_error_In _ _ Nfd) Pc) as (t1 & Et & Pt).
    assert (t1 = e_destroyed e) by congruence. subst t1.
    destruct (Hrep fr (d_rnd2 (ds 0%nat)) _ (nth_error_In _ _ Nfr) Pt) as (tmp & Em & Pm).
    assert (tmp = e_candidate e) by congruence. subst tmp.
    assert (Sc0 : (0 <= e_score e <= 3)%Z) by (rewrite Sc; destruct (cx <? cb)%Z, (e_accepted e); lia).
    destruct (cool_ok p (s_T s) k Fp Hp FT ltac:(lia) HT) as (FT' & HT').
    destruct (IH (k - 1)%Z (fun m => ds (S m)) s') as (best & log & E); auto; try lia.
    - rewrite Ec. destruct (e_accepted e); auto.
    - rewrite Es. destruct (cx <? cb)%Z; auto.
    - now rewrite M1.
    - now rewrite M1.
    - rewrite M2. unfold all_fractions. apply update_fraction; auto.
    - rewrite M3. unfold all_fractions. apply update_fraction; auto.
    - rewrite M2. apply update_low; auto; lia.
    - rewrite M3. apply update_low; auto; lia.
    - rewrite M2, update_length. auto.
    - rewrite M3, update_length. auto.
    - rewrite E. cbn. eauto.
  Qed.
End Total.
