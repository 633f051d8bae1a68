(** Proofs about the floating-point search: choosing an operator. *)
From Coq Require Import List ZArith Bool Arith Reals Lra Lia Psatz.
From Flocq Require Import Core.Core IEEE754.BinarySingleNaN IEEE754.Binary IEEE754.Bits.
From Verif Require Import Py PyLemmas Fl_Model Fl_Spec Fl_Proofs Fls_Model Fls_Spec Fla_Model Fla_Spec Fla_Proofs.
Import ListNotations.
Open Scope R_scope.
Open Scope list_scope.

Lemma total_nonneg l : (forall x, In x l -> 0 <= value x) -> 0 <= total l.
Proof. induction l as [|x l IH]; cbn [total]; intros H; [lra|]. pose proof (H x (or_introl eq_refl)). assert (0 <= total l) by (apply IH; intros; apply H; now right). lra. Qed.
Lemma total_ge x l : (forall x, In x l -> 0 <= value x) -> In x l -> value x <= total l.
Proof.
  induction l as [|y l IH]; intros H I; [destruct I|]. cbn [total]. pose proof (H y (or_introl eq_refl)).
  assert (0 <= total l) by (apply total_nonneg; intros; apply H; now right).
  destruct I as [->|I]; [lra|]. assert (value x <= total l) by (apply IH; auto; intros; apply H; now right). lra.
Qed.
Lemma total_le l : (forall x, In x l -> value x <= 1) -> total l <= INR (length l).
Proof. induction l as [|x l IH]; intros H; [cbn; lra|]. cbn [total length]. rewrite S_INR. pose proof (H x (or_introl eq_refl)). assert (total l <= INR (length l)) by (apply IH; intros; apply H; now right). lra. Qed.
Lemma total_app a b : total (a ++ b) = total a + total b.
Proof. induction a as [|x a IH]; cbn [total app]; [lra|]. rewrite IH. lra. Qed.
Lemma total_firstn_le l k : (forall x, In x l -> 0 <= value x) -> total (firstn k l) <= total l.
Proof.
  intros H. rewrite <- (firstn_skipn k l) at 2. rewrite total_app. assert (0 <= total (skipn k l)); [|lra]. apply total_nonneg.
  intros x I. apply H. rewrite <- (firstn_skipn k l). apply in_or_app. now right.
Qed.

Lemma finite_mid x : 0 <= x <= 4000000 -> Rabs x <= bpow radix2 1000.
Proof. intros H. rewrite Rabs_pos_eq by lra. apply Rle_trans with (bpow radix2 30); [|apply bpow_le; lia]. cbn. lra. Qed.

(** ** The sum of the weights *)
Lemma sum_from ws : forall acc k E, 0 <= k -> k + INR (length ws) <= 1000000 -> (forall w, In w ws -> fraction w) ->
  finite acc -> 0 <= E <= k -> (1 - k * uu) * E <= value acc <= (1 + 2 * k * uu) * E ->
  let r := fold_left fadd ws acc in
  let n := k + INR (length ws) in
  finite r /\ (1 - n * uu) * (E + total ws) <= value r <= (1 + 2 * n * uu) * (E + total ws).
Proof.
  induction ws as [|w ws IH]; intros acc k E K L H F Ek A; cbn zeta; cbn [fold_left length total].
  - cbn [INR]. rewrite !Rplus_0_r. auto.
  - destruct (H w (or_introl eq_refl)) as (Fw & Lw). cbn [length] in L. rewrite S_INR in *. pose proof uu_pos as UP. pose proof uu_value as UV.
    pose proof (pos_INR (length ws)) as PL. assert (U : k * uu <= / 1000000) by (rewrite UV; lra). assert (U0 : 0 <= k * uu) by nra.
    assert (A0 : 0 <= value acc) by nra. assert (A2 : value acc <= 2000000).
    { destruct A as (_ & A). replace (2 * k * uu) with (2 * (k * uu)) in A by ring. nra. }
    destruct (fadd_ok acc w F Fw) as (Fr & Vr); [apply finite_mid; lra|].
    destruct (rnd_plus (value acc) (value w) (value_fmt acc) (value_fmt w)) as (e & He & Ee). rewrite Ee in Vr. apply Rabs_bound in He.
    destruct (IH (fadd acc w) (k + 1) (E + value w)) as (R1 & R2); auto; try lra.
    { intros x I. apply H. now right. }
    { rewrite Vr. set (u := k * uu) in *. replace ((k + 1) * uu) with (u + uu) by (unfold u; ring). replace (2 * (k + 1) * uu) with (2 * (u + uu)) by (unfold u; ring).
      replace (2 * k * uu) with (2 * u) in A by (unfold u; ring). clearbody u. set (a := value acc) in *. set (v := value w) in *. clearbody a v.
      assert (S1 : (1 - u) * (E + v) <= a + v) by nra. assert (S2 : a + v <= (1 + 2 * u) * (E + v)) by nra.
      assert (P : 0 <= E + v) by lra. set (s := E + v) in *. set (b := a + v) in *. assert (B : 0 <= b) by (unfold b; lra). clearbody s b.
      split.
      - apply Rle_trans with (b * (1 - uu)); [|nra]. apply Rle_trans with ((1 - u) * s * (1 - uu)); [nra|nra].
      - apply Rle_trans with (b * (1 + uu)); [nra|]. apply Rle_trans with ((1 + 2 * u) * s * (1 + uu)); [nra|]. assert (0 <= 1 - 2 * u) by lra. assert (0 <= uu * s) by nra. nra. }
    split; [exact R1|]. replace (k + (INR (length ws) + 1)) with (k + 1 + INR (length ws)) by ring. replace (E + (value w + total ws)) with (E + value w + total ws) by ring. exact R2.
Qed.
Lemma fsum_ok ws : INR (length ws) <= 1000000 -> (forall w, In w ws -> fraction w) ->
  finite (fsum ws) /\ (1 - INR (length ws) * uu) * total ws <= value (fsum ws) <= (1 + 2 * INR (length ws) * uu) * total ws.
Proof.
  intros L H. unfold fsum. destruct (of_Z_ok 0 ltac:(lia)) as (F & V).
  pose proof (sum_from ws (of_Z 0) 0 0) as S. cbn zeta in S. rewrite !Rplus_0_l in S. rewrite V in S. apply S; auto; lra.
Qed.

(** ** Probabilities *)
Section Probabilities.
  Variable ws : list float.
  Let n := INR (length ws).
  Let T := total ws.
  Hypothesis Small : n <= 1000000.
  Hypothesis Fr : forall w, In w ws -> fraction w.
  Hypothesis Pos : exists w, In w ws /\ 0 < value w.

  Lemma T_pos : 0 < T.
  Proof. destruct Pos as (w & I & P). pose proof (total_ge w ws (fun x Ix => proj1 (proj2 (Fr x Ix))) I). unfold T. lra. Qed.
  Lemma n_pos : 1 <= n.
  Proof. destruct Pos as (w & I & _). unfold n. destruct ws as [|x l]; [destruct I|]. cbn [length]. rewrite S_INR. pose proof (pos_INR (length l)). lra. Qed.
  Lemma n_uu : 0 <= n * uu <= / 1000000.
  Proof. pose proof n_pos. pose proof uu_pos. split; [nra|]. rewrite uu_value. lra. Qed.

  Definition share (w : float) : R := value w / T.
  Lemma share_ok w : In w ws -> 0 <= share w <= 1.
  Proof.
    intros I. pose proof T_pos as P. destruct (Fr w I) as (_ & W). pose proof (total_ge w ws (fun x Ix => proj1 (proj2 (Fr x Ix))) I) as G. fold T in G. unfold share, Rdiv.
    split; [apply Rmult_le_pos; [lra|left; now apply Rinv_0_lt_compat]|]. apply Rmult_le_reg_r with T; auto. rewrite Rmult_assoc, Rinv_l by lra. lra.
  Qed.
  Lemma sum_pos : finite (fsum ws) /\ 0 < value (fsum ws).
  Proof. destruct (fsum_ok ws Small Fr) as (F & A). fold n T in A. pose proof T_pos. pose proof n_uu. split; auto. nra. Qed.

  Lemma probability_ok w : In w ws ->
    exists p, py_div w (fsum ws) = Ok p /\ finite p /\ 0 <= value p /\ (value w = 0 -> value p = 0) /\
      Rabs (value p - share w) <= share w * (2 * n + 2) * uu + eta0.
  Proof.
    intros I. destruct sum_pos as (Fs & Ps). destruct (fsum_ok ws Small Fr) as (_ & A). fold n T in A. pose proof T_pos as PT. pose proof n_uu as NU. pose proof uu_pos as UP.
    destruct (share_ok w I) as (C0 & C1). destruct (Fr w I) as (Fw & W). set (s := value (fsum ws)) in *. set (c := share w) in *.
    assert (Ew : value w = c * T) by (unfold c, share; field; lra).
    set (q := value w / s). assert (Eq : q * s = c * T) by (unfold q; rewrite Ew; field; lra).
    set (m := n * uu) in *. replace (2 * n * uu) with (2 * m) in A by (unfold m; ring).
    assert (Q0 : 0 <= q) by (unfold q, Rdiv; apply Rmult_le_pos; [lra|left; now apply Rinv_0_lt_compat]).
    assert (Q1 : c * (1 - 2 * m) <= q).
    { apply Rmult_le_reg_r with s; auto. rewrite Eq. apply Rle_trans with (c * (1 - 2 * m) * ((1 + 2 * m) * T)).
      - apply Rmult_le_compat_l; [apply Rmult_le_pos; lra|apply A].
      - clearbody m. clear - C0 PT NU. assert (0 <= c * T) by (apply Rmult_le_pos; lra). replace (c * (1 - 2 * m) * ((1 + 2 * m) * T)) with (c * T * (1 - 4 * (m * m))) by ring. nra. }
    assert (Q2 : q <= c * (1 + 2 * m)).
    { apply Rmult_le_reg_r with s; auto. rewrite Eq. apply Rle_trans with (c * (1 + 2 * m) * ((1 - m) * T)).
      - clearbody m. clear - C0 PT NU. assert (0 <= c * T) by (apply Rmult_le_pos; lra). replace (c * (1 + 2 * m) * ((1 - m) * T)) with (c * T * (1 + m * (1 - 2 * m))) by ring.
        assert (0 <= m * (1 - 2 * m)) by (apply Rmult_le_pos; lra). nra.
      - apply Rmult_le_compat_l; [apply Rmult_le_pos; lra|apply A]. }
    destruct (of_Z_ok 0 ltac:(lia)) as (F0 & V0). unfold py_div. destruct (feq (fsum ws) (of_Z 0)) eqn:Z; [apply feq_iff in Z; auto; fold s in Z; lra|].
    destruct (fdiv_ok w (fsum ws) Fw) as (Fd & Vd); [fold s; lra|fold s q; apply finite_small, abs_pos; clearbody m; nra|]. fold s q in Vd.
    exists (fdiv w (fsum ws)). split; auto. split; auto. rewrite Vd. split; [now apply rnd_nonneg|]. split.
    { intros Zw. assert (q = 0) as -> by (unfold q; rewrite Zw; unfold Rdiv; ring). apply rnd_0. }
    destruct (rnd_any q) as (e & t & He & Ht & ->). apply Rabs_bound in He. apply Rabs_bound in Ht. apply Rabs_bound.
    replace (c * (2 * n + 2) * uu) with (c * (2 * m + 2 * uu)) by (unfold m; ring).
    assert (UM : uu <= / 1000000) by (rewrite uu_value; lra). clearbody m q c. clear - C0 C1 NU UP Q0 Q1 Q2 He Ht UM.
    assert (Q3 : q <= 2 * c) by nra. assert (B : q * uu <= 2 * c * uu) by (apply Rmult_le_compat_r; lra). assert (- (q * uu) <= q * e <= q * uu) by nra. lra.
  Qed.

  Lemma probabilities_ok : exists ps, get_probabilities ws = Ok ps /\ Forall2 (fun w p => finite p /\ 0 <= value p /\
    (value w = 0 -> value p = 0) /\ Rabs (value p - share w) <= share w * (2 * n + 2) * uu + eta0) ws ps.
  Proof.
    unfold get_probabilities. assert (G : forall l, (forall w, In w l -> In w ws) -> exists ps, mapM (fun w => py_div w (fsum ws)) l = Ok ps /\
      Forall2 (fun w p => finite p /\ 0 <= value p /\ (value w = 0 -> value p = 0) /\ Rabs (value p - share w) <= share w * (2 * n + 2) * uu + eta0) l ps).
    { induction l as [|w l IH]; intros H; [exists []; split; [reflexivity|apply Forall2_nil]|].
      destruct IH as (ps & E & F); [intros; apply H; now right|]. destruct (probability_ok w (H w (or_introl eq_refl))) as (p & Ep & R).
      exists (p :: ps). cbn [mapM]. rewrite Ep. cbn [bind]. rewrite E. split; [reflexivity|]. apply Forall2_cons; auto. }
    apply G. auto.
  Qed.

  Lemma prefix_error l ps : Forall2 (fun w p => finite p /\ 0 <= value p /\ (value w = 0 -> value p = 0) /\
      Rabs (value p - share w) <= share w * (2 * n + 2) * uu + eta0) l ps ->
    forall k, Rabs (total (firstn k ps) - total (firstn k l) / T) <= total (firstn k l) / T * ((2 * n + 2) * uu) + INR (length l) * eta0.
  Proof.
    pose proof T_pos as PT. pose proof eta0_small as ES.
    induction 1 as [|w p l ps (_ & _ & _ & R) F IH]; intros [|k]; cbn [firstn total length].
    - cbn [INR]. unfold Rdiv. rewrite !Rmult_0_l, Rminus_0_r, Rabs_R0. lra.
    - cbn [INR]. unfold Rdiv. rewrite !Rmult_0_l, Rminus_0_r, Rabs_R0. lra.
    - rewrite S_INR. unfold Rdiv. rewrite !Rmult_0_l, Rminus_0_r, Rabs_R0. pose proof (pos_INR (length l)). nra.
    - specialize (IH k). rewrite S_INR. replace ((value w + total (firstn k l)) / T) with (share w + total (firstn k l) / T) by (unfold share; field; lra).
      set (c := share w) in *. set (B := total (firstn k l) / T) in *. set (g := (2 * n + 2) * uu) in *.
      replace (c * (2 * n + 2) * uu) with (c * g) in R by (unfold g; ring).
      apply Rabs_bound in IH. apply Rabs_bound in R. apply Rabs_bound. lra.
  Qed.
End Probabilities.

(** ** Cumulative probabilities *)
Definition at_ (l : list float) (i : nat) : R := value (nth i l (of_Z 0)).
Definition before (acc : float) (l : list float) (i : nat) : R := match i with O => value acc | S j => at_ (accumulate_from acc l) j end.

Lemma accumulate_from_length l : forall acc, length (accumulate_from acc l) = length l.
Proof. induction l; intros; cbn [accumulate_from length]; auto. Qed.
Lemma accumulate_length l : length (accumulate l) = length l.
Proof. destruct l; cbn [accumulate length]; auto. now rewrite accumulate_from_length. Qed.

Lemma accumulate_from_ok l : forall acc P k, 0 <= k -> k + INR (length l) <= 1000000 -> (forall x, In x l -> finite x /\ 0 <= value x) ->
  finite acc -> 0 <= value acc -> 0 <= P -> P + total l <= 3 / 2 -> Rabs (value acc - P) <= 3 * k * uu ->
  forall i, (i < length l)%nat ->
    finite (nth i (accumulate_from acc l) (of_Z 0)) /\ before acc l i <= at_ (accumulate_from acc l) i /\
    (at_ l i = 0 -> at_ (accumulate_from acc l) i = before acc l i) /\
    Rabs (at_ (accumulate_from acc l) i - (P + total (firstn (S i) l))) <= 3 * (k + INR (length l)) * uu.
Proof.
  induction l as [|x l IH]; intros acc P k K L H F A0 P0 Pl E i I; [cbn in I; lia|].
  destruct (H x (or_introl eq_refl)) as (Fx & X0). cbn [length] in L |- *. rewrite S_INR in *. pose proof (pos_INR (length l)) as PL. cbn [total] in Pl.
  assert (TL : 0 <= total l) by (apply total_nonneg; intros y Iy; apply H; now right).
  pose proof uu_pos as UP. assert (KU : k * uu <= / 1000000) by (rewrite uu_value; lra). assert (KU0 : 0 <= k * uu) by nra.
  apply Rabs_bound in E.
  destruct (fadd_ok acc x F Fx) as (Fr & Vr); [apply finite_small, abs_pos; lra|].
  destruct (rnd_plus (value acc) (value x) (value_fmt acc) (value_fmt x)) as (e & He & Ee). apply Rabs_bound in He.
  assert (Up : value acc <= value (fadd acc x)).
  { rewrite Vr. apply rnd_ge; [apply value_fmt|lra]. }
  assert (Er : Rabs (value (fadd acc x) - (P + value x)) <= 3 * (k + 1) * uu).
  { rewrite Vr, Ee. apply Rabs_bound. assert (B : 0 <= value acc + value x <= 3) by lra. set (b := value acc + value x) in *. assert (- (3 * uu) <= b * e <= 3 * uu) by nra. unfold b in *. lra. }
  destruct i as [|i].
  - cbn [before]. unfold at_. cbn [accumulate_from nth]. split; auto. split; auto. split.
    + intros Z. rewrite Vr, Z, Rplus_0_r. apply rnd_fmt, value_fmt.
    + cbn [firstn total]. rewrite Rplus_0_r. eapply Rle_trans; [exact Er|]. nra.
  - destruct (IH (fadd acc x) (P + value x) (k + 1)) with (i := i) as (I1 & I2 & I3 & I4); try lra; auto.
    { intros y Iy. apply H. now right. } { cbn in I; lia. }
    unfold before, at_ in *. cbn [accumulate_from nth] in *. split; auto. split; [destruct i; auto|]. split; [destruct i; auto|].
    change (firstn (S (S i)) (x :: l)) with (x :: firstn (S i) l). cbn [total]. replace (P + (value x + total (firstn (S i) l))) with (P + value x + total (firstn (S i) l)) by ring. 
    replace (k + (INR (length l) + 1)) with (k + 1 + INR (length l)) by ring. exact I4.
Qed.

Lemma accumulate_ok l : INR (length l) <= 1000000 -> (forall x, In x l -> finite x /\ 0 <= value x) -> total l <= 3 / 2 ->
  forall i, (i < length l)%nat ->
    let c := at_ (accumulate l) in
    finite (nth i (accumulate l) (of_Z 0)) /\ 0 <= c i /\ (forall j, i = S j -> c j <= c i /\ (at_ l i = 0 -> c i = c j)) /\ c 0%nat = at_ l 0 /\
    Rabs (c i - total (firstn (S i) l)) <= 3 * INR (length l) * uu.
Proof.
  intros L H T i I. destruct l as [|x l]; [cbn in I; lia|]. cbn [length] in L |- *. rewrite S_INR in *. pose proof (pos_INR (length l)) as PL. pose proof uu_pos as UP.
  destruct (H x (or_introl eq_refl)) as (Fx & X0). cbn [total] in T.
  assert (TL : 0 <= total l) by (apply total_nonneg; intros y Iy; apply H; now right).
  assert (G : forall i, (i < length l)%nat -> _) by (apply (accumulate_from_ok l x (value x) 0); try lra; [intros y Iy; apply H; now right|exact Fx|replace (value x - value x) with 0 by ring; rewrite Rabs_R0; lra]).
  assert (N : forall j, (j < length l)%nat -> 0 <= at_ (accumulate_from x l) j).
  { induction j as [|j IHj]; intros J; destruct (G _ J) as (_ & B & _); cbn [before] in B; [lra|]. specialize (IHj ltac:(lia)). lra. }
  cbn zeta. destruct i as [|i].
  - unfold at_. cbn [accumulate nth firstn total]. split; auto. split; auto. split; [discriminate|]. split; auto. replace (value x - (value x + 0)) with 0 by ring. rewrite Rabs_R0. nra.
  - assert (J : (i < length l)%nat) by (cbn in I; lia). destruct (G i J) as (G1 & G2 & G3 & G4). pose proof (N i J) as Ni.
    change (firstn (S (S i)) (x :: l)) with (x :: firstn (S i) l). unfold at_ in *. cbn [accumulate nth total] in *. split; auto. split; auto. split; [|split; [reflexivity|]].
    + intros j [= <-]. destruct i as [|i]; cbn [before nth] in *; auto.
    + eapply Rle_trans; [exact G4|]. nra.
Qed.

(** ** Bisection *)
Lemma bisect_right_spec a x n : finite x -> (forall i, (i < n)%nat -> finite (nth i a (of_Z 0))) -> forall fuel lo hi,
  (lo <= hi)%nat -> (hi <= n)%nat -> (hi - lo <= fuel)%nat ->
  (forall i, (i < lo)%nat -> at_ a i <= value x) -> (forall i, (hi <= i)%nat -> (i < n)%nat -> value x < at_ a i) ->
  (forall i j, (i <= j)%nat -> (j < n)%nat -> at_ a i <= at_ a j) ->
  let r := bisect_right fuel a x lo hi in (lo <= r <= hi)%nat /\
    (forall i, (i < r)%nat -> at_ a i <= value x) /\ (forall i, (r <= i)%nat -> (i < n)%nat -> value x < at_ a i).
Proof.
  intros Fx Fa. induction fuel as [|f IH]; intros lo hi L1 L2 F A B M; cbn zeta.
  - cbn. assert (lo = hi) by lia. subst. auto.
  - cbn [bisect_right]. destruct (Nat.ltb_spec lo hi) as [L|L].
    2:{ assert (lo = hi) by lia. subst. auto. }
    assert (Dv : (lo <= (lo + hi) / 2 < hi)%nat).
    { pose proof (Nat.div_mod (lo + hi) 2 ltac:(lia)). pose proof (Nat.mod_upper_bound (lo + hi) 2 ltac:(lia)). lia. }
    set (mid := ((lo + hi) / 2)%nat) in *.
    pose proof (flt_iff x (nth mid a (of_Z 0)) Fx (Fa mid ltac:(lia))) as C. fold (at_ a mid) in C.
    destruct (flt x (nth mid a (of_Z 0))).
    + destruct (IH lo mid) as (R1 & R2 & R3); auto; try lia.
      { intros i I1 I2. pose proof (M mid i I1 I2). pose proof (proj1 C eq_refl). lra. }
      split; [lia|]. auto.
    + assert (C' : at_ a mid <= value x) by (destruct (Rlt_le_dec (value x) (at_ a mid)) as [X|X]; auto; apply C in X; discriminate).
      destruct (IH (S mid) hi) as (R1 & R2 & R3); auto; try lia.
      { intros i I. assert (i <= mid)%nat by lia. pose proof (M i mid H ltac:(lia)). lra. }
      split; [lia|]. auto.
Qed.

Lemma last_nth l : last l (of_Z 0) = nth (length l - 1) l (of_Z 0).
Proof. induction l as [|a [|b l] IH]; auto. change (last (a :: b :: l) (of_Z 0)) with (last (b :: l) (of_Z 0)). rewrite IH. cbn [length nth]. now rewrite Nat.sub_succ, Nat.sub_0_r. Qed.

(** ** The choice *)
Lemma get_index_spec ws u : INR (length ws) <= 1000000 -> (forall w, In w ws -> fraction w) -> (exists w, In w ws /\ 0 < value w) -> unit_draw u ->
  exists i w, get_index ws u = Ok i /\ nth_error ws i = Some w /\ 0 < value w /\ owns_nearly (INR (length ws) * / 2 ^ 48) ws i u.
Proof.
  intros Small Fr Pos U. assert (PT : 0 < total ws) by (now apply T_pos). assert (N1 : 1 <= INR (length ws)) by (now apply n_pos). assert (NU : 0 <= INR (length ws) * uu <= / 1000000) by (now apply n_uu). pose proof uu_pos as UP. pose proof eta0_small as EP.
  destruct (probabilities_ok ws Small Fr Pos) as (ps & E & F). unfold get_index. rewrite E. cbn [bind].
  pose proof (Forall2_len _ _ _ F) as Lp. set (n := INR (length ws)) in *.
  assert (Err : forall k, Rabs (total (firstn k ps) - total (firstn k ws) / total ws) <= (2 * n + 3) * uu).
  { intros k. eapply Rle_trans; [apply prefix_error; eauto|]. fold n.
    assert (Q : 0 <= total (firstn k ws) / total ws <= 1).
    { pose proof (total_firstn_le ws k (fun x Ix => proj1 (proj2 (Fr x Ix)))) as G. assert (0 <= total (firstn k ws)).
      { apply total_nonneg. intros x I. apply Fr. rewrite <- (firstn_skipn k ws). apply in_or_app. now left. }
      unfold Rdiv. split; [apply Rmult_le_pos; [lra|left; now apply Rinv_0_lt_compat]|]. apply Rmult_le_reg_r with (total ws); auto. rewrite Rmult_assoc, Rinv_l by lra. lra. }
    set (q := total (firstn k ws) / total ws) in *. assert (q * ((2 * n + 2) * uu) <= (2 * n + 2) * uu) by nra. assert (n * eta0 <= uu) by nra. lra. }
  assert (Psum : Rabs (total ps - 1) <= (2 * n + 3) * uu).
  { specialize (Err (length ws)). rewrite (firstn_all2 ps), (firstn_all2 ws) in Err by lia. replace (total ws / total ws) with 1 in Err by (field; lra). exact Err. }
  assert (Hp : forall x, In x ps -> finite x /\ 0 <= value x).
  { intros x I. destruct (Forall2_In_r _ _ _ _ F I) as (w & _ & A & B & _). auto. }
  assert (En : INR (length ps) = n) by (unfold n; now rewrite Lp).
  assert (NU' : n * uu <= / 1000000) by apply NU. assert (U1 : uu <= / 1000000) by (rewrite uu_value; lra).
  apply Rabs_bound in Psum.
  assert (Acc : forall i, (i < length ps)%nat -> _) by (apply (accumulate_ok ps); [lra|exact Hp|lra]). cbn zeta in Acc. rewrite En in Acc.
  set (cum := accumulate ps) in *. assert (Lc : length cum = length ps) by apply accumulate_length.
  assert (L0 : (0 < length ps)%nat) by (destruct Pos as (w & I & _); destruct ws; [destruct I|]; cbn in Lp; lia).
  unfold random_choice. fold cum. destruct cum as [|c0 cs] eqn:Ec; [cbn in Lc; lia|]. rewrite <- Ec in *. clear Ec c0 cs.
  assert (Em : last cum (of_Z 0) = nth (length ps - 1) cum (of_Z 0)) by now rewrite last_nth, Lc.
  destruct (Acc (length ps - 1)%nat ltac:(lia)) as (Ft & _ & _ & C0 & Dt). rewrite <- Em in Ft.
  replace (S (length ps - 1)) with (length ps) in Dt by lia. rewrite firstn_all in Dt. unfold at_ in Dt at 1. rewrite <- Em in Dt. apply Rabs_bound in Dt.
  set (t := last cum (of_Z 0)) in *. assert (Bt : Rabs (value t - 1) <= (5 * n + 3) * uu) by (apply Rabs_bound; lra). apply Rabs_bound in Bt.
  assert (Bt' : 99 / 100 <= value t <= 101 / 100) by lra.
  destruct (of_Z_ok 0 ltac:(lia)) as (F0 & V0).
  destruct (fle t (of_Z 0)) eqn:Z; [apply fle_iff in Z; auto; lra|]. rewrite Ft. cbn [negb].
  destruct U as (Fu & Ud). destruct (fmul_ok u t Fu Ft) as (Fx & Vx); [apply finite_small, abs_pos; nra|].
  assert (Xt : value (fmul u t) < value t).
  { rewrite Vx. apply draw_below; [split; auto|apply value_fmt|]. eapply Rle_trans; [apply (bpow_le radix2 _ (-1)); lia|]. cbn. lra. }
  assert (X0 : 0 <= value (fmul u t)) by (rewrite Vx; apply rnd_nonneg; nra).
  assert (Xu : Rabs (value (fmul u t) - value u) <= (5 * n + 6) * uu).
  { rewrite Vx. destruct (rnd_any (value u * value t)) as (e & r & He & Hr & ->). apply Rabs_bound in He. apply Rabs_bound in Hr. apply Rabs_bound.
    set (y := value u * value t). assert (Y : 0 <= y <= 2) by (unfold y; split; nra). assert (Yu : - ((5 * n + 3) * uu) <= y - value u <= (5 * n + 3) * uu).
    { unfold y. set (g := (5 * n + 3) * uu) in *. clearbody g. nra. }
    assert (- (2 * uu) <= y * e <= 2 * uu) by nra. lra. }
  apply Rabs_bound in Xu.
  assert (Mono : forall i j, (i <= j)%nat -> (j < length ps)%nat -> at_ cum i <= at_ cum j).
  { intros i j Ij. induction Ij as [|j Ij IH]; intros J; [lra|]. destruct (Acc (S j) J) as (_ & _ & Q & _). destruct (Q j eq_refl) as (Q1 & _). specialize (IH ltac:(lia)). lra. }
  destruct (bisect_right_spec cum (fmul u t) (length ps) Fx (fun i I => proj1 (Acc i I)) (length cum) 0 (length cum - 1)) as (R1 & R2 & R3); [lia|lia|lia|intros i0 Ii0; lia| |exact Mono|].
  { intros i I1 I2. assert (i = length ps - 1)%nat as -> by lia. unfold at_. rewrite <- Em. exact Xt. }
  set (i := bisect_right (length cum) cum (fmul u t) 0 (length cum - 1)) in *.
  assert (Ii : (i < length ps)%nat) by lia. clearbody i.
  destruct (nth_error ws i) as [w|] eqn:Nw; [|apply nth_error_None in Nw; lia].
  destruct (Acc i Ii) as (_ & Ci0 & Cs & _ & Di). specialize (R3 i (le_n _) Ii).
  exists i, w. split; auto. split; auto.
  assert (Np : exists p, nth_error ps i = Some p /\ (value w = 0 -> value p = 0)).
  { clear - F Nw. revert i Nw. induction F as [|a b l l' (_ & _ & Z & _) F IH]; intros i Nw; [destruct i; discriminate|]. destruct i as [|i]; cbn [nth_error] in *; [injection Nw as ->; exists b; split; auto|exact (IH i Nw)]. }
  destruct Np as (p & Np & Zp). pose proof (nth_error_nth ps i (of_Z 0) Np) as Np'.
  split.
  - destruct (Fr w (nth_error_In _ _ Nw)) as (_ & W). destruct (Req_dec (value w) 0) as [Zw|]; [|lra]. exfalso. specialize (Zp Zw).
    assert (Z1 : at_ ps i = 0) by (unfold at_; now rewrite Np').
    destruct i as [|j] eqn:Ei; [rewrite C0, Z1 in R3; lra|]. destruct (Cs j eq_refl) as (_ & Cz). specialize (Cz Z1). pose proof (R2 j ltac:(lia)). lra.
  - unfold owns_nearly. fold n. assert (Pw : n * / 2 ^ 48 = 32 * n * uu) by (rewrite uu_value; replace (2 ^ 48) with 281474976710656 by (simpl; lra); lra). rewrite Pw. assert (Nu : uu <= n * uu) by nra.
    pose proof (Err (S i)) as Ei. apply Rabs_bound in Ei. apply Rabs_bound in Di. split; [|lra].
    destruct i as [|j]; [cbn [firstn total]; unfold Rdiv; rewrite Rmult_0_l; nra|].
    pose proof (R2 j ltac:(lia)) as Q1. destruct (Acc j ltac:(lia)) as (_ & _ & _ & _ & Dj). apply Rabs_bound in Dj. pose proof (Err (S j)) as Ej. apply Rabs_bound in Ej. lra.
Qed.
