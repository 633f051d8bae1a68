(** Proofs about the adaptive search. *)
From Coq Require Import List ZArith QArith Bool Arith Lia Lqa Qfield.
From Verif Require Import Py PyLemmas Alns_Model Alns_Spec.
Import ListNotations.
Open Scope nat_scope.
Open Scope list_scope.

Section P.
  Context {Sol : Type}.
  Variable pb : problem Sol.
  Let cost := p_cost pb.

  Lemma earliest_best_cost l b : earliest_best cost l b -> exists c, cost b = Ok c /\
    forall x, In x l -> exists c', cost x = Ok c' /\ (c <= c')%Q.
  Proof.
    intros (l1 & l2 & c & -> & E & H1 & H2). exists c. split; auto. intros x I.
    apply in_app_or in I. destruct I as [I|[<-|I]].
    - destruct (H1 x I) as (c' & E' & L). exists c'. split; auto. lra.
    - exists c. split; auto. lra.
    - auto.
  Qed.
  Lemma earliest_best_In l b : earliest_best cost l b -> In b l.
  Proof. intros (l1 & l2 & c & -> & _). apply in_or_app. right. now left. Qed.

  Lemma earliest_best_unique l b b' : earliest_best cost l b -> earliest_best cost l b' -> b = b'.
  Proof.
    intros (l1 & l2 & c & -> & E & H1 & H2) (k1 & k2 & d & El & E' & K1 & K2).
    revert k1 El H1 K1. induction l1 as [|x l1 IH]; intros [|y k1] El H1 K1; cbn in El; injection El as El1 El2; auto.
    - subst. destruct (K1 y (or_introl eq_refl)) as (c' & A & B).
      assert (In b' (k1 ++ b' :: k2)) as I by (apply in_or_app; right; now left).
      destruct (H2 b' I) as (c2 & A2 & B2). assert (c' = c) by congruence. assert (c2 = d) by congruence. subst. lra.
    - subst. destruct (H1 b' (or_introl eq_refl)) as (c' & A & B).
      assert (In b (l1 ++ b :: l2)) as I by (apply in_or_app; right; now left).
      destruct (K2 b I) as (c2 & A2 & B2). assert (c' = d) by congruence. assert (c2 = c) by congruence. subst. lra.
    - subst. apply (IH k1); auto; intros z Iz; [apply H1|apply K1]; now right.
  Qed.

  Lemma earliest_best_snoc l b x cx cb : earliest_best cost l b -> cost x = Ok cx -> cost b = Ok cb ->
    earliest_best cost (l ++ [x]) (if Qltb cx cb then x else b).
  Proof.
    intros B Ex Eb. pose proof (earliest_best_cost _ _ B) as (c & Ec & Hm).
    assert (c = cb) by congruence. subst c. destruct (Qltb cx cb) eqn:L; qb.
    - exists l, [], cx. repeat split; auto; [|intros ? []].
      intros y I. destruct (Hm y I) as (c' & E' & L'). exists c'. split; auto. lra.
    - destruct B as (l1 & l2 & c & -> & E & H1 & H2). assert (c = cb) by congruence. subst c.
      exists l1, (l2 ++ [x]), cb. split; [now rewrite <- app_assoc|]. split; [auto|]. split; auto.
      intros y I. apply in_app_or in I. destruct I as [I|[<-|[]]]; auto. exists cx. split; auto.
  Qed.

  Variables (p l : Q) (nr na : Z).

  (** What a successful round does. *)
  Lemma round_inv d s s' e fin : round pb p l nr na d s = Ok (s', e, fin) ->
    get_index (s_dw s) (d_destroy d) = Ok (e_destroy e) /\
    get_index (s_rw s) (d_repair d) = Ok (e_repair e) /\
    e_dweights e = s_dw s /\ e_rweights e = s_rw s /\
    e_temperature e = s_T s /\ e_current e = s_cur s /\ e_best e = s_best s' /\
    (exists fd, nth_error (p_destroy pb) (e_destroy e) = Some fd /\ fd (d_rnd1 d) (s_cur s) nr = Ok (e_destroyed e)) /\
    (exists fr, nth_error (p_repair pb) (e_repair e) = Some fr /\ fr (d_rnd2 d) (e_destroyed e) na = Ok (e_candidate e)) /\
    accept pb (d_accept d) (e_candidate e) (s_cur s) (s_T s) = Ok (e_accepted e) /\
    s_cur s' = (if e_accepted e then e_candidate e else s_cur s) /\
    (exists cx cb, cost (e_candidate e) = Ok cx /\ cost (s_best s) = Ok cb /\
       s_best s' = (if Qltb cx cb then e_candidate e else s_best s) /\
       e_score e = (if Qltb cx cb then 3 else if e_accepted e then 1 else 0)%Q) /\
    p_complete pb (s_best s') = Ok fin /\
    (fin = false -> s_T s' = (p * s_T s)%Q /\
       s_dw s' = update_weights l (e_score e) (e_destroy e) (s_dw s) /\
       s_rw s' = update_weights l (e_score e) (e_repair e) (s_rw s)).
  Proof.
    unfold round. intros H.
    apply bind_Ok in H. destruct H as (i & Hi & H). apply bind_Ok in H. destruct H as (j & Hj & H).
    apply bind_Ok in H. destruct H as (fd & Hfd & H). apply bind_Ok in H. destruct H as (t1 & Ht1 & H).
    apply bind_Ok in H. destruct H as (fr & Hfr & H). apply bind_Ok in H. destruct H as (tmp & Htmp & H).
    apply bind_Ok in H. destruct H as (a & Ha & H). cbv zeta in H.
    apply bind_Ok in H. destruct H as (score1 & Hs1 & H). apply bind_Ok in H. destruct H as (ct & Hct & H).
    apply bind_Ok in H. destruct H as (cb & Hcb & H). apply bind_Ok in H. destruct H as (done & Hd & H).
    apply py_nth_Ok in Hfd, Hfr.
    assert (Hsc : score1 = if a then 1%Q else 0%Q).
    { destruct a; [|now injection Hs1 as <-]. rewrite Hct in Hs1. cbn in Hs1. injection Hs1 as <-.
      destruct (Qltb ct ct) eqn:X; auto. qb. lra. }
    assert (X : exists cx cb', cost tmp = Ok cx /\ cost (s_best s) = Ok cb' /\
       (if Qltb ct cb then tmp else s_best s) = (if Qltb cx cb' then tmp else s_best s) /\
       (if Qltb ct cb then best_score else score1) = (if Qltb cx cb' then 3 else if a then 1 else 0)%Q).
    { exists ct, cb. repeat split; auto. destruct (Qltb ct cb); auto. }
    destruct done; injection H as <- <- <-; cbn; repeat match goal with |- _ /\ _ => split end;
      eauto; intros; try discriminate; auto.
  Qed.

  Lemma rounds_spec : forall k ds s pre best log,
    earliest_best cost pre (s_best s) -> p_complete pb (s_best s) = Ok false ->
    rounds pb p l nr na k ds s = Ok (best, log) ->
    earliest_best cost (pre ++ candidates log) best /\ length log <= k /\
    (forall m, m < length log -> exists b, earliest_best cost (pre ++ firstn m (candidates log)) b /\
                                           p_complete pb b = Ok false) /\
    (length log < k -> p_complete pb best = Ok true).
  Proof.
    induction k as [|k IH]; intros ds s pre best log B Cp H; cbn [rounds] in H.
    - injection H as <- <-. cbn. rewrite app_nil_r. repeat split; auto; try lia.
    - apply bind_Ok in H. destruct H as (((s', e), fin) & R & H).
      apply round_inv in R. destruct R as (_ & _ & _ & _ & _ & _ & _ & _ & _ & _ & _ & (cx & cb & Ex & Eb & Es & _) & Hd & _).
      pose proof (earliest_best_snoc _ _ _ _ _ B Ex Eb) as B'. rewrite <- Es in B'.
      destruct fin.
      + injection H as <- <-. cbn. repeat split; auto; try lia.
        intros m Hm. assert (m = 0) by lia. subst. cbn. rewrite app_nil_r. eauto.
      + apply bind_Ok in H. destruct H as ((best', log') & R & H). cbn in H. injection H as <- <-.
        destruct (IH _ _ _ _ _ B' Hd R) as (I1 & I2 & I3 & I4). cbn. rewrite <- app_assoc in I1. cbn in I1.
        split; auto. split; [lia|]. split.
        * intros [|m] Hm; [cbn; rewrite app_nil_r; eauto|].
          destruct (I3 m) as (b & Hb & Cb); [lia|]. exists b. rewrite <- app_assoc in Hb. auto.
        * intros. apply I4. lia.
  Qed.

  (** Invariants of solutions. *)
  Variable P : Sol -> Prop.
  Hypothesis Hdes : forall f rnd x y, In f (p_destroy pb) -> P x -> f rnd x nr = Ok y -> P y.
  Hypothesis Hrep : forall f rnd x y, In f (p_repair pb) -> P x -> f rnd x na = Ok y -> P y.

  Lemma rounds_preserve : forall k ds s best log,
    P (s_cur s) -> P (s_best s) -> rounds pb p l nr na k ds s = Ok (best, log) ->
    P best /\ forall e, In e log -> P (e_destroyed e) /\ P (e_candidate e).
  Proof.
    induction k as [|k IH]; intros ds s best log Pc Pb H; cbn [rounds] in H.
    - injection H as <- <-. split; auto. intros e [].
    - apply bind_Ok in H. destruct H as (((s', e), fin) & R & H).
      apply round_inv in R.
      destruct R as (_ & _ & _ & _ & _ & _ & _ & (fd & Nd & Fd) & (fr & Nr & Fr) & _ & Ec & (cx & cb & _ & _ & Es & _) & _ & _).
      assert (P (e_destroyed e)) as P1 by (exact (Hdes _ _ _ _ (nth_error_In _ _ Nd) Pc Fd)).
      assert (P (e_candidate e)) as P2 by (exact (Hrep _ _ _ _ (nth_error_In _ _ Nr) P1 Fr)).
      assert (P (s_best s')) as P3 by (rewrite Es; destruct (Qltb cx cb); auto).
      assert (P (s_cur s')) as P4 by (rewrite Ec; destruct (e_accepted e); auto).
      destruct fin.
      + injection H as <- <-. split; auto. intros e' [<-|[]]; auto.
      + apply bind_Ok in H. destruct H as ((best', log') & R & H). cbn in H. injection H as <- <-.
        destruct (IH _ _ _ _ P4 P3 R) as (I1 & I2). split; auto. intros e' [<-|I]; auto.
  Qed.
End P.

(** ** Operator selection *)
Lemma qsum_app a b : (qsum (a ++ b) == qsum a + qsum b)%Q.
Proof. induction a as [|x a IH]; cbn; [lra|]. rewrite IH. lra. Qed.

Lemma accumulate_length acc l : length (accumulate acc l) = length l.
Proof. revert acc. induction l; intros; cbn; auto. Qed.
Lemma nth_accumulate l : forall acc i, i < length l ->
  (nth i (accumulate acc l) 0 == acc + qsum (firstn (S i) l))%Q.
Proof.
  induction l as [|x l IH]; intros acc i L; [cbn in L; lia|].
  destruct i as [|i]; cbn [accumulate nth]; [cbn; lra|].
  rewrite IH by (cbn in L; lia). cbn [firstn qsum]. lra.
Qed.

Lemma bisect_right_spec a x n : forall fuel lo hi,
  lo <= hi -> hi <= n -> hi - lo <= fuel ->
  (forall i, i < lo -> (nth i a 0 <= x)%Q) -> (forall i, hi <= i -> i < n -> (x < nth i a 0)%Q) ->
  (forall i j, i <= j -> j < n -> (nth i a 0 <= nth j a 0)%Q) ->
  let r := bisect_right fuel a x lo hi in lo <= r <= hi /\
    (forall i, i < r -> (nth i a 0 <= x)%Q) /\ (forall i, r <= i -> i < n -> (x < nth i a 0)%Q).
Proof.
  induction fuel as [|f IH]; intros lo hi L1 L2 F A B M; cbn zeta.
  - cbn. assert (lo = hi) by lia. subst. auto.
  - cbn [bisect_right]. destruct (Nat.ltb_spec lo hi) as [L|L].
    2:{ assert (lo = hi) by lia. subst. auto. }
    assert (Dv : lo <= (lo + hi) / 2 < hi).
    { pose proof (Nat.div_mod (lo + hi) 2 ltac:(lia)). pose proof (Nat.mod_upper_bound (lo + hi) 2 ltac:(lia)). lia. }
    set (mid := (lo + hi) / 2) in *.
    destruct (Qltb x (nth mid a 0%Q)) eqn:E; qb.
    + destruct (IH lo mid) as (R1 & R2 & R3); auto; try lia.
      { intros i I1 I2. pose proof (M mid i I1 I2). lra. }
      split; [lia|]. auto.
    + destruct (IH (S mid) hi) as (R1 & R2 & R3); auto; try lia.
      { intros i I. assert (i <= mid) by lia. pose proof (M i mid H ltac:(lia)). lra. }
      split; [lia|]. auto.
Qed.

Definition all_positive (ws : list Q) : Prop := forall w, In w ws -> (0 < w)%Q.

Lemma qsum_nonneg ws : (forall w, In w ws -> (0 <= w)%Q) -> (0 <= qsum ws)%Q.
Proof.
  induction ws as [|w ws IH]; cbn; intros H; [lra|].
  assert (0 <= w)%Q by auto. assert (0 <= qsum ws)%Q by auto. lra.
Qed.
Lemma qsum_positive ws : ws <> [] -> all_positive ws -> (0 < qsum ws)%Q.
Proof.
  destruct ws as [|w ws]; [tauto|]. intros _ H. cbn.
  assert (0 < w)%Q by (apply H; now left). assert (0 <= qsum ws)%Q.
  { apply qsum_nonneg. intros x I. apply Qlt_le_weak, H. now right. } lra.
Qed.

Lemma probabilities_eq ws : ws <> [] -> all_positive ws ->
  get_probabilities ws = Ok (map (fun w => (w / qsum ws)%Q) ws).
Proof.
  intros N H. pose proof (qsum_positive ws N H) as Hp. unfold get_probabilities.
  assert (G : forall l, mapM (fun w => if Qeqb (qsum ws) 0%Q then Raise ZeroDivisionError else Ok (w / qsum ws)%Q) l
              = Ok (map (fun w => (w / qsum ws)%Q) l)).
  { induction l as [|x l IH]; cbn; auto. destruct (Qeqb (qsum ws) 0%Q) eqn:E; [qb; lra|]. cbn. now rewrite IH. }
  apply G.
Qed.
Lemma qsum_scale c ws : ~ (c == 0)%Q -> (qsum (map (fun w => (w / c)%Q) ws) == qsum ws / c)%Q.
Proof. intros N. induction ws as [|w ws IH]; cbn; [field; auto|]. rewrite IH. field. auto. Qed.

Lemma choice_spec ps u : (qsum ps == 1)%Q -> (forall x, In x ps -> (0 <= x)%Q) -> (0 <= u < 1)%Q ->
  exists i, random_choice ps u = Ok i /\ i < length ps /\ owns ps i u.
Proof.
  intros S1 Pos U. unfold random_choice.
  assert (N : ps <> []) by (intros ->; cbn in S1; lra).
  assert (Lp : 0 < length ps) by (destruct ps; cbn; [tauto|lia]).
  destruct (accumulate 0%Q ps) as [|c0 cs] eqn:E.
  { apply (f_equal (@length Q)) in E. rewrite accumulate_length in E. cbn in E. lia. }
  rewrite <- E. clear E c0 cs. rewrite accumulate_length.
  assert (T : (last (accumulate 0%Q ps) 0 == 1)%Q).
  { assert (G : forall (l : list Q) d, last l d = nth (length l - 1) l d).
    { induction l as [|a [|b l] IH]; intros d; auto. change (last (a :: b :: l) d) with (last (b :: l) d). rewrite IH. cbn. now rewrite Nat.sub_0_r. }
    rewrite G, accumulate_length, nth_accumulate by lia.
    replace (S (length ps - 1)) with (length ps) by lia. rewrite firstn_all. lra. }
  destruct (Qleb (last (accumulate 0%Q ps) 0%Q) 0%Q) eqn:Z; [qb; lra|].
  set (x := (u * last (accumulate 0%Q ps) 0)%Q). assert (X : (x == u)%Q) by (unfold x; rewrite T; lra).
  assert (Mono : forall i j, i <= j -> j < length ps ->
     (nth i (accumulate 0%Q ps) 0 <= nth j (accumulate 0%Q ps) 0)%Q).
  { intros i j I J. rewrite !nth_accumulate by lia.
    assert (firstn (S j) ps = firstn (S i) ps ++ firstn (j - i) (skipn (S i) ps)) as ->.
    { rewrite <- (firstn_skipn (S i) ps) at 1. rewrite firstn_app, firstn_firstn, firstn_length.
      replace (Nat.min (S j) (S i)) with (S i) by lia.
      replace (S j - Nat.min (S i) (length ps)) with (j - i) by lia. reflexivity. }
    rewrite qsum_app. assert (0 <= qsum (firstn (j - i) (skipn (S i) ps)))%Q.
    { apply qsum_nonneg. intros y I'. apply Pos. rewrite <- (firstn_skipn (S i) ps). apply in_or_app. right.
      rewrite <- (firstn_skipn (j - i) (skipn (S i) ps)). apply in_or_app. now left. }
    lra. }
  destruct (bisect_right_spec (accumulate 0%Q ps) x (length ps) (length ps) 0 (length ps - 1)) as (R1 & R2 & R3); auto; try lia.
  { intros i I1 I2. assert (i = length ps - 1) by lia. subst. rewrite nth_accumulate by lia.
    replace (S (length ps - 1)) with (length ps) by lia. rewrite firstn_all. lra. }
  set (i := bisect_right (length ps) (accumulate 0%Q ps) x 0 (length ps - 1)) in *.
  exists i. split; auto. split; [lia|]. unfold owns.
  assert (H2 : (x < nth i (accumulate 0%Q ps) 0)%Q) by (apply R3; lia).
  rewrite nth_accumulate in H2 by lia.
  split; [|lra]. destruct i as [|i]; [cbn; lra|].
  assert (H1 : (nth i (accumulate 0%Q ps) 0 <= x)%Q) by (apply R2; lia).
  rewrite nth_accumulate in H1 by lia. lra.
Qed.

Lemma get_index_spec ws u : ws <> [] -> all_positive ws -> (0 <= u < 1)%Q ->
  exists i ps, get_probabilities ws = Ok ps /\ length ps = length ws /\ (qsum ps == 1)%Q /\
    (forall x, In x ps -> (0 < x)%Q) /\ get_index ws u = Ok i /\ i < length ws /\ owns ps i u.
Proof.
  intros N H U. pose proof (probabilities_eq ws N H) as E. pose proof (qsum_positive ws N H) as Sp.
  unfold get_index. rewrite E. cbn [bind].
  set (ps := map (fun w => (w / qsum ws)%Q) ws) in *.
  assert (Pp : forall x, In x ps -> (0 < x)%Q).
  { intros x I. apply in_map_iff in I. destruct I as (w & <- & Iw). apply Qlt_shift_div_l; auto.
    specialize (H w Iw). lra. }
  assert (S1 : (qsum ps == 1)%Q).
  { unfold ps. rewrite qsum_scale by lra. field. lra. }
  assert (L : length ps = length ws) by apply map_length.
  destruct (choice_spec ps u S1) as (i & Ei & Li & Oi); auto.
  { intros x I. apply Qlt_le_weak. auto. }
  exists i, ps. rewrite <- L. repeat (split; auto).
Qed.

Lemma owns_unique ps i j u : (forall x, In x ps -> (0 <= x)%Q) -> owns ps i u -> owns ps j u -> i = j.
Proof.
  intros Pos (A1 & A2) (B1 & B2).
  assert (M : forall a b, a <= b -> (qsum (firstn a ps) <= qsum (firstn b ps))%Q).
  { intros a b L. assert (firstn b ps = firstn a ps ++ firstn (b - a) (skipn a ps)) as ->.
    { rewrite <- (firstn_skipn a ps) at 1. rewrite firstn_app, firstn_firstn, firstn_length.
      replace (Nat.min b a) with a by lia. f_equal.
      destruct (Nat.le_gt_cases a (length ps)); [f_equal; lia|].
      rewrite skipn_all2 by lia. now rewrite !firstn_nil. }
    rewrite qsum_app. assert (0 <= qsum (firstn (b - a) (skipn a ps)))%Q; [|lra].
    apply qsum_nonneg. intros y I'. apply Pos. rewrite <- (firstn_skipn a ps). apply in_or_app. right.
    rewrite <- (firstn_skipn (b - a) (skipn a ps)). apply in_or_app. now left. }
  destruct (lt_eq_lt_dec i j) as [[L|L]|L]; auto.
  - pose proof (M (S i) j L). lra.
  - pose proof (M (S j) i L). lra.
Qed.

Lemma update_positive l score i ws : (0 <= l < 1)%Q -> (0 <= score)%Q -> all_positive ws ->
  all_positive (update_weights l score i ws).
Proof.
  intros L Sc H w I. unfold update_weights in I. apply In_nth_error in I. destruct I as (j & Nj).
  rewrite nth_error_upd in Nj. destruct (i =? j).
  - destruct (nth_error ws j) as [w0|] eqn:N0; cbn in Nj; [|discriminate]. injection Nj as <-.
    apply nth_error_In in N0. specialize (H w0 N0).
    assert (0 < (1 - l) * w0)%Q by (apply Qmult_lt_0_compat; lra).
    assert (0 <= l * score / sum_score)%Q.
    { apply Qle_shift_div_l; [reflexivity|]. pose proof (Qmult_le_0_compat l score). lra. }
    lra.
  - apply H. eapply nth_error_In; eauto.
Qed.
