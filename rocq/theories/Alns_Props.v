(** The adaptive search properties (C31-C36, C75). *)
From Coq Require Import List ZArith QArith Bool Arith Lia Lqa Qfield Reals Qreals Lra.
From Verif Require Import Py PyLemmas Alns_Model Alns_Spec Alns_Proofs Alns_Proofs2.
Import ListNotations.
Open Scope nat_scope.
Open Scope list_scope.

(** A concrete search over integers used in the examples: the cost of [x] is [x], the
    destroy operator adds, the repair operators subtract once or twice. *)
Definition ex_problem : problem Z :=
  mkProblem (fun x => Ok (inject_Z x)) (fun x => Ok (x <=? -9)%Z)
    [fun _ x n => Ok (x + n)%Z]
    [fun _ x n => Ok (x - n)%Z; fun _ x n => Ok (x - 2 * n)%Z]
    (fun _ _ => true).
Definition ex_draws (k : nat) : draws := mkDraws (1 # 2) (if Nat.even k then 1 # 4 else 3 # 4) (1 # 2) (fun i => i) (fun i => i).

(** C31. The result is the first of the cheapest solutions met: the initial one or one of
    the candidates. *)
Theorem C31_returns_cheapest :
  forall Sol (pb : problem Sol) initial max_iter p l nr na ds best log,
    solve pb initial max_iter p l nr na ds = Ok (best, log) ->
    In best (initial :: candidates log) /\
    exists c, p_cost pb best = Ok c /\
      forall x, In x (initial :: candidates log) -> exists c', p_cost pb x = Ok c' /\ (c <= c')%Q.
Proof.
  intros Sol pb initial mi p l nr na ds best log H. unfold solve in H.
  apply bind_Ok in H. destruct H as (c & Ec & H). apply bind_Ok in H. destruct H as (b & Eb & H).
  assert (B : earliest_best (p_cost pb) [initial] initial).
  { exists [], [], c. repeat split; auto; intros x []. }
  assert (G : earliest_best (p_cost pb) (initial :: candidates log) best).
  { destruct b.
    - injection H as <- <-. exact B.
    - apply (rounds_spec pb p l nr na) with (pre := [initial]) in H; auto. apply H. }
  split; [now apply earliest_best_In in G|]. now apply earliest_best_cost in G.
Qed.
Theorem C31_never_worse_than_initial :
  forall Sol (pb : problem Sol) initial max_iter p l nr na ds best log,
    solve pb initial max_iter p l nr na ds = Ok (best, log) ->
    exists c c0, p_cost pb best = Ok c /\ p_cost pb initial = Ok c0 /\ (c <= c0)%Q.
Proof.
  intros * H. apply C31_returns_cheapest in H. destruct H as (_ & c & E & M).
  destruct (M initial (or_introl eq_refl)) as (c0 & E0 & L). eauto 6.
Qed.
Example C31_example : exists log, solve ex_problem (-1)%Z 3 (1 # 2) (1 # 2) 1 2 ex_draws = Ok ((-6)%Z, log) /\
  candidates log = [-2; -5; -6]%Z.
Proof. eexists. split; vm_compute; reflexivity. Qed.

(** C32. Invariants preserved by the operators hold of everything the search builds. *)
Theorem C32_invariants_preserved :
  forall Sol (pb : problem Sol) (P : Sol -> Prop) initial max_iter p l nr na ds best log,
    P initial ->
    (forall f rnd x y, In f (p_destroy pb) -> P x -> f rnd x nr = Ok y -> P y) ->
    (forall f rnd x y, In f (p_repair pb) -> P x -> f rnd x na = Ok y -> P y) ->
    solve pb initial max_iter p l nr na ds = Ok (best, log) ->
    P best /\ forall x, In x (candidates log) -> P x.
Proof.
  intros Sol pb P initial mi p l nr na ds best log P0 Hd Hr H. unfold solve in H.
  apply bind_Ok in H. destruct H as (c & Ec & H). apply bind_Ok in H. destruct H as (b & Eb & H).
  destruct b.
  - injection H as <- <-. split; auto. intros x [].
  - apply (rounds_preserve pb p l nr na P Hd Hr) in H; auto. destruct H as (H1 & H2). split; auto.
    intros x I. apply in_map_iff in I. destruct I as (e & <- & Ie). now apply H2.
Qed.
Example C32_example : (forall f rnd x y, In f (p_repair ex_problem) -> (x <= 0)%Z -> f rnd x 2%Z = Ok y -> (y <= 0)%Z).
Proof. intros f rnd x y [<-|[<-|[]]] L [= <-]; lia. Qed.

(** C33. Stopping. *)
Theorem C33_stops :
  forall Sol (pb : problem Sol) initial max_iter p l nr na ds best log,
    solve pb initial max_iter p l nr na ds = Ok (best, log) ->
    (p_complete pb initial = Ok true -> best = initial /\ log = []) /\
    (Z.of_nat (length log) <= Z.max max_iter 0)%Z /\
    (forall m, m < length log -> exists b,
       earliest_best (p_cost pb) (initial :: firstn m (candidates log)) b /\ p_complete pb b = Ok false) /\
    ((Z.of_nat (length log) < Z.max max_iter 0)%Z -> p_complete pb best = Ok true).
Proof.
  intros Sol pb initial mi p l nr na ds best log H. unfold solve in H.
  apply bind_Ok in H. destruct H as (c & Ec & H). apply bind_Ok in H. destruct H as (b & Eb & H).
  assert (B : earliest_best (p_cost pb) [initial] initial).
  { exists [], [], c. repeat split; auto; intros x []. }
  destruct b.
  - injection H as <- <-. cbn. repeat split; auto; try lia.
  - apply (rounds_spec pb p l nr na) with (pre := [initial]) in H; auto.
    destruct H as (_ & H2 & H3 & H4). split; [congruence|]. split; [lia|]. split; [exact H3|].
    intros. apply H4. lia.
Qed.
(** The solution called [b] above is unique. *)
Theorem C33_earliest_best_unique :
  forall Sol (pb : problem Sol) l b b',
    earliest_best (p_cost pb) l b -> earliest_best (p_cost pb) l b' -> b = b'.
Proof. intros Sol pb l b b'. apply earliest_best_unique. Qed.
Example C33_example : exists log, solve ex_problem (-1)%Z 100 (1 # 2) (1 # 2) 1 2 ex_draws = Ok ((-9)%Z, log) /\ length log = 4.
Proof. eexists. split; vm_compute; reflexivity. Qed.
Example C33_example_complete : solve ex_problem (-10)%Z 100 (1 # 2) (1 # 2) 1 2 ex_draws = Ok ((-10)%Z, []).
Proof. vm_compute; reflexivity. Qed.

(** C34. With a react factor in [0, 1), all weights stay positive in every round; the
    probabilities are positive and sum to one; the draw selects exactly the operator that
    owns the draw's sub-interval. *)
Theorem C34_weights_stay_positive :
  forall Sol (pb : problem Sol) initial max_iter p l nr na ds best log, (0 <= l < 1)%Q ->
    solve pb initial max_iter p l nr na ds = Ok (best, log) ->
    forall e, In e log ->
      length (e_dweights e) = length (p_destroy pb) /\ length (e_rweights e) = length (p_repair pb) /\
      (forall w, In w (e_dweights e) -> (0 < w)%Q) /\ (forall w, In w (e_rweights e) -> (0 < w)%Q).
Proof.
  intros Sol pb initial mi p l nr na ds best log L H e Ie. unfold solve in H.
  apply bind_Ok in H. destruct H as (c & Ec & H). apply bind_Ok in H. destruct H as (b & Eb & H).
  destruct b; [injection H as <- <-; destruct Ie|].
  assert (O : forall A (k : list A), all_positive (map (fun _ => 1%Q) k)).
  { intros A k w I. apply in_map_iff in I. destruct I as (x & <- & _). reflexivity. }
  pose proof (fun P1 P2 => rounds_weights _ _ _ _ _ _ _ _ _ _ L P1 P2 H e Ie) as W.
  cbn [s_dw s_rw] in W. rewrite !map_length in W.
  destruct W as (A1 & A2 & A3 & A4); auto.
Qed.
Theorem C34_draw :
  forall weights u, weights <> [] -> (forall w, In w weights -> (0 < w)%Q) -> unit_draw u ->
    exists ps i, get_probabilities weights = Ok ps /\ length ps = length weights /\
      (forall k w, nth_error weights k = Some w -> exists x, nth_error ps k = Some x /\ (x * qsum weights == w)%Q) /\
      (forall x, In x ps -> (0 <= x)%Q) /\ (qsum ps == 1)%Q /\
      get_index weights u = Ok i /\ i < length weights /\
      forall j, owns ps j u <-> j = i.
Proof.
  intros ws u N Pos U. destruct (get_index_spec ws u N Pos U) as (i & ps & E & Lp & S1 & Pp & Ei & Li & Oi).
  exists ps, i. split; auto. split; auto. split.
  { intros k w Nk. rewrite (probabilities_eq ws N Pos) in E. injection E as <-.
    rewrite nth_error_map, Nk. cbn. eexists. split; [reflexivity|]. field.
    pose proof (qsum_positive ws N Pos). Lqa.lra. }
  split; [intros x I; apply Qlt_le_weak; auto|]. split; auto. split; auto. split; auto.
  intros j. split; [|intros ->; auto]. intros Oj. eapply owns_unique; eauto. intros x I. apply Qlt_le_weak. auto.
Qed.
Example C34_example : get_index [1; 1; 2]%Q (6 # 10) = Ok 2 /\ get_index [1; 1; 2]%Q (3 # 10) = Ok 1.
Proof. split; vm_compute; reflexivity. Qed.

(** With react factor 1 the draw can fail, whatever the temperature schedule: one rejected
    round with a single operator leaves no weight. *)
Definition reject_problem : problem Z :=
  mkProblem (fun x => Ok (inject_Z x)) (fun _ => Ok false)
    [fun _ x n => Ok (x + n)%Z] [fun _ x n => Ok x] exceeds_exp.
Lemma exceeds_small u x : (1 # 2 <= u)%Q -> (x <= -1)%Q -> exceeds_exp u x = true.
Proof.
  intros U X. unfold exceeds_exp. destruct (Rlt_dec _ _) as [L|L]; auto. exfalso. apply L.
  apply Qle_Rle in U, X.
  assert (Q2R (1 # 2) = / 2)%R as EU by (unfold Q2R; cbn; lra).
  assert (Q2R (-1) = -1)%R as EX by (unfold Q2R; cbn; lra).
  rewrite EU in U. rewrite EX in X.
  assert (exp (Q2R x) <= exp (-1))%R.
  { destruct X as [X|X]; [left; now apply exp_increasing|rewrite X; right; reflexivity]. }
  assert (exp (-1) < / 2)%R; [|lra].
  replace (-1)%R with (Ropp 1) by lra. rewrite exp_Ropp. apply Rinv_lt_contravar.
  - pose proof (exp_pos 1). lra.
  - pose proof (exp_ineq1 1). lra.
Qed.
Theorem C34_full_reaction_fails :
  exists (pb : problem Z) initial ds, (forall k, unit_draw (d_destroy (ds k)) /\ unit_draw (d_repair (ds k)) /\ unit_draw (d_accept (ds k))) /\
    p_exceeds pb = exceeds_exp /\
    solve pb initial 2 (1 # 2) 1 1 1 ds = Raise ZeroDivisionError.
Proof.
  exists reject_problem, (-1)%Z, (fun _ => mkDraws (1 # 2) (1 # 2) (1 # 2) (fun i => i) (fun i => i)).
  split; [|split; [reflexivity|]].
  { intros k. repeat split; vm_compute; try reflexivity; discriminate. }
  unfold reject_problem.
  pose proof (exceeds_small (1 # 2) (100 * (0 - -1) / ((5 # 100) * (-1) / log_half * -1))) as E.
  specialize (E ltac:(vm_compute; discriminate) ltac:(vm_compute; discriminate)).
  revert E. generalize exceeds_exp. intros ex E.
  vm_compute in E. vm_compute. rewrite E. reflexivity.
Qed.

(** C35. Acceptance. *)
Definition acceptance_probability (T current candidate : Q) : R :=
  exp (100 * (Q2R candidate - Q2R current) / (Q2R T * Q2R current)).

Theorem C35_acceptance :
  forall Sol (pb : problem Sol) u tmp cur T cc ct,
    p_exceeds pb = exceeds_exp -> p_cost pb cur = Ok cc -> p_cost pb tmp = Ok ct ->
    ((ct < cc)%Q -> accept pb u tmp cur T = Ok true) /\
    ((cc < 0)%Q -> (0 < T)%Q -> (cc <= ct)%Q ->
      (exists a, accept pb u tmp cur T = Ok a /\
        (a = true <-> (Q2R u <= acceptance_probability T cc ct)%R) /\
        ((ct == cc)%Q -> unit_draw u -> a = true)) /\
      (0 < acceptance_probability T cc ct <= 1)%R).
Proof.
  intros Sol pb u tmp cur T cc ct Hx Ec Et. unfold accept. rewrite Ec, Et. cbn [bind].
  split.
  - intros L. destruct (Qltb ct cc) eqn:E; auto. qb. Lqa.lra.
  - intros Nc Pt L. destruct (Qltb ct cc) eqn:E; [qb; Lqa.lra|].
    destruct (exponent_nonpos (-1) T cc ct) as (X1 & X2); try Lqa.lra.
    destruct (Qeqb (T * cc) 0) eqn:Z; [qb; Lqa.lra|]. cbv zeta.
    destruct (Qltb exp_limit (100 * (ct - cc) / (T * cc))) eqn:Y; [qb; unfold exp_limit in Y; Lqa.lra|].
    assert (EQ : Q2R (100 * (ct - cc) / (T * cc)) = (100 * (Q2R ct - Q2R cc) / (Q2R T * Q2R cc))%R).
    { unfold Qdiv. rewrite Q2R_mult, Q2R_inv by Lqa.lra. rewrite !Q2R_mult, Q2R_minus.
      replace (Q2R 100) with 100%R by (unfold Q2R; cbn; lra). reflexivity. }
    assert (Le1 : (acceptance_probability T cc ct <= 1)%R).
    { unfold acceptance_probability. rewrite <- EQ. apply Qle_Rle in X2.
      replace (Q2R 0) with 0%R in X2 by (unfold Q2R; cbn; lra).
      rewrite <- exp_0. destruct X2 as [X2|X2]; [left; now apply exp_increasing|rewrite X2; right; reflexivity]. }
    split; [|split; [apply exp_pos|exact Le1]].
    eexists. split; [reflexivity|].
    assert (A : negb (p_exceeds pb u (100 * (ct - cc) / (T * cc))) = true <->
                (Q2R u <= acceptance_probability T cc ct)%R).
    { rewrite Hx. unfold exceeds_exp, acceptance_probability. rewrite EQ.
      destruct (Rlt_dec _ _); cbn; split; intros; try discriminate; auto; lra. }
    split; auto. intros Eq (U1 & U2). apply A.
    assert (acceptance_probability T cc ct = 1)%R as ->.
    { unfold acceptance_probability. rewrite (Qeq_eqR _ _ Eq). rewrite <- exp_0. f_equal. unfold Rdiv. ring. }
    apply Qlt_Rlt in U2. replace (Q2R 1) with 1%R in U2 by (unfold Q2R; cbn; lra). lra.
Qed.
(** The probability decreases (strictly) as the excess cost grows. *)
Theorem C35_probability_decreases :
  forall T cc ct ct', (cc < 0)%Q -> (0 < T)%Q -> (ct < ct')%Q ->
    (acceptance_probability T cc ct' < acceptance_probability T cc ct)%R.
Proof.
  intros T cc ct ct' Nc Pt L. unfold acceptance_probability. apply exp_increasing.
  apply Qlt_Rlt in Nc, Pt, L. replace (Q2R 0) with 0%R in * by (unfold Q2R; cbn; lra).
  assert (D : (Q2R T * Q2R cc < 0)%R) by nra.
  unfold Rdiv. assert (/ (Q2R T * Q2R cc) < 0)%R by (now apply Rinv_lt_0_compat). nra.
Qed.
Example C35_example : accept ex_problem (1 # 2) (-2)%Z (-1)%Z (1 # 10) = Ok true.
Proof. vm_compute. reflexivity. Qed.

(** C36. The search fails as soon as it has to judge against a current cost of zero ... *)
Theorem C36_search_fails_refuted :
  forall Sol (pb : problem Sol) initial k p l nr na ds, (0 <= l < 1)%Q ->
    p_destroy pb <> [] -> p_repair pb <> [] ->
    (forall n, unit_draw (d_destroy (ds n)) /\ unit_draw (d_repair (ds n))) ->
    (forall f rnd x, In f (p_destroy pb) -> exists y, f rnd x nr = Ok y) ->
    (forall f rnd x, In f (p_repair pb) -> exists y, f rnd x na = Ok y) ->
    (forall x, p_cost pb x = Ok 0%Q) -> p_complete pb initial = Ok false ->
    (0 < k)%Z -> solve pb initial k p l nr na ds = Raise ZeroDivisionError.
Proof.
  intros Sol pb initial k p l nr na ds L N1 N2 U Hd Hr Hc Hcomp K. unfold solve. rewrite Hc, Hcomp. cbn [bind].
  destruct (Z.to_nat k) as [|n] eqn:E; [lia|]. cbn [rounds]. unfold round.
  cbn [s_dw s_rw s_cur s_T s_best].
  assert (O : forall A (k : list A), all_positive (map (fun _ => 1%Q) k)).
  { intros A q w I. apply in_map_iff in I. destruct I as (x & <- & _). reflexivity. }
  destruct (U 0) as (U1 & U2).
  destruct (get_index_spec (map (fun _ => 1%Q) (p_destroy pb)) (d_destroy (ds 0))) as (i & _ & _ & _ & _ & _ & Ei & Li & _); auto.
  { intros X. apply N1. now apply map_eq_nil in X. }
  destruct (get_index_spec (map (fun _ => 1%Q) (p_repair pb)) (d_repair (ds 0))) as (j & _ & _ & _ & _ & _ & Ej & Lj & _); auto.
  { intros X. apply N2. now apply map_eq_nil in X. }
  rewrite Ei, Ej. cbn [bind]. rewrite map_length in Li, Lj.
  destruct (nth_error (p_destroy pb) i) as [fd|] eqn:Nd; [|apply nth_error_None in Nd; lia].
  destruct (nth_error (p_repair pb) j) as [fr|] eqn:Nr; [|apply nth_error_None in Nr; lia].
  rewrite (proj2 (py_nth_Ok _ _ _) Nd). cbn [bind].
  destruct (Hd fd (d_rnd1 (ds 0)) initial (nth_error_In _ _ Nd)) as (t1 & ->). cbn [bind].
  rewrite (proj2 (py_nth_Ok _ _ _) Nr). cbn [bind].
  destruct (Hr fr (d_rnd2 (ds 0)) t1 (nth_error_In _ _ Nr)) as (t2 & ->). cbn [bind].
  unfold accept. rewrite !Hc. cbn [bind]. reflexivity.
Qed.
Example C36_refuted_example :
  solve (mkProblem (fun _ : Z => Ok 0%Q) (fun _ => Ok false) [fun _ x n => Ok (x + n)%Z] [fun _ x n => Ok x] exceeds_exp)
    0%Z 1 (1 # 2) (1 # 2) 1 1 ex_draws = Raise ZeroDivisionError.
Proof. vm_compute. reflexivity. Qed.
(** ... and never fails when all costs are non-zero and have the sign of the initial one. *)
Theorem C36_search_never_fails_partial :
  forall Sol (pb : problem Sol) (P : Sol -> Prop) initial c0 k p l nr na ds, (0 <= l < 1)%Q -> (0 < p)%Q ->
    p_destroy pb <> [] -> p_repair pb <> [] ->
    (forall n, unit_draw (d_destroy (ds n)) /\ unit_draw (d_repair (ds n))) ->
    P initial -> p_cost pb initial = Ok c0 ->
    (forall f rnd x, In f (p_destroy pb) -> P x -> exists y, f rnd x nr = Ok y /\ P y) ->
    (forall f rnd x, In f (p_repair pb) -> P x -> exists y, f rnd x na = Ok y /\ P y) ->
    (forall x, P x -> exists c, p_cost pb x = Ok c /\ (0 < c * c0)%Q) ->
    (forall x, P x -> exists b, p_complete pb x = Ok b) ->
    exists best log, solve pb initial k p l nr na ds = Ok (best, log).
Proof.
  intros Sol pb P initial c0 k p l nr na ds L Pp N1 N2 U P0 E0 Hd Hr Hc Hb. unfold solve.
  rewrite E0. cbn [bind]. cbv zeta. destruct (Hb initial P0) as (b & Eb). rewrite Eb. cbn [bind].
  destruct b; [eauto|].
  destruct (Hc initial P0) as (c & Ec & Sc). assert (c = c0) by congruence. subst c.
  apply (rounds_ok pb p l nr na P c0 Hd Hr Hc Hb L Pp); auto; cbn.
  - unfold log_half. 
    setoid_replace ((5 # 100) * c0 / - (6931471805599453 # 10000000000000000) * c0)%Q
      with (- ((5 # 100) * / (6931471805599453 # 10000000000000000)) * (c0 * c0))%Q by (field; discriminate).
    assert (0 < (5 # 100) * / (6931471805599453 # 10000000000000000))%Q by reflexivity. Lqa.nra.
  - intros w I. apply in_map_iff in I. destruct I as (x & <- & _). reflexivity.
  - intros w I. apply in_map_iff in I. destruct I as (x & <- & _). reflexivity.
  - apply map_length.
  - apply map_length.
Qed.
(** Instance: integers below zero, the candidate is never above -1. *)
Example C36_example :
  let pb := mkProblem (fun x : Z => Ok (inject_Z x)) (fun _ => Ok false)
    [fun _ x n => Ok (Z.min (x + n) (-1))] [fun _ x n => Ok (x - n)%Z] exceeds_exp in
  exists best log, solve pb (-1)%Z 1000 (1 # 2) (1 # 2) 3 1 ex_draws = Ok (best, log).
Proof.
  intros pb.
  apply (C36_search_never_fails_partial Z pb (fun x => x < 0)%Z (-1)%Z (-1)%Q).
  - split; vm_compute; [discriminate|reflexivity].
  - reflexivity.
  - discriminate.
  - discriminate.
  - intros n. unfold ex_draws. cbn. destruct (Nat.even n); repeat split; vm_compute; try discriminate; reflexivity.
  - reflexivity.
  - reflexivity.
  - intros f rnd x [<-|[]] H. eexists. split; [reflexivity|]. lia.
  - intros f rnd x [<-|[]] H. eexists. split; [reflexivity|]. lia.
  - intros x H. eexists. split; [reflexivity|]. unfold Qlt, Qmult, inject_Z. cbn. lia.
  - intros x _. exists false. reflexivity.
Qed.

(** C75. The trajectory: in round [k] the candidate is obtained from the last accepted
    candidate (or the initial solution) with the operators drawn from the current weights;
    the temperature has decayed [k] times; each weight follows from the scores of the
    rounds that used its operator. *)
Theorem C75_trajectory :
  forall Sol (pb : problem Sol) initial max_iter p l nr na ds best log,
    solve pb initial max_iter p l nr na ds = Ok (best, log) ->
    forall k e, nth_error log k = Some e ->
      let past := firstn k log in
      (exists c0, p_cost pb initial = Ok c0 /\
         (e_temperature e == p ^ Z.of_nat k * ((5 # 100) * c0 / log_half))%Q) /\
      (forall i, i < length (p_destroy pb) -> nth_error (e_dweights e) i = Some (weight_after e_destroy l i past 1)) /\
      (forall i, i < length (p_repair pb) -> nth_error (e_rweights e) i = Some (weight_after e_repair l i past 1)) /\
      get_index (e_dweights e) (d_destroy (ds k)) = Ok (e_destroy e) /\
      get_index (e_rweights e) (d_repair (ds k)) = Ok (e_repair e) /\
      (exists f g, nth_error (p_destroy pb) (e_destroy e) = Some f /\ nth_error (p_repair pb) (e_repair e) = Some g /\
         f (d_rnd1 (ds k)) (current_after initial past) nr = Ok (e_destroyed e) /\
         g (d_rnd2 (ds k)) (e_destroyed e) na = Ok (e_candidate e)) /\
      accept pb (d_accept (ds k)) (e_candidate e) (current_after initial past) (e_temperature e) = Ok (e_accepted e).
Proof.
  intros Sol pb initial mi p l nr na ds best log H k e Nk past. unfold solve in H.
  apply bind_Ok in H. destruct H as (c & Ec & H). apply bind_Ok in H. destruct H as (b & Eb & H).
  destruct b; [injection H as <- <-; destruct k; discriminate|].
  apply (rounds_trace pb p l nr na) with (k := k) (e := e) in H; auto.
  destruct H as (H1 & H2 & H3 & H4 & H5 & H6 & (f & Nf & Ff) & (g & Ng & Fg) & H9 & _).
  cbn [s_cur s_T s_dw s_rw] in *. fold past in H1, H3, H4. rewrite H1 in *.
  assert (O : forall A (q : list A) i, i < length q -> nth_error (map (fun _ => 1%Q) q) i = Some 1%Q).
  { intros A q i Li. rewrite nth_error_map. destruct (nth_error q i) eqn:X; auto. apply nth_error_None in X. lia. }
  split; [eauto|]. split; [intros i Li; rewrite H3, O by auto; reflexivity|].
  split; [intros i Li; rewrite H4, O by auto; reflexivity|]. split; auto. split; auto. split; [eauto 8|auto].
Qed.
(** The score of a round: 3 for a new best candidate, 1 for another accepted one, 0 for a
    rejected one.  The score 2 meant for candidates better than the current solution is
    never given. *)
Theorem C75_scores :
  forall Sol (pb : problem Sol) initial max_iter p l nr na ds best log,
    solve pb initial max_iter p l nr na ds = Ok (best, log) ->
    forall k e, nth_error log k = Some e ->
      (e_score e = 3%Q <->
        (forall x, In x (initial :: firstn k (candidates log)) ->
           exists cx ce, p_cost pb x = Ok cx /\ p_cost pb (e_candidate e) = Ok ce /\ (ce < cx)%Q)) /\
      (e_score e <> 3%Q -> e_score e = if e_accepted e then 1%Q else 0%Q).
Proof.
  intros Sol pb initial mi p l nr na ds best log H k e Nk. unfold solve in H.
  apply bind_Ok in H. destruct H as (c & Ec & H). apply bind_Ok in H. destruct H as (bb & Eb & H).
  destruct bb; [injection H as <- <-; destruct k; discriminate|].
  pose proof (rounds_trace pb p l nr na _ _ _ _ _ H) as Tr.
  assert (B : forall m b, (match m with O => Some initial | S m => option_map e_best (nth_error log m) end) = Some b ->
     m <= length log -> earliest_best (p_cost pb) (initial :: firstn m (candidates log)) b).
  { induction m as [|m IH]; intros b Eb' Lm.
    - injection Eb' as <-. exists [], [], c. repeat split; auto; intros x [].
    - destruct (nth_error log m) as [em|] eqn:Nm; [|discriminate]. injection Eb' as <-.
      destruct (Tr m em Nm) as (_ & _ & _ & _ & _ & _ & _ & _ & _ & (b & cx & cb & B0 & B1 & B2 & B3 & B4)).
      cbn [s_best] in B0. pose proof (IH b B0 ltac:(lia)) as IHb.
      pose proof (earliest_best_snoc pb _ _ _ _ _ IHb B1 B2) as X. rewrite <- B3 in X.
      assert (firstn (S m) (candidates log) = firstn m (candidates log) ++ [e_candidate em]) as ->; [|exact X].
      unfold candidates. clear - Nm. revert m Nm. induction log as [|x log IHl]; intros [|m] Nm; try discriminate; cbn.
      { now injection Nm as ->. }
      f_equal. now apply IHl. }
  destruct (Tr k e Nk) as (_ & _ & _ & _ & _ & _ & _ & _ & _ & (b & cx & cb & B0 & B1 & B2 & B3 & B4)).
  cbn [s_best] in B0.
  assert (Lk : k <= length log) by (apply Nat.lt_le_incl, nth_error_Some; congruence).
  pose proof (B k b B0 Lk) as Bk. destruct (earliest_best_cost pb _ _ Bk) as (cb' & E' & M).
  assert (cb' = cb) by congruence. subst cb'. rewrite B4. split.
  - destruct (Qltb cx cb) eqn:Lt; qb.
    + split; auto. intros _ x I. destruct (M x I) as (c' & Ex & Lx). exists c', cx. repeat split; auto. Lqa.lra.
    + split; [destruct (e_accepted e); discriminate|]. intros Hx.
      destruct (Hx b (earliest_best_In pb _ _ Bk)) as (c1 & c2 & X1 & X2 & X3).
      assert (c1 = cb) by congruence. assert (c2 = cx) by congruence. subst. Lqa.lra.
  - destruct (Qltb cx cb); auto. intros X. now destruct X.
Qed.
Example C75_example : exists best log, solve ex_problem (-1)%Z 3 (1 # 2) (1 # 2) 1 2 ex_draws = Ok (best, log) /\
  map e_score log = [3; 3; 3]%Q /\ map e_repair log = [0; 1; 0].
Proof. do 2 eexists. split; [vm_compute; reflexivity|]. split; reflexivity. Qed.

Print Assumptions C31_returns_cheapest.
Print Assumptions C31_never_worse_than_initial.
Print Assumptions C32_invariants_preserved.
Print Assumptions C33_stops.
Print Assumptions C33_earliest_best_unique.
Print Assumptions C34_weights_stay_positive.
Print Assumptions C34_draw.
Print Assumptions C34_full_reaction_fails.
Print Assumptions C35_acceptance.
Print Assumptions C35_probability_decreases.
Print Assumptions C36_search_fails_refuted.
Print Assumptions C36_search_never_fails_partial.
Print Assumptions C75_trajectory.
Print Assumptions C75_scores.
