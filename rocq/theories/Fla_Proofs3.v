(** Proofs about the floating-point search: what it returns, its trajectory. *)
From Coq Require Import List ZArith Bool Arith Reals Lra Lia Psatz.
From Flocq Require Import Core.Core.
From Verif Require Import Py PyLemmas Fl_Model Fl_Spec Fl_Proofs Fls_Model Fls_Spec Fla_Model Fla_Spec Fla_Proofs Fla_Proofs2.
Import ListNotations.
Open Scope nat_scope.
Open Scope list_scope.

Section P.
  Context {Sol : Type}.
  Variable pb : problem Sol.
  Let cost := p_cost pb.

  Lemma earliest_best_cost l b : earliest_best cost l b -> exists c, cost b = Ok c /\
    forall x, In x l -> exists c', cost x = Ok c' /\ (c <= c')%Z.
  Proof.
    intros (l1 & l2 & c & -> & E & H1 & H2). exists c. split; auto. intros x I.
    apply in_app_or in I. destruct I as [I|[<-|I]].
    - destruct (H1 x I) as (c' & E' & L). exists c'. split; auto. lia.
    - exists c. split; auto. lia.
    - auto.
  Qed.
  Lemma earliest_best_In l b : earliest_best cost l b -> In b l.
  Proof. intros (l1 & l2 & c & -> & _). apply in_or_app. right. now left. Qed.

  Lemma earliest_best_unique l b b' : earliest_best cost l b -> earliest_best cost l b' -> b = b'.
  Proof.
    intros (l1 & l2 & c & -> & E & H1 & H2) (k1 & k2 & d & El & E' & K1 & K2).
    revert k1 El H1 K1. induction l1 as [|x l1 IH]; intros [|y k1] El H1 K1; cbn in El; injection El as El1 El2; auto.
    - subst. destruct (K1 y (or_introl eq_refl)) as (c' & A & B).
      assert (In b' (k1 ++ b' :: k2)) as I by (apply in_or_app; right; now left).
      destruct (H2 b' I) as (c2 & A2 & B2). assert (c' = c) by congruence. assert (c2 = d) by congruence. subst. lia.
    - subst. destruct (H1 b' (or_introl eq_refl)) as (c' & A & B).
      assert (In b (l1 ++ b :: l2)) as I by (apply in_or_app; right; now left).
      destruct (K2 b I) as (c2 & A2 & B2). assert (c' = d) by congruence. assert (c2 = c) by congruence. subst. lia.
    - subst. apply (IH k1); auto; intros z Iz; [apply H1|apply K1]; now right.
  Qed.

  Lemma earliest_best_snoc l b x cx cb : earliest_best cost l b -> cost x = Ok cx -> cost b = Ok cb ->
    earliest_best cost (l ++ [x]) (if (cx <? cb)%Z then x else b).
  Proof.
    intros B Ex Eb. pose proof (earliest_best_cost _ _ B) as (c & Ec & Hm).
    assert (c = cb) by congruence. subst c. destruct (Z.ltb_spec cx cb) as [L|L].
    - exists l, [], cx. repeat split; auto; [|intros ? []].
      intros y I. destruct (Hm y I) as (c' & E' & L'). exists c'. split; auto. lia.
    - destruct B as (l1 & l2 & c & -> & E & H1 & H2). assert (c = cb) by congruence. subst c.
      exists l1, (l2 ++ [x]), cb. split; [now rewrite <- app_assoc|]. split; [auto|]. split; auto.
      intros y I. apply in_app_or in I. destruct I as [I|[<-|[]]]; auto. exists cx. split; auto.
  Qed.

  Variables (p l : float) (nr na : Z).

  (** What a successful round does. *)
  Lemma round_inv d s s' e fin : round pb p l nr na d s = Ok (s', e, fin) ->
    get_index (s_dw s) (d_destroy d) = Ok (e_destroy e) /\
    get_index (s_rw s) (d_repair d) = Ok (e_repair e) /\
    e_dweights e = s_dw s /\ e_rweights e = s_rw s /\
    e_temperature e = s_T s /\ e_current e = s_cur s /\ e_best e = s_best s' /\
    (exists fd, nth_error (p_destroy pb) (e_destroy e) = Some fd /\ fd (d_rnd1 d) (s_cur s) nr = Ok (e_destroyed e)) /\
    (exists fr, nth_error (p_repair pb) (e_repair e) = Some fr /\ fr (d_rnd2 d) (e_destroyed e) na = Ok (e_candidate e)) /\
    accept pb (d_accept d) (e_candidate e) (s_cur s) (s_T s) = Ok (e_accepted e) /\
    s_cur s' = (if e_accepted e then e_candidate e else s_cur s) /\
    (exists cx cb, cost (e_candidate e) = Ok cx /\ cost (s_best s) = Ok cb /\
       s_best s' = (if (cx <? cb)%Z then e_candidate e else s_best s) /\
       e_score e = (if (cx <? cb)%Z then 3 else if e_accepted e then 1 else 0)%Z) /\
    p_complete pb (s_best s') = Ok fin /\
    (fin = false -> s_T s' = fmul p (s_T s) /\
       s_dw s' = update_weights l (e_score e) (e_destroy e) (s_dw s) /\
       s_rw s' = update_weights l (e_score e) (e_repair e) (s_rw s)).
  Proof.
    unfold round. intros H.
    apply bind_Ok in H. destruct H as (i & Hi & H). apply bind_Ok in H. destruct H as (j & Hj & H).
    apply bind_Ok in H. destruct H as (fd & Hfd & H). apply bind_Ok in H. destruct H as (t1 & Ht1 & H).
    apply bind_Ok in H. destruct H as (fr & Hfr & H). apply bind_Ok in H. destruct H as (tmp & Htmp & H).
    apply bind_Ok in H. destruct H as (a & Ha & H). cbv zeta in H.
    apply bind_Ok in H. destruct H as (score1 & Hs1 & H). apply bind_Ok in H. destruct H as (ct & Hct & H).
    apply bind_Ok in H. destruct H as (cb & Hcb & H). apply bind_Ok in H. destruct H as (done & Hd & H).
    apply py_nth_Ok in Hfd, Hfr.
    assert (Hsc : score1 = if a then 1%Z else 0%Z).
    { destruct a; [|now injection Hs1 as <-]. rewrite Hct in Hs1. cbn in Hs1. injection Hs1 as <-.
      now rewrite Z.ltb_irrefl. }
    assert (X : exists cx cb', cost tmp = Ok cx /\ cost (s_best s) = Ok cb' /\
       (if (ct <? cb)%Z then tmp else s_best s) = (if (cx <? cb')%Z then tmp else s_best s) /\
       (if (ct <? cb)%Z then best_score else score1) = (if (cx <? cb')%Z then 3 else if a then 1 else 0)%Z).
    { exists ct, cb. repeat split; auto. destruct ((ct <? cb)%Z); auto. }
    destruct done; injection H as <- <- <-; cbn; repeat match goal with |- _ /\ _ => split end;
      eauto; intros; try discriminate; auto.
  Qed.

  Lemma rounds_spec : forall k ds s pre best log,
    earliest_best cost pre (s_best s) -> p_complete pb (s_best s) = Ok false ->
    rounds pb p l nr na k ds s = Ok (best, log) ->
    earliest_best cost (pre ++ candidates log) best /\ length log <= k /\
    (forall m, m < length log -> exists b, earliest_best cost (pre ++ firstn m (candidates log)) b /\
                                           p_complete pb b = Ok false) /\
    (length log < k -> p_complete pb best = Ok true).
  Proof.
    induction k as [|k IH]; intros ds s pre best log B Cp H; cbn [rounds] in H.
    - injection H as <- <-. cbn. rewrite app_nil_r. repeat split; auto; try lia.
    - apply bind_Ok in H. destruct H as (((s', e), fin) & R & H).
      apply round_inv in R. destruct R as (_ & _ & _ & _ & _ & _ & _ & _ & _ & _ & _ & (cx & cb & Ex & Eb & Es & _) & Hd & _).
      pose proof (earliest_best_snoc _ _ _ _ _ B Ex Eb) as B'. rewrite <- Es in B'.
      destruct fin.
      + injection H as <- <-. cbn. repeat split; auto; try lia.
        intros m Hm. assert (m = 0) by lia. subst. cbn. rewrite app_nil_r. eauto.
      + apply bind_Ok in H. destruct H as ((best', log') & R & H). cbn in H. injection H as <- <-.
        destruct (IH _ _ _ _ _ B' Hd R) as (I1 & I2 & I3 & I4). cbn. rewrite <- app_assoc in I1. cbn in I1.
        split; auto. split; [lia|]. split.
        * intros [|m] Hm; [cbn; rewrite app_nil_r; eauto|].
          destruct (I3 m) as (b & Hb & Cb); [lia|]. exists b. rewrite <- app_assoc in Hb. auto.
        * intros. apply I4. lia.
  Qed.

  (** Invariants of solutions. *)
  Variable P : Sol -> Prop.
  Hypothesis Hdes : forall f rnd x y, In f (p_destroy pb) -> P x -> f rnd x nr = Ok y -> P y.
  Hypothesis Hrep : forall f rnd x y, In f (p_repair pb) -> P x -> f rnd x na = Ok y -> P y.

  Lemma rounds_preserve : forall k ds s best log,
    P (s_cur s) -> P (s_best s) -> rounds pb p l nr na k ds s = Ok (best, log) ->
    P best /\ forall e, In e log -> P (e_destroyed e) /\ P (e_candidate e).
  Proof.
    induction k as [|k IH]; intros ds s best log Pc Pb H; cbn [rounds] in H.
    - injection H as <- <-. split; auto. intros e [].
    - apply bind_Ok in H. destruct H as (((s', e), fin) & R & H).
      apply round_inv in R.
      destruct R as (_ & _ & _ & _ & _ & _ & _ & (fd & Nd & Fd) & (fr & Nr & Fr) & _ & Ec & (cx & cb & _ & _ & Es & _) & _ & _).
      assert (P (e_destroyed e)) as P1 by (exact (Hdes _ _ _ _ (nth_error_In _ _ Nd) Pc Fd)).
      assert (P (e_candidate e)) as P2 by (exact (Hrep _ _ _ _ (nth_error_In _ _ Nr) P1 Fr)).
      assert (P (s_best s')) as P3 by (rewrite Es; destruct ((cx <? cb)%Z); auto).
      assert (P (s_cur s')) as P4 by (rewrite Ec; destruct (e_accepted e); auto).
      destruct fin.
      + injection H as <- <-. split; auto. intros e' [<-|[]]; auto.
      + apply bind_Ok in H. destruct H as ((best', log') & R & H). cbn in H. injection H as <- <-.
        destruct (IH _ _ _ _ P4 P3 R) as (I1 & I2). split; auto. intros e' [<-|I]; auto.
  Qed.
End P.

Definition all_fractions (ws : list float) : Prop := forall w, In w ws -> fraction w.
Section T.
  Context {Sol : Type}.
  Variable pb : problem Sol.
  Variables (p l : float) (nr na : Z).

  Lemma current_after_cons (init : Sol) e log :
    current_after init (e :: log) = current_after (if e_accepted e then e_candidate e else init) log.
  Proof.
    unfold current_after. cbn [filter]. destruct (e_accepted e); auto. cbn [map].
    destruct (map e_candidate (filter e_accepted log)) as [|a r] eqn:E; auto.
    assert (G : forall (r : list Sol) a d d', last (a :: r) d = last (a :: r) d').
    { clear. induction r as [|b r IH]; intros a d d'; auto.
      change (last (a :: b :: r) d) with (last (b :: r) d). change (last (a :: b :: r) d') with (last (b :: r) d'). auto. }
    change (last (e_candidate e :: a :: r) init) with (last (a :: r) init). apply G.
  Qed.

  Lemma nth_update_weights sc i ws j :
    nth_error (update_weights l sc i ws) j =
    option_map (fun w => if i =? j then fadd (fmul (fsub (of_Z 1) l) w) (fdiv (fmul l (of_Z sc)) (of_Z 6)) else w) (nth_error ws j).
  Proof.
    unfold update_weights. rewrite nth_error_upd. destruct (i =? j); auto. now destruct (nth_error ws j).
  Qed.
  Lemma update_length sc i ws : length (update_weights l sc i ws) = length ws.
  Proof. apply upd_length. Qed.

  (** Everything about the [k]-th round, relative to the state [s] before the first. *)
  Definition round_facts (ds : nat -> draws) (s : state Sol) (log : list (entry Sol)) (k : nat) (e : entry Sol) : Prop :=
    e_current e = current_after (s_cur s) (firstn k log) /\
    e_temperature e = cooled p k (s_T s) /\
    (forall i, nth_error (e_dweights e) i =
               option_map (weight_after e_destroy l i (firstn k log)) (nth_error (s_dw s) i)) /\
    (forall i, nth_error (e_rweights e) i =
               option_map (weight_after e_repair l i (firstn k log)) (nth_error (s_rw s) i)) /\
    get_index (e_dweights e) (d_destroy (ds k)) = Ok (e_destroy e) /\
    get_index (e_rweights e) (d_repair (ds k)) = Ok (e_repair e) /\
    (exists fd, nth_error (p_destroy pb) (e_destroy e) = Some fd /\
                fd (d_rnd1 (ds k)) (e_current e) nr = Ok (e_destroyed e)) /\
    (exists fr, nth_error (p_repair pb) (e_repair e) = Some fr /\
                fr (d_rnd2 (ds k)) (e_destroyed e) na = Ok (e_candidate e)) /\
    accept pb (d_accept (ds k)) (e_candidate e) (e_current e) (e_temperature e) = Ok (e_accepted e) /\
    (exists b cx cb, (match k with O => Some (s_best s) | S m => option_map e_best (nth_error log m) end) = Some b /\
       p_cost pb (e_candidate e) = Ok cx /\ p_cost pb b = Ok cb /\
       e_best e = (if (cx <? cb)%Z then e_candidate e else b) /\
       e_score e = (if (cx <? cb)%Z then 3 else if e_accepted e then 1 else 0)%Z).

  Lemma rounds_trace : forall n ds s best log,
    rounds pb p l nr na n ds s = Ok (best, log) ->
    forall k e, nth_error log k = Some e -> round_facts ds s log k e.
  Proof.
    induction n as [|n IH]; intros ds s best log H; cbn [rounds] in H.
    - injection H as <- <-. intros [|k] e; discriminate.
    - apply bind_Ok in H. destruct H as (((s', e0), fin) & R & H).
      apply round_inv in R.
      destruct R as (G1 & G2 & W1 & W2 & Tm & Cu & Be & Fd & Fr & Ac & Ec & Bs & Hd & Nx).
      assert (H0 : forall log', round_facts ds s (e0 :: log') 0 e0).
      { intros log'. unfold round_facts. cbn [firstn]. rewrite Cu, W1, W2, Tm.
        repeat match goal with |- _ /\ _ => split end; auto.
        - intros i. now destruct (nth_error (s_dw s) i).
        - intros i. now destruct (nth_error (s_rw s) i).
        - destruct Bs as (cx & cb & B1 & B2 & B3 & B4). exists (s_best s), cx, cb. rewrite Be. auto. }
      destruct fin.
      + injection H as <- <-. intros [|k] e; cbn; [intros [= <-]; auto|destruct k; discriminate].
      + apply bind_Ok in H. destruct H as ((best', log') & R & H). cbn [fst snd] in H. injection H as <- <-.
        intros [|k] e; cbn [nth_error]; [intros [= <-]; auto|]. intros N.
        specialize (IH _ _ _ _ R k e N). destruct (Nx eq_refl) as (N1 & N2 & N3).
        destruct IH as (I1 & I2 & I3 & I4 & I5 & I6 & I7 & I8 & I9 & I10).
        unfold round_facts. cbn [firstn].
        repeat match goal with |- _ /\ _ => split end; auto.
        * rewrite I1, Ec. symmetry. apply current_after_cons.
        * rewrite I2, N1. reflexivity.
        * intros i. rewrite I3, N2, nth_update_weights. cbn [weight_after].
          destruct (nth_error (s_dw s) i); cbn [option_map]; auto.
        * intros i. rewrite I4, N3, nth_update_weights. cbn [weight_after].
          destruct (nth_error (s_rw s) i); cbn [option_map]; auto.
        * destruct I10 as (b & cx & cb & B0 & B1 & B2 & B3 & B4). exists b, cx, cb. split; [|auto].
          destruct k as [|k]; cbn [nth_error option_map]; [|exact B0]. injection B0 as <-. now rewrite Be.
  Qed.

  (** The weights along a run. *)
  Lemma rounds_weights : forall n ds s best log, fraction l ->
    all_fractions (s_dw s) -> all_fractions (s_rw s) ->
    rounds pb p l nr na n ds s = Ok (best, log) ->
    forall e, In e log -> all_fractions (e_dweights e) /\ all_fractions (e_rweights e) /\
      length (e_dweights e) = length (s_dw s) /\ length (e_rweights e) = length (s_rw s).
  Proof.
    induction n as [|n IH]; intros ds s best log L P1 P2 H; cbn [rounds] in H.
    - injection H as <- <-. intros e [].
    - apply bind_Ok in H. destruct H as (((s', e0), fin) & R & H).
      apply round_inv in R.
      destruct R as (G1 & G2 & W1 & W2 & Tm & Cu & Be & Fd & Fr & Ac & Ec & Bs & Hd & Nx).
      assert (H0 : all_fractions (e_dweights e0) /\ all_fractions (e_rweights e0) /\
        length (e_dweights e0) = length (s_dw s) /\ length (e_rweights e0) = length (s_rw s)).
      { rewrite W1, W2. auto. }
      destruct fin.
      + injection H as <- <-. intros e [<-|[]]; auto.
      + apply bind_Ok in H. destruct H as ((best', log') & R & H). cbn [fst snd] in H. injection H as <- <-.
        destruct (Nx eq_refl) as (N1 & N2 & N3).
        assert (Sc : (0 <= e_score e0 <= 3)%Z).
        { destruct Bs as (cx & cb & _ & _ & _ & ->). destruct (cx <? cb)%Z, (e_accepted e0); lia. }
        intros e [<-|I]; auto.
        assert (Q1 : all_fractions (s_dw s')) by (rewrite N2; unfold all_fractions; apply update_fraction; auto).
        assert (Q2 : all_fractions (s_rw s')) by (rewrite N3; unfold all_fractions; apply update_fraction; auto).
        destruct (IH _ _ _ _ L Q1 Q2 R e I) as (A1 & A2 & A3 & A4).
        rewrite N2, update_length in A3. rewrite N3, update_length in A4. auto.
  Qed.

End T.
