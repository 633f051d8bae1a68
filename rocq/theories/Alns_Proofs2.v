(** Trajectory and totality of the adaptive search. *)
From Coq Require Import List ZArith QArith Qpower Bool Arith Lia Lqa Qfield.
From Verif Require Import Py PyLemmas Alns_Model Alns_Spec Alns_Proofs.
Import ListNotations.
Open Scope nat_scope.
Open Scope list_scope.

Section T.
  Context {Sol : Type}.
  Variable pb : problem Sol.
  Variables (p l : Q) (nr na : Z).

  Lemma current_after_cons (init : Sol) e log :
    current_after init (e :: log) = current_after (if e_accepted e then e_candidate e else init) log.
  Proof.
    unfold current_after. cbn [filter]. destruct (e_accepted e); auto. cbn [map].
    destruct (map e_candidate (filter e_accepted log)) as [|a r] eqn:E; auto.
    assert (G : forall (r : list Sol) a d d', last (a :: r) d = last (a :: r) d').
    { clear. induction r as [|b r IH]; intros a d d'; auto.
      change (last (a :: b :: r) d) with (last (b :: r) d). change (last (a :: b :: r) d') with (last (b :: r) d'). auto. }
    change (last (e_candidate e :: a :: r) init) with (last (a :: r) init). apply G.
  Qed.

  Lemma nth_update_weights sc i ws j :
    nth_error (update_weights l sc i ws) j =
    option_map (fun w => if i =? j then ((1 - l) * w + l * sc / 6)%Q else w) (nth_error ws j).
  Proof.
    unfold update_weights. rewrite nth_error_upd. destruct (i =? j); auto. now destruct (nth_error ws j).
  Qed.
  Lemma update_length sc i ws : length (update_weights l sc i ws) = length ws.
  Proof. apply upd_length. Qed.

  (** Everything about the [k]-th round, relative to the state [s] before the first. *)
  Definition round_facts (ds : nat -> draws) (s : state Sol) (log : list (entry Sol)) (k : nat) (e : entry Sol) : Prop :=
    e_current e = current_after (s_cur s) (firstn k log) /\
    (e_temperature e == p ^ Z.of_nat k * s_T s)%Q /\
    (forall i, nth_error (e_dweights e) i =
               option_map (weight_after e_destroy l i (firstn k log)) (nth_error (s_dw s) i)) /\
    (forall i, nth_error (e_rweights e) i =
               option_map (weight_after e_repair l i (firstn k log)) (nth_error (s_rw s) i)) /\
    get_index (e_dweights e) (d_destroy (ds k)) = Ok (e_destroy e) /\
    get_index (e_rweights e) (d_repair (ds k)) = Ok (e_repair e) /\
    (exists fd, nth_error (p_destroy pb) (e_destroy e) = Some fd /\
                fd (d_rnd1 (ds k)) (e_current e) nr = Ok (e_destroyed e)) /\
    (exists fr, nth_error (p_repair pb) (e_repair e) = Some fr /\
                fr (d_rnd2 (ds k)) (e_destroyed e) na = Ok (e_candidate e)) /\
    accept pb (d_accept (ds k)) (e_candidate e) (e_current e) (e_temperature e) = Ok (e_accepted e) /\
    (exists b cx cb, (match k with O => Some (s_best s) | S m => option_map e_best (nth_error log m) end) = Some b /\
       p_cost pb (e_candidate e) = Ok cx /\ p_cost pb b = Ok cb /\
       e_best e = (if Qltb cx cb then e_candidate e else b) /\
       e_score e = (if Qltb cx cb then 3 else if e_accepted e then 1 else 0)%Q).

  Lemma rounds_trace : forall n ds s best log,
    rounds pb p l nr na n ds s = Ok (best, log) ->
    forall k e, nth_error log k = Some e -> round_facts ds s log k e.
  Proof.
    induction n as [|n IH]; intros ds s best log H; cbn [rounds] in H.
    - injection H as <- <-. intros [|k] e; discriminate.
    - apply bind_Ok in H. destruct H as (((s', e0), fin) & R & H).
      apply round_inv in R.
      destruct R as (G1 & G2 & W1 & W2 & Tm & Cu & Be & Fd & Fr & Ac & Ec & Bs & Hd & Nx).
      assert (H0 : forall log', round_facts ds s (e0 :: log') 0 e0).
      { intros log'. unfold round_facts. cbn [firstn]. rewrite Cu, W1, W2, Tm.
        repeat match goal with |- _ /\ _ => split end; auto.
        - cbn. lra.
        - intros i. now destruct (nth_error (s_dw s) i).
        - intros i. now destruct (nth_error (s_rw s) i).
        - destruct Bs as (cx & cb & B1 & B2 & B3 & B4). exists (s_best s), cx, cb. rewrite Be. auto. }
      destruct fin.
      + injection H as <- <-. intros [|k] e; cbn; [intros [= <-]; auto|destruct k; discriminate].
      + apply bind_Ok in H. destruct H as ((best', log') & R & H). cbn [fst snd] in H. injection H as <- <-.
        intros [|k] e; cbn [nth_error]; [intros [= <-]; auto|]. intros N.
        specialize (IH _ _ _ _ R k e N). destruct (Nx eq_refl) as (N1 & N2 & N3).
        destruct IH as (I1 & I2 & I3 & I4 & I5 & I6 & I7 & I8 & I9 & I10).
        unfold round_facts. cbn [firstn].
        repeat match goal with |- _ /\ _ => split end; auto.
        * rewrite I1, Ec. symmetry. apply current_after_cons.
        * rewrite I2, N1. rewrite Nat2Z.inj_succ, <- Z.add_1_r.
          assert (Pw : (p ^ (Z.of_nat k + 1) == p * p ^ Z.of_nat k)%Q).
          { clear. destruct k as [|k]; [cbn; ring|]. 
            change (Z.of_nat (S k)) with (Zpos (Pos.of_succ_nat k)).
            change (Zpos (Pos.of_succ_nat k) + 1)%Z with (Zpos (Pos.of_succ_nat k + 1)). cbn.
            rewrite Pos.add_1_r. rewrite <- Pos.add_1_l. rewrite Qpower_plus_positive. cbn. reflexivity. }
          rewrite Pw. ring.
        * intros i. rewrite I3, N2, nth_update_weights. cbn [weight_after].
          destruct (nth_error (s_dw s) i); cbn [option_map]; auto.
        * intros i. rewrite I4, N3, nth_update_weights. cbn [weight_after].
          destruct (nth_error (s_rw s) i); cbn [option_map]; auto.
        * destruct I10 as (b & cx & cb & B0 & B1 & B2 & B3 & B4). exists b, cx, cb. split; [|auto].
          destruct k as [|k]; cbn [nth_error option_map]; [|exact B0]. injection B0 as <-. now rewrite Be.
  Qed.

  (** Positivity of the weights along a run. *)
  Lemma rounds_weights : forall n ds s best log, (0 <= l < 1)%Q ->
    all_positive (s_dw s) -> all_positive (s_rw s) ->
    rounds pb p l nr na n ds s = Ok (best, log) ->
    forall e, In e log -> all_positive (e_dweights e) /\ all_positive (e_rweights e) /\
      length (e_dweights e) = length (s_dw s) /\ length (e_rweights e) = length (s_rw s).
  Proof.
    induction n as [|n IH]; intros ds s best log L P1 P2 H; cbn [rounds] in H.
    - injection H as <- <-. intros e [].
    - apply bind_Ok in H. destruct H as (((s', e0), fin) & R & H).
      apply round_inv in R.
      destruct R as (G1 & G2 & W1 & W2 & Tm & Cu & Be & Fd & Fr & Ac & Ec & Bs & Hd & Nx).
      assert (H0 : all_positive (e_dweights e0) /\ all_positive (e_rweights e0) /\
        length (e_dweights e0) = length (s_dw s) /\ length (e_rweights e0) = length (s_rw s)).
      { rewrite W1, W2. auto. }
      destruct fin.
      + injection H as <- <-. intros e [<-|[]]; auto.
      + apply bind_Ok in H. destruct H as ((best', log') & R & H). cbn [fst snd] in H. injection H as <- <-.
        destruct (Nx eq_refl) as (N1 & N2 & N3).
        assert (Sc : (0 <= e_score e0)%Q).
        { destruct Bs as (cx & cb & _ & _ & _ & ->). destruct (Qltb cx cb), (e_accepted e0); lra. }
        intros e [<-|I]; auto.
        assert (Q1 : all_positive (s_dw s')) by (rewrite N2; apply update_positive; auto).
        assert (Q2 : all_positive (s_rw s')) by (rewrite N3; apply update_positive; auto).
        destruct (IH _ _ _ _ L Q1 Q2 R e I) as (A1 & A2 & A3 & A4).
        rewrite N2, update_length in A3. rewrite N3, update_length in A4. auto.
  Qed.

  (** Totality when all costs are non-zero and have the sign of the initial one. *)
  Variable P : Sol -> Prop.
  Variable c0 : Q.
  Hypothesis Hdes : forall f rnd x, In f (p_destroy pb) -> P x -> exists y, f rnd x nr = Ok y /\ P y.
  Hypothesis Hrep : forall f rnd x, In f (p_repair pb) -> P x -> exists y, f rnd x na = Ok y /\ P y.
  Hypothesis Hcost : forall x, P x -> exists c, p_cost pb x = Ok c /\ (0 < c * c0)%Q.
  Hypothesis Hcomp : forall x, P x -> exists b, p_complete pb x = Ok b.
  Hypothesis Hl : (0 <= l < 1)%Q.
  Hypothesis Hp : (0 < p)%Q.

  Lemma exponent_nonpos T cc ct : (0 < cc * c0)%Q -> (T * c0 < 0)%Q -> (cc <= ct)%Q ->
    (T * cc < 0)%Q /\ (100 * (ct - cc) / (T * cc) <= 0)%Q.
  Proof.
    intros A B C.
    assert (N : (T * cc < 0)%Q).
    { assert (D : (0 < c0 * c0)%Q).
      { destruct (Qlt_le_dec 0 c0); [nra|]. destruct (Qlt_le_dec c0 0); [nra|]. assert (c0 == 0)%Q by lra. rewrite H in A. lra. }
      assert ((T * cc) * (c0 * c0) < 0)%Q.
      { setoid_replace ((T * cc) * (c0 * c0))%Q with ((T * c0) * (cc * c0))%Q by ring. nra. }
      destruct (Qlt_le_dec (T * cc) 0); auto. nra. }
    split; auto. revert N. generalize (T * cc)%Q. intros d N.
    setoid_replace (100 * (ct - cc) / d)%Q with (- (100 * (ct - cc) / (- d)))%Q by (field; lra).
    assert (0 <= 100 * (ct - cc) / - d)%Q.
    { apply Qle_shift_div_l; lra. }
    lra.
  Qed.

  Lemma accept_ok u x cur T : P x -> P cur -> (T * c0 < 0)%Q -> exists a, accept pb u x cur T = Ok a.
  Proof.
    intros Px Pc HT. destruct (Hcost x Px) as (ct & Et & _). destruct (Hcost cur Pc) as (cc & Ec & Sc).
    unfold accept. rewrite Ec, Et. cbn [bind]. destruct (Qltb ct cc) eqn:E; eauto. qb.
    destruct (exponent_nonpos T cc ct Sc HT E) as (A & B).
    destruct (Qeqb (T * cc) 0) eqn:Z; [qb; lra|]. cbv zeta.
    destruct (Qltb exp_limit (100 * (ct - cc) / (T * cc))) eqn:Y; eauto. qb. unfold exp_limit in Y. lra.
  Qed.

  Lemma rounds_ok : forall n ds s, (forall k, unit_draw (d_destroy (ds k)) /\ unit_draw (d_repair (ds k))) ->
    P (s_cur s) -> P (s_best s) -> (s_T s * c0 < 0)%Q ->
    all_positive (s_dw s) -> all_positive (s_rw s) ->
    length (s_dw s) = length (p_destroy pb) -> length (s_rw s) = length (p_repair pb) ->
    p_destroy pb <> [] -> p_repair pb <> [] ->
    exists best log, rounds pb p l nr na n ds s = Ok (best, log).
  Proof.
    induction n as [|n IH]; intros ds s U Pc Pb HT W1 W2 L1 L2 N1 N2; cbn [rounds]; [eauto|].
    assert (R : exists s' e fin, round pb p l nr na (ds 0) s = Ok (s', e, fin)).
    { unfold round. destruct (U 0) as (U1 & U2).
      destruct (get_index_spec (s_dw s) (d_destroy (ds 0))) as (i & _ & _ & _ & _ & _ & Ei & Li & _); auto.
      { intros E. rewrite E in L1. apply N1. now apply length_zero_iff_nil. }
      destruct (get_index_spec (s_rw s) (d_repair (ds 0))) as (j & _ & _ & _ & _ & _ & Ej & Lj & _); auto.
      { intros E. rewrite E in L2. apply N2. now apply length_zero_iff_nil. }
      rewrite Ei, Ej. cbn [bind]. rewrite L1 in Li. rewrite L2 in Lj.
      destruct (nth_error (p_destroy pb) i) as [fd|] eqn:Nd; [|apply nth_error_None in Nd; lia].
      destruct (nth_error (p_repair pb) j) as [fr|] eqn:Nr; [|apply nth_error_None in Nr; lia].
      rewrite (proj2 (py_nth_Ok _ _ _) Nd). cbn [bind].
      destruct (Hdes fd (d_rnd1 (ds 0)) (s_cur s) (nth_error_In _ _ Nd) Pc) as (t1 & Et & Pt). rewrite Et. cbn [bind].
      rewrite (proj2 (py_nth_Ok _ _ _) Nr). cbn [bind].
      destruct (Hrep fr (d_rnd2 (ds 0)) t1 (nth_error_In _ _ Nr) Pt) as (tmp & Em & Pm). rewrite Em. cbn [bind].
      destruct (accept_ok (d_accept (ds 0)) tmp (s_cur s) (s_T s) Pm Pc HT) as (a & Ea). rewrite Ea. cbn [bind]. cbv zeta.
      destruct (Hcost tmp Pm) as (ct & Ct & _). destruct (Hcost (s_best s) Pb) as (cb & Cb & _).
      assert (Sc : exists sc, (if a then c1 <- p_cost pb tmp;; c2 <- p_cost pb (if a then tmp else s_cur s);;
                   Ok (if Qltb c2 c1 then better_score else accept_score) else Ok reject_score) = Ok sc).
      { destruct a; eauto. rewrite Ct. cbn. eauto. }
      destruct Sc as (sc & Es). rewrite Es. cbn [bind]. rewrite Ct, Cb. cbn [bind].
      destruct (Hcomp (if Qltb ct cb then tmp else s_best s)) as (fin & Ef); [destruct (Qltb ct cb); auto|].
      rewrite Ef. cbn [bind]. destruct fin; eauto. }
    destruct R as (s' & e & fin & R). rewrite R. cbn [bind]. destruct fin; [eauto|].
    apply round_inv in R.
    destruct R as (_ & _ & _ & _ & _ & _ & _ & (fd & Nd & Fd) & (fr & Nr & Fr) & _ & Ec & (cx & cb & _ & _ & Es & Sc) & _ & Nx).
    destruct (Nx eq_refl) as (M1 & M2 & M3).
    destruct (Hdes fd (d_rnd1 (ds 0)) (s_cur s) (nth_error_In _ _ Nd) Pc) as (t1 & Et & Pt).
    assert (t1 = e_destroyed e) by congruence. subst t1.
    destruct (Hrep fr (d_rnd2 (ds 0)) _ (nth_error_In _ _ Nr) Pt) as (tmp & Em & Pm).
    assert (tmp = e_candidate e) by congruence. subst tmp.
    assert (Sc0 : (0 <= e_score e)%Q) by (rewrite Sc; destruct (Qltb cx cb), (e_accepted e); lra).
    destruct (IH (fun m => ds (S m)) s') as (best & log & E); auto.
    - rewrite Ec. destruct (e_accepted e); auto.
    - rewrite Es. destruct (Qltb cx cb); auto.
    - rewrite M1. nra.
    - rewrite M2. apply update_positive; auto.
    - rewrite M3. apply update_positive; auto.
    - rewrite M2, update_length. auto.
    - rewrite M3, update_length. auto.
    - rewrite E. cbn. eauto.
  Qed.
End T.
