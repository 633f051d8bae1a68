(** Properties of the adaptive search made with floating-point numbers (C117-C119, C121). *)
From Coq Require Import List ZArith Bool Arith Reals Lra Lia Psatz.
From Flocq Require Import Core.Core.
From Verif Require Import Py PyLemmas Fl_Model Fl_Spec Fl_Proofs Fls_Model Fls_Spec Fla_Model Fla_Spec Fla_Proofs Fla_Proofs2 Fla_Proofs3 Fla_Proofs4.
Import ListNotations.
Open Scope R_scope.
Open Scope list_scope.

(** C117. Drawing an operator: for up to a million weights between 0 and 1, not all zero, the
    draw succeeds, chooses an operator whose weight is not zero, and this is the operator that
    owns the draw's sub-interval, up to 2^-48 times the number of operators. *)
Theorem C117_draw :
  forall weights u, (Z.of_nat (length weights) <= 1000000)%Z -> (forall w, In w weights -> fraction w) ->
    (exists w, In w weights /\ 0 < value w) -> unit_draw u ->
    exists i w, get_index weights u = Ok i /\ nth_error weights i = Some w /\ 0 < value w /\
      owns_nearly (INR (length weights) / 2 ^ 48) weights i u.
Proof.
  intros ws u L F P U. apply get_index_spec; auto. apply IZR_le in L. now rewrite <- INR_IZR_INZ in L.
Qed.
(** It fails when all weights are zero. *)
Theorem C117_no_weight_left :
  forall weights u, weights <> [] -> (forall w, In w weights -> finite w /\ value w = 0) ->
    get_index weights u = Raise ZeroDivisionError.
Proof.
  intros ws u N Z. destruct (of_Z_ok 0 ltac:(lia)) as (F0 & V0).
  assert (S : forall l acc, (forall w, In w l -> finite w /\ value w = 0) -> finite acc -> value acc = 0 -> finite (fold_left fadd l acc) /\ value (fold_left fadd l acc) = 0).
  { induction l as [|w l IH]; intros acc H Fa Va; cbn [fold_left]; auto. destruct (H w (or_introl eq_refl)) as (Fw & Vw).
    destruct (fadd_ok acc w Fa Fw) as (Fr & Vr); [rewrite Va, Vw, Rplus_0_r; apply finite_small; rewrite Rabs_R0; lra|].
    apply IH; [intros; apply H; now right|exact Fr|]. rewrite Vr, Va, Vw, Rplus_0_r. apply rnd_0. }
  destruct (S ws (of_Z 0) Z F0 V0) as (Fs & Vs). fold (fsum ws) in Fs, Vs.
  unfold get_index, get_probabilities. destruct ws as [|w l]; [congruence|]. cbn [mapM]. unfold py_div at 1.
  rewrite (proj2 (feq_iff _ _ Fs F0)) by lra. reflexivity.
Qed.

Definition dyadic (n d : Z) : float := fdiv (of_Z n) (of_Z d).
Lemma quarter_value n : (Z.abs n <= 4)%Z -> finite (dyadic n 4) /\ value (dyadic n 4) = IZR n / 4.
Proof.
  intros H. destruct (of_Z_ok n ltac:(lia)) as (F1 & V1). destruct (of_Z_ok 4 ltac:(lia)) as (F2 & V2).
  assert (B : Rabs (IZR n / 4) <= 1000000) by (apply Rabs_bound; assert (-4 <= IZR n <= 4) by (split; apply IZR_le; lia); lra).
  destruct (fdiv_ok (of_Z n) (of_Z 4) F1) as (F3 & V3); [rewrite V2; lra|rewrite V1, V2; apply finite_small; exact B|]. split; auto. unfold dyadic. rewrite V3, V1, V2.
  apply rnd_fmt. replace (IZR n / 4) with (IZR n * bpow radix2 (-2)) by (cbn; lra). apply fmt_int; lia.
Qed.
Lemma quarter_fraction n : (0 <= n <= 4)%Z -> fraction (dyadic n 4).
Proof. intros H. destruct (quarter_value n ltac:(lia)) as (F & V). split; auto. rewrite V. assert (0 <= IZR n <= 4) by (split; apply IZR_le; lia). lra. Qed.
Lemma quarter_draw n : (0 <= n < 4)%Z -> unit_draw (dyadic n 4).
Proof. intros H. destruct (quarter_value n ltac:(lia)) as (F & V). split; auto. rewrite V. assert (0 <= IZR n <= 3) by (split; apply IZR_le; lia). lra. Qed.
(** Three operators, the second of weight zero. *)
Example C117_case :
  let weights := [dyadic 1 4; dyadic 0 4; dyadic 3 4] in
  (forall w, In w weights -> fraction w) /\ (exists w, In w weights /\ 0 < value w) /\
  get_index weights (dyadic 0 4) = Ok 0%nat /\ get_index weights (dyadic 1 4) = Ok 2%nat /\ get_index weights (dyadic 3 4) = Ok 2%nat.
Proof.
  cbv zeta. split; [intros w [<-|[<-|[<-|[]]]]; apply quarter_fraction; lia|]. split.
  - exists (dyadic 3 4). split; [right; right; now left|]. destruct (quarter_value 3 ltac:(lia)) as (_ & ->). lra.
  - split; [|split]; vm_compute; reflexivity.
Qed.

(** C118. The weight of an operator stays between 0 and 1 for every react factor between 0 and
    1, through any number of rounds, and one update is within 5 * 2^-53 of the exact one. *)
Theorem C118_weights_are_fractions :
  forall Sol (pb : problem Sol) initial max_iter p l nr na ds best log, fraction l ->
    solve pb initial max_iter p l nr na ds = Ok (best, log) ->
    forall e, In e log ->
      length (e_dweights e) = length (p_destroy pb) /\ length (e_rweights e) = length (p_repair pb) /\
      (forall w, In w (e_dweights e) -> fraction w) /\ (forall w, In w (e_rweights e) -> fraction w).
Proof.
  intros Sol pb initial mi p l nr na ds best log L H e Ie. unfold solve in H.
  apply bind_Ok in H. destruct H as (c & Ec & H). apply bind_Ok in H. destruct H as (T & ET & H). apply bind_Ok in H. destruct H as (b & Eb & H).
  destruct b; [injection H as <- <-; destruct Ie|].
  assert (O : forall A (k : list A), all_fractions (map (fun _ => of_Z 1) k)).
  { intros A k w I. apply in_map_iff in I. destruct I as (x & <- & _). destruct (of_Z_ok 1 ltac:(lia)) as (F1 & V1). split; auto. rewrite V1. lra. }
  pose proof (fun P1 P2 => rounds_weights _ _ _ _ _ _ _ _ _ _ L P1 P2 H e Ie) as W.
  cbn [s_dw s_rw] in W. rewrite !map_length in W. destruct W as (A1 & A2 & A3 & A4); auto.
Qed.
Lemma rnd_close x B : Rabs x <= B -> Rabs (rnd x - x) <= uu * B + eta0.
Proof.
  intros H. destruct (rnd_any x) as (e & t & He & Ht & ->). replace (x * (1 + e) + t - x) with (x * e + t) by ring.
  eapply Rle_trans; [apply Rabs_triang|]. apply Rplus_le_compat; [|exact Ht]. rewrite Rabs_mult, Rmult_comm. apply Rmult_le_compat; try apply Rabs_pos; auto.
Qed.
Lemma close_times a b y e : 0 <= y <= 1 -> Rabs (a - b) <= e -> Rabs (a * y - b * y) <= e.
Proof.
  intros Y H. replace (a * y - b * y) with ((a - b) * y) by ring. rewrite Rabs_mult, (Rabs_pos_eq y) by lra.
  apply Rle_trans with (Rabs (a - b) * 1); [apply Rmult_le_compat_l; [apply Rabs_pos|lra]|lra].
Qed.
Theorem C118_update_accurate :
  forall l score w, fraction l -> (0 <= score <= 3)%Z -> fraction w ->
    fraction (new_weight l score w) /\
    Rabs (value (new_weight l score w) - ((1 - value l) * value w + value l * IZR score / 6)) <= 5 / 2 ^ 53.
Proof.
  intros l s w Fl S Fw. destruct (new_weight_ok l s w Fl S Fw) as (F & ->). split; auto. destruct Fl as (_ & L), Fw as (_ & W). clear F.
  replace (5 / 2 ^ 53) with (5 * uu) by (rewrite uu_value; simpl; lra).
  assert (Sr : 0 <= IZR s <= 3) by (split; apply IZR_le; lia).
  set (x := value l) in *. set (y := value w) in *. set (z := IZR s) in *. clearbody x y z.
  assert (Xz : 0 <= x * z <= 3) by nra. assert (Xy : 0 <= (1 - x) * y <= 1 - x) by nra.
  assert (Sum : 0 <= (1 - x) * y + x * z / 6 <= 1) by nra.
  pose proof eta0_small as EP. pose proof uu_pos as UP. assert (UM : uu <= / 1000000) by (rewrite uu_value; lra).
  pose proof (rnd_close (1 - x) 1 ltac:(apply Rabs_bound; lra)) as A. set (a := rnd (1 - x)) in *. clearbody a.
  pose proof (close_times a (1 - x) y (uu * 1 + eta0) ltac:(lra) A) as Ay. apply Rabs_bound in Ay.
  pose proof (rnd_close (a * y) (101 / 100) ltac:(apply Rabs_bound; lra)) as M. set (m := rnd (a * y)) in *. clearbody m. apply Rabs_bound in M.
  pose proof (rnd_close (x * z) 3 ltac:(apply Rabs_bound; lra)) as T. set (t := rnd (x * z)) in *. clearbody t. apply Rabs_bound in T.
  pose proof (rnd_close (t / 6) (51 / 100) ltac:(apply Rabs_bound; lra)) as D. set (d := rnd (t / 6)) in *. clearbody d. apply Rabs_bound in D.
  set (ay := a * y) in *. set (xy := (1 - x) * y) in *. set (xz := x * z) in *. clearbody ay xy xz.
  pose proof (rnd_close (m + d) (101 / 100) ltac:(apply Rabs_bound; lra)) as R. apply Rabs_bound in R. apply Rabs_bound. lra.
Qed.
Example C118_update_case : fraction (dyadic 2 4) /\ value (new_weight (dyadic 2 4) 3 (dyadic 2 4)) = 1 / 2.
Proof.
  split; [apply quarter_fraction; lia|]. destruct (new_weight_ok (dyadic 2 4) 3 (dyadic 2 4)) as (F & _); [apply quarter_fraction; lia|lia|apply quarter_fraction; lia|].
  destruct (quarter_value 2 ltac:(lia)) as (F2 & V2). assert (E : feq (new_weight (dyadic 2 4) 3 (dyadic 2 4)) (dyadic 2 4) = true) by (vm_compute; reflexivity).
  apply (proj1 (feq_iff _ _ (proj1 F) F2)) in E. rewrite E, V2. lra.
Qed.

(** With a react factor up to 1/2, an annealing coefficient from 1/2 to 1, at most 900
    iterations and integer costs from -2^40 to -1, the search never fails. *)
Theorem C118_never_fails_partial :
  forall Sol (pb : problem Sol) (P : Sol -> Prop) initial max_iter p l nr na ds,
    fraction l -> value l <= / 2 -> finite p -> / 2 <= value p <= 1 -> (max_iter <= 900)%Z ->
    (0 < Z.of_nat (length (p_destroy pb)) <= 1000000)%Z -> (0 < Z.of_nat (length (p_repair pb)) <= 1000000)%Z ->
    quiet_exp (p_exp pb) -> (forall k, unit_draws (ds k)) -> P initial ->
    (forall f rnd x, In f (p_destroy pb) -> P x -> exists y, f rnd x nr = Ok y /\ P y) ->
    (forall f rnd x, In f (p_repair pb) -> P x -> exists y, f rnd x na = Ok y /\ P y) ->
    (forall x, P x -> exists c, p_cost pb x = Ok c /\ (- 2 ^ 40 <= c < 0)%Z) ->
    (forall x, P x -> exists b, p_complete pb x = Ok b) ->
    exists best log, solve pb initial max_iter p l nr na ds = Ok (best, log).
Proof.
  intros Sol pb P initial mi p l nr na ds Fl Hl Fp Hp M Nd Nr Q U P0 Hd Hr Hc Hb. unfold solve.
  destruct (Hc initial P0) as (c & -> & Rc). cbn [bind]. destruct (first_temperature_ok c Rc) as (T & -> & FT & HT). cbn [bind].
  destruct (Hb initial P0) as (b & ->). cbn [bind]. destruct b; [eauto|].
  assert (O : forall A (k : list A) w, In w (map (fun _ => of_Z 1) k) -> fraction w /\ bpow radix2 (-4) <= value w).
  { intros A k w I. apply in_map_iff in I. destruct I as (x & <- & _). destruct (of_Z_ok 1 ltac:(lia)) as (F1 & V1).
    split; [split; auto; rewrite V1; lra|]. rewrite V1. cbn. lra. }
  apply (rounds_ok pb p l nr na P Hd Hr Hc Hb Q Fl Hl Fp Hp Nd Nr (Z.to_nat mi) (-4)); auto; try lia; cbn [s_T s_dw s_rw s_cur s_best]; auto.
  - intros w I. now apply O in I.
  - intros w I. now apply O in I.
  - intros w I. now apply O in I.
  - intros w I. now apply O in I.
  - apply map_length.
  - apply map_length.
Qed.

(** A stand-in for [math.exp]: exact at 0, and 0 elsewhere, which is what [math.exp] returns
    below -746. *)
Definition steep_exp (x : float) : res float := Ok (if feq x (of_Z 0) then of_Z 1 else of_Z 0).
Lemma steep_quiet : quiet_exp steep_exp.
Proof. intros x _. unfold steep_exp. eauto. Qed.
Lemma steep_zero : exp_of_zero steep_exp.
Proof.
  intros x F V. exists (of_Z 1). destruct (of_Z_ok 1 ltac:(lia)) as (F1 & V1). destruct (of_Z_ok 0 ltac:(lia)) as (F0 & V0). split; auto.
  unfold steep_exp. rewrite (proj2 (feq_iff _ _ F F0)); [reflexivity|lra].
Qed.
(** Integers; the candidate is always one more than the current solution, so it is never
    accepted. *)
Definition uphill : problem Z :=
  mkProblem (fun x => Ok x) (fun _ => Ok false) [fun _ x _ => Ok (x + 1)%Z] [fun _ x _ => Ok x] steep_exp.
Definition half_draws (k : nat) : draws := mkDraws (dyadic 2 4) (dyadic 2 4) (dyadic 2 4) (fun i => i) (fun i => i).
Lemma half_draws_ok k : unit_draws (half_draws k).
Proof. repeat split; try apply quarter_draw; try lia; apply (quarter_draw 2); lia. Qed.
Example C118_case : exists best log, solve uphill (-5)%Z 3 (dyadic 2 4) (dyadic 2 4) 1 1 half_draws = Ok (best, log) /\ length log = 3%nat.
Proof.
  assert (C : match solve uphill (-5)%Z 3 (dyadic 2 4) (dyadic 2 4) 1 1 half_draws with Ok (_, log) => length log | Raise _ => 0%nat end = 3%nat) by (vm_compute; reflexivity).
  destruct (solve uphill (-5)%Z 3 (dyadic 2 4) (dyadic 2 4) 1 1 half_draws) as [(b, log)|] eqn:E; [|discriminate]. eauto.
Qed.
Definition raises {A} (r : res A) : bool := match r with Raise ZeroDivisionError => true | _ => false end.
Lemma raises_ok A (r : res A) : raises r = true -> r = Raise ZeroDivisionError.
Proof. destruct r as [|[]]; cbn; try discriminate; auto. Qed.
(** Without the limit on the number of iterations it fails: enough rejections in a row make the
    weight of the only operator underflow to zero ... *)
Theorem C118_never_fails_refuted :
  exists (pb : problem Z) initial p l ds, fraction l /\ value l = / 2 /\ finite p /\ value p = 1 /\
    quiet_exp (p_exp pb) /\ exp_of_zero (p_exp pb) /\ (forall k, unit_draws (ds k)) /\
    solve pb initial 1200 p l 1 1 ds = Raise ZeroDivisionError.
Proof.
  exists uphill, (-5)%Z, (of_Z 1), (dyadic 2 4), half_draws. destruct (quarter_value 2 ltac:(lia)) as (F2 & V2). destruct (of_Z_ok 1 ltac:(lia)) as (F1 & V1).
  split; [apply quarter_fraction; lia|]. split; [rewrite V2; lra|]. split; [exact F1|]. split; [exact V1|]. split; [exact steep_quiet|]. split; [exact steep_zero|].
  split; [exact half_draws_ok|]. apply raises_ok. vm_compute. reflexivity.
Qed.
(** ... and halving the temperature often enough makes it underflow to zero, whatever the
    react factor. *)
Theorem C118_temperature_underflow_refuted :
  exists (pb : problem Z) initial p l ds, fraction l /\ value l = 0 /\ finite p /\ value p = / 2 /\
    quiet_exp (p_exp pb) /\ exp_of_zero (p_exp pb) /\ (forall k, unit_draws (ds k)) /\
    solve pb initial 1200 p l 1 1 ds = Raise ZeroDivisionError.
Proof.
  exists uphill, (-5)%Z, (dyadic 2 4), (of_Z 0), half_draws. destruct (quarter_value 2 ltac:(lia)) as (F2 & V2). destruct (of_Z_ok 0 ltac:(lia)) as (F1 & V1).
  split; [split; [exact F1|rewrite V1; lra]|]. split; [exact V1|]. split; [exact F2|]. split; [rewrite V2; lra|]. split; [exact steep_quiet|]. split; [exact steep_zero|].
  split; [exact half_draws_ok|]. apply raises_ok. vm_compute. reflexivity.
Qed.

(** C119. What the search returns: the first of the cheapest solutions met; invariants of the
    operators; when it stops. *)
Lemma solve_spec Sol (pb : problem Sol) initial mi p l nr na ds best log :
  solve pb initial mi p l nr na ds = Ok (best, log) ->
  earliest_best (p_cost pb) (initial :: candidates log) best /\
  (p_complete pb initial = Ok true -> best = initial /\ log = []) /\
  (Z.of_nat (length log) <= Z.max mi 0)%Z /\
  (forall m, (m < length log)%nat -> exists b,
     earliest_best (p_cost pb) (initial :: firstn m (candidates log)) b /\ p_complete pb b = Ok false) /\
  ((Z.of_nat (length log) < Z.max mi 0)%Z -> p_complete pb best = Ok true).
Proof.
  intros H. unfold solve in H.
  apply bind_Ok in H. destruct H as (c & Ec & H). apply bind_Ok in H. destruct H as (T & ET & H). apply bind_Ok in H. destruct H as (b & Eb & H).
  assert (B : earliest_best (p_cost pb) [initial] initial).
  { exists [], [], c. split; [reflexivity|]. split; [exact Ec|]. split; intros x []. }
  destruct b.
  - injection H as <- <-. split; [exact B|]. split; [auto|]. split; [cbn; lia|]. split; [cbn; intros; lia|auto].
  - apply (rounds_spec pb p l nr na) with (pre := [initial]) in H; auto.
    destruct H as (H1 & H2 & H3 & H4). split; [exact H1|]. split; [congruence|]. split; [lia|]. split; [exact H3|]. intros. apply H4. lia.
Qed.
Theorem C119_returns_cheapest :
  forall Sol (pb : problem Sol) initial max_iter p l nr na ds best log,
    solve pb initial max_iter p l nr na ds = Ok (best, log) ->
    earliest_best (p_cost pb) (initial :: candidates log) best /\
    exists c c0, p_cost pb best = Ok c /\ p_cost pb initial = Ok c0 /\ (c <= c0)%Z.
Proof.
  intros * H. apply solve_spec in H. destruct H as (H & _). split; auto. apply earliest_best_cost in H. destruct H as (c & Ec & H).
  destruct (H initial (or_introl eq_refl)) as (c0 & E0 & L). eauto 6.
Qed.
Theorem C119_stops :
  forall Sol (pb : problem Sol) initial max_iter p l nr na ds best log,
    solve pb initial max_iter p l nr na ds = Ok (best, log) ->
    (p_complete pb initial = Ok true -> best = initial /\ log = []) /\
    (Z.of_nat (length log) <= Z.max max_iter 0)%Z /\
    (forall m, (m < length log)%nat -> exists b,
       earliest_best (p_cost pb) (initial :: firstn m (candidates log)) b /\ p_complete pb b = Ok false) /\
    ((Z.of_nat (length log) < Z.max max_iter 0)%Z -> p_complete pb best = Ok true).
Proof. intros * H. apply solve_spec in H. apply H. Qed.
Theorem C119_invariants_preserved :
  forall Sol (pb : problem Sol) (P : Sol -> Prop) initial max_iter p l nr na ds best log,
    P initial ->
    (forall f rnd x y, In f (p_destroy pb) -> P x -> f rnd x nr = Ok y -> P y) ->
    (forall f rnd x y, In f (p_repair pb) -> P x -> f rnd x na = Ok y -> P y) ->
    solve pb initial max_iter p l nr na ds = Ok (best, log) ->
    P best /\ forall x, In x (candidates log) -> P x.
Proof.
  intros Sol pb P initial mi p l nr na ds best log P0 Hd Hr H. unfold solve in H.
  apply bind_Ok in H. destruct H as (c & Ec & H). apply bind_Ok in H. destruct H as (T & ET & H). apply bind_Ok in H. destruct H as (b & Eb & H).
  destruct b.
  - injection H as <- <-. split; auto. intros x [].
  - apply (rounds_preserve pb p l nr na P Hd Hr) in H; auto. destruct H as (H1 & H2). split; auto.
    intros x I. apply in_map_iff in I. destruct I as (e & <- & Ie). now apply H2.
Qed.
(** In round [k] the candidate comes from the last accepted one with the operators drawn from
    the current weights; the temperature has been multiplied [k] times; each weight follows
    from the rounds that used its operator, which scored 3 for a new best solution, 1 for an
    accepted one and 0 otherwise. *)
Theorem C119_trajectory :
  forall Sol (pb : problem Sol) initial max_iter p l nr na ds best log,
    solve pb initial max_iter p l nr na ds = Ok (best, log) ->
    forall k e, nth_error log k = Some e ->
      let past := firstn k log in
      (exists c0 T0, p_cost pb initial = Ok c0 /\ first_temperature c0 = Ok T0 /\ e_temperature e = cooled p k T0) /\
      (forall i, (i < length (p_destroy pb))%nat -> nth_error (e_dweights e) i = Some (weight_after e_destroy l i past (of_Z 1))) /\
      (forall i, (i < length (p_repair pb))%nat -> nth_error (e_rweights e) i = Some (weight_after e_repair l i past (of_Z 1))) /\
      get_index (e_dweights e) (d_destroy (ds k)) = Ok (e_destroy e) /\
      get_index (e_rweights e) (d_repair (ds k)) = Ok (e_repair e) /\
      (exists f g, nth_error (p_destroy pb) (e_destroy e) = Some f /\ nth_error (p_repair pb) (e_repair e) = Some g /\
         f (d_rnd1 (ds k)) (current_after initial past) nr = Ok (e_destroyed e) /\
         g (d_rnd2 (ds k)) (e_destroyed e) na = Ok (e_candidate e)) /\
      accept pb (d_accept (ds k)) (e_candidate e) (current_after initial past) (e_temperature e) = Ok (e_accepted e) /\
      (exists b cx cb, earliest_best (p_cost pb) (initial :: candidates past) b /\
         p_cost pb (e_candidate e) = Ok cx /\ p_cost pb b = Ok cb /\
         e_score e = (if cx <? cb then 3 else if e_accepted e then 1 else 0)%Z).
Proof.
  intros Sol pb initial mi p l nr na ds best log H k e Nk past. pose proof (solve_spec _ _ _ _ _ _ _ _ _ _ _ H) as (_ & _ & _ & Bs & _). unfold solve in H.
  apply bind_Ok in H. destruct H as (c & Ec & H). apply bind_Ok in H. destruct H as (T & ET & H). apply bind_Ok in H. destruct H as (b & Eb & H).
  destruct b; [injection H as <- <-; destruct k; discriminate|].
  assert (Best : forall m e', nth_error log m = Some e' -> earliest_best (p_cost pb) (initial :: firstn (S m) (candidates log)) (e_best e')).
  { assert (G : forall n ds s pre best log, earliest_best (p_cost pb) pre (s_best s) -> rounds pb p l nr na n ds s = Ok (best, log) ->
      forall m e', nth_error log m = Some e' -> earliest_best (p_cost pb) (pre ++ firstn (S m) (candidates log)) (e_best e')).
    { clear. induction n as [|n IH]; intros ds s pre best log B R m e' N; cbn [rounds] in R; [injection R as <- <-; destruct m; discriminate|].
      apply bind_Ok in R. destruct R as (((s', e0), fin) & R0 & R).
      apply round_inv in R0. destruct R0 as (_ & _ & _ & _ & _ & _ & Be & _ & _ & _ & _ & (cx & cb & Ex & Eb & Es & _) & _ & _).
      pose proof (earliest_best_snoc pb _ _ _ _ _ B Ex Eb) as B'. rewrite <- Es in B'.
      assert (Z0 : forall log', earliest_best (p_cost pb) (pre ++ firstn 1 (candidates (e0 :: log'))) (e_best e0)) by (intros; rewrite Be; exact B').
      destruct fin; [injection R as <- <-; destruct m as [|m]; [injection N as <-; apply Z0|destruct m; discriminate]|].
      apply bind_Ok in R. destruct R as ((b', log') & R & E). cbn [fst snd] in E. injection E as <- <-.
      destruct m as [|m]; [injection N as <-; apply Z0|]. specialize (IH _ _ _ _ _ B' R m e' N). rewrite <- app_assoc in IH. exact IH. }
    intros m e' N. apply (G _ _ _ [initial] _ _) with (m := m) (e' := e') in H; auto.
    exists [], [], c. split; [reflexivity|]. split; [exact Ec|]. split; intros x []. }
  apply (rounds_trace pb p l nr na) with (k := k) (e := e) in H; auto.
  destruct H as (H1 & H2 & H3 & H4 & H5 & H6 & (f & Nf & Ff) & (g & Ng & Fg) & H9 & (b & cx & cb & B0 & B1 & B2 & _ & B4)).
  cbn [s_cur s_T s_dw s_rw s_best] in *. fold past in H1, H3, H4. rewrite H1 in *.
  assert (O : forall A (q : list A) i, (i < length q)%nat -> nth_error (map (fun _ => of_Z 1) q) i = Some (of_Z 1)).
  { intros A q i Li. rewrite nth_error_map. destruct (nth_error q i) eqn:X; auto. apply nth_error_None in X. lia. }
  split; [eauto 6|]. split; [intros i Li; rewrite H3, O by auto; reflexivity|].
  split; [intros i Li; rewrite H4, O by auto; reflexivity|]. split; auto. split; auto. split; [eauto 8|]. split; [auto|].
  exists b, cx, cb. split; [|auto]. unfold past. destruct k as [|k].
  - injection B0 as <-. cbn. exists [], [], c. split; [reflexivity|]. split; [exact Ec|]. split; intros x [].
  - destruct (nth_error log k) as [e'|] eqn:Ne; [|discriminate]. injection B0 as <-. pose proof (Best k e' Ne) as X. unfold candidates in *. now rewrite firstn_map in X.
Qed.
(** A search that finds something. *)
Definition downhill : problem Z :=
  mkProblem (fun x => Ok x) (fun x => Ok (x <=? -9)%Z) [fun _ x n => Ok (x + n)%Z] [fun _ x n => Ok (x - n)%Z; fun _ x n => Ok (x - 2 * n)%Z] steep_exp.
Definition some_draws (k : nat) : draws := mkDraws (dyadic 2 4) (if Nat.even k then dyadic 1 4 else dyadic 3 4) (dyadic 2 4) (fun i => i) (fun i => i).
Example C119_case : exists log, solve downhill (-1)%Z 100 (dyadic 2 4) (dyadic 2 4) 1 2 some_draws = Ok ((-9)%Z, log) /\
  candidates log = [-2; -5; -6; -9]%Z.
Proof.
  assert (C : match solve downhill (-1)%Z 100 (dyadic 2 4) (dyadic 2 4) 1 2 some_draws with Ok (b, log) => (b, candidates log) | Raise _ => (0%Z, []) end = ((-9)%Z, [-2; -5; -6; -9]%Z)) by (vm_compute; reflexivity).
  destruct (solve downhill (-1)%Z 100 (dyadic 2 4) (dyadic 2 4) 1 2 some_draws) as [(b, log)|] eqn:E; [|discriminate]. injection C as -> C. eauto.
Qed.

(** C121. Acceptance: a cheaper candidate always; one of equal cost too; a dearer one when the
    draw is at most [math.exp] of an exponent within 4 roundings of the exact one. *)
Theorem C121_acceptance :
  forall Sol (pb : problem Sol) u tmp cur T cc ct,
    p_cost pb cur = Ok cc -> p_cost pb tmp = Ok ct ->
    ((ct < cc)%Z -> accept pb u tmp cur T = Ok true) /\
    ((- 2 ^ 40 <= cc < 0)%Z -> (- 2 ^ 40 <= ct < 0)%Z -> (cc <= ct)%Z -> finite T -> / 2 ^ 900 <= value T <= 2 ^ 40 ->
      (ct = cc -> exp_of_zero (p_exp pb) -> unit_draw u -> accept pb u tmp cur T = Ok true) /\
      exists x, finite x /\ (value x < 0 <-> (cc < ct)%Z) /\
        (let exact := 100 * (IZR ct - IZR cc) / (value T * IZR cc) in Rabs (value x - exact) <= 4 / 2 ^ 53 * Rabs exact) /\
        forall q, p_exp pb x = Ok q -> finite q -> finite u -> exists a, accept pb u tmp cur T = Ok a /\ (a = true <-> value u <= value q)).
Proof.
  intros Sol pb u tmp cur T cc ct Ec Et. split.
  { intros L. unfold accept. rewrite Ec, Et. cbn [bind]. now rewrite (proj2 (Z.ltb_lt ct cc) L). }
  intros Rc Rt L FT HT.
  assert (P : forall k, bpow radix2 (Z.of_nat k) = 2 ^ k) by (intros k; rewrite bpow_powerRZ, <- pow_powerRZ; reflexivity).
  destruct (exponent_ok T cc ct (-900) FT ltac:(lia)) as (x & Ex & Fx & Zx & Nx & Ax); auto.
  { change (-900)%Z with (- Z.of_nat 900)%Z. rewrite bpow_opp, P. change 40%Z with (Z.of_nat 40). rewrite P. exact HT. }
  assert (G : forall q, p_exp pb x = Ok q -> accept pb u tmp cur T = Ok (negb (flt q u))).
  { intros q Eq. unfold accept. rewrite Ec, Et. cbn [bind]. rewrite (proj2 (Z.ltb_ge ct cc) L), Ex. cbn [bind]. rewrite Eq. reflexivity. }
  split.
  - intros -> E0 (Fu & U). destruct (E0 x Fx (proj2 Zx eq_refl)) as (q & Eq & Fq & Vq). rewrite (G q Eq).
    destruct (flt q u) eqn:X; [apply flt_iff in X; auto; lra|reflexivity].
  - exists x. split; auto. split.
    { pose proof (Nx (IZR_le _ _ L)). split; intros H1.
      - destruct (Z.eq_dec ct cc) as [->|]; [|lia]. rewrite (proj2 Zx eq_refl) in H1. lra.
      - assert (value x <> 0) by (intros X; apply Zx in X; lia). lra. }
    split.
    { cbv zeta. replace (4 / 2 ^ 53) with (4 * uu) by (rewrite uu_value; simpl; lra). exact Ax. }
    intros q Eq Fq Fu. exists (negb (flt q u)). split; [now apply G|]. destruct (flt q u) eqn:X; cbn [negb].
    + apply flt_iff in X; auto. split; intros; [discriminate|lra].
    + split; auto. intros _. destruct (Rle_lt_dec (value u) (value q)); auto. apply flt_iff in r; auto. congruence.
Qed.
Example C121_case : accept uphill (dyadic 2 4) (-5)%Z (-5)%Z (of_Z 1) = Ok true /\ accept uphill (dyadic 2 4) (-4)%Z (-5)%Z (of_Z 1) = Ok false.
Proof. split; vm_compute; reflexivity. Qed.

Print Assumptions C117_draw.
Print Assumptions C118_never_fails_partial.
Print Assumptions C118_never_fails_refuted.
Print Assumptions C119_trajectory.
Print Assumptions C121_acceptance.
