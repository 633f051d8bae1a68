(** End-to-end properties of Scheduler.generate in floating point (C120). *)
From Coq Require Import List ZArith Bool Arith Permutation Reals Lra Lia.
From Verif Require Import Py PyLemmas Fl_Model Fl_Spec Fl_Proofs Fl_Props Fls_Model Fls_Spec Fls_Proofs Fls_Proofs2 Fls_Proofs3 Fls_Props
  Fla_Model Fla_Spec Fla_Proofs Fla_Proofs2 Fla_Proofs3 Fla_Proofs4 Fla_Props Fla_Proofs5.
Import ListNotations.
Open Scope nat_scope.
Open Scope list_scope.

(** C120. Every window returned serves a request of its own: the requests can be split into
    some served ones, matching the windows one to one, and the rest; together they are worth at
    least as much as the initial solution without its last request. *)
Theorem C120_windows_serve_requests :
  forall exp h max_iter annealing react ds h' ws, reachable h ->
    generate exp h max_iter annealing react ds = Ok (h', ws) ->
    initialize_solution h = Ok h' /\
    exists served rest, Permutation (reqs h) (served ++ rest) /\ Forall2 serves served ws /\
      (worth (filter r_sched (removelast (reqs h'))) <= worth served)%Z.
Proof.
  intros ex h mi an re ds h' ws R H. unfold generate in H.
  apply bind_Ok in H. destruct H as (((h1, best), log) & Es & H). cbn [fst snd] in H.
  apply bind_Ok in H. destruct H as (ws' & Ee & H). assert (h' = h1 /\ ws' = ws) as (-> & ->) by (split; congruence).
  destruct (search_inv _ _ _ _ _ _ _ _ _ R Es) as (S1 & Sb & Ei & Eso). split; auto.
  destruct (emit_split _ _ _ Sb Ee) as (served & rest & P & F & W). exists served, rest. split; auto. split; auto.
  destruct (C119_returns_cheapest _ _ _ _ _ _ _ _ _ _ _ Eso) as (_ & cb & c0 & Eb & E0 & L).
  cbn [schedule_problem p_cost] in E0, Eb. rewrite (cost_of_solution _ _ S1) in E0. rewrite (cost_of_solution _ _ Sb) in Eb.
  injection E0 as <-. injection Eb as <-. lia.
Qed.
(** Exactly the scheduled requests of the best solution other than its last one are returned,
    in order, and this cannot fail. *)
Theorem C120_scheduled_emitted_partial :
  forall exp h max_iter annealing react ds h1 best log, reachable h ->
    search exp h max_iter annealing react ds = Ok (h1, best, log) ->
    exists ws, generate exp h max_iter annealing react ds = Ok (h1, ws) /\
      Forall2 (fun r w => serves r w /\ r_start r = Some (o_start w)) (filter r_sched (removelast (reqs best))) ws.
Proof.
  intros ex h mi an re ds h1 best log R Es.
  destruct (search_inv _ _ _ _ _ _ _ _ _ R Es) as (_ & Sb & _).
  destruct (emit_spec _ _ Sb) as (ws & Ee & F). exists ws. unfold generate. rewrite Es. cbn [bind fst snd].
  rewrite Ee. split; [reflexivity|exact F].
Qed.
(** A scheduler with one request never returns anything. *)
Theorem C120_scheduled_emitted_refuted :
  forall exp h max_iter annealing react ds h' ws, reachable h -> length (reqs h) = 1 ->
    generate exp h max_iter annealing react ds = Ok (h', ws) -> ws = [].
Proof.
  intros ex h mi an re ds h' ws R L H. unfold generate in H.
  apply bind_Ok in H. destruct H as (((h1, best), log) & Es & H). cbn [fst snd] in H.
  apply bind_Ok in H. destruct H as (ws' & Ee & H). assert (ws' = ws) as -> by congruence.
  destruct (search_inv _ _ _ _ _ _ _ _ _ R Es) as (_ & Sb & _).
  destruct (emit_spec _ _ Sb) as (ws' & Ew & F). assert (ws' = ws) as -> by congruence.
  destruct Sb as (_ & _ & m & Pm & Fm). apply Permutation_length in Pm. apply Forall2_len in Fm.
  destruct (reqs best) as [|q [|q' qs]]; cbn [removelast filter] in F; try (now inversion F). cbn in Fm. lia.
Qed.

(** ** Concrete cases *)
Definition ask_many (loc : nat) (prio : Z) (vs : list vtw) : operation := OpAdd loc (of_Z 2460000) (of_Z 86400) prio 1 NoLook vs.
Lemma ask_many_ok loc prio vs : (forall v, In v vs -> ordinary_window v) -> ordinary_operation (ask_many loc prio vs).
Proof. intros W. cbn [ask_many ordinary_operation]. split; [apply jd_int; lia|]. split; [apply seconds_int; lia|]. exact W. Qed.
Definition from_day (a b : Z) : vtw := window_of (2451545 + a) (2451545 + b) 0.
Lemma from_day_ok a b : (0 <= a < b)%Z -> (b <= 1000)%Z -> ordinary_window (from_day a b).
Proof. intros A B. apply window_of_ok; lia. Qed.
(** Four requests of a day each; the same as in the rational model, where a run returns
    overlapping observations. *)
Definition four_asks : list operation :=
  [ask_many 0 7 [from_day 0 10; from_day 20 30; from_day 60 70];
   ask_many 1 5 [from_day 20 30];
   ask_many 2 8 [from_day 20 30; from_day 40 50; from_day 0 10];
   ask_many 3 2 [from_day 40 50; from_day 0 10]].
Lemma four_asks_ok : Forall ordinary_operation four_asks.
Proof.
  unfold four_asks. repeat (apply Forall_cons; [apply ask_many_ok; cbn [In]; intros v I; repeat (destruct I as [<-|I]; [apply from_day_ok; lia|]); destruct I|]). apply Forall_nil.
Qed.
Definition eighth (n : Z) : float := dyadic n 8.
Lemma eighth_draw n : (0 <= n < 8)%Z -> unit_draw (eighth n).
Proof.
  intros H. destruct (of_Z_ok n ltac:(lia)) as (F1 & V1). destruct (of_Z_ok 8 ltac:(lia)) as (F2 & V2).
  assert (B : (0 <= IZR n <= 7)%R) by (split; apply IZR_le; lia).
  destruct (fdiv_ok (of_Z n) (of_Z 8) F1) as (F3 & V3); [rewrite V2; lra|rewrite V1, V2; apply finite_small, abs_pos; lra|].
  split; [exact F3|]. unfold eighth, dyadic. rewrite V3, V1, V2, rnd_fmt; [lra|]. replace (IZR n / 8)%R with (IZR n * Raux.bpow Zaux.radix2 (-3))%R by (cbn; lra). apply fmt_int; lia.
Qed.
Definition four_draws (k : nat) : draws :=
  match k with
  | O => mkDraws (eighth 5) (eighth 3) (eighth 4) (fun _ => 2) (fun _ => 0)
  | _ => mkDraws (eighth 0) (eighth 1) (eighth 4) (fun _ => 4) (fun _ => 0)
  end.
Lemma four_draws_ok k : unit_draws (four_draws k).
Proof. destruct k; (split; [|split]); apply eighth_draw; lia. Qed.

Definition finiteb (x : float) : bool := Flocq.IEEE754.Binary.is_finite 53 1024 x.
(** The second and third of three windows: same start, same duration of a day. *)
Definition clash (r : res (handler * list observation)) : bool :=
  match r with
  | Ok (_, [_; w; w']) =>
      finiteb (o_start w) && finiteb (o_start w') && feq (o_start w) (o_start w') &&
      finiteb (o_dur w) && finiteb (o_dur w') && feq (o_dur w) (of_Z 86400) && feq (o_dur w') (of_Z 86400)
  | _ => false
  end.
Definition on {A} (r : res handler) (f : handler -> res A) : res A := match r with Ok h => f h | Raise e => Raise e end.
Lemma on_ok A (r : res handler) (f : handler -> res A) (P : res A -> bool) :
  P (on r f) = true -> (forall e, r = Raise e -> P (Raise e) = false) -> exists h, r = Ok h /\ P (f h) = true.
Proof. destruct r as [h|e]; cbn [on]; intros H Q; [exists h; auto|]. rewrite (Q e eq_refl) in H. discriminate. Qed.
Lemma clash_ok r : clash r = true -> exists h w0 w w', r = Ok (h, [w0; w; w']) /\
  value (o_start w) = value (o_start w') /\ value (o_dur w) = 86400%R /\ value (o_dur w') = 86400%R.
Proof.
  destruct r as [(h, [|w0 [|w [|w' [|]]]])|]; cbn [clash]; try discriminate. intros H.
  apply andb_prop in H. destruct H as (H & D'). apply andb_prop in H. destruct H as (H & D).
  apply andb_prop in H. destruct H as (H & FD'). apply andb_prop in H. destruct H as (H & FD).
  apply andb_prop in H. destruct H as (H & E). apply andb_prop in H. destruct H as (Fw & Fw').
  destruct (of_Z_ok 86400 ltac:(lia)) as (F1 & V1).
  apply (proj1 (feq_iff _ _ Fw Fw')) in E. apply (proj1 (feq_iff _ _ FD F1)) in D. apply (proj1 (feq_iff _ _ FD' F1)) in D'. rewrite V1 in D, D'.
  exists h, w0, w, w'. split; [reflexivity|]. split; [exact E|]. split; [exact D|exact D'].
Qed.
(** Four requests in a handler, and the run. *)
Lemma four_run : exists h h' w0 w w', reachable h /\ generate steep_exp h 100 (dyadic 1 2) (dyadic 1 2) four_draws = Ok (h', [w0; w; w']) /\
  value (o_start w) = value (o_start w') /\ value (o_dur w) = 86400%R /\ value (o_dur w') = 86400%R.
Proof.
  assert (C : clash (on (after four_asks) (fun h => generate steep_exp h 100 (dyadic 1 2) (dyadic 1 2) four_draws)) = true) by (vm_compute; reflexivity).
  destruct (on_ok _ _ _ _ C ltac:(intros e _; reflexivity)) as (h & A & C').
  destruct (clash_ok _ C') as (h' & w0 & w & w' & E & S' & D & D').
  exists h, h', w0, w, w'. split; [exists four_asks; split; [exact four_asks_ok|exact A]|].
  split; [exact E|]. split; [exact S'|]. split; [exact D|exact D'].
Qed.
(** Returned windows can overlap by a whole day: the overlap found in the model with exact
    numbers is not an artefact of exact arithmetic. *)
Theorem C120_windows_overlap_refuted :
  exists exp h ds h' w0 w w', reachable h /\ quiet_exp exp /\ exp_of_zero exp /\ (forall k, unit_draws (ds k)) /\
    generate exp h 100 (dyadic 1 2) (dyadic 1 2) ds = Ok (h', [w0; w; w']) /\
    overlap (value (o_start w)) (real_days (o_dur w)) (value (o_start w')) (real_days (o_dur w')) = 1%R.
Proof.
  destruct four_run as (h & h' & w0 & w & w' & R & E & S' & D & D').
  exists steep_exp, h, four_draws, h', w0, w, w'. split; [exact R|].
  split; [exact steep_quiet|]. split; [exact steep_zero|]. split; [exact four_draws_ok|]. split; [exact E|].
  unfold overlap, real_days. rewrite S', D, D'. rewrite Rmin_left by lra. rewrite Rmax_left by lra. lra.
Qed.
(** Generating can fail: of two requests the more important has no window, so the initial
    solution is worth nothing and the first temperature is zero. *)
Definition hopeless_first : list operation := [ask_many 0 5 []; ask_many 1 2 [from_day 0 10]].
Lemma hopeless_first_ok : Forall ordinary_operation hopeless_first.
Proof.
  unfold hopeless_first. repeat (apply Forall_cons; [apply ask_many_ok; cbn [In]; intros v I; repeat (destruct I as [<-|I]; [apply from_day_ok; lia|]); destruct I|]). apply Forall_nil.
Qed.
Theorem C120_never_fails_refuted :
  exists exp h ds, reachable h /\ quiet_exp exp /\ exp_of_zero exp /\ (forall k, unit_draws (ds k)) /\
    generate exp h 100 (dyadic 1 2) (dyadic 1 2) ds = Raise ZeroDivisionError.
Proof.
  assert (K : match after hopeless_first with Ok _ => true | Raise _ => false end = true) by (vm_compute; reflexivity).
  assert (C : raises (on (after hopeless_first) (fun h => generate steep_exp h 100 (dyadic 1 2) (dyadic 1 2) four_draws)) = true) by (vm_compute; reflexivity).
  destruct (on_ok _ _ _ _ C) as (h & A & C'); [intros e E; rewrite E in K; discriminate|].
  exists steep_exp, h, four_draws. split; [exists hopeless_first; split; [exact hopeless_first_ok|exact A]|].
  split; [exact steep_quiet|]. split; [exact steep_zero|]. split; [exact four_draws_ok|]. apply raises_ok. exact C'.
Qed.

(** The windows of the four requests serve three of them. *)
Example C120_case :
  exists h h' ws served rest, reachable h /\ generate steep_exp h 100 (dyadic 1 2) (dyadic 1 2) four_draws = Ok (h', ws) /\
    length ws = 3 /\ Permutation (reqs h) (served ++ rest) /\ Forall2 serves served ws.
Proof.
  destruct four_run as (h & h' & w0 & w & w' & R & E & _).
  destruct (C120_windows_serve_requests _ _ _ _ _ _ _ _ R E) as (_ & served & rest & P & F & _).
  exists h, h', [w0; w; w'], served, rest. split; [exact R|]. split; [exact E|]. split; [reflexivity|]. split; [exact P|exact F].
Qed.
Print Assumptions C120_windows_serve_requests.
Print Assumptions C120_scheduled_emitted_partial.
Print Assumptions C120_scheduled_emitted_refuted.
Print Assumptions C120_windows_overlap_refuted.
Print Assumptions C120_never_fails_refuted.
