(** Objects changed in place: what searching and scheduling do to the handlers that exist, and
    programs with several schedulers. *)
From Coq Require Import List ZArith QArith Bool Arith Permutation Lia.
From Verif Require Import Py PyLemmas Sched_Model Vtw_Model Alns_Model Gen_Model Sess_Model Sess_Spec Sess_Proofs Sess_Props Alns_Spec
  Heap_Model Heap_Spec Heap_Proofs Heap_Proofs2 Heap_Proofs3.
Import ListNotations.
Open Scope nat_scope.
Open Scope list_scope.

(** C122.  A search changes no object that existed before it, also when it raises; the solution
    it returns is made of new objects, so that changing it later changes nothing the caller
    had; and read through the heap it is the solution of the model without objects. *)
Theorem C122_search_leaves_objects_alone :
  forall exceeds H a h max_iter p l n_remove n_add ds, reads H a h ->
    let (H', r) := h_solve (h_schedule_problem exceeds) a max_iter p l n_remove n_add ds H in
    kept H H' /\
    match r with
    | Ok b => (forall x, In x (parts H' b) -> length H <= x) /\
              exists best log, solve (schedule_problem exceeds) h max_iter p l n_remove n_add ds = Ok (best, log) /\ reads H' b best
    | Raise e => solve (schedule_problem exceeds) h max_iter p l n_remove n_add ds = Raise e
    end.
Proof.
  intros exceeds H a h mi p l nr na ds R. pose proof (schedule_solve_ok exceeds H a h mi p l nr na ds R) as X.
  destruct (solve (schedule_problem exceeds) h mi p l nr na ds) as [[best log]|e].
  - destruct X as (H' & b & -> & K & F & _). apply Forall_inv in F. destruct F as (Rb & Nb). cbn [fst snd] in *. split; auto. split; auto. eauto.
  - destruct X as (H' & -> & K). auto.
Qed.
(** The solution shares nothing with the handler given. *)
Theorem C122_solution_apart :
  forall exceeds H a h max_iter p l n_remove n_add ds H' b, reads H a h ->
    h_solve (h_schedule_problem exceeds) a max_iter p l n_remove n_add ds H = (H', Ok b) -> reads H' a h /\ apart H' a b.
Proof.
  intros exceeds H a h mi p l nr na ds H' b R E. pose proof (C122_search_leaves_objects_alone exceeds H a h mi p l nr na ds R) as X. rewrite E in X.
  destruct X as (K & N & _). destruct (kept_parts _ _ _ _ K R) as (R' & P). split; auto. intros x I J. rewrite P in I. apply N in J. pose proof (parts_lt _ _ _ _ R I). lia.
Qed.
(** Each removal and insertion operator changes the handler it is given, and no other. *)
Theorem C122_operators_change_one_handler :
  forall f H a h rnd n, In f (h_removal_functions ++ h_insertion_functions) -> reads H a h ->
    let (H', r) := f rnd a n H in
    kept_but a H H' /\ forall b g, reads H b g -> apart H a b -> reads H' b g.
Proof.
  intros f H a h rnd n I R. assert (X : exists g, implements f g).
  { apply in_app_or in I. destruct I as [I|I]; [destruct (Forall2_In_l _ _ _ _ removals_ok I) as (g & _ & X)|destruct (Forall2_In_l _ _ _ _ insertions_ok I) as (g & _ & X)]; eauto. }
  destruct X as (g & X). destruct (X H a h rnd n R) as (Fr & _). destruct (f rnd a n H) as (H', r). cbn [fst] in Fr. split; [apply Fr|].
  intros b k Rb A. now apply (frame_other a b k H H').
Qed.

(** C123.  [generate] on a handler on the heap returns or raises what the model without objects
    says, leaves the handler as it says, and changes no object that is not a part of the
    handler. *)
Theorem C123_generate_in_place :
  forall exceeds H a sat threshold h max_iter annealing react ds, reads H a h ->
    let (s', r) := scheduler_generate exceeds (mkScheduler sat threshold h) max_iter annealing react ds in
    exists H', h_generate exceeds a max_iter annealing react ds H = (H', r) /\ reads H' a (sch_handler s') /\ kept_but a H H'.
Proof.
  intros exceeds H a sat th h mi an re ds R. destruct (generate_ok exceeds H (mkHScheduler sat th a) (mkScheduler sat th h) mi an re ds eq_refl eq_refl R) as (H' & E & Fr & R').
  cbn [hc_handler] in *. destruct (scheduler_generate _ _ _ _ _ _) as [s' r]. exists H'. split; auto. split; auto. apply Fr.
Qed.
(** The handler keeps the initial solution, whatever the search finds: the schedule left in it
    does not depend on the number of iterations, the cooling, the reaction or the draws. *)
Theorem C123_search_not_left_behind :
  forall exceeds exceeds' H a h max_iter max_iter' p p' l l' ds ds' k, reads H a h ->
    reads (fst (h_generate exceeds a max_iter p l ds H)) a k -> reads (fst (h_generate exceeds' a max_iter' p' l' ds' H)) a k.
Proof.
  intros ex ex' H a h mi mi' p p' l l' ds ds' k R.
  destruct (generate_ok ex H (mkHScheduler (mkSky true (fun _ => []) (fun _ => mkAtt [] [] [] [] 0)) 0 a) (mkScheduler (mkSky true (fun _ => []) (fun _ => mkAtt [] [] [] [] 0)) 0 h) mi p l ds eq_refl eq_refl R) as (H1 & E1 & _ & R1).
  destruct (generate_ok ex' H (mkHScheduler (mkSky true (fun _ => []) (fun _ => mkAtt [] [] [] [] 0)) 0 a) (mkScheduler (mkSky true (fun _ => []) (fun _ => mkAtt [] [] [] [] 0)) 0 h) mi' p' l' ds' eq_refl eq_refl R) as (H2 & E2 & _ & R2).
  cbn [hc_handler] in *. rewrite E1, E2. cbn [fst]. intros Rk. pose proof (contents_ok _ _ _ Rk) as Ck. rewrite (contents_ok _ _ _ R1) in Ck.
  assert (Eq : forall mi p l ds ex mi' p' l' ds' ex' v, sch_handler (fst (scheduler_generate ex v mi p l ds)) = sch_handler (fst (scheduler_generate ex' v mi' p' l' ds'))).
  { intros. unfold scheduler_generate. destruct (h_n (sch_handler v) =? 0); auto. destruct (initialize_st (sch_handler v)) as [h1 [e|]]; auto. }
  rewrite (Eq _ _ _ _ _ mi p l ds ex) in R2. congruence.
Qed.

(** C124.  Schedulers do not influence each other: in a program creating any schedulers and
    calling their methods in any order, each answers as if it had been alone; and what existed
    before the program is as it was. *)
Theorem C124_schedulers_independent :
  forall acts H i satellite threshold, nth_error (creations acts) i = Some (satellite, threshold) ->
    answers_to i (snd (program acts [] H)) = answers satellite threshold (calls_to i 0 acts).
Proof.
  intros acts H i sat th E. assert (W : world H H (handlers [] [])) by (split; [apply kept_refl|split; constructor]).
  destruct (program_ok H acts [] [] H (Forall2_nil _) W) as (_ & A). apply (A i (fresh (sat, th))). cbn [app]. now apply map_nth_error.
Qed.
Theorem C124_nothing_else_changed : forall acts H, kept H (snd (fst (program acts [] H))).
Proof.
  intros acts H. assert (W : world H H (handlers [] [])) by (split; [apply kept_refl|split; constructor]).
  now destruct (program_ok H acts [] [] H (Forall2_nil _) W) as (K & _).
Qed.

(** A program with two schedulers whose calls alternate. *)
Definition two_schedulers : list action :=
  [Create pass_sky 10; Create pass_sky 90; Call 0 (CAdd late_ask); Call 1 greedy; Call 0 (CAdd low_ask); Call 1 (CAdd low_ask);
   Call 0 greedy; Call 2 greedy; Call 0 (CAdd high_ask); Call 0 greedy; Call 1 greedy].
Example C124_case : exists w,
  snd (program two_schedulers [] [OList []]) =
    [(0, Accepted); (1, Failed PyException); (0, Accepted); (1, Failed IndexError); (0, Windows [w]); (0, Accepted);
     (0, Windows [w]); (1, Failed PyException)].
Proof. eexists. vm_compute. reflexivity. Qed.

(** The heap of that program before its first [generate] that succeeds holds a handler with two
    requests, which a search of two rounds (removing and inserting) leaves unscheduled, while
    its solution serves one of them. *)
Definition before_search : list h_scheduler * heap * list (nat * answer) :=
  program [Create pass_sky 90; Create pass_sky 10; Call 1 (CAdd late_ask); Call 1 (CAdd low_ask)] [] [OList []].
Definition two_rounds : nat -> draws := fun _ => mkDraws 0 0 0 (fun _ => 0) (fun _ => 0).
Definition read_off (a : addr) (H : heap) : handler := match contents a H with (_, Ok h) => h | _ => empty_handler end.
Example C122_case :
  exists s h H' b best, nth_error (fst (fst before_search)) 1 = Some s /\ reads (snd (fst before_search)) (hc_handler s) h /\
    map r_sched (reqs h) = [false; false] /\
    h_solve (h_schedule_problem exceeds_exp) (hc_handler s) 2 (1 # 2) (1 # 2) 1 2 two_rounds (snd (fst before_search)) = (H', Ok b) /\
    reads H' b best /\ map r_sched (reqs best) = [true; false] /\ length (snd (fst before_search)) < b.
Proof.
  exists (mkHScheduler pass_sky 10 4), (read_off 4 (snd (fst before_search))).
  exists (fst (h_solve (h_schedule_problem exceeds_exp) 4 2 (1 # 2) (1 # 2) 1 2 two_rounds (snd (fst before_search)))), 27.
  exists (read_off 27 (fst (h_solve (h_schedule_problem exceeds_exp) 4 2 (1 # 2) (1 # 2) 1 2 two_rounds (snd (fst before_search))))). repeat match goal with |- _ /\ _ => split end.
  - vm_compute. reflexivity.
  - do 2 eexists. split; [vm_compute; reflexivity|]. split; [vm_compute; reflexivity|]. split.
    + repeat apply Forall2_cons; try apply Forall2_nil; vm_compute; reflexivity.
    + repeat constructor; cbn; intuition discriminate.
  - reflexivity.
  - vm_compute. reflexivity.
  - do 2 eexists. split; [vm_compute; reflexivity|]. split; [vm_compute; reflexivity|]. split.
    + repeat apply Forall2_cons; try apply Forall2_nil; vm_compute; reflexivity.
    + repeat constructor; cbn; intuition discriminate.
  - reflexivity.
  - vm_compute. lia.
Qed.
Print Assumptions C122_search_leaves_objects_alone.
Print Assumptions C122_solution_apart.
Print Assumptions C122_operators_change_one_handler.
Print Assumptions C123_generate_in_place.
Print Assumptions C123_search_not_left_behind.
Print Assumptions C124_schedulers_independent.
Print Assumptions C124_nothing_else_changed.
