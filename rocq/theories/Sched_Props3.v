(** Further properties of the request handler, added after mutation testing (C77). *)
From Coq Require Import List ZArith QArith Bool Arith Permutation Lia.
From Verif Require Import Py PyLemmas Sched_Model Sched_Spec Sched_Proofs Sched_Proofs2
  Sched_Proofs3 Sched_Proofs4 Sched_Props.
Import ListNotations.
Open Scope nat_scope.
Open Scope list_scope.

(** C77. In every reachable handler a request that is not scheduled carries no start, no
    duration and no window of an earlier booking. *)
Theorem C77_unscheduled_means_no_booking :
  forall h, reachable h -> forall r, In r (reqs h) -> r_sched r = false -> no_booking r.
Proof.
  intros h (os & H).
  assert (G : forall os h0, counters_ok h0 ->
    (forall r, In r (reqs h0) -> r_sched r = false -> no_booking r) ->
    run_history os h0 = Ok h ->
    forall r, In r (reqs h) -> r_sched r = false -> no_booking r).
  { clear. induction os as [|o os IH]; intros h0 C I H; cbn [run_history] in H; [now injection H as <-|].
    destruct (run_operation o h0) as [h1|] eqn:E; [|discriminate].
    destruct (operation_spec o h0 h1 C E) as (C' & [(m & Pm & Fm)|Ad]); apply (IH h1); auto.
    - intros r Ir S. destruct (Forall2_In_r _ _ _ _ Fm Ir) as (q & Iq & (_ & [(B1 & B2 & B3 & B4)|[B|B]])); auto.
      + assert (Iq0 : In q (reqs h0)) by (eapply Permutation_in; [symmetry; eauto|auto]).
        rewrite B1 in S. destruct (I q Iq0 S) as (_ & N2 & N3 & N4).
        repeat split; congruence.
      + destruct B as (B & _). congruence.
    - destruct Ad as (loc & dl & du & pr & qu & lk & ws & _ & ->). intros r Ir S.
      apply in_app_or in Ir. destruct Ir as [Ir|[<-|[]]]; auto. repeat split. }
  apply (G os empty_handler); auto; [split; reflexivity|intros r []].
Qed.
(** A request is booked by the initial solution and then removed. *)
Example C77_example : let h := run [add_A; add_B; OpInitialize] in let h' := run [add_A; add_B; OpInitialize; OpRemove 0 (fun i => i) 2] in
  map r_sched (reqs h) = [true; false] /\ map r_sched (reqs h') = [false; false] /\
  map r_start (reqs h') = [None; None].
Proof. vm_compute. repeat split. Qed.

Print Assumptions C77_unscheduled_means_no_booking.
