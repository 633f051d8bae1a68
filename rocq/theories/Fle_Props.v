(** From positions to schedules in floating point: C137. *)
From Coq Require Import List Reals ZArith Arith Bool Lia Lra Permutation.
From Verif Require Import Py PyLemmas Fl_Model Fl_Spec Fl_Proofs Rot_Model Rot_Spec Geo_Model Vtw_Model Flg_Model Flg_Spec Flg_Best Flw_Model Flw_Spec Flg_Cases
  Fls_Model Fls_Spec Fls_Proofs2 Fls_Props Fla_Model Fla_Spec Fla_Props Fla_Props2 Fle_Model Fle_Spec Fle_Proofs.
Import ListNotations.
Open Scope R_scope.
Open Scope list_scope.

(** Whatever is asked of a new scheduler, each window it returns answers an accepted request of its
    own, and the exact elevation of the satellite is above the threshold, up to 4e-6 degrees, with
    the Sun on the right side, at every sample from the start of the observation up to the first
    one after its end. *)
Theorem C137_observations_in_view :
  forall M s threshold cs k ws, accurate M -> sound_sky s -> finite threshold -> Forall (sound_call s) cs ->
    let al := fsession M s threshold cs empty_handler in
    nth_error al k = Some (FWindows ws) ->
    exists served rest, Permutation (accepted (firstn k cs) (firstn k al)) (served ++ rest) /\
      Forall2 (observed s threshold) served ws.
Proof.
  intros M s th cs k ws A Sk T C al N. exact (session_ok M s th A Sk T cs C [] empty_handler k ws (good_empty M s th) N).
Qed.

(** ** A session: two requests for the pass of C135, with a correctly rounded library *)
Definition pass_sky : fsky := FSky clock Ukm pass (fun _ => here) (fun _ => suns) (fun _ => mkAtt [] [] Udeg).
Definition minute (prio : Z) : fask := FAsk 0 (of_Z 2459010) (of_Z 60) prio 1 NoLook Anytime.
Definition pass_windows : list vtw := map (window_at pass_sky 0) [(of_Z 2459000, of_Z 2459001); (of_Z 2459002, of_Z 2459003)].
Definition pass_handler : handler :=
  add_request (add_request empty_handler 0 (of_Z 2459010) (of_Z 60) 5 1 NoLook pass_windows) 0 (of_Z 2459010) (of_Z 60) 3 1 NoLook pass_windows.
Definition pass_calls : list fcall := [FAdd (minute 5); FAdd (minute 3); FGenerate steep_exp 10 (dyadic 1 2) (dyadic 1 2) four_draws].
Lemma pass_sky_sound : sound_sky pass_sky.
Proof.
  assert (D : forall z, (2459000 <= z <= 2459003)%Z -> finite (of_Z z) /\ value (of_Z z) = IZR z) by (intros z Hz; apply of_Z_ok; lia).
  assert (In_clock : forall t, In t clock -> exists z, (2459000 <= z <= 2459003)%Z /\ t = of_Z z).
  { unfold clock. intros t [<-|[<-|[<-|[<-|[]]]]]; eexists; (split; [|reflexivity]); lia. }
  assert (Nth : forall i t, nth_error clock i = Some t -> (i < 4)%nat /\ t = of_Z (2459000 + Z.of_nat i)).
  { intros i t. unfold clock. destruct i as [|[|[|[|i]]]]; cbn [nth_error]; intros E; try (injection E as <-; split; [lia|reflexivity]). destruct i; discriminate. }
  split; [reflexivity|]. cbn [fs_julian fs_sun fs_attitude pass_sky a_time]. split.
  - intros t I. destruct (In_clock t I) as (z & Hz & ->). destruct (D z Hz) as (F & V). unfold ordinary_date, julian_date. rewrite V.
    assert (2459000 <= IZR z <= 2459003) by (split; apply IZR_le; lia). repeat split; auto; lra.
  - split.
    + intros i j t t' L N N'. destruct (Nth _ _ N) as (Li & ->). destruct (Nth _ _ N') as (Lj & ->).
      destruct (D (2459000 + Z.of_nat i)%Z ltac:(lia)) as (_ & ->). destruct (D (2459000 + Z.of_nat j)%Z ltac:(lia)) as (_ & ->).
      rewrite <- plus_IZR. split; [apply IZR_lt; lia|apply IZR_le; lia].
    + split; [|intros _ t []]. intros _. unfold suns. destruct (of_Z_ok 0 ltac:(lia)) as (F0 & _). repeat constructor; exact F0.
Qed.
Lemma minute_sound prio : sound_ask pass_sky (minute prio).
Proof.
  split; [exact here_on_earth|]. split; [exact pass_far|]. cbn [minute fk_deadline fk_dur].
  destruct (of_Z_ok 2459010 ltac:(lia)) as (F & V). destruct (of_Z_ok 60 ltac:(lia)) as (F6 & V6). split.
  - split; [exact F|]. rewrite V. lra.
  - split; [apply moderate_Z; lia|]. rewrite V6. lra.
Qed.
Example C137_case : accurate best /\ sound_sky pass_sky /\ Forall (sound_call pass_sky) pass_calls /\
  exists w, fsession best pass_sky (of_Z 10) pass_calls empty_handler = [FAccepted; FAccepted; FWindows [w]].
Proof.
  split; [exact (rounded_accurate _ best_rounded)|]. split; [exact pass_sky_sound|]. split; [apply Forall_cons; [exact (minute_sound 5)|]; apply Forall_cons; [exact (minute_sound 3)|]; apply Forall_cons; [exact Logic.I|apply Forall_nil]|].
  assert (C : match generate steep_exp pass_handler 10 (dyadic 1 2) (dyadic 1 2) four_draws with Ok (_, [_]) => true | _ => false end = true) by (vm_compute; reflexivity).
  assert (E : fsession best pass_sky (of_Z 10) pass_calls empty_handler =
    match generate steep_exp pass_handler 10 (dyadic 1 2) (dyadic 1 2) four_draws with Ok (h', ws) => [FAccepted; FAccepted; FWindows ws] | Raise e => [FAccepted; FAccepted; FFailed e] end).
  { unfold pass_calls. cbn [fsession]. unfold fscheduler_add. cbn [minute fk_loc fk_light fk_deadline fk_dur fk_prio fk_qual fk_look pass_sky fs_julian fs_unit fs_points fs_place fs_sun].
    rewrite (pass_split best best_rounded). cbn [bind]. fold pass_sky. fold pass_windows. fold pass_handler.
    destruct (generate steep_exp pass_handler 10 (dyadic 1 2) (dyadic 1 2) four_draws) as [(h', ws)|e]; reflexivity. }
  rewrite E. clear E. destruct (generate steep_exp pass_handler 10 (dyadic 1 2) (dyadic 1 2) four_draws) as [(h', [|w [|w' ws]])|e]; try discriminate. exists w. reflexivity.
Qed.

Print Assumptions C137_observations_in_view.
