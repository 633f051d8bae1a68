(** Sessions in floating point. *)
From Coq Require Import List Reals ZArith Arith Bool Lia Lra Sorted Permutation.
From Verif Require Import Py PyLemmas Fl_Model Fl_Spec Fl_Proofs Rot_Model Rot_Spec Geo_Model Vtw_Model Vtw_Spec Vis_Proofs Flg_Model Flg_Spec Flw_Model Flw_Spec Flw_Proofs
  Fls_Model Fls_Spec Fls_Proofs2 Fla_Model Fla_Spec Fla_Proofs5 Fla_Props2 Fle_Model Fle_Spec.
Import ListNotations.
Open Scope R_scope.
Open Scope list_scope.

Section made.
Variables (M : maths) (s : fsky) (th : float).
Hypothesis A : accurate M.
Hypothesis Sk : sound_sky s.
Hypothesis T : finite th.

(** The windows of an accepted ask *)
Definition wmade (a : fask) (ws : list (float * float)) : Prop :=
  fgenerate_windows M (fs_place s (fk_loc a)) (fs_unit s) (fs_julian s) (fs_points s) (fs_sun s (fk_loc a)) th (fk_light a) = Ok ws.
Lemma wmade_valid a ws : wmade a ws -> fk_light a <> OtherLight /\ 0 <= value th <= 90.
Proof.
  unfold wmade, fgenerate_windows. destruct (of_Z_ok 0 ltac:(lia)) as (F0 & V0). destruct (of_Z_ok 90 ltac:(lia)) as (F90 & V90).
  destruct (flt th (of_Z 0)) eqn:E0; [discriminate|]. destruct (flt (of_Z 90) th) eqn:E9; [discriminate|]. cbn [orb].
  intros H. split.
  - intros E. rewrite E in H. destruct (mapM _ _) as [es|e]; cbn [bind flighting_indices] in H; discriminate.
  - apply (bool_iff _ _ (flt_iff _ _ T F0)) in E0. apply (bool_iff _ _ (flt_iff _ _ F90 T)) in E9. lra.
Qed.
(** The rise and the set of a window are the times of samples; those in between are visible *)
Lemma wmade_runs a ws d : sound_ask s a -> wmade a ws -> forall w, In w ws -> exists p b, (p < length (fs_julian s))%nat /\ (b < length (fs_julian s))%nat /\
  fst w = nth p (fs_julian s) d /\ snd w = nth b (fs_julian s) d /\
  ((p < b)%nat -> forall i, (p < i <= b)%nat -> visible_at s th a i).
Proof.
  intros (O & F & _) W w I. destruct (wmade_valid a ws W) as (NL & Th). destruct Sk as (Lj & _ & _ & Fs & _).
  destruct (windows_made M _ (fs_unit s) (fs_julian s) (fs_points s) (fs_sun s (fk_loc a)) th (fk_light a) A O F Lj (Fs _) NL T Th) as (k & SS & E & H).
  unfold wmade in W. rewrite E in W. assert (N : k <> []) by (intros ->; discriminate W). destruct (index_sets_runs k SS N) as (runs & Er & R).
  assert (B : forall x y, In (x, y) runs -> (x <= y < length (fs_julian s))%nat).
  { intros x y J. apply R in J. destruct J as (L & P & _). split; auto. assert (J : In y k) by (apply P; lia). apply H in J. destruct J as (_ & e & (p & Np & _) & _). rewrite Lj. apply nth_error_Some. congruence. }
  rewrite Er, (fwindows_ok _ d) in W by exact B. injection W as <-. apply in_map_iff in I. destruct I as ((x, y) & <- & I). cbn [fst snd].
  pose proof (B _ _ I) as Bxy. apply R in I. destruct I as (_ & P & _). exists (if x =? 0 then length (fs_julian s) - 1 else x - 1)%nat, y.
  split; [destruct (x =? 0)%nat; lia|]. split; [lia|]. split; [reflexivity|]. split; [reflexivity|]. intros L i Hi.
  destruct (Nat.eqb_spec x 0) as [->|Nx]; [exfalso; lia|]. assert (J : In i k) by (apply P; lia). apply H in J. exact J.
Qed.
Lemma nth_in (l : list float) i d : (i < length l)%nat -> nth_error l i = Some (nth i l d).
Proof. intros. now apply nth_error_nth'. Qed.
Lemma wmade_ordinary a ws : sound_ask s a -> wmade a ws -> forall v, In v (map (window_at s (fk_loc a)) ws) -> ordinary_window v.
Proof.
  intros Sa W v I. apply in_map_iff in I. destruct I as (w & <- & I). destruct (wmade_runs a ws th Sa W w I) as (p & b & Lp & Lb & Ep & Eb & _).
  destruct Sk as (_ & D & Inc & _ & At). unfold window_at, ordinary_window. cbn [v_rise v_set v_att]. rewrite Ep, Eb.
  pose proof (D _ (nth_In _ th Lp)) as Dp. pose proof (D _ (nth_In _ th Lb)) as Db. split; [exact Dp|]. split; [exact Db|]. split; [|intros t; apply At].
  destruct (lt_eq_lt_dec p b) as [[L| ->]|L].
  - pose proof (Inc p b _ _ L (nth_in _ _ th Lp) (nth_in _ _ th Lb)). lra.
  - lra.
  - pose proof (Inc b p _ _ L (nth_in _ _ th Lb) (nth_in _ _ th Lp)). lra.
Qed.
(** An observation in such a window *)
Lemma wmade_observed a ws v (x y : float) : sound_ask s a -> wmade a ws -> In v (map (window_at s (fk_loc a)) ws) ->
  value (v_rise v) < value x -> 0 <= real_days y -> value x + real_days y < value (v_set v) ->
  (exists i t, nth_error (fs_julian s) i = Some t /\ value x + real_days y < value t /\ visible_at s th a i) /\
  (forall i t, nth_error (fs_julian s) i = Some t -> value x <= value t ->
     (forall j t', (j < i)%nat -> nth_error (fs_julian s) j = Some t' -> value t' < value x + real_days y) -> visible_at s th a i).
Proof.
  intros Sa W I R Y S. apply in_map_iff in I. destruct I as (w & <- & I). destruct (wmade_runs a ws th Sa W w I) as (p & b & Lp & Lb & Ep & Eb & H).
  cbn [window_at v_rise v_set] in R, S. rewrite Ep in R. rewrite Eb in S. destruct Sk as (_ & _ & Inc & _).
  pose proof (nth_in _ _ th Lp) as Np. pose proof (nth_in _ _ th Lb) as Nb.
  assert (L : (p < b)%nat). { destruct (lt_eq_lt_dec p b) as [[L| ->]|L]; auto; exfalso; [lra|]. pose proof (Inc b p _ _ L Nb Np). lra. }
  specialize (H L). split.
  - exists b, (nth b (fs_julian s) th). split; [exact Nb|]. split; [exact S|]. apply H. lia.
  - intros i t N X J. apply H. split.
    + destruct (lt_eq_lt_dec p i) as [[Q|Q]|Q]; auto; exfalso.
      * subst i. rewrite Np in N. injection N as <-. lra.
      * pose proof (Inc i p _ _ Q N Np). lra.
    + destruct (le_lt_dec i b) as [Q|Q]; auto. exfalso. specialize (J b _ Q Nb). lra.
Qed.

(** What a request remembers of its ask *)
Definition from_ask (a : fask) (r : request) : Prop :=
  r_loc r = fk_loc a /\ r_deadline r = fk_deadline a /\ r_dur r = fk_dur a /\ sound_ask s a /\
  exists ws, wmade a ws /\ Permutation (map (window_at s (fk_loc a)) ws) (r_vtws r).
Lemma from_ask_serves a r w : from_ask a r -> serves r w -> observed s th a w.
Proof.
  intros (L & D & U & Sa & ws & W & P) (E1 & E2 & v & I & (R1 & R2) & Tm & _). unfold observed. unfold in_time in Tm. rewrite D, U in *.
  split; [congruence|]. split; [congruence|]. split; [exact Tm|].
  assert (0 <= real_days (fk_dur a)) by (destruct Sa as (_ & _ & _ & _ & B); unfold real_days; lra).
  apply (wmade_observed a ws v); auto. eapply Permutation_in; [apply Permutation_sym; exact P|exact I].
Qed.
Definition fgood (asks : list fask) (h : handler) : Prop :=
  reachable h /\ exists l, Permutation asks l /\ Forall2 from_ask l (reqs h).
Lemma reach_op os h o h' : Forall ordinary_operation os -> run_history os empty_handler = Ok h -> ordinary_operation o -> run_operation o h = Ok h' -> reachable h'.
Proof.
  intros F R O H. exists (os ++ [o]). split; [apply Forall_app; auto|]. revert R H. generalize empty_handler. clear. induction os as [|o' os IH]; intros h0; cbn [app run_history].
  - intros [= ->]. intros ->. reflexivity.
  - destruct (run_operation o' h0); [|discriminate]. apply IH.
Qed.
Lemma Forall2_perm {X Y} (R : X -> Y -> Prop) l m m' : Forall2 R l m -> Permutation m m' -> exists l', Permutation l l' /\ Forall2 R l' m'.
Proof.
  intros F P. revert l F. induction P as [|y m m' P IH|y z m|m m' m'' P IH P' IH']; intros l F.
  - inversion F; subst. exists []. auto.
  - inversion F as [|x y' l0 m0 Rx F']; subst. destruct (IH _ F') as (l' & Pl & Fl). exists (x :: l'). split; auto.
  - inversion F as [|x y' l0 m0 Rx F']; subst. inversion F' as [|x' y'' l1 m1 Rx' F'']; subst. exists (x' :: x :: l1). split; [apply perm_swap|auto].
  - destruct (IH _ F) as (l' & Pl & Fl). destruct (IH' _ Fl) as (l'' & Pl' & Fl'). exists l''. split; auto. now transitivity l'.
Qed.
Lemma good_added asks h a h' : fgood asks h -> sound_ask s a -> fscheduler_add M s th a h = Ok h' -> fgood (asks ++ [a]) h'.
Proof.
  intros ((os & Fo & Ro) & l & P & F) Sa H. unfold fscheduler_add in H. apply bind_Ok in H. destruct H as (ws & W & H). injection H as <-. fold (wmade a ws) in W. split.
  - apply (reach_op os h (OpAdd (fk_loc a) (fk_deadline a) (fk_dur a) (fk_prio a) (fk_qual a) (fk_look a) (map (window_at s (fk_loc a)) ws))); auto.
    cbn [ordinary_operation]. pose proof Sa as (_ & _ & J & Sc). split; [exact J|]. split; [exact Sc|]. apply (wmade_ordinary a ws Sa W).
  - exists (l ++ [a]). split; [now apply Permutation_app_tail|]. cbn [reqs add_request]. apply Forall2_app; auto. constructor; [|constructor].
    unfold from_ask. cbn [r_loc r_deadline r_dur r_vtws new_request]. split; [reflexivity|]. split; [reflexivity|]. split; [reflexivity|]. split; [exact Sa|]. exists ws. split; auto.
Qed.
Lemma good_generated asks h ex mi an re ds h' ws : fgood asks h -> generate ex h mi an re ds = Ok (h', ws) ->
  fgood asks h' /\ exists served rest, Permutation asks (served ++ rest) /\ Forall2 (observed s th) served ws.
Proof.
  intros (R & l & P & F) H. destruct (C120_windows_serve_requests _ _ _ _ _ _ _ _ R H) as (Ei & sv & rs & Pr & Sv & _). split.
  - pose proof R as (os & Fo & Ro). split; [apply (reach_op os h OpInitialize); auto; exact Logic.I|].
    destruct (reachable_inv h R) as (C & _). destruct (operation_spec OpInitialize h h' C Ei) as (_ & [(m & Pm & Fm)|(x1 & x2 & x3 & x4 & x5 & x6 & x7 & X & _)]); [|discriminate].
    destruct (Forall2_perm _ _ _ _ F Pm) as (l' & Pl & Fl). exists l'. split; [now transitivity l|].
    clear - Fl Fm. revert l' Fl. induction Fm as [|x y m m' (St & _) Fm IH]; intros l' Fl; inversion Fl as [|a x' l0 m0 Fa Fl']; subst; constructor; auto.
    destruct St as (E1 & E2 & E3 & _ & _ & _ & E7). destruct Fa as (A1 & A2 & A3 & A4 & ws & W & P). split; [congruence|]. split; [congruence|]. split; [congruence|]. split; auto.
    exists ws. split; auto. now transitivity (r_vtws x).
  - destruct (Forall2_perm _ _ _ _ F Pr) as (l' & Pl & Fl). apply Forall2_app_inv_r in Fl. destruct Fl as (l1 & l2 & F1 & _ & ->).
    exists l1, l2. split; [now transitivity l|]. clear - F1 Sv A Sk T. revert l1 F1. induction Sv as [|r w sv ws Sr Sv IH]; intros l1 F1; inversion F1; subst; constructor; auto.
    eapply from_ask_serves; eauto.
Qed.
Lemma session_ok cs : Forall (sound_call s) cs -> forall asks h k ws, fgood asks h -> nth_error (fsession M s th cs h) k = Some (FWindows ws) ->
  exists served rest, Permutation (asks ++ accepted (firstn k cs) (firstn k (fsession M s th cs h))) (served ++ rest) /\ Forall2 (observed s th) served ws.
Proof.
  induction 1 as [|c cs Sc Scs IH]; intros asks h k ws G N; cbn [fsession] in *; [destruct k; discriminate|]. destruct c as [a|ex mi an re ds].
  - destruct (fscheduler_add M s th a h) as [h'|e] eqn:E.
    + destruct k as [|k]; [discriminate|]. cbn [nth_error] in N. destruct (IH _ _ _ _ (good_added _ _ _ _ G Sc E) N) as (sv & rs & P & F). exists sv, rs. split; auto.
      cbn [firstn]. unfold accepted in *. cbn [combine flat_map]. rewrite <- app_assoc in P. exact P.
    + destruct k as [|k]; [discriminate|]. cbn [nth_error] in N. destruct (IH _ _ _ _ G N) as (sv & rs & P & F). exists sv, rs. split; auto.
  - destruct (generate ex h mi an re ds) as [(h', ws')|e] eqn:E; [|destruct k as [|[|k]]; discriminate].
    destruct (good_generated _ _ _ _ _ _ _ _ _ G E) as (G' & sv & rs & P & F). destruct k as [|k].
    + injection N as ->. exists sv, rs. split; auto. cbn [firstn accepted combine flat_map]. now rewrite app_nil_r.
    + cbn [nth_error] in N. destruct (IH _ _ _ _ G' N) as (sv' & rs' & P' & F'). exists sv', rs'. split; auto.
Qed.
Lemma good_empty : fgood [] empty_handler.
Proof. split; [exists []; split; auto|]. exists []. split; [constructor|constructor]. Qed.
End made.
