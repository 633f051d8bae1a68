(** Windows of satellites given in the GCRS frame. *)
From Coq Require Import List Reals ZArith Arith Bool Lia Lra Sorted.
From Verif Require Import Py PyLemmas Fl_Model Fl_Spec Fl_Proofs Flg_Model Flg_Spec Rot_Model Rot_Spec Rot_Proofs Geo_Model Flg_Proofs4 Flg_Proofs7
  Vtw_Model Vtw_Spec Vtw_Proofs Vis_Proofs Flw_Model Flw_Spec Flw_Proofs Flc_Spec Flr_Model Flr_Spec Flz_Model Flz_Spec Flz_Proofs.
Import ListNotations.
Open Scope R_scope.
Open Scope list_scope.

Lemma mapM_each {X Y} (f : X -> res Y) (R : X -> Y -> Prop) xs : (forall x, In x xs -> exists y, f x = Ok y /\ R x y) ->
  exists ys, mapM f xs = Ok ys /\ length ys = length xs /\ forall i y, nth_error ys i = Some y -> exists x, nth_error xs i = Some x /\ R x y.
Proof.
  induction xs as [|x xs IH]; intros H.
  - exists []. split; [reflexivity|]. split; auto. intros [|i] y; discriminate.
  - destruct IH as (ys & E & L & N). { intros z I. apply H. now right. }
    destruct (H x (or_introl eq_refl)) as (y & Ey & Hy). exists (y :: ys). cbn [mapM]. rewrite Ey. cbn [bind]. rewrite E. cbn [bind].
    split; [reflexivity|]. split; [cbn; lia|]. intros [|i] z Z; cbn [nth_error] in *; [injection Z as <-; eauto|apply N; auto].
Qed.
Lemma nth_combine {X Y} (a : list X) (b : list Y) i q : nth_error (combine a b) i = Some q <-> nth_error a i = Some (fst q) /\ nth_error b i = Some (snd q).
Proof.
  revert b i. induction a as [|x a IH]; intros b i.
  - cbn. destruct i; cbn; split; try discriminate; intros (? & _); discriminate.
  - destruct b as [|y b]; cbn [combine].
    + destruct i; cbn; split; try discriminate; intros (_ & ?); discriminate.
    + destruct i as [|i]; cbn [nth_error]; [|apply IH]. split; [intros [= <-]; auto|]. destruct q. cbn. intros ([= <-] & [= <-]). reflexivity.
Qed.
Lemma placed_exists unit jd v : exists sat, placed unit jd v sat.
Proof.
  assert (S : of_size 1 (one_row jd v unit)) by (repeat split). eexists. eexists. split; [rewrite (gcrs_to_itrs_ok 1 _ S); reflexivity|reflexivity].
Qed.
Lemma placed_unique unit jd v a b : placed unit jd v a -> placed unit jd v b -> a = b.
Proof. intros (x & E & ->) (y & E' & ->). rewrite E in E'. now injection E' as <-. Qed.
(** What a computed elevation says about the exact one *)
Definition told (t : R) (x : float) (e : R) : Prop := (is_NaN x /\ 90 - t <= Rabs e) \/ (finite x /\ Rabs (value x - e) <= t).

Section windows.
Variables (A : arrays) (M : maths) (l : flocation) (unit : unit_name) (julian : list float) (points sun : list fvec) (th : float) (light : lighting).
Hypothesis GA : accurate_arrays A.
Hypothesis GM : accurate M.
Hypothesis O : on_earth l.
Hypothesis Dj : Forall dated julian.
Hypothesis Lp : length points = length julian.
Hypothesis Ls : length sun = length julian.
Hypothesis F : all_sensible l unit julian points.
Hypothesis Fs : forall p, In p sun -> within_km 30000 900000000 Ukm p.
Hypothesis NL : light <> OtherLight.
Hypothesis T : finite th.
Hypothesis Th : 0 <= value th <= 90.

Lemma positions_ok (t : R) u ps : length ps = length julian ->
  (forall i jd p sat, nth_error julian i = Some jd -> nth_error ps i = Some p -> placed u jd p sat ->
     exists x, felevation M l u (fgcrs_to_itrs A jd p) = Ok x /\ told t x (elevation_of (itrs_of (exact_location l)) sat)) ->
  exists es, mapM (felevation M l u) (fitrs_positions A julian ps) = Ok es /\
    (forall i x, nth_error es i = Some x -> exists e, gcrs_elevation l u julian ps i e /\ told t x e) /\
    (forall i e, gcrs_elevation l u julian ps i e -> exists x, nth_error es i = Some x /\ told t x e).
Proof.
  intros L H.
  assert (Q : forall i e, gcrs_elevation l u julian ps i e -> (i < length (combine julian ps))%nat).
  { intros i e (jd & p & sat & Ej & Ep & _). rewrite combine_length. apply Nat.min_glb_lt; apply nth_error_Some; congruence. }
  assert (U : forall i e e', gcrs_elevation l u julian ps i e -> gcrs_elevation l u julian ps i e' -> e = e').
  { intros i e e' (jd & p & sat & Ej & Ep & Es & ->) (jd' & p' & sat' & Ej' & Ep' & Es' & ->). rewrite Ej in Ej'. rewrite Ep in Ep'. injection Ej' as <-. injection Ep' as <-. now rewrite (placed_unique _ _ _ _ _ Es Es'). }
  assert (E : mapM (felevation M l u) (fitrs_positions A julian ps) = mapM (fun q => felevation M l u (fgcrs_to_itrs A (fst q) (snd q))) (combine julian ps)).
  { unfold fitrs_positions. clear. induction (combine julian ps) as [|q qs IH]; cbn [map mapM]; [reflexivity|]. now rewrite IH. }
  destruct (mapM_each (fun q => felevation M l u (fgcrs_to_itrs A (fst q) (snd q)))
    (fun q x => forall i, nth_error (combine julian ps) i = Some q -> exists e, gcrs_elevation l u julian ps i e /\ told t x e) (combine julian ps)) as (es & Ee & Le & He).
  - intros q I. destruct (In_nth_error _ _ I) as (i & Ei). apply nth_combine in Ei. destruct Ei as (Ej & Ep). destruct (placed_exists u (fst q) (snd q)) as (sat & P).
    destruct (H i _ _ sat Ej Ep P) as (x & Ex & Hx). exists x. split; auto. intros k Ek. apply nth_combine in Ek. destruct Ek as (Kj & Kp).
    eexists. split; [exists (fst q), (snd q), sat; repeat (split; [eassumption|]); reflexivity|exact Hx].
  - exists es. split; [now rewrite E|]. assert (S1 : forall i x, nth_error es i = Some x -> exists e, gcrs_elevation l u julian ps i e /\ told t x e).
    { intros i x Ex. destruct (He i x Ex) as (q & Eq & R). now apply R. }
    split; auto. intros i e Ge. pose proof (Q i e Ge) as B. rewrite <- Le in B. destruct (nth_error es i) as [x|] eqn:Ex; [|apply nth_error_None in Ex; lia].
    exists x. split; auto. destruct (S1 i x Ex) as (e' & Ge' & R). now rewrite (U _ _ _ Ge Ge').
Qed.
Lemma julian_dated i jd : nth_error julian i = Some jd -> dated jd.
Proof. intros H. rewrite Forall_forall in Dj. apply Dj. eapply nth_error_In; eauto. Qed.
Lemma points_elevations : exists es, mapM (felevation M l unit) (fitrs_positions A julian points) = Ok es /\
    (forall i x, nth_error es i = Some x -> exists e, gcrs_elevation l unit julian points i e /\ told (5 / 100000) x e) /\
    (forall i e, gcrs_elevation l unit julian points i e -> exists x, nth_error es i = Some x /\ told (5 / 100000) x e).
Proof.
  apply positions_ok; auto. intros i jd p sat Ej Ep P. destruct (F i jd p Ej Ep) as (B & D).
  apply (gcrs_elevation_ok A M l unit jd p sat GA GM O (julian_dated _ _ Ej) P B (D sat P)).
Qed.
Lemma suns_elevations : exists es, mapM (felevation M l Ukm) (fitrs_positions A julian sun) = Ok es /\
    (forall i x, nth_error es i = Some x -> exists e, gcrs_elevation l Ukm julian sun i e /\ told (5 / 1000000) x e) /\
    (forall i e, gcrs_elevation l Ukm julian sun i e -> exists x, nth_error es i = Some x /\ told (5 / 1000000) x e).
Proof.
  apply positions_ok; auto. intros i jd p sat Ej Ep P.
  apply (gcrs_far_ok A M l Ukm jd p sat GA GM O (julian_dated _ _ Ej) P). apply Fs. eapply nth_error_In; eauto.
Qed.
Lemma sun_indices_ok : exists k, fsun_indices A M l julian sun light = Ok k /\
  (forall i, In i k -> exists e, gcrs_elevation l Ukm julian sun i e /\ sun_possibly e light (5 / 1000000)) /\
  (forall i e, gcrs_elevation l Ukm julian sun i e -> sun_surely e light (5 / 1000000) -> In i k).
Proof.
  destruct (of_Z_ok 0 ltac:(lia)) as (F0 & V0). destruct suns_elevations as (es & Ee & H1 & H2).
  assert (L : forall x e, told (5 / 1000000) x e -> (flt x (of_Z 0) = true -> e < 5 / 1000000) /\ (e < - (5 / 1000000) /\ -90 + 5 / 1000000 < e -> flt x (of_Z 0) = true)
    /\ (flt (of_Z 0) x = true -> - (5 / 1000000) < e) /\ (5 / 1000000 < e /\ e < 90 - 5 / 1000000 -> flt (of_Z 0) x = true)).
  { intros x e [(N & H)|(Fx & H)].
    - assert (N' : flt x (of_Z 0) = false). { clear - N. unfold is_NaN, flt in *. destruct x; cbn in *; try discriminate. reflexivity. }
      rewrite N', flt_nan by exact N. split; [discriminate|]. split; [|split; [discriminate|]]; intros (P & Q); exfalso; unfold Rabs in H; destruct (Rcase_abs e); lra.
    - apply Flg_Proofs.Rabs_le_inv in H. pose proof (flt_iff x (of_Z 0) Fx F0) as I1. pose proof (flt_iff (of_Z 0) x F0 Fx) as I2. rewrite V0 in I1, I2. split; [|split; [|split]].
      + intros E. apply I1 in E. lra.
      + intros E. apply I1. lra.
      + intros E. apply I2 in E. lra.
      + intros E. apply I2. lra. }
  unfold fsun_indices, fsun_elevations. rewrite Ee. destruct light; [| | |congruence]; cbn [bind sun_possibly sun_surely]; eexists; (split; [reflexivity|]).
  - split.
    + intros i I. apply nth_where in I. destruct I as (x & Ex & Hx). destruct (H1 i x Ex) as (e & Ge & R). exists e. split; auto. now apply (L x e R).
    + intros i e Ge R. apply nth_where. destruct (H2 i e Ge) as (x & Ex & Hx). exists x. split; auto. now apply (L x e Hx).
  - split.
    + intros i I. apply in_seq in I. destruct (nth_error julian i) as [jd|] eqn:Ej; [|apply nth_error_None in Ej; lia].
      destruct (nth_error sun i) as [p|] eqn:Ep; [|apply nth_error_None in Ep; lia]. destruct (placed_exists Ukm jd p) as (sat & P).
      eexists. split; auto. exists jd, p, sat. repeat (split; [eassumption|]). reflexivity.
    + intros i e (jd & p & sat & Ej & _) _. apply in_seq. assert (i < length julian)%nat by (apply nth_error_Some; congruence). lia.
  - split.
    + intros i I. apply nth_where in I. destruct I as (x & Ex & Hx). destruct (H1 i x Ex) as (e & Ge & R). exists e. split; auto. now apply (L x e R).
    + intros i e Ge R. apply nth_where. destruct (H2 i e Ge) as (x & Ex & Hx). exists x. split; auto. now apply (L x e Hx).
Qed.
Lemma gcrs_windows_made : exists k, StronglySorted lt k /\
  fgcrs_windows A M l unit julian points sun th light = mapM (fwindow_of julian) (index_sets k) /\
  forall i, (In i k -> (exists e, gcrs_elevation l unit julian points i e /\ value th - 5 / 100000 < e) /\
                       (exists e, gcrs_elevation l Ukm julian sun i e /\ sun_possibly e light (5 / 1000000))) /\
    (forall e e', gcrs_elevation l unit julian points i e -> value th + 5 / 100000 < e < 90 - 5 / 100000 ->
       gcrs_elevation l Ukm julian sun i e' -> sun_surely e' light (5 / 1000000) -> In i k).
Proof.
  destruct points_elevations as (es & Ee & H1 & H2). destruct sun_indices_ok as (kl & El & K1 & K2).
  exists (intersect1d (np_where 0 (map (flt th) es)) kl). split; [apply filter_sorted, np_where_sorted|].
  destruct (of_Z_ok 0 ltac:(lia)) as (F0 & V0). destruct (of_Z_ok 90 ltac:(lia)) as (F90 & V90). split.
  - unfold fgcrs_windows. cbv zeta. rewrite Ee. cbn [bind]. rewrite El. cbn [bind].
    assert (flt th (of_Z 0) = false) as -> by (apply (bool_iff _ _ (flt_iff th (of_Z 0) T F0)); rewrite V0; lra).
    assert (flt (of_Z 90) th = false) as -> by (apply (bool_iff _ _ (flt_iff (of_Z 90) th F90 T)); rewrite V90; lra).
    reflexivity.
  - intros i. split.
    + intros I. apply intersect_In in I. destruct I as (I1 & I2). split; [|now apply K1]. apply nth_where in I1. destruct I1 as (x & Ex & Hx).
      destruct (H1 i x Ex) as (e & Ge & R). exists e. split; auto. destruct R as [(N & _)|(Fx & R)]; [rewrite flt_nan in Hx by auto; discriminate|].
      apply (flt_iff th x T Fx) in Hx. apply Flg_Proofs.Rabs_le_inv in R. lra.
    + intros e e' Ge B Ge' R'. apply intersect_In. split; [|eapply K2; eauto]. apply nth_where. destruct (H2 i e Ge) as (x & Ex & R). exists x. split; auto.
      destruct R as [(N & R)|(Fx & R)].
      * exfalso. rewrite Rabs_pos_eq in R by lra. lra.
      * apply Flg_Proofs.Rabs_le_inv in R. apply (flt_iff th x T Fx). lra.
Qed.
End windows.
