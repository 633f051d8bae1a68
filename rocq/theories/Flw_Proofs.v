(** Windows in floating point. *)
From Coq Require Import List Reals ZArith Arith Bool Lia Lra Sorted.
From Verif Require Import Py PyLemmas Fl_Model Fl_Spec Fl_Proofs Flg_Model Flg_Spec Rot_Model Rot_Spec Geo_Model Flg_Proofs4 Flg_Proofs7
  Vtw_Model Vtw_Spec Vtw_Proofs Vis_Proofs Flw_Model Flw_Spec.
Import ListNotations.
Open Scope R_scope.
Open Scope list_scope.

Lemma fwindow_ok (t : list float) d a b : (a <= b)%nat -> (b < length t)%nat ->
  fwindow_of t (of_run (a, b)) = Ok (nth (if a =? 0 then length t - 1 else a - 1)%nat t d, nth b t d).
Proof.
  intros L Lb. unfold fwindow_of.
  assert (E0 : py_index (of_run (a, b)) 0 = Ok a).
  { change 0%Z with (Z.of_nat 0). rewrite py_index_nat. apply py_nth_Ok. unfold of_run. cbn [fst snd].
    rewrite nth_error_seq by lia. f_equal. lia. }
  assert (E1 : py_index (of_run (a, b)) (-1) = Ok b).
  { assert (Ne : of_run (a, b) <> []) by (unfold of_run; cbn [fst snd]; replace (S b - a)%nat with (S (b - a)) by lia; discriminate).
    rewrite py_index_last by auto. apply py_nth_Ok. unfold of_run. cbn [fst snd]. rewrite seq_length.
    rewrite nth_error_seq by lia. f_equal. lia. }
  rewrite E0, E1. cbn [bind].
  assert (Nt : forall i, (i < length t)%nat -> py_nth t i = Ok (nth i t d)).
  { intros i I. apply py_nth_Ok. now apply nth_error_nth'. }
  assert (Ek : py_index t (Z.of_nat a - 1) = Ok (nth (if a =? 0 then length t - 1 else a - 1)%nat t d)).
  { destruct (Nat.eqb_spec a 0) as [->|D].
    - change (Z.of_nat 0 - 1)%Z with (-1)%Z. rewrite py_index_last; [apply Nt; lia|]. destruct t; [cbn in Lb; lia|discriminate].
    - replace (Z.of_nat a - 1)%Z with (Z.of_nat (a - 1)) by lia. rewrite py_index_nat. apply Nt. lia. }
  rewrite Ek. cbn [bind]. rewrite py_index_nat, Nt by auto. reflexivity.
Qed.
Lemma fwindows_ok (t : list float) d runs : (forall a b, In (a, b) runs -> a <= b < length t)%nat ->
  mapM (fwindow_of t) (map of_run runs) =
  Ok (map (fun r => (nth (if fst r =? 0 then length t - 1 else fst r - 1)%nat t d, nth (snd r) t d)) runs).
Proof.
  induction runs as [|(a, b) runs IH]; intros H; [reflexivity|]. destruct (H a b (or_introl eq_refl)) as (L & Lb).
  cbn [map mapM]. rewrite (fwindow_ok t d) by auto. cbn [bind]. rewrite IH by (intros; apply H; now right). reflexivity.
Qed.
Lemma elevations_ok M l unit points : accurate M -> on_earth l -> all_far l unit points ->
  exists es, mapM (felevation M l unit) points = Ok es /\ length es = length points /\
    forall i p, nth_error points i = Some p -> exists x, nth_error es i = Some x /\
      let e := elevation_of (itrs_of (exact_location l)) (exact_km unit p) in
      (is_NaN x /\ 90 - 4 / 1000000 <= Rabs e) \/ (finite x /\ Rabs (value x - e) <= 4 / 1000000).
Proof.
  intros A O. induction points as [|p points IH]; intros F.
  - exists []. split; [reflexivity|]. split; auto. intros [|i] p; discriminate.
  - destruct IH as (es & E & L & H). { intros q I. apply F. now right. }
    destruct (F p (or_introl eq_refl)) as (P & D). destruct (elevation_ok M l unit p A O P D) as (x & Ex & Hx).
    exists (x :: es). cbn [mapM]. rewrite Ex. cbn [bind]. rewrite E. cbn [bind]. split; [reflexivity|]. split; [cbn; lia|].
    intros [|i] q N; cbn [nth_error] in *; [injection N as <-|apply H; auto]. exists x. split; auto. cbv zeta. destruct Hx as [X|(X1 & X2 & _)]; auto.
Qed.
Lemma flt_nan x y : is_NaN y -> flt x y = false.
Proof. unfold is_NaN, flt. destruct y; cbn; try discriminate. intros _. destruct x; reflexivity. Qed.
Lemma nth_where {A} (f : A -> bool) l i : In i (np_where 0 (map f l)) <-> exists x, nth_error l i = Some x /\ f x = true.
Proof.
  rewrite np_where_In, Nat.sub_0_r, nth_error_map. destruct (nth_error l i) as [x|]; cbn [option_map]; split.
  - intros (_ & [= E]). eauto.
  - intros (y & [= <-] & ->). split; auto. lia.
  - intros (_ & ?); discriminate.
  - intros (y & ? & _); discriminate.
Qed.
Lemma flighting_ok sun light : Forall finite sun -> light <> OtherLight -> exists k, flighting_indices sun light = Ok k /\ forall i, In i k <-> sun_right sun light i.
Proof.
  intros F N. rewrite Forall_forall in F. destruct (of_Z_ok 0 ltac:(lia)) as (F0 & V0).
  assert (Fi : forall i x, nth_error sun i = Some x -> finite x) by (intros i x H; apply F; eapply nth_error_In; eauto).
  destruct light; [| | |congruence]; cbn [flighting_indices]; eexists; (split; [reflexivity|]); intros i; unfold sun_right.
  - rewrite nth_where. split; intros (x & E & H); exists x; (split; [exact E|]); pose proof (flt_iff x (of_Z 0) (Fi _ _ E) F0) as Q; rewrite V0 in Q; tauto.
  - rewrite in_seq. split.
    + intros H. destruct (nth_error sun i) as [x|] eqn:E; [eauto|]. apply nth_error_None in E. lia.
    + intros (x & E & _). assert (i < length sun)%nat by (apply nth_error_Some; congruence). lia.
  - rewrite nth_where. split; intros (x & E & H); exists x; (split; [exact E|]); pose proof (flt_iff (of_Z 0) x F0 (Fi _ _ E)) as Q; rewrite V0 in Q; tauto.
Qed.

Section windows.
Variables (M : maths) (l : flocation) (unit : unit_name) (julian : list float) (points : list fvec) (sun : list float) (th : float) (light : lighting) (d : float).
Hypothesis A : accurate M.
Hypothesis O : on_earth l.
Hypothesis F : all_far l unit points.
Hypothesis Lj : length julian = length points.
Hypothesis Ls : Forall finite sun.
Hypothesis NL : light <> OtherLight.
Hypothesis T : finite th.
Hypothesis Th : 0 <= value th <= 90.

Lemma windows_made : exists k, StronglySorted lt k /\
  fgenerate_windows M l unit julian points sun th light = mapM (fwindow_of julian) (index_sets k) /\
  forall i, (In i k -> sun_right sun light i /\ exists e, elevation_is l unit points i e /\ value th - 4 / 1000000 < e) /\
    (forall e, elevation_is l unit points i e -> value th + 4 / 1000000 < e < 90 - 4 / 1000000 -> sun_right sun light i -> In i k).
Proof.
  destruct (elevations_ok M l unit points A O F) as (es & Ee & Le & He). destruct (flighting_ok sun light Ls NL) as (kl & El & Hl).
  exists (intersect1d (np_where 0 (map (flt th) es)) kl). split; [apply filter_sorted, np_where_sorted|].
  destruct (of_Z_ok 0 ltac:(lia)) as (F0 & V0). destruct (of_Z_ok 90 ltac:(lia)) as (F90 & V90).
  split.
  - unfold fgenerate_windows. rewrite Ee. cbn [bind]. cbv zeta. rewrite El. cbn [bind].
    assert (flt th (of_Z 0) = false) as -> by (apply (bool_iff _ _ (flt_iff th (of_Z 0) T F0)); rewrite V0; lra).
    assert (flt (of_Z 90) th = false) as -> by (apply (bool_iff _ _ (flt_iff (of_Z 90) th F90 T)); rewrite V90; lra).
    reflexivity.
  - intros i. split.
    + intros I. apply intersect_In in I. destruct I as (I1 & I2). apply Hl in I2. split; auto. apply nth_where in I1. destruct I1 as (x & E & L).
      assert (Hi : (i < length points)%nat) by (rewrite <- Le; apply nth_error_Some; congruence).
      destruct (nth_error points i) as [p|] eqn:P; [|apply nth_error_None in P; lia]. destruct (He i p P) as (x' & E' & H). rewrite E in E'. injection E' as <-. cbv zeta in H.
      eexists. split; [exists p; split; [exact P|reflexivity]|]. destruct H as [(N & _)|(Fx & H)]; [rewrite flt_nan in L by auto; discriminate|].
      apply (flt_iff th x T Fx) in L. apply Flg_Proofs.Rabs_le_inv in H. lra.
    + intros e (p & P & ->) R S. destruct (He i p P) as (x & E & H). cbv zeta in H. apply intersect_In. split; [|now apply Hl].
      apply nth_where. exists x. split; auto. destruct H as [(N & H)|(Fx & H)].
      * exfalso. rewrite Rabs_pos_eq in H by lra. lra.
      * apply Flg_Proofs.Rabs_le_inv in H. apply (flt_iff th x T Fx). lra.
Qed.
End windows.
