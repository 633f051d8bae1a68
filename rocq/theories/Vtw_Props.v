(** Properties of visible time windows and window collections (C43-C48). *)
From Coq Require Import List ZArith QArith Bool Arith Lia Lqa.
From Verif Require Import Py PyLemmas Sched_Model Vtw_Model Vtw_Spec Vtw_Proofs.
Import ListNotations.
Open Scope nat_scope.
Open Scope list_scope.

Definition ex_att : attitude := mkAtt [] [] [] [] 0.
(** Six samples: visible during samples 1-2, 4 (dark at 2). *)
Definition ex_samples : list sample :=
  [mkSample 0 5 1; mkSample 1 30 1; mkSample 2 40 (-1); mkSample 3 5 1; mkSample 4 25 1; mkSample 5 3 1].

(** C43. One window per maximal run of qualifying samples, in order; it ends at the last
    sample of the run and, unless the run begins with the very first sample, starts at the
    sample before it. *)
Theorem C43_windows_are_runs_partial :
  forall l att threshold light, light <> OtherLight -> (0 <= threshold <= 90)%Q ->
    (exists i, qualifies l threshold light i) ->
    exists runs ws, generate_vtws true l att threshold light = Ok ws /\
      all_runs (qualifies l threshold light) runs /\
      Forall2 (fun r w => v_att w = att /\ at_time l (snd r) (v_set w) /\
                 forall c, fst r = S c -> at_time l c (v_rise w)) runs ws.
Proof.
  intros l att th light Nl T Q. destruct (generate_vtws_spec l att th light Nl T Q) as (runs & ws & E & A & F).
  exists runs, ws. split; auto. split; auto. clear - F. induction F as [|(a, b) w runs ws (H1 & H2 & H3) F IH]; constructor; auto.
  split; auto. split; auto. cbn [fst] in *. intros c ->. cbn in H3. now rewrite Nat.sub_0_r in H3.
Qed.
Example C43_example :
  generate_vtws true ex_samples ex_att 10 Anytime = Ok [mkVtw 0 2 ex_att; mkVtw 3 4 ex_att] /\
  generate_vtws true ex_samples ex_att 10 Daytime = Ok [mkVtw 0 1 ex_att; mkVtw 3 4 ex_att] /\
  generate_vtws true ex_samples ex_att 10 Night = Ok [mkVtw 1 2 ex_att].
Proof. repeat split; vm_compute; reflexivity. Qed.
(** A run beginning with the first sample is given the time of the last sample of the whole
    series as its rise time. *)
Theorem C43_first_sample_refuted :
  forall l att threshold light, light <> OtherLight -> (0 <= threshold <= 90)%Q ->
    qualifies l threshold light 0 ->
    exists w ws, generate_vtws true l att threshold light = Ok (w :: ws) /\
      at_time l (length l - 1) (v_rise w).
Proof.
  intros l att th light Nl T Q. destruct (generate_vtws_spec l att th light Nl T (ex_intro _ 0 Q)) as (runs & ws & E & A & F).
  destruct (listed_run _ _ _ _ 0 A Q) as (k & a & b & N & L). assert (a = 0) by lia. subst a.
  destruct k as [|k].
  - destruct runs as [|r runs]; [discriminate|]. injection N as ->.
    inversion F as [|? w ? ws' (_ & _ & Hr) F']; subst. exists w, ws'. split; auto.
  - exfalso. destruct runs as [|(a', b') runs]; [discriminate|].
    pose proof (proj2 A 0 (S k) a' b' 0 b ltac:(lia) eq_refl N). lia.
Qed.
Example C43_first_sample_example :
  generate_vtws true (tl ex_samples) ex_att 10 Anytime = Ok [mkVtw 5 2 ex_att; mkVtw 3 4 ex_att].
Proof. vm_compute. reflexivity. Qed.

(** C44. When the first sample does not qualify. *)
Theorem C44_ordered_disjoint_complete_partial :
  forall l att threshold light ws, times_increase l -> ~ qualifies l threshold light 0 ->
    generate_vtws true l att threshold light = Ok ws ->
    (forall w, In w ws -> (v_rise w < v_set w)%Q) /\
    (forall i j w w', i < j -> nth_error ws i = Some w -> nth_error ws j = Some w' -> (v_set w < v_rise w')%Q) /\
    (forall i s, nth_error l i = Some s ->
       ((exists w, In w ws /\ (v_rise w < s_time s)%Q /\ (s_time s <= v_set w)%Q) <-> qualifies l threshold light i)).
Proof.
  intros l att th light ws Inc N0 H.
  assert (T : (0 <= th <= 90)%Q).
  { unfold generate_vtws in H. cbn in H. destruct (Qltb th 0 || Qltb 90 th) eqn:X; [discriminate|].
    apply orb_false_iff in X. rewrite !Qltb_niff in X. auto. }
  assert (Nl : light <> OtherLight).
  { intros ->. unfold generate_vtws, window_indices in H. cbn in H. destruct (_ || _); discriminate. }
  assert (Q : exists i, qualifies l th light i).
  { destruct (qualifies_some l th light) as [?|N]; auto.
    rewrite (generate_vtws_none l att th light Nl T N) in H. discriminate. }
  destruct (C43_windows_are_runs_partial l att th light Nl T Q) as (runs & ws' & E & A & F).
  assert (ws' = ws) by congruence. subst ws'.
  assert (M : forall k w, nth_error ws k = Some w -> exists a b c, nth_error runs k = Some (a, b) /\
      maximal_run (qualifies l th light) a b /\ a = S c /\ at_time l c (v_rise w) /\ at_time l b (v_set w)).
  { intros k w Nk. destruct (Forall2_nth_r _ _ _ F k w Nk) as ((a, b) & Nr & _ & Hs & Hr). cbn in Hs, Hr.
    assert (Mx : maximal_run (qualifies l th light) a b) by (apply A; eapply nth_error_In; eauto).
    destruct a as [|c]; [exfalso; apply N0, (proj1 (proj2 Mx)); lia|]. exists (S c), b, c. auto 8. }
  assert (Lt : forall i j t t', i < j -> at_time l i t -> at_time l j t' -> (t < t')%Q).
  { intros i j t t' L (s & Ns & <-) (s' & Ns' & <-). eapply Inc; eauto. }
  assert (Le : forall i j t t', at_time l i t -> at_time l j t' -> (t < t')%Q -> i < j).
  { intros i j t t' Hi Hj L. destruct (lt_eq_lt_dec i j) as [[?| ->]|G]; auto; exfalso.
    - destruct Hi as (s & Ns & <-), Hj as (s' & Ns' & <-). rewrite Ns in Ns'. injection Ns' as <-. Lqa.lra.
    - pose proof (Lt j i t' t G Hj Hi). Lqa.lra. }
  split; [|split].
  - intros w I. apply In_nth_error in I. destruct I as (k & Nk). destruct (M k w Nk) as (a & b & c & _ & (L & _) & -> & Hr & Hs).
    eapply Lt; eauto.
  - intros i j w w' L Ni Nj. destruct (M i w Ni) as (a & b & c & Ri & _ & _ & _ & Hs).
    destruct (M j w' Nj) as (a' & b' & c' & Rj & _ & -> & Hr & _).
    pose proof (proj2 A i j a b (S c') b' L Ri Rj). eapply Lt; [|exact Hs|exact Hr]. lia.
  - intros i s Ns. assert (Ti : at_time l i (s_time s)) by (exists s; auto). split.
    + intros (w & I & R & S'). apply In_nth_error in I. destruct I as (k & Nk).
      destruct (M k w Nk) as (a & b & c & _ & (L & P & _) & -> & Hr & Hs). apply P.
      pose proof (Le _ _ _ _ Hr Ti R). split; [lia|].
      destruct (le_lt_dec i b) as [|G]; auto. pose proof (Lt b i _ _ G Hs Ti). Lqa.lra.
    + intros Qi. destruct (listed_run _ _ _ _ i A Qi) as (k & a & b & Nr & L).
      destruct (Forall2_nth _ _ _ F k (a, b) Nr) as (w & Nw & _).
      destruct (M k w Nw) as (a' & b' & c & Nr' & _ & -> & Hr & Hs). rewrite Nr in Nr'. injection Nr' as -> ->.
      exists w. split; [eapply nth_error_In; eauto|]. split; [eapply Lt; [|exact Hr|exact Ti]; lia|].
      destruct (Nat.eq_dec i b') as [->|].
      * destruct Ti as (s1 & N1 & <-), Hs as (s2 & N2 & <-). rewrite N1 in N2. injection N2 as ->. Lqa.lra.
      * apply Qlt_le_weak. eapply Lt; [|exact Ti|exact Hs]. lia.
Qed.
Example C44_example : times_increase ex_samples /\ ~ qualifies ex_samples 10 Anytime 0.
Proof.
  split.
  - intros i j s s' L Hi Hj. 
    do 6 (destruct i as [|i]; [injection Hi as <-; do 6 (destruct j as [|j]; [try lia; injection Hj as <-; reflexivity|]); destruct j; discriminate|]).
    destruct i; discriminate.
  - intros (s & [= <-] & X & _). vm_compute in X. discriminate.
Qed.
(** When the first sample qualifies the first window never rises before it sets. *)
Theorem C44_first_sample_refuted :
  forall l att threshold light, times_increase l -> light <> OtherLight -> (0 <= threshold <= 90)%Q ->
    qualifies l threshold light 0 ->
    exists w ws, generate_vtws true l att threshold light = Ok (w :: ws) /\ (v_set w <= v_rise w)%Q.
Proof.
  intros l att th light Inc Nl T Q.
  destruct (C43_first_sample_refuted l att th light Nl T Q) as (w & ws & E & (s & Ns & Er)).
  destruct (C43_windows_are_runs_partial l att th light Nl T (ex_intro _ 0 Q)) as (runs & ws' & E' & A & F).
  assert (ws' = w :: ws) by congruence. subst ws'. inversion F as [|r ? ? ? (_ & (s' & Ns' & Es) & _) F']; subst.
  exists w, ws. split; auto. rewrite <- Es, <- Er.
  destruct (Nat.eq_dec (snd r) (length l - 1)) as [D|D].
  - rewrite D in Ns'. assert (s = s') by congruence. subst. Lqa.lra.
  - apply Qlt_le_weak. eapply Inc; [|exact Ns'|exact Ns].
    assert (snd r < length l) by (apply nth_error_Some; congruence). lia.
Qed.

(** C45. Refuted for every series: without a qualifying sample IndexError is raised. *)
Theorem C45_never_visible_refuted :
  forall l att threshold light, light <> OtherLight -> (0 <= threshold <= 90)%Q ->
    (forall i, ~ qualifies l threshold light i) ->
    generate_vtws true l att threshold light = Raise IndexError.
Proof.
  intros. now apply generate_vtws_none.
Qed.
Example C45_example : generate_vtws true ex_samples ex_att 60 Anytime = Raise IndexError.
Proof. vm_compute. reflexivity. Qed.

(** C46. Input validation, and nothing else raises these exceptions. *)
Theorem C46_validation :
  forall velocity l att threshold light,
    (generate_vtws velocity l att threshold light = Raise PyWarning <-> velocity = false) /\
    (generate_vtws velocity l att threshold light = Raise ValueError <->
       velocity = true /\ (~ (0 <= threshold <= 90)%Q \/ light = OtherLight)).
Proof.
  intros v l att th light. destruct v.
  2:{ cbn. split; split; try discriminate; auto. intros (X & _). discriminate. }
  destruct (Qltb th 0 || Qltb 90 th) eqn:X.
  - unfold generate_vtws. cbn [negb]. rewrite X. apply orb_true_iff in X. rewrite !Qltb_iff in X.
    split; split; try discriminate; auto. intros _. split; auto. left. intros (A & B). destruct X; Lqa.lra.
  - pose proof X as X0. apply orb_false_iff in X. rewrite !Qltb_niff in X.
    assert (C : light = OtherLight \/ light <> OtherLight) by (destruct light; auto; right; discriminate).
    destruct C as [->|Nl].
    + unfold generate_vtws. cbn [negb]. rewrite X0. cbn. split; split; try discriminate; auto.
    + destruct (qualifies_some l th light) as [Q|N].
      * destruct (generate_vtws_spec l att th light Nl X Q) as (runs & ws & -> & _).
        split; split; try discriminate. intros (_ & [Y|Y]); [now destruct Y|congruence].
      * rewrite (generate_vtws_none l att th light Nl X N).
        split; split; try discriminate. intros (_ & [Y|Y]); [now destruct Y|congruence].
Qed.
Example C46_example : generate_vtws true ex_samples ex_att 91 Anytime = Raise ValueError.
Proof. vm_compute. reflexivity. Qed.

(** C47. After any sequence of calls the collection holds the kept windows; every call
    either appends its window or raises TypeError and changes nothing. *)
Theorem C47_homogeneous :
  forall ws, w_data (add_all ws new_collection) = kept ws /\
    (forall x y, In x (kept ws) -> In y (kept ws) -> same_kind x y = true) /\
    forall w, (add_window (add_all ws new_collection) w =
                 Ok (mkColl (kept ws ++ [w]) 0) /\ kept (ws ++ [w]) = kept ws ++ [w]) \/
              (add_window (add_all ws new_collection) w = Raise TypeError /\ kept (ws ++ [w]) = kept ws).
Proof.
  assert (Sy : forall a b, same_kind a b = same_kind b a) by (intros [] []; reflexivity).
  assert (Tr : forall a b c, same_kind a b = true -> same_kind a c = true -> same_kind b c = true) by (intros [] [] []; auto).
  assert (St : forall ws w, w_data (add_all ws new_collection) = kept ws -> w_index (add_all ws new_collection) = 0 ->
    (add_window (add_all ws new_collection) w = Ok (mkColl (kept ws ++ [w]) 0) /\ kept (ws ++ [w]) = kept ws ++ [w]) \/
    (add_window (add_all ws new_collection) w = Raise TypeError /\ kept (ws ++ [w]) = kept ws)).
  { intros ws w D I. unfold add_window. rewrite D, I. unfold kept.
    assert (Ff : find is_window (ws ++ [w]) = match find is_window ws with Some f => Some f | None => find is_window [w] end).
    { clear. induction ws as [|x ws IH]; auto. cbn. destruct (is_window x); auto. }
    rewrite Ff. destruct (find is_window ws) as [f|] eqn:F.
    - rewrite filter_app. cbn [filter].
      assert (H : exists r, filter (same_kind f) ws = f :: r).
      { clear - F. induction ws as [|x ws IH]; [discriminate|]. cbn in F |- *. destruct (is_window x) eqn:W.
        - injection F as ->. destruct f; try discriminate; cbn; eauto.
        - destruct x; try discriminate. destruct f; cbn; auto. }
      destruct H as (r & ->). destruct w; [| |right; split; auto; destruct f; cbn; now rewrite app_nil_r].
      + rewrite (Sy (Visible n) f). destruct (same_kind f (Visible n)); [left|right; rewrite app_nil_r]; auto.
      + rewrite (Sy (Observed n) f). destruct (same_kind f (Observed n)); [left|right; rewrite app_nil_r]; auto.
    - assert (Nj : forall x, In x ws -> x = Junk).
      { intros x Ix. apply (find_none _ _ F) in Ix. destruct x; auto; discriminate. }
      assert (E : forall g, filter (same_kind g) ws = []).
      { intros g. clear - Nj. induction ws as [|x ws IH]; auto. cbn. rewrite (Nj x (or_introl eq_refl)) by auto.
        destruct g; cbn; apply IH; intros; apply Nj; now right. }
      destruct w; [left|left|right]; cbn; rewrite ?filter_app, ?E; auto. }
  assert (Inv : forall ws, w_data (add_all ws new_collection) = kept ws /\ w_index (add_all ws new_collection) = 0).
  { intros ws. induction ws as [|w ws (D & I)] using rev_ind; auto.
    assert (E : add_all (ws ++ [w]) new_collection =
       match add_window (add_all ws new_collection) w with Ok c' => c' | Raise _ => add_all ws new_collection end).
    { generalize new_collection. clear. induction ws as [|x ws IH]; intros c; cbn; auto. }
    rewrite E. destruct (St ws w D I) as [(-> & ->)|(-> & ->)]; auto. }
  intros ws. destruct (Inv ws) as (D & I). split; auto. split.
  - intros x y. unfold kept. destruct (find is_window ws) as [f|]; [|intros []]. rewrite !filter_In.
    intros (_ & Hx) (_ & Hy). eapply Tr; eauto.
  - intros w. now apply St.
Qed.
Example C47_example :
  kept [Junk; Observed 1; Visible 2; Observed 3] = [Observed 1; Observed 3] /\
  w_data (add_all [Junk; Observed 1; Visible 2; Observed 3] new_collection) = [Observed 1; Observed 3].
Proof. split; reflexivity. Qed.

(** C48. A complete loop visits everything from the position where the last abandoned loop
    stopped, and rewinds. *)
Lemma for_windows_spec : forall fuel k c, w_index c <= length (w_data c) -> length (w_data c) - w_index c < fuel ->
  for_windows fuel k c =
    (firstn (S k) (skipn (w_index c) (w_data c)),
     mkColl (w_data c) (if length (w_data c) - w_index c <=? k then 0 else w_index c + S k)).
Proof.
  induction fuel as [|f IH]; intros k c L F; [lia|]. cbn [for_windows]. unfold w_next.
  destruct (nth_error (w_data c) (w_index c)) as [w|] eqn:N.
  - assert (Lt : w_index c < length (w_data c)) by (apply nth_error_Some; congruence).
    assert (E : skipn (w_index c) (w_data c) = w :: skipn (S (w_index c)) (w_data c)).
    { clear - N. revert N. generalize (w_index c). induction (w_data c) as [|x l IH]; intros [|i] N; try discriminate; cbn.
      - now injection N as ->.
      - now apply IH. }
    rewrite E. destruct k as [|k].
    + cbn. destruct (length (w_data c) - w_index c <=? 0) eqn:X; [apply Nat.leb_le in X; lia|]. do 2 f_equal. lia.
    + rewrite IH by (cbn; lia). cbn [w_index w_data]. cbn [firstn]. f_equal. f_equal.
      destruct (length (w_data c) - S (w_index c) <=? k) eqn:A, (length (w_data c) - w_index c <=? S k) eqn:B; auto; try lia;
        [apply Nat.leb_le in A; apply Nat.leb_gt in B; lia|apply Nat.leb_gt in A; apply Nat.leb_le in B; lia].
  - apply nth_error_None in N. rewrite skipn_all2 by lia. cbn.
    destruct (length (w_data c) - w_index c <=? k) eqn:X; auto. apply Nat.leb_gt in X. lia.
Qed.
Lemma uses_index us : w_index (do_uses us) <= length (w_data (do_uses us)).
Proof.
  unfold do_uses. induction us as [|u us IH] using rev_ind; cbn; auto. rewrite fold_left_app. cbn.
  set (c := fold_left _ us new_collection) in *. destruct u as [w| |k]; cbn [do_use].
  - assert (A : forall c', add_window c w = Ok c' -> w_index c' = w_index c /\ length (w_data c') = S (length (w_data c))).
    { intros c'. unfold add_window. destruct w; try discriminate; destruct (w_data c) as [|x r];
        try (destruct (same_kind _ x); [|discriminate]); intros [= <-]; cbn [w_index w_data]; split; auto; cbn; rewrite ?app_length; cbn; lia. }
    destruct (add_window c w) as [c'|]; auto. destruct (A c' eq_refl) as (-> & ->). lia.
  - unfold full_loop, enough. rewrite for_windows_spec by lia. cbn. destruct (_ <=? _) eqn:X; [lia|]. apply Nat.leb_gt in X. lia.
  - unfold enough. rewrite for_windows_spec by lia. cbn. destruct (_ <=? _) eqn:X; [lia|]. apply Nat.leb_gt in X. lia.
Qed.
Theorem C48_iteration_partial :
  forall us, let c := do_uses us in
    full_loop c = (skipn (w_index c) (w_data c), mkColl (w_data c) 0) /\
    ((forall k, ~ In (BrokenLoop k) us) -> fst (full_loop c) = w_data c) /\
    fst (full_loop (snd (full_loop c))) = w_data c.
Proof.
  intros us c. pose proof (uses_index us) as L. fold c in L.
  assert (E : forall c, w_index c <= length (w_data c) -> full_loop c = (skipn (w_index c) (w_data c), mkColl (w_data c) 0)).
  { clear. intros c L. unfold full_loop, enough. rewrite for_windows_spec by lia.
    destruct (_ <=? _) eqn:X; [|apply Nat.leb_gt in X; lia]. f_equal. apply firstn_all2. rewrite skipn_length. lia. }
  split; [now apply E|]. split.
  - intros NB. rewrite (E c L). cbn. assert (I : w_index c = 0); [|now rewrite I].
    unfold c, do_uses. clear L E c. induction us as [|u us IH] using rev_ind; auto. rewrite fold_left_app. cbn.
    assert (IH' : w_index (fold_left (fun c u => do_use u c) us new_collection) = 0).
    { apply IH. intros k I. apply (NB k), in_or_app. now left. }
    pose proof (uses_index us) as L. unfold do_uses in L.
    set (c := fold_left _ us new_collection) in *. destruct u as [w| |k]; cbn [do_use].
    + unfold add_window. destruct w; auto; destruct (w_data c) as [|x r]; cbn; auto; destruct x; cbn; auto.
    + unfold full_loop, enough. rewrite for_windows_spec by lia. cbn. destruct (_ <=? _) eqn:X; auto. apply Nat.leb_gt in X. lia.
    + exfalso. apply (NB k), in_or_app. right. now left.
  - rewrite (E c L). cbn [snd]. rewrite E by (cbn; lia). reflexivity.
Qed.
Theorem C48_iteration_refuted :
  exists us, fst (full_loop (do_uses us)) = [Visible 2] /\ w_data (do_uses us) = [Visible 1; Visible 2].
Proof. exists [Add (Visible 1); Add (Visible 2); BrokenLoop 0]. split; vm_compute; reflexivity. Qed.

(** C47, in terms of the objects: one kind only, and indexing counts from either end. *)
Theorem C47_one_kind :
  forall ws, let c := add_all ws new_collection in
    (forall x, In x (w_data c) -> exists n, x = Visible n) \/
    (forall x, In x (w_data c) -> exists n, x = Observed n).
Proof.
  intros ws c. destruct (C47_homogeneous ws) as (D & K & _). unfold c. rewrite D. clear D c.
  assert (J : ~ In Junk (kept ws)) by (intros I; specialize (K _ _ I I); discriminate).
  destruct (kept ws) as [|x r]; [left; intros ? []|].
  destruct x as [n|n|]; [left|right|exfalso; apply J; now left]; intros y I;
    specialize (K _ y (or_introl eq_refl) I); destruct y; try discriminate; eauto.
Qed.
Theorem C47_indexing :
  forall ws i, let c := add_all ws new_collection in
    match get_item c i with
    | Ok x => exists k, nth_error (w_data c) k = Some x /\ (i = Z.of_nat k \/ (i = Z.of_nat k - Z.of_nat (length (w_data c)))%Z)
    | Raise e => e = IndexError /\ (i < - Z.of_nat (length (w_data c)) \/ Z.of_nat (length (w_data c)) <= i)%Z
    end.
Proof.
  intros ws i c. unfold get_item, py_index. generalize (w_data c). intros l. clear.
  assert (P : forall k, k < length l -> exists x, py_nth l k = Ok x /\ nth_error l k = Some x).
  { intros k K. unfold py_nth. destruct (nth_error l k) as [x|] eqn:E; eauto. apply nth_error_None in E. lia. }
  destruct (Z.leb_spec 0 i) as [A|A].
  - destruct (Z.ltb_spec i (Z.of_nat (length l))) as [B|B]; [|split; auto].
    destruct (P (Z.to_nat i) ltac:(lia)) as (x & -> & E). exists (Z.to_nat i). split; auto. lia.
  - destruct (Z.leb_spec 0 (i + Z.of_nat (length l))) as [B|B]; [|split; auto; lia].
    destruct (P (Z.to_nat (i + Z.of_nat (length l))) ltac:(lia)) as (x & -> & E).
    exists (Z.to_nat (i + Z.of_nat (length l))). split; auto. lia.
Qed.
Example C47_indexing_example :
  get_item (add_all [Visible 1; Observed 5; Junk; Visible 2] new_collection) (-1) = Ok (Visible 2).
Proof. reflexivity. Qed.

Print Assumptions C43_windows_are_runs_partial.
Print Assumptions C43_first_sample_refuted.
Print Assumptions C44_ordered_disjoint_complete_partial.
Print Assumptions C44_first_sample_refuted.
Print Assumptions C45_never_visible_refuted.
Print Assumptions C46_validation.
Print Assumptions C47_homogeneous.
Print Assumptions C48_iteration_partial.
Print Assumptions C48_iteration_refuted.
Print Assumptions C47_one_kind.
Print Assumptions C47_indexing.
