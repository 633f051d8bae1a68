(** The search on the heap. *)
From Coq Require Import List ZArith QArith Bool Arith Permutation Lia.
From Verif Require Import Py PyLemmas Sched_Model Vtw_Model Alns_Model Gen_Model Sess_Model Sess_Proofs Heap_Model Heap_Spec Heap_Proofs Heap_Proofs2.
Import ListNotations.
Open Scope nat_scope.
Open Scope list_scope.

Lemma kept_refl H : kept H H.
Proof. intros x o E. exact E. Qed.
Lemma kept_trans H1 H2 H3 : kept H1 H2 -> kept H2 H3 -> kept H1 H3.
Proof. intros A B x o E. apply B, A, E. Qed.
Lemma kept_app H new : kept H (H ++ new).
Proof. intros x o E. now apply nth_app. Qed.
Lemma kept_length H H' : kept H H' -> length H <= length H'.
Proof.
  intros K. destruct (le_lt_dec (length H) (length H')) as [|G]; auto. exfalso.
  destruct (nth_error H (length H')) as [o|] eqn:E; [|apply nth_error_None in E; lia]. apply K in E. apply nth_lt in E. lia.
Qed.
Lemma kept_parts H H' b h : kept H H' -> reads H b h -> reads H' b h /\ parts H' b = parts H b.
Proof. intros K R. apply reads_kept; auto. Qed.

(** The handlers at some addresses made after [H0], apart from each other. *)
Definition owns (H0 H : heap) (p : addr * handler) : Prop := reads H (fst p) (snd p) /\ forall x, In x (parts H (fst p)) -> length H0 <= x.
Definition world (H0 H : heap) (l : list (addr * handler)) : Prop :=
  kept H0 H /\ Forall (owns H0 H) l /\ ForallOrdPairs (fun p q => apart H (fst p) (fst q)) l.
Lemma world_copy H0 H l a h : world H0 H l -> reads H a h ->
  exists new b, deepcopy a H = (H ++ new, Ok b) /\ world H0 (H ++ new) ((b, h) :: l).
Proof.
  intros (K & F & P) R. destruct (deepcopy_ok H a h R) as (new & b & E & Rb & New). exists new, b. split; auto.
  assert (Old : forall q, owns H0 H q -> reads (H ++ new) (fst q) (snd q) /\ parts (H ++ new) (fst q) = parts H (fst q)) by (intros q (Rq & _); now apply kept_parts; [apply kept_app|]).
  split; [eapply kept_trans; [exact K|apply kept_app]|]. split.
  - constructor.
    + split; cbn; auto. intros x I. apply New in I. apply kept_length in K. lia.
    + rewrite Forall_forall in *. intros q I. specialize (F q I). destruct (Old q F) as (Rq & Eq). destruct F as (_ & Fq). split; auto. now rewrite Eq.
  - constructor.
    + rewrite Forall_forall in *. intros q I. specialize (F q I). destruct (Old q F) as (Rq & Eq). intros x Ix Jx. cbn [fst] in Ix. apply New in Ix. rewrite Eq in Jx.
      pose proof (parts_lt _ _ _ _ (proj1 F) Jx). lia.
    + clear E Rb New R. induction P as [|q l Fq P IH]; constructor; inversion F; subst; auto. rewrite Forall_forall in *. intros q' I. specialize (Fq q' I).
      destruct (Old q H3) as (_ & E1). destruct (Old q' (H4 q' I)) as (_ & E2). unfold apart. now rewrite E1, E2.
Qed.
Lemma frame_kept H0 a H H' : kept H0 H -> (forall x, In x (parts H a) -> length H0 <= x) -> frame a H H' -> kept H0 H'.
Proof. intros K A (_ & Kb & _) x o E. apply Kb; [now apply K|]. intros I. apply A in I. apply nth_lt in E. lia. Qed.
Lemma world_frame H0 H H' a h h' l : world H0 H ((a, h) :: l) -> frame a H H' -> reads H' a h' -> world H0 H' ((a, h') :: l).
Proof.
  intros (K & F & P) Fr R'. inversion F as [|? ? (Ra & Na) Fl]; subst. inversion P as [|? ? Pa Pl]; subst. cbn [fst snd] in *.
  pose proof (frame_kept _ _ _ _ K Na Fr) as K'. split; auto.
  assert (Old : forall q, In q l -> reads H' (fst q) (snd q) /\ parts H' (fst q) = parts H (fst q) /\ apart H' a (fst q)).
  { intros q I. rewrite Forall_forall in *. eapply frame_other; eauto. apply (Fl q I). }
  split.
  - constructor.
    + split; cbn; auto. intros x I. destruct Fr as (L & _ & Pr). destruct (Pr x I) as [J|G]; auto. apply kept_length in K. lia.
    + rewrite Forall_forall in *. intros q I. destruct (Old q I) as (Rq & Eq & _). split; auto. rewrite Eq. apply (Fl q I).
  - constructor.
    + rewrite Forall_forall in *. intros q I. apply (Old q I).
    + clear - Pl Old. induction Pl as [|q l Fq P IH]; constructor.
      * rewrite Forall_forall in *. intros q' I. specialize (Fq q' I). destruct (Old q (or_introl eq_refl)) as (_ & E1 & _). destruct (Old q' (or_intror I)) as (_ & E2 & _). unfold apart. now rewrite E1, E2.
      * apply IH. intros q' I. apply Old. now right.
Qed.
Lemma world_step H0 H a h l m r : world H0 H ((a, h) :: l) -> step H a m r ->
  match r with
  | Ok h' => exists H', m H = (H', Ok tt) /\ world H0 H' ((a, h') :: l)
  | Raise e => exists H', m H = (H', Raise e) /\ kept H0 H'
  end.
Proof.
  intros W (Fr & S). pose proof W as (K & F & _). apply Forall_inv in F. destruct F as (Ra & Na). cbn [fst snd] in *.
  destruct (m H) as (H', o). cbn [fst snd] in *. destruct r as [h'|e]; [|subst o; eauto using frame_kept].
  destruct S as (-> & R'). exists H'. split; auto. eapply world_frame; eauto.
Qed.
Lemma world_tail H0 H p l : world H0 H (p :: l) -> world H0 H l.
Proof. intros (K & F & P). split; auto. split; [now inversion F|now inversion P]. Qed.
Lemma world_read H0 H p l : world H0 H (p :: l) -> reads H (fst p) (snd p).
Proof. intros (_ & F & _). apply Forall_inv in F. apply F. Qed.
Lemma world_perm H0 H l l' : Permutation l l' -> world H0 H l -> world H0 H l'.
Proof.
  intros Q (K & F & P). split; auto. split; [eapply Permutation_Forall; eauto|]. clear K F. induction Q; auto.
  - inversion P as [|? ? F P']; subst. constructor; auto. eapply Permutation_Forall; eauto.
  - inversion P as [|? ? F P']; subst. inversion P' as [|? ? F' P'']; subst. inversion F as [|? ? A F'']; subst. constructor; [constructor; auto; now apply apart_sym|constructor; auto].
Qed.

Section Search.
  Variables (hpb : h_problem) (pb : problem handler).
  Hypothesis cost_ok : forall H a h, reads H a h -> hp_cost hpb a H = (H, p_cost pb h).
  Hypothesis complete_ok : forall H a h, reads H a h -> hp_complete hpb a H = (H, p_complete pb h).
  Hypothesis destroy_ok : Forall2 implements (hp_destroy hpb) (p_destroy pb).
  Hypothesis repair_ok : Forall2 implements (hp_repair hpb) (p_repair pb).
  Hypothesis exceeds_ok : hp_exceeds hpb = p_exceeds pb.

  Lemma const_len {A B} (c : Q) : forall (l : list A) (l' : list B), length l = length l' -> map (fun _ => c) l = map (fun _ => c) l'.
  Proof. induction l as [|x l IH]; intros [|y l'] E; cbn in *; try discriminate; auto. f_equal. apply IH. lia. Qed.
  Lemma read_bind {A B} (m : M A) (k : A -> M B) H r : m H = (H, r) -> mbind m k H = match r with Ok x => k x H | Raise e => (H, Raise e) end.
  Proof. intros E. unfold mbind. now rewrite E. Qed.
  Lemma run_bind {A B} (m : M A) (k : A -> M B) H H' r : m H = (H', r) -> mbind m k H = match r with Ok x => k x H' | Raise e => (H', Raise e) end.
  Proof. intros E. unfold mbind. now rewrite E. Qed.
  Lemma accept_ok H u ta ca t c T : reads H ta t -> reads H ca c -> h_accept hpb u ta ca T H = (H, accept pb u t c T).
  Proof.
    intros Rt Rc. unfold h_accept, accept. rewrite (read_bind _ _ _ _ (cost_ok _ _ _ Rc)). destruct (p_cost pb c) as [cc|e]; cbn [bind]; auto.
    rewrite (read_bind _ _ _ _ (cost_ok _ _ _ Rt)). destruct (p_cost pb t) as [ct|e]; cbn [bind]; auto. rewrite exceeds_ok.
    destruct (Qltb ct cc); auto. destruct (Qeqb (T * cc) 0); auto. destruct (Qltb exp_limit (100 * (ct - cc) / (T * cc))); auto.
  Qed.
  Lemma nth_implements (fs' : list ((nat -> nat) -> addr -> Z -> M unit)) (fs : list (operator handler)) i : Forall2 implements fs' fs ->
    match py_nth fs i with Ok f => exists f', py_nth fs' i = Ok f' /\ implements f' f | Raise e => py_nth fs' i = Raise e end.
  Proof.
    intros F. unfold py_nth. destruct (nth_error fs i) as [f|] eqn:E.
    - destruct (Forall2_nth_r _ _ _ F i f E) as (f' & -> & X). eauto.
    - assert (nth_error fs' i = None) as ->; auto. apply nth_error_None. rewrite (Forall2_len _ _ _ F). now apply nth_error_None.
  Qed.
  Definition same_state (hs : h_state) (s : state handler) : Prop := hs_T hs = s_T s /\ hs_dw hs = s_dw s /\ hs_rw hs = s_rw s.
  Lemma round_ok H0 p l nr na d hs s H : same_state hs s -> world H0 H [(hs_cur hs, s_cur s); (hs_best hs, s_best s)] ->
    match round pb p l nr na d s with
    | Ok (s', _, b) => exists H' hs', h_round hpb p l nr na d hs H = (H', Ok (hs', b)) /\ same_state hs' s' /\
                         world H0 H' [(hs_cur hs', s_cur s'); (hs_best hs', s_best s')]
    | Raise e => exists H', h_round hpb p l nr na d hs H = (H', Raise e) /\ kept H0 H'
    end.
  Proof.
    intros (ET & Edw & Erw) W. unfold h_round, round. rewrite ET, Edw, Erw. pose proof (proj1 W) as K0.
    rewrite (read_bind _ _ H _ eq_refl). destruct (get_index (s_dw s) (d_destroy d)) as [i|e]; cbn [bind]; [|eauto].
    rewrite (read_bind _ _ H _ eq_refl). destruct (get_index (s_rw s) (d_repair d)) as [j|e]; cbn [bind]; [|eauto].
    destruct (world_copy _ _ _ _ _ W (world_read _ _ _ _ W)) as (new & tmp & E1 & W1). cbn [fst snd] in *. rewrite (run_bind _ _ _ _ _ E1).
    set (H1 := H ++ new) in *. clearbody H1. clear W H K0 new E1. pose proof (proj1 W1) as K1.
    rewrite (read_bind _ _ H1 _ eq_refl). pose proof (nth_implements _ _ i destroy_ok) as X. destruct (py_nth (p_destroy pb) i) as [fd|e]; cbn [bind]; [|rewrite X; eauto].
    destruct X as (fd' & -> & If). pose proof (world_step _ _ _ _ _ _ _ W1 (If H1 tmp (s_cur s) (d_rnd1 d) nr (world_read _ _ _ _ W1))) as S1.
    destruct (fd (d_rnd1 d) (s_cur s) nr) as [t1|e]; destruct S1 as (H2 & E2 & W2); rewrite (run_bind _ _ _ _ _ E2); cbn [bind]; [|eauto]. clear W1 K1 E2 H1. pose proof (proj1 W2) as K2.
    rewrite (read_bind _ _ H2 _ eq_refl). pose proof (nth_implements _ _ j repair_ok) as X. destruct (py_nth (p_repair pb) j) as [fr|e]; cbn [bind]; [|rewrite X; eauto].
    destruct X as (fr' & -> & Ir). pose proof (world_step _ _ _ _ _ _ _ W2 (Ir H2 tmp t1 (d_rnd2 d) na (world_read _ _ _ _ W2))) as S2.
    destruct (fr (d_rnd2 d) t1 na) as [t|e]; destruct S2 as (H3 & E3 & W3); rewrite (run_bind _ _ _ _ _ E3); cbn [bind]; [|eauto]. clear W2 K2 E3 H2 If Ir. pose proof (proj1 W3) as K3.
    pose proof (world_read _ _ _ _ W3) as Rt. pose proof (world_read _ _ _ _ (world_tail _ _ _ _ W3)) as Rc. cbn [fst snd] in *.
    rewrite (read_bind _ _ _ _ (accept_ok _ (d_accept d) _ _ _ _ (s_T s) Rt Rc)). destruct (accept pb (d_accept d) t (s_cur s) (s_T s)) as [a|e]; cbn [bind]; [|eauto].
    assert (CS : match (if a then c1 <- p_cost pb t ;; c2 <- p_cost pb (if a then t else s_cur s) ;; Ok (if Qltb c2 c1 then better_score else accept_score) else Ok reject_score) with
                 | Ok sc => exists H4 cur', (if a then cur <~ deepcopy tmp ;; c1 <~ hp_cost hpb tmp ;; c2 <~ hp_cost hpb cur ;; ret (cur, if Qltb c2 c1 then better_score else accept_score) else ret (hs_cur hs, reject_score)) H3 = (H4, Ok (cur', sc)) /\
                              world H0 H4 [(tmp, t); (cur', if a then t else s_cur s); (hs_best hs, s_best s)]
                 | Raise e => exists H4, (if a then cur <~ deepcopy tmp ;; c1 <~ hp_cost hpb tmp ;; c2 <~ hp_cost hpb cur ;; ret (cur, if Qltb c2 c1 then better_score else accept_score) else ret (hs_cur hs, reject_score)) H3 = (H4, Raise e) /\ kept H0 H4
                 end).
    { destruct a; [|exists H3, (hs_cur hs); auto]. destruct (world_copy _ _ _ _ _ W3 Rt) as (new & cur' & E4 & W4). set (H4 := H3 ++ new) in *. clearbody H4. rewrite (run_bind _ _ _ _ _ E4).
      pose proof (world_read _ _ _ _ W4) as Rc4. pose proof (world_read _ _ _ _ (world_tail _ _ _ _ W4)) as Rt4. cbn [fst snd] in *. pose proof (proj1 W4) as K4.
      rewrite (read_bind _ _ _ _ (cost_ok _ _ _ Rt4)). destruct (p_cost pb t) as [c1|e] eqn:Ec; cbn [bind]; [|eauto]. rewrite (read_bind _ _ _ _ (cost_ok _ _ _ Rc4)), Ec.
      exists H4, cur'. split; [reflexivity|]. apply (world_tail _ _ (hs_cur hs, s_cur s)). eapply world_perm; [|exact W4].
      eapply perm_trans; [apply perm_swap|]. eapply perm_trans; [apply perm_skip, perm_swap|]. apply perm_swap. }
    destruct (if a then c1 <- p_cost pb t ;; c2 <- p_cost pb (if a then t else s_cur s) ;; Ok (if Qltb c2 c1 then better_score else accept_score) else Ok reject_score) as [sc|e];
      cbn [bind]; [|destruct CS as (H4 & E4 & K4); rewrite (run_bind _ _ _ _ _ E4); eauto].
    destruct CS as (H4 & cur' & E4 & W4). rewrite (run_bind _ _ _ _ _ E4). clear E4 W3 K3 Rt Rc H3. cbn [fst snd].
    set (cv := if a then t else s_cur s) in *. clearbody cv. pose proof (proj1 W4) as K4.
    pose proof (world_read _ _ _ _ W4) as Rt. pose proof (world_read _ _ _ _ (world_tail _ _ _ _ (world_tail _ _ _ _ W4))) as Rb. cbn [fst snd] in *.
    rewrite (read_bind _ _ _ _ (cost_ok _ _ _ Rt)). destruct (p_cost pb t) as [ct|e]; cbn [bind]; [|eauto].
    rewrite (read_bind _ _ _ _ (cost_ok _ _ _ Rb)). destruct (p_cost pb (s_best s)) as [cb|e]; cbn [bind]; [|eauto].
    assert (BS : exists H5 best', (if Qltb ct cb then best <~ deepcopy tmp ;; ret (best, best_score) else ret (hs_best hs, sc)) H4 = (H5, Ok (best', if Qltb ct cb then best_score else sc)) /\
                   world H0 H5 [(cur', cv); (best', if Qltb ct cb then t else s_best s)]).
    { destruct (Qltb ct cb).
      - destruct (world_copy _ _ _ _ _ W4 Rt) as (new & best' & E5 & W5). exists (H4 ++ new), best'. rewrite (run_bind _ _ _ _ _ E5). split; [reflexivity|].
        apply (world_tail _ _ (hs_best hs, s_best s)), (world_tail _ _ (tmp, t)). eapply world_perm; [|exact W5].
        eapply perm_trans; [apply perm_swap|]. apply perm_skip. eapply perm_trans; [apply perm_skip, perm_swap|]. eapply perm_trans; [apply perm_swap|]. apply perm_skip. apply perm_swap.
      - exists H4, (hs_best hs). split; [reflexivity|]. now apply world_tail in W4. }
    destruct BS as (H5 & best' & E5 & W5). rewrite (run_bind _ _ _ _ _ E5). cbn [fst snd]. pose proof (proj1 W5) as K5.
    pose proof (world_read _ _ _ _ (world_tail _ _ _ _ W5)) as Rb5. cbn [fst snd] in Rb5.
    rewrite (read_bind _ _ _ _ (complete_ok _ _ _ Rb5)). destruct (p_complete pb (if Qltb ct cb then t else s_best s)) as [done|e]; cbn [bind]; [|eauto].
    destruct done; eexists; eexists; (split; [reflexivity|]); (split; [repeat split; cbn; auto|exact W5]).
  Qed.
  Lemma rounds_ok H0 p l nr na : forall k ds hs s H, same_state hs s -> world H0 H [(hs_cur hs, s_cur s); (hs_best hs, s_best s)] ->
    match rounds pb p l nr na k ds s with
    | Ok (best, _) => exists H' b, h_rounds hpb p l nr na k ds hs H = (H', Ok b) /\ world H0 H' [(b, best)]
    | Raise e => exists H', h_rounds hpb p l nr na k ds hs H = (H', Raise e) /\ kept H0 H'
    end.
  Proof.
    induction k as [|k IH]; intros ds hs s H ES W; cbn [rounds h_rounds].
    - exists H, (hs_best hs). split; [reflexivity|]. now apply world_tail in W.
    - pose proof (round_ok H0 p l nr na (ds 0) hs s H ES W) as R. destruct (round pb p l nr na (ds 0) s) as [[[s' e] b]|e]; cbn [bind].
      + destruct R as (H' & hs' & E & ES' & W'). rewrite (run_bind _ _ _ _ _ E). cbn [fst snd]. destruct b.
        * exists H', (hs_best hs'). split; [reflexivity|]. now apply world_tail in W'.
        * specialize (IH (fun m => ds (S m)) hs' s' H' ES' W'). destruct (rounds pb p l nr na k (fun m => ds (S m)) s') as [[best log]|e']; cbn [bind fst snd]; auto.
      + destruct R as (H' & E & K). rewrite (run_bind _ _ _ _ _ E). eauto.
  Qed.
  Lemma solve_ok H a h mi p l nr na ds : reads H a h ->
    match solve pb h mi p l nr na ds with
    | Ok (best, _) => exists H' b, h_solve hpb a mi p l nr na ds H = (H', Ok b) /\ world H H' [(b, best)]
    | Raise e => exists H', h_solve hpb a mi p l nr na ds H = (H', Raise e) /\ kept H H'
    end.
  Proof.
    intros R. unfold solve, h_solve. assert (W0 : world H H []) by (split; [apply kept_refl|split; constructor]).
    destruct (world_copy _ _ _ _ _ W0 R) as (n1 & cur & E1 & W1). rewrite (run_bind _ _ _ _ _ E1). destruct (kept_parts _ _ _ _ (kept_app H n1) R) as (R1 & _).
    destruct (world_copy _ _ _ _ _ W1 R1) as (n2 & best & E2 & W2). rewrite (run_bind _ _ _ _ _ E2). set (H2 := (H ++ n1) ++ n2) in *. clearbody H2. clear E1 E2 W1 R1 W0.
    pose proof (proj1 W2) as K2. pose proof (world_read _ _ _ _ W2) as Rb. pose proof (world_read _ _ _ _ (world_tail _ _ _ _ W2)) as Rc. cbn [fst snd] in *.
    rewrite (read_bind _ _ _ _ (cost_ok _ _ _ Rc)). destruct (p_cost pb h) as [c|e]; cbn [bind]; [|eauto].
    rewrite (read_bind _ _ _ _ (complete_ok _ _ _ Rb)). destruct (p_complete pb h) as [b|e]; cbn [bind]; [|eauto]. destruct b.
    - exists H2, best. split; [reflexivity|]. eapply world_tail, world_perm; [apply perm_swap|exact W2].
    - apply rounds_ok.
      + repeat split; cbn; now (apply const_len; eapply Forall2_len; eassumption).
      + cbn. eapply world_perm; [apply perm_swap|exact W2].
  Qed.
End Search.

Lemma cost_reads H a h : reads H a h -> h_cost a H = (H, rmap inject_Z (cost h)).
Proof. intros R. unfold h_cost. now rewrite (read_bind _ _ _ _ (contents_ok _ _ _ R)). Qed.
Lemma complete_reads H a h : reads H a h -> h_is_complete a H = (H, is_complete h).
Proof. intros R. unfold h_is_complete. now rewrite (read_bind _ _ _ _ (contents_ok _ _ _ R)). Qed.
Lemma schedule_solve_ok exceeds H a h mi p l nr na ds : reads H a h ->
  match solve (schedule_problem exceeds) h mi p l nr na ds with
  | Ok (best, _) => exists H' b, h_solve (h_schedule_problem exceeds) a mi p l nr na ds H = (H', Ok b) /\ world H H' [(b, best)]
  | Raise e => exists H', h_solve (h_schedule_problem exceeds) a mi p l nr na ds H = (H', Raise e) /\ kept H H'
  end.
Proof.
  intros R. apply solve_ok; cbn; auto.
  - apply cost_reads.
  - apply complete_reads.
  - apply removals_ok.
  - apply insertions_ok.
Qed.
Lemma frame_kept_after a H H1 H2 h : frame a H H1 -> reads H1 a h -> kept H1 H2 -> frame a H H2 /\ reads H2 a h.
Proof.
  intros (L & Kb & Pr) R K. destruct (kept_parts _ _ _ _ K R) as (R2 & E). split; auto. pose proof (kept_length _ _ K). split; [lia|]. split.
  - intros x o Ex N. apply K. now apply Kb.
  - intros x. rewrite E. apply Pr.
Qed.
Lemma generate_ok exceeds H s v mi an re ds : hc_sky s = sch_sky v -> hc_threshold s = sch_threshold v -> reads H (hc_handler s) (sch_handler v) ->
  exists H', h_generate exceeds (hc_handler s) mi an re ds H = (H', snd (scheduler_generate exceeds v mi an re ds)) /\
    frame (hc_handler s) H H' /\ reads H' (hc_handler s) (sch_handler (fst (scheduler_generate exceeds v mi an re ds))).
Proof.
  intros _ _ R. unfold h_generate, scheduler_generate. assert (G : exists la, get_handler (hc_handler s) H = (H, Ok (la, h_n (sch_handler v), h_nsched (sch_handler v)))) by (destruct R as (la & l & R); exists la; eapply get_handler_ok; exact R).
  destruct G as (la & Eh). rewrite (read_bind _ _ _ _ Eh). cbv beta iota.
  set (a := hc_handler s) in *. set (h := sch_handler v) in *. destruct (h_n h =? 0).
  - exists H. cbn [fst snd]. auto using frame_refl.
  - destruct (initialize_ok' _ _ _ R) as (Fr & R1 & Ei). destruct (initialize_st h) as [h1 f]. cbn [fst snd] in *. destruct (h_initialize a H) as [H1 o] eqn:E1. cbn [fst snd] in *. rewrite (run_bind _ _ _ _ _ E1). subst o.
    destruct f as [e|]; cbn [fst snd sch_handler]; [exists H1; auto|]. clear Eh la. assert (G : exists la, get_handler a H1 = (H1, Ok (la, h_n h1, h_nsched h1))) by (destruct R1 as (la & l & R1); exists la; eapply get_handler_ok; exact R1).
    destruct G as (la & Eh). rewrite (read_bind _ _ _ _ Eh). cbv beta iota.
    pose proof (schedule_solve_ok exceeds _ _ _ mi an re (quarter (h_n h1)) (Z.of_nat (h_n h1)) ds R1) as X.
    destruct (solve (schedule_problem exceeds) h1 mi an re (quarter (h_n h1)) (Z.of_nat (h_n h1)) ds) as [[best log]|e]; cbn [bind fst snd].
    + destruct X as (H2 & b & E2 & W). rewrite (run_bind _ _ _ _ _ E2). pose proof (world_read _ _ _ _ W) as Rb. cbn [fst snd] in Rb. rewrite (read_bind _ _ _ _ (contents_ok _ _ _ Rb)).
      exists H2. split; [reflexivity|]. apply (frame_kept_after _ _ _ _ _ Fr R1 (proj1 W)).
    + destruct X as (H2 & E2 & K). rewrite (run_bind _ _ _ _ _ E2). exists H2. split; [reflexivity|]. apply (frame_kept_after _ _ _ _ _ Fr R1 K).
Qed.
(** A scheduler object stands for a value of Sess_Model. *)
Definition stands (H : heap) (s : h_scheduler) (v : scheduler) : Prop :=
  hc_sky s = sch_sky v /\ hc_threshold s = sch_threshold v /\ reads H (hc_handler s) (sch_handler v).
Lemma call_ok c H s v : stands H s v ->
  exists H', h_call c s H = (H', snd (do_call c v)) /\ frame (hc_handler s) H H' /\ stands H' s (fst (do_call c v)).
Proof.
  intros (Es & Et & R). destruct c as [k|exceeds mi an re ds]; unfold h_call, do_call.
  - unfold h_scheduler_add, scheduler_add. rewrite Es, Et. rewrite (read_bind _ _ H _ eq_refl). destruct (generate_vtws _ _ _ _ _) as [vtws|e]; cbn [bind].
    + destruct (add_ok _ _ _ (k_loc k) (k_deadline k) (k_dur k) (k_prio k) (k_qual k) (k_look k) vtws R) as (Fr & Eo & R'). destruct (h_add_request _ _ _ _ _ _ _ _ H) as [H' o]. cbn [fst snd] in *. subst o.
      exists H'. split; [reflexivity|]. split; auto. repeat split; auto.
    + exists H. cbn. split; [reflexivity|]. split; [apply frame_refl|repeat split; auto].
  - destruct (generate_ok exceeds H s v mi an re ds Es Et R) as (H' & E & Fr & R'). rewrite E. unfold scheduler_generate in *.
    assert (Q : forall g, reads H' (hc_handler s) g -> stands H' s (mkScheduler (sch_sky v) (sch_threshold v) g)) by (intros g Rg; split; [|split]; auto).
    destruct (h_n (sch_handler v) =? 0); [cbn [fst snd] in *; exists H'; split; [reflexivity|split; [exact Fr|split; [|split]; auto]]|].
    destruct (initialize_st (sch_handler v)) as [h1 f]. destruct f as [e|]; cbn [fst snd] in *; [exists H'; split; [reflexivity|split; [exact Fr|now apply Q]]|].
    destruct (bind _ _); exists H'; (split; [reflexivity|]); (split; [exact Fr|]); now apply Q.
Qed.
Lemma combine_app {A B} (l1 : list A) : forall (m1 : list B) l2 m2, length l1 = length m1 -> combine (l1 ++ l2) (m1 ++ m2) = combine l1 m1 ++ combine l2 m2.
Proof. induction l1 as [|x l1 IH]; intros [|y m1] l2 m2 E; cbn in *; try discriminate; auto. f_equal. apply IH. lia. Qed.
Lemma app_inj_len {A} (l1 : list A) : forall m1 l2 m2, length l1 = length m1 -> l1 ++ l2 = m1 ++ m2 -> l1 = m1 /\ l2 = m2.
Proof. induction l1 as [|x l1 IH]; intros [|y m1] l2 m2 E Q; cbn in *; try discriminate; auto. injection Q as -> Q. destruct (IH m1 l2 m2) as (-> & ->); auto. Qed.
Lemma new_ok H0 H l : world H0 H l -> exists H' a, new_handler H = (H', Ok a) /\ world H0 H' ((a, empty_handler) :: l).
Proof.
  intros (K & F & P). exists (H ++ [OList []; OHandler (length H) 0 0]), (S (length H)).
  assert (A : nth_error (H ++ [OList []; OHandler (length H) 0 0]) (S (length H)) = Some (OHandler (length H) 0 0)) by (rewrite nth_error_app2 by lia; now replace (S (length H) - length H) with 1 by lia).
  assert (L : nth_error (H ++ [OList []; OHandler (length H) 0 0]) (length H) = Some (OList [])) by (rewrite nth_error_app2 by lia; now rewrite Nat.sub_diag).
  split.
  { unfold new_handler, mbind, alloc. rewrite app_length. cbn [length]. rewrite <- app_assoc. cbn [app]. now rewrite Nat.add_1_r. }
  assert (Old : forall q, owns H0 H q -> reads (H ++ [OList []; OHandler (length H) 0 0]) (fst q) (snd q) /\ parts (H ++ [OList []; OHandler (length H) 0 0]) (fst q) = parts H (fst q)) by (intros q (Rq & _); now apply kept_parts; [apply kept_app|]).
  assert (Pa : parts (H ++ [OList []; OHandler (length H) 0 0]) (S (length H)) = [S (length H); length H]) by (unfold parts; now rewrite A, L).
  pose proof (kept_length _ _ K) as Len. set (H' := H ++ [OList []; OHandler (length H) 0 0]) in *.
  split; [eapply kept_trans; [exact K|apply kept_app]|]. split.
  - constructor.
    + split; cbn [fst snd]; [exists (length H), []; repeat split; auto; constructor|]. rewrite Pa. intros x [<-|[<-|[]]]; lia.
    + rewrite Forall_forall in *. intros q I. specialize (F q I). destruct (Old q F) as (Rq & Eq). destruct F as (_ & Fq). split; auto. now rewrite Eq.
  - constructor.
    + rewrite Forall_forall in *. intros q I. specialize (F q I). destruct (Old q F) as (Rq & Eq). intros x Ix Jx. cbn [fst] in Ix. rewrite Pa in Ix. rewrite Eq in Jx.
      pose proof (parts_lt _ _ _ _ (proj1 F) Jx). destruct Ix as [<-|[<-|[]]]; lia.
    + clearbody H'. clear - F P Old. induction P as [|q l Fq P IH]; constructor; inversion F as [|? ? Oq Ol]; subst; auto. rewrite Forall_forall in *. intros q' I. specialize (Fq q' I).
      destruct (Old q Oq) as (_ & E1). destruct (Old q' (Ol q' I)) as (_ & E2). unfold apart. now rewrite E1, E2.
Qed.
Definition matches (s : h_scheduler) (v : scheduler) : Prop := hc_sky s = sch_sky v /\ hc_threshold s = sch_threshold v.
Definition handlers (ss : list h_scheduler) (vs : list scheduler) : list (addr * handler) := combine (map hc_handler ss) (map sch_handler vs).
Definition fresh (c : sky * Q) : scheduler := mkScheduler (fst c) (snd c) empty_handler.
Lemma do_call_sky c v : sch_sky (fst (do_call c v)) = sch_sky v /\ sch_threshold (fst (do_call c v)) = sch_threshold v.
Proof.
  destruct c as [k|exceeds mi an re ds]; cbn [do_call].
  - unfold scheduler_add. destruct (generate_vtws _ _ _ _ _); cbn; auto.
  - unfold scheduler_generate. destruct (h_n (sch_handler v) =? 0); cbn [fst snd]; auto. destruct (initialize_st (sch_handler v)) as [h1 [e|]]; cbn [fst snd]; auto. destruct (bind _ _); auto.
Qed.
Lemma program_ok H0 : forall acts ss vs H, Forall2 matches ss vs -> world H0 H (handlers ss vs) ->
  kept H0 (snd (fst (program acts ss H))) /\
  forall i v, nth_error (vs ++ map fresh (creations acts)) i = Some v ->
    answers_to i (snd (program acts ss H)) = snd (session (calls_to i (length vs) acts) v).
Proof.
  induction acts as [|[sat th|j c] acts IH]; intros ss vs H M W; cbn [program creations calls_to].
  - split; [exact (proj1 W)|reflexivity].
  - unfold new_h_scheduler, mbind. destruct (new_ok _ _ _ W) as (H' & a & E & W'). rewrite E. cbn [fst snd].
    destruct (IH (ss ++ [mkHScheduler sat th a]) (vs ++ [mkScheduler sat th empty_handler]) H') as (K & A).
    { apply Forall2_app; auto. constructor; [split; reflexivity|constructor]. }
    { eapply world_perm; [|exact W']. unfold handlers. rewrite !map_app. cbn [map hc_handler sch_handler]. rewrite combine_app by (rewrite !map_length; eapply Forall2_len; eauto).
      apply Permutation_cons_append. }
    split; auto. intros i v Ev. cbn [ret map]. rewrite A with (v := v).
    + rewrite app_length. cbn [length]. now rewrite Nat.add_1_r.
    + cbn [map] in Ev. now rewrite <- app_assoc.
  - destruct (nth_error ss j) as [s|] eqn:Ej.
    + destruct (Forall2_nth _ _ _ M j s Ej) as (v & Ev & Ms).
      destruct (nth_error_split _ _ Ej) as (s1 & s2 & -> & Ls). destruct (nth_error_split _ _ Ev) as (v1 & v2 & -> & Lv).
      assert (W1 : world H0 H ((hc_handler s, sch_handler v) :: handlers s1 v1 ++ handlers s2 v2)).
      { eapply world_perm; [|exact W]. unfold handlers. rewrite !map_app, combine_app by (rewrite !map_length; congruence). cbn [map combine]. symmetry. apply Permutation_middle. }
      destruct (call_ok c H s v) as (H' & E & Fr & S'). { destruct Ms. split; [|split]; auto. exact (world_read _ _ _ _ W1). }
      rewrite E. destruct (do_call_sky c v) as (Esk & Eth). destruct Ms as (Ms1 & Ms2). destruct S' as (_ & _ & R').
      destruct (do_call c v) as [v' an] eqn:Ec. cbn [fst snd] in *.
      destruct (IH (s1 ++ s :: s2) (v1 ++ v' :: v2) H') as (K & A).
      { apply Forall2_app_inv_l in M. destruct M as (x1 & x2 & M1 & M2 & Ex). assert (length x1 = length v1) by (rewrite <- (Forall2_len _ _ _ M1); congruence).
        apply app_inj_len in Ex; auto. destruct Ex as (<- & <-). apply Forall2_app; auto. inversion M2; subst. constructor; auto. split; congruence. }
      { pose proof (world_frame _ _ _ _ _ _ _ W1 Fr R') as W2. eapply world_perm; [|exact W2]. unfold handlers. rewrite !map_app, combine_app by (rewrite !map_length; congruence). cbn [map combine]. apply Permutation_middle. }
      destruct (program acts (s1 ++ s :: s2) H') as [[ss' H''] l]. cbn [fst snd] in *. split; auto. intros i w Ew. unfold answers_to. cbn [filter fst].
      destruct (j =? i) eqn:Eji.
      * apply Nat.eqb_eq in Eji. subst i. rewrite nth_error_app1 in Ew by (eapply nth_lt; eauto). rewrite Ev in Ew. injection Ew as <-.
        assert ((j <? length (v1 ++ v :: v2)) = true) as -> by (apply Nat.ltb_lt; eapply nth_lt; eauto). cbn [andb session map snd]. rewrite Ec.
        specialize (A j v'). unfold answers_to in A. rewrite A.
        -- rewrite !app_length. cbn [length]. clear A. destruct (session (calls_to j (length v1 + S (length v2)) acts) v') as [s3 l3]. reflexivity.
        -- rewrite nth_error_app1 by (rewrite app_length; cbn; lia). rewrite nth_error_app2 by lia. now replace (j - length v1) with 0 by lia.
      * cbn [andb]. specialize (A i w). unfold answers_to in A. rewrite A; [now rewrite !app_length|]. apply Nat.eqb_neq in Eji. rewrite <- Ew.
        destruct (lt_eq_lt_dec i (length v1)) as [[G|G]|G]; [rewrite <- !app_assoc, !nth_error_app1 by lia; auto|lia|]. rewrite <- !app_assoc, (nth_error_app2 v1 ((v :: v2) ++ _)), (nth_error_app2 v1 ((v' :: v2) ++ _)) by lia.
        destruct (i - length v1) as [|k] eqn:Ek; [lia|]. reflexivity.
    + destruct (IH ss vs H M W) as (K & A). split; auto. intros i v Ev. rewrite (A i v Ev). apply nth_error_None in Ej. rewrite (Forall2_len _ _ _ M) in Ej.
      destruct (j =? i) eqn:Eji; auto. apply Nat.eqb_eq in Eji. subst i. assert ((j <? length vs) = false) as -> by (apply Nat.ltb_ge; lia). reflexivity.
Qed.
