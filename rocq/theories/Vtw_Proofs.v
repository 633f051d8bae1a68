(** Proofs about visible time windows. *)
From Coq Require Import List ZArith QArith Bool Arith Lia Sorted.
From Verif Require Import Py PyLemmas Sched_Model Vtw_Model Vtw_Spec.
Import ListNotations.
Open Scope nat_scope.
Open Scope list_scope.

(** ** Indices *)
Lemma np_where_In l : forall i j, In j (np_where i l) <-> i <= j /\ nth_error l (j - i) = Some true.
Proof.
  induction l as [|b l IH]; intros i j; cbn [np_where].
  - split; [intros []|]. intros (_ & H). destruct (j - i); discriminate.
  - assert (E : j = i /\ b = true \/ S i <= j /\ nth_error l (j - S i) = Some true <->
                i <= j /\ nth_error (b :: l) (j - i) = Some true).
    { split.
      - intros [(-> & ->)|(L & N)]; [rewrite Nat.sub_diag; auto|]. split; [lia|].
        replace (j - i) with (S (j - S i)) by lia. exact N.
      - intros (L & N). destruct (Nat.eq_dec j i) as [->|D]; [rewrite Nat.sub_diag in N; injection N as ->; auto|].
        right. split; [lia|]. replace (j - i) with (S (j - S i)) in N by lia. exact N. }
    rewrite <- E. destruct b; cbn [In]; rewrite IH; intuition (try lia; try discriminate).
Qed.
Lemma np_where_sorted l : forall i, StronglySorted lt (np_where i l).
Proof.
  induction l as [|b l IH]; intros i; cbn; [constructor|]. destruct b; auto. constructor; auto.
  apply Forall_forall. intros j I. apply np_where_In in I. lia.
Qed.
Lemma filter_sorted (f : nat -> bool) l : StronglySorted lt l -> StronglySorted lt (filter f l).
Proof.
  induction 1 as [|x l S IH F]; cbn; [constructor|]. destruct (f x); auto. constructor; auto.
  apply Forall_forall. intros y I. apply filter_In in I. rewrite Forall_forall in F. now apply F.
Qed.

(** ** Splitting where the differences are not 1 *)
Definition cuts (l : list nat) : list nat := map S (np_where 0 (map (fun d => negb (d =? 1)%Z) (np_diff l))).

Fixpoint break (l : list nat) : list (list nat) :=
  match l with
  | [] => [[]]
  | x :: r =>
      match r with
      | [] => [[x]]
      | y :: _ =>
          if y =? S x then match break r with g :: gs => (x :: g) :: gs | [] => [] end
          else [x] :: break r
      end
  end.

Lemma break_cons2 x y l : break (x :: y :: l) =
  if y =? S x then match break (y :: l) with g :: gs => (x :: g) :: gs | [] => [] end else [x] :: break (y :: l).
Proof. reflexivity. Qed.

Lemma np_where_shift l : forall i, np_where (S i) l = map S (np_where i l).
Proof. induction l as [|b l IH]; intros i; cbn; auto. destruct b; cbn; now rewrite IH. Qed.

Lemma np_split_shift {A} (x : A) l idx : forall s, np_split (S s) (x :: l) (map S idx) = np_split s l idx.
Proof.
  induction idx as [|i idx IH]; intros s; cbn [np_split map]; auto. rewrite IH. reflexivity.
Qed.
Lemma np_split_cons {A} (x : A) l idx :
  np_split 0 (x :: l) (map S idx) = match np_split 0 l idx with g :: gs => (x :: g) :: gs | [] => [] end.
Proof.
  destruct idx as [|i idx]; cbn [np_split map]; auto.
  rewrite np_split_shift. unfold slice. cbn. now rewrite Nat.sub_0_r.
Qed.

Lemma split_break l : np_split 0 l (cuts l) = break l.
Proof.
  induction l as [|x l IH]; auto. destruct l as [|y l]; [reflexivity|].
  unfold cuts in *. cbn [np_diff map np_where]. fold (np_diff (y :: l)).
  rewrite break_cons2.
  assert (E : negb (Z.of_nat y - Z.of_nat x =? 1)%Z = negb (y =? S x)).
  { f_equal. destruct (Nat.eqb_spec y (S x)); [apply Z.eqb_eq; lia|apply Z.eqb_neq; lia]. }
  rewrite E. destruct (y =? S x); cbn [negb].
  - rewrite np_where_shift. rewrite map_map. rewrite <- (map_map S S).
    change (map (fun d : Z => negb (d =? 1)%Z) (match l with [] => [] | y0 :: _ => (Z.of_nat y0 - Z.of_nat y)%Z :: np_diff l end))
      with (map (fun d : Z => negb (d =? 1)%Z) (np_diff (y :: l))).
    rewrite np_split_cons, IH. reflexivity.
  - cbn [map np_split]. unfold slice. cbn [firstn skipn Nat.sub]. f_equal.
    rewrite np_where_shift. rewrite map_map. rewrite <- (map_map S S).
    rewrite np_split_shift. exact IH.
Qed.

(** ** The pieces are the maximal runs *)

(** The list of indices of a run. *)
Definition of_run (r : nat * nat) : list nat := seq (fst r) (S (snd r) - fst r).
Definition run_ok (r : nat * nat) : Prop := fst r <= snd r.
Definition before (r s : nat * nat) : Prop := S (snd r) < fst s.

Lemma In_of_run i r : In i (of_run r) <-> fst r <= i <= snd r.
Proof. unfold of_run. rewrite in_seq. lia. Qed.

Lemma break_runs l : l <> [] -> StronglySorted lt l ->
  exists runs, break l = map of_run runs /\ Forall run_ok runs /\ StronglySorted before runs /\
    concat (map of_run runs) = l /\ (exists b rs, runs = (hd 0 l, b) :: rs).
Proof.
  induction l as [|x l IH]; intros N SS; [congruence|]. destruct l as [|y l].
  - exists [(x, x)].
    assert (X : of_run (x, x) = [x]) by (unfold of_run; cbn [fst snd]; replace (S x - x) with 1 by lia; reflexivity).
    cbn [map concat break hd]. rewrite X. split; auto. split; [repeat constructor|]. split; [repeat constructor|]. eauto.
  - inversion SS as [|? ? SS' F]; subst. destruct (IH ltac:(discriminate) SS') as (runs & E & Ok & So & C & b & rs & ->).
    cbn [hd] in *. rewrite break_cons2, E.
    inversion Ok as [|? ? O1 Or]; subst. inversion So as [|? ? So' Fo]; subst.
    unfold run_ok in O1. cbn in O1.
    destruct (Nat.eqb_spec y (S x)) as [->|D].
    + exists ((x, b) :: rs).
      assert (X : of_run (x, b) = x :: of_run (S x, b)).
      { unfold of_run. cbn [fst snd]. replace (S b - x) with (S (S b - S x)) by lia. reflexivity. }
      cbn [map concat] in *. rewrite X. split; [reflexivity|].
      split; [constructor; auto; unfold run_ok; cbn; lia|].
      split.
      { constructor; auto. }
      split; [cbn [app]; now rewrite C|eauto].
    + exists ((x, x) :: (y, b) :: rs).
      assert (X : of_run (x, x) = [x]) by (unfold of_run; cbn [fst snd]; replace (S x - x) with 1 by lia; reflexivity).
      assert (Lt : x < y) by (inversion F; auto).
      cbn [map concat] in *. rewrite X. split; [reflexivity|].
      split; [constructor; auto; unfold run_ok; cbn; lia|].
      split.
      { constructor; [constructor; auto|]. constructor; [unfold before; cbn; lia|].
        rewrite Forall_forall in *. intros r Ir. apply Fo in Ir. unfold before in *. cbn in *. lia. }
      split; [cbn [app]; now rewrite C|eauto].
Qed.

Lemma sorted_before_nth runs : StronglySorted before runs ->
  forall i j r s, i < j -> nth_error runs i = Some r -> nth_error runs j = Some s -> before r s.
Proof.
  induction 1 as [|x l So IH F]; intros [|i] [|j] r s L Hi Hj; try lia; try discriminate.
  - injection Hi as <-. rewrite Forall_forall in F. apply F. eapply nth_error_In. exact Hj.
  - eapply (IH i j); eauto. lia.
Qed.

Lemma runs_maximal runs l : Forall run_ok runs -> StronglySorted before runs -> concat (map of_run runs) = l ->
  all_runs (fun i => In i l) runs.
Proof.
  intros Ok So <-. set (P := fun i => In i (concat (map of_run runs))).
  assert (PI : forall i, P i <-> exists r, In r runs /\ fst r <= i <= snd r).
  { intros i. unfold P. rewrite in_concat. split.
    - intros (g & Ig & Ii). apply in_map_iff in Ig. destruct Ig as (r & <- & Ir). apply In_of_run in Ii. eauto.
    - intros (r & Ir & L). exists (of_run r). split; [now apply in_map|now apply In_of_run]. }
  assert (Sep : forall r s, In r runs -> In s runs -> r = s \/ before r s \/ before s r).
  { intros r s Ir Is. apply In_nth_error in Ir, Is. destruct Ir as (i & Hi), Is as (j & Hj).
    destruct (lt_eq_lt_dec i j) as [[L| ->]|L].
    - right; left. eapply sorted_before_nth; eauto.
    - left. congruence.
    - right; right. eapply sorted_before_nth; eauto. }
  rewrite Forall_forall in Ok.
  split.
  - intros a b. split.
    + intros I. pose proof (Ok _ I) as O. unfold run_ok in O. cbn in O. split; auto.
      split; [intros i L; apply PI; exists (a, b); auto|]. split.
      * intros Pb. apply PI in Pb. destruct Pb as (r & Ir & L).
        destruct (Sep _ _ I Ir) as [<-|[B|B]]; unfold before in *; cbn in *; lia.
      * intros c -> Pc. apply PI in Pc. destruct Pc as (r & Ir & L).
        destruct (Sep _ _ I Ir) as [<-|[B|B]]; unfold before in *; cbn in *; lia.
    + intros (L & A & Nb & Na).
      assert (Pa : P a) by (apply A; lia). apply PI in Pa. destruct Pa as ((a', b') & Ir & La). cbn in La.
      assert (a = a').
      { destruct (Nat.eq_dec a a') as [|D]; auto. exfalso. destruct a as [|c]; [lia|].
        apply (Na c eq_refl). apply PI. exists (a', b'). split; [exact Ir|cbn; lia]. }
      subst a'. assert (b = b'); [|congruence].
      destruct (lt_eq_lt_dec b b') as [[X|]|X]; auto; exfalso.
      * apply Nb. apply PI. exists (a, b'). split; [exact Ir|cbn; lia].
      * assert (Pb : P (S b')) by (apply A; lia). apply PI in Pb. destruct Pb as (r & Ir' & Lr).
        destruct (Sep _ _ Ir Ir') as [<-|[B|B]]; unfold before in *; cbn in *; lia.
  - intros i j a b a' b' L Hi Hj. exact (sorted_before_nth _ So _ _ _ _ L Hi Hj).
Qed.

(** ** The qualifying indices *)
Definition qualifying (l : list sample) (th : Q) (light : lighting) (k : list nat) : list nat :=
  intersect1d (np_where 0 (map (fun s => Qltb th (s_elev s)) l)) k.

Lemma lighting_In light l k : lighting_indices light l = Ok k ->
  forall i, In i k <-> exists s, nth_error l i = Some s /\ lit light s.
Proof.
  assert (W : forall f i, In i (np_where 0 (map f l)) <-> exists s, nth_error l i = Some s /\ f s = true).
  { intros f i. rewrite np_where_In, Nat.sub_0_r, nth_error_map. destruct (nth_error l i) as [s|]; cbn.
    - split; [intros (_ & [= E]); eauto|]. intros (s' & [= <-] & ->). auto with arith.
    - split; [intros (_ & E); discriminate|intros (s & E & _); discriminate]. }
  destruct light; cbn; intros H i; try discriminate; injection H as <-.
  - rewrite W. split; intros (s & E & X); exists s; split; auto; now apply Qltb_iff.
  - rewrite in_seq. destruct (nth_error l i) as [s|] eqn:E.
    + assert (i < length l) by (apply nth_error_Some; congruence). split; [eauto|intros _; lia].
    + apply nth_error_None in E. split; [lia|]. intros (s & E' & _). discriminate.
  - rewrite W. split; intros (s & E & X); exists s; split; auto; now apply Qltb_iff.
Qed.

Lemma qualifying_In l th light k : lighting_indices light l = Ok k ->
  forall i, In i (qualifying l th light k) <-> qualifies l th light i.
Proof.
  intros E i. unfold qualifying, intersect1d. rewrite filter_In, existsb_exists.
  rewrite np_where_In, Nat.sub_0_r, nth_error_map.
  assert (X : (exists x, In x k /\ (i =? x) = true) <-> In i k).
  { split; [intros (x & I & Q); apply Nat.eqb_eq in Q; now subst|]. intros I. exists i. split; auto. apply Nat.eqb_refl. }
  rewrite X, (lighting_In _ _ _ E). unfold qualifies. destruct (nth_error l i) as [s|]; cbn.
  - split.
    + intros ((_ & [= Q]) & s' & [= <-] & L). exists s. rewrite <- Qltb_iff. auto.
    + intros (s' & [= <-] & Q & L). apply Qltb_iff in Q. rewrite Q. split; [auto with arith|eauto].
  - split; [intros ((_ & E') & _); discriminate|intros (s & E' & _); discriminate].
Qed.
Lemma qualifying_sorted l th light k : StronglySorted lt (qualifying l th light k).
Proof. apply filter_sorted, np_where_sorted. Qed.

Lemma lighting_ok light l : light <> OtherLight -> exists k, lighting_indices light l = Ok k.
Proof. destruct light; cbn; eauto. congruence. Qed.

Lemma all_runs_ext (P Q : nat -> Prop) runs : (forall i, P i <-> Q i) -> all_runs P runs -> all_runs Q runs.
Proof.
  intros E (H1 & H2). split; auto. intros a b. rewrite H1. unfold maximal_run. split; intros (A & B & C & D).
  - split; auto. split; [intros i L; apply E; auto|]. split; [rewrite <- E; auto|]. intros c X. rewrite <- E. auto.
  - split; auto. split; [intros i L; apply E; auto|]. split; [rewrite E; auto|]. intros c X. rewrite E. auto.
Qed.

(** The value of window_indices. *)
Lemma window_indices_spec l th light : light <> OtherLight ->
  (exists i, qualifies l th light i) ->
  exists runs, window_indices l th light = Ok (map of_run runs) /\ all_runs (qualifies l th light) runs.
Proof.
  intros Nl (i & Qi). destruct (lighting_ok light l Nl) as (k & Ek).
  unfold window_indices. rewrite Ek. cbn [bind]. cbv zeta. fold (qualifying l th light k).
  fold (cuts (qualifying l th light k)). rewrite split_break.
  assert (Ne : qualifying l th light k <> []).
  { apply (qualifying_In l th light k Ek) in Qi. intros X. rewrite X in Qi. destruct Qi. }
  destruct (break_runs _ Ne (qualifying_sorted l th light k)) as (runs & E & O & So & C & _).
  exists runs. rewrite E. split; auto.
  eapply all_runs_ext; [|exact (runs_maximal _ _ O So C)]. intros j. apply qualifying_In; auto.
Qed.
Lemma window_indices_none l th light : light <> OtherLight ->
  (forall i, ~ qualifies l th light i) -> window_indices l th light = Ok [[]].
Proof.
  intros Nl N. destruct (lighting_ok light l Nl) as (k & Ek).
  unfold window_indices. rewrite Ek. cbn [bind]. cbv zeta. fold (qualifying l th light k).
  fold (cuts (qualifying l th light k)). rewrite split_break.
  destruct (qualifying l th light k) as [|x q] eqn:E; auto.
  exfalso. apply (N x). apply (qualifying_In l th light k Ek). rewrite E. now left.
Qed.

(** Python indexing. *)
Lemma py_index_nat {A} (l : list A) i : py_index l (Z.of_nat i) = py_nth l i.
Proof.
  unfold py_index. replace (0 <=? Z.of_nat i)%Z with true by (symmetry; apply Z.leb_le; lia).
  rewrite Nat2Z.id. destruct (Z.of_nat i <? Z.of_nat (length l))%Z eqn:E; auto.
  apply Z.ltb_ge in E. unfold py_nth. assert (nth_error l i = None) as -> by (apply nth_error_None; lia). reflexivity.
Qed.
Lemma py_index_last {A} (l : list A) : l <> [] -> py_index l (-1) = py_nth l (length l - 1).
Proof.
  intros N. unfold py_index. cbn [Z.leb Z.compare]. destruct l as [|x l]; [congruence|].
  cbn [length]. replace (0 <=? -1 + Z.of_nat (S (length l)))%Z with true by (symmetry; apply Z.leb_le; lia).
  f_equal. lia.
Qed.

Lemma nth_error_seq a n : forall i, i < n -> nth_error (seq a n) i = Some (a + i).
Proof.
  revert a. induction n as [|n IH]; intros a [|i] L; try lia; cbn; [f_equal; lia|].
  rewrite IH by lia. f_equal. lia.
Qed.

(** The window of a run. *)
Lemma window_of_run (l : list sample) att a b : a <= b -> b < length l ->
  exists w, window_of (map s_time l) att (of_run (a, b)) = Ok w /\ v_att w = att /\ at_time l b (v_set w) /\
    at_time l (if a =? 0 then length l - 1 else a - 1) (v_rise w).
Proof.
  intros L Lb. unfold window_of.
  assert (E0 : py_index (of_run (a, b)) 0 = Ok a).
  { change 0%Z with (Z.of_nat 0). rewrite py_index_nat. apply py_nth_Ok. unfold of_run. cbn [fst snd].
    rewrite nth_error_seq by lia. f_equal. lia. }
  assert (E1 : py_index (of_run (a, b)) (-1) = Ok b).
  { assert (Ne : of_run (a, b) <> []) by (unfold of_run; cbn [fst snd]; replace (S b - a) with (S (b - a)) by lia; discriminate).
    rewrite py_index_last by auto. apply py_nth_Ok. unfold of_run. cbn [fst snd]. rewrite seq_length.
    rewrite nth_error_seq by lia. f_equal. lia. }
  rewrite E0, E1. cbn [bind].
  destruct (nth_error l b) as [sb|] eqn:Nb; [|apply nth_error_None in Nb; lia].
  assert (Eb : py_index (map s_time l) (Z.of_nat b) = Ok (s_time sb)).
  { rewrite py_index_nat. apply py_nth_Ok. now rewrite nth_error_map, Nb. }
  set (k := if a =? 0 then length l - 1 else a - 1).
  assert (Lk : k < length l) by (unfold k; destruct (Nat.eqb_spec a 0); lia).
  destruct (nth_error l k) as [sk|] eqn:Nk; [|apply nth_error_None in Nk; lia].
  assert (Ek : py_index (map s_time l) (Z.of_nat a - 1) = Ok (s_time sk)).
  { unfold k in Nk. destruct (Nat.eqb_spec a 0) as [->|D].
    - change (Z.of_nat 0 - 1)%Z with (-1)%Z. rewrite py_index_last.
      + apply py_nth_Ok. now rewrite map_length, nth_error_map, Nk.
      + destruct l; [cbn in Lb; lia|discriminate].
    - replace (Z.of_nat a - 1)%Z with (Z.of_nat (a - 1)) by lia. rewrite py_index_nat. apply py_nth_Ok.
      now rewrite nth_error_map, Nk. }
  rewrite Ek. cbn [bind]. rewrite Eb. cbn [bind]. eexists. split; [reflexivity|]. cbn. split; auto.
  split; eexists; split; eauto.
Qed.

(** All windows. *)
Lemma windows_of_runs (l : list sample) att runs : (forall a b, In (a, b) runs -> a <= b < length l) ->
  exists ws, mapM (window_of (map s_time l) att) (map of_run runs) = Ok ws /\
    Forall2 (fun r w => v_att w = att /\ at_time l (snd r) (v_set w) /\
       at_time l (if fst r =? 0 then length l - 1 else fst r - 1) (v_rise w)) runs ws.
Proof.
  induction runs as [|(a, b) runs IH]; intros H; [exists []; split; [reflexivity|constructor]|].
  destruct (H a b (or_introl eq_refl)) as (L & Lb).
  destruct (window_of_run l att a b L Lb) as (w & E & W).
  destruct IH as (ws & Es & F); [intros; apply H; now right|].
  exists (w :: ws). cbn [map mapM]. rewrite E. cbn [bind]. rewrite Es. cbn. split; auto.
Qed.

Lemma qualifies_lt l th light i : qualifies l th light i -> i < length l.
Proof. intros (s & E & _). apply nth_error_Some. congruence. Qed.

Lemma generate_vtws_spec l att th light : light <> OtherLight -> (0 <= th <= 90)%Q ->
  (exists i, qualifies l th light i) ->
  exists runs ws, generate_vtws true l att th light = Ok ws /\ all_runs (qualifies l th light) runs /\
    Forall2 (fun r w => v_att w = att /\ at_time l (snd r) (v_set w) /\
       at_time l (if fst r =? 0 then length l - 1 else fst r - 1) (v_rise w)) runs ws.
Proof.
  intros Nl (T1 & T2) Q. destruct (window_indices_spec l th light Nl Q) as (runs & E & A).
  destruct (windows_of_runs l att runs) as (ws & Ew & F).
  { intros a b I. apply A in I. destruct I as (L & P & _). split; auto. eapply qualifies_lt, P. split; [exact L|auto]. }
  exists runs, ws. unfold generate_vtws. cbn [negb].
  assert (Qltb th 0 || Qltb 90 th = false) as -> by (apply orb_false_iff; split; now apply Qltb_niff).
  rewrite E. cbn [bind]. auto.
Qed.

Lemma qualifies_dec l th light i : qualifies l th light i \/ ~ qualifies l th light i.
Proof.
  unfold qualifies. destruct (nth_error l i) as [s|]; [|right; intros (s & X & _); discriminate].
  assert (H : lit light s \/ ~ lit light s).
  { destruct light; cbn; auto; [destruct (Qlt_le_dec (s_sun s) 0)|destruct (Qlt_le_dec 0 (s_sun s))];
      auto; right; intros X; eapply Qlt_not_le; eauto. }
  destruct (Qlt_le_dec th (s_elev s)); [|right; intros (s' & [= <-] & X & _); eapply Qlt_not_le; eauto].
  destruct H; [left; eauto|right; intros (s' & [= <-] & _ & X); auto].
Qed.

(** Every number satisfying a decidable bounded predicate is in a maximal run. *)
Lemma run_containing (P : nat -> Prop) n : (forall i, P i \/ ~ P i) -> (forall i, P i -> i < n) ->
  forall i, P i -> exists a b, maximal_run P a b /\ a <= i <= b.
Proof.
  intros D B i Pi.
  assert (Up : forall k, (forall j, i <= j <= i + k -> P j) \/ exists b, i <= b /\ (forall j, i <= j <= b -> P j) /\ ~ P (S b)).
  { induction k as [|k IH]; [left; intros j L; now replace j with i by lia|].
    destruct IH as [IH|?]; auto. destruct (D (S (i + k))) as [Y|N].
    - left. intros j L. destruct (Nat.eq_dec j (S (i + k))) as [->|]; auto. apply IH. lia.
    - right. exists (i + k). repeat split; auto; lia. }
  assert (Do : forall k, k <= i -> (forall j, i - k <= j <= i -> P j) \/
     exists a, a <= i /\ (forall j, a <= j <= i -> P j) /\ (forall c, a = S c -> ~ P c)).
  { induction k as [|k IH]; intros Lk; [left; intros j L; now replace j with i by lia|].
    destruct IH as [IH|?]; [lia| |auto]. destruct (D (i - S k)) as [Y|N].
    - left. intros j L. destruct (Nat.eq_dec j (i - S k)) as [->|]; auto. apply IH. lia.
    - right. exists (i - k). split; [lia|]. split; [auto|]. intros c E. now replace c with (i - S k) by lia. }
  destruct (Up n) as [U|(b & Lb & Hb & Nb)]; [exfalso; specialize (B (i + n) (U (i + n) ltac:(lia))); lia|].
  destruct (Do i (le_n _)) as [U|(a & La & Ha & Na)].
  - exists 0, b. split; [|lia]. split; [lia|]. split; [|split; [auto|discriminate]].
    intros j L. destruct (le_lt_dec i j); [apply Hb; lia|apply U; lia].
  - exists a, b. split; [|lia]. split; [lia|]. split; [|auto].
    intros j L. destruct (le_lt_dec i j); [apply Hb; lia|apply Ha; lia].
Qed.
Lemma listed_run l th light runs i : all_runs (qualifies l th light) runs -> qualifies l th light i ->
  exists k a b, nth_error runs k = Some (a, b) /\ a <= i <= b.
Proof.
  intros (A & _) Q. destruct (run_containing _ (length l) (qualifies_dec l th light) (qualifies_lt l th light) i Q) as (a & b & M & L).
  apply A in M. apply In_nth_error in M. destruct M as (k & N). eauto 6.
Qed.

Lemma qualifies_some l th light : (exists i, qualifies l th light i) \/ forall i, ~ qualifies l th light i.
Proof.
  assert (D : forall n, (exists i, qualifies l th light i) \/ forall i, i < n -> ~ qualifies l th light i).
  { induction n as [|n IH]; [right; lia|]. destruct IH as [?|IH]; auto.
    destruct (qualifies_dec l th light n); eauto. right. intros i L.
    destruct (Nat.eq_dec i n) as [->|]; auto. apply IH. lia. }
  destruct (D (length l)) as [?|D']; auto. right. intros i X. apply (D' i); auto. eapply qualifies_lt; eauto.
Qed.
Lemma generate_vtws_none l att th light : light <> OtherLight -> (0 <= th <= 90)%Q ->
  (forall i, ~ qualifies l th light i) -> generate_vtws true l att th light = Raise IndexError.
Proof.
  intros Nl (T1 & T2) N. unfold generate_vtws. cbn [negb].
  assert (Qltb th 0 || Qltb 90 th = false) as -> by (apply orb_false_iff; split; now apply Qltb_niff).
  rewrite (window_indices_none l th light Nl N). reflexivity.
Qed.
