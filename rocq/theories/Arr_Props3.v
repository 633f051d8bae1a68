(** More on quantities holding numpy arrays: C96-C98. *)
From Coq Require Import String List ZArith QArith Qfield Bool Lia.
From Verif Require Import Py PyLemmas Units_Model Units_Spec Units_Proofs Units_Proofs2 Arr_Model Arr_Proofs Arr_Props Arr_Props2.
Import ListNotations.
Open Scope nat_scope.
Open Scope list_scope.

(** A number divided by a quantity: every entry, and the inverse unit. *)
Theorem C96_number_over_quantity :
  forall h q o x, ok h q -> number_of o = Some x -> (forall i, i < count h q -> ~ (at_ h q i == 0)%Q) ->
    exists h' s, a_rdiv q o h = (h', Ok s) /\ count h' s = count h q /\ aq_unit s = u_inv (aq_unit q) /\
      forall i, i < count h q -> (at_ h' s i == x / at_ h q i)%Q.
Proof.
  intros h q o x L N Z.
  assert (K : forall y, live h y -> entries h y = [x] ->
    exists h' s, (z <-- adiv y (aq_data q) ;;; ret (mkAQ z (u_inv (aq_unit q)))) h = (h', Ok s) /\ count h' s = count h q /\ aq_unit s = u_inv (aq_unit q) /\
      forall i, i < count h q -> (at_ h' s i == x / at_ h q i)%Q).
  { intros y Ly Ey. assert (F : fits (count h q) (entries h y) (entries h (aq_data q))) by (rewrite Ey; right; split; reflexivity).
    destruct (adiv_spec y (aq_data q) (count h q) h Ly L F Z) as (h2 & z & A & X & Lz & Cz & Nz). unfold mbind. rewrite A. cbn [ret].
    exists h2, (mkAQ z (u_inv (aq_unit q))). split; [reflexivity|]. split; [exact Cz|]. split; [reflexivity|]. intros i H.
    rewrite at_nth by (unfold count; cbn [aq_data]; lia). cbn [aq_data]. rewrite (Nz i H), Ey. reflexivity. }
  destruct o as [z|v|r|]; cbn [number_of] in N; try discriminate; injection N as <-; cbn [a_rdiv]; apply K; try exact I; reflexivity.
Qed.

(** The element types of results: a float operand or a quotient gives floats, an integer operand keeps the type
    of an array of integers or floats. *)
Definition element_type (h : heap) (q : aqty) : dtype := type_of h (aq_data q).
Lemma arith_type fz f x y h h' z a : arith fz f x y h = (h', Ok z) -> x = Ref a \/ y = Ref a -> type_of h' z = join_type (type_of h x) (type_of h y).
Proof.
  intros E R. assert (K : match np_broadcast f (entries h x) (entries h y) with
      | Ok l => (b <-- alloc (mkArray (join_type (type_of h x) (type_of h y)) l) ;;; ret (Ref b)) h
      | Raise e => (h, Raise e) end = (h', Ok z)) by (destruct x, y; cbn [arith] in E; try exact E; destruct R; discriminate).
  destruct (np_broadcast _ _ _) as [l|e]; [|discriminate]. cbn [mbind alloc ret] in K. injection K as <- <-. cbn [type_of]. now rewrite nth_new.
Qed.
Lemma adiv_type x y h h' z : adiv x y h = (h', Ok z) -> type_of h' z = F64.
Proof.
  intros E. destruct x as [a|a|a], y as [b|b|b]; cbn [adiv] in E;
    first [ destruct (np_broadcast _ _ _) as [l|e]; [|discriminate]; cbn [mbind alloc ret] in E; injection E as <- <-; cbn [type_of]; now rewrite nth_new
          | unfold mbind, lift in E; destruct (py_div _ _); [|discriminate]; cbn [ret] in E; injection E as <- <-; reflexivity ].
Qed.
Lemma mbind_ok {A B} (m : M A) (f : A -> M B) h h' s : mbind m f h = (h', Ok s) -> exists h1 z, m h = (h1, Ok z) /\ f z h1 = (h', Ok s).
Proof. unfold mbind. destruct (m h) as [h1 [z|e]]; intros H; [eauto|discriminate]. Qed.
Theorem C97_element_types :
  forall h q a h' s, aq_data q = Ref a ->
    (forall v, a_add q (AFloat v) h = (h', Ok s) \/ a_sub q (AFloat v) h = (h', Ok s) \/ a_mul q (AFloat v) h = (h', Ok s) -> element_type h' s = F64) /\
    (forall n, a_add q (AInt n) h = (h', Ok s) \/ a_sub q (AInt n) h = (h', Ok s) \/ a_mul q (AInt n) h = (h', Ok s) ->
       element_type h q <> B8 -> element_type h' s = element_type h q) /\
    (forall o, a_div q o h = (h', Ok s) \/ a_rdiv q o h = (h', Ok s) -> element_type h' s = F64).
Proof.
  intros h q a h' s D. unfold element_type. split; [|split].
  - intros v H. assert (T : exists fz f y, arith fz f (aq_data q) (PyFloat y) h = (h', Ok (aq_data s))).
    { destruct H as [H|[H|H]].
      - apply mbind_ok in H as (h1 & z & E & H). injection H as <- <-. eauto.
      - apply mbind_ok in H as (h0 & n & E0 & H). injection E0 as <- <-. apply mbind_ok in H as (h1 & z & E & H). injection H as <- <-. eauto.
      - apply mbind_ok in H as (h1 & z & E & H). injection H as <- <-. eauto. }
    destruct T as (fz & f & y & E). rewrite (arith_type _ _ _ _ _ _ _ a E (or_introl D)). destruct (type_of h (aq_data q)); reflexivity.
  - intros n H Nb. assert (T : exists fz f y, arith fz f (aq_data q) (PyInt y) h = (h', Ok (aq_data s))).
    { destruct H as [H|[H|H]].
      - apply mbind_ok in H as (h1 & z & E & H). injection H as <- <-. eauto.
      - apply mbind_ok in H as (h0 & m & E0 & H). injection E0 as <- <-. apply mbind_ok in H as (h1 & z & E & H). injection H as <- <-. eauto.
      - apply mbind_ok in H as (h1 & z & E & H). injection H as <- <-. eauto. }
    destruct T as (fz & f & y & E). rewrite (arith_type _ _ _ _ _ _ _ a E (or_introl D)). destruct (type_of h (aq_data q)); try reflexivity. congruence.
  - intros o H. assert (T : exists h0 x y, adiv x y h0 = (h', Ok (aq_data s))).
    { destruct H as [H|H].
      - destruct o as [z|v|r|]; cbn [a_div] in H; try discriminate.
        + apply mbind_ok in H as (h1 & w & E & H). injection H as <- <-. eauto.
        + apply mbind_ok in H as (h1 & w & E & H). injection H as <- <-. eauto.
        + apply mbind_ok in H as (h1 & d1 & _ & H). apply mbind_ok in H as (h2 & d2 & _ & H). destruct (String.eqb d1 d2).
          * apply mbind_ok in H as (h3 & y & _ & H). apply mbind_ok in H as (h4 & w & E & H). injection H as <- <-. eauto.
          * apply mbind_ok in H as (h4 & w & E & H). injection H as <- <-. eauto.
      - destruct o as [z|v|r|]; cbn [a_rdiv] in H; try discriminate.
        + apply mbind_ok in H as (h1 & w & E & H). injection H as <- <-. eauto.
        + apply mbind_ok in H as (h1 & w & E & H). injection H as <- <-. eauto. }
    destruct T as (h0 & x & y & E). exact (adiv_type _ _ _ _ _ E).
Qed.

(** A comparison that gives an array gives an array of booleans. *)
Lemma acompare_type f x y h h' b : acompare f x y h = (h', Ok (ABits b)) -> type_of h' (Ref b) = B8.
Proof.
  intros E. destruct x as [a|a|a], y as [c|c|c]; cbn [acompare] in E; try discriminate;
    (destruct (np_broadcast _ _ _) as [l|e]; [|discriminate]; cbn [mbind alloc ret] in E; injection E as <- <-; cbn [type_of]; now rewrite nth_new).
Qed.
Theorem C98_booleans :
  forall q o h h' b, a_eq q o h = (h', Ok (ABits b)) \/ a_lt q o h = (h', Ok (ABits b)) \/ a_gt q o h = (h', Ok (ABits b)) ->
    type_of h' (Ref b) = B8.
Proof.
  assert (K : forall f q o h h' b, a_cmp f q o h = (h', Ok (ABits b)) -> type_of h' (Ref b) = B8).
  { intros f q o h h' b E. destruct o as [z|v|r|]; cbn [a_cmp] in E; try discriminate. unfold mbind, lift in E.
    destruct (dimension (aq_unit q)) as [d1|]; [|discriminate]. destruct (dimension (aq_unit r)) as [d2|]; [|discriminate]. destruct (negb _); [discriminate|].
    destruct (a_to r (aq_unit q) h) as [h1 [y|e]]; [|discriminate]. exact (acompare_type _ _ _ _ _ _ E). }
  intros q o h h' b [E|[E|E]]; exact (K _ _ _ _ _ _ E).
Qed.
(** Something that is not a quantity: every comparison but [!=] is left to the other operand, [!=] says false
    whatever the quantity. *)
Theorem C98_other_operands_partial :
  forall q o h, (forall r, o <> AQty r) ->
    a_eq q o h = (h, Ok ANotImpl) /\ a_lt q o h = (h, Ok ANotImpl) /\ a_gt q o h = (h, Ok ANotImpl) /\
    a_le q o h = (h, Ok ANotImpl) /\ a_ge q o h = (h, Ok ANotImpl) /\ a_ne q o h = (h, Ok (ABool false)).
Proof. intros q o h N. destruct o as [z|v|r|]; try (exfalso; eapply N; reflexivity); repeat split. Qed.
(** Empty arrays: the comparisons are empty, and [!=] is true. *)
Theorem C98_empty_partial :
  forall env h q r d, ok h q -> ok h r -> floats h r -> match_lengths h 0 q r ->
    sized env (aq_unit q) -> sized env (aq_unit r) -> dimension (aq_unit q) = Ok d -> dimension (aq_unit r) = Ok d ->
    (exists h' c, a_le q (AQty r) h = (h', Ok c) /\ bits h' c = []) /\
    (exists h' c, a_ge q (AQty r) h = (h', Ok c) /\ bits h' c = []) /\
    (exists h', a_ne q (AQty r) h = (h', Ok (ABool true))).
Proof.
  intros env h q r d Lq Lr F Ml Sq Sr Dq Dr.
  destruct (cmp_spec env Qeqb h q r d 0 Lq Lr F Ml Sq Sr Dq Dr) as (h1 & c & y & E & X & C & Nc & Y & N).
  assert (B : bits h1 c = []) by (destruct (bits h1 c); [reflexivity|discriminate]).
  assert (T : truth c h1 = (h1, Ok false)) by (destruct c as [b|a|]; cbn [bits truth] in *; [discriminate|now rewrite B|congruence]).
  assert (ok h1 q /\ ok h1 r /\ floats h1 r /\ match_lengths h1 0 q r) as (Lq1 & Lr1 & F1 & Ml1).
  { repeat split.
    - now apply (live_ext h).
    - now apply (live_ext h).
    - intros a D. rewrite (type_ext h h1) by auto. apply (F a D).
    - unfold match_lengths, count. rewrite !(entries_ext h h1) by auto. exact Ml. }
  change (a_cmp Qeqb) with a_eq in E. unfold a_le, a_ge, a_ne, mbind. rewrite E, T. split; [|split].
  - destruct (cmp_spec env Qltb h1 q r d 0 Lq1 Lr1 F1 Ml1 Sq Sr Dq Dr) as (h4 & c4 & y4 & E4 & _ & C4 & _).
    exists h4, c4. split; [exact E4|]. destruct (bits h4 c4); [reflexivity|discriminate].
  - destruct (cmp_spec env (fun x y => Qltb y x) h1 q r d 0 Lq1 Lr1 F1 Ml1 Sq Sr Dq Dr) as (h4 & c4 & y4 & E4 & _ & C4 & _).
    exists h4, c4. split; [exact E4|]. destruct (bits h4 c4); [reflexivity|discriminate].
  - exists h1. reflexivity.
Qed.

(** 6 over [1, 2, 3] m; an array of integers plus a half; two empty arrays. *)
Example C96_more_case :
  (forall i, i < 3 -> ~ (at_ ex_heap ex_m i == 0)%Q /\ ~ (at_ ex_heap ex_km i == 0)%Q) /\
  (let r := a_div ex_m (AQty ex_km) ex_heap in exists s, snd r = Ok s /\ count (fst r) s = 3) /\
  (let r := a_rdiv ex_m (AInt 6) ex_heap in exists s, snd r = Ok s /\ Forall2 Qeq (entries (fst r) (aq_data s)) [6; 3; 2]%Q) /\
  (let r := a_add ex_int (AFloat (1 # 2)) ex_heap in exists s, snd r = Ok s /\ element_type (fst r) s = F64) /\
  match_lengths [mkArray F64 []] 0 (mkAQ (Ref 0) (UN u_m)) (mkAQ (Ref 0) (UN u_km)).
Proof.
  split; [intros [|[|[|i]]] H; try lia; cbv; split; discriminate|]. split; [|split; [|split]].
  - cbv. eexists. split; reflexivity.
  - cbv. eexists. split; [reflexivity|]. repeat constructor.
  - cbv. eexists. split; reflexivity.
  - left. split; [reflexivity|left; reflexivity].
Qed.

Print Assumptions C96_number_over_quantity.
Print Assumptions C97_element_types.
Print Assumptions C98_booleans.
Print Assumptions C98_other_operands_partial.
Print Assumptions C98_empty_partial.
