(** Lemmas about Arr_Model: heaps only grow, results are new objects, and the
    entries of results. *)
From Coq Require Import String List ZArith QArith Qfield Bool Lia.
From Verif Require Import Py PyLemmas Units_Model Units_Spec Units_Proofs Units_Proofs2 Arr_Model.
Import ListNotations.
Open Scope nat_scope.
Open Scope list_scope.

(** ** Heaps only grow *)
Definition extends (h h' : heap) : Prop := exists l, h' = h ++ l.

Lemma ext_refl h : extends h h.
Proof. exists []. now rewrite app_nil_r. Qed.
Lemma ext_trans a b c : extends a b -> extends b c -> extends a c.
Proof. intros [l ->] [m ->]. exists (l ++ m). now rewrite app_assoc. Qed.
Lemma ext_app h l : extends h (h ++ l).
Proof. now exists l. Qed.
Global Hint Resolve ext_refl ext_app : arr.

Definition grows {A} (m : M A) : Prop := forall h, extends h (fst (m h)).

Lemma grows_ret {A} (x : A) : grows (ret x).
Proof. intros h. apply ext_refl. Qed.
Lemma grows_fail {A} e : grows (@fail A e).
Proof. intros h. apply ext_refl. Qed.
Lemma grows_lift {A} (r : res A) : grows (lift r).
Proof. intros h. apply ext_refl. Qed.
Lemma grows_bind {A B} (m : M A) (k : A -> M B) : grows m -> (forall x, grows (k x)) -> grows (mbind m k).
Proof.
  intros G K h. unfold mbind. specialize (G h). destruct (m h) as [h' [x|e]]; cbn in *; auto.
  eapply ext_trans; [exact G|]. apply K.
Qed.
Lemma grows_alloc x : grows (alloc x).
Proof. intros h. apply ext_app. Qed.
Lemma grows_load a : grows (load a).
Proof. intros h. unfold load. destruct (nth_error h a); apply ext_refl. Qed.
Global Hint Resolve grows_ret grows_fail grows_lift grows_alloc grows_load : arr.

Ltac gr := repeat first [ apply grows_fail | apply grows_ret | apply grows_bind; [now auto with arr|intros ?] | now auto with arr ].

Lemma grows_arith fz f x y : grows (arith fz f x y).
Proof.
  destruct x, y; cbn; try apply grows_ret; intros h;
    (destruct (np_broadcast f _ _); cbn; [apply ext_app|apply ext_refl]).
Qed.
Lemma grows_adiv x y : grows (adiv x y).
Proof.
  destruct x, y; cbn; intros h;
    first [ destruct (np_broadcast Qdiv _ _); cbn; [apply ext_app|apply ext_refl]
          | unfold mbind, lift; destruct (py_div _ _); apply ext_refl ].
Qed.
Lemma grows_aneg x : grows (aneg x).
Proof. destruct x; cbn; gr. Qed.
Lemma grows_acompare f x y : grows (acompare f x y).
Proof.
  destruct x, y; cbn; intros h;
    first [ destruct (np_broadcast _ _ _); cbn; [apply ext_app|apply ext_refl] | apply ext_refl ].
Qed.
Lemma grows_truth c : grows (truth c).
Proof.
  destruct c; cbn; try apply grows_ret. intros h.
  destruct (match nth_error h a with Some x => a_data x | None => [] end) as [|x [|y r]]; apply ext_refl.
Qed.
Global Hint Resolve grows_arith grows_adiv grows_aneg grows_acompare grows_truth : arr.

Lemma upd_app_new (h : heap) y f : upd (h ++ [y]) (length h) f = h ++ [f y].
Proof. induction h; cbn; f_equal; auto. Qed.

Lemma nth_new (h : heap) y l : nth_error (h ++ y :: l) (length h) = Some y.
Proof. rewrite nth_error_app2, Nat.sub_diag; auto. Qed.

(** ** Conversion *)

(** What a conversion does to the data: [None] for nothing, [Some f] for a
    multiplication by [f]. *)
Definition factor (u v : punit) : res (option Q) :=
  d1 <- dimension u ;;
  d2 <- dimension v ;;
  if negb (String.eqb d1 d2) then Raise ValueError
  else if negb (String.eqb (repr_unit u) (repr_unit v)) then
    s1 <- get_unit_scale u ;;
    s2 <- get_unit_scale v ;;
    f <- py_div s1 s2 ;;
    Ok (Some f)
  else Ok None.

Lemma get_unit_scale_copy cp u : get_unit_scale (copy_unit cp u) = get_unit_scale u.
Proof.
  destruct u as [n|c]; cbn; auto. generalize 1%Q.
  induction (c_bases c) as [|[b p] l IH]; intros s; cbn; auto.
  destruct (py_pow (n_scale b) p); cbn; auto.
Qed.

Lemma a_convert_number cp q v h :
  (forall a, aq_data q <> Ref a) ->
  a_convert cp q v h =
  (h, match factor (aq_unit q) v with
      | Raise e => Raise e
      | Ok None => Ok (mkAQ (aq_data q) (copy_unit cp (aq_unit q)))
      | Ok (Some f) => Ok (mkAQ (PyFloat (hd 0%Q (entries h (aq_data q)) * f)) v)
      end).
Proof.
  intros N. unfold a_convert, factor, mbind, lift. rewrite get_unit_scale_copy.
  destruct (dimension (aq_unit q)); cbn [bind]; auto.
  destruct (dimension v); cbn [bind]; auto.
  destruct (negb (String.eqb _ _)); auto.
  assert (deepcopy_data (aq_data q) h = (h, Ok (aq_data q))) as ->.
  { destruct (aq_data q) as [| |k]; auto. now specialize (N k). }
  destruct (negb (String.eqb _ _)); auto.
  destruct (get_unit_scale _); cbn [bind]; auto.
  destruct (get_unit_scale _); cbn [bind]; auto.
  destruct (py_div _ _); cbn [bind]; auto.
  destruct (aq_data q) as [| |k]; cbn; auto. now specialize (N k).
Qed.

Lemma a_convert_array cp q v h a t l :
  aq_data q = Ref a -> nth_error h a = Some (mkArray t l) ->
  exists more,
  a_convert cp q v h =
  match factor (aq_unit q) v with
  | Raise e => (h ++ more, Raise e)
  | Ok None => (h ++ [mkArray t l], Ok (mkAQ (Ref (length h)) (copy_unit cp (aq_unit q))))
  | Ok (Some f) =>
      match t with
      | F64 => (h ++ [mkArray F64 (map (fun v => v * f)%Q l)], Ok (mkAQ (Ref (length h)) v))
      | _ => (h ++ [mkArray t l], Raise TypeError)
      end
  end.
Proof.
  intros E N. unfold a_convert, factor, mbind, lift. rewrite get_unit_scale_copy.
  destruct (dimension (aq_unit q)); cbn [bind]; [|exists []; now rewrite app_nil_r].
  destruct (dimension v); cbn [bind]; [|exists []; now rewrite app_nil_r].
  destruct (negb (String.eqb _ _)); [exists []; now rewrite app_nil_r|].
  rewrite E. cbn [deepcopy_data]. unfold mbind, load. rewrite N. cbn [alloc ret].
  exists [mkArray t l].
  destruct (negb (String.eqb _ _)); [|reflexivity].
  destruct (get_unit_scale _); cbn [bind]; [|reflexivity].
  destruct (get_unit_scale _); cbn [bind]; [|reflexivity].
  destruct (py_div _ _); cbn [bind]; [|reflexivity].
  unfold imul. rewrite nth_new. destruct t; try reflexivity.
  now rewrite upd_app_new.
Qed.

Lemma grows_convert cp q v : grows (a_convert cp q v).
Proof.
  intros h. destruct (aq_data q) as [z|x|a] eqn:E.
  1, 2: rewrite a_convert_number by (rewrite E; discriminate); cbn; apply ext_refl.
  destruct (nth_error h a) as [[t l]|] eqn:N.
  - destruct (a_convert_array cp q v h a t l E N) as (more & ->).
    destruct (factor (aq_unit q) v) as [[f|]|e]; cbn; auto with arr.
    destruct t; cbn; auto with arr.
  - unfold a_convert, mbind, lift, fail. rewrite E.
    destruct (dimension (aq_unit q)); cbn [fst]; auto with arr.
    destruct (dimension v); cbn [fst]; auto with arr.
    destruct (negb (String.eqb _ _)); cbn [fst]; auto with arr.
    cbn [deepcopy_data]. unfold mbind, load. rewrite N. cbn. apply ext_refl.
Qed.
Global Hint Resolve grows_convert : arr.

Lemma grows_to q v : grows (a_to q v).
Proof. unfold a_to. gr. Qed.
Global Hint Resolve grows_to : arr.

Ltac branch := repeat match goal with |- grows (if ?b then _ else _) => destruct b end.
Lemma grows_neg q : grows (a_neg q).
Proof. unfold a_neg. gr. Qed.
Global Hint Resolve grows_neg : arr.
Lemma grows_add q o : grows (a_add q o).
Proof. destruct o; cbn; gr; branch; gr. Qed.
Global Hint Resolve grows_add : arr.
Lemma grows_oneg o : grows (a_oneg o).
Proof. destruct o; cbn; gr. Qed.
Global Hint Resolve grows_oneg : arr.
Lemma grows_sub q o : grows (a_sub q o).
Proof. unfold a_sub. gr. Qed.
Global Hint Resolve grows_sub : arr.
Lemma grows_rsub q o : grows (a_rsub q o).
Proof. unfold a_rsub. gr. Qed.
Lemma grows_mul q o : grows (a_mul q o).
Proof. destruct o; cbn; gr; branch; gr. Qed.
Lemma grows_div q o : grows (a_div q o).
Proof. destruct o; cbn; gr; branch; gr. Qed.
Lemma grows_rdiv q o : grows (a_rdiv q o).
Proof. destruct o; cbn [a_rdiv]; gr. Qed.
Lemma grows_cmp f q o : grows (a_cmp f q o).
Proof. destruct o; cbn; gr; branch; gr. Qed.
Global Hint Resolve grows_rsub grows_mul grows_div grows_rdiv grows_cmp : arr.
Lemma grows_eq q o : grows (a_eq q o).
Proof. apply grows_cmp. Qed.
Lemma grows_lt q o : grows (a_lt q o).
Proof. apply grows_cmp. Qed.
Lemma grows_gt q o : grows (a_gt q o).
Proof. apply grows_cmp. Qed.
Global Hint Resolve grows_eq grows_lt grows_gt : arr.
Lemma grows_le q o : grows (a_le q o).
Proof. unfold a_le. gr. branch; gr. Qed.
Lemma grows_ge q o : grows (a_ge q o).
Proof. unfold a_ge. gr. branch; gr. Qed.
Lemma grows_ne q o : grows (a_ne q o).
Proof. unfold a_ne. gr. Qed.
Global Hint Resolve grows_le grows_ge grows_ne : arr.

(** ** Results are new objects *)
Definition new_in (h h' : heap) (d : pydata) : Prop :=
  match d with Ref a => length h <= a /\ a < length h' | _ => True end.

Lemma new_in_later h0 h1 h2 d : extends h0 h1 -> new_in h1 h2 d -> new_in h0 h2 d.
Proof. intros [l ->]. destruct d; cbn; auto. rewrite app_length. lia. Qed.
Lemma new_in_weaken h0 h1 h2 d : extends h1 h2 -> new_in h0 h1 d -> new_in h0 h2 d.
Proof. intros [l ->]. destruct d; cbn; auto. rewrite app_length. lia. Qed.

Definition news (m : M pydata) : Prop := forall h x, snd (m h) = Ok x -> new_in h (fst (m h)) x.
Definition newq (m : M aqty) : Prop := forall h q, snd (m h) = Ok q -> new_in h (fst (m h)) (aq_data q).

Lemma mbind_inv {A B} (m : M A) (k : A -> M B) h y :
  snd (mbind m k h) = Ok y ->
  exists x, snd (m h) = Ok x /\ mbind m k h = k x (fst (m h)).
Proof. unfold mbind. destruct (m h) as [h' [x|e]]; cbn; [eauto|discriminate]. Qed.

Lemma news_arith fz f x y : news (arith fz f x y).
Proof.
  intros h z. destruct x, y; cbn; try (intros [= <-]; exact I);
    (destruct (np_broadcast f _ _); cbn; [|discriminate]); intros [= <-]; cbn;
    rewrite app_length; cbn; lia.
Qed.
Lemma news_adiv x y : news (adiv x y).
Proof.
  intros h z. destruct x, y; cbn;
    first [ destruct (np_broadcast Qdiv _ _); cbn; [|discriminate]; intros [= <-]; cbn;
            rewrite app_length; cbn; lia
          | unfold mbind, lift; destruct (py_div _ _); cbn; [intros [= <-]; exact I|discriminate] ].
Qed.
Lemma news_aneg x : news (aneg x).
Proof.
  intros h z. destruct x; cbn; try (intros [= <-]; exact I).
  unfold mbind, load. destruct (nth_error h a); cbn; [|discriminate].
  intros [= <-]. cbn. rewrite app_length. cbn. lia.
Qed.

Lemma newq_bind {A} (m : M A) (k : A -> M aqty) :
  grows m -> (forall x, newq (k x)) -> newq (mbind m k).
Proof.
  intros G K h q E. destruct (mbind_inv _ _ _ _ E) as (x & _ & F). rewrite F in E |- *.
  eapply new_in_later; [apply G|]. now apply K.
Qed.
Lemma newq_last m u : news m -> newq (x <-- m ;;; ret (mkAQ x u)).
Proof.
  intros N h q E. destruct (mbind_inv _ _ _ _ E) as (x & X & F). rewrite F in E |- *.
  cbn in *. injection E as <-. cbn. now apply N.
Qed.
Lemma newq_fail e : newq (fail e).
Proof. intros h q. discriminate. Qed.

Ltac nw := repeat first
  [ apply newq_last; first [apply news_arith|apply news_adiv|apply news_aneg]
  | apply newq_fail
  | apply newq_bind; [auto with arr|intros ?]
  | match goal with |- newq (if ?b then _ else _) => destruct b end ].

Lemma newq_neg q : newq (a_neg q).
Proof. unfold a_neg. nw. Qed.
Lemma newq_add q o : newq (a_add q o).
Proof. destruct o; cbn; nw. Qed.
Lemma newq_sub q o : newq (a_sub q o).
Proof. unfold a_sub. apply newq_bind; auto with arr. intros. apply newq_add. Qed.
Lemma newq_rsub q o : newq (a_rsub q o).
Proof. unfold a_rsub. apply newq_bind; auto with arr. intros. apply newq_neg. Qed.
Lemma newq_mul q o : newq (a_mul q o).
Proof. destruct o; cbn; nw. Qed.
Lemma newq_div q o : newq (a_div q o).
Proof. destruct o; cbn; nw. Qed.
Lemma newq_rdiv q o : newq (a_rdiv q o).
Proof. destruct o; cbn [a_rdiv]; nw. Qed.
Lemma newq_convert cp q v : newq (a_convert cp q v).
Proof.
  intros h r. destruct (aq_data q) as [z|x|a] eqn:E.
  1, 2: rewrite a_convert_number by (rewrite E; discriminate); rewrite E; cbn [fst snd entries hd];
    destruct (factor (aq_unit q) v) as [[f|]|e]; intros [= <-]; cbn; auto.
  destruct (nth_error h a) as [[t l]|] eqn:N.
  - destruct (a_convert_array cp q v h a t l E N) as (more & ->).
    destruct (factor (aq_unit q) v) as [[f|]|e]; cbn; try discriminate.
    + destruct t; cbn; intros [= <-]. cbn. rewrite app_length; cbn; lia.
    + intros [= <-]. cbn. rewrite app_length; cbn; lia.
  - unfold a_convert, mbind, lift, fail. rewrite E.
    destruct (dimension (aq_unit q)); cbn [snd]; try discriminate.
    destruct (dimension v); cbn [snd]; try discriminate.
    destruct (negb (String.eqb _ _)); cbn [snd]; try discriminate.
    cbn [deepcopy_data]. unfold mbind, load. rewrite N. cbn. discriminate.
Qed.

(** ** Factors of physical conversions *)
Lemma factor_spec env u v d :
  sized env u -> sized env v -> dimension u = Ok d -> dimension v = Ok d ->
  (repr_unit u = repr_unit v /\ factor u v = Ok None /\ (si_size u == si_size v)%Q) \/
  (repr_unit u <> repr_unit v /\ exists f, factor u v = Ok (Some f) /\ (f * si_size v == si_size u)%Q).
Proof.
  intros Su Sv Du Dv. unfold factor. rewrite Du, Dv. cbn [bind].
  rewrite String.eqb_refl. cbn [negb].
  destruct (String.eqb_spec (repr_unit u) (repr_unit v)) as [E|E]; cbn [negb].
  - left. split; auto. split; auto. now apply (repr_same_size env u v d d).
  - right. split; auto.
    destruct (get_unit_scale_ok env _ Su) as (s1 & -> & S1).
    destruct (get_unit_scale_ok env _ Sv) as (s2 & -> & S2). cbn [bind].
    pose proof (si_size_pos env v Sv) as P.
    assert (~ s2 == 0)%Q as N by (rewrite S2; intros C; rewrite C in P; now apply Qlt_irrefl in P).
    unfold py_div. assert (Qeq_bool s2 0 = false) as ->.
    { apply not_true_iff_false. now rewrite Qeq_bool_iff. }
    cbn [bind]. eexists; split; [reflexivity|]. rewrite S1, <- S2. field. auto.
Qed.

(** ** Broadcasting *)
Definition stretch (l : list Q) (i : nat) : Q :=
  match l with [x] => x | _ => nth i l 0%Q end.
Definition fits (n : nat) (a b : list Q) : Prop :=
  (length a = n /\ (length b = n \/ length b = 1)) \/ (length b = n /\ length a = 1).

Lemma stretch_nth l i : i < length l -> stretch l i = nth i l 0%Q.
Proof. destruct l as [|x [|y r]]; cbn; auto. intros H. now replace i with 0 by lia. Qed.

Lemma fits_map_l n a b f : fits n a b -> fits n (map f a) b.
Proof. unfold fits. now rewrite map_length. Qed.
Lemma fits_map_r n a b f : fits n a b -> fits n a (map f b).
Proof. unfold fits. now rewrite map_length. Qed.

Lemma stretch_map f l i n a : fits n a l -> i < n -> stretch (map f l) i = f (stretch l i).
Proof.
  intros F H. destruct l as [|x [|y r]]; auto.
  - exfalso. destruct F as [[A [B|B]]|[A B]]; cbn in *; lia.
  - cbn [map stretch]. rewrite <- !(map_cons f).
    rewrite (nth_indep _ 0%Q (f 0%Q)); [apply map_nth|].
    rewrite map_length. destruct F as [[A [B|B]]|[A B]]; cbn in *; lia.
Qed.

Lemma broadcast_ok {C} (f : Q -> Q -> C) a b n c0 :
  fits n a b ->
  exists l, np_broadcast f a b = Ok l /\ length l = n /\
            forall i, i < n -> nth i l c0 = f (stretch a i) (stretch b i).
Proof.
  intros F. unfold np_broadcast.
  destruct (Nat.eqb_spec (length a) (length b)) as [E|E].
  - eexists; split; [reflexivity|].
    assert (length a = n) as A by (unfold fits in F; lia).
    rewrite map_length, combine_length. split; [lia|]. intros i H.
    rewrite (nth_indep _ c0 (f 0%Q 0%Q)) by (rewrite map_length, combine_length; lia).
    change (f 0%Q 0%Q) with ((fun p => f (fst p) (snd p)) (0%Q, 0%Q)).
    rewrite map_nth, combine_nth by lia. cbn [fst snd]. now rewrite !stretch_nth by lia.
  - destruct F as [[A [B|B]]|[B A]]; [lia| |].
    + destruct b as [|y [|]]; try (cbn in B; lia). cbn [stretch].
      assert (match a with [x] => Ok (map (f x) [y]) | _ => Ok (map (fun x => f x y) a) end =
              Ok (map (fun x => f x y) a)) as G by (destruct a as [|x [|]]; auto).
      destruct a as [|x [|x' r]]; [|cbn in E; lia|];
        (eexists; split; [reflexivity|]; rewrite map_length; split; [auto|]; intros i H).
      { cbn in A; lia. }
      rewrite (nth_indep _ c0 (f 0%Q y)) by (rewrite map_length; lia).
      rewrite (map_nth (fun x => f x y)). now rewrite stretch_nth by lia.
    + destruct a as [|x [|]]; try (cbn in A; lia). cbn [stretch].
      eexists; split; [reflexivity|]. rewrite map_length. split; auto. intros i H.
      rewrite (nth_indep _ c0 (f x 0%Q)) by (rewrite map_length; lia).
      rewrite map_nth. now rewrite stretch_nth by lia.
Qed.

Lemma broadcast_bad {C} (f : Q -> Q -> C) a b :
  length a <> length b -> length a <> 1 -> length b <> 1 -> np_broadcast f a b = Raise ValueError.
Proof.
  intros A B D. unfold np_broadcast. apply Nat.eqb_neq in A. rewrite A.
  destruct a as [|x [|]]; destruct b as [|y [|]]; cbn in *; auto; lia.
Qed.

(** ** Entries survive *)
Definition live (h : heap) (d : pydata) : Prop :=
  match d with Ref a => a < length h | _ => True end.

Lemma entries_ext h h' d : extends h h' -> live h d -> entries h' d = entries h d.
Proof. intros [l ->]. destruct d; cbn; auto. intros H. now rewrite nth_error_app1. Qed.
Lemma type_ext h h' d : extends h h' -> live h d -> type_of h' d = type_of h d.
Proof. intros [l ->]. destruct d; cbn; auto. intros H. now rewrite nth_error_app1. Qed.
Lemma live_ext h h' d : extends h h' -> live h d -> live h' d.
Proof. intros [l ->]. destruct d; cbn; auto. rewrite app_length. lia. Qed.

(** Arithmetic on data. *)
Lemma arith_spec fz f x y n h :
  (forall a b, inject_Z (fz a b) == f (inject_Z a) (inject_Z b))%Q ->
  live h x -> live h y -> fits n (entries h x) (entries h y) ->
  exists h' z, arith fz f x y h = (h', Ok z) /\ extends h h' /\ live h' z /\
    length (entries h' z) = n /\
    forall i, i < n -> (nth i (entries h' z) 0 == f (stretch (entries h x) i) (stretch (entries h y) i))%Q.
Proof.
  intros FZ Lx Ly F.
  assert (forall d h', np_broadcast f (entries h x) (entries h y) = Ok d ->
          h' = h ++ [mkArray (join_type (type_of h x) (type_of h y)) d] ->
          extends h h' /\ live h' (Ref (length h)) /\ entries h' (Ref (length h)) = d) as K.
  { intros d h' _ ->. split; [apply ext_app|]. cbn. rewrite app_length, nth_new. cbn. split; auto; lia. }
  destruct (broadcast_ok f _ _ n 0%Q F) as (l & E & Ln & N).
  assert (fits n (entries h x) (entries h y) -> (exists u, entries h x = [u]) ->
          (exists v, entries h y = [v]) -> n = 1) as One.
  { intros G [u U] [v V]. rewrite U, V in G. unfold fits in G. cbn in G. lia. }
  destruct x as [a|a|a], y as [b|b|b]; cbn [arith].
  1, 2, 4, 5: do 2 eexists; split; [reflexivity|]; split; [apply ext_refl|]; split; [exact I|].
  all: try (rewrite E; cbn [mbind alloc ret]; do 2 eexists; split; [reflexivity|];
            destruct (K l _ E eq_refl) as (K1 & K2 & K3); rewrite K3;
            split; [exact K1|]; split; [exact K2|]; split; [exact Ln|];
            intros i H; rewrite N by auto; apply Qeq_refl).
  all: assert (n = 1) as -> by (apply One; cbn; eauto); cbn; split; auto;
    intros i H; replace i with 0 by lia; cbn; try apply Qeq_refl.
  apply FZ.
Qed.
