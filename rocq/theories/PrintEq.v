(** * PrintEq: equal dimensionalities print the same text. *)
From Coq Require Import Ascii NArith Permutation Sorting.Sorted.
From Verif Require Import Py Num Dim DimFacts Arr Units Hash Quant Ufunc Ops Text Lex LexFacts Markup
     PrintFacts Registry RegFacts Spec RoundTrip.

Open Scope list_scope.
Open Scope nat_scope.

Lemma order_leb_iff a b : order_leb a b = true <-> fst a < fst b \/ (fst a = fst b /\ snd a <= snd b).
Proof.
  unfold order_leb. rewrite orb_true_iff, andb_true_iff, Nat.ltb_lt, Nat.eqb_eq, Nat.leb_le. tauto.
Qed.
Lemma order_leb_total a b : order_leb a b = true \/ order_leb b a = true.
Proof. rewrite !order_leb_iff. lia. Qed.
Lemma order_leb_antisym a b : order_leb a b = true -> order_leb b a = true -> a = b.
Proof.
  rewrite !order_leb_iff. destruct a as [a1 a2], b as [b1 b2]; cbn. intros. f_equal; lia.
Qed.
Lemma order_leb_trans a b c : order_leb a b = true -> order_leb b c = true -> order_leb a c = true.
Proof. rewrite !order_leb_iff. lia. Qed.

Section Sorting.
  Context {X : Type}.
  Variable key : X -> nat * nat.
  Definition kle (x y : X) : Prop := order_leb (key x) (key y) = true.

  Lemma insert_sorted x l : StronglySorted kle l -> StronglySorted kle (insert_by key x l).
  Proof.
    induction l as [|y l IH]; cbn; intros H.
    - repeat constructor.
    - inversion H as [|? ? H1 H2]; subst. destruct (order_leb (key x) (key y)) eqn:Ex.
      + constructor; auto. constructor; [exact Ex|].
        rewrite Forall_forall in *. intros z Hz. exact (order_leb_trans _ _ _ Ex (H2 z Hz)).
      + constructor; auto. rewrite Forall_forall in *. intros z Hz.
        assert (Hin : In z (x :: l)).
        { eapply Permutation_in; [apply Permutation_sym, insert_by_perm|exact Hz]. }
        destruct Hin as [<-|Hin]; auto.
        unfold kle. destruct (order_leb_total (key y) (key x)); congruence.
  Qed.
  Lemma sort_sorted l : StronglySorted kle (sort_by key l).
  Proof. induction l; cbn; [constructor|now apply insert_sorted]. Qed.

  (** Sorted lists of the same elements are the same if no two elements have the same key. *)
  Lemma sorted_unique l : forall l', StronglySorted kle l -> StronglySorted kle l' -> Permutation l l' ->
    (forall x y, In x l -> In y l -> key x = key y -> x = y) -> l = l'.
  Proof.
    induction l as [|x l IH]; intros l' S S' P I.
    - symmetry. now apply Permutation_nil.
    - destruct l' as [|y l']; [apply Permutation_sym, Permutation_nil in P; discriminate|].
      inversion S as [|? ? S1 S2]; subst. inversion S' as [|? ? S1' S2']; subst.
      assert (Hx : In x (y :: l')) by (eapply Permutation_in; [exact P|cbn; auto]).
      assert (Hy : In y (x :: l)) by (eapply Permutation_in; [apply Permutation_sym, P|cbn; auto]).
      assert (x = y) as ->.
      { destruct Hx as [<-|Hx]; auto. destruct Hy as [<-|Hy]; auto.
        rewrite Forall_forall in *. apply I; cbn; auto.
        apply order_leb_antisym; [now apply S2|now apply S2']. }
      f_equal. apply IH; auto.
      + eapply Permutation_cons_inv; eauto.
      + intros a b Ha Hb. apply I; cbn; auto.
  Qed.
End Sorting.

Lemma sort_by_map {X Y} (f : X -> Y) (key : Y -> nat * nat) l :
  map f (sort_by (fun x => key (f x)) l) = sort_by key (map f l).
Proof.
  assert (Ins : forall x m, map f (insert_by (fun x => key (f x)) x m) = insert_by key (f x) (map f m)).
  { intros x m. induction m as [|y m IH]; cbn; auto. destruct (order_leb _ _); cbn; auto. now rewrite IH. }
  induction l as [|x l IH]; cbn; auto. now rewrite Ins, IH.
Qed.

Section Eq.
  Context {A : Type}.
  Variable E : uenv A.
  Variable fread : text -> Qc.
  Variable frepr : Qc -> text.

  (** The units of [d] have different format orders. *)
  Definition orders_distinct (d : dims) : Prop :=
    forall u v, In u (dkeys d) -> In v (dkeys d) -> unit_order E u = unit_order E v -> u = v.

  Definition same_item (x y : uid * pynum) : Prop := fst x = fst y /\ pval (snd x) = pval (snd y).

  Lemma same_exps_keys d d' : wf_dims d -> wf_dims d' -> (forall u, exp_of d u = exp_of d' u) ->
    forall u, In u (dkeys d) -> In u (dkeys d').
  Proof.
    intros W W' H u Hin. destruct (in_dec uid_eq_dec u (dkeys d')) as [|Hn]; auto.
    exfalso. unfold dkeys in Hin. apply in_map_iff in Hin. destruct Hin as ([u' p] & Hu & Hin). cbn in Hu. subst u'.
    pose proof (exp_of_In d u p (wf_NoDup _ W) Hin) as X. rewrite H, exp_of_notin in X by auto.
    exact (wf_In d u p W Hin (eq_sym X)).
  Qed.
  Lemma sorted_same d d' : wf_dims d -> wf_dims d' -> orders_distinct d -> (forall u, exp_of d u = exp_of d' u) ->
    Forall2 same_item (sorted_items E d) (sorted_items E d').
  Proof.
    intros W W' O H.
    assert (K : dkeys (sorted_items E d) = dkeys (sorted_items E d')).
    { unfold dkeys, sorted_items. rewrite !sort_by_map.
      apply (sorted_unique (unit_order E)); try apply sort_sorted.
      - rewrite <- !sort_by_perm. apply NoDup_Permutation; try (apply wf_NoDup; auto).
        intros u. split; [apply (same_exps_keys d d')|apply (same_exps_keys d' d)]; auto.
      - intros x y Hx Hy. apply O; (eapply Permutation_in; [apply Permutation_sym, sort_by_perm|]; eassumption). }
    assert (V : forall x, In x (sorted_items E d) -> pval (snd x) = exp_of d (fst x)).
    { intros [u p] Hin. cbn. symmetry. apply exp_of_In; [now apply wf_NoDup|].
      eapply Permutation_in; [apply Permutation_sym, (sorted_perm E)|exact Hin]. }
    assert (V' : forall x, In x (sorted_items E d') -> pval (snd x) = exp_of d (fst x)).
    { intros [u p] Hin. cbn. rewrite H. symmetry. apply exp_of_In; [now apply wf_NoDup|].
      eapply Permutation_in; [apply Permutation_sym, (sorted_perm E)|exact Hin]. }
    revert K V V'. generalize (sorted_items E d) (sorted_items E d'). intros l. induction l as [|x l IH];
      intros [|y l'] K V V'; try discriminate; constructor.
    - cbn in K. injection K as K1 K2. split; auto. rewrite (V x), (V' y), K1 by (cbn; auto). reflexivity.
    - cbn in K. injection K as K1 K2. apply IH; auto; intros z Hz; [apply V|apply V']; cbn; auto.
  Qed.
  Lemma filter_same (f : pynum -> bool) : (forall p p', pval p = pval p' -> f p = f p') ->
    forall l l', Forall2 same_item l l' ->
    Forall2 same_item (filter (fun kv => f (snd kv)) l) (filter (fun kv => f (snd kv)) l').
  Proof.
    intros Hf l l'. induction 1 as [|x y l l' [H1 H2] H IH]; cbn; [constructor|].
    rewrite (Hf _ _ H2). destruct (f (snd y)); auto. constructor; auto. now split.
  Qed.
  Lemma ppos_ext p p' : pval p = pval p' -> ppos p = ppos p'.
  Proof.
    intros H. unfold ppos. f_equal.
    - f_equal. destruct (pneg_b p) eqn:E1, (pneg_b p') eqn:E2; auto.
      + apply pneg_b_true in E1. rewrite H in E1. apply pneg_b_true in E1. congruence.
      + apply pneg_b_true in E2. rewrite <- H in E2. apply pneg_b_true in E2. congruence.
    - f_equal. destruct (pzero p) eqn:E1, (pzero p') eqn:E2; auto.
      + apply pzero_false in E2. apply pzero_true in E1. congruence.
      + apply pzero_false in E1. apply pzero_true in E2. congruence.
  Qed.
  Lemma pneg_b_ext p p' : pval p = pval p' -> pneg_b p = pneg_b p'.
  Proof.
    intros H. destruct (pneg_b p) eqn:E1, (pneg_b p') eqn:E2; auto.
    - apply pneg_b_true in E1. rewrite H in E1. apply pneg_b_true in E1. congruence.
    - apply pneg_b_true in E2. rewrite <- H in E2. apply pneg_b_true in E2. congruence.
  Qed.
  Lemma num_same d d' : wf_dims d -> wf_dims d' -> orders_distinct d -> (forall u, exp_of d u = exp_of d' u) ->
    Forall2 same_item (num_of E d) (num_of E d').
  Proof. intros. apply (filter_same ppos); [apply ppos_ext|]. now apply sorted_same. Qed.
  Lemma den_same d d' : wf_dims d -> wf_dims d' -> orders_distinct d -> (forall u, exp_of d u = exp_of d' u) ->
    Forall2 same_item (den_of E d) (den_of E d').
  Proof.
    intros W W' O H.
    assert (F : Forall2 same_item (den_items E d) (den_items E d')).
    { apply (filter_same pneg_b); [apply pneg_b_ext|]. now apply sorted_same. }
    unfold den_of. induction F as [|x y l l' [H1 H2] F IH]; cbn; constructor; auto.
    split; cbn; auto. rewrite !pval_pneg. congruence.
  Qed.
  Lemma fac_text_same x y : same_item x y -> exp_printable fread frepr (snd x) -> (0 < pval (snd x))%Qc ->
    exp_printable fread frepr (snd y) -> fac_text E frepr false x = fac_text E frepr false y.
  Proof.
    intros [H1 H2] Px P0 Py. rewrite !(fac_text_eq E fread frepr) by (auto; now rewrite <- H2).
    rewrite H1, (exp_text_ext fread frepr (snd x) (snd y)) by auto.
    assert (Eb : peqb (snd x) (PInt 1) = peqb (snd y) (PInt 1)).
    { destruct (peqb (snd x) (PInt 1)) eqn:Ex, (peqb (snd y) (PInt 1)) eqn:Ey; auto.
      - apply peqb_true in Ex. rewrite H2 in Ex. apply peqb_true in Ex. congruence.
      - apply peqb_true in Ey. rewrite <- H2 in Ey. apply peqb_true in Ey. congruence. }
    now rewrite Eb.
  Qed.
  Lemma facs_same l l' : Forall2 same_item l l' -> items_ok E fread frepr false l -> items_ok E fread frepr false l' ->
    map (fac_text E frepr false) l = map (fac_text E frepr false) l'.
  Proof.
    induction 1 as [|x y l l' Hxy F IH]; intros H H'; cbn; auto. f_equal.
    - destruct (H x) as (_ & X1 & X2); [cbn; auto|]. destruct (H' y) as (_ & Y1 & _); [cbn; auto|].
      now apply fac_text_same.
    - apply IH; intros z Hz; [apply H|apply H']; cbn; auto.
  Qed.
End Eq.

Section Main.
  Context {A : Type} {N : Num A}.
  Variable fread : text -> Qc.
  Variable frepr : Qc -> text.

  Lemma equal_prints_equal (st : rstate A) d d' : printable fread frepr st d -> printable fread frepr st d' ->
    orders_distinct (objs st) d -> (forall u, exp_of d u = exp_of d' u) ->
    format_units (objs st) frepr false d = format_units (objs st) frepr false d'.
  Proof.
    intros P P' O H. rewrite !format_units_eq.
    pose proof P as [[W _] _]. pose proof P' as [[W' _] _].
    rewrite (facs_same (objs st) fread frepr (num_of (objs st) d) (num_of (objs st) d'));
      auto using num_same, printable_num.
    rewrite (facs_same (objs st) fread frepr (den_of (objs st) d) (den_of (objs st) d'));
      auto using den_same, printable_den.
  Qed.

  (** In a registry built by creating units, the orders of (different) units differ. *)
  Lemma ord_inv_distinct (st : rstate A) d : ord_inv st -> (forall u, In u (dkeys d) -> In u (dkeys (objs st))) ->
    orders_distinct (objs st) d.
  Proof.
    intros [_ ND] K u v Hu Hv H. apply K in Hu. apply K in Hv. unfold unit_order in H.
    assert (L : forall u, In u (dkeys (objs st)) -> exists r, ulookup (objs st) u = Some r /\ In (u, r) (objs st)).
    { intros w Hw. destruct (ulookup (objs st) w) as [r|] eqn:El.
      - exists r. split; auto. unfold ulookup in El. apply (dget_In uid_eqb uid_eqb_eq) in El. exact El.
      - exfalso. unfold ulookup in El. apply (dget_None_notin uid_eqb uid_eqb_eq) in El. exact (El Hw). }
    destruct (L u Hu) as (r & E1 & I1). destruct (L v Hv) as (r' & E2 & I2). rewrite E1, E2 in H.
    assert (G : forall l : uenv A, NoDup (map (fun o => ur_order (snd o)) l) -> In (u, r) l -> In (v, r') l -> u = v).
    { induction l as [|o l IH]; cbn; intros N1 Hi Hj; [destruct Hi|]. inversion N1; subst.
      destruct Hi as [->|Hi], Hj as [Hj|Hj].
      - congruence.
      - exfalso. apply H2. cbn. rewrite H. apply in_map_iff. exists (v, r'); auto.
      - subst o. exfalso. apply H2. cbn. rewrite <- H. apply in_map_iff. exists (u, r); auto.
      - auto. }
    exact (G _ ND I1 I2).
  Qed.
End Main.
