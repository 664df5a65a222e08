(** * RegEq: which values the registry takes for equal. *)
From Coq Require Import Reals Lra Ascii NArith.
From Verif Require Import Py Num Dim DimFacts Arr Units Spec UnitFacts Quant QuantFacts ConvFacts Ufunc Ops OpsFacts
     Props_Ops Text Lex Registry RegFacts.

Open Scope list_scope.

Section Ext.
  Context {A : Type} {N : Num A}.
  Lemma q_eq_ext (E E' : uenv A) q o : (forall u, ulookup E u = ulookup E' u) -> q_eq E q o = q_eq E' q o.
  Proof.
    intros H. unfold q_eq, q_eqne. destruct o as [q2|a]; auto.
    assert (X : rescale_to E q2 (qdim q) = rescale_to E' q2 (qdim q)).
    { assert (P : forall d, ref_pair E d = ref_pair E' d).
      { intros d. apply ref_pair_ext. intros u _. unfold unit_ref. now rewrite H. }
      unfold rescale_to, conv_factor, qty_ref. now rewrite !P. }
    now rewrite X.
  Qed.
  Lemma lookup_own (E : uenv A) i u r : NoDup (dkeys E) -> nth_error E i = Some (u, r) -> ulookup E u = Some r.
  Proof.
    intros ND H. apply nth_error_In in H. unfold ulookup.
    assert (G : forall l : uenv A, NoDup (dkeys l) -> In (u, r) l -> dget uid_eqb l u = Some r).
    { induction l as [|[k x] l IH]; cbn; intros N1 Hin; [destruct Hin|]. inversion N1; subst.
      destruct Hin as [[= -> ->]|Hin]; [now rewrite uid_eqb_refl|].
      destruct (uid_eqb u k) eqn:Eu; [|auto]. apply uid_eqb_eq in Eu. subst. exfalso. apply H2.
      exact (in_map fst _ _ Hin). }
    now apply G.
  Qed.
  Lemma lookup_front (E : uenv A) i o : NoDup (dkeys E) -> nth_error E i = Some o ->
    forall u, ulookup ([o] ++ E) u = ulookup E u.
  Proof.
    intros ND H u. destruct o as [k r]. cbn. unfold ulookup. cbn [dget]. destruct (uid_eqb u k) eqn:Eu; auto.
    apply uid_eqb_eq in Eu. subst. symmetry. exact (lookup_own E i k r ND H).
  Qed.

  (** The comparison depends on the objects only. *)
  Lemma veq_objs (st st' : rstate A) v w : objs st' = objs st -> veq st' v w = veq st v w.
  Proof.
    intros H. unfold veq.
    assert (Hq : forall x, val_q st' x = val_q st x) by (intros [p|c|i|q|s]; cbn; now rewrite ?H).
    assert (Ho : forall x, own_env st' x = own_env st x) by (intros [p|c|i|q|s]; cbn; now rewrite ?H).
    now rewrite !Hq, !Ho, H.
  Qed.

  (** Registration of several names for one value, if all comparisons have an outcome. *)
  Lemma set_items_outcome (f : value A -> bool) v l : forall (st : rstate A),
    (forall w, w = v \/ (exists s, ctx_get st s = Some w) -> veq st v w = Ok (f w)) -> f v = true ->
    snd (set_items st l v) =
      if forallb (fun s => match ctx_get st s with Some w => f w | None => true end) l then Ok tt else Err KeyError.
  Proof.
    induction l as [|s l IH]; intros st Hf Hv; auto. cbn [set_items forallb].
    destruct (ctx_get st s) as [w|] eqn:Es.
    - rewrite (set_item_bound _ _ _ Es). rewrite Hf by eauto. cbn [bind].
      destruct (f w); cbn [andb]; auto.
    - cbn [andb]. pose proof (set_item_get st s v) as G. pose proof (set_item_same st s v) as (So & _ & _).
      pose proof (set_item_fresh st s v Es) as [F _].
      destruct (set_item st s v) as [st1 r]. cbn [fst snd] in *. subst r. rewrite IH; auto.
      + assert (X : forall s', (match ctx_get st1 s' with Some w => f w | None => true end) =
                               match ctx_get st s' with Some w => f w | None => true end).
        { intros s'. rewrite G. destruct (ctx_get st s'); auto. destruct (teqb s' s); auto. }
        assert (Y : forallb (fun s => match ctx_get st1 s with Some w => f w | None => true end) l =
                    forallb (fun s => match ctx_get st s with Some w => f w | None => true end) l).
        { clear - X. induction l; cbn; auto. now rewrite X, IHl. }
        now rewrite Y.
      + intros w Hw. rewrite (veq_objs st st1 v w So). apply Hf. destruct Hw as [->|[s' Hs']]; auto.
        rewrite G in Hs'. destruct (ctx_get st s') as [w'|] eqn:E1; [right; exists s'; congruence|].
        destruct (teqb s' s); [left; congruence|discriminate].
  Qed.
End Ext.

Open Scope R_scope.

(** Two units are equal for the registry when one of each is the same amount. *)
Definition same_size (E : uenv R) (u v : uid) : Prop := converts E (unit_dims u) (unit_dims v) 1.
Lemma dims_ok_of_unit u : dims_ok (unit_dims u).
Proof.
  split; [apply wf_unit_dims|]. intros w Hw. unfold unit_dims in Hw. destruct (u_cls u) eqn:Ec; cbn in Hw;
    try (destruct Hw as [<-|[]]; congruence); destruct Hw.
Qed.
Lemma q_eq_scalar (E : uenv R) (x y : R) d d' : exists b, q_eq E (Qty (scalar x) d) (OQ (Qty (scalar y) d')) = Ok (scalar b).
Proof.
  unfold q_eq, q_eqne. cbn [qdim]. unfold rescale_to. cbn [qdim mag].
  destruct (dim_eqb d' d); [eexists; reflexivity|].
  unfold conv_factor. destruct (dim_eqb _ _); eexists; reflexivity.
Qed.
Lemma unit_eq_same_size (E : uenv R) u v : renv_ok E ->
  (q_eq E (unit_q u) (OQ (unit_q v)) = Ok (scalar true) <-> same_size E u v) /\
  (q_eq E (unit_q u) (OQ (unit_q v)) = Ok (scalar false) <-> ~ same_size E u v).
Proof.
  intros HE.
  assert (I : q_eq E (unit_q u) (OQ (unit_q v)) = Ok (scalar true) <-> same_size E u v).
  { assert (Q : forall w, qty_ok (@unit_q R NumR w)) by (intros w; split; [reflexivity|apply dims_ok_of_unit]).
    pose proof (C34_eq_iff E (unit_q u) (unit_q v) HE (Q u) (Q v) eq_refl) as X.
    assert (D : dat (mag (@unit_q R NumR u)) <> []) by discriminate. specialize (X D).
    assert (Y : all_true (q_eq E (unit_q u) (OQ (unit_q v))) <-> q_eq E (unit_q u) (OQ (unit_q v)) = Ok (scalar true)).
    { destruct (q_eq_scalar E 1 1 (unit_dims u) (unit_dims v)) as [b Hb].
      change (Qty (scalar 1) (unit_dims u)) with (@unit_q R NumR u) in Hb.
      change (Qty (scalar 1) (unit_dims v)) with (@unit_q R NumR v) in Hb. rewrite Hb. unfold all_true. split.
      - intros (b' & E1 & F). apply Ok_inj in E1. subst b'. inversion F. congruence.
      - intros H. eexists. split; [reflexivity|]. apply Ok_inj in H. rewrite H. repeat constructor. }
    rewrite <- Y, X. unfold same_size, same_value, converts, phys. cbn [mag qdim unit_q].
    change (@n1 R NumR) with 1.
    split.
    - intros [_ H] phi HC. specialize (H phi HC). unfold amap, scalar in H. cbn [shp dat map] in H.
      injection H as H. lra.
    - intros H. split.
      + apply convertible_sym; auto using dims_ok_of_unit. exists 1. exact H.
      + intros phi HC. unfold amap, scalar. cbn [shp dat map]. rewrite (H phi HC). do 2 f_equal. lra. }
  split; [exact I|]. rewrite <- I.
  destruct (q_eq_scalar E 1 1 (unit_dims u) (unit_dims v)) as [b Hb].
  change (Qty (scalar 1) (unit_dims u)) with (@unit_q R NumR u) in Hb.
  change (Qty (scalar 1) (unit_dims v)) with (@unit_q R NumR v) in Hb. rewrite Hb. destruct b; split; intros H.
  - apply Ok_inj in H. discriminate.
  - exfalso. apply H. reflexivity.
  - intros X. apply Ok_inj in X. discriminate.
  - reflexivity.
Qed.

Lemma same_size_refl E u : same_size E u u.
Proof. intros phi HC. lra. Qed.

(** Comparing two unit objects. *)
Lemma veq_units (st : rstate R) i j u v r s : renv_ok (objs st) ->
  nth_error (objs st) i = Some (u, r) -> nth_error (objs st) j = Some (v, s) ->
  (veq st (VUnit i) (VUnit j) = Ok true <-> same_size (objs st) u v) /\
  (veq st (VUnit i) (VUnit j) = Ok false <-> ~ same_size (objs st) u v).
Proof.
  intros HE Hi Hj. pose proof (NoDup_env _ _ HE) as ND.
  assert (X : veq st (VUnit i) (VUnit j) = bind (q_eq (objs st) (unit_q u) (OQ (unit_q v))) arr_truth).
  { unfold veq. cbn [val_q own_env]. rewrite Hi, Hj. rewrite (q_eq_ext _ (objs st)); auto.
    intros w. cbn [app]. change ((u, r) :: (v, s) :: objs st) with ([(u, r)] ++ [(v, s)] ++ objs st).
    unfold ulookup. cbn [app dget]. destruct (uid_eqb w u) eqn:Eu.
    - apply uid_eqb_eq in Eu. subst. symmetry. exact (lookup_own _ i u r ND Hi).
    - exact (lookup_front (objs st) j (v, s) ND Hj w). }
  rewrite X. pose proof (unit_eq_same_size (objs st) u v HE) as [I1 I2].
  destruct (q_eq_scalar (objs st) 1 1 (unit_dims u) (unit_dims v)) as [b Hb].
  change (Qty (scalar 1) (unit_dims u)) with (@unit_q R NumR u) in Hb.
  change (Qty (scalar 1) (unit_dims v)) with (@unit_q R NumR v) in Hb. rewrite Hb in *. cbn [bind arr_truth scalar dat].
  assert (Ne : Ok (scalar true) <> Ok (scalar false)) by (intros X'; apply Ok_inj in X'; discriminate).
  destruct b.
  - split; split; intros H; try reflexivity; try discriminate.
    + now apply I1.
    + exfalso. apply Ne. now apply I2.
  - split; split; intros H; try reflexivity; try discriminate.
    + exfalso. apply Ne. symmetry. now apply I1.
    + now apply I2.
Qed.
