(** * UnitFacts: lemmas about references and interpretations. *)
From Coq Require Import Reals Lra.
From Verif Require Import Py Num Dim DimFacts Arr Units Spec.

Open Scope R_scope.

(** ** [dimval] is a homomorphism *)

Definition P (phi : interp) (u : uid) (e : pynum) : R := Rpower (phi u) (Qc2R (pval e)).

Lemma P_pos phi u e : 0 < P phi u e.
Proof. apply Rpower_pos. Qed.
Lemma dimval_pos phi d : 0 < dimval phi d.
Proof.
  induction d as [|[u e] d IH]; cbn; [lra|].
  apply Rmult_lt_0_compat; auto using Rpower_pos.
Qed.
Lemma dimval_neq0 phi d : dimval phi d <> 0.
Proof. pose proof (dimval_pos phi d). lra. Qed.
Lemma P_padd phi u a b : P phi u (padd a b) = P phi u a * P phi u b.
Proof. unfold P. rewrite pval_padd, Qc2R_add. apply Rpower_plus. Qed.
Lemma P_neg phi u a : P phi u (pneg a) * P phi u a = 1.
Proof.
  unfold P. rewrite <- Rpower_plus, pval_pneg, Qc2R_opp.
  replace (- Qc2R (pval a) + Qc2R (pval a)) with 0 by ring. unfold Rpower.
  rewrite Rmult_0_l. apply exp_0.
Qed.
Lemma P_psub phi u a b : P phi u (psub a b) * P phi u b = P phi u a.
Proof.
  unfold P. rewrite <- Rpower_plus, pval_psub, Qc2R_sub.
  f_equal. ring.
Qed.
Lemma P_zero phi u e : pzero e = true -> P phi u e = 1.
Proof.
  intros H. apply pzero_true in H. unfold P. rewrite H, Qc2R_0. unfold Rpower.
  rewrite Rmult_0_l. apply exp_0.
Qed.

Lemma dimval_app phi d1 d2 : dimval phi (d1 ++ d2) = dimval phi d1 * dimval phi d2.
Proof. induction d1 as [|[u e] d1 IH]; cbn; [ring|]. rewrite IH. ring. Qed.

Lemma dimval_dset_old phi d u e p : dim_get d u = Some e ->
  dimval phi (dset uid_eqb d u p) * P phi u e = dimval phi d * P phi u p.
Proof.
  unfold dim_get. induction d as [|[v q] d IH]; cbn; [discriminate|].
  destruct (uid_eqb u v) eqn:E.
  - apply uid_eqb_eq in E; subst v. intros [= ->]. cbn. fold (P phi u p) (P phi u e). ring.
  - intros H. specialize (IH H). cbn. fold (P phi v q) in *.
    transitivity (P phi v q * (dimval phi (dset uid_eqb d u p) * P phi u e)); [ring|].
    rewrite IH. ring.
Qed.
Lemma dimval_dset_new phi d u p : dim_get d u = None ->
  dimval phi (dset uid_eqb d u p) = dimval phi d * P phi u p.
Proof.
  intros H. apply dim_get_None in H. rewrite dset_notin by (auto using uid_eqb_eq).
  rewrite dimval_app. cbn. fold (P phi u p). ring.
Qed.
Lemma dimval_dpop phi d u e : dim_get d u = Some e ->
  dimval phi (dpop uid_eqb d u) * P phi u e = dimval phi d.
Proof.
  unfold dim_get. induction d as [|[v q] d IH]; cbn; [discriminate|].
  destruct (uid_eqb u v) eqn:E.
  - apply uid_eqb_eq in E; subst v. intros [= ->]. fold (P phi u e). ring.
  - intros H. specialize (IH H). cbn. fold (P phi v q). rewrite <- IH. ring.
Qed.

Lemma dim_get_dset_same d u p : dim_get (dset uid_eqb d u p) u = Some p.
Proof. apply dget_dset_same, uid_eqb_eq. Qed.

Lemma dimval_mul_step phi d u p : dimval phi (dim_mul_step d (u, p)) = dimval phi d * P phi u p.
Proof.
  cbn. destruct (dim_get d u) as [e|] eqn:E.
  - assert (H : dimval phi (dset uid_eqb d u (padd e p)) = dimval phi d * P phi u p).
    { pose proof (dimval_dset_old phi d u e (padd e p) E) as H. rewrite P_padd in H.
      pose proof (P_pos phi u e). apply (Rmult_eq_reg_r (P phi u e)); [|lra]. rewrite H. ring. }
    destruct (pzero (padd e p)) eqn:Z; auto.
    rewrite <- H, <- (dimval_dpop phi (dset uid_eqb d u (padd e p)) u (padd e p))
      by apply dim_get_dset_same.
    rewrite (P_zero _ _ _ Z). ring.
  - apply dimval_dset_new; auto.
Qed.
Lemma dimval_div_step phi d u p : dimval phi (dim_div_step d (u, p)) * P phi u p = dimval phi d.
Proof.
  cbn. destruct (dim_get d u) as [e|] eqn:E.
  - assert (H : dimval phi (dset uid_eqb d u (psub e p)) * P phi u p = dimval phi d).
    { pose proof (dimval_dset_old phi d u e (psub e p) E) as H.
      rewrite <- (P_psub phi u e p) in H. pose proof (P_pos phi u (psub e p)).
      apply (Rmult_eq_reg_r (P phi u (psub e p))); [|lra]. rewrite <- H. ring. }
    destruct (pzero (psub e p)) eqn:Z; auto.
    rewrite <- H, <- (dimval_dpop phi (dset uid_eqb d u (psub e p)) u (psub e p))
      by apply dim_get_dset_same.
    rewrite (P_zero _ _ _ Z). ring.
  - rewrite dimval_dset_new by auto. rewrite Rmult_assoc, P_neg. ring.
Qed.

Lemma dimval_mul phi d1 d2 : dimval phi (dim_mul d1 d2) = dimval phi d1 * dimval phi d2.
Proof.
  unfold dim_mul. revert d1; induction d2 as [|[u p] d2 IH]; intros d1; cbn [fold_left dimval].
  - ring.
  - rewrite IH, dimval_mul_step. fold (P phi u p). ring.
Qed.
Lemma dimval_div' phi d1 d2 : dimval phi (dim_div d1 d2) * dimval phi d2 = dimval phi d1.
Proof.
  unfold dim_div. revert d1; induction d2 as [|[u p] d2 IH]; intros d1; cbn [fold_left dimval].
  - ring.
  - fold (P phi u p). rewrite <- (dimval_div_step phi d1 u p), <- (IH (dim_div_step d1 (u, p))). ring.
Qed.
Lemma dimval_div phi d1 d2 : dimval phi (dim_div d1 d2) = dimval phi d1 / dimval phi d2.
Proof.
  rewrite <- (dimval_div' phi d1 d2). field. apply dimval_neq0.
Qed.
Lemma dimval_pow phi d p : dimval phi (dim_pow d p) = Rpower (dimval phi d) (Qc2R (pval p)).
Proof.
  unfold dim_pow. destruct (pzero p) eqn:Z.
  - apply pzero_true in Z. rewrite Z, Qc2R_0. cbn. unfold Rpower. now rewrite Rmult_0_l, exp_0.
  - clear Z. induction d as [|[u e] d IH]; cbn.
    + unfold Rpower. now rewrite ln_1, Rmult_0_r, exp_0.
    + rewrite IH, <- Rpower_mult_distr; auto using Rpower_pos, dimval_pos.
      f_equal. rewrite Rpower_mult, pval_pmul, Qc2R_mul. reflexivity.
Qed.
Lemma dimval_rpow phi d p : dimval phi (dim_pow d p) = rpow (dimval phi d) p.
Proof. rewrite rpow_Rpower by apply dimval_pos. apply dimval_pow. Qed.

(** Equal dimensionalities have equal sizes. *)
Lemma dimval_exp phi d1 d2 : wf_dims d1 -> wf_dims d2 ->
  (forall u, exp_of d1 u = exp_of d2 u) -> dimval phi d1 = dimval phi d2.
Proof.
  intros W1 W2 H. assert (E : dim_div d1 d2 = []).
  { apply exp_of_all_zero; [apply wf_div; auto|]. intros u.
    rewrite exp_of_div by (apply wf_NoDup; auto). rewrite H. ring. }
  pose proof (dimval_div' phi d1 d2) as D. rewrite E in D. cbn in D. lra.
Qed.
Lemma dimval_eqb phi d1 d2 : wf_dims d1 -> wf_dims d2 ->
  dim_eqb d1 d2 = true -> dimval phi d1 = dimval phi d2.
Proof. intros W1 W2 H. apply dimval_exp; auto. now apply dim_eqb_exp. Qed.

Lemma dimval_unit phi u : u_cls u <> CDimless -> dimval phi (unit_dims u) = Rpower (phi u) 1.
Proof.
  intros H. unfold unit_dims. destruct (u_cls u); try congruence;
    cbn; rewrite Rmult_1_r; f_equal; apply Qc2R_1.
Qed.
Lemma dimval_unit' phi u : 0 < phi u -> u_cls u <> CDimless -> dimval phi (unit_dims u) = phi u.
Proof. intros Hp H. rewrite dimval_unit by assumption. now apply Rpower_1. Qed.

Lemma dimval_ext phi psi d : (forall u, In u (dkeys d) -> phi u = psi u) -> dimval phi d = dimval psi d.
Proof.
  induction d as [|[u e] d IH]; cbn; auto. intros H. rewrite IH, (H u); auto.
Qed.

Lemma In_unit_dims x u : In x (dkeys (unit_dims u)) -> x = u.
Proof.
  unfold unit_dims. destruct (u_cls u); cbn; intros H; try contradiction;
    (destruct H as [H|H]; [auto|contradiction]).
Qed.

(** ** Environments *)

Section Env.
  Context {A : Type} {N : Num A}.
  Implicit Types E : uenv A.

  Lemma ulookup_None E u : ulookup E u = None <-> ~ In u (dkeys E).
  Proof. apply dget_None_notin, uid_eqb_eq. Qed.
  Lemma ulookup_app_l E E' u r : ulookup E u = Some r -> ulookup (E ++ E') u = Some r.
  Proof.
    unfold ulookup. induction E as [|[v s] E IH]; cbn; [discriminate|].
    destruct (uid_eqb u v); auto.
  Qed.
  Lemma ulookup_app_r E E' u : ulookup E u = None -> ulookup (E ++ E') u = ulookup E' u.
  Proof.
    unfold ulookup. induction E as [|[v s] E IH]; cbn; auto.
    destruct (uid_eqb u v); auto; discriminate.
  Qed.
  Lemma ulookup_last E u r : ~ In u (dkeys E) -> ulookup (E ++ [(u, r)]) u = Some r.
  Proof.
    intros H. rewrite ulookup_app_r by now apply ulookup_None.
    unfold ulookup; cbn. now rewrite uid_eqb_refl.
  Qed.
  Lemma ulookup_other E u r v : v <> u -> ulookup (E ++ [(u, r)]) v = ulookup E v.
  Proof.
    intros H. destruct (ulookup E v) as [s|] eqn:Ev.
    - now apply ulookup_app_l.
    - rewrite ulookup_app_r by assumption. unfold ulookup; cbn.
      destruct (uid_eqb v u) eqn:X; auto. apply uid_eqb_eq in X; contradiction.
  Qed.
  Lemma unit_ref_other E u r v : v <> u -> unit_ref (E ++ [(u, r)]) v = unit_ref E v.
  Proof. intros H. unfold unit_ref. now rewrite ulookup_other. Qed.

  Lemma dkeys_app (E E' : uenv A) : dkeys (E ++ E') = dkeys E ++ dkeys E'.
  Proof. apply map_app. Qed.

  Lemma ref_fold_ext E E' d acc : (forall u, In u (dkeys d) -> unit_ref E u = unit_ref E' u) ->
    fold_left (ref_step E) d acc = fold_left (ref_step E') d acc.
  Proof.
    revert acc; induction d as [|[u e] d IH]; intros acc H; auto. cbn [fold_left].
    assert (S : ref_step E acc (u, e) = ref_step E' acc (u, e)).
    { cbn. rewrite (H u); cbn; auto. }
    rewrite S. apply IH. intros v Hv. apply H. cbn; auto.
  Qed.
  Lemma ref_pair_ext E E' d : (forall u, In u (dkeys d) -> unit_ref E u = unit_ref E' u) ->
    ref_pair E d = ref_pair E' d.
  Proof. apply ref_fold_ext. Qed.

  Lemma ref_pair_new E u r d : ~ In u (dkeys d) -> ref_pair (E ++ [(u, r)]) d = ref_pair E d.
  Proof.
    intros H. apply ref_pair_ext. intros v Hv. apply unit_ref_other. intros ->; contradiction.
  Qed.

  (** A unit without definition. *)
  Definition is_root E (u : uid) : Prop :=
    match ulookup E u with Some r => ur_def r = None | None => True end.

  Lemma env_ok_def_ref pos E : env_ok pos E -> forall u r, ulookup E u = Some r ->
    (ur_ref r = None <-> ur_def r = None).
  Proof.
    induction 1 as [|E u order df sym usym aliases H IH Hn Hd]; intros v r Hv.
    - discriminate.
    - destruct (uid_eq_dec v u) as [->|Hvu].
      + rewrite ulookup_last in Hv by assumption. injection Hv as <-. cbn.
        destruct df; cbn; split; congruence.
      + rewrite ulookup_other in Hv by assumption. eauto.
  Qed.

  (** The definition and the reference of a unit, in terms of the final environment. *)
  Lemma env_ok_lookup pos E : env_ok pos E -> forall u r df, ulookup E u = Some r -> ur_def r = Some df ->
    u_cls u <> CDimless /\ def_ok pos E df /\ unit_ref E u = def_ref E df /\
    (match df with DQty _ d => ~ In u (dkeys d) | DUnit v => v <> u end).
  Proof.
    induction 1 as [|E u order df sym usym aliases H IH Hn Hd]; intros v r df' Hv Hdf.
    - discriminate.
    - assert (Ext : forall d, def_ok pos E d -> def_ok pos (E ++ [(u, new_unit E order df sym usym aliases)]) d).
      { intros [a d|w]; cbn; rewrite dkeys_app.
        - intros (H1 & H2 & H3); split; [exact H1|split; [exact H2|]]; intros w Hw;
            destruct (H3 w Hw); split; auto using in_or_app.
        - auto using in_or_app. }
      destruct (uid_eq_dec v u) as [->|Hvu].
      + pose proof Hv as Hv'. rewrite ulookup_last in Hv by assumption. injection Hv as <-. cbn in Hdf. subst df.
        destruct (Hd df' eq_refl) as [Hc Ho].
        assert (Hfresh : match df' with DQty _ d => ~ In u (dkeys d) | DUnit w => w <> u end).
        { destruct df' as [a d|w]; cbn in Ho.
          - destruct Ho as (_ & _ & K). intros X. destruct (K _ X). contradiction.
          - intros ->. contradiction. }
        split; [exact Hc|split; [auto|split; [|exact Hfresh]]].
        unfold unit_ref. rewrite Hv'. cbn. destruct df' as [a d|w]; cbn.
        * unfold qty_ref. now rewrite !ref_pair_new by exact Hfresh.
        * change (unit_ref E w = unit_ref (E ++ [(u, new_unit E order (Some (DUnit w)) sym usym aliases)]) w).
          now rewrite unit_ref_other by exact Hfresh.
      + rewrite ulookup_other in Hv by assumption.
        destruct (IH v r df' Hv Hdf) as (Hc & Ho & Hr & Hfresh).
        split; [exact Hc|split; [auto|split; [|exact Hfresh]]].
        rewrite unit_ref_other by assumption. rewrite Hr. destruct df' as [a d|w]; cbn.
        * unfold qty_ref. cbn in Ho. destruct Ho as (_ & _ & K).
          rewrite !ref_pair_new; auto; intros X; destruct (K _ X); contradiction.
        * change (unit_ref E w = unit_ref (E ++ [(u, new_unit E order df sym usym aliases)]) w).
          cbn in Ho. rewrite unit_ref_other; auto. intros ->; contradiction.
  Qed.

  (** References have well-formed dimensionalities made of roots only. *)
  Definition roots_only E (d : dims) : Prop :=
    dims_ok d /\ forall u, In u (dkeys d) -> is_root E u.

  Lemma In_dkeys_exp_mul d1 d2 u : wf_dims d1 -> wf_dims d2 ->
    In u (dkeys (dim_mul d1 d2)) -> In u (dkeys d1) \/ In u (dkeys d2).
  Proof.
    intros W1 W2. rewrite !in_dkeys_exp by auto using wf_mul.
    rewrite exp_of_mul by auto using wf_NoDup. intros H.
    destruct (in_dec uid_eq_dec u (dkeys d1)) as [H1|H1].
    - left. now apply in_dkeys_exp.
    - right. rewrite (exp_of_notin d1) in H by assumption. intros X. apply H. rewrite X. reflexivity.
  Qed.
  Lemma In_dkeys_exp_div d1 d2 u : wf_dims d1 -> wf_dims d2 ->
    In u (dkeys (dim_div d1 d2)) -> In u (dkeys d1) \/ In u (dkeys d2).
  Proof.
    intros W1 W2. rewrite !in_dkeys_exp by auto using wf_div.
    rewrite exp_of_div by auto using wf_NoDup. intros H.
    destruct (in_dec uid_eq_dec u (dkeys d1)) as [H1|H1].
    - left. now apply in_dkeys_exp.
    - right. rewrite (exp_of_notin d1) in H by assumption. intros X. apply H. rewrite X. reflexivity.
  Qed.
  Lemma In_dkeys_pow d p u : In u (dkeys (dim_pow d p)) -> In u (dkeys d).
  Proof.
    unfold dim_pow. destruct (pzero p); [intros []|].
    now rewrite (dkeys_map_snd (fun e => pmul e p)).
  Qed.

  Lemma dims_ok_nil : dims_ok [].
  Proof. split; [apply wf_nil|intros u []]. Qed.
  Lemma dims_ok_mul d1 d2 : dims_ok d1 -> dims_ok d2 -> dims_ok (dim_mul d1 d2).
  Proof.
    intros [W1 H1] [W2 H2]. split; [now apply wf_mul|]. intros u Hu.
    apply In_dkeys_exp_mul in Hu; auto. destruct Hu; auto.
  Qed.
  Lemma dims_ok_div d1 d2 : dims_ok d1 -> dims_ok d2 -> dims_ok (dim_div d1 d2).
  Proof.
    intros [W1 H1] [W2 H2]. split; [now apply wf_div|]. intros u Hu.
    apply In_dkeys_exp_div in Hu; auto. destruct Hu; auto.
  Qed.
  Lemma dims_ok_pow d p : dims_ok d -> dims_ok (dim_pow d p).
  Proof.
    intros [W H]. split; [now apply wf_pow|]. intros u Hu. apply In_dkeys_pow in Hu; auto.
  Qed.
  Lemma dims_ok_unit u : dims_ok (unit_dims u).
  Proof.
    split; [apply wf_unit_dims|]. intros v Hv. pose proof (In_unit_dims _ _ Hv); subst v.
    intros X. unfold unit_dims in Hv. rewrite X in Hv. contradiction.
  Qed.

  Lemma roots_only_nil E : roots_only E [].
  Proof. split; [apply dims_ok_nil|intros u []]. Qed.
  Lemma roots_only_mul E d1 d2 : roots_only E d1 -> roots_only E d2 -> roots_only E (dim_mul d1 d2).
  Proof.
    intros [W1 H1] [W2 H2]. split; [now apply dims_ok_mul|]. intros u Hu.
    apply In_dkeys_exp_mul in Hu; [|apply W1|apply W2]. destruct Hu; auto.
  Qed.
  Lemma roots_only_pow E d p : roots_only E d -> roots_only E (dim_pow d p).
  Proof. intros [W H]. split; [now apply dims_ok_pow|]. intros u Hu. apply In_dkeys_pow in Hu; auto. Qed.

  Lemma ref_fold_roots E d acc :
    roots_only E (snd acc) -> (forall u, In u (dkeys d) -> roots_only E (snd (unit_ref E u))) ->
    roots_only E (snd (fold_left (ref_step E) d acc)).
  Proof.
    revert acc; induction d as [|[u e] d IH]; intros acc Ha H; auto. cbn [fold_left].
    apply IH.
    - cbn. apply roots_only_mul; auto. apply roots_only_pow. apply H. cbn; auto.
    - intros v Hv; apply H; cbn; auto.
  Qed.

  Lemma is_root_new pos E u r : env_ok pos E -> ~ In u (dkeys E) -> forall v, v <> u -> is_root E v ->
    is_root (E ++ [(u, r)]) v.
  Proof. intros _ _ v Hv. unfold is_root. now rewrite ulookup_other. Qed.

  Lemma unit_ref_known_roots pos E : env_ok pos E -> forall u, In u (dkeys E) ->
    roots_only E (snd (unit_ref E u)) /\ forall v, In v (dkeys (snd (unit_ref E u))) -> In v (dkeys E).
  Proof.
    induction 1 as [|E u order df sym usym aliases H IH Hn Hd].
    - intros u [].
    - set (r := new_unit E order df sym usym aliases).
      assert (Lift : forall d, roots_only E d -> (forall v, In v (dkeys d) -> In v (dkeys E)) ->
                     roots_only (E ++ [(u, r)]) d).
      { intros d [W R] K. split; auto. intros v Hv. eapply is_root_new; eauto.
        intros ->. apply Hn. auto. }
      intros v Hv. rewrite dkeys_app, in_app_iff in Hv.
      destruct (uid_eq_dec v u) as [->|Hvu].
      + unfold unit_ref. rewrite ulookup_last by assumption.
        destruct df as [df|].
        * cbn [r new_unit ur_ref option_map]. destruct (Hd df eq_refl) as [Hc Ho].
          destruct df as [a d|w]; cbn in Ho |- *.
          -- destruct Ho as (_ & Wd & K).
             assert (R1 : roots_only E (snd (ref_pair E d))).
             { apply ref_fold_roots; [apply roots_only_nil|]. intros w Hw. apply IH. now apply K. }
             assert (K1 : forall v, In v (dkeys (snd (ref_pair E d))) -> In v (dkeys E)).
             { assert (G : forall d acc, (forall u, In u (dkeys d) -> In u (dkeys E)) ->
                       roots_only E (snd acc) -> (forall v, In v (dkeys (snd acc)) -> In v (dkeys E)) ->
                       forall v, In v (dkeys (snd (fold_left (ref_step E) d acc))) -> In v (dkeys E)).
               { clear - IH. induction d as [|[w e] d IHd]; intros acc Kd Ra Ka; auto. cbn [fold_left].
                 apply IHd.
                 - intros x Hx. apply Kd. cbn; auto.
                 - cbn. apply roots_only_mul; auto. apply roots_only_pow, IH, Kd. cbn; auto.
                 - cbn. intros x Hx.
                   assert (Rw : roots_only E (snd (unit_ref E w)) /\
                                forall v, In v (dkeys (snd (unit_ref E w))) -> In v (dkeys E))
                     by (apply IH, Kd; cbn; auto).
                   destruct Rw as [[Rw _] Kw]. apply In_dkeys_exp_mul in Hx;
                     [|apply Ra|apply dims_ok_pow, Rw].
                   destruct Hx as [Hx|Hx]; auto. apply In_dkeys_pow in Hx; auto. }
               apply (G d (n1, [])); [intros w Hw; now apply K|apply roots_only_nil|intros x []]. }
             split; [apply Lift; auto|]. intros x Hx. rewrite dkeys_app, in_app_iff. auto.
          -- destruct (IH w Ho) as [R1 K1]. split; [apply Lift; auto|].
             intros x Hx. rewrite dkeys_app, in_app_iff. auto.
        * cbn [r new_unit ur_ref option_map snd]. split.
          -- split; [apply dims_ok_unit|]. intros x Hx. apply In_unit_dims in Hx. subst x.
             unfold is_root; rewrite ulookup_last by assumption; reflexivity.
          -- intros x Hx. apply In_unit_dims in Hx. subst x. rewrite dkeys_app, in_app_iff.
             right; cbn; auto.
      + destruct Hv as [Hv|[Hv|[]]]; [|cbn in Hv; congruence].
        rewrite unit_ref_other by assumption. destruct (IH v Hv) as [R1 K1].
        split; [apply Lift; auto|]. intros x Hx. rewrite dkeys_app, in_app_iff. auto.
  Qed.

  Lemma unit_ref_roots pos E u : env_ok pos E -> roots_only E (snd (unit_ref E u)).
  Proof.
    intros H. destruct (in_dec uid_eq_dec u (dkeys E)) as [Hu|Hu].
    - now apply (unit_ref_known_roots pos E H u).
    - unfold unit_ref. apply ulookup_None in Hu as Hl. rewrite Hl. cbn.
      split; [apply dims_ok_unit|]. intros x Hx. apply In_unit_dims in Hx. subst x.
      unfold is_root; now rewrite Hl.
  Qed.
  Lemma ref_pair_roots pos E d : env_ok pos E -> roots_only E (snd (ref_pair E d)).
  Proof.
    intros H. apply ref_fold_roots; [apply roots_only_nil|]. intros; eapply unit_ref_roots; eauto.
  Qed.

  (** The reference of a root is itself. *)
  Lemma unit_ref_root pos E u : env_ok pos E -> is_root E u -> unit_ref E u = (n1, unit_dims u).
  Proof.
    intros H. unfold is_root, unit_ref. destruct (ulookup E u) as [r|] eqn:Er; auto.
    intros Hd. apply (env_ok_def_ref pos E H u r Er) in Hd. now rewrite Hd.
  Qed.

  Lemma NoDup_env pos E : env_ok pos E -> NoDup (dkeys E).
  Proof.
    induction 1 as [|E u order df sym usym aliases H IH Hn Hd]; [constructor|].
    rewrite dkeys_app. cbn.
    assert (G : forall (l : list uid) u, NoDup l -> ~ In u l -> NoDup (l ++ [u])).
    { clear. induction l as [|x l IH]; intros u ND H; cbn; [repeat constructor; auto|].
      inversion ND; subst. constructor.
      - rewrite in_app_iff. intros [X|[X|[]]]; [contradiction|]. subst. apply H; cbn; auto.
      - apply IH; auto. intros X; apply H; cbn; auto. }
    apply G; auto.
  Qed.
End Env.

(** ** Soundness and completeness of references with respect to interpretations *)

Lemma ref_fold_gen (E : uenv R) (phi rho : interp) : forall d acc,
  0 < fst acc ->
  (forall u, In u (dkeys d) -> 0 < fst (unit_ref E u) /\
             0 < phi u /\ phi u = fst (unit_ref E u) * dimval rho (snd (unit_ref E u))) ->
  0 < fst (fold_left (ref_step E) d acc) /\
  fst (fold_left (ref_step E) d acc) * dimval rho (snd (fold_left (ref_step E) d acc))
  = (fst acc * dimval rho (snd acc)) * dimval phi d.
Proof.
  induction d as [|[u e] d IH]; intros acc Ha H.
  - cbn. split; auto. ring.
  - cbn [fold_left]. destruct (H u) as (Hr & Hp & Hphi); [cbn; auto|].
    destruct (IH (ref_step E acc (u, e))) as [I1 I2].
    + cbn [ref_step fst nmul NumR]. apply Rmult_lt_0_compat; auto. now apply rpow_pos.
    + intros v Hv; apply H; cbn; auto.
    + split; auto. rewrite I2. clear I1 I2. cbn [ref_step fst snd nmul npow NumR].
      rewrite dimval_mul, dimval_pow, rpow_Rpower by assumption.
      cbn [dimval]. rewrite Hphi.
      rewrite <- Rpower_mult_distr by (auto; apply dimval_pos). ring.
Qed.
Lemma ref_pair_gen (E : uenv R) (phi rho : interp) d :
  (forall u, In u (dkeys d) -> 0 < fst (unit_ref E u) /\
             0 < phi u /\ phi u = fst (unit_ref E u) * dimval rho (snd (unit_ref E u))) ->
  0 < fst (ref_pair E d) /\
  dimval phi d = fst (ref_pair E d) * dimval rho (snd (ref_pair E d)).
Proof.
  intros H. destruct (ref_fold_gen E phi rho d (1, [])) as [H1 H2]; auto; [cbn; lra|].
  split; [exact H1|]. unfold ref_pair. cbn [fst snd dimval] in H2. change (@n1 R NumR) with 1. rewrite H2. ring.
Qed.

(** Interpretation built from sizes of the roots. *)
Definition ext_interp (E : uenv R) (rho : interp) : interp :=
  fun u => match ulookup E u with
           | Some r => match ur_ref r with
                       | Some (a, d) => a * dimval rho d
                       | None => rho u
                       end
           | None => rho u
           end.

Lemma ref_pos_all E : renv_ok E -> forall u, 0 < fst (unit_ref E u).
Proof.
  unfold renv_ok. induction 1 as [|E u order df sym usym aliases H IH Hn Hd]; intros v.
  - cbn. lra.
  - destruct (uid_eq_dec v u) as [->|Hvu].
    + unfold unit_ref. rewrite ulookup_last by assumption.
      destruct df as [df|]; cbn; [|lra].
      destruct (Hd df eq_refl) as [Hc Ho]. destruct df as [a d|w]; cbn in Ho |- *.
      * destruct Ho as (Hp & _ & _). apply Rmult_lt_0_compat; auto.
        assert (G : forall d acc, 0 < fst acc -> 0 < fst (fold_left (ref_step E) d acc)).
        { clear - IH. induction d as [|[w e] d IHd]; intros acc Ha; auto.
          cbn [fold_left]. apply IHd. cbn. apply Rmult_lt_0_compat; auto. now apply rpow_pos. }
        apply (G d (1, [])). cbn. lra.
      * apply IH.
    + rewrite unit_ref_other by assumption. apply IH.
Qed.
Lemma ref_pair_pos E d : renv_ok E -> 0 < fst (ref_pair E d).
Proof.
  intros H. assert (G : forall d acc, 0 < fst acc -> 0 < fst (fold_left (ref_step E) d acc)).
  { induction d0 as [|[w e] d0 IHd]; intros acc Ha; auto.
    cbn [fold_left]. apply IHd. cbn. apply Rmult_lt_0_compat; auto. apply rpow_pos. now apply ref_pos_all. }
  apply (G d (1, [])). cbn. lra.
Qed.

Lemma ext_interp_ref E rho : renv_ok E -> (forall u, 0 < rho u) ->
  forall u, u_cls u <> CDimless ->
  ext_interp E rho u = fst (unit_ref E u) * dimval rho (snd (unit_ref E u)).
Proof.
  intros H Hr u Hc. unfold ext_interp, unit_ref. destruct (ulookup E u) as [r|] eqn:Er.
  - destruct (ur_ref r) as [[a d]|]; auto. cbn [fst snd]. rewrite dimval_unit' by auto. cbn; ring.
  - cbn [fst snd]. rewrite dimval_unit' by auto. cbn; ring.
Qed.
Lemma ext_interp_pos E rho : renv_ok E -> (forall u, 0 < rho u) -> forall u, 0 < ext_interp E rho u.
Proof.
  intros H Hr u. pose proof (ref_pos_all E H u) as Hp. unfold ext_interp, unit_ref in *.
  destruct (ulookup E u) as [r|]; auto. destruct (ur_ref r) as [[a d]|]; auto.
  cbn in Hp. apply Rmult_lt_0_compat; auto. apply dimval_pos.
Qed.

Lemma ext_interp_consistent E rho : renv_ok E -> (forall u, 0 < rho u) -> consistent E (ext_interp E rho).
Proof.
  intros H Hr. split; [now apply ext_interp_pos|].
  intros u r df Hl Hdf.
  destruct (env_ok_lookup _ E H u r df Hl Hdf) as (Hc & Ho & Href & Hf).
  rewrite ext_interp_ref by assumption. rewrite Href. destruct df as [a d|w]; cbn [def_ref defval].
  - unfold qty_ref. cbn [fst snd nmul NumR]. cbn in Ho. destruct Ho as (_ & _ & K).
    destruct (ref_pair_gen E (ext_interp E rho) rho d) as [_ G].
    { intros v Hv. split; [now apply ref_pos_all|]. split; [now apply ext_interp_pos|].
      apply ext_interp_ref; auto. now apply K. }
    rewrite G. ring.
  - destruct (ucls_eqb (u_cls w) CDimless) eqn:Ew.
    + apply ucls_eqb_eq in Ew. unfold unit_dims. rewrite Ew. cbn.
      assert (unit_ref E w = (1, [])).
      { unfold unit_ref. destruct (ulookup E w) as [rw|] eqn:Ew'.
        - destruct (ur_ref rw) as [p|] eqn:Ep.
          + destruct (ur_def rw) as [dw|] eqn:Edw.
            * destruct (env_ok_lookup _ E H w rw dw Ew' Edw) as (X & _). congruence.
            * apply (env_ok_def_ref _ E H w rw Ew') in Edw. congruence.
          + unfold unit_dims. now rewrite Ew.
        - unfold unit_dims. now rewrite Ew. }
      rewrite H0. cbn. ring.
    + assert (u_cls w <> CDimless) by (intros X; apply ucls_eqb_eq in X; congruence).
      rewrite dimval_unit' by (auto; now apply ext_interp_pos).
      now rewrite ext_interp_ref.
Qed.

(** Every consistent interpretation agrees with the references. *)
Lemma consistent_ref E phi : renv_ok E -> consistent E phi ->
  forall u, u_cls u <> CDimless -> phi u = fst (unit_ref E u) * dimval phi (snd (unit_ref E u)).
Proof.
  unfold renv_ok. induction 1 as [|E u order df sym usym aliases H IH Hn Hd]; intros HC v Hc.
  - cbn. rewrite dimval_unit'; auto; [ring|]. apply HC.
  - set (r := new_unit E order df sym usym aliases) in *.
    assert (HC' : consistent E phi).
    { destruct HC as [H1 H2]. split; auto. intros w rw dw Hw Hdw. apply (H2 w rw dw); auto.
      rewrite ulookup_other; auto. intros ->. apply Hn.
      destruct (in_dec uid_eq_dec u (dkeys E)); auto. apply ulookup_None in n. congruence. }
    specialize (IH HC'). destruct (uid_eq_dec v u) as [->|Hvu].
    + unfold unit_ref. rewrite ulookup_last by assumption. unfold r at 1; cbn [new_unit ur_ref].
      destruct df as [df|]; cbn [option_map].
      * destruct HC as [H1 H2]. rewrite (H2 u r df); [|now apply ulookup_last|reflexivity].
        destruct (Hd df eq_refl) as [_ Ho]. destruct df as [a d|w]; cbn [defval def_ref].
        -- unfold qty_ref; cbn [fst snd nmul NumR]. cbn in Ho. destruct Ho as (_ & _ & K).
           destruct (ref_pair_gen E phi phi d) as [_ G].
           { intros w Hw. split; [now apply ref_pos_all|]. split; auto. apply IH. now apply K. }
           rewrite G. unfold r, new_unit; cbn. ring.
        -- unfold r, new_unit; cbn [ur_ref option_map def_ref].
           destruct (ucls_eqb (u_cls w) CDimless) eqn:Ew.
           ++ apply ucls_eqb_eq in Ew. unfold unit_dims. rewrite Ew. cbn [dimval].
              assert (unit_ref E w = (1, [])).
              { unfold unit_ref. destruct (ulookup E w) as [rw|] eqn:Ew'.
                - destruct (ur_ref rw) as [p|] eqn:Ep.
                  + destruct (ur_def rw) as [dw|] eqn:Edw.
                    * destruct (env_ok_lookup _ E H w rw dw Ew' Edw) as (X & _). congruence.
                    * apply (env_ok_def_ref _ E H w rw Ew') in Edw. congruence.
                  + unfold unit_dims. now rewrite Ew.
                - unfold unit_dims. now rewrite Ew. }
              rewrite H0. cbn. ring.
           ++ assert (u_cls w <> CDimless) by (intros X; apply ucls_eqb_eq in X; congruence).
              rewrite dimval_unit' by auto. now apply IH.
      * unfold r; cbn [ur_ref new_unit option_map fst snd]. rewrite dimval_unit' by (auto; apply HC). cbn. ring.
    + rewrite unit_ref_other by assumption. now apply IH.
Qed.

Lemma consistent_ref_pair E phi d : renv_ok E -> consistent E phi -> dims_ok d ->
  dimval phi d = fst (ref_pair E d) * dimval phi (snd (ref_pair E d)).
Proof.
  intros H HC Hd. destruct (ref_pair_gen E phi phi d) as [_ G]; auto.
  intros u Hu. split; [now apply ref_pos_all|]. split; [apply HC|]. apply consistent_ref; auto. now apply Hd.
Qed.

(** Two dimensionalities of roots with a constant ratio are equal. *)
Lemma Rpower_2_inj x y : Rpower 2 x = Rpower 2 y -> x = y.
Proof.
  unfold Rpower. intros H. apply exp_inv in H. assert (0 < ln 2) by (rewrite <- ln_1; apply ln_increasing; lra).
  apply Rmult_eq_reg_r in H; auto. lra.
Qed.
Lemma Rpower_1_base y : Rpower 1 y = 1.
Proof. unfold Rpower. now rewrite ln_1, Rmult_0_r, exp_0. Qed.

Lemma dimval_single_root (d : dims) w : NoDup (dkeys d) ->
  dimval (fun u => if uid_eqb u w then 2 else 1) d = Rpower 2 (Qc2R (exp_of d w)).
Proof.
  induction d as [|[u e] d IH]; intros ND.
  - cbn [dimval]. rewrite exp_of_nil, Qc2R_0. unfold Rpower. now rewrite Rmult_0_l, exp_0.
  - inversion ND; subst. cbn [dimval]. rewrite IH by assumption. destruct (uid_eqb u w) eqn:E.
    + apply uid_eqb_eq in E; subst w. rewrite exp_of_cons_same, (exp_of_notin d u) by assumption.
      rewrite Qc2R_0. unfold Rpower at 2. rewrite Rmult_0_l, exp_0. ring.
    + rewrite Rpower_1_base, exp_of_cons_other; [ring|].
      intros ->. rewrite uid_eqb_refl in E; discriminate.
Qed.

Lemma dimval_ones d : dimval (fun _ => 1) d = 1.
Proof. induction d as [|[u e] d IH]; cbn; auto. rewrite IH, Rpower_1_base. ring. Qed.

(** The key equivalence: a constant conversion factor exists iff the references
    have the same dimensionality. *)
Lemma convertible_iff E d1 d2 : renv_ok E -> dims_ok d1 -> dims_ok d2 ->
  (convertible E d1 d2 <-> dim_eqb (snd (ref_pair E d1)) (snd (ref_pair E d2)) = true).
Proof.
  intros H H1 H2.
  pose proof (ref_pair_roots _ E d1 H) as [[W1 _] R1].
  pose proof (ref_pair_roots _ E d2 H) as [[W2 _] R2].
  split.
  - intros [c Hc]. apply dim_eqb_exp; auto. intros w.
    set (D1 := snd (ref_pair E d1)) in *. set (D2 := snd (ref_pair E d2)) in *.
    assert (Val : forall rho, (forall u, 0 < rho u) ->
              fst (ref_pair E d1) * dimval rho D1 = c * (fst (ref_pair E d2) * dimval rho D2)).
    { intros rho Hrho. pose proof (ext_interp_consistent E rho H Hrho) as HC.
      specialize (Hc _ HC).
      assert (G : forall d, dims_ok d -> dimval (ext_interp E rho) d = fst (ref_pair E d) * dimval rho (snd (ref_pair E d))).
      { intros d Hd. apply ref_pair_gen. intros u Hu. split; [now apply ref_pos_all|].
        split; [now apply ext_interp_pos|]. apply ext_interp_ref; auto. now apply Hd. }
      rewrite !G in Hc by assumption. exact Hc. }
    pose proof (Val (fun _ => 1) ltac:(intros; lra)) as V1.
    rewrite !dimval_ones in V1.
    set (rho := fun u => if uid_eqb u w then 2 else 1).
    assert (Hrho : forall u, 0 < rho u) by (intros u; unfold rho; destruct (uid_eqb u w); lra).
    pose proof (Val rho Hrho) as V2. unfold rho in V2.
    rewrite !dimval_single_root in V2 by auto using wf_NoDup.
    pose proof (ref_pair_pos E d1 H). pose proof (ref_pair_pos E d2 H).
    apply Qc2R_inj, Rpower_2_inj.
    assert (Hc0 : c = fst (ref_pair E d1) / fst (ref_pair E d2)) by (field_simplify_eq; lra).
    rewrite Hc0 in V2.
    apply (Rmult_eq_reg_l (fst (ref_pair E d1))); [|lra].
    rewrite V2. field. lra.
  - intros Heq. exists (fst (ref_pair E d1) / fst (ref_pair E d2)). intros phi HC.
    rewrite (consistent_ref_pair E phi d1), (consistent_ref_pair E phi d2) by assumption.
    rewrite (dimval_eqb phi _ _ W1 W2 Heq). field.
    pose proof (ref_pair_pos E d2 H). lra.
Qed.

Lemma converts_factor E d1 d2 c : renv_ok E -> dims_ok d1 -> dims_ok d2 ->
  converts E d1 d2 c -> c = fst (ref_pair E d1) / fst (ref_pair E d2).
Proof.
  intros H H1 H2 Hc.
  assert (Hrho : forall u : uid, 0 < (fun _ : uid => 1) u) by (intros; lra).
  pose proof (ext_interp_consistent E _ H Hrho) as HC. specialize (Hc _ HC).
  assert (G : forall d, dims_ok d -> dimval (ext_interp E (fun _ => 1)) d = fst (ref_pair E d) * dimval (fun _ => 1) (snd (ref_pair E d))).
  { intros d Hd. apply ref_pair_gen. intros u Hu. split; [now apply ref_pos_all|].
    split; [now apply ext_interp_pos|]. apply ext_interp_ref; auto. now apply Hd. }
  rewrite !G, !dimval_ones in Hc by assumption.
  pose proof (ref_pair_pos E d1 H). pose proof (ref_pair_pos E d2 H). field_simplify_eq; lra.
Qed.

(** Consistent interpretations exist. *)
Lemma consistent_exists E : renv_ok E -> exists phi, consistent E phi.
Proof.
  intros H. exists (ext_interp E (fun _ => 1)). apply ext_interp_consistent; auto. intros; lra.
Qed.
