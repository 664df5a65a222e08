(** * SimpFacts: when [simplified] succeeds, and why it is canonical. *)
From Coq Require Import Reals Lra.
From Verif Require Import Py Num Dim DimFacts Arr Units Spec UnitFacts Quant QuantFacts.

Open Scope R_scope.

Definition irr_classes : list ucls :=
  [CMass; CLength; CTime; CCurrent; CLumInt; CSubstance; CTemperature; CInformation; CCurrency].

Section Std.
  Variable E : uenv R.
  Variable D : defaults.
  Variable root : ucls -> uid.
  Hypothesis HE : renv_ok E.
  Hypothesis HS : std_defaults E D root.

  Definition ddims (c : ucls) : dims := match D c with Some d => d | None => [] end.
  Definition combo (d : dims) (w : uid) : Qc :=
    fold_right (fun c s => (exp_of d (root c) * exp_of (ddims c) w + s)%Qc) 0%Qc irr_classes.

  Lemma std_root c : is_irreducible c = true -> is_root E (root c) /\ u_cls (root c) = c.
  Proof.
    intros Hc. destruct (HS c Hc) as (H1 & H2 & _). split; [|exact H1].
    unfold is_root. destruct (ulookup E (root c)) eqn:El; auto.
  Qed.
  Lemma std_dd c dd : is_irreducible c = true -> D c = Some dd ->
    dims_ok dd /\ convertible E dd [(root c, PInt 1)].
  Proof. intros Hc Hd. destruct (HS c Hc) as (_ & _ & H). auto. Qed.
  Lemma root_unit_dims c : is_irreducible c = true -> unit_dims (root c) = [(root c, PInt 1)].
  Proof.
    intros Hc. destruct (std_root c Hc) as (_ & Hr). unfold unit_dims. rewrite Hr.
    destruct c; cbn in *; congruence.
  Qed.

  Lemma combo_nil w : combo [] w = 0%Qc.
  Proof. unfold combo. cbn [fold_right irr_classes]. rewrite !exp_of_nil. ring. Qed.
  Lemma combo_mul d1 d2 w : wf_dims d1 -> wf_dims d2 -> combo (dim_mul d1 d2) w = (combo d1 w + combo d2 w)%Qc.
  Proof.
    intros W1 W2. unfold combo. cbn [fold_right irr_classes].
    rewrite !exp_of_mul by (apply wf_NoDup; auto). ring.
  Qed.
  Lemma combo_pow d p w : combo (dim_pow d p) w = (combo d w * pval p)%Qc.
  Proof. unfold combo. cbn [fold_right irr_classes]. rewrite !exp_of_pow. ring. Qed.
  Lemma combo_ext d1 d2 w : (forall u, exp_of d1 u = exp_of d2 u) -> combo d1 w = combo d2 w.
  Proof. intros H. unfold combo. cbn [fold_right irr_classes]. now rewrite !H. Qed.
  Lemma root_inj c c' : is_irreducible c = true -> is_irreducible c' = true -> root c = root c' -> c = c'.
  Proof.
    intros H1 H2 He. destruct (std_root c H1) as (_ & R1).
    destruct (std_root c' H2) as (_ & R2). congruence.
  Qed.
  Lemma exp_root_delta c c' : is_irreducible c = true -> is_irreducible c' = true ->
    exp_of [(root c, PInt 1)] (root c') = if ucls_eqb c c' then 1%Qc else 0%Qc.
  Proof.
    intros H1 H2. rewrite exp_of_single. destruct (uid_eqb (root c') (root c)) eqn:Eu.
    - apply uid_eqb_eq in Eu. apply root_inj in Eu; auto. subst.
      replace (ucls_eqb c c) with true by (symmetry; now apply ucls_eqb_eq). reflexivity.
    - destruct (ucls_eqb c c') eqn:Ec; auto. apply ucls_eqb_eq in Ec; subst.
      rewrite uid_eqb_refl in Eu; discriminate.
  Qed.
  Lemma combo_root c w : is_irreducible c = true -> combo [(root c, PInt 1)] w = exp_of (ddims c) w.
  Proof.
    intros Hc. unfold combo. cbn [fold_right irr_classes].
    rewrite !exp_root_delta by (auto; reflexivity).
    destruct c; try discriminate Hc; cbn [ucls_eqb]; ring.
  Qed.

  (** Convertible dimensionalities have references with the same exponents. *)
  Lemma convertible_ref_exp d1 d2 : dims_ok d1 -> dims_ok d2 -> convertible E d1 d2 ->
    forall u, exp_of (snd (ref_pair E d1)) u = exp_of (snd (ref_pair E d2)) u.
  Proof.
    intros H1 H2 Hc. apply convertible_iff in Hc; auto.
    exact (proj1 (dim_eqb_exp _ _ (ref_pair_wf _ E HE d1) (ref_pair_wf _ E HE d2)) Hc).
  Qed.
  Lemma ref_pair_unit_exp u w : u_cls u <> CDimless ->
    exp_of (snd (ref_pair E (unit_dims u))) w = exp_of (snd (unit_ref E u)) w.
  Proof.
    intros Hu. rewrite (ref_pair_exp _ E HE).
    unfold unit_dims. destruct (u_cls u); try contradiction;
      cbn [fold_right fst snd pval]; change (Z2Qc 1) with 1%Qc; ring.
  Qed.
  Lemma ref_pair_root_exp c w : is_irreducible c = true ->
    exp_of (snd (ref_pair E [(root c, PInt 1)])) w = exp_of [(root c, PInt 1)] w.
  Proof.
    intros Hc. destruct (std_root c Hc) as (H4 & H5).
    rewrite <- (root_unit_dims c Hc) at 1. rewrite ref_pair_unit_exp.
    - rewrite (unit_ref_root _ E (root c) HE H4). cbn [snd]. now rewrite root_unit_dims.
    - rewrite H5. destruct c; cbn in *; congruence.
  Qed.
  Lemma dims_ok_root c : is_irreducible c = true -> dims_ok [(root c, PInt 1)].
  Proof. intros Hc. rewrite <- root_unit_dims by assumption. apply dims_ok_unit. Qed.

  Definition units_simplifiable (d : dims) : Prop := forall u, In u (dkeys d) -> simplifiable E D root u.

  (** ** Exponents of a simplified unit *)
  Definition exact_simp (u : uid) (x : R * dims) : Prop :=
    wf_dims (snd x) /\ forall w, exp_of (snd x) w = combo (snd (unit_ref E u)) w.

  Lemma fold_err_any (f : uid -> res (R * dims)) d (a : exn) :
    fold_left (fun acc kv => rq <- acc ;; x <- f (fst kv) ;; Ok (sc_mul_pow rq x (snd kv))) d (Err a) = Err a.
  Proof. induction d; cbn; auto. Qed.

  Lemma simp_fold_exp (f : uid -> res (R * dims)) d0 a rq :
    (forall u x, In u (dkeys d0) -> f u = Ok x -> exact_simp u x) ->
    wf_dims (snd a) ->
    fold_left (fun acc kv => rq <- acc ;; x <- f (fst kv) ;; Ok (sc_mul_pow rq x (snd kv))) d0 (Ok a) = Ok rq ->
    (forall u, In u (dkeys d0) -> exists x, f u = Ok x) /\
    wf_dims (snd rq) /\
    forall w, exp_of (snd rq) w =
      (exp_of (snd a) w + fold_right (fun kv s => (combo (snd (unit_ref E (fst kv))) w * pval (snd kv) + s)%Qc) 0%Qc d0)%Qc.
  Proof.
    revert a. induction d0 as [|[u e] d0 IH]; intros a Hf Wa; cbn [fold_left].
    - intros [= <-]. split; [intros u []|]. split; auto. intros w. cbn. ring.
    - cbn [bind fst snd]. destruct (f u) as [x|e0] eqn:Ex.
      + cbn [bind]. intros HF. destruct (Hf u x) as [Wx Hx]; [cbn; auto|assumption|].
        destruct (IH (sc_mul_pow a x e)) as (I0 & I1 & I2); auto.
        * intros v y Hv; apply Hf; cbn; auto.
        * cbn [sc_mul_pow snd]. apply wf_mul; auto. now apply wf_pow.
        * split; [|split; auto].
          -- intros v [<-|Hv]; eauto.
          -- intros w. rewrite I2. cbn [sc_mul_pow snd fold_right fst].
             rewrite exp_of_mul by (apply wf_NoDup; auto using wf_pow).
             rewrite exp_of_pow, Hx. ring.
      + cbn [bind]. rewrite fold_err_any. discriminate.
  Qed.

  Lemma simp_fold_ok (f : uid -> res (R * dims)) d0 a :
    (forall u, In u (dkeys d0) -> exists x, f u = Ok x) ->
    exists rq, fold_left (fun acc kv => rq <- acc ;; x <- f (fst kv) ;; Ok (sc_mul_pow rq x (snd kv))) d0 (Ok a) = Ok rq.
  Proof.
    revert a. induction d0 as [|[u e] d0 IH]; intros a Hf; cbn [fold_left]; eauto.
    destruct (Hf u) as [x Hx]; [cbn; auto|]. cbn [fst snd bind]. rewrite Hx. cbn [bind].
    apply IH. intros v Hv. apply Hf. cbn; auto.
  Qed.

  Lemma combo_ref_pair d w :
    combo (snd (ref_pair E d)) w =
    fold_right (fun kv s => (combo (snd (unit_ref E (fst kv))) w * pval (snd kv) + s)%Qc) 0%Qc d.
  Proof.
    unfold ref_pair. enough (G : forall acc, wf_dims (snd acc) ->
      combo (snd (fold_left (ref_step E) d acc)) w =
      (combo (snd acc) w + fold_right (fun kv s => (combo (snd (unit_ref E (fst kv))) w * pval (snd kv) + s)%Qc) 0%Qc d)%Qc).
    { rewrite G by apply wf_nil. cbn [snd]. rewrite combo_nil. ring. }
    induction d as [|[u e] d IH]; intros acc W; cbn [fold_left fold_right fst snd].
    - ring.
    - rewrite IH.
      + cbn [ref_step snd]. rewrite combo_mul by (auto using wf_pow, (unit_ref_wf _ E HE)).
        rewrite combo_pow. ring.
      + cbn [ref_step snd]. apply wf_mul; auto. apply wf_pow, (unit_ref_wf _ E HE).
  Qed.

  (** All roots of [d] are class roots. *)
  Definition class_roots (d : dims) : Prop :=
    forall w, In w (dkeys d) -> exists c, is_irreducible c = true /\ D c <> None /\ w = root c.


  Lemma simplifiable_irr u : is_irreducible (u_cls u) = true ->
    (simplifiable E D root u <-> D (u_cls u) <> None /\ convertible E (unit_dims u) [(root (u_cls u), PInt 1)]).
  Proof. intros H. unfold simplifiable. now rewrite H. Qed.

  Lemma class_roots_ref d : dims_ok d -> class_roots d ->
    forall u, exp_of (snd (ref_pair E d)) u = exp_of d u.
  Proof.
    intros Hd Hc w. rewrite (ref_pair_exp _ E HE).
    destruct Hd as [Wd Nd]. revert Wd Nd Hc. induction d as [|[u e] d IH]; intros Wd Nd Hc.
    - reflexivity.
    - apply wf_cons in Wd. destruct Wd as (We & Wn & Wd). cbn [fold_right fst snd].
      rewrite IH; auto.
      + destruct (Hc u) as (c & Hi & _ & ->); [cbn; auto|].
        destruct (std_root c Hi) as (H4 & H5).
        rewrite (unit_ref_root _ E (root c) HE H4). cbn [snd]. rewrite root_unit_dims by assumption.
        rewrite exp_of_single. destruct (uid_eqb w (root c)) eqn:Ew.
        * apply uid_eqb_eq in Ew; subst w. rewrite exp_of_cons_same.
          rewrite (exp_of_notin d (root c)) by assumption. cbn [pval]. change (Z2Qc 1) with 1%Qc. ring.
        * rewrite exp_of_cons_other. ring. intros ->. rewrite uid_eqb_refl in Ew; discriminate.
      + intros u' Hu'; apply Nd; cbn; auto.
      + intros u' Hu'; apply Hc; cbn; auto.
  Qed.

  Lemma simplifiable_red u : is_irreducible (u_cls u) = false -> u_cls u <> CDimless ->
    (simplifiable E D root u <-> class_roots (snd (unit_ref E u))).
  Proof.
    intros Hi Hd. unfold simplifiable. rewrite Hi. split.
    - intros (d & Wd & Hc & Hconv) w Hw.
      assert (Hx : forall v, exp_of (snd (unit_ref E u)) v = exp_of d v).
      { intros v. rewrite <- ref_pair_unit_exp by assumption.
        rewrite (convertible_ref_exp _ _ (dims_ok_unit u) Wd Hconv). now apply class_roots_ref. }
      apply Hc. apply (in_dkeys_exp d w (proj1 Wd)). rewrite <- Hx.
      now apply (in_dkeys_exp _ w (unit_ref_wf _ E HE u)).
    - intros Hc. exists (snd (unit_ref E u)).
      pose proof (unit_ref_roots _ E u HE) as Hr.
      assert (Wr : dims_ok (snd (unit_ref E u))) by apply Hr.
      split; [exact Wr|split; [exact Hc|]].
      exists (fst (unit_ref E u)). intros phi HC.
      rewrite dimval_unit' by (auto; apply HC). now apply consistent_ref.
  Qed.

  Lemma simp_unit_exact fuel : forall u x, u_cls u <> CDimless -> simp_unit fuel E D u = Ok x ->
    exact_simp u x /\ simplifiable E D root u.
  Proof.
    induction fuel as [|fuel IH]; intros u x Hnd; cbn [simp_unit]; [discriminate|].
    destruct (is_irreducible (u_cls u)) eqn:Ei.
    - destruct (std_root _ Ei) as (Rdd & Ldd). destruct (D (u_cls u)) as [dd|] eqn:Hdd; [|discriminate].
      destruct (std_dd _ dd Ei Hdd) as (Wdd & Cdd).
      assert (Hgo : forall x', convertible E (unit_dims u) dd -> snd x' = dd \/ (snd x' = unit_dims u /\ dim_eqb (unit_dims u) dd = true) ->
              exact_simp u x' /\ simplifiable E D root u).
      { intros x' Hconv Hsx.
        assert (Hc2 : convertible E (unit_dims u) [(root (u_cls u), PInt 1)])
          by (apply (convertible_trans E _ dd); auto).
        split; [|apply simplifiable_irr; auto; split; auto; congruence].
        assert (Hw : wf_dims (snd x') /\ forall w, exp_of (snd x') w = exp_of dd w).
        { destruct Hsx as [->|[-> He]]; [split; auto; apply Wdd|]. split; [apply wf_unit_dims|].
          exact (proj1 (dim_eqb_exp _ _ (wf_unit_dims u) (proj1 Wdd)) He). }
        split; [apply Hw|]. intros w. rewrite (proj2 Hw w).
        rewrite (combo_ext (snd (unit_ref E u)) [(root (u_cls u), PInt 1)]).
        - rewrite combo_root by assumption. unfold ddims. now rewrite Hdd.
        - intros v. rewrite <- ref_pair_unit_exp by assumption.
          rewrite (convertible_ref_exp _ _ (dims_ok_unit u) (dims_ok_root _ Ei) Hc2).
          now apply ref_pair_root_exp. }
      destruct (dim_eqb (unit_dims u) dd) eqn:Ee.
      + intros [= <-]. apply Hgo; auto. apply convertible_exp; auto; [apply dims_ok_unit|].
        exact (proj1 (dim_eqb_exp _ _ (wf_unit_dims u) (proj1 Wdd)) Ee).
      + destruct (conv_factor E (unit_dims u) dd) as [cf|e] eqn:Ec.
        * intros [= <-]. apply Hgo; auto.
          destruct (conv_factor_spec E (unit_dims u) dd HE (dims_ok_unit u) Wdd) as [S _].
          exists cf. now apply S.
        * apply conv_factor_err in Ec. subst. discriminate.
    - destruct (ulookup E u) as [r|] eqn:Er; [|now apply IH].
      destruct (ur_ref r) as [[a d]|] eqn:Ef; [|now apply IH].
      destruct (fold_left _ d _) as [rq|e] eqn:EF; cbn [bind]; [|discriminate].
      intros [= <-].
      assert (Hu : unit_ref E u = (a, d)) by (unfold unit_ref; now rewrite Er, Ef).
      pose proof (unit_ref_roots _ E u HE) as Hroots. rewrite Hu in Hroots. cbn [snd] in Hroots.
      assert (Hdn : forall v, In v (dkeys d) -> u_cls v <> CDimless) by (intros v Hv; now apply Hroots).
      destruct (simp_fold_exp (simp_unit fuel E D) d (1, []) rq) as (I0 & I1 & I2); auto.
      + intros v y Hv Hy. now apply IH in Hy; [|apply Hdn].
      + apply wf_nil.
      + assert (Hcr : class_roots d).
        { intros w Hw. destruct (I0 w Hw) as [y Hy]. apply IH in Hy; [|now apply Hdn].
          destruct Hy as [_ Hs]. assert (Rw : is_root E w) by now apply Hroots.
          destruct (is_irreducible (u_cls w)) eqn:Ew.
          - apply (simplifiable_irr _ Ew) in Hs. destruct Hs as [Hsd Hs].
            pose proof (convertible_ref_exp _ _ (dims_ok_unit w) (dims_ok_root _ Ew) Hs w) as X.
            rewrite ref_pair_unit_exp, ref_pair_root_exp in X by auto.
            rewrite (unit_ref_root _ E w HE Rw) in X. cbn [snd] in X.
            exists (u_cls w). split; [auto|split; [auto|]].
            rewrite exp_of_single in X. destruct (uid_eqb w (root (u_cls w))) eqn:Eq; [now apply uid_eqb_eq|].
            exfalso. revert X. apply (in_dkeys_exp (unit_dims w) w (wf_unit_dims w)).
            unfold unit_dims. pose proof (Hdn w Hw). destruct (u_cls w); try contradiction; cbn; auto.
          - apply (simplifiable_red _ Ew (Hdn w Hw)) in Hs.
            rewrite (unit_ref_root _ E w HE Rw) in Hs. cbn [snd] in Hs. apply Hs.
            unfold unit_dims. pose proof (Hdn w Hw). destruct (u_cls w); try contradiction; cbn; auto. }
        split.
        * split; [exact I1|]. intros w. cbn [snd]. rewrite I2. cbn [snd]. rewrite exp_of_nil, Hu. cbn [snd].
          rewrite (combo_ext d (snd (ref_pair E d))).
          -- rewrite combo_ref_pair. ring.
          -- intros v. symmetry. apply class_roots_ref; auto. apply Hroots.
        * apply simplifiable_red; auto. rewrite Hu. exact Hcr.
  Qed.

  Lemma simp_unit_irr_total fuel u : is_irreducible (u_cls u) = true -> simplifiable E D root u ->
    exists x, simp_unit (S fuel) E D u = Ok x.
  Proof.
    intros Hi Hs. apply (simplifiable_irr _ Hi) in Hs. destruct Hs as [Hn Hs]. cbn [simp_unit]. rewrite Hi.
    destruct (std_root _ Hi) as (Rdd & Ldd). destruct (D (u_cls u)) as [dd|] eqn:Hdd; [|congruence].
    destruct (std_dd _ dd Hi Hdd) as (Wdd & Cdd).
    destruct (dim_eqb (unit_dims u) dd); eauto.
    assert (Hc : convertible E (unit_dims u) dd).
    { apply (convertible_trans E _ [(root (u_cls u), PInt 1)]); auto.
      apply convertible_sym; auto. now apply dims_ok_root. }
    destruct Hc as [c Hc].
    apply (proj1 (conv_factor_spec E (unit_dims u) dd HE (dims_ok_unit u) Wdd)) in Hc. rewrite Hc. eauto.
  Qed.

  Lemma simplifiable_root c : is_irreducible c = true -> D c <> None -> simplifiable E D root (root c).
  Proof.
    intros Hc Hn. destruct (std_root c Hc) as (H4 & H5).
    apply simplifiable_irr; rewrite H5; auto. split; auto. rewrite root_unit_dims by assumption. apply convertible_refl.
  Qed.

  Lemma simp_unit_total fuel u : u_cls u <> CDimless -> simplifiable E D root u ->
    exists x, simp_unit (S (S fuel)) E D u = Ok x.
  Proof.
    intros Hnd Hs. destruct (is_irreducible (u_cls u)) eqn:Ei; [now apply simp_unit_irr_total|].
    apply (simplifiable_red _ Ei Hnd) in Hs.
    remember (S fuel) as fu. cbn [simp_unit]. rewrite Ei.
    unfold unit_ref in Hs. destruct (ulookup E u) as [r|] eqn:Er.
    - destruct (ur_ref r) as [[a d]|] eqn:Ef.
      + cbn [snd] in Hs. destruct (simp_fold_ok (simp_unit fu E D) d (n1, [])) as [rq Hrq].
        * intros v Hv. destruct (Hs v Hv) as (c & Hc & Hdn & ->). subst fu. apply simp_unit_irr_total.
          -- destruct (std_root c Hc) as (_ & H5). now rewrite H5.
          -- now apply simplifiable_root.
        * match goal with |- context [bind ?X] => assert (HX : X = Ok rq) by exact Hrq; rewrite HX end. cbn [bind]. eauto.
      + exfalso. cbn [snd] in Hs. destruct (Hs u) as (c & Hc & _ & ->).
        * unfold unit_dims. destruct (u_cls u); try contradiction; cbn; auto.
        * destruct (std_root c Hc) as (_ & H5). rewrite H5 in Ei. congruence.
    - exfalso. cbn [snd] in Hs. destruct (Hs u) as (c & Hc & _ & ->).
      + unfold unit_dims. destruct (u_cls u); try contradiction; cbn; auto.
      + destruct (std_root c Hc) as (_ & H5). rewrite H5 in Ei. congruence.
  Qed.

  Lemma simp_dims_exact fuel d rq : dims_ok d -> simp_dims fuel E D d = Ok rq ->
    units_simplifiable d /\ wf_dims (snd rq) /\ forall w, exp_of (snd rq) w = combo (snd (ref_pair E d)) w.
  Proof.
    intros Hd H. unfold simp_dims in H.
    destruct (simp_fold_exp (simp_unit fuel E D) d (1, []) rq) as (I0 & I1 & I2); auto.
    - intros u x Hu Hx. apply simp_unit_exact in Hx; [apply Hx|now apply Hd].
    - apply wf_nil.
    - split; [|split; auto].
      + intros u Hu. destruct (I0 u Hu) as [x Hx]. apply simp_unit_exact in Hx; [apply Hx|now apply Hd].
      + intros w. rewrite I2, combo_ref_pair. cbn [snd]. rewrite exp_of_nil. ring.
  Qed.

  Lemma simplified_ok_iff q : dims_ok (qdim q) ->
    ((exists fuel r, simplified fuel E D q = Ok r) <-> units_simplifiable (qdim q)).
  Proof.
    intros Hq. split.
    - intros (fuel & r & H). unfold simplified in H.
      destruct (simp_dims fuel E D (qdim q)) as [rq|e] eqn:Es; cbn [bind] in H; [|discriminate].
      eapply simp_dims_exact; eauto.
    - intros Hs. exists 2%nat. unfold simplified.
      destruct (simp_fold_ok (simp_unit 2 E D) (qdim q) (n1, [])) as [rq Hrq].
      + intros u Hu. apply simp_unit_total; auto. now apply Hq.
      + match goal with |- context [bind ?X] => assert (HX : X = Ok rq) by exact Hrq; rewrite HX end. cbn [bind]. eauto.
  Qed.
  Lemma simplified_fuel fuel q : dims_ok (qdim q) -> units_simplifiable (qdim q) ->
    exists r, simplified (S (S fuel)) E D q = Ok r.
  Proof.
    intros Hq Hs. unfold simplified.
    destruct (simp_fold_ok (simp_unit (S (S fuel)) E D) (qdim q) (n1, [])) as [rq Hrq].
    - intros u Hu. apply simp_unit_total; auto. now apply Hq.
    - match goal with |- context [bind ?X] => assert (HX : X = Ok rq) by exact Hrq; rewrite HX end. cbn [bind]. eauto.
  Qed.

  Lemma simplified_units fuel q r : dims_ok (qdim q) -> simplified fuel E D q = Ok r ->
    wf_dims (qdim r) /\ forall w, exp_of (qdim r) w = combo (snd (ref_pair E (qdim q))) w.
  Proof.
    intros Hq H. unfold simplified in H.
    destruct (simp_dims fuel E D (qdim q)) as [rq|e] eqn:Es; cbn [bind] in H; [|discriminate].
    injection H as <-. cbn [qdim]. eapply simp_dims_exact; eauto.
  Qed.

  Lemma std_defaults_wf : (forall c, is_irreducible c = false -> D c = None) -> defaults_wf D.
  Proof.
    intros Hn c dd Hc. destruct (is_irreducible c) eqn:Ei.
    - now apply (std_dd c dd Ei).
    - rewrite Hn in Hc by assumption. discriminate.
  Qed.

  Lemma simplified_canonical f1 f2 q1 q2 r1 r2 : defaults_wf D ->
    qty_ok q1 -> qty_ok q2 ->
    convertible E (qdim q1) (qdim q2) -> same_value E q1 q2 ->
    simplified f1 E D q1 = Ok r1 -> simplified f2 E D q2 = Ok r2 -> qsame r1 r2.
  Proof.
    intros HDw Hq1 Hq2 Hc Hs H1 H2.
    destruct (simplified_units _ _ _ (proj2 Hq1) H1) as [W1 E1].
    destruct (simplified_units _ _ _ (proj2 Hq2) H2) as [W2 E2].
    apply same_value_mag with (E := E); auto.
    - intros u. rewrite E1, E2. apply combo_ext. apply convertible_ref_exp; auto; [apply Hq1|apply Hq2].
    - destruct (simplified_good E D HE HDw _ _ _ (proj2 Hq1) H1) as (_ & V1 & _).
      destruct (simplified_good E D HE HDw _ _ _ (proj2 Hq2) H2) as (_ & V2 & _).
      eapply same_value_trans; [exact V1|]. eapply same_value_trans; [exact Hs|].
      now apply same_value_sym.
  Qed.

  Lemma default_simplifiable c dd : defaults_wf D -> is_irreducible c = true -> D c = Some dd ->
     convertible E dd [(root c, PInt 1)].
  Proof.
    intros _ Hc Hd. now apply (std_dd c dd Hc).
  Qed.
End Std.
