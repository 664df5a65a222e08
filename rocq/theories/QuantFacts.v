(** * QuantFacts: lemmas about conversion. *)
From Coq Require Import Reals Lra.
From Verif Require Import Py Num Dim DimFacts Arr Units Spec UnitFacts Quant.

Open Scope R_scope.

Section Any.
  Context {A : Type} {N : Num A}.
  Implicit Types E : uenv A.

  Lemma conv_factor_err E d1 d2 e : conv_factor E d1 d2 = Err e -> e = AssertionError.
  Proof. unfold conv_factor. destruct (dim_eqb _ _); congruence. Qed.

  Lemma rescale_to_cases E q to :
    (dim_eqb (qdim q) to = true /\ rescale_to E q to = Ok q) \/
    (dim_eqb (qdim q) to = false /\
     ((dim_eqb (snd (ref_pair E (qdim q))) (snd (ref_pair E to)) = true /\
       rescale_to E q to =
         Ok (Qty (amap (fun x => nmul (ndiv (nmul (fst (ref_pair E (qdim q))) n1)
                                            (nmul (fst (ref_pair E to)) n1)) x) (mag q)) to))
      \/ (dim_eqb (snd (ref_pair E (qdim q))) (snd (ref_pair E to)) = false /\
          rescale_to E q to = Err ValueError))).
  Proof.
    unfold rescale_to. destruct (dim_eqb (qdim q) to); [left; auto|right; split; auto].
    unfold conv_factor, qty_ref; cbn [fst snd].
    destruct (dim_eqb (snd (ref_pair E (qdim q))) (snd (ref_pair E to))); [left|right]; auto.
  Qed.

  (** Failure is always ValueError. *)
  Lemma rescale_to_err E q to e : rescale_to E q to = Err e -> e = ValueError.
  Proof.
    destruct (rescale_to_cases E q to) as [[_ ->]|[_ [[_ ->]|[_ ->]]]]; congruence.
  Qed.
  Lemma rescale_to_same E q to : dim_eqb (qdim q) to = true -> rescale_to E q to = Ok q.
  Proof. intros H. unfold rescale_to. now rewrite H. Qed.
  Lemma rescale_to_shape E q to r : rescale_to E q to = Ok r -> shp (mag r) = shp (mag q).
  Proof.
    destruct (rescale_to_cases E q to) as [[_ ->]|[_ [[_ ->]|[_ ->]]]]; intros [= <-]; auto.
  Qed.
  Lemma rescale_to_dim E q to r : wf_dims (qdim q) -> wf_dims to ->
    rescale_to E q to = Ok r -> forall u, exp_of (qdim r) u = exp_of to u.
  Proof.
    intros Wq Wt. destruct (rescale_to_cases E q to) as [[H ->]|[_ [[_ ->]|[_ ->]]]]; intros [= <-]; auto.
    now apply dim_eqb_exp.
  Qed.
  Lemma rescale_to_eqb E q to r : wf_dims (qdim q) -> wf_dims to ->
    rescale_to E q to = Ok r -> dim_eqb (qdim r) to = true.
  Proof.
    intros Wq Wt. destruct (rescale_to_cases E q to) as [[H ->]|[_ [[_ ->]|[_ ->]]]]; intros [= <-]; auto.
    apply dim_eqb_refl. apply Wt.
  Qed.
  Lemma rescale_to_qty_ok E q to r : qty_ok q -> dims_ok to -> rescale_to E q to = Ok r -> qty_ok r.
  Proof.
    intros [Wm Wd] Wt. destruct (rescale_to_cases E q to) as [[H ->]|[_ [[_ ->]|[_ ->]]]]; intros [= <-].
    - split; auto.
    - split; auto. cbn. now apply awf_amap.
  Qed.

  (** Equal dimensionalities have references of equal dimensionality. *)
  Lemma ref_fold_exp E (Hr : forall u, wf_dims (snd (unit_ref E u))) d acc w :
    wf_dims (snd acc) ->
    exp_of (snd (fold_left (ref_step E) d acc)) w =
    (exp_of (snd acc) w + fold_right (fun kv s => exp_of (snd (unit_ref E (fst kv))) w * pval (snd kv) + s) 0 d)%Qc.
  Proof.
    revert acc. induction d as [|[u e] d IH]; intros acc W.
    - cbn [fold_left fold_right]. ring.
    - cbn [fold_left fold_right fst snd]. rewrite IH.
      + cbn [ref_step snd]. rewrite exp_of_mul by (apply wf_NoDup; auto using wf_pow).
        rewrite exp_of_pow. ring.
      + cbn [ref_step snd]. apply wf_mul; auto. apply wf_pow; auto.
  Qed.
End Any.

Section Refs.
  Context {A : Type} {N : Num A}.
  Variable pos : A -> Prop.
  Variable E : uenv A.
  Hypothesis HE : env_ok pos E.

  Lemma unit_ref_wf u : wf_dims (snd (unit_ref E u)).
  Proof. apply (unit_ref_roots pos E u HE). Qed.
  Lemma ref_pair_wf d : wf_dims (snd (ref_pair E d)).
  Proof. apply (ref_pair_roots pos E d HE). Qed.
  Lemma ref_pair_dims_ok d : dims_ok (snd (ref_pair E d)).
  Proof. apply (ref_pair_roots pos E d HE). Qed.
  Lemma ref_pair_exp d w : exp_of (snd (ref_pair E d)) w =
    fold_right (fun kv s => exp_of (snd (unit_ref E (fst kv))) w * pval (snd kv) + s)%Qc 0%Qc d.
  Proof.
    unfold ref_pair. rewrite (ref_fold_exp E); [cbn [snd]; rewrite exp_of_nil; ring | apply unit_ref_wf | apply wf_nil].
  Qed.
End Refs.

(** ** Real arithmetic *)

Lemma phys_rescaled phi (m : arr R) d d' c :
  dimval phi d = c * dimval phi d' ->
  phys phi (Qty (amap (fun x => c * x) m) d') = phys phi (Qty m d).
Proof.
  intros H. unfold phys; cbn [mag qdim]. rewrite amap_amap. apply amap_ext. intros x _.
  rewrite H. ring.
Qed.

Lemma cf_converts E d1 d2 : renv_ok E -> dims_ok d1 -> dims_ok d2 ->
  dim_eqb (snd (ref_pair E d1)) (snd (ref_pair E d2)) = true ->
  converts E d1 d2 ((fst (ref_pair E d1) * 1) / (fst (ref_pair E d2) * 1)).
Proof.
  intros H H1 H2 He phi HC.
  rewrite (consistent_ref_pair E phi d1), (consistent_ref_pair E phi d2) by assumption.
  rewrite (dimval_eqb phi _ _ (ref_pair_wf _ E H d1) (ref_pair_wf _ E H d2) He). field.
  pose proof (ref_pair_pos E d2 H). lra.
Qed.

Lemma rescale_value E q to r : renv_ok E -> dims_ok (qdim q) -> dims_ok to ->
  rescale_to E q to = Ok r -> same_value E r q.
Proof.
  intros H Hq Ht. destruct (rescale_to_cases E q to) as [[_ ->]|[_ [[He ->]|[_ ->]]]]; intros [= <-] phi HC.
  - reflexivity.
  - destruct q as [m d]; cbn [mag qdim] in *. apply phys_rescaled. now apply cf_converts.
Qed.

Lemma rescale_ok_iff E q to : renv_ok E -> dims_ok (qdim q) -> dims_ok to ->
  ((exists r, rescale_to E q to = Ok r) <-> convertible E (qdim q) to).
Proof.
  intros H Hq Ht. split.
  - intros [r Hr]. destruct (rescale_to_cases E q to) as [[He _]|[_ [[He _]|[_ X]]]].
    + exists 1. intros phi _. rewrite Rmult_1_l. apply dimval_eqb; auto. apply Hq. apply Ht.
    + now apply convertible_iff.
    + congruence.
  - intros Hc. apply convertible_iff in Hc; auto.
    destruct (rescale_to_cases E q to) as [[_ ->]|[_ [[_ ->]|[X _]]]]; eauto. congruence.
Qed.

Lemma rescale_fail_iff E q to : renv_ok E -> dims_ok (qdim q) -> dims_ok to ->
  (rescale_to E q to = Err ValueError <-> ~ convertible E (qdim q) to).
Proof.
  intros H Hq Ht. pose proof (rescale_ok_iff E q to H Hq Ht) as OI. split.
  - intros He Hc. apply OI in Hc. destruct Hc as [r Hr]. congruence.
  - intros X. rewrite <- OI in X. destruct (rescale_to E q to) as [r|e] eqn:Er.
    + exfalso; eauto.
    + now rewrite (rescale_to_err E q to e Er).
Qed.

Lemma convertible_refl E d : convertible E d d.
Proof. exists 1. intros phi _. ring. Qed.
Lemma convertible_sym E d1 d2 : renv_ok E -> dims_ok d1 -> dims_ok d2 -> convertible E d1 d2 -> convertible E d2 d1.
Proof.
  intros H H1 H2 Hc. apply convertible_iff in Hc; auto. apply convertible_iff; auto.
  rewrite dim_eqb_sym; auto; apply (ref_pair_wf _ E H).
Qed.
Lemma convertible_trans E d1 d2 d3 : convertible E d1 d2 -> convertible E d2 d3 -> convertible E d1 d3.
Proof.
  intros [c1 H1] [c2 H2]. exists (c1 * c2). intros phi HC. rewrite (H1 _ HC), (H2 _ HC). ring.
Qed.
Lemma convertible_exp E d1 d2 : dims_ok d1 -> dims_ok d2 -> (forall u, exp_of d1 u = exp_of d2 u) -> convertible E d1 d2.
Proof.
  intros H1 H2 He. exists 1. intros phi _. rewrite Rmult_1_l. apply dimval_exp; auto. apply H1. apply H2.
Qed.

(** Magnitudes are determined by units and physical value. *)
Lemma same_value_mag E q1 q2 : renv_ok E -> wf_dims (qdim q1) -> wf_dims (qdim q2) ->
  (forall u, exp_of (qdim q1) u = exp_of (qdim q2) u) ->
  same_value E q1 q2 -> qsame q1 q2.
Proof.
  intros H W1 W2 He Hs. split; auto. destruct (consistent_exists E H) as [phi HC].
  specialize (Hs phi HC). unfold phys, amap in Hs. injection Hs as H1 H2.
  destruct q1 as [[s1 l1] d1], q2 as [[s2 l2] d2]; cbn in *. subst s2. f_equal.
  rewrite (dimval_exp phi d1 d2) in H2 by auto.
  pose proof (dimval_neq0 phi d2). revert l2 H2; induction l1 as [|x l1 IH]; intros [|y l2]; cbn; try discriminate; auto.
  intros [= Hx Hl]. f_equal; auto. apply (Rmult_eq_reg_r (dimval phi d2)); auto.
Qed.
Lemma same_value_sym E q1 q2 : same_value E q1 q2 -> same_value E q2 q1.
Proof. intros H phi HC. symmetry. now apply H. Qed.
Lemma same_value_trans E q1 q2 q3 : same_value E q1 q2 -> same_value E q2 q3 -> same_value E q1 q3.
Proof. intros H1 H2 phi HC. rewrite (H1 _ HC). now apply H2. Qed.
Lemma same_value_refl E q : same_value E q q.
Proof. intros phi _. reflexivity. Qed.

(** Path independence. *)
Lemma rescale_path E q a b r s : renv_ok E -> qty_ok q -> dims_ok a -> dims_ok b ->
  rescale_to E q a = Ok r -> rescale_to E r b = Ok s ->
  exists s', rescale_to E q b = Ok s' /\ qsame s s'.
Proof.
  intros H Hq Ha Hb Hr Hs.
  assert (Hro : qty_ok r) by exact (rescale_to_qty_ok E q a r Hq Ha Hr).
  assert (Hso : qty_ok s) by exact (rescale_to_qty_ok E r b s Hro Hb Hs).
  assert (C1 : convertible E (qdim q) a) by (apply rescale_ok_iff; eauto; apply Hq).
  assert (C2 : convertible E (qdim r) b) by (apply rescale_ok_iff; eauto; apply Hro).
  assert (C3 : convertible E a (qdim r)).
  { apply convertible_exp; auto; [apply Hro|]. intros u. symmetry.
    eapply (rescale_to_dim E); eauto; [apply Hq|apply Ha]. }
  assert (C : convertible E (qdim q) b) by eauto using convertible_trans.
  apply rescale_ok_iff in C; [|assumption|apply Hq|assumption]. destruct C as [s' Hs'].
  exists s'. split; auto.
  assert (Hso' : qty_ok s') by exact (rescale_to_qty_ok E q b s' Hq Hb Hs').
  apply same_value_mag with (E := E); auto; [apply Hso|apply Hso'| |].
  - intros u. rewrite (rescale_to_dim E r b s), (rescale_to_dim E q b s'); auto; try apply Hro; try apply Hb. apply Hq.
  - apply same_value_trans with r; [exact (rescale_value E r b s H (proj2 Hro) Hb Hs)|].
    apply same_value_trans with q; [exact (rescale_value E q a r H (proj2 Hq) Ha Hr)|].
    apply same_value_sym. exact (rescale_value E q b s' H (proj2 Hq) Hb Hs').
Qed.

Lemma rescale_roundtrip E q a r : renv_ok E -> qty_ok q -> dims_ok a ->
  rescale_to E q a = Ok r -> exists s, rescale_to E r (qdim q) = Ok s /\ qsame s q.
Proof.
  intros H Hq Ha Hr.
  assert (Hro : qty_ok r) by exact (rescale_to_qty_ok E q a r Hq Ha Hr).
  assert (C : convertible E (qdim r) (qdim q)).
  { apply convertible_trans with a.
    - apply convertible_exp; auto; [apply Hro|]. eapply (rescale_to_dim E); eauto; [apply Hq|apply Ha].
    - apply convertible_sym; auto; [apply Hq|]. apply rescale_ok_iff; eauto. apply Hq. }
  apply rescale_ok_iff in C; auto; [|apply Hro|apply Hq]. destruct C as [s Hs]. exists s. split; auto.
  assert (Hso : qty_ok s) by exact (rescale_to_qty_ok E r (qdim q) s Hro (proj2 Hq) Hs).
  apply same_value_mag with (E := E); auto; [apply Hso|apply Hq| |].
  - eapply (rescale_to_dim E); eauto; [apply Hro|apply Hq].
  - apply same_value_trans with r; [exact (rescale_value E r (qdim q) s H (proj2 Hro) (proj2 Hq) Hs)|].
    exact (rescale_value E q a r H (proj2 Hq) Ha Hr).
Qed.

(** ** The conversion factor *)

Lemma conv_factor_spec E d1 d2 : renv_ok E -> dims_ok d1 -> dims_ok d2 ->
  (forall c, conv_factor E d1 d2 = Ok c <-> converts E d1 d2 c) /\
  (conv_factor E d1 d2 = Err AssertionError <-> ~ convertible E d1 d2).
Proof.
  intros H H1 H2. unfold conv_factor, qty_ref; cbn [fst snd].
  pose proof (convertible_iff E d1 d2 H H1 H2) as CI.
  pose proof (ref_pair_pos E d1 H) as P1. pose proof (ref_pair_pos E d2 H) as P2.
  destruct (dim_eqb (snd (ref_pair E d1)) (snd (ref_pair E d2))) eqn:He.
  - split.
    + intros c. split.
      * intros [= <-]. now apply cf_converts.
      * intros Hc. f_equal. rewrite (converts_factor E d1 d2 c); auto.
        cbn [nmul n1 NumR ndiv]. rewrite !Rmult_1_r. reflexivity.
    + split; [discriminate|]. intros X. exfalso. apply X. now apply CI.
  - split.
    + intros c; split; [discriminate|]. intros Hc. assert (convertible E d1 d2) by (exists c; auto).
      apply CI in H0. discriminate.
    + split; auto. intros _ X. apply CI in X. discriminate.
Qed.

Lemma converts_refl E d : converts E d d 1.
Proof. intros phi _. ring. Qed.
Lemma converts_trans E d1 d2 d3 a b : converts E d1 d2 a -> converts E d2 d3 b -> converts E d1 d3 (a * b).
Proof. intros H1 H2 phi HC. rewrite (H1 _ HC), (H2 _ HC). ring. Qed.
Lemma converts_pos E d1 d2 c : renv_ok E -> converts E d1 d2 c -> 0 < c.
Proof.
  intros H Hc. destruct (consistent_exists E H) as [phi HC]. specialize (Hc _ HC).
  pose proof (dimval_pos phi d1). pose proof (dimval_pos phi d2). rewrite Hc in H0.
  apply Rnot_le_lt. intros X. assert (c * dimval phi d2 <= 0 * dimval phi d2) by (apply Rmult_le_compat_r; lra). lra.
Qed.
Lemma converts_inv E d1 d2 c : renv_ok E -> converts E d1 d2 c -> converts E d2 d1 (/ c).
Proof.
  intros H Hc phi HC. pose proof (converts_pos _ _ _ _ H Hc). rewrite (Hc _ HC). field. lra.
Qed.
Lemma converts_mul E a b c d x y : converts E a b x -> converts E c d y ->
  converts E (dim_mul a c) (dim_mul b d) (x * y).
Proof. intros H1 H2 phi HC. rewrite !dimval_mul, (H1 _ HC), (H2 _ HC). ring. Qed.
Lemma converts_div E a b c d x y : renv_ok E -> converts E a b x -> converts E c d y ->
  converts E (dim_div a c) (dim_div b d) (x / y).
Proof.
  intros H H1 H2 phi HC. rewrite !dimval_div, (H1 _ HC), (H2 _ HC).
  pose proof (converts_pos _ _ _ _ H H2). pose proof (dimval_pos phi d). field. lra.
Qed.
Lemma converts_pow E a b x p : renv_ok E -> converts E a b x -> converts E (dim_pow a p) (dim_pow b p) (rpow x p).
Proof.
  intros H H1 phi HC. pose proof (converts_pos _ _ _ _ H H1).
  rewrite !dimval_pow, (H1 _ HC), rpow_Rpower by assumption.
  rewrite Rpower_mult_distr; auto. apply dimval_pos.
Qed.

(** ** simplified *)

Definition defaults_wf (D : defaults) : Prop := forall c dd, D c = Some dd -> dims_ok dd.

Section Simp.
  Variable E : uenv R.
  Variable D : defaults.
  Hypothesis HE : renv_ok E.
  Hypothesis HD : defaults_wf D.

  (** Units of a simplified dimensionality: keys of some default. *)
  Definition is_default (w : uid) : Prop := exists c dd, D c = Some dd /\ In w (dkeys dd).
  Definition by_defaults (d : dims) : Prop := dims_ok d /\ forall w, In w (dkeys d) -> is_default w.

  Lemma by_defaults_mul d1 d2 : by_defaults d1 -> by_defaults d2 -> by_defaults (dim_mul d1 d2).
  Proof.
    intros [W1 H1] [W2 H2]. split; [now apply dims_ok_mul|]. intros u Hu.
    apply In_dkeys_exp_mul in Hu; [|apply W1|apply W2]. destruct Hu; auto.
  Qed.
  Lemma by_defaults_pow d p : by_defaults d -> by_defaults (dim_pow d p).
  Proof. intros [W H]. split; [now apply dims_ok_pow|]. intros u Hu. apply In_dkeys_pow in Hu; auto. Qed.
  Lemma by_defaults_nil : by_defaults [].
  Proof. split; [apply dims_ok_nil|intros u []]. Qed.

  Definition good_simp (u : uid) (x : R * dims) : Prop :=
    0 < fst x /\ by_defaults (snd x) /\
    (forall phi, consistent E phi -> dimval phi (unit_dims u) = fst x * dimval phi (snd x)).

  Lemma simp_fold_gen (f : uid -> res (R * dims)) d0 acc rq :
    (forall u x, In u (dkeys d0) -> f u = Ok x -> good_simp u x) ->
    (forall u, In u (dkeys d0) -> u_cls u <> CDimless) ->
    fold_left (fun acc kv => rq <- acc ;; x <- f (fst kv) ;; Ok (sc_mul_pow rq x (snd kv))) d0 acc = Ok rq ->
    forall a, acc = Ok a -> 0 < fst a -> by_defaults (snd a) ->
    0 < fst rq /\ by_defaults (snd rq) /\
    (forall phi, consistent E phi -> fst a * dimval phi (snd a) * dimval phi d0 = fst rq * dimval phi (snd rq)).
  Proof.
    revert acc. induction d0 as [|[u e] d0 IH]; intros acc Hf Hn; cbn [fold_left].
    - intros -> a [= <-] Hp Hb. split; [exact Hp|split; [exact Hb|]]. intros phi HC. cbn. ring.
    - intros HF a -> Hp Hb. cbn [bind fst snd] in HF.
      destruct (f u) as [x|e0] eqn:Ex.
      + destruct (Hf u x) as (Hx1 & Hx2 & Hx3); [cbn; auto|assumption|].
        cbn [bind] in HF.
        destruct (IH (Ok (sc_mul_pow a x e))) with (a := sc_mul_pow a x e) as (I1 & I2 & I3); auto.
        * intros v y Hv; apply Hf; cbn; auto.
        * intros v Hv; apply Hn; cbn; auto.
        * cbn. apply Rmult_lt_0_compat; auto. now apply rpow_pos.
        * cbn [sc_mul_pow snd]. apply by_defaults_mul; auto. now apply by_defaults_pow.
        * split; [exact I1|split; [exact I2|]]. intros phi HC. rewrite <- (I3 phi HC).
          cbn [sc_mul_pow fst snd dimval nmul npow NumR].
          rewrite dimval_mul, dimval_pow, rpow_Rpower by assumption.
          assert (Hu : phi u = fst x * dimval phi (snd x)).
          { rewrite <- (Hx3 phi HC), dimval_unit'; auto; [apply HC|]. apply Hn. cbn; auto. }
          rewrite Hu, <- Rpower_mult_distr by (auto; apply dimval_pos). ring.
      + cbn [bind] in HF. exfalso. clear - HF. revert HF.
        assert (G : forall d (a : exn), fold_left (fun acc kv => rq <- acc ;; x <- f (fst kv) ;; Ok (sc_mul_pow rq x (snd kv))) d (Err a) = Err a)
          by (induction d; cbn; auto).
        rewrite G. discriminate.
  Qed.

  Lemma simp_unit_good fuel : forall u x, simp_unit fuel E D u = Ok x -> good_simp u x.
  Proof.
    induction fuel as [|fuel IH]; intros u x; cbn [simp_unit]; [discriminate|].
    destruct (is_irreducible (u_cls u)) eqn:Ei.
    - destruct (D (u_cls u)) as [dd|] eqn:Ed; [|discriminate].
      pose proof (HD _ _ Ed) as Wd. pose proof (dims_ok_unit u) as Wu.
      destruct (dim_eqb (unit_dims u) dd) eqn:Ee.
      + intros [= <-]. split; [cbn; lra|split].
        * split; auto. cbn [snd]. intros w Hw. exists (u_cls u), dd. split; auto.
          apply (in_dkeys_exp dd w (proj1 Wd)).
          rewrite <- (proj1 (dim_eqb_exp _ _ (proj1 Wu) (proj1 Wd)) Ee w).
          now apply in_dkeys_exp; [apply Wu|].
        * intros phi _. cbn. ring.
      + destruct (conv_factor E (unit_dims u) dd) as [cf|e] eqn:Ec.
        * intros [= <-]. destruct (conv_factor_spec E (unit_dims u) dd HE Wu Wd) as [S _].
          apply S in Ec. split; [|split].
          -- cbn. rewrite Rmult_1_r. eapply converts_pos; eauto.
          -- split; auto. intros w Hw. exists (u_cls u), dd. auto.
          -- intros phi HC. cbn [fst snd nmul n1 NumR]. rewrite Rmult_1_r. now apply Ec.
        * apply conv_factor_err in Ec. subst. discriminate.
    - destruct (ulookup E u) as [r|] eqn:Er; [|apply IH].
      destruct (ur_ref r) as [[a d]|] eqn:Ef; [|apply IH].
      destruct (fold_left _ d _) as [rq|e] eqn:EF; cbn [bind]; [|discriminate].
      intros [= <-].
      assert (Hroots : roots_only E (snd (unit_ref E u))) by (eapply unit_ref_roots; eauto).
      assert (Hu : unit_ref E u = (a, d)) by (unfold unit_ref; now rewrite Er, Ef).
      rewrite Hu in Hroots. cbn [snd] in Hroots.
      destruct (simp_fold_gen (simp_unit fuel E D) d (Ok (1, [])) rq) with (a := (1, @nil (uid * pynum)))
        as (I1 & I2 & I3); auto.
      + intros v Hv. now apply Hroots.
      + cbn; lra.
      + apply by_defaults_nil.
      + assert (Ha : 0 < a) by (pose proof (ref_pos_all E HE u) as X; rewrite Hu in X; exact X).
        split; [|split; auto].
        * cbn. apply Rmult_lt_0_compat; auto.
        * intros phi HC. cbn [fst snd nmul NumR].
          assert (Hc : u_cls u <> CDimless).
          { destruct (ur_def r) as [df|] eqn:Edf.
            - now destruct (env_ok_lookup _ E HE u r df Er Edf).
            - apply (env_ok_def_ref _ E HE u r Er) in Edf. congruence. }
          rewrite dimval_unit' by (auto; apply HC).
          rewrite (consistent_ref E phi HE HC u Hc), Hu. cbn [fst snd].
          specialize (I3 phi HC). cbn [fst snd dimval] in I3. rewrite !Rmult_1_l in I3. rewrite I3. ring.
  Qed.

  Lemma simp_dims_good fuel d rq : dims_ok d -> simp_dims fuel E D d = Ok rq ->
    0 < fst rq /\ by_defaults (snd rq) /\
    (forall phi, consistent E phi -> dimval phi d = fst rq * dimval phi (snd rq)).
  Proof.
    intros Hd H. unfold simp_dims in H.
    destruct (simp_fold_gen (simp_unit fuel E D) d (Ok (1, [])) rq) with (a := (1, @nil (uid * pynum)))
      as (I1 & I2 & I3); auto.
    - intros u x _. apply simp_unit_good.
    - apply Hd.
    - cbn; lra.
    - apply by_defaults_nil.
    - split; [exact I1|split; [exact I2|]]. intros phi HC. specialize (I3 phi HC). cbn [fst snd dimval] in I3.
      rewrite <- I3. ring.
  Qed.

  Lemma simplified_good fuel q r : dims_ok (qdim q) -> simplified fuel E D q = Ok r ->
    by_defaults (qdim r) /\ same_value E r q /\ shp (mag r) = shp (mag q).
  Proof.
    intros Hq. unfold simplified. destruct (simp_dims fuel E D (qdim q)) as [rq|e] eqn:Es; cbn [bind]; [|discriminate].
    intros [= <-]. destruct (simp_dims_good _ _ _ Hq Es) as (H1 & H2 & H3).
    split; [exact H2|split; [|reflexivity]]. intros phi HC. destruct q as [m d]; cbn [mag qdim] in *.
    apply phys_rescaled. now apply H3.
  Qed.
End Simp.
