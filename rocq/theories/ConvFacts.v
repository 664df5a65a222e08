(** * ConvFacts: API-level conversion lemmas. *)
From Coq Require Import Reals Lra.
From Verif Require Import Py Num Dim DimFacts Arr Units Spec UnitFacts Quant QuantFacts SimpFacts SpecApi.

Section A.
  Context {A : Type} {N : Num A}.
  Implicit Types E X : uenv A.
  Lemma denotes_validate lookup (arg : uarg A) d : denotes_units lookup arg d -> validate_dimensionality lookup arg = Ok d.
  Proof.
    intros H. inversion H as [s q H1|q x H1 H2|]; subst; cbn.
    - now rewrite H1.
    - unfold is_unit_quantity. destruct H1 as [->| ->]; cbn; now rewrite H2.
    - reflexivity.
  Qed.
  Lemma validate_denotes lookup (arg : uarg A) d : validate_dimensionality lookup arg = Ok d -> denotes_units lookup arg d.
  Proof.
    destruct arg as [s|q|d'|]; cbn.
    - destruct (lookup s) as [q|e] eqn:El.
      + intros [= <-]. now constructor.
      + destruct e; discriminate.
    - destruct (is_unit_quantity q) eqn:Eu; [|discriminate]. intros [= <-].
      unfold is_unit_quantity in Eu. destruct q as [[s l] dq]; cbn in *.
      destruct s as [|[|[|n]] [|m s]]; try discriminate Eu; destruct l as [|x [|y l]]; try discriminate Eu;
        try (eapply (den_qty _ (Qty _ _)); [cbn; eauto|exact Eu]).
    - intros [= <-]. constructor.
    - discriminate.
  Qed.
  Lemma rescale_denotes lookup E q (arg : uarg A) d : denotes_units lookup arg d ->
    rescale lookup E q arg = rescale_to E q d.
  Proof. intros H. unfold rescale. now rewrite (denotes_validate _ _ _ H). Qed.

  (** ** New units do not change old conversions *)
  Lemma ulookup_extend E X u : In u (dkeys E) -> ulookup (E ++ X) u = ulookup E u.
  Proof.
    intros H. destruct (ulookup E u) as [r|] eqn:El.
    - now apply ulookup_app_l.
    - apply ulookup_None in El. contradiction.
  Qed.
  Lemma unit_ref_extend E X u : In u (dkeys E) -> unit_ref (E ++ X) u = unit_ref E u.
  Proof. intros H. unfold unit_ref. now rewrite ulookup_extend. Qed.
  Lemma ref_pair_extend E E' d : extends E E' -> known E d -> ref_pair E' d = ref_pair E d.
  Proof. intros [X ->] K. apply ref_pair_ext. intros u Hu. apply unit_ref_extend. now apply K. Qed.
  Lemma conv_factor_extend E E' d1 d2 : extends E E' -> known E d1 -> known E d2 ->
    conv_factor E' d1 d2 = conv_factor E d1 d2.
  Proof.
    intros X K1 K2. unfold conv_factor, qty_ref.
    now rewrite (ref_pair_extend E E' d1), (ref_pair_extend E E' d2) by assumption.
  Qed.
  Lemma rescale_to_extend E E' q d : extends E E' -> known E (qdim q) -> known E d ->
    rescale_to E' q d = rescale_to E q d.
  Proof.
    intros X K1 K2. unfold rescale_to. now rewrite (conv_factor_extend E E') by assumption.
  Qed.
  Lemma fold_res_ext (f g : uid -> res (A * dims)) d acc : (forall u, In u (dkeys d) -> f u = g u) ->
    fold_left (fun acc kv => rq <- acc ;; x <- f (fst kv) ;; Ok (sc_mul_pow rq x (snd kv))) d acc =
    fold_left (fun acc kv => rq <- acc ;; x <- g (fst kv) ;; Ok (sc_mul_pow rq x (snd kv))) d acc.
  Proof.
    revert acc. induction d as [|[u e] d IH]; intros acc H; cbn [fold_left]; auto.
    cbn [fst]. rewrite (H u) by (cbn; auto). apply IH. intros v Hv. apply H. cbn; auto.
  Qed.
  Lemma known_unit E u : In u (dkeys E) -> known E (unit_dims u).
  Proof. intros H v Hv. apply In_unit_dims in Hv. now subst. Qed.
  Lemma simp_unit_extend pos E E' D fuel : env_ok pos E -> extends E E' ->
    (forall c dd, D c = Some dd -> known E dd) ->
    forall u, In u (dkeys E) -> simp_unit fuel E' D u = simp_unit fuel E D u.
  Proof.
    intros HE X HD. induction fuel as [|fuel IH]; intros u Hu; cbn [simp_unit]; auto.
    destruct (is_irreducible (u_cls u)) eqn:Ei.
    - destruct (D (u_cls u)) as [dd|] eqn:Ed; auto.
      rewrite (conv_factor_extend E E'); eauto using known_unit.
    - destruct X as [X ->]. rewrite ulookup_extend by assumption.
      destruct (ulookup E u) as [r|] eqn:Er; auto.
      destruct (ur_ref r) as [[a d]|] eqn:Ef; auto.
      rewrite (fold_res_ext (simp_unit fuel (E ++ X) D) (simp_unit fuel E D)); auto.
      intros v Hv. apply IH.
      destruct (unit_ref_known_roots pos E HE u Hu) as [_ K]. apply K.
      unfold unit_ref. rewrite Er, Ef. exact Hv.
  Qed.
  Lemma simplified_extend pos E E' D fuel q : env_ok pos E -> extends E E' ->
    (forall c dd, D c = Some dd -> known E dd) -> known E (qdim q) ->
    simplified fuel E' D q = simplified fuel E D q.
  Proof.
    intros HE X HD K. unfold simplified, simp_dims.
    rewrite (fold_res_ext (simp_unit fuel E' D) (simp_unit fuel E D)); auto.
    intros u Hu. eapply simp_unit_extend; eauto.
  Qed.

  (** ** Divergence of [simplified] *)
  Lemma simp_unit_diverges pos E D u fuel : env_ok pos E -> undefined_unit E u -> is_irreducible (u_cls u) = false ->
    simp_unit fuel E D u = Err RecursionError.
  Proof.
    intros HE Hu Hi. induction fuel as [|fuel IH]; cbn [simp_unit]; auto. rewrite Hi.
    destruct (ulookup E u) as [r|] eqn:Er; auto.
    destruct (ur_ref r) as [[a d]|] eqn:Ef; auto.
    pose proof (proj2 (env_ok_def_ref pos E HE u r Er) (Hu r Er)). congruence.
  Qed.
End A.

Section Dless.
  Lemma dimless_convertible (E : uenv R) d : renv_ok E -> dims_ok d ->
    (convertible E d [] <-> exists c, (0 < c)%R /\ forall phi, consistent E phi -> dimval phi d = c).
  Proof.
    intros HE Hd. split.
    - intros [c Hc]. exists c. split; [eapply converts_pos; eauto|]. intros phi HC. rewrite (Hc phi HC). cbn. ring.
    - intros (c & _ & Hc). exists c. intros phi HC. rewrite (Hc phi HC). cbn. ring.
  Qed.
End Dless.
