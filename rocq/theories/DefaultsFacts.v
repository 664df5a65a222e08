(** * DefaultsFacts: histories of unit creations and default changes. *)
From Coq Require Import Reals Lra.
From Verif Require Import Py Num Dim DimFacts Arr Units Spec UnitFacts Quant QuantFacts SimpFacts SpecApi ConvFacts Defaults.

Lemma set_cls_same D c d : set_cls D c d c = Some d.
Proof. unfold set_cls. now replace (ucls_eqb c c) with true by (symmetry; now apply ucls_eqb_eq). Qed.
Lemma set_cls_other D c c' d : c' <> c -> set_cls D c d c' = D c'.
Proof. intros H. unfold set_cls. destruct (ucls_eqb c c') eqn:E; auto. apply ucls_eqb_eq in E. congruence. Qed.

(** States reachable from an empty package by creating units and changing defaults:
    the units, the current defaults, the first unit of each class. *)
Inductive reach : uenv R -> defaults -> (ucls -> option uid) -> Prop :=
| reach_init : reach [] (fun _ => None) (fun _ => None)
| reach_create E D F u order df sym usym aliases :
    reach E D F -> ~ In u (dkeys E) ->
    (forall x, df = Some x -> u_cls u <> CDimless /\ def_ok (fun a => (0 < a)%R) E x) ->
    reach (E ++ [(u, new_unit E order df sym usym aliases)]) (init_default D u)
          (fun c => if ucls_eqb (u_cls u) c then match F c with None => Some u | x => x end else F c)
| reach_set E D F lookup c (a : sarg R) :
    reach E D F -> (forall s q, lookup s = Ok q -> dims_ok (qdim q) /\ known E (qdim q)) ->
    (forall q, a = SQty q -> dims_ok (qdim q) /\ known E (qdim q)) ->
    reach E (fst (set_default_unit lookup E D c a)) F.

Lemma reach_env E D F : reach E D F -> renv_ok E.
Proof. induction 1; auto. - constructor. - now apply env_new. Qed.

Lemma consistent_extend E X phi : consistent (E ++ X) phi -> consistent E phi.
Proof.
  intros [P C]. split; auto. intros u r df Hu Hd. apply (C u r df); auto. now apply ulookup_app_l.
Qed.
Lemma convertible_extend E X d1 d2 : convertible E d1 d2 -> convertible (E ++ X) d1 d2.
Proof. intros [c H]. exists c. intros phi HC. apply H. eapply consistent_extend; eauto. Qed.

Lemma set_default_cases lookup (E : uenv R) D c a :
  (fst (set_default_unit lookup E D c a) = D) \/
  (exists q dd, (a = SQty q \/ exists s, a = SStr s /\ lookup s = Ok q) /\ D c = Some dd /\ is_unit_quantity q = true /\
     (exists cf, conv_factor E dd (qdim q) = Ok cf) /\ set_default_unit lookup E D c a = (set_cls D c (qdim q), Ok tt)).
Proof.
  assert (Q : forall q, fst (set_default_q E D c q) = D \/
     exists dd, D c = Some dd /\ is_unit_quantity q = true /\ (exists cf, conv_factor E dd (qdim q) = Ok cf) /\
        set_default_q E D c q = (set_cls D c (qdim q), Ok tt)).
  { intros q. unfold set_default_q. destruct (D c) as [dd|]; auto. destruct (is_unit_quantity q); auto.
    destruct (conv_factor E dd (qdim q)) as [cf|e] eqn:Ec.
    - right. exists dd. rewrite Ec. eauto 10.
    - left. destruct e; auto. }
  destruct a as [|s|q|]; cbn [set_default_unit]; auto.
  - destruct (lookup s) as [q|e] eqn:El; auto. destruct (Q q) as [H|(dd & H1 & H2 & H3 & H4)]; auto.
    right. exists q, dd. eauto 10.
  - destruct (Q q) as [H|(dd & H1 & H2 & H3 & H4)]; auto. right. exists q, dd. eauto 10.
Qed.

Lemma reach_inv E D F : reach E D F ->
  (forall c dd, D c = Some dd -> is_irreducible c = true /\
     exists f, F c = Some f /\ dims_ok dd /\ known E dd /\ convertible E dd (unit_dims f) /\ In f (dkeys E) /\ u_cls f = c) /\
  (forall c f, F c = Some f -> is_irreducible c = true -> exists dd, D c = Some dd).
Proof.
  induction 1 as [|E D F u order df sym usym aliases H [IH1 IH2] Hn Hd|E D F lookup c0 a H [IH1 IH2] Hl Ha].
  - split; [discriminate|discriminate].
  - split.
    + intros c dd Hc. unfold init_default in Hc.
      assert (Old : D c = Some dd -> is_irreducible c = true /\
        exists f, (if ucls_eqb (u_cls u) c then match F c with None => Some u | x => x end else F c) = Some f /\
          dims_ok dd /\ known (E ++ [(u, new_unit E order df sym usym aliases)]) dd /\
          convertible (E ++ [(u, new_unit E order df sym usym aliases)]) dd (unit_dims f) /\
          In f (dkeys (E ++ [(u, new_unit E order df sym usym aliases)])) /\ u_cls f = c).
      { intros Ho. destruct (IH1 c dd Ho) as (Hi & f & F1 & F2 & F3 & F4 & F5 & F6). split; auto.
        exists f. split; [|split; [|split; [|split; [|split]]]]; auto.
        - rewrite F1. destruct (ucls_eqb (u_cls u) c); auto.
        - intros v Hv. rewrite dkeys_app, in_app_iff. left. now apply F3.
        - now apply convertible_extend.
        - rewrite dkeys_app, in_app_iff. auto. }
      destruct (is_irreducible (u_cls u)) eqn:Ei; auto.
      destruct (D (u_cls u)) as [dd'|] eqn:Ed; auto.
      destruct (ucls_eqb (u_cls u) c) eqn:Ec.
      * pose proof Ec as Ec'. apply ucls_eqb_eq in Ec'. subst c. rewrite set_cls_same in Hc. injection Hc as <-.
        split; auto. exists u.
        split; [|split; [|split; [|split; [|split]]]]; auto.
        -- destruct (F (u_cls u)) as [f|] eqn:Ef; auto. destruct (IH2 _ _ Ef Ei) as [x Hx]. congruence.
        -- apply dims_ok_unit.
        -- intros v Hv. apply In_unit_dims in Hv. subst. rewrite dkeys_app, in_app_iff. cbn. auto.
        -- apply convertible_refl.
        -- rewrite dkeys_app, in_app_iff. cbn. auto.
      * rewrite set_cls_other in Hc by (intros ->; rewrite (proj2 (ucls_eqb_eq _ _) eq_refl) in Ec; discriminate).
        auto.
    + intros c f Hf Hi. unfold init_default.
      destruct (ucls_eqb (u_cls u) c) eqn:Ec.
      * apply ucls_eqb_eq in Ec. subst c. rewrite Hi.
        destruct (D (u_cls u)) eqn:Ed; [eauto|]. rewrite set_cls_same. eauto.
      * destruct (IH2 c f Hf Hi) as [dd Hdd].
        destruct (is_irreducible (u_cls u)); eauto. destruct (D (u_cls u)) eqn:Ed; eauto.
        rewrite set_cls_other by (intros ->; rewrite (proj2 (ucls_eqb_eq _ _) eq_refl) in Ec; discriminate). eauto.
  - destruct (set_default_cases lookup E D c0 a) as [He|(q & dd0 & Hq & H1 & H2 & H3 & H4)].
    + rewrite He. split; auto.
    + rewrite H4. cbn [fst].
      assert (Wq : dims_ok (qdim q) /\ known E (qdim q)) by (destruct Hq as [->|(s & -> & Hs)]; eauto).
      destruct (IH1 c0 dd0 H1) as (Hi & f & F1 & F2 & F3 & F4 & F5 & F6).
      split.
      * intros c dd Hc. destruct (ucls_eqb c0 c) eqn:Ec.
        -- apply ucls_eqb_eq in Ec. subst c. rewrite set_cls_same in Hc. injection Hc as <-.
           split; auto. exists f. split; [exact F1|]. split; [apply Wq|]. split; [apply Wq|]. split; [|auto].
           apply convertible_trans with dd0; auto. apply convertible_sym; auto; [now apply reach_env in H|apply Wq|].
           destruct H3 as [cf Hcf]. exists cf.
           apply (proj1 (conv_factor_spec E dd0 (qdim q) (reach_env _ _ _ H) F2 (proj1 Wq))). exact Hcf.
        -- rewrite set_cls_other in Hc by (intros ->; rewrite (proj2 (ucls_eqb_eq _ _) eq_refl) in Ec; discriminate). auto.
      * intros c f' Hf Hc. destruct (ucls_eqb c0 c) eqn:Ec.
        -- apply ucls_eqb_eq in Ec. subst c. rewrite set_cls_same. eauto.
        -- rewrite set_cls_other by (intros ->; rewrite (proj2 (ucls_eqb_eq _ _) eq_refl) in Ec; discriminate). eauto.
Qed.

Lemma reach_defaults_wf E D F : reach E D F -> defaults_wf D.
Proof. intros H c dd Hc. destruct (reach_inv _ _ _ H) as [I _]. destruct (I c dd Hc) as (_ & f & _ & W & _). exact W. Qed.

Lemma set_defaults_reach E F lookup l : forall D, reach E D F ->
  (forall s q, lookup s = Ok q -> dims_ok (qdim q) /\ known E (qdim q)) ->
  (forall c q, In (c, SQty q) l -> dims_ok (qdim q) /\ known E (qdim q)) ->
  reach E (fst (set_defaults lookup E D l)) F.
Proof.
  induction l as [|[c a] l IH]; intros D H Hl Hq; cbn [set_defaults]; auto.
  assert (R1 : reach E (fst (set_default_unit lookup E D c a)) F).
  { apply reach_set; auto. intros q ->. apply (Hq c q). cbn; auto. }
  destruct (set_default_unit lookup E D c a) as [D' [x|e]]; cbn [fst] in *; auto.
  apply IH; auto. intros c' q' Hin. apply (Hq c' q'). cbn; auto.
Qed.
