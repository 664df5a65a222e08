(** * DimFacts: lemmas about [Dim]. *)
From Verif Require Import Py Dim.
From Coq Require Import Permutation.


#[local] Notation keq := uid_eqb_eq.

Lemma dim_get_None d u : dim_get d u = None <-> ~ In u (dkeys d).
Proof. apply dget_None_notin, keq. Qed.

Lemma exp_of_notin d u : ~ In u (dkeys d) -> exp_of d u = 0%Qc.
Proof. intros H. unfold exp_of. apply dim_get_None in H. now rewrite H. Qed.

Lemma dim_get_In d u p : dim_get d u = Some p -> In (u, p) d.
Proof. apply dget_In, keq. Qed.
Lemma In_dim_get d u p : NoDup (dkeys d) -> In (u, p) d -> dim_get d u = Some p.
Proof. apply In_dget, keq. Qed.

Lemma In_dkeys (d : dims) u p : In (u, p) d -> In u (dkeys d).
Proof. intros H. apply (in_map fst) in H. exact H. Qed.

Lemma dim_get_Some_in d u p : dim_get d u = Some p -> In u (dkeys d).
Proof. intros H. eapply In_dkeys, dim_get_In, H. Qed.

Lemma exp_of_nil u : exp_of [] u = 0%Qc.
Proof. reflexivity. Qed.

Lemma exp_of_In d u p : NoDup (dkeys d) -> In (u, p) d -> exp_of d u = pval p.
Proof. intros ND H. unfold exp_of. now rewrite (In_dim_get _ _ _ ND H). Qed.

Lemma exp_of_cons_same u p d : exp_of ((u, p) :: d) u = pval p.
Proof. unfold exp_of, dim_get; cbn. now rewrite uid_eqb_refl. Qed.
Lemma exp_of_cons_other u p d v : v <> u -> exp_of ((u, p) :: d) v = exp_of d v.
Proof.
  intros H. unfold exp_of, dim_get; cbn.
  destruct (uid_eqb v u) eqn:E; auto. apply keq in E; contradiction.
Qed.

Lemma exp_of_dset_same d u p : exp_of (dset uid_eqb d u p) u = pval p.
Proof. unfold exp_of, dim_get. now rewrite dget_dset_same by apply keq. Qed.
Lemma exp_of_dset_other d u v p : v <> u -> exp_of (dset uid_eqb d u p) v = exp_of d v.
Proof. intros H. unfold exp_of, dim_get. now rewrite dget_dset_other by (auto; apply keq). Qed.
Lemma exp_of_dpop_same d u : NoDup (dkeys d) -> exp_of (dpop uid_eqb d u) u = 0%Qc.
Proof. intros H. unfold exp_of, dim_get. now rewrite dget_dpop_same by (auto; apply keq). Qed.
Lemma exp_of_dpop_other d u v : v <> u -> exp_of (dpop uid_eqb d u) v = exp_of d v.
Proof. intros H. unfold exp_of, dim_get. now rewrite dget_dpop_other by (auto; apply keq). Qed.

(** ** One step of [__mul__] / [__truediv__] *)

Lemma NoDup_mul_step (d : dims) kv : NoDup (dkeys d) -> NoDup (dkeys (dim_mul_step d kv)).
Proof.
  intros ND. destruct kv as [u p]; cbn. destruct (dim_get d u) as [e|] eqn:E.
  - destruct (pzero (padd e p)).
    + apply NoDup_dpop. apply NoDup_dset; auto using keq.
    + apply NoDup_dset; auto using keq.
  - apply NoDup_dset; auto using keq.
Qed.
Lemma NoDup_div_step d kv : NoDup (dkeys d) -> NoDup (dkeys (dim_div_step d kv)).
Proof.
  intros ND. destruct kv as [u p]; cbn. destruct (dim_get d u) as [e|] eqn:E.
  - destruct (pzero (psub e p)).
    + apply NoDup_dpop. apply NoDup_dset; auto using keq.
    + apply NoDup_dset; auto using keq.
  - apply NoDup_dset; auto using keq.
Qed.

Lemma exp_of_mul_step d u p v :
  NoDup (dkeys d) ->
  exp_of (dim_mul_step d (u, p)) v = (exp_of d v + (if uid_eqb v u then pval p else 0))%Qc.
Proof.
  intros ND. cbn. destruct (uid_eqb v u) eqn:Ev.
  - apply keq in Ev; subst v. unfold exp_of at 2. destruct (dim_get d u) as [e|] eqn:E.
    + destruct (pzero (padd e p)) eqn:Z.
      * rewrite exp_of_dpop_same by (apply NoDup_dset; auto using keq).
        apply pzero_true in Z. now rewrite <- pval_padd.
      * rewrite exp_of_dset_same. apply pval_padd.
    + rewrite exp_of_dset_same. ring.
  - assert (N : v <> u) by (intros ->; rewrite uid_eqb_refl in Ev; congruence).
    destruct (dim_get d u) as [e|].
    + destruct (pzero (padd e p)).
      * rewrite exp_of_dpop_other, exp_of_dset_other by assumption. ring.
      * rewrite exp_of_dset_other by assumption. ring.
    + rewrite exp_of_dset_other by assumption. ring.
Qed.
Lemma exp_of_div_step d u p v :
  NoDup (dkeys d) ->
  exp_of (dim_div_step d (u, p)) v = (exp_of d v - (if uid_eqb v u then pval p else 0))%Qc.
Proof.
  intros ND. cbn. destruct (uid_eqb v u) eqn:Ev.
  - apply keq in Ev; subst v. unfold exp_of at 2. destruct (dim_get d u) as [e|] eqn:E.
    + destruct (pzero (psub e p)) eqn:Z.
      * rewrite exp_of_dpop_same by (apply NoDup_dset; auto using keq).
        apply pzero_true in Z. now rewrite <- pval_psub.
      * rewrite exp_of_dset_same. apply pval_psub.
    + rewrite exp_of_dset_same, pval_pneg. ring.
  - assert (N : v <> u) by (intros ->; rewrite uid_eqb_refl in Ev; congruence).
    destruct (dim_get d u) as [e|].
    + destruct (pzero (psub e p)).
      * rewrite exp_of_dpop_other, exp_of_dset_other by assumption. ring.
      * rewrite exp_of_dset_other by assumption. ring.
    + rewrite exp_of_dset_other by assumption. ring.
Qed.

Lemma wf_nil : wf_dims [].
Proof. split; constructor. Qed.
Lemma wf_NoDup d : wf_dims d -> NoDup (dkeys d).
Proof. intros [H _]; exact H. Qed.
Lemma wf_cons u p (d : dims) : wf_dims ((u, p) :: d) -> pval p <> 0%Qc /\ ~ In u (dkeys d) /\ wf_dims d.
Proof.
  intros [ND F]. inversion ND; subst. inversion F; subst. repeat split; auto.
Qed.
Lemma wf_intro d : NoDup (dkeys d) -> (forall u p, In (u, p) d -> pval p <> 0%Qc) -> wf_dims d.
Proof. intros H1 H2; split; auto. apply Forall_forall. intros [u p] H; cbn; eauto. Qed.
Lemma wf_In d u p : wf_dims d -> In (u, p) d -> pval p <> 0%Qc.
Proof. intros [_ F] H. rewrite Forall_forall in F. apply (F (u, p) H). Qed.

Lemma NoDup_dset' (d : dims) u p : NoDup (dkeys d) -> NoDup (dkeys (dset uid_eqb d u p)).
Proof. apply NoDup_dset, keq. Qed.

Lemma wf_dset d u p : wf_dims d -> pval p <> 0%Qc -> wf_dims (dset uid_eqb d u p).
Proof.
  intros W Hp. apply wf_intro.
  - apply NoDup_dset', W.
  - intros v q H. apply In_dset in H; [|apply keq].
    destruct H as [[-> ->]|H]; auto. eapply wf_In; eauto.
Qed.
Lemma wf_dpop d u : wf_dims d -> wf_dims (dpop uid_eqb d u).
Proof.
  intros W. apply wf_intro.
  - apply NoDup_dpop, W.
  - intros v q H. apply In_dpop in H. eapply wf_In; eauto.
Qed.
Lemma In_dpop_neq (d : dims) u v p : NoDup (dkeys d) -> In (v, p) (dpop uid_eqb d u) -> v <> u.
Proof.
  intros ND H ->. apply In_dkeys in H.
  revert H. apply (proj1 (dget_None_notin uid_eqb keq (dpop uid_eqb d u) u)). apply dget_dpop_same; auto using keq.
Qed.

Lemma wf_mul_step d u p : wf_dims d -> pval p <> 0%Qc -> wf_dims (dim_mul_step d (u, p)).
Proof.
  intros W Hp. cbn. destruct (dim_get d u) as [e|] eqn:E.
  - destruct (pzero (padd e p)) eqn:Z.
    + apply wf_intro.
      * apply NoDup_dpop, NoDup_dset', W.
      * intros v q H. assert (N : v <> u).
        { eapply In_dpop_neq; [|exact H]. apply NoDup_dset', W. }
        apply In_dpop in H. apply In_dset in H; [|apply keq].
        destruct H as [[-> _]|H]; [contradiction|]. eapply wf_In; eauto.
    + apply wf_dset; auto. now apply pzero_false.
  - apply wf_dset; auto.
Qed.
Lemma wf_div_step d u p : wf_dims d -> pval p <> 0%Qc -> wf_dims (dim_div_step d (u, p)).
Proof.
  intros W Hp. cbn. destruct (dim_get d u) as [e|] eqn:E.
  - destruct (pzero (psub e p)) eqn:Z.
    + apply wf_intro.
      * apply NoDup_dpop, NoDup_dset', W.
      * intros v q H. assert (N : v <> u).
        { eapply In_dpop_neq; [|exact H]. apply NoDup_dset', W. }
        apply In_dpop in H. apply In_dset in H; [|apply keq].
        destruct H as [[-> _]|H]; [contradiction|]. eapply wf_In; eauto.
    + apply wf_dset; auto. now apply pzero_false.
  - apply wf_dset; auto. rewrite pval_pneg. intros H. apply Hp.
    rewrite <- (Qcopp_involutive (pval p)), H. reflexivity.
Qed.

(** ** Products and quotients *)

Lemma NoDup_mul d1 d2 : NoDup (dkeys d1) -> NoDup (dkeys (dim_mul d1 d2)).
Proof.
  unfold dim_mul. revert d1; induction d2 as [|kv d2 IH]; cbn; auto.
  intros d1 H. apply IH, NoDup_mul_step, H.
Qed.
Lemma NoDup_div d1 d2 : NoDup (dkeys d1) -> NoDup (dkeys (dim_div d1 d2)).
Proof.
  unfold dim_div. revert d1; induction d2 as [|kv d2 IH]; cbn; auto.
  intros d1 H. apply IH, NoDup_div_step, H.
Qed.

Lemma exp_of_mul d1 d2 u :
  NoDup (dkeys d1) -> NoDup (dkeys d2) ->
  exp_of (dim_mul d1 d2) u = (exp_of d1 u + exp_of d2 u)%Qc.
Proof.
  unfold dim_mul. revert d1; induction d2 as [|[v p] d2 IH]; intros d1 N1 N2.
  - cbn [fold_left]. rewrite exp_of_nil. ring.
  - cbn [fold_left]. inversion N2; subst.
    rewrite IH by (auto using NoDup_mul_step). rewrite exp_of_mul_step by assumption.
    destruct (uid_eqb u v) eqn:E.
    + apply keq in E; subst v. rewrite exp_of_cons_same.
      rewrite (exp_of_notin d2 u) by assumption. ring.
    + rewrite exp_of_cons_other; [ring|]. intros ->. rewrite uid_eqb_refl in E; congruence.
Qed.
Lemma exp_of_div d1 d2 u :
  NoDup (dkeys d1) -> NoDup (dkeys d2) ->
  exp_of (dim_div d1 d2) u = (exp_of d1 u - exp_of d2 u)%Qc.
Proof.
  unfold dim_div. revert d1; induction d2 as [|[v p] d2 IH]; intros d1 N1 N2.
  - cbn [fold_left]. rewrite exp_of_nil. ring.
  - cbn [fold_left]. inversion N2; subst.
    rewrite IH by (auto using NoDup_div_step). rewrite exp_of_div_step by assumption.
    destruct (uid_eqb u v) eqn:E.
    + apply keq in E; subst v. rewrite exp_of_cons_same.
      rewrite (exp_of_notin d2 u) by assumption. ring.
    + rewrite exp_of_cons_other; [ring|]. intros ->. rewrite uid_eqb_refl in E; congruence.
Qed.

Lemma wf_mul d1 d2 : wf_dims d1 -> wf_dims d2 -> wf_dims (dim_mul d1 d2).
Proof.
  unfold dim_mul. revert d1; induction d2 as [|[v p] d2 IH]; cbn [fold_left]; auto.
  intros d1 W1 W2. apply wf_cons in W2. destruct W2 as (Hp & _ & W2).
  apply IH; auto. apply wf_mul_step; auto.
Qed.
Lemma wf_div d1 d2 : wf_dims d1 -> wf_dims d2 -> wf_dims (dim_div d1 d2).
Proof.
  unfold dim_div. revert d1; induction d2 as [|[v p] d2 IH]; cbn [fold_left]; auto.
  intros d1 W1 W2. apply wf_cons in W2. destruct W2 as (Hp & _ & W2).
  apply IH; auto. apply wf_div_step; auto.
Qed.

(** ** Powers *)

Lemma dkeys_map_snd (f : pynum -> pynum) (d : dims) :
  dkeys (map (fun kv => (fst kv, f (snd kv))) d) = dkeys d.
Proof. unfold dkeys. rewrite map_map. reflexivity. Qed.

Lemma dim_get_map_snd (f : pynum -> pynum) (d : dims) u :
  dim_get (map (fun kv => (fst kv, f (snd kv))) d) u = option_map f (dim_get d u).
Proof.
  unfold dim_get. induction d as [|[v p] d IH]; cbn; auto.
  destruct (uid_eqb u v); auto.
Qed.

Lemma exp_of_pow d p u : exp_of (dim_pow d p) u = (exp_of d u * pval p)%Qc.
Proof.
  unfold dim_pow. destruct (pzero p) eqn:Z.
  - apply pzero_true in Z. rewrite Z, exp_of_nil. ring.
  - unfold exp_of. rewrite (dim_get_map_snd (fun e => pmul e p)).
    destruct (dim_get d u); cbn.
    + apply pval_pmul.
    + ring.
Qed.
Lemma NoDup_pow d p : NoDup (dkeys d) -> NoDup (dkeys (dim_pow d p)).
Proof.
  unfold dim_pow. destruct (pzero p).
  - constructor.
  - now rewrite (dkeys_map_snd (fun e => pmul e p)).
Qed.
Lemma wf_pow d p : wf_dims d -> wf_dims (dim_pow d p).
Proof.
  intros W. apply wf_intro.
  - apply NoDup_pow, W.
  - unfold dim_pow. destruct (pzero p) eqn:Z; [contradiction|].
    intros u q H. apply in_map_iff in H. destruct H as [[v e] [[= <- <-] H]].
    rewrite pval_pmul. intros E. apply pzero_false in Z.
    destruct (Qcmult_integral _ _ E) as [E1|E1]; [|contradiction].
    exact (wf_In _ _ _ W H E1).
Qed.

(** ** Equality *)

Lemma dim_get_exp d u : wf_dims d ->
  match dim_get d u with Some p => exp_of d u = pval p /\ exp_of d u <> 0%Qc
                       | None => exp_of d u = 0%Qc end.
Proof.
  intros W. unfold exp_of. destruct (dim_get d u) as [p|] eqn:E; auto.
  split; auto. apply dim_get_In in E. eapply wf_In; eauto.
Qed.

Lemma in_dkeys_exp d u : wf_dims d -> (In u (dkeys d) <-> exp_of d u <> 0%Qc).
Proof.
  intros W. pose proof (dim_get_exp _ u W) as H. destruct (dim_get d u) as [p|] eqn:E.
  - split; [tauto|]. intros _. eapply dim_get_Some_in; eauto.
  - apply dim_get_None in E. split; [tauto|]. congruence.
Qed.

Lemma dim_eqb_exp d1 d2 : wf_dims d1 -> wf_dims d2 ->
  (dim_eqb d1 d2 = true <-> forall u, exp_of d1 u = exp_of d2 u).
Proof.
  intros W1 W2. unfold dim_eqb. rewrite andb_true_iff, Nat.eqb_eq, forallb_forall.
  assert (Len : forall d : dims, length (dkeys d) = length d) by (intros; apply map_length).
  split.
  - intros [HL HF] u.
    assert (Inc : incl (dkeys d1) (dkeys d2)).
    { intros v Hv. apply in_map_iff in Hv. destruct Hv as [[v' p] [<- Hp]].
      specialize (HF _ Hp). cbn in HF |- *. destruct (dim_get d2 v') eqn:E; [|discriminate].
      eapply dim_get_Some_in; eauto. }
    assert (Inc' : incl (dkeys d2) (dkeys d1)).
    { apply NoDup_length_incl; auto using wf_NoDup. rewrite !Len. lia. }
    destruct (in_dec uid_eq_dec u (dkeys d1)) as [Hu|Hu].
    + apply in_map_iff in Hu. destruct Hu as [[v p] [Ev Hp]]; cbn in Ev; subst v.
      specialize (HF _ Hp). cbn in HF. rewrite (exp_of_In _ _ _ (wf_NoDup _ W1) Hp).
      unfold exp_of. destruct (dim_get d2 u) eqn:E; [|discriminate]. now apply peqb_true in HF.
    + rewrite (exp_of_notin d1) by assumption. rewrite exp_of_notin; auto.
  - intros H. split.
    + assert (P : Permutation (dkeys d1) (dkeys d2)).
      { apply NoDup_Permutation; auto using wf_NoDup.
        intros v. rewrite !in_dkeys_exp by assumption. now rewrite H. }
      apply Permutation_length in P. now rewrite !Len in P.
    + intros [u p] Hp; cbn. pose proof (exp_of_In _ _ _ (wf_NoDup _ W1) Hp) as E1.
      pose proof (wf_In _ _ _ W1 Hp) as Hp0. pose proof (dim_get_exp _ u W2) as H2.
      rewrite <- H, E1 in H2.
      destruct (dim_get d2 u) as [q|].
      * apply peqb_true. tauto.
      * contradiction.
Qed.

Lemma dim_eqb_refl d : NoDup (dkeys d) -> dim_eqb d d = true.
Proof.
  intros W. unfold dim_eqb. rewrite Nat.eqb_refl. cbn [andb]. apply forallb_forall.
  intros [u p] H; cbn. rewrite (In_dim_get _ _ _ W H). now apply peqb_true.
Qed.
Lemma dim_eqb_sym d1 d2 : wf_dims d1 -> wf_dims d2 -> dim_eqb d1 d2 = dim_eqb d2 d1.
Proof.
  intros W1 W2. destruct (dim_eqb d1 d2) eqn:E1, (dim_eqb d2 d1) eqn:E2; auto.
  - rewrite dim_eqb_exp in E1 by assumption.
    assert (dim_eqb d2 d1 = true) by (apply dim_eqb_exp; auto). congruence.
  - rewrite dim_eqb_exp in E2 by assumption.
    assert (dim_eqb d1 d2 = true) by (apply dim_eqb_exp; auto). congruence.
Qed.
Lemma dim_eqb_nil d : wf_dims d -> dim_eqb d [] = true -> d = [].
Proof. intros _. unfold dim_eqb. destruct d; cbn; auto. discriminate. Qed.

Lemma exp_of_all_zero d : wf_dims d -> (forall u, exp_of d u = 0%Qc) -> d = [].
Proof.
  intros W H. destruct d as [|[u p] d]; auto. exfalso.
  apply wf_cons in W as W'. destruct W' as (Hp & _ & _). apply Hp.
  rewrite <- (H u). now rewrite exp_of_cons_same.
Qed.

Lemma wf_unit_dims u : wf_dims (unit_dims u).
Proof.
  unfold unit_dims. destruct (u_cls u);
    try apply wf_nil; (split; cbn; [repeat constructor; auto | repeat constructor; cbn; discriminate]).
Qed.
Lemma exp_of_single u p v : exp_of [(u, p)] v = (if uid_eqb v u then pval p else 0%Qc).
Proof. unfold exp_of, dim_get; cbn. destruct (uid_eqb v u); auto. Qed.

(** [wf_dimsb] decides [wf_dims]. *)
Lemma wf_dimsb_true d : wf_dimsb d = true -> wf_dims d.
Proof.
  unfold wf_dimsb. rewrite andb_true_iff. intros [H1 H2]. apply wf_intro.
  - clear H2. induction (dkeys d) as [|x l IH]; constructor.
    + rewrite andb_true_iff, negb_true_iff in H1. destruct H1 as [H1 _].
      intros Hin. assert (E : existsb (uid_eqb x) l = true).
      { apply existsb_exists. exists x. split; auto using uid_eqb_refl. }
      congruence.
    + apply IH. rewrite andb_true_iff in H1. tauto.
  - rewrite forallb_forall in H2. intros u p H. specialize (H2 _ H). cbn in H2.
    rewrite negb_true_iff in H2. now apply pzero_false.
Qed.

(** ** In-place operators *)

Lemma ipow_fold_other p : forall ks (s : dims) u, ~ In u ks ->
  dim_get (fold_left (fun s k => match dim_get s k with
                                  | Some e => dset uid_eqb s k (pmul e p)
                                  | None => s end) ks s) u = dim_get s u.
Proof.
  induction ks as [|k ks IH]; cbn [fold_left]; auto. intros s u H.
  rewrite IH by (intros Hi; apply H; right; exact Hi).
  assert (u <> k) by (intros ->; apply H; left; auto).
  destruct (dim_get s k); auto. unfold dim_get. apply dget_dset_other; auto. apply keq.
Qed.

Lemma dset_map_one (d : dims) k e f :
  NoDup (dkeys d) -> dim_get d k = Some e ->
  dset uid_eqb d k (f e) = map (fun kv => (fst kv, if uid_eqb (fst kv) k then f (snd kv) else snd kv)) d.
Proof.
  unfold dim_get. induction d as [|[k' e'] d IH]; cbn; [discriminate|].
  intros ND. inversion ND; subst. destruct (uid_eqb k k') eqn:E.
  - apply keq in E; subst k'. intros [= ->]. rewrite uid_eqb_refl. f_equal.
    clear IH ND. rewrite <- (map_id d) at 1. apply map_ext_in. intros [v q] Hv; cbn.
    destruct (uid_eqb v k) eqn:E; auto. apply keq in E; subst. exfalso. apply In_dkeys in Hv. contradiction.
  - intros H. rewrite IH by assumption.
    destruct (uid_eqb k' k) eqn:E'; auto. apply keq in E'; subst. rewrite uid_eqb_refl in E; discriminate.
Qed.

Lemma ipow_fold p : forall (done todo : dims) ,
  NoDup (dkeys (done ++ todo)) ->
  fold_left (fun s k => match dim_get s k with
                        | Some e => dset uid_eqb s k (pmul e p)
                        | None => s end) (dkeys todo)
            (map (fun kv => (fst kv, pmul (snd kv) p)) done ++ todo)
  = map (fun kv => (fst kv, pmul (snd kv) p)) (done ++ todo).
Proof.
  intros done todo; revert done. induction todo as [|[k e] todo IH]; intros done ND.
  - cbn. now rewrite !app_nil_r.
  - cbn [dkeys map fold_left fst].
    assert (Nk : ~ In k (dkeys done) /\ ~ In k (dkeys todo)).
    { unfold dkeys in *. rewrite map_app in ND. cbn in ND. apply NoDup_remove_2 in ND.
      rewrite in_app_iff in ND. tauto. }
    set (pd := map (fun kv => (fst kv, pmul (snd kv) p)) done).
    assert (Hk : ~ In k (dkeys pd)).
    { unfold pd. now rewrite (dkeys_map_snd (fun x => pmul x p)). }
    assert (G : dim_get (pd ++ (k, e) :: todo) k = Some e).
    { apply In_dim_get; [|apply in_or_app; right; left; auto].
      unfold dkeys in *. rewrite map_app in *. unfold pd. rewrite map_map. cbn. exact ND. }
    rewrite G.
    assert (S : dset uid_eqb (pd ++ (k, e) :: todo) k (pmul e p) = (pd ++ [(k, pmul e p)]) ++ todo).
    { clear - Hk. induction pd as [|[k' e'] pd IHp]; cbn.
      - now rewrite uid_eqb_refl.
      - cbn in Hk. destruct (uid_eqb k k') eqn:E.
        + apply keq in E; subst. exfalso; apply Hk; auto.
        + rewrite IHp; auto. }
    rewrite S. specialize (IH (done ++ [(k, e)])).
    rewrite map_app in IH. cbn [map fst snd] in IH. fold pd in IH.
    rewrite <- (app_assoc done) in IH. cbn [app] in IH. apply IH. exact ND.
Qed.

Lemma dim_ipow_pow d p : NoDup (dkeys d) -> dim_ipow d (AScalar p) = (dim_pow d p, Ok tt).
Proof.
  intros ND. unfold dim_ipow, dim_pow. destruct (pzero p); auto.
  f_equal. apply (ipow_fold p [] d ND).
Qed.

Lemma iself_loop_app step n todo s :
  length s <> n -> dim_iself_loop step n todo s = (s, Err RuntimeError).
Proof.
  intros H. destruct todo; cbn; destruct (Nat.eqb_spec (length s) n); try contradiction; reflexivity.
Qed.

Lemma psub_self_zero e : pzero (psub e e) = true.
Proof. apply pzero_true. rewrite pval_psub. unfold Qcminus. apply Qcplus_opp_r. Qed.

Lemma dim_idiv_self_nonempty u p d :
  dim_idiv_self ((u, p) :: d) = (d, Err RuntimeError).
Proof.
  unfold dim_idiv_self. cbn [dkeys map fst length dim_iself_loop].
  rewrite Nat.eqb_refl. cbn [negb].
  unfold dim_get at 1; cbn [dget]. rewrite uid_eqb_refl.
  assert (S : dim_div_step ((u, p) :: d) (u, p) = d).
  { cbn. unfold dim_get; cbn. rewrite uid_eqb_refl. rewrite psub_self_zero. cbn. now rewrite uid_eqb_refl. }
  rewrite S. apply iself_loop_app. cbn. lia.
Qed.

Lemma padd_self_nz e : pval e <> 0%Qc -> pzero (padd e e) = false.
Proof.
  intros H. apply pzero_false. rewrite pval_padd. intros E.
  assert (E2 : (pval e * (1 + 1) = 0)%Qc) by (rewrite <- E; ring).
  apply Qcmult_integral in E2. destruct E2 as [E2|E2]; [contradiction|discriminate].
Qed.

(** [d *= d] visits each key once and doubles it. *)
Lemma iself_mul_loop : forall (todo done : dims),
  wf_dims (done ++ todo) ->
  dim_iself_loop dim_mul_step (length (done ++ todo)) (dkeys todo)
    (map (fun kv => (fst kv, padd (snd kv) (snd kv))) done ++ todo)
  = (map (fun kv => (fst kv, padd (snd kv) (snd kv))) (done ++ todo), Ok tt).
Proof.
  induction todo as [|[k e] todo IH]; intros done W.
  - cbn [dkeys map dim_iself_loop]. rewrite !app_nil_r, map_length, Nat.eqb_refl. reflexivity.
  - cbn [dkeys map dim_iself_loop fst]. rewrite !app_length, map_length, Nat.eqb_refl. cbn [negb].
    set (pd := map (fun kv => (fst kv, padd (snd kv) (snd kv))) done).
    pose proof (wf_NoDup _ W) as ND.
    assert (Nk : ~ In k (dkeys done) /\ ~ In k (dkeys todo)).
    { unfold dkeys in *. rewrite map_app in ND. cbn in ND. apply NoDup_remove_2 in ND.
      rewrite in_app_iff in ND. tauto. }
    assert (Hk : ~ In k (dkeys pd)).
    { unfold pd. now rewrite (dkeys_map_snd (fun x => padd x x)). }
    assert (G : dim_get (pd ++ (k, e) :: todo) k = Some e).
    { apply In_dim_get; [|apply in_or_app; right; left; auto].
      unfold dkeys in *. rewrite map_app in *. unfold pd. rewrite map_map. cbn. exact ND. }
    rewrite G. cbn [dim_mul_step]. rewrite G.
    rewrite padd_self_nz by (apply (wf_In _ k e W); apply in_or_app; right; left; auto).
    assert (S : dset uid_eqb (pd ++ (k, e) :: todo) k (padd e e) = (pd ++ [(k, padd e e)]) ++ todo).
    { clear - Hk. induction pd as [|[k' e'] pd IHp]; cbn.
      - now rewrite uid_eqb_refl.
      - cbn in Hk. destruct (uid_eqb k k') eqn:E.
        + apply keq in E; subst. exfalso; apply Hk; auto.
        + rewrite IHp; auto. }
    rewrite S. specialize (IH (done ++ [(k, e)])).
    rewrite map_app in IH. cbn [map fst snd] in IH. fold pd in IH.
    rewrite <- (app_assoc done) in IH. cbn [app] in IH.
    rewrite app_length in IH. cbn [length] in IH. apply IH. exact W.
Qed.

Lemma dim_imul_self_ok d : wf_dims d ->
  dim_imul_self d = (map (fun kv => (fst kv, padd (snd kv) (snd kv))) d, Ok tt).
Proof. intros W. exact (iself_mul_loop d [] W). Qed.

Lemma exp_of_imul_self d u : exp_of (map (fun kv => (fst kv, padd (snd kv) (snd kv))) d) u
  = (exp_of d u + exp_of d u)%Qc.
Proof.
  unfold exp_of. rewrite (dim_get_map_snd (fun x => padd x x)). destruct (dim_get d u); cbn.
  - apply pval_padd.
  - reflexivity.
Qed.
