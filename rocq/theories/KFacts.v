(** * KFacts: running the table of physical constants. *)
From Coq Require Import Reals Lra Lia Qreals.
From Verif Require Import Py Num Dim DimFacts Arr Units Spec UnitFacts Quant QuantFacts SpecApi ConvFacts Examples
     Text Markup Lex LexFacts Registry RegFacts PrintFacts RoundTrip Props_Registry SpecPickle PickleFacts HistFacts
     Table Import TableFacts SpecSizes SpecConstants Props_Table Constants Kimport.

Open Scope list_scope.
Open Scope R_scope.

(** ** Labels, in the checker's state *)
Definition klabel (parse : text -> res expr) (sh : sstate) (l : string) : option dims :=
  match parse (preprocess (T l)) with
  | Ok x => match seval sh x with
            | Some (SUnit i u) => Some (unit_dims u)
            | Some (SQty (Some a) d) => if Qeq_bool a 1 then Some d else None
            | _ => None
            end
  | Err _ => None
  end.
Definition kdims (parse : text -> res expr) (sh : sstate) (e : kentry) : option dims :=
  match k_label e with None => Some [] | Some l => klabel parse sh l end.
Definition kcheck (parse : text -> res expr) (sh : sstate) (e : kentry) : bool :=
  match kdims parse sh e with
  | Some d => dims_okb d && forallb (known (s_env sh)) (dkeys d)
  | None => false
  end.

Lemma seval_names sh e : forall s, seval sh e = Some s -> forall t, In t (RegFacts.names e) -> dget teqb (s_ctx sh) t <> None.
Proof.
  induction e as [x|p|c|o a IHa b IHb|o a IHa|k l]; intros s H t Ht; cbn [seval RegFacts.names] in *; try discriminate.
  - destruct Ht as [<-|[]]. destruct (dget teqb (s_ctx sh) x); discriminate.
  - contradiction.
  - destruct (seval sh a) as [x|]; [|discriminate]. destruct (seval sh b) as [y|]; [|discriminate].
    apply in_app_or in Ht. destruct Ht; eauto.
  - destruct o; try discriminate; destruct a; try discriminate. contradiction.
Qed.
Lemma klabel_ok parse (st : rstate R) sh l d : sim parse st sh -> klabel parse sh l = Some d ->
  forall st' X, (forall s v, ctx_get st s = Some v -> ctx_get st' s = Some v) -> objs st' = objs st ++ X ->
  reg_lookup parse st' l = Ok (Qty (scalar 1) d).
Proof.
  intros HS H st' X Hk Ho. unfold klabel in H. unfold reg_lookup, get_item, inner_get.
  destruct (parse (preprocess (T l))) as [x|e] eqn:Ep; [|discriminate H]. cbn [bind].
  destruct (seval sh x) as [s|] eqn:Es; [|discriminate H].
  destruct (seval_ok _ _ _ _ HS _ Es) as (Hp & v & Ev & Hm).
  assert (Ev' : eval st' x = Ok v).
  { apply (eval_product st st' X x Hp); auto. intros t Ht. rewrite (sim_ctx _ _ _ HS).
    pose proof (seval_names _ _ _ Es t Ht). now destruct (dget teqb (s_ctx sh) t). }
  rewrite (product_valid _ Hp), Ev'. cbn [catch bind].
  assert (Hv : val_q st' v = Some (Qty (scalar 1) d)).
  { destruct s as [p|i u|[a|] d']; try discriminate H; cbn [vmatch] in Hm.
    - destruct Hm as [-> (r & Hi)]. injection H as <-. cbn [val_q]. rewrite Ho.
      rewrite nth_error_app1 by (apply nth_error_Some; congruence). rewrite Hi. reflexivity.
    - destruct Hm as (a' & -> & [_ Ha]). destruct (Qeq_bool a 1) eqn:E1; [|discriminate H]. injection H as <-.
      apply Qeq_bool_eq, Qeq_eqR in E1. rewrite (Ha a eq_refl), E1, Q2R_one. reflexivity. }
  rewrite Hv. reflexivity.
Qed.

(** ** Running the table *)
Definition kmatch (parse : text -> res expr) (st : rstate R) (sh : sstate) (e : kentry) (o : uid * urec R) : Prop :=
  fst o = k_uid e /\ ur_symbol (snd o) = k_sym e /\ ur_usymbol (snd o) = k_usym e /\
  exists d, kdims parse sh e = Some d /\ dims_ok d /\ (forall u, In u (dkeys d) -> In u (dkeys (objs st))) /\
    ur_def (snd o) = Some (DQty (Qc2R (k_value e)) d) /\ ur_ref (snd o) = Some (qty_ref (objs st) (Qc2R (k_value e)) d).

Lemma kdef_ok parse (st : rstate R) sh e d : sim parse st sh -> kdims parse sh e = Some d ->
  forall st' X, (forall s v, ctx_get st s = Some v -> ctx_get st' s = Some v) -> objs st' = objs st ++ X ->
  kdef parse st' e = Ok (DQty (Qc2R (k_value e)) d).
Proof.
  intros HS H st' X Hk Ho. unfold kdef, kdims in *. destruct (k_label e) as [l|].
  - rewrite (klabel_ok parse st sh l d HS H st' X Hk Ho). reflexivity.
  - injection H as <-. reflexivity.
Qed.
Lemma kcheck_ok parse (st : rstate R) sh e : sim parse st sh -> kcheck parse sh e = true ->
  exists d, kdims parse sh e = Some d /\ dims_ok d /\ forall u, In u (dkeys d) -> In u (dkeys (objs st)).
Proof.
  intros HS H. unfold kcheck in H. destruct (kdims parse sh e) as [d|]; [|discriminate]. exists d. split; auto.
  apply andb_prop in H. destruct H as [H1 H2]. split; [now apply dims_okb_ok|]. intros u Hu.
  rewrite forallb_forall in H2. apply (env_keys _ _ _ (sim_env _ _ _ HS)). auto.
Qed.

Lemma krun_ok parse (st : rstate R) sh l : sim parse st sh -> forallb (kcheck parse sh) l = true ->
  forall st1 X1, objs st1 = objs st ++ X1 -> ctx st1 = ctx st ->
  exists st2 X2, krun parse st1 l = (st2, Ok tt) /\ objs st2 = objs st1 ++ X2 /\ ctx st2 = ctx st /\ dflt st2 = dflt st1 /\
    Forall2 (kmatch parse st sh) l X2 /\
    (renv_ok (objs st1) -> Forall (fun e => 0 < Qc2R (k_value e)) l -> NoDup (map k_uid l) ->
     (forall e, In e l -> ~ In (k_uid e) (dkeys (objs st1))) -> renv_ok (objs st2)).
Proof.
  intros HS. induction l as [|e l IH]; intros HK st1 X1 Ho Hc.
  - exists st1, []. split; [reflexivity|]. split; [now rewrite app_nil_r|]. repeat (split; [solve [auto]|]). auto.
  - cbn [forallb] in HK. apply andb_prop in HK. destruct HK as [HK1 HK2].
    destruct (kcheck_ok parse st sh e HS HK1) as (d & Ed & Hd & Hkn).
    assert (Hkeep : forall s v, ctx_get st s = Some v -> ctx_get st1 s = Some v) by (unfold ctx_get; now rewrite Hc).
    pose proof (kdef_ok parse st sh e d HS Ed st1 X1 Hkeep Ho) as Edf.
    set (df := DQty (Qc2R (k_value e)) d) in *.
    set (st1' := new_obj st1 CConstant (k_name e) (Some df) (k_sym e) (k_usym e) (k_aliases e)).
    assert (Es : exists st1', kstep parse st1 e = (st1', Ok (VUnit (length (objs st1)))) /\
       objs st1' = objs st1 ++ [(k_uid e, new_unit (objs st1) (primary CConstant, counter st1 CConstant) (Some df) (k_sym e) (k_usym e) (k_aliases e))] /\
       ctx st1' = ctx st1 /\ dflt st1' = dflt st1).
    { eexists. unfold kstep. rewrite Edf. split; [reflexivity|]. split; [reflexivity|]. split; reflexivity. }
    clear st1'. destruct Es as (st1' & Es & Eo & Ec & Edd).
    set (r := new_unit (objs st1) (primary CConstant, counter st1 CConstant) (Some df) (k_sym e) (k_usym e) (k_aliases e)) in *.
    destruct (IH HK2 st1' (X1 ++ [(k_uid e, r)])) as (st2 & X2 & R1 & R2 & R3 & R4 & R5 & R6).
    { rewrite Eo, Ho. now rewrite app_assoc. } { now rewrite Ec. }
    exists st2, ((k_uid e, r) :: X2). split; [cbn [krun]; rewrite Es; exact R1|].
    split; [rewrite R2, Eo, <- app_assoc; reflexivity|]. split; [exact R3|]. split; [now rewrite R4|]. split.
    + constructor; [|exact R5]. split; [reflexivity|]. split; [reflexivity|]. split; [reflexivity|]. exists d. split; [exact Ed|].
      split; [exact Hd|]. split; [exact Hkn|]. split; [reflexivity|]. unfold r, df. cbn [snd new_unit ur_ref option_map def_ref].
      f_equal. unfold qty_ref. rewrite (ref_pair_extend (objs st) (objs st1) d); auto. now exists X1.
    + intros HE HP HN HF. cbn [map] in HN. inversion HN as [|u us Hni HN']; subst. inversion HP as [|e' l' Hp HP']; subst.
      apply R6; auto.
      * rewrite Eo. apply env_new; auto.
        -- apply HF. now left.
        -- intros x [= <-]. split; [discriminate|]. cbn [def_ok]. split; [exact Hp|]. split; [apply Hd|].
           intros u Hu. split; [|now apply Hd]. rewrite Ho, dkeys_app. apply in_or_app. left. auto.
      * intros e' He'. rewrite Eo, dkeys_app. intros X. apply in_app_or in X. destruct X as [X|[X|[]]].
        -- revert X. apply HF. now right.
        -- cbn [fst] in X. apply Hni. rewrite X. now apply in_map.
Qed.

(** ** The library with its constants *)
Definition klib (fread : text -> Qc) : rstate R := fst (krun (parse_arith fread) (lib fread) constants).
Definition pos_const (e : kentry) : bool := (0 <? Qnum (this (k_value e)))%Z.
Definition pos_constants : list kentry := filter pos_const constants.
(** The library with the constants of positive value only. *)
Definition klib_pos (fread : text -> Qc) : rstate R := fst (krun (parse_arith fread) (lib fread) pos_constants).

Fixpoint sdims_eqb (d d' : dims) : bool :=
  match d, d' with
  | [], [] => true
  | (u, PInt a) :: d1, (u', PInt a') :: d1' => uid_eqb u u' && Z.eqb a a' && sdims_eqb d1 d1'
  | _, _ => false
  end.
Lemma sdims_eqb_eq d : forall d', sdims_eqb d d' = true -> d = d'.
Proof.
  induction d as [|[u [a|q]] d IH]; intros [|[u' [a'|q']] d'] H; cbn [sdims_eqb] in H; try discriminate H; auto.
  apply andb_prop in H. destruct H as [H H3]. apply andb_prop in H. destruct H as [H1 H2].
  apply uid_eqb_eq in H1. apply Z.eqb_eq in H2. subst. f_equal. auto.
Qed.
Definition check_known (parse : text -> res expr) (sh : sstate) : bool :=
  forallb (fun z => existsb (fun e =>
     if String.eqb (k_name e) (ks_name z)
     then Qeq_bool (this (k_value e)) (ks_value z) &&
          match kdims parse sh e with Some d => sdims_eqb d (ks_of z) | None => false end
     else false) constants) known_constants.
Fixpoint nodup_b (l : list string) : bool :=
  match l with [] => true | s :: l' => negb (existsb (String.eqb s) l') && nodup_b l' end.
Lemma nodup_b_ok l : nodup_b l = true -> NoDup l.
Proof.
  induction l as [|s l IH]; intros H; [constructor|]. cbn [nodup_b] in H. apply andb_prop in H. destruct H as [H1 H2].
  constructor; auto. intros X. apply negb_true_iff in H1. assert (Y : existsb (String.eqb s) l = true).
  { apply existsb_exists. exists s. split; auto. apply String.eqb_refl. } congruence.
Qed.
Definition no_constant (u : uid) : bool := negb (ucls_eqb (u_cls u) CConstant).

(** What the unit (not the constant) astronomical_unit is. *)
Definition au_unit : size := Size (uL "astronomical_unit") 149597870691 (one_of (uL "meter")).

Lemma klib_checks fread : match srun (parse_arith fread) sempty library with
  | Some sh => forallb (kcheck (parse_arith fread) sh) constants &&
      (forallb no_constant (map fst (s_env sh)) && (nodup_b (map k_name constants) && (check_known (parse_arith fread) sh && size_ok (s_env sh) au_unit)))
  | None => false
  end = true.
Proof. vm_compute. reflexivity. Qed.

Transparent lib library.
Lemma klib_sim fread : exists sh, sim (parse_arith fread) (lib fread) sh /\
  forallb (kcheck (parse_arith fread) sh) constants = true /\
  (forall u, In u (dkeys (objs (lib fread))) -> u_cls u <> CConstant) /\
  NoDup (map k_uid constants) /\ check_known (parse_arith fread) sh = true /\ size_ok (s_env sh) au_unit = true.
Proof.
  pose proof (klib_checks fread) as H. unfold lib.
  destruct (srun (parse_arith fread) sempty library) as [sh|] eqn:E; [|discriminate].
  destruct (srun_ok (parse_arith fread) library rempty sempty sh (sim_empty _) E) as (st' & -> & HS).
  exists sh. cbn [fst]. split; [exact HS|].
  apply andb_prop in H. destruct H as [H1 H]. apply andb_prop in H. destruct H as [H2 H].
  apply andb_prop in H. destruct H as [H3 H].
  apply andb_prop in H. destruct H as [H4 H5]. split; [exact H1|]. split; [|split; [|split; [exact H4|exact H5]]].
  - intros u Hu. rewrite (match_keys _ _ (sim_env _ _ _ HS)) in Hu. rewrite forallb_forall in H2. specialize (H2 u Hu).
    unfold no_constant in H2. intros X. rewrite X in H2. discriminate H2.
  - apply nodup_b_ok in H3. unfold k_uid. change (map (fun e => UId CConstant (k_name e)) constants) with
      (map (fun e => UId CConstant (k_name e)) constants). rewrite <- (map_map k_name (UId CConstant)).
    apply FinFun.Injective_map_NoDup; [|exact H3]. intros a b [= ->]. reflexivity.
Qed.
Opaque lib library constants.
