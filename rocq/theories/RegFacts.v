(** * RegFacts: lemmas about the registry and the creation of units. *)
From Coq Require Import Ascii NArith.
From Verif Require Import Py Num Dim DimFacts Arr Units Quant Ufunc Ops Text Lex Registry Spec.

Set Implicit Arguments.

Lemma tkeqb : forall a b, teqb a b = true <-> a = b.
Proof. apply teqb_eq. Qed.

Section RegFacts.
  Context {A : Type} {N : Num A}.
  Implicit Types (st : rstate A) (v w : value A).

  Lemma ctx_get_dset st s v s' : 
    dget teqb (dset teqb (ctx st) s v) s' = if teqb s' s then Some v else ctx_get st s'.
  Proof.
    destruct (teqb s' s) eqn:Es.
    - apply teqb_eq in Es. subst. apply dget_dset_same, tkeqb.
    - apply dget_dset_other; [apply tkeqb|]. intros ->. rewrite teqb_refl in Es. discriminate.
  Qed.

  Lemma set_item_fresh st s v : ctx_get st s = None ->
    snd (set_item st s v) = Ok tt /\ ctx_get (fst (set_item st s v)) s = Some v.
  Proof.
    intros H. unfold set_item. rewrite H. cbn [fst snd]. split; auto.
    unfold ctx_get. cbn [ctx]. apply dget_dset_same, tkeqb.
  Qed.
  Lemma set_item_bound st s v w : ctx_get st s = Some w ->
    set_item st s v = (st, b <- veq st v w ;; if b then Ok tt else Err KeyError).
  Proof. intros H. unfold set_item. now rewrite H. Qed.
  Lemma set_item_same st s v : objs (fst (set_item st s v)) = objs st /\
    counters (fst (set_item st s v)) = counters st /\ dflt (fst (set_item st s v)) = dflt st.
  Proof. unfold set_item. destruct (ctx_get st s); cbn; auto. Qed.
  Lemma set_item_get st s v s' :
    ctx_get (fst (set_item st s v)) s' =
    match ctx_get st s' with
    | Some w => Some w
    | None => if teqb s' s then Some v else None
    end.
  Proof.
    unfold set_item. destruct (ctx_get st s) as [w|] eqn:Es; cbn [fst].
    - destruct (ctx_get st s') as [w'|] eqn:Es'; auto.
      destruct (teqb s' s) eqn:Et; auto. apply teqb_eq in Et. congruence.
    - unfold ctx_get at 1. cbn [ctx]. rewrite ctx_get_dset.
      destruct (teqb s' s) eqn:Et.
      + apply teqb_eq in Et. subst. rewrite Es. reflexivity.
      + destruct (ctx_get st s'); auto.
  Qed.

  Lemma set_items_same l : forall st v, objs (fst (set_items st l v)) = objs st /\
    counters (fst (set_items st l v)) = counters st /\ dflt (fst (set_items st l v)) = dflt st.
  Proof.
    induction l as [|s l IH]; intros st v; cbn [set_items]; auto.
    pose proof (set_item_same st s v) as (S1 & S2 & S3).
    destruct (set_item st s v) as [st1 [u|e]]; cbn [fst] in *.
    - destruct (IH st1 v) as (I1 & I2 & I3). rewrite I1, I2, I3. auto.
    - auto.
  Qed.
  Lemma set_items_keeps l : forall st v s w, ctx_get st s = Some w ->
    ctx_get (fst (set_items st l v)) s = Some w.
  Proof.
    induction l as [|s l IH]; intros st v s' w H; cbn [set_items]; auto.
    pose proof (set_item_get st s v s') as G. rewrite H in G.
    destruct (set_item st s v) as [st1 [u|e]]; cbn [fst] in *; auto.
  Qed.
  (** Success: every name is bound. *)
  Lemma set_items_ok l : forall st v u, snd (set_items st l v) = Ok u ->
    forall s, ctx_get (fst (set_items st l v)) s =
      match ctx_get st s with
      | Some w => Some w
      | None => if existsb (teqb s) l then Some v else None
      end.
  Proof.
    induction l as [|s l IH]; intros st v u H s'; cbn [set_items] in *.
    - cbn. destruct (ctx_get st s'); auto.
    - pose proof (set_item_get st s v s') as G.
      destruct (set_item st s v) as [st1 [u1|e]] eqn:Es; cbn [fst snd] in *; [|discriminate].
      rewrite (IH _ _ _ H s'), G. cbn [existsb].
      destruct (ctx_get st s'); auto. destruct (teqb s' s); auto.
  Qed.
  (** Failure: the names before the clash stay registered, the rest is untouched. *)
  Lemma set_items_err l : forall st v e, snd (set_items st l v) = Err e ->
    exists before s after w,
      l = before ++ s :: after /\
      ctx_get (fst (set_items st l v)) s = Some w /\
      (veq (fst (set_items st l v)) v w = Ok false /\ e = KeyError \/
       veq (fst (set_items st l v)) v w = Err e) /\
      forall s', ctx_get (fst (set_items st l v)) s' =
        match ctx_get st s' with
        | Some w => Some w
        | None => if existsb (teqb s') before then Some v else None
        end.
  Proof.
    induction l as [|s l IH]; intros st v e H; cbn [set_items] in *; [discriminate|].
    pose proof (set_item_get st s v) as G.
    destruct (set_item st s v) as [st1 [u1|e1]] eqn:Es; cbn [fst snd] in *.
    - destruct (IH _ _ _ H) as (before & s1 & after & w & -> & E1 & E2 & E3).
      exists (s :: before), s1, after, w. split; auto. split; auto. split; auto.
      intros s'. rewrite E3, G. cbn [existsb]. destruct (ctx_get st s'); auto.
      destruct (teqb s' s); auto.
    - injection H as <-. unfold set_item in Es.
      destruct (ctx_get st s) as [w|] eqn:Ew; [|discriminate].
      injection Es as <- Ev.
      exists [], s, l, w. split; auto. split; auto. split.
      + destruct (veq st v w) as [[|]|e2]; cbn in Ev; try discriminate; injection Ev as <-; auto.
      + intros s'. cbn. destruct (ctx_get st s'); auto.
  Qed.

  (** ** Creation *)
  Lemma new_obj_ctx st c name df sym usym al s :
    ctx_get (new_obj st c name df sym usym al) s = ctx_get st s.
  Proof. reflexivity. Qed.

  Lemma create_unit_objs st c name df sym usym al :
    exists order, objs (fst (create_unit st c name df sym usym al)) =
      objs st ++ [(UId c name, new_unit (objs st) order df sym usym al)].
  Proof.
    unfold create_unit.
    set (st0 := new_obj st c name df sym usym al). set (l := reg_names c name sym al).
    pose proof (set_items_same l st0 (VUnit (length (objs st)))) as (S1 & _ & _).
    destruct (set_items st0 l (VUnit (length (objs st)))) as [st1 [u|e]]; cbn [fst objs] in *;
      rewrite S1; eexists; reflexivity.
  Qed.
  Lemma create_unit_keeps st c name df sym usym al s w : ctx_get st s = Some w ->
    ctx_get (fst (create_unit st c name df sym usym al)) s = Some w.
  Proof.
    intros H. unfold create_unit.
    set (st0 := new_obj st c name df sym usym al). set (l := reg_names c name sym al).
    pose proof (@set_items_keeps l st0 (VUnit (length (objs st))) s w H) as K.
    destruct (set_items st0 l (VUnit (length (objs st)))) as [st1 [u|e]]; exact K.
  Qed.

  Lemma rstep_keeps parse st o s w : ctx_get st s = Some w ->
    ctx_get (fst (rstep parse st o)) s = Some w.
  Proof.
    intros H. destruct o as [s' v|c name df sym usym al|name]; cbn [rstep].
    - rewrite set_item_get, H. reflexivity.
    - pose proof (@create_unit_keeps st c name df sym usym al s w H) as K.
      destruct (create_unit st c name df sym usym al) as [st1 r]. exact K.
    - unfold create_compound. destruct (get_item parse st (T name)) as [v|e]; [|exact H].
      destruct (val_def st v) as [df|]; [|exact H].
      pose proof (@create_unit_keeps st CCompound name (Some df) None None [] s w H) as K.
      destruct (create_unit st CCompound name (Some df) None None []) as [st1 r]. exact K.
  Qed.
  Lemma rrun_keeps parse l : forall st s w, ctx_get st s = Some w ->
    ctx_get (rrun parse st l) s = Some w.
  Proof. induction l as [|o l IH]; intros st s w H; cbn [rrun]; auto using rstep_keeps. Qed.

  Lemma rstep_objs parse st o : exists X, objs (fst (rstep parse st o)) = objs st ++ X.
  Proof.
    destruct o as [s' v|c name df sym usym al|name]; cbn [rstep].
    - exists []. rewrite app_nil_r. apply set_item_same.
    - destruct (create_unit_objs st c name df sym usym al) as [order K].
      destruct (create_unit st c name df sym usym al) as [st1 r]. eexists; exact K.
    - unfold create_compound. destruct (get_item parse st (T name)) as [v|e];
        [|exists []; cbn; now rewrite app_nil_r].
      destruct (val_def st v) as [df|]; [|exists []; cbn; now rewrite app_nil_r].
      destruct (create_unit_objs st CCompound name (Some df) None None []) as [order K].
      destruct (create_unit st CCompound name (Some df) None None []) as [st1 r]. eexists; exact K.
  Qed.
  Lemma rrun_objs parse l : forall st, exists X, objs (rrun parse st l) = objs st ++ X.
  Proof.
    induction l as [|o l IH]; intros st; cbn [rrun].
    - exists []. now rewrite app_nil_r.
    - destruct (rstep_objs parse st o) as [X1 E1]. destruct (IH (fst (rstep parse st o))) as [X2 E2].
      exists (X1 ++ X2). rewrite E2, E1. now rewrite app_assoc.
  Qed.

  (** ** Orders of units are distinct *)
  Definition ord_inv st : Prop :=
    (forall u r, In (u, r) (objs st) ->
       exists n, counters st (u_cls u) = Some n /\ fst (ur_order r) = primary (u_cls u) /\
                 snd (ur_order r) < n) /\
    NoDup (map (fun o => ur_order (snd o)) (objs st)).
  Lemma primary_inj c c' : primary c = primary c' -> c = c'.
  Proof. destruct c, c'; cbn; congruence. Qed.
  Lemma ucls_eqb_refl c : ucls_eqb c c = true.
  Proof. now apply ucls_eqb_eq. Qed.

  Lemma new_obj_inv st c name df sym usym al : ord_inv st -> ord_inv (new_obj st c name df sym usym al).
  Proof.
    intros [I1 I2].
    set (k := match c with CDimless => S (counter st c) | _ => counter st c end).
    assert (Hc : counter st c <= k) by (subst k; destruct c; lia).
    assert (Own : exists n, counters (new_obj st c name df sym usym al) c = Some n /\ k < n).
    { subst k. destruct c; cbn; unfold bump; cbn; eexists; split; try reflexivity; lia. }
    assert (Oth : forall c', c' <> c -> counters (new_obj st c name df sym usym al) c' = counters st c').
    { intros c' Hn. unfold new_obj; cbn [counters]. unfold bump.
      destruct (ucls_eqb c c') eqn:Ec; [apply ucls_eqb_eq in Ec; congruence|]. destruct c; cbn beta iota; rewrite ?Ec; reflexivity. }
    assert (Eo : objs (new_obj st c name df sym usym al) =
                 objs st ++ [(UId c name, new_unit (objs st) (primary c, k) df sym usym al)]) by reflexivity.
    assert (Old : forall u r, In (u, r) (objs st) -> ur_order r <> (primary c, k)).
    { intros u r Hin Heq. destruct (I1 u r Hin) as (n & E1 & E2 & E3). rewrite Heq in *. cbn in E2, E3.
      apply primary_inj in E2. unfold counter in Hc. rewrite E2, E1 in Hc. lia. }
    split.
    - intros u r Hin. rewrite Eo in Hin. apply in_app_or in Hin. destruct Hin as [Hin|[[= <- <-]|[]]].
      + destruct (I1 u r Hin) as (n & E1 & E2 & E3).
        destruct (ucls_eqb (u_cls u) c) eqn:Ec.
        * apply ucls_eqb_eq in Ec. destruct Own as (n' & O1 & O2). rewrite Ec. exists n'.
          split; [exact O1|]. split; [congruence|].
          rewrite Ec in E1. unfold counter in Hc. rewrite E1 in Hc. lia.
        * assert (Hn : u_cls u <> c) by (intros Hx; rewrite Hx, ucls_eqb_refl in Ec; discriminate).
          exists n. rewrite (Oth _ Hn). auto.
      + cbn [u_cls ur_order new_unit fst snd]. destruct Own as (n' & O1 & O2). eauto.
    - rewrite Eo, map_app. cbn [map].
      apply NoDup_rev in I2. rewrite <- (rev_involutive (_ ++ _)). apply NoDup_rev. rewrite rev_app_distr. cbn.
      constructor; auto. rewrite <- in_rev. intros Hin. apply in_map_iff in Hin. destruct Hin as ([u r] & Hr & Hin).
      exact (Old u r Hin Hr).
  Qed.
  Lemma create_unit_inv st c name df sym usym al : ord_inv st ->
    ord_inv (fst (create_unit st c name df sym usym al)).
  Proof.
    intros H. apply (new_obj_inv c name df sym usym al) in H. unfold create_unit.
    set (st0 := new_obj st c name df sym usym al) in *. set (l := reg_names c name sym al).
    pose proof (set_items_same l st0 (VUnit (length (objs st)))) as (S1 & S2 & _).
    unfold ord_inv in *.
    destruct (set_items st0 l (VUnit (length (objs st)))) as [st1 [u|e]]; cbn [fst objs counters] in *;
      rewrite S1, S2; exact H.
  Qed.
  Lemma rstep_inv parse st o : ord_inv st -> ord_inv (fst (rstep parse st o)).
  Proof.
    intros H. destruct o as [s' v|c name df sym usym al|name]; cbn [rstep].
    - pose proof (set_item_same st s' v) as (S1 & S2 & _). unfold ord_inv. rewrite S1, S2. exact H.
    - pose proof (@create_unit_inv st c name df sym usym al H) as K.
      destruct (create_unit st c name df sym usym al) as [st1 r]. exact K.
    - unfold create_compound. destruct (get_item parse st (T name)) as [v|e]; [|exact H].
      destruct (val_def st v) as [df|]; [|exact H].
      pose proof (@create_unit_inv st CCompound name (Some df) None None [] H) as K.
      destruct (create_unit st CCompound name (Some df) None None []) as [st1 r]. exact K.
  Qed.
  Lemma rrun_inv parse l : forall st, ord_inv st -> ord_inv (rrun parse st l).
  Proof. induction l as [|o l IH]; intros st H; cbn [rrun]; auto using rstep_inv. Qed.
  Lemma rempty_inv : ord_inv (@rempty A).
  Proof. split; cbn; [tauto|constructor]. Qed.

  (** ** The environment of a well-behaved history *)
  Definition rop_ok (pos : A -> Prop) st (o : rop A) : Prop :=
    match o with
    | RSet _ _ => True
    | RNew c name df _ _ _ =>
        ~ In (UId c name) (dkeys (objs st)) /\
        forall x, df = Some x -> c <> CDimless /\ def_ok pos (objs st) x
    | RCompound name => False
    end.
  Fixpoint rops_ok (pos : A -> Prop) parse st (l : list (rop A)) : Prop :=
    match l with
    | [] => True
    | o :: l' => rop_ok pos st o /\ rops_ok pos parse (fst (rstep parse st o)) l'
    end.
  Lemma rstep_env pos parse st o : env_ok pos (objs st) -> rop_ok pos st o ->
    env_ok pos (objs (fst (rstep parse st o))).
  Proof.
    intros HE Ho. destruct o as [s' v|c name df sym usym al|name]; cbn [rstep rop_ok] in *.
    - pose proof (set_item_same st s' v) as (S1 & _ & _). now rewrite S1.
    - destruct Ho as [H1 H2].
      destruct (create_unit_objs st c name df sym usym al) as [order K].
      destruct (create_unit st c name df sym usym al) as [st1 r]. cbn [fst] in *. rewrite K.
      constructor; auto.
    - contradiction.
  Qed.
  Lemma rrun_env pos parse l : forall st, env_ok pos (objs st) -> rops_ok pos parse st l ->
    env_ok pos (objs (rrun parse st l)).
  Proof.
    induction l as [|o l IH]; intros st H Hl; cbn [rrun rops_ok] in *; auto.
    destruct Hl as [H1 H2]. apply IH; auto using rstep_env.
  Qed.

  (** ** Whitelisting and evaluation *)
  Inductive arith : expr -> Prop :=
  | arith_name s : arith (EName s)
  | arith_num p : arith (ENum p)
  | arith_const c : arith (EConst c)
  | arith_bin o a b : arith a -> arith b -> arith (EBin o a b)
  | arith_un o a : arith a -> arith (EUn o a).

  Lemma valid_arith e : valid e = true <-> arith e.
  Proof.
    unfold valid. cbn [forallb whitelisted andb].
    split.
    - induction e; cbn [walk forallb whitelisted andb]; intros H; try (constructor; fail).
      + rewrite forallb_app, andb_true_iff in H. destruct H. constructor; auto.
      + constructor; auto.
      + discriminate.
    - induction 1; cbn [walk forallb whitelisted andb]; auto.
      rewrite forallb_app, IHarith1, IHarith2. reflexivity.
  Qed.

  (** The names of an expression. *)
  Fixpoint names (e : expr) : list text :=
    match e with
    | EName s => [s]
    | ENum _ | EConst _ => []
    | EBin _ a b => names a ++ names b
    | EUn _ a => names a
    | ENode _ l => flat_map names l
    end.
  Lemma eval_names st e v : eval st e = Ok v ->
    forall s, In s (names e) -> ctx_get st s <> None \/ s = T "__builtins__".
  Proof.
    revert v. induction e as [s|p|c|o a IHa b IHb|o a IHa|k l]; intros v H s' Hs; cbn [eval names] in *.
    - destruct Hs as [<-|[]]. destruct (ctx_get st s); [left; discriminate|].
      destruct (teqb s (T "__builtins__")) eqn:Et; [right; now apply teqb_eq|discriminate].
    - destruct Hs.
    - destruct Hs.
    - destruct (eval st a) as [va|] eqn:Ea; [|discriminate].
      destruct (eval st b) as [vb|] eqn:Eb; [|discriminate].
      apply in_app_or in Hs. destruct Hs; eauto.
    - destruct (eval st a) as [va|] eqn:Ea; [|discriminate]. eauto.
    - discriminate.
  Qed.
  (** Evaluation only depends on the names in the expression (and the unit objects). *)
  Lemma eval_ext st st' e : objs st' = objs st ->
    (forall s, In s (names e) -> ctx_get st' s = ctx_get st s) -> eval st' e = eval st e.
  Proof.
    intros Ho. 
    assert (Hq : forall v, val_q st' v = val_q st v) by (intros [p|c|i|q|s]; cbn; now rewrite ?Ho).
    assert (Hop : forall v, val_operand st' v = val_operand st v).
    { intros v. unfold val_operand. rewrite Hq. reflexivity. }
    induction e as [s|p|c|o a IHa b IHb|o a IHa|k l]; intros H; cbn [eval names] in *; auto.
    - rewrite H by (left; auto). reflexivity.
    - rewrite IHa by (intros s Hs; apply H; apply in_or_app; auto).
      rewrite IHb by (intros s Hs; apply H; apply in_or_app; auto).
      destruct (eval st a) as [va|]; auto. cbn. destruct (eval st b) as [vb|]; auto. cbn.
      unfold v_bin, q_power. rewrite !Hop, !Hq, Ho. reflexivity.
    - rewrite IHa by auto. destruct (eval st a) as [va|]; auto. cbn.
      unfold v_un. rewrite !Hq, Ho. reflexivity.
  Qed.
End RegFacts.
