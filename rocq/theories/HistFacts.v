(** * HistFacts: in a process in which all units were created successfully, every
    unit fits (it can be created again). *)
From Coq Require Import Reals Lra Lia Ascii NArith.
From Verif Require Import Py Num Dim DimFacts Arr Units Spec UnitFacts Quant QuantFacts Ufunc Ops OpsFacts
     Props_Ops Text Lex Registry RegFacts RegEq Props_Registry Uncert Pickle SpecPickle PickleFacts.

Open Scope list_scope.
Open Scope R_scope.

Lemma consistent_before (E : uenv R) u r phi : ~ In u (dkeys E) -> consistent (E ++ [(u, r)]) phi -> consistent E phi.
Proof.
  intros Hn [H1 H2]. split; auto. intros w rw df Hw Hd. apply (H2 w rw df); auto. now apply ulookup_app_l.
Qed.
Lemma same_size_after (E : uenv R) u r w x : ~ In u (dkeys E) -> same_size E w x -> same_size (E ++ [(u, r)]) w x.
Proof. intros Hn H phi HC. apply H. eapply consistent_before; eauto. Qed.
Lemma same_size_join (E : uenv R) u v w : same_size E u w -> same_size E v w -> same_size E u v.
Proof. intros H1 H2 phi HC. rewrite (H1 phi HC), (H2 phi HC). lra. Qed.

(** A product with a definition only uses names that are bound. *)
Lemma product_names (st : rstate R) e : product e -> forall v, eval st e = Ok v ->
  (exists s, v = VObj s) \/ forall s, In s (names e) -> ctx_get st s <> None.
Proof.
  induction 1 as [s|p|o p|o a b Hin Ha IHa Hb IHb]; intros v H; cbn [eval names] in *.
  - destruct (ctx_get st s) as [w|] eqn:Es.
    + right. intros s' [<-|[]]. congruence.
    + destruct (teqb s (T "__builtins__")); [|discriminate]. injection H as <-. left. eauto.
  - right. intros s [].
  - right. intros s [].
  - destruct (eval st a) as [va|] eqn:Ea; [|discriminate].
    destruct (eval st b) as [vb|] eqn:Eb; [|discriminate]. cbn [bind] in H.
    destruct (IHa _ eq_refl) as [[s ->]|HA].
    { exfalso. unfold v_bin, q_power in H. cbn [val_operand val_q option_map] in H.
      destruct Hin as [<-|[<-|[<-|[]]]].
      all: try (destruct (val_operand st vb); discriminate).
      destruct (val_q st vb) as [e|]; [destruct (dim_nonempty (qdim e))|]; discriminate. }
    destruct (IHb _ eq_refl) as [[s ->]|HB].
    { exfalso. unfold v_bin, q_power in H. cbn [val_operand val_q option_map] in H.
      assert (Hx : forall X : option (operand R), (match X with Some x => match @None (operand R) with
                     | Some y => rmap VQty (q_bin (objs st) o x y) | None => Err Unmodelled end | None => Err Unmodelled end) = Ok v -> False)
        by (intros [x|]; discriminate).
      assert (Hy : forall X : option (qty R), rmap (@VQty R) (match X with Some _ => Err Unmodelled | None => Err Unmodelled end) = Ok v -> False)
        by (intros [x|]; discriminate).
      destruct va; destruct Hin as [<-|[<-|[<-|[]]]]; try discriminate; try (eapply Hx; exact H); eapply Hy; exact H. }
    right. intros s Hs. apply in_app_or in Hs. destruct Hs; auto.
Qed.

Record hist_ok (parse : text -> res expr) (st : rstate R) : Prop := HistOk {
  ho_env : renv_ok (objs st);
  ho_units : units_only st;
  ho_bound : forall w r s, In (w, r) (objs st) -> In s (unit_names w r) -> ctx_get st s <> None;
  ho_fits : forall w r, In (w, r) (objs st) -> fits (objs st) parse st w r
}.

(** Adding one unit to a process. *)
Lemma hist_add parse (st st' : rstate R) u r : hist_ok parse st -> ~ In u (dkeys (objs st)) ->
  renv_ok (objs st') -> objs st' = objs st ++ [(u, r)] ->
  (forall s, ctx_get st' s = match ctx_get st s with
                             | Some w => Some w
                             | None => if existsb (teqb s) (unit_names u r) then Some (VUnit (length (objs st))) else None
                             end) ->
  (forall s i x rx, In s (unit_names u r) -> ctx_get st s = Some (VUnit i) -> nth_error (objs st) i = Some (x, rx) ->
     same_size (objs st') u x) ->
  (u_cls u = CCompound -> exists e v df, parse (preprocess (T (u_name u))) = Ok e /\ product e /\
       eval st e = Ok v /\ val_def st v = Some df /\ ur_def r = Some df /\ def_ok (fun a => 0 < a) (objs st) df) ->
  hist_ok parse st'.
Proof.
  intros [H1 H2 H3 H4] Hn HE' Ho Hc Hh Hcomp.
  assert (Hold : forall i o, nth_error (objs st) i = Some o -> nth_error (objs st') i = Some o).
  { intros i o Hi. rewrite Ho, nth_error_app1; auto. apply nth_error_Some. congruence. }
  assert (Hlast : nth_error (objs st') (length (objs st)) = Some (u, r)).
  { rewrite Ho, nth_error_app2, Nat.sub_diag by auto. reflexivity. }
  assert (Hkeep : forall s v, ctx_get st s = Some v -> ctx_get st' s = Some v).
  { intros s v Hs. now rewrite Hc, Hs. }
  assert (Hu' : units_only st').
  { intros s v Hs. rewrite Hc in Hs. destruct (ctx_get st s) as [w|] eqn:Es.
    - injection Hs as <-. destruct (H2 s w Es) as (i & o & -> & Hi). eauto.
    - destruct (existsb _ _); [|discriminate]. injection Hs as <-. eauto. }
  assert (HbU : forall s, In s (unit_names u r) -> ctx_get st' s <> None).
  { intros s Hs. rewrite Hc. destruct (ctx_get st s); [discriminate|].
    assert (X : existsb (teqb s) (unit_names u r) = true).
    { apply existsb_exists. exists s. split; auto. now apply teqb_eq. }
    rewrite X. discriminate. }
  constructor; auto.
  - intros w rw s Hin Hs. rewrite Ho in Hin. apply in_app_or in Hin. destruct Hin as [Hin|[[= <- <-]|[]]]; [|auto].
    specialize (H3 w rw s Hin Hs). destruct (ctx_get st s) as [v|] eqn:Es; [|congruence]. rewrite (Hkeep _ _ Es). discriminate.
  - intros w rw Hin. rewrite Ho in Hin. apply in_app_or in Hin. destruct Hin as [Hin|[[= <- <-]|[]]].
    + destruct (H4 w rw Hin) as [F1 F2]. split.
      * intros s v Hs Hv. pose proof (H3 w rw s Hin Hs) as Hb. destruct (ctx_get st s) as [v'|] eqn:Es; [|congruence].
        rewrite (Hkeep _ _ Es) in Hv. injection Hv as <-. destruct (F1 s v' Hs Es) as (i & x & rx & -> & Hi & HS).
        exists i, x, rx. split; auto. split; auto. rewrite Ho. now apply same_size_after.
      * intros Ecl. destruct (F2 Ecl) as (e & v & df & E1 & E2 & E3 & E4 & E5 & E6 & E7). exists e, v, df.
        split; auto. split; auto. split; [|split; [|split; [|split]]]; auto.
        -- intros s Hs. specialize (E3 s Hs). destruct (ctx_get st s) as [w'|] eqn:Es; [|congruence].
           rewrite (Hkeep _ _ Es). discriminate.
        -- exact (eval_product st st' [(u, r)] e E2 E3 Hkeep Ho v E4).
        -- destruct v as [p|c|i|q|s]; cbn [val_def] in *; auto.
           destruct (nth_error (objs st) i) as [o|] eqn:Ei; [|discriminate]. now rewrite (Hold _ _ Ei).
        -- intros x Hx. rewrite Ho, dkeys_app. apply in_or_app. auto.
    + split.
      * intros s v Hs Hv. rewrite Hc in Hv. destruct (ctx_get st s) as [v'|] eqn:Es.
        -- injection Hv as <-. destruct (H2 s v' Es) as (i & [x rx] & -> & Hi). exists i, x, rx. split; auto. split; eauto.
        -- destruct (existsb _ _); [|discriminate]. injection Hv as <-. do 3 eexists. split; [reflexivity|].
           split; [exact Hlast|]. apply same_size_refl.
      * intros Ecl. destruct (Hcomp Ecl) as (e & v & df & E1 & E2 & E4 & E5 & E6 & E7).
        assert (E3 : forall s, In s (names e) -> ctx_get st s <> None).
        { destruct (product_names st e E2 v E4) as [[s ->]|X]; [discriminate|exact X]. }
        exists e, v, df. split; auto. split; auto. split; [|split; [|split; [|split]]]; auto.
        -- intros s Hs. specialize (E3 s Hs). destruct (ctx_get st s) as [w'|] eqn:Es; [|congruence].
           rewrite (Hkeep _ _ Es). discriminate.
        -- exact (eval_product st st' [(u, r)] e E2 E3 Hkeep Ho v E4).
        -- destruct v as [p|c|i|q|s]; cbn [val_def] in *; auto.
           destruct (nth_error (objs st) i) as [o|] eqn:Ei; [|discriminate]. now rewrite (Hold _ _ Ei).
        -- intros x Hx. rewrite Ho, dkeys_app. apply in_or_app. left. destruct df as [a d|w]; cbn in *.
           ++ now apply E7.
           ++ destruct Hx as [<-|[]]. exact E7.
Qed.

Lemma create_unit_ctx (st : rstate R) c name df sym usym al v :
  snd (create_unit st c name df sym usym al) = Ok v ->
  v = VUnit (length (objs st)) /\
  forall s, ctx_get (fst (create_unit st c name df sym usym al)) s =
    match ctx_get st s with
    | Some w => Some w
    | None => if existsb (teqb s) (reg_names c name sym al) then Some (VUnit (length (objs st))) else None
    end.
Proof.
  unfold create_unit. set (st0 := new_obj st c name df sym usym al). set (l := reg_names c name sym al).
  destruct (snd (set_items st0 l (VUnit (length (objs st))))) as [x|e] eqn:Er.
  - pose proof (set_items_ok l st0 (VUnit (length (objs st))) Er) as G.
    destruct (set_items st0 l (VUnit (length (objs st)))) as [st1 r]. cbn [fst snd] in *. subst r. cbn [fst snd].
    intros H. split; [congruence|]. exact G.
  - destruct (set_items st0 l (VUnit (length (objs st)))) as [st1 r]. cbn [snd] in *. subst r. discriminate.
Qed.

Theorem history_ok parse st : history parse st -> hist_ok parse st.
Proof.
  induction 1 as [|st c name df sym usym al v Hh IH Hcc Hn Hd Hok|st name e v df Hh IH Hn Hp Hpr He Hv Hd|st s i o Hh IH Hi Hok].
  - constructor.
    + constructor.
    + intros s v H. discriminate.
    + intros w r s [].
    + intros w r [].
  - pose proof (create_unit_objs st c name df sym usym al) as [order Eo].
    destruct (create_unit_ctx st c name df sym usym al v Hok) as [-> Hctx].
    assert (Hop : rop_ok (fun a => 0 < a) st (RNew c name df sym usym al)) by (split; auto).
    destruct (C59_clashes_refused st c name df sym usym al (ho_env _ _ IH) (ho_units _ _ IH) Hop) as [[_ Hharm] _].
    specialize (Hharm Hok).
    apply (hist_add parse st _ (UId c name) (new_unit (objs st) order df sym usym al) IH Hn).
    + rewrite Eo. constructor; auto. exact (ho_env _ _ IH).
    + exact Eo.
    + exact Hctx.
    + intros s i x rx Hs Hc Hi. exact (Hharm s i x rx Hs Hc Hi).
    + intros E. exfalso. exact (Hcc E).
  - assert (Eg : get_item parse st (T name) = Ok v).
    { unfold get_item, inner_get. rewrite Hp. cbn [bind]. rewrite (product_valid e Hpr), He. reflexivity. }
    assert (Ec : create_compound parse st name = create_unit st CCompound name (Some df) None None []).
    { unfold create_compound. now rewrite Eg, Hv. }
    rewrite Ec. pose proof (create_unit_objs st CCompound name (Some df) None None []) as [order Eo].
    assert (Hok : snd (create_unit st CCompound name (Some df) None None []) = Ok (VUnit (length (objs st)))) by reflexivity.
    destruct (create_unit_ctx st CCompound name (Some df) None None [] _ Hok) as [_ Hctx].
    apply (hist_add parse st _ (UId CCompound name) (new_unit (objs st) order (Some df) None None []) IH Hn).
    + rewrite Eo. constructor; auto; [exact (ho_env _ _ IH)|]. intros x [= <-]. split; [discriminate|exact Hd].
    + exact Eo.
    + exact Hctx.
    + intros s i x rx [].
    + intros _. exists e, v, df. cbn [u_name ur_def new_unit]. auto 10.
  - destruct IH as [H1 H2 H3 H4]. pose proof (set_item_same st s (VUnit i)) as (So & _ & _).
    pose proof (set_item_get st s (VUnit i)) as G.
    assert (Hkeep : forall s' v, ctx_get st s' = Some v -> ctx_get (fst (set_item st s (VUnit i))) s' = Some v).
    { intros s' v Hv. now rewrite G, Hv. }
    constructor; rewrite ?So; auto.
    + intros s' v Hv. rewrite G in Hv. destruct (ctx_get st s') as [w|] eqn:Es.
      * injection Hv as <-. rewrite So. eauto.
      * destruct (teqb s' s); [|discriminate]. injection Hv as <-. rewrite So. eauto.
    + intros w r s' Hin Hs. specialize (H3 w r s' Hin Hs). destruct (ctx_get st s') as [v|] eqn:Es; [|congruence].
      rewrite (Hkeep _ _ Es). discriminate.
    + intros w r Hin. destruct (H4 w r Hin) as [F1 F2]. split.
      * intros s' v Hs Hv. pose proof (H3 w r s' Hin Hs) as Hb. destruct (ctx_get st s') as [v'|] eqn:Es; [|congruence].
        rewrite (Hkeep _ _ Es) in Hv. injection Hv as <-. rewrite So. eauto.
      * intros Ecl. destruct (F2 Ecl) as (e & v & df & E1 & E2 & E3 & E4 & E5 & E6 & E7). exists e, v, df.
        split; auto. split; auto. split; [|split; [|split; [|split]]]; auto.
        -- intros s' Hs. specialize (E3 s' Hs). destruct (ctx_get st s') as [w'|] eqn:Es; [|congruence].
           rewrite (Hkeep _ _ Es). discriminate.
        -- refine (eval_product st _ [] e E2 E3 Hkeep _ v E4). now rewrite So, app_nil_r.
        -- destruct v as [p|c|j|q|s']; cbn [val_def] in *; auto. now rewrite So.
        -- rewrite So. exact E7.
Qed.

Lemma env_agrees (E : uenv R) : renv_ok E -> agrees E E.
Proof.
  intros HE u r Hin. exists r. split; auto.
  destruct (In_nth_error _ _ Hin) as [i Hi]. exact (lookup_own E i u r (NoDup_env _ _ HE) Hi).
Qed.
Lemma env_closed (E : uenv R) : renv_ok E -> closed E.
Proof.
  intros HE u r df v Hin Hd Hv. destruct (env_agrees E HE u r Hin) as (r' & E1 & E2 & _).
  destruct (env_ok_lookup _ E HE u r' df E1 (eq_trans (eq_sym E2) Hd)) as (_ & Hok & _).
  destruct df as [a d|w]; cbn in *.
  - now apply Hok.
  - destruct Hv as [<-|[]]. exact Hok.
Qed.
