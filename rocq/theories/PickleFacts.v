(** * PickleFacts: lemmas about pickling. *)
From Coq Require Import Reals Lra Lia Ascii NArith.
From Verif Require Import Py Num Dim DimFacts Arr Units Spec UnitFacts Quant QuantFacts Ufunc Ops OpsFacts
     Props_Ops Text Lex Registry RegFacts RegEq Uncert Pickle SpecPickle.

Open Scope list_scope.

Section Any.
  Context {A : Type} {N : Num A}.

  Lemma def_ref_ext (E E' : uenv A) df : (forall u, In u (def_units df) -> unit_ref E u = unit_ref E' u) ->
    def_ref E df = def_ref E' df.
  Proof.
    destruct df as [a d|u]; cbn [def_units def_ref]; intros H; [|apply H; now left].
    unfold qty_ref. now rewrite (ref_pair_ext _ _ _ H).
  Qed.
  Lemma q_eq_ref (E E' : uenv A) q q' :
    (forall u, In u (dkeys (qdim q)) -> unit_ref E u = unit_ref E' u) ->
    (forall u, In u (dkeys (qdim q')) -> unit_ref E u = unit_ref E' u) ->
    q_eq E q (OQ q') = q_eq E' q (OQ q').
  Proof.
    intros H H'. unfold q_eq, q_eqne.
    assert (X : rescale_to E q' (qdim q) = rescale_to E' q' (qdim q)).
    { unfold rescale_to, conv_factor, qty_ref. now rewrite (ref_pair_ext _ _ _ H), (ref_pair_ext _ _ _ H'). }
    now rewrite X.
  Qed.

  Lemma set_last_order_app (E : uenv A) u r o :
    set_last_order (E ++ [(u, r)]) o = E ++ [(u, with_order r o)].
  Proof.
    induction E as [|x E IH]; auto. cbn [app set_last_order].
    destruct (E ++ [(u, r)]) eqn:Ee; [destruct E; discriminate|]. rewrite <- Ee in *. rewrite IH.
    destruct x as [v s]. destruct (E ++ [(u, r)]); [discriminate|reflexivity].
  Qed.

  Lemma set_items_all_ok v l : forall (st : rstate A),
    veq st v v = Ok true -> (forall s w, In s l -> ctx_get st s = Some w -> veq st v w = Ok true) ->
    snd (set_items st l v) = Ok tt.
  Proof.
    induction l as [|s l IH]; intros st Hv H; auto. cbn [set_items].
    pose proof (set_item_get st s v) as G. pose proof (set_item_same st s v) as (So & _ & _).
    assert (Ok1 : snd (set_item st s v) = Ok tt).
    { unfold set_item. destruct (ctx_get st s) as [w|] eqn:Es; auto. cbn [snd].
      rewrite (H s w) by (auto; now left). reflexivity. }
    destruct (set_item st s v) as [st1 r]. cbn [fst snd] in *. subst r. apply IH.
    - now rewrite (veq_objs st st1 v v So).
    - intros s' w Hs' Hw. rewrite (veq_objs st st1 v w So). rewrite G in Hw.
      destruct (ctx_get st s') as [w'|] eqn:E'.
      + injection Hw as <-. apply (H s'); auto. now right.
      + destruct (teqb s' s); [injection Hw as <-; exact Hv|discriminate].
  Qed.

  (** Labels that are products do not change their meaning when units are added. *)
  Lemma eval_product (st st' : rstate A) X e : product e ->
    (forall s, In s (names e) -> ctx_get st s <> None) ->
    (forall s v, ctx_get st s = Some v -> ctx_get st' s = Some v) -> objs st' = objs st ++ X ->
    forall v, eval st e = Ok v -> eval st' e = Ok v.
  Proof.
    intros He Hn Hk Ho.
    assert (Hq : forall v q, val_q st v = Some q -> val_q st' v = Some q).
    { intros [p|c|i|q|s] q' H; cbn [val_q] in *; try discriminate; auto. rewrite Ho.
      destruct (nth_error (objs st) i) as [o|] eqn:Ei; [|discriminate].
      rewrite nth_error_app1 by (apply nth_error_Some; congruence). rewrite Ei. exact H. }
    assert (Hop : forall v q, val_operand st v = Some q -> val_operand st' v = Some q).
    { intros v q H. unfold val_operand in *. destruct v; auto;
        (destruct (val_q st _) as [q1|] eqn:E1; [|discriminate]; rewrite (Hq _ _ E1); exact H). }
    induction He as [s|p|o p|o a b Hin Ha IHa Hb IHb]; intros v H; cbn [eval names] in *.
    - destruct (ctx_get st s) as [w|] eqn:Es; [|exfalso; apply (Hn s); auto; now left].
      rewrite (Hk _ _ Es). exact H.
    - exact H.
    - exact H.
    - destruct (eval st a) as [va|] eqn:Ea; [|discriminate].
      destruct (eval st b) as [vb|] eqn:Eb; [|discriminate]. cbn [bind] in H.
      rewrite (IHa (fun s Hs => Hn s (in_or_app _ _ _ (or_introl Hs))) _ eq_refl).
      rewrite (IHb (fun s Hs => Hn s (in_or_app _ _ _ (or_intror Hs))) _ eq_refl). cbn [bind].
      assert (Hp : forall q, q_power st va vb = Ok q -> q_power st' va vb = Ok q).
      { intros q Hq'. unfold q_power in *. destruct (val_q st vb) as [e1|] eqn:E1.
        - now rewrite (Hq _ _ E1).
        - destruct (val_q st va) as [q1|] eqn:E2; [|discriminate]. destruct vb; try discriminate.
          cbn [val_q]. now rewrite (Hq _ _ E2). }
      assert (Hb2 : forall q, In o [BMul; BDiv] ->
                (match val_operand st va, val_operand st vb with
                 | Some x, Some y => rmap VQty (q_bin (objs st) o x y) | _, _ => Err Unmodelled end) = Ok q ->
                (match val_operand st' va, val_operand st' vb with
                 | Some x, Some y => rmap VQty (q_bin (objs st') o x y) | _, _ => Err Unmodelled end) = Ok q).
      { intros q Hin' Hq'. destruct (val_operand st va) as [x|] eqn:E1; [|discriminate].
        destruct (val_operand st vb) as [y|] eqn:E2; [|discriminate]. rewrite (Hop _ _ E1), (Hop _ _ E2).
        destruct Hin' as [<-|[<-|[]]]; exact Hq'. }
      unfold v_bin in *.
      assert (Hp' : forall q, rmap VQty (q_power st va vb) = Ok q -> rmap VQty (q_power st' va vb) = Ok q).
      { intros q Hq'. destruct (q_power st va vb) as [q1|] eqn:E1; [|discriminate]. now rewrite (Hp _ eq_refl). }
      destruct va, vb; auto; destruct Hin as [<-|[<-|[<-|[]]]]; try (now apply Hp'); apply Hb2; auto; cbn; auto.
  Qed.
  Lemma load_items_cons parse (t : punit A) e l acc st : load_items parse (PCons t e l) acc st =
    match load_unit parse t st with
    | (st1, Err x) => (st1, Err x)
    | (st1, Ok u) => load_items parse l (dset uid_eqb acc u e) st1
    end.
  Proof. reflexivity. Qed.
  Lemma load_def_qty parse (a : A) l st : load_def parse (PDQty a l) st =
    match load_items parse l [] st with
    | (st1, Err e) => (st1, Err e)
    | (st1, Ok d) => (st1, Ok (Some (DQty a d)))
    end.
  Proof. reflexivity. Qed.
  Lemma load_def_unit parse (t : punit A) st : load_def parse (PDUnit t) st =
    match load_unit parse t st with
    | (st1, Err e) => (st1, Err e)
    | (st1, Ok u) => (st1, Ok (Some (DUnit u)))
    end.
  Proof. reflexivity. Qed.
  Lemma load_unit_full parse c name (df : pdef A) sym usym al o st : load_unit parse (PUnit c name df sym usym al o) st =
    match load_def parse df st with
    | (st1, Err e) => (st1, Err e)
    | (st1, Ok df') => finish o (UId c name) (create_unit st1 c name df' sym usym al)
    end.
  Proof. reflexivity. Qed.
  Lemma product_valid e : product e -> valid e = true.
  Proof. intros H. apply valid_arith. induction H; constructor; auto; constructor. Qed.
End Any.

Open Scope R_scope.

(** A known unit has the reference that [F] gives it. *)
Lemma lookup_In (E : uenv R) u r : ulookup E u = Some r -> In (u, r) E.
Proof. intros H. apply dget_In in H; [exact H|apply uid_eqb_eq]. Qed.
Lemma known_lookup {A} (E : uenv A) u : In u (dkeys E) -> exists r, ulookup E u = Some r.
Proof.
  intros H. destruct (ulookup E u) as [r|] eqn:Er; eauto. apply ulookup_None in Er. contradiction.
Qed.
Lemma agrees_ref E F u : agrees E F -> In u (dkeys E) -> unit_ref E u = unit_ref F u.
Proof.
  intros HA Hu. destruct (known_lookup E u Hu) as [r Er]. destruct (HA u r (lookup_In _ _ _ Er)) as (r' & E1 & _ & E3).
  unfold unit_ref. now rewrite Er, E1, E3.
Qed.
Lemma agrees_def E F u r : agrees E F -> ulookup E u = Some r -> exists r', ulookup F u = Some r' /\ ur_def r = ur_def r'.
Proof. intros HA Er. destruct (HA u r (lookup_In _ _ _ Er)) as (r' & E1 & E2 & _). eauto. Qed.

(** Comparing two unit objects of a process that agrees with [F]. *)
Lemma veq_agrees F (st : rstate R) i j u v r s : renv_ok F -> agrees (objs st) F ->
  nth_error (objs st) i = Some (u, r) -> nth_error (objs st) j = Some (v, s) ->
  same_size F u v -> veq st (VUnit i) (VUnit j) = Ok true.
Proof.
  intros HF HA Hi Hj HS.
  assert (X : veq st (VUnit i) (VUnit j) = bind (q_eq F (unit_q u) (OQ (unit_q v))) arr_truth).
  { unfold veq. cbn [val_q own_env]. rewrite Hi, Hj.
    assert (HA' : agrees ([(u, r)] ++ [(v, s)] ++ objs st) F).
    { intros x rx Hin. apply HA. destruct Hin as [[= <- <-]|[[= <- <-]|Hin]]; auto; eapply nth_error_In; eauto. }
    f_equal. apply q_eq_ref; intros x Hx; cbn [qdim unit_q] in Hx; apply In_unit_dims in Hx; subst x;
      apply agrees_ref; auto; cbn; auto. }
  rewrite X. destruct (unit_eq_same_size F u v HF) as [I1 _]. rewrite (proj2 I1 HS). reflexivity.
Qed.

Lemma new_ref F (E : uenv R) w rF : renv_ok F -> agrees E F -> ulookup F w = Some rF ->
  (forall df x, ur_def rF = Some df -> In x (def_units df) -> In x (dkeys E)) ->
  option_map (def_ref E) (ur_def rF) = ur_ref rF.
Proof.
  intros HF HA Hw Hk. destruct (ur_def rF) as [df|] eqn:Ed; cbn [option_map].
  - destruct (env_ok_lookup _ F HF w rF df Hw Ed) as (_ & _ & Hr & _).
    pose proof (env_ok_def_ref _ F HF w rF Hw) as Hn. unfold unit_ref in Hr. rewrite Hw in Hr.
    destruct (ur_ref rF) as [x|] eqn:Ex; [|exfalso; assert (ur_def rF = None) by (now apply Hn); congruence].
    f_equal. rewrite Hr. apply def_ref_ext. intros u Hu. apply agrees_ref; [exact HA|]. exact (Hk df u eq_refl Hu).
  - symmetry. now apply (env_ok_def_ref _ F HF w rF Hw).
Qed.

(** ** Loading *)
Section Load.
  Variables (F E1 : uenv R) (parse : text -> res expr) (st2 : rstate R) (Nd : uid -> Prop).
  Hypothesis HF : renv_ok F.
  Hypothesis HA1 : agrees E1 F.
  Hypothesis Hfits : forall w r, Nd w -> ulookup E1 w = Some r -> fits F parse st2 w r.
  Hypothesis Hshare : forall w w' r r' s, Nd w -> Nd w' -> ulookup E1 w = Some r -> ulookup E1 w' = Some r' ->
    In s (unit_names w r) -> In s (unit_names w' r') -> same_size F w w'.

  Local Notation linv := (loaded F E1 st2 Nd).

  (** The objects of [st'] are those of [st], some new ones, and the unit [u] last. *)
  Definition made (st st' : rstate R) (u : uid) : Prop :=
    exists X r, objs st' = objs st ++ X ++ [(u, r)] /\
      forall r1, ulookup E1 u = Some r1 -> ur_order r = ur_order r1 /\
        (by_name (u_cls u) = false -> ur_symbol r = ur_symbol r1 /\ ur_usymbol r = ur_usymbol r1 /\ ur_aliases r = ur_aliases r1).

  Lemma create_step st w r rF o usym :
    linv st -> Nd w -> ulookup E1 w = Some r -> ulookup F w = Some rF ->
    (forall df x, ur_def rF = Some df -> In x (def_units df) -> In x (dkeys (objs st))) ->
    forall sym al, reg_names (u_cls w) (u_name w) sym al = unit_names w r ->
    exists st' v, create_unit st (u_cls w) (u_name w) (ur_def rF) sym usym al = (st', Ok v) /\
      linv (set_order st' o) /\
      exists r', objs (set_order st' o) = objs st ++ [(w, r')] /\ ur_order r' = o /\ ur_symbol r' = sym /\
                 ur_usymbol r' = usym /\ ur_aliases r' = al.
  Proof.
    intros HI HN Hr HrF Hk sym al Hnames.
    set (c := u_cls w) in *. set (name := u_name w) in *.
    assert (Ew : UId c name = w) by (destruct w; reflexivity).
    set (v := @VUnit R (length (objs st))).
    set (st0 := new_obj st c name (ur_def rF) sym usym al).
    destruct (create_unit_objs st c name (ur_def rF) sym usym al) as [order Eo]. rewrite Ew in Eo.
    assert (Ho0 : exists order', objs st0 = objs st ++ [(w, new_unit (objs st) order' (ur_def rF) sym usym al)]).
    { subst st0. cbn [new_obj objs]. rewrite Ew. eexists. reflexivity. }
    destruct Ho0 as [order' Ho0].
    assert (Hrec : forall ord, agrees (objs st ++ [(w, new_unit (objs st) ord (ur_def rF) sym usym al)]) F).
    { intros ord u ru Hin. apply in_app_or in Hin. destruct Hin as [Hin|[[= <- <-]|[]]].
      - exact (li_agrees _ _ _ _ st HI u ru Hin).
      - exists rF. split; auto. split; auto. cbn [ur_ref new_unit].
        exact (new_ref F (objs st) w rF HF (li_agrees _ _ _ _ st HI) HrF Hk). }
    assert (HA0 : agrees (objs st0) F) by (rewrite Ho0; apply Hrec).
    assert (Hv0 : nth_error (objs st0) (length (objs st)) = Some (w, new_unit (objs st) order' (ur_def rF) sym usym al)).
    { rewrite Ho0, nth_error_app2 by auto. now rewrite Nat.sub_diag. }
    assert (Hext : forall i x, nth_error (objs st) i = Some x -> nth_error (objs st0) i = Some x).
    { intros i x Hi. rewrite Ho0, nth_error_app1; auto. apply nth_error_Some. congruence. }
    assert (Hnm : forall s w', In s (unit_names w r) -> ctx_get st s = Some w' -> veq st0 v w' = Ok true).
    { intros s w' Hs Hw'. destruct (li_new _ _ _ _ st HI s w' Hw') as [H2|(H2 & i & x & rx & rx' & -> & Hi & HNx & Hrx & Hsx)].
      - destruct (proj1 (Hfits w r HN Hr) s w' Hs H2) as (i & x & rx & -> & Hi & HS).
        eapply (veq_agrees F st0); eauto. destruct (li_objs _ _ _ _ st HI) as (X & EX & _).
        apply Hext. rewrite EX, nth_error_app1; eauto. apply nth_error_Some. congruence.
      - eapply (veq_agrees F st0); eauto. }
    assert (Hall : snd (set_items st0 (unit_names w r) v) = Ok tt).
    { apply set_items_all_ok.
      - eapply (veq_agrees F st0); eauto. apply same_size_refl.
      - intros s w' Hs Hw'. change (ctx_get st s = Some w') in Hw'. eauto. }
    pose proof (set_items_ok (unit_names w r) st0 v Hall) as Hctx.
    pose proof (set_items_same (unit_names w r) st0 v) as (So & Sc & Sd).
    unfold create_unit. fold st0. fold v. rewrite Hnames.
    destruct (set_items st0 (unit_names w r) v) as [st1 res1]. cbn [fst snd] in *. subst res1.
    do 2 eexists. split; [reflexivity|].
    assert (Efin : objs (set_order {| objs := objs st1; ctx := ctx st1; counters := counters st1;
       dflt := if is_irreducible c then match dflt st1 c with
                 | None => fun c' => if ucls_eqb c c' then Some (unit_dims (UId c name)) else dflt st1 c'
                 | Some _ => dflt st1 end else dflt st1 |} o) =
       objs st ++ [(w, with_order (new_unit (objs st) order' (ur_def rF) sym usym al) o)]).
    { unfold set_order. cbn [objs]. rewrite So, Ho0. apply set_last_order_app. }
    split.
    - constructor.
      + rewrite Efin. exact (Hrec o).
      + rewrite Efin. destruct (li_objs _ _ _ _ st HI) as (X & EX & HX). exists (X ++ [(w, with_order (new_unit (objs st) order' (ur_def rF) sym usym al) o)]).
        split; [rewrite EX at 1; now rewrite app_assoc|].
        intros u ru Hin. apply in_app_or in Hin. destruct Hin as [Hin|[[= <- <-]|[]]]; eauto.
      + intros s x Hx. rewrite Efin. unfold set_order, ctx_get in Hx. cbn [ctx] in Hx. fold (ctx_get st1 s) in Hx.
        rewrite Hctx in Hx. change (ctx_get st0 s) with (ctx_get st s) in Hx.
        destruct (ctx_get st s) as [y|] eqn:Es.
        * injection Hx as <-. destruct (li_new _ _ _ _ st HI s y Es) as [H2|(H2 & i & u & ru & ru' & -> & Hi & Hrest)]; auto.
          right. split; auto. exists i, u, ru, ru'. split; auto. split; auto.
          rewrite nth_error_app1; auto. apply nth_error_Some. congruence.
        * destruct (existsb (teqb s) (unit_names w r)) eqn:Ex; [|discriminate]. injection Hx as <-.
          apply existsb_exists in Ex. destruct Ex as (s' & Hs' & Et). apply teqb_eq in Et. subst s'.
          destruct (ctx_get st2 s) as [y|] eqn:E2; [rewrite (li_keeps _ _ _ _ st HI s y E2) in Es; discriminate|].
          right. split; auto. do 4 eexists. split; [reflexivity|]. split; [|eauto].
          rewrite nth_error_app2 by auto. rewrite Nat.sub_diag. reflexivity.
      + intros s x Hx. unfold set_order, ctx_get. cbn [ctx]. fold (ctx_get st1 s). rewrite Hctx.
        change (ctx_get st0 s) with (ctx_get st s). now rewrite (li_keeps _ _ _ _ st HI s x Hx).
      + intros c'. cbn [set_order dflt]. rewrite Sd. change (dflt st0) with (dflt st).
        destruct (is_irreducible c); [|apply (li_dflt _ _ _ _ st HI)].
        destruct (dflt st c) as [dd|] eqn:Ed; [apply (li_dflt _ _ _ _ st HI)|].
        destruct (ucls_eqb c c') eqn:Ec; [|apply (li_dflt _ _ _ _ st HI)].
        apply ucls_eqb_eq in Ec. subst c'. right. destruct (li_dflt _ _ _ _ st HI c) as [H|(H & _)].
        * split; [congruence|]. exists w. now rewrite Ew.
        * split; [auto|]. exists w. now rewrite Ew.
    - eexists. split; [exact Efin|]. repeat split.
  Qed.

  Lemma dset_snoc (acc : dims) u e : ~ In u (dkeys acc) -> dset uid_eqb acc u e = acc ++ [(u, e)].
  Proof.
    clear. induction acc as [|[v p] acc IH]; cbn; intros H; auto.
    destruct (uid_eqb u v) eqn:Eu; [apply uid_eqb_eq in Eu; subst; tauto|]. rewrite IH; tauto.
  Qed.

  (** Reading the items of a dimensionality, given that reading each unit works. *)
  Lemma load_items_ok (f : uid -> res (punit R)) :
    (forall u t, Nd u -> In u (dkeys E1) -> f u = Ok t -> forall st, linv st ->
       exists st', load_unit parse t st = (st', Ok u) /\ linv st' /\ made st st' u) ->
    forall d l, dump_items f d = Ok l -> forall acc st, linv st ->
      NoDup (dkeys (acc ++ d)) -> (forall u, In u (dkeys d) -> Nd u /\ In u (dkeys E1)) ->
      exists st', load_items parse l acc st = (st', Ok (acc ++ d)) /\ linv st' /\
        (exists X, objs st' = objs st ++ X) /\ forall u, In u (dkeys d) -> In u (dkeys (objs st')).
  Proof.
    clear HA1 Hfits Hshare. intros Hf d. induction d as [|[u e] d IH]; intros l Hl acc st HI HND Hk; cbn [dump_items] in Hl.
    - injection Hl as <-. cbn [load_items]. exists st. rewrite app_nil_r. split; auto. split; auto.
      split; [exists []; now rewrite app_nil_r|intros u []].
    - destruct (f u) as [t|] eqn:Et; [|discriminate]. cbn [bind] in Hl.
      destruct (dump_items f d) as [l'|] eqn:El; [|discriminate]. injection Hl as <-. rewrite load_items_cons.
      destruct (Hk u (or_introl eq_refl)) as [HNu HKu].
      destruct (Hf u t HNu HKu Et st HI) as (st' & Eload & HI' & (X & r & EX & _)). rewrite Eload.
      assert (Hacc : dset uid_eqb acc u e = acc ++ [(u, e)]).
      { apply dset_snoc. unfold dkeys in HND |- *. rewrite map_app in HND. cbn in HND.
        apply NoDup_remove_2 in HND. intros Hin. apply HND. apply in_or_app. now left. }
      rewrite Hacc.
      destruct (IH l' eq_refl (acc ++ [(u, e)]) st' HI') as (st'' & E2 & HI'' & (Y & EY) & Hin).
      + now rewrite <- app_assoc.
      + intros x Hx. apply Hk. now right.
      + exists st''. rewrite E2, <- app_assoc. split; auto. split; auto. split.
        * exists ((X ++ [(u, r)]) ++ Y). rewrite EY, EX. now rewrite <- !app_assoc.
        * intros x [<-|Hx]; [|auto]. cbn [fst]. rewrite EY, EX. rewrite !dkeys_app. cbn.
          rewrite !in_app_iff. cbn. auto.
  Qed.

  Hypothesis Hclosed : closed E1.
  Hypothesis Hneed : forall u r df v, Nd u -> u_cls u <> CCompound -> ulookup E1 u = Some r -> ur_def r = Some df ->
    In v (def_units df) -> Nd v.

  Lemma load_unit_ok fuel : forall u t, Nd u -> In u (dkeys E1) -> dump_unit fuel E1 u = Ok t ->
    forall st, linv st -> exists st', load_unit parse t st = (st', Ok u) /\ linv st' /\ made st st' u.
  Proof.
    induction fuel as [|fuel IH]; intros u t HN HK Ht st HI; [discriminate|]. cbn [dump_unit] in Ht.
    destruct (ulookup E1 u) as [r|] eqn:Er; [|discriminate].
    destruct (agrees_def _ _ _ _ HA1 Er) as (rF & ErF & Edef).
    assert (Eu : u = UId (u_cls u) (u_name u)) by (destruct u; reflexivity).
    destruct (by_name (u_cls u)) eqn:Eb.
    - injection Ht as <-. cbn [load_unit].
      destruct (u_cls u) eqn:Ec; try discriminate Eb.
      + (* compound *)
        destruct (proj2 (Hfits u r HN Er) Ec) as (e & v & df & Ep & Hp & Hnm & Ev & Evd & Ed & Hkn).
        destruct (li_objs _ _ _ _ st HI) as (X & EX & _).
        assert (Ev' : eval st e = Ok v) by (exact (eval_product st2 st X e Hp Hnm (li_keeps _ _ _ _ st HI) EX v Ev)).
        assert (Evd' : val_def st v = Some df).
        { destruct v as [p|c|i|q|s]; cbn [val_def] in *; auto. rewrite EX.
          destruct (nth_error (objs st2) i) as [o|] eqn:Ei; [|discriminate].
          rewrite nth_error_app1 by (apply nth_error_Some; congruence). now rewrite Ei. }
        unfold create_compound, get_item, inner_get. rewrite Ep. cbn [bind]. rewrite (product_valid e Hp), Ev'. cbn [catch].
        rewrite Evd'.
        assert (Ed' : ur_def rF = Some df) by congruence.
        destruct (create_step st u r rF (ur_order r) None HI HN Er ErF) with (sym := @None string) (al := @nil string)
          as (st' & w & E1' & HI' & (r' & Eo & O1 & O2 & O3 & O4)).
        { intros df' x Hd' Hx. assert (df' = df) by congruence. subst df'. rewrite EX, dkeys_app. apply in_or_app. left. auto. }
        { unfold unit_names. rewrite Ec. reflexivity. }
        rewrite Ec, Ed' in E1'. rewrite E1'. cbn [finish]. exists (set_order st' (ur_order r)).
        split; [now rewrite <- Eu|]. split; auto. exists [], r'. split; [exact Eo|]. rewrite Er. intros r1 [= <-]. split; [exact O1|]. rewrite Ec. discriminate.
      + (* dimensionless *)
        assert (Ed' : ur_def rF = None).
        { destruct (ur_def rF) as [df|] eqn:Ed; auto.
          destruct (env_ok_lookup _ F HF u rF df ErF Ed) as (X & _). congruence. }
        destruct (create_step st u r rF (ur_order r) None HI HN Er ErF) with (sym := @None string) (al := @nil string)
          as (st' & w & E1' & HI' & (r' & Eo & O1 & O2 & O3 & O4)).
        { congruence. }
        { unfold unit_names. rewrite Ec. reflexivity. }
        rewrite Ec, Ed' in E1'. rewrite E1'. cbn [finish]. exists (set_order st' (ur_order r)).
        split; [now rewrite <- Eu|]. split; auto. exists [], r'. split; [exact Eo|]. rewrite Er. intros r1 [= <-]. split; [exact O1|]. rewrite Ec. discriminate.
    - assert (Ecc : u_cls u <> CCompound) by (intros X; rewrite X in Eb; discriminate).
      destruct (ur_def r) as [df|] eqn:Ed.
      + assert (Hkn : forall x, In x (def_units df) -> Nd x /\ In x (dkeys E1)).
        { intros x Hx. split; [exact (Hneed u r df x HN Ecc Er Ed Hx)|exact (Hclosed u r df x (lookup_In _ _ _ Er) Ed Hx)]. }
        assert (Hdf : exists pd st1, (match df with
                    | DQty a d => l <- dump_items (dump_unit fuel E1) d ;; Ok (PDQty a l)
                    | DUnit v => t <- dump_unit fuel E1 v ;; Ok (PDUnit t) end) = Ok pd /\
                  load_def parse pd st = (st1, Ok (Some df)) /\ linv st1 /\ (exists X, objs st1 = objs st ++ X) /\
                  forall x, In x (def_units df) -> In x (dkeys (objs st1))).
        { destruct df as [a d|v]; cbn [def_units] in *.
          - destruct (dump_items (dump_unit fuel E1) d) as [l|] eqn:El; [|discriminate]. cbn [bind] in *.
            destruct (env_ok_lookup _ F HF u rF (DQty a d) ErF (eq_sym Edef)) as (_ & (_ & (Wd & _) & _) & _).
            destruct (load_items_ok (dump_unit fuel E1) IH d l El [] st HI) as (st1 & L1 & L2 & L3 & L4); auto.
            exists (PDQty a l), st1. split; auto. rewrite load_def_qty, L1. auto.
          - destruct (dump_unit fuel E1 v) as [t'|] eqn:Et; [|discriminate]. cbn [bind] in *.
            destruct (Hkn v (or_introl eq_refl)) as [H1 H2].
            destruct (IH v t' H1 H2 Et st HI) as (st1 & L1 & L2 & (X & rv & EX & _)).
            exists (PDUnit t'), st1. split; auto. rewrite load_def_unit, L1. split; auto. split; auto.
            split; [eexists; exact EX|]. intros x [<-|[]]. rewrite EX, !dkeys_app. cbn. rewrite !in_app_iff. cbn. auto. }
        destruct Hdf as (pd & st1 & D1 & D2 & HI1 & (X & EX) & Hk1). rewrite D1 in Ht. cbn [bind] in Ht. injection Ht as <-.
        rewrite load_unit_full, D2.
        destruct (create_step st1 u r rF (ur_order r) (ur_usymbol r) HI1 HN Er ErF) with (sym := ur_symbol r) (al := ur_aliases r)
          as (st' & w & E1' & HI' & (r' & Eo & O1 & O2 & O3 & O4)).
        { intros df' x Hd' Hx. assert (df' = df) by congruence. subst df'. auto. }
        { reflexivity. }
        rewrite <- Edef in E1'. rewrite E1'. cbn [finish]. rewrite <- Eu. eexists. split; [reflexivity|]. split; auto.
        exists X, r'. split; [rewrite Eo, EX; now rewrite app_assoc|]. rewrite Er. intros r1 [= <-]. auto.
      + cbn [bind] in Ht. injection Ht as <-. rewrite load_unit_full. cbn [load_def].
        destruct (create_step st u r rF (ur_order r) (ur_usymbol r) HI HN Er ErF) with (sym := ur_symbol r) (al := ur_aliases r)
          as (st' & w & E1' & HI' & (r' & Eo & O1 & O2 & O3 & O4)).
        { congruence. }
        { reflexivity. }
        rewrite <- Edef in E1'. rewrite E1'. cbn [finish]. rewrite <- Eu. eexists. split; [reflexivity|]. split; auto.
        exists [], r'. split; [exact Eo|]. rewrite Er. intros r1 [= <-]. auto.
  Qed.

  Lemma linv_start : agrees (objs st2) F -> linv st2.
  Proof.
    clear. intros H. constructor; auto. exists []. rewrite app_nil_r. split; auto. intros u r [].
  Qed.
End Load.

(** ** Writing succeeds *)
Lemma firstn_keys (E : uenv R) : forall m u, In u (dkeys (firstn m E)) -> In u (dkeys E).
Proof.
  induction E as [|y E IH]; intros [|m] u Hin; cbn in *; try tauto. destruct Hin; auto. right. exact (IH m u H).
Qed.
Lemma env_ok_before pos (F : uenv R) : env_ok pos F -> forall n u r df v, ulookup F u = Some r -> ur_def r = Some df ->
  In u (dkeys (firstn (S n) F)) -> In v (def_units df) -> In v (dkeys (firstn n F)).
Proof.
  induction 1 as [|E u0 order df0 sym usym aliases H IH Hn Hd]; intros n u r df v Hu Hdf Hin Hv; [discriminate|].
  set (x := (u0, new_unit E order df0 sym usym aliases)) in *.
  destruct (uid_eq_dec u u0) as [->|Hne].
  - unfold x in Hu. rewrite ulookup_last in Hu by assumption. injection Hu as <-. cbn in Hdf. subst df0.
    assert (Hlen : (length E <= n)%nat).
    { destruct (le_lt_dec (length E) n) as [|Hlt]; auto. exfalso. apply Hn.
      rewrite firstn_app in Hin. replace (S n - length E)%nat with 0%nat in Hin by lia. cbn [firstn] in Hin.
      rewrite app_nil_r in Hin. exact (firstn_keys E (S n) u0 Hin). }
    rewrite firstn_app, firstn_all2 by assumption. rewrite dkeys_app. apply in_or_app. left.
    destruct (Hd df eq_refl) as [_ Hok]. destruct df as [a d|w]; cbn in *.
    + now apply Hok.
    + destruct Hv as [<-|[]]. exact Hok.
  - unfold x in Hu. rewrite ulookup_other in Hu by assumption.
    assert (Hin' : In u (dkeys (firstn (S n) E))).
    { rewrite firstn_app, dkeys_app in Hin. apply in_app_or in Hin. destruct Hin as [Hin|Hin]; auto.
      exfalso. destruct (S n - length E)%nat; cbn in Hin; [destruct Hin|].
      destruct Hin as [Hin|Hin]; [cbn in Hin; congruence|]. rewrite firstn_nil in Hin. destruct Hin. }
    rewrite firstn_app, dkeys_app. apply in_or_app. left. exact (IH n u r df v Hu Hdf Hin' Hv).
Qed.

Lemma dump_items_total (f : uid -> res (punit R)) d : (forall u, In u (dkeys d) -> exists t, f u = Ok t) ->
  exists l, dump_items f d = Ok l.
Proof.
  induction d as [|[u e] d IH]; intros H; cbn [dump_items]; [eexists; reflexivity|].
  destruct (H u (or_introl eq_refl)) as [t ->]. destruct IH as [l ->]; [intros v Hv; apply H; now right|].
  eexists; reflexivity.
Qed.

Lemma dump_total F E1 : renv_ok F -> agrees E1 F -> closed E1 ->
  forall n u fuel, In u (dkeys E1) -> In u (dkeys (firstn n F)) -> (n <= fuel)%nat -> exists t, dump_unit fuel E1 u = Ok t.
Proof.
  intros HF HA HC. induction n as [|n IH]; intros u fuel HK Hin Hle; [destruct Hin|].
  destruct fuel as [|fuel]; [lia|]. cbn [dump_unit].
  destruct (known_lookup E1 u HK) as [r Er]. rewrite Er.
  destruct (by_name (u_cls u)); [eexists; reflexivity|].
  destruct (agrees_def _ _ _ _ HA Er) as (rF & ErF & Edef).
  destruct (ur_def r) as [df|] eqn:Ed; [|eexists; reflexivity].
  assert (Hsub : forall v, In v (def_units df) -> exists t, dump_unit fuel E1 v = Ok t).
  { intros v Hv. apply IH; [|exact (env_ok_before _ F HF n u rF df v ErF (eq_sym Edef) Hin Hv)|lia].
    exact (HC u r df v (lookup_In _ _ _ Er) Ed Hv). }
  destruct df as [a d|v]; cbn [def_units] in Hsub.
  - destruct (dump_items_total (dump_unit fuel E1) d Hsub) as [l ->]. eexists; reflexivity.
  - destruct (Hsub v (or_introl eq_refl)) as [t ->]. eexists; reflexivity.
Qed.
Lemma dump_total' F E1 u fuel : renv_ok F -> agrees E1 F -> closed E1 -> In u (dkeys E1) -> (length F <= fuel)%nat ->
  exists t, dump_unit fuel E1 u = Ok t.
Proof.
  intros HF HA HC HK Hle. apply (dump_total F E1 HF HA HC (length F) u fuel HK); auto.
  rewrite firstn_all. destruct (known_lookup E1 u HK) as [r Er]. destruct (agrees_def _ _ _ _ HA Er) as (rF & ErF & _).
  destruct (in_dec uid_eq_dec u (dkeys F)) as [|Hn]; auto. apply ulookup_None in Hn. congruence.
Qed.
