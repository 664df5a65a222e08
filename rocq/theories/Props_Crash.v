(** * Props_Crash: C120, C121.  Calls that are interrupted; calls that are not disturbed. *)
From Coq Require Import Reals Lra Lia.
From Verif Require Import Py Num Dim DimFacts Arr ArrFacts Units Spec UnitFacts Quant QuantFacts SimpFacts SpecApi ConvFacts
  Defaults DefaultsFacts Ufunc Ops OpsFacts Text Markup Lex LexFacts PrintFacts Registry RegFacts Sched SchedFacts Examples Props_Ops RoundTrip PrintEq Render RegEq Props_Registry
  SpecPickle PickleFacts HistFacts Props_Pickle Props_Labels Props_Umath Props_Sched.

Open Scope list_scope.
Open Scope nat_scope.

(** ** C117, undisturbed calls *)
(** If no other thread makes a step between the beginning of a call and its return, the
    call does exactly what the sequential model says. *)
Theorem C117_undisturbed : forall A (N : Num A) parse (s : rstate A) pre o k post,
  exists tr s' r,
    run parse s (pre ++ Idle (Call o k) :: post) tr s' (pre ++ Busy o (Ret _ r) k :: post) /\
    match o with
    | ORegister n v => s' = fst (set_item s n v) /\ r = rmap (fun _ => RNone) (snd (set_item s n v))
    | OCreate c name df sym usym al =>
        s' = fst (create_unit s c name df sym usym al) /\ r = rmap (@RVal A) (snd (create_unit s c name df sym usym al))
    | OCompound name => s' = fst (create_compound parse s name) /\ r = rmap (@RVal A) (snd (create_compound parse s name))
    | OLookup l => s' = s /\ r = rmap (@RVal A) (get_item parse s l)
    | ODefault c a =>
        let x := set_default_unit (label_unit parse s) (objs s) (dflt s) c a in
        objs s' = objs s /\ ctx s' = ctx s /\ dflt s' = fst x /\ r = rmap (fun _ => RNone) (snd x)
    | ODefaults sys own =>
        let x := match sys with
                 | SysBad => (dflt s, Err ValueError)
                 | _ => set_defaults (label_unit parse s) (objs s) (dflt s) (system_calls sys ++ own)
                 end in
        objs s' = objs s /\ ctx s' = ctx s /\ dflt s' = fst x /\ r = rmap (fun _ => RNone) (snd x)
    | OSimplified fuel q => s' = s /\ r = rmap (@RQty A) (simplified fuel (objs s) (dflt s) q)
    end.
Proof.
  intros A N parse s pre o k post.
  assert (G : forall (c : code (rstate A) (res (out A))) s, exists tr,
     run parse s (pre ++ Busy o c k :: post) tr (fst (solo c s)) (pre ++ Busy o (Ret _ (snd (solo c s))) k :: post)).
  { induction c as [r|f g IH]; intros s1; cbn [solo fst snd].
    - exists [s1]. constructor.
    - destruct (IH s1 (f s1)) as [tr Htr]. exists (s1 :: tr). econstructor; [constructor|exact Htr]. }
  destruct (G (call parse o) s) as [tr Htr].
  exists (s :: tr), (fst (solo (call parse o) s)), (snd (solo (call parse o) s)).
  split; [econstructor; [constructor|exact Htr]|]. clear.
  assert (B : forall X (c : code (rstate A) (res X)) (h : X -> out A), solo (rbind c (fun x => Ret _ (Ok (h x)))) s = (fst (solo c s), rmap h (snd (solo c s)))).
  { intros X c h. rewrite solo_rbind. destruct (snd (solo c s)); reflexivity. }
  destruct o as [n v|c name df sym usym al|name|label|c a|sys own|fuel q]; cbn [call]; rewrite B; cbn [fst snd].
  - rewrite solo_set_item. auto.
  - rewrite solo_create. auto.
  - rewrite solo_compound. auto.
  - rewrite solo_get_item. auto.
  - rewrite solo_set_default. destruct (set_default_unit (label_unit parse s) (objs s) (dflt s) c a) as [D r]. cbn [fst snd with_dflt objs ctx dflt]. auto.
  - unfold set_default_units_c.
    assert (L : forall y, let x := set_defaults (label_unit parse s) (objs s) (dflt s) (system_calls y ++ own) in
       objs (fst (solo (set_defaults_c parse (system_calls y ++ own)) s)) = objs s /\
       ctx (fst (solo (set_defaults_c parse (system_calls y ++ own)) s)) = ctx s /\
       dflt (fst (solo (set_defaults_c parse (system_calls y ++ own)) s)) = fst x /\
       rmap (fun _ : unit => @RNone A) (snd (solo (set_defaults_c parse (system_calls y ++ own)) s)) = rmap (fun _ => RNone) (snd x)).
    { intros y. cbv zeta. rewrite solo_set_defaults. destruct (set_defaults (label_unit parse s) (objs s) (dflt s) (system_calls y ++ own)) as [D r].
      cbn [fst snd with_dflt objs ctx dflt]. auto. }
    destruct sys; [apply L|apply L|apply L|]. cbn [solo fst snd rmap]. auto.
  - rewrite solo_simplified. auto.
Qed.

(** Every process in which units have been created and named one after the other meets the
    conditions of C118 and C119. *)
Lemma history_defaults parse s : history parse s -> forall c dd, dflt s c = Some dd -> dims_ok dd.
Proof.
  assert (Cr : forall (st : rstate R) c name df sym usym al c' dd, (forall c dd, dflt st c = Some dd -> dims_ok dd) ->
     dflt (fst (create_unit st c name df sym usym al)) c' = Some dd -> dims_ok dd).
  { intros st c name df sym usym al c' dd IH. unfold create_unit.
    pose proof (set_items_same (reg_names c name sym al) (new_obj st c name df sym usym al) (VUnit (length (objs st)))) as (_ & _ & S3).
    destruct (set_items _ _ _) as [st1 [x|e]]; cbn [fst] in *.
    - cbn [dflt]. unfold set_cls. rewrite S3. cbn [new_obj dflt].
      destruct (is_irreducible c); [|apply IH]. destruct (dflt st c); [apply IH|].
      unfold set_cls. destruct (ucls_eqb c c'); [intros [= <-]; apply dims_ok_unit|apply IH].
    - rewrite S3. cbn [new_obj dflt]. apply IH. }
  induction 1 as [|st c name df sym usym al v H IH H1 H2 H3 H4|st name e v df H IH H1 H2 H3 H4 H5 H6|st n i o H IH H1 H2].
  - intros c dd. discriminate.
  - intros c' dd. now apply Cr.
  - intros c' dd. unfold create_compound. destruct (get_item parse st (T name)) as [w|]; [|apply IH].
    destruct (val_def st w); [now apply Cr|apply IH].
  - destruct (set_item_same st n (VUnit i)) as (_ & _ & S3). rewrite S3. exact IH.
Qed.
Lemma history_process parse s F ts : history parse s ->
  (forall t, In t ts -> exists c, t = Idle c /\ prudent F c) -> process_ok F s ts.
Proof.
  intros H Ht. split; [|split; [exact (history_defaults parse s H)|exact Ht]].
  intros n v Hn. destruct (ho_units _ _ (history_ok _ _ H) n v Hn) as (i & o & -> & _). exact I.
Qed.

Open Scope string_scope.
(** A program for the examples: one thread makes the metre the default length, another one
    simplifies 5 m/s, a third looks a name up; the program is proper. *)
Definition ex_threads : list (tstate R) :=
  [Idle (Call (ODefault CLength (SStr "metre")) (fun _ => Stop));
   Idle (Call (OSimplified 2 (Qty (scalar 5%R) [(u_m, PInt 1); (u_s, PInt (-1))])) (fun _ => Stop));
   Idle (Call (OLookup (T "metre")) (fun _ => Stop))].
Example C118_example : process_ok (objs ex_h4) ex_h4 ex_threads /\ renv_ok (objs ex_h4) /\
  dflt ex_h4 CLength = Some [(u_m, PInt 1)] /\
  exists tr s' r, run (parse_arith dec_read) ex_h4 ex_threads tr s'
    [Idle (Call (ODefault CLength (SStr "metre")) (fun _ => Stop));
     Busy (OSimplified 2 (Qty (scalar 5%R) [(u_m, PInt 1); (u_s, PInt (-1))])) (Ret _ r) (fun _ => Stop);
     Idle (Call (OLookup (T "metre")) (fun _ => Stop))] /\ s' = ex_h4.
Proof.
  destruct C70_example as (H & _).
  split; [|split; [exact (ho_env _ _ (history_ok _ _ H))|split; [vm_compute; reflexivity|]]].
  - apply (history_process _ _ _ _ H). intros t [<-|[<-|[<-|[]]]]; (eexists; split; [reflexivity|]); cbn [prudent call_ok sarg_ok]; auto.
    split; [|auto]. split; [reflexivity|]. cbn [qdim]. split; [apply wf_dimsb_true; vm_compute; reflexivity|].
    intros u [<-|[<-|[]]]; discriminate.
  - destruct (C117_undisturbed R _ (parse_arith dec_read) ex_h4 [Idle (Call (ODefault CLength (SStr "metre")) (fun _ => Stop))]
      (OSimplified 2 (Qty (scalar 5%R) [(u_m, PInt 1); (u_s, PInt (-1))])) (fun _ => Stop) [Idle (Call (OLookup (T "metre")) (fun _ => Stop))])
      as (tr & s' & r & Hr & Hs & _). exists tr, s', r. split; [exact Hr|exact Hs].
Qed.
Close Scope string_scope.

(** ** C120: interrupted calls *)
(** The creation of a unit interrupted at any point: the names that were bound keep their
    values; either nothing new exists or the unit does, and the names that it has already
    got are an initial part of the list of its names (its name, its symbol, its aliases);
    only the default unit of its class can have changed, if there was none. *)
Theorem C120_creation : forall A (N : Num A) (s : rstate A) n c name df sym usym aliases,
  let s' := cut n (create_c c name df sym usym aliases) s in
  (objs s' = objs s \/ exists order, objs s' = objs s ++ [(UId c name, new_unit (objs s) order df sym usym aliases)]) /\
  (exists before after, reg_names c name sym aliases = before ++ after /\
     (forall x, ctx_get s' x = match ctx_get s x with
                               | Some w => Some w
                               | None => if existsb (teqb x) before then Some (VUnit (length (objs s))) else None
                               end) /\
     (before <> [] -> length (objs s') = S (length (objs s)))) /\
  (forall c' dd, dflt s c' = Some dd -> dflt s' c' = Some dd) /\
  (forall c', dflt s' c' <> dflt s c' -> c' = c /\ dflt s' c' = Some (unit_dims (UId c name))).
Proof.
  intros A N s n c name df sym usym al s'.
  pose proof (cut_create c name df sym usym al n s) as HC. fold s' in HC.
  assert (Items : forall l1, exists before after, l1 = before ++ after /\
     forall x, ctx_get (fst (set_items (new_obj s c name df sym usym al) l1 (VUnit (length (objs s))))) x =
       match ctx_get s x with Some w => Some w | None => if existsb (teqb x) before then Some (VUnit (length (objs s))) else None end).
  { intros l1. destruct (snd (set_items (new_obj s c name df sym usym al) l1 (VUnit (length (objs s))))) as [u|e] eqn:Er.
    - exists l1, []. rewrite app_nil_r. split; [reflexivity|]. exact (set_items_ok l1 _ _ Er).
    - destruct (set_items_err l1 _ _ Er) as (before & t & after & w & E1 & _ & _ & E4). exists before, (t :: after). auto. }
  assert (Len : forall ord, length (objs s ++ [(UId c name, new_unit (objs s) ord df sym usym al)]) = S (length (objs s)))
    by (intros ord; rewrite app_length; cbn; lia).
  destruct HC as [(H1 & H2 & H3)|[(l1 & l2 & H1 & H2)|(v & H1 & H2)]].
  - split; [left; exact H1|]. split; [|split].
    + exists [], (reg_names c name sym al). split; [reflexivity|]. split; [|congruence]. intros x. unfold ctx_get. rewrite H2.
      cbn [existsb]. destruct (dget teqb (ctx s) x); reflexivity.
    + intros c' dd. now rewrite H3.
    + intros c'. rewrite H3. congruence.
  - destruct (set_items_same l1 (new_obj s c name df sym usym al) (VUnit (length (objs s)))) as (S1 & _ & S3).
    rewrite <- H2 in S1, S3. cbn [new_obj objs] in S1.
    split; [right; eexists; exact S1|]. split; [|split].
    + destruct (Items l1) as (before & after & -> & HI). exists before, (after ++ l2). rewrite app_assoc. split; [exact H1|].
      rewrite <- H2 in HI. split; [exact HI|]. intros _. rewrite S1. apply Len.
    + intros c' dd. now rewrite S3.
    + intros c'. rewrite S3. cbn. congruence.
  - destruct (create_unit_objs s c name df sym usym al) as [ord Hobj]. rewrite <- H2 in Hobj.
    split; [right; eexists; exact Hobj|].
    assert (D : forall c', dflt s' c' = if is_irreducible c then match dflt s c with None => set_cls (dflt s) c (unit_dims (UId c name)) c' | Some _ => dflt s c' end else dflt s c').
    { intros c'. rewrite H2. unfold create_unit in H1 |- *.
      pose proof (set_items_same (reg_names c name sym al) (new_obj s c name df sym usym al) (VUnit (length (objs s)))) as (_ & _ & S3).
      destruct (set_items _ _ _) as [st1 [x|e]]; cbn [fst snd] in *; [|discriminate H1].
      cbn [dflt]. rewrite S3. cbn [new_obj dflt]. destruct (is_irreducible c); [|reflexivity]. destruct (dflt s c); reflexivity. }
    split; [|split].
    + exists (reg_names c name sym al), []. rewrite app_nil_r. split; [reflexivity|]. split.
      * intros x. rewrite H2. destruct (Items (reg_names c name sym al)) as (before & after & E & HI).
        unfold create_unit in H1 |- *.
        pose proof (fun u => @set_items_ok A N (reg_names c name sym al) (new_obj s c name df sym usym al) (VUnit (length (objs s))) u) as G.
        destruct (set_items _ _ _) as [st1 [u|e]]; cbn [fst snd] in *; [|discriminate H1].
        specialize (G u eq_refl x). unfold ctx_get in G |- *. cbn [ctx] in G |- *. exact G.
      * intros _. rewrite Hobj. apply Len.
    + intros c' dd Hd. rewrite D. destruct (is_irreducible c); [|exact Hd]. destruct (dflt s c) eqn:Ec; [exact Hd|].
      unfold set_cls. destruct (ucls_eqb c c') eqn:Ee; [|exact Hd]. apply ucls_eqb_eq in Ee. congruence.
    + intros c'. rewrite D. destruct (is_irreducible c); [|congruence]. destruct (dflt s c) eqn:Ec; [congruence|].
      unfold set_cls. destruct (ucls_eqb c c') eqn:Ee; [|congruence]. apply ucls_eqb_eq in Ee. auto.
Qed.
(** The interrupted creation of a unit with new names can be repeated: the second attempt
    succeeds, and then every name denotes a unit of this class and name with this
    definition. *)
Theorem C120_creation_again : forall (s : rstate R) n c name df sym usym aliases,
  (forall t, In t (reg_names c name sym aliases) -> ctx_get s t = None) ->
  let s' := cut n (create_c c name df sym usym aliases) s in
  let s2 := fst (create_unit s' c name df sym usym aliases) in
  snd (create_unit s' c name df sym usym aliases) = Ok (VUnit (length (objs s'))) /\
  forall t, In t (reg_names c name sym aliases) -> exists i r,
    ctx_get s2 t = Some (VUnit i) /\ nth_error (objs s2) i = Some (UId c name, r) /\
    ur_def r = df /\ ur_symbol r = sym /\ ur_usymbol r = usym.
Proof.
  intros s n c name df sym usym al Hfree s' s2.
  destruct (C120_creation R _ s n c name df sym usym al) as (Ho & (before & after & Hl & Hc & Hlen) & _). fold s' in Ho, Hc, Hlen.
  set (l := reg_names c name sym al) in *. set (V := VUnit (length (objs s'))).
  set (st0 := new_obj s' c name df sym usym al).
  (* Every bound name among [l] denotes a unit of this class and name. *)
  assert (Mine : forall t i, In t l -> ctx_get s' t = Some (VUnit i) -> exists r, nth_error (objs s') i = Some (UId c name, r) /\
     ur_def r = df /\ ur_symbol r = sym /\ ur_usymbol r = usym).
  { intros t i Ht Hi. rewrite Hc, (Hfree t Ht) in Hi. destruct (existsb (teqb t) before) eqn:Eb; [|discriminate Hi].
    assert (i = length (objs s)) as -> by congruence.
    assert (Hb : before <> []) by (intros ->; discriminate Eb). apply Hlen in Hb.
    destruct Ho as [Ho|[ord Ho]]; [rewrite Ho in Hb; lia|]. rewrite Ho, nth_error_app2, Nat.sub_diag by auto.
    eexists. split; [reflexivity|]. split; [reflexivity|]. split; reflexivity. }
  assert (Bound : forall t w, In t l -> ctx_get s' t = Some w -> exists i, w = VUnit i).
  { intros t w Ht Hw. rewrite Hc, (Hfree t Ht) in Hw. destruct (existsb (teqb t) before); [|discriminate Hw]. exists (length (objs s)). congruence. }
  assert (Ev : forall i, (exists r, nth_error (objs st0) i = Some (UId c name, r)) -> veq st0 V (VUnit i) = Ok true).
  { intros i (r & Hi). unfold veq, V. cbn [val_q]. rewrite Hi.
    assert (Hv : nth_error (objs st0) (length (objs s')) = Some (UId c name, snd (List.last (objs st0) (UId c name, new_unit (objs s') (primary c, 0) df sym usym al)))).
    { subst st0. cbn [new_obj objs]. rewrite nth_error_app2, Nat.sub_diag by auto. rewrite last_last. reflexivity. }
    rewrite Hv. unfold q_eq, q_eqne. rewrite rescale_to_same; [|apply dim_eqb_refl, wf_NoDup, wf_unit_dims].
    cbn. unfold Reqb. destruct (Req_EM_T 1 1); [reflexivity|congruence]. }
  assert (Own : exists r, nth_error (objs st0) (length (objs s')) = Some (UId c name, r) /\ ur_def r = df /\ ur_symbol r = sym /\ ur_usymbol r = usym).
  { subst st0. cbn [new_obj objs]. rewrite nth_error_app2, Nat.sub_diag by auto. eexists. split; [reflexivity|]. split; [reflexivity|]. split; reflexivity. }
  assert (Okk : snd (set_items st0 l V) = Ok tt).
  { destruct (snd (set_items st0 l V)) as [[]|e] eqn:Er; [reflexivity|]. exfalso.
    destruct (set_items_err l st0 V Er) as (b & t & a & w & E1 & E2 & E3 & E4).
    destruct (set_items_same l st0 V) as (So & _ & _). 
    assert (Hw : exists i, w = VUnit i /\ exists r, nth_error (objs st0) i = Some (UId c name, r)).
    { rewrite E4 in E2. change (ctx_get st0 t) with (ctx_get s' t) in E2.
      assert (Ht : In t l) by (rewrite E1; apply in_or_app; right; left; reflexivity).
      destruct (ctx_get s' t) as [w'|] eqn:Es.
      - assert (w' = w) as -> by congruence. destruct (Bound t w Ht Es) as [i ->]. exists i. split; [reflexivity|].
        destruct (Mine t i Ht Es) as (r & Hr & _). exists r. subst st0. cbn [new_obj objs]. rewrite nth_error_app1; [exact Hr|]. apply nth_error_Some. congruence.
      - destruct (existsb (teqb t) b); [|discriminate E2]. exists (length (objs s')). split; [unfold V in E2; congruence|].
        destruct Own as (r & Hr & _). eauto. }
    destruct Hw as (i & -> & Hi). rewrite (veq_objs st0 (fst (set_items st0 l V)) V (VUnit i) So), (Ev i Hi) in E3.
    destruct E3 as [[E3 _]|E3]; discriminate E3. }
  assert (Hs2 : ctx s2 = ctx (fst (set_items st0 l V)) /\ objs s2 = objs st0 /\ snd (create_unit s' c name df sym usym al) = Ok V).
  { subst s2. unfold create_unit. fold st0 l V. destruct (set_items_same l st0 V) as (So & _ & _).
    destruct (set_items st0 l V) as [st1 r]. cbn [fst snd] in *. subst r. cbn [fst snd ctx objs]. auto. }
  destruct Hs2 as (C2 & O2 & R2). split; [exact R2|]. intros t Ht.
  assert (G : ctx_get s2 t = match ctx_get s' t with Some w => Some w | None => Some V end).
  { unfold ctx_get at 1. rewrite C2. pose proof (set_items_ok l st0 V Okk t) as G. unfold ctx_get at 1 in G. rewrite G.
    change (ctx_get st0 t) with (ctx_get s' t). destruct (ctx_get s' t); [reflexivity|].
    assert (X : existsb (teqb t) l = true) by (apply existsb_exists; exists t; split; [exact Ht|apply teqb_refl]). now rewrite X. }
  rewrite O2. destruct (ctx_get s' t) as [w|] eqn:Es.
  - destruct (Bound t w Ht Es) as [i ->]. destruct (Mine t i Ht Es) as (r & Hr & Hd). exists i, r. split; [exact G|].
    split; [|exact Hd]. subst st0. cbn [new_obj objs]. rewrite nth_error_app1; [exact Hr|]. apply nth_error_Some. congruence.
  - destruct Own as (r & Hr & Hd). exists (length (objs s')), r. split; [exact G|]. split; [exact Hr|exact Hd].
Qed.

(** [set_default_units] interrupted at any point: some of the settings have been made, in
    the order of the parameters, the others not at all; nothing else changes. *)
Theorem C120_defaults : forall A (N : Num A) parse (s : rstate A) n sys own, sys <> SysBad ->
  let s' := cut n (set_default_units_c parse sys own) s in
  exists made rest, system_calls sys ++ own = made ++ rest /\
    objs s' = objs s /\ ctx s' = ctx s /\
    dflt s' = fst (set_defaults (label_unit parse s) (objs s) (dflt s) made).
Proof.
  intros A N parse s n sys own Hs s'. subst s'. unfold set_default_units_c.
  destruct (cut_set_defaults parse (system_calls sys ++ own) n s) as (l1 & l2 & E1 & E2).
  destruct sys; try contradiction; rewrite E2; exists l1, l2; cbn [with_dflt objs ctx dflt]; auto.
Qed.

(** The settings of a list of calls that concern a class. *)
Definition sets {A} (c : ucls) (ca : ucls * sarg A) : Prop := fst ca = c /\ snd ca <> SNone.
Section Again.
  Variables (E : uenv R) (lookup : string -> res (qty R)).
  Hypothesis HE : renv_ok E.
  Hypothesis Hlookup : forall l q, lookup l = Ok q -> dims_ok (qdim q).
  (** Corresponding defaults are convertible. *)
  Definition likeD (D1 D2 : defaults) : Prop :=
    forall c, match D1 c, D2 c with
              | Some d1, Some d2 => dims_ok d1 /\ dims_ok d2 /\ convertible E d1 d2
              | None, None => True
              | _, _ => False
              end.
  Lemma like_set_q D1 D2 c q : likeD D1 D2 -> dims_ok (qdim q) ->
    snd (set_default_q E D1 c q) = snd (set_default_q E D2 c q) /\
    likeD (fst (set_default_q E D1 c q)) (fst (set_default_q E D2 c q)) /\
    likeD (fst (set_default_q E D1 c q)) D1 /\
    (forall c', c' <> c -> fst (set_default_q E D1 c q) c' = D1 c' /\ fst (set_default_q E D2 c q) c' = D2 c') /\
    (snd (set_default_q E D1 c q) = Ok tt -> fst (set_default_q E D1 c q) c = fst (set_default_q E D2 c q) c).
  Proof.
    intros HL Hq. unfold set_default_q.
    assert (Rf : likeD D1 D1).
    { intros c'. specialize (HL c'). destruct (D1 c'); [|exact I]. destruct (D2 c'); [|contradiction]. destruct HL as (? & _ & _).
      split; [assumption|]. split; [assumption|apply convertible_refl]. }
    pose proof (HL c) as Hc. destruct (D1 c) as [d1|] eqn:E1, (D2 c) as [d2|] eqn:E2; try contradiction.
    2:{ cbn [fst snd]. split; [reflexivity|]. split; [exact HL|]. split; [exact Rf|]. split; [auto|discriminate]. }
    destruct Hc as (W1 & W2 & Cv).
    destruct (is_unit_quantity q).
    2:{ cbn [fst snd]. split; [reflexivity|]. split; [exact HL|]. split; [exact Rf|]. split; [auto|discriminate]. }
    destruct (conv_factor_spec E d1 (qdim q) HE W1 Hq) as [S1 T1]. destruct (conv_factor_spec E d2 (qdim q) HE W2 Hq) as [S2 T2].
    destruct (conv_factor E d1 (qdim q)) as [c1|e1] eqn:F1.
    - assert (V1 : convertible E d1 (qdim q)) by (exists c1; now apply S1).
      assert (V2 : convertible E d2 (qdim q)) by (apply (convertible_trans _ _ d1); [now apply convertible_sym|exact V1]).
      destruct (conv_factor E d2 (qdim q)) as [c2|e2] eqn:F2.
      2:{ exfalso. pose proof (conv_factor_err _ _ _ _ F2). subst e2. now apply T2. }
      cbn [fst snd]. split; [reflexivity|].
      assert (Sets : forall D, set_cls D c (qdim q) c = Some (qdim q)) by (intros D; apply set_cls_same).
      split; [|split; [|split]].
      + intros c'. unfold set_cls. destruct (ucls_eqb c c'); [|apply HL]. split; [exact Hq|]. split; [exact Hq|apply convertible_refl].
      + intros c'. unfold set_cls. destruct (ucls_eqb c c') eqn:Ec; [|apply Rf]. apply ucls_eqb_eq in Ec. subst c'. rewrite E1.
        split; [exact Hq|]. split; [exact W1|]. now apply convertible_sym.
      + intros c' Hc'. split; now apply set_cls_other.
      + intros _. now rewrite !Sets.
    - pose proof (conv_factor_err _ _ _ _ F1). subst e1.
      assert (F2 : conv_factor E d2 (qdim q) = Err AssertionError).
      { apply T2. intros V2. apply (proj1 T1 eq_refl). exact (convertible_trans _ _ _ _ Cv V2). }
      rewrite F2. cbn [fst snd]. split; [reflexivity|]. split; [exact HL|]. split; [exact Rf|]. split; [auto|discriminate].
  Qed.
  Lemma like_set D1 D2 c a : likeD D1 D2 -> sarg_ok a ->
    snd (set_default_unit lookup E D1 c a) = snd (set_default_unit lookup E D2 c a) /\
    likeD (fst (set_default_unit lookup E D1 c a)) (fst (set_default_unit lookup E D2 c a)) /\
    likeD (fst (set_default_unit lookup E D1 c a)) D1 /\
    (forall c', ~ sets c' (c, a) -> fst (set_default_unit lookup E D1 c a) c' = D1 c' /\ fst (set_default_unit lookup E D2 c a) c' = D2 c') /\
    (snd (set_default_unit lookup E D1 c a) = Ok tt -> a <> SNone -> fst (set_default_unit lookup E D1 c a) c = fst (set_default_unit lookup E D2 c a) c).
  Proof.
    intros HL Ha.
    assert (Rf : likeD D1 D1).
    { intros c'. specialize (HL c'). destruct (D1 c'); [|exact I]. destruct (D2 c'); [|contradiction]. destruct HL as (? & _ & _).
      split; [assumption|]. split; [assumption|apply convertible_refl]. }
    assert (Q : forall q (b : sarg R), b <> SNone -> dims_ok (qdim q) ->
      snd (set_default_q E D1 c q) = snd (set_default_q E D2 c q) /\
      likeD (fst (set_default_q E D1 c q)) (fst (set_default_q E D2 c q)) /\
      likeD (fst (set_default_q E D1 c q)) D1 /\
      (forall c', ~ sets c' (c, b) -> fst (set_default_q E D1 c q) c' = D1 c' /\ fst (set_default_q E D2 c q) c' = D2 c') /\
      (snd (set_default_q E D1 c q) = Ok tt -> b <> SNone -> fst (set_default_q E D1 c q) c = fst (set_default_q E D2 c q) c)).
    { intros q b Hb Hq. destruct (like_set_q D1 D2 c q HL Hq) as (A1 & A2 & A3 & A4 & A5).
      split; [exact A1|]. split; [exact A2|]. split; [exact A3|]. split; [|auto]. intros c' Hc'. apply A4. intros ->. apply Hc'. split; auto. }
    destruct a as [|l|q|]; cbn [set_default_unit].
    - cbn [fst snd]. split; [reflexivity|]. split; [exact HL|]. split; [exact Rf|]. split; [auto|congruence].
    - destruct (lookup l) as [q|e] eqn:El; [apply (Q q); [discriminate|exact (Hlookup l q El)]|].
      cbn [fst snd]. split; [reflexivity|]. split; [exact HL|]. split; [exact Rf|]. split; [auto|discriminate].
    - apply (Q q); [discriminate|exact Ha].
    - cbn [fst snd]. split; [reflexivity|]. split; [exact HL|]. split; [exact Rf|]. split; [auto|discriminate].
  Qed.
  Lemma like_trans D1 D2 D3 : likeD D1 D2 -> likeD D2 D3 -> likeD D1 D3.
  Proof.
    intros H1 H2 c. specialize (H1 c). specialize (H2 c). destruct (D1 c), (D2 c), (D3 c); try contradiction; auto.
    destruct H1 as (A1 & A2 & A3). destruct H2 as (B1 & B2 & B3). split; [exact A1|]. split; [exact B2|]. exact (convertible_trans _ _ _ _ A3 B3).
  Qed.
  Lemma like_sets l : forall D1 D2, (forall c a, In (c, a) l -> sarg_ok a) -> likeD D1 D2 ->
    snd (set_defaults lookup E D1 l) = snd (set_defaults lookup E D2 l) /\
    likeD (fst (set_defaults lookup E D1 l)) D1 /\
    (forall c, (forall ca, In ca l -> ~ sets c ca) -> fst (set_defaults lookup E D1 l) c = D1 c /\ fst (set_defaults lookup E D2 l) c = D2 c) /\
    (forall c, snd (set_defaults lookup E D1 l) = Ok tt -> (D1 c = D2 c \/ exists ca, In ca l /\ sets c ca) ->
        fst (set_defaults lookup E D1 l) c = fst (set_defaults lookup E D2 l) c).
  Proof.
    induction l as [|[c a] l IH]; intros D1 D2 Hl HL; cbn [set_defaults].
    - cbn [fst snd]. split; [reflexivity|]. split.
      { intros c'. specialize (HL c'). destruct (D1 c'); [|exact I]. destruct (D2 c'); [|contradiction]. destruct HL as (? & _ & _).
        split; [assumption|]. split; [assumption|apply convertible_refl]. }
      split; [auto|]. intros c _ [H|(ca & [] & _)]. exact H.
    - destruct (like_set D1 D2 c a HL (Hl c a (or_introl eq_refl))) as (A1 & A2 & A3 & A4 & A5).
      destruct (set_default_unit lookup E D1 c a) as [D1' r1]. destruct (set_default_unit lookup E D2 c a) as [D2' r2]. cbn [fst snd] in *. subst r2.
      destruct r1 as [[]|e].
      2:{ cbn [fst snd]. split; [reflexivity|]. split; [exact A3|]. split; [|discriminate].
          intros c' Hc'. apply A4. apply Hc'. left; reflexivity. }
      destruct (IH D1' D2' (fun c' a' H => Hl c' a' (or_intror H)) A2) as (B1 & B2 & B3 & B4).
      split; [exact B1|]. split; [exact (like_trans _ _ _ B2 A3)|]. split.
      + intros c' Hc'. destruct (B3 c' (fun ca H => Hc' ca (or_intror H))) as [-> ->]. apply A4. apply Hc'. left; reflexivity.
      + intros c' Hok Hc'. apply (B4 c' Hok).
        assert (Dec : sets c' (c, a) \/ ~ sets c' (c, a)).
        { unfold sets. cbn [fst snd]. destruct (ucls_eqb c c') eqn:Ec.
          - apply ucls_eqb_eq in Ec. destruct a; [right; tauto|left; split; [exact Ec|discriminate]..].
          - right. intros [-> _]. rewrite ucls_eqb_refl in Ec. discriminate Ec. }
        destruct Dec as [[X Y]|Dec].
        * cbn [fst snd] in X, Y. subst c'. left. now apply A5.
        * destruct Hc' as [Hc'|(ca & [<-|Hin] & Hs)]; [|contradiction|right; eauto].
          left. destruct (A4 c' Dec) as [-> ->]. exact Hc'.
  Qed.
End Again.

(** ... and it can be repeated: if the call would have succeeded, then the same call after
    the interruption succeeds and leaves the same default units as the undisturbed call. *)
Theorem C120_defaults_again : forall parse (s : rstate R) n sys own,
  renv_ok (objs s) -> registry_proper s -> (forall c dd, dflt s c = Some dd -> dims_ok dd) ->
  (forall c a, In (c, a) own -> sarg_ok a) -> sys <> SysBad ->
  let all := system_calls sys ++ own in
  let s' := cut n (set_default_units_c parse sys own) s in
  snd (set_defaults (label_unit parse s) (objs s) (dflt s) all) = Ok tt ->
  snd (set_defaults (label_unit parse s') (objs s') (dflt s') all) = Ok tt /\
  forall c, fst (set_defaults (label_unit parse s') (objs s') (dflt s') all) c =
            fst (set_defaults (label_unit parse s) (objs s) (dflt s) all) c.
Proof.
  intros parse s n sys own HE HP HD Hown Hs all s' Hok.
  assert (Hlk : forall l q, label_unit parse s l = Ok q -> dims_ok (qdim q)).
  { intros l q. unfold label_unit. destruct (get_item parse s (T l)) as [v|] eqn:Eg; cbn [bind]; [|discriminate].
    destruct (val_q s v) as [q'|] eqn:Eq; [|discriminate]. intros H. assert (q' = q) as -> by congruence.
    exact (proj1 (proj2 (C112_label_values R _ parse s (T l) v q HP Eg Eq))). }
  assert (Hall : forall c a, In (c, a) all -> sarg_ok a).
  { intros c a Hin. apply in_app_or in Hin. destruct Hin as [Hin|Hin]; [|exact (Hown c a Hin)].
    destruct sys; cbn in Hin; repeat (destruct Hin as [Hin|Hin]; [injection Hin as <- <-; exact I|]); destruct Hin. }
  destruct (C120_defaults R _ parse s n sys own Hs) as (made & rest & Em & Eo & Ec & Ed). fold s' in Eo, Ec, Ed. fold all in Em.
  assert (HL0 : likeD (objs s) (dflt s) (dflt s)).
  { intros c. destruct (dflt s c) as [dd|] eqn:Edd; [|exact I]. split; [exact (HD c dd Edd)|]. split; [exact (HD c dd Edd)|apply convertible_refl]. }
  assert (Lab : forall x, label_unit parse s' x = label_unit parse s x).
  { intros x. rewrite <- (label_unit_dflt parse s (dflt s') x). unfold label_unit, with_dflt. rewrite <- Eo, <- Ec.
    assert (Ev : forall e, eval s' e = eval (RState (objs s') (ctx s') (counters s) (dflt s')) e).
    { induction e as [m|p|k|o a IHa b IHb|o a IHa|k l]; try reflexivity; cbn [eval].
      - rewrite <- IHa. destruct (eval s' a); cbn [bind]; [|reflexivity]. rewrite <- IHb. destruct (eval s' b); reflexivity.
      - rewrite <- IHa. destruct (eval s' a); reflexivity. }
    unfold get_item, inner_get. destruct (parse (preprocess (T x))) as [t|]; cbn [bind]; [|reflexivity].
    destruct (valid t); [|reflexivity]. now rewrite Ev. }
  rewrite Eo, Ed. rewrite (set_defaults_ext (label_unit parse s') (label_unit parse s) (objs s) all Lab).
  assert (Hmade : forall c a, In (c, a) made -> sarg_ok a) by (intros c a H; apply (Hall c a); rewrite Em; apply in_or_app; auto).
  destruct (like_sets (objs s) (label_unit parse s) HE Hlk made (dflt s) (dflt s) Hmade HL0) as (_ & M2 & M3 & _).
  set (D' := fst (set_defaults (label_unit parse s) (objs s) (dflt s) made)) in *.
  assert (HL : likeD (objs s) (dflt s) D').
  { intros c. specialize (M2 c). destruct (D' c), (dflt s c); try contradiction; auto. destruct M2 as (A1 & A2 & A3).
    split; [exact A2|]. split; [exact A1|]. now apply convertible_sym. }
  destruct (like_sets (objs s) (label_unit parse s) HE Hlk all (dflt s) D' Hall HL) as (B1 & B2 & B3 & B4).
  split; [congruence|]. intros c. symmetry. apply (B4 c Hok).
  assert (Dec : (exists ca, In ca all /\ sets c ca) \/ (forall ca, In ca all -> ~ sets c ca)).
  { generalize all. clear. intros l. induction l as [|[c' a] l IH]; [right; intros ca []|].
    destruct IH as [(ca & H1 & H2)|IH]; [left; exists ca; split; [right; exact H1|exact H2]|].
    assert (Dec : sets c (c', a) \/ ~ sets c (c', a)).
    { unfold sets. cbn [fst snd]. destruct (ucls_eqb c' c) eqn:Ec.
      - apply ucls_eqb_eq in Ec. destruct a; [right; tauto|left; split; [exact Ec|discriminate]..].
      - right. intros [-> _]. rewrite ucls_eqb_refl in Ec. discriminate Ec. }
    destruct Dec as [H|H]; [left; eexists; split; [left; reflexivity|exact H]|right]. intros ca [<-|Hin]; auto. }
  destruct Dec as [H|H]; [right; exact H|left]. symmetry. apply M3. intros ca Hin. apply H. rewrite Em. apply in_or_app. auto.
Qed.

(** ** C121: the [units] attribute *)
(** Setting the units without disturbance does what [rescale] does (in place), and nothing
    if it raises. *)
Theorem C121_undisturbed : forall (E : uenv R) to (q : qty R),
  solo (set_units_c E to) q = match rescale_to E q to with
                              | Ok r => (Qty (mag r) (qdim r), Ok tt)
                              | Err e => (q, Err e)
                              end.
Proof.
  intros E to q. unfold set_units_c, rescale_to, rd, wr. cbn [solo]. destruct (dim_eqb (qdim q) to); [destruct q; reflexivity|].
  cbn [solo]. destruct (conv_factor E (qdim q) to) as [cf|e]; [|destruct e; reflexivity]. cbn [solo mag qdim].
  f_equal. f_equal. apply amap_ext. intros x _. cbn [nmul NumR]. apply Rmult_comm.
Qed.
(** Interrupted at any point, the quantity keeps its value and its shape, except between
    the multiplication of the magnitudes and the assignment of the new units (after the
    third access): there the magnitudes are the new ones and the units the old ones, and
    the value is kept only if the factor is 1 or all magnitudes are 0. *)
Theorem C121_interrupted : forall (E : uenv R) to (q : qty R) n,
  renv_ok E -> qty_ok q -> dims_ok to ->
  let q' := cut n (set_units_c E to) q in
  qty_ok q' /\ shp (mag q') = shp (mag q) /\ (qdim q' = qdim q \/ qdim q' = to) /\
  (same_value E q' q \/
   n = 3 /\ exists cf, converts E (qdim q) to cf /\ dim_eqb (qdim q) to = false /\
     q' = Qty (amap (fun x => (x * cf)%R) (mag q)) (qdim q) /\
     (same_value E q' q <-> cf = 1%R \/ forall x, In x (dat (mag q)) -> x = 0%R)).
Proof.
  intros E to q n HE Hq Hto q'.
  assert (Keep : q' = q -> qty_ok q' /\ shp (mag q') = shp (mag q) /\ (qdim q' = qdim q \/ qdim q' = to) /\ same_value E q' q).
  { intros ->. split; [exact Hq|]. split; [reflexivity|]. split; [left; reflexivity|]. intros phi _. reflexivity. }
  assert (Skip : q' = q \/ exists m cf, n = S (S m) /\ dim_eqb (qdim q) to = false /\ conv_factor E (qdim q) to = Ok cf /\
     q' = cut m (Do (fun p => Qty (amap (fun x => nmul x cf) (mag p)) (qdim p)) (fun _ => wr (fun p => Qty (mag p) to) (Ok tt))) q).
  { subst q'. unfold set_units_c, rd. destruct n as [|n]; [left; reflexivity|]. cbn [cut].
    destruct (dim_eqb (qdim q) to) eqn:Ed; [left; destruct n; reflexivity|]. destruct n as [|n]; [left; reflexivity|]. cbn [cut].
    destruct (conv_factor E (qdim q) to) as [cf|e] eqn:Ec.
    - right. exists n, cf. auto.
    - left. destruct e; destruct n; reflexivity. }
  destruct Skip as [Hk|(m & cf & -> & Hd & Hcf & Hm)].
  { destruct (Keep Hk) as (K1 & K2 & K3 & K4). auto. }
  assert (Cv : converts E (qdim q) to cf) by (apply (conv_factor_spec E (qdim q) to HE (proj2 Hq) Hto); exact Hcf).
  assert (W : awf (amap (fun x => (x * cf)%R) (mag q))).
  { destruct Hq as [Hw _]. unfold awf in *. cbn [amap dat shp]. now rewrite map_length. }
  destruct m as [|[|m]].
  - cbn [cut] in Hm. destruct (Keep Hm) as (K1 & K2 & K3 & K4). auto.
  - cbn [cut wr] in Hm. change (fun x : R => nmul x cf) with (fun x => (x * cf)%R) in Hm. rewrite Hm. cbn [mag qdim].
    split; [split; [exact W|exact (proj2 Hq)]|]. split; [reflexivity|]. split; [left; reflexivity|]. right. split; [reflexivity|].
    exists cf. split; [exact Cv|]. split; [exact Hd|]. split; [reflexivity|]. split.
    + intros Hs. destruct (consistent_exists E HE) as [phi HC]. specialize (Hs phi HC). unfold phys in Hs. cbn [mag qdim] in Hs.
      rewrite amap_amap in Hs. apply (f_equal (@dat R)) in Hs. cbn [amap dat] in Hs.
      assert (P : (0 < dimval phi (qdim q))%R) by apply dimval_pos.
      destruct (Req_dec cf 1) as [Hc|Hc]; [left; exact Hc|right]. intros x Hx.
      assert (X : (x * cf * dimval phi (qdim q) = x * dimval phi (qdim q))%R).
      { revert Hs. generalize (dat (mag q)) as l, Hx. clear. intros l. induction l as [|y l IH]; intros Hx Hs; [destruct Hx|].
        cbn [map] in Hs. injection Hs as H1 H2. destruct Hx as [<-|Hx]; auto. }
      apply Rmult_eq_reg_r in X; [|lra]. assert (Y : (x * (cf - 1) = 0)%R) by lra.
      apply Rmult_integral in Y. destruct Y; [assumption|lra].
    + intros [Hc|Hz] phi HC; unfold phys; cbn [mag qdim]; rewrite amap_amap; apply amap_ext; intros x Hx.
      * subst cf. ring.
      * rewrite (Hz x Hx). ring.
  - assert (F : q' = Qty (amap (fun x => (x * cf)%R) (mag q)) to).
    { rewrite Hm. cbn [cut wr]. destruct m; reflexivity. }
    rewrite F. cbn [mag qdim]. split; [split; [exact W|exact Hto]|]. split; [reflexivity|]. split; [right; reflexivity|]. left.
    intros phi HC. destruct q as [a d]; cbn [mag qdim] in *. rewrite <- (phys_rescaled phi a d to cf); [|now apply Cv].
    unfold phys. cbn [mag qdim]. rewrite !amap_amap. apply amap_ext. intros x _. ring.
Qed.
(** One meter, interrupted on the way to centimeters: 100 m; and two threads that set the
    units of the same quantity to centimeters at the same time both succeed and leave
    10000 cm. *)
Fixpoint mix {S X Y} (l : list bool) (c1 : code S X) (c2 : code S Y) (s : S) : option (S * X * Y) :=
  match l, c1, c2 with
  | [], Ret _ x, Ret _ y => Some (s, x, y)
  | true :: l', Do f k, _ => mix l' (k s) c2 (f s)
  | false :: l', _, Do f k => mix l' c1 (k s) (f s)
  | _, _, _ => None
  end.
Theorem C121_refuted : exists (E : uenv Qc) (q : qty Qc) to l,
  cut 3 (set_units_c E to) q = Qty (scalar (zq 100)) (qdim q) /\ mag q = scalar (zq 1) /\
  solo (set_units_c E to) q = (Qty (scalar (zq 100)) to, Ok tt) /\
  mix l (set_units_c E to) (set_units_c E to) q = Some (Qty (scalar (zq 10000)) to, Ok tt, Ok tt).
Proof.
  exists exE, (Qty (scalar (zq 1)) d_m), d_cm, [true; true; false; false; true; false; true; false].
  split; [vm_compute; reflexivity|]. split; [reflexivity|]. split; vm_compute; reflexivity.
Qed.
(** The hypotheses of [C121_interrupted]. *)
Example C121_example : renv_ok exE /\ qty_ok (Qty (scalar 1%R) d_m) /\ dims_ok d_cm /\ convertible exE d_m d_cm.
Proof.
  split; [exact exE_ok|]. split; [split; [reflexivity|apply dims_okb_ok; reflexivity]|]. split; [apply dims_okb_ok; reflexivity|].
  rewrite convertible_iff; [|exact exE_ok|apply dims_okb_ok; reflexivity|apply dims_okb_ok; reflexivity]. reflexivity.
Qed.

Open Scope string_scope.
(** Interrupted after the first name: the unit has its name but not its symbol. *)
Example C120_example :
  let s' := cut 7 (create_c CLength "pace" None (Some "pc") None ["paces"]) (ex_st Qc) in
  ctx_get s' (T "pace") = Some (VUnit 6) /\ ctx_get s' (T "pc") = None /\ ctx_get s' (T "paces") = None /\
  (forall t, In t (reg_names CLength "pace" (Some "pc") ["paces"]) -> ctx_get (ex_st Qc) t = None).
Proof.
  split; [vm_compute; reflexivity|]. split; [vm_compute; reflexivity|]. split; [vm_compute; reflexivity|].
  intros t [<-|[<-|[<-|[]]]]; vm_compute; reflexivity.
Qed.
(** Interrupted in the middle of [set_default_units('cgs')]-like settings. *)
Example C120_defaults_example :
  let own := [(CLength, SStr "in"); (CTime, SStr "s")] in
  let s' n := cut n (set_default_units_c (parse_arith dec_read) NoSystem own) (ex_st Qc) in
  dflt (s' 4) CLength = Some [(UId CLength "inch", PInt 1)] /\ dflt (s' 2) CLength = Some [(u_m, PInt 1)] /\
  snd (set_defaults (label_unit (parse_arith dec_read) (ex_st Qc)) (objs (ex_st Qc)) (dflt (ex_st Qc)) own) = Ok tt.
Proof. split; [vm_compute; reflexivity|]. split; vm_compute; reflexivity. Qed.
Close Scope string_scope.
(** The hypotheses of [C118_succeeds] and [C120_defaults_again]. *)
Definition ex_proc : rstate R := RState exE [] (fun _ => None) exD.
Example C118_succeeds_example : renv_ok (objs ex_proc) /\ std_defaults (objs ex_proc) (dflt ex_proc) ex_root /\
  registry_proper ex_proc /\ (forall c dd, dflt ex_proc c = Some dd -> dims_ok dd) /\
  process_ok (objs ex_proc) ex_proc [Idle (Call (OSimplified 2 (Qty (scalar 1%R) d_cm)) (fun _ => Stop))] /\
  (forall u, In u (dkeys d_cm) -> simplifiable (objs ex_proc) (dflt ex_proc) ex_root u).
Proof.
  split; [exact exE_ok|]. split; [exact exD_std|]. split; [intros s v q H; discriminate H|]. split; [exact exD_ok|]. split.
  - split; [intros n v H; discriminate H|]. split; [exact exD_ok|]. intros t [<-|[]]. eexists. split; [reflexivity|].
    cbn [prudent call_ok]. split; [|auto]. split; [reflexivity|]. apply dims_okb_ok. reflexivity.
  - intros u [<-|[]]. exact ex_simplifiable_cm.
Qed.

Print Assumptions C117_undisturbed.
Print Assumptions C120_creation.
Print Assumptions C120_creation_again.
Print Assumptions C120_defaults.
Print Assumptions C120_defaults_again.
Print Assumptions C121_undisturbed.
Print Assumptions C121_interrupted.
Print Assumptions C121_refuted.
