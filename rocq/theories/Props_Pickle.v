(** * Props_Pickle: properties C70 and C88 (pickling and copying). *)
From Coq Require Import Reals Lra Lia Ascii NArith.
From Verif Require Import Py Num Dim DimFacts Arr Units Spec UnitFacts Quant QuantFacts Ufunc Ops OpsFacts
     Examples Props_Ops Text Markup Lex Registry RegFacts RegEq Props_Registry Uncert Pickle SpecPickle PickleFacts HistFacts.

Open Scope list_scope.

Section Lemmas.
  Open Scope R_scope.
  Lemma needs_step {A} (E : uenv A) u0 u r df v : needs E u0 u -> u_cls u <> CCompound -> ulookup E u = Some r ->
    ur_def r = Some df -> In v (def_units df) -> needs E u0 v.
  Proof.
    induction 1 as [u|u r0 df0 v0 w H1 H2 H3 H4 H5 IH]; intros Hc Hr Hd Hv.
    - eapply needs_def; eauto. apply needs_self.
    - eapply needs_def; eauto.
  Qed.
  Lemma nd_rt (a : arr R) : nd_setstate (nd_state a) = Ok a.
  Proof. destruct a; reflexivity. Qed.

  (** A dimensionality: written and read back. *)
  Lemma dims_rt F parse (st1 st2 : rstate R) (d : dims) fuel (Nd : uid -> Prop) st :
    renv_ok F -> agrees (objs st1) F -> closed (objs st1) ->
    wf_dims d -> (forall u, In u (dkeys d) -> In u (dkeys (objs st1))) -> (length F <= fuel)%nat ->
    (forall u w, In u (dkeys d) -> needs (objs st1) u w -> Nd w) ->
    (forall w, Nd w -> exists u, needs (objs st1) u w /\ forall w', needs (objs st1) u w' -> Nd w') ->
    (forall w r, Nd w -> ulookup (objs st1) w = Some r -> fits F parse st2 w r) ->
    (forall w w' r r' s, Nd w -> Nd w' -> ulookup (objs st1) w = Some r -> ulookup (objs st1) w' = Some r' ->
       In s (unit_names w r) -> In s (unit_names w' r') -> same_size F w w') ->
    loaded F (objs st1) st2 Nd st ->
    exists l st', dump_items (dump_unit fuel (objs st1)) d = Ok l /\ load_items parse l [] st = (st', Ok d) /\
      loaded F (objs st1) st2 Nd st' /\ (exists X, objs st' = objs st ++ X) /\
      forall u, In u (dkeys d) -> In u (dkeys (objs st')).
  Proof.
    intros HF HA1 HC [ND _] HK Hfuel HN1 HN2 Hfits Hshare HI.
    destruct (dump_items_total (dump_unit fuel (objs st1)) d) as [l El].
    { intros u Hu. exact (dump_total' F (objs st1) u fuel HF HA1 HC (HK u Hu) Hfuel). }
    assert (Hneed : forall u r df v, Nd u -> u_cls u <> CCompound -> ulookup (objs st1) u = Some r -> ur_def r = Some df ->
              In v (def_units df) -> Nd v).
    { intros u r df v Hu Hc Hr Hd Hv. destruct (HN2 u Hu) as (u0 & H1 & H2). apply H2. eapply needs_step; eauto. }
    destruct (load_items_ok F (objs st1) parse st2 Nd (dump_unit fuel (objs st1))
                (load_unit_ok F (objs st1) parse st2 Nd HF HA1 Hfits Hshare HC Hneed fuel) d l El [] st HI ND) as (st' & L1 & L2 & L3 & L4).
    { intros u Hu. split; [|auto]. apply (HN1 u u Hu). apply needs_self. }
    exists l, st'. auto.
  Qed.
End Lemmas.

(** ** C70 *)

(** What pickling [q] pickles: the units of [q] and the units in their definitions. *)
Definition pickled_units (E : uenv R) (d : dims) (w : uid) : Prop :=
  exists u, In u (dkeys d) /\ needs E u w.
(** Every unit in [Nd], as pickled in the process [st1], fits into the process [st2], and
    two of them that share a name have the same size. *)
Definition all_fit (F : uenv R) (parse : text -> res expr) (st1 st2 : rstate R) (Nd : uid -> Prop) : Prop :=
  (forall w r, Nd w -> ulookup (objs st1) w = Some r -> fits F parse st2 w r) /\
  (forall w w' r r' s, Nd w -> Nd w' -> ulookup (objs st1) w = Some r -> ulookup (objs st1) w' = Some r' ->
     In s (unit_names w r) -> In s (unit_names w' r') -> same_size F w w').

(** From one process ([st1]) to another ([st2]) whose unit definitions do not contradict
    each other (all are in [F]): the quantity comes back with its shape, its magnitudes
    and its units, and converts to whatever both processes know as before. *)
Theorem C70_quantity : forall F parse (st1 st2 : rstate R) (q : qty R) fuel,
  renv_ok F -> agrees (objs st1) F -> closed (objs st1) -> agrees (objs st2) F ->
  wf_dims (qdim q) -> (forall u, In u (dkeys (qdim q)) -> In u (dkeys (objs st1))) ->
  all_fit F parse st1 st2 (pickled_units (objs st1) (qdim q)) ->
  (length F <= fuel)%nat ->
  exists s st', dump_q fuel (objs st1) q = Ok s /\ load_q parse s st2 = (st', Ok q) /\
    loaded F (objs st1) st2 (pickled_units (objs st1) (qdim q)) st' /\
    (forall u, In u (dkeys (qdim q)) -> In u (dkeys (objs st'))) /\
    (forall to, (forall u, In u (dkeys to) -> In u (dkeys (objs st1)) /\ In u (dkeys (objs st'))) ->
       rescale_to (objs st') q to = rescale_to (objs st1) q to).
Proof.
  intros F parse st1 st2 q fuel HF HA1 HC HA2 Wd HK [Hfits Hshare] Hfuel.
  set (Nd := pickled_units (objs st1) (qdim q)) in *.
  destruct (dims_rt F parse st1 st2 (qdim q) fuel Nd st2 HF HA1 HC Wd HK Hfuel) as (l & st' & E1 & E2 & HI & _ & Hk'); auto.
  { intros u w Hu Hw. exists u. auto. }
  { intros w (u & Hu & Hw). exists u. split; auto. intros w' Hw'. exists u. auto. }
  { apply linv_start. exact HA2. }
  exists (nd_state (mag q) ++ [SDims l]), st'. split; [unfold dump_q; now rewrite E1|]. split.
  - unfold load_q. rewrite rev_app_distr. cbn [rev app]. rewrite E2. unfold but_last. cbn [nd_state app length Nat.sub firstn].
    fold (nd_state (mag q)). rewrite nd_rt. destruct q; reflexivity.
  - split; [exact HI|]. split; [exact Hk'|]. intros to Hto.
    assert (X : forall u, In u (dkeys (objs st1)) -> In u (dkeys (objs st')) -> unit_ref (objs st') u = unit_ref (objs st1) u).
    { intros u U1 U2. rewrite (agrees_ref _ F u (li_agrees _ _ _ _ _ HI) U2), (agrees_ref _ F u HA1 U1). reflexivity. }
    unfold rescale_to, conv_factor, qty_ref.
    rewrite (ref_pair_ext (objs st') (objs st1) (qdim q)) by (intros u Hu; apply X; auto).
    rewrite (ref_pair_ext (objs st') (objs st1) to) by (intros u Hu; apply X; now apply Hto). reflexivity.
Qed.

(** An uncertain quantity comes back with its uncertainty. *)
Theorem C70_uncertain : forall F parse (st1 st2 : rstate R) (x : uqty R) fuel,
  renv_ok F -> agrees (objs st1) F -> closed (objs st1) -> agrees (objs st2) F ->
  wf_dims (qdim (uv x)) -> wf_dims (qdim (uu x)) ->
  (forall u, In u (dkeys (qdim (uv x)) ++ dkeys (qdim (uu x))) -> In u (dkeys (objs st1))) ->
  let Nd := fun w => pickled_units (objs st1) (qdim (uv x)) w \/ pickled_units (objs st1) (qdim (uu x)) w in
  all_fit F parse st1 st2 Nd ->
  (length F <= fuel)%nat ->
  exists s st', dump_u fuel (objs st1) x = Ok s /\ load_u parse s st2 = (st', Ok x) /\
    loaded F (objs st1) st2 Nd st'.
Proof.
  intros F parse st1 st2 x fuel HF HA1 HC HA2 Wv Wu HK Nd [Hfits Hshare] Hfuel.
  assert (N2 : forall w, Nd w -> exists u, needs (objs st1) u w /\ forall w', needs (objs st1) u w' -> Nd w').
  { intros w [(u & Hu & Hw)|(u & Hu & Hw)]; exists u; (split; [exact Hw|]); intros w' Hw'; [left|right]; exists u; auto. }
  destruct (dims_rt F parse st1 st2 (qdim (uv x)) fuel Nd st2 HF HA1 HC Wv) as (l & st' & E1 & E2 & HI & _ & _); auto.
  { intros u Hu. apply HK. apply in_or_app. auto. }
  { intros u w Hu Hw. left. exists u. auto. }
  { apply linv_start. exact HA2. }
  destruct (dims_rt F parse st1 st2 (qdim (uu x)) fuel Nd st' HF HA1 HC Wu) as (l' & st'' & E1' & E2' & HI' & _ & _); auto.
  { intros u Hu. apply HK. apply in_or_app. auto. }
  { intros u w Hu Hw. right. exists u. auto. }
  exists ((nd_state (mag (uv x)) ++ [SDims l]) ++ [SQty (nd_state (mag (uu x)) ++ [SDims l'])]), st''. split.
  { unfold dump_u, dump_q. now rewrite E1, E1'. }
  split; [|exact HI'].
  unfold load_u. rewrite !rev_app_distr. cbn [rev app]. rewrite E2.
  unfold load_q. cbn [rev app nd_state]. rewrite E2'. unfold but_last. cbn [app length Nat.sub firstn].
  fold (nd_state (mag (uv x))) (nd_state (mag (uu x))). rewrite !nd_rt. destruct x as [[? ?] [? ?]]; reflexivity.
Qed.

(** A unit comes back as a new object of the same class and name, with the same
    definition, the same place in the printing order and (unless it is pickled by name
    only) the same symbols and aliases. *)
Theorem C70_unit : forall F parse (st1 st2 : rstate R) u r fuel,
  renv_ok F -> agrees (objs st1) F -> closed (objs st1) -> agrees (objs st2) F ->
  ulookup (objs st1) u = Some r ->
  all_fit F parse st1 st2 (needs (objs st1) u) ->
  (length F <= fuel)%nat ->
  exists t st' X r', dump_unit fuel (objs st1) u = Ok t /\ load_unit parse t st2 = (st', Ok u) /\
    loaded F (objs st1) st2 (needs (objs st1) u) st' /\
    objs st' = objs st2 ++ X ++ [(u, r')] /\ ur_def r' = ur_def r /\ ur_ref r' = ur_ref r /\ ur_order r' = ur_order r /\
    (u_cls u <> CCompound -> u_cls u <> CDimless ->
       ur_symbol r' = ur_symbol r /\ ur_usymbol r' = ur_usymbol r /\ ur_aliases r' = ur_aliases r).
Proof.
  intros F parse st1 st2 u r fuel HF HA1 HC HA2 Hr [Hfits Hshare] Hfuel.
  assert (HK : In u (dkeys (objs st1))) by (apply lookup_In in Hr; exact (in_map fst _ _ Hr)).
  destruct (dump_total' F (objs st1) u fuel HF HA1 HC HK Hfuel) as [t Et].
  destruct (load_unit_ok F (objs st1) parse st2 (needs (objs st1) u) HF HA1 Hfits Hshare HC) with (fuel := fuel) (u := u) (t := t) (st := st2)
    as (st' & L1 & L2 & (X & r' & EX & HO)); auto.
  { intros v rv df w Hv Hc Hrv Hd Hw. eapply needs_step; eauto. }
  { apply needs_self. }
  { apply linv_start. exact HA2. }
  exists t, st', X, r'. split; auto. split; auto. split; auto. split; auto.
  destruct (HA1 u r (lookup_In _ _ _ Hr)) as (rF & F1 & F2 & F3).
  assert (Hin : In (u, r') (objs st')) by (rewrite EX, !in_app_iff; cbn; auto).
  destruct (li_agrees _ _ _ _ _ L2 u r' Hin) as (rF' & G1 & G2 & G3). assert (rF' = rF) by congruence. subst rF'.
  destruct (HO r Hr) as [O1 O2]. split; [congruence|]. split; [congruence|]. split; [exact O1|].
  intros C1 C2. apply O2. destruct (u_cls u); auto; congruence.
Qed.

(** Within one process, whatever units were created and named in it: every quantity
    whose units were created in it comes back, and no name changes its meaning; no
    name, unit or default is added or lost. *)
Theorem C70_same_process : forall parse (st : rstate R) (q : qty R) fuel,
  history parse st -> wf_dims (qdim q) -> (forall u, In u (dkeys (qdim q)) -> In u (dkeys (objs st))) ->
  (length (objs st) <= fuel)%nat ->
  exists s st' X, dump_q fuel (objs st) q = Ok s /\ load_q parse s st = (st', Ok q) /\
    objs st' = objs st ++ X /\ agrees (objs st') (objs st) /\
    (forall s', ctx_get st' s' = ctx_get st s') /\
    (forall to, (forall u, In u (dkeys to) -> In u (dkeys (objs st))) ->
       rescale_to (objs st') q to = rescale_to (objs st) q to).
Proof.
  intros parse st q fuel Hh Wd HK Hfuel. destruct (history_ok parse st Hh) as [HE HU HB HFit].
  assert (HA : agrees (objs st) (objs st)) by now apply env_agrees.
  assert (HCl : closed (objs st)) by now apply env_closed.
  destruct (C70_quantity (objs st) parse st st q fuel) as (s & st' & D & L & HI & _ & HR); auto.
  { split.
    - intros w r _ Hr. apply HFit. now apply lookup_In.
    - intros w w' r r' n _ _ Hr Hr' Hs Hs'.
      destruct (ctx_get st n) as [v|] eqn:En; [|exfalso; exact (HB w r n (lookup_In _ _ _ Hr) Hs En)].
      destruct (proj1 (HFit w r (lookup_In _ _ _ Hr)) n v Hs En) as (i & x & rx & -> & Hi & S1).
      destruct (proj1 (HFit w' r' (lookup_In _ _ _ Hr')) n _ Hs' En) as (i' & x' & rx' & E' & Hi' & S2).
      injection E' as <-. rewrite Hi in Hi'. injection Hi' as <- <-. exact (same_size_join _ _ _ _ S1 S2). }
  destruct (li_objs _ _ _ _ _ HI) as (X & EX & _).
  exists s, st', X. split; auto. split; auto. split; auto. split; [exact (li_agrees _ _ _ _ _ HI)|]. split.
  - intros n. destruct (ctx_get st' n) as [v|] eqn:En.
    + destruct (li_new _ _ _ _ _ HI n v En) as [H|(H & i & w & rx & r & _ & _ & _ & Hr & Hs)]; [congruence|].
      exfalso. exact (HB w r n (lookup_In _ _ _ Hr) Hs H).
    + destruct (ctx_get st n) as [v|] eqn:En'; auto. rewrite (li_keeps _ _ _ _ _ HI n v En') in En. discriminate.
  - intros to Hto. apply HR. intros u Hu. split; auto. rewrite EX, dkeys_app. apply in_or_app. auto.
Qed.

(** A history with a base unit, a derived unit, a compound unit and a second name. *)
Open Scope string_scope.
Definition ex_h1 : rstate R := fst (create_unit rempty CLength "meter" None (Some "m") None []).
Definition ex_h2 : rstate R := fst (create_unit ex_h1 CTime "second" None (Some "s") None []).
Definition ex_h3 : rstate R := fst (create_compound (parse_arith dec_read) ex_h2 "m/s").
Definition ex_h4 : rstate R := fst (set_item ex_h3 (T "metre") (VUnit 0)).
Lemma ex_h2_eval : eval ex_h2 (EBin BDiv (EName (T "m")) (EName (T "s"))) =
  Ok (VQty (Qty (scalar (1 / 1)%R) [(u_m, PInt 1); (u_s, PInt (-1))])).
Proof.
  cbn [eval].
  assert (E1 : ctx_get ex_h2 (T "m") = Some (VUnit 0)) by (vm_compute; reflexivity).
  assert (E2 : ctx_get ex_h2 (T "s") = Some (VUnit 1)) by (vm_compute; reflexivity).
  rewrite E1, E2. cbn [bind].
  assert (Q1 : val_q ex_h2 (VUnit 0) = Some (unit_q u_m)) by reflexivity.
  assert (Q2 : val_q ex_h2 (VUnit 1) = Some (unit_q u_s)) by reflexivity.
  unfold v_bin, val_operand. rewrite Q1, Q2. reflexivity.
Qed.
Example C70_example : history (parse_arith dec_read) ex_h4 /\
  In (UId CCompound "m/s") (dkeys (objs ex_h4)) /\ In (UId CLength "meter") (dkeys (objs ex_h4)) /\
  ctx_get ex_h4 (T "metre") = Some (VUnit 0).
Proof.
  assert (H1 : history (parse_arith dec_read) ex_h1).
  { apply (h_new _ rempty CLength "meter" None (Some "m") None [] (VUnit 0));
      [apply h_empty|discriminate|intros []|discriminate|vm_compute; reflexivity]. }
  assert (H2 : history (parse_arith dec_read) ex_h2).
  { apply (h_new _ ex_h1 CTime "second" None (Some "s") None [] (VUnit 1));
      [exact H1|discriminate| |discriminate|vm_compute; reflexivity].
    vm_compute. intros [H|[]]. discriminate. }
  assert (H3 : history (parse_arith dec_read) ex_h3).
  { apply (h_compound _ ex_h2 "m/s" (EBin BDiv (EName (T "m")) (EName (T "s")))
             (VQty (Qty (scalar (1 / 1)%R) [(u_m, PInt 1); (u_s, PInt (-1))])) (DQty (1 / 1)%R [(u_m, PInt 1); (u_s, PInt (-1))]));
      [exact H2| |vm_compute; reflexivity| |exact ex_h2_eval|reflexivity|].
    - vm_compute. intros [H|[H|[]]]; discriminate.
    - constructor; [cbn; auto|constructor..].
    - split; [lra|]. split; [apply wf_dimsb_true; vm_compute; reflexivity|].
      assert (K : dkeys (objs ex_h2) = [u_m; u_s]) by reflexivity. rewrite K.
      intros u [<-|[<-|[]]]; (split; [cbn; auto|discriminate]). }
  assert (K : dkeys (objs ex_h4) = [u_m; u_s; u_mps]) by (vm_compute; reflexivity).
  split; [|split; [|split]].
  - assert (I : exists o, nth_error (objs ex_h3) 0 = Some o).
    { destruct (nth_error (objs ex_h3) 0) eqn:Ei; [eauto|]. apply nth_error_None in Ei.
      assert (X : length (dkeys (objs ex_h3)) = 3%nat) by (vm_compute; reflexivity). unfold dkeys in X. rewrite map_length in X. lia. }
    destruct I as [o I]. apply (h_name _ ex_h3 (T "metre") 0 o H3 I). vm_compute. reflexivity.
  - rewrite K. cbn; auto.
  - rewrite K. cbn; auto.
  - vm_compute. reflexivity.
Qed.

(** What goes wrong otherwise. *)
(** A unit whose creation failed half-way (C60) can be pickled but not read back. *)
Theorem C70_half_made_refuted : exists (st : rstate Qc) t,
  let st' := fst (create_unit st CLength "bar" (Some (DQty (zq 2) [(u_m, PInt 1)])) (Some "s") None []) in
  dump_unit 9 (objs st') (UId CLength "bar") = Ok t /\
  snd (load_unit (parse_arith dec_read) t st') = Err KeyError.
Proof. eexists (ex_st Qc), _. split; [vm_compute; reflexivity|]. vm_compute. reflexivity. Qed.
(** The same class and name with another definition: the pickle is accepted, and from
    then on the process has two different units under the same key. *)
Theorem C70_other_definition_refuted : exists (st1 st2 : rstate Qc) t,
  let foo := UId CLength "foo" in
  dump_unit 9 (objs st1) foo = Ok t /\ snd (load_unit (parse_arith dec_read) t st2) = Ok foo /\
  map (fun o => ur_ref (snd o)) (filter (fun o => uid_eqb (fst o) foo) (objs (fst (load_unit (parse_arith dec_read) t st2)))) =
    [Some (zq 3, [(u_m, PInt 1)]); Some (zq 2, [(u_m, PInt 1)])].
Proof.
  eexists (fst (create_unit (ex_st Qc) CLength "foo" (Some (DQty (zq 2) [(u_m, PInt 1)])) None None [])),
          (fst (create_unit (ex_st Qc) CLength "foo" (Some (DQty (zq 3) [(u_m, PInt 1)])) None None [])), _.
  split; [vm_compute; reflexivity|]. split; [vm_compute; reflexivity|]. vm_compute. reflexivity.
Qed.
(** A name that means a unit of another size in the other process: KeyError. *)
Theorem C70_name_taken : exists (st1 st2 : rstate Qc) t,
  dump_unit 9 (objs st1) (UId CLength "foo") = Ok t /\
  snd (load_unit (parse_arith dec_read) t st2) = Err KeyError.
Proof.
  eexists (fst (create_unit (ex_st Qc) CLength "foo" (Some (DQty (zq 2) [(u_m, PInt 1)])) None None [])),
          (fst (create_unit (ex_st Qc) CTime "foo" (Some (DQty (zq 3) [(u_s, PInt 1)])) None None [])), _.
  split; [vm_compute; reflexivity|]. vm_compute. reflexivity.
Qed.
(** A compound unit is what its text means in the process that reads it: here
    [foo*s] comes back three metre seconds long instead of two. *)
Theorem C70_compound_refuted : exists (st1 st2 : rstate Qc) t,
  let w := UId CCompound "foo*s" in
  unit_ref (objs st1) w = (zq 2, [(u_m, PInt 1); (u_s, PInt 1)]) /\
  dump_unit 9 (objs st1) w = Ok t /\ snd (load_unit (parse_arith dec_read) t st2) = Ok w /\
  unit_ref (objs (fst (load_unit (parse_arith dec_read) t st2))) w = (zq 3, [(u_m, PInt 1); (u_s, PInt 1)]).
Proof.
  eexists (fst (create_compound (parse_arith dec_read)
                  (fst (create_unit (ex_st Qc) CLength "foo" (Some (DQty (zq 2) [(u_m, PInt 1)])) None None [])) "foo*s")),
          (fst (create_unit (ex_st Qc) CLength "foo" (Some (DQty (zq 3) [(u_m, PInt 1)])) None None [])), _.
  split; [vm_compute; reflexivity|]. split; [vm_compute; reflexivity|]. split; [vm_compute; reflexivity|]. vm_compute. reflexivity.
Qed.
Close Scope string_scope.

(** ** C88: copies *)
(** [u.copy()] is a new unit object of the same class and name and with the same
    definition, symbol and aliases; no name changes its meaning. *)
Theorem C88_copy_unit : forall parse (st : rstate R) i u r,
  history parse st -> nth_error (objs st) i = Some (u, r) -> u_cls u <> CDimless ->
  exists st' r', copy_unit parse st i = (st', Ok (VUnit (length (objs st)))) /\
    objs st' = objs st ++ [(u, r')] /\ ur_def r' = ur_def r /\ ur_ref r' = ur_ref r /\
    (u_cls u <> CCompound -> ur_symbol r' = ur_symbol r /\ ur_usymbol r' = ur_usymbol r /\ ur_aliases r' = ur_aliases r) /\
    (forall s, ctx_get st' s = ctx_get st s).
Proof.
  intros parse st i u r Hh Hi Hcd. destruct (history_ok parse st Hh) as [HE HU HB HFit].
  assert (HA : agrees (objs st) (objs st)) by now apply env_agrees.
  assert (Hr : ulookup (objs st) u = Some r) by exact (lookup_own (objs st) i u r (NoDup_env _ _ HE) Hi).
  assert (Hin : In (u, r) (objs st)) by (eapply nth_error_In; eauto).
  pose proof (env_closed (objs st) HE) as HC.
  assert (Gen : forall sym usym al, reg_names (u_cls u) (u_name u) sym al = unit_names u r ->
    exists st' r', create_unit st (u_cls u) (u_name u) (ur_def r) sym usym al = (st', Ok (VUnit (length (objs st)))) /\
      objs st' = objs st ++ [(u, r')] /\ ur_def r' = ur_def r /\ ur_ref r' = ur_ref r /\
      ur_symbol r' = sym /\ ur_usymbol r' = usym /\ ur_aliases r' = al /\
      (forall s, ctx_get st' s = ctx_get st s)).
  { intros sym usym al Hn.
    destruct (create_step (objs st) (objs st) parse st (fun w => w = u) HE) with (st := st) (w := u) (r := r) (rF := r) (o := (0%nat, 0%nat))
      (usym := usym) (sym := sym) (al := al) as (st' & v & C1 & C2 & _); auto.
    { intros w rw -> Hw. apply HFit. now apply lookup_In. }
    { intros w w' rw rw' s -> -> _ _ _ _. apply same_size_refl. }
    { apply linv_start. exact HA. }
    { intros df x Hd Hx. exact (HC u r df x Hin Hd Hx). }
    destruct (create_unit_objs st (u_cls u) (u_name u) (ur_def r) sym usym al) as [order Eo].
    rewrite C1 in Eo. cbn [fst] in Eo. replace (UId (u_cls u) (u_name u)) with u in Eo by (destruct u; reflexivity).
    assert (Hs : snd (create_unit st (u_cls u) (u_name u) (ur_def r) sym usym al) = Ok v) by now rewrite C1.
    destruct (create_unit_ctx st _ _ _ _ _ _ v Hs) as [-> Hctx]. rewrite C1 in Hctx. cbn [fst] in Hctx.
    eexists st', _. split; [exact C1|]. split; [exact Eo|]. split; [reflexivity|].
    split; [cbn [ur_ref new_unit]; apply (new_ref (objs st) (objs st) u r HE HA Hr); intros df x Hd Hx; exact (HC u r df x Hin Hd Hx)|].
    split; [reflexivity|]. split; [reflexivity|]. split; [reflexivity|].
    intros s. rewrite Hctx. destruct (ctx_get st s) as [w|] eqn:Es; auto.
    destruct (existsb (teqb s) (reg_names (u_cls u) (u_name u) sym al)) eqn:Ex; auto.
    apply existsb_exists in Ex. destruct Ex as (s' & Hs' & Et). apply teqb_eq in Et. subst s'. rewrite Hn in Hs'.
    exfalso. exact (HB u r s Hin Hs' Es). }
  unfold copy_unit. rewrite Hi. destruct (u_cls u) eqn:Ec;
    try (destruct (Gen (ur_symbol r) (ur_usymbol r) (ur_aliases r)) as (st' & r' & G1 & G2 & G3 & G4 & G5 & G6 & G7 & G8);
         [unfold unit_names; now rewrite Ec|]; exists st', r'; split; [exact G1|]; auto 10).
  - destruct (proj2 (HFit u r Hin) Ec) as (e & v & df & Ep & Hp & Hnm & Ev & Evd & Ed & Hkn).
    destruct (Gen None None []) as (st' & r' & G1 & G2 & G3 & G4 & _ & _ & _ & G8); [unfold unit_names; now rewrite Ec|].
    exists st', r'. split.
    + unfold create_compound, get_item, inner_get. rewrite Ep. cbn [bind]. rewrite (product_valid e Hp), Ev. cbn [catch].
      rewrite Evd, <- Ed. exact G1.
    + split; auto. split; auto. split; auto. split; [congruence|exact G8].
  - congruence.
Qed.
(** [dimensionless.copy()] raises. *)
Theorem C88_copy_dimensionless_refuted : forall A (N : Num A) parse (st : rstate A) i name r,
  nth_error (objs st) i = Some (UId CDimless name, r) -> snd (copy_unit parse st i) = Err TypeError.
Proof. intros A N parse st i name r H. unfold copy_unit. now rewrite H. Qed.
(** A deep copy has the magnitudes and the units of the original. *)
Theorem C88_deepcopy : forall A (N : Num A) lookup E (q : qty A), deepcopy_q lookup E q = Ok q.
Proof. intros A N lookup E [a d]. reflexivity. Qed.
(** The deep copy of a unit is not a unit but a quantity of one such unit. *)
Theorem C88_deepcopy_unit : forall A (N : Num A) lookup E u,
  deepcopy_unit lookup E u = Ok (Qty (scalar n1) (unit_dims u)).
Proof. reflexivity. Qed.
(** The deep copy of an uncertain quantity has lost its uncertainty. *)
Theorem C88_deepcopy_uncertain_refuted : forall A (N : Num A) lookup E (x y : uqty A),
  uv x = uv y -> deepcopy_u lookup E x = deepcopy_u lookup E y /\ deepcopy_u lookup E x = Ok (uv x).
Proof. intros A N lookup E [v u] [v' u'] H. cbn in H. subst v'. split; [reflexivity|]. apply C88_deepcopy. Qed.
Example C88_example : exists (x y : uqty Qc), uv x = uv y /\ x <> y.
Proof.
  exists (UQ (Qty (scalar (zq 1)) d_m) (Qty (scalar (zq 1)) d_m)), (UQ (Qty (scalar (zq 1)) d_m) (Qty (scalar (zq 2)) d_m)).
  split; [reflexivity|]. intros H. assert (X : dat (mag (uu (UQ (Qty (scalar (zq 1)) d_m) (Qty (scalar (zq 1)) d_m)))) = [zq 2]) by now rewrite H.
  vm_compute in X. discriminate.
Qed.

Print Assumptions C70_quantity.
Print Assumptions C70_uncertain.
Print Assumptions C70_unit.
Print Assumptions C70_same_process.
Print Assumptions C70_half_made_refuted.
Print Assumptions C70_other_definition_refuted.
Print Assumptions C70_name_taken.
Print Assumptions C70_compound_refuted.
Print Assumptions C88_copy_unit.
Print Assumptions C88_copy_dimensionless_refuted.
Print Assumptions C88_deepcopy.
Print Assumptions C88_deepcopy_unit.
Print Assumptions C88_deepcopy_uncertain_refuted.
