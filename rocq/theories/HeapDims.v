(** * HeapDims: the units of all objects are well-formed, for ever. *)
From Coq Require Import Lia.
From Verif Require Import Py Num Dim DimFacts Arr ArrFacts Lanes Units Spec SpecApi UnitFacts Quant QuantFacts Dtype ConvFacts
  Ufunc Ops OpsFacts Methods ItemFacts Heap HeapFacts.

Section Any.
  Context {A : Type} {N : Num A}.
  Variable lookup : string -> res (qty A).
  Variable E : uenv A.
  Variable v : npv.

  Definition heap_dims (h : heap A) : Prop := forall i o, nth_error (objs h) i = Some o -> dims_ok (o_dims o).
  Definition uarg_ok (u : uarg A) : Prop := forall d, denotes_units lookup u d -> dims_ok d.
  (** The units that the operations of a program name are well-formed. *)
  Definition units_args_ok (x : op A) : Prop :=
    match x with
    | OQuantity _ u | OSetUnits _ u | OPure (PRescale _ u) => uarg_ok u
    | _ => True
    end.

  Lemma obj_dims_ok (h : heap A) i o : heap_dims h -> nth_error (objs h) i = Some o -> dims_ok (obj_dims o).
  Proof.
    intros H Ho. unfold obj_dims. destruct (o_kind o); [apply dims_ok_nil|eauto|apply dims_ok_unit].
  Qed.
  Lemma harg_dims (h : heap A) x y k : heap_dims h -> harg_op h x = Ok (y, k) -> dims_ok (qdim (as_q y)).
  Proof.
    intros H. destruct x as [j|z k']; cbn.
    - destruct (nth_error (objs h) j) as [o|] eqn:Ej; [|discriminate]. intros [= <- <-]. unfold obj_op.
      destruct (is_quantity _); cbn; [eapply obj_dims_ok; eauto|apply dims_ok_nil].
    - intros [= <- <-]. apply dims_ok_nil.
  Qed.
  Lemma get_qty_dims (h : heap A) i q : heap_dims h -> get_qty h i = Ok q -> dims_ok (qdim q).
  Proof.
    intros H. unfold get_qty, get_obj. destruct (nth_error (objs h) i) as [o|] eqn:Ej; [|discriminate]. cbn.
    destruct (is_quantity _); [|discriminate]. intros [= <-]. eapply obj_dims_ok; eauto.
  Qed.
  Lemma rescale_to_dims (q : qty A) d r : dims_ok (qdim q) -> dims_ok d -> rescale_to E q d = Ok r -> dims_ok (qdim r).
  Proof.
    intros H1 H2. unfold rescale_to. destruct (dim_eqb _ _); [intros [= <-]; auto|].
    destruct (conv_factor E _ _) as [cf|e]; [intros [= <-]; auto|]. destruct e; discriminate.
  Qed.
  Lemma scale_other_dims (q : qty A) x z : dims_ok (qdim q) -> dims_ok (qdim (as_q x)) -> scale_other E q x = Ok z ->
    dims_ok (qdim z) /\ dim_eqb (qdim q) (qdim z) = true.
  Proof.
    intros H1 H2. unfold scale_other. destruct (dim_eqb (qdim (as_q x)) (qdim q)) eqn:E1.
    - intros [= <-]. split; auto. rewrite dim_eqb_sym; auto; [apply H1|apply H2].
    - intros H. split; [exact (rescale_to_dims _ _ _ H2 H1 H)|]. rewrite dim_eqb_sym; [|apply H1|].
      + eapply rescale_to_eqb; [| |exact H]; [apply H2|apply H1].
      + exact (proj1 (rescale_to_dims _ _ _ H2 H1 H)).
  Qed.
  Lemma pd2_dims r (o1 o2 : operand A) d : dims_ok (qdim (as_q o1)) -> dims_ok (qdim (as_q o2)) ->
    r = RMul \/ r = RDiv \/ r = RUniform -> pd2 r o1 o2 = Ok d -> dims_ok d.
  Proof.
    intros H1 H2 [->|[->| ->]]; destruct o1, o2; cbn in *; try discriminate;
      repeat match goal with |- context [if ?b then _ else _] => destruct b end; 
      try discriminate; intros X; match type of X with Ok ?a = Ok ?b => assert (b = a) by congruence end; subst d; auto;
      try (now apply dims_ok_mul); try (now apply dims_ok_div); try (now apply dims_ok_pow).
    exact (dims_ok_pow (qdim q) (PInt (-1)) H2).
  Qed.
  Lemma apply2_dims {C} (g : A -> A -> C) r (o1 o2 : operand A) q : dims_ok (qdim (as_q o1)) -> dims_ok (qdim (as_q o2)) ->
    r = RMul \/ r = RDiv \/ r = RUniform -> apply2 g r o1 o2 = Ok q -> dims_ok (qdim q).
  Proof.
    intros H1 H2 Hr. unfold apply2. destruct (amap2 g (odat o1) (odat o2)) as [m|e]; [|discriminate]. cbn.
    destruct (pd2 r o1 o2) as [d|e] eqn:Ed; [|discriminate]. cbn. intros [= <-]. exact (pd2_dims r o1 o2 d H1 H2 Hr Ed).
  Qed.
  Lemma q_red_dims op axis (q r : qty A) : q_red op axis q = Ok r -> qdim r = qdim q.
  Proof.
    unfold q_red. destruct (norm_axis _ _); [|discriminate]. cbn. destruct (areduce _ _ _); [|discriminate]. cbn.
    destruct (check_lanes _ _ _ _); [|discriminate]. now intros [= <-].
  Qed.
  Lemma pure_dims h p r k : heap_dims h -> units_args_ok (OPure p) -> pure_run lookup E h p = Ok (r, k) -> dims_ok (qdim r).
  Proof.
    intros HD OK.
    assert (B : forall i x (f : qty A -> operand A -> res (qty A)),
      (forall q y z, dims_ok (qdim q) -> dims_ok (qdim (as_q y)) -> f q y = Ok z -> dims_ok (qdim z)) ->
      (q <- get_qty h i ;; '(y, k) <- harg_op h x ;; rmap (fun r => (r, KFloat)) (f q y)) = Ok (r, k) -> dims_ok (qdim r)).
    { intros i x f Hf. destruct (get_qty h i) as [q|e] eqn:Eq; [|discriminate]. cbn [bind].
      destruct (harg_op h x) as [[y k']|e] eqn:Ex; [|discriminate]. cbn [bind].
      destruct (f q y) as [z|e] eqn:Ef; [|discriminate]. intros [= <- <-].
      eapply Hf; [| |exact Ef]; [eapply get_qty_dims; eauto|eapply harg_dims; eauto]. }
    assert (SO : forall (g : A -> A -> A) (q : qty A) (y : operand A) (z : qty A), dims_ok (qdim q) -> dims_ok (qdim (as_q y)) ->
       (o <- scale_other E q y ;; apply2 g RUniform (OQ q) (OQ o)) = Ok z -> dims_ok (qdim z)).
    { intros g q y z H1 H2. destruct (scale_other E q y) as [w|e] eqn:Ew; [|discriminate]. cbn [bind].
      destruct (scale_other_dims _ _ _ H1 H2 Ew) as [H3 _]. apply (apply2_dims g RUniform (OQ q) (OQ w)); auto. }
    destruct p; cbn [pure_run].
    - apply B. intros q y z. apply (SO nadd).
    - apply B. intros q y z. apply (SO nsub).
    - apply B. intros q y z H1 H2. apply (apply2_dims nmul RMul (OQ q) y); auto.
    - apply B. intros q y z H1 H2. apply (apply2_dims ndiv RDiv (OQ q) y); auto.
    - destruct (get_qty h i) as [q|e] eqn:Eq; [|discriminate]. cbn. unfold apply1. cbn. intros [= <- <-]. cbn. eapply get_qty_dims; eauto.
    - destruct (get_qty h i) as [q|e] eqn:Eq; [|discriminate]. cbn [bind]. unfold q_pow, apply_power. cbn [bind odat scalar dat uniform forallb].
      destruct (amap2 npow _ _) as [m|e]; [|discriminate]. cbn [bind rmap]. intros X.
      assert (r = Qty m (dim_pow (qdim q) p)) as -> by congruence. apply (dims_ok_pow (qdim q) p). eapply get_qty_dims; eauto.
    - destruct (get_qty h i) as [q|e] eqn:Eq; [|discriminate]. cbn [bind]. unfold rescale.
      destruct (validate_dimensionality lookup u) as [d|e] eqn:Ed; [|discriminate]. cbn [bind].
      destruct (rescale_to E q d) as [z|e] eqn:Ez; [|discriminate]. intros [= <- <-].
      eapply rescale_to_dims; [| |exact Ez]; [eapply get_qty_dims; eauto|]. apply OK. now apply validate_denotes.
    - destruct (get_qty h i) as [q|e] eqn:Eq; [|discriminate]. cbn [bind].
      destruct (q_red op axis q) as [z|e] eqn:Ez; [|discriminate]. intros [= <- <-]. rewrite (q_red_dims _ _ _ _ Ez). eapply get_qty_dims; eauto.
    - destruct (get_obj h i) as [o|e] eqn:Eo; [|discriminate]. cbn [bind]. destruct (get_qty h i) as [q|e] eqn:Eq; [|discriminate]. cbn [bind].
      unfold q_getitem. destruct (sel (shp (mag q))) as [[s ps]|e]; [|discriminate]. intros [= <- <-]. cbn [qdim]; exact (get_qty_dims _ _ _ HD Eq).
  Qed.

  Lemma heap_dims_add (h : heap A) bs o : heap_dims h -> dims_ok (o_dims o) -> heap_dims (Heap bs (objs h ++ [o])).
  Proof.
    intros H Hd i o' Hi. cbn [objs] in Hi. destruct (Nat.lt_ge_cases i (length (objs h))) as [L|L].
    - rewrite nth_error_app1 in Hi by auto. eauto.
    - rewrite nth_error_app2 in Hi by auto. destruct (i - length (objs h))%nat as [|[|n]]; cbn in Hi; try discriminate. now injection Hi as <-.
  Qed.
  Lemma alloc_dims (h : heap A) k a d b wr dt : heap_dims h -> dims_ok d -> heap_dims (fst (alloc h k a d b wr dt)).
  Proof. intros H Hd. apply heap_dims_add; auto. Qed.
  Lemma view_dims (h : heap A) j o k d s ps : heap_dims h -> dims_ok d -> heap_dims (fst (view_of h j o k d s ps)).
  Proof. intros H Hd. apply (heap_dims_add h (bufs h)); auto. Qed.
  Lemma fresh_then_view_dims (h : heap A) r b dt : heap_dims h -> dims_ok (qdim r) -> heap_dims (fst (fresh_then_view h r b dt)).
  Proof.
    intros H Hd. unfold fresh_then_view, with_obj. rewrite nth_alloc. apply view_dims; auto. now apply alloc_dims.
  Qed.
  Lemma set_dims_dims (h : heap A) i d : heap_dims h -> dims_ok d -> heap_dims (set_dims h i d).
  Proof.
    intros H Hd k o. rewrite objs_set_dims. destruct (Nat.eqb i k); [|apply H].
    destruct (nth_error (objs h) k); cbn; [|discriminate]. intros [= <-]. auto.
  Qed.
  Lemma write_dims (h : heap A) b ps xs : heap_dims h -> heap_dims (write_at h b ps xs).
  Proof. intros H k o Hk. apply (H k o Hk). Qed.
  Lemma ufunc_out_dims (h : heap A) i o k m d : heap_dims h -> (forall dd, d = Ok dd -> dims_ok dd) -> heap_dims (fst (ufunc_out v h i o k m d)).
  Proof.
    intros H Hd. unfold ufunc_out.
    repeat match goal with |- context [match ?x with _ => _ end] => destruct x eqn:?; cbn [fst]; auto end;
      try (apply write_dims; auto; fail); (apply set_dims_dims; [now apply write_dims|auto]).
  Qed.

  Theorem step_dims h x : heap_dims h -> units_args_ok x -> heap_dims (fst (step lookup E v h x)).
  Proof.
    intros HD OK. destruct x; cbn [step]; unfold with_obj, with_arg.
    - destruct (Nat.eqb _ _); auto. apply alloc_dims; auto. apply dims_ok_nil.
    - apply alloc_dims; auto. apply dims_ok_nil.
    - destruct (nth_error (objs h) j) as [o|] eqn:Ho; auto. pose proof (obj_dims_ok h j o HD Ho) as Od.
      assert (Q : forall k : okind, heap_dims (fst (match truthy u with
         | Err e => (h, Err e)
         | Ok true => match validate_dimensionality lookup u with
             | Err e => (h, Err e)
             | Ok d => match rescale_to E (obj_qty h o) d with
                       | Err e => (h, Err e)
                       | Ok r => if dim_eqb (obj_dims o) d then fresh_then_view h r BNone (o_dt o) else fresh_then_view h r BHidden KFloat
                       end
             end
         | Ok false => match k with
             | KUnit _ => alloc h KQty (obj_arr h o) (obj_dims o) BHidden true KFloat
             | _ => view_of h j o KQty (obj_dims o) (o_shp o) (whole o)
             end
         end))).
      { intros k. destruct (truthy u) as [[]|e]; auto.
        - destruct (validate_dimensionality lookup u) as [d|e] eqn:Ed; auto.
          destruct (rescale_to E (obj_qty h o) d) as [q|e] eqn:Er; auto.
          assert (X : dims_ok (qdim q)) by (eapply rescale_to_dims; [| |exact Er]; [exact Od|apply OK; now apply validate_denotes]).
          destruct (dim_eqb _ _); now apply fresh_then_view_dims.
        - destruct k; try (apply view_dims; auto); apply alloc_dims; auto. }
      destruct (o_kind o); [|apply (Q KQty)|apply (Q (KUnit u0))].
      destruct (validate_dimensionality lookup u) as [d|e] eqn:Ed; auto. apply view_dims; auto. apply OK; now apply validate_denotes.
    - destruct (nth_error (objs h) j) as [o|] eqn:Ho; auto. apply view_dims; auto. apply dims_ok_nil.
    - destruct (nth_error (objs h) j) as [o|] eqn:Ho; auto. destruct (sel (o_shp o)) as [[s ps]|e]; auto.
      destruct (_ && _ && _); auto. apply view_dims; auto. eapply obj_dims_ok; eauto.
    - destruct (nth_error (objs h) j) as [o|] eqn:Ho; auto. destruct (o_kind o); apply alloc_dims; eauto. apply dims_ok_nil.
    - destruct (nth_error (objs h) j) as [o|] eqn:Ho; auto. destruct (is_quantity _).
      + set (h1 := fst (view_of h j o KArr [] (o_shp o) (whole o))). assert (H1 : heap_dims h1) by (apply view_dims; auto; apply dims_ok_nil).
        destruct (nth_error (objs h1) _) as [m|]; auto. apply view_dims; auto. exact (obj_dims_ok h j o HD Ho).
      + apply alloc_dims; auto. apply dims_ok_nil.
    - destruct (pure_run lookup E h p) as [[r k]|e] eqn:Ep; auto. apply alloc_dims; auto. eapply pure_dims; eauto.
    - destruct (nth_error (objs h) i) as [o|] eqn:Ho; auto. unfold set_units_run. destruct (o_kind o); auto.
      destruct (is_qview h o); auto. destruct (negb _); auto. destruct (validate_dimensionality lookup u) as [d|e] eqn:Ed; auto.
      destruct (dim_eqb _ _); auto. destruct (conv_factor E _ _) as [c|[]]; auto. destruct (o_dt o); auto.
      apply set_dims_dims; [now apply write_dims|]. apply OK; now apply validate_denotes.
    - destruct (nth_error (objs h) i) as [o|] eqn:Ho; auto. destruct (harg_op h x) as [[y k]|e] eqn:Ex; auto.
      pose proof (harg_dims h x y k HD Ex) as Hy. pose proof (obj_dims_ok h i o HD Ho) as Od.
      unfold iop_run. destruct (o_kind o).
      + apply ufunc_out_dims; auto. intros dd X. assert (dd = []) as -> by congruence. apply dims_ok_nil.
      + destruct (iop_scales b) eqn:Eb.
        * destruct (scale_other E (obj_qty h o) y) as [z|e] eqn:Ez; auto.
          destruct (scale_other_dims (obj_qty h o) _ _ Od Hy Ez) as [H3 _]. apply ufunc_out_dims; auto. intros dd.
          apply (pd2_dims _ (OQ (obj_qty h o)) (OQ z)); auto. destruct b; cbn; auto.
        * destruct (_ && _ && _); auto. apply ufunc_out_dims; auto. intros dd. apply (pd2_dims _ (OQ (obj_qty h o)) y); auto.
          destruct b; cbn; auto.
      + destruct (iop_unit_refuses b); auto.
    - destruct (nth_error (objs h) i) as [o|] eqn:Ho; auto. unfold ipow_run. destruct (o_kind o); auto.
      assert (P : forall p dd, Ok (dim_pow (o_dims o) p) = Ok dd -> dims_ok dd) by (intros p dd X; assert (dd = dim_pow (o_dims o) p) as -> by congruence; apply dims_ok_pow; eauto).
      destruct (uniform ps) as [p|]; auto. destruct ps as [|p1 [|p2 ps]]; auto. destruct (_ && _); auto.
      destruct p; [destruct (o_dt o); [destruct (z <? 0)%Z; auto|]|]; apply ufunc_out_dims; auto; apply P.
    - destruct (nth_error (objs h) i) as [o|] eqn:Ho; auto. destruct (harg_op h x) as [[y k]|e] eqn:Ex; auto.
      unfold setitem_run. destruct (if is_quantity _ then _ else _); auto. destruct (negb _); auto. destruct (sel _) as [[s ps]|e]; auto.
      destruct (broadcast_to _ _); auto.
    - destruct (nth_error (objs h) i) as [o|] eqn:Ho; auto. destruct (harg_op h x) as [[y k]|e] eqn:Ex; auto.
      pose proof (harg_dims h x y k HD Ex) as Hy. unfold fill_run. destruct (negb _); auto.
      destruct (shp (odat y)); auto. destruct (dat (odat y)) as [|z [|z' l]]; auto. cbn zeta. 
      destruct (o_kind o), y; cbn [fst]; try (now apply write_dims); apply set_dims_dims; auto; now apply write_dims.
    - destruct (nth_error (objs h) j) as [o|] eqn:Hj; auto. destruct (is_quantity (o_kind o)); auto.
      destruct (nth_error (objs h) i) as [out|] eqn:Ho; auto. unfold red_out_run. destruct (is_quantity _); auto.
      destruct (q_red r axis (obj_qty h o)) as [z|e] eqn:Ez; auto. destruct (negb _); auto.
      assert (X : dims_ok (qdim z)) by (rewrite (q_red_dims _ _ _ _ Ez); eapply obj_dims_ok; eauto).
      repeat match goal with |- context [match ?x with _ => _ end] => destruct x eqn:?; cbn [fst]; auto end;
        (apply set_dims_dims; [now apply write_dims|auto]).
  Qed.
  Theorem run_dims ops : forall h, heap_dims h -> Forall units_args_ok ops -> heap_dims (run lookup E v h ops).
  Proof.
    induction ops as [|x ops IH]; intros h HD F; cbn [run]; auto. apply Forall_cons_iff in F. destruct F as [F1 F2].
    apply IH; auto. now apply step_dims.
  Qed.
  Lemma empty_dims : heap_dims (empty_heap (A := A)).
  Proof. intros [|i] o H; discriminate. Qed.
End Any.
