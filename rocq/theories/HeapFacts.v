(** * HeapFacts: what operations can do to memory. *)
From Coq Require Import Lia.
From Verif Require Import Py Num Dim DimFacts Arr ArrFacts Lanes Units Spec SpecApi UnitFacts Quant QuantFacts Dtype
  Ufunc Ops Methods ItemFacts Heap.

Section Facts.
  Context {A : Type} {N : Num A}.
  Variable lookup : string -> res (qty A).
  Variable E : uenv A.
  Variable v : npv.

  (** ** Reading and writing *)
  Lemma nth_update {B} (l : list B) i x d j : i < length l -> nth j (update l i x) d = if Nat.eqb i j then x else nth j l d.
  Proof.
    intros Hi. destruct (Nat.eqb_spec i j) as [->|Hne].
    - apply (nth_error_nth _ _ d). now apply update_same.
    - destruct (nth_error l j) as [y|] eqn:Ej.
      + rewrite (nth_error_nth _ _ d Ej). apply nth_error_nth. now rewrite update_other.
      + rewrite nth_overflow; [|rewrite update_length; now apply nth_error_None].
        symmetry. apply nth_overflow. now apply nth_error_None.
  Qed.
  Lemma update_oob {B} : forall (l : list B) i x, length l <= i -> update l i x = l.
  Proof. induction l as [|y l IH]; intros [|i] x H; cbn in *; auto; try lia. now rewrite IH by lia. Qed.

  Lemma gather_scatter (l : list A) ps xs : NoDup ps -> Forall (fun p => p < length l) ps -> length xs = length ps ->
    gather (scatter l ps xs) ps = xs.
  Proof.
    intros ND F L. apply nth_error_ext'. intros k. unfold gather. rewrite nth_error_map.
    destruct (nth_error ps k) as [p|] eqn:Ep; cbn.
    - destruct (nth_error xs k) as [x|] eqn:Ex.
      + f_equal. apply nth_error_nth. now apply (scatter_at _ _ _ k).
      + exfalso. apply nth_error_None in Ex. pose proof (proj1 (nth_error_Some ps k)). rewrite Ep in H.
        specialize (H ltac:(discriminate)). lia.
    - symmetry. apply nth_error_None. rewrite L. now apply nth_error_None.
  Qed.
  Lemma gather_ext (l l' : list A) ps : length l = length l' ->
    (forall p, In p ps -> nth_error l p = nth_error l' p) -> gather l ps = gather l' ps.
  Proof.
    intros L H. unfold gather. apply map_ext_in. intros p Hp. specialize (H p Hp).
    destruct (nth_error l p) as [x|] eqn:Ex.
    - rewrite (nth_error_nth _ _ _ Ex). symmetry. apply nth_error_nth. congruence.
    - rewrite !nth_overflow; auto; apply nth_error_None; congruence.
  Qed.
  Lemma gather_whole (l : list A) : gather l (seq 0 (length l)) = l.
  Proof.
    unfold gather. apply nth_error_ext'. intros i. rewrite nth_error_map. destruct (Nat.lt_ge_cases i (length l)) as [X|X].
    + rewrite (nth_error_nth' _ 0%nat) by (now rewrite seq_length). rewrite seq_nth by auto. cbn. symmetry. now apply nth_error_nth'.
    + rewrite (proj2 (nth_error_None (seq 0 (length l)) i)) by (rewrite seq_length; lia). cbn. symmetry. now apply nth_error_None.
  Qed.
  Lemma gather_length (l : list A) ps : length (gather l ps) = length ps.
  Proof. unfold gather. apply map_length. Qed.

  Lemma buffer_write_at (h : heap A) b ps xs b' : b < length (bufs h) ->
    buffer (write_at h b ps xs) b' = if Nat.eqb b b' then scatter (buffer h b) ps xs else buffer h b'.
  Proof. intros Hb. unfold buffer, write_at. cbn. now rewrite nth_update. Qed.
  Lemma bufs_set_dims (h : heap A) i d : bufs (set_dims h i d) = bufs h.
  Proof. unfold set_dims. destruct (nth_error _ _); auto. Qed.
  Lemma buffer_set_dims (h : heap A) i d b : buffer (set_dims h i d) b = buffer h b.
  Proof. unfold buffer. now rewrite bufs_set_dims. Qed.
  Lemma contents_with_dims (h : heap A) o d : contents h (with_dims o d) = contents h o.
  Proof. reflexivity. Qed.

  (** The elements an object occupies. *)
  Definition covers (o : obj) (b p : nat) : Prop := o_buf o = b /\ In p (o_pos o).
  (** Two objects share no element. *)
  Definition disjoint_objs (o1 o2 : obj) : Prop := o_buf o1 <> o_buf o2 \/ forall p, In p (o_pos o1) -> ~ In p (o_pos o2).
  (** Everything but the units. *)
  Definition same_but_dims (o o' : obj) : Prop := o' = with_dims o (o_dims o').

  (** ** The two ways in which an operation changes the heap *)
  Definition extends_heap (h h' : heap A) : Prop :=
    exists bs os, bufs h' = bufs h ++ bs /\ objs h' = objs h ++ os.
  Definition mutates (h h' : heap A) (i : nat) : Prop :=
    exists o ps xs od, nth_error (objs h) i = Some o /\ o_wr o = true /\ incl ps (o_pos o) /\
      h' = match od with
           | None => write_at h (o_buf o) ps xs
           | Some d => set_dims (write_at h (o_buf o) ps xs) i d
           end.
  Lemma extends_refl h : extends_heap h h.
  Proof. exists [], []. now rewrite !app_nil_r. Qed.
  Lemma extends_trans h1 h2 h3 : extends_heap h1 h2 -> extends_heap h2 h3 -> extends_heap h1 h3.
  Proof.
    intros (b & o & B1 & O1) (b' & o' & B2 & O2). exists (b ++ b'), (o ++ o').
    rewrite B2, O2, B1, O1, !app_assoc. auto.
  Qed.

  Lemma ufunc_out_cases h i o k m d h' r : nth_error (objs h) i = Some o -> ufunc_out v h i o k m d = (h', r) ->
    (h' = h /\ exists e, r = Err e) \/ (mutates h h' i /\ r = Ok i).
  Proof.
    intros Ho. unfold ufunc_out. destruct (o_wr o) eqn:Ew; cbn; [|intros [= <- <-]; left; eauto].
    assert (X : forall a, (if list_eq_dec Nat.eq_dec (shp a) (o_shp o) then
                   match o_kind o, v with
                   | KQty, NumPy1 =>
                       match d with
                       | Ok d => (set_dims (write h o (dat a)) i d, Ok i)
                       | Err e => (h, Err e)
                       end
                   | _, _ => (write h o (dat a), Ok i)
                   end
                 else (h, Err ValueError)) = (h', r) ->
        (h' = h /\ exists e, r = Err e) \/ (mutates h h' i /\ r = Ok i)).
    { intros a. destruct (list_eq_dec _ _ _); [|intros [= <- <-]; left; eauto].
      assert (W : forall xs, mutates h (write h o xs) i).
      { intros xs. exists o, (o_pos o), (map (cast_to (o_dt o)) xs), None. repeat split; auto. apply incl_refl. }
      assert (WD : forall xs dd, mutates h (set_dims (write h o xs) i dd) i).
      { intros xs dd. exists o, (o_pos o), (map (cast_to (o_dt o)) xs), (Some dd). repeat split; auto. apply incl_refl. }
      destruct (o_kind o), v; try (intros [= <- <-]; right; auto).
      destruct d as [dd|e']; intros [= <- <-]; [right; auto|left; eauto]. }
    destruct k, (o_dt o); try (intros [= <- <-]; left; eauto; fail); destruct m as [a|e]; try apply X; intros [= <- <-]; left; eauto.
  Qed.

  Lemma add_obj_ext (h : heap A) o : extends_heap h (fst (add_obj h o)).
  Proof. exists [], [o]. cbn. now rewrite app_nil_r. Qed.
  Lemma alloc_ext (h : heap A) k a d b wr dt : extends_heap h (fst (alloc h k a d b wr dt)).
  Proof. eexists [_], [_]. cbn. auto. Qed.
  Lemma view_of_ext (h : heap A) j o k d s ps : extends_heap h (fst (view_of h j o k d s ps)).
  Proof. apply add_obj_ext. Qed.
  Lemma alloc_case (h : heap A) k a d b wr dt h' r : alloc h k a d b wr dt = (h', r) -> extends_heap h h' /\ exists n, r = Ok n.
  Proof. intros H. pose proof (alloc_ext h k a d b wr dt) as X. rewrite H in X. split; auto. injection H as _ <-. eauto. Qed.
  Lemma view_case (h : heap A) j o k d s ps h' r : view_of h j o k d s ps = (h', r) -> extends_heap h h' /\ exists n, r = Ok n.
  Proof. intros H. pose proof (view_of_ext h j o k d s ps) as X. rewrite H in X. split; auto. injection H as _ <-. eauto. Qed.
  Lemma nth_alloc (h : heap A) k a d b wr dt :
    nth_error (objs (fst (alloc h k a d b wr dt))) (length (objs h)) =
    Some (Obj k (length (bufs h)) (seq 0 (length (dat a))) (shp a) b wr dt d).
  Proof. cbn. rewrite nth_error_app2, Nat.sub_diag by lia. reflexivity. Qed.
  Lemma fresh_then_view_ext (h : heap A) r b dt : extends_heap h (fst (fresh_then_view h r b dt)) /\
    snd (fresh_then_view h r b dt) = Ok (S (length (objs h))).
  Proof.
    unfold fresh_then_view, with_obj. rewrite nth_alloc. cbn [o_shp]. split.
    - eapply extends_trans; [apply alloc_ext|apply view_of_ext].
    - cbn. rewrite app_length. cbn. f_equal. lia.
  Qed.

  Lemma iop_run_cases h b i o x k h' r : nth_error (objs h) i = Some o -> iop_run E v h b i o x k = (h', r) ->
    (h' = h /\ exists e, r = Err e) \/ (mutates h h' i /\ r = Ok i).
  Proof.
    intros Ho. unfold iop_run. destruct (o_kind o).
    - now apply ufunc_out_cases.
    - destruct (iop_scales b).
      + destruct (scale_other E (obj_qty h o) x) as [y|e]; [now apply ufunc_out_cases|]. intros [= <- <-]. left; eauto.
      + destruct (_ && _ && _); [intros [= <- <-]; left; eauto|]. now apply ufunc_out_cases.
    - destruct (iop_unit_refuses b); intros [= <- <-]; left; eauto.
  Qed.
  Lemma ipow_run_cases h i o ps h' r : nth_error (objs h) i = Some o -> ipow_run v h i o ps = (h', r) ->
    (h' = h /\ exists e, r = Err e) \/ (mutates h h' i /\ r = Ok i).
  Proof.
    intros Ho. unfold ipow_run. destruct (o_kind o); try (intros [= <- <-]; left; eauto; fail).
    destruct (uniform ps) as [p|]; [|intros [= <- <-]; left; eauto]. destruct ps as [|a [|b ps]]; try (intros [= <- <-]; left; eauto; fail).
    destruct (_ && _); [intros [= <- <-]; left; eauto|]. destruct p as [z|q]; [|now apply ufunc_out_cases].
    destruct (o_dt o); [|now apply ufunc_out_cases]. destruct (z <? 0)%Z; [intros [= <- <-]; left; eauto|now apply ufunc_out_cases].
  Qed.
  Lemma set_units_cases h i o u h' r : nth_error (objs h) i = Some o -> set_units_run lookup E h i o u = (h', r) ->
    (h' = h) \/ (mutates h h' i /\ r = Ok i).
  Proof.
    intros Ho. unfold set_units_run. destruct (o_kind o); try (intros [= <- <-]; auto; fail).
    destruct (is_qview h o); [intros [= <- <-]; auto|]. destruct (o_wr o) eqn:Ew; cbn [negb]; [|intros [= <- <-]; auto].
    destruct (validate_dimensionality lookup u) as [td|e]; [|intros [= <- <-]; auto].
    destruct (dim_eqb _ _); [intros [= <- <-]; auto|]. destruct (conv_factor E _ _) as [cf|e].
    - destruct (o_dt o) eqn:Ed; intros [= <- <-]; auto. right. split; auto.
      exists o, (o_pos o), (map (cast_to (o_dt o)) (map (fun x => nmul cf x) (contents h o))), (Some td).
      repeat split; auto using incl_refl.
    - destruct e; intros [= <- <-]; auto.
  Qed.
  Lemma setitem_cases h i o sel x h' r : nth_error (objs h) i = Some o ->
    (forall s ps, sel (o_shp o) = Ok (s, ps) -> Forall (fun p => p < length (o_pos o)) ps) ->
    setitem_run E h i o sel x = (h', r) ->
    (h' = h /\ exists e, r = Err e) \/ (mutates h h' i /\ r = Ok i).
  Proof.
    intros Ho Hs. unfold setitem_run. destruct (if is_quantity _ then _ else _) as [y|e]; [|intros [= <- <-]; left; eauto].
    destruct (o_wr o) eqn:Ew; cbn [negb]; [|intros [= <- <-]; left; eauto].
    destruct (sel (o_shp o)) as [[s ps]|e] eqn:Es; [|intros [= <- <-]; left; eauto].
    destruct (broadcast_to y s) as [xs|e]; [|intros [= <- <-]; left; eauto].
    intros [= <- <-]. right. split; auto. exists o, (map (fun p => nth p (o_pos o) 0) ps), (map (cast_to (o_dt o)) xs), None.
    repeat split; auto. intros q Hq. apply in_map_iff in Hq. destruct Hq as (p & <- & Hp). specialize (Hs _ _ eq_refl).
    rewrite Forall_forall in Hs. apply nth_In. auto.
  Qed.
  Lemma fill_cases h i o x h' r : nth_error (objs h) i = Some o -> fill_run h i o x = (h', r) ->
    (h' = h /\ exists e, r = Err e) \/ (mutates h h' i /\ r = Ok i).
  Proof.
    intros Ho. unfold fill_run. destruct (o_wr o) eqn:Ew; cbn [negb]; [|intros [= <- <-]; left; eauto].
    destruct (shp (odat x)); [|intros [= <- <-]; left; eauto]. destruct (dat (odat x)) as [|y [|z l]]; try (intros [= <- <-]; left; eauto; fail).
    assert (W : mutates h (write h o (repeat y (length (o_pos o)))) i).
    { exists o, (o_pos o), (map (cast_to (o_dt o)) (repeat y (length (o_pos o)))), None. repeat split; auto. apply incl_refl. }
    assert (WD : forall d, mutates h (set_dims (write h o (repeat y (length (o_pos o)))) i d) i).
    { intros d. exists o, (o_pos o), (map (cast_to (o_dt o)) (repeat y (length (o_pos o)))), (Some d). repeat split; auto. apply incl_refl. }
    destruct (o_kind o), x; intros [= <- <-]; right; auto.
  Qed.
  Lemma red_out_cases h op axis o i out h' r : nth_error (objs h) i = Some out -> red_out_run h op axis o i out = (h', r) ->
    (h' = h /\ exists e, r = Err e) \/ (mutates h h' i /\ r = Ok i).
  Proof.
    intros Ho. unfold red_out_run. destruct (is_quantity _); [|intros [= <- <-]; left; eauto].
    destruct (q_red op axis (obj_qty h o)) as [q|e]; [|intros [= <- <-]; left; eauto].
    destruct (o_wr out) eqn:Ew; cbn [negb]; [|intros [= <- <-]; left; eauto].
    assert (X : (if list_eq_dec Nat.eq_dec (shp (mag q)) (o_shp out)
                   then (set_dims (write h out (dat (mag q))) i (qdim q), Ok i)
                   else (h, Err ValueError)) = (h', r) -> (h' = h /\ exists e, r = Err e) \/ (mutates h h' i /\ r = Ok i)).
    { destruct (list_eq_dec _ _ _); intros [= <- <-]; [right|left; eauto]. split; auto.
      exists out, (o_pos out), (map (cast_to (o_dt out)) (dat (mag q))), (Some (qdim q)). repeat split; auto. apply incl_refl. }
    destruct (match op with RedMean | RedStd _ => KFloat | _ => o_dt o end), (o_dt out); auto; intros [= <- <-]; left; eauto.
  Qed.

  (** Keys given to item assignment select elements of the array. *)
  Definition op_ok (x : op A) : Prop :=
    match x with
    | OSetItem _ sel _ => selection_ok sel
    | OPure (PItem _ sel) => selection_ok sel
    | _ => True
    end.

  (** ** Well-formed heaps *)
  Definition obj_ok (h : heap A) (i : nat) (o : obj) : Prop :=
    o_buf o < length (bufs h) /\
    Forall (fun p => p < length (buffer h (o_buf o))) (o_pos o) /\ NoDup (o_pos o) /\
    length (o_pos o) = prodn (o_shp o) /\
    (forall b, o_base o = BObj b -> b < i).
  Definition units_ok (h : heap A) : Prop :=
    forall i o u, nth_error (objs h) i = Some o -> o_kind o = KUnit u ->
      contents h o = [n1] /\ o_shp o = [] /\
      forall j o', nth_error (objs h) j = Some o' -> o_buf o' = o_buf o -> o_wr o' = false.
  Definition heap_ok (h : heap A) : Prop :=
    (forall i o, nth_error (objs h) i = Some o -> obj_ok h i o) /\ units_ok h.

  Lemma empty_ok : heap_ok (empty_heap (A := A)).
  Proof. split; [intros [|i] o H|intros [|i] o u H]; discriminate. Qed.

  (** Every operation either leaves the heap as it is, or adds objects, or writes
      through its target. *)
  Theorem step_cases h x h' r : heap_ok h -> op_ok x -> step lookup E v h x = (h', r) ->
    (h' = h) \/
    (target x = None /\ extends_heap h h' /\ exists n, r = Ok n) \/
    (exists i, target x = Some i /\ mutates h h' i /\ r = Ok i).
  Proof.
    intros HO OK. destruct x; cbn [step target]; unfold with_obj, with_arg;
      repeat match goal with
        | |- context [match nth_error (objs h) ?i with _ => _ end] => let H := fresh "Ho" in destruct (nth_error (objs h) i) as [?o|] eqn:H; [|intros [= <- <-]; auto]
        end.
    - destruct (Nat.eqb _ _); [|intros [= <- <-]; auto]. intros H. right; left. split; [auto|exact (alloc_case _ _ _ _ _ _ _ _ _ H)].
    - intros H. right; left. split; [auto|exact (alloc_case _ _ _ _ _ _ _ _ _ H)].
    - assert (Q : forall k, o_kind o = k -> k <> KArr ->
        match truthy u with
         | Err e => (h, Err e)
         | Ok true => match validate_dimensionality lookup u with
             | Err e => (h, Err e)
             | Ok d => match rescale_to E (obj_qty h o) d with
                       | Err e => (h, Err e)
                       | Ok r => if dim_eqb (obj_dims o) d then fresh_then_view h r BNone (o_dt o) else fresh_then_view h r BHidden KFloat
                       end
             end
         | Ok false => match k with
             | KUnit _ => alloc h KQty (obj_arr h o) (obj_dims o) BHidden true KFloat
             | _ => view_of h j o KQty (obj_dims o) (o_shp o) (whole o)
             end
         end = (h', r) -> h' = h \/ (None = @None nat /\ extends_heap h h' /\ exists n, r = Ok n) \/ (exists i, None = Some i /\ mutates h h' i /\ r = Ok i)).
      { intros k Hk HA. destruct (truthy u) as [[]|e]; [| |intros [= <- <-]; auto].
        - destruct (validate_dimensionality lookup u) as [d|e]; [|intros [= <- <-]; auto].
          destruct (rescale_to E (obj_qty h o) d) as [q|e]; [|intros [= <- <-]; auto].
          destruct (dim_eqb (obj_dims o) d); intros H; right; left; (split; [auto|]);
            destruct (fresh_then_view_ext h q BNone (o_dt o)) as [X1 X2], (fresh_then_view_ext h q BHidden KFloat) as [Y1 Y2];
            [rewrite H in X1, X2|rewrite H in Y1, Y2]; split; eauto.
        - destruct k; [congruence| |]; intros H; right; left; (split; [auto|]).
          + exact (view_case _ _ _ _ _ _ _ _ _ H).
          + exact (alloc_case _ _ _ _ _ _ _ _ _ H). }
      destruct (o_kind o) eqn:Ek; [|apply (Q KQty); congruence|apply (Q (KUnit u0)); congruence].
      destruct (validate_dimensionality lookup u) as [d|e]; [|intros [= <- <-]; auto]. intros H; right; left. split; auto. exact (view_case _ _ _ _ _ _ _ _ _ H).
    - intros H. right; left. split; auto. exact (view_case _ _ _ _ _ _ _ _ _ H).
    - destruct (sel (o_shp o)) as [[s ps]|e]; [|intros [= <- <-]; auto]. destruct (_ && _ && _); [|intros [= <- <-]; auto].
      intros H; right; left. split; auto. exact (view_case _ _ _ _ _ _ _ _ _ H).
    - destruct (o_kind o); intros H; right; left; (split; [auto|]); exact (alloc_case _ _ _ _ _ _ _ _ _ H).
    - destruct (is_quantity (o_kind o)).
      + assert (X : nth_error (objs (fst (view_of h j o KArr [] (o_shp o) (whole o)))) (length (objs h)) =
           Some (Obj KArr (o_buf o) (map (fun p => nth p (o_pos o) 0) (whole o)) (o_shp o)
                   (collapse (S (length (objs h))) (objs h) KArr j) (o_wr o) (o_dt o) [])).
        { cbn. rewrite nth_error_app2, Nat.sub_diag by lia. reflexivity. }
        rewrite X. intros H. right; left. split; auto. destruct (view_case _ _ _ _ _ _ _ _ _ H) as [X1 X2]. split; auto.
        eapply extends_trans; [apply view_of_ext|exact X1].
      + intros H; right; left; (split; [auto|]); exact (alloc_case _ _ _ _ _ _ _ _ _ H).
    - destruct (pure_run lookup E h p) as [[q k]|e]; [|intros [= <- <-]; auto]. intros H; right; left. split; auto. exact (alloc_case _ _ _ _ _ _ _ _ _ H).
    - intros H. destruct (set_units_cases _ _ _ _ _ _ Ho H) as [->|[M ->]]; auto. right; right. eauto.
    - destruct (harg_op h x) as [[y k]|e]; [|intros [= <- <-]; auto]. intros H.
      destruct (iop_run_cases _ _ _ _ _ _ _ _ Ho H) as [[-> _]|[M ->]]; auto. right; right; eauto.
    - intros H. destruct (ipow_run_cases _ _ _ _ _ _ Ho H) as [[-> _]|[M ->]]; auto. right; right; eauto.
    - destruct (harg_op h x) as [[y k]|e]; [|intros [= <- <-]; auto]. intros H.
      assert (S : forall s ps, sel (o_shp o) = Ok (s, ps) -> Forall (fun p => p < length (o_pos o)) ps).
      { intros s ps Hs. cbn in OK. destruct (OK _ _ _ Hs) as (_ & F & _).
        destruct (proj1 HO _ _ Ho) as (_ & _ & _ & L & _). now rewrite L. }
      destruct (setitem_cases _ _ _ _ _ _ _ Ho S H) as [[-> _]|[M ->]]; auto. right; right; eauto.
    - destruct (harg_op h x) as [[y k]|e]; [|intros [= <- <-]; auto]. intros H.
      destruct (fill_cases _ _ _ _ _ _ Ho H) as [[-> _]|[M ->]]; auto. right; right; eauto.
    - destruct (is_quantity (o_kind o)); [|intros [= <- <-]; auto].
      destruct (nth_error (objs h) i) as [out|] eqn:Ei; [|intros [= <- <-]; auto].
      intros H. destruct (red_out_cases _ _ _ _ _ _ _ _ Ei H) as [[-> _]|[M ->]]; auto. right; right; eauto.
  Qed.

  (** ** Consequences *)
  Lemma objs_set_dims (h : heap A) i d k :
    nth_error (objs (set_dims h i d)) k =
    if Nat.eqb i k then option_map (fun o => with_dims o d) (nth_error (objs h) k) else nth_error (objs h) k.
  Proof.
    unfold set_dims. destruct (nth_error (objs h) i) as [o|] eqn:Eo; destruct (Nat.eqb_spec i k) as [->|Hne]; cbn; auto.
    - rewrite Eo. cbn. apply update_same. apply nth_error_Some. congruence.
    - now apply update_other.
    - now rewrite Eo.
  Qed.
  Lemma mutates_objs h h' i k : mutates h h' i ->
    match nth_error (objs h) k with
    | None => nth_error (objs h') k = None
    | Some o => exists o', nth_error (objs h') k = Some o' /\ same_but_dims o o' /\ (k <> i -> o' = o)
    end.
  Proof.
    intros (o & ps & xs & od & Ho & Hw & Hi & ->).
    assert (SB : forall o, same_but_dims o o) by (intros [? ? ? ? ? ? ? ?]; reflexivity).
    destruct od as [d|].
    - rewrite objs_set_dims. cbn [objs write_at]. destruct (Nat.eqb_spec i k) as [->|Hne].
      + rewrite Ho. cbn. eexists. split; [reflexivity|]. split; [reflexivity|]. congruence.
      + destruct (nth_error (objs h) k); auto. eexists. split; [reflexivity|]. split; auto.
    - cbn [objs write_at]. destruct (nth_error (objs h) k); auto. eexists. split; [reflexivity|]. split; auto.
  Qed.
  Lemma mutates_bufs h h' i o : heap_ok h -> mutates h h' i -> nth_error (objs h) i = Some o ->
    o_wr o = true /\ length (bufs h') = length (bufs h) /\
    (forall b, length (buffer h' b) = length (buffer h b)) /\
    (forall b, b <> o_buf o -> buffer h' b = buffer h b) /\
    (forall b p, ~ covers o b p -> nth_error (buffer h' b) p = nth_error (buffer h b) p).
  Proof.
    intros HO (o' & ps & xs & od & Ho' & Hw & Hi & Eh) Ho. rewrite Ho' in Ho. injection Ho as ->.
    destruct (proj1 HO _ _ Ho') as (Lb & _).
    assert (BB : forall b, buffer h' b = buffer (write_at h (o_buf o) ps xs) b).
    { intros b. rewrite Eh. destruct od; auto. apply buffer_set_dims. }
    assert (LB : length (bufs h') = length (bufs (write_at h (o_buf o) ps xs))).
    { rewrite Eh. destruct od; auto. now rewrite bufs_set_dims. }
    split; auto. split; [rewrite LB; cbn; apply update_length|].
    split; [|split]; intros b; [|intros Hne|intros p Hc]; rewrite BB, buffer_write_at by auto.
    - destruct (Nat.eqb_spec (o_buf o) b) as [<-|]; auto. apply scatter_length.
    - destruct (Nat.eqb_spec (o_buf o) b); congruence.
    - destruct (Nat.eqb_spec (o_buf o) b) as [<-|]; auto. apply scatter_other. intros X. apply Hc. split; auto.
  Qed.
  Lemma extends_objs h h' k o : extends_heap h h' -> nth_error (objs h) k = Some o -> nth_error (objs h') k = Some o.
  Proof.
    intros (bs & os & _ & ->) H. rewrite nth_error_app1; auto. apply nth_error_Some. congruence.
  Qed.
  Lemma extends_buffer h h' b : extends_heap h h' -> b < length (bufs h) -> buffer h' b = buffer h b.
  Proof. intros (bs & os & Eb & _) H. unfold buffer. rewrite Eb, app_nth1; auto. Qed.

  (** ** Well-formedness is preserved *)
  Lemma obj_ok_ext (h h' : heap A) i o : length (bufs h) <= length (bufs h') ->
    (o_buf o < length (bufs h) -> length (buffer h' (o_buf o)) = length (buffer h (o_buf o))) ->
    obj_ok h i o -> obj_ok h' i o.
  Proof.
    intros L B (H1 & H2 & H3 & H4 & H5). split; [lia|]. split; [|auto]. rewrite B by auto. exact H2.
  Qed.
  Lemma mutates_ok h h' i : heap_ok h -> mutates h h' i -> heap_ok h'.
  Proof.
    intros HO M. destruct M as (o & ps & xs & od & Ho & Hw & Hi & Eh) eqn:EM. clear EM. 
    pose proof (mutates_bufs h h' i o HO M Ho) as (_ & LB & Lb & Bo & _).
    assert (BK : forall k o', nth_error (objs h') k = Some o' -> exists o0, nth_error (objs h) k = Some o0 /\ o' = with_dims o0 (o_dims o')).
    { intros k o' Hk. pose proof (mutates_objs h h' i k M) as X. destruct (nth_error (objs h) k) as [o0|].
      - destruct X as (o1 & X1 & X2 & _). exists o0. split; auto. rewrite X1 in Hk. injection Hk as <-. exact X2.
      - congruence. }
    split.
    - intros k o' Hk. destruct (BK _ _ Hk) as (o0 & H0 & ->). pose proof (proj1 HO _ _ H0) as K.
      apply (obj_ok_ext h h') in K; [exact K|lia|auto].
    - intros k o' u Hk Ku. destruct (BK _ _ Hk) as (o0 & H0 & E0). rewrite E0 in Ku. cbn in Ku.
      destruct (proj2 HO _ _ _ H0 Ku) as (C1 & C2 & C3). rewrite E0. split; [|split].
      + unfold contents in *. cbn. rewrite Bo; auto. intros X. specialize (C3 _ _ Ho (eq_sym X)). congruence.
      + exact C2.
      + intros j oj Hj Hb. destruct (BK _ _ Hj) as (oj0 & Hj0 & Ej). rewrite Ej in Hb |- *. cbn in *. apply (C3 _ _ Hj0 Hb).
  Qed.

  Lemma collapse_lt os k : (forall i o, nth_error os i = Some o -> forall b, o_base o = BObj b -> b < i) ->
    forall fuel j b, collapse fuel os k j = BObj b -> b <= j.
  Proof.
    intros H. induction fuel as [|f IH]; intros j b; cbn; [intros [= ->]; lia|].
    destruct (nth_error os j) as [o|] eqn:Ej; [|intros [= ->]; lia].
    destruct (o_base o) as [| |b'] eqn:Eb; [intros [= ->]; lia|destruct k; [discriminate| |]; intros [= ->]; lia|].
    destruct (nth_error os b') as [ob|]; [|intros [= ->]; lia]. destruct (same_type _ _); [|intros [= ->]; lia].
    intros X. apply IH in X. specialize (H _ _ Ej _ Eb). lia.
  Qed.
  (** The base of a view of a quantity is a quantity. *)
  Lemma collapse_quantity os : forall fuel j o, nth_error os j = Some o -> is_quantity (o_kind o) = true ->
    exists b ob, collapse fuel os KQty j = BObj b /\ nth_error os b = Some ob /\ is_quantity (o_kind ob) = true.
  Proof.
    induction fuel as [|f IH]; intros j o Hj Hq; cbn; [eauto|]. rewrite Hj. destruct (o_base o) as [| |b]; eauto.
    destruct (nth_error os b) as [ob|] eqn:Eb; eauto. destruct (same_type (o_kind ob) KQty) eqn:ES; eauto.
    apply (IH b ob Eb). destruct (o_kind ob); try discriminate; auto.
  Qed.

  Lemma alloc_ok (h : heap A) k a d b wr dt : heap_ok h -> awf a ->
    (forall j, b <> BObj j) ->
    (forall u, k = KUnit u -> a = scalar n1 /\ wr = false) ->
    heap_ok (fst (alloc h k a d b wr dt)).
  Proof.
    intros HO W Hb HU. cbn [alloc fst].
    set (o := Obj k (length (bufs h)) (seq 0 (length (dat a))) (shp a) b wr dt d).
    assert (BN : forall c, c < length (bufs h) -> buffer (Heap (bufs h ++ [dat a]) (objs h ++ [o])) c = buffer h c).
    { intros c Hc. unfold buffer. cbn. now rewrite app_nth1. }
    assert (BL : buffer (Heap (bufs h ++ [dat a]) (objs h ++ [o])) (length (bufs h)) = dat a).
    { unfold buffer. cbn. rewrite app_nth2, Nat.sub_diag by lia. reflexivity. }
    assert (Sp : forall i oi, nth_error (objs h ++ [o]) i = Some oi ->
      (i < length (objs h) /\ nth_error (objs h) i = Some oi) \/ (i = length (objs h) /\ oi = o)).
    { intros i oi Hi. destruct (Nat.lt_ge_cases i (length (objs h))) as [X|X].
      - left. rewrite nth_error_app1 in Hi; auto.
      - right. rewrite nth_error_app2 in Hi by auto. destruct (i - length (objs h)) as [|m] eqn:Em; cbn in Hi.
        + injection Hi as <-. split; auto. lia.
        + destruct m; discriminate. }
    split.
    - intros i oi Hi. destruct (Sp _ _ Hi) as [[X1 X2]|[-> ->]].
      + apply (obj_ok_ext h); [cbn; rewrite app_length; lia| |exact (proj1 HO _ _ X2)]. intros Hc. now rewrite BN.
      + split; [cbn; rewrite app_length; cbn; lia|]. cbn [o o_buf o_pos o_shp o_base]. rewrite BL.
        split; [apply Forall_forall; intros p Hp; apply in_seq in Hp; lia|]. split; [apply seq_NoDup|].
        split; [rewrite seq_length; exact W|]. intros j Hj. destruct (Hb _ Hj).
    - intros i oi u Hi Hu. destruct (Sp _ _ Hi) as [[X1 X2]|[-> ->]].
      + destruct (proj2 HO _ _ _ X2 Hu) as (C1 & C2 & C3). destruct (proj1 HO _ _ X2) as (L & _).
        split; [unfold contents; now rewrite BN|]. split; auto. intros j oj Hj Eb. destruct (Sp _ _ Hj) as [[Y1 Y2]|[-> ->]]; eauto.
        cbn in Eb. lia.
      + cbn in Hu. destruct (HU _ Hu) as [-> ->]. split; [|split; auto].
        * unfold contents. cbn [o o_buf o_pos]. rewrite BL. reflexivity.
        * intros j oj Hj Eb. destruct (Sp _ _ Hj) as [[Y1 Y2]|[-> ->]]; auto. cbn in Eb.
          destruct (proj1 HO _ _ Y2) as (L & _). lia.
  Qed.
  Lemma view_ok (h : heap A) j o k d s ps : heap_ok h -> nth_error (objs h) j = Some o -> (forall u, k <> KUnit u) ->
    length ps = prodn s -> Forall (fun p => p < length (o_pos o)) ps -> NoDup ps ->
    heap_ok (fst (view_of h j o k d s ps)).
  Proof.
    intros HO Hj HK L F ND. cbn [view_of add_obj fst].
    set (n := Obj k (o_buf o) (map (fun p => nth p (o_pos o) 0) ps) s (collapse (S (length (objs h))) (objs h) k j) (o_wr o) (o_dt o) d).
    assert (Sp : forall i oi, nth_error (objs h ++ [n]) i = Some oi ->
      (i < length (objs h) /\ nth_error (objs h) i = Some oi) \/ (i = length (objs h) /\ oi = n)).
    { intros i oi Hi. destruct (Nat.lt_ge_cases i (length (objs h))) as [X|X].
      - left. rewrite nth_error_app1 in Hi; auto.
      - right. rewrite nth_error_app2 in Hi by auto. destruct (i - length (objs h)) as [|m] eqn:Em; cbn in Hi.
        + injection Hi as <-. split; auto. lia.
        + destruct m; discriminate. }
    destruct (proj1 HO _ _ Hj) as (Lb & FP & NDP & LP & _).
    assert (BK : forall c, buffer (Heap (bufs h) (objs h ++ [n])) c = buffer h c) by reflexivity.
    split.
    - intros i oi Hi. destruct (Sp _ _ Hi) as [[X1 X2]|[-> ->]].
      + apply (obj_ok_ext h); [cbn; lia|reflexivity|exact (proj1 HO _ _ X2)].
      + split; [exact Lb|]. cbn [n o_buf o_pos o_shp o_base]. rewrite BK. rewrite Forall_forall in *.
        split; [intros q Hq; apply in_map_iff in Hq; destruct Hq as (p & <- & Hp); apply FP; apply nth_In; auto|].
        split; [|split].
        * clear - ND F NDP. assert (G : forall p q, In p ps -> In q ps -> nth p (o_pos o) 0 = nth q (o_pos o) 0 -> p = q).
          { intros p q Hp Hq. apply NoDup_nth; auto. }
          clear NDP F. induction ps as [|p ps IH]; cbn; constructor; inversion ND; subst.
          -- intros X. apply in_map_iff in X. destruct X as (q & E0 & Hq). assert (p = q) by (apply G; cbn; auto). congruence.
          -- apply IH; auto. intros x y Hx Hy. apply G; cbn; auto.
        * now rewrite map_length.
        * intros b Hb. apply collapse_lt in Hb.
          -- assert (j < length (objs h)) by (apply nth_error_Some; congruence). lia.
          -- intros i o0 Hi0. apply (proj1 HO _ _ Hi0).
    - intros i oi u Hi Hu. destruct (Sp _ _ Hi) as [[X1 X2]|[-> ->]].
      + destruct (proj2 HO _ _ _ X2 Hu) as (C1 & C2 & C3). split; [exact C1|]. split; auto. intros m om Hm Eb. destruct (Sp _ _ Hm) as [[Y1 Y2]|[-> ->]]; [eauto|]. cbn in *. exact (C3 _ _ Hj Eb).
      + cbn in Hu. destruct (HK _ Hu).
  Qed.
End Facts.

Section Preservation.
  Context {A : Type} {N : Num A}.
  Variable lookup : string -> res (qty A).
  Variable E : uenv A.
  Variable v : npv.

  Lemma awf_rescale_to (q : qty A) d r : awf (mag q) -> rescale_to E q d = Ok r -> awf (mag r).
  Proof.
    intros W. unfold rescale_to. destruct (dim_eqb _ _); [intros [= <-]; auto|].
    destruct (conv_factor E _ _) as [cf|e]; [intros [= <-]; now apply awf_amap|]. destruct e; discriminate.
  Qed.
  Lemma awf_scale_other (q : qty A) x r : awf (odat x) -> scale_other E q x = Ok r -> awf (mag r).
  Proof.
    intros W. unfold scale_other. assert (X : awf (mag (as_q x))) by (destruct x; exact W).
    destruct (dim_eqb _ _); [intros [= <-]; auto|]. now apply awf_rescale_to.
  Qed.
  Lemma awf_apply2 {C} (g : A -> A -> C) r (o1 o2 : operand A) q : awf (odat o1) -> awf (odat o2) -> apply2 g r o1 o2 = Ok q -> awf (mag q).
  Proof.
    intros W1 W2. unfold apply2. destruct (amap2 g (odat o1) (odat o2)) as [m|e] eqn:Em; [|discriminate]. cbn.
    destruct (pd2 r o1 o2) as [d|e]; [|discriminate]. cbn. intros [= <-]. exact (awf_amap2 g (a:=odat o1) (b:=odat o2) W1 W2 Em).
  Qed.
  Lemma awf_obj (h : heap A) i o : heap_ok h -> nth_error (objs h) i = Some o -> awf (obj_arr h o).
  Proof.
    intros HO Ho. destruct (proj1 HO _ _ Ho) as (_ & _ & _ & L & _). unfold awf, obj_arr, contents. cbn. now rewrite gather_length.
  Qed.
  Lemma awf_harg (h : heap A) x y k : heap_ok h -> harg_op h x = Ok (y, k) -> awf (odat y).
  Proof.
    intros HO. destruct x as [j|z k']; cbn.
    - destruct (nth_error (objs h) j) as [o|] eqn:Ej; [|discriminate]. intros [= <- <-]. unfold obj_op.
      destruct (is_quantity _); cbn; eapply awf_obj; eauto.
    - intros [= <- <-]. reflexivity.
  Qed.
  Lemma awf_get_qty (h : heap A) i q : heap_ok h -> get_qty h i = Ok q -> awf (mag q).
  Proof.
    intros HO. unfold get_qty, get_obj. destruct (nth_error (objs h) i) as [o|] eqn:Ej; [|discriminate]. cbn.
    destruct (is_quantity _); [|discriminate]. intros [= <-]. eapply awf_obj; eauto.
  Qed.
  Lemma awf_pure (h : heap A) p r k : heap_ok h -> op_ok (OPure p) -> pure_run lookup E h p = Ok (r, k) -> awf (mag r).
  Proof.
    intros HO OK.
    assert (B : forall i x (f : qty A -> operand A -> res (qty A)),
      (forall q y r, awf (mag q) -> awf (odat y) -> f q y = Ok r -> awf (mag r)) ->
      (q <- get_qty h i ;; '(y, k) <- harg_op h x ;; rmap (fun r => (r, KFloat)) (f q y)) = Ok (r, k) -> awf (mag r)).
    { intros i x f Hf. destruct (get_qty h i) as [q|e] eqn:Eq; [|discriminate]. cbn.
      destruct (harg_op h x) as [[y k']|e] eqn:Ex; [|discriminate]. cbn. destruct (f q y) as [r'|e] eqn:Ef; [|discriminate].
      cbn. intros [= <- <-]. exact (Hf q y r' (awf_get_qty _ _ _ HO Eq) (awf_harg _ _ _ _ HO Ex) Ef). }
    assert (U : forall i (f : qty A -> res (qty A)), (forall q r, awf (mag q) -> f q = Ok r -> awf (mag r)) ->
      (q <- get_qty h i ;; rmap (fun r => (r, KFloat)) (f q)) = Ok (r, k) -> awf (mag r)).
    { intros i f Hf. destruct (get_qty h i) as [q|e] eqn:Eq; [|discriminate]. cbn. destruct (f q) as [r'|e] eqn:Ef; [|discriminate].
      cbn. intros [= <- <-]. exact (Hf q r' (awf_get_qty _ _ _ HO Eq) Ef). }
    assert (SC : forall (g : A -> A -> A) (q : qty A) (y : operand A) (r' : qty A), awf (mag q) -> awf (odat y) ->
      (o <- scale_other E q y ;; apply2 g RUniform (OQ q) (OQ o)) = Ok r' -> awf (mag r')).
    { intros g q y r' W1 W2. destruct (scale_other E q y) as [o|e] eqn:Es; [|discriminate]. cbn.
      apply awf_apply2; auto. cbn. exact (awf_scale_other q y o W2 Es). }
    destruct p; cbn [pure_run].
    - apply (B i x (fun q y => q_add E q y)). exact (SC nadd).
    - apply (B i x (fun q y => q_sub E q y)). exact (SC nsub).
    - apply (B i x (fun q y => q_mul (OQ q) y)). intros q y r' W1 W2. exact (awf_apply2 nmul RMul (OQ q) y r' W1 W2).
    - apply (B i x (fun q y => q_div (OQ q) y)). intros q y r' W1 W2. exact (awf_apply2 ndiv RDiv (OQ q) y r' W1 W2).
    - apply (U i (q_neg E)). intros q r' W. unfold q_neg, apply1. cbn. intros [= <-]. now apply awf_amap.
    - apply (U i (fun q => q_pow q (OArr (scalar p)))). intros q r' W. unfold q_pow, apply_power.
      cbn -[amap2]. destruct (amap2 npow (mag q) (scalar p)) as [m|e] eqn:Em; [|discriminate]. cbn. intros [= <-].
      exact (awf_amap2 npow (a:=mag q) (b:=scalar p) W eq_refl Em).
    - apply (U i (fun q => rescale lookup E q u)). intros q r' W. unfold rescale. destruct (validate_dimensionality lookup u) as [d|e]; [|discriminate].
      cbn. now apply awf_rescale_to.
    - apply (U i (fun q => q_red op axis q)). intros q r' W. unfold q_red. destruct (norm_axis _ _) as [ax|e]; [|discriminate]. cbn.
      destruct (areduce _ _ _) as [m|e] eqn:Em; [|discriminate]. cbn. unfold check_lanes. destruct (_ && _ && _); [discriminate|]. cbn.
      intros [= <-]. exact (awf_areduce _ _ W Em).
    - unfold get_qty, get_obj. destruct (nth_error (objs h) i) as [o|] eqn:Eo; [|discriminate]. cbn.
      destruct (is_quantity _); [|discriminate]. cbn. unfold q_getitem. cbn.
      destruct (sel (o_shp o)) as [[s ps]|e] eqn:Es; [|discriminate]. cbn. intros [= <- <-]. cbn.
      unfold awf. cbn. rewrite gather_length. apply (OK _ _ _ Es).
  Qed.
  Lemma nodupb_NoDup l : nodupb l = true -> NoDup l.
  Proof.
    induction l as [|x l IH]; cbn; constructor; apply andb_prop in H; destruct H as [H1 H2]; auto.
    intros X. apply negb_true_iff in H1. assert (Y : existsb (Nat.eqb x) l = true) by (apply existsb_exists; exists x; split; auto; apply Nat.eqb_refl). congruence.
  Qed.
  Lemma whole_ok (h : heap A) i o : heap_ok h -> nth_error (objs h) i = Some o ->
    length (whole o) = prodn (o_shp o) /\ Forall (fun p => p < length (o_pos o)) (whole o) /\ NoDup (whole o).
  Proof.
    intros HO Ho. destruct (proj1 HO _ _ Ho) as (_ & _ & _ & L & _). unfold whole. rewrite seq_length. split; auto.
    split; [apply Forall_forall; intros p Hp; apply in_seq in Hp; lia|apply seq_NoDup].
  Qed.
  Lemma view_whole_ok (h : heap A) j o k d : heap_ok h -> nth_error (objs h) j = Some o -> (forall u, k <> KUnit u) ->
    heap_ok (fst (view_of h j o k d (o_shp o) (whole o))).
  Proof. intros HO Hj Hk. destruct (whole_ok _ _ _ HO Hj) as (H1 & H2 & H3). now apply view_ok. Qed.
  Lemma fresh_then_view_ok (h : heap A) r b dt : heap_ok h -> awf (mag r) -> (forall j, b <> BObj j) -> heap_ok (fst (fresh_then_view h r b dt)).
  Proof.
    intros HO W Hb. unfold fresh_then_view, with_obj. rewrite nth_alloc. 
    assert (K : heap_ok (fst (alloc h KQty (mag r) (qdim r) b true dt))) by (apply alloc_ok; auto; discriminate).
    apply (view_whole_ok _ _ _ KQty (qdim r) K (nth_alloc _ _ _ _ _ _ _)). discriminate.
  Qed.

  Theorem step_ok h x : heap_ok h -> op_ok x -> heap_ok (fst (step lookup E v h x)).
  Proof.
    intros HO OK. destruct (step lookup E v h x) as [h' r] eqn:Es. cbn [fst].
    destruct (step_cases lookup E v h x h' r HO OK Es) as [->|[(T & _ & _)|(i & T & M & _)]]; auto; [|eapply mutates_ok; eauto].
    destruct x; cbn [target] in T; try discriminate; cbn [step] in Es; unfold with_obj in Es;
      try (destruct (nth_error (objs h) j) as [o|] eqn:Ho; [|injection Es as <- _; exact HO]).
    - destruct (Nat.eqb_spec (length (dat a)) (prodn (shp a))); [|injection Es as <- _; exact HO].
      change h' with (fst (h', r)). rewrite <- Es. apply alloc_ok; auto; try discriminate.
    - change h' with (fst (h', r)). rewrite <- Es. apply alloc_ok; auto; try discriminate. reflexivity.
    - assert (W : awf (obj_arr h o)) by (eapply awf_obj; eauto).
      assert (Q : forall k, o_kind o = k -> k <> KArr ->
        match truthy u with
         | Err e => (h, Err e)
         | Ok true => match validate_dimensionality lookup u with
             | Err e => (h, Err e)
             | Ok d => match rescale_to E (obj_qty h o) d with
                       | Err e => (h, Err e)
                       | Ok r => if dim_eqb (obj_dims o) d then fresh_then_view h r BNone (o_dt o) else fresh_then_view h r BHidden KFloat
                       end
             end
         | Ok false => match k with
             | KUnit _ => alloc h KQty (obj_arr h o) (obj_dims o) BHidden true KFloat
             | _ => view_of h j o KQty (obj_dims o) (o_shp o) (whole o)
             end
         end = (h', r) -> heap_ok h').
      { intros k Hk HA. destruct (truthy u) as [[]|e]; [| |intros [= <- _]; exact HO].
        - destruct (validate_dimensionality lookup u) as [d|e]; [|intros [= <- _]; exact HO].
          destruct (rescale_to E (obj_qty h o) d) as [q|e] eqn:Er; [|intros [= <- _]; exact HO].
          assert (Wq : awf (mag q)) by (eapply awf_rescale_to; [|exact Er]; exact W).
          intros H. change h' with (fst (h', r)). rewrite <- H.
          destruct (dim_eqb (obj_dims o) d); apply fresh_then_view_ok; auto; discriminate.
        - destruct k; [congruence| |]; intros H; change h' with (fst (h', r)); rewrite <- H.
          + apply view_whole_ok; auto. discriminate.
          + apply alloc_ok; auto; discriminate. }
      destruct (o_kind o) eqn:Ek; [|apply (Q KQty); congruence|apply (Q (KUnit u0)); congruence].
      destruct (validate_dimensionality lookup u) as [d|e]; [|injection Es as <- _; exact HO].
      change h' with (fst (h', r)); rewrite <- Es. apply view_whole_ok; auto. discriminate.
    - change h' with (fst (h', r)); rewrite <- Es. apply view_whole_ok; auto. discriminate.
    - destruct (sel (o_shp o)) as [[s ps]|e]; [|injection Es as <- _; exact HO].
      destruct (Nat.eqb (length ps) (prodn s) && forallb (fun p => Nat.ltb p (length (o_pos o))) ps && nodupb ps) eqn:Ec; [|injection Es as <- _; exact HO].
      apply andb_prop in Ec. destruct Ec as [Ec E3]. apply andb_prop in Ec. destruct Ec as [E1 E2].
      change h' with (fst (h', r)); rewrite <- Es. apply view_ok; auto.
      + destruct (is_quantity _); discriminate.
      + now apply Nat.eqb_eq.
      + apply Forall_forall. intros p Hp. rewrite forallb_forall in E2. apply Nat.ltb_lt. auto.
      + now apply nodupb_NoDup.
    - assert (W : awf (obj_arr h o)) by (eapply awf_obj; eauto).
      destruct (o_kind o); change h' with (fst (h', r)); rewrite <- Es; apply alloc_ok; auto; try discriminate. reflexivity.
    - assert (W : awf (obj_arr h o)) by (eapply awf_obj; eauto).
      destruct (is_quantity (o_kind o)); [|change h' with (fst (h', r)); rewrite <- Es; apply alloc_ok; auto; discriminate].
      assert (K : heap_ok (fst (view_of h j o KArr [] (o_shp o) (whole o)))) by (apply view_whole_ok; auto; discriminate).
      destruct (nth_error (objs (fst (view_of h j o KArr [] (o_shp o) (whole o)))) (length (objs h))) as [m|] eqn:Em; [|injection Es as <- _; exact K].
      change h' with (fst (h', r)); rewrite <- Es. exact (view_whole_ok _ _ m KQty _ K Em ltac:(discriminate)).
    - destruct (pure_run lookup E h p) as [[q k]|e] eqn:Ep; [|injection Es as <- _; exact HO].
      change h' with (fst (h', r)); rewrite <- Es. apply alloc_ok; try discriminate; auto. exact (awf_pure h p q k HO OK Ep).
  Qed.
  Theorem run_ok h ops : heap_ok h -> Forall op_ok ops -> heap_ok (run lookup E v h ops).
  Proof.
    revert h. induction ops as [|x ops IH]; intros h HO F; cbn; auto. inversion F; subst. apply IH; auto. now apply step_ok.
  Qed.

  (** An operation that raises changes nothing. *)
  Theorem step_err h x h' e : heap_ok h -> op_ok x -> step lookup E v h x = (h', Err e) -> h' = h.
  Proof.
    intros HO OK H. destruct (step_cases lookup E v h x h' _ HO OK H) as [->|[(_ & _ & n & X)|(i & _ & _ & X)]]; auto; discriminate.
  Qed.

  (** What one operation leaves alone. *)
  Theorem step_frame h x h' r : heap_ok h -> op_ok x -> step lookup E v h x = (h', r) ->
    (forall k o, nth_error (objs h) k = Some o -> exists o', nth_error (objs h') k = Some o' /\ same_but_dims o o' /\
       (target x <> Some k -> o' = o)) /\
    (forall b p, b < length (bufs h) ->
       (forall i o, target x = Some i -> nth_error (objs h) i = Some o -> ~ (o_wr o = true /\ covers o b p)) ->
       nth_error (buffer h' b) p = nth_error (buffer h b) p).
  Proof.
    intros HO OK H.
    assert (SB : forall o, same_but_dims o o) by (intros [? ? ? ? ? ? ? ?]; reflexivity).
    destruct (step_cases lookup E v h x h' r HO OK H) as [->|[(T & X & _)|(i & T & M & _)]].
    - split; auto. intros k o Ho. eauto.
    - split.
      + intros k o Ho. exists o. split; [eapply extends_objs; eauto|auto].
      + intros b p Hb _. now rewrite (extends_buffer h h' b X Hb).
    - split.
      + intros k o Ho. pose proof (mutates_objs h h' i k M) as Y. rewrite Ho in Y. destruct Y as (o' & Y1 & Y2 & Y3).
        exists o'. split; auto. split; auto. rewrite T. intros Z. apply Y3. congruence.
      + intros b p Hb C. destruct M as (o & ps & xs & od & Ho & Hw & Hi & Eh).
        assert (M : mutates h h' i) by (exists o, ps, xs, od; auto).
        destruct (mutates_bufs h h' i o HO M Ho) as (_ & _ & _ & _ & F). apply F. intros X. apply (C i o T Ho). auto.
  Qed.
  Lemma step_buffer_length h x h' r b : heap_ok h -> op_ok x -> step lookup E v h x = (h', r) ->
    b < length (bufs h) -> length (buffer h' b) = length (buffer h b).
  Proof.
    intros HO OK H Hb. destruct (step_cases lookup E v h x h' r HO OK H) as [->|[(T & X & _)|(i & T & M & _)]]; auto.
    - now rewrite (extends_buffer h h' b X Hb).
    - destruct M as (o & ps & xs & od & Ho & Hw & Hi & Eh).
      assert (M : mutates h h' i) by (exists o, ps, xs, od; auto).
      apply (mutates_bufs h h' i o HO M Ho).
  Qed.
End Preservation.
