(** * Property C112: what a unit label can give. *)
From Coq Require Import Reals Lia.
From Verif Require Import Py Num Dim DimFacts Arr ArrFacts Units Spec UnitFacts Quant QuantFacts SpecApi ConvFacts Ufunc Ops OpsFacts Text Lex
  Registry RegFacts Examples Props_Ops Props_Registry SpecPickle HistFacts.

(** A scalar whose units are well formed (no unit twice, no zero exponent, never the
    dimensionless unit) and exist in [E]. *)
Definition proper {A} (E : uenv A) (q : qty A) : Prop :=
  (exists x, mag q = scalar x) /\ dims_ok (qdim q) /\ known E (qdim q).
(** Everything in the registry that is a quantity is proper. *)
Definition registry_proper {A} {N : Num A} (st : rstate A) : Prop :=
  forall s v q, ctx_get st s = Some v -> val_q st v = Some q -> proper (objs st) q.

Section Labels.
  Context {A : Type} {N : Num A}.
  Implicit Types (st : rstate A) (q r : qty A) (E K : uenv A).

  Lemma known_mul E d d' : dims_ok d -> dims_ok d' -> known E d -> known E d' -> known E (dim_mul d d').
  Proof. intros H1 H2 K1 K2 u Hu. apply In_dkeys_exp_mul in Hu; [|apply H1|apply H2]. destruct Hu; auto. Qed.
  Lemma known_div E d d' : dims_ok d -> dims_ok d' -> known E d -> known E d' -> known E (dim_div d d').
  Proof. intros H1 H2 K1 K2 u Hu. apply In_dkeys_exp_div in Hu; [|apply H1|apply H2]. destruct Hu; auto. Qed.
  Lemma known_pow E d p : known E d -> known E (dim_pow d p).
  Proof. intros K u Hu. apply In_dkeys_pow in Hu. auto. Qed.

  (** Operands: a proper quantity or a plain scalar. *)
  Definition oproper E (o : operand A) : Prop :=
    match o with OQ q => proper E q | OArr a => exists x, a = scalar x end.
  Lemma apply2_proper E (g : A -> A -> A) ru o1 o2 r : oproper E o1 -> oproper E o2 -> ru = RMul \/ ru = RDiv \/ ru = RUniform ->
    apply2 g ru o1 o2 = Ok r -> proper E r.
  Proof.
    intros H1 H2 Hr H. destruct (apply2_inv g ru o1 o2 r H) as [Hm Hd].
    assert (M : forall o, oproper E o -> exists x, odat o = scalar x) by (intros [q|a] Ho; [exact (proj1 Ho)|exact Ho]).
    destruct (M _ H1) as [x Ex]. destruct (M _ H2) as [y Ey]. rewrite Ex, Ey, amap2_scalar_l in Hm by reflexivity.
    assert (Hm' : mag r = scalar (g x y)) by (change (amap (g x) (scalar y)) with (scalar (g x y)) in Hm; congruence).
    split; [exists (g x y); exact Hm'|]. clear Hm'.
    clear Hm Ex Ey M H. destruct o1 as [q1|a1], o2 as [q2|a2]; destruct Hr as [->|[->| ->]]; cbn [pd2] in Hd; try discriminate Hd;
      repeat match type of Hd with context [if ?b then _ else _] => destruct b end; try discriminate Hd;
      (match type of Hd with Ok ?a = Ok ?b => assert (Hb : b = a) by congruence end); rewrite Hb; clear Hd Hb;
      cbn [oproper] in *; unfold proper in *;
      repeat match goal with H : _ /\ _ |- _ => destruct H end; split;
      auto using dims_ok_mul, dims_ok_div, dims_ok_pow, known_mul, known_div, known_pow.
  Qed.
  Lemma rescale_proper E K q d r : proper K q -> dims_ok d -> known K d -> rescale_to E q d = Ok r -> proper K r.
  Proof.
    intros (HM & HD & HK) Hd Kd H. unfold rescale_to in H.
    destruct (dim_eqb (qdim q) d); [injection H as <-; split; auto|].
    destruct (conv_factor E (qdim q) d) as [cf|e]; [|destruct e; discriminate H].
    assert (r = Qty (amap (fun x => nmul cf x) (mag q)) d) as -> by congruence.
    split; [|split; auto]. destruct HM as [x ->]. cbn [mag]. eexists. reflexivity.
  Qed.
  Lemma scale_other_proper E K q o r : proper K q -> oproper K o -> scale_other E q o = Ok r -> proper K r.
  Proof.
    intros Hq Ho H. assert (P : proper K (as_q o)).
    { destruct o as [p|a]; cbn [as_q oproper] in *; auto. split; [exact Ho|]. split; [exact dims_ok_nil|intros u []]. }
    unfold scale_other in H. destruct (dim_eqb _ _); [congruence|].
    exact (rescale_proper E K _ _ _ P (proj1 (proj2 Hq)) (proj2 (proj2 Hq)) H).
  Qed.
  Lemma q_bin_proper E K o x y r : oproper K x -> oproper K y -> q_bin E o x y = Ok r -> proper K r.
  Proof.
    intros Hx Hy H.
    assert (U : forall (g : A -> A -> A) q p, oproper K (OQ q) -> oproper K (OQ p) -> apply2 g RUniform (OQ q) (OQ p) = Ok r -> proper K r)
      by (intros g q p H1 H2; apply (apply2_proper K g RUniform); auto).
    assert (L : forall (g : A -> A -> A) q z, proper K q -> oproper K z ->
       (w <- scale_other E q z ;; apply2 g RUniform (OQ q) (OQ w)) = Ok r -> proper K r).
    { intros g q z Hq Hz G. destruct (scale_other E q z) as [w|] eqn:Ew; [|discriminate G]. cbn [bind] in G.
      apply (U g q w); auto. exact (scale_other_proper E K q z w Hq Hz Ew). }
    assert (L' : forall (g : A -> A -> A) q z, proper K q -> oproper K z ->
       (w <- scale_other E q z ;; apply2 g RUniform (OQ w) (OQ q)) = Ok r -> proper K r).
    { intros g q z Hq Hz G. destruct (scale_other E q z) as [w|] eqn:Ew; [|discriminate G]. cbn [bind] in G.
      apply (U g w q); auto. exact (scale_other_proper E K q z w Hq Hz Ew). }
    destruct o; cbn [q_bin] in H; try discriminate H;
      [destruct x as [q|a] | destruct x as [q|a] | | | | destruct x as [q|a] ].
    - exact (L nadd q y Hx Hy H).
    - destruct y as [p|b]; [|discriminate H]. exact (L' nadd p (OArr a) Hy Hx H).
    - exact (L nsub q y Hx Hy H).
    - destruct y as [p|b]; [|discriminate H]. exact (L' nsub p (OArr a) Hy Hx H).
    - exact (apply2_proper K nmul RMul x y r Hx Hy (or_introl eq_refl) H).
    - exact (apply2_proper K ndiv RDiv x y r Hx Hy (or_intror (or_introl eq_refl)) H).
    - exact (apply2_proper K nfdiv RDiv x y r Hx Hy (or_intror (or_introl eq_refl)) H).
    - exact (L nmod q y Hx Hy H).
    - destruct y as [p|b]; [|discriminate H]. exact (apply2_proper K nmod RUniform (OArr a) (OQ p) r Hx Hy (or_intror (or_intror eq_refl)) H).
  Qed.

  Lemma val_operand_proper st K v o : (forall q, val_q st v = Some q -> proper K q) -> val_operand st v = Some o -> oproper K o.
  Proof.
    intros H Ho. destruct v; cbn [val_operand] in Ho; try discriminate Ho.
    - injection Ho as <-. exists (nofQ (pval p)). reflexivity.
    - destruct (val_q st (VUnit i)) as [q|]; [|discriminate Ho]. cbn [option_map] in Ho. injection Ho as <-. exact (H q eq_refl).
    - destruct (val_q st (VQty q)) as [q'|]; [|discriminate Ho]. cbn [option_map] in Ho. injection Ho as <-. exact (H q' eq_refl).
  Qed.
  Lemma v_bin_proper st K o v w x : (forall q, val_q st v = Some q -> proper K q) -> (forall q, val_q st w = Some q -> proper K q) ->
    v_bin st o v w = Ok x -> forall q, val_q st x = Some q -> proper K q.
  Proof.
    intros Hv Hw H q Hq.
    assert (G : match o with
        | BPow => rmap VQty (q_power st v w)
        | _ => match val_operand st v, val_operand st w with
               | Some x, Some y => rmap VQty (q_bin (objs st) o x y)
               | _, _ => Err Unmodelled
               end
        end = Ok x \/ exists p, x = VNum p).
    { destruct v; try (left; exact H). destruct w; try (left; exact H). right. cbn [v_bin] in H.
      destruct (num_bin o p p0); [|discriminate H]. cbn [rmap] in H. injection H as <-. eauto. }
    clear H. destruct G as [H|[p ->]]; [|discriminate Hq].
    destruct o; try (destruct (val_operand st v) as [a|] eqn:Ea; [|discriminate H]; destruct (val_operand st w) as [b|] eqn:Eb; [|discriminate H];
      match type of H with rmap _ ?t = _ => destruct t as [r|] eqn:Er; [|discriminate H] end; cbn [rmap] in H; injection H as <-;
      cbn [val_q] in Hq; injection Hq as <-;
      exact (q_bin_proper _ _ _ _ _ _ (val_operand_proper st K v a Hv Ea) (val_operand_proper st K w b Hw Eb) Er)).
    unfold q_power in H. destruct (val_q st w) as [e|]; [destruct (dim_nonempty (qdim e)); discriminate H|].
    destruct (val_q st v) as [q0|] eqn:Eq; [|discriminate H]. destruct w; try discriminate H.
    unfold q_pow, apply_power in H. cbn [bind odat scalar dat uniform forallb] in H.
    destruct (Hv q0 eq_refl) as ([z Ez] & HD & HK). rewrite Ez in H.
    rewrite (@amap2_scalar_l A pynum A npow z (scalar p) eq_refl) in H. cbn [bind rmap] in H.
    assert (x = VQty (Qty (scalar (npow z p)) (dim_pow (qdim q0) p))) as -> by (change (amap (npow z) (scalar p)) with (scalar (npow z p)) in H; congruence). cbn [val_q] in Hq. injection Hq as <-.
    split; [eexists; reflexivity|]. cbn [qdim]. split; [now apply dims_ok_pow|now apply known_pow].
  Qed.
  Lemma v_un_proper st K o v x : (forall q, val_q st v = Some q -> proper K q) ->
    v_un st o v = Ok x -> forall q, val_q st x = Some q -> proper K q.
  Proof.
    intros Hv H q Hq.
    assert (G : match val_q st v with
           | Some q => match o with
                       | UPos => rmap VQty (q_pos (objs st) q)
                       | UNeg => rmap VQty (q_neg (objs st) q)
                       | UInv => Err TypeError
                       | UNot => match dat (mag q) with
                                 | [x] => Ok (VConst (if neqb x n0 then KTrue else KFalse))
                                 | _ => Err Unmodelled
                                 end
                       end
           | None => Err Unmodelled
           end = Ok x \/ val_q st x = None).
    { destruct v; try (left; exact H). right. cbn [v_un] in H. destruct o; try (injection H as <-; reflexivity).
      destruct p; [|discriminate H]. injection H as <-. reflexivity. }
    clear H. destruct G as [H|G]; [|congruence].
    destruct (val_q st v) as [q0|] eqn:E0; [|discriminate H]. destruct (Hv q0 eq_refl) as ([z Ez] & HD & HK).
    destruct o; try discriminate H.
    - cbn in H. injection H as <-. cbn [val_q] in Hq. injection Hq as <-. cbn [mag qdim]. split; [|split; auto].
      exists (nneg z). cbn [mag]. rewrite Ez. reflexivity.
    - destruct (dat (mag q0)) as [|a [|b l]]; try discriminate H. injection H as <-. discriminate Hq.
  Qed.
  Lemma eval_proper st : registry_proper st -> forall e v, eval st e = Ok v -> forall q, val_q st v = Some q -> proper (objs st) q.
  Proof.
    intros HR e. induction e as [s|p|c|o a IHa b IHb|o a IHa|k l]; intros v H q Hq; cbn [eval] in H; try discriminate H.
    - destruct (ctx_get st s) as [w|] eqn:Ec; [injection H as ->; exact (HR s v q Ec Hq)|].
      destruct (teqb s (T "__builtins__")); [|discriminate H]. injection H as <-. discriminate Hq.
    - injection H as <-. discriminate Hq.
    - injection H as <-. discriminate Hq.
    - destruct (eval st a) as [x|]; [|discriminate H]. destruct (eval st b) as [y|]; [|discriminate H]. cbn [bind] in H.
      exact (v_bin_proper st (objs st) o x y v (IHa x eq_refl) (IHb y eq_refl) H q Hq).
    - destruct (eval st a) as [x|]; [|discriminate H]. cbn [bind] in H. exact (v_un_proper st (objs st) o x v (IHa x eq_refl) H q Hq).
  Qed.
End Labels.

(** C112: whatever label (and whatever parser) - if it gives a quantity, that quantity
    is a scalar whose units are well formed and registered. *)
Theorem C112_label_values : forall A (N : Num A) parse (st : rstate A) label v q,
  registry_proper st -> get_item parse st label = Ok v -> val_q st v = Some q -> proper (objs st) q.
Proof.
  intros A N parse st label v q HR H Hq. unfold get_item, inner_get in H.
  destruct (parse (preprocess label)) as [tree|]; [|discriminate H]. cbn [bind] in H.
  destruct (valid tree); [|discriminate H].
  destruct (eval st tree) as [x|e] eqn:Ee; [|destruct e; discriminate H].
  cbn [catch] in H. assert (x = v) as -> by congruence. exact (eval_proper st HR tree v Ee q Hq).
Qed.

(** In every process in which only units have been registered, the registry is proper, ... *)
Theorem C112_units_only : forall A (N : Num A) (st : rstate A), units_only st -> registry_proper st.
Proof.
  intros A N st HU s v q Hc Hq. destruct (HU s v Hc) as (i & [u r] & -> & Hi). cbn [val_q] in Hq. rewrite Hi in Hq. injection Hq as <-.
  split; [exists n1; reflexivity|]. cbn [unit_q qdim]. split; [apply dims_ok_unit|]. intros w Hw. apply In_unit_dims in Hw. subst w.
  apply nth_error_In in Hi. exact (in_map fst _ _ Hi).
Qed.
Theorem C112_histories : forall parse (st : rstate R), history parse st -> registry_proper st.
Proof. intros parse st H. apply C112_units_only. exact (ho_units _ _ (history_ok _ _ H)). Qed.
(** ... and giving the value of a label a name of its own keeps it so. *)
Theorem C112_naming : forall A (N : Num A) parse (st : rstate A) label v s,
  registry_proper st -> get_item parse st label = Ok v -> registry_proper (fst (set_item st s v)).
Proof.
  intros A N parse st label v s HR Hv. unfold set_item. destruct (ctx_get st s) as [w|] eqn:Es; [exact HR|].
  intros s' v' q Hc Hq. cbn [fst objs] in *. unfold ctx_get in Hc. cbn [ctx] in Hc.
  destruct (teqb s' s) eqn:Et.
  - apply teqb_eq in Et. subst s'. rewrite (dget_dset_same _ teqb_eq) in Hc. injection Hc as <-.
    exact (C112_label_values A N parse st label v q HR Hv Hq).
  - rewrite dget_dset_other in Hc; [exact (HR s' v' q Hc Hq)|exact teqb_eq|].
    intros ->. rewrite (proj2 (teqb_eq _ _) eq_refl) in Et. discriminate Et.
Qed.
(** A string used as units (q.rescale('...'), Quantity(x, '...')) therefore means
    well-formed units that exist, or is refused. *)
Theorem C112_unit_strings : forall A (N : Num A) parse (st : rstate A) s d,
  registry_proper st -> validate_dimensionality (reg_lookup parse st) (UStr s) = Ok d -> dims_ok d /\ known (objs st) d.
Proof.
  intros A N parse st s d HR H. cbn [validate_dimensionality] in H. unfold reg_lookup in H.
  destruct (get_item parse st (T s)) as [v|e] eqn:Ev; [|destruct e; discriminate H]. cbn [bind] in H.
  destruct (val_q st v) as [q|] eqn:Eq; [|discriminate H]. cbn [bind] in H.
  assert (d = qdim q) as -> by (cbn in H; congruence).
  exact (proj2 (C112_label_values A N parse st (T s) v q HR Ev Eq)).
Qed.
(** When a string is refused as units: with the error of the lookup, or with AttributeError
    when it means something that has no units (a number, a constant, another object). *)
Theorem C112_refused_strings : forall A (N : Num A) parse (st : rstate A) s (q : qty A) (a : arr A),
  (forall e, get_item parse st (T s) = Err e ->
     rescale (reg_lookup parse st) (objs st) q (UStr s) = Err e /\
     q_new (reg_lookup parse st) (objs st) (OArr a) (UStr s) = Err e) /\
  (forall v, get_item parse st (T s) = Ok v -> (forall i, v <> VUnit i) -> (forall q', v <> VQty q') ->
     rescale (reg_lookup parse st) (objs st) q (UStr s) = Err AttributeError /\
     q_new (reg_lookup parse st) (objs st) (OArr a) (UStr s) = Err AttributeError).
Proof.
  intros A N parse st s q a. unfold rescale, q_new, validate_dimensionality, reg_lookup. split.
  - intros e ->. cbn [bind rmap]. destruct e; split; reflexivity.
  - intros v -> H1 H2. destruct v as [p|c|i|q'|o]; [|  |destruct (H1 i); reflexivity|destruct (H2 q'); reflexivity|]; split; reflexivity.
Qed.
Lemma units_only_check {A} (st : rstate A) :
  forallb (fun kv : text * value A => match snd kv with VUnit i => match nth_error (objs st) i with Some _ => true | None => false end | _ => false end)
    (ctx st) = true -> units_only st.
Proof.
  intros H s v Hv. unfold ctx_get in Hv. apply dget_In in Hv; [|apply teqb_eq].
  pose proof (proj1 (forallb_forall _ _) H _ Hv) as G. cbn [snd] in G.
  destruct v; try discriminate G. destruct (nth_error (objs st) i) as [o|] eqn:Ei; [|discriminate G]. eauto.
Qed.
(** A label with sums of units, numbers and parentheses; a registry; and the label
    stored under a new name. *)
Example C112_example :
  let get l := get_item (parse_arith dec_read) (ex_st Qc) (T l) in
  registry_proper (ex_st Qc) /\
  get "(2*m + m)**2/(s*s**-3)"%string = Ok (VQty (Qty (scalar (zq 9)) [(u_m, PInt 2); (u_s, PInt 2)])) /\
  (exists e, get "m + s"%string = Err e) /\ get "2*3"%string = Ok (VNum (PInt 6)) /\
  snd (set_item (ex_st Qc) (T "area") (VQty (Qty (scalar (zq 9)) [(u_m, PInt 2)]))) = Ok tt.
Proof.
  split; [apply C112_units_only, units_only_check; vm_compute; reflexivity|].
  split; [vm_compute; reflexivity|]. split; [eexists; vm_compute; reflexivity|]. split; vm_compute; reflexivity.
Qed.

Print Assumptions C112_label_values.
Print Assumptions C112_units_only.
Print Assumptions C112_histories.
Print Assumptions C112_naming.
Print Assumptions C112_unit_strings.
Print Assumptions C112_refused_strings.
