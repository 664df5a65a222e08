(** * Property C109: quantities of complex dtype. *)
From Coq Require Import Reals Lra Lia.
From Verif Require Import Py Num Dim DimFacts Arr ArrFacts Lanes Units Spec UnitFacts Quant QuantFacts SpecApi ConvFacts
  Ufunc Ops OpsFacts Methods MethodsFacts ItemFacts Examples Props_Ops Complex.

Open Scope R_scope.

(** The physical value of a complex quantity: both parts times the size of the units. *)
Definition cphys (phi : interp) (q : qty (R * R)) : arr (R * R) :=
  amap (fun z => (fst z * dimval phi (qdim q), snd z * dimval phi (qdim q))) (mag q).
(** What a value assigned to a part of [q] denotes: a quantity denotes its physical value,
    plain data are numbers of [q]'s units. *)
Definition assigned (phi : interp) (q : qty (R * R)) (r : operand R) : arr R :=
  match r with OQ v => phys phi v | OArr a => amap (fun x => x * dimval phi (qdim q)) a end.

Theorem C109_parts : forall phi (q : qty (R * R)),
  qdim (q_real q) = qdim q /\ qdim (q_imag q) = qdim q /\
  shp (mag (q_real q)) = shp (mag q) /\ shp (mag (q_imag q)) = shp (mag q) /\
  forall idx, aget (phys phi (q_real q)) idx = option_map fst (aget (cphys phi q) idx) /\
              aget (phys phi (q_imag q)) idx = option_map snd (aget (cphys phi q) idx).
Proof.
  intros phi q. do 4 (split; [reflexivity|]). intros idx. unfold phys, cphys, q_real, q_imag. cbn [mag qdim].
  rewrite !amap_get. destruct (aget (mag q) idx) as [[x y]|]; cbn; auto.
Qed.

(** Rescaling keeps the physical value (both parts), and is defined exactly as for a real
    quantity of the same units. *)
Theorem C109_rescale : forall (E : uenv R) (q : qty (R * R)) to,
  renv_ok E -> qty_ok q -> dims_ok to ->
  ((exists r, c_rescale_to E q to = Ok r) <-> convertible E (qdim q) to) /\
  (forall e, c_rescale_to E q to = Err e -> e = ValueError) /\
  (forall r, c_rescale_to E q to = Ok r ->
     (forall u, exp_of (qdim r) u = exp_of to u) /\ shp (mag r) = shp (mag q) /\
     rescale_to E (q_real q) to = Ok (q_real r) /\ rescale_to E (q_imag q) to = Ok (q_imag r) /\
     forall phi, consistent E phi -> cphys phi r = cphys phi q).
Proof.
  intros E q to HE [Wq Hd] Hto.
  assert (RE : forall f : R * R -> R, rescale_to E (Qty (amap f (mag q)) (qdim q)) to =
     match c_rescale_to E q to with
     | Ok r => Ok (Qty (if dim_eqb (qdim q) to then amap f (mag q) else
          match conv_factor E (qdim q) to with Ok cf => amap (fun z => nmul cf (f z)) (mag q) | Err _ => amap f (mag q) end) (qdim r))
     | Err e => Err e end).
  { intros f. unfold rescale_to, c_rescale_to. cbn [qdim mag]. destruct (dim_eqb (qdim q) to); [reflexivity|].
    destruct (conv_factor E (qdim q) to) as [cf|e]; [|destruct e; reflexivity]. cbn [qdim]. unfold amap. cbn [shp dat]. rewrite map_map. reflexivity. }
  pose proof (rescale_ok_iff E (q_real q) to HE Hd Hto) as Iff. pose proof (RE fst) as R1. pose proof (RE snd) as R2.
  change (Qty (amap fst (mag q)) (qdim q)) with (q_real q) in R1. change (Qty (amap snd (mag q)) (qdim q)) with (q_imag q) in R2.
  split; [|split].
  - change (qdim (q_real q)) with (qdim q) in Iff. rewrite <- Iff. destruct (c_rescale_to E q to) as [r|e]; rewrite R1; split; intros [x X]; eauto; discriminate.
  - intros e He. rewrite He in R1. exact (rescale_to_err _ _ _ _ R1).
  - intros r Hr. rewrite Hr in R1, R2.
    assert (PR : rescale_to E (q_real q) to = Ok (q_real r) /\ rescale_to E (q_imag q) to = Ok (q_imag r)).
    { rewrite R1, R2. unfold c_rescale_to in Hr. destruct (dim_eqb (qdim q) to).
      - apply Ok_inj in Hr. subst r. split; reflexivity.
      - destruct (conv_factor E (qdim q) to) as [cf|e]; [|destruct e; discriminate]. apply Ok_inj in Hr. subst r.
        unfold q_real, q_imag, amap. cbn [mag qdim shp dat]. rewrite !map_map. cbn [fst snd]. split; reflexivity. }
    destruct PR as [P1 P2].
    split; [|split; [|split; [|split]]]; [| |exact P1|exact P2|].
    + intros u. assert (Q1 : qty_ok (q_real q)) by (split; [apply awf_amap; exact Wq|exact Hd]).
      pose proof (rescale_to_qty_ok E (q_real q) to (q_real r) Q1 Hto P1) as Q2.
      exact (proj1 (dim_eqb_exp _ _ (proj1 (proj2 Q2)) (proj1 Hto)) (rescale_to_eqb E (q_real q) to (q_real r) (proj1 Hd) (proj1 Hto) P1) u).
    + pose proof (rescale_to_shape E _ _ _ P1) as S. exact S.
    + intros phi HC. pose proof (rescale_value E (q_real q) to (q_real r) HE Hd Hto P1 phi HC) as V1.
      pose proof (rescale_value E (q_imag q) to (q_imag r) HE Hd Hto P2 phi HC) as V2.
      unfold phys, q_real, q_imag, amap in V1, V2. cbn [mag qdim shp dat] in V1, V2. unfold cphys, amap. injection V1 as S1 V1. injection V2 as S2 V2.
      rewrite S1. f_equal. rewrite !map_map in V1, V2. revert V1 V2. generalize (dat (mag r)) (dat (mag q)) (dimval phi (qdim r)) (dimval phi (qdim q)). clear.
      induction l as [|x l IH]; intros [|y l'] a b H1 H2; cbn [map] in *; try discriminate; auto.
      injection H1 as A1 B1. injection H2 as A2 B2. rewrite (IH l' a b B1 B2). congruence.
Qed.

(** The value handed to NumPy by the setters. *)
Lemma part_value_spec (E : uenv R) (q : qty (R * R)) (r : operand R) xs :
  renv_ok E -> dims_ok (qdim q) -> qdim q <> [] -> operand_ok r -> part_value E q r = Ok xs ->
  length xs = prodn (shp (mag q)) /\
  forall phi, consistent E phi -> forall idx, in_range (shp (mag q)) idx ->
    option_map (fun x => x * dimval phi (qdim q)) (nth_error xs (ravel (shp (mag q)) idx)) =
      aget (assigned phi q r) (operand_index (shp (odat r)) idx) /\
    exists x, nth_error xs (ravel (shp (mag q)) idx) = Some x.
Proof.
  intros HE Hd Hne Hr H. unfold part_value in H.
  destruct (q_new (fun _ => Err KeyError) E r (UDim (qdim q))) as [v|] eqn:Ev; cbn [bind] in H; [|discriminate].
  assert (V : awf (mag v) /\ shp (mag v) = shp (odat r) /\
              forall phi, consistent E phi -> amap (fun x => x * dimval phi (qdim q)) (mag v) = assigned phi q r).
  { destruct r as [w|a].
    - assert (Rw : rescale_to E w (qdim q) = Ok v).
      { revert Ev. unfold q_new, truthy. destruct (qdim q) as [|u d] eqn:Eq; [contradiction|]. cbn [bind]. intros X. exact X. }
      destruct (rescale_to_qty_ok E w (qdim q) v Hr Hd Rw) as [Wv Dv].
      split; [exact Wv|]. split; [exact (rescale_to_shape E _ _ _ Rw)|]. intros phi HC. cbn [assigned].
      rewrite <- (rescale_value E w (qdim q) v HE (proj2 Hr) Hd Rw phi HC). unfold phys.
      rewrite (dimval_eqb phi _ _ (proj1 Dv) (proj1 Hd) (rescale_to_eqb E w (qdim q) v (proj1 (proj2 Hr)) (proj1 Hd) Rw)). reflexivity.
    - rewrite (C36_plain_data R NumR _ E a (UDim (qdim q)) (qdim q) (den_dim _ _)) in Ev. apply Ok_inj in Ev. subst v.
      split; [exact Hr|]. split; reflexivity. }
  destruct V as (Wv & Sv & Pv). destruct (broadcast_to_spec (mag v) _ xs Wv H) as [L G]. split; [exact L|].
  intros phi HC idx HR. destruct (G idx HR) as [G1 G2]. split; [|exact G2]. rewrite <- (Pv phi HC), amap_get, <- Sv, G1. reflexivity.
Qed.

Lemma zip_nth {A B C} (f : A -> B -> C) : forall (l : list A) (l' : list B) i x y,
  nth_error l i = Some x -> nth_error l' i = Some y -> nth_error (zip_with f l l') i = Some (f x y).
Proof.
  induction l as [|a l IH]; intros [|b l'] [|i] x y H1 H2; cbn in *; try discriminate; [congruence|]. now apply IH.
Qed.
Lemma zip_len {A B C} (f : A -> B -> C) : forall (l : list A) (l' : list B), length l = length l' -> length (zip_with f l l') = length l.
Proof. induction l as [|a l IH]; intros [|b l'] H; cbn in *; auto; try discriminate. Qed.

Lemma zip_aget {A B C} (f : A -> B -> C) (m : arr B) xs idx x z : awf m -> length xs = prodn (shp m) -> in_range (shp m) idx ->
  nth_error xs (ravel (shp m) idx) = Some x -> aget m idx = Some z ->
  aget (Arr (shp m) (zip_with f xs (dat m))) idx = Some (f x z).
Proof.
  intros W L HR Hx Hz. unfold aget in *. cbn [shp dat]. rewrite at_idx_ravel in Hz by assumption.
  rewrite at_idx_ravel; [|rewrite zip_len; [exact L|rewrite L; symmetry; exact W]|exact HR]. apply zip_nth; assumption.
Qed.

(** Assigning to a part replaces exactly that part, by the physical value of what was
    assigned (broadcast), and touches neither the units nor the other part. *)
Theorem C109_set_real : forall (E : uenv R) (q q' : qty (R * R)) (r : operand R) phi,
  renv_ok E -> qty_ok q -> qdim q <> [] -> operand_ok r -> consistent E phi -> set_real E q r = Ok q' ->
  qdim q' = qdim q /\ shp (mag q') = shp (mag q) /\
  (forall idx, in_range (shp (mag q)) idx -> exists x,
     aget (phys phi (q_real q')) idx = Some x /\ aget (assigned phi q r) (operand_index (shp (odat r)) idx) = Some x /\
     aget (phys phi (q_imag q')) idx = aget (phys phi (q_imag q)) idx).
Proof.
  intros E q q' r phi HE [Wq Hd] Hne Hr HC H. unfold set_real in H.
  destruct (part_value E q r) as [xs|] eqn:Ex; cbn [bind] in H; [|discriminate]. apply Ok_inj in H. subst q'.
  destruct (part_value_spec E q r xs HE Hd Hne Hr Ex) as [L G]. split; [reflexivity|]. split; [reflexivity|].
  intros idx HR. destruct (G phi HC idx HR) as [G1 [x Gx]]. rewrite Gx in G1. cbn [option_map] in G1.
  exists (x * dimval phi (qdim q)). unfold phys, q_real, q_imag. cbn [mag qdim]. rewrite !amap_get.
  destruct (aget_some (mag q) idx Wq HR) as [z Hz].
  rewrite (zip_aget _ (mag q) xs idx x z Wq L HR Gx Hz), Hz. cbn [option_map fst snd].
  split; [reflexivity|]. split; [symmetry; exact G1|reflexivity].
Qed.
Theorem C109_set_imag : forall (E : uenv R) (q q' : qty (R * R)) (r : operand R) phi,
  renv_ok E -> qty_ok q -> qdim q <> [] -> operand_ok r -> consistent E phi -> set_imag E q r = Ok q' ->
  qdim q' = qdim q /\ shp (mag q') = shp (mag q) /\
  (forall idx, in_range (shp (mag q)) idx -> exists x,
     aget (phys phi (q_imag q')) idx = Some x /\ aget (assigned phi q r) (operand_index (shp (odat r)) idx) = Some x /\
     aget (phys phi (q_real q')) idx = aget (phys phi (q_real q)) idx).
Proof.
  intros E q q' r phi HE [Wq Hd] Hne Hr HC H. unfold set_imag in H.
  destruct (part_value E q r) as [xs|] eqn:Ex; cbn [bind] in H; [|discriminate]. apply Ok_inj in H. subst q'.
  destruct (part_value_spec E q r xs HE Hd Hne Hr Ex) as [L G]. split; [reflexivity|]. split; [reflexivity|].
  intros idx HR. destruct (G phi HC idx HR) as [G1 [x Gx]]. rewrite Gx in G1. cbn [option_map] in G1.
  exists (x * dimval phi (qdim q)). unfold phys, q_real, q_imag. cbn [mag qdim]. rewrite !amap_get.
  destruct (aget_some (mag q) idx Wq HR) as [z Hz].
  rewrite (zip_aget _ (mag q) xs idx x z Wq L HR Gx Hz), Hz. cbn [option_map fst snd].
  split; [reflexivity|]. split; [symmetry; exact G1|reflexivity].
Qed.

(** When the setters raise: always ValueError, always for a quantity that cannot be
    converted, never for a single convertible value. *)
Theorem C109_set_defined : forall (E : uenv R) (q : qty (R * R)) (r : operand R) set,
  set = @set_real R NumR \/ set = @set_imag R NumR ->
  renv_ok E -> qty_ok q -> qdim q <> [] -> operand_ok r ->
  (forall v, r = OQ v -> ~ convertible E (qdim v) (qdim q) -> set E q r = Err ValueError) /\
  (forall e, set E q r = Err e -> e = ValueError) /\
  ((exists x, odat r = scalar x) -> (forall v, r = OQ v -> convertible E (qdim v) (qdim q)) -> exists q', set E q r = Ok q').
Proof.
  intros E q r set Hset HE [Wq Hd] Hne Hr.
  assert (RV : forall v, q_new (fun _ => Err KeyError) E (OQ v) (UDim (qdim q)) = rescale_to E v (qdim q)).
  { intros v. unfold q_new, truthy. destruct (qdim q) as [|u d]; [contradiction|]. reflexivity. }
  assert (PV : (forall v, r = OQ v -> ~ convertible E (qdim v) (qdim q) -> part_value E q r = Err ValueError) /\
    (forall e, part_value E q r = Err e -> e = ValueError) /\
    ((exists x, odat r = scalar x) -> (forall v, r = OQ v -> convertible E (qdim v) (qdim q)) -> exists xs, part_value E q r = Ok xs)).
  { unfold part_value. split; [|split].
    - intros v -> Hc. rewrite RV. destruct (rescale_to E v (qdim q)) as [w|e] eqn:Ew.
      + exfalso. apply Hc. apply (rescale_ok_iff E v (qdim q) HE (proj2 Hr) Hd). eauto.
      + cbn [bind]. f_equal. exact (rescale_to_err _ _ _ _ Ew).
    - intros e He. destruct r as [v|a].
      + rewrite RV in He. destruct (rescale_to E v (qdim q)) as [w|e'] eqn:Ew; cbn [bind] in He.
        * now apply broadcast_to_err in He.
        * apply rescale_to_err in Ew. congruence.
      + rewrite (C36_plain_data R NumR _ E a (UDim (qdim q)) (qdim q) (den_dim _ _)) in He. cbn [bind] in He. now apply broadcast_to_err in He.
    - intros [x Hx] Hc. destruct r as [v|a].
      + rewrite RV. destruct (proj2 (rescale_ok_iff E v (qdim q) HE (proj2 Hr) Hd) (Hc v eq_refl)) as [w Hw]. rewrite Hw. cbn [bind].
        pose proof (rescale_to_shape E _ _ _ Hw) as S. destruct (rescale_to_qty_ok E v (qdim q) w Hr Hd Hw) as [Ww _].
        cbn [odat] in Hx. rewrite Hx in S. destruct w as [[s l] d]. cbn [mag shp scalar] in *. subst s. unfold awf in Ww. cbn in Ww.
        destruct l as [|z [|? ?]]; try discriminate. change (Arr [] [z]) with (scalar z). rewrite broadcast_to_scalar. eauto.
      + rewrite (C36_plain_data R NumR _ E a (UDim (qdim q)) (qdim q) (den_dim _ _)). cbn [bind mag]. cbn [odat] in Hx. rewrite Hx, broadcast_to_scalar. eauto. }
  destruct PV as (P1 & P2 & P3). destruct Hset as [-> | ->]; unfold set_real, set_imag; (split; [|split]).
  all: try (intros v Hv Hc; rewrite (P1 v Hv Hc); reflexivity).
  all: try (intros e He; destruct (part_value E q r) as [xs|e'] eqn:X; cbn [bind] in He; [discriminate|];
            injection He as <-; now apply P2).
  all: intros Hx Hc; destruct (P3 Hx Hc) as [xs ->]; cbn [bind]; eauto.
Qed.

(** ... and exactly when the shape of what is assigned broadcasts to the shape of [q]. *)
Theorem C109_set_iff : forall (E : uenv R) (q : qty (R * R)) (r : operand R) set,
  set = @set_real R NumR \/ set = @set_imag R NumR ->
  renv_ok E -> qty_ok q -> qdim q <> [] -> operand_ok r ->
  ((exists q', set E q r = Ok q') <->
   (forall v, r = OQ v -> convertible E (qdim v) (qdim q)) /\ bc_shape (shp (odat r)) (shp (mag q)) = Some (shp (mag q))).
Proof.
  intros E q r set Hset HE [Wq Hd] Hne Hr.
  assert (P : (exists xs, part_value E q r = Ok xs) <->
    (forall v, r = OQ v -> convertible E (qdim v) (qdim q)) /\ bc_shape (shp (odat r)) (shp (mag q)) = Some (shp (mag q))).
  { assert (B : forall a : arr R, (exists xs, broadcast_to a (shp (mag q)) = Ok xs) <-> bc_shape (shp a) (shp (mag q)) = Some (shp (mag q))).
    { intros a. unfold broadcast_to. destruct (bc_shape (shp a) (shp (mag q))) as [t|]; [|split; [intros [x X]|intros X]; discriminate].
      destruct (list_eq_dec Nat.eq_dec t (shp (mag q))) as [->|n]; [split; eauto|]. split; [intros [x X]; discriminate|congruence]. }
    unfold part_value. destruct r as [v|a].
    - assert (RV : q_new (fun _ => Err KeyError) E (OQ v) (UDim (qdim q)) = rescale_to E v (qdim q)).
      { unfold q_new, truthy. destruct (qdim q) as [|u d]; [contradiction|]. reflexivity. }
      rewrite RV. pose proof (rescale_ok_iff E v (qdim q) HE (proj2 Hr) Hd) as Iff.
      destruct (rescale_to E v (qdim q)) as [w|e] eqn:Ew; cbn [bind odat].
      + rewrite B, (rescale_to_shape E _ _ _ Ew). split; [|tauto]. intros X. split; [|exact X].
        intros v' Hv. injection Hv as <-. apply Iff. eauto.
      + split; [intros [x X]; discriminate|]. intros [X _]. specialize (X v eq_refl). apply Iff in X. destruct X; discriminate.
    - rewrite (C36_plain_data R NumR _ E a (UDim (qdim q)) (qdim q) (den_dim _ _)). cbn [bind mag odat]. rewrite B.
      split; [|tauto]. intros X. split; [discriminate|exact X]. }
  rewrite <- P. destruct Hset as [-> | ->]; unfold set_real, set_imag;
    (destruct (part_value E q r) as [xs|e]; cbn [bind]; split; intros [x X]; try discriminate; eauto).
Qed.

(** On a dimensionless complex quantity the units of the assigned value are dropped without
    a word, whatever they are. *)
Theorem C109_dimensionless_refuted : forall A (N : Num A) (E : uenv A) (q : qty (A * A)) (v : qty A),
  qdim q = [] ->
  set_real E q (OQ v) = set_real E q (OArr (mag v)) /\ set_imag E q (OQ v) = set_imag E q (OArr (mag v)).
Proof. intros A N E q v H. unfold set_real, set_imag, part_value. rewrite H. split; reflexivity. Qed.

(** A quantity of real dtype: assigning to its real part assigns to the whole of it, with
    conversion; its imaginary part cannot be set. *)
Theorem C109_real_dtype : forall (E : uenv R) (q q' : qty R) (r : operand R) phi,
  renv_ok E -> qty_ok q -> qdim q <> [] -> operand_ok r -> consistent E phi -> r_set_real E q r = Ok q' ->
  qdim q' = qdim q /\ shp (mag q') = shp (mag q) /\
  (forall idx, in_range (shp (mag q)) idx -> exists x,
     aget (phys phi q') idx = Some x /\
     aget (assigned phi (Qty (amap (fun x => (x, 0)) (mag q)) (qdim q)) r) (operand_index (shp (odat r)) idx) = Some x).
Proof.
  intros E q q' r phi HE [Wq Hd] Hne Hr HC H. set (im := Qty (amap (fun x => (x, 0)) (mag q)) (qdim q)).
  assert (PV : exists xs, part_value E im r = Ok xs /\ q' = Qty (Arr (shp (mag q)) xs) (qdim q)).
  { unfold r_set_real in H. unfold part_value. change (qdim im) with (qdim q). change (shp (mag im)) with (shp (mag q)).
    destruct (q_new (fun _ => Err KeyError) E r (UDim (qdim q))) as [v|]; cbn [bind] in *; [|discriminate].
    destruct (broadcast_to (mag v) (shp (mag q))) as [xs|] eqn:Ex; cbn [bind] in *; [|discriminate]. apply Ok_inj in H. exists xs. auto. }
  destruct PV as (xs & Px & ->). destruct (part_value_spec E im r xs HE Hd Hne Hr Px) as [L G].
  split; [reflexivity|]. split; [reflexivity|]. intros idx HR. destruct (G phi HC idx HR) as [G1 [x Gx]]. rewrite Gx in G1. cbn [option_map] in G1.
  exists (x * dimval phi (qdim q)). split; [|symmetry; exact G1]. unfold phys. cbn [mag qdim]. rewrite amap_get. unfold aget. cbn [shp dat].
  rewrite at_idx_ravel; [|exact L|exact HR]. change (shp (mag im)) with (shp (mag q)) in Gx. rewrite Gx. reflexivity.
Qed.
Theorem C109_real_dtype_imag : forall A (N : Num A) (E : uenv A) (q : qty A) (r : operand A),
  exists e, r_set_imag E q r = Err e.
Proof. intros A N E q r. unfold r_set_imag. destruct (q_new _ E r (UDim (qdim q))); cbn [bind]; eauto. Qed.

Example C109_example :
  let q := Qty (Arr [2%nat] [(zq 1, zq 2); (zq 3, zq 4)]) d_m in
  q_real q = Qty (Arr [2%nat] (qcs [1; 3]%Z)) d_m /\
  q_imag q = Qty (Arr [2%nat] (qcs [2; 4]%Z)) d_m /\
  c_rescale_to exE q d_cm = Ok (Qty (Arr [2%nat] [(zq 100, zq 200); (zq 300, zq 400)]) d_cm) /\
  c_rescale_to exE q d_s = Err ValueError /\
  set_imag exE q (OQ (Qty (scalar (zq 700)) d_cm)) = Ok (Qty (Arr [2%nat] [(zq 1, zq 7); (zq 3, zq 7)]) d_m) /\
  set_real exE q (OArr (Arr [2%nat] (qcs [8; 9]%Z))) = Ok (Qty (Arr [2%nat] [(zq 8, zq 2); (zq 9, zq 4)]) d_m) /\
  set_real exE q (OQ (Qty (scalar (zq 1)) d_s)) = Err ValueError /\
  set_real exE q (OArr (Arr [3%nat] (qcs [8; 9; 10]%Z))) = Err ValueError /\
  set_real exE (Qty (scalar (zq 1, zq 2)) []) (OQ (Qty (scalar (zq 5)) d_s)) = Ok (Qty (scalar (zq 5, zq 2)) []) /\
  r_set_real exE (Qty (scalar (zq 1)) d_m) (OQ (Qty (scalar (zq 700)) d_cm)) = Ok (Qty (scalar (zq 7)) d_m).
Proof.
  split; [vm_compute; reflexivity|]. split; [vm_compute; reflexivity|]. split; [vm_compute; reflexivity|]. split; [vm_compute; reflexivity|].
  split; [vm_compute; reflexivity|]. split; [vm_compute; reflexivity|]. split; [vm_compute; reflexivity|]. split; [vm_compute; reflexivity|].
  split; vm_compute; reflexivity.
Qed.
Example C109_hypotheses :
  let q : qty (R * R) := Qty (scalar (1, 2)) d_m in
  renv_ok exE /\ qty_ok q /\ qdim q <> [] /\ operand_ok (OQ (Qty (scalar 700) d_cm)) /\
  (exists phi, consistent exE phi) /\ exists q', set_imag exE q (OQ (Qty (scalar 700) d_cm)) = Ok q'.
Proof.
  intros q. assert (Q : qty_ok q) by (split; [reflexivity|apply dims_okb_ok; reflexivity]).
  assert (V : operand_ok (OQ (Qty (scalar 700) d_cm))) by (split; [reflexivity|apply dims_okb_ok; reflexivity]).
  assert (NE : qdim q <> []) by discriminate.
  split; [exact exE_ok|]. split; [exact Q|]. split; [exact NE|]. split; [exact V|].
  split; [exact (consistent_exists exE exE_ok)|].
  destruct (C109_set_defined exE q (OQ (Qty (scalar 700) d_cm)) _ (or_intror eq_refl) exE_ok Q NE V) as (_ & _ & G).
  apply G; [exists 700; reflexivity|]. intros v Hv. injection Hv as <-. cbn [qdim].
  rewrite convertible_iff; [|exact exE_ok|apply dims_okb_ok; reflexivity|apply dims_okb_ok; reflexivity]. reflexivity.
Qed.

Print Assumptions C109_parts.
Print Assumptions C109_rescale.
Print Assumptions C109_set_real.
Print Assumptions C109_set_imag.
Print Assumptions C109_set_defined.
Print Assumptions C109_set_iff.
Print Assumptions C109_dimensionless_refuted.
Print Assumptions C109_real_dtype.
Print Assumptions C109_real_dtype_imag.
