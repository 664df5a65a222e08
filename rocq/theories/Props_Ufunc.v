(** * Properties C38-C41: NumPy universal functions. *)
From Coq Require Import Reals Lra Lia.
From Verif Require Import Py Num Dim DimFacts Arr ArrFacts Units Spec UnitFacts Quant QuantFacts SpecApi ConvFacts
  Ufunc Ops OpsFacts Examples Props_Ops.

Open Scope R_scope.

(** C38 *)
(** Unary ufuncs without restriction on the units: the value of the result is the
    function of the value of the argument. *)
Definition value_defined (f : uf1) (x : R) : Prop :=
  match f with USqrt => 0 <= x | UReciprocal => x <> 0 | _ => True end.
Lemma half_pow v : 0 < v -> Rpower v (Qc2R (Q2Qc (1 # 2))) = sqrt v.
Proof.
  intros H. replace (Qc2R (Q2Qc (1 # 2))) with (/ 2).
  - now apply Rpower_sqrt.
  - unfold Qc2R, Q2R. cbn. lra.
Qed.
Lemma pow2_val v : 0 < v -> Rpower v (Qc2R (pval (PInt 2))) = v * v.
Proof. intros H. cbn [pval]. rewrite Qc2R_Z. replace (IZR 2) with (INR 2) by (cbn; lra). rewrite Rpower_pow by auto. cbn. ring. Qed.
Lemma powm1_val v : 0 < v -> Rpower v (Qc2R (pval (PInt (-1)))) = / v.
Proof.
  intros H. cbn [pval]. rewrite Qc2R_Z. replace (IZR (-1)) with (Ropp 1) by lra. rewrite Rpower_Ropp, Rpower_1 by auto. reflexivity.
Qed.
Theorem C38_unary : forall E f q phi,
  In f [UFabs; UAbsolute; UConjugate; UNegative; USquare; UReciprocal; USqrt] ->
  Forall (value_defined f) (dat (mag q)) ->
  exists r, np1 E f q = Ok r /\ phys phi r = amap (R_uf1 f) (phys phi q).
Proof.
  intros E f q phi Hf Hd. pose proof (dimval_pos phi (qdim q)) as P. rewrite Forall_forall in Hd.
  destruct Hf as [<-|[<-|[<-|[<-|[<-|[<-|[<-|[]]]]]]]]; eexists; (split; [reflexivity|]); unfold phys; cbn [mag qdim];
    rewrite !amap_amap; apply amap_ext; intros x Hx; cbn [R_uf1]; rewrite ?dimval_pow; specialize (Hd x Hx); cbn in Hd.
  - rewrite Rabs_mult, (Rabs_right (dimval phi (qdim q))); auto; lra.
  - rewrite Rabs_mult, (Rabs_right (dimval phi (qdim q))); auto; lra.
  - reflexivity.
  - ring.
  - rewrite pow2_val by auto. ring.
  - rewrite powm1_val by auto. field. lra.
  - cbn [pval]. rewrite half_pow by auto. symmetry. apply sqrt_mult; lra.
Qed.
(** Hence the result does not depend on the units of the argument. *)
Theorem C38_unary_unit_independent : forall E f q q' r,
  renv_ok E -> In f [UFabs; UAbsolute; UConjugate; UNegative; USquare; UReciprocal; USqrt] ->
  Forall (value_defined f) (dat (mag q)) -> same_value E q q' ->
  np1 E f q = Ok r ->
  exists r', np1 E f q' = Ok r' /\ same_value E r r'.
Proof.
  intros E f q q' r HE Hf Hd S H.
  assert (Hd' : Forall (value_defined f) (dat (mag q'))).
  { destruct (consistent_exists E HE) as [phi HC]. specialize (S phi HC). apply (f_equal (@dat R)) in S. cbn in S.
    pose proof (dimval_pos phi (qdim q)) as P1. pose proof (dimval_pos phi (qdim q')) as P2.
    assert (Vm : forall x v, 0 < v -> value_defined f x <-> value_defined f (x * v)).
    { intros x v Hv. destruct f; cbn; try tauto.
      - split; intros K X; apply K; [apply Rmult_integral in X; lra|subst; ring].
      - split; intros K; [apply Rmult_le_pos; lra|]. apply Rmult_le_reg_r with v; lra. }
    apply Forall_forall. intros y Hy. apply (Vm y _ P2).
    assert (X : In (y * dimval phi (qdim q')) (map (fun x => x * dimval phi (qdim q')) (dat (mag q')))) by (apply in_map_iff; eauto).
    rewrite <- S in X. apply in_map_iff in X. destruct X as (x & X1 & X2). rewrite <- X1. apply Vm; auto.
    rewrite Forall_forall in Hd. now apply Hd. }
  assert (X : exists r', np1 E f q' = Ok r').
  { destruct (C38_unary E f q' (fun _ => 1) Hf Hd') as (r' & X & _). eauto. }
  destruct X as [r' Hr']. exists r'. split; auto. intros phi HC.
  destruct (C38_unary E f q phi Hf Hd) as (r1 & X1 & Y1). destruct (C38_unary E f q' phi Hf Hd') as (r2 & X2 & Y2).
  rewrite H in X1. rewrite Hr' in X2. injection X1 as ->. injection X2 as ->. rewrite Y1, Y2. now rewrite (S phi HC).
Qed.
(** Binary ufuncs on two quantities. *)
Lemma homog_uniform f : In f [UAdd; USubtract; UMod; UFmod; UHypot; UMaximum; UMinimum] -> homog (R_uf2 f).
Proof.
  intros [<-|[<-|[<-|[<-|[<-|[<-|[<-|[]]]]]]]]; cbn [R_uf2].
  - apply homog_add. - apply homog_sub. - apply homog_mod. - apply homog_fmod. - apply homog_hypot.
  - apply homog_max. - apply homog_min.
Qed.
Theorem C38_uniform : forall f q1 q2 r phi,
  In f [UAdd; USubtract; UMod; UFmod; UHypot; UMaximum; UMinimum] ->
  qty_ok q1 -> qty_ok q2 -> np2 f (OQ q1) (OQ q2) = Ok r ->
  amap2 (R_uf2 f) (phys phi q1) (phys phi q2) = Ok (phys phi r).
Proof.
  intros f q1 q2 r phi Hf H1 H2 H.
  apply (apply2_uniform_phys (R_uf2 f) q1 q2 r phi (proj1 (proj2 H1)) (proj1 (proj2 H2)) (homog_uniform f Hf)).
  unfold np2 in H. destruct Hf as [<-|[<-|[<-|[<-|[<-|[<-|[<-|[]]]]]]]]; exact H.
Qed.
(** With a plain operand: when accepted, it is the operation on the values, plain
    numbers being pure numbers (zeros are compatible with every unit). *)
Theorem C38_uniform_plain : forall f q a r phi,
  In f [UAdd; USubtract; UMod; UFmod; UHypot; UMaximum; UMinimum] ->
  (np2 f (OQ q) (OArr a) = Ok r -> amap2 (R_uf2 f) (phys phi q) a = Ok (phys phi r)) /\
  (np2 f (OArr a) (OQ q) = Ok r -> amap2 (R_uf2 f) a (phys phi q) = Ok (phys phi r)).
Proof.
  intros f q a r phi Hf. pose proof (homog_uniform f Hf) as HH.
  assert (Rf : rule_of2 f = RUniform) by (destruct Hf as [<-|[<-|[<-|[<-|[<-|[<-|[<-|[]]]]]]]]; reflexivity).
  pose proof (dimval_pos phi (qdim q)) as P.
  assert (Z : negb (dim_nonempty (qdim q)) || all_zero a = true ->
              amap (fun x => x * dimval phi (qdim q)) a = a).
  { intros X. rewrite (amap_ext _ (fun x => x)); [apply amap_id|]. intros x Hx. apply orb_true_iff in X. destruct X as [X|X].
    - destruct (qdim q); [|discriminate]. cbn. ring.
    - unfold all_zero in X. rewrite forallb_forall in X. specialize (X x Hx). cbn in X. apply Reqb_true in X. subst. ring. }
  unfold np2. rewrite Rf. split; intros H.
  - pose proof (apply2_inv _ _ _ _ _ H) as [Hm Hd]. cbn [odat pd2] in *.
    destruct (negb (dim_nonempty (qdim q)) || all_zero a) eqn:X; [|discriminate]. injection Hd as Hd.
    rewrite <- (Z eq_refl) at 1. unfold phys. rewrite amap2_amap.
    rewrite (amap2_ext _ (fun x y => R_uf2 f x y * dimval phi (qdim q))) by (intros; now apply HH).
    rewrite <- (rmap_amap_amap2 (fun z => z * dimval phi (qdim q))), Hm, <- Hd. reflexivity.
  - pose proof (apply2_inv _ _ _ _ _ H) as [Hm Hd]. cbn [odat pd2] in *.
    destruct (negb (dim_nonempty (qdim q)) || all_zero a) eqn:X; [|discriminate]. injection Hd as Hd.
    rewrite <- (Z eq_refl) at 1. unfold phys. rewrite amap2_amap.
    rewrite (amap2_ext _ (fun x y => R_uf2 f x y * dimval phi (qdim q))) by (intros; now apply HH).
    rewrite <- (rmap_amap_amap2 (fun z => z * dimval phi (qdim q))), Hm, <- Hd. reflexivity.
Qed.
(** The two-argument arctangent of two quantities of identical units. *)
Lemma Ratan2_scale v x y : 0 < v -> Ratan2 (x * v) (y * v) = Ratan2 x y.
Proof.
  intros Hv. unfold Ratan2. rewrite div_common by auto.
  assert (L : forall a, Rltb 0 (a * v) = Rltb 0 a).
  { intros a. apply eq_true_iff_eq. rewrite !Rltb_true. split; intros H.
    - apply Rmult_lt_reg_r with v; lra. - now apply Rmult_lt_0_compat. }
  assert (L' : forall a, Rltb (a * v) 0 = Rltb a 0).
  { intros a. apply eq_true_iff_eq. rewrite !Rltb_true. split; intros H.
    - apply Rmult_lt_reg_r with v; lra.
    - apply Rlt_le_trans with (0 * v); [apply Rmult_lt_compat_r; lra|lra]. }
  assert (L'' : forall a, Rleb 0 (a * v) = Rleb 0 a).
  { intros a. apply eq_true_iff_eq. rewrite !Rleb_true. split; intros H.
    - apply Rmult_le_reg_r with v; lra. - apply Rmult_le_pos; lra. }
  now rewrite !L, !L', !L''.
Qed.
Theorem C38_arctan2 : forall q1 q2 r phi,
  qty_ok q1 -> qty_ok q2 -> np2 UArctan2 (OQ q1) (OQ q2) = Ok r ->
  (forall u, exp_of (qdim q1) u = exp_of (qdim q2) u) /\ qdim r = [] /\
  amap2 Ratan2 (phys phi q1) (phys phi q2) = Ok (phys phi r).
Proof.
  intros q1 q2 r phi H1 H2 H. pose proof (apply2_inv _ _ _ _ _ H) as [Hm Hd]. cbn [odat pd2 rule_of2 R_uf2] in *.
  destruct (dim_eqb (qdim q1) (qdim q2)) eqn:He; [|discriminate]. injection Hd as Hd.
  split; [exact (proj1 (dim_eqb_exp _ _ (proj1 (proj2 H1)) (proj1 (proj2 H2))) He)|]. split; auto.
  unfold phys at 1 2. rewrite <- (dimval_eqb phi _ _ (proj1 (proj2 H1)) (proj1 (proj2 H2)) He), amap2_amap.
  rewrite (amap2_ext _ (R_uf2 UArctan2)) by (intros; apply Ratan2_scale; apply dimval_pos).
  rewrite Hm. f_equal. unfold phys. rewrite <- Hd. symmetry. apply amap_mul1.
Qed.
Lemma units_eq_iff E d u : renv_ok E -> dims_ok d -> dims_ok (unit_dims u) ->
  (units_eq E d u = true <-> converts E d (unit_dims u) 1).
Proof.
  intros HE Hd Hu. unfold units_eq.
  assert (Q : qty_ok (one_q (A := R) d)) by (split; [reflexivity|exact Hd]).
  pose proof (rescale_ok_iff E (one_q d) (unit_dims u) HE Hd Hu) as I.
  destruct (rescale_to E (one_q d) (unit_dims u)) as [r1|] eqn:Er.
  - assert (V := rescale_value E (one_q d) (unit_dims u) r1 HE Hd Hu Er).
    assert (Sh := rescale_to_shape E (one_q d) (unit_dims u) r1 Er).
    assert (Eb := rescale_to_eqb E (one_q d) (unit_dims u) r1 (proj1 Hd) (proj1 Hu) Er).
    assert (W := rescale_to_qty_ok E (one_q d) (unit_dims u) r1 Q Hu Er).
    destruct r1 as [[s l] d1]. cbn [mag shp dat qdim one_q scalar] in *.
    assert (L : exists x, l = [x]).
    { destruct W as [W _]. unfold awf in W. cbn in W. rewrite Sh in W. cbn in W. destruct l as [|x [|? ?]]; try discriminate. eauto. }
    destruct L as [x ->]. cbn [neqb NumR n1]. rewrite Reqb_true.
    assert (K : forall psi, consistent E psi -> dimval psi d = x * dimval psi (unit_dims u)).
    { intros psi HC. specialize (V psi HC). unfold phys in V. cbn [mag shp dat qdim one_q scalar amap map] in V.
      injection V as _ V. pose proof (dimval_eqb psi _ _ (proj1 (proj2 W)) (proj1 Hu) Eb) as Dv. cbn [qdim] in Dv. rewrite Dv in V. unfold one_q in V. cbn [mag n1 NumR] in V. lra. }
    split.
    + intros <-. exact K.
    + intros Hc. destruct (consistent_exists E HE) as [psi HC]. specialize (Hc psi HC). specialize (K psi HC).
      pose proof (dimval_pos psi (unit_dims u)). apply (Rmult_eq_reg_r (dimval psi (unit_dims u))); lra.
  - split; [discriminate|]. intros Hc. destruct I as [_ I]. destruct I as [r X]; [|discriminate]. exists 1. exact Hc.
Qed.
(** np.radians and np.degrees convert between the two units without changing the
    angle, if the degree is pi/180 radian. *)
Theorem C38_radians_degrees : forall E q r phi,
  renv_ok E -> dims_ok (qdim q) -> converts E (unit_dims k_degree) (unit_dims k_radian) (PI / 180) -> consistent E phi ->
  (np1 E URadians q = Ok r -> qdim r = unit_dims k_radian /\ phys phi r = phys phi q) /\
  (np1 E UDegrees q = Ok r -> qdim r = unit_dims k_degree /\ phys phi r = phys phi q).
Proof.
  intros E q r phi HE Hq Hc HC.
  assert (U : forall d u, dims_ok d -> dims_ok (unit_dims u) -> units_eq E d u = true -> converts E d (unit_dims u) 1).
  { intros d u Hd Hu. now apply units_eq_iff. }
  assert (D1 : dims_ok (unit_dims k_radian)) by (apply dims_okb_ok; reflexivity).
  assert (D2 : dims_ok (unit_dims k_degree)) by (apply dims_okb_ok; reflexivity).
  split; intros H; unfold np1, apply1 in H; cbn [rule_of1 pd1] in H.
  - destruct (units_eq E (qdim q) k_degree) eqn:X; cbn [bind] in H; [|discriminate]. injection H as <-. split; [reflexivity|].
    unfold phys. cbn [mag qdim R_uf1]. rewrite amap_amap. apply amap_ext. intros x _.
    rewrite (U _ _ Hq D2 X phi HC), (Hc phi HC). cbn [R_uf1]. ring.
  - destruct (units_eq E (qdim q) k_radian) eqn:X; cbn [bind] in H; [|discriminate]. injection H as <-. split; [reflexivity|].
    unfold phys. cbn [mag qdim R_uf1]. rewrite amap_amap. apply amap_ext. intros x _.
    rewrite (U _ _ Hq D1 X phi HC), (Hc phi HC). cbn [R_uf1]. field. pose proof PI_RGT_0. lra.
Qed.
(** Rounding is not unit-independent: np.floor of 1.5 m is 1 m, of 150 cm is 150 cm. *)
Lemma Rrint_int n : Rrint (IZR n) = IZR n.
Proof.
  unfold Rrint. rewrite (Int_part_eq (IZR n) n) by lra.
  destruct (Rltb (IZR n - IZR n) (1/2)) eqn:X; auto. apply Rltb_false in X. lra.
Qed.
Lemma Rrint_above : Rrint (17 / 10) = 2.
Proof.
  unfold Rrint. rewrite (Int_part_eq (17 / 10) 1) by lra.
  destruct (Rltb (17/10 - 1) (1/2)) eqn:X; [apply Rltb_true in X; lra|].
  destruct (Rltb (1/2) (17/10 - 1)) eqn:Y; [reflexivity|apply Rltb_false in Y; lra].
Qed.
Theorem C38_rounding_refuted : forall f, In f [UFloor; UCeil; URint] ->
  exists E q q' r r', renv_ok E /\ qty_ok q /\ qty_ok q' /\ equal_in_other_units E q q' /\
    np1 E f q = Ok r /\ np1 E f q' = Ok r' /\ ~ same_value E r r'.
Proof.
  intros f Hf. exists exE, (Qty (scalar (17 / 10)) d_m), (Qty (scalar 170) d_cm).
  destruct (consistent_exists exE exE_ok) as [phi HC].
  exists (Qty (scalar (R_uf1 f (17 / 10))) d_m), (Qty (scalar (R_uf1 f 170)) d_cm).
  split; [exact exE_ok|]. split; [split; [reflexivity|apply dims_okb_ok; reflexivity]|].
  split; [split; [reflexivity|apply dims_okb_ok; reflexivity]|]. split.
  { split; cbn [qdim].
    - exists 100. intros psi HC'. rewrite (ex_cm_size psi HC'). lra.
    - intros psi HC'. unfold phys, scalar, amap. cbn [mag qdim shp dat map]. rewrite (ex_cm_size psi HC'). do 2 f_equal. lra. }
  assert (T : exists t, R_uf1 f (17 / 10) = t /\ R_uf1 f 170 = 170 /\ t <> 17 / 10).
  { destruct Hf as [<-|[<-|[<-|[]]]]; eexists; (split; [reflexivity|]); cbn [R_uf1].
    - rewrite (Int_part_eq (17/10) 1), (Int_part_eq 170 170) by lra. split; lra.
    - rewrite (Int_part_eq (- (17/10)) (-2)), (Int_part_eq (-(170)) (-170)) by lra. split; lra.
    - rewrite Rrint_above, (Rrint_int 170). split; lra. }
  destruct T as (t & T1 & T2 & T3).
  split; [destruct Hf as [<-|[<-|[<-|[]]]]; reflexivity|].
  split; [destruct Hf as [<-|[<-|[<-|[]]]]; reflexivity|].
  rewrite T1, T2. intros S. specialize (S phi HC). unfold phys, scalar, amap in S. cbn [mag qdim shp dat map] in S.
  assert (S' : t * dimval phi d_m = 170 * dimval phi d_cm) by (injection S; auto).
  rewrite (ex_cm_size phi HC) in S'. pose proof (dimval_pos phi d_m) as P. apply T3.
  apply (Rmult_eq_reg_r (dimval phi d_m)); lra.
Qed.
Example C38_example :
  apply1 exE (fun x => npow x (PInt 2)) USquare (Qty (scalar (zq 3)) d_ms) =
    Ok (Qty (scalar (zq 9)) [(u_m, PInt 2); (u_s, PInt (-2))]) /\
  apply2 nmax (rule_of2 UMaximum) (OQ (Qty (Arr [2%nat] (qcs [1; 5]%Z)) d_m)) (OQ (Qty (scalar (zq 3)) d_m)) =
    Ok (Qty (Arr [2%nat] (qcs [3; 5]%Z)) d_m) /\
  Forall (value_defined USqrt) [4; 2].
Proof.
  split; [vm_compute; reflexivity|]. split; [vm_compute; reflexivity|]. repeat constructor; cbn; lra.
Qed.

(** C39 *)
Definition uniform_ufuncs : list uf2 := [UAdd; USubtract; UMod; UFmod; UHypot; UMaximum; UMinimum].
Lemma uniform_rule f : In f uniform_ufuncs -> rule_of2 f = RUniform.
Proof. intros [<-|[<-|[<-|[<-|[<-|[<-|[<-|[]]]]]]]]; reflexivity. Qed.
(** For every number type and every elementwise function: also the comparison ufuncs
    (np.equal, np.less, ...), whose rule is the same. *)
Theorem C39_two_quantities : forall A (N : Num A) C (g : A -> A -> C) f (q1 q2 : qty A),
  In f uniform_ufuncs -> wf_dims (qdim q1) -> wf_dims (qdim q2) ->
  ((exists r, apply2 g (rule_of2 f) (OQ q1) (OQ q2) = Ok r) <->
   (forall u, exp_of (qdim q1) u = exp_of (qdim q2) u) /\ broadcast (shp (mag q1)) (shp (mag q2))) /\
  (forall r, apply2 g (rule_of2 f) (OQ q1) (OQ q2) = Ok r -> qdim r = qdim q1) /\
  (forall e, apply2 g (rule_of2 f) (OQ q1) (OQ q2) = Err e -> e = ValueError).
Proof.
  intros A N C g f q1 q2 Hf W1 W2. rewrite (uniform_rule f Hf). unfold broadcast. rewrite <- (amap2_ok g).
  rewrite <- (dim_eqb_exp _ _ W1 W2). unfold apply2. cbn [odat pd2].
  destruct (amap2 g (mag q1) (mag q2)) as [m|e] eqn:Em; cbn [bind].
  - destruct (dim_eqb (qdim q1) (qdim q2)) eqn:He; cbn [bind].
    + split; [split; eauto|]. split; [intros r [= <-]; reflexivity|discriminate].
    + split; [split; [intros [r X]; discriminate|intros [X _]; discriminate]|]. split; [discriminate|]. now intros e [= <-].
  - split; [split; [intros [r X]; discriminate|intros [_ [r X]]; discriminate]|].
    split; [discriminate|]. intros e' [= <-]. exact (amap2_err _ _ _ Em).
Qed.
(** Against plain numbers: accepted exactly for zeros or dimensionless quantities;
    otherwise the error is an AttributeError, not the documented ValueError. *)
Theorem C39_plain_operand : forall A (N : Num A) C (g : A -> A -> C) f (q : qty A) a o1 o2,
  In f uniform_ufuncs -> (o1 = OQ q /\ o2 = OArr a \/ o1 = OArr a /\ o2 = OQ q) ->
  broadcast (shp (odat o1)) (shp (odat o2)) ->
  ((exists r, apply2 g (rule_of2 f) o1 o2 = Ok r) <->
   qdim q = [] \/ Forall (fun x => neqb x n0 = true) (dat a)) /\
  (forall r, apply2 g (rule_of2 f) o1 o2 = Ok r -> qdim r = qdim q) /\
  (forall e, apply2 g (rule_of2 f) o1 o2 = Err e -> e = AttributeError).
Proof.
  intros A N C g f q a o1 o2 Hf Ho Hb. rewrite (uniform_rule f Hf). apply (amap2_ok g) in Hb. destruct Hb as [m Hm].
  assert (K : (negb (dim_nonempty (qdim q)) || all_zero a = true) <->
              (qdim q = [] \/ Forall (fun x => neqb x n0 = true) (dat a))).
  { rewrite orb_true_iff. unfold all_zero. rewrite forallb_forall, Forall_forall. destruct (qdim q); cbn; intuition discriminate. }
  assert (G : apply2 g RUniform o1 o2 = if negb (dim_nonempty (qdim q)) || all_zero a then Ok (Qty m (qdim q)) else Err AttributeError).
  { unfold apply2. rewrite Hm. cbn [bind]. destruct Ho as [[-> ->]|[-> ->]]; cbn [pd2];
      destruct (negb (dim_nonempty (qdim q)) || all_zero a); reflexivity. }
  rewrite G, <- K. destruct (negb (dim_nonempty (qdim q)) || all_zero a).
  - split; [split; eauto|]. split; [now intros r [= <-]|discriminate].
  - split; [split; [intros [r X]; discriminate|discriminate]|]. split; [discriminate|now intros e [= <-]].
Qed.
(** Unlike the operators, these ufuncs do not convert: m and cm are refused. *)
Example C39_example :
  apply2 nadd (rule_of2 UAdd) (OQ (Qty (scalar (zq 1)) d_m)) (OQ (Qty (scalar (zq 1)) d_cm)) = Err ValueError /\
  apply2 nadd (rule_of2 UAdd) (OQ (Qty (scalar (zq 1)) d_m)) (OArr (scalar (zq 0))) = Ok (Qty (scalar (zq 1)) d_m) /\
  apply2 nadd (rule_of2 UAdd) (OQ (Qty (scalar (zq 1)) d_m)) (OArr (scalar (zq 1))) = Err AttributeError /\
  apply2 (ncmp ULt) RUniform (OQ (Qty (scalar (zq 1)) d_m)) (OQ (Qty (scalar (zq 2)) d_m)) = Ok (Qty (scalar true) d_m).
Proof. repeat split; vm_compute; reflexivity. Qed.

(** C40 *)
Definition log_exp_ufuncs : list uf1 := [ULog; ULog10; ULog2; ULog1p; UExp; UExp2; UExpm1].
Definition trig_ufuncs : list uf1 := [USin; USinh; UCos; UCosh; UTan; UTanh].
Definition arctrig_ufuncs : list uf1 := [UArcsin; UArcsinh; UArccos; UArccosh; UArctan; UArctanh].
Theorem C40_log_exp : forall A (N : Num A) E g f (q : qty A), In f log_exp_ufuncs ->
  (qdim q = [] -> apply1 E g f q = Ok (Qty (amap g (mag q)) [])) /\
  (qdim q <> [] -> apply1 E g f q = Err ValueError).
Proof.
  intros A N E g f q Hf. assert (X : rule_of1 f = RDimless) by (unfold log_exp_ufuncs in Hf; repeat (destruct Hf as [<-|Hf]; [reflexivity|]); destruct Hf).
  unfold apply1. rewrite X. cbn [pd1]. destruct (qdim q); split; intros H; try reflexivity; congruence.
Qed.
Theorem C40_arctrig : forall A (N : Num A) E g f (q : qty A), In f arctrig_ufuncs ->
  (qdim q = [] -> apply1 E g f q = Ok (Qty (amap g (mag q)) (unit_dims k_radian))) /\
  (qdim q <> [] -> apply1 E g f q = Err ValueError).
Proof.
  intros A N E g f q Hf. assert (X : rule_of1 f = RArctrig) by (unfold arctrig_ufuncs in Hf; repeat (destruct Hf as [<-|Hf]; [reflexivity|]); destruct Hf).
  unfold apply1. rewrite X. cbn [pd1]. destruct (qdim q); split; intros H; try reflexivity; congruence.
Qed.
Theorem C40_trig : forall E f q, In f trig_ufuncs -> renv_ok E -> dims_ok (qdim q) ->
  (converts E (qdim q) (unit_dims k_radian) 1 -> np1 E f q = Ok (Qty (amap (R_uf1 f) (mag q)) [])) /\
  (~ converts E (qdim q) (unit_dims k_radian) 1 -> np1 E f q = Err ValueError).
Proof.
  intros E f q Hf HE Hq. assert (X : rule_of1 f = RTrig) by (unfold trig_ufuncs in Hf; repeat (destruct Hf as [<-|Hf]; [reflexivity|]); destruct Hf).
  assert (D1 : dims_ok (unit_dims k_radian)) by (apply dims_okb_ok; reflexivity).
  unfold np1, apply1. rewrite X. cbn [pd1]. rewrite <- (units_eq_iff E (qdim q) k_radian HE Hq D1).
  destruct (units_eq E (qdim q) k_radian); split; intros H; try reflexivity; congruence.
Qed.
Example C40_example :
  apply1 exE (fun x => x) UExp (Qty (scalar (zq 3)) d_m) = Err ValueError /\
  apply1 exE (fun x => x) USin (Qty (scalar (zq 3)) (unit_dims k_radian)) = Ok (Qty (scalar (zq 3)) []) /\
  apply1 exE (fun x => x) USin (Qty (scalar (zq 3)) []) = Ok (Qty (scalar (zq 3)) []) /\
  apply1 exE (fun x => x) USin (Qty (scalar (zq 3)) d_m) = Err ValueError.
Proof. repeat split; vm_compute; reflexivity. Qed.

(** C41 *)
(** What holds: the first argument is checked. *)
Theorem C41_first_checked : forall A (N : Num A) g f (q1 : qty A) o2, In f [ULogaddexp; ULogaddexp2] ->
  broadcast (shp (mag q1)) (shp (odat o2)) ->
  (qdim q1 <> [] -> apply2 g (rule_of2 f) (OQ q1) o2 = Err (A := qty A) ValueError) /\
  (qdim q1 = [] -> exists r, apply2 g (rule_of2 f) (OQ q1) o2 = Ok (A := qty A) r /\ qdim r = []).
Proof.
  intros A N g f q1 o2 Hf Hb. assert (X : rule_of2 f = RDimless2) by (destruct Hf as [<-|[<-|[]]]; reflexivity).
  rewrite X. apply (amap2_ok g) in Hb. destruct Hb as [m Hm]. unfold apply2. cbn [odat]. rewrite Hm. cbn [bind pd2].
  split; intros H; destruct (qdim q1); cbn; try congruence. eexists. split; reflexivity.
Qed.
(** The second is not: whatever its units, its raw magnitudes are used. *)
Theorem C41_second_unchecked_refuted : forall (f : uf2) (q1 : qty R) (m2 : arr R) (d2 : dims), In f [ULogaddexp; ULogaddexp2] ->
  qdim q1 = [] -> broadcast (shp (mag q1)) (shp m2) ->
  exists r, np2 f (OQ q1) (OQ (Qty m2 d2)) = Ok r /\ qdim r = [] /\ np2 f (OQ q1) (OArr m2) = Ok r.
Proof.
  intros f q1 m2 d2 Hf Hd Hb. assert (X : rule_of2 f = RDimless2) by (destruct Hf as [<-|[<-|[]]]; reflexivity).
  unfold np2. rewrite X. apply (amap2_ok (R_uf2 f)) in Hb. destruct Hb as [m Hm]. unfold apply2. cbn [odat mag]. rewrite Hm.
  cbn [bind pd2]. rewrite Hd. cbn. eexists. repeat split; reflexivity.
Qed.
Example C41_example :
  apply2 nadd (rule_of2 ULogaddexp) (OQ (Qty (scalar (zq 3)) [])) (OQ (Qty (scalar (zq 3)) d_m)) = Ok (Qty (scalar (zq 6)) []) /\
  apply2 nadd (rule_of2 ULogaddexp) (OQ (Qty (scalar (zq 3)) d_m)) (OQ (Qty (scalar (zq 3)) [])) = Err ValueError.
Proof. split; vm_compute; reflexivity. Qed.

(** np.multiply, np.true_divide and np.floor_divide, called directly, also give the units and
    the values of the mathematical operation (the floor being that of the raw quotient, C31). *)
Theorem C38_products : forall f o1 o2 (r : qty R) phi,
  In f [UMultiply; UDivide; UFloorDivide] -> operand_ok o1 -> operand_ok o2 ->
  (f = UDivide -> Forall (fun y => y <> 0) (dat (odat o2))) -> np2 f o1 o2 = Ok r ->
  qty_ok r /\
  (f = UMultiply -> (forall u, exp_of (qdim r) u = (exp_of (odims o1) u + exp_of (odims o2) u)%Qc) /\
     amap2 Rmult (ophys phi o1) (ophys phi o2) = Ok (phys phi r)) /\
  (f = UDivide -> (forall u, exp_of (qdim r) u = (exp_of (odims o1) u - exp_of (odims o2) u)%Qc) /\
     amap2 Rdiv (ophys phi o1) (ophys phi o2) = Ok (phys phi r)) /\
  (f = UFloorDivide -> (forall u, exp_of (qdim r) u = (exp_of (odims o1) u - exp_of (odims o2) u)%Qc) /\
     amap2 (fun x y => nfloor (x / y) * (dimval phi (odims o1) / dimval phi (odims o2))) (odat o1) (odat o2) = Ok (phys phi r)).
Proof.
  intros f o1 o2 r phi Hf H1 H2 Hnz H.
  destruct Hf as [<-|[<-|[<-|[]]]].
  - destruct (C28_products o1 o2 r H1 H2 H) as (X & Y & Z0). split; [exact Y|]. split; [intros _; split; [exact X|apply Z0]|]. split; intros D; discriminate D.
  - destruct (C28_quotients o1 o2 r H1 H2 (Hnz eq_refl) H) as (X & Y & Z0). split; [exact Y|]. split; [intros D; discriminate D|]. split; [intros _; split; [exact X|apply Z0]|intros D; discriminate D].
  - destruct (C31_floor_div_units o1 o2 r phi H1 H2 H) as (X & Y & Z0). split; [exact Y|]. split; [intros D; discriminate D|]. split; [intros D; discriminate D|intros _; split; [exact X|exact Z0]].
Qed.
(** They accept every two operands of which one is a quantity and whose shapes broadcast, in
    every arithmetic. *)
Theorem C38_products_defined : forall A (N : Num A) (g : A -> A -> A) f (o1 o2 : operand A),
  In f [UMultiply; UDivide; UFloorDivide] -> (exists q, o1 = OQ q \/ o2 = OQ q) ->
  ((exists r, apply2 g (rule_of2 f) o1 o2 = Ok r) <-> broadcast (shp (odat o1)) (shp (odat o2))).
Proof.
  intros A N g f o1 o2 Hf Hq.
  assert (G : forall op : operand A -> operand A -> res (qty A), forall ru, (forall a b, op a b = apply2 g ru a b) -> (exists d, pd2 ru o1 o2 = Ok d) ->
    ((exists r, op o1 o2 = Ok r) <-> broadcast (shp (odat o1)) (shp (odat o2)))).
  { intros op ru E (d & D). rewrite E. unfold broadcast. rewrite <- (amap2_ok g). split; intros [r Hr].
    - apply apply2_inv in Hr. destruct Hr as [Hr _]. eauto.
    - exists (Qty r d). now apply apply2_intro. }
  destruct Hf as [<-|[<-|[<-|[]]]]; apply (G (apply2 g _) _ (fun a b => eq_refl)); (destruct Hq as [q [-> | ->]]; [destruct o2|destruct o1]; cbn; eauto).
Qed.

(** Specification-level: what each rounding ufunc promises about one element. *)
Definition rounds (f : uf1) (x : R) (n : Z) : Prop :=
  match f with
  | UFloor => IZR n <= x < IZR n + 1
  | UCeil => IZR n - 1 < x <= IZR n
  | _ => Rabs (x - IZR n) <= 1 / 2 /\ (Rabs (x - IZR n) = 1 / 2 -> Z.even n = true)
  end.
Theorem C38_rounding_values : forall E f (q : qty R), In f [UFloor; UCeil; URint] ->
  exists r (ns : list Z), np1 E f q = Ok r /\ qdim r = qdim q /\ shp (mag r) = shp (mag q) /\
    dat (mag r) = map IZR ns /\ Forall2 (rounds f) (dat (mag q)) ns.
Proof.
  intros E f q Hf.
  assert (K : forall x, exists n, R_uf1 f x = IZR n /\ rounds f x n).
  { intros x. destruct (base_Int_part x) as [P1 P2]. destruct Hf as [<-|[<-|[<-|[]]]]; cbn [R_uf1 rounds].
    - exists (Int_part x). split; [reflexivity|lra].
    - exists (- Int_part (- x))%Z. destruct (base_Int_part (- x)) as [Q1 Q2]. rewrite opp_IZR. split; [reflexivity|lra].
    - unfold Rrint. set (n := Int_part x) in *. destruct (Rltb (x - IZR n) (1 / 2)) eqn:X.
      + apply Rltb_true in X. exists n. split; [reflexivity|]. rewrite Rabs_pos_eq by lra. split; [lra|intros Y; lra].
      + apply Rltb_false in X. destruct (Rltb (1 / 2) (x - IZR n)) eqn:Y.
        * apply Rltb_true in Y. exists (n + 1)%Z. split; [reflexivity|]. rewrite plus_IZR, Rabs_left1 by lra. split; [lra|intros ?; lra].
        * apply Rltb_false in Y. destruct (Z.even n) eqn:Ev.
          -- exists n. split; [reflexivity|]. rewrite Rabs_pos_eq by lra. split; [lra|auto].
          -- exists (n + 1)%Z. split; [reflexivity|]. rewrite plus_IZR, Rabs_left1 by lra. split; [lra|]. intros _.
             rewrite Z.even_add, Ev. reflexivity. }
  assert (L : forall l, exists ns, map (R_uf1 f) l = map IZR ns /\ Forall2 (rounds f) l ns).
  { induction l as [|x l (ns & I1 & I2)]; [exists []; split; [reflexivity|constructor]|].
    destruct (K x) as (n & K1 & K2). exists (n :: ns). cbn [map]. rewrite K1, I1. split; [reflexivity|now constructor]. }
  destruct (L (dat (mag q))) as (ns & L1 & L2). exists (Qty (amap (R_uf1 f) (mag q)) (qdim q)), ns.
  split; [destruct Hf as [<-|[<-|[<-|[]]]]; reflexivity|]. repeat split; assumption.
Qed.
Example C38_rounding_example : rounds URint (5 / 2) 2 /\ rounds URint (7 / 2) 4 /\ rounds UFloor (-3 / 2) (-2) /\ rounds UCeil (-3 / 2) (-1) /\ ~ rounds URint (5 / 2) 3.
Proof.
  assert (A : Rabs (5 / 2 - 2) = 1 / 2) by (rewrite Rabs_pos_eq; lra). assert (B : Rabs (7 / 2 - 4) = 1 / 2) by (rewrite Rabs_left1; lra).
  assert (C : Rabs (5 / 2 - 3) = 1 / 2) by (rewrite Rabs_left1; lra).
  cbn [rounds]. rewrite A, B, C. repeat split; try lra; try (intros _; reflexivity). intros [_ H]. specialize (H eq_refl). discriminate.
Qed.

(** np.mod has the sign of the divisor, np.fmod that of the dividend. *)
Theorem C38_remainders : forall f o1 o2 (r : qty R), In f [UMod; UFmod] ->
  np2 f o1 o2 = Ok r ->
  exists g : R -> R -> R, amap2 g (odat o1) (odat o2) = Ok (mag r) /\
    forall x y, y <> 0 -> exists k : Z, x = IZR k * y + g x y /\ Rabs (g x y) < Rabs y /\
      (f = UMod -> 0 <= g x y * y) /\ (f = UFmod -> 0 <= g x y * x).
Proof.
  intros f o1 o2 r Hf H. exists (R_uf2 f). split; [apply apply2_inv in H; apply H|]. intros x y Hy.
  assert (P : forall t, t <> 0 -> 0 < t * / t * (t * t)) by (intros t Ht; rewrite Rinv_r by auto; nra).
  assert (Iy : x = x / y * y) by (field; auto).
  destruct Hf as [<-|[<-|[]]]; cbn [R_uf2].
  - exists (Int_part (x / y)). unfold nmod. cbn. destruct (base_Int_part (x / y)) as [P1 P2].
    set (n := IZR (Int_part (x / y))) in *. set (q := x / y) in *. assert (E : x - n * y = (q - n) * y) by (rewrite Iy at 1; ring).
    rewrite E. split; [rewrite Iy at 1; ring|]. split.
    + rewrite Rabs_mult, (Rabs_pos_eq (q - n)) by lra. pose proof (Rabs_pos_lt y Hy). nra.
    + split; [intros _; nra|discriminate].
  - unfold Rtrunc. set (q := x / y) in *. destruct (Rltb q 0) eqn:X.
    + apply Rltb_true in X. destruct (base_Int_part (- q)) as [P1 P2]. exists (- Int_part (- q))%Z. rewrite opp_IZR. set (n := IZR (Int_part (- q))) in *.
      assert (E : x - - n * y = (q + n) * y) by (rewrite Iy at 1; ring). rewrite E. split; [rewrite Iy at 1; ring|]. split.
      * rewrite Rabs_mult, (Rabs_left1 (q + n)) by lra. pose proof (Rabs_pos_lt y Hy). nra.
      * split; [discriminate|intros _]. rewrite Iy at 1.
        assert (A1 : 0 <= y * y) by nra. assert (A2 : 0 <= - (q + n) * - q) by (apply Rmult_le_pos; lra). replace ((q + n) * y * (q * y)) with (- (q + n) * - q * (y * y)) by ring. now apply Rmult_le_pos.
    + apply Rltb_false in X. destruct (base_Int_part q) as [P1 P2]. exists (Int_part q).
      assert (Hn : 0 <= IZR (Int_part q)) by (apply IZR_le; assert (-1 < Int_part q)%Z by (apply lt_IZR; lra); lia).
      set (n := IZR (Int_part q)) in *.
      assert (E : x - n * y = (q - n) * y) by (rewrite Iy at 1; ring). rewrite E. split; [rewrite Iy at 1; ring|]. split.
      * rewrite Rabs_mult, (Rabs_pos_eq (q - n)) by lra. pose proof (Rabs_pos_lt y Hy). nra.
      * split; [discriminate|intros _]. rewrite Iy at 1.
        assert (A1 : 0 <= y * y) by nra. assert (A2 : 0 <= (q - n) * q) by (apply Rmult_le_pos; lra). replace ((q - n) * y * (q * y)) with ((q - n) * q * (y * y)) by ring. now apply Rmult_le_pos.
Qed.
Lemma Ratan2_angle : forall x y, (x <> 0 \/ y <> 0) ->
  let t := Ratan2 y x in let h := sqrt (x * x + y * y) in
  x = h * cos t /\ y = h * sin t /\ - PI < t <= PI.
Proof.
  intros x y Hn t h. subst t h.
  assert (T : forall a, 0 < cos (atan a) /\ sin (atan a) = a * cos (atan a)).
  { intros a. destruct (atan_bound a) as [B1 B2]. assert (C : 0 < cos (atan a)) by (apply cos_gt_0; lra). split; [exact C|].
    pose proof (tan_atan a) as E. unfold tan in E. rewrite <- E at 2. field. lra. }
  assert (Sq : forall c s k, 0 <= k -> c * c + s * s = 1 -> sqrt (k * c * (k * c) + k * s * (k * s)) = k).
  { intros c s k Hk E. replace (k * c * (k * c) + k * s * (k * s)) with (k * k) by (transitivity (k * k * (c * c + s * s)); [rewrite E; ring|ring]). now apply sqrt_square. }
  assert (CS : forall t, cos t * cos t + sin t * sin t = 1) by (intros t; pose proof (sin2_cos2 t) as E; unfold Rsqr in E; lra).
  assert (G : forall t k, 0 <= k -> x = k * cos t -> y = k * sin t -> - PI < t <= PI ->
     x = sqrt (x * x + y * y) * cos t /\ y = sqrt (x * x + y * y) * sin t /\ - PI < t <= PI).
  { intros t k Hk E1 E2 B. assert (E : sqrt (x * x + y * y) = k) by (rewrite E1, E2; apply Sq; auto). rewrite E. auto. }
  pose proof PI_RGT_0. unfold Ratan2. destruct (T (y / x)) as [C0 S0]. destruct (atan_bound (y / x)) as [B1 B2].
  destruct (Rltb 0 x) eqn:X.
  - apply Rltb_true in X. apply (G _ (x / cos (atan (y / x)))); [apply Rlt_le, Rdiv_lt_0_compat; lra|field; lra|rewrite S0; field; lra|lra].
  - apply Rltb_false in X. destruct (Rltb x 0) eqn:X'.
    + apply Rltb_true in X'. destruct (Rleb 0 y) eqn:Y.
      * apply Rleb_true in Y. assert (y / x <= 0). { unfold Rdiv. assert (/ x < 0) by now apply Rinv_lt_0_compat. nra. }
        assert (atan (y / x) <= 0). { destruct (Req_dec (y / x) 0) as [->|]; [rewrite atan_0; lra|]. rewrite <- atan_0. apply Rlt_le, atan_increasing. lra. }
        apply (G _ (- x / cos (atan (y / x)))); [apply Rlt_le, Rdiv_lt_0_compat; lra|rewrite neg_cos; field; lra|rewrite neg_sin, S0; field; lra|lra].
      * apply Rleb_false in Y. assert (0 < y / x). { unfold Rdiv. assert (/ x < 0) by now apply Rinv_lt_0_compat. nra. }
        assert (0 < atan (y / x)). { rewrite <- atan_0. apply atan_increasing. lra. }
        assert (E1 : forall a, cos (a - PI) = - cos a) by (intros a; rewrite <- (cos_period (a - PI) 1); replace (a - PI + 2 * INR 1 * PI) with (a + PI) by (cbn; ring); apply neg_cos).
        assert (E2 : forall a, sin (a - PI) = - sin a) by (intros a; rewrite <- (sin_period (a - PI) 1); replace (a - PI + 2 * INR 1 * PI) with (a + PI) by (cbn; ring); apply neg_sin).
        apply (G _ (- x / cos (atan (y / x)))); [apply Rlt_le, Rdiv_lt_0_compat; lra|rewrite E1; field; lra|rewrite E2, S0; field; lra|lra].
    + apply Rltb_false in X'. assert (x = 0) by lra. subst x. destruct (Rltb 0 y) eqn:Y.
      * apply Rltb_true in Y. apply (G _ y); [lra|rewrite cos_PI2; ring|rewrite sin_PI2; ring|lra].
      * apply Rltb_false in Y. destruct (Rltb y 0) eqn:Y'.
        -- apply Rltb_true in Y'. apply (G _ (- y)); [lra|rewrite cos_neg, cos_PI2; ring|rewrite sin_neg, sin_PI2; ring|lra].
        -- apply Rltb_false in Y'. exfalso. destruct Hn; lra.
Qed.
(** np.arctan2(y, x) is the angle at which the point (x, y) lies: above minus a half turn, at most
    a half turn. *)
Theorem C38_angle : forall o1 o2 (r : qty R), np2 UArctan2 o1 o2 = Ok r ->
  exists g : R -> R -> R, amap2 g (odat o1) (odat o2) = Ok (mag r) /\
    forall y x, (x <> 0 \/ y <> 0) -> exists h, 0 < h /\ h * h = x * x + y * y /\
      x = h * cos (g y x) /\ y = h * sin (g y x) /\ - PI < g y x <= PI.
Proof.
  intros o1 o2 r H. exists Ratan2. split; [apply apply2_inv in H; apply H|]. intros y x Hn.
  assert (P : 0 < x * x + y * y) by (destruct Hn; nra).
  exists (sqrt (x * x + y * y)). split; [now apply sqrt_lt_R0|]. split; [apply sqrt_sqrt; lra|]. now apply Ratan2_angle.
Qed.

Print Assumptions C38_unary.
Print Assumptions C38_unary_unit_independent.
Print Assumptions C38_uniform.
Print Assumptions C38_uniform_plain.
Print Assumptions C38_arctan2.
Print Assumptions C38_radians_degrees.
Print Assumptions C38_rounding_refuted.
Print Assumptions C39_two_quantities.
Print Assumptions C39_plain_operand.
Print Assumptions C40_log_exp.
Print Assumptions C40_arctrig.
Print Assumptions C40_trig.
Print Assumptions C41_first_checked.
Print Assumptions C41_second_unchecked_refuted.
Print Assumptions C38_products.
Print Assumptions C38_products_defined.
Print Assumptions C38_rounding_values.
Print Assumptions C38_remainders.
Print Assumptions C38_angle.
