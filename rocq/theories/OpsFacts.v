(** * OpsFacts: lemmas about operators and ufuncs. *)
From Coq Require Import Reals Lra.
From Verif Require Import Py Num Dim DimFacts Arr ArrFacts Units Spec UnitFacts Quant QuantFacts SpecApi ConvFacts Ufunc Ops.

Open Scope R_scope.

(** Physical value of an operand: plain data are pure numbers. *)
Definition ophys (phi : interp) (o : operand R) : arr R :=
  match o with OQ q => phys phi q | OArr a => a end.
Definition operand_ok {A} (o : operand A) : Prop :=
  match o with OQ q => qty_ok q | OArr a => awf a end.
Definition odims {A} (o : operand A) : dims := match o with OQ q => qdim q | OArr _ => [] end.

Lemma phys_shp phi q : shp (phys phi q) = shp (mag q).
Proof. reflexivity. Qed.
Lemma phys_awf phi q : awf (mag q) -> awf (phys phi q).
Proof. apply awf_amap. Qed.
Lemma ophys_shp phi o : shp (ophys phi o) = shp (odat o).
Proof. destruct o; reflexivity. Qed.
Lemma dimval_nil phi : dimval phi [] = 1.
Proof. reflexivity. Qed.
Lemma amap_mul1 (a : arr R) : amap (fun x => x * 1) a = a.
Proof. rewrite (amap_ext _ (fun x => x)); [apply amap_id|]. intros; ring. Qed.
Lemma ophys_eq phi o : ophys phi o = amap (fun x => x * dimval phi (odims o)) (odat o).
Proof. destruct o; [reflexivity|]. cbn [ophys odims odat dimval]. symmetry. apply amap_mul1. Qed.
Lemma phys_as_q phi o : phys phi (as_q o) = ophys phi o.
Proof. destruct o; [reflexivity|]. cbn. unfold phys; cbn. apply amap_mul1. Qed.
Lemma as_q_ok (o : operand R) : operand_ok o -> qty_ok (as_q o).
Proof. destruct o; cbn; auto. intros H; split; [exact H|apply dims_ok_nil]. Qed.
Lemma qdim_as_q (o : operand R) : qdim (as_q o) = odims o.
Proof. destruct o; reflexivity. Qed.
Lemma mag_as_q (o : operand R) : mag (as_q o) = odat o.
Proof. destruct o; reflexivity. Qed.

Lemma amap2_ok {A B C} (f : A -> B -> C) a b : (exists r, amap2 f a b = Ok r) <-> exists s, bc_shape (shp a) (shp b) = Some s.
Proof. unfold amap2. destruct (bc_shape (shp a) (shp b)); split; intros [x H]; try discriminate; eauto. Qed.
Lemma amap2_ok' {A B C D} (f : A -> B -> C) (g : A -> B -> D) a b a' b' :
  shp a = shp a' -> shp b = shp b' -> is_ok (amap2 f a b) = is_ok (amap2 g a' b').
Proof. intros H1 H2. unfold amap2. rewrite H1, H2. now destruct (bc_shape _ _). Qed.

(** ** [scale_other] *)
Lemma scale_other_rescale {A} {N : Num A} (E : uenv A) self other :
  scale_other E self other = rescale_to E (as_q other) (qdim self).
Proof.
  unfold scale_other, rescale_to. now destruct (dim_eqb (qdim (as_q other)) (qdim self)).
Qed.
Lemma scale_other_spec (E : uenv R) self other o : renv_ok E -> qty_ok self -> operand_ok other ->
  scale_other E self other = Ok o ->
  dim_eqb (qdim o) (qdim self) = true /\ qty_ok o /\ shp (mag o) = shp (odat other) /\
  forall phi, consistent E phi -> phys phi o = ophys phi other.
Proof.
  intros HE Hs Ho H. rewrite scale_other_rescale in H. apply as_q_ok in Ho.
  split; [exact (rescale_to_eqb E _ _ o (proj1 (proj2 Ho)) (proj1 (proj2 Hs)) H)|].
  split; [exact (rescale_to_qty_ok E _ _ o Ho (proj2 Hs) H)|].
  split; [rewrite (rescale_to_shape E _ _ o H), mag_as_q; reflexivity|].
  intros phi HC. rewrite <- phys_as_q. exact (rescale_value E _ _ o HE (proj2 Ho) (proj2 Hs) H phi HC).
Qed.
Lemma scale_other_ok_iff (E : uenv R) self other : renv_ok E -> qty_ok self -> operand_ok other ->
  ((exists o, scale_other E self other = Ok o) <-> convertible E (odims other) (qdim self)).
Proof.
  intros HE Hs Ho. rewrite scale_other_rescale. apply as_q_ok in Ho. rewrite <- qdim_as_q.
  exact (rescale_ok_iff E _ _ HE (proj2 Ho) (proj2 Hs)).
Qed.
Lemma scale_other_err {A} {N : Num A} (E : uenv A) self other e : scale_other E self other = Err e -> e = ValueError.
Proof. rewrite scale_other_rescale. apply rescale_to_err. Qed.

(** ** Uniform operations *)
(** [f] commutes with a common positive factor. *)
Definition homog (f : R -> R -> R) : Prop := forall v x y, 0 < v -> f (x * v) (y * v) = f x y * v.

Lemma apply2_uniform_inv {A C} {N : Num A} (g : A -> A -> C) q1 q2 r :
  apply2 g RUniform (OQ q1) (OQ q2) = Ok r ->
  dim_eqb (qdim q1) (qdim q2) = true /\ qdim r = qdim q1 /\ amap2 g (mag q1) (mag q2) = Ok (mag r).
Proof.
  unfold apply2. cbn [odat pd2]. destruct (amap2 g (mag q1) (mag q2)) as [m|]; cbn [bind]; [|discriminate].
  destruct (dim_eqb (qdim q1) (qdim q2)); cbn [bind]; [|discriminate]. intros [= <-]. auto.
Qed.
Lemma apply2_uniform_phys (f : R -> R -> R) q1 q2 r phi :
  wf_dims (qdim q1) -> wf_dims (qdim q2) -> homog f ->
  apply2 f RUniform (OQ q1) (OQ q2) = Ok r ->
  amap2 f (phys phi q1) (phys phi q2) = Ok (phys phi r).
Proof.
  intros W1 W2 Hf H. apply apply2_uniform_inv in H. destruct H as (He & Hd & Hm).
  unfold phys at 1 2. rewrite <- (dimval_eqb phi _ _ W1 W2 He). rewrite amap2_amap.
  rewrite (amap2_ext _ (fun x y => f x y * dimval phi (qdim q1))).
  2:{ intros x y. apply Hf. apply dimval_pos. }
  rewrite <- (rmap_amap_amap2 (fun z => z * dimval phi (qdim q1))), Hm. cbn [rmap].
  unfold phys. now rewrite Hd.
Qed.
Lemma apply2_qty_ok {C} (g : R -> R -> C) ru o1 o2 r : operand_ok o1 -> operand_ok o2 ->
  apply2 g ru o1 o2 = Ok r -> (forall d, pd2 ru o1 o2 = Ok d -> dims_ok d) -> qty_ok r.
Proof.
  intros H1 H2 H Hd. unfold apply2 in H.
  destruct (amap2 g (odat o1) (odat o2)) as [m|] eqn:Em; cbn [bind] in H; [|discriminate].
  destruct (pd2 ru o1 o2) as [d|] eqn:Ed; cbn [bind] in H; [|discriminate]. injection H as <-.
  split; cbn [mag qdim]; [|apply Hd; reflexivity].
  refine (awf_amap2 g (a := odat o1) (b := odat o2) _ _ Em).
  - destruct o1; [apply H1|exact H1].
  - destruct o2; [apply H2|exact H2].
Qed.

Lemma homog_add : homog Rplus. Proof. intros v x y _. ring. Qed.
Lemma homog_sub : homog Rminus. Proof. intros v x y _. ring. Qed.
Lemma div_common v x y : 0 < v -> (x * v) / (y * v) = x / y.
Proof.
  intros H. destruct (Req_dec y 0) as [->|Hy].
  - rewrite Rmult_0_l. unfold Rdiv. rewrite Rinv_0. ring.
  - field. lra.
Qed.
Lemma homog_mod : homog (nmod (A := R)).
Proof. intros v x y H. unfold nmod. cbn. rewrite div_common by assumption. ring. Qed.
Lemma homog_max : homog Rmax.
Proof. intros v x y H. rewrite !(Rmult_comm _ v). apply RmaxRmult. lra. Qed.
Lemma homog_min : homog Rmin.
Proof.
  intros v x y H. unfold Rmin. destruct (Rle_dec (x*v) (y*v)) as [h|h], (Rle_dec x y) as [k|k]; auto; exfalso.
  - apply k. apply Rmult_le_reg_r with v; auto.
  - apply h. apply Rmult_le_compat_r; lra.
Qed.
Lemma homog_hypot : homog (fun x y => sqrt (x * x + y * y)).
Proof.
  intros v x y H. replace (x * v * (x * v) + y * v * (y * v)) with ((x * x + y * y) * (v * v)) by ring.
  rewrite sqrt_mult_alt by (pose proof (Rle_0_sqr x); pose proof (Rle_0_sqr y); unfold Rsqr in *; lra).
  rewrite sqrt_square by lra. reflexivity.
Qed.
Lemma homog_fmod : homog (fun x y => x - Rtrunc (x / y) * y).
Proof. intros v x y H. cbn. rewrite div_common by assumption. ring. Qed.

(** The scheme of [+], [-], [%]. *)
Lemma uniform_op_spec (E : uenv R) (f : R -> R -> R) self other r : homog f ->
  renv_ok E -> qty_ok self -> operand_ok other ->
  (o <- scale_other E self other ;; apply2 f RUniform (OQ self) (OQ o)) = Ok r ->
  qdim r = qdim self /\ qty_ok r /\
  forall phi, consistent E phi -> amap2 f (phys phi self) (ophys phi other) = Ok (phys phi r).
Proof.
  intros Hf HE Hs Ho H. destruct (scale_other E self other) as [o|] eqn:Es; cbn [bind] in H; [|discriminate].
  destruct (scale_other_spec E self other o HE Hs Ho Es) as (He & Hok & Hsh & Hp).
  pose proof (apply2_uniform_inv _ _ _ _ H) as (He' & Hd & Hm).
  split; [exact Hd|]. split.
  - apply (apply2_qty_ok f RUniform (OQ self) (OQ o) r Hs Hok H). intros d. cbn [pd2].
    rewrite He'. intros [= <-]. apply Hs.
  - intros phi HC. rewrite <- (Hp phi HC).
    exact (apply2_uniform_phys f self o r phi (proj1 (proj2 Hs)) (proj1 (proj2 Hok)) Hf H).
Qed.
Lemma uniform_rop_spec (E : uenv R) (f : R -> R -> R) self other r : homog f ->
  renv_ok E -> qty_ok self -> operand_ok other ->
  (o <- scale_other E self other ;; apply2 f RUniform (OQ o) (OQ self)) = Ok r ->
  (forall u, exp_of (qdim r) u = exp_of (qdim self) u) /\ qty_ok r /\
  forall phi, consistent E phi -> amap2 f (ophys phi other) (phys phi self) = Ok (phys phi r).
Proof.
  intros Hf HE Hs Ho H. destruct (scale_other E self other) as [o|] eqn:Es; cbn [bind] in H; [|discriminate].
  destruct (scale_other_spec E self other o HE Hs Ho Es) as (He & Hok & Hsh & Hp).
  pose proof (apply2_uniform_inv _ _ _ _ H) as (He' & Hd & Hm).
  split.
  { intros u. rewrite Hd. exact (proj1 (dim_eqb_exp _ _ (proj1 (proj2 Hok)) (proj1 (proj2 Hs))) He u). }
  split.
  - apply (apply2_qty_ok f RUniform (OQ o) (OQ self) r Hok Hs H). intros d. cbn [pd2].
    rewrite He'. intros [= <-]. apply Hok.
  - intros phi HC. rewrite <- (Hp phi HC).
    exact (apply2_uniform_phys f o self r phi (proj1 (proj2 Hok)) (proj1 (proj2 Hs)) Hf H).
Qed.
Lemma uniform_op_iff (E : uenv R) (f : R -> R -> R) self other :
  renv_ok E -> qty_ok self -> operand_ok other ->
  ((exists r, (o <- scale_other E self other ;; apply2 f RUniform (OQ self) (OQ o)) = Ok r) <->
   convertible E (odims other) (qdim self) /\ exists s, bc_shape (shp (mag self)) (shp (odat other)) = Some s) /\
  (forall e, (o <- scale_other E self other ;; apply2 f RUniform (OQ self) (OQ o)) = Err e -> e = ValueError).
Proof.
  intros HE Hs Ho. split.
  - rewrite <- (scale_other_ok_iff E self other HE Hs Ho).
    destruct (scale_other E self other) as [o|e] eqn:Es; cbn [bind].
    + destruct (scale_other_spec E self other o HE Hs Ho Es) as (He & Hok & Hsh & Hp).
      unfold apply2. cbn [odat pd2].
      rewrite (dim_eqb_sym _ _ (proj1 (proj2 Hs)) (proj1 (proj2 Hok))), He.
      destruct (amap2 f (mag self) (mag o)) as [m|] eqn:Em; cbn [bind].
      * split; eauto. intros _. split; eauto. rewrite <- Hsh. apply (amap2_ok f). eauto.
      * split; [intros [x X]; discriminate|]. intros [_ [s X]]. rewrite <- Hsh in X.
        destruct (proj2 (amap2_ok f (mag self) (mag o))) as [y Hy]; eauto. congruence.
    + split; [intros [x X]; discriminate|]. intros [[x X] _]. discriminate.
  - intros e. destruct (scale_other E self other) as [o|e'] eqn:Es; cbn [bind].
    + destruct (scale_other_spec E self other o HE Hs Ho Es) as (He & Hok & Hsh & Hp).
      unfold apply2. cbn [odat pd2].
      rewrite (dim_eqb_sym _ _ (proj1 (proj2 Hs)) (proj1 (proj2 Hok))), He.
      destruct (amap2 f (mag self) (mag o)) as [m|] eqn:Em; cbn [bind]; [discriminate|].
      intros [= <-]. exact (amap2_err _ _ _ Em).
    + intros [= <-]. exact (scale_other_err E self other _ Es).
Qed.
Lemma uniform_rop_iff (E : uenv R) (f : R -> R -> R) self other :
  renv_ok E -> qty_ok self -> operand_ok other ->
  ((exists r, (o <- scale_other E self other ;; apply2 f RUniform (OQ o) (OQ self)) = Ok r) <->
   convertible E (odims other) (qdim self) /\ exists s, bc_shape (shp (odat other)) (shp (mag self)) = Some s) /\
  (forall e, (o <- scale_other E self other ;; apply2 f RUniform (OQ o) (OQ self)) = Err e -> e = ValueError).
Proof.
  intros HE Hs Ho. split.
  - rewrite <- (scale_other_ok_iff E self other HE Hs Ho).
    destruct (scale_other E self other) as [o|e] eqn:Es; cbn [bind].
    + destruct (scale_other_spec E self other o HE Hs Ho Es) as (He & Hok & Hsh & Hp).
      unfold apply2. cbn [odat pd2]. rewrite He.
      destruct (amap2 f (mag o) (mag self)) as [m|] eqn:Em; cbn [bind].
      * split; eauto. intros _. split; eauto. rewrite <- Hsh. apply (amap2_ok f). eauto.
      * split; [intros [x X]; discriminate|]. intros [_ [s X]]. rewrite <- Hsh in X.
        destruct (proj2 (amap2_ok f (mag o) (mag self))) as [y Hy]; eauto. congruence.
    + split; [intros [x X]; discriminate|]. intros [[x X] _]. discriminate.
  - intros e. destruct (scale_other E self other) as [o|e'] eqn:Es; cbn [bind].
    + destruct (scale_other_spec E self other o HE Hs Ho Es) as (He & Hok & Hsh & Hp).
      unfold apply2. cbn [odat pd2]. rewrite He.
      destruct (amap2 f (mag o) (mag self)) as [m|] eqn:Em; cbn [bind]; [discriminate|].
      intros [= <-]. exact (amap2_err _ _ _ Em).
    + intros [= <-]. exact (scale_other_err E self other _ Es).
Qed.

(** ** Products *)
Lemma mul_rule (o1 o2 : operand R) d : pd2 RMul o1 o2 = Ok d -> operand_ok o1 -> operand_ok o2 ->
  (forall u, exp_of d u = (exp_of (odims o1) u + exp_of (odims o2) u)%Qc) /\ dims_ok d /\
  forall phi, dimval phi d = dimval phi (odims o1) * dimval phi (odims o2).
Proof.
  intros H H1 H2. destruct o1 as [q1|a1], o2 as [q2|a2]; cbn [pd2 odims operand_ok] in *; try discriminate; injection H as <-.
  - split; [intros u; apply exp_of_mul; apply (proj1 (proj2 H1)) || apply (proj1 (proj2 H2))|].
    split; [apply dims_ok_mul; [apply H1|apply H2]|]. intros phi. apply dimval_mul.
  - split; [intros u; rewrite exp_of_nil; ring|]. split; [apply H1|]. intros phi. cbn [dimval]. ring.
  - split; [intros u; rewrite exp_of_nil; ring|]. split; [apply H2|]. intros phi. cbn [dimval]. ring.
Qed.
Lemma div_rule (o1 o2 : operand R) d : pd2 RDiv o1 o2 = Ok d -> operand_ok o1 -> operand_ok o2 ->
  (forall u, exp_of d u = (exp_of (odims o1) u - exp_of (odims o2) u)%Qc) /\ dims_ok d /\
  forall phi, dimval phi d = dimval phi (odims o1) / dimval phi (odims o2).
Proof.
  intros H H1 H2. destruct o1 as [q1|a1], o2 as [q2|a2]; cbn [pd2 odims operand_ok] in *; try discriminate; injection H as <-.
  - split; [intros u; apply exp_of_div; apply (proj1 (proj2 H1)) || apply (proj1 (proj2 H2))|].
    split; [apply dims_ok_div; [apply H1|apply H2]|]. intros phi. apply dimval_div.
  - split; [intros u; rewrite exp_of_nil; ring|]. split; [apply H1|]. intros phi. cbn. field.
  - split; [intros u; rewrite exp_of_nil, exp_of_pow; cbn [pval]; change (Z2Qc (-1)) with (-(1))%Qc; ring|].
    split; [apply dims_ok_pow; apply H2|]. intros phi. rewrite dimval_pow. cbn [pval].
    rewrite Qc2R_Z. cbn [dimval]. replace (IZR (-1)) with (Ropp 1) by lra. rewrite Rpower_Ropp, Rpower_1 by apply dimval_pos. unfold Rdiv. ring.
Qed.
Lemma apply2_inv {A C} {N : Num A} (g : A -> A -> C) ru o1 o2 r : apply2 g ru o1 o2 = Ok r ->
  amap2 g (odat o1) (odat o2) = Ok (mag r) /\ pd2 ru o1 o2 = Ok (qdim r).
Proof.
  unfold apply2. destruct (amap2 g (odat o1) (odat o2)) as [m|]; cbn [bind]; [|discriminate].
  destruct (pd2 ru o1 o2) as [d|]; cbn [bind]; [|discriminate]. intros [= <-]. auto.
Qed.
Lemma apply2_intro {A C} {N : Num A} (g : A -> A -> C) ru o1 o2 m d :
  amap2 g (odat o1) (odat o2) = Ok m -> pd2 ru o1 o2 = Ok d -> apply2 g ru o1 o2 = Ok (Qty m d).
Proof. intros H1 H2. unfold apply2. rewrite H1. cbn [bind]. now rewrite H2. Qed.
