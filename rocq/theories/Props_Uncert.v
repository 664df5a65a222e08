(** * Props_Uncert: theorems C65-C69, C86, C87 about quantities with uncertainties. *)
From Coq Require Import Reals Lra Lia.
From Verif Require Import Py Num Dim DimFacts Arr ArrFacts Units Spec SpecApi UnitFacts Quant QuantFacts ConvFacts SimpFacts Examples
  Ufunc Ops OpsFacts Lanes Methods MethodsFacts ItemFacts Props_Conv Props_Ops Props_Methods Uncert SpecUncert UncertFacts.

Open Scope R_scope.

(** ** C65: propagation of uncertainties *)
(** Sums and differences: in the units of the left operand, uncertainties in quadrature. *)
Theorem C65_add : forall E (x y z : uqty R),
  renv_ok E -> uq_ok x -> uq_ok y -> u_add E x y = Ok z ->
  uq_ok z /\ qdim (uv z) = qdim (uv x) /\
  forall phi, consistent E phi -> amap2 rule_add (meas phi x) (meas phi y) = Ok (meas phi z).
Proof. intros E x y z HE Hx Hy H. rewrite u_add_uniform in H. exact (u_uniform_spec E Rplus x y z homog_add HE Hx Hy H). Qed.
Theorem C65_sub : forall E (x y z : uqty R),
  renv_ok E -> uq_ok x -> uq_ok y -> u_sub E x y = Ok z ->
  uq_ok z /\ qdim (uv z) = qdim (uv x) /\
  forall phi, consistent E phi -> amap2 rule_sub (meas phi x) (meas phi y) = Ok (meas phi z).
Proof. intros E x y z HE Hx Hy H. rewrite u_sub_uniform in H. exact (u_uniform_spec E Rminus x y z homog_sub HE Hx Hy H). Qed.
(** They succeed exactly when the units are convertible and the shapes broadcast. *)
Theorem C65_add_defined : forall E (x y : uqty R), renv_ok E -> uq_ok x -> uq_ok y ->
  ((exists z, u_add E x y = Ok z) <-> convertible E (qdim (uv y)) (qdim (uv x)) /\ broadcast (shp (mag (uv x))) (shp (mag (uv y)))) /\
  ((exists z, u_sub E x y = Ok z) <-> convertible E (qdim (uv y)) (qdim (uv x)) /\ broadcast (shp (mag (uv x))) (shp (mag (uv y)))) /\
  (forall e, u_add E x y = Err e -> e = ValueError) /\ (forall e, u_sub E x y = Err e -> e = ValueError).
Proof.
  intros E x y HE Hx Hy. rewrite u_add_uniform, u_sub_uniform.
  destruct (u_uniform_iff E Rplus x y HE Hx Hy) as [A1 A2]. destruct (u_uniform_iff E Rminus x y HE Hx Hy) as [B1 B2]. auto.
Qed.
(** Products and quotients: relative uncertainties in quadrature. *)
Theorem C65_mul : forall (x y z : uqty R),
  uq_ok x -> uq_ok y -> nonzero_values x -> nonzero_values y -> u_mul x y = Ok z ->
  uq_ok z /\ (forall w, exp_of (qdim (uv z)) w = (exp_of (qdim (uv x)) w + exp_of (qdim (uv y)) w)%Qc) /\
  forall phi, amap2 rule_mul (meas phi x) (meas phi y) = Ok (meas phi z).
Proof.
  intros x y z Hx Hy _ _ H. change (u_prod Rmult RMul x y = Ok z) in H.
  pose proof (fun d Hd => mul_rule (OQ (uv x)) (OQ (uv y)) d Hd (proj1 Hx) (proj1 Hy)) as M.
  destruct (u_prod_spec Rmult RMul x y z Hx Hy H) as (Hz & Ed & _); [intros d Hd; now apply M|].
  split; auto. split; [apply (M _ Ed)|]. intros phi. apply (u_prod_meas Rmult RMul x y z phi Hx Hy H).
  intros d Hd. destruct (M d Hd) as (_ & Dd & V). split; auto. intros a b. rewrite V. cbn [odims]. ring.
Qed.
Theorem C65_div : forall (x y z : uqty R),
  uq_ok x -> uq_ok y -> nonzero_values x -> nonzero_values y -> u_div x y = Ok z ->
  uq_ok z /\ (forall w, exp_of (qdim (uv z)) w = (exp_of (qdim (uv x)) w - exp_of (qdim (uv y)) w)%Qc) /\
  forall phi, amap2 rule_div (meas phi x) (meas phi y) = Ok (meas phi z).
Proof.
  intros x y z Hx Hy _ _ H. change (u_prod Rdiv RDiv x y = Ok z) in H.
  pose proof (fun d Hd => div_rule (OQ (uv x)) (OQ (uv y)) d Hd (proj1 Hx) (proj1 Hy)) as M.
  destruct (u_prod_spec Rdiv RDiv x y z Hx Hy H) as (Hz & Ed & _); [intros d Hd; now apply M|].
  split; auto. split; [apply (M _ Ed)|]. intros phi. apply (u_prod_meas Rdiv RDiv x y z phi Hx Hy H).
  intros d Hd. destruct (M d Hd) as (_ & Dd & V). split; auto. intros a b. rewrite V. cbn [odims]. unfold Rdiv. rewrite !Rinv_mult. ring.
Qed.
Theorem C65_mul_defined : forall (x y : uqty R), uq_ok x -> uq_ok y ->
  ((exists z, u_mul x y = Ok z) <-> broadcast (shp (mag (uv x))) (shp (mag (uv y)))) /\
  ((exists z, u_div x y = Ok z) <-> broadcast (shp (mag (uv x))) (shp (mag (uv y)))).
Proof.
  intros x y Hx Hy. split; [apply (u_prod_iff Rmult RMul x y Hx Hy)|apply (u_prod_iff Rdiv RDiv x y Hx Hy)]; cbn [pd2]; eauto.
Qed.
(** Exact factors (numbers, arrays, quantities), on either side, and exact divisors. *)
Theorem C65_scale : forall (x z : uqty R) o phi,
  uq_ok x -> operand_ok o -> u_mul_plain x o = Ok z ->
  uq_ok z /\ amap2 rule_scale (meas phi x) (ophys phi o) = Ok (meas phi z).
Proof.
  intros x z o phi Hx Ho H. rewrite u_mul_plain_eq in H. split; [apply (u_plain_spec _ _ x o z pk_mul Hx Ho H)|].
  exact (u_plain_meas _ _ x o z phi pk_mul Hx Ho H).
Qed.
Theorem C65_unscale : forall (x z : uqty R) o phi,
  uq_ok x -> operand_ok o -> Forall (fun c => c <> 0) (dat (odat o)) -> u_div_plain x o = Ok z ->
  uq_ok z /\ amap2 rule_unscale (meas phi x) (ophys phi o) = Ok (meas phi z).
Proof.
  intros x z o phi Hx Ho _ H. rewrite u_div_plain_eq in H. split; [apply (u_plain_spec _ _ x o z pk_div Hx Ho H)|].
  exact (u_plain_meas _ _ x o z phi pk_div Hx Ho H).
Qed.
Theorem C65_inverse : forall E (x z : uqty R) o phi,
  uq_ok x -> operand_ok o -> nonzero_values x -> u_rdiv_plain E x o = Ok z ->
  uq_ok z /\ amap2 rule_inv (meas phi x) (ophys phi o) = Ok (meas phi z).
Proof. intros E x z o phi Hx Ho _ H. exact (u_rdiv_plain_meas E x o z phi Hx Ho H). Qed.
Theorem C65_scale_defined : forall E (x : uqty R) o, uq_ok x -> operand_ok o ->
  ((exists z, u_mul_plain x o = Ok z) <-> broadcast (shp (mag (uv x))) (shp (odat o))) /\
  ((exists z, u_div_plain x o = Ok z) <-> broadcast (shp (mag (uv x))) (shp (odat o))) /\
  ((exists z, u_rdiv_plain E x o = Ok z) <-> broadcast (shp (mag (uv x))) (shp (odat o))).
Proof.
  intros E x o Hx Ho. rewrite u_mul_plain_eq, u_div_plain_eq, (u_rdiv_plain_eq E x o Hx). split; [|split].
  - apply (u_plain_iff _ _ x o pk_mul Hx Ho).
  - apply (u_plain_iff _ _ x o pk_div Hx Ho).
  - apply (u_plain_iff _ _ (u_inv_temp x) o pk_mul (u_inv_temp_ok x Hx) Ho).
Qed.
(** [-x]. *)
Theorem C65_neg : forall (x : uqty R) phi, uq_ok x ->
  exists z, u_neg x = Ok z /\ uq_ok z /\ meas phi z = amap (fun p => (- fst p, Rabs (snd p))) (meas phi x).
Proof.
  intros x phi Hx. assert (Ho : operand_ok (OArr (scalar (nneg n1 : R)))) by (cbn; reflexivity).
  destruct (proj2 (proj1 (u_plain_iff _ _ x _ pk_mul Hx Ho))) as [z Hz].
  { exists (shp (mag (uv x))). cbn [odat scalar shp]. assert (X : amap2 Rmult (mag (uv x)) (scalar (nneg n1)) = Ok (amap (fun t => t * nneg n1) (mag (uv x)))) by (apply amap2_scalar_r; apply Hx).
    unfold amap2, scalar in X. cbn [shp] in X. destruct (bc_shape _ _); [|discriminate]. apply Ok_inj in X. f_equal.
    apply (f_equal (@shp _)) in X. exact X. }
  exists z. split; [exact Hz|]. rewrite <- u_mul_plain_eq in Hz. destruct (C65_scale x z _ phi Hx Ho Hz) as [Oz Mz]. split; auto.
  cbn [ophys] in Mz. rewrite amap2_scalar_r in Mz by (now apply meas_awf). apply Ok_inj in Mz. rewrite <- Mz. apply amap_ext. intros p _.
  unfold rule_scale. cbn [nneg n1 NumR]. f_equal; [ring|]. rewrite Rabs_mult, Rabs_Ropp, Rabs_R1. ring.
Qed.
(** Powers with a constant exponent: value and first derivative. *)
Theorem C65_pow : forall E (x z : uqty R) p phi,
  uq_ok x -> nonzero_values x -> (forall v, In v (dat (mag (uv x))) -> power_defined v p) -> u_pow E x p = Ok z ->
  uq_ok z /\ qdim (uv z) = dim_pow (qdim (uv x)) p /\ meas phi z = amap (rule_pow p) (meas phi x).
Proof.
  intros E x z p phi Hx _ Hp H. destruct (u_pow_spec E x p Hx) as (z' & Ez & Hz & Ed & _). rewrite Ez in H. injection H as <-.
  split; auto. split; auto. now apply (u_pow_meas E x p z' phi Hx Hp Ez).
Qed.
Theorem C65_pow_defined : forall E (x : uqty R) p, uq_ok x -> exists z, u_pow E x p = Ok z.
Proof. intros E x p Hx. destruct (u_pow_spec E x p Hx) as (z & Ez & _). eauto. Qed.
(** [x.sqrt()] of positive measurements: the square root, with half its relative uncertainty;
    exponents of units are halved. *)
Theorem C65_sqrt : forall E (x : uqty R) phi,
  uq_ok x -> Forall (fun v => 0 < v) (dat (mag (uv x))) ->
  exists z, u_sqrt E x = Ok z /\ uq_ok z /\
    meas phi z = amap (fun p => (sqrt (fst p), snd p / (2 * sqrt (fst p)))) (meas phi x) /\
    forall w, (exp_of (qdim (uv z)) w = exp_of (qdim (uv x)) w * Q2Qc (1 # 2))%Qc.
Proof.
  intros E x phi Hx Hv. destruct (u_pow_spec E x p_half Hx) as (z & Ez & Hz & Ed & _).
  exists z. split; [exact Ez|]. split; [exact Hz|]. split.
  - rewrite (u_pow_meas E x p_half z phi Hx) by (auto; intros v Iv; left; rewrite Forall_forall in Hv; auto).
    apply amap_ext. intros p Hp. unfold rule_pow.
    assert (0 < fst p) as P.
    { cbn [meas dat] in Hp. destruct p as [a b]. apply in_combine_l in Hp. cbn [phys amap dat] in Hp. apply in_map_iff in Hp.
      destruct Hp as (v & <- & Iv). rewrite Forall_forall in Hv. cbn [fst]. apply Rmult_lt_0_compat; [auto|apply dimval_pos]. }
    change (rpow (fst p) p_half) with (npow (fst p) p_half). rewrite npow_half by lra.
    assert (0 < sqrt (fst p)) as S by now apply sqrt_lt_R0.
    replace (Qc2R (pval p_half)) with (/ 2) by (unfold Qc2R; cbn; unfold Q2R; cbn; lra).
    f_equal. rewrite <- (sqrt_sqrt (fst p)) at 2 by lra. field. lra.
  - intros w. rewrite Ed. apply exp_of_pow.
Qed.
(** Changing units: value and uncertainty are the same physical quantities. *)
Theorem C65_rescale : forall E lookup (x z : uqty R) units d,
  renv_ok E -> uq_ok x -> denotes_units lookup units d -> dims_ok d -> u_rescale lookup E x units = Ok z ->
  uq_ok z /\ (forall w, exp_of (qdim (uv z)) w = exp_of d w) /\
  forall phi, consistent E phi -> meas phi z = meas phi x.
Proof.
  intros E lookup x z units d HE Hx Hd Dd H. unfold u_rescale in H. rewrite !(rescale_denotes _ _ _ _ _ Hd) in H.
  destruct (u_rescale_to_spec E x d z HE Hx Dd H) as (H1 & _ & _ & H2 & H3). auto.
Qed.
Theorem C65_rescale_defined : forall E lookup (x : uqty R) units d,
  renv_ok E -> uq_ok x -> denotes_units lookup units d -> dims_ok d ->
  ((exists z, u_rescale lookup E x units = Ok z) <-> convertible E (qdim (uv x)) d) /\
  (forall e, u_rescale lookup E x units = Err e -> e = ValueError).
Proof.
  intros E lookup x units d HE Hx Hd Dd. unfold u_rescale. rewrite !(rescale_denotes _ _ _ _ _ Hd).
  exact (u_rescale_to_iff E x d HE Hx Dd).
Qed.
Theorem C65_simplified : forall E D fuel (x z : uqty R),
  renv_ok E -> (forall c dd, D c = Some dd -> dims_ok dd) -> uq_ok x -> u_simplified fuel E D x = Ok z ->
  uq_ok z /\ simplified fuel E D (uv x) = Ok (uv z) /\ forall phi, consistent E phi -> meas phi z = meas phi x.
Proof.
  intros E D fuel x z HE HD Hx H. unfold u_simplified in H.
  destruct (simplified fuel E D (uv x)) as [v|] eqn:Ev; [|discriminate]. destruct (simplified fuel E D (uu x)) as [u|] eqn:Eu; [|discriminate].
  cbn [bind] in H. destruct (C17_simplified_preserves_value E D fuel _ v HE HD (proj1 Hx) Ev) as (V1 & _ & V3 & V4).
  destruct (C17_simplified_preserves_value E D fuel _ u HE HD (proj1 (proj2 Hx)) Eu) as (U1 & _ & U3 & U4).
  assert (Qv : qty_ok v) by (split; [apply (simplified_awf fuel E D (uv x)); [apply Hx|exact Ev]|auto]).
  assert (Qu : qty_ok u) by (split; [apply (simplified_awf fuel E D (uu x)); [apply Hx|exact Eu]|auto]).
  destruct (set_unc_inv E v u z HE Qv Qu H) as (Z1 & Z2 & Z3). split; auto. split; [congruence|].
  intros phi HC. symmetry. apply meas_intro.
  - rewrite meas_fst by auto. rewrite Z1. symmetry. now apply V1.
  - rewrite meas_snd by auto. rewrite (Z3 phi HC). symmetry. now apply U1.
Qed.
(** Beside the theorems: (3 +/- 3) m and (400 +/- 400) cm make (7 +/- 5) m; 3 m and 4 m alone have
    non-zero values, and all of them are well formed. *)
Definition ex_um (v s : R) (d : dims) : uqty R := UQ (Qty (scalar v) d) (Qty (scalar s) d).
Lemma ex_um_ok v s d : dims_ok d -> uq_ok (ex_um v s d).
Proof. intros Hd. apply uq_ok_intro; cbn; auto; split; cbn; auto; reflexivity. Qed.
Lemma ex_um_meas phi v s d : meas phi (ex_um v s d) = scalar (v * dimval phi d, s * dimval phi d).
Proof. reflexivity. Qed.
Lemma d_m_ok : dims_ok d_m. Proof. apply dims_okb_ok. reflexivity. Qed.
Lemma d_cm_ok : dims_ok d_cm. Proof. apply dims_okb_ok. reflexivity. Qed.
Lemma d_cm_m : convertible exE d_cm d_m.
Proof. exists (1 / 100). intros phi HC. apply (ex_cm_size phi HC). Qed.
Lemma broadcast_scalar : broadcast [] []. Proof. exists []. reflexivity. Qed.
Example C65_sqrt_example : exists z, u_sqrt exE (ex_um 4 2 d_m) = Ok z /\ uq_ok z.
Proof.
  destruct (C65_sqrt exE (ex_um 4 2 d_m) (fun _ => 1) (ex_um_ok _ _ _ d_m_ok)) as (z & H & O & _); [repeat constructor; cbn; lra|].
  now exists z.
Qed.
Example C65_example :
  exists z, u_add exE (ex_um 3 3 d_m) (ex_um 400 400 d_cm) = Ok z /\ qdim (uv z) = d_m /\
    forall phi, consistent exE phi -> meas phi z = scalar (7 * dimval phi d_m, 5 * dimval phi d_m).
Proof.
  destruct (proj2 (proj1 (C65_add_defined exE (ex_um 3 3 d_m) (ex_um 400 400 d_cm) exE_ok (ex_um_ok _ _ _ d_m_ok) (ex_um_ok _ _ _ d_cm_ok)))
    (conj d_cm_m broadcast_scalar)) as [z Hz].
  destruct (C65_add _ _ _ z exE_ok (ex_um_ok _ _ _ d_m_ok) (ex_um_ok _ _ _ d_cm_ok) Hz) as (H1 & H2 & H3).
  exists z. split; auto. split; auto. intros phi HC. specialize (H3 phi HC). rewrite !ex_um_meas in H3. apply Ok_inj in H3.
  change (scalar (rule_add (3 * dimval phi d_m, 3 * dimval phi d_m) (400 * dimval phi d_cm, 400 * dimval phi d_cm)) = meas phi z) in H3.
  rewrite <- H3. unfold rule_add. cbn [fst snd]. rewrite (ex_cm_size phi HC). set (v := dimval phi d_m). assert (V : 0 < v) by apply dimval_pos.
  replace (400 * (1 / 100 * v)) with (4 * v) by field. do 2 f_equal; [ring|]. rewrite quad_scale by auto. f_equal. unfold quad.
  replace (3 * 3 + 4 * 4) with (5 * 5) by ring. apply sqrt_square. lra.
Qed.
Example C65_example_mul :
  nonzero_values (ex_um 3 3 d_m) /\ nonzero_values (ex_um 4 0 d_cm) /\
  exists z, u_mul (ex_um 3 3 d_m) (ex_um 4 0 d_cm) = Ok z /\
    forall phi, meas phi z = scalar (12 * (dimval phi d_m * dimval phi d_cm), 12 * (dimval phi d_m * dimval phi d_cm)).
Proof.
  assert (N1 : nonzero_values (ex_um 3 3 d_m)) by (repeat constructor; cbn; lra).
  assert (N2 : nonzero_values (ex_um 4 0 d_cm)) by (repeat constructor; cbn; lra).
  split; auto. split; auto.
  destruct (proj2 (proj1 (C65_mul_defined _ _ (ex_um_ok 3 3 _ d_m_ok) (ex_um_ok 4 0 _ d_cm_ok))) broadcast_scalar) as [z Hz].
  destruct (C65_mul _ _ z (ex_um_ok _ _ _ d_m_ok) (ex_um_ok _ _ _ d_cm_ok) N1 N2 Hz) as (H1 & H2 & H3).
  exists z. split; auto. intros phi. specialize (H3 phi). rewrite !ex_um_meas in H3. apply Ok_inj in H3.
  change (scalar (rule_mul (3 * dimval phi d_m, 3 * dimval phi d_m) (4 * dimval phi d_cm, 0 * dimval phi d_cm)) = meas phi z) in H3.
  rewrite <- H3. unfold rule_mul. cbn [fst snd]. set (v := dimval phi d_m). set (w := dimval phi d_cm).
  assert (V : 0 < v) by apply dimval_pos. assert (W : 0 < w) by apply dimval_pos.
  replace (3 * v / (3 * v)) with 1 by (field; lra). replace (0 * w / (4 * w)) with 0 by (field; lra).
  unfold quad. replace (1 * 1 + 0 * 0) with 1 by ring. rewrite sqrt_1. do 2 f_equal; ring.
Qed.

(** ** C66: the sign of uncertainties *)
(** Sums, differences, exact factors and divisors never have a negative uncertainty. *)
Theorem C66_sums : forall E (x y z : uqty R), renv_ok E -> uq_ok x -> uq_ok y ->
  (u_add E x y = Ok z \/ u_sub E x y = Ok z) -> nonneg z.
Proof.
  intros E x y z HE Hx Hy H. destruct (consistent_exists E HE) as [phi HC].
  assert (X : uq_ok z /\ exists f, amap2 (fun p q => (f p q, quad (snd p) (snd q))) (meas phi x) (meas phi y) = Ok (meas phi z)).
  { destruct H as [H|H]; [destruct (C65_add E x y z HE Hx Hy H) as (H1 & _ & H3)|destruct (C65_sub E x y z HE Hx Hy H) as (H1 & _ & H3)];
      (split; auto); specialize (H3 phi HC); [exists (fun p q => fst p + fst q)|exists (fun p q => fst p - fst q)]; exact H3. }
  destruct X as (Hz & f & Hf). apply (nonneg_meas phi z Hz). refine (amap2_Forall _ _ _ _ _ Hf _). intros p q. apply quad_nonneg.
Qed.
Theorem C66_factors : forall E (x z : uqty R) o, uq_ok x -> operand_ok o ->
  (u_mul_plain x o = Ok z \/ u_div_plain x o = Ok z \/ u_rdiv_plain E x o = Ok z \/ u_neg x = Ok z) -> nonneg z.
Proof.
  intros E x z o Hx Ho H.
  assert (G : forall g ru x o, prod_kind g ru -> uq_ok x -> operand_ok o -> u_plain g ru x o = Ok z -> nonneg z).
  { clear. intros g ru x o K Hx Ho H. destruct (u_plain_spec g ru x o z K Hx Ho H) as (Hz & _ & P).
    apply (nonneg_pairs z Hz). refine (amap2_Forall _ _ _ _ _ P _). intros p c. apply Rabs_pos. }
  destruct H as [H|[H|[H|H]]].
  - exact (G _ _ x o pk_mul Hx Ho H).
  - exact (G _ _ x o pk_div Hx Ho H).
  - rewrite (u_rdiv_plain_eq E x o Hx) in H. exact (G _ _ _ o pk_mul (u_inv_temp_ok x Hx) Ho H).
  - refine (G _ _ x (OArr (scalar (nneg n1))) pk_mul Hx _ H). reflexivity.
Qed.
(** Conversions, items and reductions keep non-negative uncertainties. *)
Theorem C66_kept : forall E lookup D fuel (x z : uqty R) units d sel axis,
  renv_ok E -> uq_ok x -> nonneg x -> denotes_units lookup units d -> dims_ok d -> (forall c dd, D c = Some dd -> dims_ok dd) ->
  (forall s t ps, sel s = Ok (t, ps) -> length ps = prodn t) ->
  (u_rescale lookup E x units = Ok z \/ u_simplified fuel E D x = Ok z \/ u_getitem E sel x = Ok z \/
   u_sum E axis x = Ok z \/ u_mean E axis x = Ok z) -> nonneg z.
Proof.
  intros E lookup D fuel x z units d sel axis HE Hx Hn Hd Dd HD Hsel H. destruct (consistent_exists E HE) as [phi HC].
  destruct H as [H|[H|[H|[H|H]]]].
  - destruct (C65_rescale E lookup x z units d HE Hx Hd Dd H) as (Hz & _ & M). apply (nonneg_meas phi z Hz). rewrite (M phi HC). now apply (nonneg_meas phi x Hx).
  - destruct (C65_simplified E D fuel x z HE HD Hx H) as (Hz & _ & M). apply (nonneg_meas phi z Hz). rewrite (M phi HC). now apply (nonneg_meas phi x Hx).
  - destruct (u_getitem_spec E sel x z Hx Hsel H) as (s & ps & _ & Hz & _ & P). apply (nonneg_pairs z Hz). rewrite P. cbn [dat].
    apply Forall_map. apply Forall_forall. intros p _. apply (nonneg_pairs x Hx) in Hn. rewrite Forall_forall in Hn.
    destruct (nth_in_or_default p (dat (mpairs x)) (0, 0)) as [I|I]; [now apply Hn|]. rewrite I. cbn. lra.
  - destruct (u_sum_spec E axis x z Hx H) as (ax & _ & Hz & _ & P). apply (nonneg_meas phi z Hz).
    refine (areduce_Forall _ _ _ _ _ (P phi) _). intros l. cbn. apply sqrt_pos.
  - destruct (u_mean_spec E axis x z Hx H) as (ax & _ & Hz & _ & Hl & P). apply (nonneg_meas phi z Hz).
    refine (areduce_Forall _ _ _ _ _ (P phi) _). intros l. cbn. apply Rmult_le_pos; [apply sqrt_pos|]. apply Rlt_le, Rinv_0_lt_compat, lt_0_INR. lia.
Qed.
(** For products and quotients the uncertainty has the sign of the value. *)
Theorem C66_products : forall (x y z : uqty R), uq_ok x -> uq_ok y -> nonzero_values x -> nonzero_values y ->
  (u_mul x y = Ok z \/ u_div x y = Ok z) ->
  Forall2 (fun v s => (0 <= v -> 0 <= s) /\ (v <= 0 -> s <= 0)) (dat (mag (uv z))) (dat (mag (uu z))).
Proof.
  intros x y z Hx Hy Nx Ny H.
  assert (X : uq_ok z /\ exists g, amap2 (prod_rule g) (mpairs x) (mpairs y) = Ok (mpairs z)).
  { destruct H as [H|H].
    - change (u_prod Rmult RMul x y = Ok z) in H. destruct (u_prod_spec Rmult RMul x y z Hx Hy H) as (Hz & _ & P).
      + intros d Hd. now apply (mul_rule _ _ _ Hd (proj1 Hx) (proj1 Hy)).
      + split; eauto.
    - change (u_prod Rdiv RDiv x y = Ok z) in H. destruct (u_prod_spec Rdiv RDiv x y z Hx Hy H) as (Hz & _ & P).
      + intros d Hd. now apply (div_rule _ _ _ Hd (proj1 Hx) (proj1 Hy)).
      + split; eauto. }
  destruct X as (Hz & g & P). rewrite <- (mpairs_fst z Hz), <- (mpairs_snd z Hz). cbn [amap dat].
  assert (F : Forall (fun p => (0 <= fst p -> 0 <= snd p) /\ (fst p <= 0 -> snd p <= 0)) (dat (mpairs z))).
  { refine (amap2_Forall _ _ _ _ _ P _). intros p q. unfold prod_rule. cbn [fst snd].
    pose proof (quad_nonneg (snd p / fst p) (snd q / fst q)) as Q. split; intros L.
    - now apply Rmult_le_pos.
    - replace 0 with (0 * quad (snd p / fst p) (snd q / fst q)) by ring. now apply Rmult_le_compat_r. }
  induction F; cbn; constructor; auto.
Qed.
(** So the claim "never negative" is false: (-3 +/- 3) m times 4 m. *)
Theorem C66_refuted : exists x y z : uqty R, uq_ok x /\ uq_ok y /\ nonneg x /\ nonneg y /\ u_mul x y = Ok z /\ dat (mag (uu z)) = [-12].
Proof.
  set (x := ex_um (-3) 3 d_m). set (y := ex_um 4 0 d_m).
  assert (Hx : uq_ok x) by apply ex_um_ok, d_m_ok. assert (Hy : uq_ok y) by apply ex_um_ok, d_m_ok.
  destruct (proj2 (proj1 (C65_mul_defined x y Hx Hy)) broadcast_scalar) as [z Hz].
  exists x, y, z. split; auto. split; auto. split; [repeat constructor; cbn; lra|]. split; [repeat constructor; cbn; lra|]. split; auto.
  change (u_prod Rmult RMul x y = Ok z) in Hz. destruct (u_prod_spec Rmult RMul x y z Hx Hy Hz) as (Oz & _ & P).
  { intros d Hd. now apply (mul_rule _ _ _ Hd (proj1 Hx) (proj1 Hy)). }
  change (Ok (scalar (prod_rule Rmult (-3, 3) (4, 0))) = Ok (mpairs z)) in P. apply Ok_inj in P.
  rewrite <- (mpairs_snd z Oz), <- P. cbn [amap scalar dat map prod_rule snd fst]. f_equal.
  replace (3 / -3) with (-1) by lra. replace (0 / 4) with 0 by lra. unfold quad. replace (-1 * -1 + 0 * 0) with 1 by ring. rewrite sqrt_1. ring.
Qed.
(** Powers: for positive values the uncertainty has the sign of the exponent. *)
Theorem C66_powers : forall E (x z : uqty R) p, uq_ok x -> nonneg x -> Forall (fun v => 0 < v) (dat (mag (uv x))) -> u_pow E x p = Ok z ->
  (0 <= Qc2R (pval p) -> nonneg z) /\ (Qc2R (pval p) <= 0 -> Forall (fun s => s <= 0) (dat (mag (uu z)))).
Proof.
  intros E x z p Hx Hn Hv H. destruct (u_pow_spec E x p Hx) as (z' & Ez & Hz & _ & P). rewrite Ez in H. injection H as <-.
  assert (G : forall q, In q (dat (mpairs x)) -> 0 <= rpow (fst q) p * (snd q / fst q)).
  { intros q Hq. assert (0 < fst q).
    { rewrite Forall_forall in Hv. apply Hv. rewrite <- (mpairs_fst x Hx). cbn. now apply in_map. }
    assert (0 <= snd q). { apply (nonneg_pairs x Hx) in Hn. rewrite Forall_forall in Hn. now apply Hn. }
    apply Rmult_le_pos; [rewrite rpow_Rpower by auto; left; apply exp_pos|]. apply Rmult_le_pos; auto. left. now apply Rinv_0_lt_compat. }
  assert (F : Forall (fun s => exists t, 0 <= t /\ s = t * Qc2R (pval p)) (dat (mag (uu z')))).
  { rewrite <- (mpairs_snd z' Hz), P. cbn [amap dat]. rewrite map_map. apply Forall_map, Forall_forall. intros q Hq.
    exists (rpow (fst q) p * (snd q / fst q)). split; auto. unfold rule_pow. cbn [snd]. ring. }
  split; intros L; (eapply Forall_impl; [|exact F]); intros s (t & T & ->).
  - now apply Rmult_le_pos.
  - replace 0 with (t * 0) by ring. now apply Rmult_le_compat_l.
Qed.
Example C66_example : nonneg (ex_um 3 3 d_m) /\ uq_ok (ex_um 3 3 d_m) /\ Forall (fun v => 0 < v) (dat (mag (uv (ex_um 3 3 d_m)))).
Proof. split; [repeat constructor; cbn; lra|]. split; [apply ex_um_ok, d_m_ok|repeat constructor; cbn; lra]. Qed.

(** ** C67: shape and units of the uncertainty *)
(** The uncertain quantities a program can make from quantities and arrays with the
    constructor, the operators and the methods of UncertainQuantity. *)
Inductive made (lookup : string -> res (qty R)) (E : uenv R) (D : defaults) : uqty R -> Prop :=
| made_new data units w z : operand_ok data -> (forall o, w = Some o -> operand_ok o) ->
    (forall d, denotes_units lookup units d -> dims_ok d) -> u_new lookup E data units w = Ok z -> made lookup E D z
| made_again x units w z : made lookup E D x -> (forall o, w = Some o -> operand_ok o) ->
    (forall d, denotes_units lookup units d -> dims_ok d) -> u_new_unc lookup E x units w = Ok z -> made lookup E D z
| made_set x w z : made lookup E D x -> operand_ok w -> set_uncertainty E (uv x) w = Ok z -> made lookup E D z
| made_rescale x units z : made lookup E D x -> (forall d, denotes_units lookup units d -> dims_ok d) ->
    u_rescale lookup E x units = Ok z -> made lookup E D z
| made_simplified x fuel z : made lookup E D x -> u_simplified fuel E D x = Ok z -> made lookup E D z
| made_reference x z : made lookup E D x -> u_reference E x = Ok z -> made lookup E D z
| made_add x y z : made lookup E D x -> made lookup E D y -> u_add E x y = Ok z -> made lookup E D z
| made_sub x y z : made lookup E D x -> made lookup E D y -> u_sub E x y = Ok z -> made lookup E D z
| made_mul x y z : made lookup E D x -> made lookup E D y -> u_mul x y = Ok z -> made lookup E D z
| made_div x y z : made lookup E D x -> made lookup E D y -> u_div x y = Ok z -> made lookup E D z
| made_mul_plain x o z : made lookup E D x -> operand_ok o -> u_mul_plain x o = Ok z -> made lookup E D z
| made_div_plain x o z : made lookup E D x -> operand_ok o -> u_div_plain x o = Ok z -> made lookup E D z
| made_neg x z : made lookup E D x -> u_neg x = Ok z -> made lookup E D z
| made_rsub_plain x o z : made lookup E D x -> operand_ok o -> u_rsub_plain E x o = Ok z -> made lookup E D z
| made_rdiv_plain x o z : made lookup E D x -> operand_ok o -> u_rdiv_plain E x o = Ok z -> made lookup E D z
| made_pow x p z : made lookup E D x -> u_pow E x p = Ok z -> made lookup E D z
| made_sqrt x z : made lookup E D x -> u_sqrt E x = Ok z -> made lookup E D z
| made_getitem x sel z : made lookup E D x -> (forall s t ps, sel s = Ok (t, ps) -> length ps = prodn t) ->
    u_getitem E sel x = Ok z -> made lookup E D z
| made_sum x axis z : made lookup E D x -> u_sum E axis x = Ok z -> made lookup E D z
| made_mean x axis z : made lookup E D x -> u_mean E axis x = Ok z -> made lookup E D z
| made_max x axis z : made lookup E D x -> u_max E axis x = Ok z -> made lookup E D z
| made_min x axis z : made lookup E D x -> u_min E axis x = Ok z -> made lookup E D z.

Lemma u_at_ok E i (x z : uqty R) : renv_ok E -> uq_ok x -> u_at E i x = Ok z ->
  uq_ok z /\ z = UQ (Qty (scalar (nth i (dat (mag (uv x))) 0)) (qdim (uv x))) (Qty (scalar (nth i (dat (mag (uu x))) 0)) (qdim (uu x))).
Proof.
  intros HE Hx H. pose proof Hx as (Hv & Hu & Hs & He). unfold u_at in H.
  assert (Q1 : forall t : R, qty_ok (Qty (scalar t) (qdim (uv x)))) by (intros t; split; [reflexivity|apply Hv]).
  assert (Q2 : forall t : R, qty_ok (Qty (scalar t) (qdim (uu x)))) by (intros t; split; [reflexivity|apply Hu]).
  rewrite u_make_q in H; auto. injection H as <-. split; [|reflexivity]. now apply uq_ok_intro.
Qed.
Lemma rescale_dims_ok lookup (E : uenv R) (q r : qty R) units : qty_ok q -> (forall d, denotes_units lookup units d -> dims_ok d) ->
  rescale lookup E q units = Ok r -> qty_ok r.
Proof.
  intros Hq Hd H. unfold rescale in H. destruct (validate_dimensionality lookup units) as [d|] eqn:Ed; [|discriminate]. cbn [bind] in H.
  apply (rescale_to_qty_ok E q d r Hq); auto. apply Hd. now apply validate_denotes.
Qed.
Theorem C67_shape_and_units : forall lookup E D x,
  renv_ok E -> (forall c dd, D c = Some dd -> dims_ok dd) -> made lookup E D x ->
  shp (mag (uu x)) = shp (mag (uv x)) /\ (forall w, exp_of (qdim (uu x)) w = exp_of (qdim (uv x)) w) /\
  awf (mag (uv x)) /\ awf (mag (uu x)).
Proof.
  intros lookup E D x HE HD H.
  assert (K : uq_ok x). 2:{ destruct K as (K1 & K2 & K3 & K4). split; auto. split; auto. split; [apply K1|apply K2]. }
  induction H as [data units w z Ho Hw Hd H|x units w z _ IH Hw Hd H|x w z _ IH Hw H|x units z _ IH Hd H|x fuel z _ IH H|x z _ IH H
    |x y z _ IHx _ IHy H|x y z _ IHx _ IHy H|x y z _ IHx _ IHy H|x y z _ IHx _ IHy H|x o z _ IH Ho H|x o z _ IH Ho H|x z _ IH H
    |x o z _ IH Ho H|x o z _ IH Ho H|x p z _ IH H|x z _ IH H|x sel z _ IH Hsel H|x axis z _ IH H|x axis z _ IH H|x axis z _ IH H|x axis z _ IH H].
  - unfold u_new in H. destruct (q_new lookup E data units) as [v|] eqn:Ev; [|discriminate]. cbn [bind] in H.
    apply (u_make_inv E v w z HE); auto. unfold q_new in Ev. destruct data as [q|a].
    + destruct (truthy units) as [[|]|] eqn:Et; cbn [bind] in Ev; try discriminate; [|injection Ev as <-; exact Ho].
      now apply (rescale_dims_ok lookup E q v units).
    + destruct (validate_dimensionality lookup units) as [d|] eqn:Ed; [|discriminate]. cbn [bind] in Ev. injection Ev as <-.
      split; [exact Ho|]. apply Hd. now apply validate_denotes.
  - unfold u_new_unc in H. destruct (truthy units) as [b|] eqn:Et; [|discriminate]. cbn [bind] in H.
    destruct (if b then u_rescale lookup E x units else Ok x) as [y|] eqn:Ey; [|discriminate]. cbn [bind] in H.
    destruct w as [w|]; [|discriminate]. assert (Hy : uq_ok y).
    { destruct b; [|injection Ey as <-; exact IH]. unfold u_rescale in Ey.
      destruct (rescale lookup E (uv x) units) as [v|] eqn:Ev; [|discriminate]. destruct (rescale lookup E (uu x) units) as [u|] eqn:Eu; [|discriminate].
      cbn [bind] in Ey. apply (set_unc_inv E v u y HE); auto.
      - apply (rescale_dims_ok lookup E (uv x) v units (proj1 IH) Hd Ev).
      - apply (rescale_dims_ok lookup E (uu x) u units (proj1 (proj2 IH)) Hd Eu). }
    apply (u_make_inv E (uv y) (Some w) z HE); auto. apply Hy.
  - apply (set_unc_inv E (uv x) (as_q w) z HE); [apply IH|now apply as_q_ok|exact H].
  - unfold u_rescale in H. destruct (rescale lookup E (uv x) units) as [v|] eqn:Ev; [|discriminate].
    destruct (rescale lookup E (uu x) units) as [u|] eqn:Eu; [|discriminate]. cbn [bind] in H. apply (set_unc_inv E v u z HE); auto.
    + apply (rescale_dims_ok lookup E (uv x) v units (proj1 IH) Hd Ev).
    + apply (rescale_dims_ok lookup E (uu x) u units (proj1 (proj2 IH)) Hd Eu).
  - apply (C65_simplified E D fuel x z HE HD IH H).
  - unfold u_reference in H. apply (set_unc_inv E (q_reference E (uv x)) (q_reference E (uu x)) z HE); auto; apply qty_ok_reference; auto; apply IH.
  - apply (C65_add E x y z HE IHx IHy H).
  - apply (C65_sub E x y z HE IHx IHy H).
  - change (u_prod Rmult RMul x y = Ok z) in H. apply (u_prod_spec Rmult RMul x y z IHx IHy H).
    intros d Hd. now apply (mul_rule _ _ _ Hd (proj1 IHx) (proj1 IHy)).
  - change (u_prod Rdiv RDiv x y = Ok z) in H. apply (u_prod_spec Rdiv RDiv x y z IHx IHy H).
    intros d Hd. now apply (div_rule _ _ _ Hd (proj1 IHx) (proj1 IHy)).
  - apply (u_plain_spec _ _ x o z pk_mul IH Ho H).
  - apply (u_plain_spec _ _ x o z pk_div IH Ho H).
  - refine (proj1 (u_plain_spec _ _ x (OArr (scalar (nneg n1))) z pk_mul IH _ H)). reflexivity.
  - unfold u_rsub_plain in H. destruct (scale_other E (uv x) o) as [y|] eqn:Ey; [|discriminate]. cbn [bind] in H.
    assert (Hy : qty_ok y) by (apply (scale_other_spec E (uv x) o y HE (proj1 IH) Ho Ey)).
    apply (C65_sub E (u_of_q y) x z HE (uq_ok_of_q y Hy) IH H).
  - rewrite (u_rdiv_plain_eq E x o IH) in H. apply (u_plain_spec _ _ _ o z pk_mul (u_inv_temp_ok x IH) Ho H).
  - destruct (u_pow_spec E x p IH) as (z' & Ez & Hz & _). rewrite Ez in H. now injection H as <-.
  - destruct (u_pow_spec E x p_half IH) as (z' & Ez & Hz & _). unfold u_sqrt in H. rewrite Ez in H. now injection H as <-.
  - destruct (u_getitem_spec E sel x z IH Hsel H) as (s & ps & _ & Hz & _). exact Hz.
  - destruct (u_sum_spec E axis x z IH H) as (ax & _ & Hz & _). exact Hz.
  - destruct (u_mean_spec E axis x z IH H) as (ax & _ & Hz & _). exact Hz.
  - unfold u_max in H. destruct (u_argmax axis x) as [i|]; [|discriminate]. apply (u_at_ok E i x z HE IH H).
  - unfold u_min in H. destruct (u_argmin axis x) as [i|]; [|discriminate]. apply (u_at_ok E i x z HE IH H).
Qed.
Example C67_example : exists z, made (fun _ => Err LookupError) exE exD z /\ dat (mag (uu z)) = [12] /\ qdim (uu z) = dim_mul d_m d_cm.
Proof.
  assert (N : forall d v s, dims_ok d -> made (fun _ => Err LookupError) exE exD (ex_um v s d)).
  { intros d v s Hd. apply (made_new _ _ _ (OArr (scalar v)) (UDim d) (Some (OArr (scalar s)))).
    - reflexivity.
    - intros o [= <-]. reflexivity.
    - intros d' H. inversion H; subst; auto.
    - unfold u_new. cbn [q_new validate_dimensionality bind]. rewrite u_make_a; auto; [split; [reflexivity|exact Hd]|reflexivity]. }
  destruct C65_example_mul as (_ & _ & z & Hz & M).
  exists z. split; [exact (made_mul _ _ _ _ _ z (N d_m 3 3 d_m_ok) (N d_cm 4 0 d_cm_ok) Hz)|].
  cbn in Hz. injection Hz as <-. cbn [uu mag dat qdim]. split; [|reflexivity]. f_equal.
  replace (3 * / 3) with 1 by lra. change (3 * 4 * npow (npow (3 / 3) p_two + npow (0 / 4) p_two) p_half = 12).
  rewrite quad_pow. replace (3 / 3) with 1 by lra. replace (0 / 4) with 0 by lra. unfold quad. replace (1 * 1 + 0 * 0) with 1 by ring. rewrite sqrt_1. ring.
Qed.
(** Outside these operations it is false: a reshaped view keeps the uncertainty of the
    old shape. *)
Theorem C67_refuted : exists x z : uqty R, uq_ok x /\ u_reshape [1%nat; 2%nat] x = Ok z /\ shp (mag (uu z)) <> shp (mag (uv z)).
Proof.
  exists (UQ (Qty (Arr [2%nat] [1; 2]) d_m) (Qty (Arr [2%nat] [0; 0]) d_m)). eexists.
  split; [|split; [reflexivity|cbn; congruence]].
  apply uq_ok_intro; cbn; auto; (split; [reflexivity|exact d_m_ok]).
Qed.

(** ** C68: mixing quantities with and without uncertainty *)
Lemma scale_other_twice (E : uenv R) (q y : qty R) o : renv_ok E -> qty_ok q -> operand_ok o -> scale_other E q o = Ok y ->
  scale_other E q (OQ y) = Ok y.
Proof.
  intros HE Hq Ho H. destruct (scale_other_spec E q o y HE Hq Ho H) as (He & _). unfold scale_other. cbn [as_q]. now rewrite He.
Qed.
Lemma u_add_plain_eq E x o : renv_ok E -> uq_ok x -> operand_ok o ->
  u_add_plain E x o = (_ <- q_add E (uv x) o ;; Err AttributeError) /\
  u_radd_plain E x o = (_ <- q_add E (uv x) o ;; Err AttributeError) /\
  u_sub_plain E x o = (_ <- q_sub E (uv x) o ;; Err AttributeError).
Proof.
  intros HE Hx Ho. unfold u_radd_plain, u_add_plain, u_sub_plain, q_add, q_sub.
  destruct (scale_other E (uv x) o) as [y|e] eqn:Ey; cbn [bind]; [|auto].
  rewrite !(scale_other_twice E (uv x) y o HE (proj1 Hx) Ho Ey). cbn [bind]. rewrite !(scale_other_twice E (uv x) y o HE (proj1 Hx) Ho Ey). cbn [bind]. auto.
Qed.
(** [uq + o], [o + uq], [uq - o] never work: AttributeError where the sum makes sense,
    ValueError where it does not. *)
Theorem C68_refuted : forall E (x : uqty R) o, renv_ok E -> uq_ok x -> operand_ok o ->
  let sensible := convertible E (odims o) (qdim (uv x)) /\ broadcast (shp (mag (uv x))) (shp (odat o)) in
  (sensible -> u_add_plain E x o = Err AttributeError /\ u_radd_plain E x o = Err AttributeError /\ u_sub_plain E x o = Err AttributeError) /\
  (~ sensible -> u_add_plain E x o = Err ValueError /\ u_radd_plain E x o = Err ValueError /\ u_sub_plain E x o = Err ValueError).
Proof.
  intros E x o HE Hx Ho sensible. destruct (u_add_plain_eq E x o HE Hx Ho) as (-> & -> & ->).
  destruct (uniform_op_iff E Rplus (uv x) o HE (proj1 Hx) Ho) as [A1 A2]. destruct (uniform_op_iff E Rminus (uv x) o HE (proj1 Hx) Ho) as [B1 B2].
  fold (q_add E (uv x) o) in A1, A2. fold (q_sub E (uv x) o) in B1, B2.
  split; intros S.
  - destruct (proj2 A1 S) as [r Hr]. destruct (proj2 B1 S) as [r' Hr'].
    change (q_add E (uv x) o = Ok r) in Hr. change (q_sub E (uv x) o = Ok r') in Hr'. rewrite Hr, Hr'. cbn [bind]. auto.
  - assert (X : q_add E (uv x) o = Err ValueError).
    { destruct (q_add E (uv x) o) as [r|e] eqn:Er; [exfalso; apply S, A1; exists r; exact Er|]. f_equal. apply A2. exact Er. }
    assert (Y : q_sub E (uv x) o = Err ValueError).
    { destruct (q_sub E (uv x) o) as [r|e] eqn:Er; [exfalso; apply S, B1; exists r; exact Er|]. f_equal. apply B2. exact Er. }
    rewrite X, Y. cbn [bind]. auto.
Qed.
(** [o - uq] works, as if [o] had no uncertainty. *)
Theorem C68_reflected_sub : forall E (x z : uqty R) o, renv_ok E -> uq_ok x -> operand_ok o -> u_rsub_plain E x o = Ok z ->
  uq_ok z /\ forall phi, consistent E phi -> amap2 (fun c p => (c - fst p, Rabs (snd p))) (ophys phi o) (meas phi x) = Ok (meas phi z).
Proof.
  intros E x z o HE Hx Ho H. unfold u_rsub_plain in H. destruct (scale_other E (uv x) o) as [y|] eqn:Ey; [|discriminate]. cbn [bind] in H.
  destruct (scale_other_spec E (uv x) o y HE (proj1 Hx) Ho Ey) as (_ & Hy & _ & Py).
  destruct (C65_sub E (u_of_q y) x z HE (uq_ok_of_q y Hy) Hx H) as (Hz & _ & M). split; auto. intros phi HC. rewrite <- (M phi HC), <- (Py phi HC).
  assert (X : meas phi (u_of_q y) = amap (fun t => (t, 0)) (phys phi y)).
  { symmetry. apply meas_intro; cbn [u_of_q uv uu].
    - rewrite amap_amap. apply amap_id.
    - rewrite amap_amap. unfold phys. cbn [mag qdim]. unfold azero. rewrite !amap_amap. apply amap_ext. intros t _. cbn. ring. }
  rewrite X. rewrite <- (amap_id (meas phi x)) at 2. rewrite amap2_amap. apply amap2_ext. intros c p. unfold rule_sub. cbn [fst snd]. f_equal.
  unfold quad. replace (0 * 0 + snd p * snd p) with ((snd p)²) by (unfold Rsqr; ring). symmetry. apply sqrt_Rsqr_abs.
Qed.
Theorem C68_reflected_sub_defined : forall E (x : uqty R) o, renv_ok E -> uq_ok x -> operand_ok o ->
  ((exists z, u_rsub_plain E x o = Ok z) <-> convertible E (odims o) (qdim (uv x)) /\ broadcast (shp (odat o)) (shp (mag (uv x)))) /\
  (forall e, u_rsub_plain E x o = Err e -> e = ValueError).
Proof.
  intros E x o HE Hx Ho. pose proof (scale_other_ok_iff E (uv x) o HE (proj1 Hx) Ho) as I. unfold u_rsub_plain.
  destruct (scale_other E (uv x) o) as [y|e] eqn:Ey; cbn [bind].
  - destruct (scale_other_spec E (uv x) o y HE (proj1 Hx) Ho Ey) as (He & Hy & Sy & _).
    destruct (C65_add_defined E (u_of_q y) x HE (uq_ok_of_q y Hy) Hx) as (_ & S & _ & Se). split; [|exact Se].
    rewrite S. cbn [u_of_q uv]. rewrite Sy. split; intros [C B]; (split; [|exact B]).
    + apply I. eauto.
    + apply convertible_exp; auto; [apply Hx|apply Hy|]. intros w. symmetry. exact (exp_eqb _ _ (proj2 Hy) (proj2 (proj1 Hx)) He w).
  - split; [|intros e' [= <-]; exact (scale_other_err E (uv x) o e Ey)]. split; [intros [z Hz]; discriminate|].
    intros [C _]. apply I in C. destruct C; discriminate.
Qed.
Example C68_example : u_add_plain exE (ex_um 3 3 d_m) (OQ (Qty (scalar 400) d_cm)) = Err AttributeError.
Proof.
  apply C68_refuted; [exact exE_ok|apply ex_um_ok, d_m_ok|split; [reflexivity|exact d_cm_ok]|]. split; [exact d_cm_m|exact broadcast_scalar].
Qed.

(** ** C69: sums and means *)
Theorem C69_sum : forall E axis (x z : uqty R), uq_ok x -> u_sum E axis x = Ok z ->
  uq_ok z /\ qdim (uv z) = qdim (uv x) /\
  forall phi idx, in_range (shp (mag (uv z))) idx ->
    exists lane, lane_of (meas phi x) axis idx lane /\ aget (meas phi z) idx = Some (rule_sum lane).
Proof.
  intros E axis x z Hx H. destruct (u_sum_spec E axis x z Hx H) as (ax & Ha & Hz & Hd & P). split; auto. split; auto.
  intros phi idx HR. apply (areduce_lane rule_sum (meas phi x) axis ax (meas phi z) idx); auto. now apply meas_awf.
Qed.
Theorem C69_mean : forall E axis (x z : uqty R), uq_ok x -> u_mean E axis x = Ok z ->
  uq_ok z /\ qdim (uv z) = qdim (uv x) /\
  forall phi idx, in_range (shp (mag (uv z))) idx ->
    exists lane, lane_of (meas phi x) axis idx lane /\ lane <> [] /\ aget (meas phi z) idx = Some (rule_mean lane).
Proof.
  intros E axis x z Hx H. destruct (u_mean_spec E axis x z Hx H) as (ax & Ha & Hz & Hd & Hn & P). split; auto. split; auto.
  intros phi idx HR. destruct (areduce_lane _ (meas phi x) axis ax (meas phi z) idx (meas_awf phi x Hx) Ha (P phi) HR) as (lane & L & G).
  exists lane. split; auto. assert (LL := lane_of_length (meas phi x) axis ax idx lane Ha L).
  assert (LM : lane_length ax (meas phi x) = lane_length ax (mag (uv x))).
  { destruct ax; cbn; auto. unfold phys, amap. cbn. rewrite combine_length, !map_length, <- (uq_len x Hx). lia. }
  rewrite LM in LL. split; [intros ->; cbn in LL; congruence|]. rewrite G. unfold rule_mean, usum_pairs. rewrite LL. reflexivity.
Qed.
(** sum needs an existing axis (or none); mean also elements to average. *)
Theorem C69_defined : forall E axis (x : uqty R), uq_ok x ->
  let ax_ok := match axis with None => True | Some k => exists ax, axis_means (length (shp (mag (uv x)))) k ax end in
  let empty := match axis with None => dat (mag (uv x)) = [] | Some k => exists ax, axis_means (length (shp (mag (uv x)))) k ax /\ nth_error (shp (mag (uv x))) ax = Some 0%nat end in
  ((exists z, u_sum E axis x = Ok z) <-> ax_ok) /\ ((exists z, u_mean E axis x = Ok z) <-> ax_ok /\ ~ empty) /\
  (empty -> u_mean E axis x = Err ZeroDivisionError).
Proof.
  intros E axis x Hx ax_ok empty. pose proof Hx as (Hv & Hu & Hs & He).
  destruct (norm_axis (length (shp (mag (uv x)))) axis) as [ax|e] eqn:Ea.
  - assert (AX : ax_ok). { unfold ax_ok. destruct axis as [k|]; auto. apply norm_axis_spec in Ea. destruct Ea as (i & _ & M). eauto. }
    assert (EM : empty <-> lane_length ax (mag (uv x)) = 0%nat).
    { unfold empty. pose proof Ea as Ea'. apply norm_axis_spec in Ea. destruct axis as [k|].
      - destruct Ea as (i & -> & M). cbn [lane_length]. split.
        + intros (j & Mj & Nj). rewrite (norm_axis_complete _ _ _ Mj) in Ea'. injection Ea' as <-. exact (nth_error_nth _ _ 0%nat Nj).
        + intros L. exists i. split; auto. destruct (nth_error (shp (mag (uv x))) i) as [n|] eqn:En.
          * rewrite (nth_error_nth _ _ 0%nat En) in L. now subst.
          * apply nth_error_None in En. destruct M as [M _]. lia.
      - subst ax. cbn [lane_length]. symmetry. apply length_zero_iff_nil. }
    assert (SH : forall (f g : list R -> R) a b, areduce f ax (mag (uv x)) = Ok a -> areduce g ax (mag (uu x)) = Ok b -> shp b = shp a).
    { intros f g a b Ha Hb. destruct ax as [i|]; cbn [areduce] in Ha, Hb.
      - rewrite Hs in Hb. destruct (split_axis (shp (mag (uv x))) i) as [[[pre n] post]|]; [|discriminate]. apply Ok_inj in Ha, Hb. now subst.
      - apply Ok_inj in Ha, Hb. now subst. }
    split; [|split].
    + split; auto. intros _. unfold u_sum, q_red. rewrite Hs, Ea. cbn [bind red_fun red_needs_elements].
      destruct (norm_axis_areduce (A := R) lsum (mag (uv x)) axis ax Ea) as [a Ha]. rewrite Ha. cbn [bind]. unfold check_lanes. cbn [andb bind].
      assert (Ea2 : norm_axis (length (shp (asquare (mag (uu x))))) axis = Ok ax) by (cbn; now rewrite Hs).
      destruct (norm_axis_areduce (A := R) lsum (asquare (mag (uu x))) axis ax Ea2) as [b Hb]. rewrite Hb. cbn [bind].
      rewrite u_make_a; eauto.
      * split; [exact (awf_areduce _ _ (proj1 Hv) Ha)|apply Hv].
      * apply awf_amap. refine (awf_areduce _ _ _ Hb). apply awf_amap, Hu.
      * cbn [mag aroot amap shp]. unfold asquare in Hb. rewrite areduce_amap in Hb. exact (SH _ _ _ _ Ha Hb).
    + rewrite EM. unfold u_mean, q_red. rewrite Ea. cbn [bind red_fun red_needs_elements].
      destruct (norm_axis_areduce (A := R) lmean (mag (uv x)) axis ax Ea) as [a Ha]. rewrite Ha. cbn [bind]. unfold check_lanes. cbn [andb bind].
      destruct (Nat.eqb_spec (lane_length ax (mag (uv x))) 0) as [L|L].
      { split; [intros [z Hz]; discriminate|intros [_ H]; contradiction]. }
      split; auto. intros _.
      assert (Ea2 : norm_axis (length (shp (asquare (mag (uu x))))) axis = Ok ax) by (cbn; now rewrite Hs).
      destruct (norm_axis_areduce (A := R) lsum (asquare (mag (uu x))) axis ax Ea2) as [b Hb]. rewrite Hb. cbn [bind].
      rewrite u_make_a; eauto.
      * split; [exact (awf_areduce _ _ (proj1 Hv) Ha)|apply Hv].
      * apply awf_amap, awf_amap. refine (awf_areduce _ _ _ Hb). apply awf_amap, Hu.
      * cbn [mag aroot amap shp]. unfold asquare in Hb. rewrite areduce_amap in Hb. exact (SH _ _ _ _ Ha Hb).
    + rewrite EM. intros L. unfold u_mean, q_red. rewrite Ea. cbn [bind red_fun red_needs_elements].
      destruct (norm_axis_areduce (A := R) lmean (mag (uv x)) axis ax Ea) as [a Ha]. rewrite Ha. cbn [bind]. unfold check_lanes. cbn [andb bind].
      now rewrite L.
  - assert (AX : ~ ax_ok). { unfold ax_ok. destruct axis as [k|]; [|discriminate]. intros [i M]. rewrite (norm_axis_complete _ _ _ M) in Ea. discriminate. }
    assert (NE : empty -> False). { unfold empty. destruct axis as [k|]; [|discriminate]. intros (i & M & _). rewrite (norm_axis_complete _ _ _ M) in Ea. discriminate. }
    unfold u_sum, u_mean, q_red. rewrite Ea. cbn [bind]. split; [|split; [|contradiction]]; (split; [intros [z Hz]; discriminate|tauto]).
Qed.
Example C69_example : forall E, exists z,
  u_sum E None (UQ (Qty (Arr [2%nat] [1; 2]) d_m) (Qty (Arr [2%nat] [3; 4]) d_m)) = Ok z /\ mag (uv z) = scalar 3 /\ mag (uu z) = scalar 5.
Proof.
  intros E. set (x := UQ (Qty (Arr [2%nat] [1; 2]) d_m) (Qty (Arr [2%nat] [3; 4]) d_m)).
  assert (Hx : uq_ok x) by (apply uq_ok_intro; cbn; auto; (split; [reflexivity|exact d_m_ok])).
  destruct (proj2 (proj1 (C69_defined E None x Hx)) I) as [z Hz]. exists z. split; auto.
  unfold u_sum in Hz. cbn [q_red norm_axis bind x uv uu mag shp length dat areduce red_fun red_needs_elements check_lanes andb scalar qdim] in Hz.
  rewrite u_make_a in Hz; try reflexivity. 2:{ split; [reflexivity|exact d_m_ok]. }
  injection Hz as <-. cbn [uv uu mag]. split; unfold scalar; do 2 f_equal.
  - rewrite lsum_Rsum. cbn. ring.
  - pose proof (sq_sum_root [(0, 3); (0, 4)]) as X. cbn [map snd] in X. cbn [asquare amap shp dat map aroot]. 
    transitivity (Arr [] [sqrt (Rsum [3 * 3; 4 * 4])]); [rewrite <- X; reflexivity|]. do 2 f_equal. cbn [Rsum fold_right].
    replace (3 * 3 + (4 * 4 + 0)) with (5 * 5) by ring. apply sqrt_square. lra.
Qed.

(** ** C86: max, min, argmax, argmin of an uncertain quantity *)
Lemma nth_meas phi (x : uqty R) i p : uq_ok x -> nth_error (dat (meas phi x)) i = Some p ->
  nth i (dat (mag (uv x))) 0 * dimval phi (qdim (uv x)) = fst p /\ nth i (dat (mag (uu x))) 0 * dimval phi (qdim (uu x)) = snd p.
Proof.
  intros Hx H. rewrite (meas_mpairs phi x Hx) in H. cbn [amap dat] in H. rewrite nth_error_map in H.
  destruct (nth_error (dat (mpairs x)) i) as [q|] eqn:Eq; [|discriminate]. cbn [option_map] in H. injection H as <-.
  pose proof (nth_error_nth _ _ (0, 0) Eq) as N. unfold mpairs in N. cbn [dat] in N. rewrite combine_nth in N by now apply uq_len.
  subst q. cbn [pscale fst snd]. rewrite (uq_dimval phi x Hx). auto.
Qed.
(** The result is the first measurement with the largest (smallest) value, with its own
    uncertainty, over the whole array: [axis] has no influence. *)
Theorem C86_max_min : forall E axis (x z : uqty R) phi, renv_ok E -> uq_ok x ->
  (u_max E axis x = Ok z -> exists i p, first_max (dat (phys phi (uv x))) i /\ nth_error (dat (meas phi x)) i = Some p /\ meas phi z = scalar p) /\
  (u_min E axis x = Ok z -> exists i p, first_min (dat (phys phi (uv x))) i /\ nth_error (dat (meas phi x)) i = Some p /\ meas phi z = scalar p).
Proof.
  intros E axis x z phi HE Hx. pose proof (dimval_pos phi (qdim (uv x))) as P.
  assert (G : forall i v, nth_error (dat (phys phi (uv x))) i = Some v -> u_at E i x = Ok z -> exists p, nth_error (dat (meas phi x)) i = Some p /\ meas phi z = scalar p).
  { intros i v Hi Hz. destruct (u_at_ok E i x z HE Hx Hz) as [_ ->].
    assert (exists p, nth_error (dat (meas phi x)) i = Some p) as [p Hp].
    { destruct (nth_error (dat (meas phi x)) i) as [p|] eqn:Ep; eauto. exfalso. apply nth_error_None in Ep.
      rewrite <- (meas_fst phi x Hx) in Hi. cbn [amap dat] in Hi. rewrite nth_error_map in Hi. apply nth_error_None in Ep. now rewrite Ep in Hi. }
    exists p. split; auto. destruct (nth_meas phi x i p Hx Hp) as [F S]. unfold meas, phys, amap, scalar. cbn. cbn in F, S. rewrite F, S. now destruct p. }
  split; intros H.
  - unfold u_max, u_argmax in H. destruct (dat (mag (uv x))) as [|a l] eqn:El; [discriminate|]. cbn [bind] in H.
    assert (F : first_max (dat (phys phi (uv x))) (largmax (a :: l))).
    { rewrite <- (largmax_scale _ (a :: l) P), <- El. apply largmax_first. unfold scale. rewrite El. discriminate. }
    destruct F as (v & Hv & F'). destruct (G _ v Hv H) as (p & G1 & G2). exists (largmax (a :: l)), p. split; auto. exists v. auto.
  - unfold u_min, u_argmin in H. destruct (dat (mag (uv x))) as [|a l] eqn:El; [discriminate|]. cbn [bind] in H.
    assert (F : first_min (dat (phys phi (uv x))) (largmin (a :: l))).
    { rewrite <- (largmin_scale _ (a :: l) P), <- El. apply largmin_first. unfold scale. rewrite El. discriminate. }
    destruct F as (v & Hv & F'). destruct (G _ v Hv H) as (p & G1 & G2). exists (largmin (a :: l)), p. split; auto. exists v. auto.
Qed.
Theorem C86_argmax : forall axis (x : uqty R) phi, uq_ok x ->
  (forall k, u_argmax axis x = Ok k -> first_max (dat (phys phi (uv x))) k) /\
  (forall k, u_argmin axis x = Ok k -> first_min (dat (phys phi (uv x))) k).
Proof.
  intros axis x phi Hx. pose proof (dimval_pos phi (qdim (uv x))) as P. unfold u_argmax, u_argmin.
  destruct (dat (mag (uv x))) as [|a l] eqn:El; [split; discriminate|]. split; intros k H; apply Ok_inj in H; subst k.
  - rewrite <- (largmax_scale _ (a :: l) P), <- El. apply largmax_first. unfold scale. rewrite El. discriminate.
  - rewrite <- (largmin_scale _ (a :: l) P), <- El. apply largmin_first. unfold scale. rewrite El. discriminate.
Qed.
Theorem C86_defined : forall E axis (x : uqty R), renv_ok E -> uq_ok x ->
  ((exists z, u_max E axis x = Ok z) <-> dat (mag (uv x)) <> []) /\ ((exists z, u_min E axis x = Ok z) <-> dat (mag (uv x)) <> []) /\
  ((exists k, u_argmax axis x = Ok k) <-> dat (mag (uv x)) <> []) /\ ((exists k, u_argmin axis x = Ok k) <-> dat (mag (uv x)) <> []) /\
  (dat (mag (uv x)) = [] -> u_max E axis x = Err ValueError /\ u_min E axis x = Err ValueError /\
                            u_argmax axis x = Err ValueError /\ u_argmin axis x = Err ValueError).
Proof.
  intros E axis x HE Hx. pose proof Hx as (Hv & Hu & Hs & He).
  assert (T : forall i, exists z, u_at E i x = Ok z).
  { intros i. unfold u_at. rewrite u_make_q; eauto; [split; [reflexivity|apply Hv]|split; [reflexivity|apply Hu]]. }
  unfold u_max, u_min, u_argmax, u_argmin. destruct (dat (mag (uv x))) as [|a l]; cbn [bind].
  - repeat (split; [split; [intros [z Hz]; discriminate|congruence]|]). auto.
  - split; [split; [discriminate|intros _; apply T]|]. split; [split; [discriminate|intros _; apply T]|].
    split; [split; [discriminate|eauto]|]. split; [split; [discriminate|eauto]|discriminate].
Qed.
(** The maximum along an axis of a 2 x 2 array is a single measurement. *)
Theorem C86_axis_refuted : exists (x z : uqty R), uq_ok x /\ shp (mag (uv x)) = [2%nat; 2%nat] /\ u_max exE (Some 0%Z) x = Ok z /\ shp (mag (uv z)) = [].
Proof.
  set (x := UQ (Qty (Arr [2%nat; 2%nat] [1; 2; 3; 4]) d_m) (Qty (Arr [2%nat; 2%nat] [0; 0; 0; 0]) d_m)).
  assert (Hx : uq_ok x) by (apply uq_ok_intro; cbn; auto; (split; [reflexivity|exact d_m_ok])).
  destruct (proj2 (proj1 (C86_defined exE (Some 0%Z) x exE_ok Hx))) as [z Hz]; [discriminate|]. exists x, z. split; auto. split; [reflexivity|]. split; auto.
  destruct (proj1 (C86_max_min exE (Some 0%Z) x z (fun _ => 1) exE_ok Hx) Hz) as (i & p & _ & _ & M). apply (f_equal (@shp _)) in M. exact M.
Qed.

(** ** C87: where the uncertainty is lost *)
(** A unit as left operand, or any ufunc: zero uncertainty without units. *)
Definition no_uncertainty (z : uqty R) : Prop :=
  Forall (fun s => s = 0) (dat (mag (uu z))) /\ shp (mag (uu z)) = shp (mag (uv z)) /\ qdim (uu z) = [].
Lemma u_wrap_none q : no_uncertainty (u_wrap q).
Proof. split; [|split; reflexivity]. cbn. apply Forall_map, Forall_forall. reflexivity. Qed.
Theorem C87_unit_on_the_left : forall E w (x z : uqty R),
  (u_unit_mul w x = Ok z -> q_mul (OQ (unit_q w)) (OQ (uv x)) = Ok (uv z) /\ no_uncertainty z) /\
  (u_unit_div w x = Ok z -> q_div (OQ (unit_q w)) (OQ (uv x)) = Ok (uv z) /\ no_uncertainty z) /\
  (u_unit_add E w x = Ok z -> q_add E (unit_q w) (OQ (uv x)) = Ok (uv z) /\ no_uncertainty z) /\
  (u_unit_sub E w x = Ok z -> q_sub E (unit_q w) (OQ (uv x)) = Ok (uv z) /\ no_uncertainty z).
Proof.
  assert (G : forall r (z : uqty R), rmap u_wrap r = Ok z -> r = Ok (uv z) /\ no_uncertainty z).
  { intros [q|e] z H; [|discriminate]. cbn in H. injection H as <-. split; [reflexivity|apply u_wrap_none]. }
  intros E w x z. unfold u_unit_mul, u_unit_div, u_unit_add, u_unit_sub. split; [|split; [|split]]; apply G.
Qed.
Theorem C87_ufunc : forall E g f (x z : uqty R), u_ufunc1 E g f x = Ok z -> apply1 E g f (uv x) = Ok (uv z) /\ no_uncertainty z.
Proof.
  intros E g f x z H. unfold u_ufunc1 in H. destruct (apply1 E g f (uv x)) as [q|]; [|discriminate]. cbn in H. injection H as <-.
  split; [reflexivity|apply u_wrap_none].
Qed.
(** So multiplication is not commutative: [m * x] has no uncertainty, [x * m] has. *)
Theorem C87_not_commutative : exists w (x z1 z2 : uqty R), uq_ok x /\ u_unit_mul w x = Ok z1 /\ u_mul_plain x (OQ (unit_q w)) = Ok z2 /\
  dat (mag (uu z1)) = [0] /\ dat (mag (uu z2)) = [3].
Proof.
  set (x := ex_um 2 3 d_m). assert (Hx : uq_ok x) by apply ex_um_ok, d_m_ok.
  assert (Ho : operand_ok (OQ (unit_q u_m : qty R))) by (split; [reflexivity|exact d_m_ok]).
  destruct (proj2 (proj1 (C65_scale_defined exE x _ Hx Ho)) broadcast_scalar) as [z2 Hz].
  exists u_m, x, (u_wrap (Qty (scalar (1 * 2)) (dim_mul d_m d_m))), z2. split; auto. split; [reflexivity|]. split; auto. split; [reflexivity|].
  destruct (u_plain_spec _ _ x _ z2 pk_mul Hx Ho Hz) as (Oz & _ & P).
  change (Ok (scalar (plain_rule Rmult (2, 3) 1)) = Ok (mpairs z2)) in P. apply Ok_inj in P.
  rewrite <- (mpairs_snd z2 Oz), <- P. cbn [amap scalar dat map plain_rule snd fst]. f_equal. rewrite Rabs_right; lra.
Qed.
(** [x += y] adds the values and leaves the uncertainty of [x]. *)
Theorem C87_in_place : forall E (x y z : uqty R), renv_ok E -> uq_ok x -> uq_ok y -> u_iadd E x y = Ok z ->
  uu z = uu x /\ qdim (uv z) = qdim (uv x) /\
  forall phi, consistent E phi -> amap2 Rplus (phys phi (uv x)) (phys phi (uv y)) = Ok (phys phi (uv z)).
Proof.
  intros E x y z HE Hx Hy H. unfold u_iadd in H. destruct (u_scale E x y) as [o|] eqn:Eo; [|discriminate]. cbn [bind] in H.
  destruct (u_scale_spec E x y o HE Hx Hy Eo) as (Oo & _ & _ & Mo & _).
  destruct (q_add E (uv x) (OQ (uv o))) as [r|] eqn:Er; [|discriminate]. cbn [bind] in H. destruct (list_eq_dec _ _ _); [|discriminate].
  injection H as <-. cbn [uv uu]. split; auto.
  destruct (uniform_op_spec E Rplus (uv x) (OQ (uv o)) r homog_add HE (proj1 Hx) (proj1 Oo) Er) as (D & _ & P). split; auto.
  intros phi HC. rewrite <- (P phi HC). cbn [ophys]. f_equal. rewrite <- (meas_fst phi y Hy), <- (meas_fst phi o Oo). now rewrite (Mo phi HC).
Qed.
(** Assigning units to an uncertain quantity never works; neither does rebuilding one without
    giving its uncertainty. *)
Theorem C87_rejected : forall lookup E (x : uqty R) units z, u_set_units x units = Err AttributeError /\ u_new_unc lookup E x units None <> Ok z.
Proof.
  intros lookup E x units z. split; [reflexivity|]. unfold u_new_unc. destruct (truthy units) as [b|]; [|discriminate]. cbn [bind].
  destruct (if b then u_rescale lookup E x units else Ok x); discriminate.
Qed.
Example C87_example : exists z, u_unit_mul u_m (ex_um 2 3 d_m) = Ok z /\ dat (mag (uv z)) = [1 * 2].
Proof. eexists. split; reflexivity. Qed.

Print Assumptions C65_add.
Print Assumptions C65_sub.
Print Assumptions C65_add_defined.
Print Assumptions C65_mul.
Print Assumptions C65_div.
Print Assumptions C65_mul_defined.
Print Assumptions C65_scale.
Print Assumptions C65_unscale.
Print Assumptions C65_inverse.
Print Assumptions C65_scale_defined.
Print Assumptions C65_neg.
Print Assumptions C65_pow.
Print Assumptions C65_pow_defined.
Print Assumptions C65_sqrt.
Print Assumptions C65_rescale.
Print Assumptions C65_rescale_defined.
Print Assumptions C65_simplified.
Print Assumptions C66_sums.
Print Assumptions C66_factors.
Print Assumptions C66_kept.
Print Assumptions C66_products.
Print Assumptions C66_refuted.
Print Assumptions C66_powers.
Print Assumptions C67_shape_and_units.
Print Assumptions C67_refuted.
Print Assumptions C68_refuted.
Print Assumptions C68_reflected_sub.
Print Assumptions C68_reflected_sub_defined.
Print Assumptions C69_sum.
Print Assumptions C69_mean.
Print Assumptions C69_defined.
Print Assumptions C86_max_min.
Print Assumptions C86_argmax.
Print Assumptions C86_defined.
Print Assumptions C86_axis_refuted.
Print Assumptions C87_unit_on_the_left.
Print Assumptions C87_ufunc.
Print Assumptions C87_not_commutative.
Print Assumptions C87_in_place.
Print Assumptions C87_rejected.
