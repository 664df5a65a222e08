(** * Props_Double3: conversions in double arithmetic preserve order (C126).

    Models nothing new: Quant.v and Methods.v at [NumF] (Float.v) and [NumD] (Double.v). *)
From Coq Require Import Reals Lra Lia Psatz List ZArith.
From Flocq Require Import Core.
From Verif Require Import Py Num Dim DimFacts Arr ArrFacts Units Spec Quant QuantFacts Lanes Methods MethodsFacts
  Float SpecFloat FloatFacts Double SpecDouble DoubleFacts SpecSizes Examples.
From Verif Require Import Registry RegFacts Table Import TableFacts LibFloat LibDouble Props_Table Props_Ops Props_Methods Props_Float Props_Double.
Import ListNotations.
Open Scope R_scope.

(** ** Rounding is monotone *)
Lemma rnd_le x y : x <= y -> rnd x <= rnd y.
Proof. intros H. unfold rnd. apply round_le; [apply FLX_exp_valid; reflexivity|typeclasses eauto|exact H]. Qed.
Lemma rnd_zero : rnd 0 = 0.
Proof. unfold rnd. apply round_0. typeclasses eauto. Qed.
Lemma rnd_opp' x : rnd (- x) = - rnd x.
Proof. unfold rnd. apply round_NE_opp. Qed.

(** Specification-level: [r] has at every place the image under [f] of what [a] has there. *)
Definition image {A B} (f : A -> B) (a : arr A) (r : arr B) : Prop :=
  shp r = shp a /\ forall i, nth_error (dat r) i = option_map f (nth_error (dat a) i).
(** Specification-level: a function on numbers that respects their order, zero and negation. *)
Definition respects_order (f : R -> R) : Prop :=
  (forall x y, x <= y -> f x <= f y) /\ f 0 = 0 /\ (forall x, f (- x) = - f x).

Lemma scaleF_respects pw c : 0 <= c -> respects_order (@nmul R (NumF pw) c).
Proof.
  intros Hc. split; [|split].
  - intros x y H. cbn [nmul NumF]. apply rnd_le. nra.
  - cbn [nmul NumF]. rewrite Rmult_0_r. apply rnd_zero.
  - intros x. cbn [nmul NumF]. rewrite <- rnd_opp'. f_equal. ring.
Qed.
Lemma id_respects : respects_order (fun x => x).
Proof. split; [auto|split; auto]. Qed.

(** The function that a conversion applies. *)
Lemma rescaleF_image pw w (EF ER : uenv R) (a : arr R) d d' r :
  faithful pw -> env_near w EF ER ->
  @rescale_to R (NumF pw) EF (Qty a d) d' = Ok r ->
  exists f, respects_order f /\ mag r = amap f a /\
    forall a', @rescale_to R (NumF pw) EF (Qty a' d) d' = Ok (Qty (amap f a') (qdim r)).
Proof.
  intros Hpw HE. unfold rescale_to. cbn [qdim mag]. destruct (dim_eqb d d') eqn:Ed.
  - intros H. apply Ok_inj in H. subst r. exists (fun x => x). split; [apply id_respects|]. cbn [mag qdim].
    assert (Hid : forall a0 : arr R, amap (fun x => x) a0 = a0) by (intros [s l]; unfold amap; cbn; f_equal; apply map_id).
    split; [symmetry; apply Hid|]. intros a'. now rewrite (Hid a').
  - pose proof (conv_factor_near pw Hpw w EF ER d d' HE) as C.
    destruct (@conv_factor R (NumF pw) EF d d') as [c|e].
    + intros H. apply Ok_inj in H. subst r. destruct (@conv_factor R NumR ER d d') as [c'|e']; [|contradiction].
      exists (@nmul R (NumF pw) c). split; [apply scaleF_respects; destruct C as (C & _); lra|].
      split; [reflexivity|]. intros a'. reflexivity.
    + intros H. destruct e; discriminate H.
Qed.

(** Conversion keeps the order of the elements, keeps zeros, and commutes with negation --
    exactly, whatever the roundings. *)
Theorem C126_order : forall pw w (EF ER : uenv R) (a : arr R) d d' r,
  faithful pw -> env_near w EF ER ->
  @rescale_to R (NumF pw) EF (Qty a d) d' = Ok r ->
  (forall i j x y, nth_error (dat a) i = Some x -> nth_error (dat a) j = Some y -> x <= y ->
     exists x' y', nth_error (dat (mag r)) i = Some x' /\ nth_error (dat (mag r)) j = Some y' /\ x' <= y') /\
  (forall i x, nth_error (dat a) i = Some x ->
     exists x', nth_error (dat (mag r)) i = Some x' /\ (0 <= x -> 0 <= x') /\ (x <= 0 -> x' <= 0) /\ (x = 0 -> x' = 0)) /\
  @rescale_to R (NumF pw) EF (Qty (amap Ropp a) d) d' = Ok (Qty (amap Ropp (mag r)) (qdim r)).
Proof.
  intros pw w EF ER a d d' r Hpw HE H. destruct (rescaleF_image pw w EF ER a d d' r Hpw HE H) as (f & (F1 & F2 & F3) & Hm & Hf).
  rewrite Hm. cbn [amap dat]. split; [|split].
  - intros i j x y Hx Hy L. exists (f x), (f y). rewrite !nth_error_map, Hx, Hy. cbn. auto.
  - intros i x Hx. exists (f x). rewrite nth_error_map, Hx. cbn. split; [reflexivity|].
    split; [intros L; pose proof (F1 _ _ L); lra|]. split; [intros L; pose proof (F1 _ _ L); lra|]. now intros ->.
  - rewrite Hf. unfold amap. cbn [shp dat]. rewrite !map_map. do 3 f_equal. apply map_ext. intros x. apply F3.
Qed.

(** ** Greatest and least elements *)
Lemma fold_mono (g : R -> R -> R) (f : R -> R) : (forall x y, f (g x y) = g (f x) (f y)) ->
  forall l x, fold_left g (map f l) (f x) = f (fold_left g l x).
Proof. intros H l. induction l as [|y l IH]; intros x; cbn; [reflexivity|]. now rewrite <- H, IH. Qed.
Lemma nmax_mono pw f x y : respects_order f -> f (@nmax R (NumF pw) x y) = @nmax R (NumF pw) (f x) (f y).
Proof.
  intros (F & _). unfold nmax. cbn [nltb NumF]. unfold Rltb. destruct (Rlt_dec x y), (Rlt_dec (f x) (f y)); auto.
  - pose proof (F x y ltac:(lra)). lra.
  - pose proof (F y x ltac:(lra)). lra.
Qed.
Lemma nmin_mono pw f x y : respects_order f -> f (@nmin R (NumF pw) x y) = @nmin R (NumF pw) (f x) (f y).
Proof.
  intros (F & _). unfold nmin. cbn [nltb NumF]. unfold Rltb. destruct (Rlt_dec y x), (Rlt_dec (f y) (f x)); auto.
  - pose proof (F y x ltac:(lra)). lra.
  - pose proof (F x y ltac:(lra)). lra.
Qed.
Lemma areduce_map_result {A B C} (f : list A -> B) (g : B -> C) ax a :
  areduce (fun l => g (f l)) ax a = rmap (amap g) (areduce f ax a).
Proof.
  unfold areduce. destruct ax as [ax|]; cbn; auto.
  destruct (split_axis (shp a) ax) as [[[pre n] post]|]; auto. cbn [rmap bind]. unfold amap. cbn [shp dat]. do 2 f_equal.
  match goal with |- flat_map _ ?l = _ => induction l as [|b bs IH] end; cbn; [reflexivity|]. now rewrite map_app, <- IH, map_map.
Qed.
(** The greatest (least) element of the converted array, along any axis, is exactly the
    converted greatest (least) element. *)
Theorem C126_extremes : forall pw w (EF ER : uenv R) op axis (a : arr R) d d' q',
  faithful pw -> env_near w EF ER ->
  op = RedMax \/ op = RedMin ->
  @rescale_to R (NumF pw) EF (Qty a d) d' = Ok q' ->
  @q_red R (NumF pw) op axis q' =
  (s <- @q_red R (NumF pw) op axis (Qty a d) ;; @rescale_to R (NumF pw) EF s d').
Proof.
  intros pw w EF ER op axis a d d' q' Hpw HE Hop H.
  destruct (rescaleF_image pw w EF ER a d d' q' Hpw HE H) as (f & Ff & Hm & Hf).
  unfold q_red. cbn [mag qdim]. rewrite Hm. change (shp (amap f a)) with (shp a).
  destruct (norm_axis (length (shp a)) axis) as [ax|e]; cbn [bind]; [|reflexivity].
  rewrite areduce_amap.
  assert (X : areduce (fun l => @red_fun R (NumF pw) op (map f l)) ax a = rmap (amap f) (areduce (@red_fun R (NumF pw) op) ax a)).
  { rewrite <- areduce_map_result. apply areduce_ext. intros l. pose proof Ff as (_ & F2 & _).
    destruct Hop as [-> | ->]; cbn [red_fun]; destruct l as [|x l]; cbn [lmax lmin map];
      [symmetry; exact F2| |symmetry; exact F2|].
    - apply fold_mono. intros y z. now apply nmax_mono.
    - apply fold_mono. intros y z. now apply nmin_mono. }
  rewrite X. destruct (areduce (@red_fun R (NumF pw) op) ax a) as [m|e]; cbn [rmap bind]; [|reflexivity].
  unfold check_lanes. rewrite lane_length_map. cbn [amap dat]. rewrite map_length.
  destruct (_ && _ && _)%bool; cbn [bind]; [reflexivity|]. symmetry. apply Hf.
Qed.

(** ** With the range of exponents *)
Lemma rndD_le x y x' y' : rndD x = Some x' -> rndD y = Some y' -> x <= y -> x' <= y'.
Proof.
  unfold rndD. destruct (Rlt_bool _ _); [|discriminate]. destruct (Rlt_bool _ _); [|discriminate].
  intros Hx Hy L. injection Hx as <-. injection Hy as <-. apply round_le; [apply FLT_exp_valid; reflexivity|typeclasses eauto|exact L].
Qed.
Lemma rndD_finite x y y' : rndD y = Some y' -> Rabs x <= Rabs y -> exists x', rndD x = Some x'.
Proof.
  unfold rndD. intros Hy L. destruct (Rlt_bool (Rabs (round radix2 (FLT_exp (-1074) 53) ZnearestE y)) (bpow radix2 1024)) eqn:E; [|discriminate].
  rewrite Rlt_bool_true; [eauto|]. revert E. case Rlt_bool_spec; [|discriminate]. intros E _. eapply Rle_lt_trans; [|exact E].
  rewrite <- !round_NE_abs by (apply FLT_exp_valid; reflexivity). apply round_le; [apply FLT_exp_valid; reflexivity|typeclasses eauto|exact L].
Qed.
(** Specification-level: finite numbers keep their order and their signs, zero stays zero,
    and a number no larger (in magnitude) than one whose image is finite has a finite image. *)
Definition keeps_order (l l' : list (option R)) : Prop :=
  length l' = length l /\
  forall i j x y, nth_error l i = Some (Some x) -> nth_error l j = Some (Some y) ->
  (forall x' y', nth_error l' i = Some (Some x') -> nth_error l' j = Some (Some y') -> x <= y -> x' <= y') /\
  (forall x', nth_error l' i = Some (Some x') -> (0 <= x -> 0 <= x') /\ (x <= 0 -> x' <= 0)) /\
  (forall y', nth_error l' j = Some (Some y') -> Rabs x <= Rabs y -> exists x', nth_error l' i = Some (Some x')).

Lemma keeps_order_refl l : keeps_order l l.
Proof.
  split; [reflexivity|]. intros i j x y Hx Hy. split; [|split].
  - intros x' y' Hx' Hy' L. congruence.
  - intros x' Hx'. assert (x' = x) as -> by congruence. auto.
  - intros y' Hy' L. eauto.
Qed.
Lemma keeps_order_scale pw c l : 0 <= c -> keeps_order l (map (@nmul _ (NumD pw) (Some c)) l).
Proof.
  intros Hc. split; [apply map_length|]. intros i j x y Hx Hy.
  rewrite !nth_error_map, Hx, Hy. cbn [option_map nmul NumD on2]. split; [|split].
  - intros x' y' Hx' Hy' L. injection Hx' as Hx'. injection Hy' as Hy'. apply (rndD_le _ _ _ _ Hx' Hy'). nra.
  - intros x' Hx'. injection Hx' as Hx'. split; intros L.
    + apply (rndD_le 0 (c * x) 0 x' rndD_0 Hx'). nra.
    + apply (rndD_le (c * x) 0 x' 0 Hx' rndD_0). nra.
  - intros y' Hy' L. injection Hy' as Hy'. destruct (rndD_finite (c * x) (c * y) y' Hy') as [x' Hx'].
    + rewrite !Rabs_mult. apply Rmult_le_compat_l; [apply Rabs_pos|exact L].
    + exists x'. now rewrite Hx'.
Qed.
Theorem C126_range : forall pw w (ED : uenv (option R)) (ER : uenv R) (a : arr (option R)) d d' r,
  faithfulD pw -> env_nearD pw w ED ER -> roundings w d + roundings w d' <= 490 ->
  @rescale_to _ (NumD pw) ED (Qty a d) d' = Ok r ->
  shp (mag r) = shp a /\ keeps_order (dat a) (dat (mag r)).
Proof.
  intros pw w ED ER a d d' r Hpw HE HK. unfold rescale_to. cbn [qdim mag]. destruct (dim_eqb d d').
  - intros H. apply Ok_inj in H. subst r. split; [reflexivity|]. apply keeps_order_refl.
  - pose proof (conv_factor_nearD pw Hpw w ED ER d d' HE HK) as C.
    destruct (@conv_factor _ (NumD pw) ED d d') as [c|e]; [|intros H; destruct e; discriminate H].
    intros H. apply Ok_inj in H. subst r. destruct (@conv_factor R NumR ER d d') as [c'|e']; [|contradiction].
    destruct C as (x & -> & (Hx & _) & _). split; [reflexivity|]. cbn [mag amap dat]. apply keeps_order_scale. lra.
Qed.

(** ** The library's units *)
Lemma wD_unit w : (forall u, 0 <= w u <= 164) -> forall x, roundings w (unit_dims x) <= 168.
Proof.
  intros Hw x. unfold unit_dims. specialize (Hw x). destruct (u_cls x); cbn [roundings]; try lra;
    replace (Qc2R (pval (PInt 1))) with 1 by (unfold Qc2R, Q2R; cbn; lra); rewrite Rabs_R1; lra.
Qed.
(** Between any two units of the library, whatever the numbers (infinite ones included). *)
Theorem C126_units : forall pw fread (a : arr (option R)) u v r, faithfulD pw ->
  @rescale_to _ (NumD pw) (objs (dlib pw fread)) (Qty a (unit_dims u)) (unit_dims v) = Ok r ->
  shp (mag r) = shp a /\ keeps_order (dat a) (dat (mag r)).
Proof.
  intros pw fread a u v r Hpw H. destruct (C123_import pw fread Hpw) as (_ & _ & _ & _ & _ & w & Hw & HE).
  refine (C126_range pw w _ _ a _ _ r Hpw HE _ H). pose proof (wD_unit w Hw u). pose proof (wD_unit w Hw v). lra.
Qed.
Theorem C126_extremes_units : forall pw fread op axis (a : arr R) u v q', faithful pw ->
  op = RedMax \/ op = RedMin ->
  @rescale_to R (NumF pw) (objs (flib pw fread)) (Qty a (unit_dims u)) (unit_dims v) = Ok q' ->
  @q_red R (NumF pw) op axis q' =
  (s <- @q_red R (NumF pw) op axis (Qty a (unit_dims u)) ;; @rescale_to R (NumF pw) (objs (flib pw fread)) s (unit_dims v)).
Proof.
  intros pw fread op axis a u v q' Hpw Hop H. destruct (C93_import pw fread Hpw) as (_ & _ & _ & _ & _ & w & Hw & HE).
  exact (C126_extremes pw w _ _ op axis a _ _ q' Hpw HE Hop H).
Qed.

(** ** Example *)
Example C126_example fread : exists r x y z,
  @rescale_to R (NumF ex_pw) (objs (flib ex_pw fread)) (Qty (Arr [3%nat] [1; 3; 2]) (unit_dims (uL "inch"))) (unit_dims (uL "meter")) = Ok r /\
  dat (mag r) = [x; y; z] /\ 0 <= x <= z /\ z <= y.
Proof.
  assert (Hz : In (Size (uL "inch") (254 # 10000) (unit_dims (uL "meter"))) standard_sizes).
  { unfold standard_sizes. apply in_or_app. left. unfold lengths. do 7 right. left. reflexivity. }
  destruct (C89_rescale fread _ (Qty (Arr [3%nat] [1; 3; 2]) (unit_dims (uL "inch"))) Hz eq_refl eq_refl) as (r' & E' & _). cbn [sz_of sz_factor] in E'.
  pose proof (C93_units ex_pw fread (Arr [3%nat] [1; 3; 2]) (uL "inch") (uL "meter") ex_pw_faithful) as H.
  destruct (C93_import ex_pw fread ex_pw_faithful) as (_ & _ & _ & _ & _ & w & Hw & HE).
  revert H HE E'. generalize (objs (flib ex_pw fread)) as EF, (objs (lib fread)) as ER. intros EF ER H HE E'. rewrite E' in H.
  destruct (@rescale_to R (NumF ex_pw) EF (Qty (Arr [3%nat] [1; 3; 2]) (unit_dims (uL "inch"))) (unit_dims (uL "meter"))) as [r|e] eqn:ER'; [|contradiction].
  destruct (C126_order ex_pw w EF ER _ _ _ r ex_pw_faithful HE ER') as (O & G & _). cbn [dat] in O, G.
  destruct (O 0%nat 2%nat 1 2 eq_refl eq_refl ltac:(lra)) as (x & z & Hx & Hz' & L1).
  destruct (O 2%nat 1%nat 2 3 eq_refl eq_refl ltac:(lra)) as (z' & y & Hz'' & Hy & L2).
  destruct (G 0%nat 1 eq_refl) as (x' & Hx' & P & _).
  assert (z' = z) as -> by congruence. assert (x' = x) as -> by congruence.
  destruct H as (_ & _ & F). exists r, x, y, z. split; [reflexivity|]. split; [|split; [split; [apply P; lra|exact L1]|exact L2]].
  assert (Ln : length (dat (mag r)) = 3%nat).
  { destruct (rescaleF_image ex_pw w EF ER _ _ _ r ex_pw_faithful HE ER') as (f & _ & Hm & _). now rewrite Hm. }
  destruct (dat (mag r)) as [|x1 [|y1 [|z1 [|? ?]]]]; cbn in Ln; try discriminate. cbn in Hx, Hy, Hz'. congruence.
Qed.

Print Assumptions C126_order.
Print Assumptions C126_extremes.
Print Assumptions C126_range.
Print Assumptions C126_units.
Print Assumptions C126_extremes_units.
