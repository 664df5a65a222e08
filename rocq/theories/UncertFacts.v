(** * UncertFacts: lemmas about uncertain quantities. *)
From Coq Require Import Reals Lra Lia.
From Verif Require Import Py Num Dim DimFacts Arr ArrFacts Units Spec SpecApi UnitFacts Quant QuantFacts ConvFacts Ufunc Ops OpsFacts
  Lanes Methods MethodsFacts ItemFacts Uncert SpecUncert Props_Ops.

Open Scope R_scope.

(** ** Pairs *)
Definition mpairs (x : uqty R) : arr (R * R) := Arr (shp (mag (uv x))) (combine (dat (mag (uv x))) (dat (mag (uu x)))).

Lemma map_fst_combine {A B} (l : list A) (l' : list B) : length l = length l' -> map fst (combine l l') = l.
Proof. revert l'; induction l as [|a l IH]; intros [|b l']; cbn; try discriminate; auto. intros [= H]. now rewrite IH. Qed.
Lemma map_snd_combine {A B} (l : list A) (l' : list B) : length l = length l' -> map snd (combine l l') = l'.
Proof. revert l'; induction l as [|a l IH]; intros [|b l']; cbn; try discriminate; auto. intros [= H]. now rewrite IH. Qed.
Lemma combine_map {A B C D} (f : A -> C) (g : B -> D) l l' : combine (map f l) (map g l') = map (fun p => (f (fst p), g (snd p))) (combine l l').
Proof. revert l'; induction l as [|a l IH]; intros [|b l']; cbn; auto. now rewrite IH. Qed.
Lemma combine_split' {A B} (l : list (A * B)) : combine (map fst l) (map snd l) = l.
Proof. induction l as [|[a b] l IH]; cbn; congruence. Qed.

Lemma uq_len (x : uqty R) : uq_ok x -> length (dat (mag (uv x))) = length (dat (mag (uu x))).
Proof. intros ([W1 _] & [W2 _] & Hs & _). unfold awf in *. congruence. Qed.
Lemma mpairs_fst (x : uqty R) : uq_ok x -> amap fst (mpairs x) = mag (uv x).
Proof. intros H. unfold amap, mpairs. cbn. rewrite map_fst_combine by now apply uq_len. now destruct (mag (uv x)). Qed.
Lemma mpairs_snd (x : uqty R) : uq_ok x -> amap snd (mpairs x) = mag (uu x).
Proof.
  intros H. unfold amap, mpairs. cbn. rewrite map_snd_combine by now apply uq_len.
  destruct H as (_ & _ & <- & _). now destruct (mag (uu x)).
Qed.
Lemma mpairs_awf (x : uqty R) : uq_ok x -> awf (mpairs x).
Proof. intros H. pose proof (uq_len x H) as L. destruct H as ([W _] & _). unfold awf, mpairs in *. cbn. rewrite combine_length. lia. Qed.
(** Two arrays make up the pairs of an uncertain quantity. *)
Lemma mpairs_intro (z : uqty R) (a : arr (R * R)) : amap fst a = mag (uv z) -> amap snd a = mag (uu z) -> a = mpairs z.
Proof.
  intros H1 H2. unfold mpairs. rewrite <- H1, <- H2. unfold amap. cbn. rewrite combine_split'. now destruct a.
Qed.
Lemma uq_dimval phi (x : uqty R) : uq_ok x -> dimval phi (qdim (uu x)) = dimval phi (qdim (uv x)).
Proof.
  intros ((_ & D1) & (_ & D2) & _ & He). apply dimval_eqb; [apply D2|apply D1|].
  apply (dim_eqb_exp _ _ (proj1 D2) (proj1 D1)). exact He.
Qed.
(** The scaling of both components. *)
Definition pscale (c : R) (p : R * R) : R * R := (fst p * c, snd p * c).
Lemma meas_mpairs phi x : uq_ok x -> meas phi x = amap (pscale (dimval phi (qdim (uv x)))) (mpairs x).
Proof.
  intros H. unfold meas, mpairs, amap, phys, amap. cbn. f_equal. rewrite uq_dimval by auto.
  rewrite combine_map. reflexivity.
Qed.
Lemma meas_awf phi x : uq_ok x -> awf (meas phi x).
Proof. intros H. rewrite meas_mpairs by auto. apply awf_amap. now apply mpairs_awf. Qed.
Lemma meas_fst phi x : uq_ok x -> amap fst (meas phi x) = phys phi (uv x).
Proof. intros H. rewrite meas_mpairs by auto. rewrite amap_amap. unfold phys. rewrite <- (mpairs_fst x H), amap_amap. reflexivity. Qed.
Lemma meas_snd phi x : uq_ok x -> amap snd (meas phi x) = phys phi (uu x).
Proof. intros H. rewrite meas_mpairs by auto. rewrite amap_amap. unfold phys. rewrite uq_dimval, <- (mpairs_snd x H), amap_amap by auto. reflexivity. Qed.
Lemma meas_intro phi (z : uqty R) a : amap fst a = phys phi (uv z) -> amap snd a = phys phi (uu z) -> a = meas phi z.
Proof.
  intros H1 H2. unfold meas. rewrite <- H1, <- H2. rewrite <- (phys_shp phi (uv z)), <- H1. unfold amap. cbn. rewrite combine_split'. now destruct a.
Qed.

(** ** Arrays *)
(** Combining two results of broadcasting the same operands. *)
Lemma amap2_join {A B C D F} (f : A -> B -> C) (g : A -> B -> D) (h : C -> D -> F) a b r s :
  awf a -> awf b -> amap2 f a b = Ok r -> amap2 g a b = Ok s ->
  amap2 h r s = amap2 (fun x y => h (f x y) (g x y)) a b.
Proof.
  intros Wa Wb Hr Hs. pose proof (awf_amap2 f Wa Wb Hr) as Wr. pose proof (awf_amap2 g Wa Wb Hs) as Ws.
  unfold amap2 in Hr, Hs |- * at 2. destruct (bc_shape (shp a) (shp b)) as [t|]; [|discriminate].
  injection Hr as <-. injection Hs as <-. rewrite amap2_same_shape; auto. cbn. do 2 f_equal.
  generalize (expand (pad (length t) (shp a)) t (dat a)) (expand (pad (length t) (shp b)) t (dat b)).
  induction l as [|x l IH]; intros [|y l']; cbn; auto. now rewrite IH.
Qed.
Lemma amap2_self {A B C} (f : A -> B -> C) (a : arr A) (b : arr B) {D} (g : D -> A) (h : D -> B) (c : arr D) :
  awf c -> a = amap g c -> b = amap h c -> amap2 f a b = Ok (amap (fun x => f (g x) (h x)) c).
Proof.
  intros W -> ->. rewrite amap2_amap. rewrite amap2_same_shape by auto. unfold amap. do 2 f_equal.
  induction (dat c); cbn; congruence.
Qed.
Lemma amap2_Ok_amap {A B C D} (g : C -> D) (f : A -> B -> C) a b r : amap2 f a b = Ok r -> amap2 (fun x y => g (f x y)) a b = Ok (amap g r).
Proof. intros H. rewrite <- rmap_amap_amap2, H. reflexivity. Qed.

(** ** Powers 2 and 1/2 *)
Lemma npow_two (x : R) : npow x p_two = x * x.
Proof. cbn [npow NumR]. unfold rpow. change (Pos.eqb (Qden (this (pval p_two))) 1) with true. cbv iota. change (powerRZ x 2 = x * x). unfold powerRZ. change (Pos.to_nat 2) with 2%nat. cbn. ring. Qed.
Lemma npow_half (x : R) : 0 <= x -> npow x p_half = sqrt x.
Proof.
  intros H. cbn [npow NumR]. unfold rpow. change (Pos.eqb (Qden (this (pval p_half))) 1) with false. cbv iota.
  destruct (Req_EM_T x 0) as [->|Hx]; [now rewrite sqrt_0|].
  replace (Q2R (this (pval p_half))) with (/ 2) by (cbn; unfold Q2R; cbn; lra).
  apply Rpower_sqrt. lra.
Qed.
Lemma sq_nonneg x : 0 <= x * x. Proof. pose proof (Rle_0_sqr x). unfold Rsqr in *. lra. Qed.
Lemma quad_nonneg a b : 0 <= quad a b. Proof. apply sqrt_pos. Qed.
Lemma quad_pow a b : npow (npow a p_two + npow b p_two) p_half = quad a b.
Proof. rewrite !npow_two. apply npow_half. pose proof (sq_nonneg a). pose proof (sq_nonneg b). lra. Qed.
Lemma quad_scale a b v : 0 < v -> quad (a * v) (b * v) = quad a b * v.
Proof. intros H. exact (homog_hypot v a b H). Qed.
Lemma abs_pow a b : npow (npow a p_two * npow b p_two) p_half = Rabs (a * b).
Proof.
  rewrite !npow_two. rewrite npow_half. 2:{ pose proof (sq_nonneg (a * b)). lra. }
  replace (a * a * (b * b)) with ((a * b)²) by (unfold Rsqr; ring). apply sqrt_Rsqr_abs.
Qed.
Lemma abs_pow_div a b : b <> 0 -> npow (npow a p_two / npow b p_two) p_half = Rabs (a / b).
Proof.
  intros Hb. rewrite !npow_two. replace (a * a / (b * b)) with ((a / b)²) by (unfold Rsqr; field; auto). rewrite npow_half by apply Rle_0_sqr.
  apply sqrt_Rsqr_abs.
Qed.

(** [q ** p] for a number [p]. *)
Lemma q_pow_scalar {A} {N : Num A} (q : qty A) (p : pynum) : awf (mag q) ->
  q_pow q (OArr (scalar p)) = Ok (Qty (amap (fun x => npow x p) (mag q)) (dim_pow (qdim q) p)).
Proof.
  intros W. unfold q_pow, apply_power. cbn [bind odat scalar dat uniform forallb]. 
  change (Arr [] [p]) with (scalar p). rewrite amap2_scalar_r by auto. reflexivity.
Qed.

Lemma exp_two_half d w : exp_of (dim_pow (dim_pow d p_two) p_half) w = exp_of d w.
Proof.
  rewrite !exp_of_pow. transitivity (exp_of d w * (pval p_two * pval p_half))%Qc; [ring|].
  replace (pval p_two * pval p_half)%Qc with 1%Qc by (apply Qc_is_canon; reflexivity). ring.
Qed.

(** ** Setting the uncertainty *)
Lemma same_exp_eqb d1 d2 : dims_ok d1 -> dims_ok d2 -> (forall w, exp_of d1 w = exp_of d2 w) -> dim_eqb d1 d2 = true.
Proof. intros [W1 _] [W2 _] H. now apply (dim_eqb_exp d1 d2 W1 W2). Qed.
Lemma set_unc_ok E (v u : qty R) : qty_ok v -> qty_ok u -> shp (mag u) = shp (mag v) -> (forall w, exp_of (qdim u) w = exp_of (qdim v) w) ->
  set_uncertainty E v (OQ u) = Ok (UQ v u).
Proof.
  intros [_ Dv] [_ Du] Hs He. unfold set_uncertainty. cbn [as_q]. destruct (list_eq_dec _ _ _); [|congruence].
  now rewrite same_exp_eqb.
Qed.
Lemma u_make_q E (v u : qty R) : qty_ok v -> qty_ok u -> shp (mag u) = shp (mag v) -> (forall w, exp_of (qdim u) w = exp_of (qdim v) w) ->
  u_make E v (Some (OQ u)) = Ok (UQ v u).
Proof.
  intros Hv Hu Hs He. unfold u_make.
  assert (X : (if dim_nonempty (qdim v) then rescale_to E u (qdim v) else Ok u) = Ok u).
  { destruct (dim_nonempty (qdim v)); auto. unfold rescale_to. rewrite same_exp_eqb; auto; [apply Hu|apply Hv]. }
  rewrite X. cbn [bind]. now apply set_unc_ok.
Qed.
Lemma u_make_a E (v : qty R) a : qty_ok v -> awf a -> shp a = shp (mag v) ->
  u_make E v (Some (OArr a)) = Ok (UQ v (Qty a (qdim v))).
Proof. intros Hv Ha Hs. unfold u_make. cbn [bind]. apply set_unc_ok; auto. split; [auto|apply Hv]. Qed.
Lemma uq_ok_intro (v u : qty R) : qty_ok v -> qty_ok u -> shp (mag u) = shp (mag v) -> (forall w, exp_of (qdim u) w = exp_of (qdim v) w) -> uq_ok (UQ v u).
Proof. intros. repeat split; cbn; auto; try apply H; apply H0. Qed.
Lemma uq_ok_of_q (v : qty R) : qty_ok v -> uq_ok (u_of_q v).
Proof. intros H. apply uq_ok_intro; auto. destruct H. split; cbn; auto. now apply awf_amap. Qed.

(** Whatever [u_make] accepts satisfies [uq_ok], and its value is the one given. *)
Lemma u_make_inv E (v : qty R) w z : renv_ok E -> qty_ok v -> (forall o, w = Some o -> operand_ok o) -> u_make E v w = Ok z ->
  uv z = v /\ uq_ok z.
Proof.
  intros HE Hv Hw. unfold u_make. destruct w as [w|]; [|intros [= <-]; split; [reflexivity|now apply uq_ok_of_q]].
  specialize (Hw w eq_refl).
  assert (X : forall u, qty_ok u -> set_uncertainty E v (OQ u) = Ok z -> uv z = v /\ uq_ok z).
  { intros u Hu. unfold set_uncertainty. cbn [as_q]. destruct (list_eq_dec _ _ _) as [Es|]; [|discriminate].
    destruct (dim_eqb (qdim u) (qdim v)) eqn:Ee.
    - intros [= <-]. split; [reflexivity|]. apply uq_ok_intro; auto. exact (proj1 (dim_eqb_exp _ _ (proj1 (proj2 Hu)) (proj1 (proj2 Hv))) Ee).
    - destruct (rescale_to E u (qdim v)) as [u'|e] eqn:Er; [|discriminate]. intros [= <-]. split; [reflexivity|].
      pose proof (rescale_to_qty_ok E u (qdim v) u' Hu (proj2 Hv) Er) as Hu'. pose proof (rescale_to_shape E u (qdim v) u' Er) as S.
      apply uq_ok_intro; auto; [congruence|]. pose proof (rescale_to_eqb E u (qdim v) u' (proj1 (proj2 Hu)) (proj1 (proj2 Hv)) Er) as Q.
      exact (proj1 (dim_eqb_exp _ _ (proj1 (proj2 Hu')) (proj1 (proj2 Hv))) Q). }
  destruct w as [q|a]; cbn [operand_ok] in Hw.
  - destruct (dim_nonempty (qdim v)); [|apply X; auto]. destruct (rescale_to E q (qdim v)) as [u|e] eqn:Er; [|discriminate]. cbn [bind]. apply X.
    exact (rescale_to_qty_ok E q (qdim v) u Hw (proj2 Hv) Er).
  - cbn [bind]. apply X. split; [exact Hw|apply Hv].
Qed.

(** ** Conversion *)
Lemma dim_nonempty_nil d : dim_nonempty d = false -> d = [].
Proof. destruct d; [auto|discriminate]. Qed.
Lemma exp_eqb d1 d2 : dims_ok d1 -> dims_ok d2 -> dim_eqb d1 d2 = true -> forall w, exp_of d1 w = exp_of d2 w.
Proof. intros [W1 _] [W2 _] H. exact (proj1 (dim_eqb_exp d1 d2 W1 W2) H). Qed.
Lemma u_rescale_to_spec (E : uenv R) x d z : renv_ok E -> uq_ok x -> dims_ok d -> u_rescale_to E x d = Ok z ->
  uq_ok z /\ rescale_to E (uv x) d = Ok (uv z) /\ rescale_to E (uu x) d = Ok (uu z) /\
  (forall w, exp_of (qdim (uv z)) w = exp_of d w) /\
  forall phi, consistent E phi -> meas phi z = meas phi x.
Proof.
  intros HE Hx Hd. pose proof Hx as (Hv & Hu & Hs & He). unfold u_rescale_to.
  destruct (rescale_to E (uv x) d) as [v|e] eqn:Ev; [|discriminate]. destruct (rescale_to E (uu x) d) as [u|e] eqn:Eu; [|discriminate].
  cbn [bind]. pose proof (rescale_to_qty_ok E _ _ _ Hv Hd Ev) as Hv'. pose proof (rescale_to_qty_ok E _ _ _ Hu Hd Eu) as Hu'.
  pose proof (rescale_to_eqb E _ _ _ (proj1 (proj2 Hv)) (proj1 Hd) Ev) as Q1. pose proof (rescale_to_eqb E _ _ _ (proj1 (proj2 Hu)) (proj1 Hd) Eu) as Q2.
  pose proof (rescale_to_shape E _ _ _ Ev) as S1. pose proof (rescale_to_shape E _ _ _ Eu) as S2.
  pose proof (exp_eqb _ _ (proj2 Hv') Hd Q1) as X1. pose proof (exp_eqb _ _ (proj2 Hu') Hd Q2) as X2.
  assert (XX : forall w, exp_of (qdim u) w = exp_of (qdim v) w) by (intros w; now rewrite X1, X2).
  assert (SS : shp (mag u) = shp (mag v)) by congruence.
  rewrite set_unc_ok by auto. intros [= <-]. cbn [uv uu]. assert (Hz : uq_ok (UQ v u)) by now apply uq_ok_intro.
  repeat (split; auto). intros phi HC. symmetry. apply meas_intro; cbn [uv uu].
  - rewrite meas_fst by auto. symmetry. now apply (rescale_value E (uv x) d v HE (proj2 Hv) Hd Ev).
  - rewrite meas_snd by auto. symmetry. now apply (rescale_value E (uu x) d u HE (proj2 Hu) Hd Eu).
Qed.
Lemma convertible_exp_l E d1 d2 d : dims_ok d1 -> dims_ok d2 -> (forall w, exp_of d1 w = exp_of d2 w) -> convertible E d1 d -> convertible E d2 d.
Proof.
  intros D1 D2 He [c Hc]. exists c. intros phi HC. rewrite <- (Hc phi HC). symmetry. apply dimval_eqb; [apply D1|apply D2|now apply same_exp_eqb].
Qed.
Lemma u_rescale_to_iff (E : uenv R) x d : renv_ok E -> uq_ok x -> dims_ok d ->
  ((exists z, u_rescale_to E x d = Ok z) <-> convertible E (qdim (uv x)) d) /\ (forall e, u_rescale_to E x d = Err e -> e = ValueError).
Proof.
  intros HE Hx Hd. pose proof Hx as (Hv & Hu & Hs & He).
  pose proof (rescale_ok_iff E (uv x) d HE (proj2 Hv) Hd) as I1. pose proof (rescale_ok_iff E (uu x) d HE (proj2 Hu) Hd) as I2.
  destruct (u_rescale_to E x d) as [z|e] eqn:Ez.
  - split; [|discriminate]. destruct (u_rescale_to_spec E x d z HE Hx Hd Ez) as (_ & H1 & _). split; eauto. intros _. apply I1. eauto.
  - assert (X : ~ convertible E (qdim (uv x)) d /\ e = ValueError).
    { unfold u_rescale_to in Ez. destruct (rescale_to E (uv x) d) as [v|e1] eqn:Ev.
      - exfalso. assert (C : convertible E (qdim (uv x)) d) by (apply I1; eauto).
        assert (C2 : convertible E (qdim (uu x)) d) by (apply (convertible_exp_l E (qdim (uv x))); [apply Hv|apply Hu|intros; now rewrite He|auto]).
        apply I2 in C2. destruct C2 as [u Eu]. rewrite Eu in Ez. cbn [bind] in Ez. rewrite set_unc_ok in Ez; [discriminate| | | |].
        + exact (rescale_to_qty_ok E _ _ _ Hv Hd Ev).
        + exact (rescale_to_qty_ok E _ _ _ Hu Hd Eu).
        + rewrite (rescale_to_shape E _ _ _ Ev), (rescale_to_shape E _ _ _ Eu). auto.
        + pose proof (rescale_to_eqb E _ _ _ (proj1 (proj2 Hv)) (proj1 Hd) Ev) as Q1. pose proof (rescale_to_eqb E _ _ _ (proj1 (proj2 Hu)) (proj1 Hd) Eu) as Q2.
          intros w. rewrite (exp_eqb _ _ (proj2 (rescale_to_qty_ok E _ _ _ Hu Hd Eu)) Hd Q2 w). symmetry.
          exact (exp_eqb _ _ (proj2 (rescale_to_qty_ok E _ _ _ Hv Hd Ev)) Hd Q1 w).
      - cbn [bind] in Ez. split; [|apply (rescale_to_err E (uv x) d); congruence]. intros C. apply I1 in C. destruct C as [r Hr]. congruence. }
    destruct X as [X ->]. split; [|congruence]. split; [intros [z Hz]; discriminate|contradiction].
Qed.
Lemma u_scale_spec (E : uenv R) x y o : renv_ok E -> uq_ok x -> uq_ok y -> u_scale E x y = Ok o ->
  uq_ok o /\ (forall w, exp_of (qdim (uv o)) w = exp_of (qdim (uv x)) w) /\ shp (mag (uv o)) = shp (mag (uv y)) /\
  (forall phi, consistent E phi -> meas phi o = meas phi y) /\ convertible E (qdim (uv y)) (qdim (uv x)).
Proof.
  intros HE Hx Hy. unfold u_scale. destruct (dim_eqb _ _) eqn:Eq.
  - intros [= <-]. split; auto. pose proof (exp_eqb _ _ (proj2 (proj1 Hy)) (proj2 (proj1 Hx)) Eq) as X. split; auto. split; auto. split; auto.
    exists 1. intros phi HC. rewrite Rmult_1_l. apply dimval_eqb; [apply Hy|apply Hx|auto].
  - intros H. destruct (u_rescale_to_spec E y _ o HE Hy (proj2 (proj1 Hx)) H) as (H1 & H2 & H3 & H4 & H5). split; auto. split; auto.
    split; [exact (rescale_to_shape E _ _ _ H2)|]. split; auto. apply (u_rescale_to_iff E y (qdim (uv x)) HE Hy (proj2 (proj1 Hx))). eauto.
Qed.
Lemma u_scale_iff (E : uenv R) x y : renv_ok E -> uq_ok x -> uq_ok y ->
  ((exists o, u_scale E x y = Ok o) <-> convertible E (qdim (uv y)) (qdim (uv x))) /\ (forall e, u_scale E x y = Err e -> e = ValueError).
Proof.
  intros HE Hx Hy. split; [split|].
  - intros [o Ho]. now apply (u_scale_spec E x y o HE Hx Hy).
  - intros C. unfold u_scale. destruct (dim_eqb _ _); eauto. now apply (u_rescale_to_iff E y (qdim (uv x)) HE Hy (proj2 (proj1 Hx))).
  - intros e. unfold u_scale. destruct (dim_eqb _ _); [discriminate|]. apply (u_rescale_to_iff E y (qdim (uv x)) HE Hy (proj2 (proj1 Hx))).
Qed.

(** ** Sums and differences *)
Lemma quadrature_eq (E : uenv R) u1 u2 : qty_ok u1 -> qty_ok u2 -> (forall w, exp_of (qdim u2) w = exp_of (qdim u1) w) ->
  quadrature E u1 u2 = rmap (fun m => Qty m (dim_pow (dim_pow (qdim u1) p_two) p_half)) (amap2 quad (mag u1) (mag u2)).
Proof.
  intros H1 H2 He. unfold quadrature. rewrite q_pow_scalar by apply H1. cbn [bind]. rewrite q_pow_scalar by apply H2. cbn [bind].
  unfold q_add, scale_other. cbn [as_q qdim].
  assert (Q : forall d1 d2, dims_ok d1 -> dims_ok d2 -> (forall w, exp_of d1 w = exp_of d2 w) -> dim_eqb (dim_pow d1 p_two) (dim_pow d2 p_two) = true).
  { intros d1 d2 D1 D2 X. apply same_exp_eqb; try (now apply dims_ok_pow). intros w. now rewrite !exp_of_pow, X. }
  rewrite Q by (try apply H1; try apply H2; auto). cbn [bind].
  unfold apply2. cbn [odat mag pd2 qdim]. rewrite amap2_amap.
  rewrite Q by (try apply H1; try apply H2; intros; symmetry; auto).
  destruct (amap2 _ (mag u1) (mag u2)) as [m|e] eqn:Em.
  - cbn [bind]. rewrite q_pow_scalar. 2:{ cbn [mag]. exact (awf_amap2 _ (proj1 H1) (proj1 H2) Em). } cbn [mag qdim].
    apply (amap2_Ok_amap (fun x => npow x p_half)) in Em. cbn [nadd NumR] in Em.
    rewrite (amap2_ext _ quad) in Em by (intros; apply quad_pow). rewrite Em. reflexivity.
  - cbn [bind]. pose proof (amap2_ok' (fun x y => nadd (npow x p_two) (npow y p_two)) quad (mag u1) (mag u2) (mag u1) (mag u2) eq_refl eq_refl) as X.
    rewrite Em in X. unfold amap2 in Em, X |- *. destruct (bc_shape _ _); [discriminate|]. cbn. congruence.
Qed.
Definition u_uniform (E : uenv R) (f : R -> R -> R) (x y : uqty R) : res (uqty R) :=
  o <- u_scale E x y ;;
  r <- (o <- scale_other E (uv x) (OQ (uv o)) ;; apply2 f RUniform (OQ (uv x)) (OQ o)) ;;
  u <- quadrature E (uu x) (uu o) ;;
  u_make E r (Some (OQ u)).
Lemma u_add_uniform E x y : u_add E x y = u_uniform E Rplus x y. Proof. reflexivity. Qed.
Lemma u_sub_uniform E x y : u_sub E x y = u_uniform E Rminus x y. Proof. reflexivity. Qed.

Lemma u_uniform_eq (E : uenv R) f x y o : renv_ok E -> uq_ok x -> uq_ok y -> u_scale E x y = Ok o ->
  u_uniform E f x y = match amap2 f (mag (uv x)) (mag (uv o)), amap2 quad (mag (uu x)) (mag (uu o)) with
    | Ok a, Ok b => Ok (UQ (Qty a (qdim (uv x))) (Qty b (dim_pow (dim_pow (qdim (uu x)) p_two) p_half)))
    | _, _ => Err ValueError end.
Proof.
  intros HE Hx Hy Ho. destruct (u_scale_spec E x y o HE Hx Hy Ho) as (Oo & Xo & So & Mo & _). unfold u_uniform. rewrite Ho. cbn [bind].
  unfold scale_other. cbn [as_q].
  assert (Q1 : dim_eqb (qdim (uv o)) (qdim (uv x)) = true) by (apply same_exp_eqb; [apply Oo|apply Hx|auto]).
  assert (Q2 : dim_eqb (qdim (uv x)) (qdim (uv o)) = true) by (apply same_exp_eqb; [apply Hx|apply Oo|auto]).
  rewrite Q1. cbn [bind]. unfold apply2. cbn [odat pd2]. rewrite Q2.
  destruct Hx as (Hv & Hu & Hs & He), Oo as (Hv' & Hu' & Hs' & He').
  assert (XU : forall w, exp_of (qdim (uu o)) w = exp_of (qdim (uu x)) w) by (intros w; now rewrite He', Xo, He).
  rewrite (quadrature_eq E (uu x) (uu o) Hu Hu' XU).
  destruct (amap2 f (mag (uv x)) (mag (uv o))) as [a|e1] eqn:Ea.
  - cbn [bind]. destruct (amap2 quad (mag (uu x)) (mag (uu o))) as [b|e2] eqn:Eb.
    + cbn [rmap bind]. apply u_make_q.
      * split; [exact (awf_amap2 _ (proj1 Hv) (proj1 Hv') Ea)|apply Hv].
      * split; [exact (awf_amap2 _ (proj1 Hu) (proj1 Hu') Eb)|]. cbn [qdim]. apply dims_ok_pow, dims_ok_pow, Hu.
      * cbn [mag]. unfold amap2 in Ea, Eb. rewrite Hs, Hs' in Eb. destruct (bc_shape _ _); [|discriminate].
        injection Ea as <-. injection Eb as <-. reflexivity.
      * intros w. cbn [qdim]. rewrite exp_two_half. apply He.
    + exfalso. unfold amap2 in Ea, Eb. rewrite Hs, Hs' in Eb. destruct (bc_shape _ _); discriminate.
  - cbn [bind]. unfold amap2 in Ea. destruct (bc_shape _ _); congruence.
Qed.

Lemma u_uniform_spec (E : uenv R) f x y z : homog f -> renv_ok E -> uq_ok x -> uq_ok y -> u_uniform E f x y = Ok z ->
  uq_ok z /\ qdim (uv z) = qdim (uv x) /\
  forall phi, consistent E phi -> amap2 (fun p q => (f (fst p) (fst q), quad (snd p) (snd q))) (meas phi x) (meas phi y) = Ok (meas phi z).
Proof.
  intros Hf HE Hx Hy H. destruct (u_scale E x y) as [o|e] eqn:Ho; [|unfold u_uniform in H; rewrite Ho in H; discriminate].
  rewrite (u_uniform_eq E f x y o HE Hx Hy Ho) in H. destruct (u_scale_spec E x y o HE Hx Hy Ho) as (Oo & Xo & So & Mo & _).
  destruct (amap2 f _ _) as [a|] eqn:Ea; [|discriminate]. destruct (amap2 quad _ _) as [b|] eqn:Eb; [|discriminate]. injection H as <-.
  assert (PP : amap2 (fun p q => (f (fst p) (fst q), quad (snd p) (snd q))) (mpairs x) (mpairs o) =
    Ok (mpairs (UQ (Qty a (qdim (uv x))) (Qty b (dim_pow (dim_pow (qdim (uu x)) p_two) p_half))))).
  { rewrite <- (mpairs_fst x Hx), <- (mpairs_fst o Oo), amap2_amap in Ea. rewrite <- (mpairs_snd x Hx), <- (mpairs_snd o Oo), amap2_amap in Eb.
    assert (X : exists c, amap2 (fun p q => (f (fst p) (fst q), quad (snd p) (snd q))) (mpairs x) (mpairs o) = Ok c).
    { apply amap2_ok. apply (proj1 (amap2_ok _ _ _)) with (1 := ex_intro _ a Ea). }
    destruct X as [c Hc]. rewrite Hc. f_equal. apply mpairs_intro; cbn [uv uu mag].
    - apply (amap2_Ok_amap fst) in Hc. cbn [fst] in Hc. congruence.
    - apply (amap2_Ok_amap snd) in Hc. cbn [snd] in Hc. congruence. }
  assert (Hz : uq_ok (UQ (Qty a (qdim (uv x))) (Qty b (dim_pow (dim_pow (qdim (uu x)) p_two) p_half)))).
  { destruct Hx as (Hv & Hu & Hs & He), Oo as (Hv' & Hu' & Hs' & He'). apply uq_ok_intro.
    - split; [exact (awf_amap2 _ (proj1 Hv) (proj1 Hv') Ea)|apply Hv].
    - split; [exact (awf_amap2 _ (proj1 Hu) (proj1 Hu') Eb)|]. cbn [qdim]. apply dims_ok_pow, dims_ok_pow, Hu.
    - cbn [mag]. unfold amap2 in Ea, Eb. rewrite Hs, Hs' in Eb. destruct (bc_shape _ _); [|discriminate].
        injection Ea as <-. injection Eb as <-. reflexivity.
    - intros w. cbn [qdim]. rewrite exp_two_half. apply He. }
  split; auto. split; [reflexivity|]. intros phi HC. rewrite <- (Mo phi HC).
  rewrite (meas_mpairs phi x Hx), (meas_mpairs phi o Oo), (meas_mpairs phi _ Hz). cbn [uv qdim].
  assert (D : dimval phi (qdim (uv o)) = dimval phi (qdim (uv x))).
  { apply dimval_eqb; [apply Oo|apply Hx|]. apply same_exp_eqb; [apply Oo|apply Hx|auto]. }
  rewrite D. set (c := dimval phi (qdim (uv x))). assert (C : 0 < c) by apply dimval_pos.
  rewrite amap2_amap. rewrite (amap2_ext _ (fun p q => pscale c (f (fst p) (fst q), quad (snd p) (snd q)))).
  - now apply (amap2_Ok_amap (pscale c)) in PP.
  - intros p q. unfold pscale. cbn [fst snd]. now rewrite Hf, quad_scale.
Qed.
Lemma u_uniform_iff (E : uenv R) f x y : renv_ok E -> uq_ok x -> uq_ok y ->
  ((exists z, u_uniform E f x y = Ok z) <-> convertible E (qdim (uv y)) (qdim (uv x)) /\ broadcast (shp (mag (uv x))) (shp (mag (uv y)))) /\
  (forall e, u_uniform E f x y = Err e -> e = ValueError).
Proof.
  intros HE Hx Hy. destruct (u_scale_iff E x y HE Hx Hy) as [I1 I2]. destruct (u_scale E x y) as [o|e] eqn:Ho.
  - rewrite (u_uniform_eq E f x y o HE Hx Hy Ho). destruct (u_scale_spec E x y o HE Hx Hy Ho) as (Oo & Xo & So & Mo & Co).
    unfold broadcast. rewrite <- So. unfold amap2. destruct Hx as (Hv & Hu & Hs & He), Oo as (Hv' & Hu' & Hs' & He'). rewrite Hs, Hs'.
    destruct (bc_shape (shp (mag (uv x))) (shp (mag (uv o)))) as [s|].
    + split; [|discriminate]. split; eauto.
    + split; [|congruence]. split; [intros [z Hz]; discriminate|intros (_ & s & Hs0); discriminate].
  - unfold u_uniform. rewrite Ho. cbn [bind]. split; [|intros e' [= <-]; auto]. split; [intros [z Hz]; discriminate|].
    intros [C _]. apply I1 in C. destruct C; discriminate.
Qed.

(** ** Products and quotients of uncertain quantities *)
Lemma rel_eq (x : uqty R) : uq_ok x -> rel x = Ok (amap (fun p => snd p / fst p) (mpairs x)).
Proof. intros H. unfold rel. apply amap2_self; [now apply mpairs_awf|symmetry; now apply mpairs_snd|symmetry; now apply mpairs_fst]. Qed.
Lemma rel_quadrature_eq (x y : uqty R) : uq_ok x -> uq_ok y ->
  rel_quadrature x y = amap2 (fun p q => quad (snd p / fst p) (snd q / fst q)) (mpairs x) (mpairs y).
Proof.
  intros Hx Hy. unfold rel_quadrature. rewrite (rel_eq x Hx), (rel_eq y Hy). cbn [bind]. unfold asquare, aroot. rewrite !amap_amap, amap2_amap.
  destruct (amap2 _ (mpairs x) (mpairs y)) as [m|e] eqn:Em; cbn [bind].
  - apply (amap2_Ok_amap (fun t => npow t p_half)) in Em. rewrite <- Em. apply amap2_ext. intros. apply quad_pow.
  - unfold amap2 in *. destruct (bc_shape _ _); congruence.
Qed.
Definition u_prod (g : R -> R -> R) (ru : rule2) (x y : uqty R) : res (uqty R) :=
  r <- apply2 g ru (OQ (uv x)) (OQ (uv y)) ;;
  m <- rel_quadrature x y ;;
  u <- q_mul (OQ r) (OArr m) ;; Ok (UQ r u).
Definition prod_rule (g : R -> R -> R) (p q : R * R) : R * R :=
  (g (fst p) (fst q), g (fst p) (fst q) * quad (snd p / fst p) (snd q / fst q)).
Lemma u_prod_spec g ru x y z : uq_ok x -> uq_ok y -> u_prod g ru x y = Ok z ->
  (forall d, pd2 ru (OQ (uv x)) (OQ (uv y)) = Ok d -> dims_ok d) ->
  uq_ok z /\ pd2 ru (OQ (uv x)) (OQ (uv y)) = Ok (qdim (uv z)) /\
  amap2 (prod_rule g) (mpairs x) (mpairs y) = Ok (mpairs z).
Proof.
  intros Hx Hy H HD. unfold u_prod in H. destruct (apply2 g ru _ _) as [r|] eqn:Er; [|discriminate]. cbn [bind] in H.
  rewrite rel_quadrature_eq in H by auto. destruct (amap2 _ (mpairs x) (mpairs y)) as [m|] eqn:Em; [|discriminate]. cbn [bind] in H.
  destruct (q_mul (OQ r) (OArr m)) as [u|] eqn:Eu; [|discriminate]. injection H as <-.
  apply apply2_inv in Er. destruct Er as [Er Ed]. cbn [odat] in Er. specialize (HD _ Ed).
  unfold q_mul in Eu. apply apply2_inv in Eu. destruct Eu as [Eu Edu]. cbn [odat pd2] in Eu, Edu. injection Edu as Edu.
  pose proof (awf_amap2 g (proj1 (proj1 Hx)) (proj1 (proj1 Hy)) Er) as Wr.
  rewrite <- (mpairs_fst x Hx), <- (mpairs_fst y Hy), amap2_amap in Er.
  pose proof (amap2_join _ _ nmul _ _ _ _ (mpairs_awf x Hx) (mpairs_awf y Hy) Er Em) as J. rewrite Eu in J. symmetry in J.
  pose proof (awf_amap2 _ (mpairs_awf x Hx) (mpairs_awf y Hy) J) as Wu.
  assert (Hz : uq_ok (UQ r u)).
  { apply uq_ok_intro.
    - split; auto.
    - split; auto. now rewrite <- Edu.
    - unfold amap2 in Er, J. destruct (bc_shape _ _); [|discriminate]. injection Er as <-. injection J as <-. reflexivity.
    - intros w. now rewrite <- Edu. }
  split; auto. split; auto.
  assert (X : exists c, amap2 (prod_rule g) (mpairs x) (mpairs y) = Ok c).
  { apply amap2_ok. match type of Er with amap2 ?f _ _ = _ => apply (proj1 (amap2_ok f (mpairs x) (mpairs y))) end. exists (mag r). exact Er. }
  destruct X as [c Hc]. rewrite Hc. f_equal. apply mpairs_intro; cbn [uv uu].
  - apply (amap2_Ok_amap fst) in Hc. unfold prod_rule in Hc. cbn [fst] in Hc. congruence.
  - apply (amap2_Ok_amap snd) in Hc. unfold prod_rule in Hc. cbn [snd] in Hc. cbn [nmul NumR] in J. congruence.
Qed.
Lemma prod_rule_scale g (p q : R * R) c1 c2 c3 : 0 < c1 -> 0 < c2 -> (forall a b, g (a * c1) (b * c2) = g a b * c3) ->
  prod_rule g (pscale c1 p) (pscale c2 q) = pscale c3 (prod_rule g p q).
Proof.
  intros H1 H2 Hg. unfold prod_rule, pscale. cbn [fst snd]. rewrite Hg, !div_common by auto. f_equal. ring.
Qed.
Lemma u_prod_meas g ru x y z phi : uq_ok x -> uq_ok y -> u_prod g ru x y = Ok z ->
  (forall d, pd2 ru (OQ (uv x)) (OQ (uv y)) = Ok d -> dims_ok d /\
     forall a b, g (a * dimval phi (qdim (uv x))) (b * dimval phi (qdim (uv y))) = g a b * dimval phi d) ->
  amap2 (prod_rule g) (meas phi x) (meas phi y) = Ok (meas phi z).
Proof.
  intros Hx Hy H HD. destruct (u_prod_spec g ru x y z Hx Hy H) as (Hz & Ed & P); [intros d Hd; now apply HD|].
  rewrite !meas_mpairs by auto. destruct (HD _ Ed) as [_ Hg]. rewrite amap2_amap.
  apply (amap2_Ok_amap (pscale (dimval phi (qdim (uv z))))) in P. rewrite <- P. apply amap2_ext. intros p q.
  apply prod_rule_scale; auto; apply dimval_pos.
Qed.
Lemma u_prod_iff g ru x y : uq_ok x -> uq_ok y -> (exists d, pd2 ru (OQ (uv x)) (OQ (uv y)) = Ok d) ->
  ((exists z, u_prod g ru x y = Ok z) <-> broadcast (shp (mag (uv x))) (shp (mag (uv y)))).
Proof.
  intros Hx Hy [d Hd]. unfold u_prod, broadcast. rewrite rel_quadrature_eq by auto. split.
  - intros [z H]. destruct (apply2 g ru _ _) as [r|] eqn:Er; [|discriminate]. apply apply2_inv in Er. destruct Er as [Er _]. cbn [odat] in Er.
    apply (proj1 (amap2_ok g _ _)). eauto.
  - intros B. destruct (proj2 (amap2_ok g _ _) B) as [r Er]. rewrite (apply2_intro g ru (OQ (uv x)) (OQ (uv y)) r d Er Hd). cbn [bind].
    assert (X : exists m, amap2 (fun p q => quad (snd p / fst p) (snd q / fst q)) (mpairs x) (mpairs y) = Ok m) by (apply amap2_ok; exact B).
    destruct X as [m Em]. rewrite Em. cbn [bind].
    rewrite <- (mpairs_fst x Hx), <- (mpairs_fst y Hy), amap2_amap in Er.
    pose proof (amap2_join _ _ nmul _ _ _ _ (mpairs_awf x Hx) (mpairs_awf y Hy) Er Em) as J.
    assert (K : exists u, amap2 nmul r m = Ok u) by (rewrite J; apply amap2_ok; exact B). destruct K as [u Eu].
    unfold q_mul. rewrite (apply2_intro nmul RMul (OQ (Qty r d)) (OArr m) u d); [cbn [bind]; eauto|exact Eu|reflexivity].
Qed.

(** ** Exact factors *)
Definition u_plain (g : R -> R -> R) (ru : rule2) (x : uqty R) (o : operand R) : res (uqty R) :=
  r <- apply2 g ru (OQ (uv x)) o ;;
  u2 <- q_pow (uu x) (OArr (scalar p_two)) ;; o2 <- osquare o ;;
  s <- apply2 g ru (OQ u2) o2 ;; u <- q_pow s (OArr (scalar p_half)) ;; Ok (UQ r u).
Lemma u_mul_plain_eq x o : u_mul_plain x o = u_plain Rmult RMul x o. Proof. reflexivity. Qed.
Lemma u_div_plain_eq x o : u_div_plain x o = u_plain Rdiv RDiv x o. Proof. reflexivity. Qed.
Lemma abs_pow_div' a b : npow (npow a p_two / npow b p_two) p_half = Rabs (a / b).
Proof.
  destruct (Req_dec b 0) as [->|H]; [|now apply abs_pow_div]. rewrite !npow_two. replace (0 * 0) with 0 by ring.
  unfold Rdiv. rewrite Rinv_0, !Rmult_0_r. rewrite npow_half by lra. now rewrite sqrt_0, Rabs_R0.
Qed.
Definition plain_rule (g : R -> R -> R) (p : R * R) (c : R) : R * R := (g (fst p) c, Rabs (g (snd p) c)).
(** The two kinds of product the module knows. *)
Inductive prod_kind : (R -> R -> R) -> rule2 -> Prop := pk_mul : prod_kind Rmult RMul | pk_div : prod_kind Rdiv RDiv.
Lemma pk_abs g ru a b : prod_kind g ru -> npow (g (npow a p_two) (npow b p_two)) p_half = Rabs (g a b).
Proof. intros []; [apply abs_pow|apply abs_pow_div']. Qed.
Lemma pk_dims g ru (q : qty R) o d : prod_kind g ru -> qty_ok q -> operand_ok o -> pd2 ru (OQ q) o = Ok d -> dims_ok d.
Proof. intros [] Hq Ho H; [apply (mul_rule (OQ q) o d H Hq Ho)|apply (div_rule (OQ q) o d H Hq Ho)]. Qed.
Lemma pk_total g ru (q : qty R) o : prod_kind g ru -> exists d, pd2 ru (OQ q) o = Ok d.
Proof. intros []; destruct o; cbn [pd2]; eauto. Qed.
Lemma pk_scale g ru (q : qty R) o d phi : prod_kind g ru -> qty_ok q -> operand_ok o -> pd2 ru (OQ q) o = Ok d ->
  forall a b, g (a * dimval phi (qdim q)) (b * dimval phi (odims o)) = g a b * dimval phi d.
Proof.
  intros K Hq Ho H a b. destruct K.
  - destruct (mul_rule (OQ q) o d H Hq Ho) as (_ & _ & ->). cbn [odims]. ring.
  - destruct (div_rule (OQ q) o d H Hq Ho) as (_ & _ & ->). cbn [odims]. pose proof (dimval_pos phi (odims o)) as P.
    unfold Rdiv. rewrite Rinv_mult. ring.
Qed.
Lemma osquare_spec (o : operand R) : operand_ok o -> exists o2, osquare o = Ok o2 /\ operand_ok o2 /\
  odat o2 = amap (fun x => npow x p_two) (odat o) /\ odims o2 = dim_pow (odims o) p_two.
Proof.
  intros Ho. destruct o as [q|a]; cbn [osquare operand_ok] in *.
  - rewrite q_pow_scalar by apply Ho. cbn [rmap]. eexists; split; [reflexivity|]. cbn [operand_ok odat odims mag qdim]. repeat split; auto.
    all: first [apply awf_amap, Ho|apply dims_ok_pow, Ho].
  - eexists; split; [reflexivity|]. cbn [operand_ok odat odims]. repeat split; auto. now apply awf_amap.
Qed.
Lemma pk_exp g ru (q q2 : qty R) o o2 d d2 : prod_kind g ru -> qty_ok q -> qty_ok q2 -> operand_ok o -> operand_ok o2 ->
  (forall w, exp_of (qdim q2) w = exp_of (dim_pow (qdim q) p_two) w) -> odims o2 = dim_pow (odims o) p_two ->
  pd2 ru (OQ q) o = Ok d -> pd2 ru (OQ q2) o2 = Ok d2 ->
  forall w, exp_of (dim_pow d2 p_half) w = exp_of d w.
Proof.
  intros K Hq Hq2 Ho Ho2 X1 X2 H H2 w. rewrite exp_of_pow.
  assert (T : (pval p_two * pval p_half = 1)%Qc) by (apply Qc_is_canon; reflexivity).
  destruct K.
  - destruct (mul_rule _ _ _ H Hq Ho) as (-> & _). destruct (mul_rule _ _ _ H2 Hq2 Ho2) as (-> & _). cbn [odims] in *. rewrite X1, X2, !exp_of_pow.
    transitivity ((exp_of (qdim q) w + exp_of (odims o) w) * (pval p_two * pval p_half))%Qc; [ring|rewrite T; ring].
  - destruct (div_rule _ _ _ H Hq Ho) as (-> & _). destruct (div_rule _ _ _ H2 Hq2 Ho2) as (-> & _). cbn [odims] in *. rewrite X1, X2, !exp_of_pow.
    transitivity ((exp_of (qdim q) w - exp_of (odims o) w) * (pval p_two * pval p_half))%Qc; [ring|rewrite T; ring].
Qed.
Lemma u_plain_spec g ru x o z : prod_kind g ru -> uq_ok x -> operand_ok o -> u_plain g ru x o = Ok z ->
  uq_ok z /\ pd2 ru (OQ (uv x)) o = Ok (qdim (uv z)) /\ amap2 (plain_rule g) (mpairs x) (odat o) = Ok (mpairs z).
Proof.
  intros K Hx Ho H. unfold u_plain in H. destruct (apply2 g ru _ _) as [r|] eqn:Er; [|discriminate]. cbn [bind] in H.
  pose proof Hx as (Hv & Hu & Hs & He). rewrite q_pow_scalar in H by apply Hu. cbn [bind] in H.
  destruct (osquare_spec o Ho) as (o2 & E2 & Ho2 & D2 & X2). rewrite E2 in H. cbn [bind] in H.
  set (u2 := Qty (amap (fun t => npow t p_two) (mag (uu x))) (dim_pow (qdim (uu x)) p_two)) in *.
  assert (Hu2 : qty_ok u2) by (split; [apply awf_amap, Hu|apply dims_ok_pow, Hu]).
  destruct (apply2 g ru (OQ u2) o2) as [s|] eqn:Es; [|discriminate]. cbn [bind] in H.
  apply apply2_inv in Er. destruct Er as [Er Ed]. apply apply2_inv in Es. destruct Es as [Es Eds]. cbn [odat u2 mag] in Er, Es.
  assert (Wo : awf (odat o)) by (destruct o; [apply Ho|exact Ho]).
  rewrite q_pow_scalar in H. 2:{ refine (awf_amap2 g _ _ Es). apply awf_amap, Hu. rewrite D2. now apply awf_amap. }
  injection H as <-. rewrite D2, amap2_amap in Es. apply (amap2_Ok_amap (fun t => npow t p_half)) in Es.
  rewrite (amap2_ext _ (fun a b => Rabs (g a b))) in Es by (intros; now apply (pk_abs g ru)).
  pose proof (awf_amap2 g (proj1 Hv) Wo Er) as Wr. pose proof (awf_amap2 _ (proj1 Hu) Wo Es) as Ws.
  pose proof (pk_dims g ru (uv x) o _ K Hv Ho Ed) as Dr.
  assert (Hz : uq_ok (UQ r (Qty (amap (fun t => npow t p_half) (mag s)) (dim_pow (qdim s) p_half)))).
  { apply uq_ok_intro.
    - split; auto.
    - split; [exact Ws|]. cbn [qdim]. apply dims_ok_pow. exact (pk_dims g ru u2 o2 _ K Hu2 Ho2 Eds).
    - cbn [mag]. unfold amap2 in Er, Es. rewrite Hs in Es. destruct (bc_shape _ _); [|discriminate].
      apply Ok_inj in Er, Es. rewrite <- Er. rewrite <- Es. reflexivity.
    - cbn [qdim]. refine (pk_exp g ru (uv x) u2 o o2 _ _ K Hv Hu2 Ho Ho2 _ X2 Ed Eds).
      intros w. unfold u2. cbn [qdim]. now rewrite !exp_of_pow, He. }
  split; auto. split; auto.
  rewrite <- (mpairs_fst x Hx) in Er. rewrite <- (mpairs_snd x Hx) in Es.
  rewrite <- (amap_id (odat o)) in Er, Es. rewrite amap2_amap in Er, Es. cbn beta in Er, Es.
  assert (X : exists c, amap2 (plain_rule g) (mpairs x) (odat o) = Ok c).
  { apply amap2_ok. match type of Er with amap2 ?f _ _ = _ => apply (proj1 (amap2_ok f (mpairs x) (odat o))) end. eexists. exact Er. }
  destruct X as [c Hc]. rewrite Hc. f_equal. apply mpairs_intro; cbn [uv uu mag].
  - apply (amap2_Ok_amap fst) in Hc. unfold plain_rule in Hc. cbn [fst] in Hc. congruence.
  - apply (amap2_Ok_amap snd) in Hc. unfold plain_rule in Hc. cbn [snd] in Hc. cbn [uu mag] in *; pose proof (eq_trans (eq_sym Es) Hc) as Y; now apply Ok_inj in Y.
Qed.
Lemma ophys_odat phi (o : operand R) : ophys phi o = amap (fun t => t * dimval phi (odims o)) (odat o).
Proof. destruct o as [q|a]; cbn [ophys odims odat]; [reflexivity|]. cbn [dimval]. rewrite <- (amap_id a) at 1. apply amap_ext. intros t _. ring. Qed.
Lemma u_plain_meas g ru x o z phi : prod_kind g ru -> uq_ok x -> operand_ok o -> u_plain g ru x o = Ok z ->
  amap2 (plain_rule g) (meas phi x) (ophys phi o) = Ok (meas phi z).
Proof.
  intros K Hx Ho H. destruct (u_plain_spec g ru x o z K Hx Ho H) as (Hz & Ed & P).
  rewrite !meas_mpairs, ophys_odat, amap2_amap by auto. pose proof (pk_scale g ru (uv x) o _ phi K (proj1 Hx) Ho Ed) as G.
  apply (amap2_Ok_amap (pscale (dimval phi (qdim (uv z))))) in P. rewrite <- P. apply amap2_ext. intros p c.
  unfold plain_rule, pscale. cbn [fst snd]. rewrite !G, Rabs_mult, (Rabs_right (dimval phi _)); auto.
  pose proof (dimval_pos phi (qdim (uv z))). lra.
Qed.
Lemma u_plain_iff g ru x o : prod_kind g ru -> uq_ok x -> operand_ok o ->
  ((exists z, u_plain g ru x o = Ok z) <-> broadcast (shp (mag (uv x))) (shp (odat o))) /\ (forall e, u_plain g ru x o = Err e -> e = ValueError).
Proof.
  intros K Hx Ho. pose proof Hx as (Hv & Hu & Hs & He). unfold u_plain. destruct (osquare_spec o Ho) as (o2 & E2 & Ho2 & D2 & X2).
  rewrite q_pow_scalar by apply Hu. rewrite E2. cbn [bind].
  set (u2 := Qty (amap (fun t => npow t p_two) (mag (uu x))) (dim_pow (qdim (uu x)) p_two)).
  destruct (pk_total g ru (uv x) o K) as [d Hd]. destruct (pk_total g ru u2 o2 K) as [d2 Hd2].
  assert (Wo : awf (odat o)) by (destruct o; [apply Ho|exact Ho]).
  unfold broadcast. destruct (bc_shape (shp (mag (uv x))) (shp (odat o))) as [t|] eqn:Et.
  - destruct (proj2 (amap2_ok g (mag (uv x)) (odat o)) (ex_intro _ t Et)) as [r Er].
    assert (B2 : exists t, bc_shape (shp (mag u2)) (shp (odat o2)) = Some t) by (exists t; rewrite D2; cbn; now rewrite Hs).
    destruct (proj2 (amap2_ok g (mag u2) (odat o2)) B2) as [s Es].
    rewrite (apply2_intro g ru (OQ (uv x)) o r d Er Hd), (apply2_intro g ru (OQ u2) o2 s d2 Es Hd2). cbn [bind].
    rewrite q_pow_scalar. 2:{ refine (awf_amap2 g _ _ Es). apply awf_amap, Hu. rewrite D2. now apply awf_amap. }
    split; [split; intros _; eexists; reflexivity|discriminate].
  - assert (X : apply2 g ru (OQ (uv x)) o = Err ValueError).
    { unfold apply2. cbn [odat]. unfold amap2. rewrite Et, Hd. reflexivity. }
    rewrite X. cbn [bind]. split; [|congruence]. split; [intros [z Hz]; discriminate|intros [s Hs']; discriminate].
Qed.

(** ** The inverse *)
Definition inv_rule (p : R * R) : R * R := (1 / fst p, snd p / fst p / fst p).
Definition u_inv_temp (x : uqty R) : uqty R :=
  UQ (Qty (amap (fun p => 1 / fst p) (mpairs x)) (dim_pow (qdim (uv x)) (PInt (-1))))
     (Qty (amap (fun p => snd p / fst p / fst p) (mpairs x)) (dim_pow (qdim (uv x)) (PInt (-1)))).
Lemma u_inv_temp_ok x : uq_ok x -> uq_ok (u_inv_temp x).
Proof.
  intros Hx. pose proof (mpairs_awf x Hx) as W. apply uq_ok_intro; auto.
  - split; [now apply awf_amap|]. cbn [qdim]. apply dims_ok_pow, Hx.
  - split; [now apply awf_amap|]. cbn [qdim]. apply dims_ok_pow, Hx.
Qed.
Lemma u_rdiv_plain_eq E x o : uq_ok x -> u_rdiv_plain E x o = u_plain Rmult RMul (u_inv_temp x) o.
Proof.
  intros Hx. unfold u_rdiv_plain. rewrite (rel_eq x Hx). cbn [bind]. pose proof (mpairs_awf x Hx) as W.
  rewrite (amap2_self ndiv _ (mag (uv x)) (fun p => snd p / fst p) fst (mpairs x) W eq_refl (eq_sym (mpairs_fst x Hx))). cbn [bind].
  pose proof (u_inv_temp_ok x Hx) as (T1 & T2 & T3 & T4). rewrite <- (mpairs_fst x Hx), amap_amap.
  assert (M : u_make E (uv (u_inv_temp x)) (Some (OArr (mag (uu (u_inv_temp x))))) = Ok (u_inv_temp x)).
  { rewrite u_make_a; auto. apply T2. }
  unfold u_inv_temp at 1 2 in M. cbn [uv uu mag] in M. cbn [ndiv n1 NumR]. rewrite M. cbn [bind]. apply u_mul_plain_eq.
Qed.
Lemma mpairs_inv_temp x : uq_ok x -> mpairs (u_inv_temp x) = amap inv_rule (mpairs x).
Proof. intros Hx. symmetry. apply mpairs_intro; cbn [uv uu mag u_inv_temp]; now rewrite amap_amap. Qed.
Lemma meas_inv_temp phi x : uq_ok x -> meas phi (u_inv_temp x) = amap inv_rule (meas phi x).
Proof.
  intros Hx. rewrite !meas_mpairs, mpairs_inv_temp, !amap_amap by (try apply u_inv_temp_ok; auto). apply amap_ext. intros p _.
  cbn [u_inv_temp uv qdim]. rewrite dimval_rpow. set (v := dimval phi (qdim (uv x))). pose proof (dimval_pos phi (qdim (uv x))) as P. fold v in P.
  assert (X : rpow v (PInt (-1)) = / v).
  { unfold rpow. change (Pos.eqb (Qden (this (pval (PInt (-1))))) 1) with true. cbv iota. change (powerRZ v (-1) = / v). unfold powerRZ. change (Pos.to_nat 1) with 1%nat. cbn [pow]. now rewrite Rmult_1_r. }
  rewrite X. unfold inv_rule, pscale, Rdiv. cbn [fst snd]. rewrite !Rinv_mult. f_equal; [ring|].
  assert (V : v * / v = 1) by (apply Rinv_r; lra).
  symmetry. transitivity (snd p * / fst p * / fst p * / v * (v * / v)); [ring|]. rewrite V. ring.
Qed.
Lemma u_rdiv_plain_meas E x o z phi : uq_ok x -> operand_ok o -> u_rdiv_plain E x o = Ok z ->
  uq_ok z /\ amap2 rule_inv (meas phi x) (ophys phi o) = Ok (meas phi z).
Proof.
  intros Hx Ho H. rewrite (u_rdiv_plain_eq E x o Hx) in H. pose proof (u_inv_temp_ok x Hx) as Ht.
  split; [now apply (u_plain_spec Rmult RMul _ o z pk_mul Ht Ho)|].
  rewrite <- (u_plain_meas Rmult RMul _ o z phi pk_mul Ht Ho H). rewrite meas_inv_temp by auto.
  rewrite <- (amap_id (ophys phi o)) at 2. rewrite amap2_amap. apply amap2_ext. intros p c. unfold rule_inv, plain_rule, inv_rule, Rdiv. cbn [fst snd].
  rewrite Rinv_mult. f_equal; [ring|f_equal; ring].
Qed.

(** ** Powers *)
Lemma u_pow_spec E x p : uq_ok x ->
  exists z, u_pow E x p = Ok z /\ uq_ok z /\ qdim (uv z) = dim_pow (qdim (uv x)) p /\ mpairs z = amap (rule_pow p) (mpairs x).
Proof.
  intros Hx. pose proof Hx as (Hv & Hu & Hs & He). unfold u_pow. rewrite q_pow_scalar by apply Hv. cbn [bind].
  rewrite (rel_eq x Hx). pose proof (mpairs_awf x Hx) as W. rewrite <- (mpairs_fst x Hx), amap_amap.
  unfold q_mul at 1, apply2. cbn [odat mag pd2 qdim]. rewrite amap2_scalar_r by now apply awf_amap. cbn [bind].
  rewrite amap_amap. unfold q_mul, apply2. cbn [odat mag pd2 qdim]. rewrite (amap2_self nmul _ _ _ _ (mpairs x) W eq_refl eq_refl). cbn [bind].
  rewrite set_unc_ok.
  - eexists. split; [reflexivity|]. split; [|split].
    + apply uq_ok_intro; auto; (split; [now apply awf_amap|]); cbn [qdim]; apply dims_ok_pow, Hv.
    + reflexivity.
    + symmetry. apply mpairs_intro; cbn [uv uu mag]; rewrite amap_amap; reflexivity.
  - split; [now apply awf_amap|]. apply dims_ok_pow, Hv.
  - split; [now apply awf_amap|]. apply dims_ok_pow, Hv.
  - reflexivity.
  - reflexivity.
Qed.
Lemma u_pow_meas E x p z phi : uq_ok x -> (forall v, In v (dat (mag (uv x))) -> power_defined v p) -> u_pow E x p = Ok z ->
  meas phi z = amap (rule_pow p) (meas phi x).
Proof.
  intros Hx Hp H. destruct (u_pow_spec E x p Hx) as (z' & Ez & Hz & Ed & Em). rewrite Ez in H. injection H as <-.
  rewrite !meas_mpairs, Em, !amap_amap by auto. apply amap_ext. intros q Hq. rewrite Ed, dimval_rpow.
  set (c := dimval phi (qdim (uv x))). assert (C : 0 < c) by apply dimval_pos.
  assert (Pq : power_defined (fst q) p).
  { apply Hp. rewrite <- (mpairs_fst x Hx). cbn. now apply in_map. }
  unfold rule_pow, pscale. cbn [fst snd]. rewrite (rpow_scale (fst q) c p C Pq), (div_common c) by auto. f_equal. ring.
Qed.

(** ** Items *)
Lemma gather_pairs (a : list R) b ps : length a = length b ->
  combine (gather a ps) (gather b ps) = map (fun p => nth p (combine a b) (0, 0)) ps.
Proof.
  intros L. unfold gather. induction ps as [|p ps IH]; cbn [map combine]; auto. rewrite IH. f_equal. cbn [n0 NumR]. now rewrite combine_nth.
Qed.
Lemma u_getitem_spec E sel (x : uqty R) z : uq_ok x -> (forall s t ps, sel s = Ok (t, ps) -> length ps = prodn t) -> u_getitem E sel x = Ok z ->
  exists s ps, sel (shp (mag (uv x))) = Ok (s, ps) /\ uq_ok z /\ qdim (uv z) = qdim (uv x) /\
    mpairs z = Arr s (map (fun p => nth p (dat (mpairs x)) (0, 0)) ps).
Proof.
  intros Hx Hsel H. pose proof Hx as (Hv & Hu & Hs & He). unfold u_getitem, q_getitem in H. rewrite Hs in H.
  destruct (sel (shp (mag (uv x)))) as [[s ps]|] eqn:Es; [|discriminate]. cbn [bind] in H.
  pose proof (Hsel _ _ _ Es) as L.
  assert (Wg : forall l : list R, awf (Arr s (gather l ps))) by (intros l; unfold awf, gather; cbn; rewrite map_length; exact L).
  rewrite u_make_q in H; cbn [mag shp qdim]; auto.
  2:{ split; [apply Wg|apply Hv]. } 2:{ split; [apply Wg|apply Hu]. }
  injection H as <-. exists s, ps. split; auto. split.
  - apply uq_ok_intro; auto; [split; [apply Wg|apply Hv]|split; [apply Wg|apply Hu]].
  - split; [reflexivity|]. unfold mpairs. cbn [uv uu mag shp dat]. f_equal. apply gather_pairs. now apply uq_len.
Qed.

(** ** Sums and means *)
Definition usum_pairs (c : R) (l : list (R * R)) : R * R := (Rsum (map fst l) * c, sqrt (Rsum (map (fun p => snd p * snd p) l)) * c).
Lemma Rsum_sq_nonneg (l : list (R * R)) : 0 <= Rsum (map (fun p => snd p * snd p) l).
Proof. induction l as [|p l IH]; cbn; [lra|]. fold (Rsum (map (fun p => snd p * snd p) l)). pose proof (sq_nonneg (snd p)). lra. Qed.
Lemma sq_sum_root (l : list (R * R)) : npow (lsum (map (fun t => npow t p_two) (map snd l))) p_half = sqrt (Rsum (map (fun p => snd p * snd p) l)).
Proof.
  rewrite lsum_Rsum, map_map, (map_ext _ (fun p : R * R => snd p * snd p)) by (intros; apply npow_two). apply npow_half, Rsum_sq_nonneg.
Qed.
Lemma sum_pairs_scale c k l : 0 < c -> usum_pairs k (map (pscale c) l) = pscale c (usum_pairs k l).
Proof.
  intros H. unfold usum_pairs, pscale. cbn [fst snd]. f_equal.
  - rewrite map_map. cbn [fst]. rewrite <- (map_map fst (fun t => t * c)). pose proof (Rsum_scale c (map fst l)) as X. unfold scale in X. rewrite X. ring.
  - rewrite map_map. cbn [snd]. rewrite (map_ext _ (fun p : R * R => (snd p * snd p) * (c * c))) by (intros; ring).
    rewrite <- (map_map (fun p => snd p * snd p) (fun t => t * (c * c))). pose proof (Rsum_scale (c * c) (map (fun p => snd p * snd p) l)) as X. unfold scale in X. rewrite X.
    rewrite sqrt_mult_alt by apply Rsum_sq_nonneg. rewrite sqrt_square by lra. ring.
Qed.
Lemma red_pairs k ax (x : uqty R) a b : uq_ok x ->
  areduce (fun l => Rsum l * k) ax (mag (uv x)) = Ok a ->
  areduce (fun l => sqrt (Rsum (map (fun t => t * t) l)) * k) ax (mag (uu x)) = Ok b ->
  exists c, areduce (usum_pairs k) ax (mpairs x) = Ok c /\ amap fst c = a /\ amap snd c = b.
Proof.
  intros Hx Ha Hb. rewrite <- (mpairs_fst x Hx), areduce_amap in Ha. rewrite <- (mpairs_snd x Hx), areduce_amap in Hb.
  pose proof (rmap_areduce (usum_pairs k) fst ax (mpairs x)) as F. pose proof (rmap_areduce (usum_pairs k) snd ax (mpairs x)) as S.
  unfold usum_pairs in F at 2. unfold usum_pairs in S at 2. cbn [fst snd] in F, S. rewrite Ha in F.
  rewrite (areduce_ext _ (fun l => sqrt (Rsum (map (fun t => t * t) (map snd l))) * k)) in S.
  2:{ intros l. now rewrite map_map. }
  rewrite Hb in S. destruct (areduce (usum_pairs k) ax (mpairs x)) as [c|] eqn:Ec; [|discriminate]. cbn [rmap] in F, S.
  exists c. split; auto. split; [now apply Ok_inj in F|now apply Ok_inj in S].
Qed.
Lemma red_build E k ax (x : uqty R) a b z : uq_ok x ->
  areduce (fun l => Rsum l * k) ax (mag (uv x)) = Ok a ->
  areduce (fun l => sqrt (Rsum (map (fun t => t * t) l)) * k) ax (mag (uu x)) = Ok b ->
  u_make E (Qty a (qdim (uv x))) (Some (OArr b)) = Ok z ->
  uq_ok z /\ qdim (uv z) = qdim (uv x) /\ (forall phi, areduce (usum_pairs k) ax (meas phi x) = Ok (meas phi z)).
Proof.
  intros Hx Ha Hb H. destruct (red_pairs k ax x a b Hx Ha Hb) as (c & Hc & Fc & Sc).
  pose proof (awf_areduce _ _ (mpairs_awf x Hx) Hc) as Wc.
  assert (Wa : awf a) by (rewrite <- Fc; now apply awf_amap). assert (Wb : awf b) by (rewrite <- Sc; now apply awf_amap).
  assert (Sh : shp b = shp a) by (rewrite <- Fc, <- Sc; reflexivity).
  rewrite u_make_a in H; auto. 2:{ split; [exact Wa|apply Hx]. }
  injection H as <-. 
  assert (Hz : uq_ok (UQ (Qty a (qdim (uv x))) (Qty b (qdim (uv x))))).
  { apply uq_ok_intro; auto; (split; [assumption|apply Hx]). }
  split; auto. split; [reflexivity|]. intros phi.
  rewrite (meas_mpairs phi x Hx), (meas_mpairs phi _ Hz). cbn [uv qdim]. rewrite areduce_amap.
  rewrite (areduce_ext _ (fun l => pscale (dimval phi (qdim (uv x))) (usum_pairs k l))).
  2:{ intros l. apply sum_pairs_scale, dimval_pos. }
  rewrite <- (rmap_areduce (usum_pairs k)), Hc. cbn [rmap]. do 2 f_equal. apply mpairs_intro; cbn [uv uu mag]; auto.
Qed.
Lemma u_sum_spec E axis (x z : uqty R) : uq_ok x -> u_sum E axis x = Ok z ->
  exists ax, norm_axis (length (shp (mag (uv x)))) axis = Ok ax /\ uq_ok z /\ qdim (uv z) = qdim (uv x) /\
    forall phi, areduce rule_sum ax (meas phi x) = Ok (meas phi z).
Proof.
  intros Hx H. pose proof Hx as (Hv & Hu & Hs & He). unfold u_sum, q_red in H. rewrite Hs in H.
  destruct (norm_axis _ axis) as [ax|] eqn:Ea; [|discriminate]. cbn [bind red_fun red_needs_elements check_lanes andb] in H.
  destruct (areduce lsum ax (mag (uv x))) as [a|] eqn:Eav; [|discriminate]. cbn [bind] in H. unfold check_lanes in H. cbn [andb bind] in H.
  destruct (areduce lsum ax (asquare (mag (uu x)))) as [b|] eqn:Ebu; [|discriminate]. cbn [bind] in H.
  exists ax. split; auto.
  destruct (red_build E 1 ax x a (aroot b) z Hx) as (R1 & R2 & R3); auto.
  - rewrite <- Eav. apply areduce_ext. intros l. rewrite lsum_Rsum. ring.
  - unfold asquare in Ebu. rewrite areduce_amap in Ebu. unfold aroot. pose proof (rmap_areduce (fun l => lsum (map (fun t => npow t p_two) l)) (fun t => npow t p_half) ax (mag (uu x))) as X.
    rewrite Ebu in X. cbn [rmap] in X. rewrite X. apply areduce_ext. intros l. rewrite Rmult_1_r.
    rewrite lsum_Rsum, (map_ext (fun t : R => npow t p_two) (fun t => t * t)) by (intros; apply npow_two). symmetry. apply npow_half.
    pose proof (Rsum_sq_nonneg (map (fun t => (0, t)) l)) as Y. rewrite map_map in Y. exact Y.
  - split; auto. split; auto. intros phi. rewrite <- (R3 phi). apply areduce_ext. intros l. unfold rule_sum, usum_pairs. now rewrite !Rmult_1_r.
Qed.
Lemma u_mean_spec E axis (x z : uqty R) : uq_ok x -> u_mean E axis x = Ok z ->
  exists ax, norm_axis (length (shp (mag (uv x)))) axis = Ok ax /\ uq_ok z /\ qdim (uv z) = qdim (uv x) /\ (lane_length ax (mag (uv x)) <> 0)%nat /\
    forall phi, areduce (usum_pairs (/ INR (lane_length ax (mag (uv x))))) ax (meas phi x) = Ok (meas phi z).
Proof.
  intros Hx H. pose proof Hx as (Hv & Hu & Hs & He). unfold u_mean, q_red in H.
  destruct (norm_axis _ axis) as [ax|] eqn:Ea; [|discriminate]. cbn [bind red_fun red_needs_elements] in H.
  destruct (areduce lmean ax (mag (uv x))) as [a|] eqn:Eav; [|discriminate]. cbn [bind] in H. unfold check_lanes in H. cbn [andb bind] in H.
  destruct (Nat.eqb_spec (lane_length ax (mag (uv x))) 0) as [|Hn]; [discriminate|].
  destruct (areduce lsum ax (asquare (mag (uu x)))) as [b|] eqn:Ebu; [|discriminate]. cbn [bind] in H.
  exists ax. split; auto. set (n := lane_length ax (mag (uv x))) in *.
  assert (Pn : 0 < INR n) by (apply lt_0_INR; lia). assert (Qn : 0 < / INR n) by now apply Rinv_0_lt_compat.
  destruct (red_build E (/ INR n) ax x a (aroot (amap (fun t => nmul (npow (ndiv n1 (nofnat n)) p_two) t) b)) z Hx) as (R1 & R2 & R3); auto.
  - rewrite <- Eav. 
    assert (G : forall l : list R, length l = n -> Rsum l * / INR n = lmean l).
    { intros l Hl. rewrite lmean_Rmean. unfold Rmean. now rewrite Hl. }
    destruct ax as [i|].
    + destruct (nth_error (shp (mag (uv x))) i) as [m|] eqn:En.
      * apply areduce_ext_axis with m; auto; [apply Hv|]. intros l Hl _. apply G. rewrite Hl. unfold n. cbn. symmetry. exact (nth_error_nth _ _ 0%nat En).
      * apply nth_error_None in En. assert (Y : exists r, areduce lmean (Some i) (mag (uv x)) = Ok r) by eauto. apply areduce_ok_iff in Y. lia.
    + cbn [areduce]. do 2 f_equal. now apply G.
  - unfold asquare in Ebu. rewrite areduce_amap in Ebu. unfold aroot. rewrite amap_amap.
    match goal with |- _ = Ok (amap ?h b) => pose proof (rmap_areduce (fun l => lsum (map (fun t => npow t p_two) l)) h ax (mag (uu x))) as X end.
    rewrite Ebu in X. cbn [rmap] in X. rewrite X. apply areduce_ext. intros l. cbn beta.
    rewrite lsum_Rsum, (map_ext (fun t : R => npow t p_two) (fun t => t * t)) by (intros; apply npow_two). 
    assert (Y : 0 <= Rsum (map (fun t => t * t) l)).
    { pose proof (Rsum_sq_nonneg (map (fun t => (0, t)) l)) as Y. rewrite map_map in Y. exact Y. }
    rewrite npow_two, nofnat_INR. cbn [nmul ndiv n1 NumR]. unfold Rdiv. rewrite Rmult_1_l. rewrite npow_half.
    2:{ apply Rmult_le_pos; auto. apply sq_nonneg. }
    rewrite sqrt_mult_alt by apply sq_nonneg. rewrite sqrt_square by lra. ring.
Qed.

(** ** The setter *)
Lemma set_unc_inv E (v u : qty R) z : renv_ok E -> qty_ok v -> qty_ok u -> set_uncertainty E v (OQ u) = Ok z ->
  uv z = v /\ uq_ok z /\ (forall phi, consistent E phi -> phys phi (uu z) = phys phi u).
Proof.
  intros HE Hv Hu. unfold set_uncertainty. cbn [as_q]. destruct (list_eq_dec _ _ _) as [Es|]; [|discriminate].
  destruct (dim_eqb (qdim u) (qdim v)) eqn:Ee.
  - intros [= <-]. split; [reflexivity|]. split; [|reflexivity]. apply uq_ok_intro; auto. exact (exp_eqb _ _ (proj2 Hu) (proj2 Hv) Ee).
  - destruct (rescale_to E u (qdim v)) as [u'|e] eqn:Er; [|discriminate]. intros [= <-]. split; [reflexivity|].
    pose proof (rescale_to_qty_ok E u (qdim v) u' Hu (proj2 Hv) Er) as Hu'. pose proof (rescale_to_shape E u (qdim v) u' Er) as S.
    split; [|intros phi HC; now apply (rescale_value E u (qdim v) u' HE (proj2 Hu) (proj2 Hv) Er)].
    apply uq_ok_intro; auto; [congruence|]. pose proof (rescale_to_eqb E u (qdim v) u' (proj1 (proj2 Hu)) (proj1 (proj2 Hv)) Er) as Q.
    exact (exp_eqb _ _ (proj2 Hu') (proj2 Hv) Q).
Qed.
Lemma amap2_Forall {A B C} (f : A -> B -> C) (P : C -> Prop) a b c : amap2 f a b = Ok c -> (forall x y, P (f x y)) -> Forall P (dat c).
Proof.
  unfold amap2. destruct (bc_shape _ _) as [s|]; [|discriminate]. intros H HP. injection H as <-. cbn [dat].
  generalize (expand (pad (length s) (shp a)) s (dat a)) (expand (pad (length s) (shp b)) s (dat b)).
  induction l as [|x l IH]; intros [|y l']; cbn; constructor; auto.
Qed.
Lemma nonneg_pairs (z : uqty R) : uq_ok z -> (nonneg z <-> Forall (fun p => 0 <= snd p) (dat (mpairs z))).
Proof.
  intros Hz. unfold nonneg. rewrite <- (mpairs_snd z Hz). cbn [amap dat]. rewrite Forall_map. reflexivity.
Qed.
Lemma nonzero_pairs (z : uqty R) : uq_ok z -> (nonzero_values z <-> Forall (fun p => fst p <> 0) (dat (mpairs z))).
Proof.
  intros Hz. unfold nonzero_values. rewrite <- (mpairs_fst z Hz). cbn [amap dat]. rewrite Forall_map. reflexivity.
Qed.
(** Uncertainties are non-negative in physical terms as well. *)
Lemma nonneg_meas phi (z : uqty R) : uq_ok z -> (nonneg z <-> Forall (fun p => 0 <= snd p) (dat (meas phi z))).
Proof.
  intros Hz. rewrite (nonneg_pairs z Hz), (meas_mpairs phi z Hz). cbn [amap dat]. rewrite Forall_map. unfold pscale. cbn [snd].
  pose proof (dimval_pos phi (qdim (uv z))) as P. split; intros H; eapply Forall_impl; try exact H; intros p Hp; cbn in *.
  - apply Rmult_le_pos; lra.
  - apply Rmult_le_reg_r with (dimval phi (qdim (uv z))); lra.
Qed.
Lemma qty_ok_reference E (q : qty R) : renv_ok E -> qty_ok q -> qty_ok (q_reference E q).
Proof.
  intros HE [W D]. split; [now apply awf_amap|]. cbn [q_reference qdim]. exact (proj1 (ref_pair_roots _ E (qdim q) HE)).
Qed.
Lemma simplified_awf fuel E D (q r : qty R) : awf (mag q) -> simplified fuel E D q = Ok r -> awf (mag r).
Proof.
  intros W. unfold simplified. destruct (simp_dims fuel E D (qdim q)) as [rq|e]; cbn [bind]; [|discriminate]. intros [= <-]. now apply awf_amap.
Qed.
Lemma areduce_Forall {A B} (f : list A -> B) (P : B -> Prop) ax a c : areduce f ax a = Ok c -> (forall l, P (f l)) -> Forall P (dat c).
Proof.
  intros H HP. apply Forall_forall. intros z Hz. destruct ax as [ax|]; cbn [areduce] in H.
  - destruct (split_axis (shp a) ax) as [[[pre n] post]|]; [|discriminate]. apply Ok_inj in H. subst c. cbn [dat] in Hz.
    apply in_flat_map in Hz. destruct Hz as (b & _ & Hz). apply in_map_iff in Hz. destruct Hz as (l & <- & _). apply HP.
  - apply Ok_inj in H. subst c. cbn in Hz. destruct Hz as [<-|[]]. apply HP.
Qed.
