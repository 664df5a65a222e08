(** * Properties C42, C43, C50, C76-C80: the functions of quantities.umath. *)
From Coq Require Import Reals Lra Lia.
From Verif Require Import Py Num Dim DimFacts Arr ArrFacts Units Spec UnitFacts Quant QuantFacts SimpFacts SpecApi ConvFacts
  Ufunc Ops OpsFacts Lanes Methods MethodsFacts ItemFacts Umath UmathFacts Examples Props_Conv Props_Ops Props_Ufunc.

Open Scope R_scope.

(** C42 *)
Definition angle_funcs : list uf1 := [USin; UCos; UTan].
Definition inverse_funcs : list uf1 := [UArcsin; UArccos; UArctan].
Definition hyperbolic_funcs : list uf1 := [USinh; UCosh; UTanh; UArcsinh; UArccosh; UArctanh].
Definition umath_funcs : list uf1 := angle_funcs ++ inverse_funcs ++ hyperbolic_funcs.
(** The units the argument is read in: radians for sin, cos, tan, pure numbers for
    the others; and the units of the result. *)
Definition reads (f : uf1) : dims := match f with USin | UCos | UTan => unit_dims k_radian | _ => [] end.
Definition yields (f : uf1) : dims := match f with UArcsin | UArccos | UArctan => unit_dims k_radian | _ => [] end.
Lemma um1_eq (E : uenv R) f q : In f umath_funcs ->
  um1 E f q = (r <- rescale_to E q (reads f) ;; Ok (Qty (amap (R_uf1 f) (mag r)) (yields f))).
Proof. cbn. intros H. repeat (destruct H as [<-|H]; [reflexivity|]). destruct H. Qed.
Lemma reads_ok f : dims_ok (reads f).
Proof. destruct f; apply dims_okb_ok; reflexivity. Qed.
Theorem C42_defined : forall E f q, In f umath_funcs -> renv_ok E -> dims_ok (qdim q) ->
  ((exists r, um1 E f q = Ok r) <-> convertible E (qdim q) (reads f)) /\
  (forall e, um1 E f q = Err e -> e = ValueError).
Proof.
  intros E f q Hf HE Hq. rewrite (um1_eq E f q Hf). split.
  - rewrite <- (rescale_ok_iff E q (reads f) HE Hq (reads_ok f)). destruct (rescale_to E q (reads f)) as [r|e]; cbn [bind].
    + split; eauto. + split; intros [r X]; discriminate.
  - intros e. destruct (rescale_to E q (reads f)) as [r|e'] eqn:Er; cbn [bind]; [discriminate|]. intros [= <-].
    exact (rescale_to_err E q _ _ Er).
Qed.
(** The value is the function of the argument, measured in radians resp. as a pure
    number, whatever units it was given in. *)
Theorem C42_value : forall E f q r phi, In f umath_funcs -> renv_ok E -> qty_ok q ->
  um1 E f q = Ok r -> consistent E phi ->
  qdim r = yields f /\
  phys phi r = amap (fun v => R_uf1 f (v / dimval phi (reads f)) * dimval phi (yields f)) (phys phi q).
Proof.
  intros E f q r phi Hf HE Hq H HC. rewrite (um1_eq E f q Hf) in H.
  destruct (rescale_to E q (reads f)) as [s|] eqn:Es; cbn [bind] in H; [|discriminate]. injection H as <-. split; [reflexivity|].
  pose proof (rescale_value E q (reads f) s HE (proj2 Hq) (reads_ok f) Es phi HC) as V.
  pose proof (rescale_to_eqb E q (reads f) s (proj1 (proj2 Hq)) (proj1 (reads_ok f)) Es) as He.
  pose proof (rescale_to_qty_ok E q (reads f) s Hq (reads_ok f) Es) as Ws.
  rewrite <- V. unfold phys. cbn [mag qdim]. rewrite !amap_amap. apply amap_ext. intros x _.
  rewrite (dimval_eqb phi _ _ (proj1 (proj2 Ws)) (proj1 (reads_ok f)) He). do 2 f_equal. field.
  pose proof (dimval_pos phi (reads f)). lra.
Qed.
Theorem C42_unit_independent : forall E f q q' r, In f umath_funcs -> renv_ok E -> qty_ok q -> qty_ok q' ->
  equal_in_other_units E q q' -> um1 E f q = Ok r ->
  exists r', um1 E f q' = Ok r' /\ qdim r' = qdim r /\ same_value E r r'.
Proof.
  intros E f q q' r Hf HE Hq Hq' [Hc Hs] H.
  assert (X : exists r', um1 E f q' = Ok r').
  { apply (proj1 (C42_defined E f q' Hf HE (proj2 Hq'))). assert (Y : convertible E (qdim q) (reads f)).
    { apply (proj1 (C42_defined E f q Hf HE (proj2 Hq))). eauto. }
    destruct Y as [c Yc]. destruct Hc as [k Hk]. exists (c / k). intros phi HC. specialize (Yc phi HC). specialize (Hk phi HC).
    rewrite Hk in Yc. assert (k <> 0). { intros ->. pose proof (dimval_pos phi (qdim q)). lra. }
    apply (Rmult_eq_reg_l k); auto. rewrite Yc. field. auto. }
  destruct X as [r' Hr']. exists r'. split; auto.
  split.
  - rewrite (um1_eq E f q Hf) in H. rewrite (um1_eq E f q' Hf) in Hr'.
    destruct (rescale_to E q (reads f)); cbn [bind] in H; [|discriminate]. injection H as <-.
    destruct (rescale_to E q' (reads f)); cbn [bind] in Hr'; [|discriminate]. now injection Hr' as <-.
  - intros phi HC. rewrite (proj2 (C42_value E f q r phi Hf HE Hq H HC)), (proj2 (C42_value E f q' r' phi Hf HE Hq' Hr' HC)).
    now rewrite (Hs phi HC).
Qed.
Example C42_example :
  (exists r, rescale_to (exE (A:=Qc)) (Qty (scalar (zq 180)) (unit_dims u_deg)) (reads USin) = Ok r) /\
  rescale_to (exE (A:=Qc)) (Qty (scalar (zq 180)) d_m) (reads USin) = Err ValueError /\
  convertible exE (unit_dims u_rad) (reads USin) /\ (exists r, um1 exE USin (Qty (scalar (PI / 2)) (unit_dims u_rad)) = Ok r).
Proof.
  assert (C : convertible exE (unit_dims u_rad) (reads USin)) by apply convertible_refl.
  split; [eexists; vm_compute; reflexivity|]. split; [vm_compute; reflexivity|]. split; [exact C|].
  apply (proj1 (C42_defined exE USin (Qty (scalar (PI/2)) (unit_dims u_rad)) ltac:(cbn; auto) exE_ok (dims_okb_ok (unit_dims u_rad) eq_refl))). exact C.
Qed.

(** C43 *)
Lemma dim_simplified_eq (fuel : nat) (E : uenv R) D d : dim_simplified fuel E D d = rmap (@qdim R) (simplified fuel E D (one_q d)).
Proof.
  unfold dim_simplified, simplified. cbn [one_q qdim]. destruct d as [|kv d]; [reflexivity|].
  destruct (simp_dims fuel E D (kv :: d)); reflexivity.
Qed.
(** [arctan2] accepts two quantities exactly if their units are convertible; it uses
    the raw magnitudes. *)
Theorem C43_accepts_iff : forall E D root fuel x1 x2,
  renv_ok E -> std_defaults E D root -> (forall c dd, D c = Some dd -> dims_ok dd) ->
  qty_ok x1 -> qty_ok x2 ->
  (forall u, In u (dkeys (qdim x1)) \/ In u (dkeys (qdim x2)) -> simplifiable E D root u) ->
  (convertible E (qdim x1) (qdim x2) ->
     um_arctan2 (S (S fuel)) E D x1 x2 = (m <- amap2 Ratan2 (mag x1) (mag x2) ;; Ok (Qty m (unit_dims k_radian)))) /\
  (~ convertible E (qdim x1) (qdim x2) -> um_arctan2 (S (S fuel)) E D x1 x2 = Err ValueError).
Proof.
  intros E D root fuel x1 x2 HE HS HD H1 H2 Hs.
  assert (Q : forall d, dims_ok d -> qty_ok (one_q (A:=R) d)) by (intros d Hd; split; [reflexivity|exact Hd]).
  destruct (proj2 (C19_simplified_terminates_iff E D root (one_q (qdim x1)) HE HS (proj2 H1)) ltac:(auto) fuel) as [r1 R1].
  destruct (proj2 (C19_simplified_terminates_iff E D root (one_q (qdim x2)) HE HS (proj2 H2)) ltac:(auto) fuel) as [r2 R2].
  destruct (C17_simplified_preserves_value E D _ _ r1 HE HD (Q _ (proj2 H1)) R1) as (V1 & _ & S1 & O1).
  destruct (C17_simplified_preserves_value E D _ _ r2 HE HD (Q _ (proj2 H2)) R2) as (V2 & _ & S2 & O2).
  unfold um_arctan2. rewrite !dim_simplified_eq, R1, R2. cbn [rmap bind].
  assert (I : dim_eqb (qdim r1) (qdim r2) = true <-> convertible E (qdim x1) (qdim x2)).
  { assert (Sc : forall d r, qty_ok (one_q (A:=R) d) -> simplified (S (S fuel)) E D (one_q d) = Ok r ->
        (forall phi, consistent E phi -> phys phi r = phys phi (one_q d)) ->
        exists c, 0 < c /\ forall phi, consistent E phi -> dimval phi d = c * dimval phi (qdim r)).
    { intros d r Hq Hr V. unfold simplified in Hr. destruct (simp_dims (S (S fuel)) E D (qdim (one_q d))) as [[c s]|]; [|discriminate].
      injection Hr as <-. cbn [qdim]. destruct (consistent_exists E HE) as [psi HP].
      assert (K : forall phi, consistent E phi -> dimval phi d = c * dimval phi s).
      { intros phi HC. specialize (V phi HC). unfold phys, amap, one_q, scalar in V. cbn [mag qdim shp dat map fst snd] in V.
        assert (V' : nmul c n1 * dimval phi s = n1 * dimval phi d) by (injection V; auto). cbn in V'. lra. }
      exists c. split; auto. specialize (K psi HP). pose proof (dimval_pos psi d). pose proof (dimval_pos psi s).
      apply (Rmult_lt_reg_r (dimval psi s)); lra. }
    destruct (Sc _ r1 (Q _ (proj2 H1)) R1 V1) as (c1 & P1 & K1). destruct (Sc _ r2 (Q _ (proj2 H2)) R2 V2) as (c2 & P2 & K2).
    split.
    - intros He. exists (c1 / c2). intros phi HC. rewrite (K1 phi HC), (K2 phi HC), (dimval_eqb phi _ _ (proj1 O1) (proj1 O2) He). field. lra.
    - intros [k Hk]. apply (dim_eqb_exp _ _ (proj1 O1) (proj1 O2)).
      assert (U1 := simplified_units E D root HE HS _ _ r1 (proj2 (Q _ (proj2 H1))) R1).
      assert (U2 := simplified_units E D root HE HS _ _ r2 (proj2 (Q _ (proj2 H2))) R2).
      intros u. rewrite (proj2 U1), (proj2 U2). cbn [one_q qdim]. apply combo_ext.
      exact (convertible_ref_exp E HE _ _ (proj2 H1) (proj2 H2) (ex_intro _ k Hk)). }
  destruct (dim_eqb (qdim r1) (qdim r2)).
  - split; [reflexivity|]. intros N. exfalso. apply N. now apply I.
  - split; [|reflexivity]. intros C. apply I in C. discriminate.
Qed.
(** Hence correct for identical units ... *)
Theorem C43_identical_units : forall E D fuel x1 x2 r phi, qty_ok x1 -> qty_ok x2 ->
  (forall u, exp_of (qdim x1) u = exp_of (qdim x2) u) -> um_arctan2 fuel E D x1 x2 = Ok r ->
  qdim r = unit_dims k_radian /\
  rmap (amap (fun a => a * dimval phi (unit_dims k_radian))) (amap2 Ratan2 (phys phi x1) (phys phi x2)) = Ok (phys phi r).
Proof.
  intros E D fuel x1 x2 r phi H1 H2 He H. unfold um_arctan2 in H.
  destruct (dim_simplified fuel E D (qdim x1)) as [d1|]; cbn [bind] in H; [|discriminate].
  destruct (dim_simplified fuel E D (qdim x2)) as [d2|]; cbn [bind] in H; [|discriminate].
  destruct (dim_eqb d1 d2); [|discriminate].
  destruct (amap2 Ratan2 (mag x1) (mag x2)) as [m|] eqn:Em; cbn [bind] in H; [|discriminate]. injection H as <-. split; [reflexivity|].
  apply (dim_eqb_exp _ _ (proj1 (proj2 H1)) (proj1 (proj2 H2))) in He.
  unfold phys at 1 2. rewrite <- (dimval_eqb phi _ _ (proj1 (proj2 H1)) (proj1 (proj2 H2)) He), amap2_amap.
  rewrite (amap2_ext _ Ratan2) by (intros; apply Ratan2_scale; apply dimval_pos). rewrite Em. reflexivity.
Qed.
Lemma ex_simplifiable_m : simplifiable exE exD ex_root u_m.
Proof. apply (simplifiable_root exE exD ex_root exD_std CLength eq_refl). discriminate. Qed.
Lemma ex_conv_cm_m : convertible exE d_cm d_m.
Proof. exists (1 / 100). intros phi HC. exact (ex_cm_size phi HC). Qed.
Lemma ex_simplifiable_cm : simplifiable exE exD ex_root u_cm.
Proof. unfold simplifiable. cbn [is_irreducible u_cls u_cm]. split; [discriminate|exact ex_conv_cm_m]. Qed.
(** ... and wrong for different ones: arctan2(1 m, 1 m) and arctan2(1 m, 100 cm) differ. *)
Theorem C43_refuted :
  exists E D x1 x2 x2' r r', renv_ok E /\ qty_ok x1 /\ qty_ok x2 /\ qty_ok x2' /\ equal_in_other_units E x2 x2' /\
    um_arctan2 2 E D x1 x2 = Ok r /\ um_arctan2 2 E D x1 x2' = Ok r' /\ ~ same_value E r r'.
Proof.
  exists exE, exD, (Qty (scalar 1) d_m), (Qty (scalar 1) d_m), (Qty (scalar 100) d_cm),
    (Qty (scalar (Ratan2 1 1)) (unit_dims k_radian)), (Qty (scalar (Ratan2 1 100)) (unit_dims k_radian)).
  assert (O1 : qty_ok (Qty (scalar 1) d_m)) by (split; [reflexivity|apply dims_okb_ok; reflexivity]).
  assert (O2 : qty_ok (Qty (scalar 100) d_cm)) by (split; [reflexivity|apply dims_okb_ok; reflexivity]).
  split; [exact exE_ok|]. split; [exact O1|]. split; [exact O1|]. split; [exact O2|]. split.
  { split; cbn [qdim].
    - exists 100. intros phi HC. rewrite (ex_cm_size phi HC). lra.
    - intros phi HC. unfold phys, scalar, amap. cbn [mag qdim shp dat map]. rewrite (ex_cm_size phi HC). do 2 f_equal. lra. }
  assert (Sm : forall u, In u (dkeys d_m) \/ In u (dkeys d_m) -> simplifiable exE exD ex_root u).
  { intros u Hu. assert (u_m = u) as <- by (destruct Hu as [[Hu|[]]|[Hu|[]]]; exact Hu). exact ex_simplifiable_m. }
  assert (Sc : forall u, In u (dkeys d_m) \/ In u (dkeys d_cm) -> simplifiable exE exD ex_root u).
  { intros u [[Hu|[]]|[Hu|[]]].
    - change (u_m = u) in Hu. subst u. exact ex_simplifiable_m.
    - change (u_cm = u) in Hu. subst u. exact ex_simplifiable_cm. }
  assert (Cc : convertible exE d_m d_cm).
  { exists 100. intros phi HC. rewrite (ex_cm_size phi HC). lra. }
  pose proof (proj1 (C43_accepts_iff exE exD ex_root 0 _ _ exE_ok exD_std exD_ok O1 O1 Sm) (convertible_refl _ _)) as A1.
  pose proof (proj1 (C43_accepts_iff exE exD ex_root 0 _ _ exE_ok exD_std exD_ok O1 O2 Sc) Cc) as A2.
  split; [etransitivity; [exact A1|reflexivity]|]. split; [etransitivity; [exact A2|reflexivity]|].
  - intros S. destruct (consistent_exists exE exE_ok) as [phi HC]. specialize (S phi HC).
    unfold phys, scalar, amap in S. cbn [mag qdim shp dat map] in S.
    assert (S' : Ratan2 1 1 * dimval phi (unit_dims k_radian) = Ratan2 1 100 * dimval phi (unit_dims k_radian)) by (injection S; auto).
    pose proof (dimval_pos phi (unit_dims k_radian)) as P. apply Rmult_eq_reg_r in S'; [|lra].
    assert (A : forall y, 0 < y -> Ratan2 1 y = atan (1 / y)).
    { intros y Hy. unfold Ratan2. rewrite (proj2 (Rltb_true 0 y) Hy). reflexivity. }
    rewrite !A in S' by lra. assert (I : atan (1 / 100) < atan (1 / 1)) by (apply atan_increasing; lra). lra.
Qed.
(** [hypot] refuses units that are not identical, and is right for those that are. *)
Theorem C43_hypot : forall x1 x2 phi, qty_ok x1 -> qty_ok x2 ->
  ((exists r, um_hypot x1 x2 = Ok r) <-> (forall u, exp_of (qdim x1) u = exp_of (qdim x2) u) /\ broadcast (shp (mag x1)) (shp (mag x2))) /\
  (forall r, um_hypot x1 x2 = Ok r -> qdim r = qdim x1 /\
     amap2 (fun a b => sqrt (a * a + b * b)) (phys phi x1) (phys phi x2) = Ok (phys phi r)) /\
  (forall e, um_hypot x1 x2 = Err e -> e = ValueError).
Proof.
  intros x1 x2 phi H1 H2. unfold um_hypot, broadcast. rewrite <- (amap2_ok (R_uf2 UHypot)).
  rewrite <- (dim_eqb_exp _ _ (proj1 (proj2 H1)) (proj1 (proj2 H2))).
  destruct (dim_eqb (qdim x1) (qdim x2)) eqn:He.
  - destruct (amap2 (R_uf2 UHypot) (mag x1) (mag x2)) as [m|e] eqn:Em; cbn [bind].
    + split; [split; eauto|]. split; [|discriminate]. intros r [= <-]. split; auto.
      unfold phys at 1 2. rewrite <- (dimval_eqb phi _ _ (proj1 (proj2 H1)) (proj1 (proj2 H2)) He), amap2_amap.
      rewrite (amap2_ext _ (fun x y => R_uf2 UHypot x y * dimval phi (qdim x1))) by (intros; apply homog_hypot; apply dimval_pos).
      rewrite <- (rmap_amap_amap2 (fun z => z * dimval phi (qdim x1))), Em. reflexivity.
    + split; [split; [intros [r X]; discriminate|intros [_ [r X]]; discriminate]|]. split; [discriminate|]. intros e' [= <-]. exact (amap2_err _ _ _ Em).
  - split; [split; [intros [r X]; discriminate|intros [X _]; discriminate]|]. split; [discriminate|]. now intros e [= <-].
Qed.
Example C43_example : um_hypot (Qty (scalar 3) d_m) (Qty (scalar 4) d_cm) = Err ValueError /\
  exists r, um_hypot (Qty (scalar 3) d_m) (Qty (scalar 4) d_m) = Ok r.
Proof. split; [reflexivity|eexists; reflexivity]. Qed.

(** C50 *)
Lemma odims_wf (o : operand R) : operand_ok o -> wf_dims (odims o).
Proof. intros H. rewrite <- qdim_as_q. exact (proj1 (proj2 (as_q_ok o H))). Qed.
(** Samples along an axis of length [n], at [n] sample points: the shape, the units,
    and the trapezoidal sum of the physical values. *)
Theorem C50_trapz_points : forall y x axis pre n post, operand_ok y -> operand_ok x ->
  shp (odat y) = pre ++ n :: post -> axis_means (length (shp (odat y))) axis (length pre) -> shp (odat x) = [n] ->
  exists r, um_trapz y (QX x) axis = Ok r /\ shp (mag r) = pre ++ post /\
    (forall u, exp_of (qdim r) u = (exp_of (odims y) u + exp_of (odims x) u)%Qc) /\
    forall phi ip jp, in_range pre ip -> in_range post jp ->
      aget (phys phi r) (ip ++ jp) =
      Some (Rsum (map (fun i => (el (ophys phi x) [S i] - el (ophys phi x) [i]) *
                                (el (ophys phi y) (ip ++ S i :: jp) + el (ophys phi y) (ip ++ i :: jp)) / 2) (seq 0 (n - 1)))).
Proof.
  intros y x axis pre n post Hy Hx Sy M Sx.
  assert (Wy : awf (odat y)) by (destruct y; apply Hy). assert (Wx : awf (odat x)) by (destruct x; apply Hx).
  destruct (trapz_x_spec (odat y) (odat x) pre n post axis Wy Wx Sy Sx M) as (m & Em & Wm & Sm & Gm).
  unfold um_trapz. rewrite Em. cbn [bind]. eexists. split; [reflexivity|]. cbn [mag qdim]. split; [exact Sm|].
  rewrite !qdim_as_q. split.
  { intros u. apply exp_of_mul; [exact (wf_NoDup _ (odims_wf y Hy))|exact (wf_NoDup _ (odims_wf x Hx))]. }
  intros phi ip jp R1 R2. unfold phys. cbn [mag qdim]. rewrite amap_get, (Gm ip jp R1 R2). cbn [option_map]. f_equal.
  rewrite dimval_mul. rewrite <- trap_sum_scale. unfold trap_sum. f_equal. apply map_ext. intros i. rewrite !el_ophys. unfold Rdiv. ring.
Qed.
Theorem C50_trapz_spacing : forall y dx h axis pre n post, operand_ok y ->
  shp (odat y) = pre ++ n :: post -> axis_means (length (shp (odat y))) axis (length pre) -> operand_ok dx -> odat dx = scalar h ->
  exists r, um_trapz y (QDx dx) axis = Ok r /\ shp (mag r) = pre ++ post /\
    (forall u, exp_of (qdim r) u = (exp_of (odims y) u + exp_of (odims dx) u)%Qc) /\
    forall phi ip jp, in_range pre ip -> in_range post jp ->
      aget (phys phi r) (ip ++ jp) =
      Some (Rsum (map (fun i => el (ophys phi dx) [] *
                                (el (ophys phi y) (ip ++ S i :: jp) + el (ophys phi y) (ip ++ i :: jp)) / 2) (seq 0 (n - 1)))).
Proof.
  intros y x h axis pre n post Hy Sy M Hx Sx.
  assert (Wy : awf (odat y)) by (destruct y; apply Hy).
  destruct (trapz_dx_spec (odat y) h pre n post axis Wy Sy M) as (m & Em & Wm & Sm & Gm).
  unfold um_trapz. rewrite Sx, Em. cbn [bind]. eexists. split; [reflexivity|]. cbn [mag qdim]. split; [exact Sm|].
  rewrite !qdim_as_q. split.
  { intros u. apply exp_of_mul; [exact (wf_NoDup _ (odims_wf y Hy))|exact (wf_NoDup _ (odims_wf x Hx))]. }
  intros phi ip jp R1 R2. unfold phys. cbn [mag qdim]. rewrite amap_get, (Gm ip jp R1 R2). cbn [option_map]. f_equal.
  rewrite dimval_mul. rewrite <- trap_sum_scale. unfold trap_sum. f_equal. apply map_ext. intros i. rewrite !el_ophys, Sx. unfold el at 3. cbn. ring.
Qed.
(** Sample points given per element. *)
Theorem C50_trapz_same_shape : forall y x axis pre n post, operand_ok y -> operand_ok x ->
  shp (odat y) = pre ++ n :: post -> axis_means (length (shp (odat y))) axis (length pre) ->
  shp (odat x) = shp (odat y) -> length (shp (odat y)) <> 1%nat ->
  exists r, um_trapz y (QX x) axis = Ok r /\ shp (mag r) = pre ++ post /\
    (forall u, exp_of (qdim r) u = (exp_of (odims y) u + exp_of (odims x) u)%Qc) /\
    forall phi ip jp, in_range pre ip -> in_range post jp ->
      aget (phys phi r) (ip ++ jp) =
      Some (Rsum (map (fun i => (el (ophys phi x) (ip ++ S i :: jp) - el (ophys phi x) (ip ++ i :: jp)) *
                                (el (ophys phi y) (ip ++ S i :: jp) + el (ophys phi y) (ip ++ i :: jp)) / 2) (seq 0 (n - 1)))).
Proof.
  intros y x axis pre n post Hy Hx Sy M Sx N1.
  assert (Wy : awf (odat y)) by (destruct y; apply Hy). assert (Wx : awf (odat x)) by (destruct x; apply Hx).
  destruct (trapz_xn_spec (odat y) (odat x) pre n post axis Wy Wx Sy Sx N1 M) as (m & Em & Wm & Sm & Gm).
  unfold um_trapz. rewrite Em. cbn [bind]. eexists. split; [reflexivity|]. cbn [mag qdim]. split; [exact Sm|].
  rewrite !qdim_as_q. split.
  { intros u. apply exp_of_mul; [exact (wf_NoDup _ (odims_wf y Hy))|exact (wf_NoDup _ (odims_wf x Hx))]. }
  intros phi ip jp R1 R2. unfold phys. cbn [mag qdim]. rewrite amap_get, (Gm ip jp R1 R2). cbn [option_map]. f_equal.
  rewrite dimval_mul. rewrite <- trap_sum_scale. unfold trap_sum. f_equal. apply map_ext. intros i. rewrite !el_ophys. unfold Rdiv. ring.
Qed.
Example C50_example :
  um_trapz (OQ (Qty (Arr [3%nat] (qcs [1; 2; 4]%Z)) d_m)) (QX (OQ (Qty (Arr [3%nat] (qcs [0; 2; 4]%Z)) d_s))) (-1) =
    Ok (Qty (scalar (zq 9)) [(u_m, PInt 1); (u_s, PInt 1)]) /\
  um_trapz (OArr (Arr [3%nat] (qcs [1; 2; 5]%Z))) (QDx (OQ (Qty (scalar (zq 2)) d_s))) 0 = Ok (Qty (scalar (zq 10)) d_s) /\
  axis_means (length [3%nat]) (-1) (length (@nil nat)).
Proof. split; [vm_compute; reflexivity|]. split; [vm_compute; reflexivity|]. cbn. split; [lia|]. right. cbn. lia. Qed.
(** A number of sample points that does not match two samples is not refused. *)
Example C50_unmatched_accepted :
  um_trapz (OQ (Qty (Arr [2%nat] (qcs [1; 3]%Z)) d_m)) (QX (OQ (Qty (Arr [3%nat] (qcs [0; 1; 2]%Z)) d_s))) (-1) =
    Ok (Qty (scalar (zq 4)) [(u_m, PInt 1); (u_s, PInt 1)]).
Proof. vm_compute. reflexivity. Qed.

(** C76 *)
(** np.diff of a quantity: units kept, differences of neighbouring physical values. *)
Theorem C76_diff : forall q axis pre n post, qty_ok q -> shp (mag q) = pre ++ n :: post ->
  axis_means (length (shp (mag q))) axis (length pre) ->
  exists r, um_diff axis q = Ok r /\ qdim r = qdim q /\ shp (mag r) = pre ++ (n - 1)%nat :: post /\
    forall phi ip i jp, in_range pre ip -> in_range post jp -> (i < n - 1)%nat ->
      aget (phys phi r) (ip ++ i :: jp) = Some (el (phys phi q) (ip ++ S i :: jp) - el (phys phi q) (ip ++ i :: jp)).
Proof.
  intros q axis pre n post Hq Sq M. unfold um_diff. rewrite (norm_axis_complete _ _ _ M). cbn [bind].
  destruct (adiff_spec (mag q) pre n post (proj1 Hq) Sq) as (d & Ed & Wd & Sd & Gd).
  unfold adiff in Ed. destruct (aslice (length pre) tail_of (mag q)) as [hi|]; cbn [bind] in *; [|discriminate].
  destruct (aslice (length pre) init_of (mag q)) as [lo|]; cbn [bind] in *; [|discriminate].
  unfold apply2. cbn [odat mag pd2 qdim]. rewrite Ed. cbn [bind].
  assert (Rf : dim_eqb (qdim q) (qdim q) = true) by (apply (dim_eqb_exp _ _ (proj1 (proj2 Hq)) (proj1 (proj2 Hq))); reflexivity).
  rewrite Rf. cbn [bind]. eexists. split; [reflexivity|]. cbn [qdim mag]. split; auto. split; auto.
  intros phi ip i jp R1 R2 Hi. unfold phys at 1. cbn [mag qdim]. rewrite amap_get, Gd by auto. cbn [option_map]. f_equal.
  rewrite !el_phys. ring.
Qed.
Theorem C76_diff_bad_axis : forall A (N : Num A) axis (q : qty A),
  (forall ax, ~ axis_means (length (shp (mag q))) axis ax) -> um_diff axis q = Err ValueError.
Proof.
  intros A N axis q H. unfold um_diff. destruct (norm_axis (length (shp (mag q))) (Some axis)) as [x|e] eqn:En; cbn [bind].
  - apply norm_axis_spec in En. destruct En as (ax & _ & M). now apply H in M.
  - f_equal. exact (norm_axis_err _ _ _ En).
Qed.
Example C76_example : um_diff (-1) (Qty (Arr [2%nat; 3%nat] (qcs [1; 2; 4; 0; 10; 5]%Z)) d_m) =
    Ok (Qty (Arr [2%nat; 2%nat] (qcs [1; 2; 10; -5]%Z)) d_m).
Proof. vm_compute. reflexivity. Qed.

(** C77 *)
Lemma nth_ldiff (l : list R) i : (S i < length l)%nat -> nth_error (ldiff l) i = Some (nth (S i) l 0 - nth i l 0).
Proof.
  revert i. induction l as [|x l IH]; intros i H; [cbn in H; lia|]. destruct l as [|y l]; [cbn in H; lia|].
  destruct i as [|i]; [reflexivity|]. cbn [ldiff nth_error]. rewrite IH by (cbn in *; lia). reflexivity.
Qed.
Lemma ldiff_length {A} {N : Num A} (l : list A) : length (ldiff l) = (length l - 1)%nat.
Proof. induction l as [|x l IH]; [reflexivity|]. destruct l as [|y l]; [reflexivity|]. cbn [ldiff length] in *. rewrite IH. lia. Qed.
(** Without padding: units kept, differences of neighbours in row-major order. *)
Theorem C77_ediff1d : forall q, qty_ok q ->
  let r := um_ediff1d q None None in
  qdim r = qdim q /\ shp (mag r) = [(length (dat (mag q)) - 1)%nat] /\
  forall phi i, (S i < length (dat (mag q)))%nat ->
    nth_error (dat (phys phi r)) i = Some (nth (S i) (dat (phys phi q)) 0 - nth i (dat (phys phi q)) 0).
Proof.
  intros q Hq r. unfold r, um_ediff1d. cbn [oraw app qdim mag shp dat]. rewrite app_nil_r.
  split; auto. split; [now rewrite ldiff_length|]. intros phi i Hi. unfold phys. cbn [mag qdim dat amap].
  rewrite nth_error_map, nth_ldiff by auto. cbn [option_map]. f_equal.
  rewrite (nth_indep (map _ _) 0 (0 * dimval phi (qdim q))), (map_nth (fun x => x * dimval phi (qdim q))) by (rewrite map_length; lia).
  rewrite (nth_indep (map _ _) 0 (0 * dimval phi (qdim q))), (map_nth (fun x => x * dimval phi (qdim q))) by (rewrite map_length; lia). ring.
Qed.
(** With padding, the raw numbers of [to_begin] come first, then the differences, then
    the raw numbers of [to_end]. *)
Theorem C77_padding : forall A (N : Num A) (q : qty A) e b,
  let r := um_ediff1d q (Some e) (Some b) in let d := um_ediff1d q None None in
  qdim r = qdim q /\ shp (mag r) = [length (dat (mag r))] /\
  dat (mag r) = dat (odat b) ++ dat (mag d) ++ dat (odat e) /\
  dat (mag (um_ediff1d q None (Some b))) = dat (odat b) ++ dat (mag d) /\
  dat (mag (um_ediff1d q (Some e) None)) = dat (mag d) ++ dat (odat e).
Proof.
  intros A N q e b r d. unfold r, d, um_ediff1d. cbn [oraw app mag dat qdim shp]. rewrite !app_nil_r. auto.
Qed.
(** The padding arguments are not converted, nor checked: only their raw numbers count. *)
Theorem C77_padding_units_ignored : forall A (N : Num A) (q : qty A) m d d' m2 d2 d2',
  um_ediff1d q (Some (OQ (Qty m d))) (Some (OQ (Qty m2 d2))) = um_ediff1d q (Some (OQ (Qty m d'))) (Some (OQ (Qty m2 d2'))).
Proof. reflexivity. Qed.
Theorem C77_padding_refuted :
  exists E q t t', renv_ok E /\ qty_ok q /\ qty_ok t /\ qty_ok t' /\ equal_in_other_units E t t' /\
    ~ same_value E (um_ediff1d q (Some (OQ t)) None) (um_ediff1d q (Some (OQ t')) None).
Proof.
  exists exE, (Qty (Arr [2%nat] [1; 2]) d_m), (Qty (scalar 1) d_m), (Qty (scalar 100) d_cm).
  split; [exact exE_ok|]. split; [split; [reflexivity|apply dims_okb_ok; reflexivity]|].
  split; [split; [reflexivity|apply dims_okb_ok; reflexivity]|]. split; [split; [reflexivity|apply dims_okb_ok; reflexivity]|].
  split.
  { split; cbn [qdim].
    - exists 100. intros phi HC. rewrite (ex_cm_size phi HC). lra.
    - intros phi HC. unfold phys, scalar, amap. cbn [mag qdim shp dat map]. rewrite (ex_cm_size phi HC). do 2 f_equal. lra. }
  intros S. destruct (consistent_exists exE exE_ok) as [phi HC]. specialize (S phi HC).
  unfold phys, um_ediff1d, amap in S. cbn [mag qdim shp dat map oraw odat scalar ldiff app length] in S.
  assert (S' : 1 * dimval phi d_m = 100 * dimval phi d_m) by (injection S; auto).
  pose proof (dimval_pos phi d_m). lra.
Qed.
Example C77_example : um_ediff1d (Qty (Arr [3%nat] (qcs [1; 2; 4]%Z)) d_m) (Some (OQ (Qty (scalar (zq 7)) d_s))) None =
  Qty (Arr [3%nat] (qcs [1; 2; 7]%Z)) d_m.
Proof. vm_compute. reflexivity. Qed.

(** C78 *)
(** One-dimensional [gradient] with a scalar spacing: one scalar quantity per sample,
    in units of [f] per units of [h]: one-sided differences at the ends, central
    differences inside, of the physical values. *)
Definition derivative_estimate (n : nat) (F : nat -> R) (H : R) (i : nat) : R :=
  if Nat.eqb i 0 then (F 1%nat - F 0%nat) / H
  else if Nat.eqb (S i) n then (F i - F (i - 1)%nat) / H
  else (F (S i) - F (i - 1)%nat) / (2 * H).
Lemma grad_at_uniform (l : list R) h i : h <> 0 ->
  grad_at l (fun _ => h) i = derivative_estimate (length l) (fun k => nth k l 0) h i.
Proof.
  intros Hh. unfold grad_at, derivative_estimate. cbn [nadd nsub nmul ndiv nneg n0 NumR].
  destruct (Nat.eqb i 0); [reflexivity|]. destruct (Nat.eqb (S i) (length l)); [reflexivity|]. field. lra.
Qed.
Theorem C78_gradient_uniform : forall l d hm hd, hm <> 0 -> (2 <= length l)%nat -> dims_ok d -> dims_ok hd ->
  exists rs, um_gradient l d [OQ (Qty (scalar hm) hd)] = Ok rs /\ length rs = length l /\
    forall i r, nth_error rs i = Some r ->
      shp (mag r) = [] /\ (forall u, exp_of (qdim r) u = (exp_of d u - exp_of hd u)%Qc) /\
      forall phi, phys phi r =
        scalar (derivative_estimate (length l) (fun k => nth k l 0 * dimval phi d) (hm * dimval phi hd) i).
Proof.
  intros l d hm hd Hh Hl Hd Hhd. unfold um_gradient. destruct (Nat.ltb_spec (length l) 2); [lia|].
  cbn [grad_widths odat mag shp dat scalar bind qdim]. eexists. split; [reflexivity|].
  unfold lgradient. split; [now rewrite !map_length, seq_length|].
  intros i r Hi. rewrite nth_error_map, nth_error_map in Hi.
  destruct (nth_error (seq 0 (length l)) i) as [k|] eqn:Ek; [|discriminate]. cbn [option_map] in Hi. injection Hi as <-.
  assert (Li : (i < length l)%nat) by (rewrite <- (seq_length (length l) 0); apply nth_error_Some; congruence).
  rewrite (nth_error_nth' _ 0%nat) in Ek by (now rewrite seq_length). rewrite seq_nth in Ek by auto. injection Ek as <-.
  cbn [mag qdim shp scalar Nat.add]. split; auto. split; [intros u; apply exp_of_div; apply wf_NoDup; [apply Hd|apply Hhd]|].
  intros phi. unfold phys, scalar, amap. cbn [mag qdim shp dat map]. f_equal. f_equal.
  rewrite grad_at_uniform by auto. rewrite dimval_div. pose proof (dimval_pos phi hd). unfold derivative_estimate.
  destruct (Nat.eqb i 0); [field; lra|]. destruct (Nat.eqb (S i) (length l)); field; lra.
Qed.
(** With coordinates [x_0 < x_1 < ...]: exact on every linear function of the
    coordinate, in the quotient of the units. *)
Theorem C78_gradient_linear_exact : forall xs xd d a b, dims_ok d -> dims_ok xd ->
  (2 <= length xs)%nat -> (forall i, (S i < length xs)%nat -> nth i xs 0 < nth (S i) xs 0) ->
  exists rs, um_gradient (map (fun x => a * x + b) xs) d [OQ (Qty (Arr [length xs] xs) xd)] = Ok rs /\
    length rs = length xs /\
    forall r, In r rs -> mag r = scalar a /\ forall u, exp_of (qdim r) u = (exp_of d u - exp_of xd u)%Qc.
Proof.
  intros xs xd d a b Hd Hxd Hl Hinc. unfold um_gradient. rewrite map_length. destruct (Nat.ltb_spec (length xs) 2); [lia|].
  cbn [grad_widths odat mag shp dat]. rewrite Nat.eqb_refl. cbn [bind qdim]. eexists. split; [reflexivity|].
  unfold lgradient. rewrite !map_length, seq_length. split; auto. intros r Hr.
  apply in_map_iff in Hr. destruct Hr as (z & <- & Hz). apply in_map_iff in Hz. destruct Hz as (i & <- & Hi). apply in_seq in Hi.
  cbn [mag qdim]. split; [|intros u; apply exp_of_div; apply wf_NoDup; [apply Hd|apply Hxd]]. f_equal.
  assert (Wd : forall k, (S k < length xs)%nat -> nth k (ldiff xs) n0 = nth (S k) xs 0 - nth k xs 0).
  { intros k Hk. apply nth_error_nth. now apply nth_ldiff. }
  assert (Nv : forall k, (k < length xs)%nat -> nth k (map (fun x => a * x + b) xs) n0 = a * nth k xs 0 + b).
  { intros k Hk. rewrite (nth_indep _ n0 ((fun x => a * x + b) 0)) by (now rewrite map_length). exact (map_nth (fun x => a * x + b) xs 0 k). }
  unfold grad_at. cbn zeta. rewrite map_length. destruct (Nat.eqb_spec i 0) as [->|Hi0].
  - rewrite Wd, !Nv by lia. cbn. pose proof (Hinc 0%nat ltac:(lia)). field. lra.
  - destruct (Nat.eqb_spec (S i) (length xs)) as [He|He].
    + rewrite Wd, !Nv by lia. replace (S (i - 1)) with i by lia. cbn. pose proof (Hinc (i - 1)%nat ltac:(lia)) as H1. replace (S (i - 1)) with i in H1 by lia.
      field. lra.
    + rewrite !Wd, !Nv by lia. replace (S (i - 1)) with i by lia. pose proof (Hinc (i - 1)%nat ltac:(lia)) as H1. replace (S (i - 1)) with i in H1 by lia.
      pose proof (Hinc i ltac:(lia)) as H2. cbn [nadd nsub nmul ndiv nneg NumR].
      set (x0 := nth (i - 1) xs 0) in *. set (x1 := nth i xs 0) in *. set (x2 := nth (S i) xs 0) in *. field. lra.
Qed.
(** No spacing gives an empty tuple instead of a gradient, a plain spacing an
    AttributeError. *)
Theorem C78_gradient_refuted : forall A (N : Num A) (l : list A) d h,
  (2 <= length l)%nat -> um_gradient l d [] = Ok [] /\ um_gradient l d [OArr (scalar h)] = Err AttributeError.
Proof. intros A N l d h H. unfold um_gradient. destruct (Nat.ltb_spec (length l) 2); [lia|]. split; reflexivity. Qed.
Example C78_example :
  um_gradient (qcs [1; 2; 4]%Z) d_m [OQ (Qty (scalar (zq 2)) d_s)] =
    Ok [Qty (scalar (q_of 1 2)) d_ms; Qty (scalar (q_of 3 4)) d_ms; Qty (scalar (zq 1)) d_ms].
Proof. vm_compute. reflexivity. Qed.

(** C79 *)
Lemma skipn_app_exact {A} (c l : list A) k : length c = k -> skipn k (c ++ l) = l.
Proof. intros <-. rewrite skipn_app, skipn_all, Nat.sub_diag. reflexivity. Qed.
Lemma prodn_rev s : prodn (rev s) = prodn s.
Proof. induction s as [|n s IH]; cbn [rev prodn]; auto. rewrite prodn_app. cbn. lia. Qed.
Lemma cross3_length {A} {N : Num A} (a b : list A) : length a = 3%nat -> length b = 3%nat -> length (cross3 a b) = 3%nat.
Proof.
  intros H1 H2. destruct a as [|a1 [|a2 [|a3 [|? ?]]]]; try discriminate; destruct b as [|b1 [|b2 [|b3 [|? ?]]]]; try discriminate. reflexivity.
Qed.
Lemma at_last {A} (l : list A) pre ip j : length l = prodn (pre ++ [3%nat]) -> in_range pre ip -> (j < 3)%nat ->
  exists c, nth_error (chunks (prodn pre) 3 l) (ravel pre ip) = Some c /\ length c = 3%nat /\
            at_idx (pre ++ [3%nat]) l (ip ++ [j]) = nth_error c j.
Proof.
  intros HL HR Hj. assert (HP := HL). rewrite prodn_app in HP. cbn [prodn] in HP. pose proof (ravel_lt HR) as Lt.
  rewrite nth_error_chunks by lia. eexists. split; [reflexivity|].
  split; [rewrite firstn_length, skipn_length; nia|].
  assert (HR' : in_range (pre ++ [3%nat]) (ip ++ [j])) by (apply in_range_app_intro; auto; constructor; [exact Hj|constructor]).
  rewrite (at_idx_ravel l HL HR').
  rewrite ravel_app by apply (in_range_length HR). cbn [ravel prodn].
  rewrite nth_error_firstn by lia. rewrite nth_error_skipn. f_equal. lia.
Qed.
(** The cross product of arrays of 3-vectors: units multiply, components as usual. *)
Theorem C79_cross : forall a b pre, qty_ok a -> qty_ok b ->
  shp (mag a) = pre ++ [3%nat] -> shp (mag b) = pre ++ [3%nat] ->
  exists r, um_cross a b = Ok r /\ shp (mag r) = pre ++ [3%nat] /\
    (forall u, exp_of (qdim r) u = (exp_of (qdim a) u + exp_of (qdim b) u)%Qc) /\
    forall phi ip, in_range pre ip ->
      let A i := el (phys phi a) (ip ++ [i]) in let B i := el (phys phi b) (ip ++ [i]) in
      let C i := aget (phys phi r) (ip ++ [i]) in
      C 0%nat = Some (A 1%nat * B 2%nat - A 2%nat * B 1%nat) /\
      C 1%nat = Some (A 2%nat * B 0%nat - A 0%nat * B 2%nat) /\
      C 2%nat = Some (A 0%nat * B 1%nat - A 1%nat * B 0%nat).
Proof.
  intros a b pre Ha Hb Sa Sb. unfold um_cross. destruct (list_eq_dec Nat.eq_dec (shp (mag a)) (shp (mag b))); [|congruence].
  assert (Er : rev (shp (mag a)) = 3%nat :: rev pre) by (rewrite Sa, rev_app_distr; reflexivity). rewrite Er. cbn beta iota zeta. rewrite prodn_rev. eexists. split; [reflexivity|]. cbn [mag qdim shp].
  split; auto. split; [intros u; apply exp_of_mul; apply wf_NoDup; [apply Ha|apply Hb]|].
  intros phi ip HR.
  assert (La : length (dat (mag a)) = prodn (pre ++ [3%nat])) by (rewrite <- Sa; apply Ha).
  assert (Lb : length (dat (mag b)) = prodn (pre ++ [3%nat])) by (rewrite <- Sb; apply Hb).
  set (cs := zip_with cross3 (chunks (prodn pre) 3 (dat (mag a))) (chunks (prodn pre) 3 (dat (mag b)))).
  assert (Hcs : Forall (fun c => length c = 3%nat) cs).
  { apply Forall_forall. intros c Hc. apply In_nth_error in Hc. destruct Hc as [k Hk]. unfold cs in Hk.
    rewrite nth_error_zip_with in Hk.
    destruct (nth_error (chunks (prodn pre) 3 (dat (mag a))) k) as [ca|] eqn:Ea; [|discriminate].
    destruct (nth_error (chunks (prodn pre) 3 (dat (mag b))) k) as [cb|] eqn:Eb; [|discriminate].
    injection Hk as <-. assert (G : forall l : list R, length l = prodn (pre ++ [3%nat]) -> forall c, nth_error (chunks (prodn pre) 3 l) k = Some c -> length c = 3%nat).
    { intros l Hl c Hc. assert (Hk : (k < prodn pre)%nat) by (rewrite <- (chunks_length (prodn pre) 3 l); apply nth_error_Some; congruence).
      rewrite prodn_app in Hl. cbn in Hl. rewrite nth_error_chunks in Hc by lia. match type of Hc with Some ?x = _ => assert (Y : c = x) by congruence end. rewrite Y, firstn_length, skipn_length. nia. }
    apply cross3_length; [exact (G _ La _ Ea)|exact (G _ Lb _ Eb)]. }
  assert (Lc : length (concat cs) = prodn (pre ++ [3%nat])).
  { rewrite prodn_app. cbn [prodn]. assert (Lcs : length cs = prodn pre) by (unfold cs; rewrite zip_with_length, !chunks_length; lia).
    rewrite <- Lcs. clear - Hcs. induction Hcs as [|c l Hc _ IH]; cbn [concat length]; [reflexivity|]. rewrite app_length, IH. lia. }
  assert (Gc : forall j, (j < 3)%nat -> exists ca cb, length ca = 3%nat /\ length cb = 3%nat /\
     (forall i, (i < 3)%nat -> aget (mag a) (ip ++ [i]) = nth_error ca i) /\ (forall i, (i < 3)%nat -> aget (mag b) (ip ++ [i]) = nth_error cb i) /\
     at_idx (pre ++ [3%nat]) (concat cs) (ip ++ [j]) = nth_error (cross3 ca cb) j).
  { intros j Hj. destruct (at_last (dat (mag a)) pre ip j La HR Hj) as (ca & Ea & L1 & _).
    destruct (at_last (dat (mag b)) pre ip j Lb HR Hj) as (cb & Eb & L2 & _). exists ca, cb. split; auto. split; auto.
    split; [intros i Hi; destruct (at_last (dat (mag a)) pre ip i La HR Hi) as (c' & E' & _ & G'); rewrite Ea in E'; injection E' as <-; unfold aget; now rewrite Sa|].
    split; [intros i Hi; destruct (at_last (dat (mag b)) pre ip i Lb HR Hi) as (c' & E' & _ & G'); rewrite Eb in E'; injection E' as <-; unfold aget; now rewrite Sb|].
    destruct (at_last (concat cs) pre ip j Lc HR Hj) as (cc & Ec & _ & ->). f_equal.
    assert (Lcs : length cs = prodn pre) by (unfold cs; rewrite zip_with_length, !chunks_length; lia).
    assert (X : chunks (prodn pre) 3 (concat cs) = cs).
    { rewrite <- Lcs. clear - Hcs. induction Hcs as [|c l Hc _ IH]; cbn [concat length chunks]; auto.
      rewrite firstn_app_exact by auto. f_equal. rewrite (skipn_app_exact c (concat l) 3 Hc). exact IH. }
    rewrite X in Ec. unfold cs in Ec. rewrite nth_error_zip_with, Ea, Eb in Ec. now injection Ec as <-. }
  assert (P : forall j, (j < 3)%nat -> aget (phys phi {| mag := {| shp := shp (mag a); dat := concat cs |}; qdim := dim_mul (qdim a) (qdim b) |}) (ip ++ [j]) =
     option_map (fun x => x * (dimval phi (qdim a) * dimval phi (qdim b))) (at_idx (pre ++ [3%nat]) (concat cs) (ip ++ [j]))).
  { intros j Hj. unfold phys. rewrite amap_get. cbn [mag qdim]. unfold aget. cbn [shp dat]. rewrite Sa, dimval_mul. reflexivity. }
  fold cs. cbn zeta. rewrite !P by lia.
  assert (El : forall (q : qty R) c, length c = 3%nat -> (forall i, (i < 3)%nat -> aget (mag q) (ip ++ [i]) = nth_error c i) ->
     forall i, (i < 3)%nat -> el (phys phi q) (ip ++ [i]) = nth i c 0 * dimval phi (qdim q)).
  { intros q c Lc' G i Hi. rewrite el_phys. f_equal. unfold el. rewrite G by auto. rewrite (nth_error_nth' _ 0) by lia. reflexivity. }
  split; [|split].
  - destruct (Gc 0%nat ltac:(lia)) as (ca & cb & L1 & L2 & G1 & G2 & ->).
    rewrite !(El a ca L1 G1), !(El b cb L2 G2) by lia.
    destruct ca as [|a1 [|a2 [|a3 [|? ?]]]]; try discriminate; destruct cb as [|b1 [|b2 [|b3 [|? ?]]]]; try discriminate. cbn. f_equal. ring.
  - destruct (Gc 1%nat ltac:(lia)) as (ca & cb & L1 & L2 & G1 & G2 & ->).
    rewrite !(El a ca L1 G1), !(El b cb L2 G2) by lia.
    destruct ca as [|a1 [|a2 [|a3 [|? ?]]]]; try discriminate; destruct cb as [|b1 [|b2 [|b3 [|? ?]]]]; try discriminate. cbn. f_equal. ring.
  - destruct (Gc 2%nat ltac:(lia)) as (ca & cb & L1 & L2 & G1 & G2 & ->).
    rewrite !(El a ca L1 G1), !(El b cb L2 G2) by lia.
    destruct ca as [|a1 [|a2 [|a3 [|? ?]]]]; try discriminate; destruct cb as [|b1 [|b2 [|b3 [|? ?]]]]; try discriminate. cbn. f_equal. ring.
Qed.
Example C79_example : um_cross (Qty (Arr [3%nat] (qcs [1; 2; 3]%Z)) d_m) (Qty (Arr [3%nat] (qcs [4; 5; 6]%Z)) d_s) =
  Ok (Qty (Arr [3%nat] (qcs [-3; 6; -3]%Z)) [(u_m, PInt 1); (u_s, PInt 1)]).
Proof. vm_compute. reflexivity. Qed.

(** C80 *)
(** [l'] unwraps [l]: the numbers change by multiples of 2*pi; jumps smaller than
    [discont] are kept, larger ones become jumps between -pi and pi. *)
Definition unwraps (discont : R) (l l' : list R) : Prop :=
  length l' = length l /\ hd_error l' = hd_error l /\
  (forall i x, nth_error l i = Some x -> exists k : Z, nth_error l' i = Some (x + 2 * PI * IZR k)) /\
  (forall i x y x' y', nth_error l i = Some x -> nth_error l (S i) = Some y ->
     nth_error l' i = Some x' -> nth_error l' (S i) = Some y' ->
     (Rabs (y - x) < discont -> y' - x' = y - x) /\
     (discont <= Rabs (y - x) -> - PI <= y' - x' <= PI)).
Lemma unwrap_step_spec discont dd : exists k : Z, unwrap_step discont dd = 2 * PI * IZR k /\
  (Rabs dd < discont -> k = 0%Z) /\ (discont <= Rabs dd -> - PI <= dd + unwrap_step discont dd <= PI).
Proof.
  pose proof PI_RGT_0 as PP. unfold unwrap_step. destruct (Rltb (Rabs dd) discont) eqn:L.
  - apply Rltb_true in L. exists 0%Z. split; [ring|]. split; auto. lra.
  - apply Rltb_false in L. cbn zeta.
    set (m := nmod (dd - - PI) (2 * PI) + - PI).
    assert (M : exists k, m - dd = 2 * PI * IZR k /\ - PI <= m < PI).
    { unfold m, nmod. cbn. set (n := Int_part ((dd - - PI) / (2 * PI))).
      destruct (base_Int_part ((dd - - PI) / (2 * PI))) as [B1 B2]. fold n in B1, B2. exists (- n)%Z. rewrite opp_IZR. split; [ring|].
      assert (K : dd - - PI = (dd - - PI) / (2 * PI) * (2 * PI)) by (field; lra).
      assert (IZR n * (2 * PI) <= dd - - PI) by (rewrite K at 1; apply Rmult_le_compat_r; lra).
      assert (dd - - PI < (IZR n + 1) * (2 * PI)) by (rewrite K at 1; apply Rmult_lt_compat_r; lra). lra. }
    destruct M as (k & M1 & M2). destruct (andb (Reqb m (- PI)) (Rltb 0 dd)) eqn:B.
    + apply andb_prop in B. destruct B as [B _]. apply Reqb_true in B. exists (k + 1)%Z. rewrite plus_IZR.
      split; [lra|]. split; [lra|]. lra.
    + exists k. split; auto. split; [lra|]. lra.
Qed.
Lemma unwrap_from_spec discont : forall l prev corr k0, corr = 2 * PI * IZR k0 ->
  length (unwrap_from discont prev corr l) = length l /\
  (forall i x, nth_error l i = Some x -> exists k, nth_error (unwrap_from discont prev corr l) i = Some (x + 2 * PI * IZR k)) /\
  (forall i x y x' y', nth_error (prev :: l) i = Some x -> nth_error (prev :: l) (S i) = Some y ->
     nth_error (prev + corr :: unwrap_from discont prev corr l) i = Some x' ->
     nth_error (prev + corr :: unwrap_from discont prev corr l) (S i) = Some y' ->
     (Rabs (y - x) < discont -> y' - x' = y - x) /\ (discont <= Rabs (y - x) -> - PI <= y' - x' <= PI)).
Proof.
  induction l as [|z l IH]; intros prev corr k0 Hc; cbn [unwrap_from].
  - split; auto. split; [intros [|i] x H; discriminate|]. intros i x y x' y' _ H. destruct i as [|[|i]]; discriminate.
  - destruct (unwrap_step_spec discont (z - prev)) as (k & K1 & K2 & K3).
    set (c := corr + unwrap_step discont (z - prev)) in *.
    assert (Hc' : c = 2 * PI * IZR (k0 + k)) by (unfold c; rewrite Hc, K1, plus_IZR; ring).
    destruct (IH z c (k0 + k)%Z Hc') as (I1 & I2 & I3). split; [cbn; now rewrite I1|]. split.
    + intros [|i] x H; cbn [nth_error] in *.
      * injection H as <-. exists (k0 + k)%Z. now rewrite Hc'.
      * now apply I2.
    + intros [|i] x y x' y' Hx Hy Hx' Hy'; cbn [nth_error] in Hx, Hy, Hx', Hy'.
      * injection Hx as <-. injection Hy as <-. injection Hx' as <-. injection Hy' as <-. unfold c. split; intros H.
        -- rewrite K1, (K2 H). ring.
        -- specialize (K3 H). lra.
      * exact (I3 i x y x' y' Hx Hy Hx' Hy').
Qed.
Lemma lunwrap_spec discont l : unwraps discont l (lunwrap discont l).
Proof.
  destruct l as [|x l]; cbn [lunwrap].
  - split; auto. split; auto. split; [intros [|i] x H; discriminate|intros [|i] x y x' y' H; discriminate].
  - destruct (unwrap_from_spec discont l x 0 0 ltac:(ring)) as (I1 & I2 & I3). rewrite Rplus_0_r in I3.
    split; [cbn; now rewrite I1|]. split; [reflexivity|]. split.
    + intros [|i] z H; cbn [nth_error] in *; [|now apply I2]. injection H as <-. exists 0%Z. f_equal. ring.
    + exact I3.
Qed.
(** What [unwrap] of two quantities does: it unwraps the raw magnitudes with the
    period 2*pi and keeps the units. *)
Theorem C80_unwrap : forall E p d axis r, qty_ok p ->
  um_unwrap E p (OQ d) axis = Ok (OQ r) ->
  qdim r = qdim p /\ shp (mag r) = shp (mag p) /\
  exists ax d' x, axis_means (length (shp (mag p))) axis ax /\ rescale_to E d (qdim p) = Ok d' /\ dat (mag d') = [x] /\
  forall idx, in_range (shp (mag p)) idx -> exists lane lane' i,
    is_lane (mag p) ax (firstn ax idx ++ skipn (S ax) idx) lane /\ unwraps x lane lane' /\
    nth_error idx ax = Some i /\ aget (mag r) idx = nth_error lane' i.
Proof.
  intros E p d axis r Hp H. unfold um_unwrap in H.
  destruct (norm_axis (length (shp (mag p))) (Some axis)) as [ax|] eqn:Ea; cbn [bind] in H; [|discriminate].
  destruct (rescale_to E d (qdim p)) as [d'|] eqn:Ed; cbn [bind] in H; [|discriminate].
  destruct (dat (mag d')) as [|x [|? ?]] eqn:Ex; try discriminate.
  destruct (ascan (lunwrap x) ax (mag p)) as [m|] eqn:Em; cbn [bind] in H; [|discriminate]. injection H as <-. cbn [qdim mag].
  apply norm_axis_spec in Ea. destruct Ea as (i & -> & M).
  assert (LL : forall l, length (lunwrap x l) = length l) by (intros l; apply (proj1 (lunwrap_spec x l))).
  assert (S : shp m = shp (mag p)).
  { cbn in Em. destruct (split_axis (shp (mag p)) i) as [[[pp n] t]|]; [|discriminate]. now injection Em as <-. }
  split; auto. split; auto. exists i, d', x. split; auto. split; auto. split; auto. intros idx HR.
  rewrite <- S in HR. destruct (ascan_get (lunwrap x) i (idx := idx) (proj1 Hp) LL Em HR) as (_ & lane & j & L1 & L2 & L3).
  exists lane, (lunwrap x lane), j. split; auto. split; [apply lunwrap_spec|]. auto.
Qed.
(** With a plain [discont], as in a call without that argument, the units are lost. *)
Theorem C80_default_loses_units : forall E p x axis r,
  um_unwrap E p (OArr (scalar x)) axis = Ok r -> exists m, r = OArr m.
Proof.
  intros E p x axis r H. unfold um_unwrap in H.
  destruct (norm_axis (length (shp (mag p))) (Some axis)) as [ax|]; cbn [bind dat scalar] in H; [|discriminate].
  destruct (ascan (lunwrap x) ax (mag p)) as [m|]; cbn [bind] in H; [|discriminate]. injection H as <-. eauto.
Qed.
Lemma ex_lookup_deg : exists r, ulookup (exE (A := R)) u_deg = Some r /\ ur_def r = Some (DQty (Qc2R (q_of 314159 18000000)) [(u_rad, PInt 1)]).
Proof.
  eexists. split.
  - unfold exE, exE16, exE15, exE14, exE13, exE12, exE11, exE10.
    do 8 apply ulookup_add_old. unfold exE9. apply ulookup_add_new.
    rewrite (proj2 exE8_ok'). apply not_in_keys. reflexivity.
  - reflexivity.
Qed.
Definition d_deg : dims := [(u_deg, PInt 1)].
Definition d_rad : dims := [(u_rad, PInt 1)].
Lemma ex_deg_size phi : consistent exE phi -> dimval phi d_deg = 314159 / 18000000 * dimval phi d_rad.
Proof.
  intros [Hp HC]. destruct ex_lookup_deg as (r & Hr & Hd). specialize (HC u_deg r _ Hr Hd).
  cbn [defval] in HC. rewrite Qc2R_q_of in HC.
  unfold d_deg, d_rad in *. cbn [dimval] in *. rewrite Qc2R_PInt1, !Rpower_1 in * by apply Hp. rewrite HC. ring.
Qed.
(** Not independent of the units of [p]: unwrapping [0, 5] degrees with a discont of
    1 degree changes the second angle, unwrapping the same angles in radians does not. *)
Theorem C80_unwrap_refuted :
  exists E p p' d r r', renv_ok E /\ qty_ok p /\ qty_ok p' /\ qty_ok d /\ equal_in_other_units E p p' /\
    um_unwrap E p (OQ d) 0 = Ok (OQ r) /\ um_unwrap E p' (OQ d) 0 = Ok (OQ r') /\ ~ same_value E r r'.
Proof.
  set (c := 314159 / 18000000). set (p := Qty (Arr [2%nat] [0; 5]) d_deg). set (p' := Qty (Arr [2%nat] [0; 5 * c]) d_rad).
  set (d := Qty (scalar 1) d_deg).
  assert (Op : qty_ok p) by (split; [reflexivity|apply dims_okb_ok; reflexivity]).
  assert (Op' : qty_ok p') by (split; [reflexivity|apply dims_okb_ok; reflexivity]).
  assert (Od : qty_ok d) by (split; [reflexivity|apply dims_okb_ok; reflexivity]).
  assert (Cv : convertible exE d_deg d_rad) by (exists c; intros phi HC; exact (ex_deg_size phi HC)).
  destruct (consistent_exists exE exE_ok) as [phi HC].
  pose proof (ex_deg_size phi HC) as Sz. fold c in Sz. pose proof (dimval_pos phi d_rad) as Pr. pose proof (dimval_pos phi d_deg) as Pd.
  pose proof PI2_3_2 as P3. pose proof PI_4 as P4.
  assert (Hc : 0 < c < 1 / 10) by (unfold c; lra).
  assert (G : forall u, dims_ok u -> convertible exE d_deg u -> exists d' x, rescale_to exE d u = Ok d' /\ dat (mag d') = [x] /\ 1 * dimval phi d_deg = x * dimval phi u).
  { intros u Hu Hcu. destruct (proj2 (rescale_ok_iff exE d u exE_ok (proj2 Od) Hu) Hcu) as [d' Hd'].
    pose proof (rescale_to_shape exE d u d' Hd') as Sh. cbn [mag d shp scalar] in Sh.
    pose proof (rescale_to_qty_ok exE d u d' Od Hu Hd') as Wd. pose proof (rescale_value exE d u d' exE_ok (proj2 Od) Hu Hd' phi HC) as V.
    pose proof (rescale_to_eqb exE d u d' (proj1 (proj2 Od)) (proj1 Hu) Hd') as He.
    destruct Wd as [Wd Wd2]. unfold awf in Wd. rewrite Sh in Wd. cbn in Wd.
    destruct (dat (mag d')) as [|x [|? ?]] eqn:Ex; try discriminate. exists d', x. split; auto. split; auto.
    unfold phys in V. apply (f_equal (@dat R)) in V. cbn [dat amap] in V. rewrite Ex in V. cbn [d mag scalar dat map qdim] in V.
    rewrite (dimval_eqb phi _ _ (proj1 Wd2) (proj1 Hu) He) in V. injection V. auto. }
  destruct (G d_deg (proj2 Od) (convertible_refl _ _)) as (d1 & x1 & R1 & X1 & K1).
  destruct (G d_rad (proj2 Op') Cv) as (d2 & x2 & R2 & X2 & K2).
  apply Rmult_eq_reg_r in K1; [|lra]. rewrite Sz in K2. assert (x2 = c).
  { apply (Rmult_eq_reg_r (dimval phi d_rad)); lra. }
  subst x1 x2.
  assert (W1 : um_unwrap exE p (OQ d) 0 = Ok (OQ (Qty (Arr [2%nat] (lunwrap 1 [0; 5])) d_deg))).
  { unfold um_unwrap. change (qdim p) with d_deg. rewrite R1. cbn [bind]. change (norm_axis (length (shp (mag p))) (Some 0%Z)) with (Ok (Some 0%nat)).
    cbn [bind]. rewrite X1. reflexivity. }
  assert (W2 : um_unwrap exE p' (OQ d) 0 = Ok (OQ (Qty (Arr [2%nat] (lunwrap c [0; 5 * c])) d_rad))).
  { unfold um_unwrap. change (qdim p') with d_rad. rewrite R2. cbn [bind]. change (norm_axis (length (shp (mag p'))) (Some 0%Z)) with (Ok (Some 0%nat)).
    cbn [bind]. rewrite X2. reflexivity. }
  exists exE, p, p', d. eexists. eexists.
  split; [exact exE_ok|]. split; [exact Op|]. split; [exact Op'|]. split; [exact Od|]. split.
  { split; [exact Cv|]. intros psi HP. unfold phys, p, p', amap. cbn [mag qdim shp dat map]. pose proof (ex_deg_size psi HP) as Sp. fold c in Sp.
    rewrite Sp. f_equal. f_equal; [ring|f_equal; ring]. }
  split; [exact W1|]. split; [exact W2|].
  assert (N1 : unwrap_step 1 (5 - 0) = - (2 * PI)).
  { unfold unwrap_step. assert (A : Rabs (5 - 0) = 5) by (rewrite Rabs_right; lra). rewrite A.
    rewrite (proj2 (Rltb_false 5 1)) by lra. cbn zeta.
    assert (M : nmod (5 - 0 - - PI) (2 * PI) = 5 + PI - 2 * PI).
    { unfold nmod. cbn. assert (I1 : Int_part ((5 - 0 - - PI) / (2 * PI)) = 1%Z); [|rewrite I1; ring].
      apply Int_part_eq; split; [apply Rmult_le_reg_r with (2 * PI)|apply Rmult_lt_reg_r with (2 * PI)]; try lra; unfold Rdiv; rewrite Rmult_assoc, Rinv_l by lra; lra. }
    rewrite M. destruct (andb (Reqb (5 + PI - 2 * PI + - PI) (- PI)) (Rltb 0 (5 - 0))) eqn:B.
    - apply andb_prop in B. destruct B as [B _]. apply Reqb_true in B. lra.
    - lra. }
  assert (N2 : unwrap_step c (5 * c - 0) = 0).
  { unfold unwrap_step. assert (A : Rabs (5 * c - 0) = 5 * c) by (rewrite Rabs_right; lra). rewrite A.
    rewrite (proj2 (Rltb_false (5 * c) c)) by lra. cbn zeta.
    assert (M : nmod (5 * c - 0 - - PI) (2 * PI) = 5 * c + PI).
    { unfold nmod. cbn. assert (I1 : Int_part ((5 * c - 0 - - PI) / (2 * PI)) = 0%Z); [|rewrite I1; ring].
      apply Int_part_eq; split; [apply Rmult_le_reg_r with (2 * PI)|apply Rmult_lt_reg_r with (2 * PI)]; try lra; unfold Rdiv; rewrite Rmult_assoc, Rinv_l by lra; lra. }
    rewrite M. destruct (andb (Reqb (5 * c + PI + - PI) (- PI)) (Rltb 0 (5 * c - 0))) eqn:B.
    - apply andb_prop in B. destruct B as [B _]. apply Reqb_true in B. lra.
    - lra. }
  intros S. specialize (S phi HC). unfold phys in S. cbn [lunwrap unwrap_from] in S. rewrite N1, N2 in S.
  apply (f_equal (@dat R)) in S. cbn [amap mag qdim dat map] in S. apply (f_equal (fun l => nth 1 l 0)) in S. cbn [nth] in S. rewrite Sz in S.
  assert (T : (5 - 2 * PI) * c * dimval phi d_rad = 5 * c * dimval phi d_rad) by lra.
  apply Rmult_eq_reg_r in T; [|lra]. apply Rmult_eq_reg_r in T; lra.
Qed.

Print Assumptions C42_defined.
Print Assumptions C42_value.
Print Assumptions C42_unit_independent.
Print Assumptions C43_accepts_iff.
Print Assumptions C43_identical_units.
Print Assumptions C43_refuted.
Print Assumptions C43_hypot.
Print Assumptions C50_trapz_points.
Print Assumptions C50_trapz_spacing.
Print Assumptions C50_trapz_same_shape.
Print Assumptions C76_diff.
Print Assumptions C76_diff_bad_axis.
Print Assumptions C77_ediff1d.
Print Assumptions C77_padding.
Print Assumptions C77_padding_units_ignored.
Print Assumptions C77_padding_refuted.
Print Assumptions C78_gradient_uniform.
Print Assumptions C78_gradient_linear_exact.
Print Assumptions C78_gradient_refuted.
Print Assumptions C79_cross.
Print Assumptions C80_unwrap.
Print Assumptions C80_default_loses_units.
Print Assumptions C80_unwrap_refuted.
