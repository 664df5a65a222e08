(** * Properties C10-C22, C24: conversion, simplification, default units. *)
From Coq Require Import Reals Lra.
From Verif Require Import Py Num Dim DimFacts Arr Units Spec UnitFacts Quant QuantFacts SimpFacts SpecApi ConvFacts
  Defaults DefaultsFacts Dtype Examples.

Open Scope R_scope.

(** C10 *)
Theorem C10_rescale_preserves_value : forall E lookup q units d r,
  renv_ok E -> qty_ok q -> denotes_units lookup units d -> dims_ok d ->
  rescale lookup E q units = Ok r ->
  (forall u, exp_of (qdim r) u = exp_of d u) /\
  qty_ok r /\ shp (mag r) = shp (mag q) /\
  (forall phi, consistent E phi -> phys phi r = phys phi q).
Proof.
  intros E lookup q units d r HE Hq Hd Wd H. rewrite (rescale_denotes _ _ _ _ _ Hd) in H.
  split; [|split; [|split]].
  - exact (rescale_to_dim E q d r (proj1 (proj2 Hq)) (proj1 Wd) H).
  - exact (rescale_to_qty_ok E q d r Hq Wd H).
  - exact (rescale_to_shape E q d r H).
  - exact (rescale_value E q d r HE (proj2 Hq) Wd H).
Qed.
(** When the units are not already the requested ones the result carries exactly the
    requested dimensionality. *)
Theorem C10_rescale_units : forall E lookup q units d r,
  wf_dims (qdim q) -> wf_dims d -> denotes_units (A := R) lookup units d -> rescale lookup E q units = Ok r ->
  qdim r = d \/ (r = q /\ forall u, exp_of (qdim q) u = exp_of d u).
Proof.
  intros E lookup q units d r Wq Wd Hd H. rewrite (rescale_denotes _ _ _ _ _ Hd) in H.
  destruct (rescale_to_cases E q d) as [[He Hr]|[_ [[_ Hr]|[_ Hr]]]]; rewrite Hr in H; try discriminate.
  - right. injection H as <-. split; auto. exact (proj1 (dim_eqb_exp _ _ Wq Wd) He).
  - left. now injection H as <-.
Qed.
Example C10_example :
  let q := Qty (Arr [2%nat] (qcs [36; -18]%Z)) d_kmh in
  qty_ok (Qty (Arr [2%nat] (rs [36; -18]%Z)) d_kmh) /\ renv_ok exE /\ dims_ok d_ms /\
  rescale (fun _ => Err LookupError) exE q (UDim d_ms) = Ok (Qty (Arr [2%nat] (qcs [10; -5]%Z)) d_ms).
Proof.
  cbv zeta. split; [split; [reflexivity|apply dims_okb_ok; reflexivity]|].
  split; [exact exE_ok|]. split; [apply dims_okb_ok; reflexivity|]. vm_compute. reflexivity.
Qed.

(** C11 *)
Theorem C11_rescale_iff_convertible : forall E lookup q units d,
  renv_ok E -> dims_ok (qdim q) -> denotes_units lookup units d -> dims_ok d ->
  ((exists r, rescale lookup E q units = Ok r) <->
   (exists c, forall phi, consistent E phi -> dimval phi (qdim q) = c * dimval phi d)) /\
  (rescale lookup E q units = Err ValueError <->
   ~ exists c, forall phi, consistent E phi -> dimval phi (qdim q) = c * dimval phi d).
Proof.
  intros E lookup q units d HE Hq Hd Wd. rewrite (rescale_denotes _ _ _ _ _ Hd). split.
  - exact (rescale_ok_iff E q d HE Hq Wd).
  - exact (rescale_fail_iff E q d HE Hq Wd).
Qed.
(** Other [units] arguments: anything that is not a string, quantity or
    dimensionality is a TypeError, a quantity that is not a scalar 1 a ValueError,
    an unknown string fails as the registry does. *)
Theorem C11_rescale_bad_units : forall A (N : Num A) E lookup (q : qty A),
  rescale lookup E q UOther = Err TypeError /\
  (forall p, is_unit_quantity p = false -> rescale lookup E q (UQty p) = Err ValueError) /\
  (forall s e, lookup s = Err e -> rescale lookup E q (UStr s) = Err e).
Proof.
  intros A N E lookup q. split; [reflexivity|]. split.
  - intros p Hp. unfold rescale. cbn. now rewrite Hp.
  - intros s e He. unfold rescale. cbn. rewrite He. destruct e; reflexivity.
Qed.
Example C11_example :
  convertible exE d_kmh d_ms /\ ~ convertible exE d_m d_s /\
  rescale (fun _ => Err LookupError) exE (Qty (scalar (1%Qc)) d_m) (UDim d_s) = Err ValueError.
Proof.
  split; [|split].
  - apply convertible_iff; [exact exE_ok|apply dims_okb_ok; reflexivity|apply dims_okb_ok; reflexivity|].
    reflexivity.
  - rewrite convertible_iff; [|exact exE_ok|apply dims_okb_ok; reflexivity|apply dims_okb_ok; reflexivity].
    cbn. discriminate.
  - reflexivity.
Qed.

(** C12 *)
Theorem C12_path_independent : forall E q a b r s,
  renv_ok E -> qty_ok q -> dims_ok a -> dims_ok b ->
  rescale_to E q a = Ok r -> rescale_to E r b = Ok s ->
  exists s', rescale_to E q b = Ok s' /\ qsame s s'.
Proof. exact rescale_path. Qed.
Theorem C12_path_same_outcome : forall E q a b r,
  renv_ok E -> qty_ok q -> dims_ok a -> dims_ok b ->
  rescale_to E q a = Ok r ->
  is_ok (rescale_to E r b) = is_ok (rescale_to E q b).
Proof.
  intros E q a b r HE Hq Ha Hb Hr.
  assert (Hro : qty_ok r) by exact (rescale_to_qty_ok E q a r Hq Ha Hr).
  assert (C1 : convertible E (qdim q) a) by (apply rescale_ok_iff; eauto; apply Hq).
  assert (C3 : convertible E a (qdim r)).
  { apply convertible_exp; auto; [apply Hro|]. intros u. symmetry.
    exact (rescale_to_dim E q a r (proj1 (proj2 Hq)) (proj1 Ha) Hr u). }
  pose proof (rescale_ok_iff E r b HE (proj2 Hro) Hb) as I1.
  pose proof (rescale_ok_iff E q b HE (proj2 Hq) Hb) as I2.
  assert (X : convertible E (qdim r) b <-> convertible E (qdim q) b).
  { split; intros C.
    - eauto using convertible_trans.
    - apply convertible_trans with (qdim q); auto. apply convertible_sym; auto; [apply Hq|apply Hro|].
      eauto using convertible_trans. }
  rewrite <- I1, <- I2 in X.
  destruct (rescale_to E r b) as [x|], (rescale_to E q b) as [y|]; auto; exfalso.
  - destruct (proj1 X) as [z Hz]; [eauto|discriminate].
  - destruct (proj2 X) as [z Hz]; [eauto|discriminate].
Qed.
Theorem C12_roundtrip : forall E q a r,
  renv_ok E -> qty_ok q -> dims_ok a ->
  rescale_to E q a = Ok r ->
  exists s, rescale_to E r (qdim q) = Ok s /\ qsame s q.
Proof. exact rescale_roundtrip. Qed.
Example C12_example :
  rescale_to exE (Qty (scalar (zq 36)) d_kmh) d_ms = Ok (Qty (scalar (zq 10)) d_ms) /\
  rescale_to exE (Qty (scalar (zq 10)) d_ms) d_kmh = Ok (Qty (scalar (zq 36)) d_kmh).
Proof. split; vm_compute; reflexivity. Qed.

(** C13: the factor returned by [get_conversion_factor] is the unique ratio of
    sizes, and it composes. *)
Theorem C13_factor_unique : forall E d1 d2 c,
  renv_ok E -> dims_ok d1 -> dims_ok d2 ->
  (conv_factor E d1 d2 = Ok c <->
   forall phi, consistent E phi -> dimval phi d1 = c * dimval phi d2).
Proof. intros E d1 d2 c HE H1 H2. exact (proj1 (conv_factor_spec E d1 d2 HE H1 H2) c). Qed.
Theorem C13_factor_group : forall E d1 d2 d3 a b,
  renv_ok E -> dims_ok d1 -> dims_ok d2 -> dims_ok d3 ->
  conv_factor E d1 d2 = Ok a -> conv_factor E d2 d3 = Ok b ->
  conv_factor E d1 d1 = Ok 1 /\ conv_factor E d1 d3 = Ok (a * b) /\
  conv_factor E d2 d1 = Ok (/ a) /\ 0 < a.
Proof.
  intros E d1 d2 d3 a b HE H1 H2 H3 Ha Hb.
  apply conv_factor_spec in Ha; auto. apply conv_factor_spec in Hb; auto.
  split; [|split; [|split]].
  - apply conv_factor_spec; auto. apply converts_refl.
  - apply conv_factor_spec; auto. eapply converts_trans; eauto.
  - apply conv_factor_spec; auto. now apply converts_inv.
  - eapply converts_pos; eauto.
Qed.
Theorem C13_factor_products : forall E d1 d2 d3 d4 a b p,
  renv_ok E -> dims_ok d1 -> dims_ok d2 -> dims_ok d3 -> dims_ok d4 ->
  conv_factor E d1 d2 = Ok a -> conv_factor E d3 d4 = Ok b ->
  conv_factor E (dim_mul d1 d3) (dim_mul d2 d4) = Ok (a * b) /\
  conv_factor E (dim_div d1 d3) (dim_div d2 d4) = Ok (a / b) /\
  conv_factor E (dim_pow d1 p) (dim_pow d2 p) = Ok (Rpower a (Qc2R (pval p))).
Proof.
  intros E d1 d2 d3 d4 a b p HE H1 H2 H3 H4 Ha Hb.
  apply conv_factor_spec in Ha; auto. apply conv_factor_spec in Hb; auto.
  split; [|split].
  - apply conv_factor_spec; auto using dims_ok_mul. now apply converts_mul.
  - apply conv_factor_spec; auto using dims_ok_div. now apply converts_div.
  - apply conv_factor_spec; auto using dims_ok_pow.
    rewrite <- rpow_Rpower by (eapply converts_pos; eauto). now apply converts_pow.
Qed.
Example C13_example : conv_factor exE d_kmh d_ms = Ok (q_of 5 18) /\ conv_factor exE d_cm d_m = Ok (q_of 1 100).
Proof. split; vm_compute; reflexivity. Qed.

(** C14: for every number type. *)
Theorem C14_same_units_exact : forall A (N : Num A) E lookup (q : qty A) units d,
  wf_dims (qdim q) -> wf_dims d -> denotes_units lookup units d ->
  (forall u, exp_of (qdim q) u = exp_of d u) ->
  rescale lookup E q units = Ok q.
Proof.
  intros A N E lookup q units d Wq Wd Hd H. rewrite (rescale_denotes _ _ _ _ _ Hd).
  apply rescale_to_same. apply dim_eqb_exp; auto.
Qed.
Example C14_example : rescale (fun _ => Err LookupError) exE (Qty (scalar (zq 7)) d_ms) (UDim d_sm) = Ok (Qty (scalar (zq 7)) d_ms).
Proof. reflexivity. Qed.

(** C15: for every number type, references consist of undefined units; over the
    reals they equal the unit in every consistent system of sizes. *)
Theorem C15_references_reduced : forall A (N : Num A) pos (E : uenv A) u,
  env_ok pos E -> wf_dims (snd (unit_ref E u)) /\
  forall w, In w (dkeys (snd (unit_ref E u))) -> undefined_unit E w.
Proof.
  intros A N pos E u HE. destruct (unit_ref_roots pos E u HE) as [W R]. split; [apply W|].
  intros w Hw r Hr. specialize (R w Hw). unfold is_root in R. now rewrite Hr in R.
Qed.
Theorem C15_references_correct : forall E u,
  renv_ok E -> u_cls u <> CDimless ->
  0 < fst (unit_ref E u) /\
  forall phi, consistent E phi -> phi u = fst (unit_ref E u) * dimval phi (snd (unit_ref E u)).
Proof.
  intros E u HE Hu. split; [now apply ref_pos_all|]. intros phi HC. now apply consistent_ref.
Qed.
(** The sizes of the undefined units can be chosen freely, and determine all others. *)
Theorem C15_consistent_exists_unique : forall E rho,
  renv_ok E -> (forall u, 0 < rho u) ->
  exists phi, consistent E phi /\ (forall u, undefined_unit E u -> phi u = rho u) /\
    forall psi, consistent E psi -> (forall u, undefined_unit E u -> psi u = rho u) ->
    forall u, u_cls u <> CDimless -> psi u = phi u.
Proof.
  intros E rho HE Hr. exists (ext_interp E rho). split; [now apply ext_interp_consistent|].
  assert (Root : forall u, undefined_unit E u -> ext_interp E rho u = rho u).
  { intros u Hu. unfold ext_interp. destruct (ulookup E u) as [r|] eqn:El; auto.
    destruct (ur_ref r) as [x|] eqn:Ef; auto.
    pose proof (proj2 (env_ok_def_ref _ E HE u r El) (Hu r El)). congruence. }
  split; [exact Root|].
  intros psi HC Hpsi u Hu.
  rewrite (consistent_ref E psi HE HC u Hu).
  rewrite (consistent_ref E _ HE (ext_interp_consistent E rho HE Hr) u Hu). f_equal.
  apply dimval_ext. intros w Hw. destruct (unit_ref_roots _ E u HE) as [W Rt]. specialize (Rt w Hw).
  assert (undefined_unit E w) by (intros r Er; unfold is_root in Rt; now rewrite Er in Rt).
  rewrite Hpsi, Root by auto. reflexivity.
Qed.
(** [q._reference]: the same value, in undefined units. *)
Theorem C15_reference_of_quantity : forall E q,
  renv_ok E -> qty_ok q -> same_value E (q_reference E q) q /\
  forall w, In w (dkeys (qdim (q_reference E q))) -> undefined_unit E w.
Proof.
  intros E q HE [_ Hd]. split.
  - intros phi HC. unfold phys, q_reference. cbn [mag qdim]. rewrite amap_amap. apply amap_ext. intros x.
    intros _. rewrite (consistent_ref_pair E phi (qdim q) HE HC Hd). cbn [nmul NumR]. ring.
  - intros w Hw r Hr. destruct (ref_pair_roots _ E (qdim q) HE) as [_ R]. specialize (R w Hw).
    unfold is_root in R. now rewrite Hr in R.
Qed.
Example C15_example : unit_ref exE u_N = (zq 1, [(u_kg, PInt 1); (u_m, PInt 1); (u_s, PInt (-2))]) /\
  unit_ref exE u_deg = (q_of 314159 18000000, []).
Proof. split; vm_compute; reflexivity. Qed.

(** C16 *)
Theorem C16_new_units_harmless : forall A (N : Num A) E E' q d,
  extends E E' -> known E (qdim q) -> known E d ->
  rescale_to E' q d = rescale_to E q d.
Proof. intros A N E E' q d. apply rescale_to_extend. Qed.
Theorem C16_new_units_harmless_simplified : forall A (N : Num A) pos E E' D fuel q,
  env_ok pos E -> extends E E' -> (forall c dd, D c = Some dd -> known E dd) -> known E (qdim q) ->
  simplified fuel E' D q = simplified fuel E D q.
Proof. intros A N pos E E' D fuel q. apply simplified_extend. Qed.
Example C16_example : extends (exE (A:=Qc)) (add_unit exE u_km (Some (DUnit u_foo)) None) /\ known (exE (A:=Qc)) d_kmh.
Proof.
  split; [eexists; reflexivity|]. intros u Hu. cbn in Hu. destruct Hu as [<-|[<-|[]]]; vm_compute; auto 10.
Qed.

(** C17 *)
Theorem C17_simplified_preserves_value : forall E D fuel q r,
  renv_ok E -> (forall c dd, D c = Some dd -> dims_ok dd) -> qty_ok q ->
  simplified fuel E D q = Ok r ->
  (forall phi, consistent E phi -> phys phi r = phys phi q) /\
  (forall w, In w (dkeys (qdim r)) -> exists c dd, D c = Some dd /\ In w (dkeys dd)) /\
  shp (mag r) = shp (mag q) /\ dims_ok (qdim r).
Proof.
  intros E D fuel q r HE HD Hq H.
  destruct (simplified_good E D HE HD fuel q r (proj2 Hq) H) as (H1 & H2 & H3).
  split; [exact H2|]. split; [apply H1|]. split; [exact H3|apply H1].
Qed.
Example C17_example :
  (forall c dd, exD c = Some dd -> dims_ok dd) /\
  simplified 2 exE exD (Qty (Arr [2%nat] (qcs [72; 18]%Z)) (dim_mul d_kmh d_N))
  = Ok (Qty (Arr [2%nat] (qcs [20; 5]%Z)) [(u_m, PInt 2); (u_s, PInt (-3)); (u_kg, PInt 1)]).
Proof.
  split; [exact exD_ok|vm_compute; reflexivity].
Qed.

(** C18 *)
Theorem C18_simplified_canonical : forall E D root f1 f2 q1 q2 r1 r2,
  renv_ok E -> std_defaults E D root -> (forall c dd, D c = Some dd -> dims_ok dd) ->
  qty_ok q1 -> qty_ok q2 ->
  convertible E (qdim q1) (qdim q2) -> same_value E q1 q2 ->
  simplified f1 E D q1 = Ok r1 -> simplified f2 E D q2 = Ok r2 ->
  mag r1 = mag r2 /\ forall u, exp_of (qdim r1) u = exp_of (qdim r2) u.
Proof.
  intros E D root f1 f2 q1 q2 r1 r2 HE HS HD. exact (simplified_canonical E D root HE HS f1 f2 q1 q2 r1 r2 HD).
Qed.
Theorem C18_simplified_idempotent : forall E D root fuel q r,
  renv_ok E -> std_defaults E D root -> (forall c dd, D c = Some dd -> dims_ok dd) ->
  (forall c dd u, D c = Some dd -> In u (dkeys dd) -> simplifiable E D root u) ->
  qty_ok q -> simplified fuel E D q = Ok r ->
  forall fuel2, exists r', simplified (S (S fuel2)) E D r = Ok r' /\ mag r' = mag r /\
    forall u, exp_of (qdim r') u = exp_of (qdim r) u.
Proof.
  intros E D root fuel q r HE HS HD Hsd Hq H fuel2.
  destruct (simplified_good E D HE HD fuel q r (proj2 Hq) H) as (H1 & H2 & H3).
  assert (Hr : qty_ok r).
  { split; [|apply H1]. unfold simplified in H. destruct (simp_dims fuel E D (qdim q)); cbn [bind] in H; [|discriminate].
    injection H as <-. cbn [mag]. apply awf_amap. apply Hq. }
  destruct (simplified_fuel E D root HE HS fuel2 r (proj2 Hr)) as [r' Hr'].
  { intros u Hu. destruct (proj2 H1 u Hu) as (c & dd & Hc & Hd). eapply Hsd; eauto. }
  exists r'. split; [exact Hr'|].
  apply (simplified_canonical E D root HE HS (S (S fuel2)) fuel r q r' r HD Hr Hq); auto.
  destruct (simplified_good E D HE HD _ r r' (proj2 Hr) Hr') as (H1' & H2' & H3').
  unfold simplified in H. destruct (simp_dims fuel E D (qdim q)) as [rq|] eqn:Es; cbn [bind] in H; [|discriminate].
  injection H as <-. cbn [qdim].
  destruct (simp_dims_good E D HE HD fuel (qdim q) rq (proj2 Hq) Es) as (P & B & V).
  apply convertible_sym; auto; [apply Hq|apply B|]. exists (fst rq). exact V.
Qed.

Example C18_example :
  std_defaults exE exD ex_root /\
  (forall c dd u, exD c = Some dd -> In u (dkeys dd) -> simplifiable exE exD ex_root u) /\
  simplified 2 exE exD (Qty (scalar (zq 36)) d_kmh) = Ok (Qty (scalar (zq 10)) d_ms) /\
  simplified 2 exE exD (Qty (scalar (zq 10)) d_ms) = Ok (Qty (scalar (zq 10)) d_ms).
Proof.
  split; [exact exD_std|]. split; [|split; vm_compute; reflexivity].
  intros c dd u Hc Hu. unfold exD in Hc. destruct (is_irreducible c) eqn:Ei; [|discriminate].
  injection Hc as <-. destruct Hu as [<-|[]].
  apply (simplifiable_root exE exD ex_root exD_std c Ei). unfold exD. rewrite Ei. discriminate.
Qed.

(** C19: [simplified] succeeds exactly on quantities all of whose units can be
    expressed by base units, and two levels of recursion are then enough. *)
Theorem C19_simplified_terminates_iff : forall E D root q,
  renv_ok E -> std_defaults E D root -> dims_ok (qdim q) ->
  ((exists fuel r, simplified fuel E D q = Ok r) <->
   (forall u, In u (dkeys (qdim q)) -> simplifiable E D root u)) /\
  ((forall u, In u (dkeys (qdim q)) -> simplifiable E D root u) ->
   forall fuel, exists r, simplified (S (S fuel)) E D q = Ok r).
Proof.
  intros E D root q HE HS Hq. split.
  - exact (simplified_ok_iff E D root HE HS q Hq).
  - intros H fuel. exact (simplified_fuel E D root HE HS fuel q Hq H).
Qed.
(** ... but a unit without definition that is not a base unit makes it recurse for
    ever, whatever the recursion limit. *)
Theorem C19_simplified_terminates_refuted : forall A (N : Num A) pos (E : uenv A) D u p x,
  env_ok pos E -> undefined_unit E u -> is_irreducible (u_cls u) = false ->
  forall fuel, simplified fuel E D (Qty (scalar x) [(u, p)]) = Err RecursionError.
Proof.
  intros A N pos E D u p x HE Hu Hi fuel. unfold simplified, simp_dims. cbn [qdim fold_left bind fst].
  now rewrite (simp_unit_diverges pos E D u fuel HE Hu Hi).
Qed.
(** Which exception: the first unit that cannot be simplified decides.  A base-class unit
    that cannot be converted to the base unit of its class: ValueError; one whose class has
    no default unit: the bare Exception of get_default_unit; any other unit without
    definition: RecursionError.  No other exception is possible. *)
Theorem C19_which_exception : forall E D root q before u p after fuel,
  renv_ok E -> std_defaults E D root -> dims_ok (qdim q) ->
  qdim q = before ++ (u, p) :: after -> (forall w, In w (dkeys before) -> simplifiable E D root w) ->
  let out := simplified (S (S fuel)) E D q in
  (is_irreducible (u_cls u) = true -> D (u_cls u) <> None ->
     ~ convertible E (unit_dims u) [(root (u_cls u), PInt 1)] -> out = Err ValueError) /\
  (is_irreducible (u_cls u) = true -> D (u_cls u) = None -> out = Err PlainException) /\
  (is_irreducible (u_cls u) = false -> undefined_unit E u -> out = Err RecursionError) /\
  (forall e, out = Err e -> In e [ValueError; PlainException; RecursionError]).
Proof.
  intros E D root q before u p after fuel HE HS Hq Eq Hb out.
  assert (First : forall e, simp_unit (S (S fuel)) E D u = Err e -> out = Err e).
  { intros e He. subst out. unfold simplified, simp_dims. rewrite Eq in *. rewrite fold_left_app. cbn [fold_left].
    destruct (simp_fold_ok (simp_unit (S (S fuel)) E D) before (n1, [])) as [rq Hrq].
    - intros w Hw. apply (simp_unit_total E D root HE HS fuel w); [|now apply Hb]. apply Hq. unfold dkeys in *. rewrite map_app. apply in_or_app. now left.
    - match goal with |- context [fold_left ?g before ?x] => assert (HX : fold_left g before x = Ok rq) by exact Hrq; rewrite HX end.
      cbn [bind fst snd]. rewrite He. cbn [bind].
      match goal with |- context [fold_left ?g after ?x] => assert (HY : fold_left g after x = Err e) by exact (fold_err_any (simp_unit (S (S fuel)) E D) after e); rewrite HY end.
      reflexivity. }
  split; [|split; [|split]].
  - intros Hi Hd Hn. apply First. cbn [simp_unit]. rewrite Hi. destruct (D (u_cls u)) as [dd|] eqn:Ed; [|congruence].
    destruct (std_dd E D root HS (u_cls u) dd Hi Ed) as (Wdd & Cdd).
    assert (N : ~ convertible E (unit_dims u) dd).
    { intros X. apply Hn. eapply convertible_trans; [exact X|exact Cdd]. }
    destruct (dim_eqb (unit_dims u) dd) eqn:Eb.
    + exfalso. apply N. apply convertible_exp; [exact (dims_ok_unit u)|exact Wdd|]. apply (proj1 (dim_eqb_exp _ _ (proj1 (dims_ok_unit u)) (proj1 Wdd))). exact Eb.
    + rewrite (proj2 (proj2 (conv_factor_spec E (unit_dims u) dd HE (dims_ok_unit u) Wdd)) N). reflexivity.
  - intros Hi Hd. apply First. cbn [simp_unit]. now rewrite Hi, Hd.
  - intros Hi Hu. apply First. exact (simp_unit_diverges _ E D u _ HE Hu Hi).
  - assert (U : forall n w e, simp_unit n E D w = Err e -> In e [ValueError; PlainException; RecursionError]).
    { clear. assert (Fd : forall (f : uid -> res (R * dims)) (d : dims) a e,
        (forall w e, f w = Err e -> In e [ValueError; PlainException; RecursionError]) ->
        fold_left (fun acc kv => rq <- acc ;; x <- f (fst kv) ;; Ok (sc_mul_pow rq x (snd kv))) d (Ok a) = Err e ->
        In e [ValueError; PlainException; RecursionError]).
      { intros f d. induction d as [|[w x] d IH]; intros a e Hf; cbn [fold_left]; [discriminate|]. cbn [bind fst snd].
        destruct (f w) as [y|e0] eqn:Ey; cbn [bind]; [now apply IH|]. rewrite fold_err_any. intros X.
        assert (e = e0) as -> by congruence. now apply (Hf w). }
      induction n as [|n IH]; intros w e; cbn [simp_unit].
      - intros [= <-]. cbn. auto.
      - destruct (is_irreducible (u_cls w)).
        + destruct (D (u_cls w)); [|intros [= <-]; cbn; auto]. destruct (dim_eqb _ _); [discriminate|].
          destruct (conv_factor _ _ _) as [cf|e0] eqn:Ec; [discriminate|]. apply conv_factor_err in Ec. subst e0. intros [= <-]. cbn. auto.
        + destruct (ulookup E w) as [r|]; [|apply IH]. destruct (ur_ref r) as [[a d]|]; [|apply IH].
          intros X. match type of X with bind ?Y _ = _ => destruct Y as [y|e0] eqn:Ef end; cbn [bind] in X; [discriminate|].
          assert (e = e0) as -> by congruence. exact (Fd (simp_unit n E D) d _ _ IH Ef). }
    intros e. subst out. unfold simplified, simp_dims.
    assert (Fd : forall (d : dims) a e,
        fold_left (fun acc kv => rq <- acc ;; x <- simp_unit (S (S fuel)) E D (fst kv) ;; Ok (sc_mul_pow rq x (snd kv))) d (Ok a) = Err e ->
        In e [ValueError; PlainException; RecursionError]).
    { clear - U. intros d. induction d as [|[w x] d IH]; intros a e; cbn [fold_left]; [discriminate|]. cbn [bind fst snd].
      destruct (simp_unit _ E D w) as [y|e0] eqn:Ey; cbn [bind]; [now apply IH|]. rewrite fold_err_any. intros X.
      assert (e = e0) as -> by congruence. exact (U _ _ _ Ey). }
    match goal with |- bind ?Y _ = _ -> _ => destruct Y as [y|e0] eqn:Ef end; cbn [bind]; [discriminate|]. intros X.
    assert (e = e0) as -> by congruence. exact (Fd _ _ _ Ef).
Qed.
Example C19_example_foo : undefined_unit (exE (A:=R)) u_foo /\ forall fuel, simplified fuel (exE (A:=R)) exD (Qty (scalar 1) [(u_foo, PInt 1)]) = Err RecursionError.
Proof.
  assert (U : undefined_unit (exE (A:=R)) u_foo) by (intros r Hr; cbn in Hr; injection Hr as <-; reflexivity).
  split; [exact U|].
  intros fuel. apply (C19_simplified_terminates_refuted R NumR (fun a => 0 < a)); auto. exact exE_ok.
Qed.
(** The built-in statampere (a current defined by kg, m and s) raises ValueError. *)
Example C19_example_statampere : simplified 5 exE exD (Qty (scalar 1%Qc) [(u_statA, PInt 1)]) = Err ValueError.
Proof. vm_compute. reflexivity. Qed.

(** C20 *)
Theorem C20_defaults_convertible : forall E D F c dd,
  reach E D F -> D c = Some dd ->
  exists f, F c = Some f /\ u_cls f = c /\ dims_ok dd /\ convertible E dd (unit_dims f).
Proof.
  intros E D F c dd H Hc. destruct (reach_inv _ _ _ H) as [I _].
  destruct (I c dd Hc) as (_ & f & F1 & F2 & _ & F4 & _ & F6). exists f. auto.
Qed.
Theorem C20_simplified_after_changes : forall E D F fuel q r,
  reach E D F -> qty_ok q -> simplified fuel E D q = Ok r ->
  forall phi, consistent E phi -> phys phi r = phys phi q.
Proof.
  intros E D F fuel q r H Hq Hr.
  exact (proj1 (C17_simplified_preserves_value E D fuel q r (reach_env _ _ _ H) (reach_defaults_wf _ _ _ H) Hq Hr)).
Qed.
Theorem C20_set_default_atomic : forall A (N : Num A) lookup E D c a D' e,
  set_default_unit lookup E D c a = (D', Err e) -> D' = D.
Proof.
  intros A N lookup E D c a D' e. destruct a as [|s|q|]; cbn; try congruence.
  - destruct (lookup s) as [q|x]; [|congruence]. unfold set_default_q. destruct (D c); [|congruence].
    destruct (is_unit_quantity q); [|congruence]. destruct (conv_factor E d (qdim q)) as [|x]; [congruence|].
    destruct x; congruence.
  - unfold set_default_q. destruct (D c); [|congruence].
    destruct (is_unit_quantity q); [|congruence]. destruct (conv_factor E d (qdim q)) as [|x]; [congruence|].
    destruct x; congruence.
Qed.
Theorem C20_set_default_others_unchanged : forall A (N : Num A) lookup E D c a c',
  c' <> c -> fst (set_default_unit lookup E D c a) c' = D c'.
Proof.
  intros A N lookup E D c a c' Hc.
  assert (Q : forall q, fst (set_default_q E D c q) c' = D c').
  { intros q. unfold set_default_q. destruct (D c); auto. destruct (is_unit_quantity q); auto.
    destruct (conv_factor E d (qdim q)) as [|x]; cbn; [now apply set_cls_other|destruct x; auto]. }
  destruct a as [|s|q|]; cbn [set_default_unit]; auto. destruct (lookup s); auto.
Qed.
(** A call succeeds exactly for unit quantities convertible to the current default. *)
Theorem C20_set_default_iff : forall lookup (E : uenv R) D c q dd,
  renv_ok E -> D c = Some dd -> dims_ok dd -> dims_ok (qdim q) ->
  (snd (set_default_unit lookup E D c (SQty q)) = Ok tt <-> is_unit_quantity q = true /\ convertible E dd (qdim q)).
Proof.
  intros lookup E D c q dd HE Hc Wd Wq. cbn [set_default_unit]. unfold set_default_q. rewrite Hc.
  destruct (is_unit_quantity q); [|split; [discriminate|intros [X _]; discriminate]].
  destruct (conv_factor_spec E dd (qdim q) HE Wd Wq) as [S1 S2].
  destruct (conv_factor E dd (qdim q)) as [cf|e] eqn:Ec.
  - split; auto. intros _. split; auto. exists cf. now apply S1.
  - pose proof (conv_factor_err E dd (qdim q) e Ec) as ->. split; [discriminate|]. intros [_ X].
    exfalso. now apply (proj1 S2 eq_refl).
Qed.
Theorem C20_set_default_units_reach : forall E D F lookup sys a1 a2 a3 a4 a5 a6 a7 a8 a9,
  reach E D F -> (forall s q, lookup s = Ok q -> dims_ok (qdim q) /\ known E (qdim q)) ->
  (forall q, In (SQty q) [a1; a2; a3; a4; a5; a6; a7; a8; a9] -> dims_ok (qdim q) /\ known E (qdim q)) ->
  reach E (fst (set_default_units lookup E D sys a1 a2 a3 a4 a5 a6 a7 a8 a9)) F.
Proof.
  intros E D F lookup sys a1 a2 a3 a4 a5 a6 a7 a8 a9 H Hl Hq.
  unfold set_default_units. destruct sys; auto; apply set_defaults_reach; auto;
    intros c q Hin; apply (Hq q); apply in_app_or in Hin; destruct Hin as [Hin|Hin]; cbn in Hin |- *;
    repeat (destruct Hin as [Hin|Hin]; [try discriminate Hin; injection Hin as _ ->; auto 12|]); destruct Hin.
Qed.
(** What a successful call sets: the argument given for a class, else the unit the
    system prescribes (cgs prescribes no current), else nothing. *)
Definition system_unit (s : usystem) (c : ucls) : option string :=
  match s, c with
  | SysSI, CLength => Some "m" | SysSI, CMass => Some "kg" | SysSI, CCurrent => Some "A"
  | SysCGS, CLength => Some "cm" | SysCGS, CMass => Some "g"
  | (SysSI | SysCGS), CTime => Some "s" | (SysSI | SysCGS), CTemperature => Some "degK"
  | (SysSI | SysCGS), CSubstance => Some "mol" | (SysSI | SysCGS), CLumInt => Some "cd"
  | _, _ => None
  end%string.
Definition is_set {A} (lookup : string -> res (qty A)) (D' : defaults) (c : ucls) (a : sarg A) (before : Prop) : Prop :=
  match a with
  | SQty q => D' c = Some (qdim q)
  | SStr s => exists q, lookup s = Ok q /\ D' c = Some (qdim q)
  | SOther => False
  | SNone => before
  end.
Section Final.
  Context {A : Type} {N : Num A}.
  Variable lookup : string -> res (qty A).
  Fixpoint fin (c : ucls) (l : list (ucls * sarg A)) (cur r : option dims) : Prop :=
    match l with
    | [] => r = cur
    | (c', a) :: l' =>
        match a with
        | SNone => fin c l' cur r
        | SStr s => exists q, lookup s = Ok q /\ fin c l' (if ucls_eqb c' c then Some (qdim q) else cur) r
        | SQty q => fin c l' (if ucls_eqb c' c then Some (qdim q) else cur) r
        | SOther => False
        end
    end.
  Lemma set_defaults_fin E c : forall l D D', set_defaults lookup E D l = (D', Ok tt) -> fin c l (D c) (D' c).
  Proof.
    assert (Q : forall D c' (q : qty A) D1 r, set_default_q E D c' q = (D1, Ok r) -> D1 c = if ucls_eqb c' c then Some (qdim q) else D c).
    { intros D c' q D1 r. unfold set_default_q. destruct (D c') as [dd|]; [|discriminate].
      destruct (is_unit_quantity q); [|discriminate]. destruct (conv_factor E dd (qdim q)) as [|[]]; try discriminate.
      intros H. assert (D1 = set_cls D c' (qdim q)) as -> by congruence. reflexivity. }
    induction l as [|[c' a] l IH]; intros D D' H; cbn [set_defaults] in H.
    - cbn. congruence.
    - destruct (set_default_unit lookup E D c' a) as [D1 [x|e]] eqn:E1; [|discriminate].
      apply IH in H. cbn [fin]. destruct a as [|s|q|]; cbn [set_default_unit] in E1.
      + assert (D1 = D) as -> by congruence. exact H.
      + destruct (lookup s) as [q|] eqn:El; [|discriminate]. exists q. split; auto. apply Q in E1. now rewrite <- E1.
      + apply Q in E1. now rewrite <- E1.
      + discriminate.
  Qed.
End Final.
Theorem C20_what_is_set : forall A (N : Num A) lookup (E : uenv A) D sys (arg : ucls -> sarg A) D',
  set_default_units lookup E D sys (arg CCurrency) (arg CCurrent) (arg CInformation) (arg CLength)
    (arg CLumInt) (arg CMass) (arg CSubstance) (arg CTemperature) (arg CTime) = (D', Ok tt) ->
  forall c, In c [CCurrency; CCurrent; CInformation; CLength; CLumInt; CMass; CSubstance; CTemperature; CTime] ->
  is_set lookup D' c (arg c)
    (is_set lookup D' c (match system_unit sys c with Some s => SStr s | None => SNone end) (D' c = D c)).
Proof.
  intros A N lookup E D sys arg D' H c Hc. unfold set_default_units in H.
  assert (F : fin lookup c (system_calls sys ++
             [(CCurrency, arg CCurrency); (CCurrent, arg CCurrent); (CInformation, arg CInformation);
              (CLength, arg CLength); (CLumInt, arg CLumInt); (CMass, arg CMass); (CSubstance, arg CSubstance);
              (CTemperature, arg CTemperature); (CTime, arg CTime)]) (D c) (D' c)).
  { destruct sys; try discriminate; exact (set_defaults_fin lookup E c _ _ _ H). }
  assert (S9 : forall cur, fin lookup c [(CCurrency, arg CCurrency); (CCurrent, arg CCurrent); (CInformation, arg CInformation);
              (CLength, arg CLength); (CLumInt, arg CLumInt); (CMass, arg CMass); (CSubstance, arg CSubstance);
              (CTemperature, arg CTemperature); (CTime, arg CTime)] cur (D' c) ->
              is_set lookup D' c (arg c) (D' c = cur)).
  { clear - Hc. assert (G : forall l cur, NoDup (map fst l) -> (forall c' a, In (c', a) l -> a = arg c') -> 
      fin lookup c l cur (D' c) ->
      (In c (map fst l) -> is_set lookup D' c (arg c) (D' c = cur)) /\ (~ In c (map fst l) -> D' c = cur)).
    { induction l as [|[c' a] l IH]; intros cur ND HA HF; cbn [fin map fst In] in *; [tauto|].
      inversion ND as [|? ? Hn ND']; subst.
      assert (a = arg c') as -> by auto.
      assert (HA' : forall c' a, In (c', a) l -> a = arg c') by auto.
      destruct (ucls_eqb c' c) eqn:Ec.
      - assert (c' = c) as -> by (destruct c', c; (discriminate || reflexivity)).
        split; [intros _|intros X; exfalso; tauto].
        destruct (arg c) as [|s|q|]; cbn [is_set]; auto.
        + exact (proj2 (IH _ ND' HA' HF) Hn).
        + destruct HF as (q & H1 & H2). exists q. split; auto. exact (proj2 (IH _ ND' HA' H2) Hn).
        + exact (proj2 (IH _ ND' HA' HF) Hn).
      - assert (Hne : c' <> c) by (intros ->; destruct c; discriminate).
        assert (HF' : fin lookup c l cur (D' c)).
        { destruct (arg c') as [|s|q|]; auto; [destruct HF as (q & _ & H2); exact H2|destruct HF]. }
        destruct (IH _ ND' HA' HF') as [I1 I2]. split; [intros [X|X]; [contradiction|auto]|intros X; apply I2; tauto]. }
    intros cur HF. apply G in HF.
    - apply HF. exact Hc.
    - repeat constructor; cbn; intuition discriminate.
    - clear. cbn. intros c' a X. repeat (destruct X as [X|X]; [injection X as <- <-; reflexivity|]). destruct X. }
  set (L9 := [(CCurrency, arg CCurrency); _; _; _; _; _; _; _; _]) in *. clearbody L9.
  destruct sys; cbn [system_calls app] in F; [| | |discriminate].
  - apply S9 in F. exact F.
  - cbn [fin] in F.
    repeat match type of F with exists q, _ /\ _ => let q := fresh "q" in let L := fresh "L" in destruct F as (q & L & F) end.
    apply S9 in F. clear S9 H.
    cbn in Hc; repeat (destruct Hc as [<-|Hc]; [cbn [system_unit is_set ucls_eqb] in *;
       destruct (arg _) as [|s|q9|]; cbn [is_set] in *; eauto|]); destruct Hc.
  - cbn [fin] in F.
    repeat match type of F with exists q, _ /\ _ => let q := fresh "q" in let L := fresh "L" in destruct F as (q & L & F) end.
    apply S9 in F. clear S9 H.
    cbn in Hc; repeat (destruct Hc as [<-|Hc]; [cbn [system_unit is_set ucls_eqb] in *;
       destruct (arg _) as [|s|q9|]; cbn [is_set] in *; eauto|]); destruct Hc.
Qed.
Example C20_what_is_set_example :
  let unit_of c := UId c "x" in
  let lookup s := if String.eqb s "cm" then Ok (unit_q (unit_of CLength)) else if String.eqb s "s" then Ok (unit_q (unit_of CTime)) else
                  if String.eqb s "g" then Ok (unit_q (unit_of CMass)) else if String.eqb s "cd" then Ok (unit_q (unit_of CLumInt)) else
                  if String.eqb s "mol" then Ok (unit_q (unit_of CSubstance)) else
                  if String.eqb s "degK" then Ok (unit_q (unit_of CTemperature)) else Err LookupError in
  snd (set_default_units lookup (@nil (uid * urec Qc)) (fun c => Some (unit_dims (unit_of c))) SysCGS
               SNone SNone SNone SNone SNone SNone SNone SNone (SQty (unit_q (unit_of CTime)))) = Ok tt.
Proof. vm_compute. reflexivity. Qed.
(** set_default_units as a whole is not atomic: the defaults set before the failing
    one stay. *)
Theorem C20_set_default_units_atomic_refuted : exists (E : uenv R) D lookup a4 a9 D' e,
  set_default_units lookup E D NoSystem SNone SNone SNone a4 SNone SNone SNone SNone a9 = (D', Err e) /\
  D CLength = Some d_m /\ D' CLength = Some d_cm.
Proof.
  exists exE, exD, (fun _ => Err LookupError), (SQty (Qty (scalar 1) d_cm)), (SQty (Qty (scalar 1) d_m)).
  eexists. exists AssertionError.
  unfold set_default_units. cbn [system_calls app set_defaults set_default_unit].
  unfold set_default_q at 1. cbn [exD is_unit_quantity mag qdim scalar shp dat].
  replace (neqb 1 n1) with true by (symmetry; apply Reqb_true; reflexivity).
  destruct (conv_factor exE d_m d_cm) as [cf|e] eqn:Ec; [|discriminate Ec].
  cbv beta iota. unfold set_default_q. cbn [set_cls ucls_eqb exD is_unit_quantity mag qdim scalar shp dat].
  replace (neqb 1 n1) with true by (symmetry; apply Reqb_true; reflexivity).
  destruct (conv_factor exE d_s d_m) as [cf'|e] eqn:Ec'; [discriminate Ec'|].
  apply conv_factor_err in Ec'. subst e. cbv beta iota. split; [reflexivity|]. split; reflexivity.
Qed.

(** C21: an inconvertible default raises AssertionError, not TypeError. *)
Theorem C21_set_default_type_error_refuted : forall lookup (E : uenv R) D c q dd,
  renv_ok E -> D c = Some dd -> dims_ok dd -> dims_ok (qdim q) ->
  is_unit_quantity q = true -> ~ convertible E dd (qdim q) ->
  set_default_unit lookup E D c (SQty q) = (D, Err AssertionError).
Proof.
  intros lookup E D c q dd HE Hc Wd Wq Hu Hn. cbn [set_default_unit]. unfold set_default_q. rewrite Hc, Hu.
  rewrite (proj2 (proj2 (conv_factor_spec E dd (qdim q) HE Wd Wq)) Hn). reflexivity.
Qed.
(** TypeError is what a non-unit argument, or a class without default, gets. *)
Theorem C21_set_default_type_error_cases : forall A (N : Num A) lookup (E : uenv A) D c,
  set_default_unit lookup E D c SOther = (D, Err TypeError) /\
  (forall q, D c <> None -> is_unit_quantity q = false -> set_default_unit lookup E D c (SQty q) = (D, Err TypeError)) /\
  (forall q, D c = None -> set_default_unit lookup E D c (SQty q) = (D, Err TypeError)).
Proof.
  intros A N lookup E D c. split; [reflexivity|]. split; intros q H; cbn; unfold set_default_q.
  - intros ->. destruct (D c); auto. 
  - now rewrite H.
Qed.
Example C21_example : set_default_unit (fun _ => Err LookupError) exE exD CTime (SQty (Qty (scalar 1%Qc) d_m)) = (exD, Err AssertionError).
Proof. vm_compute. reflexivity. Qed.

(** C22 *)
Theorem C22_dimensionless_magnitude : forall E q,
  renv_ok E -> qty_ok q ->
  (forall a, dimensionless_magnitude E q = Ok a ->
     forall phi, consistent E phi -> a = phys phi q) /\
  ((exists a, dimensionless_magnitude E q = Ok a) <->
     exists c, forall phi, consistent E phi -> dimval phi (qdim q) = c) /\
  (forall e, dimensionless_magnitude E q = Err e -> e = ValueError).
Proof.
  intros E q HE Hq. unfold dimensionless_magnitude. split; [|split].
  - intros a Ha phi HC. destruct (rescale_to E q []) as [r|] eqn:Er; [|discriminate].
    injection Ha as <-. rewrite <- (rescale_value E q [] r HE (proj2 Hq) dims_ok_nil Er phi HC).
    assert (Hd : qdim r = []).
    { pose proof (rescale_to_dim E q [] r (proj1 (proj2 Hq)) wf_nil Er) as X.
      apply exp_of_all_zero; [apply (rescale_to_qty_ok E q [] r Hq dims_ok_nil Er)|].
      intros u. rewrite X. apply exp_of_nil. }
    unfold phys. rewrite Hd. cbn [dimval]. symmetry. rewrite (amap_ext _ (fun x => x)).
    + apply amap_id.
    + intros x _. ring.
  - pose proof (rescale_ok_iff E q [] HE (proj2 Hq) dims_ok_nil) as I.
    split.
    + intros [a Ha]. destruct (rescale_to E q []) as [r|] eqn:Er; [|discriminate].
      destruct (proj1 I) as [c Hc]; [eauto|]. exists c. intros phi HC. rewrite (Hc phi HC). cbn. ring.
    + intros [c Hc]. destruct (proj2 I) as [r Hr].
      { exists c. intros phi HC. rewrite (Hc phi HC). cbn. ring. }
      rewrite Hr. cbn. eauto.
  - intros e He. destruct (rescale_to E q []) as [r|e'] eqn:Er; [discriminate|]. injection He as ->.
    exact (rescale_to_err E q [] e Er).
Qed.
Example C22_example : dimensionless_magnitude exE (Qty (scalar (zq 6)) (dim_div [(u_km, PInt 1)] d_m)) = Ok (scalar (zq 6000)) /\
  dimensionless_magnitude exE (Qty (scalar (zq 6)) d_kmh) = Err ValueError.
Proof. split; vm_compute; reflexivity. Qed.

(** C24 *)
Theorem C24_integers_not_truncated : forall E q d k y,
  renv_ok E -> qty_ok q -> dims_ok d ->
  rescale_dt E (DQ k q) d None = Ok y ->
  (forall phi, consistent E phi -> phys phi (dq_q y) = phys phi q) /\
  ((exists u, exp_of (qdim q) u <> exp_of d u) -> dq_kind y = KFloat) /\
  ((forall u, exp_of (qdim q) u = exp_of d u) -> y = DQ k q).
Proof.
  intros E q d k y HE Hq Hd H. split; [|split].
  - pose proof (rescale_dt_values E (DQ k q) d) as V. rewrite H in V. cbn in V.
    exact (rescale_value E q d (dq_q y) HE (proj2 Hq) Hd (eq_sym V)).
  - intros [u Hu]. destruct (rescale_dt_kind E _ d y H) as [[X _]|[_ X]]; auto.
    exfalso. apply Hu. exact (proj1 (dim_eqb_exp _ _ (proj1 (proj2 Hq)) (proj1 Hd)) X u).
  - intros He. destruct (rescale_dt_kind E _ d y H) as [[_ X]|[X _]]; auto.
    cbn in X. rewrite (proj2 (dim_eqb_exp _ _ (proj1 (proj2 Hq)) (proj1 Hd)) He) in X. discriminate.
Qed.
(** An explicit integer dtype truncates only when the units are already the target. *)
Theorem C24_explicit_int_dtype : forall A (N : Num A) E q d y,
  rescale_dt E (DQ KFloat q) d (Some KInt) = Ok y ->
  (dim_eqb (qdim q) d = true /\ y = DQ KInt (Qty (amap ntrunc (mag q)) (qdim q))) \/
  (dim_eqb (qdim q) d = false /\ dq_kind y = KFloat /\ rescale_to E q d = Ok (dq_q y)).
Proof.
  intros A N E q d y. unfold rescale_dt, rescale_to. cbn [dq_q]. destruct (dim_eqb (qdim q) d).
  - intros [= <-]. left. auto.
  - destruct (conv_factor E (qdim q) d) as [cf|e]; [|destruct e; discriminate].
    intros [= <-]. right. auto.
Qed.
Example C24_example : rescale_dt exE (DQ KInt (Qty (Arr [2%nat] (qcs [5; 7]%Z)) d_cm)) d_m None =
  Ok (DQ KFloat (Qty (Arr [2%nat] [q_of 1 20; q_of 7 100]) d_m)).
Proof. vm_compute. reflexivity. Qed.

Print Assumptions C10_rescale_preserves_value.
Print Assumptions C10_rescale_units.
Print Assumptions C11_rescale_iff_convertible.
Print Assumptions C11_rescale_bad_units.
Print Assumptions C12_path_independent.
Print Assumptions C12_path_same_outcome.
Print Assumptions C12_roundtrip.
Print Assumptions C13_factor_unique.
Print Assumptions C13_factor_group.
Print Assumptions C13_factor_products.
Print Assumptions C14_same_units_exact.
Print Assumptions C15_references_reduced.
Print Assumptions C15_references_correct.
Print Assumptions C15_consistent_exists_unique.
Print Assumptions C15_reference_of_quantity.
Print Assumptions C16_new_units_harmless.
Print Assumptions C16_new_units_harmless_simplified.
Print Assumptions C17_simplified_preserves_value.
Print Assumptions C18_simplified_canonical.
Print Assumptions C18_simplified_idempotent.
Print Assumptions C19_simplified_terminates_iff.
Print Assumptions C19_simplified_terminates_refuted.
Print Assumptions C19_which_exception.
Print Assumptions C20_defaults_convertible.
Print Assumptions C20_simplified_after_changes.
Print Assumptions C20_set_default_atomic.
Print Assumptions C20_set_default_others_unchanged.
Print Assumptions C20_set_default_iff.
Print Assumptions C20_set_default_units_reach.
Print Assumptions C20_what_is_set.
Print Assumptions C20_set_default_units_atomic_refuted.
Print Assumptions C21_set_default_type_error_refuted.
Print Assumptions C21_set_default_type_error_cases.
Print Assumptions C22_dimensionless_magnitude.
Print Assumptions C24_integers_not_truncated.
Print Assumptions C24_explicit_int_dtype.
