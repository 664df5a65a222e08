(** * Props_Float: conversions in floating-point arithmetic (C90 - C96). *)
From Coq Require Import Reals Lra Lia Qreals Qabs Ascii NArith FunctionalExtensionality.
From Verif Require Import Py Num Dim DimFacts Arr ArrFacts Units Spec UnitFacts Quant QuantFacts ConvFacts Ufunc Ops OpsFacts
     Text Lex Registry RegFacts HistFacts Table Import TableFacts SpecSizes Props_Table Float SpecFloat FloatFacts LibFloat.

Open Scope list_scope.
Open Scope R_scope.

(** ** C90: accuracy *)
Lemma env_near_w w EF ER : env_near w EF ER -> forall u, 0 <= w u.
Proof.
  intros H u. destruct (H u) as [_ (_ & _ & G)]. pose proof elog_pos. pose proof (Rabs_pos (ln (fst (unit_ref EF u)) - ln (fst (unit_ref ER u)))).
  destruct (Rle_dec 0 (w u)); auto. nra.
Qed.
Lemma roundings_pos w d : (forall u, 0 <= w u) -> 0 <= roundings w d.
Proof.
  intros H. induction d as [|[u e] d IH]; cbn [roundings]; [lra|]. pose proof (Rabs_pos (Qc2R (pval e))). pose proof (H u). nra.
Qed.
Lemma accurate_refl k x : 0 <= k -> accurate k x x.
Proof.
  intros H. unfold accurate. rewrite Rminus_diag_eq, Rabs_R0 by reflexivity.
  assert (0 < macheps) by (apply Rinv_0_lt_compat, pow_lt; lra). pose proof (Rabs_pos x). apply Rmult_le_pos; auto. apply Rmult_le_pos; lra.
Qed.

(** Converting in double arithmetic succeeds and fails exactly as in exact arithmetic,
    gives the same units and shape, and every element is the exact result up to a
    relative error of as many machine epsilons as there are roundings in the definitions
    of the units involved. *)
Theorem C90_accuracy : forall pw w (EF ER : uenv R) (q : qty R) d,
  faithful pw -> env_near w EF ER -> roundings w (qdim q) + roundings w d + 4 <= 2 ^ 50 ->
  match @rescale_to R (NumF pw) EF q d, @rescale_to R NumR ER q d with
  | Ok r, Ok r' => qdim r = qdim r' /\ shp (mag r) = shp (mag r') /\
                   Forall2 (accurate (roundings w (qdim q) + roundings w d + 4)) (dat (mag r)) (dat (mag r'))
  | Err e, Err e' => e = e'
  | _, _ => False
  end.
Proof.
  intros pw w EF ER q d Hpw HE HK.
  pose proof (roundings_pos w (qdim q) (env_near_w _ _ _ HE)). pose proof (roundings_pos w d (env_near_w _ _ _ HE)).
  unfold rescale_to. destruct (dim_eqb (qdim q) d).
  - split; [reflexivity|]. split; [reflexivity|]. induction (dat (mag q)); constructor; auto. apply accurate_refl. lra.
  - pose proof (conv_factor_near pw Hpw w EF ER (qdim q) d HE) as C.
    destruct (@conv_factor R (NumF pw) EF (qdim q) d) as [c|e], (@conv_factor R NumR ER (qdim q) d) as [c'|e']; try contradiction.
    + cbn [qdim mag amap shp dat]. split; [reflexivity|]. split; [reflexivity|].
      induction (dat (mag q)) as [|x l IH]; cbn [map]; constructor; auto. cbn [nmul NumF NumR].
      replace (roundings w (qdim q) + roundings w d + 4) with (roundings w (qdim q) + roundings w d + 3 + 1) by ring.
      apply scale_accurate; auto. lra.
    + subst e'. destruct e; reflexivity.
Qed.
(** Defining a new unit as [a * d] adds the roundings of [a] and of the units in [d], and
    one more; a unit without definition is exact. *)
Theorem C90_definitions : forall pw w (EF ER : uenv R) u ord (dF dR : option (udef R)) sym usym al k,
  faithful pw -> env_near w EF ER -> ~ In u (dkeys EF) -> ~ In u (dkeys ER) ->
  match dF, dR with
  | None, None => k = 0
  | Some (DUnit v), Some (DUnit v') => v = v' /\ k = w v
  | Some (DQty a d), Some (DQty b d') => d = d' /\ exists j, near j a b /\ k = roundings w d + j + 1
  | _, _ => False
  end ->
  env_near (fun v => if uid_eqb v u then k else w v)
    (EF ++ [(u, @new_unit R (NumF pw) EF ord dF sym usym al)]) (ER ++ [(u, @new_unit R NumR ER ord dR sym usym al)]).
Proof.
  intros pw w EF ER u ord dF dR sym usym al k Hpw HE N1 N2 Hd v. unfold unit_ref, ulookup. rewrite !dget_app. cbn [dget].
  apply ulookup_None in N1, N2. unfold ulookup in N1, N2.
  destruct (uid_eqb v u) eqn:Ev.
  - apply uid_eqb_eq in Ev. subst v. rewrite N1, N2. cbn [ur_ref new_unit].
    destruct dF as [[a d|x]|], dR as [[b d'|x']|]; try contradiction; cbn [option_map].
    + destruct Hd as (<- & j & Hj & ->). cbn [def_ref]. unfold qty_ref. cbn [fst snd nmul NumF NumR].
      destruct (ref_pair_near pw Hpw w EF ER d HE) as [G1 G2]. split; [exact G1|]. apply near_rnd_of. now apply near_mul.
    + destruct Hd as (<- & ->). cbn [def_ref]. exact (HE x).
    + subst k. cbn [fst snd]. split; [reflexivity|]. apply near_refl. cbn. lra.
  - specialize (HE v). unfold unit_ref, ulookup in HE. destruct (dget uid_eqb EF v), (dget uid_eqb ER v); exact HE.
Qed.

(** ** C91: there and back *)
Lemma small_pow k : k <= 1024 -> k <= 2 ^ 50.
Proof.
  intros H. replace 50%nat with (10 + 40)%nat by reflexivity. rewrite pow_add. assert (1 <= 2 ^ 40) by (apply pow_R1_Rle; lra).
  replace (2 ^ 10) with 1024 by (simpl; lra). nra.
Qed.
Lemma accurate_scale2 c c' x : near 2 (c * c') 1 -> 0 < c -> 0 < c' -> accurate 4 (rnd (c' * rnd (c * x))) x.
Proof.
  intros H Hc Hc'.
  assert (Hpos : forall y, 0 < y -> accurate 4 (rnd (c' * rnd (c * y))) y).
  { intros y Hy. assert (0 < c * y) by now apply Rmult_lt_0_compat. apply near_accurate; [split; [lra|apply small_pow; lra]|].
    replace 4 with (3 + 1) by ring. apply near_rnd_of.
    assert (G : near (0 + 1) (c' * rnd (c * y)) (c' * (c * y))).
    { apply near_mul; [now apply near_refl|]. now apply near_rnd. }
    replace 3 with ((0 + 1) + (2 + 0)) by ring. eapply near_trans; [exact G|].
    replace (c' * (c * y)) with (c * c' * y) by ring. rewrite <- (Rmult_1_l y) at 2. apply near_mul; [exact H|now apply near_refl]. }
  destruct (Rtotal_order x 0) as [Hx|[->|Hx]]; [|rewrite Rmult_0_r, rnd_0, Rmult_0_r, rnd_0; apply accurate_refl; lra|auto].
  specialize (Hpos (- x) ltac:(lra)). unfold accurate in *.
  replace (c * - x) with (- (c * x)) in Hpos by ring. rewrite rnd_opp in Hpos.
  replace (c' * - rnd (c * x)) with (- (c' * rnd (c * x))) in Hpos by ring. rewrite rnd_opp, Rabs_Ropp in Hpos.
  replace (- rnd (c' * rnd (c * x)) - - x) with (- (rnd (c' * rnd (c * x)) - x)) in Hpos by ring. now rewrite Rabs_Ropp in Hpos.
Qed.

(** Converting to other units and back changes no element by more than four machine
    epsilons, no matter how many roundings the definitions of the units contain. *)
Theorem C91_round_trip : forall pw w (EF ER : uenv R) (q r : qty R) d,
  faithful pw -> env_near w EF ER -> renv_ok ER -> dims_ok (qdim q) -> dims_ok d ->
  @rescale_to R (NumF pw) EF q d = Ok r ->
  exists q', @rescale_to R (NumF pw) EF r (qdim q) = Ok q' /\ qdim q' = qdim q /\ shp (mag q') = shp (mag q) /\
             Forall2 (accurate 4) (dat (mag q')) (dat (mag q)).
Proof.
  intros pw w EF ER q r d Hpw HE HO Wq Wd. unfold rescale_to at 1. destruct (dim_eqb (qdim q) d) eqn:Eq.
  - intros [= <-]. unfold rescale_to. rewrite dim_eqb_refl by apply Wq. exists q. split; [reflexivity|]. split; [reflexivity|]. split; [reflexivity|].
    induction (dat (mag q)); constructor; auto. apply accurate_refl. lra.
  - destruct (@conv_factor R (NumF pw) EF (qdim q) d) as [c|e] eqn:Ec; [|intros H; destruct e; discriminate].
    intros [= <-]. unfold rescale_to. cbn [qdim mag]. rewrite dim_eqb_sym, Eq by (try apply Wq; apply Wd).
    destruct (ref_pair_near pw Hpw w EF ER (qdim q) HE) as [A1 (A2 & _)]. destruct (ref_pair_near pw Hpw w EF ER d HE) as [B1 (B2 & _)].
    unfold conv_factor, qty_ref in *. cbn [fst snd] in *. rewrite A1, B1 in *.
    rewrite dim_eqb_sym by (apply (ref_pair_wf _ ER HO)).
    destruct (dim_eqb (snd (@ref_pair R NumR ER (qdim q))) (snd (@ref_pair R NumR ER d))); [|discriminate].
    injection Ec as <-. cbn [nmul ndiv n1 NumF]. rewrite !Rmult_1_r.
    set (a := rnd (fst (@ref_pair R (NumF pw) EF (qdim q)))). set (b := rnd (fst (@ref_pair R (NumF pw) EF d))).
    assert (Ha : 0 < a) by now apply rnd_pos. assert (Hb : 0 < b) by now apply rnd_pos.
    assert (Hab : 0 < a / b) by now apply Rdiv_lt_0_compat. assert (Hba : 0 < b / a) by now apply Rdiv_lt_0_compat.
    eexists. split; [reflexivity|]. cbn [qdim mag amap shp dat]. split; [reflexivity|]. split; [reflexivity|].
    rewrite map_map. induction (dat (mag q)) as [|x l IH]; cbn [map]; constructor; auto.
    apply accurate_scale2; try now apply rnd_pos.
    replace 2 with (1 + 1) by ring. replace 1 with (a / b * (b / a)) at 3 by (field; lra).
    apply near_mul; now apply near_rnd.
Qed.

(** ** C92: order, sign and zero *)
Theorem C92_order : forall pw w (EF ER : uenv R) (q r : qty R) d,
  faithful pw -> env_near w EF ER -> @rescale_to R (NumF pw) EF q d = Ok r ->
  length (dat (mag r)) = length (dat (mag q)) /\
  forall i j x y x' y',
    nth_error (dat (mag q)) i = Some x -> nth_error (dat (mag r)) i = Some x' ->
    nth_error (dat (mag q)) j = Some y -> nth_error (dat (mag r)) j = Some y' ->
    (x <= y -> x' <= y') /\ (x = 0 <-> x' = 0) /\ (0 < x <-> 0 < x') /\ (x = y -> x' = y').
Proof.
  intros pw w EF ER q r d Hpw HE H.
  assert (Hc : exists f, dat (mag r) = map f (dat (mag q)) /\ (forall x y, x <= y -> f x <= f y) /\ f 0 = 0 /\
                         (forall x, 0 < x -> 0 < f x) /\ (forall x, x < 0 -> f x < 0)).
  { revert H. unfold rescale_to. destruct (dim_eqb (qdim q) d).
    - intros [= <-]. exists (fun x => x). rewrite map_id. auto.
    - pose proof (conv_factor_near pw Hpw w EF ER (qdim q) d HE) as C.
      destruct (@conv_factor R (NumF pw) EF (qdim q) d) as [c|e], (@conv_factor R NumR ER (qdim q) d) as [c'|e']; try contradiction.
      2:{ intros X. destruct e; discriminate. }
      intros [= <-]. exists (fun x => rnd (c * x)). destruct C as (C & _). split; [reflexivity|].
      split; [intros x y Hxy; apply rnd_le; nra|]. split; [rewrite Rmult_0_r; apply rnd_0|].
      split; [intros x Hx; apply rnd_pos; nra|]. intros x Hx.
      assert (0 < rnd (- (c * x))) by (apply rnd_pos; nra). rewrite rnd_opp in H. lra. }
  destruct Hc as (f & -> & F1 & F2 & F3 & F4). split; [apply map_length|]. intros i j x y x' y' Hx Hx' Hy Hy'.
  rewrite (map_nth_error f _ _ Hx) in Hx'. rewrite (map_nth_error f _ _ Hy) in Hy'.
  assert (x' = f x) as -> by congruence. assert (y' = f y) as -> by congruence.
  split; [apply F1|]. split; [|split].
  - split; [intros ->; exact F2|]. intros E. destruct (Rtotal_order x 0) as [X|[X|X]]; auto; [specialize (F4 x X)|specialize (F3 x X)]; lra.
  - split; [apply F3|]. intros E. destruct (Rtotal_order x 0) as [X|[X|X]]; auto; [specialize (F4 x X)|subst x]; lra.
  - now intros ->.
Qed.

(** ** C93: the units of the library *)
(** The state of a process after [import quantities], with magnitudes in doubles. *)
Definition flib (pw : R -> pynum -> R) (fread : text -> Qc) : rstate R := fst (@trun R (NumF pw) (parse_arith fread) rempty library).
Definition check_counts (W : counts) : bool := forallb (fun x => Qle_bool (snd x) 121) W.
Lemma flib_checks fread : match crun (parse_arith fread) sempty [] library with
  | Some (_, W) => check_counts W
  | None => false
  end = true.
Proof. vm_compute. reflexivity. Qed.
Lemma wR_bound W : check_counts W = true -> forall u, wR W u <= 121.
Proof.
  intros H u. unfold wR, wq. destruct (dget uid_eqb W u) as [k|] eqn:E.
  - apply dget_In in E; [|apply uid_eqb_eq]. unfold check_counts in H. rewrite forallb_forall in H. specialize (H _ E). cbn [snd] in H.
    apply Qle_bool_iff, Qle_Rle in H. replace (Q2R 121) with 121 in H by (unfold Q2R; cbn; lra). exact H.
  - unfold Q2R. cbn. lra.
Qed.
Lemma flib_lock pw fread : faithful pw -> snd (@trun R (NumF pw) (parse_arith fread) rempty library) = Ok tt /\
  exists w sh, (forall u, w u <= 121) /\ sim (parse_arith fread) (lib fread) sh /\ lock w (flib pw fread) (lib fread) sh.
Proof.
  intros Hpw. pose proof (flib_checks fread) as H. unfold flib.
  destruct (crun (parse_arith fread) sempty [] library) as [[sh W]|] eqn:E; [|discriminate H].
  destruct (frun pw Hpw (parse_arith fread) library [] rempty rempty sempty sh W (sim_empty _) lock_empty (fun _ _ => eq_refl) E)
    as (stF & stR & EF & ER & HS & HL).
  assert (El : lib fread = stR) by (unfold lib; now rewrite ER). rewrite EF, El. cbn [fst snd]. split; [reflexivity|].
  exists (wR W), sh. split; [now apply wR_bound|]. auto.
Qed.
Opaque lib library flib.

(** In double arithmetic the import succeeds too; it creates the same units under the
    same names, with the same definitions up to 121 roundings. *)
Theorem C93_import : forall pw fread, faithful pw ->
  snd (@trun R (NumF pw) (parse_arith fread) rempty library) = Ok tt /\
  dkeys (objs (flib pw fread)) = map entry_uid library /\
  (forall s, ctx_get (flib pw fread) s = ctx_get (lib fread) s) /\
  (forall c, dflt (flib pw fread) c = dflt (lib fread) c) /\
  same_defs (objs (flib pw fread)) (objs (lib fread)) /\
  exists w, (forall u, w u <= 121) /\ env_near w (objs (flib pw fread)) (objs (lib fread)).
Proof.
  intros pw fread Hpw. destruct (flib_lock pw fread Hpw) as (Hok & w & sh & Hw & HS & HL). split; [exact Hok|].
  split; [|split; [|split; [|split]]].
  - rewrite <- (lib_keys fread). pose proof (lk_env _ _ _ _ HL) as HE. clear -HE. unfold dkeys.
    induction HE as [|o o' E E' H HE IH]; [reflexivity|]. cbn [map]. now rewrite IH, (proj1 (proj1 H)).
  - intros s. now rewrite (lk_ctx _ _ _ _ HL), (sim_ctx _ _ _ HS).
  - intros c. now rewrite (lk_dflt _ _ _ _ HL), (sim_dflt _ _ _ HS).
  - exact (lock_same_defs _ _ _ (lk_env _ _ _ _ HL)).
  - exists w. split; [exact Hw|]. exact (lock_env_near _ _ _ (lk_w _ _ _ _ HL) (lk_env _ _ _ _ HL)).
Qed.

Lemma macheps_bound' : 300 * macheps <= / 10 ^ 13.
Proof.
  unfold macheps. assert (300 * 10 ^ 13 <= 2 ^ 52).
  { replace (10 ^ 13) with 10000000000000 by lra. replace (2 ^ 52) with 4503599627370496 by lra. lra. }
  assert (0 < 2 ^ 52) by (apply pow_lt; lra). assert (0 < 10 ^ 13) by (apply pow_lt; lra).
  apply (Rmult_le_reg_r (2 ^ 52)); auto. rewrite Rmult_assoc, Rinv_l, Rmult_1_r by lra.
  apply (Rmult_le_reg_l (10 ^ 13)); auto. rewrite <- Rmult_assoc, Rinv_r, Rmult_1_l by lra. lra.
Qed.
Lemma macheps_bound : 254 * macheps <= / 10 ^ 13.
Proof. eapply Rle_trans; [|apply macheps_bound']. assert (0 < macheps) by (apply Rinv_0_lt_compat, pow_lt; lra). lra. Qed.
(** Converting numbers between any two units of the library in double arithmetic gives the
    exact result up to a relative error of 1e-13, and fails exactly when it should. *)
Theorem C93_units : forall pw fread (a : arr R) u v, faithful pw ->
  match @rescale_to R (NumF pw) (objs (flib pw fread)) (Qty a (unit_dims u)) (unit_dims v),
        @rescale_to R NumR (objs (lib fread)) (Qty a (unit_dims u)) (unit_dims v) with
  | Ok r, Ok r' => qdim r = qdim r' /\ shp (mag r) = shp (mag r') /\
                   Forall2 (fun x y => Rabs (x - y) <= / 10 ^ 13 * Rabs y) (dat (mag r)) (dat (mag r'))
  | Err e, Err e' => e = e'
  | _, _ => False
  end.
Proof.
  intros pw fread a u v Hpw. destruct (C93_import pw fread Hpw) as (_ & _ & _ & _ & _ & w & Hw & HE).
  assert (Hr : forall x, roundings w (unit_dims x) <= 125).
  { intros x. unfold unit_dims. specialize (Hw x). destruct (u_cls x); cbn [roundings]; try lra;
      replace (Qc2R (pval (PInt 1))) with 1 by (unfold Qc2R, Q2R; cbn; lra); rewrite Rabs_R1; lra. }
  pose proof (Hr u) as Hu. pose proof (Hr v) as Hv.
  pose proof (C90_accuracy pw w (objs (flib pw fread)) (objs (lib fread)) (Qty a (unit_dims u)) (unit_dims v) Hpw HE) as H. cbn [qdim] in H.
  assert (HK : roundings w (unit_dims u) + roundings w (unit_dims v) + 4 <= 2 ^ 50) by (apply small_pow; lra). specialize (H HK).
  set (RF := @rescale_to R (NumF pw) (objs (flib pw fread)) (Qty a (unit_dims u)) (unit_dims v)) in *.
  set (RR := @rescale_to R NumR (objs (lib fread)) (Qty a (unit_dims u)) (unit_dims v)) in *.
  clearbody RF RR. destruct RF as [r|e], RR as [r'|e']; try contradiction; [|exact H].
  destruct H as (H1 & H2 & H3). split; [exact H1|]. split; [exact H2|].
  induction H3 as [|x y l l' H3 _ IH]; constructor; [|exact IH]. unfold accurate in H3. eapply Rle_trans; [exact H3|].
  apply Rmult_le_compat_r; [apply Rabs_pos|]. eapply Rle_trans; [|apply macheps_bound].
  assert (0 < macheps) by (apply Rinv_0_lt_compat, pow_lt; lra). apply Rmult_le_compat_r; lra.
Qed.

(** ** C94, C95: operators and comparisons between different units *)
Lemma zip_with_pair {A B} (l : list A) : forall l' : list B, zip_with pair l l' = combine l l'.
Proof. induction l as [|x l IH]; intros [|y l']; cbn [zip_with combine]; auto. now rewrite IH. Qed.
Lemma zip_with_combine {A B C} (f : A -> B -> C) l : forall l', zip_with f l l' = map (fun p => f (fst p) (snd p)) (combine l l').
Proof. induction l as [|x l IH]; intros [|y l']; cbn [zip_with combine map fst snd]; auto. now rewrite IH. Qed.
Lemma amap2_pair {A B C} (f : A -> B -> C) a b : amap2 f a b = rmap (amap (fun p => f (fst p) (snd p))) (amap2 pair a b).
Proof.
  unfold amap2. destruct (bc_shape (shp a) (shp b)); [|reflexivity]. cbn [rmap]. unfold amap. cbn [shp dat]. do 2 f_equal.
  now rewrite zip_with_combine, zip_with_pair.
Qed.

(** Both conversions are elementwise functions that agree up to [K] machine epsilons. *)
Lemma rescale_both pw w (EF ER : uenv R) (q : qty R) d :
  faithful pw -> env_near w EF ER -> roundings w (qdim q) + roundings w d + 4 <= 2 ^ 50 ->
  (exists f f' t, @rescale_to R (NumF pw) EF q d = Ok (Qty (amap f (mag q)) t) /\ @rescale_to R NumR ER q d = Ok (Qty (amap f' (mag q)) t) /\
     t = (if dim_eqb (qdim q) d then qdim q else d) /\
     forall x, accurate (roundings w (qdim q) + roundings w d + 4) (f x) (f' x)) \/
  (exists e, @rescale_to R (NumF pw) EF q d = Err e /\ @rescale_to R NumR ER q d = Err e).
Proof.
  intros Hpw HE HK. pose proof (roundings_pos w (qdim q) (env_near_w _ _ _ HE)). pose proof (roundings_pos w d (env_near_w _ _ _ HE)).
  unfold rescale_to. destruct (dim_eqb (qdim q) d).
  - left. exists (fun x => x), (fun x => x), (qdim q). split; [|split; [|split; [reflexivity|]]].
    + unfold amap. rewrite map_id. now destruct q as [[s l] t].
    + unfold amap. rewrite map_id. now destruct q as [[s l] t].
    + intros x. apply accurate_refl. lra.
  - pose proof (conv_factor_near pw Hpw w EF ER (qdim q) d HE) as C.
    destruct (@conv_factor R (NumF pw) EF (qdim q) d) as [c|e], (@conv_factor R NumR ER (qdim q) d) as [c'|e']; try contradiction.
    + left. exists (fun x => rnd (c * x)), (fun x => c' * x), d. split; [reflexivity|]. split; [reflexivity|]. split; [reflexivity|].
      intros x. replace (roundings w (qdim q) + roundings w d + 4) with (roundings w (qdim q) + roundings w d + 3 + 1) by ring.
      apply scale_accurate; auto. lra.
    + right. subst e'. destruct e; eexists; split; reflexivity.
Qed.
Lemma K_small k : k <= 2 ^ 50 -> k * macheps <= / 4.
Proof.
  intros H. assert (E : 2 ^ 50 * macheps = / 4).
  { unfold macheps. replace (2 ^ 52) with (2 ^ 50 * 4) by (replace 52%nat with (50 + 2)%nat by reflexivity; rewrite pow_add; simpl (2 ^ 2); lra). field. }
  assert (0 < macheps) by (apply Rinv_0_lt_compat, pow_lt; lra). nra.
Qed.
Lemma macheps_eps : macheps = 2 * eps.
Proof. unfold macheps, eps. replace (2 ^ 53) with (2 * 2 ^ 52) by (change 53%nat with (S 52); reflexivity). field. Qed.
Lemma sum_accurate k a y y' : 0 <= k <= 2 ^ 50 -> accurate k y y' ->
  Rabs (rnd (a + y) - (a + y')) <= (k + 1) * macheps * (Rabs a + Rabs y').
Proof.
  intros Hk H. unfold accurate in H. pose proof (rnd_err (a + y)) as E. pose proof (K_small k (proj2 Hk)) as Ks.
  rewrite macheps_eps in *. pose proof eps_pos.
  assert (Hy : Rabs y <= Rabs y' + Rabs (y - y')).
  { replace y with (y' + (y - y')) at 1 by ring. apply Rabs_triang. }
  pose proof (Rabs_triang a y). pose proof (Rabs_pos a). pose proof (Rabs_pos y').
  replace (rnd (a + y) - (a + y')) with ((rnd (a + y) - (a + y)) + (y - y')) by ring.
  eapply Rle_trans; [apply Rabs_triang|]. 
  assert (B1 : Rabs (y - y') <= / 4 * Rabs y') by nra.
  assert (B2 : eps * Rabs (a + y) <= eps * (Rabs a + 5 / 4 * Rabs y')) by (apply Rmult_le_compat_l; lra).
  assert (B3 : 0 <= k * (2 * eps) * Rabs a) by (apply Rmult_le_pos; [apply Rmult_le_pos; lra|auto]).
  assert (B4 : 0 <= eps * Rabs y') by (apply Rmult_le_pos; lra). assert (B5 : 0 <= eps * Rabs a) by (apply Rmult_le_pos; lra).
  nra.
Qed.

(** [q + o] and [q - o] fail exactly as in exact arithmetic and give the same units and
    shape; every element [a + b] of the result (with [b] the element of [o] in the units of
    [q], operands broadcast against one another) is off by at most the roundings of the
    conversion and one more, relative to |a| + |b|. *)
Definition add_close (K : R) (ER : uenv R) (q o : qty R) (sF sR : res (qty R)) : Prop :=
  match sF, sR with
  | Ok r, Ok r' =>
      qdim r = qdim r' /\ shp (mag r) = shp (mag r') /\
      exists o' ps, @rescale_to R NumR ER o (qdim q) = Ok o' /\ amap2 pair (mag q) (mag o') = Ok ps /\
        length (dat (mag r)) = length (dat ps) /\
        forall i a b x x', nth_error (dat ps) i = Some (a, b) ->
          nth_error (dat (mag r)) i = Some x -> nth_error (dat (mag r')) i = Some x' ->
          Rabs (x - x') <= (K + 1) * macheps * (Rabs a + Rabs b)
  | Err e, Err e' => e = e'
  | _, _ => False
  end.
Lemma scale_other_rescale {A} {N : Num A} (E : uenv A) (q o : qty A) : scale_other E q (OQ o) = rescale_to E o (qdim q).
Proof. unfold scale_other. cbn [as_q]. unfold rescale_to. now destruct (dim_eqb (qdim o) (qdim q)). Qed.
Lemma op_close pw w (EF ER : uenv R) (q o : qty R) (g g' : R -> R -> R) :
  faithful pw -> env_near w EF ER -> roundings w (qdim o) + roundings w (qdim q) + 4 <= 2 ^ 50 ->
  (forall k a y y', 0 <= k <= 2 ^ 50 -> accurate k y y' -> Rabs (g a y - g' a y') <= (k + 1) * macheps * (Rabs a + Rabs y')) ->
  add_close (roundings w (qdim o) + roundings w (qdim q) + 4) ER q o
    (o' <- @scale_other R (NumF pw) EF q (OQ o) ;; @apply2 R (NumF pw) R g RUniform (OQ q) (OQ o'))
    (o' <- @scale_other R NumR ER q (OQ o) ;; @apply2 R NumR R g' RUniform (OQ q) (OQ o')).
Proof.
  intros Hpw HE HK Hg. rewrite (@scale_other_rescale R (NumF pw)), (@scale_other_rescale R NumR).
  pose proof (roundings_pos w (qdim o) (env_near_w _ _ _ HE)). pose proof (roundings_pos w (qdim q) (env_near_w _ _ _ HE)).
  destruct (rescale_both pw w EF ER o (qdim q) Hpw HE HK) as [(f & f' & t & E1 & E2 & _ & Hf)|(e & E1 & E2)].
  - rewrite E1, E2. cbn [bind]. unfold apply2. cbn [odat mag]. 
    assert (Hm : forall (h : R -> R -> R) (k : R -> R), amap2 h (mag q) (amap k (mag o)) = amap2 (fun x y => h x (k y)) (mag q) (mag o)).
    { intros h k. rewrite <- (amap2_amap h (fun x => x) k). f_equal. unfold amap. rewrite map_id. now destruct (mag q). }
    rewrite !Hm, (amap2_pair (fun x y => g x (f y))), (amap2_pair (fun x y => g' x (f' y))).
    destruct (amap2 pair (mag q) (mag o)) as [ps|e] eqn:Ep; cbn [rmap bind]; [|reflexivity].
    unfold pd2. cbn [qdim]. destruct (dim_eqb (qdim q) t); cbn [bind add_close]; [|reflexivity].
    cbn [qdim mag amap shp dat]. split; [reflexivity|]. split; [reflexivity|].
    exists (Qty (amap f' (mag o)) t), (amap (fun p => (fst p, f' (snd p))) ps). split; [exact E2|]. cbn [mag].
    split; [|split].
    + rewrite (amap2_pair pair). replace (amap2 pair (mag q) (amap f' (mag o))) with (rmap (amap (fun p : R * R => (fst p, f' (snd p)))) (amap2 pair (mag q) (mag o))).
      * rewrite Ep. cbn [rmap]. unfold amap. cbn [shp dat]. rewrite map_map. reflexivity.
      * rewrite <- (amap2_pair (fun x y => (x, f' y))). rewrite <- (amap2_amap pair (fun x => x) f'). f_equal. unfold amap. rewrite map_id. now destruct (mag q).
    + cbn [amap dat]. now rewrite !map_length.
    + intros i a b x x' Hp Hx Hx'. cbn [amap dat] in Hp. rewrite nth_error_map in Hp, Hx, Hx'.
      destruct (nth_error (dat ps) i) as [[a0 b0]|]; [|discriminate Hp]. cbn [option_map fst snd] in *.
      assert (a0 = a) as -> by congruence. assert (b = f' b0) as -> by congruence.
      assert (x = g a (f b0)) as -> by congruence. assert (x' = g' a (f' b0)) as -> by congruence.
      apply Hg; [lra|apply Hf].
  - rewrite E1, E2. reflexivity.
Qed.
Theorem C94_addition : forall pw w (EF ER : uenv R) (q o : qty R),
  faithful pw -> env_near w EF ER -> roundings w (qdim o) + roundings w (qdim q) + 4 <= 2 ^ 50 ->
  add_close (roundings w (qdim o) + roundings w (qdim q) + 4) ER q o
    (@q_add R (NumF pw) EF q (OQ o)) (@q_add R NumR ER q (OQ o)) /\
  add_close (roundings w (qdim o) + roundings w (qdim q) + 4) ER q o
    (@q_sub R (NumF pw) EF q (OQ o)) (@q_sub R NumR ER q (OQ o)).
Proof.
  intros pw w EF ER q o Hpw HE HK. split; apply op_close; auto; intros k a y y' Hk Hy; cbn [nadd nsub NumF NumR].
  - now apply sum_accurate.
  - replace (a - y) with (a + - y) by ring. replace (a - y') with (a + - y') by ring. rewrite <- (Rabs_Ropp y').
    apply sum_accurate; auto. unfold accurate in *. replace (- y - - y') with (- (y - y')) by ring. now rewrite !Rabs_Ropp.
Qed.
(** Products and quotients need no conversion: one rounding per element. *)
Theorem C94_products : forall pw (o1 o2 : operand R),
  let close (sF sR : res (qty R)) := match sF, sR with
    | Ok r, Ok r' => qdim r = qdim r' /\ shp (mag r) = shp (mag r') /\ Forall2 (accurate 1) (dat (mag r)) (dat (mag r'))
    | Err e, Err e' => e = e'
    | _, _ => False
    end in
  close (@q_mul R (NumF pw) o1 o2) (@q_mul R NumR o1 o2) /\ close (@q_div R (NumF pw) o1 o2) (@q_div R NumR o1 o2).
Proof.
  intros pw o1 o2 close.
  assert (G : forall r (g : R -> R -> R), close (@apply2 R (NumF pw) R (fun x y => rnd (g x y)) r o1 o2) (@apply2 R NumR R g r o1 o2)).
  { intros r g. unfold apply2. rewrite (amap2_pair (fun x y => rnd (g x y))), (amap2_pair g).
    destruct (amap2 pair (odat o1) (odat o2)) as [ps|e]; cbn [rmap bind]; [|reflexivity].
    change (@pd2 R (NumF pw) r o1 o2) with (@pd2 R NumR r o1 o2). destruct (@pd2 R NumR r o1 o2) as [d|e]; cbn [bind]; [|reflexivity].
    unfold close. cbn [qdim mag amap shp dat]. split; [reflexivity|]. split; [reflexivity|].
    induction (dat ps) as [|[x y] l IH]; cbn [map]; constructor; auto. cbn [fst snd]. unfold accurate.
    eapply Rle_trans; [apply rnd_err|]. rewrite macheps_eps. pose proof eps_pos. pose proof (Rabs_pos (g x y)). nra. }
  split; [exact (G RMul Rmult)|exact (G RDiv Rdiv)].
Qed.
(** Negation and absolute value are exact. *)
Theorem C94_signs : forall pw (EF ER : uenv R) (q : qty R),
  @q_neg R (NumF pw) EF q = @q_neg R NumR ER q /\ @q_abs R (NumF pw) EF q = @q_abs R NumR ER q.
Proof. intros pw EF ER q. split; reflexivity. Qed.

(** The order comparisons and [==], [!=] fail exactly as in exact arithmetic, and an
    element of the result is the exact one unless the two compared numbers agree up to
    the roundings of the conversion.  Operands in the same units are compared exactly. *)
Definition cmp_close (K : R) (ER : uenv R) (q o : qty R) (sF sR : res (arr bool)) : Prop :=
  match sF, sR with
  | Ok r, Ok r' =>
      shp r = shp r' /\ length (dat r) = length (dat r') /\
      (dim_eqb (qdim o) (qdim q) = true -> r = r') /\
      forall o' ps, @rescale_to R NumR ER o (qdim q) = Ok o' -> amap2 pair (mag q) (mag o') = Ok ps ->
        forall i a b, nth_error (dat ps) i = Some (a, b) -> K * macheps * Rabs b < Rabs (a - b) ->
          nth_error (dat r) i = nth_error (dat r') i
  | Err e, Err e' => e = e'
  | _, _ => False
  end.
Lemma cmp_stable k c a y y' : accurate k y y' -> k * macheps * Rabs y' < Rabs (a - y') -> @ncmp R NumR c a y = @ncmp R NumR c a y'.
Proof.
  intros H G. unfold accurate in H. assert (Hd : Rabs (y - y') < Rabs (a - y')) by lra.
  assert (Hs : (a < y' -> a < y) /\ (y' < a -> y < a)).
  { split; intros X.
    - rewrite (Rabs_left (a - y')) in Hd by lra. apply Rabs_def2 in Hd. lra.
    - rewrite (Rabs_pos_eq (a - y')) in Hd by lra. apply Rabs_def2 in Hd. lra. }
  assert (Hne : a <> y') by (intros ->; rewrite (Rminus_diag_eq y' y' eq_refl), Rabs_R0 in Hd; pose proof (Rabs_pos (y - y')); lra).
  destruct Hs as [S1 S2]. unfold ncmp. cbn [neqb nltb nleb NumR]. unfold Reqb, Rltb, Rleb.
  destruct (Rtotal_order a y') as [X|[X|X]]; [specialize (S1 X)|contradiction|specialize (S2 X)];
    destruct c; repeat first [destruct (Req_EM_T _ _)|destruct (Rlt_dec _ _)|destruct (Rle_dec _ _)]; try reflexivity; exfalso; lra.
Qed.
Theorem C95_comparisons : forall pw w (EF ER : uenv R) (q o : qty R) c,
  faithful pw -> env_near w EF ER -> roundings w (qdim o) + roundings w (qdim q) + 4 <= 2 ^ 50 ->
  cmp_close (roundings w (qdim o) + roundings w (qdim q) + 4) ER q o
    (@q_order R (NumF pw) EF c q (OQ o)) (@q_order R NumR ER c q (OQ o)) /\
  cmp_close (roundings w (qdim o) + roundings w (qdim q) + 4) ER q o
    (@q_eqne R (NumF pw) EF c q (OQ o)) (@q_eqne R NumR ER c q (OQ o)).
Proof.
  intros pw w EF ER q o c Hpw HE HK.
  assert (Hord : forall {A} {N : Num A} (E : uenv A) (q o : qty A), q_order E c q (OQ o) =
     match rescale_to E o (qdim q) with Ok r => amap2 (ncmp c) (mag q) (mag r) | Err e => Err e end).
  { intros A N E q0 o0. unfold q_order, rescale_to. destruct (dim_eqb (qdim o0) (qdim q0)); cbn [bind]; [reflexivity|].
    destruct (conv_factor E (qdim o0) (qdim q0)) as [x|x]; [reflexivity|]. now destruct x. }
  set (K := roundings w (qdim o) + roundings w (qdim q) + 4) in *.
  assert (G : forall f f' t, @rescale_to R (NumF pw) EF o (qdim q) = Ok (Qty (amap f (mag o)) t) ->
     @rescale_to R NumR ER o (qdim q) = Ok (Qty (amap f' (mag o)) t) -> (forall x, accurate K (f x) (f' x)) ->
     cmp_close K ER q o (amap2 (@ncmp R (NumF pw) c) (mag q) (amap f (mag o))) (amap2 (@ncmp R NumR c) (mag q) (amap f' (mag o)))).
  { intros f f' t E1 E2 Hf. change (@ncmp R (NumF pw) c) with (@ncmp R NumR c).
    assert (Hm : forall {X} (h : R -> R -> X) (k : R -> R), amap2 h (mag q) (amap k (mag o)) = amap2 (fun x y => h x (k y)) (mag q) (mag o)).
    { intros X h k. rewrite <- (amap2_amap h (fun x => x) k). f_equal. unfold amap. rewrite map_id. now destruct (mag q). }
    rewrite !Hm, (amap2_pair (fun x y => ncmp c x (f y))), (amap2_pair (fun x y => ncmp c x (f' y))).
    destruct (amap2 pair (mag q) (mag o)) as [ps|e] eqn:Ep; cbn [rmap cmp_close]; [|reflexivity].
    split; [reflexivity|]. cbn [amap dat]. split; [now rewrite !map_length|]. split.
    - intros Hd. assert (Hff : amap f (mag o) = amap f' (mag o)).
      { unfold rescale_to in E1, E2. rewrite Hd in E1, E2. congruence. }
      assert (Hps : forall g : R -> R, amap (fun p : R * R => ncmp c (fst p) (g (snd p))) ps = amap (fun p => ncmp c (fst p) (snd p)) (amap (fun p : R * R => (fst p, g (snd p))) ps)).
      { intros g. unfold amap. cbn [shp dat]. now rewrite map_map. }
      rewrite !Hps. f_equal.
      assert (Hq : forall g : R -> R, Ok (amap (fun p : R * R => (fst p, g (snd p))) ps) = amap2 pair (mag q) (amap g (mag o))).
      { intros g. rewrite Hm, (amap2_pair (fun x y => (x, g y))), Ep. reflexivity. }
      pose proof (Hq f) as Q1. pose proof (Hq f') as Q2. rewrite Hff, <- Q2 in Q1. congruence.
    - intros o' ps' Ho' Hps' i a b Hp Hlt. rewrite E2 in Ho'. assert (o' = Qty (amap f' (mag o)) t) as -> by congruence. cbn [mag] in Hps'.
      rewrite Hm, (amap2_pair (fun x y => (x, f' y))), Ep in Hps'. cbn [rmap] in Hps'.
      assert (ps' = amap (fun p : R * R => (fst p, f' (snd p))) ps) as -> by congruence. cbn [amap dat] in Hp.
      rewrite nth_error_map in Hp. rewrite !nth_error_map. destruct (nth_error (dat ps) i) as [[a0 b0]|]; [|reflexivity].
      cbn [option_map fst snd] in *. assert (a0 = a) as -> by congruence. assert (b = f' b0) as -> by congruence.
      f_equal. apply (cmp_stable K); auto. }
  destruct (rescale_both pw w EF ER o (qdim q) Hpw HE HK) as [(f & f' & t & E1 & E2 & _ & Hf)|(e & E1 & E2)].
  - split.
    + rewrite (Hord R (NumF pw)), (Hord R NumR), E1, E2. cbn [mag]. eapply G; eauto.
    + unfold q_eqne. rewrite E1, E2. cbn [mag]. eapply G; eauto.
  - split.
    + rewrite (Hord R (NumF pw)), (Hord R NumR), E1, E2. reflexivity.
    + unfold q_eqne. rewrite E1, E2. destruct e; cbn [cmp_close]; try reflexivity.
      split; [reflexivity|]. split; [reflexivity|]. split; [reflexivity|]. intros o' ps Ho'. congruence.
Qed.

(** ** C96: [simplified] *)
Definition rclose (k : R) (x y : res (R * dims)) : Prop :=
  match x, y with
  | Ok x, Ok y => snd x = snd y /\ near k (fst x) (fst y)
  | Err e, Err e' => e = e'
  | _, _ => False
  end.
Lemma simp_near pw w (EF ER : uenv R) D : faithful pw -> env_near w EF ER -> same_defs EF ER ->
  forall fuel u,
  rclose (simp_roundings fuel w ER D u) (@simp_unit R (NumF pw) fuel EF D u) (@simp_unit R NumR fuel ER D u).
Proof.
  intros Hpw HE HD. induction fuel as [|f IH]; intros u; cbn [simp_unit simp_roundings]; [reflexivity|].
  destruct (is_irreducible (u_cls u)).
  - destruct (D (u_cls u)) as [dd|]; [|reflexivity]. destruct (dim_eqb (unit_dims u) dd).
    + cbn [rclose fst snd n1 NumF NumR]. split; [reflexivity|]. apply near_refl. lra.
    + pose proof (conv_factor_near pw Hpw w EF ER (unit_dims u) dd HE) as C.
      destruct (@conv_factor R (NumF pw) EF (unit_dims u) dd) as [c|e], (@conv_factor R NumR ER (unit_dims u) dd) as [c'|e']; try contradiction.
      * cbn [rclose fst snd nmul n1 NumF NumR]. split; [reflexivity|]. rewrite !Rmult_1_r.
        replace (roundings w (unit_dims u) + roundings w dd + 4) with (roundings w (unit_dims u) + roundings w dd + 3 + 1) by ring. now apply near_rnd_of.
      * subst e'. destruct e; reflexivity.
  - pose proof (HD u) as Hd. pose proof (HE u) as He. unfold unit_ref in He.
    destruct (ulookup EF u) as [r|] eqn:E1, (ulookup ER u) as [r'|] eqn:E2; try contradiction; [|exact (IH u)].
    destruct (ur_ref r) as [[a d]|] eqn:R1, (ur_ref r') as [[b d']|] eqn:R2; cbn [fst snd] in He.
    + destruct He as [<- He].
      assert (G : forall d accF accR k,
        rclose k accF accR -> rclose (k + roundings (simp_roundings f w ER D) d)
          (fold_left (fun acc kv => rq <- acc ;; x <- @simp_unit R (NumF pw) f EF D (fst kv) ;; Ok (@sc_mul_pow R (NumF pw) rq x (snd kv))) d accF)
          (fold_left (fun acc kv => rq <- acc ;; x <- @simp_unit R NumR f ER D (fst kv) ;; Ok (@sc_mul_pow R NumR rq x (snd kv))) d accR)).
      { clear -IH Hpw. induction d as [|[v e] d IHd]; intros accF accR k Ha; cbn [fold_left roundings].
        - rewrite Rplus_0_r. exact Ha.
        - replace (k + (Rabs (Qc2R (pval e)) * simp_roundings f w ER D v + 4 + roundings (simp_roundings f w ER D) d))
            with (k + (Rabs (Qc2R (pval e)) * simp_roundings f w ER D v + 3) + 1 + roundings (simp_roundings f w ER D) d) by ring.
          apply IHd. cbn [fst snd]. destruct accF as [x|x], accR as [y|y]; try contradiction; cbn [bind]; [|exact Ha].
          specialize (IH v). destruct (@simp_unit R (NumF pw) f EF D v) as [z|z], (@simp_unit R NumR f ER D v) as [z'|z']; try contradiction; cbn [bind]; [|exact IH].
          unfold sc_mul_pow. cbn [rclose fst snd nmul npow NumF NumR]. destruct Ha as [H1 H2], IH as [I1 I2]. split; [now rewrite H1, I1|].
          apply near_rnd_of, near_mul; auto. now apply near_pw. }
      specialize (G d (Ok (1, [])) (Ok (1, [])) 0 (conj eq_refl (near_refl 1 Rlt_0_1))). rewrite Rplus_0_l in G.
      change (@n1 R (NumF pw)) with 1. change (@n1 R NumR) with 1.
      match goal with |- rclose _ (bind ?x _) (bind ?y _) => set (X := x) in *; set (Y := y) in * end.
      clearbody X Y. destruct X as [x|x], Y as [y|y]; try contradiction; cbn [bind]; [|exact G].
      cbn [rclose fst snd nmul NumF NumR]. destruct G as [G1 G2]. split; [exact G1|]. apply near_rnd_of. now apply near_mul.
    + exfalso. destruct Hd as [_ Hd]. specialize (Hd eq_refl). discriminate.
    + exfalso. destruct Hd as [Hd _]. specialize (Hd eq_refl). discriminate.
    + exact (IH u).
Qed.
Lemma simp_dims_near pw w (EF ER : uenv R) D fuel d : faithful pw -> env_near w EF ER -> same_defs EF ER ->
  rclose (roundings (simp_roundings fuel w ER D) d) (@simp_dims R (NumF pw) fuel EF D d) (@simp_dims R NumR fuel ER D d).
Proof.
  intros Hpw HE HD. unfold simp_dims. change (@n1 R (NumF pw)) with 1. change (@n1 R NumR) with 1.
  rewrite <- (Rplus_0_l (roundings _ d)).
  assert (H0 : rclose 0 (Ok (1, [])) (Ok (1, []))).
  { split; [reflexivity|]. cbn [fst]. apply near_refl. lra. }
  revert H0. generalize (Ok (1, []) : res (R * dims)) at 1 3 as accF. generalize (Ok (1, []) : res (R * dims)) as accR. generalize 0 as k.
  induction d as [|[v e] d IHd]; intros k accR accF Ha; cbn [fold_left roundings].
  - rewrite Rplus_0_r. exact Ha.
  - replace (k + (Rabs (Qc2R (pval e)) * simp_roundings fuel w ER D v + 4 + roundings (simp_roundings fuel w ER D) d))
      with (k + (Rabs (Qc2R (pval e)) * simp_roundings fuel w ER D v + 3) + 1 + roundings (simp_roundings fuel w ER D) d) by ring.
    apply IHd. cbn [fst snd]. destruct accF as [x|x], accR as [y|y]; try contradiction; cbn [bind]; [|exact Ha].
    pose proof (simp_near pw w EF ER D Hpw HE HD fuel v) as IH.
    destruct (@simp_unit R (NumF pw) fuel EF D v) as [z|z], (@simp_unit R NumR fuel ER D v) as [z'|z']; try contradiction; cbn [bind]; [|exact IH].
    unfold sc_mul_pow. cbn [rclose fst snd nmul npow NumF NumR]. destruct Ha as [H1 H2], IH as [I1 I2]. split; [now rewrite H1, I1|].
    apply near_rnd_of, near_mul; auto. now apply near_pw.
Qed.
Lemma near_count k x y : near k x y -> 0 <= k.
Proof. intros (_ & _ & H). pose proof elog_pos. pose proof (Rabs_pos (ln x - ln y)). destruct (Rle_dec 0 k); auto. nra. Qed.

(** [simplified] in double arithmetic: the same outcome, units and shape, and the exact
    elements up to the number of roundings. *)
Theorem C96_simplified : forall pw w (EF ER : uenv R) D fuel (q : qty R),
  faithful pw -> env_near w EF ER -> same_defs EF ER ->
  roundings (simp_roundings fuel w ER D) (qdim q) + 1 <= 2 ^ 50 ->
  match @simplified R (NumF pw) fuel EF D q, @simplified R NumR fuel ER D q with
  | Ok r, Ok r' => qdim r = qdim r' /\ shp (mag r) = shp (mag r') /\
                   Forall2 (accurate (roundings (simp_roundings fuel w ER D) (qdim q) + 1)) (dat (mag r)) (dat (mag r'))
  | Err e, Err e' => e = e'
  | _, _ => False
  end.
Proof.
  intros pw w EF ER D fuel q Hpw HE HD HK. unfold simplified. pose proof (simp_dims_near pw w EF ER D fuel (qdim q) Hpw HE HD) as H.
  destruct (@simp_dims R (NumF pw) fuel EF D (qdim q)) as [x|e], (@simp_dims R NumR fuel ER D (qdim q)) as [y|e']; try contradiction; cbn [bind]; [|exact H].
  cbn [rclose] in H. destruct H as [H1 H2]. cbn [qdim mag amap shp dat]. split; [exact H1|]. split; [reflexivity|].
  induction (dat (mag q)) as [|z l IH]; cbn [map]; constructor; auto. cbn [nmul NumF NumR].
  apply scale_accurate; auto. split; [now apply near_count in H2|lra].
Qed.

Lemma simp_roundings_undef w E D u : is_irreducible (u_cls u) = false ->
  (forall r, ulookup E u = Some r -> ur_ref r = None) -> forall f, simp_roundings f w E D u = 0.
Proof.
  intros Hi Hr. induction f as [|f IH]; cbn [simp_roundings]; [reflexivity|]. rewrite Hi.
  destruct (ulookup E u) as [r|] eqn:E1; auto. now rewrite (Hr r eq_refl).
Qed.
Lemma roundings_zero w d : (forall u, In u (dkeys d) -> w u = 0) -> roundings w d = 4 * INR (length d).
Proof.
  intros H. induction d as [|[u e] d IH]; cbn [roundings length]; [cbn; lra|].
  rewrite (H u (or_introl eq_refl)), IH, S_INR; [lra|]. intros v Hv. apply H. now right.
Qed.
Lemma lib_simp_bound fread w f u : (forall v, 0 <= w v <= 121) -> u_cls u <> CDimless ->
  simp_roundings (S (S f)) w (objs (lib fread)) (dflt (lib fread)) u <= 254.
Proof.
  intros Hw Hnd. destruct (lib_sim fread) as (_ & sh & HS & HK). pose proof (C73_defaults fread) as HD.
  pose proof (lib_env fread) as HE. pose proof (lib_keys fread) as HL. revert sh HS HK HD HE HL. generalize (lib fread) as st. intros st sh HS HK HD HE HL.
  pose proof (sim_env _ _ _ HS) as HM.
  assert (Hone : forall v e, roundings w [(v, e)] <= Rabs (Qc2R (pval e)) * 121 + 4).
  { intros v e. cbn [roundings]. pose proof (Rabs_pos (Qc2R (pval e))). pose proof (Hw v). nra. }
  assert (H1 : Rabs (Qc2R (pval (PInt 1))) = 1) by (replace (Qc2R (pval (PInt 1))) with 1 by (unfold Qc2R, Q2R; cbn; lra); apply Rabs_R1).
  assert (Hu : forall v, roundings w (unit_dims v) <= 125).
  { intros v. unfold unit_dims. pose proof (Hone v (PInt 1)). destruct (u_cls v); cbn [roundings] in *; lra. }
  destruct (is_irreducible (u_cls u)) eqn:Ei.
  - cbn [simp_roundings]. rewrite Ei. rewrite (proj1 (HD (u_cls u))). destruct (has_base (u_cls u)); [|lra].
    destruct (dim_eqb _ _); [lra|]. pose proof (Hu u). pose proof (Hone (lib_root (u_cls u)) (PInt 1)). lra.
  - destruct (ulookup (objs st) u) as [r|] eqn:El.
    2:{ rewrite simp_roundings_undef; [lra|exact Ei|congruence]. }
    destruct (ur_ref r) as [[a d]|] eqn:Er.
    2:{ rewrite simp_roundings_undef; [lra|exact Ei|]. intros r' Hr'. congruence. }
    assert (Hd : d = snd (unit_ref (objs st) u)) by (unfold unit_ref; now rewrite El, Er).
    assert (Hin : In u (map entry_uid library)).
    { rewrite <- HL. unfold ulookup in El. apply dget_In in El; [|apply uid_eqb_eq]. now apply (in_map fst) in El. }
    pose proof (ck_simp _ HK) as C. unfold check_simp in C. rewrite forallb_forall in C. specialize (C u Hin).
    apply orb_prop in C. destruct C as [C|C].
    { exfalso. apply existsb_exists in C. destruct C as (x & Hx & E). apply uid_eqb_eq in E. subst x.
      destruct Hx as [<-|[<-|[]]]; [discriminate Ei|now apply Hnd]. }
    rewrite Ei in C. rewrite forallb_forall in C. rewrite <- (proj2 (env_ref _ _ u HM)), <- Hd in C.
    cbn [simp_roundings]. rewrite Ei, El, Er.
    change (fun u0 : uid => _) with (simp_roundings (S f) w (objs st) (dflt st)).
    assert (Hz : forall v, In v (dkeys d) -> simp_roundings (S f) w (objs st) (dflt st) v = 0).
    { intros v Hv. specialize (C v Hv). apply andb_prop in C. destruct C as [C1 C2]. apply uid_eqb_eq in C2.
      cbn [simp_roundings]. assert (Hi : is_irreducible (u_cls v) = true) by (unfold has_base in C1; now destruct (is_irreducible (u_cls v))).
      rewrite Hi, (proj1 (HD (u_cls v))), C1. rewrite <- C2.
      replace (unit_dims v) with [(v, PInt 1)] by (unfold unit_dims; destruct (u_cls v); try reflexivity; discriminate Hi).
      rewrite dim_eqb_refl; [reflexivity|]. repeat constructor. intros []. }
    match goal with |- roundings ?g d + _ + _ <= _ => change g with (simp_roundings (S f) w (objs st) (dflt st)) end.
    rewrite (roundings_zero _ d Hz).
    assert (Hlen : (length d <= 8)%nat).
    { assert (HN : NoDup (dkeys d)) by (rewrite Hd; apply (unit_ref_roots _ (objs st) u HE)).
      assert (Hincl : incl (dkeys d) (map lib_root [CMass; CLength; CTime; CCurrent; CLumInt; CSubstance; CTemperature; CInformation])).
      { intros v Hv. specialize (C v Hv). apply andb_prop in C. destruct C as [C1 C2]. apply uid_eqb_eq in C2. rewrite C2. apply in_map.
        destruct (u_cls v); try discriminate C1; cbn [In]; auto 20. }
      pose proof (NoDup_incl_length HN Hincl) as G. unfold dkeys in G. rewrite !map_length in G. exact G. }
    apply le_INR in Hlen. replace (INR 8) with 8 in Hlen by (cbn; lra). pose proof (Hw u). lra.
Qed.
(** [simplified] of numbers in any unit of the library is exact up to 1e-13. *)
Theorem C96_library : forall pw fread (a : arr R) u fuel, faithful pw -> u_cls u <> CDimless ->
  match @simplified R (NumF pw) (S (S fuel)) (objs (flib pw fread)) (dflt (flib pw fread)) (Qty a (unit_dims u)),
        @simplified R NumR (S (S fuel)) (objs (lib fread)) (dflt (lib fread)) (Qty a (unit_dims u)) with
  | Ok r, Ok r' => qdim r = qdim r' /\ shp (mag r) = shp (mag r') /\
                   Forall2 (fun x y => Rabs (x - y) <= / 10 ^ 13 * Rabs y) (dat (mag r)) (dat (mag r'))
  | Err e, Err e' => e = e'
  | _, _ => False
  end.
Proof.
  intros pw fread a u fuel Hpw Hnd. destruct (C93_import pw fread Hpw) as (_ & _ & _ & Hdf & HD & w & Hw & HE).
  assert (Hw' : forall v, 0 <= w v <= 121) by (intros v; split; [exact (env_near_w _ _ _ HE v)|apply Hw]).
  pose proof (lib_simp_bound fread w fuel u Hw' Hnd) as HB. apply functional_extensionality in Hdf. rewrite Hdf. clear Hdf.
  assert (Hr : roundings (simp_roundings (S (S fuel)) w (objs (lib fread)) (dflt (lib fread))) (unit_dims u) <= 258).
  { revert HB. generalize (simp_roundings (S (S fuel)) w (objs (lib fread)) (dflt (lib fread))) as g. intros g HB.
    unfold unit_dims. assert (H1 : Rabs (Qc2R (pval (PInt 1))) = 1) by (replace (Qc2R (pval (PInt 1))) with 1 by (unfold Qc2R, Q2R; cbn; lra); apply Rabs_R1).
    destruct (u_cls u); cbn [roundings]; rewrite ?H1; lra. }
  pose proof (C96_simplified pw w (objs (flib pw fread)) (objs (lib fread)) (dflt (lib fread)) (S (S fuel)) (Qty a (unit_dims u)) Hpw HE HD) as H.
  change (qdim (Qty a (unit_dims u))) with (unit_dims u) in H.
  assert (HK : roundings (simp_roundings (S (S fuel)) w (objs (lib fread)) (dflt (lib fread))) (unit_dims u) + 1 <= 2 ^ 50) by (apply small_pow; lra).
  specialize (H HK). clear HB.
  revert H Hr. generalize (roundings (simp_roundings (S (S fuel)) w (objs (lib fread)) (dflt (lib fread))) (unit_dims u)) as k.
  generalize (@simplified R (NumF pw) (S (S fuel)) (objs (flib pw fread)) (dflt (lib fread)) (Qty a (unit_dims u))) as RF.
  generalize (@simplified R NumR (S (S fuel)) (objs (lib fread)) (dflt (lib fread)) (Qty a (unit_dims u))) as RR.
  intros RR RF k H Hr. destruct RF as [r|e], RR as [r'|e']; try contradiction; [|exact H].
  destruct H as (H1 & H2 & H3). split; [exact H1|]. split; [exact H2|].
  induction H3 as [|x y l l' H3 _ IH]; constructor; [|exact IH]. unfold accurate in H3. eapply Rle_trans; [exact H3|].
  apply Rmult_le_compat_r; [apply Rabs_pos|]. eapply Rle_trans; [|apply macheps_bound'].
  assert (0 < macheps) by (apply Rinv_0_lt_compat, pow_lt; lra). apply Rmult_le_compat_r; lra.
Qed.

(** ** Examples *)
(** A correctly rounded power is faithful. *)
Definition ex_pw (x : R) (p : pynum) : R := rnd (rpow x p).
Lemma ex_pw_faithful : faithful ex_pw.
Proof.
  intros x p Hx. unfold ex_pw. pose proof (rpow_pos p Hx) as Hp. pose proof (rnd_err (rpow x p)) as H. rewrite (Rabs_pos_eq (rpow x p)) in H by lra.
  eapply Rle_trans; [exact H|]. apply Rmult_le_compat_r; [lra|]. pose proof macheps_eps as M. unfold macheps in M. rewrite M. pose proof eps_pos. lra.
Qed.
(** Three inches are 0.0762 m up to 1e-13. *)
Example ex_inch fread : exists r x, @rescale_to R (NumF ex_pw) (objs (flib ex_pw fread)) (Qty (scalar 3) (unit_dims (uL "inch"))) (unit_dims (uL "meter")) = Ok r /\
  dat (mag r) = [x] /\ Rabs (x - 762 / 10000) <= / 10 ^ 13 * (762 / 10000).
Proof.
  assert (Hz : In (Size (uL "inch") (254 # 10000) (unit_dims (uL "meter"))) standard_sizes).
  { unfold standard_sizes. apply in_or_app. left. unfold lengths. do 7 right. left. reflexivity. }
  destruct (C89_rescale fread _ (Qty (scalar 3) (unit_dims (uL "inch"))) Hz eq_refl eq_refl) as (r' & E' & Em & _). cbn [sz_of sz_factor mag] in E', Em.
  pose proof (C93_units ex_pw fread (scalar 3) (uL "inch") (uL "meter") ex_pw_faithful) as H. rewrite E' in H.
  set (RF := @rescale_to R (NumF ex_pw) (objs (flib ex_pw fread)) (Qty (scalar 3) (unit_dims (uL "inch"))) (unit_dims (uL "meter"))) in *.
  clearbody RF. destruct RF as [r|e]; [|contradiction H]. destruct H as (_ & _ & H3). rewrite Em in H3. cbn [amap scalar dat map] in H3.
  replace (Q2R (254 # 10000) * 3) with (762 / 10000) in H3 by (unfold Q2R; cbn; lra).
  inversion H3 as [|x y l l' Hx Hl E1 E2]. subst. inversion Hl. subst. exists r, x. split; [reflexivity|]. split; [now rewrite <- E1|].
  rewrite (Rabs_pos_eq (762 / 10000)) in Hx by lra. exact Hx.
Qed.
(** A metre and a foot differ enough for the comparison to be exact; the hypotheses of
    C94 and C95 are met by the library. *)
Example ex_compare pw fread : faithful pw -> exists w,
  env_near w (objs (flib pw fread)) (objs (lib fread)) /\
  roundings w (unit_dims (uL "foot")) + roundings w (unit_dims (uL "meter")) + 4 <= 2 ^ 50.
Proof.
  intros Hpw. destruct (C93_import pw fread Hpw) as (_ & _ & _ & _ & _ & w & Hw & HE). exists w. split; [exact HE|].
  apply small_pow. unfold unit_dims, uL. cbn [u_cls roundings].
  replace (Qc2R (pval (PInt 1))) with 1 by (unfold Qc2R, Q2R; cbn; lra). rewrite Rabs_R1.
  pose proof (Hw (UId CLength "foot")). pose proof (Hw (UId CLength "meter")). lra.
Qed.

Print Assumptions C90_accuracy.
Print Assumptions C90_definitions.
Print Assumptions C91_round_trip.
Print Assumptions C92_order.
Print Assumptions C93_import.
Print Assumptions C93_units.
Print Assumptions C94_addition.
Print Assumptions C94_products.
Print Assumptions C94_signs.
Print Assumptions C95_comparisons.
Print Assumptions C96_simplified.
Print Assumptions C96_library.
