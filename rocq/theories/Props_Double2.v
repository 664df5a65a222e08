(** * Props_Double2: operators, comparisons and conversions back and forth in double precision
    with its range of exponents (C125). *)
From Coq Require Import ZArith Reals Lra Lia Qreals Qabs Ascii NArith FunctionalExtensionality.
From Flocq Require Import Core Relative.
From Verif Require Import Py Num Dim DimFacts Arr ArrFacts Units Spec UnitFacts Quant QuantFacts ConvFacts Ufunc Ops OpsFacts
     Text Lex Registry RegFacts HistFacts Table Import TableFacts SpecSizes Props_Table Props_Ops Float SpecFloat FloatFacts LibFloat Props_Float
     HeapDims Double SpecDouble DoubleFacts LibDouble Props_Double.
Open Scope list_scope.
Open Scope R_scope.
(** ** C125: operators and comparisons *)
(** Specification-level: every element of [l] is a finite double close to the one of [l'],
    the bound depending on the pair of operands at that place. *)
Definition close_at (bound : R -> R -> R) (ps : list (R * R)) (l : list (option R)) (l' : list R) : Prop :=
  length l = length ps /\ length l' = length ps /\
  forall i a b x x', nth_error ps i = Some (a, b) -> nth_error l i = Some x -> nth_error l' i = Some x' ->
    exists z, x = Some z /\ Rabs (z - x') <= bound a b.
(** Specification-level: the outcome [sF] of [q + o] or [q - o] in doubles and the exact one [sR]. *)
Definition add_closeD (K : R) (ER : uenv R) (q o : qty R) (sF : res (qty (option R))) (sR : res (qty R)) : Prop :=
  match sF, sR with
  | Ok r, Ok r' =>
      qdim r = qdim r' /\ shp (mag r) = shp (mag r') /\
      exists o' ps, @rescale_to R NumR ER o (qdim q) = Ok o' /\ amap2 pair (mag q) (mag o') = Ok ps /\
        close_at (fun a b => (K + 1) * macheps * (Rabs a + Rabs b)) (dat ps) (dat (mag r)) (dat (mag r'))
  | Err e, Err e' => e = e'
  | _, _ => False
  end.
(** Specification-level: the quantity of finite doubles with the numbers of [q]. *)
Definition finite_qty (q : qty R) : qty (option R) := Qty (finite (mag q)) (qdim q).

Lemma In_pairs {A B} (a : arr A) (b : arr B) ps p : amap2 pair a b = Ok ps -> In p (dat ps) -> In (fst p) (dat a) /\ In (snd p) (dat b).
Proof.
  unfold amap2. destruct (bc_shape (shp a) (shp b)); [|discriminate]. intros H Hp. apply Ok_inj in H. subst ps. cbn [dat] in Hp.
  rewrite zip_with_pair in Hp. destruct p as [x y]. cbn [fst snd]. split; [apply in_combine_l in Hp|apply in_combine_r in Hp]; eapply In_expand; exact Hp.
Qed.
Lemma moderate_ln x : moderate x -> x <> 0 -> Rabs (ln (Rabs x)) <= 500 * ln 2.
Proof.
  intros [->|[H1 H2]] H0; [congruence|]. assert (HI : INR 500 = 500) by (rewrite INR_IZR_INZ; reflexivity).
  rewrite pow2_ln, HI in H1, H2. rewrite <- exp_Ropp in H1. pose proof (Rabs_pos_lt x H0). apply Rabs_le. split.
  - replace (- (500 * ln 2)) with (ln (exp (- (500 * ln 2)))) by apply ln_exp. apply ln_le'; auto. apply exp_pos.
  - rewrite <- (ln_exp (500 * ln 2)). now apply ln_le'.
Qed.
(** A number of the range of doubles, with room for one more operation. *)
(** Specification-level. *)
Definition wide (x : R) : Prop := x = 0 \/ Rabs (ln (Rabs x)) <= 1000 * ln 2.
Lemma moderate_wide x : moderate x -> wide x.
Proof.
  intros H. destruct (Req_dec x 0) as [|H0]; [now left|]. right. pose proof (moderate_ln x H H0). pose proof ln2_pos. lra.
Qed.
Lemma wide_bounds x : wide x -> x <> 0 -> bpow radix2 (-1000) <= Rabs x <= bpow radix2 1000.
Proof.
  intros [->|H] H0; [congruence|]. pose proof (Rabs_pos_lt x H0). rewrite !bpow_ln. apply Rabs_le_inv in H. split; rewrite <- (exp_ln (Rabs x)) by auto.
  - destruct (Req_dec (IZR (-1000) * ln 2) (ln (Rabs x))) as [->|]; [lra|]. apply Rlt_le, exp_increasing. lra.
  - destruct (Req_dec (ln (Rabs x)) (IZR 1000 * ln 2)) as [->|]; [lra|]. apply Rlt_le, exp_increasing. lra.
Qed.
(** Rounding below the overflow threshold: relative error or the smallest subnormal. *)
Lemma rndD_sum x : Rabs x <= bpow radix2 1010 -> exists z, rndD x = Some z /\ Rabs (z - x) <= eps * Rabs x + bpow radix2 (-1075).
Proof.
  intros H. unfold rndD. set (r := round _ _ _ _).
  destruct (error_N_FLT radix2 (-1074) 53 ltac:(lia) (fun z => negb (Z.even z)) x) as (e & h & He & Hh & _ & Hr).
  change (round radix2 (FLT_exp (-1074) 53) (Znearest (fun z : Z => negb (Z.even z))) x) with r in Hr.
  assert (E1 : / 2 * bpow radix2 (- (53) + 1) = eps).
  { unfold eps. replace (- (53) + 1)%Z with (- (52))%Z by lia. rewrite bpow_opp, bpow_powerRZ. change (powerRZ (IZR radix2) 52) with (2 ^ 52).
    replace (2 ^ 53) with (2 * 2 ^ 52) by (change 53%nat with (S 52); reflexivity). field. }
  assert (E2 : / 2 * bpow radix2 (-1074) = bpow radix2 (-1075)).
  { replace (-1075)%Z with (-1 + -1074)%Z by lia. rewrite bpow_plus. f_equal. }
  rewrite E1 in He. rewrite E2 in Hh.
  assert (G : Rabs (r - x) <= eps * Rabs x + bpow radix2 (-1075)).
  { rewrite Hr. replace (x * (1 + e) + h - x) with (e * x + h) by ring. eapply Rle_trans; [apply Rabs_triang|]. rewrite Rabs_mult.
    apply Rplus_le_compat; auto. apply Rmult_le_compat_r; auto. apply Rabs_pos. }
  assert (Hlt : Rabs r < bpow radix2 1024).
  { replace r with (x + (r - x)) by ring. eapply Rle_lt_trans; [apply Rabs_triang|].
    pose proof eps_small as S1. pose proof eps_pos. pose proof (bpow_le radix2 (-1075) 1010 ltac:(lia)) as B1.
    assert (B2 : bpow radix2 1024 = 16384 * bpow radix2 1010) by (replace 1024%Z with (14 + 1010)%Z by lia; rewrite bpow_plus; reflexivity).
    pose proof (bpow_gt_0 radix2 1010). pose proof (Rabs_pos x). nra. }
  rewrite Rlt_bool_true by exact Hlt. exists r. auto.
Qed.
Lemma sum_accurateD k a y y' : 0 <= k <= 490 -> wide a -> wide y' -> accurate k y y' ->
  exists z, rndD (a + y) = Some z /\ Rabs (z - (a + y')) <= (k + 1) * macheps * (Rabs a + Rabs y').
Proof.
  intros Hk Wa Wy H.
  assert (K50 : 490 <= 2 ^ 50).
  { replace 50%nat with (10 + 40)%nat by reflexivity. rewrite pow_add. assert (1 <= 2 ^ 40) by (apply pow_R1_Rle; lra).
    replace (2 ^ 10) with 1024 by (simpl; lra). lra. }
  pose proof (K_small k ltac:(lra)) as Ks. unfold accurate in H.
  assert (D : (a = 0 /\ y' = 0) \/ (a <> 0 \/ y' <> 0)) by (destruct (Req_dec a 0), (Req_dec y' 0); tauto).
  destruct D as [[-> ->]|D].
  { rewrite Rabs_R0, Rmult_0_r in H. pose proof (Rabs_pos (y - 0)). assert (E : Rabs (y - 0) = 0) by lra.
    assert (y = 0) as ->. { destruct (Req_dec y 0) as [|Y]; [auto|]. exfalso. apply (Rabs_no_R0 (y - 0)); [lra|exact E]. }
    exists 0. rewrite Rplus_0_r. split; [apply rndD_0|]. rewrite Rminus_0_r, Rabs_R0. lra. }
  pose proof (Rabs_pos a) as P1. pose proof (Rabs_pos y') as P2. pose proof (bpow_gt_0 radix2 1000) as P3. pose proof (bpow_gt_0 radix2 (-1000)) as P4.
  assert (Hbig : bpow radix2 (-1000) <= Rabs a + Rabs y' <= 2 * bpow radix2 1000).
  { assert (A1 : Rabs a = 0 \/ bpow radix2 (-1000) <= Rabs a <= bpow radix2 1000) by (destruct (Req_dec a 0) as [->|]; [left; apply Rabs_R0|right; now apply wide_bounds]).
    assert (A2 : Rabs y' = 0 \/ bpow radix2 (-1000) <= Rabs y' <= bpow radix2 1000) by (destruct (Req_dec y' 0) as [->|]; [left; apply Rabs_R0|right; now apply wide_bounds]).
    assert (A3 : ~ (Rabs a = 0 /\ Rabs y' = 0)) by (intros [X Y]; destruct D as [D|D]; apply Rabs_no_R0 in D; contradiction).
    destruct A1 as [A1|A1], A2 as [A2|A2]; try lra. }
  assert (Hy : Rabs y <= Rabs y' + Rabs (y - y')) by (replace y with (y' + (y - y')) at 1 by ring; apply Rabs_triang).
  pose proof (Rabs_triang a y) as T1. assert (B1 : Rabs (y - y') <= / 4 * Rabs y') by nra.
  destruct (rndD_sum (a + y)) as (z & Ez & Hz).
  { assert (B2 : bpow radix2 1010 = 1024 * bpow radix2 1000) by (replace 1010%Z with (10 + 1000)%Z by lia; rewrite bpow_plus; reflexivity). lra. }
  exists z. split; [exact Ez|].
  replace (z - (a + y')) with ((z - (a + y)) + (y - y')) by ring. eapply Rle_trans; [apply Rabs_triang|].
  rewrite macheps_eps in *. pose proof eps_pos as E0.
  assert (Ht : bpow radix2 (-1075) <= / 4 * (eps * bpow radix2 (-1000))).
  { unfold eps. replace (-1075)%Z with (- (75) + -1000)%Z by lia. rewrite bpow_plus, bpow_opp, bpow_powerRZ. change (powerRZ (IZR radix2) 75) with (2 ^ 75).
    rewrite <- Rmult_assoc. apply Rmult_le_compat_r; [lra|]. assert (Q : 0 < 2 ^ 53) by (apply pow_lt; lra).
    replace (/ 4 * / 2 ^ 53) with (/ (4 * 2 ^ 53)) by (field; lra). apply Rinv_le_contravar; [lra|].
    replace 75%nat with (53 + 22)%nat by reflexivity. rewrite pow_add. replace (2 ^ 22) with 4194304 by (simpl; lra). nra. }
  assert (B3 : eps * Rabs (a + y) <= eps * (Rabs a + 5 / 4 * Rabs y')) by (apply Rmult_le_compat_l; lra).
  assert (B4 : eps * bpow radix2 (-1000) <= eps * (Rabs a + Rabs y')) by (apply Rmult_le_compat_l; lra).
  assert (B5 : 0 <= k * (2 * eps) * Rabs a) by (apply Rmult_le_pos; [apply Rmult_le_pos; lra|auto]).
  assert (B6 : 0 <= eps * Rabs y') by (apply Rmult_le_pos; lra). assert (B7 : 0 <= eps * Rabs a) by (apply Rmult_le_pos; lra).
  nra.
Qed.
(** Both conversions are elementwise; on moderate numbers they agree up to [K] machine
    epsilons and their results are in the range. *)
Lemma rescale_bothD pw w (ED : uenv (option R)) (ER : uenv R) (q : qty R) d :
  faithfulD pw -> env_nearD pw w ED ER -> roundings w (qdim q) + roundings w d <= 480 ->
  (exists f f' t, @rescale_to _ (NumD pw) ED (finite_qty q) d = Ok (Qty (amap f (mag q)) t) /\ @rescale_to R NumR ER q d = Ok (Qty (amap f' (mag q)) t) /\
     (dim_eqb (qdim q) d = true -> (forall x, f x = Some x) /\ forall x, f' x = x) /\
     forall x, moderate x -> accurateD (roundings w (qdim q) + roundings w d + 4) (f x) (f' x) /\ wide (f' x)) \/
  (exists e, @rescale_to _ (NumD pw) ED (finite_qty q) d = Err e /\ @rescale_to R NumR ER q d = Err e).
Proof.
  intros Hpw HE HK. pose proof (env_nearD_w _ _ _ _ HE) as Hw. pose proof (roundings_nn w (qdim q) Hw). pose proof (roundings_nn w d Hw).
  unfold rescale_to. change (qdim (finite_qty q)) with (qdim q). destruct (dim_eqb (qdim q) d).
  - left. exists Some, (fun x => x), (qdim q). split; [reflexivity|]. split; [|split; [auto|]].
    + unfold amap. rewrite map_id. now destruct q as [[s l] t].
    + intros x Hx. split; [|now apply moderate_wide]. exists x. split; [reflexivity|]. apply accurate_refl. lra.
  - pose proof (conv_factor_nearD pw Hpw w ED ER (qdim q) d HE ltac:(lra)) as C. cbn [finite_qty qdim mag].
    destruct (@conv_factor _ (NumD pw) ED (qdim q) d) as [c|e], (@conv_factor R NumR ER (qdim q) d) as [c'|e']; try contradiction.
    + left. exists (fun x => @nmul _ (NumD pw) c (Some x)), (fun x => c' * x), d. split; [|split; [reflexivity|split; [discriminate|]]].
      * unfold finite. cbn [mag]. rewrite amap_amap. reflexivity.
      * intros x Hx. split.
        { replace (roundings w (qdim q) + roundings w d + 4) with (roundings w (qdim q) + roundings w d + 3 + 1) by ring. apply scaleD_accurate; auto. lra. }
        destruct (Req_dec x 0) as [->|Nx]; [left; apply Rmult_0_r|]. right. destruct C as (z & _ & (_ & Hc & _) & L). pose proof ln2_pos.
        rewrite Rabs_mult, (Rabs_pos_eq c') by lra. rewrite ln_mult by (auto; now apply Rabs_pos_lt). eapply Rle_trans; [apply Rabs_triang|].
        pose proof (moderate_ln x Hx Nx). nra.
    + right. subst e'. destruct e; eexists; split; reflexivity.
Qed.

Lemma op_closeD pw w (ED : uenv (option R)) (ER : uenv R) (q o : qty R) (g : option R -> option R -> option R) (g' : R -> R -> R) :
  faithfulD pw -> env_nearD pw w ED ER -> roundings w (qdim o) + roundings w (qdim q) <= 480 ->
  Forall moderate (dat (mag q)) -> Forall moderate (dat (mag o)) ->
  (forall k a y y', 0 <= k <= 490 -> wide a -> wide y' -> accurateD k y y' ->
     exists z, g (Some a) y = Some z /\ Rabs (z - g' a y') <= (k + 1) * macheps * (Rabs a + Rabs y')) ->
  add_closeD (roundings w (qdim o) + roundings w (qdim q) + 4) ER q o
    (o' <- @scale_other _ (NumD pw) ED (finite_qty q) (OQ (finite_qty o)) ;; @apply2 _ (NumD pw) _ g RUniform (OQ (finite_qty q)) (OQ o'))
    (o' <- @scale_other R NumR ER q (OQ o) ;; @apply2 R NumR R g' RUniform (OQ q) (OQ o')).
Proof.
  intros Hpw HE HK Hq Ho Hg. rewrite (@Props_Float.scale_other_rescale _ (NumD pw)), (@Props_Float.scale_other_rescale R NumR).
  pose proof (env_nearD_w _ _ _ _ HE) as Hw. pose proof (roundings_nn w (qdim o) Hw). pose proof (roundings_nn w (qdim q) Hw).
  change (qdim (finite_qty q)) with (qdim q).
  destruct (rescale_bothD pw w ED ER o (qdim q) Hpw HE HK) as [(f & f' & t & E1 & E2 & _ & Hf)|(e & E1 & E2)].
  2:{ rewrite E1, E2. reflexivity. }
  rewrite E1, E2. cbn [bind]. unfold apply2. cbn [odat mag finite_qty].
  assert (Hm : forall (h : R -> R -> R) (k : R -> R), amap2 h (mag q) (amap k (mag o)) = amap2 (fun x y => h x (k y)) (mag q) (mag o)).
  { intros h k. rewrite <- (amap2_amap h (fun x => x) k). f_equal. unfold amap. rewrite map_id. now destruct (mag q). }
  unfold finite. rewrite (amap2_amap g (@Some R) f), Hm, (amap2_pair (fun x y => g (Some x) (f y))), (amap2_pair (fun x y => g' x (f' y))).
  destruct (amap2 pair (mag q) (mag o)) as [ps|e] eqn:Ep; cbn [rmap bind]; [|reflexivity].
  unfold pd2. change (qdim (finite_qty q)) with (qdim q). cbn [qdim]. destruct (dim_eqb (qdim q) t); cbn [bind add_closeD]; [|exact eq_refl].
  cbn [qdim mag amap shp dat]. split; [reflexivity|]. split; [reflexivity|].
  exists (Qty (amap f' (mag o)) t), (amap (fun p => (fst p, f' (snd p))) ps). split; [exact E2|]. cbn [mag].
  split.
  - rewrite (amap2_pair pair). replace (amap2 pair (mag q) (amap f' (mag o))) with (rmap (amap (fun p : R * R => (fst p, f' (snd p)))) (amap2 pair (mag q) (mag o))).
    + rewrite Ep. cbn [rmap]. unfold amap. cbn [shp dat]. rewrite map_map. reflexivity.
    + rewrite <- (amap2_pair (fun x y => (x, f' y))). rewrite <- (amap2_amap pair (fun x => x) f'). f_equal. unfold amap. rewrite map_id. now destruct (mag q).
  - unfold close_at. cbn [amap dat]. rewrite !map_length. split; [reflexivity|]. split; [reflexivity|].
    intros i a b x x' Hp Hx Hx'. rewrite nth_error_map in Hp, Hx, Hx'.
    destruct (nth_error (dat ps) i) as [[a0 b0]|] eqn:En; [|discriminate Hp]. cbn [option_map fst snd] in *.
    assert (a0 = a) as -> by congruence. assert (b = f' b0) as -> by congruence.
    assert (x = g (Some a) (f b0)) as -> by congruence. assert (x' = g' a (f' b0)) as -> by congruence.
    apply nth_error_In in En. apply (In_pairs (mag q) (mag o) ps (a, b0) Ep) in En. cbn [fst snd] in En. destruct En as [I1 I2].
    rewrite Forall_forall in Hq, Ho. destruct (Hf b0 (Ho b0 I2)) as [Ha Wb]. apply Hg; auto; [lra|]. apply moderate_wide. now apply Hq.
Qed.
(** [q + o] and [q - o] of moderate numbers never overflow, fail exactly as in exact
    arithmetic, and every element [a + b] is off by at most the roundings of the conversion
    and one more, relative to |a| + |b|. *)
Theorem C125_addition : forall pw w (ED : uenv (option R)) (ER : uenv R) (q o : qty R),
  faithfulD pw -> env_nearD pw w ED ER -> roundings w (qdim o) + roundings w (qdim q) <= 480 ->
  Forall moderate (dat (mag q)) -> Forall moderate (dat (mag o)) ->
  add_closeD (roundings w (qdim o) + roundings w (qdim q) + 4) ER q o
    (@q_add _ (NumD pw) ED (finite_qty q) (OQ (finite_qty o))) (@q_add R NumR ER q (OQ o)) /\
  add_closeD (roundings w (qdim o) + roundings w (qdim q) + 4) ER q o
    (@q_sub _ (NumD pw) ED (finite_qty q) (OQ (finite_qty o))) (@q_sub R NumR ER q (OQ o)).
Proof.
  intros pw w ED ER q o Hpw HE HK Hq Ho. split; apply op_closeD; auto; intros k a y y' Hk Wa Wy (x & -> & Hy); cbn [nadd nsub NumD NumR on2].
  - now apply sum_accurateD.
  - replace (a - x) with (a + - x) by ring. replace (a - y') with (a + - y') by ring. rewrite <- (Rabs_Ropp y').
    apply sum_accurateD; auto.
    + destruct Wy as [->|Wy]; [left; ring|right]. now rewrite Rabs_Ropp.
    + unfold accurate in *. replace (- x - - y') with (- (x - y')) by ring. now rewrite !Rabs_Ropp.
Qed.
(** Products of moderate numbers, and quotients by moderate numbers other than zero: one
    rounding per element, no overflow. *)
Theorem C125_products : forall pw (q o : qty R), Forall moderate (dat (mag q)) -> Forall moderate (dat (mag o)) ->
  let close (sF : res (qty (option R))) (sR : res (qty R)) := match sF, sR with
    | Ok r, Ok r' => qdim r = qdim r' /\ shp (mag r) = shp (mag r') /\ Forall2 (accurateD 1) (dat (mag r)) (dat (mag r'))
    | Err e, Err e' => e = e'
    | _, _ => False
    end in
  close (@q_mul _ (NumD pw) (OQ (finite_qty q)) (OQ (finite_qty o))) (@q_mul R NumR (OQ q) (OQ o)) /\
  (Forall (fun x => x <> 0) (dat (mag o)) ->
   close (@q_div _ (NumD pw) (OQ (finite_qty q)) (OQ (finite_qty o))) (@q_div R NumR (OQ q) (OQ o))).
Proof.
  intros pw q o Hq Ho close.
  assert (G : forall r (g : option R -> option R -> option R) (g' : R -> R -> R),
    (forall a b, In a (dat (mag q)) -> In b (dat (mag o)) -> accurateD 1 (g (Some a) (Some b)) (g' a b)) ->
    close (@apply2 _ (NumD pw) _ g r (OQ (finite_qty q)) (OQ (finite_qty o))) (@apply2 R NumR R g' r (OQ q) (OQ o))).
  { intros r g g' Hg. unfold apply2. cbn [odat mag finite_qty]. unfold finite.
    rewrite (amap2_amap g (@Some R) (@Some R)), (amap2_pair (fun x y => g (Some x) (Some y))), (amap2_pair g').
    destruct (amap2 pair (mag q) (mag o)) as [ps|e] eqn:Ep; cbn [rmap bind]; [|reflexivity].
    assert (HP : @pd2 _ (NumD pw) r (OQ (finite_qty q)) (OQ (finite_qty o)) = @pd2 R NumR r (OQ q) (OQ o)) by (now destruct r).
    rewrite HP.
    destruct (@pd2 R NumR r (OQ q) (OQ o)) as [d|e]; cbn [bind]; [|reflexivity].
    unfold close. cbn [qdim mag amap shp dat]. split; [reflexivity|]. split; [reflexivity|].
    assert (HI : forall p, In p (dat ps) -> accurateD 1 (g (Some (fst p)) (Some (snd p))) (g' (fst p) (snd p))).
    { intros p Hp. destruct (In_pairs _ _ ps p Ep Hp). now apply Hg. }
    induction (dat ps) as [|p l IH]; cbn [map]; constructor; [apply HI; now left|apply IH; intros x Hx; apply HI; now right]. }
  assert (Hr : forall x, wide x -> accurateD 1 (rndD x) x).
  { intros x Hx. exists (rnd x). split.
    - destruct (Req_dec x 0) as [->|Nx]; [rewrite rnd_0; apply rndD_0|]. destruct (wide_bounds x Hx Nx).
      pose proof (bpow_le radix2 (-1022) (-1000) ltac:(lia)). pose proof (bpow_le radix2 1000 1020 ltac:(lia)). apply rndD_mid; lra.
    - unfold accurate. eapply Rle_trans; [apply rnd_err|]. rewrite macheps_eps. pose proof eps_pos. pose proof (Rabs_pos x). nra. }
  rewrite Forall_forall in Hq, Ho. pose proof ln2_pos as L2. split; [|intros Hz; rewrite Forall_forall in Hz].
  - apply (G RMul). intros a b Ia Ib. cbn [nmul NumD NumR on2]. apply Hr.
    destruct (Req_dec a 0) as [->|Na]; [left; ring|]. destruct (Req_dec b 0) as [->|Nb]; [left; ring|]. right.
    pose proof (moderate_ln a (Hq a Ia) Na). pose proof (moderate_ln b (Ho b Ib) Nb).
    rewrite Rabs_mult, ln_mult by (now apply Rabs_pos_lt). eapply Rle_trans; [apply Rabs_triang|]. lra.
  - apply (G RDiv). intros a b Ia Ib. cbn [ndiv NumD NumR on2]. specialize (Hz b Ib).
    unfold Reqb. destruct (Req_EM_T b 0) as [|_]; [contradiction|]. apply Hr.
    destruct (Req_dec a 0) as [->|Na]; [left; unfold Rdiv; ring|]. right.
    pose proof (moderate_ln a (Hq a Ia) Na). pose proof (moderate_ln b (Ho b Ib) Hz).
    unfold Rdiv. rewrite Rabs_mult, Rabs_inv, ln_mult, ln_Rinv by (try apply Rinv_0_lt_compat; now apply Rabs_pos_lt).
    eapply Rle_trans; [apply Rabs_triang|]. rewrite Rabs_Ropp. lra.
Qed.
(** The order comparisons, [==] and [!=] of moderate numbers: as in exact arithmetic unless
    the compared numbers agree up to the roundings of the conversion. *)
Theorem C125_comparisons : forall pw w (ED : uenv (option R)) (ER : uenv R) (q o : qty R) c,
  faithfulD pw -> env_nearD pw w ED ER -> roundings w (qdim o) + roundings w (qdim q) <= 480 ->
  Forall moderate (dat (mag q)) -> Forall moderate (dat (mag o)) ->
  cmp_close (roundings w (qdim o) + roundings w (qdim q) + 4) ER q o
    (@q_order _ (NumD pw) ED c (finite_qty q) (OQ (finite_qty o))) (@q_order R NumR ER c q (OQ o)) /\
  cmp_close (roundings w (qdim o) + roundings w (qdim q) + 4) ER q o
    (@q_eqne _ (NumD pw) ED c (finite_qty q) (OQ (finite_qty o))) (@q_eqne R NumR ER c q (OQ o)).
Proof.
  intros pw w ED ER q o c Hpw HE HK Hq Ho.
  assert (Hord : forall {A} {N : Num A} (E : uenv A) (q o : qty A), q_order E c q (OQ o) =
     match rescale_to E o (qdim q) with Ok r => amap2 (ncmp c) (mag q) (mag r) | Err e => Err e end).
  { intros A N E q0 o0. unfold q_order, rescale_to. destruct (dim_eqb (qdim o0) (qdim q0)); cbn [bind]; [reflexivity|].
    destruct (conv_factor E (qdim o0) (qdim q0)) as [x|x]; [reflexivity|]. now destruct x. }
  set (K := roundings w (qdim o) + roundings w (qdim q) + 4) in *.
  assert (G : forall f f' t, @rescale_to _ (NumD pw) ED (finite_qty o) (qdim q) = Ok (Qty (amap f (mag o)) t) ->
     @rescale_to R NumR ER o (qdim q) = Ok (Qty (amap f' (mag o)) t) -> (forall x, moderate x -> accurateD K (f x) (f' x)) ->
     (dim_eqb (qdim o) (qdim q) = true -> (forall x, f x = Some x) /\ forall x, f' x = x) ->
     cmp_close K ER q o (amap2 (@ncmp _ (NumD pw) c) (mag (finite_qty q)) (amap f (mag o))) (amap2 (@ncmp R NumR c) (mag q) (amap f' (mag o)))).
  { intros f f' t E1 E2 Hf Hid. cbn [finite_qty mag]. unfold finite.
    assert (Hm : forall {X} (h : R -> R -> X) (k : R -> R), amap2 h (mag q) (amap k (mag o)) = amap2 (fun x y => h x (k y)) (mag q) (mag o)).
    { intros X h k. rewrite <- (amap2_amap h (fun x => x) k). f_equal. unfold amap. rewrite map_id. now destruct (mag q). }
    rewrite (amap2_amap (@ncmp _ (NumD pw) c) (@Some R) f), Hm, (amap2_pair (fun x y => @ncmp _ (NumD pw) c (Some x) (f y))), (amap2_pair (fun x y => ncmp c x (f' y))).
    assert (Hs : forall x y, @ncmp _ (NumD pw) c (Some x) (Some y) = @ncmp R NumR c x y) by (intros x y; now destruct c).
    destruct (amap2 pair (mag q) (mag o)) as [ps|e] eqn:Ep; cbn [rmap cmp_close]; [|reflexivity].
    split; [reflexivity|]. cbn [amap dat]. split; [now rewrite !map_length|]. split.
    - intros Hd. destruct (Hid Hd) as [H1 H2]. unfold amap. f_equal. apply map_ext. intros p. now rewrite H1, H2, Hs.
    - intros o' ps' Ho' Hps' i a b Hp Hlt. rewrite E2 in Ho'. assert (o' = Qty (amap f' (mag o)) t) as -> by congruence. cbn [mag] in Hps'.
      rewrite Hm, (amap2_pair (fun x y => (x, f' y))), Ep in Hps'. cbn [rmap] in Hps'.
      assert (ps' = amap (fun p : R * R => (fst p, f' (snd p))) ps) as -> by congruence. cbn [amap dat] in Hp.
      rewrite nth_error_map in Hp. rewrite !nth_error_map. destruct (nth_error (dat ps) i) as [[a0 b0]|] eqn:En; [|reflexivity].
      cbn [option_map fst snd] in *. assert (a0 = a) as -> by congruence. assert (b = f' b0) as -> by congruence.
      apply nth_error_In in En. destruct (In_pairs _ _ ps (a, b0) Ep En) as [_ I2]. cbn [snd] in I2.
      rewrite Forall_forall in Ho. destruct (Hf b0 (Ho b0 I2)) as (y & Ey & Hy). f_equal. rewrite Ey, Hs. now apply (cmp_stable K). }
  change (qdim (finite_qty q)) with (qdim q).
  destruct (rescale_bothD pw w ED ER o (qdim q) Hpw HE HK) as [(f & f' & t & E1 & E2 & Hid & Hf)|(e & E1 & E2)].
  - assert (Hf' : forall x, moderate x -> accurateD K (f x) (f' x)) by (intros x Hx; exact (proj1 (Hf x Hx))). split.
    + rewrite (Hord _ (NumD pw)), (Hord R NumR). change (qdim (finite_qty q)) with (qdim q). rewrite E1, E2. cbn [mag]. eapply G; eauto.
    + unfold q_eqne. change (qdim (finite_qty q)) with (qdim q). rewrite E1, E2. cbn [mag]. eapply G; eauto.
  - split.
    + rewrite (Hord _ (NumD pw)), (Hord R NumR). change (qdim (finite_qty q)) with (qdim q). rewrite E1, E2. reflexivity.
    + unfold q_eqne. change (qdim (finite_qty q)) with (qdim q). rewrite E1, E2. cbn [finite_qty mag]. unfold finite. rewrite amap_amap. destruct e; cbn [cmp_close]; try reflexivity.
      split; [reflexivity|]. split; [reflexivity|]. split; [reflexivity|]. intros o' ps Ho'. congruence.
Qed.

(** Any two built-in units. *)
Theorem C125_library : forall pw fread (a b : arr R) u v c, faithfulD pw -> Forall moderate (dat a) -> Forall moderate (dat b) ->
  exists K, (K + 1) * macheps <= / 10 ^ 13 /\
  let ED := objs (dlib pw fread) in let ER := objs (lib fread) in
  let q := Qty a (unit_dims u) in let o := Qty b (unit_dims v) in
  add_closeD K ER q o (@q_add _ (NumD pw) ED (finite_qty q) (OQ (finite_qty o))) (@q_add R NumR ER q (OQ o)) /\
  add_closeD K ER q o (@q_sub _ (NumD pw) ED (finite_qty q) (OQ (finite_qty o))) (@q_sub R NumR ER q (OQ o)) /\
  cmp_close K ER q o (@q_order _ (NumD pw) ED c (finite_qty q) (OQ (finite_qty o))) (@q_order R NumR ER c q (OQ o)) /\
  cmp_close K ER q o (@q_eqne _ (NumD pw) ED c (finite_qty q) (OQ (finite_qty o))) (@q_eqne R NumR ER c q (OQ o)).
Proof.
  intros pw fread a b u v c Hpw Ha Hb. destruct (C123_import pw fread Hpw) as (_ & _ & _ & _ & _ & w & Hw & HE).
  revert HE. generalize (objs (dlib pw fread)) as ED, (objs (lib fread)) as ER. intros ED ER HE.
  pose proof (roundings_one w u 164 Hw) as Ru. pose proof (roundings_one w v 164 Hw) as Rv.
  exists (roundings w (unit_dims v) + roundings w (unit_dims u) + 4). split.
  - eapply Rle_trans; [|apply macheps_450]. assert (0 < macheps) by (apply Rinv_0_lt_compat, pow_lt; lra). apply Rmult_le_compat_r; lra.
  - intros ED' ER' q o. subst ED' ER'.
    destruct (C125_addition pw w ED ER q o Hpw HE ltac:(cbn [qdim q o]; lra) Ha Hb) as [A1 A2].
    destruct (C125_comparisons pw w ED ER q o c Hpw HE ltac:(cbn [qdim q o]; lra) Ha Hb) as [B1 B2].
    split; [exact A1|]. split; [exact A2|]. split; [exact B1|exact B2].
Qed.
Lemma near_ln_le k x y B : near k x y -> 0 <= k <= 100 -> Rabs (ln y) <= B * ln 2 -> Rabs (ln x) <= (B + 1) * ln 2.
Proof.
  intros (H1 & H2 & H3) Hk H4. pose proof elog_ln2 as L. pose proof ln2_pos. assert (k * elog <= ln 2) by nra.
  replace (ln x) with ((ln x - ln y) + ln y) by ring. eapply Rle_trans; [apply Rabs_triang|]. lra.
Qed.
Lemma rndD_pm y x : Rabs (ln y) <= 1020 * ln 2 -> 0 < y -> (x = y \/ x = - y) -> rndD x = Some (rnd x).
Proof.
  intros H Hy [-> | ->]; [now apply rndD_ln|]. now rewrite rndD_opp, (rndD_ln y Hy H), rnd_opp.
Qed.
Lemma scale2D c c' x : near 2 (c * c') 1 -> 0 < c -> 0 < c' -> Rabs (ln c) <= 490 * ln 2 -> moderate x ->
  rndD (c * x) = Some (rnd (c * x)) /\ rndD (c' * rnd (c * x)) = Some (rnd (c' * rnd (c * x))).
Proof.
  intros H Hc Hc' Lc Hx. pose proof ln2_pos as L2. destruct (Req_dec x 0) as [->|Nx].
  { rewrite Rmult_0_r, rnd_0, Rmult_0_r, rnd_0. split; apply rndD_0. }
  pose proof (moderate_ln x Hx Nx) as Lx. pose proof (Rabs_pos_lt x Nx) as Px.
  assert (Hcx : 0 < c * Rabs x) by now apply Rmult_lt_0_compat.
  assert (L1 : Rabs (ln (c * Rabs x)) <= 990 * ln 2) by (rewrite ln_mult by auto; eapply Rle_trans; [apply Rabs_triang|]; lra).
  assert (G : near 3 (c' * rnd (c * Rabs x)) (Rabs x)).
  { assert (G : near (0 + 1) (c' * rnd (c * Rabs x)) (c' * (c * Rabs x))) by (apply near_mul; [now apply near_refl|now apply near_rnd]).
    replace 3 with ((0 + 1) + (2 + 0)) by ring. eapply near_trans; [exact G|].
    replace (c' * (c * Rabs x)) with (c * c' * Rabs x) by ring. rewrite <- (Rmult_1_l (Rabs x)) at 2. apply near_mul; [exact H|now apply near_refl]. }
  pose proof (near_ln_le 3 _ _ 500 G ltac:(lra) Lx) as L3. pose proof (proj1 G) as P3.
  split.
  - apply (rndD_pm (c * Rabs x)); [lra|exact Hcx|]. destruct (Rle_or_lt 0 x); [left; now rewrite Rabs_pos_eq|right; rewrite Rabs_left by lra; ring].
  - apply (rndD_pm (c' * rnd (c * Rabs x))); [lra|exact P3|]. destruct (Rle_or_lt 0 x); [left; now rewrite Rabs_pos_eq|right; rewrite Rabs_left by lra].
    replace (c * - x) with (- (c * x)) by ring. rewrite rnd_opp. ring.
Qed.
(** Converting moderate numbers to other units and back: no overflow in between, and no
    element changes by more than four machine epsilons. *)
Theorem C125_round_trip : forall pw w (ED : uenv (option R)) (ER : uenv R) (q : qty R) d r,
  faithfulD pw -> env_nearD pw w ED ER -> renv_ok ER -> dims_ok (qdim q) -> dims_ok d ->
  roundings w (qdim q) + roundings w d <= 480 -> Forall moderate (dat (mag q)) ->
  @rescale_to _ (NumD pw) ED (finite_qty q) d = Ok r ->
  exists q', @rescale_to _ (NumD pw) ED r (qdim q) = Ok q' /\ qdim q' = qdim q /\ shp (mag q') = shp (mag q) /\
             Forall2 (accurateD 4) (dat (mag q')) (dat (mag q)).
Proof.
  intros pw w ED ER q d r Hpw HE HO Wq Wd HK Hm. pose proof (env_nearD_w _ _ _ _ HE) as Hw.
  pose proof (roundings_nn w (qdim q) Hw) as K1. pose proof (roundings_nn w d Hw) as K2. pose proof ln2_pos as L2.
  unfold rescale_to at 1. change (qdim (finite_qty q)) with (qdim q). destruct (dim_eqb (qdim q) d) eqn:Eq.
  - intros H. apply Ok_inj in H. subst r. unfold rescale_to. change (qdim (finite_qty q)) with (qdim q). rewrite dim_eqb_refl by apply Wq.
    exists (finite_qty q). split; [reflexivity|]. split; [reflexivity|]. split; [reflexivity|].
    cbn [finite_qty mag finite amap dat]. induction (dat (mag q)) as [|x l IH]; cbn [map]; constructor; [|apply IH; now inversion Hm].
    exists x. split; [reflexivity|]. apply accurate_refl. lra.
  - destruct (@conv_factor _ (NumD pw) ED (qdim q) d) as [c|e] eqn:Ec; [|intros H; destruct e; discriminate].
    intros H. apply Ok_inj in H. subst r. unfold rescale_to. cbn [qdim mag]. rewrite dim_eqb_sym, Eq by (try apply Wq; apply Wd).
    destruct (ref_pair_nearD pw Hpw w ED ER (qdim q) HE ltac:(lra)) as [A1 (a0 & A2 & A3 & A4)].
    destruct (ref_pair_nearD pw Hpw w ED ER d HE ltac:(lra)) as [B1 (b0 & B2 & B3 & B4)].
    unfold conv_factor, qty_ref in *. cbn [fst snd] in *. rewrite A1, B1, A2, B2 in *.
    rewrite dim_eqb_sym by (apply (ref_pair_wf _ ER HO)).
    destruct (dim_eqb (snd (@ref_pair R NumR ER (qdim q))) (snd (@ref_pair R NumR ER d))); [|discriminate].
    apply Ok_inj in Ec. cbn [nmul ndiv n1 NumD on2] in Ec. cbn [nmul ndiv n1 NumD on2]. rewrite !Rmult_1_r in *.
    pose proof (near_ln _ _ _ A3 A4) as A5. pose proof (near_ln _ _ _ B3 B4) as B5.
    assert (Pa : 0 < a0) by apply A3. assert (Pb : 0 < b0) by apply B3.
    rewrite !(rndD_ln a0), !(rndD_ln b0) in * by (auto; nra). cbn [on2] in *.
    set (a := rnd a0) in *. set (b := rnd b0) in *.
    assert (Ha : 0 < a) by now apply rnd_pos. assert (Hb : 0 < b) by now apply rnd_pos.
    assert (Na : near 1 a a0) by now apply near_rnd. assert (Nb : near 1 b b0) by now apply near_rnd.
    assert (Lab : Rabs (ln (a / b)) <= 487 * ln 2).
    { pose proof (near_ln_le 1 a a0 (roundings w (qdim q) * (101 / 100)) Na ltac:(lra) A5) as X1.
      pose proof (near_ln_le 1 b b0 (roundings w d * (101 / 100)) Nb ltac:(lra) B5) as X2.
      unfold Rdiv at 1. rewrite ln_mult, ln_Rinv by (auto; now apply Rinv_0_lt_compat). eapply Rle_trans; [apply Rabs_triang|]. rewrite Rabs_Ropp. nra. }
    assert (Lba : ln (b / a) = - ln (a / b)).
    { unfold Rdiv. rewrite !ln_mult, !ln_Rinv by (auto; now apply Rinv_0_lt_compat). ring. }
    assert (Hab : 0 < a / b) by now apply Rdiv_lt_0_compat. assert (Hba : 0 < b / a) by now apply Rdiv_lt_0_compat.
    unfold Reqb in *. destruct (Req_EM_T b 0) as [X|_]; [lra|]. destruct (Req_EM_T a 0) as [X|_]; [lra|].
    rewrite (rndD_ln (a / b)) in Ec by (auto; lra). rewrite (rndD_ln (b / a)) by (auto; rewrite Lba, Rabs_Ropp; lra). subst c.
    eexists. split; [reflexivity|]. cbn [qdim mag amap shp dat finite_qty finite]. split; [reflexivity|]. split; [reflexivity|].
    assert (Hc : 0 < rnd (a / b)) by now apply rnd_pos. assert (Hc' : 0 < rnd (b / a)) by now apply rnd_pos.
    assert (Hcc : near 2 (rnd (a / b) * rnd (b / a)) 1).
    { replace 2 with (1 + 1) by ring. replace 1 with (a / b * (b / a)) at 3 by (field; lra). apply near_mul; now apply near_rnd. }
    assert (Lc : Rabs (ln (rnd (a / b))) <= 490 * ln 2).
    { pose proof (near_ln_le 1 _ _ 487 (near_rnd _ Hab) ltac:(lra) Lab). lra. }
    rewrite !map_map. induction (dat (mag q)) as [|x l IH]; cbn [map]; constructor; [|apply IH; now inversion Hm].
    assert (Mx : moderate x) by now inversion Hm. destruct (scale2D _ _ x Hcc Hc Hc' Lc Mx) as [S1 S2].
    cbn [nmul NumD on2]. rewrite S1. cbn [on2]. rewrite S2. eexists. split; [reflexivity|]. now apply accurate_scale2.
Qed.
(** Any two built-in units. *)
Theorem C125_round_trip_library : forall pw fread (a : arr R) u v r, faithfulD pw -> Forall moderate (dat a) ->
  @rescale_to _ (NumD pw) (objs (dlib pw fread)) (Qty (finite a) (unit_dims u)) (unit_dims v) = Ok r ->
  exists q', @rescale_to _ (NumD pw) (objs (dlib pw fread)) r (unit_dims u) = Ok q' /\ qdim q' = unit_dims u /\ shp (mag q') = shp a /\
             Forall2 (accurateD 4) (dat (mag q')) (dat a).
Proof.
  intros pw fread a u v r Hpw Ha. destruct (C123_import pw fread Hpw) as (_ & _ & _ & _ & _ & w & Hw & HE). pose proof (lib_env fread) as HO.
  revert HE HO. generalize (objs (dlib pw fread)) as ED, (objs (lib fread)) as ER. intros ED ER HE HO Hr.
  pose proof (roundings_one w u 164 Hw) as Ru. pose proof (roundings_one w v 164 Hw) as Rv.
  apply (C125_round_trip pw w ED ER (Qty a (unit_dims u)) (unit_dims v) r); auto; try apply dims_ok_unit. cbn [qdim]. lra.
Qed.

(** ** Examples *)
(** One metre and three inches are 1.0762 m up to 2e-13, as a finite double. *)
Example C125_example fread : exists r x,
  @q_add _ (NumD ex_pwD) (objs (dlib ex_pwD fread)) (finite_qty (Qty (scalar 1) (unit_dims (uL "meter")))) (OQ (finite_qty (Qty (scalar 3) (unit_dims (uL "inch"))))) = Ok r /\
  dat (mag r) = [Some x] /\ Rabs (x - 10762 / 10000) <= 2 / 10 ^ 13.
Proof.
  assert (Hz : In (Size (uL "inch") (254 # 10000) (unit_dims (uL "meter"))) standard_sizes).
  { unfold standard_sizes. apply in_or_app. left. unfold lengths. do 7 right. left. reflexivity. }
  destruct (C89_rescale fread _ (Qty (scalar 3) (unit_dims (uL "inch"))) Hz eq_refl eq_refl) as (r' & E' & Em & _). cbn [sz_of sz_factor mag] in E', Em.
  assert (H500 : 4 <= 2 ^ 500).
  { replace 500%nat with (2 + 498)%nat by reflexivity. rewrite pow_add. assert (1 <= 2 ^ 498) by (apply pow_R1_Rle; lra). replace (2 ^ 2) with 4 by (simpl; lra). nra. }
  assert (Hmod : forall x, 1 <= x <= 4 -> Forall moderate (dat (scalar x))).
  { intros x Hx. constructor; [|constructor]. right. rewrite Rabs_pos_eq by lra. split; [|lra].
    assert (/ 2 ^ 500 <= / 4) by (apply Rinv_le_contravar; lra). lra. }
  destruct (C125_library ex_pwD fread (scalar 1) (scalar 3) (uL "meter") (uL "inch") UEq ex_pwD_faithful (Hmod 1 ltac:(lra)) (Hmod 3 ltac:(lra))) as (K & HK & H & _).
  revert H E'. generalize (objs (dlib ex_pwD fread)) as ED, (objs (lib fread)) as ER. intros ED ER H E'. cbv zeta in H.
  set (q := Qty (scalar 1) (unit_dims (uL "meter"))) in *. set (o := Qty (scalar 3) (unit_dims (uL "inch"))) in *.
  assert (Hd : dim_eqb (unit_dims (uL "meter")) (qdim r') = true).
  { rewrite dim_eqb_sym; [refine (rescale_to_eqb ER o _ r' _ _ E'); apply dims_ok_unit|apply dims_ok_unit|].
    apply (rescale_to_dims ER o (unit_dims (uL "meter")) r'); [apply dims_ok_unit|apply dims_ok_unit|exact E']. }
  assert (HR : @q_add R NumR ER q (OQ o) = Ok (Qty (scalar (1 + Q2R (254 # 10000) * 3)) (unit_dims (uL "meter")))).
  { unfold q_add. rewrite (@Props_Float.scale_other_rescale R NumR). change (qdim q) with (unit_dims (uL "meter")). rewrite E'. cbn [bind].
    unfold apply2. cbn [odat]. rewrite Em. change (amap (fun x => Q2R (254 # 10000) * x) (scalar 3)) with (scalar (Q2R (254 # 10000) * 3)).
    cbn [q mag]. rewrite amap2_scalar_l by reflexivity. cbn [bind]. unfold pd2. change (qdim q) with (unit_dims (uL "meter")). rewrite Hd. reflexivity. }
  rewrite HR in H. set (RF := @q_add _ (NumD ex_pwD) ED (finite_qty q) (OQ (finite_qty o))) in *. clearbody RF.
  destruct RF as [r|e]; [|contradiction H]. destruct H as (_ & _ & o' & ps & Ho' & Hps & Hl & _ & Hc).
  change (qdim q) with (unit_dims (uL "meter")) in Ho'. assert (o' = r') as -> by congruence. rewrite Em in Hps.
  change (amap (fun x => Q2R (254 # 10000) * x) (mag o)) with (scalar (Q2R (254 # 10000) * 3)) in Hps. cbn [q mag] in Hps.
  rewrite amap2_scalar_l in Hps by reflexivity. apply Ok_inj in Hps. subst ps. cbn [dat amap scalar map length mag] in Hl, Hc.
  destruct (dat (mag r)) as [|x [|x2 l]] eqn:Er; try discriminate Hl. destruct (Hc 0%nat _ _ _ _ eq_refl eq_refl eq_refl) as (z & -> & Hz').
  exists r, z. split; [reflexivity|]. split; [exact Er|].
  assert (F : Q2R (254 # 10000) * 3 = 762 / 10000) by (unfold Q2R; cbn; lra). rewrite F in Hz'.
  rewrite Rabs_R1, (Rabs_pos_eq (762 / 10000)) in Hz' by lra.
  replace (1 + 762 / 10000) with (10762 / 10000) in Hz' by lra. eapply Rle_trans; [exact Hz'|].
  assert (0 < / 10 ^ 13) by (apply Rinv_0_lt_compat, pow_lt; lra). unfold Rdiv. nra.
Qed.

Print Assumptions C125_addition.
Print Assumptions C125_products.
Print Assumptions C125_comparisons.
Print Assumptions C125_library.
Print Assumptions C125_round_trip.
Print Assumptions C125_round_trip_library.
