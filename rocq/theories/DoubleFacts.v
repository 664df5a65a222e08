(** * DoubleFacts: conversions in double precision stay in range. *)
From Coq Require Import Reals Lra Lia Qreals ZArith.
From Flocq Require Import Core Relative.
From Verif Require Import Py Num Dim DimFacts Arr Units Spec UnitFacts Quant QuantFacts Float SpecFloat FloatFacts Double SpecDouble.
Open Scope R_scope.

Lemma ln2_pos : 0 < ln 2.
Proof. rewrite <- ln_1. apply ln_increasing; lra. Qed.
Lemma elog_ln2 : elog <= / 100 * ln 2.
Proof.
  pose proof elog_le. pose proof eps_pos. pose proof eps_small. pose proof ln2_pos.
  assert (/ 2 <= ln 2).
  { assert (H3 : ln (/ 2) <= - / 2).
    { replace (- / 2) with (ln (exp (- / 2))) by apply ln_exp. apply ln_le'; [lra|].
      pose proof (exp_ineq1 (- / 2) ltac:(lra)). lra. }
    rewrite ln_Rinv in H3 by lra. lra. }
  assert (eps / (1 - eps) <= / 200); [|lra].
  apply (Rmult_le_reg_r (1 - eps)); [lra|]. replace (eps / (1 - eps) * (1 - eps)) with eps by (field; lra). nra.
Qed.
Lemma bpow_ln e : bpow radix2 e = exp (IZR e * ln 2).
Proof. rewrite bpow_exp. reflexivity. Qed.

(** In the middle of the range, rounding does not notice the range. *)
Lemma rndD_mid x : bpow radix2 (-1022) <= Rabs x -> Rabs x <= bpow radix2 1020 -> rndD x = Some (rnd x).
Proof.
  intros H1 H2. unfold rndD. rewrite round_FLT_FLX by exact H1. fold (rnd x).
  assert (Hb : Rabs (rnd x) < bpow radix2 1024).
  { pose proof (rnd_err x) as E. pose proof eps_small. pose proof eps_pos. pose proof (Rabs_pos x).
    replace (rnd x) with ((rnd x - x) + x) by ring. eapply Rle_lt_trans; [apply Rabs_triang|].
    assert (Rabs (rnd x - x) <= Rabs x) by nra.
    replace 1024%Z with (4 + 1020)%Z by reflexivity. rewrite bpow_plus. pose proof (bpow_gt_0 radix2 1020).
    change (bpow radix2 4) with 16. lra. }
  now rewrite Rlt_bool_true.
Qed.
Lemma rndD_ln x : 0 < x -> Rabs (ln x) <= 1020 * ln 2 -> rndD x = Some (rnd x).
Proof.
  intros Hx H. pose proof ln2_pos. apply Rabs_le_inv in H. apply rndD_mid; rewrite (Rabs_pos_eq x) by lra; rewrite bpow_ln, <- (exp_ln x) by auto.
  - destruct (Req_dec (IZR (-1022) * ln 2) (ln x)) as [->|]; [lra|]. apply Rlt_le, exp_increasing. lra.
  - destruct (Req_dec (ln x) (IZR 1020 * ln 2)) as [->|]; [lra|]. apply Rlt_le, exp_increasing. lra.
Qed.
Lemma rndD_0 : rndD 0 = Some 0.
Proof.
  unfold rndD. rewrite round_0 by apply valid_rnd_N. rewrite Rabs_R0, Rlt_bool_true; auto. apply bpow_gt_0.
Qed.
Lemma rndD_opp x : rndD (- x) = option_map Ropp (rndD x).
Proof.
  unfold rndD. rewrite round_NE_opp, Rabs_Ropp. now destruct (Rlt_bool _ _).
Qed.

Lemma nearD_count k a b : nearD k a b -> 0 <= k.
Proof. intros (x & _ & (_ & _ & _) & H). pose proof ln2_pos. pose proof (Rabs_pos (ln b)). destruct (Rle_or_lt 0 k); auto. nra. Qed.
Lemma nearD_weaken k k' a b : k <= k' -> nearD k a b -> nearD k' a b.
Proof. intros Hk (x & E & H1 & H2). exists x. split; auto. split; [now apply (near_weaken k)|]. pose proof ln2_pos. nra. Qed.
Lemma nearD_1 k : 0 <= k -> nearD k (Some 1) 1.
Proof.
  intros Hk. exists 1. split; auto. split; [apply (near_weaken 0); auto; apply near_refl; lra|]. rewrite ln_1, Rabs_R0.
  pose proof ln2_pos. nra.
Qed.
(** The double itself is in range too. *)
Lemma near_ln k x b : near k x b -> Rabs (ln b) <= k * ln 2 -> Rabs (ln x) <= k * (101 / 100) * ln 2.
Proof.
  intros (H1 & H2 & H3) H4. pose proof elog_ln2. pose proof ln2_pos.
  assert (0 <= k) by (pose proof (Rabs_pos (ln b)); destruct (Rle_or_lt 0 k); auto; nra).
  replace (ln x) with ((ln x - ln b) + ln b) by ring. eapply Rle_trans; [apply Rabs_triang|]. nra.
Qed.
Section Ops.
  Variable pw : R -> pynum -> option R.
  Hypothesis Hpw : faithfulD pw.
  Local Notation D := (NumD pw).
  Lemma nearD_mul k k' a b a' b' : nearD k a b -> nearD k' a' b' -> k + k' + 1 <= 1000 ->
    nearD (k + k' + 1) (@nmul _ D a a') (b * b').
  Proof.
    clear Hpw. intros H H' HK. pose proof (nearD_count _ _ _ H). pose proof (nearD_count _ _ _ H').
    destruct H as (x & -> & N1 & L1), H' as (x' & -> & N2 & L2). cbn [nmul NumD on2].
    pose proof ln2_pos. pose proof (near_mul _ _ _ _ _ _ N1 N2) as N3. exists (rnd (x * x')).
    pose proof (near_ln _ _ _ N1 L1). pose proof (near_ln _ _ _ N2 L2).
    destruct N1 as (P1 & P2 & _), N2 as (P3 & P4 & _). split.
    - apply rndD_ln; [now apply Rmult_lt_0_compat|]. rewrite ln_mult by auto. eapply Rle_trans; [apply Rabs_triang|]. nra.
    - split; [now apply near_rnd_of|]. rewrite ln_mult by auto. eapply Rle_trans; [apply Rabs_triang|]. nra.
  Qed.
  Lemma nearD_div k k' a b a' b' : nearD k a b -> nearD k' a' b' -> k + k' + 1 <= 1000 ->
    nearD (k + k' + 1) (@ndiv _ D a a') (b / b').
  Proof.
    clear Hpw. intros H H' HK. pose proof (nearD_count _ _ _ H). pose proof (nearD_count _ _ _ H').
    destruct H as (x & -> & N1 & L1), H' as (x' & -> & N2 & L2). cbn [ndiv NumD on2].
    pose proof ln2_pos. pose proof (near_div _ _ _ _ _ _ N1 N2) as N3. exists (rnd (x / x')).
    pose proof (near_ln _ _ _ N1 L1). pose proof (near_ln _ _ _ N2 L2).
    destruct N1 as (P1 & P2 & _), N2 as (P3 & P4 & _). split.
    - replace (Reqb x' 0) with false by (symmetry; apply Reqb_false; lra).
      apply rndD_ln; [apply Rdiv_lt_0_compat; auto|]. unfold Rdiv. rewrite ln_mult, ln_Rinv by (auto; now apply Rinv_0_lt_compat).
      eapply Rle_trans; [apply Rabs_triang|]. rewrite Rabs_Ropp. nra.
    - split; [now apply near_rnd_of|]. unfold Rdiv. rewrite ln_mult, ln_Rinv by (auto; now apply Rinv_0_lt_compat).
      eapply Rle_trans; [apply Rabs_triang|]. rewrite Rabs_Ropp. nra.
  Qed.
  Lemma pow2_ln n : 2 ^ n = exp (INR n * ln 2).
  Proof. rewrite <- Rpower_pow by lra. reflexivity. Qed.
  Lemma nearD_pow k a b p : nearD k a b -> Rabs (Qc2R (pval p)) * k + 3 <= 1000 ->
    nearD (Rabs (Qc2R (pval p)) * k + 3) (@npow _ D a p) (rpow b p).
  Proof.
    intros H HK. pose proof (nearD_count _ _ _ H) as K0. destruct H as (x & -> & N1 & L1). cbn [npow NumD on1].
    pose proof ln2_pos as L2. pose proof (near_ln _ _ _ N1 L1) as L3. pose proof (Rabs_pos (Qc2R (pval p))) as P0.
    set (e := Rabs (Qc2R (pval p))) in *. assert (Pk : 0 <= e * k) by nra.
    assert (X0 : 0 < x) by apply N1. assert (B0 : 0 < b) by apply N1.
    assert (Z0 : 0 < rpow x p) by now apply rpow_pos.
    assert (Hz : Rabs (ln (rpow x p)) <= 1020 * ln 2).
    { rewrite ln_rpow by auto. rewrite Rabs_mult. fold e. nra. }
    destruct (Hpw x p X0) as (y & Ey & Hy).
    { apply Rabs_le_inv in Hz. rewrite <- (exp_ln (rpow x p)) by auto. rewrite !pow2_ln, <- exp_Ropp.
      assert (HI : INR 1020 = 1020) by (rewrite INR_IZR_INZ; reflexivity). rewrite HI.
      split.
      - destruct (Req_dec (- (1020 * ln 2)) (ln (rpow x p))) as [->|]; [lra|]. apply Rlt_le, exp_increasing. lra.
      - destruct (Req_dec (ln (rpow x p)) (1020 * ln 2)) as [->|]; [lra|]. apply Rlt_le, exp_increasing. lra. }
    exists y. split; [exact Ey|]. split.
    - set (pw' := fun x0 p0 => rpow x0 p0 * (y / rpow x p)).
      assert (Hf : faithful pw').
      { intros x0 p0 H0. unfold pw'. pose proof (rpow_pos p0 H0) as R0.
        replace (rpow x0 p0 * (y / rpow x p) - rpow x0 p0) with (rpow x0 p0 * ((y - rpow x p) / rpow x p)) by (field; lra).
        rewrite Rabs_mult, (Rabs_pos_eq (rpow x0 p0)) by lra. rewrite (Rmult_comm (/ 2 ^ 52)). apply Rmult_le_compat_l; [lra|].
        unfold Rdiv. rewrite Rabs_mult, (Rabs_pos_eq (/ rpow x p)) by (apply Rlt_le, Rinv_0_lt_compat; auto).
        apply (Rmult_le_reg_r (rpow x p)); auto. rewrite Rmult_assoc, Rinv_l, Rmult_1_r by lra. exact Hy. }
      pose proof (near_pw k x b pw' p Hf N1) as N2. unfold pw' in N2.
      replace (rpow x p * (y / rpow x p)) with y in N2 by (field; lra). exact N2.
    - rewrite ln_rpow by auto. rewrite Rabs_mult. fold e. nra.
  Qed.

  (** References and conversion factors. *)
  Lemma roundings_nn w d : (forall u, 0 <= w u) -> 0 <= roundings w d.
  Proof.
    clear. intros Hw. induction d as [|[u e] d IH]; cbn [roundings]; [lra|]. pose proof (Rabs_pos (Qc2R (pval e))). pose proof (Hw u). nra.
  Qed.
  Lemma env_nearD_w w ED ER : env_nearD pw w ED ER -> forall u, 0 <= w u.
  Proof. intros H u. destruct (H u) as [_ H2]. exact (nearD_count _ _ _ H2). Qed.
  Lemma ref_pair_nearD w ED ER d : env_nearD pw w ED ER -> roundings w d <= 900 ->
    snd (@ref_pair _ D ED d) = snd (@ref_pair R NumR ER d) /\
    nearD (roundings w d) (fst (@ref_pair _ D ED d)) (fst (@ref_pair R NumR ER d)).
  Proof.
    intros H HB. pose proof (env_nearD_w _ _ _ H) as Hw. unfold ref_pair.
    assert (G : forall acc acc' k, snd acc = snd acc' -> nearD k (fst acc) (fst acc') -> k + roundings w d <= 900 ->
      snd (fold_left (@ref_step _ D ED) d acc) = snd (fold_left (@ref_step R NumR ER) d acc') /\
      nearD (k + roundings w d) (fst (fold_left (@ref_step _ D ED) d acc)) (fst (fold_left (@ref_step R NumR ER) d acc'))).
    { clear HB. induction d as [|[u e] d IH]; intros acc acc' k H1 H2 HB; cbn [fold_left roundings] in *.
      - rewrite Rplus_0_r. auto.
      - destruct (H u) as [U1 U2]. pose proof (roundings_nn w d Hw). pose proof (Hw u). pose proof (Rabs_pos (Qc2R (pval e))).
        pose proof (nearD_count _ _ _ H2).
        replace (k + (Rabs (Qc2R (pval e)) * w u + 4 + roundings w d))
          with (k + (Rabs (Qc2R (pval e)) * w u + 3) + 1 + roundings w d) in * by ring.
        assert (0 <= Rabs (Qc2R (pval e)) * w u) by nra.
        apply IH; [| |lra]; unfold ref_step; cbn [fst snd].
        + now rewrite H1, U1.
        + apply nearD_mul; [exact H2| |lra]. apply (nearD_pow (w u) _ _ e); [exact U2|lra]. }
    specialize (G (Some 1, []) (1, []) 0 eq_refl (nearD_1 0 (Rle_refl 0))). rewrite Rplus_0_l in G. exact (G HB).
  Qed.
  Lemma conv_factor_nearD w ED ER d1 d2 : env_nearD pw w ED ER -> roundings w d1 + roundings w d2 <= 490 ->
    match @conv_factor _ D ED d1 d2, @conv_factor R NumR ER d1 d2 with
    | Ok c, Ok c' => nearD (roundings w d1 + roundings w d2 + 3) c c'
    | Err e, Err e' => e = e'
    | _, _ => False
    end.
  Proof.
    intros H HB. pose proof (env_nearD_w _ _ _ H) as Hw. pose proof (roundings_nn w d1 Hw). pose proof (roundings_nn w d2 Hw).
    destruct (ref_pair_nearD w ED ER d1 H ltac:(lra)) as [A1 A2]. destruct (ref_pair_nearD w ED ER d2 H ltac:(lra)) as [B1 B2].
    unfold conv_factor, qty_ref. cbn [fst snd]. rewrite A1, B1.
    destruct (dim_eqb (snd (@ref_pair R NumR ER d1)) (snd (@ref_pair R NumR ER d2))); auto.
    replace (roundings w d1 + roundings w d2 + 3) with ((roundings w d1 + 0 + 1) + (roundings w d2 + 0 + 1) + 1) by ring.
    apply nearD_div; [apply nearD_mul; auto; [apply nearD_1; lra|lra]|apply nearD_mul; auto; [apply nearD_1; lra|lra]|lra].
  Qed.

  (** Multiplication of a moderate number of any sign by a factor. *)
  Lemma scaleD_accurate k c c' x : k <= 490 -> nearD k c c' -> moderate x ->
    accurateD (k + 1) (@nmul _ D c (Some x)) (c' * x).
  Proof.
    clear Hpw. intros Hk H Hx. pose proof (nearD_count _ _ _ H) as K0. destruct H as (z & -> & N1 & L1).
    assert (HB : 0 <= k <= 2 ^ 50 - 1).
    { split; auto. assert (1024 <= 2 ^ 50); [|lra]. replace 50%nat with (10 + 40)%nat by reflexivity. rewrite pow_add.
      assert (1 <= 2 ^ 40) by (apply pow_R1_Rle; lra). replace (2 ^ 10) with 1024 by (simpl; lra). nra. }
    cbn [nmul NumD on2]. exists (rnd (z * x)). split; [|now apply scale_accurate].
    destruct Hx as [->|[Hx1 Hx2]]; [rewrite Rmult_0_r, rnd_0; apply rndD_0|].
    pose proof (near_ln _ _ _ N1 L1) as L2. pose proof ln2_pos as L3.
    assert (Hp : 0 < Rabs x) by (eapply Rlt_le_trans; [|exact Hx1]; apply Rinv_0_lt_compat, pow_lt; lra).
    assert (HI : INR 500 = 500) by (rewrite INR_IZR_INZ; reflexivity).
    assert (Hl : Rabs (ln (Rabs x)) <= 500 * ln 2).
    { rewrite pow2_ln, HI in Hx1, Hx2. rewrite <- exp_Ropp in Hx1. apply Rabs_le. split.
      - replace (- (500 * ln 2)) with (ln (exp (- (500 * ln 2)))) by apply ln_exp. apply ln_le'; auto. apply exp_pos.
      - rewrite <- (ln_exp (500 * ln 2)). now apply ln_le'. }
    assert (G : forall y, 0 < y -> Rabs (ln y) <= 500 * ln 2 -> rndD (z * y) = Some (rnd (z * y))).
    { intros y Hy Ly. apply rndD_ln; [apply Rmult_lt_0_compat; [apply N1|auto]|]. rewrite ln_mult by (auto; apply N1).
      eapply Rle_trans; [apply Rabs_triang|]. nra. }
    destruct (Rle_or_lt 0 x) as [H0|H0].
    - rewrite (Rabs_pos_eq x) in * by lra. now apply G.
    - rewrite (Rabs_left x) in * by lra. specialize (G _ Hp Hl). replace (z * - x) with (- (z * x)) in G by ring.
      rewrite rndD_opp, rnd_opp in G. destruct (rndD (z * x)) as [r|]; cbn [option_map] in G; [|discriminate].
      f_equal. assert (E : - r = - rnd (z * x)) by congruence. lra.
  Qed.
End Ops.
