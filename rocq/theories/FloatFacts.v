(** * FloatFacts: rounding errors of conversions. *)
From Coq Require Import Reals Lra Lia Qreals ZArith.
From Flocq Require Import Core Relative.
From Verif Require Import Py Num Dim DimFacts Arr Units Spec UnitFacts Quant QuantFacts Float SpecFloat.
Open Scope R_scope.

(** ** Rounding *)
Lemma eps_pos : 0 < eps.
Proof. unfold eps. apply Rinv_0_lt_compat. apply pow_lt. lra. Qed.
Lemma eps_small : eps < / 1000.
Proof.
  unfold eps. apply Rinv_lt_contravar; [apply Rmult_lt_0_compat; [lra|apply pow_lt; lra]|].
  replace 53%nat with (10 + 43)%nat by reflexivity. rewrite pow_add.
  assert (1 <= 2 ^ 43) by (apply pow_R1_Rle; lra). replace (2 ^ 10) with 1024 by (simpl; lra). nra.
Qed.
Lemma rnd_err x : Rabs (rnd x - x) <= eps * Rabs x.
Proof.
  pose proof (relative_error_N_FLX radix2 53 ltac:(lia) (fun n => negb (Z.even n)) x) as H.
  unfold rnd. eapply Rle_trans; [exact H|]. right. f_equal. unfold eps.
  change (- (53) + 1)%Z with (-52)%Z. cbn [bpow]. unfold Z.pow_pos. cbn. lra.
Qed.
Lemma rnd_pos x : 0 < x -> 0 < rnd x.
Proof.
  intros H. pose proof (rnd_err x) as E. rewrite (Rabs_pos_eq x) in E by lra. pose proof eps_small. pose proof eps_pos.
  apply Rabs_le_inv in E. nra.
Qed.
Lemma rnd_0 : rnd 0 = 0.
Proof. unfold rnd. apply round_0. apply valid_rnd_N. Qed.
Lemma rnd_le x y : x <= y -> rnd x <= rnd y.
Proof.
  unfold rnd. apply round_le; [|apply valid_rnd_N].
  apply FLX_exp_valid. unfold Prec_gt_0. lia.
Qed.
Lemma rnd_opp x : rnd (- x) = - rnd x.
Proof. unfold rnd. apply round_NE_opp. Qed.
Lemma rnd_float x : is_float x -> rnd x = x.
Proof. unfold is_float, rnd. apply round_generic. apply valid_rnd_N. Qed.
Lemma rnd_is_float x : is_float (rnd x).
Proof. unfold is_float, rnd. apply generic_format_round; [apply FLX_exp_valid; unfold Prec_gt_0; lia|apply valid_rnd_N]. Qed.

(** ** Distance in logarithms *)

Lemma elog_pos : 0 < elog.
Proof. unfold elog. pose proof eps_pos. pose proof eps_small. assert (ln (1 - eps) < ln 1) by (apply ln_increasing; lra). rewrite ln_1 in *. lra. Qed.
Lemma ln_le' x y : 0 < x -> x <= y -> ln x <= ln y.
Proof. intros H [G| ->]; [left; now apply ln_increasing|right; reflexivity]. Qed.
Lemma elog_le : elog <= eps / (1 - eps).
Proof.
  unfold elog. pose proof eps_pos. pose proof eps_small.
  rewrite <- ln_Rinv by lra. rewrite <- (ln_exp (eps / (1 - eps))). apply ln_le'.
  - apply Rinv_0_lt_compat. lra.
  - replace (/ (1 - eps)) with (1 + eps / (1 - eps)) by (field; lra). apply Rlt_le, exp_ineq1.
    assert (0 < eps / (1 - eps)) by (apply Rdiv_lt_0_compat; lra). lra.
Qed.
Lemma near_rnd x : 0 < x -> near 1 (rnd x) x.
Proof.
  intros H. split; [now apply rnd_pos|]. split; auto. pose proof (rnd_err x) as E. rewrite (Rabs_pos_eq x) in E by lra.
  apply Rabs_le_inv in E. pose proof eps_pos. pose proof eps_small. pose proof (rnd_pos x H).
  apply Rabs_le. split.
  - unfold elog. assert (ln (x * (1 - eps)) <= ln (rnd x)) by (apply ln_le'; nra).
    rewrite ln_mult in H3 by lra. lra.
  - assert (ln (rnd x) <= ln (x * (1 + eps))) by (apply ln_le'; [lra|nra]). rewrite ln_mult in H3 by lra.
    assert (ln (1 + eps) <= elog).
    { unfold elog. rewrite <- ln_Rinv by lra. apply ln_le'; [lra|].
      replace (/ (1 - eps)) with (1 + eps / (1 - eps)) by (field; lra).
      assert (eps <= eps / (1 - eps)); [|lra].
      apply (Rmult_le_reg_r (1 - eps)); [lra|]. replace (eps / (1 - eps) * (1 - eps)) with eps by (field; lra). nra. }
    lra.
Qed.
Lemma near_refl x : 0 < x -> near 0 x x.
Proof. intros H. split; [|split]; auto. rewrite Rminus_diag_eq, Rabs_R0 by reflexivity. lra. Qed.
Lemma near_weaken k k' x y : k <= k' -> near k x y -> near k' x y.
Proof. intros Hk (H1 & H2 & H3). split; [|split]; auto. pose proof elog_pos. nra. Qed.
Lemma near_trans k k' x y z : near k x y -> near k' y z -> near (k + k') x z.
Proof.
  intros (H1 & H2 & H3) (H4 & H5 & H6). split; [|split]; auto.
  replace (ln x - ln z) with ((ln x - ln y) + (ln y - ln z)) by ring.
  eapply Rle_trans; [apply Rabs_triang|]. lra.
Qed.
Lemma near_mul k k' x y x' y' : near k x y -> near k' x' y' -> near (k + k') (x * x') (y * y').
Proof.
  intros (H1 & H2 & H3) (H4 & H5 & H6). split; [now apply Rmult_lt_0_compat|]. split; [now apply Rmult_lt_0_compat|].
  rewrite !ln_mult by auto. replace (ln x + ln x' - (ln y + ln y')) with ((ln x - ln y) + (ln x' - ln y')) by ring.
  eapply Rle_trans; [apply Rabs_triang|]. lra.
Qed.
Lemma near_div k k' x y x' y' : near k x y -> near k' x' y' -> near (k + k') (x / x') (y / y').
Proof.
  intros H (H4 & H5 & H6). apply near_mul; auto. split; [now apply Rinv_0_lt_compat|]. split; [now apply Rinv_0_lt_compat|].
  rewrite !ln_Rinv by auto. replace (- ln x' - - ln y') with (- (ln x' - ln y')) by ring. now rewrite Rabs_Ropp.
Qed.
Lemma ln_powerRZ x z : 0 < x -> ln (powerRZ x z) = IZR z * ln x.
Proof. intros H. rewrite powerRZ_Rpower by auto. unfold Rpower. now rewrite ln_exp. Qed.
Lemma ln_rpow x p : 0 < x -> ln (rpow x p) = Qc2R (pval p) * ln x.
Proof.
  intros H. unfold rpow. destruct (Pos.eqb (Qden (this (pval p))) 1) eqn:E.
  - rewrite ln_powerRZ by auto. f_equal. unfold Qc2R, Q2R. apply Pos.eqb_eq in E. rewrite E. lra.
  - destruct (Req_EM_T x 0); [lra|]. unfold Rpower. now rewrite ln_exp.
Qed.
Lemma near_pow k x y p : near k x y -> near (Rabs (Qc2R (pval p)) * k) (rpow x p) (rpow y p).
Proof.
  intros (H1 & H2 & H3). split; [now apply rpow_pos|]. split; [now apply rpow_pos|]. rewrite !ln_rpow by auto.
  rewrite <- Rmult_minus_distr_l, Rabs_mult. pose proof (Rabs_pos (Qc2R (pval p))). nra.
Qed.
Lemma near_rnd_of k x y : near k x y -> near (k + 1) (rnd x) y.
Proof. intros H. rewrite Rplus_comm. eapply near_trans; [apply near_rnd; apply H|exact H]. Qed.

Lemma near_faithful pw x p : faithful pw -> 0 < x -> near 3 (pw x p) (rpow x p).
Proof.
  intros Hf H. specialize (Hf x p H). pose proof (rpow_pos p H) as Hp. set (y := rpow x p) in *. set (z := pw x p) in *.
  assert (Hm : / 2 ^ 52 = 2 * eps).
  { unfold eps. replace (2 ^ 53) with (2 * 2 ^ 52) by (change 53%nat with (S 52); reflexivity). field. }
  rewrite Hm in Hf. pose proof eps_pos. pose proof eps_small. apply Rabs_le_inv in Hf.
  assert (Hz : 0 < z) by nra. split; [|split]; auto. unfold elog. apply Rabs_le. split.
  - assert (ln (y * ((1 - eps) * ((1 - eps) * (1 - eps)))) <= ln z).
    { apply ln_le'; [repeat apply Rmult_lt_0_compat; lra|].
      assert ((1 - eps) * ((1 - eps) * (1 - eps)) <= 1 - 2 * eps) by nra. nra. }
    rewrite !ln_mult in H2 by (try lra; repeat apply Rmult_lt_0_compat; lra). lra.
  - assert (ln z <= ln (y * / ((1 - eps) * ((1 - eps) * (1 - eps))))).
    { assert (0 < (1 - eps) * ((1 - eps) * (1 - eps))) by (repeat apply Rmult_lt_0_compat; lra).
      apply ln_le'; auto. apply (Rmult_le_reg_r ((1 - eps) * ((1 - eps) * (1 - eps)))); auto.
      rewrite Rmult_assoc, Rinv_l, Rmult_1_r by lra.
      assert ((1 + 2 * eps) * ((1 - eps) * ((1 - eps) * (1 - eps))) <= 1) by nra. nra. }
    rewrite ln_mult, ln_Rinv, !ln_mult in H2 by (try lra; try apply Rinv_0_lt_compat; repeat apply Rmult_lt_0_compat; lra). lra.
Qed.
Lemma near_pw k x y pw p : faithful pw -> near k x y -> near (Rabs (Qc2R (pval p)) * k + 3) (pw x p) (rpow y p).
Proof.
  intros Hf H. rewrite Rplus_comm. eapply near_trans; [apply near_faithful; [auto|apply H]|now apply near_pow].
Qed.

Lemma exp_near t : 0 <= t <= / 3 -> exp t - 1 <= 3 / 2 * t.
Proof.
  intros H. assert (1 - t <= exp (- t)) by (destruct (Req_dec t 0) as [->|]; [rewrite Ropp_0, exp_0; lra|apply Rlt_le; replace (1 - t) with (1 + - t) by ring; apply exp_ineq1; lra]).
  rewrite exp_Ropp in H0. pose proof (exp_pos t). assert ((1 - t) * exp t <= 1).
  { apply (Rmult_le_compat_r (exp t)) in H0; [|lra]. rewrite Rinv_l in H0 by lra. exact H0. }
  nra.
Qed.
Lemma near_accurate k x y : 0 <= k <= 2 ^ 50 -> near k x y -> accurate k x y.
Proof.
  intros Hk (H1 & H2 & H3). unfold accurate. rewrite (Rabs_pos_eq y) by lra.
  assert (Hm : macheps = 2 * eps).
  { unfold macheps, eps. replace (2 ^ 53) with (2 * 2 ^ 52) by (change 53%nat with (S 52); reflexivity). field. }
  pose proof eps_pos. pose proof eps_small. pose proof elog_pos. pose proof elog_le.
  assert (He : elog <= 4 / 3 * eps).
  { eapply Rle_trans; [exact H5|]. apply (Rmult_le_reg_r (1 - eps)); [lra|].
    replace (eps / (1 - eps) * (1 - eps)) with eps by (field; lra). nra. }
  set (t := k * elog) in *.
  assert (Ht : 0 <= t <= / 3).
  { split; [apply Rmult_le_pos; lra|]. unfold t. assert (k * eps <= / 8).
    { assert (2 ^ 50 * eps = / 8).
      { unfold eps. replace (2 ^ 53) with (2 ^ 50 * 8) by (replace 53%nat with (50 + 3)%nat by reflexivity; rewrite pow_add; simpl (2 ^ 3); lra).
        field. }
      nra. }
    nra. }
  assert (Hb : exp t - 1 <= 2 * k * eps).
  { eapply Rle_trans; [now apply exp_near|]. unfold t. nra. }
  apply Rabs_le_inv in H3.
  assert (X1 : x <= y * exp t).
  { rewrite <- (exp_ln x), <- (exp_ln y) at 1 by auto. rewrite <- exp_plus. destruct (Req_dec (ln x) (ln y + t)) as [->|]; [lra|]. apply Rlt_le, exp_increasing. lra. }
  assert (X2 : y * exp (- t) <= x).
  { rewrite <- (exp_ln x), <- (exp_ln y) at 1 by auto. rewrite <- exp_plus. destruct (Req_dec (ln x) (ln y + - t)) as [->|]; [lra|]. apply Rlt_le, exp_increasing. lra. }
  assert (X3 : 1 - t <= exp (- t)).
  { destruct (Req_dec t 0) as [->|]; [rewrite Ropp_0, exp_0; lra|apply Rlt_le; replace (1 - t) with (1 + - t) by ring; apply exp_ineq1; lra]. }
  rewrite Hm. apply Rabs_le. assert (t <= 4 / 3 * k * eps) by (unfold t; nra).
  split; nra.
Qed.

(** ** References and conversion factors *)
Section Conv.
  Variable pw : R -> pynum -> R.
  Hypothesis Hpw : faithful pw.
  Local Notation F := (NumF pw).

  Lemma ref_pair_near w EF ER d : env_near w EF ER ->
    snd (@ref_pair R F EF d) = snd (@ref_pair R NumR ER d) /\
    near (roundings w d) (fst (@ref_pair R F EF d)) (fst (@ref_pair R NumR ER d)).
  Proof.
    intros H. unfold ref_pair.
    assert (G : forall acc acc' k, snd acc = snd acc' -> near k (fst acc) (fst acc') ->
      snd (fold_left (@ref_step R F EF) d acc) = snd (fold_left (@ref_step R NumR ER) d acc') /\
      near (k + roundings w d) (fst (fold_left (@ref_step R F EF) d acc)) (fst (fold_left (@ref_step R NumR ER) d acc'))).
    { induction d as [|[u e] d IH]; intros acc acc' k H1 H2; cbn [fold_left roundings].
      - rewrite Rplus_0_r. auto.
      - destruct (H u) as [U1 U2].
        replace (k + (Rabs (Qc2R (pval e)) * w u + 4 + roundings w d))
          with (k + (Rabs (Qc2R (pval e)) * w u + 3) + 1 + roundings w d) by ring.
        apply IH; unfold ref_step; cbn [fst snd nmul npow NumF NumR];
          change (@unit_ref R F EF u) with (@unit_ref R NumR EF u).
        + now rewrite H1, U1.
        + apply near_rnd_of. apply near_mul; auto. apply near_pw; auto. }
    specialize (G (1, []) (1, []) 0 eq_refl (near_refl 1 Rlt_0_1)). now rewrite Rplus_0_l in G.
  Qed.

  Lemma conv_factor_near w EF ER d1 d2 : env_near w EF ER ->
    match @conv_factor R F EF d1 d2, @conv_factor R NumR ER d1 d2 with
    | Ok c, Ok c' => near (roundings w d1 + roundings w d2 + 3) c c'
    | Err e, Err e' => e = e'
    | _, _ => False
    end.
  Proof.
    intros H. destruct (ref_pair_near w EF ER d1 H) as [A1 A2]. destruct (ref_pair_near w EF ER d2 H) as [B1 B2].
    unfold conv_factor, qty_ref. cbn [fst snd]. rewrite A1, B1.
    destruct (dim_eqb (snd (@ref_pair R NumR ER d1)) (snd (@ref_pair R NumR ER d2))); auto.
    cbn [nmul ndiv n1 NumF NumR]. rewrite !Rmult_1_r.
    replace (roundings w d1 + roundings w d2 + 3) with ((roundings w d1 + 1) + (roundings w d2 + 1) + 1) by ring.
    apply near_rnd_of, near_div; now apply near_rnd_of.
  Qed.

  (** Multiplication of a number of any sign by a factor. *)
  Lemma scale_accurate k c c' x : 0 <= k <= 2 ^ 50 - 1 -> near k c c' -> accurate (k + 1) (rnd (c * x)) (c' * x).
  Proof.
    intros Hk H. assert (Hpos : forall y, 0 < y -> accurate (k + 1) (rnd (c * y)) (c' * y)).
    { intros y Hy. apply near_accurate; [lra|]. apply near_rnd_of. rewrite <- (Rplus_0_r k). apply near_mul; auto. now apply near_refl. }
    destruct (Rtotal_order x 0) as [Hx|[->|Hx]]; [|rewrite !Rmult_0_r, rnd_0|auto].
    - specialize (Hpos (- x) ltac:(lra)). unfold accurate in *.
      replace (c * - x) with (- (c * x)) in Hpos by ring. replace (c' * - x) with (- (c' * x)) in Hpos by ring.
      rewrite rnd_opp, Rabs_Ropp in Hpos. replace (- rnd (c * x) - - (c' * x)) with (- (rnd (c * x) - c' * x)) in Hpos by ring.
      now rewrite Rabs_Ropp in Hpos.
    - unfold accurate. rewrite Rabs_R0, Rminus_diag_eq, Rabs_R0 by reflexivity. lra.
  Qed.
End Conv.
