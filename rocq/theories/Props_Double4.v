(** * Props_Double4: converting any doubles, overflow and underflow included (C127). *)
From Coq Require Import ZArith Reals Lra Lia Qreals Qabs Ascii NArith FunctionalExtensionality.
From Flocq Require Import Core Relative.
From Verif Require Import Py Num Dim DimFacts Arr ArrFacts Units Spec UnitFacts Quant QuantFacts ConvFacts Ufunc Ops OpsFacts
     Text Lex Registry RegFacts HistFacts Table Import TableFacts SpecSizes Props_Table Props_Ops Float SpecFloat FloatFacts LibFloat Props_Float
     HeapDims Double SpecDouble DoubleFacts LibDouble Props_Double Props_Double3.
Open Scope list_scope.
Open Scope R_scope.

(** ** C127: conversions without a condition on the size of the numbers *)
Lemma pow_bpow n : 2 ^ n = bpow radix2 (Z.of_nat n).
Proof. rewrite bpow_powerRZ, <- pow_powerRZ. reflexivity. Qed.
Lemma macheps_double : macheps = bpow radix2 (-52).
Proof. unfold macheps. rewrite pow_bpow, <- bpow_opp. reflexivity. Qed.
Lemma macheps_pos : 0 < macheps.
Proof. rewrite macheps_double. apply bpow_gt_0. Qed.

(** Rounding any number: an error relative to it, or of at most half the smallest subnormal. *)
Lemma rndD_any x : Rabs x <= bpow radix2 1023 ->
  exists z, rndD x = Some z /\ Rabs (z - x) <= / 2 * macheps * Rabs x + / 2 * bpow radix2 (-1074).
Proof.
  intros Hx. unfold rndD. set (r := round radix2 (FLT_exp (-1074) 53) ZnearestE x).
  assert (Hr : Rabs r <= bpow radix2 1023).
  { apply abs_round_le_generic; [apply FLT_exp_valid; reflexivity|typeclasses eauto| |exact Hx].
    apply generic_format_bpow. unfold FLT_exp. lia. }
  rewrite Rlt_bool_true by (eapply Rle_lt_trans; [exact Hr|]; apply bpow_lt; lia).
  exists r. split; [reflexivity|]. destruct (error_N_FLT radix2 (-1074) 53 ltac:(lia) (fun n => negb (Z.even n)) x) as (e & t & He & Ht & _ & Er).
  fold ZnearestE in Er. fold r in Er. rewrite Er. replace (x * (1 + e) + t - x) with (x * e + t) by ring.
  eapply Rle_trans; [apply Rabs_triang|]. rewrite Rabs_mult. rewrite macheps_double.
  change (-53 + 1)%Z with (-52)%Z in He. apply Rplus_le_compat; [|exact Ht].
  rewrite (Rmult_comm (Rabs x)). apply Rmult_le_compat_r; [apply Rabs_pos|exact He].
Qed.
Lemma rndD_overflow x : bpow radix2 1024 <= Rabs x -> rndD x = None.
Proof.
  intros Hx. unfold rndD. rewrite Rlt_bool_false; [reflexivity|].
  apply abs_round_ge_generic; [apply FLT_exp_valid; reflexivity|typeclasses eauto| |exact Hx].
  apply generic_format_bpow. unfold FLT_exp. lia.
Qed.

(** Specification-level: the double [x] for the exact number [y]: finite and accurate, up to the smallest
    subnormal number, if [y] is in range; not finite if [y] is out of range. *)
Definition in_range_accurate (K : R) (x : option R) (y : R) : Prop :=
  (Rabs y <= 2 ^ 1019 -> exists z, x = Some z /\ Rabs (z - y) <= K * macheps * Rabs y + / 2 ^ 1074) /\
  (2 ^ 1025 <= Rabs y -> x = None).

Lemma scaleD_range pw k c c' x : k <= 490 -> nearD k c c' ->
  in_range_accurate (k + 1) (@nmul _ (NumD pw) c (Some x)) (c' * x).
Proof.
  intros Hk H. pose proof (nearD_count _ _ _ H) as K0. destruct H as (z & -> & N & _).
  assert (HB : 0 <= k <= 2 ^ 50).
  { split; auto. assert (490 <= 2 ^ 50); [|lra]. replace (2 ^ 50) with 1125899906842624 by lra. lra. }
  pose proof (near_accurate k z c' HB N) as A. unfold accurate in A. destruct N as (Z0 & C0 & _).
  pose proof macheps_pos as M0. assert (M1 : k * macheps <= / 100).
  { assert (macheps * 100 * 490 <= 1); [|nra]. unfold macheps. replace (2 ^ 52) with 4503599627370496 by lra. lra. }
  assert (E1 : Rabs (z * x - c' * x) <= k * macheps * Rabs (c' * x)).
  { replace (z * x - c' * x) with ((z - c') * x) by ring. rewrite !Rabs_mult. pose proof (Rabs_pos x). nra. }
  set (y := c' * x) in *. cbn [nmul NumD on2]. set (v := z * x) in *. clearbody v y.
  pose proof (Rabs_pos y) as Y0.
  assert (V1 : Rabs v <= 2 * Rabs y).
  { replace v with ((v - y) + y) by ring. eapply Rle_trans; [apply Rabs_triang|]. nra. }
  assert (V2 : Rabs y <= 2 * Rabs v).
  { pose proof (Rabs_triang (y - v) v) as T. replace (y - v + v) with y in T by ring. rewrite <- Rabs_Ropp in E1. replace (- (v - y)) with (y - v) in E1 by ring. nra. }
  split.
  - intros Hy. destruct (rndD_any v) as (w & Ew & Hw).
    { assert (Hb : bpow radix2 1023 = bpow radix2 4 * bpow radix2 1019) by (rewrite <- bpow_plus; reflexivity).
      rewrite Hb. change (bpow radix2 4) with 16. rewrite pow_bpow in Hy. change (Z.of_nat 1019) with 1019%Z in Hy. pose proof (bpow_gt_0 radix2 1019). lra. }
    exists w. split; [exact Ew|]. replace (w - y) with ((w - v) + (v - y)) by ring. eapply Rle_trans; [apply Rabs_triang|].
    assert (Hs : / 2 ^ 1074 = bpow radix2 (-1074)) by (rewrite pow_bpow, <- bpow_opp; reflexivity).
    rewrite Hs. pose proof (bpow_gt_0 radix2 (-1074)).
    assert (/ 2 * macheps * Rabs v <= macheps * Rabs y) by nra. nra.
  - intros Hy. apply rndD_overflow.
    assert (Hb : bpow radix2 1025 = 2 * bpow radix2 1024) by (change 2 with (bpow radix2 1); rewrite <- bpow_plus; reflexivity).
    rewrite pow_bpow in Hy. change (Z.of_nat 1025) with 1025%Z in Hy. lra.
Qed.

(** Converting any finite doubles. *)
Theorem C127_range : forall pw w (ED : uenv (option R)) (ER : uenv R) (a : arr R) d d',
  faithfulD pw -> env_nearD pw w ED ER -> roundings w d + roundings w d' <= 480 ->
  Forall (fun x => Rabs x < 2 ^ 1024) (dat a) ->
  match @rescale_to _ (NumD pw) ED (Qty (finite a) d) d', @rescale_to R NumR ER (Qty a d) d' with
  | Ok r, Ok r' => qdim r = qdim r' /\ shp (mag r) = shp (mag r') /\
                   Forall2 (in_range_accurate (roundings w d + roundings w d' + 4)) (dat (mag r)) (dat (mag r'))
  | Err e, Err e' => e = e'
  | _, _ => False
  end.
Proof.
  intros pw w ED ER a d d' Hpw HE HK Hm. pose proof (env_nearD_w _ _ _ _ HE) as Hw.
  pose proof (roundings_nn w d Hw). pose proof (roundings_nn w d' Hw). pose proof macheps_pos as M0.
  unfold rescale_to. cbn [qdim mag]. destruct (dim_eqb d d').
  - split; [reflexivity|]. split; [reflexivity|]. unfold finite. cbn [mag dat amap].
    induction Hm as [|x l Hx Hm IH]; cbn [map]; constructor; [|exact IH]. split.
    + intros _. exists x. split; [reflexivity|]. rewrite Rminus_diag_eq, Rabs_R0 by reflexivity.
      assert (0 < / 2 ^ 1074) by (apply Rinv_0_lt_compat, pow_lt; lra). pose proof (Rabs_pos x).
      assert (0 <= (roundings w d + roundings w d' + 4) * macheps * Rabs x) by (apply Rmult_le_pos; auto; apply Rmult_le_pos; lra). lra.
    + intros L. exfalso. assert (2 ^ 1024 <= 2 ^ 1025) by (apply Rle_pow; [lra|lia]). lra.
  - pose proof (conv_factor_nearD pw Hpw w ED ER d d' HE ltac:(lra)) as C.
    destruct (@conv_factor _ (NumD pw) ED d d') as [c|e], (@conv_factor R NumR ER d d') as [c'|e']; try contradiction.
    + cbn [qdim mag]. split; [reflexivity|]. split; [reflexivity|]. unfold finite. cbn [dat amap mag]. rewrite map_map.
      clear Hm. induction (dat a) as [|x l IH]; cbn [map]; constructor; [|exact IH].
      replace (roundings w d + roundings w d' + 4) with (roundings w d + roundings w d' + 3 + 1) by ring.
      apply scaleD_range; auto. lra.
    + subst e'. now destruct e.
Qed.
(** Between any two units of the library: if the exact result is below 2^1019 the double is
    finite, and exact up to 1e-13 and the smallest subnormal number; if it is 2^1025 or more
    it is not finite. *)
Theorem C127_units : forall pw fread (a : arr R) u v, faithfulD pw -> Forall (fun x => Rabs x < 2 ^ 1024) (dat a) ->
  match @rescale_to _ (NumD pw) (objs (dlib pw fread)) (Qty (finite a) (unit_dims u)) (unit_dims v),
        @rescale_to R NumR (objs (lib fread)) (Qty a (unit_dims u)) (unit_dims v) with
  | Ok r, Ok r' => qdim r = qdim r' /\ shp (mag r) = shp (mag r') /\
                   Forall2 (fun x y => (Rabs y <= 2 ^ 1019 -> exists z, x = Some z /\ Rabs (z - y) <= / 10 ^ 13 * Rabs y + / 2 ^ 1074) /\
                                       (2 ^ 1025 <= Rabs y -> x = None)) (dat (mag r)) (dat (mag r'))
  | Err e, Err e' => e = e'
  | _, _ => False
  end.
Proof.
  intros pw fread a u v Hpw Hm. destruct (C123_import pw fread Hpw) as (_ & _ & _ & _ & _ & w & Hw & HE).
  pose proof (wD_unit w Hw u) as Hu. pose proof (wD_unit w Hw v) as Hv.
  pose proof (C127_range pw w (objs (dlib pw fread)) (objs (lib fread)) a (unit_dims u) (unit_dims v) Hpw HE ltac:(lra) Hm) as H.
  set (RF := @rescale_to _ (NumD pw) (objs (dlib pw fread)) (Qty (finite a) (unit_dims u)) (unit_dims v)) in *.
  set (RR := @rescale_to R NumR (objs (lib fread)) (Qty a (unit_dims u)) (unit_dims v)) in *.
  clearbody RF RR. destruct RF as [r|e], RR as [r'|e']; try contradiction; [|exact H].
  destruct H as (H1 & H2 & H3). split; [exact H1|]. split; [exact H2|].
  induction H3 as [|x y l l' H3 _ IH]; constructor; [|exact IH]. destruct H3 as [H3 H4]. split; [|exact H4].
  intros Hy. destruct (H3 Hy) as (z & Ez & B). exists z. split; [exact Ez|]. eapply Rle_trans; [exact B|].
  apply Rplus_le_compat_r. apply Rmult_le_compat_r; [apply Rabs_pos|]. eapply Rle_trans; [|apply macheps_450].
  pose proof macheps_pos. apply Rmult_le_compat_r; lra.
Qed.

(** ** Signs *)
(** Negation and absolute value are exact. *)
Theorem C127_signs : forall pw (ED : uenv (option R)) (EF ER : uenv R) (q : qty R),
  let fin (r : res (qty R)) := rmap (fun q => Qty (finite (mag q)) (qdim q)) r in
  @q_neg _ (NumD pw) ED (Qty (finite (mag q)) (qdim q)) = fin (@q_neg R NumR ER q) /\
  @q_abs _ (NumD pw) ED (Qty (finite (mag q)) (qdim q)) = fin (@q_abs R NumR ER q).
Proof.
  intros pw ED EF ER [m d] fin. split; unfold fin, q_neg, q_abs, apply1; cbn; unfold finite, amap; cbn; rewrite !map_map; reflexivity.
Qed.

(** ** Example *)
(** 2^1020 km are too many metres for a double. *)
Example C127_example fread : exists r,
  @rescale_to _ (NumD ex_pwD) (objs (dlib ex_pwD fread)) (Qty (finite (scalar (2 ^ 1020))) (unit_dims (uL "kilometer"))) (unit_dims (uL "meter")) = Ok r /\
  dat (mag r) = [None].
Proof.
  assert (Hz : In (Size (uL "kilometer") 1000 (unit_dims (uL "meter"))) standard_sizes).
  { unfold standard_sizes. apply in_or_app. left. unfold lengths. left. reflexivity. }
  destruct (C89_rescale fread _ (Qty (scalar (2 ^ 1020)) (unit_dims (uL "kilometer"))) Hz eq_refl eq_refl) as (r' & E' & Em & _). cbn [sz_of sz_factor mag] in E', Em.
  assert (H20 : Rabs (2 ^ 1020) = 2 ^ 1020) by (apply Rabs_pos_eq, pow_le; lra).
  assert (Hm : Forall (fun x => Rabs x < 2 ^ 1024) (dat (scalar (2 ^ 1020)))).
  { constructor; [|constructor]. rewrite H20. apply Rlt_pow; [lra|lia]. }
  pose proof (C127_units ex_pwD fread (scalar (2 ^ 1020)) (uL "kilometer") (uL "meter") ex_pwD_faithful Hm) as H.
  revert H E'. generalize (objs (dlib ex_pwD fread)) as ED, (objs (lib fread)) as ER. intros ED ER H E'. rewrite E' in H.
  match type of H with match ?X with _ => _ end => destruct X as [r|e]; [|contradiction] end.
  exists r. split; [reflexivity|]. destruct H as (_ & _ & F). rewrite Em in F. unfold scalar, amap in F. cbn [dat map] in F.
  assert (HB : 2 ^ 1025 <= Rabs (Q2R 1000 * 2 ^ 1020)).
  { replace (Q2R 1000) with 1000 by (unfold Q2R; cbn; lra). rewrite Rabs_mult, H20, (Rabs_pos_eq 1000) by lra.
    replace 1025%nat with (5 + 1020)%nat by reflexivity. rewrite pow_add. assert (0 < 2 ^ 1020) by (apply pow_lt; lra). replace (2 ^ 5) with 32 by (simpl; lra). nra. }
  revert F HB. generalize (Q2R 1000 * 2 ^ 1020) as Y. intros Y F HB. destruct (dat (mag r)) as [|x [|? ?]]; [inversion F| |].
  - inversion F as [|? ? ? ? [_ Ho] _]. rewrite (Ho HB). reflexivity.
  - inversion F as [|? ? ? ? _ F']. inversion F'.
Qed.

Print Assumptions C127_range.
Print Assumptions C127_units.
Print Assumptions C127_signs.
