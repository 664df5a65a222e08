(** * Properties C105-C106: uncertain quantities with missing values (NaN). *)
From Coq Require Import Reals Lra Lia.
From Verif Require Import Py Num Dim DimFacts Arr ArrFacts Lanes Units Spec UnitFacts Quant QuantFacts SimpFacts SpecApi ConvFacts
  Ufunc Ops OpsFacts Methods MethodsFacts Examples Props_Conv Props_Ops Props_Ufunc Props_Methods Methods2 Props_Methods2 Nan Props_Nan
  Uncert SpecUncert UncertFacts Props_Uncert UncertNan.

Open Scope R_scope.

Lemma osq_eq (a : arr (option R)) : osq a = amap (option_map (fun t => t * t)) a.
Proof.
  unfold osq, asquare. apply amap_ext. intros [x|] _; [|reflexivity]. cbn. f_equal. exact (npow_two x).
Qed.
Lemma somes_nan_to_num (l : list (option R)) : map (fun o => match o with None => Some 0 | _ => o end) l =
  map Some (map (fun o => match o with Some x => x | None => 0 end) l).
Proof. rewrite map_map. apply map_ext. intros [x|]; reflexivity. Qed.
Lemma Rsum_sq_zeros (l : list (option R)) :
  Rsum (map (fun t => t * t) (map (fun o => match o with Some x => x | None => 0 end) l)) = Rsum (map (fun t => t * t) (somes l)).
Proof. unfold Rsum in *. induction l as [|[x|] l IH]; cbn [map somes fold_right]; [reflexivity| |]; rewrite IH; lra. Qed.
Lemma u_make_oa E (v : qty (option R)) a : qty_ok v -> awf a -> shp a = shp (mag v) ->
  @u_make _ NumO E v (Some (OArr a)) = Ok (UQ v (Qty a (qdim v))).
Proof.
  intros [_ D] Ha Hs. unfold u_make. cbn [bind]. unfold set_uncertainty. cbn [as_q mag qdim].
  destruct (list_eq_dec _ _ _) as [_|X]; [|congruence]. rewrite dim_eqb_refl by apply D. reflexivity.
Qed.
Lemma Rsum_sq_pos (l : list R) : 0 <= Rsum (map (fun t => t * t) l).
Proof. unfold Rsum in *. induction l as [|x l IH]; cbn [map fold_right]; [lra|]. pose proof (sq_nonneg x). lra. Qed.
Lemma Rsum_sq_scale v (l : list R) : Rsum (map (fun t => t * t) (map (fun x => x * v) l)) = Rsum (map (fun t => t * t) l) * (v * v).
Proof. unfold Rsum in *. induction l as [|x l IH]; cbn [map fold_right]; [lra|]. rewrite IH. lra. Qed.
Lemma shp_reduce {A B C D} (f : list A -> B) (g : list C -> D) (a : arr A) (b : arr C) ax r s :
  shp a = shp b -> areduce f ax a = Ok r -> areduce g ax b = Ok s -> shp r = shp s.
Proof.
  intros Hs Hr Ht. destruct ax as [ax|].
  - cbn [areduce] in Hr, Ht. rewrite Hs in Hr. destruct (split_axis (shp b) ax) as [[[pre n] post]|]; [|discriminate].
    assert (X := f_equal (fun y => match y with Ok m => shp m | Err _ => [] end) Hr).
    assert (Y := f_equal (fun y => match y with Ok m => shp m | Err _ => [] end) Ht). cbn [shp] in X, Y. congruence.
  - apply areduce_all in Hr. apply areduce_all in Ht. now subst.
Qed.
Lemma lane_of_map {A B} (f : A -> B) (a : arr A) axis idx l : lane_of a axis idx l -> lane_of (amap f a) axis idx (map f l).
Proof.
  unfold lane_of. destruct axis as [k|]; [|now intros ->]. intros (ax & M & L). exists ax. rewrite amap_shp. split; [exact M|].
  now apply is_lane_map.
Qed.

Lemma lane_of_unique {A} (a : arr A) axis idx l l' : lane_of a axis idx l -> lane_of a axis idx l' -> l = l'.
Proof.
  unfold lane_of. destruct axis as [k|]; [|congruence]. intros (ax & M & L) (ax' & M' & L').
  assert (ax = ax') as <-; [|exact (lane_unique a ax idx l l' L L')].
  pose proof (norm_axis_complete _ _ _ M) as X. rewrite (norm_axis_complete _ _ _ M') in X. congruence.
Qed.
Lemma zip_get {A B C} (f : A -> B -> C) (a : arr A) (b : arr B) idx x y : awf a -> awf b -> shp a = shp b ->
  aget a idx = Some x -> aget b idx = Some y -> aget (Arr (shp a) (zip_with f (dat a) (dat b))) idx = Some (f x y).
Proof.
  intros Wa Wb Hs Ha Hb. set (p := Arr (shp a) (combine (dat a) (dat b))).
  assert (L : length (dat a) = length (dat b)) by (unfold awf in Wa, Wb; rewrite Wa, Wb, Hs; reflexivity).
  assert (G : forall (l : list A) (l' : list B), length l = length l' ->
            map fst (combine l l') = l /\ map snd (combine l l') = l' /\ map (fun q => f (fst q) (snd q)) (combine l l') = zip_with f l l').
  { induction l as [|c l IH]; intros [|c' l'] E; cbn [length] in E; try discriminate; [auto|].
    destruct (IH l') as (I1 & I2 & I3); [lia|]. cbn [combine map zip_with fst snd]. now rewrite I1, I2, I3. }
  destruct (G _ _ L) as (G1 & G2 & G3).
  assert (P1 : a = amap fst p) by (unfold p, amap; cbn [shp dat]; rewrite G1; now destruct a).
  assert (P2 : b = amap snd p) by (unfold p, amap; cbn [shp dat]; rewrite G2, Hs; now destruct b).
  rewrite P1, amap_get in Ha. rewrite P2, amap_get in Hb.
  assert (P3 : Arr (shp a) (zip_with f (dat a) (dat b)) = amap (fun q => f (fst q) (snd q)) p) by (unfold p, amap; cbn [shp dat]; now rewrite G3).
  rewrite P3, amap_get. destruct (aget p idx) as [q|]; cbn [option_map] in *; congruence.
Qed.

(** C105 *)
(** [nansum]: the sum of the numbers of each lane; its uncertainty is the root of the sum
    of the squares of the uncertainties of the lane that are numbers. *)
Theorem C105_nansum : forall E axis (x z : uqty (option R)), uq_ok x -> un_sum E axis x = Ok z ->
  uq_ok z /\ qdim (uv z) = qdim (uv x) /\
  forall phi idx, in_range (shp (mag (uv z))) idx ->
    exists vals uncs, lane_of (physo phi (uv x)) axis idx vals /\ lane_of (physo phi (uu x)) axis idx uncs /\
      aget (physo phi (uv z)) idx = Some (Some (Rsum (somes vals))) /\
      aget (physo phi (uu z)) idx = Some (Some (sqrt (Rsum (map (fun t => t * t) (somes uncs))))).
Proof.
  intros E axis x z (Hv & Hu & Hs & He) H. unfold un_sum in H.
  destruct (q_nanred NanSum axis (uv x)) as [v|] eqn:Ev; cbn [bind] in H; [|discriminate].
  destruct (norm_axis _ axis) as [ax|] eqn:Ea; cbn [bind] in H; [|discriminate].
  destruct (areduce (nan_fun NanSum) ax (osq (mag (uu x)))) as [s|] eqn:Es; cbn [bind] in H; [|discriminate].
  destruct (C100_nan_reductions NanSum axis (uv x) v Hv Ev) as (Dv & Ov & Lv).
  assert (Ws : awf s) by (apply (awf_areduce _ ax (a := osq (mag (uu x)))) in Es; [exact Es|rewrite osq_eq; apply awf_amap; apply Hu]).
  assert (Hsh : shp s = shp (mag v)).
  { unfold q_nanred in Ev. rewrite <- Hs, Ea in Ev. cbn [bind] in Ev.
    destruct (areduce (nan_fun NanSum) ax (mag (uv x))) as [m|] eqn:Em; cbn [bind] in Ev; [|discriminate].
    assert (v = Qty m (qdim (uv x))) as -> by congruence. cbn [mag].
    refine (shp_reduce _ _ _ _ ax s m _ Es Em). rewrite osq_eq. exact Hs. }
  assert (Wr : awf (ort s)) by (now apply awf_amap).
  rewrite u_make_oa in H by (first [exact Ov|exact Wr|exact Hsh]).
  assert (z = UQ v (Qty (ort s) (qdim v))) as -> by congruence. cbn [uv uu].
  split. { split; [exact Ov|]. split; [split; [exact Wr|apply Ov]|]. split; [exact Hsh|reflexivity]. }
  split; [exact Dv|]. intros phi idx HR. destruct (Lv phi idx HR) as (vals & z0 & L1 & G1 & N1).
  cbn [nan_spec] in N1. subst z0.
  rewrite osq_eq, areduce_amap in Es. rewrite <- Hsh in HR.
  destruct (areduce_lane _ (mag (uu x)) axis ax s idx (proj1 Hu) Ea Es HR) as (l0 & L0 & G2).
  exists vals, (map (option_map (fun t => t * dimval phi (qdim (uu x)))) l0). split; [exact L1|].
  split; [unfold physo; now apply lane_of_map|]. split; [exact G1|].
  unfold physo. cbn [mag qdim]. unfold ort, aroot. rewrite !amap_get, G2. cbn [option_map nan_fun].
  rewrite !somes_map. rewrite lsum_Rsum. cbn [NumO npow option_map]. do 2 f_equal.
  rewrite npow_half by apply Rsum_sq_pos. rewrite Rsum_sq_scale.
  rewrite Dv. assert (dimval phi (qdim (uu x)) = dimval phi (qdim (uv x))) as -> by (apply dimval_exp; [apply Hu|apply Hv|exact He]).
  pose proof (dimval_pos phi (qdim (uv x))) as P.
  rewrite sqrt_mult_alt by apply Rsum_sq_pos. rewrite sqrt_square by lra. reflexivity.
Qed.
(** [nanmean]: over the numbers of each lane that has one; the uncertainty is the root of
    the sum of the squares of the uncertainties of the lane that are numbers, divided by
    the number of values that are numbers. *)
Theorem C105_nanmean : forall E axis (x z : uqty (option R)), uq_ok x -> un_mean E axis x = Ok z ->
  uq_ok z /\ qdim (uv z) = qdim (uv x) /\
  forall phi idx, in_range (shp (mag (uv z))) idx ->
    exists vals uncs, lane_of (physo phi (uv x)) axis idx vals /\ lane_of (physo phi (uu x)) axis idx uncs /\
      (somes vals = [] -> aget (physo phi (uv z)) idx = Some None) /\
      (somes vals <> [] ->
         aget (physo phi (uv z)) idx = Some (Some (Rmean (somes vals))) /\
         aget (physo phi (uu z)) idx = Some (Some (sqrt (Rsum (map (fun t => t * t) (somes uncs))) / INR (length (somes vals))))).
Proof.
  intros E axis x z (Hv & Hu & Hs & He) H. unfold un_mean in H.
  destruct (norm_axis _ axis) as [ax|] eqn:Ea; cbn [bind] in H; [|discriminate].
  destruct (areduce (fun l => length (somes l)) ax (mag (uv x))) as [sz|] eqn:Ez; cbn [bind] in H; [|discriminate].
  destruct (q_nanred NanMean axis (uv x)) as [v|] eqn:Ev; cbn [bind] in H; [|discriminate].
  rewrite Hs, Ea in H. cbn [bind] in H.
  destruct (areduce (nan_fun NanSum) ax (osq (nan_to_num (mag (uu x))))) as [s|] eqn:Es; cbn [bind] in H; [|discriminate].
  destruct (C100_nan_reductions NanMean axis (uv x) v Hv Ev) as (Dv & Ov & Lv).
  assert (Wz : awf sz) by (exact (awf_areduce _ _ (proj1 Hv) Ez)).
  assert (Ws : awf s).
  { apply (awf_areduce _ ax (a := osq (nan_to_num (mag (uu x))))) in Es; [exact Es|rewrite osq_eq; apply awf_amap, awf_amap; apply Hu]. }
  assert (Hzv : shp sz = shp (mag v)).
  { unfold q_nanred in Ev. rewrite Ea in Ev. cbn [bind] in Ev.
    destruct (areduce (nan_fun NanMean) ax (mag (uv x))) as [m|] eqn:Em; cbn [bind] in Ev; [|discriminate].
    assert (v = Qty m (qdim (uv x))) as -> by congruence. cbn [mag]. exact (shp_reduce _ _ _ _ ax sz m eq_refl Ez Em). }
  assert (Hzs : shp sz = shp s).
  { refine (shp_reduce _ _ _ _ ax sz s _ Ez Es). rewrite osq_eq. symmetry. exact Hs. }
  rewrite amap2_same_shape in H by assumption. cbn [bind] in H.
  set (u := Arr (shp sz) (zip_with mean_unc (dat sz) (dat s))) in *.
  assert (Wu : awf u).
  { unfold awf, u. cbn [dat shp]. unfold awf in Wz, Ws. rewrite zip_with_length. rewrite Ws, <- Hzs, Wz. apply Nat.min_id. }
  rewrite u_make_oa in H by (first [exact Ov|exact Wu|exact Hzv]).
  assert (z = UQ v (Qty u (qdim v))) as -> by congruence. cbn [uv uu].
  split. { split; [exact Ov|]. split; [split; [exact Wu|apply Ov]|]. split; [exact Hzv|reflexivity]. }
  split; [exact Dv|]. intros phi idx HR. destruct (Lv phi idx HR) as (vals & z0 & L1 & G1 & N1).
  cbn [nan_spec] in N1.
  rewrite <- Hzv in HR.
  destruct (areduce_lane _ (mag (uv x)) axis ax sz idx (proj1 Hv) Ea Ez HR) as (lv & Lv0 & Gz).
  pose proof (lane_of_map (option_map (fun t => t * dimval phi (qdim (uv x)))) _ _ _ _ Lv0) as Lv1.
  change (lane_of (physo phi (uv x)) axis idx (map (option_map (fun t => t * dimval phi (qdim (uv x)))) lv)) in Lv1.
  pose proof (lane_of_unique _ _ _ _ _ L1 Lv1) as El.
  rewrite osq_eq in Es. unfold nan_to_num in Es. rewrite amap_amap in Es. rewrite areduce_amap in Es. rewrite Hzs in HR.
  rewrite <- Hs in Ea.
  destruct (areduce_lane _ (mag (uu x)) axis ax s idx (proj1 Hu) Ea Es HR) as (l0 & L0 & G2).
  exists vals, (map (option_map (fun t => t * dimval phi (qdim (uu x)))) l0). split; [exact L1|].
  split; [unfold physo; now apply lane_of_map|]. split; [intros X; rewrite G1; f_equal; exact (proj1 N1 X)|].
  intros X. split; [rewrite G1; f_equal; exact (proj2 N1 X)|].
  assert (Gu : aget u idx = Some (mean_unc (length (somes lv)) (nan_fun NanSum (map (fun x0 => option_map (fun t => t * t) (match x0 with Some _ => x0 | None => Some n0 end)) l0)))).
  { apply zip_get; [exact Wz|exact Ws|exact Hzs|exact Gz|exact G2]. }
  unfold physo. cbn [mag qdim]. rewrite amap_get, Gu. rewrite El in X |- *. rewrite somes_map in X. rewrite !somes_map, map_length.
  assert (Nz : length (somes lv) <> 0%nat) by (destruct (somes lv); [exfalso; apply X; reflexivity|discriminate]).
  unfold mean_unc. destruct (Nat.eqb_spec (length (somes lv)) 0) as [|_]; [contradiction|]. cbn [option_map nan_fun].
  do 2 f_equal.
  rewrite lsum_Rsum.
  assert (S : somes (map (fun x0 : option R => option_map (fun t => t * t) (match x0 with Some _ => x0 | None => Some n0 end)) l0) =
              map (fun t => t * t) (map (fun o => match o with Some x => x | None => 0 end) l0)).
  { clear. induction l0 as [|[t|] l IH]; cbn [map somes option_map]; [reflexivity| |]; rewrite IH; reflexivity. }
  rewrite S, Rsum_sq_zeros, Rsum_sq_scale. rewrite npow_two, nofnat_INR. cbn [nmul ndiv n1 NumR].
  assert (Pn : 0 < INR (length (somes lv))) by (apply lt_0_INR; lia).
  assert (Qn : 0 < / INR (length (somes lv))) by (now apply Rinv_0_lt_compat).
  unfold Rdiv. rewrite Rmult_1_l. pose proof (Rsum_sq_pos (somes l0)) as P0.
  rewrite npow_half by (apply Rmult_le_pos; [apply sq_nonneg|exact P0]).
  rewrite Dv. assert (dimval phi (qdim (uu x)) = dimval phi (qdim (uv x))) as -> by (apply dimval_exp; [apply Hu|apply Hv|exact He]).
  pose proof (dimval_pos phi (qdim (uv x))) as P.
  rewrite (sqrt_mult_alt (_ * _)) by apply sq_nonneg. rewrite sqrt_square by lra.
  rewrite sqrt_mult_alt by exact P0. rewrite sqrt_square by lra. ring.
Qed.
(** Both need only an existing axis (or none). *)
Theorem C105_defined : forall E axis (x : uqty (option R)), uq_ok x ->
  let ax_ok := match axis with None => True | Some k => exists ax, axis_means (length (shp (mag (uv x)))) k ax end in
  ((exists z, un_sum E axis x = Ok z) <-> ax_ok) /\ ((exists z, un_mean E axis x = Ok z) <-> ax_ok) /\
  (~ ax_ok -> un_sum E axis x = Err ValueError /\ un_mean E axis x = Err ValueError).
Proof.
  intros E axis x (Hv & Hu & Hs & He) ax_ok.
  destruct (norm_axis (length (shp (mag (uv x)))) axis) as [ax|e] eqn:Ea.
  - assert (AX : ax_ok). { unfold ax_ok. destruct axis as [k|]; auto. apply norm_axis_spec in Ea. destruct Ea as (i & _ & M). eauto. }
    assert (Ou : norm_axis (length (shp (osq (mag (uu x))))) axis = Ok ax) by (rewrite osq_eq; cbn [amap shp]; rewrite Hs; exact Ea).
    assert (On : norm_axis (length (shp (osq (nan_to_num (mag (uu x)))))) axis = Ok ax) by (rewrite osq_eq; unfold nan_to_num; rewrite !amap_shp; rewrite Hs; exact Ea).
    split; [|split].
    + split; [intros _; exact AX|]. intros _. unfold un_sum, q_nanred. rewrite Hs, Ea. cbn [bind].
      destruct (norm_axis_areduce (nan_fun NanSum) (mag (uv x)) axis ax Ea) as [m Hm]. rewrite Hm. cbn [bind].
      destruct (norm_axis_areduce (nan_fun NanSum) _ axis ax Ou) as [s Hr]. rewrite Hr. cbn [bind].
      rewrite u_make_oa; [eauto| | |].
      * split; [exact (awf_areduce _ _ (proj1 Hv) Hm)|apply Hv].
      * apply awf_amap. refine (awf_areduce _ _ _ Hr). rewrite osq_eq. apply awf_amap, Hu.
      * cbn [mag ort aroot amap shp]. refine (shp_reduce _ _ _ _ ax s m _ Hr Hm). rewrite osq_eq. exact Hs.
    + split; [intros _; exact AX|]. intros _. unfold un_mean, q_nanred. rewrite Hs, Ea. cbn [bind].
      destruct (norm_axis_areduce (fun l : list (option R) => length (somes l)) (mag (uv x)) axis ax Ea) as [sz Hz]. rewrite Hz. cbn [bind].
      destruct (norm_axis_areduce (nan_fun NanMean) (mag (uv x)) axis ax Ea) as [m Hm]. rewrite Hm. cbn [bind].
      destruct (norm_axis_areduce (nan_fun NanSum) _ axis ax On) as [s Hr]. rewrite Hr. cbn [bind].
      assert (Wz : awf sz) by (exact (awf_areduce _ _ (proj1 Hv) Hz)).
      assert (Ws : awf s) by (refine (awf_areduce _ _ _ Hr); rewrite osq_eq; apply awf_amap, awf_amap, Hu).
      assert (Hzs : shp sz = shp s) by (refine (shp_reduce _ _ _ _ ax sz s _ Hz Hr); rewrite osq_eq; symmetry; exact Hs).
      rewrite amap2_same_shape by assumption. cbn [bind]. rewrite u_make_oa; [eauto| | |].
      * split; [exact (awf_areduce _ _ (proj1 Hv) Hm)|apply Hv].
      * unfold awf in *. cbn [dat shp]. rewrite zip_with_length. rewrite Ws, <- Hzs, Wz. apply Nat.min_id.
      * exact (shp_reduce _ _ _ _ ax sz m eq_refl Hz Hm).
    + contradiction.
  - assert (e = ValueError) by (now apply norm_axis_err in Ea). subst e.
    assert (AX : ~ ax_ok).
    { unfold ax_ok. destruct axis as [k|]; [|discriminate]. intros [i M]. rewrite (norm_axis_complete _ _ _ M) in Ea. discriminate. }
    assert (S : un_sum E axis x = Err ValueError) by (unfold un_sum, q_nanred; rewrite Ea; reflexivity).
    assert (M : un_mean E axis x = Err ValueError) by (unfold un_mean; rewrite Ea; reflexivity).
    rewrite S, M. split; [split; [intros [z Z]; discriminate|contradiction]|]. split; [split; [intros [z Z]; discriminate|contradiction]|]. auto.
Qed.
(** Values and uncertainties that are all numbers. *)
Definition numbers (x : uqty R) : uqty (option R) :=
  UQ (Qty (amap Some (mag (uv x))) (qdim (uv x))) (Qty (amap Some (mag (uu x))) (qdim (uu x))).
(** Without NaN, [nansum] is [sum]. *)
Theorem C105_without_nan : forall (E : uenv R) axis (x z : uqty R), uq_ok x ->
  (u_sum E axis x = Ok z <-> un_sum (lift_env E) axis (numbers x) = Ok (numbers z)).
Proof.
  intros E axis x z (Hv & Hu & Hs & He).
  assert (X : un_sum (lift_env E) axis (numbers x) = rmap numbers (u_sum E axis x)).
  { unfold un_sum, u_sum. unfold numbers at 1 2 3. cbn [uv uu mag qdim].
    rewrite C100_without_nan_sum. destruct (q_red RedSum axis (Qty (mag (uv x)) (qdim (uv x)))) as [v|] eqn:Ev.
    2:{ cbn [rmap bind]. replace (uv x) with (Qty (mag (uv x)) (qdim (uv x))) by (now destruct (uv x)). rewrite Ev. reflexivity. }
    cbn [rmap bind]. replace (q_red RedSum axis (uv x)) with (Ok v) by (rewrite <- Ev; now destruct (uv x)). cbn [bind].
    rewrite amap_shp. destruct (norm_axis _ axis) as [ax|] eqn:Ea; cbn [bind rmap]; [|reflexivity].
    rewrite osq_eq, amap_amap, areduce_amap.
    unfold asquare. rewrite areduce_amap.
    rewrite (areduce_ext _ (fun l => Some (lsum (map (fun y : R => npow y p_two) l)))).
    2:{ intros l. cbn [nan_fun]. f_equal. f_equal. clear. cbn [option_map]. rewrite <- (map_map (fun t => t * t) Some), somes_some. apply map_ext. intros t. symmetry. exact (npow_two t). }
    rewrite <- (rmap_areduce (fun l => lsum (map (fun y : R => npow y p_two) l)) Some).
    destruct (areduce (fun l => lsum (map (fun y : R => npow y p_two) l)) ax (mag (uu x))) as [s|] eqn:Es; cbn [bind rmap]; [|reflexivity].
    assert (Wv : qty_ok v).
    { unfold q_red in Ev. cbn [mag qdim] in Ev. rewrite <- Hs, Ea in Ev. cbn [bind] in Ev. cbn [red_fun] in Ev.
      destruct (areduce lsum ax (mag (uv x))) as [m|] eqn:Em; cbn [bind] in Ev; [|discriminate]. unfold check_lanes in Ev. cbn [red_needs_elements andb bind] in Ev.
      assert (v = Qty m (qdim (uv x))) as -> by congruence. split; [exact (awf_areduce _ _ (proj1 Hv) Em)|apply Hv]. }
    assert (Sv : shp s = shp (mag v)).
    { unfold q_red in Ev. cbn [mag qdim] in Ev. rewrite <- Hs, Ea in Ev. cbn [bind] in Ev. cbn [red_fun] in Ev.
      destruct (areduce lsum ax (mag (uv x))) as [m|] eqn:Em; cbn [bind] in Ev; [|discriminate]. unfold check_lanes in Ev. cbn [red_needs_elements andb bind] in Ev.
      assert (v = Qty m (qdim (uv x))) as -> by congruence. cbn [mag]. exact (shp_reduce _ _ _ _ ax s m Hs Es Em). }
    assert (Ws : awf s) by (exact (awf_areduce _ _ (proj1 Hu) Es)).
    rewrite u_make_oa; [|split; [apply awf_amap; apply Wv|apply Wv]|apply awf_amap; now apply awf_amap|exact Sv].
    rewrite u_make_a; [|exact Wv|now apply awf_amap|exact Sv]. cbn [rmap]. unfold numbers. cbn [uv uu mag qdim].
    unfold ort, aroot. rewrite !amap_amap. reflexivity. }
  rewrite X. destruct (u_sum E axis x) as [z'|]; cbn [rmap].
  - split; [intros Y; assert (z' = z) as -> by congruence; reflexivity|]. intros Y. f_equal.
    assert (I : forall a b : arr R, amap Some a = amap Some b -> a = b).
    { intros [sa a] [sb b] Q. unfold amap in Q. cbn [shp dat] in Q. assert (sa = sb) as -> by congruence.
      assert (Q' : map Some a = map Some b) by congruence. apply (f_equal (@somes R)) in Q'. rewrite !somes_some in Q'. congruence. }
    destruct z as [[m d] [m' d']], z' as [[n e] [n' e']]. unfold numbers in Y. cbn [uv uu mag qdim] in Y.
    assert (Y1 : amap Some n = amap Some m) by congruence. assert (Y2 : amap Some n' = amap Some m') by congruence.
    apply I in Y1. apply I in Y2. congruence.
  - split; discriminate.
Qed.
(** The uncertainty of an element whose value is NaN is counted all the same. *)
Theorem C105_counts_nan_values_refuted : exists (x : uqty (option R)) z z' phi,
  uq_ok x /\ dat (mag (uv x)) = [Some 1; None] /\
  un_sum [] None x = Ok z /\ un_sum [] None (UQ (Qty (Arr [1%nat] [Some 1]) d_m) (Qty (Arr [1%nat] [Some 3]) d_m)) = Ok z' /\
  physo phi (uv z) = physo phi (uv z') /\ physo phi (uu z) = scalar (Some 5) /\ physo phi (uu z') = scalar (Some 3).
Proof.
  set (x := UQ (Qty (Arr [2%nat] [Some 1; None]) d_m) (Qty (Arr [2%nat] [Some 3; Some 4]) d_m)).
  set (x' := UQ (Qty (Arr [1%nat] [Some 1]) d_m) (Qty (Arr [1%nat] [Some 3]) d_m)).
  assert (Hx : uq_ok x). { split; [split; [reflexivity|exact d_m_ok]|]. split; [split; [reflexivity|exact d_m_ok]|]. split; reflexivity. }
  assert (Hx' : uq_ok x'). { split; [split; [reflexivity|exact d_m_ok]|]. split; [split; [reflexivity|exact d_m_ok]|]. split; reflexivity. }
  destruct (proj2 (proj1 (C105_defined [] None x Hx)) I) as [z Hz].
  destruct (proj2 (proj1 (C105_defined [] None x' Hx')) I) as [z' Hz'].
  set (phi := fun _ : uid => 1). exists x, z, z', phi.
  assert (One : dimval phi d_m = 1).
  { change d_m with (unit_dims u_m). rewrite dimval_unit'; [reflexivity|unfold phi; lra|intros X; discriminate X]. }
  assert (G : forall y w a b, uq_ok y -> un_sum [] None y = Ok w -> somes (dat (physo phi (uv y))) = a -> somes (dat (physo phi (uu y))) = b ->
            physo phi (uv w) = scalar (Some (Rsum a)) /\ physo phi (uu w) = scalar (Some (sqrt (Rsum (map (fun t => t * t) b))))).
  { intros y w a b Oy Hw Ha Hb. destruct (C105_nansum [] None y w Oy Hw) as (Ow & _ & L).
    assert (S0 : shp (mag (uv w)) = []).
    { unfold un_sum in Hw. destruct (q_nanred NanSum None (uv y)) as [v|] eqn:Ev; cbn [bind norm_axis] in Hw; [|discriminate].
      cbn [areduce bind] in Hw. unfold q_nanred in Ev. cbn [norm_axis areduce bind] in Ev. assert (v = Qty (scalar (nan_fun NanSum (dat (mag (uv y))))) (qdim (uv y))) as -> by congruence.
      rewrite u_make_oa in Hw; [|split; [reflexivity|apply Oy]|reflexivity|reflexivity]. assert (w = w) by reflexivity. 
      apply (f_equal (fun r => match r with Ok u => shp (mag (uv u)) | Err _ => [] end)) in Hw. exact (eq_sym Hw). }
    destruct (L phi []) as (vals & uncs & L1 & L2 & G1 & G2); [rewrite S0; constructor|].
    cbn [lane_of] in L1, L2. subst vals uncs. rewrite Ha in G1. rewrite Hb in G2.
    assert (Sc : forall (t : arr (option R)) c, shp t = [] -> awf t -> aget t [] = Some c -> t = scalar c).
    { intros [st dt] c St Wt Gt. cbn in St. subst st. unfold awf in Wt. cbn in Wt. unfold aget in Gt. cbn in Gt.
      destruct dt as [|d0 [|d1 dt]]; cbn in Wt; [discriminate| |discriminate]. unfold scalar. cbn in Gt. congruence. }
    destruct Ow as ([W1 _] & [W2 _] & Sh & _).
    split; (apply Sc; [unfold physo; rewrite amap_shp; congruence|unfold physo; now apply awf_amap|assumption]). }
  destruct (G x z [1] [3; 4] Hx Hz) as [V U]; [unfold physo; cbn [x uv uu mag qdim amap dat map somes option_map]; rewrite One; repeat f_equal; lra..|].
  destruct (G x' z' [1] [3] Hx' Hz') as [V' U']; [unfold physo; cbn [x' uv uu mag qdim amap dat map somes option_map]; rewrite One; repeat f_equal; lra..|].
  split; [exact Hx|]. split; [reflexivity|]. split; [exact Hz|]. split; [exact Hz'|]. rewrite V, V', U, U'. split; [reflexivity|].
  assert (Q5 : Rsum (map (fun t => t * t) [3; 4]) = 5 * 5) by (unfold Rsum; cbn [map fold_right]; lra).
  assert (Q3 : Rsum (map (fun t => t * t) [3]) = 3 * 3) by (unfold Rsum; cbn [map fold_right]; lra).
  rewrite Q5, Q3, !sqrt_square by lra. split; reflexivity.
Qed.
Example C105_example :
  let x := UQ (Qty (Arr [2%nat; 2%nat] [Some (zq 1); None; Some (zq 3); None]) d_cm) (Qty (Arr [2%nat; 2%nat] [Some (zq 3); None; Some (zq 4); Some (zq 2)]) d_cm) in
  rmap (fun z => uv z) (un_sum [] (Some 0%Z) x) = Ok (Qty (Arr [2%nat] [Some (zq 4); Some (zq 0)]) d_cm) /\
  rmap (fun z => uv z) (un_mean [] (Some 0%Z) x) = Ok (Qty (Arr [2%nat] [Some (zq 2); None]) d_cm) /\
  rmap (fun z => qdim (uu z)) (un_mean [] (Some 0%Z) x) = Ok d_cm /\
  un_mean [] (Some 2%Z) x = Err ValueError.
Proof. cbn zeta. split; [vm_compute; reflexivity|]. split; [vm_compute; reflexivity|]. split; vm_compute; reflexivity. Qed.

(** C106 *)
Lemma u_at_o E i (x : uqty (option R)) : uq_ok x ->
  @u_at _ NumO E i x = Ok (UQ (Qty (scalar (nth i (dat (mag (uv x))) (Some 0))) (qdim (uv x))) (Qty (scalar (nth i (dat (mag (uu x))) (Some 0))) (qdim (uu x)))).
Proof.
  intros (Hv & Hu & Hs & He). unfold u_at, u_make, set_uncertainty. cbn [mag qdim as_q].
  assert (Q : dim_eqb (qdim (uu x)) (qdim (uv x)) = true) by (apply same_exp_eqb; [apply Hu|apply Hv|exact He]).
  set (u := Qty (scalar (nth i (dat (mag (uu x))) (@n0 _ NumO))) (qdim (uu x))).
  assert (X : (if dim_nonempty (qdim (uv x)) then @rescale_to _ NumO E u (qdim (uv x)) else Ok u) = Ok u).
  { destruct (dim_nonempty (qdim (uv x))); [|reflexivity]. unfold rescale_to. cbn [u qdim]. rewrite Q. reflexivity. }
  rewrite X. cbn [bind u mag qdim scalar shp]. destruct (list_eq_dec _ _ _) as [_|Y]; [|congruence]. rewrite Q. reflexivity.
Qed.
(** [nanmax]: the first element with the greatest of the values that are numbers, with
    its own uncertainty, over the whole array whatever [axis] is; [nanmin] likewise.
    ValueError if no value is a number. *)
Definition element_at (phi : interp) (x z : uqty (option R)) (i : nat) : Prop :=
  exists v s, nth_error (dat (physo phi (uv x))) i = Some v /\ nth_error (dat (physo phi (uu x))) i = Some s /\
    physo phi (uv z) = scalar v /\ physo phi (uu z) = scalar s.
Theorem C106_nanmax_nanmin : forall E axis (x : uqty (option R)) phi, uq_ok x ->
  (somes (dat (mag (uv x))) = [] -> un_max E axis x = Err ValueError /\ un_min E axis x = Err ValueError) /\
  (somes (dat (mag (uv x))) <> [] -> exists i j hi lo,
     un_max E axis x = Ok hi /\ un_min E axis x = Ok lo /\ un_argmax axis x = Ok i /\ un_argmin axis x = Ok j /\
     first_extremum is_max (dat (physo phi (uv x))) i /\ first_extremum is_min (dat (physo phi (uv x))) j /\
     element_at phi x hi i /\ element_at phi x lo j /\
     uq_ok hi /\ uq_ok lo /\ qdim (uv hi) = qdim (uv x) /\ qdim (uv lo) = qdim (uv x)).
Proof.
  intros E axis x phi Hx. destruct (C101_nanargmax axis (uv x) phi) as [N S].
  unfold un_max, un_min, un_argmax, un_argmin. split.
  - intros X. destruct (N X) as [-> ->]. split; reflexivity.
  - intros X. destruct (S X) as (i & j & Hi & Hj & Fi & Fj). rewrite Hi, Hj. cbn [bind]. rewrite !(u_at_o E _ x Hx).
    destruct Hx as ([Wv Dv] & [Wu Du] & Hs & He).
    exists i, j. do 2 eexists. split; [reflexivity|]. split; [reflexivity|]. split; [reflexivity|]. split; [reflexivity|].
    split; [exact Fi|]. split; [exact Fj|].
    assert (G : forall k w, nth_error (dat (physo phi (uv x))) k = Some w ->
      element_at phi x (UQ (Qty (scalar (nth k (dat (mag (uv x))) (Some 0))) (qdim (uv x))) (Qty (scalar (nth k (dat (mag (uu x))) (Some 0))) (qdim (uu x)))) k).
    { intros k w Hk. exists w. unfold physo in *. cbn [amap dat mag qdim uv uu] in *. rewrite nth_error_map in Hk.
      destruct (nth_error (dat (mag (uv x))) k) as [v|] eqn:Ev; cbn [option_map] in Hk; [|discriminate].
      assert (Lk : (k < length (dat (mag (uu x))))%nat).
      { unfold awf in Wv, Wu. rewrite Wu, Hs, <- Wv. apply nth_error_Some. congruence. }
      destruct (nth_error (dat (mag (uu x))) k) as [s|] eqn:Es; [|apply nth_error_None in Es; lia].
      exists (option_map (fun t => t * dimval phi (qdim (uu x))) s). rewrite !nth_error_map, Ev, Es.
      rewrite (nth_error_nth _ _ _ Ev), (nth_error_nth _ _ _ Es). cbn [option_map]. split; [exact Hk|]. split; [reflexivity|].
      split; [|reflexivity]. unfold amap, scalar. cbn [shp dat map]. congruence. }
    destruct Fi as (m & _ & Fi & _). destruct Fj as (m' & _ & Fj & _).
    split; [exact (G i _ Fi)|]. split; [exact (G j _ Fj)|].
    split; [|split; [|split; reflexivity]]; (split; [split; [reflexivity|exact Dv]|split; [split; [reflexivity|exact Du]|split; [reflexivity|exact He]]]).
Qed.
(** The [axis] argument has no influence: the maximum along an axis of a 2 x 2 array is a
    single measurement. *)
Theorem C106_axis_ignored : forall E axis axis' (x : uqty (option R)),
  un_max E axis x = un_max E axis' x /\ un_min E axis x = un_min E axis' x /\
  un_argmax axis x = un_argmax axis' x /\ un_argmin axis x = un_argmin axis' x.
Proof. intros. split; [reflexivity|]. split; [reflexivity|]. split; reflexivity. Qed.
Theorem C106_axis_refuted : exists (x z : uqty (option R)), uq_ok x /\ shp (mag (uv x)) = [2%nat; 2%nat] /\
  un_max [] (Some 0%Z) x = Ok z /\ shp (mag (uv z)) = [].
Proof.
  set (x := UQ (Qty (Arr [2%nat; 2%nat] [Some 1; None; Some 3; None]) d_m) (Qty (Arr [2%nat; 2%nat] [Some 0; None; Some 0; None]) d_m)).
  assert (Hx : uq_ok x). { split; [split; [reflexivity|exact d_m_ok]|]. split; [split; [reflexivity|exact d_m_ok]|]. split; reflexivity. }
  destruct (proj2 (C106_nanmax_nanmin [] (Some 0%Z) x (fun _ => 1) Hx)) as (i & j & hi & lo & H1 & _ & _ & _ & _ & _ & (v & s & _ & _ & P & _) & _); [discriminate|].
  exists x, hi. split; [exact Hx|]. split; [reflexivity|]. split; [exact H1|]. apply (f_equal (@shp _)) in P. exact P.
Qed.
Example C106_example :
  let x := UQ (Qty (Arr [4%nat] [None; Some (zq 2); Some (zq 7); Some (zq 7)]) d_cm) (Qty (Arr [4%nat] [Some (zq 9); None; Some (zq 4); Some (zq 2)]) d_cm) in
  un_max [] None x = Ok (UQ (Qty (scalar (Some (zq 7))) d_cm) (Qty (scalar (Some (zq 4))) d_cm)) /\
  un_min [] None x = Ok (UQ (Qty (scalar (Some (zq 2))) d_cm) (Qty (scalar None) d_cm)) /\
  un_argmax None x = Ok 2%nat /\
  un_max [] None (UQ (Qty (Arr [1%nat] [@None Qc]) d_cm) (Qty (Arr [1%nat] [Some (zq 1)]) d_cm)) = Err ValueError.
Proof. cbn zeta. split; [vm_compute; reflexivity|]. split; [vm_compute; reflexivity|]. split; vm_compute; reflexivity. Qed.

Print Assumptions C105_nansum.
Print Assumptions C105_nanmean.
Print Assumptions C105_defined.
Print Assumptions C105_without_nan.
Print Assumptions C105_counts_nan_values_refuted.
Print Assumptions C106_nanmax_nanmin.
Print Assumptions C106_axis_ignored.
Print Assumptions C106_axis_refuted.
