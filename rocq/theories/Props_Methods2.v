(** * Properties C97-C99: rounding, sorting order, trace and squeeze. *)
From Coq Require Import Reals Lra Lia Permutation.
From Verif Require Import Py Num Dim DimFacts Arr ArrFacts Lanes Units Spec UnitFacts Quant QuantFacts SpecApi ConvFacts
  Ufunc Ops OpsFacts Methods MethodsFacts ItemFacts Examples Props_Ops Props_Ufunc Props_Methods Methods2.

Open Scope R_scope.

(** C97 *)
(** [r] is [x] rounded to a multiple of [u]: the nearest multiple, and of two equally
    near ones the even multiple. *)
Definition rounded_to (u x r : R) : Prop :=
  exists k : Z, r = IZR k * u /\ Rabs (x - r) <= u / 2 /\ (Rabs (x - r) = u / 2 -> Z.even k = true).
Definition decimal_unit (decimals : Z) : R := powerRZ 10 (- decimals).

Lemma nhalf_R : nhalf (A := R) = 1 / 2.
Proof. unfold nhalf. cbn [nofQ NumR]. unfold Qc2R, Q2R. cbn. lra. Qed.
Lemma ntwo_R : ntwo (A := R) = 2.
Proof. unfold ntwo. cbn [nofQ NumR]. unfold Qc2R, Q2R. cbn. lra. Qed.
Lemma nrint_spec (x : R) : rounded_to 1 x (nrint x).
Proof.
  unfold nrint. rewrite nhalf_R, ntwo_R. cbn [nfloor nsub nltb nadd n1 neqb nmul ndiv NumR].
  assert (B := base_Int_part x). set (n := Int_part x) in *.
  destruct (Rltb (x - IZR n) (1 / 2)) eqn:X.
  { apply Rltb_true in X. exists n. split; [lra|]. split; [apply Rabs_le; lra|]. intros Y.
    exfalso. rewrite Rabs_pos_eq in Y by lra. lra. }
  apply Rltb_false in X. destruct (Rltb (1 / 2) (x - IZR n)) eqn:Y.
  { apply Rltb_true in Y. exists (n + 1)%Z. rewrite plus_IZR. split; [lra|]. split; [apply Rabs_le; lra|]. intros Z.
    exfalso. rewrite Rabs_left1 in Z by lra. lra. }
  apply Rltb_false in Y. assert (D : x - IZR n = 1 / 2) by lra.
  assert (F : IZR (Int_part (IZR n / 2)) = IZR (n / 2)).
  { f_equal. apply Int_part_eq. assert (M := Z.div_mod n 2 ltac:(lia)). assert (M2 := Z.mod_pos_bound n 2 ltac:(lia)).
    assert (E : IZR n = 2 * IZR (n / 2) + IZR (n mod 2)) by (rewrite <- mult_IZR, <- plus_IZR; now f_equal).
    assert (0 <= IZR (n mod 2)) by (apply IZR_le; lia). assert (IZR (n mod 2) <= 1) by (apply IZR_le; lia). lra. }
  rewrite F. destruct (Reqb (IZR (n / 2) * 2) (IZR n)) eqn:Z.
  - exists n. split; [lra|]. rewrite D, Rabs_pos_eq by lra. split; [lra|]. intros _.
    unfold Reqb in Z. destruct (Req_EM_T _ _) as [e|]; [|discriminate]. rewrite <- mult_IZR in e. apply eq_IZR in e.
    rewrite <- e. rewrite Z.even_mul. now rewrite orb_true_r.
  - exists (n + 1)%Z. rewrite plus_IZR. split; [lra|]. split; [apply Rabs_le; lra|]. intros _.
    rewrite Z.even_add. cbn. destruct (Z.even n) eqn:V; [|reflexivity]. exfalso.
    apply Z.even_spec in V. destruct V as [m V]. unfold Reqb in Z. destruct (Req_EM_T _ _) as [e|e]; [discriminate|].
    apply e. rewrite <- mult_IZR. f_equal. rewrite V. rewrite (Z.mul_comm 2 m), Z.div_mul by lia. reflexivity.
Qed.
Lemma rounded_scale u v x r : 0 < v -> rounded_to u x r -> rounded_to (u * v) (x * v) (r * v).
Proof.
  intros Hv (k & E & B & T). exists k. split; [rewrite E; ring|].
  replace (x * v - r * v) with ((x - r) * v) by ring. rewrite Rabs_mult, (Rabs_pos_eq v) by lra.
  split.
  - replace (u * v / 2) with (u / 2 * v) by field. apply Rmult_le_compat_r; lra.
  - intros X. apply T. replace (u * v / 2) with (u / 2 * v) in X by field. apply Rmult_eq_reg_r in X; lra.
Qed.
Lemma ten_to_R k : (0 <= k)%Z -> ten_to (A := R) k = powerRZ 10 k.
Proof.
  intros H. unfold ten_to. cbn [nofQ NumR]. rewrite Qc2R_Z.
  destruct k as [|p|p]; [reflexivity| |lia]. rewrite <- (positive_nat_Z p), <- pow_IZR, <- pow_powerRZ. reflexivity.
Qed.
Lemma nround_spec d (x : R) : rounded_to (decimal_unit d) x (nround d x).
Proof.
  unfold nround, decimal_unit. assert (P : forall k, 0 < powerRZ 10 k) by (intros k; apply powerRZ_lt; lra).
  destruct (0 <=? d)%Z eqn:X.
  - apply Z.leb_le in X. cbn [ndiv nmul NumR]. rewrite ten_to_R by exact X.
    assert (Q := nrint_spec (x * powerRZ 10 d)).
    apply (rounded_scale 1 (powerRZ 10 (- d))) in Q; [|apply P].
    rewrite Rmult_1_l, Rmult_assoc, <- powerRZ_add in Q by lra. replace (d + - d)%Z with 0%Z in Q by lia.
    cbn [powerRZ] in Q. rewrite Rmult_1_r in Q. rewrite !powerRZ_neg' in Q |- *.
    exact Q.
  - apply Z.leb_gt in X. cbn [ndiv nmul NumR]. rewrite ten_to_R by lia.
    assert (Q := nrint_spec (x / powerRZ 10 (- d))).
    apply (rounded_scale 1 (powerRZ 10 (- d))) in Q; [|apply P].
    rewrite Rmult_1_l in Q. replace (x / powerRZ 10 (- d) * powerRZ 10 (- d)) with x in Q; [exact Q|].
    field. specialize (P (- d)%Z). lra.
Qed.
Lemma rounded_unique u x r1 r2 : 0 < u -> rounded_to u x r1 -> rounded_to u x r2 -> r1 = r2.
Proof.
  intros Hu (k1 & E1 & B1 & T1) (k2 & E2 & B2 & T2).
  destruct (Z.eq_dec k1 k2) as [->|N]; [congruence|]. exfalso.
  assert (G : forall a b, (a < b)%Z -> r1 = IZR a * u \/ r2 = IZR a * u -> r1 = IZR b * u \/ r2 = IZR b * u ->
              Rabs (x - IZR a * u) <= u / 2 -> Rabs (x - IZR b * u) <= u / 2 ->
              b = (a + 1)%Z /\ Rabs (x - IZR a * u) = u / 2 /\ Rabs (x - IZR b * u) = u / 2).
  { intros a b Hab _ _ A1 A2.
    assert (L1 : - (u / 2) <= x - IZR a * u <= u / 2) by (split; [|]; pose proof (Rle_abs (x - IZR a * u)); pose proof (Rle_abs (- (x - IZR a * u))); rewrite Rabs_Ropp in *; lra).
    assert (L2 : - (u / 2) <= x - IZR b * u <= u / 2) by (split; [|]; pose proof (Rle_abs (x - IZR b * u)); pose proof (Rle_abs (- (x - IZR b * u))); rewrite Rabs_Ropp in *; lra).
    assert (IZR (b - a) * u <= u) by (rewrite minus_IZR; lra).
    assert (LE : IZR (b - a) <= 1) by (apply Rmult_le_reg_r with u; lra). apply le_IZR in LE.
    assert (b = (a + 1)%Z) as -> by lia. split; [reflexivity|]. rewrite plus_IZR in *.
    split; [rewrite Rabs_pos_eq by lra; lra|rewrite Rabs_left1 by lra; lra]. }
  destruct (Z.lt_trichotomy k1 k2) as [L|[E|L]]; [|contradiction|].
  - destruct (G k1 k2 L) as (S1 & S2 & S3); auto; try (now rewrite <- E1); try (now rewrite <- E2).
    rewrite <- E1 in S2. rewrite <- E2 in S3. specialize (T1 S2). specialize (T2 S3).
    rewrite S1, Z.even_add, T1 in T2. discriminate.
  - destruct (G k2 k1 L) as (S1 & S2 & S3); auto; try (now rewrite <- E1); try (now rewrite <- E2).
    rewrite <- E2 in S2. rewrite <- E1 in S3. specialize (T2 S2). specialize (T1 S3).
    rewrite S1, Z.even_add, T2 in T1. discriminate.
Qed.

Theorem C97_round : forall decimals (q : qty R), qty_ok q ->
  exists r, q_round decimals q = Ok r /\ qty_ok r /\ qdim r = qdim q /\ shp (mag r) = shp (mag q) /\
    forall idx x, aget (mag q) idx = Some x ->
      exists y, aget (mag r) idx = Some y /\ rounded_to (decimal_unit decimals) x y.
Proof.
  intros d q [W D]. eexists. split; [reflexivity|]. split; [split; [now apply awf_amap|exact D]|].
  split; [reflexivity|]. split; [reflexivity|]. intros idx x H. exists (nround d x). split; [|apply nround_spec].
  unfold aget in *. cbn [mag amap shp dat]. rewrite at_idx_map, H. reflexivity.
Qed.
(** The rounded value is determined by the description above. *)
Theorem C97_round_unique : forall decimals (x y1 y2 : R),
  rounded_to (decimal_unit decimals) x y1 -> rounded_to (decimal_unit decimals) x y2 -> y1 = y2.
Proof. intros d x y1 y2. apply rounded_unique. unfold decimal_unit. apply powerRZ_lt. lra. Qed.
(** Rounding twice changes nothing; [round(q, d)] is [q.round(d)], [round(q)] is
    [q.round(0)]. *)
Theorem C97_idempotent : forall decimals (q r : qty R),
  q_round decimals q = Ok r -> q_round decimals r = Ok r.
Proof.
  intros d q r H. assert (r = Qty (amap (nround d) (mag q)) (qdim q)) as -> by (unfold q_round in H; congruence).
  unfold q_round. cbn [mag qdim]. rewrite amap_amap. do 2 f_equal. apply amap_ext. intros x _.
  set (y := nround d x). apply (C97_round_unique d y); [apply nround_spec|].
  destruct (nround_spec d x) as (k & E & _). exists k. split; [exact E|]. rewrite Rminus_eq_0, Rabs_R0.
  assert (0 < decimal_unit d) by (apply powerRZ_lt; lra). split; lra.
Qed.
Theorem C97_builtin_round : forall A (N : Num A) (q : qty A) d,
  q_dunder_round (Some d) q = q_round d q /\ q_dunder_round None q = q_round 0 q.
Proof. intros. split; reflexivity. Qed.
(** Rounding is done in the current units: it is not unit-independent. *)
Lemma rounded_1 (x : R) k : Rabs (x - IZR k) < 1 / 2 -> nround 0 x = IZR k.
Proof.
  intros H. apply (C97_round_unique 0 x); [apply nround_spec|]. exists k.
  assert (decimal_unit 0 = 1) as -> by reflexivity. split; [lra|]. split; lra.
Qed.
Theorem C97_unit_independent_refuted : exists E (q q' r r' : qty R),
  renv_ok E /\ qty_ok q /\ qty_ok q' /\ equal_in_other_units E q q' /\
  q_round 0 q = Ok r /\ q_round 0 q' = Ok r' /\ ~ same_value E r r'.
Proof.
  exists exE, (Qty (scalar (17 / 10)) d_m), (Qty (scalar 170) d_cm), (Qty (scalar 2) d_m), (Qty (scalar 170) d_cm).
  split; [exact exE_ok|]. split; [split; [reflexivity|apply dims_okb_ok; reflexivity]|].
  split; [split; [reflexivity|apply dims_okb_ok; reflexivity]|]. split.
  { split; cbn [qdim].
    - exists 100. intros psi HC'. rewrite (ex_cm_size psi HC'). lra.
    - intros psi HC'. unfold phys, scalar, amap. cbn [mag qdim shp dat map]. rewrite (ex_cm_size psi HC'). do 2 f_equal. lra. }
  split; [|split].
  - unfold q_round, scalar, amap. cbn [mag qdim shp dat map]. rewrite (rounded_1 (17 / 10) 2); [reflexivity|].
    apply Rabs_def1; lra.
  - unfold q_round, scalar, amap. cbn [mag qdim shp dat map]. rewrite (rounded_1 170 170); [reflexivity|].
    apply Rabs_def1; lra.
  - destruct (consistent_exists exE exE_ok) as [phi HC]. intros S. specialize (S phi HC).
    unfold phys, scalar, amap in S. cbn [mag qdim shp dat map] in S.
    assert (S' : 2 * dimval phi d_m = 170 * dimval phi d_cm) by (injection S; auto).
    rewrite (ex_cm_size phi HC) in S'. pose proof (dimval_pos phi d_m) as P. lra.
Qed.
Example C97_example :
  q_round 1 (Qty (Arr [4%nat] [Q2Qc (5 # 100); Q2Qc (15 # 100); Q2Qc (-128 # 100); zq 7]) d_m) =
    Ok (Qty (Arr [4%nat] [zq 0; Q2Qc (1 # 5); Q2Qc (-13 # 10); zq 7]) d_m) /\
  q_round (-2) (Qty (Arr [2%nat] (qcs [1250; -1351]%Z)) d_cm) = Ok (Qty (Arr [2%nat] (qcs [1200; -1400]%Z)) d_cm).
Proof. split; vm_compute; reflexivity. Qed.

(** C98 *)
(** [ord] lists all positions of [vals], in an order that makes the values
    nondecreasing. *)
Definition order_of (vals : list R) (ord : list nat) : Prop :=
  Permutation ord (seq 0 (length vals)) /\
  forall i j a b x y, (i < j)%nat -> nth_error ord i = Some a -> nth_error ord j = Some b ->
    nth_error vals a = Some x -> nth_error vals b = Some y -> x <= y.
(** NumPy's argsort of one lane. *)
Definition sorts (srt : list R -> list nat) : Prop := forall l, order_of l (srt l).

Lemma order_length vals ord : order_of vals ord -> length ord = length vals.
Proof. intros [P _]. apply Permutation_length in P. now rewrite seq_length in P. Qed.
Lemma order_scale v vals ord : 0 < v -> order_of vals ord -> order_of (map (fun x => x * v) vals) ord.
Proof.
  intros Hv [P S]. split; [now rewrite map_length|]. intros i j a b x y L A B.
  rewrite !nth_error_map. intros X Y.
  destruct (nth_error vals a) as [x'|] eqn:X'; [|discriminate]. destruct (nth_error vals b) as [y'|] eqn:Y'; [|discriminate].
  cbn in X, Y. assert (x = x' * v) as -> by congruence. assert (y = y' * v) as -> by congruence.
  apply Rmult_le_compat_r; [lra|]. exact (S i j a b x' y' L A B X' Y').
Qed.
Lemma is_lane_map {A B} (f : A -> B) (a : arr A) ax idx l : is_lane a ax idx l -> is_lane (amap f a) ax idx (map f l).
Proof.
  intros [L H]. split; [now rewrite map_length|]. rewrite map_length. intros i Hi.
  rewrite nth_error_map, (H i Hi). unfold aget. cbn [amap shp dat]. now rewrite at_idx_map.
Qed.
Lemma lane_unique {A} (a : arr A) ax idx l l' : is_lane a ax idx l -> is_lane a ax idx l' -> l = l'.
Proof.
  intros [L H] [L' H']. assert (E : length l = length l') by congruence. apply nth_error_ext'. intros i.
  destruct (Nat.lt_ge_cases i (length l)) as [Hi|Hi].
  - rewrite H, H' by lia. reflexivity.
  - rewrite (proj2 (nth_error_None l i)), (proj2 (nth_error_None l' i)) by lia. reflexivity.
Qed.
Lemma drop_at_split {A} (pre post : list A) x ax : length pre = ax -> drop_at ax (pre ++ x :: post) = pre ++ post.
Proof.
  intros <-. unfold drop_at. rewrite firstn_app, firstn_all, Nat.sub_diag, app_nil_r.
  replace (S (length pre)) with (length (pre ++ [x])) by (rewrite app_length; cbn; lia).
  replace (pre ++ x :: post) with ((pre ++ [x]) ++ post) by (now rewrite <- app_assoc). rewrite skipn_app, skipn_all, Nat.sub_diag. reflexivity.
Qed.
Lemma ascan_lane {A B} (f : list A -> list B) ax (a : arr A) r idx : awf a -> (forall l, length (f l) = length l) ->
  ascan f (Some ax) a = Ok r -> in_range (drop_at ax (shp a)) idx ->
  exists lane, is_lane a ax idx lane /\ is_lane r ax idx (f lane).
Proof.
  intros W HL H HR.
  assert (ES : exists pre n post, shp a = pre ++ n :: post /\ length pre = ax).
  { cbn [ascan] in H. destruct (split_axis (shp a) ax) as [[[pre n] post]|] eqn:ES; [|discriminate].
    apply split_axis_spec in ES. destruct ES as [Hs Lp]. now exists pre, n, post. }
  destruct ES as (pre & n & post & Hs & Lp).
  assert (SR : shp r = shp a).
  { cbn [ascan] in H. destruct (split_axis (shp a) ax) as [[[p' n'] t']|]; [|discriminate]. now injection H as <-. }
  rewrite Hs, (drop_at_split pre post n ax Lp) in HR.
  destruct (in_range_app _ _ HR) as [R1 R2]. rewrite Lp in R1, R2.
  destruct (block_lane W _ _ _ Hs _ _ R1 R2) as (b & lane & _ & _ & Ll & Hn).
  assert (NA : nth_error (shp a) ax = Some (length lane)).
  { rewrite Hs, nth_error_app2 by lia. replace (ax - length pre)%nat with 0%nat by lia. now rewrite Ll. }
  assert (IL : is_lane a ax idx lane).
  { split; [exact NA|]. intros i Hi. unfold insert_at. apply Hn. lia. }
  exists lane. split; [exact IL|]. split; [rewrite SR, HL; exact NA|]. rewrite HL. intros i Hi.
  assert (FL : length (firstn ax idx) = ax) by (rewrite (in_range_length R1); exact Lp).
  assert (IR : in_range (shp r) (insert_at ax i idx)).
  { rewrite SR, Hs. unfold insert_at. apply in_range_app_intro; [exact R1|]. constructor; [lia|exact R2]. }
  destruct (ascan_get f ax (idx := insert_at ax i idx) W HL H IR) as (_ & lane' & j & L1 & L2 & L3).
  assert (D : firstn ax (insert_at ax i idx) ++ skipn (S ax) (insert_at ax i idx) = idx).
  { change (drop_at ax (insert_at ax i idx) = idx). unfold insert_at.
    rewrite (drop_at_split _ _ _ ax FL). apply firstn_skipn. }
  rewrite D in L1. rewrite (lane_unique a ax idx lane lane' IL L1). rewrite L3. f_equal.
  unfold insert_at in L2. rewrite nth_error_app2 in L2 by lia. rewrite FL, Nat.sub_diag in L2. cbn in L2. congruence.
Qed.

(** The indices along an axis (of the flattened array if there is no axis) sort the
    values along it, whatever the sizes of the units. *)
Theorem C98_argsort : forall srt axis (q : qty R) r phi, sorts srt -> qty_ok q -> q_argsort srt axis q = Ok r ->
  match axis with
  | None => shp r = [length (dat (mag q))] /\ order_of (dat (phys phi q)) (dat r)
  | Some k =>
      shp r = shp (mag q) /\
      exists ax, axis_means (length (shp (mag q))) k ax /\
        forall idx, in_range (drop_at ax (shp (mag q))) idx ->
          exists vals ord, is_lane (phys phi q) ax idx vals /\ is_lane r ax idx ord /\ order_of vals ord
  end.
Proof.
  intros srt axis q r phi HS [W _] H. unfold q_argsort in H.
  destruct (norm_axis _ axis) as [o|] eqn:Ea; cbn [bind] in H; [|discriminate].
  assert (HL : forall l, length (srt l) = length l) by (intros l; apply order_length, HS).
  apply norm_axis_spec in Ea. destruct axis as [k|].
  - destruct Ea as (ax & -> & M). split.
    { cbn [ascan] in H. destruct (split_axis (shp (mag q)) ax) as [[[p' n'] t']|]; [|discriminate]. now injection H as <-. }
    exists ax. split; [exact M|]. intros idx HR.
    destruct (ascan_lane srt ax (mag q) r idx W HL H HR) as (lane & L1 & L2).
    exists (map (fun x => x * dimval phi (qdim q)) lane), (srt lane).
    split; [apply (is_lane_map (fun x => x * dimval phi (qdim q)) _ _ _ _ L1)|]. split; [exact L2|].
    apply order_scale; [apply dimval_pos|apply HS].
  - subst o. cbn [ascan] in H. injection H as <-. cbn [shp dat]. split; [reflexivity|].
    unfold phys. cbn [amap dat]. apply order_scale; [apply dimval_pos|apply HS].
Qed.
Theorem C98_defined : forall srt axis (q : qty R),
  ((exists r, q_argsort srt axis q = Ok r) <->
   match axis with None => True | Some k => exists ax, axis_means (length (shp (mag q))) k ax end) /\
  (forall e, q_argsort srt axis q = Err e -> e = ValueError).
Proof.
  intros srt axis q. unfold q_argsort. split.
  - split.
    + intros [r H]. destruct (norm_axis _ axis) as [ax|] eqn:Ea; cbn [bind] in H; [|discriminate].
      apply norm_axis_spec in Ea. destruct axis; auto. destruct Ea as (i & _ & M). eauto.
    + intros H. destruct axis as [k|].
      * destruct H as [i M]. rewrite (norm_axis_complete _ _ _ M). cbn [bind ascan]. unfold split_axis.
        destruct (skipn i (shp (mag q))) as [|n t] eqn:Es; [|cbn; eauto]. destruct M as [M _].
        assert (X := skipn_length i (shp (mag q))). rewrite Es in X. cbn in X. lia.
      * cbn. eauto.
  - intros e. destruct (norm_axis _ axis) as [ax|] eqn:Ea; cbn [bind].
    + intros H. destruct ax; cbn in H; [|discriminate]. destruct (split_axis _ n) as [[[? ?] ?]|]; congruence.
    + intros [= <-]. now apply norm_axis_err in Ea.
Qed.
(** If no value occurs twice the order is determined by the values: then [argsort] does
    not depend on the units the quantity is expressed in. *)
Lemma sorted_unique : forall (l l' : list R),
  (forall i j x y, (i < j)%nat -> nth_error l i = Some x -> nth_error l j = Some y -> x < y) ->
  (forall i j x y, (i < j)%nat -> nth_error l' i = Some x -> nth_error l' j = Some y -> x < y) ->
  (forall x, In x l <-> In x l') -> l = l'.
Proof.
  induction l as [|x l IH]; intros l' S S' I.
  - destruct l' as [|y l']; auto. exfalso. apply (I y). now left.
  - destruct l' as [|y l']; [exfalso; apply (I x); now left|].
    assert (M : forall z, In z l -> x < z).
    { intros z Hz. apply In_nth_error in Hz. destruct Hz as [n Hz]. apply (S 0%nat (Datatypes.S n)); auto. lia. }
    assert (M' : forall z, In z l' -> y < z).
    { intros z Hz. apply In_nth_error in Hz. destruct Hz as [n Hz]. apply (S' 0%nat (Datatypes.S n)); auto. lia. }
    assert (x = y) as ->.
    { destruct (proj1 (I x) (or_introl eq_refl)) as [|H1]; [auto|].
      destruct (proj2 (I y) (or_introl eq_refl)) as [|H2]; [auto|]. apply M' in H1. apply M in H2. lra. }
    f_equal. apply IH.
    + intros i j a b L A B. apply (S (Datatypes.S i) (Datatypes.S j)); auto. lia.
    + intros i j a b L A B. apply (S' (Datatypes.S i) (Datatypes.S j)); auto. lia.
    + intros z. split; intros Hz.
      * destruct (proj1 (I z) (or_intror Hz)) as [<-|]; [|auto]. apply M in Hz. lra.
      * destruct (proj2 (I z) (or_intror Hz)) as [<-|]; [|auto]. apply M' in Hz. lra.
Qed.
Lemma order_strict vals ord : NoDup vals -> order_of vals ord ->
  (forall i j x y, (i < j)%nat -> nth_error (map (fun p => nth p vals 0) ord) i = Some x ->
     nth_error (map (fun p => nth p vals 0) ord) j = Some y -> x < y).
Proof.
  intros ND [P S] i j x y L. rewrite !nth_error_map.
  destruct (nth_error ord i) as [a|] eqn:A; [|discriminate]. destruct (nth_error ord j) as [b|] eqn:B; [|discriminate].
  cbn [option_map]. intros X Y.
  assert (x = nth a vals 0) as -> by congruence. assert (y = nth b vals 0) as -> by congruence.
  assert (G : forall p, In p ord -> (p < length vals)%nat).
  { intros p Hp. apply (Permutation_in _ P) in Hp. apply in_seq in Hp. lia. }
  assert (Ha := G a (nth_error_In _ _ A)). assert (Hb := G b (nth_error_In _ _ B)).
  assert (NA := nth_error_nth' vals 0 Ha). assert (NB := nth_error_nth' vals 0 Hb).
  assert (LE := S i j a b _ _ L A B NA NB). destruct (Req_dec (nth a vals 0) (nth b vals 0)) as [E|E]; [|lra]. exfalso.
  assert (AB : a = b) by (apply (proj1 (NoDup_nth vals 0) ND); auto). subst b.
  assert (NDo : NoDup ord) by (apply (Permutation_NoDup (Permutation_sym P)), seq_NoDup).
  assert (i = j); [|lia]. apply (proj1 (NoDup_nth_error ord) NDo); [|congruence]. apply nth_error_Some. congruence.
Qed.
Lemma order_unique vals o1 o2 : NoDup vals -> order_of vals o1 -> order_of vals o2 -> o1 = o2.
Proof.
  intros ND H1 H2. set (g := fun p => nth p vals 0).
  assert (E : map g o1 = map g o2).
  { apply sorted_unique.
    - exact (order_strict vals o1 ND H1).
    - exact (order_strict vals o2 ND H2).
    - intros x. rewrite !in_map_iff. destruct H1 as [P1 _], H2 as [P2 _].
      split; intros (p & E & I); exists p; (split; [exact E|]).
      + apply (Permutation_in _ (Permutation_sym P2)), (Permutation_in _ P1), I.
      + apply (Permutation_in _ (Permutation_sym P1)), (Permutation_in _ P2), I. }
  assert (L : length o1 = length o2) by (rewrite (order_length _ _ H1), (order_length _ _ H2); reflexivity).
  assert (B1 : forall p, In p o1 -> (p < length vals)%nat).
  { intros p Hp. destruct H1 as [P _]. apply (Permutation_in _ P) in Hp. apply in_seq in Hp. lia. }
  assert (B2 : forall p, In p o2 -> (p < length vals)%nat).
  { intros p Hp. destruct H2 as [P _]. apply (Permutation_in _ P) in Hp. apply in_seq in Hp. lia. }
  clear H1 H2. revert o2 E L B2. induction o1 as [|a o1 IH]; intros [|b o2] E L B2; auto; try discriminate.
  cbn [map] in E. assert (E1 : g a = g b) by congruence. assert (E2 : map g o1 = map g o2) by congruence. f_equal.
  - apply (proj1 (NoDup_nth vals 0) ND); [apply B1; now left|apply B2; now left|exact E1].
  - apply IH; auto; [intros p Hp; apply B1; now right|intros p Hp; apply B2; now right].
Qed.
Theorem C98_unit_independent : forall E srt srt' (q q' : qty R) r r' phi,
  sorts srt -> sorts srt' -> qty_ok q -> qty_ok q' -> consistent E phi -> same_value E q q' ->
  NoDup (dat (phys phi q)) ->
  q_argsort srt None q = Ok r -> q_argsort srt' None q' = Ok r' -> r = r'.
Proof.
  intros E srt srt' q q' r r' phi S S' Q Q' HC V ND H H'.
  destruct (C98_argsort srt None q r phi S Q H) as [A1 A2]. destruct (C98_argsort srt' None q' r' phi S' Q' H') as [B1 B2].
  specialize (V phi HC). rewrite <- V in B2.
  assert (L : length (dat (mag q)) = length (dat (mag q'))).
  { unfold phys in V. assert (X : length (dat (phys phi q)) = length (dat (phys phi q'))) by (unfold phys; now rewrite V).
    unfold phys, amap in X. cbn [dat] in X. now rewrite !map_length in X. }
  destruct r as [s d], r' as [s' d']. cbn [shp dat] in *. f_equal; [congruence|]. exact (order_unique _ _ _ ND A2 B2).
Qed.
(** An instance of the hypotheses: insertion sort of positions. *)
Fixpoint ins_pos (l : list R) (p : nat) (o : list nat) : list nat :=
  match o with
  | [] => [p]
  | a :: o' => if Rltb (nth a l 0) (nth p l 0) then a :: ins_pos l p o' else p :: o
  end.
Definition isort_pos (l : list R) : list nat := fold_right (ins_pos l) [] (seq 0 (length l)).
Lemma ins_perm l p o : Permutation (ins_pos l p o) (p :: o).
Proof.
  induction o as [|a o IH]; cbn; [reflexivity|]. destruct (Rltb _ _); [|reflexivity].
  rewrite IH. apply perm_swap.
Qed.
Fixpoint nondec (l : list R) (o : list nat) : Prop :=
  match o with [] => True | a :: o' => (forall b, In b o' -> nth a l 0 <= nth b l 0) /\ nondec l o' end.
Lemma ins_nondec l p o : nondec l o -> nondec l (ins_pos l p o).
Proof.
  induction o as [|a o IH]; cbn [ins_pos nondec]; [intros _; split; [intros b []|exact I]|].
  intros [H1 H2]. destruct (Rltb (nth a l 0) (nth p l 0)) eqn:X; cbn [nondec].
  - apply Rltb_true in X. split; [|auto]. intros b Hb. apply (Permutation_in _ (ins_perm l p o)) in Hb.
    destruct Hb as [<-|Hb]; [lra|auto].
  - apply Rltb_false in X. split; [|auto]. intros b [<-|Hb]; [lra|]. specialize (H1 b Hb). lra.
Qed.
Example C98_sorts_exists : sorts isort_pos.
Proof.
  intros l. unfold isort_pos.
  assert (G : forall s, Permutation (fold_right (ins_pos l) [] s) s /\ nondec l (fold_right (ins_pos l) [] s)).
  { induction s as [|p s [IH1 IH2]]; cbn [fold_right]; [split; [reflexivity|exact I]|].
    split; [rewrite ins_perm; now constructor|now apply ins_nondec]. }
  destruct (G (seq 0 (length l))) as [P Nd]. split; [exact P|]. clear P G.
  set (o := fold_right (ins_pos l) [] (seq 0 (length l))) in *. clearbody o.
  intros i j a b x y L A B X Y. rewrite <- (nth_error_nth l a 0 X), <- (nth_error_nth l b 0 Y).
  clear X Y. revert i j L A B Nd. induction o as [|c o IH]; intros [|i] [|j] L A B Nd; try discriminate; try lia; cbn in A, B.
  - injection A as ->. destruct Nd as [Nd _]. apply Nd. now apply nth_error_In with j.
  - destruct Nd as [_ Nd]. apply (IH i j); auto. lia.
Qed.
Example C98_example : exists srt, sorts srt /\ exists r,
  q_argsort srt (Some (-1)%Z) (Qty (Arr [1%nat; 3%nat] [3; 1; 2]) d_m) = Ok r /\ shp r = [1%nat; 3%nat].
Proof. exists isort_pos. split; [exact C98_sorts_exists|]. eexists. split; [reflexivity|]. reflexivity. Qed.

(** C99 *)
Lemma all_idx_length s : length (all_idx s) = prodn s.
Proof.
  induction s as [|n s IH]; [reflexivity|]. cbn [all_idx prodn]. rewrite (@flat_map_const_length _ _ _ _ (prodn s)).
  - now rewrite seq_length.
  - apply Forall_forall. intros i _. now rewrite map_length.
Qed.
Lemma all_idx_nth s : forall idx, in_range s idx -> nth_error (all_idx s) (ravel s idx) = Some idx.
Proof.
  induction s as [|n s IH]; intros idx H; inversion H; subst; [reflexivity|]. cbn [all_idx ravel].
  rewrite (@nth_error_flat_map _ _ (fun i => map (cons i) (all_idx s)) (prodn s) _ _ _ x).
  - rewrite nth_error_map, IH; auto.
  - intros y _. now rewrite map_length, all_idx_length.
  - rewrite (nth_error_nth' (seq 0 n) 0%nat) by (rewrite seq_length; assumption).
    f_equal. now rewrite seq_nth.
  - now apply ravel_lt.
Qed.
Lemma atab_wf {A} s (f : list nat -> A) : awf (atab s f).
Proof. unfold awf, atab. cbn [shp dat]. now rewrite map_length, all_idx_length. Qed.
Lemma aget_atab {A} s (f : list nat -> A) idx : in_range s idx -> aget (atab s f) idx = Some (f idx).
Proof.
  intros H. unfold aget. rewrite at_idx_ravel; [|apply atab_wf|exact H]. cbn [atab dat shp].
  now rewrite nth_error_map, all_idx_nth.
Qed.
Lemma put_drop {A} ax (x : A) l : (ax <= length l)%nat -> drop_at ax (put_at ax x l) = l.
Proof.
  intros H. unfold put_at. rewrite drop_at_split; [apply firstn_skipn|]. rewrite firstn_length. lia.
Qed.
Lemma nth_put_same {A} ax (x : A) l : (ax <= length l)%nat -> nth_error (put_at ax x l) ax = Some x.
Proof.
  intros H. unfold put_at. rewrite nth_error_app2; rewrite firstn_length; [|lia].
  replace (ax - Nat.min ax (length l))%nat with 0%nat by lia. reflexivity.
Qed.
Lemma nth_put_before {A} ax (x : A) l k : (k < ax)%nat -> (ax <= length l)%nat -> nth_error (put_at ax x l) k = nth_error l k.
Proof.
  intros H1 H2. unfold put_at. rewrite nth_error_app1 by (rewrite firstn_length; lia). now apply nth_error_firstn.
Qed.
Lemma put_length {A} ax (x : A) l : (ax <= length l)%nat -> length (put_at ax x l) = S (length l).
Proof. intros H. unfold put_at. rewrite app_length. cbn [length]. rewrite firstn_length, skipn_length. lia. Qed.
Lemma drop_length {A} ax (l : list A) : (ax < length l)%nat -> S (length (drop_at ax l)) = length l.
Proof. intros H. unfold drop_at. rewrite app_length, firstn_length, skipn_length. lia. Qed.
Lemma in_range_put s n ax i idx : (ax <= length s)%nat -> (i < n)%nat -> in_range s idx ->
  in_range (put_at ax n s) (put_at ax i idx).
Proof.
  intros H1 H2 H. assert (L := in_range_length H). unfold put_at.
  rewrite <- (firstn_skipn ax s) in H. destruct (in_range_app _ _ H) as [A B].
  rewrite firstn_length in A, B. replace (Nat.min ax (length s)) with ax in A, B by lia.
  apply in_range_app_intro; [exact A|]. constructor; [exact H2|exact B].
Qed.
Lemma put_nth_drop {A} ax (l : list A) x : nth_error l ax = Some x -> put_at ax x (drop_at ax l) = l.
Proof.
  intros H. apply nth_error_split in H. destruct H as (p & t & -> & E).
  rewrite drop_at_split by exact E. unfold put_at. rewrite <- E.
  rewrite firstn_app, firstn_all, Nat.sub_diag, app_nil_r. rewrite skipn_app, skipn_all, Nat.sub_diag. reflexivity.
Qed.
Lemma nth_drop_before {A} ax (l : list A) k : (k < ax)%nat -> (ax < length l)%nat -> nth_error (drop_at ax l) k = nth_error l k.
Proof.
  intros H1 H2. unfold drop_at. rewrite nth_error_app1 by (rewrite firstn_length; lia). now apply nth_error_firstn.
Qed.
(** Indices of the full array with given entries at two axes. *)
Lemma put_two_spec s a1 a2 i j idx n1 n2 : a1 <> a2 -> nth_error s a1 = Some n1 -> nth_error s a2 = Some n2 ->
  (i < n1)%nat -> (j < n2)%nat -> in_range (drop_two a1 a2 s) idx ->
  let ix := put_two a1 a2 i j idx in
  in_range s ix /\ nth_error ix a1 = Some i /\ nth_error ix a2 = Some j /\ drop_two a1 a2 ix = idx.
Proof.
  cbn zeta.
  assert (G : forall a1 a2 i j n1 n2, (a1 < a2)%nat -> nth_error s a1 = Some n1 -> nth_error s a2 = Some n2 ->
    (i < n1)%nat -> (j < n2)%nat -> in_range (drop_at a1 (drop_at a2 s)) idx ->
    let ix := put_at a2 j (put_at a1 i idx) in
    in_range s ix /\ nth_error ix a1 = Some i /\ nth_error ix a2 = Some j /\ drop_at a1 (drop_at a2 ix) = idx).
  { clear. intros a1 a2 i j n1 n2 L N1 N2 Hi Hj HR. cbn zeta.
    assert (B2 : (a2 < length s)%nat) by (apply nth_error_Some; congruence).
    assert (D2 := drop_length a2 s B2). assert (B1 : (a1 < length (drop_at a2 s))%nat) by lia.
    assert (D1 := drop_length a1 _ B1). assert (LI := in_range_length HR).
    assert (L1 : length (put_at a1 i idx) = S (length idx)) by (apply put_length; lia).
    assert (R1 : in_range (drop_at a2 s) (put_at a1 i idx)).
    { rewrite <- (put_nth_drop a1 (drop_at a2 s) n1) by (now rewrite nth_drop_before).
      apply in_range_put; auto. lia. }
    assert (R2 : in_range s (put_at a2 j (put_at a1 i idx))).
    { pattern s at 1. rewrite <- (put_nth_drop a2 s n2 N2). apply in_range_put; auto. lia. }
    split; [exact R2|]. split; [rewrite nth_put_before by lia; apply nth_put_same; lia|].
    split; [apply nth_put_same; lia|]. rewrite put_drop by lia. apply put_drop. lia. }
  intros Ne N1 N2 Hi Hj HR. unfold put_two, drop_two in *. destruct (Nat.ltb a1 a2) eqn:X.
  - apply Nat.ltb_lt in X. exact (G a1 a2 i j n1 n2 X N1 N2 Hi Hj HR).
  - apply Nat.ltb_ge in X. assert (X' : (a2 < a1)%nat) by lia.
    destruct (G a2 a1 j i n2 n1 X' N2 N1 Hj Hi HR) as (P1 & P2 & P3 & P4). auto.
Qed.
Lemma diag_len_spec n1 n2 off k : (k < diag_len n1 n2 off)%nat <-> (diag_i off k < n1)%nat /\ (diag_j off k < n2)%nat.
Proof. unfold diag_len, diag_i, diag_j. lia. Qed.

(** The elements of the diagonal with the given offset (towards the second axis) at a
    position [idx] of the other axes: those at indices that are [k - min(0, offset)] on
    the first axis, [k + max(0, offset)] on the second and [idx] elsewhere. *)
Definition is_diagonal (a : arr R) (offset : Z) (a1 a2 : nat) (idx : list nat) (l : list R) : Prop :=
  forall n1 n2, nth_error (shp a) a1 = Some n1 -> nth_error (shp a) a2 = Some n2 ->
  forall k : nat,
    ((k < length l)%nat <-> (k + Z.to_nat (- offset) < n1)%nat /\ (k + Z.to_nat offset < n2)%nat) /\
    ((k < length l)%nat -> exists ix x, in_range (shp a) ix /\
       nth_error ix a1 = Some (k + Z.to_nat (- offset))%nat /\ nth_error ix a2 = Some (k + Z.to_nat offset)%nat /\
       drop_two a1 a2 ix = idx /\ aget a ix = Some x /\ nth_error l k = Some x).
Lemma aget_in_range {A} (a : arr A) ix : awf a -> in_range (shp a) ix -> exists x, aget a ix = Some x.
Proof.
  intros W H. unfold aget. rewrite at_idx_ravel; auto. destruct (nth_error (dat a) (ravel (shp a) ix)) as [x|] eqn:X; [eauto|].
  apply nth_error_None in X. unfold awf in W. pose proof (ravel_lt H). lia.
Qed.
Theorem C99_trace : forall offset axis1 axis2 (q r : qty R), qty_ok q -> q_trace offset axis1 axis2 q = Ok r ->
  qdim r = qdim q /\ qty_ok r /\
  exists a1 a2, axis_means (length (shp (mag q))) axis1 a1 /\ axis_means (length (shp (mag q))) axis2 a2 /\ a1 <> a2 /\
    shp (mag r) = drop_two a1 a2 (shp (mag q)) /\
    forall phi idx, in_range (shp (mag r)) idx ->
      exists diag, is_diagonal (phys phi q) offset a1 a2 idx diag /\ aget (phys phi r) idx = Some (Rsum diag).
Proof.
  intros off x1 x2 q r [W D] H. unfold q_trace in H.
  destruct (norm_axis (length (shp (mag q))) (Some x1)) as [o1|] eqn:E1; cbn [bind] in H; [|discriminate].
  destruct (norm_axis (length (shp (mag q))) (Some x2)) as [o2|] eqn:E2; cbn [bind] in H; [|discriminate].
  apply norm_axis_spec in E1. apply norm_axis_spec in E2. destruct E1 as (a1 & -> & M1), E2 as (a2 & -> & M2).
  destruct (Nat.eqb a1 a2) eqn:X; [discriminate|]. apply Nat.eqb_neq in X.
  assert (r = Qty (atrace off a1 a2 (mag q)) (qdim q)) as -> by congruence. clear H. cbn [qdim mag].
  split; [reflexivity|]. split; [split; [apply atab_wf|exact D]|].
  exists a1, a2. do 3 (split; [assumption|]). split; [reflexivity|]. intros phi idx HR.
  cbn [atrace atab shp] in HR. set (s := shp (mag q)) in *.
  destruct (nth_error s a1) as [n1|] eqn:N1; [|apply nth_error_None in N1; destruct M1; lia].
  destruct (nth_error s a2) as [n2|] eqn:N2; [|apply nth_error_None in N2; destruct M2; lia].
  set (v := dimval phi (qdim q)).
  set (diag := map (fun k => elem (mag q) (put_two a1 a2 (diag_i off k) (diag_j off k) idx)) (seq 0 (diag_len n1 n2 off))).
  exists (map (fun x => x * v) diag). split.
  - intros m1 m2 H1 H2 k. change (shp (phys phi q)) with s in H1, H2.
    assert (m1 = n1) as -> by congruence. assert (m2 = n2) as -> by congruence.
    unfold diag at 1 2. rewrite !map_length, seq_length. split; [exact (diag_len_spec n1 n2 off k)|]. intros Hk.
    assert (Hk' := proj1 (diag_len_spec n1 n2 off k) Hk). destruct Hk' as [Hi Hj].
    destruct (put_two_spec s a1 a2 _ _ idx n1 n2 X N1 N2 Hi Hj HR) as (P1 & P2 & P3 & P4).
    set (ix := put_two a1 a2 (diag_i off k) (diag_j off k) idx) in *.
    destruct (aget_in_range (mag q) ix W P1) as [x Hx].
    exists ix, (x * v). split; [exact P1|]. split; [exact P2|]. split; [exact P3|]. split; [exact P4|].
    split; [unfold aget, phys, amap in *; cbn [shp dat]; now rewrite at_idx_map, Hx|].
    unfold diag. rewrite !nth_error_map.
    rewrite (nth_error_nth' (seq 0 (diag_len n1 n2 off)) 0%nat) by (now rewrite seq_length).
    rewrite seq_nth by exact Hk. cbn [option_map Nat.add]. fold ix. unfold elem. now rewrite Hx.
  - unfold aget, phys, amap. cbn [mag qdim shp dat]. rewrite at_idx_map.
    change (at_idx (shp (atrace off a1 a2 (mag q))) (dat (atrace off a1 a2 (mag q))) idx) with (aget (atrace off a1 a2 (mag q)) idx).
    unfold atrace. rewrite aget_atab by exact HR. cbn [option_map].
    fold s. rewrite (nth_error_nth s a1 0%nat N1), (nth_error_nth s a2 0%nat N2). fold diag. fold v.
    f_equal. rewrite lsum_Rsum. symmetry. apply Rsum_scale.
Qed.
Theorem C99_trace_defined : forall offset axis1 axis2 (q : qty R),
  ((exists r, q_trace offset axis1 axis2 q = Ok r) <->
   exists a1 a2, axis_means (length (shp (mag q))) axis1 a1 /\ axis_means (length (shp (mag q))) axis2 a2 /\ a1 <> a2) /\
  (forall e, q_trace offset axis1 axis2 q = Err e -> e = ValueError).
Proof.
  intros off x1 x2 q. unfold q_trace. split.
  - split.
    + intros [r H]. destruct (norm_axis (length (shp (mag q))) (Some x1)) as [o1|] eqn:E1; cbn [bind] in H; [|discriminate].
      destruct (norm_axis (length (shp (mag q))) (Some x2)) as [o2|] eqn:E2; cbn [bind] in H; [|discriminate].
      apply norm_axis_spec in E1. apply norm_axis_spec in E2. destruct E1 as (a1 & -> & M1), E2 as (a2 & -> & M2).
      destruct (Nat.eqb a1 a2) eqn:X; [discriminate|]. apply Nat.eqb_neq in X. eauto.
    + intros (a1 & a2 & M1 & M2 & Ne). rewrite (norm_axis_complete _ _ _ M1), (norm_axis_complete _ _ _ M2). cbn [bind].
      rewrite (proj2 (Nat.eqb_neq a1 a2) Ne). eauto.
  - intros e. destruct (norm_axis (length (shp (mag q))) (Some x1)) as [o1|] eqn:E1; cbn [bind].
    2:{ intros [= <-]. now apply norm_axis_err in E1. }
    destruct (norm_axis (length (shp (mag q))) (Some x2)) as [o2|] eqn:E2; cbn [bind].
    2:{ intros [= <-]. now apply norm_axis_err in E2. }
    destruct o1; [|congruence]. destruct o2; [|congruence]. destruct (Nat.eqb _ _); congruence.
Qed.
(** [squeeze] keeps units and elements and removes axes of length one. *)
(** [idx'] is [idx] without the (zero) entries at the removed axes. *)
Inductive squeezed : list nat -> list nat -> list nat -> Prop :=
| sq_nil : squeezed [] [] []
| sq_drop s idx idx' : squeezed s idx idx' -> squeezed (1%nat :: s) (0%nat :: idx) idx'
| sq_keep n s i idx idx' : n <> 1%nat -> squeezed s idx idx' -> squeezed (n :: s) (i :: idx) (i :: idx').
Lemma squeeze_none_ravel s : forall idx, in_range s idx -> exists idx', squeezed s idx idx' /\
  in_range (filter (fun n => negb (Nat.eqb n 1)) s) idx' /\
  ravel (filter (fun n => negb (Nat.eqb n 1)) s) idx' = ravel s idx /\
  prodn (filter (fun n => negb (Nat.eqb n 1)) s) = prodn s.
Proof.
  induction s as [|n s IH]; intros idx H; inversion H; subst.
  - exists []. split; [constructor|]. split; [constructor|]. split; reflexivity.
  - destruct (IH l H4) as (idx' & S1 & S2 & S3 & S4). destruct (Nat.eq_dec n 1) as [->|Ne].
    + assert (x = 0%nat) as -> by lia. exists idx'. cbn [filter Nat.eqb negb]. split; [now constructor|].
      split; [exact S2|]. split; [cbn [ravel]; lia|cbn [prodn]; lia].
    + exists (x :: idx'). cbn [filter]. rewrite (proj2 (Nat.eqb_neq n 1) Ne). cbn [negb].
      split; [now constructor|]. split; [now constructor|]. cbn [ravel prodn]. rewrite S3, S4. split; lia.
Qed.
Lemma squeeze_prodn s : prodn (filter (fun n => negb (Nat.eqb n 1)) s) = prodn s.
Proof.
  induction s as [|n s IH]; auto. cbn [filter prodn]. destruct (Nat.eq_dec n 1) as [->|Ne]; cbn [Nat.eqb negb].
  - lia.
  - rewrite (proj2 (Nat.eqb_neq n 1) Ne). cbn [negb prodn]. now rewrite IH.
Qed.
Theorem C99_squeeze : forall A (N : Num A) (q : qty A), qty_ok q ->
  exists r, q_squeeze None q = Ok r /\ qty_ok r /\ qdim r = qdim q /\
    (forall n, In n (shp (mag r)) <-> In n (shp (mag q)) /\ n <> 1%nat) /\
    forall idx x, in_range (shp (mag q)) idx -> aget (mag q) idx = Some x ->
      exists idx', squeezed (shp (mag q)) idx idx' /\ aget (mag r) idx' = Some x.
Proof.
  intros A N q [W D]. eexists. split; [reflexivity|]. unfold awf in W. cbn [mag qdim shp].
  split; [split; [unfold awf; cbn [mag shp dat]; now rewrite squeeze_prodn|exact D]|]. split; [reflexivity|]. split.
  - intros n. rewrite filter_In, negb_true_iff, Nat.eqb_neq. reflexivity.
  - intros idx x HR H. destruct (squeeze_none_ravel _ idx HR) as (idx' & S1 & S2 & S3 & S4).
    exists idx'. split; [exact S1|]. unfold aget in *. cbn [shp dat].
    rewrite at_idx_ravel in H by auto. rewrite at_idx_ravel; [now rewrite S3|now rewrite squeeze_prodn|exact S2].
Qed.
Theorem C99_squeeze_axis : forall A (N : Num A) k (q : qty A), qty_ok q ->
  (forall r, q_squeeze (Some k) q = Ok r ->
     exists ax, axis_means (length (shp (mag q))) k ax /\ nth_error (shp (mag q)) ax = Some 1%nat /\
       qty_ok r /\ qdim r = qdim q /\ shp (mag r) = drop_at ax (shp (mag q)) /\
       forall idx, in_range (shp (mag q)) idx -> aget (mag r) (drop_at ax idx) = aget (mag q) idx) /\
  ((exists r, q_squeeze (Some k) q = Ok r) <->
     exists ax, axis_means (length (shp (mag q))) k ax /\ nth_error (shp (mag q)) ax = Some 1%nat) /\
  (forall e, q_squeeze (Some k) q = Err e -> e = ValueError).
Proof.
  intros A N k q [W D]. unfold q_squeeze. split; [|split].
  - intros r H. destruct (norm_axis _ (Some k)) as [o|] eqn:E1; cbn [bind] in H; [|discriminate].
    apply norm_axis_spec in E1. destruct E1 as (ax & -> & M). exists ax.
    destruct (Nat.eqb (nth ax (shp (mag q)) 0%nat) 1) eqn:X; [|discriminate]. apply Nat.eqb_eq in X.
    assert (N1 : nth_error (shp (mag q)) ax = Some 1%nat) by (destruct M as [M _]; rewrite (nth_error_nth' _ 0%nat M); now f_equal).
    split; [exact M|]. split; [exact N1|]. assert (r = Qty (Arr (drop_at ax (shp (mag q))) (dat (mag q))) (qdim q)) as -> by congruence.
    cbn [mag qdim shp dat]. destruct (nth_error_split _ _ N1) as (p & t & Es & Lp).
    assert (Dr : drop_at ax (shp (mag q)) = p ++ t) by (rewrite Es; now apply drop_at_split).
    assert (Pr : prodn (p ++ t) = prodn (shp (mag q))) by (rewrite Es, !prodn_app; cbn [prodn]; lia).
    unfold awf in W.
    split; [split; [unfold awf; cbn [mag shp dat]; rewrite Dr; congruence|exact D]|]. split; [reflexivity|]. split; [reflexivity|].
    intros idx HR. unfold aget. cbn [shp dat]. rewrite (at_idx_ravel (s := shp (mag q))) by auto.
    rewrite Es in HR. destruct (in_range_app _ _ HR) as [R1 R2]. rewrite Lp in R1, R2. inversion R2 as [|i n' ipost post' Hi R3 E1 E2]; subst n' post'.
    assert (i = 0%nat) as -> by lia.
    assert (Fl : length (firstn ax idx) = ax) by (rewrite (in_range_length R1); exact Lp).
    assert (Di : drop_at ax idx = firstn ax idx ++ ipost).
    { rewrite <- (firstn_skipn ax idx) at 1. rewrite <- E1. now apply drop_at_split. }
    rewrite Di, Dr. rewrite at_idx_ravel; [|congruence|now apply in_range_app_intro].
    rewrite ravel_app by (rewrite Fl; auto).
    assert (RV : ravel (shp (mag q)) idx = (ravel p (firstn ax idx) * prodn t + ravel t ipost)%nat).
    { rewrite Es. rewrite <- (firstn_skipn ax idx) at 1. rewrite <- E1. rewrite ravel_app by (rewrite Fl; auto). cbn [prodn ravel]. lia. }
    now rewrite RV.
  - split.
    + intros [r H]. destruct (norm_axis _ (Some k)) as [o|] eqn:E1; cbn [bind] in H; [|discriminate].
      apply norm_axis_spec in E1. destruct E1 as (ax & -> & M). exists ax. split; [exact M|].
      destruct (Nat.eqb (nth ax (shp (mag q)) 0%nat) 1) eqn:X; [|discriminate]. apply Nat.eqb_eq in X.
      destruct M as [M _]. rewrite (nth_error_nth' _ 0%nat M). now f_equal.
    + intros (ax & M & N1). rewrite (norm_axis_complete _ _ _ M). cbn [bind]. rewrite (nth_error_nth _ _ 0%nat N1). cbn. eauto.
  - intros e. destruct (norm_axis _ (Some k)) as [o|] eqn:E1; cbn [bind].
    + destruct o; [|discriminate]. destruct (Nat.eqb _ _); [discriminate|]. now intros [= <-].
    + intros [= <-]. now apply norm_axis_err in E1.
Qed.
Example C99_example :
  let q := Qty (Arr [2%nat; 3%nat; 2%nat] (qcs [1; 2; 3; 4; 5; 6; 7; 8; 9; 10; 11; 12]%Z)) d_m in
  q_trace 0 0 1 q = Ok (Qty (Arr [2%nat] (qcs [10; 12]%Z)) d_m) /\
  q_trace 1 0 1 q = Ok (Qty (Arr [2%nat] (qcs [14; 16]%Z)) d_m) /\
  q_trace (-1) (-1) 0 q = Ok (Qty (Arr [3%nat] (qcs [2; 4; 6]%Z)) d_m) /\
  q_trace 0 1 (-2) q = Err ValueError /\
  q_squeeze None (Qty (Arr [1%nat; 2%nat; 1%nat] (qcs [1; 2]%Z)) d_m) = Ok (Qty (Arr [2%nat] (qcs [1; 2]%Z)) d_m) /\
  q_squeeze (Some 0%Z) (Qty (Arr [1%nat; 2%nat; 1%nat] (qcs [1; 2]%Z)) d_m) = Ok (Qty (Arr [2%nat; 1%nat] (qcs [1; 2]%Z)) d_m) /\
  q_squeeze (Some 1%Z) (Qty (Arr [1%nat; 2%nat; 1%nat] (qcs [1; 2]%Z)) d_m) = Err ValueError.
Proof. cbn zeta. repeat split; vm_compute; reflexivity. Qed.

Print Assumptions C97_round.
Print Assumptions C97_round_unique.
Print Assumptions C97_idempotent.
Print Assumptions C97_builtin_round.
Print Assumptions C97_unit_independent_refuted.
Print Assumptions C98_argsort.
Print Assumptions C98_defined.
Print Assumptions C98_unit_independent.
Print Assumptions C99_trace.
Print Assumptions C99_trace_defined.
Print Assumptions C99_squeeze.
Print Assumptions C99_squeeze_axis.
