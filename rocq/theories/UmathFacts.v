(** * UmathFacts: lemmas about slices, differences and the trapezoidal rule. *)
From Coq Require Import Reals Lra Lia.
From Verif Require Import Py Num Dim DimFacts Arr ArrFacts Units Spec UnitFacts Quant QuantFacts Ufunc Ops OpsFacts
  Lanes Methods MethodsFacts ItemFacts Umath.

Open Scope nat_scope.

(** The element at an index (0 outside). *)
Definition el (a : arr R) (idx : list nat) : R := match aget a idx with Some x => x | None => 0%R end.

(** ** Slices *)
Lemma slice_full n : slice_indices n None None 1 = seq 0 n.
Proof.
  apply nth_error_ext'. intros i. rewrite slice_indices_nth by lia. cbn [slice_start slice_stop Z.ltb Z.compare].
  destruct (Nat.lt_ge_cases i n) as [H|H].
  - rewrite (nth_error_nth' _ 0) by (now rewrite seq_length). rewrite seq_nth by auto.
    destruct (Z.ltb_spec (0 + Z.of_nat i * 1) (Z.of_nat n)); [|lia]. f_equal. lia.
  - rewrite (proj2 (nth_error_None (seq 0 n) i)) by (now rewrite seq_length).
    destruct (Z.ltb_spec (0 + Z.of_nat i * 1) (Z.of_nat n)); [lia|reflexivity].
Qed.
Lemma slice_tail n : slice_indices n (Some 1%Z) None 1 = seq 1 (n - 1).
Proof.
  apply nth_error_ext'. intros i. rewrite slice_indices_nth by lia. cbn [slice_start slice_stop slice_clamp Z.ltb Z.compare].
  set (z := (Z.max 0 (Z.min 1 (Z.of_nat n)) + Z.of_nat i * 1)%Z).
  destruct (Nat.lt_ge_cases i (n - 1)) as [H|H].
  - rewrite (nth_error_nth' _ 0) by (now rewrite seq_length). rewrite seq_nth by auto.
    destruct (Z.ltb_spec z (Z.of_nat n)); unfold z in *; [|lia]. f_equal. lia.
  - rewrite (proj2 (nth_error_None (seq 1 (n - 1)) i)) by (now rewrite seq_length).
    destruct (Z.ltb_spec z (Z.of_nat n)); unfold z in *; [lia|reflexivity].
Qed.
Lemma slice_init n : slice_indices n None (Some (-1)%Z) 1 = seq 0 (n - 1).
Proof.
  apply nth_error_ext'. intros i. rewrite slice_indices_nth by lia. cbn [slice_start slice_stop slice_clamp Z.ltb Z.compare].
  set (z := Z.max 0 (Z.min (-1 + Z.of_nat n) (Z.of_nat n))).
  destruct (Nat.lt_ge_cases i (n - 1)) as [H|H].
  - rewrite (nth_error_nth' _ 0) by (now rewrite seq_length). rewrite seq_nth by auto.
    destruct (Z.ltb_spec (0 + Z.of_nat i * 1) z); unfold z in *; [|lia]. f_equal. lia.
  - rewrite (proj2 (nth_error_None (seq 0 (n - 1)) i)) by (now rewrite seq_length).
    destruct (Z.ltb_spec (0 + Z.of_nat i * 1) z); unfold z in *; [lia|reflexivity].
Qed.

Lemma sel_axis_shape start stop step n post : step <> 0%Z -> forall pre,
  exists ps, sel_basic (repeat full (length pre) ++ [ISlice start stop step]) (pre ++ n :: post) =
             Ok (pre ++ length (slice_indices n start stop step) :: post, ps).
Proof.
  intros Hs. induction pre as [|m pre [ps IH]]; cbn [length repeat app sel_basic].
  - destruct (Z.eqb_spec step 0); [contradiction|]. cbn [bind]. eauto.
  - unfold full at 1. cbn [sel_basic Z.eqb]. rewrite IH. cbn [bind]. rewrite slice_full, seq_length. eauto.
Qed.
Lemma sel_axis_picks start stop step n post : forall pre ip i jp idx,
  in_range pre ip -> picks (repeat full (length pre) ++ [ISlice start stop step]) (pre ++ n :: post) (ip ++ i :: jp) idx ->
  exists j, nth_error (slice_indices n start stop step) i = Some j /\ idx = ip ++ j :: jp.
Proof.
  intros pre ip i jp idx HR. revert idx. induction HR as [|k m ip pre Hk HR IH]; intros idx P; cbn [length repeat app] in P.
  - inversion P; subst.
    match goal with X : picks [] _ _ _ |- _ => inversion X; subst end. eauto.
  - unfold full at 1 in P. inversion P; subst.
    match goal with X : nth_error (slice_indices _ None None 1) _ = _ |- _ => rewrite slice_full in X; rewrite (nth_error_nth' _ 0) in X by (now rewrite seq_length); rewrite seq_nth in X by auto; injection X as <- end.
    match goal with X : picks (repeat _ _ ++ _) _ _ _ |- _ => apply IH in X; destruct X as (j' & Hj & ->) end.
    exists j'. auto.
Qed.
Lemma aslice_spec {A} {N : Num A} (a : arr A) pre n post start stop step : awf a -> shp a = pre ++ n :: post -> step <> 0%Z ->
  exists r, aslice (length pre) (ISlice start stop step) a = Ok r /\ awf r /\
    shp r = pre ++ length (slice_indices n start stop step) :: post /\
    forall ip i jp, in_range pre ip -> in_range post jp -> i < length (slice_indices n start stop step) ->
      exists j, nth_error (slice_indices n start stop step) i = Some j /\ aget r (ip ++ i :: jp) = aget a (ip ++ j :: jp).
Proof.
  intros W Hs Hst. destruct (sel_axis_shape start stop step n post Hst pre) as [ps Es]. rewrite <- Hs in Es.
  unfold aslice, q_getitem. cbn [mag qdim]. rewrite Es. cbn [bind rmap mag]. eexists. split; [reflexivity|].
  destruct (sel_basic_ok _ _ _ _ Es) as (L & F & _).
  assert (Wr : awf (Arr (pre ++ length (slice_indices n start stop step) :: post) (gather (dat a) ps))) by (unfold awf, gather; cbn; now rewrite map_length).
  split; [exact Wr|]. split; [reflexivity|]. intros ip i jp R1 R2 Hi.
  assert (HR : in_range (pre ++ length (slice_indices n start stop step) :: post) (ip ++ i :: jp)).
  { apply in_range_app_intro; auto. constructor; auto. }
  destruct (sel_basic_picks _ _ _ _ _ Es HR) as (idx' & P & R' & Nt).
  rewrite Hs in P. destruct (sel_axis_picks _ _ _ _ _ _ _ _ _ _ R1 P) as (j & Hj & ->).
  exists j. split; auto. unfold aget. cbn [shp dat]. rewrite at_idx_ravel; [|exact Wr|exact HR].
  rewrite at_idx_ravel; [|exact W|exact R']. unfold gather. rewrite nth_error_map, Nt. cbn. symmetry. apply nth_error_nth'.
  unfold awf in W. rewrite W. now apply ravel_lt.
Qed.
Lemma aslice_tail {A} {N : Num A} (a : arr A) pre n post : awf a -> shp a = pre ++ n :: post ->
  exists r, aslice (length pre) tail_of a = Ok r /\ awf r /\ shp r = pre ++ (n - 1) :: post /\
    forall ip i jp, in_range pre ip -> in_range post jp -> i < n - 1 -> aget r (ip ++ i :: jp) = aget a (ip ++ S i :: jp).
Proof.
  intros W Hs. destruct (aslice_spec a pre n post (Some 1%Z) None 1%Z W Hs ltac:(lia)) as (r & E1 & E2 & E3 & E4).
  rewrite slice_tail, seq_length in *. exists r. split; [exact E1|]. split; [exact E2|]. split; [exact E3|]. intros ip i jp R1 R2 Hi.
  destruct (E4 ip i jp R1 R2 Hi) as (j & Hj & ->). rewrite (nth_error_nth' _ 0) in Hj by (now rewrite seq_length).
  rewrite seq_nth in Hj by auto. now injection Hj as <-.
Qed.
Lemma aslice_init {A} {N : Num A} (a : arr A) pre n post : awf a -> shp a = pre ++ n :: post ->
  exists r, aslice (length pre) init_of a = Ok r /\ awf r /\ shp r = pre ++ (n - 1) :: post /\
    forall ip i jp, in_range pre ip -> in_range post jp -> i < n - 1 -> aget r (ip ++ i :: jp) = aget a (ip ++ i :: jp).
Proof.
  intros W Hs. destruct (aslice_spec a pre n post None (Some (-1)%Z) 1%Z W Hs ltac:(lia)) as (r & E1 & E2 & E3 & E4).
  rewrite slice_init, seq_length in *. exists r. split; [exact E1|]. split; [exact E2|]. split; [exact E3|]. intros ip i jp R1 R2 Hi.
  destruct (E4 ip i jp R1 R2 Hi) as (j & Hj & ->). rewrite (nth_error_nth' _ 0) in Hj by (now rewrite seq_length).
  rewrite seq_nth in Hj by auto. now injection Hj as <-.
Qed.

(** ** Elementwise operations on arrays of the same shape *)
Lemma bc_index_same s idx : in_range s idx -> bc_index s idx = idx.
Proof.
  induction 1 as [|i n idx s Hi H IH]; cbn [bc_index]; auto. rewrite IH. destruct (Nat.eqb_spec n 1); auto. f_equal. lia.
Qed.
Lemma operand_index_same s idx : in_range s idx -> operand_index s idx = idx.
Proof. intros H. unfold operand_index. rewrite (in_range_length H), Nat.sub_diag. cbn [skipn]. now apply bc_index_same. Qed.
Lemma el_some (a : arr R) idx : awf a -> in_range (shp a) idx -> aget a idx = Some (el a idx).
Proof. intros W H. destruct (aget_some a idx W H) as [x Hx]. unfold el. now rewrite Hx. Qed.
Lemma amap2_same {B C} (f : R -> B -> C) (a : arr R) (b : arr B) : awf a -> awf b -> shp a = shp b ->
  exists r, amap2 f a b = Ok r /\ awf r /\ shp r = shp a /\
    forall idx, in_range (shp a) idx -> exists x y, aget a idx = Some x /\ aget b idx = Some y /\ aget r idx = Some (f x y).
Proof.
  intros Wa Wb Hs. assert (X : amap2 f a b = Ok (Arr (shp a) (zip_with f (dat a) (dat b)))) by (apply amap2_same_shape; auto; now rewrite <- ?Hs).
  exists (Arr (shp a) (zip_with f (dat a) (dat b))). split; auto. split; [exact (awf_amap2 f (a:=a) (b:=b) Wa Wb X)|]. split; auto.
  intros idx HR. destruct (aget_some (Arr (shp a) (zip_with f (dat a) (dat b))) idx (awf_amap2 f (a:=a) (b:=b) Wa Wb X) HR) as [z Hz].
  destruct (amap2_get f a b _ _ _ Wa Wb X Hz) as (x & y & H1 & H2 & ->). rewrite operand_index_same in H1 by auto.
  rewrite operand_index_same in H2 by (now rewrite <- Hs). exists x, y. auto.
Qed.

(** ** Differences along an axis *)
Lemma adiff_spec (a : arr R) pre n post : awf a -> shp a = pre ++ n :: post ->
  exists r, adiff (length pre) a = Ok r /\ awf r /\ shp r = pre ++ (n - 1) :: post /\
    forall ip i jp, in_range pre ip -> in_range post jp -> i < n - 1 ->
      aget r (ip ++ i :: jp) = Some (el a (ip ++ S i :: jp) - el a (ip ++ i :: jp))%R.
Proof.
  intros W Hs. destruct (aslice_tail a pre n post W Hs) as (hi & E1 & W1 & S1 & G1).
  destruct (aslice_init a pre n post W Hs) as (lo & E2 & W2 & S2 & G2).
  unfold adiff. rewrite E1, E2. cbn [bind].
  destruct (amap2_same nsub hi lo W1 W2 (eq_trans S1 (eq_sym S2))) as (r & Er & Wr & Sr & Gr).
  exists r. split; auto. split; auto. split; [congruence|]. intros ip i jp R1 R2 Hi.
  assert (HR : in_range (shp hi) (ip ++ i :: jp)) by (rewrite S1; apply in_range_app_intro; auto; constructor; auto).
  destruct (Gr _ HR) as (x & y & Hx & Hy & ->). rewrite G1 in Hx by auto. rewrite G2 in Hy by auto.
  unfold el. rewrite Hx, Hy. reflexivity.
Qed.

(** ** The trapezoidal rule *)
(** [Σ_i (D i) (y (i+1) + y i) / 2] along the axis. *)
Definition trap_sum (n : nat) (dx y : nat -> R) : R :=
  Rsum (map (fun i => (dx i * (y (S i) + y i) / 2)%R) (seq 0 (n - 1))).
Lemma trap_sum_ext n dx dx' y y' : (forall i, i < n - 1 -> dx i = dx' i) -> (forall i, i < n -> y i = y' i) ->
  trap_sum n dx y = trap_sum n dx' y'.
Proof.
  intros H1 H2. unfold trap_sum. f_equal. apply map_ext_in. intros i Hi. apply in_seq in Hi. rewrite H1, (H2 i), (H2 (S i)) by lia. reflexivity.
Qed.
Lemma trap_sum_scale n dx y u v : trap_sum n (fun i => (dx i * u)%R) (fun i => (y i * v)%R) = (trap_sum n dx y * (v * u))%R.
Proof.
  unfold trap_sum. induction (seq 0 (n - 1)) as [|i l IH]; cbn [map].
  - unfold Rsum. cbn. ring.
  - rewrite !Rsum_cons, IH. field.
Qed.
Lemma lane_of_fun (a : arr R) ax idx lane n (g : nat -> R) : is_lane a ax idx lane -> nth_error (shp a) ax = Some n ->
  (forall i, i < n -> aget a (insert_at ax i idx) = Some (g i)) -> lane = map g (seq 0 n).
Proof.
  intros [L1 L2] Hn Hg. rewrite Hn in L1. injection L1 as ->. apply nth_error_ext'. intros i.
  destruct (Nat.lt_ge_cases i (length lane)) as [H|H].
  - rewrite L2, Hg by auto. rewrite nth_error_map, (nth_error_nth' _ 0) by (now rewrite seq_length). rewrite seq_nth by auto. reflexivity.
  - rewrite (proj2 (nth_error_None lane i)) by auto. symmetry. apply nth_error_None. now rewrite map_length, seq_length.
Qed.
Lemma insert_at_app (ip jp : list nat) i : insert_at (length ip) i (ip ++ jp) = ip ++ i :: jp.
Proof. unfold insert_at. now rewrite firstn_app_exact, skipn_app, skipn_all, Nat.sub_diag by reflexivity. Qed.

Section Trapz.
  Context (y : arr R) (pre post : list nat) (n : nat) (W : awf y) (Hs : shp y = pre ++ n :: post).
  Context (d : arr R) (Wd : awf d) (D : nat -> list nat -> R).
  Context (Hb : bc_shape (shp d) (pre ++ (n - 1) :: post) = Some (pre ++ (n - 1) :: post)).
  Context (HD : forall ip i jp, in_range pre ip -> in_range post jp -> i < n - 1 ->
                aget d (operand_index (shp d) (ip ++ i :: jp)) = Some (D i (ip ++ jp))).
  Lemma trapz_core : exists r,
    (hi <- aslice (length pre) tail_of y ;; lo <- aslice (length pre) init_of y ;;
     sums <- amap2 nadd hi lo ;; areas <- amap2 nmul d sums ;;
     areduce lsum (Some (length pre)) (amap (fun z => ndiv z (nofQ (Z2Qc 2))) areas)) = Ok r /\
    awf r /\ shp r = pre ++ post /\
    forall ip jp, in_range pre ip -> in_range post jp ->
      aget r (ip ++ jp) = Some (trap_sum n (fun i => D i (ip ++ jp)) (fun i => el y (ip ++ i :: jp))).
  Proof.
    destruct (aslice_tail y pre n post W Hs) as (hi & E1 & W1 & S1 & G1).
    destruct (aslice_init y pre n post W Hs) as (lo & E2 & W2 & S2 & G2).
    rewrite E1, E2. cbn [bind].
    destruct (amap2_same nadd hi lo W1 W2 (eq_trans S1 (eq_sym S2))) as (sm & Es & Ws & Ss & Gs). rewrite Es. cbn [bind].
    assert (Hb' : bc_shape (shp d) (shp sm) = Some (pre ++ (n - 1) :: post)) by (rewrite Ss, S1; exact Hb).
    destruct (proj2 (amap2_ok nmul d sm) (ex_intro _ _ Hb')) as [ar Ea]. rewrite Ea. cbn [bind].
    assert (Sa : shp ar = pre ++ (n - 1) :: post).
    { unfold amap2 in Ea. rewrite Hb' in Ea. now injection Ea as <-. }
    assert (Wa : awf ar) by exact (awf_amap2 nmul (a:=d) (b:=sm) Wd Ws Ea).
    set (h := amap (fun z => ndiv z (nofQ (Z2Qc 2))) ar).
    assert (Wh : awf h) by now apply awf_amap.
    assert (Sh : shp h = pre ++ (n - 1) :: post) by exact Sa.
    destruct (proj2 (areduce_ok_iff lsum (length pre) h)) as [r Er]; [rewrite Sh, app_length; cbn; lia|].
    exists r. split; auto. split; [exact (awf_areduce _ _ Wh Er)|].
    assert (Sr : shp r = pre ++ post).
    { destruct (areduce_shape _ _ _ Er) as (p' & m & q' & X1 & X2 & X3). rewrite Sh in X1. rewrite X3.
      assert (p' = pre /\ q' = post) as [-> ->]; [|reflexivity].
      { clear - X1 X2. revert p' X1 X2. induction pre as [|k l IH]; intros [|k' p'] X1 X2; cbn in *; try discriminate.
        - now injection X1 as _ <-. - injection X1 as <- X1. injection X2 as X2. destruct (IH p' X1 X2) as [-> ->]. auto. } }
    split; auto. intros ip jp R1 R2.
    assert (HR : in_range (shp r) (ip ++ jp)) by (rewrite Sr; now apply in_range_app_intro).
    destruct (areduce_get lsum (length pre) (idx := ip ++ jp) Wh Er HR) as (lane & L & ->).
    f_equal. rewrite lsum_Rsum. unfold trap_sum. f_equal.
    apply (lane_of_fun h (length pre) (ip ++ jp)); auto.
    { rewrite Sh, nth_error_app2, Nat.sub_diag by lia. reflexivity. }
    intros i Hi. rewrite <- (in_range_length R1), insert_at_app. unfold h. rewrite amap_get.
    assert (HR' : in_range (shp ar) (ip ++ i :: jp)) by (rewrite Sa; apply in_range_app_intro; auto; constructor; auto).
    destruct (aget_some ar _ Wa HR') as [z Hz]. rewrite Hz. cbn [option_map].
    destruct (amap2_get nmul d sm _ _ _ Wd Ws Ea Hz) as (x1 & x2 & H1 & H2 & ->).
    rewrite HD in H1 by auto. injection H1 as <-. rewrite operand_index_same in H2 by (rewrite Ss, S1, <- Sa; exact HR').
    assert (HR2 : in_range (shp hi) (ip ++ i :: jp)) by (rewrite S1, <- Sa; exact HR').
    destruct (Gs _ HR2) as (p & q & P1 & P2 & P3). rewrite H2 in P3. injection P3 as ->.
    rewrite G1 in P1 by auto. rewrite G2 in P2 by auto. unfold el. rewrite P1, P2. f_equal. cbn. rewrite Qc2R_Z. reflexivity.
  Qed.
End Trapz.

Lemma bc_zip_ones_mid : forall pre post n, bc_zip (repeat 1 (length pre) ++ n :: repeat 1 (length post)) (pre ++ n :: post) = Some (pre ++ n :: post).
Proof.
  assert (D1 : forall m, bc_dim 1 m = Some m) by (intros m; unfold bc_dim; destruct (Nat.eqb_spec 1 m); subst; reflexivity).
  assert (Dn : forall m, bc_dim m m = Some m) by (intros m; unfold bc_dim; now rewrite Nat.eqb_refl).
  intros pre post n. induction pre as [|m pre IH]; cbn [length repeat app bc_zip].
  - rewrite Dn, bc_zip_ones. reflexivity.
  - rewrite D1, IH. reflexivity.
Qed.
Lemma bc_shape_ones_mid pre post n : bc_shape (repeat 1 (length pre) ++ n :: repeat 1 (length post)) (pre ++ n :: post) = Some (pre ++ n :: post).
Proof.
  unfold bc_shape. assert (L : length (repeat 1 (length pre) ++ n :: repeat 1 (length post)) = length (pre ++ n :: post)).
  { rewrite !app_length. cbn. now rewrite !repeat_length. }
  rewrite L, Nat.max_id. rewrite <- L at 1. rewrite !pad_self. apply bc_zip_ones_mid.
Qed.
Lemma bc_index_ones k idx : length idx = k -> bc_index (repeat 1 k) idx = repeat 0 k.
Proof. revert idx. induction k as [|k IH]; intros [|i idx] H; try discriminate; cbn; auto. f_equal. apply IH. now injection H. Qed.
Lemma bc_index_app' s t i j : length i = length s -> bc_index (s ++ t) (i ++ j) = bc_index s i ++ bc_index t j.
Proof. revert i. induction s as [|n s IH]; intros [|k i] H; try discriminate; cbn; auto. f_equal. apply IH. now injection H. Qed.
Lemma ravel_zeros k : ravel (repeat 1 k) (repeat 0 k) = 0.
Proof. induction k; cbn; lia. Qed.
Lemma in_range_zeros k : in_range (repeat 1 k) (repeat 0 k).
Proof. induction k; constructor; auto. Qed.
Lemma prodn_ones_mid a n b : prodn (repeat 1 a ++ n :: repeat 1 b) = n.
Proof. rewrite prodn_app, prodn_repeat1. cbn [prodn]. rewrite prodn_repeat1. lia. Qed.
Lemma aget_ones_mid (l : list R) a b i : i < length l ->
  aget (Arr (repeat 1 a ++ length l :: repeat 1 b) l) (repeat 0 a ++ i :: repeat 0 b) = nth_error l i.
Proof.
  intros H. unfold aget; cbn [shp dat]. rewrite at_idx_ravel.
  - rewrite ravel_app by (now rewrite !repeat_length). cbn [ravel]. rewrite !ravel_zeros, prodn_repeat1.
    cbn [prodn]. f_equal. rewrite prodn_repeat1. lia.
  - now rewrite prodn_ones_mid.
  - apply in_range_app_intro; [apply in_range_zeros|]. constructor; auto. apply in_range_zeros.
Qed.
Lemma trapz_x1 (x : arr R) (pre post : list nat) n : awf x -> shp x = [n] ->
  exists d, trapz_d (length (pre ++ n :: post)) (length pre) (SX x) = Ok d /\ awf d /\
    bc_shape (shp d) (pre ++ (n - 1) :: post) = Some (pre ++ (n - 1) :: post) /\
    forall ip i jp, in_range pre ip -> in_range post jp -> i < n - 1 ->
      aget d (operand_index (shp d) (ip ++ i :: jp)) = Some (el x [S i] - el x [i])%R.
Proof.
  intros W Hs. destruct (adiff_spec x [] n [] W Hs) as (dx & Ed & Wd & Sd & Gd). cbn [length app] in *.
  assert (L : length (dat dx) = n - 1) by (unfold awf in Wd; rewrite Sd in Wd; cbn in Wd; lia).
  unfold trapz_d. rewrite Hs. cbn [length Nat.eqb]. rewrite Ed. cbn [bind].
  replace (length (pre ++ n :: post) - length pre - 1) with (length post) by (rewrite app_length; cbn; lia).
  eexists. split; [reflexivity|]. split; [unfold awf; cbn [shp dat]; now rewrite prodn_ones_mid|].
  cbn [shp]. split; [rewrite L; apply bc_shape_ones_mid|].
  intros ip i jp R1 R2 Hi. unfold operand_index.
  assert (LL : length (ip ++ i :: jp) = length (repeat 1 (length pre) ++ length (dat dx) :: repeat 1 (length post))).
  { rewrite !app_length. cbn [length]. rewrite !repeat_length, (in_range_length R1), (in_range_length R2). reflexivity. }
  rewrite LL, Nat.sub_diag. cbn [skipn]. rewrite bc_index_app' by (rewrite repeat_length; apply (in_range_length R1)).
  rewrite bc_index_ones by apply (in_range_length R1). cbn [bc_index]. rewrite bc_index_ones by apply (in_range_length R2).
  replace (if length (dat dx) =? 1 then 0 else i) with i by (destruct (Nat.eqb_spec (length (dat dx)) 1); lia).
  rewrite aget_ones_mid by lia. etransitivity; [|exact (Gd [] i [] ltac:(constructor) ltac:(constructor) Hi)]. cbn [app].
  unfold aget. rewrite Sd. rewrite at_idx_ravel; [|rewrite L; cbn; lia|repeat constructor; auto]. cbn [ravel prodn]. f_equal. lia.
Qed.
(** [n] sample points, or a spacing, for samples along an axis of length [n]. *)
Lemma trapz_x_spec (y x : arr R) pre n post axis : awf y -> awf x -> shp y = pre ++ n :: post -> shp x = [n] ->
  axis_means (length (shp y)) axis (length pre) ->
  exists r, trapz_arr y (SX x) axis = Ok r /\ awf r /\ shp r = pre ++ post /\
    forall ip jp, in_range pre ip -> in_range post jp ->
      aget r (ip ++ jp) = Some (trap_sum n (fun i => (el x [S i] - el x [i])%R) (fun i => el y (ip ++ i :: jp))).
Proof.
  intros Wy Wx Sy Sx M. unfold trapz_arr. rewrite (norm_axis_complete _ _ _ M). cbn [bind].
  destruct (trapz_x1 x pre post n Wx Sx) as (d & Ed & Wd & Bd & Gd). rewrite <- Sy in Ed. rewrite Ed. cbn [bind].
  exact (trapz_core y pre post n Wy Sy d Wd (fun i _ => (el x [S i] - el x [i])%R) Bd Gd).
Qed.
Lemma trapz_dx_spec (y : arr R) (dx : R) pre n post axis : awf y -> shp y = pre ++ n :: post ->
  axis_means (length (shp y)) axis (length pre) ->
  exists r, trapz_arr y (SDx (scalar dx)) axis = Ok r /\ awf r /\ shp r = pre ++ post /\
    forall ip jp, in_range pre ip -> in_range post jp ->
      aget r (ip ++ jp) = Some (trap_sum n (fun _ => dx) (fun i => el y (ip ++ i :: jp))).
Proof.
  intros Wy Sy M. unfold trapz_arr. rewrite (norm_axis_complete _ _ _ M). cbn [bind trapz_d].
  refine (trapz_core y pre post n Wy Sy (scalar dx) (awf_scalar dx) (fun _ _ => dx) _ _).
  - apply bc_shape_scalar.
  - intros ip i jp _ _ _. unfold operand_index. cbn [shp scalar]. cbn [bc_index]. reflexivity.
Qed.
(** Sample points of the same shape as the samples. *)
Lemma trapz_xn_spec (y x : arr R) pre n post axis : awf y -> awf x -> shp y = pre ++ n :: post -> shp x = shp y ->
  length (shp y) <> 1 -> axis_means (length (shp y)) axis (length pre) ->
  exists r, trapz_arr y (SX x) axis = Ok r /\ awf r /\ shp r = pre ++ post /\
    forall ip jp, in_range pre ip -> in_range post jp ->
      aget r (ip ++ jp) = Some (trap_sum n (fun i => (el x (ip ++ S i :: jp) - el x (ip ++ i :: jp))%R) (fun i => el y (ip ++ i :: jp))).
Proof.
  intros Wy Wx Sy Sx N1 M. unfold trapz_arr. rewrite (norm_axis_complete _ _ _ M). cbn [bind trapz_d].
  rewrite Sx. destruct (Nat.eqb_spec (length (shp y)) 1); [contradiction|].
  destruct (adiff_spec x pre n post Wx (eq_trans Sx Sy)) as (d & Ed & Wd & Sd & Gd). rewrite Ed. cbn [bind].
  set (D := fun i idx => (el x (firstn (length pre) idx ++ S i :: skipn (length pre) idx) - el x (firstn (length pre) idx ++ i :: skipn (length pre) idx))%R).
  assert (X : forall ip jp i, in_range pre ip -> D i (ip ++ jp) = (el x (ip ++ S i :: jp) - el x (ip ++ i :: jp))%R).
  { intros ip jp i R1. unfold D. rewrite <- (in_range_length R1). now rewrite firstn_app_exact, skipn_app, skipn_all, Nat.sub_diag by reflexivity. }
  destruct (trapz_core y pre post n Wy Sy d Wd D) as (r & Er & Wr & Sr & Gr).
  - rewrite Sd. apply bc_shape_same.
  - intros ip i jp R1 R2 Hi. rewrite operand_index_same.
    + rewrite X by auto. now apply Gd.
    + rewrite Sd. apply in_range_app_intro; auto. constructor; auto.
  - exists r. split; auto. split; auto. split; auto. intros ip jp R1 R2. rewrite Gr by auto. f_equal.
    apply trap_sum_ext; auto.
Qed.
(** Scaling. *)
Lemma el_phys phi (q : qty R) idx : el (phys phi q) idx = (el (mag q) idx * dimval phi (qdim q))%R.
Proof. unfold el, phys. rewrite amap_get. destruct (aget (mag q) idx); cbn; ring. Qed.
Lemma el_ophys phi (o : operand R) idx : el (ophys phi o) idx = (el (odat o) idx * dimval phi (odims o))%R.
Proof. rewrite ophys_eq. unfold el. rewrite amap_get. destruct (aget (odat o) idx); cbn; ring. Qed.
