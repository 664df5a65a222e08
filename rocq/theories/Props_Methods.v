(** * Properties C44-C49, C74, C75: array methods. *)
From Coq Require Import Reals Lra Lia.
From Verif Require Import Py Num Dim DimFacts Arr ArrFacts Lanes Units Spec UnitFacts Quant QuantFacts SpecApi ConvFacts
  Ufunc Ops OpsFacts Methods MethodsFacts ItemFacts Examples Props_Ops Props_Ufunc.

Open Scope R_scope.

(** C44 *)
(** What the result of a reduction of a lane must be.  (The mean of nothing and a
    standard deviation without degrees of freedom are NaN in NumPy: no claim.) *)
Definition red_spec (op : red) (lane : list R) (z : R) : Prop :=
  match op with
  | RedSum => z = Rsum lane
  | RedMean => lane <> [] -> z = Rmean lane
  | RedMax => is_max lane z
  | RedMin => is_min lane z
  | RedPtp => exists hi lo, is_max lane hi /\ is_min lane lo /\ z = hi - lo
  | RedStd ddof => (ddof < length lane)%nat -> z = sqrt (Rvar ddof lane)
  end.
Definition needs_elements (op : red) : Prop := op = RedMax \/ op = RedMin \/ op = RedPtp.

Lemma q_red_inv (op : red) axis (q r : qty R) : q_red op axis q = Ok r ->
  exists ax, norm_axis (length (shp (mag q))) axis = Ok ax /\
             areduce (red_fun op) ax (mag q) = Ok (mag r) /\ qdim r = qdim q /\
             (red_needs_elements op = true -> lane_length ax (mag q) = 0%nat -> dat (mag r) = []).
Proof.
  unfold q_red. destruct (norm_axis _ axis) as [ax|] eqn:Ea; cbn [bind]; [|discriminate].
  destruct (areduce (red_fun op) ax (mag q)) as [m|] eqn:Em; cbn [bind]; [|discriminate].
  unfold check_lanes. destruct (red_needs_elements op && _ && _)%bool eqn:Ec; cbn [bind]; [discriminate|].
  intros [= <-]. exists ax. cbn [mag qdim]. repeat split; auto. intros Hn HL. rewrite Hn, HL in Ec. cbn in Ec.
  apply negb_false_iff, Nat.eqb_eq in Ec. now apply length_zero_iff_nil.
Qed.
Lemma q_red_phys (op : red) axis (q r : qty R) phi : awf (mag q) -> q_red op axis q = Ok r ->
  exists ax, norm_axis (length (shp (phys phi q))) axis = Ok ax /\
             areduce (red_fun op) ax (phys phi q) = Ok (phys phi r).
Proof.
  intros W H. destruct (q_red_inv op axis q r H) as (ax & Ha & Hr & Hd & _). exists ax. split; [exact Ha|].
  destruct r as [m d]. cbn [mag qdim] in *. subst d.
  apply areduce_phys; auto. intros l _. apply red_fun_scale. apply dimval_pos.
Qed.
Lemma red_fun_spec (op : red) (l : list R) : (needs_elements op -> l <> []) -> red_spec op l (red_fun op l).
Proof.
  intros H. destruct op; cbn [red_spec red_fun].
  - apply lsum_Rsum.
  - intros _. apply lmean_Rmean.
  - apply lmax_is_max. apply H. now left.
  - apply lmin_is_min. apply H. right; now left.
  - assert (l <> []) by (apply H; right; now right). exists (lmax l), (lmin l). split; [now apply lmax_is_max|].
    split; [now apply lmin_is_min|reflexivity].
  - intros _. unfold lstd. cbn [nsqrt NumR]. now rewrite lvar_Rvar.
Qed.
Lemma needs_elements_b op : needs_elements op <-> red_needs_elements op = true.
Proof. unfold needs_elements. destruct op; cbn; intuition congruence. Qed.
Lemma aget_in {A} (a : arr A) idx x : aget a idx = Some x -> dat a <> [].
Proof.
  unfold aget. intros H X. rewrite X in H.
  assert (G : forall s idx, at_idx s (@nil A) idx = None).
  { induction s as [|n s IH]; intros [|i i']; cbn [at_idx hd_error]; auto. destruct (Nat.ltb i n); auto.
    destruct (nth_error (chunks n (prodn s) []) i) as [c|] eqn:Ec; auto. apply nth_error_In in Ec.
    assert (K : forall n k c, In c (chunks n k (@nil A)) -> c = []).
    { clear. induction n as [|n IH]; intros k c; cbn; [easy|]. intros [<-|Hc]; [now rewrite firstn_nil|].
      rewrite skipn_nil in Hc. eauto. }
    apply K in Ec. subst. apply IH. }
  rewrite G in H. discriminate.
Qed.

Theorem C44_reductions : forall op axis (q r : qty R),
  qty_ok q -> q_red op axis q = Ok r ->
  qdim r = qdim q /\ qty_ok r /\
  forall phi idx, in_range (shp (mag r)) idx ->
    exists lane z, lane_of (phys phi q) axis idx lane /\ aget (phys phi r) idx = Some z /\ red_spec op lane z.
Proof.
  intros op axis q r [W Hd] H. destruct (q_red_inv op axis q r H) as (ax & Ha & Hr & Hdr & Hn).
  assert (Wr : awf (mag r)) by exact (awf_areduce _ _ W Hr).
  split; [exact Hdr|]. split; [split; [exact Wr|now rewrite Hdr]|].
  intros phi idx HR. destruct (q_red_phys op axis q r phi W H) as (ax' & Ha' & Hr').
  assert (Wp : awf (phys phi q)) by (now apply phys_awf).
  destruct (areduce_lane (red_fun op) (phys phi q) axis ax' (phys phi r) idx Wp Ha' Hr' HR) as (lane & L & G).
  exists lane, (red_fun op lane). split; [exact L|]. split; [exact G|]. apply red_fun_spec. intros Hne ->.
  assert (LL := lane_of_length (phys phi q) axis ax' idx [] Ha' L). cbn [length] in LL.
  unfold phys in LL, Ha'. rewrite lane_length_map in LL. rewrite amap_shp in Ha'. rewrite Ha in Ha'. injection Ha' as <-.
  apply needs_elements_b in Hne. symmetry in LL. specialize (Hn Hne LL).
  apply aget_in in G. apply G. unfold phys. cbn. now rewrite Hn.
Qed.
(** The shape of the result: the reduced axis is removed. *)
Theorem C44_shape : forall op axis (q r : qty R), q_red op axis q = Ok r ->
  match axis with
  | None => shp (mag r) = []
  | Some k => exists pre n post, shp (mag q) = pre ++ n :: post /\
                axis_means (length (shp (mag q))) k (length pre) /\ shp (mag r) = pre ++ post
  end.
Proof.
  intros op axis q r H. destruct (q_red_inv op axis q r H) as (ax & Ha & Hr & _). apply norm_axis_spec in Ha.
  destruct axis as [k|].
  - destruct Ha as (i & -> & M). destruct (areduce_shape _ _ _ Hr) as (pre & n & post & S1 & S2 & S3).
    exists pre, n, post. subst i. auto.
  - subst ax. injection Hr as <-. reflexivity.
Qed.
(** Success: the axis exists and, for max, min and ptp, no lane is empty. *)
Theorem C44_defined : forall op axis (q : qty R), qty_ok q ->
  ((exists r, q_red op axis q = Ok r) <->
   exists ax, norm_axis (length (shp (mag q))) axis = Ok ax /\
     (needs_elements op -> lane_length ax (mag q) = 0%nat ->
      exists r, areduce (red_fun op) ax (mag q) = Ok r /\ dat r = [])) /\
  (forall e, q_red op axis q = Err e -> e = ValueError).
Proof.
  intros op axis q Hq. split.
  - split.
    + intros [r H]. destruct (q_red_inv op axis q r H) as (ax & Ha & Hr & _ & Hn). exists ax. split; auto.
      intros K L. exists (mag r). split; auto. apply Hn; auto. now apply needs_elements_b.
    + intros (ax & Ha & Hn). unfold q_red. rewrite Ha. cbn [bind].
      destruct (norm_axis_areduce (red_fun op) (mag q) axis ax Ha) as [m Hm]. rewrite Hm. cbn [bind]. unfold check_lanes.
      destruct (red_needs_elements op) eqn:E1; cbn [andb bind]; eauto.
      destruct (Nat.eqb (lane_length ax (mag q)) 0) eqn:E2; cbn [andb bind]; eauto. apply Nat.eqb_eq in E2.
      destruct (Hn (proj2 (needs_elements_b op) E1) E2) as (r & Hr & Hz). rewrite Hm in Hr. injection Hr as <-.
      rewrite Hz. cbn. eauto.
  - intros e. unfold q_red. destruct (norm_axis _ axis) as [ax|] eqn:Ea; cbn [bind].
    + destruct (areduce (red_fun op) ax (mag q)) as [m|] eqn:Em; cbn [bind].
      * unfold check_lanes. destruct (_ && _ && _)%bool; cbn [bind]; [now intros [= <-]|discriminate].
      * intros [= <-]. now apply areduce_err in Em.
    + intros [= <-]. now apply norm_axis_err in Ea.
Qed.
(** On non-empty arrays: success iff the axis exists. *)
Theorem C44_defined_nonempty : forall op axis (q : qty R), qty_ok q -> dat (mag q) <> [] ->
  ((exists r, q_red op axis q = Ok r) <->
   match axis with None => True | Some k => exists ax, axis_means (length (shp (mag q))) k ax end).
Proof.
  intros op axis q Hq Hne. destruct (C44_defined op axis q Hq) as [D _]. rewrite D. clear D. split.
  - intros (ax & Ha & _). apply norm_axis_spec in Ha. destruct axis as [k|]; auto. destruct Ha as (i & _ & M). eauto.
  - intros H. assert (X : exists ax, norm_axis (length (shp (mag q))) axis = Ok ax).
    { destruct axis as [k|]; [|cbn; eauto]. destruct H as [i M]. rewrite (norm_axis_complete _ _ _ M). eauto. }
    destruct X as [ax Ha]. exists ax. split; auto. intros _ L. exfalso. apply Hne. apply length_zero_iff_nil.
    apply norm_axis_spec in Ha. destruct axis as [k|].
    + destruct Ha as (i & -> & M). cbn in L. destruct Hq as [W _]. unfold awf in W. rewrite W.
      destruct M as [Hi _]. destruct (nth_split _ 0%nat Hi) as (pre & post & E1 & _). rewrite L in E1. rewrite E1, prodn_app. cbn. lia.
    + subst ax. exact L.
Qed.
(** Reductions do not depend on the units: equal values in, equal values out. *)
Theorem C44_unit_independent : forall E op axis (q q' r : qty R),
  renv_ok E -> qty_ok q -> qty_ok q' -> same_value E q q' ->
  q_red op axis q = Ok r -> exists r', q_red op axis q' = Ok r' /\ same_value E r r'.
Proof.
  intros E op axis q q' r HE Hq Hq' S H.
  assert (Sh := same_value_shp E q q' HE S).
  assert (Len : length (dat (mag q)) = length (dat (mag q'))).
  { destruct Hq as [W _], Hq' as [W' _]. unfold awf in *. now rewrite W, W', Sh. }
  destruct (q_red_inv op axis q r H) as (ax & Ha & Hr & Hd & Hn).
  assert (LL : lane_length ax (mag q') = lane_length ax (mag q)) by (destruct ax; cbn; [now rewrite Sh|auto]).
  assert (X : exists r', q_red op axis q' = Ok r').
  { apply (C44_defined op axis q' Hq'). exists ax. split; [now rewrite <- Sh|]. intros K L. rewrite LL in L.
    specialize (Hn (proj1 (needs_elements_b op) K) L).
    destruct (norm_axis_areduce (red_fun op) (mag q') axis ax) as [m' Hm']; [now rewrite <- Sh|]. exists m'. split; auto.
    assert (W1 : awf (mag r)) by exact (awf_areduce _ _ (proj1 Hq) Hr).
    assert (W2 : awf m') by exact (awf_areduce _ _ (proj1 Hq') Hm').
    assert (SS : shp (mag r) = shp m').
    { destruct ax as [i|].
      - destruct (areduce_shape _ _ _ Hr) as (p1 & n1 & t1 & A1 & A2 & A3).
        destruct (areduce_shape _ _ _ Hm') as (p2 & n2 & t2 & B1 & B2 & B3). rewrite A3, B3. rewrite Sh in A1. rewrite B1 in A1.
        subst i. clear - A1 B2. revert p1 B2 A1. induction p2 as [|x p2 IH]; intros [|y p1] L A1; cbn in *; try discriminate.
        + now injection A1.
        + injection A1 as -> A1. injection L as L. now rewrite (IH p1 L A1).
      - injection Hr as <-. injection Hm' as <-. reflexivity. }
    unfold awf in *. apply length_zero_iff_nil. rewrite W2, <- SS, <- W1. now rewrite Hn. }
  destruct X as [r' H']. exists r'. split; auto. intros phi HC.
  destruct (q_red_phys op axis q r phi (proj1 Hq) H) as (a1 & A1 & B1).
  destruct (q_red_phys op axis q' r' phi (proj1 Hq') H') as (a2 & A2 & B2).
  rewrite <- (S phi HC) in A2, B2. rewrite A1 in A2. injection A2 as <-. rewrite B1 in B2. now apply Ok_inj in B2.
Qed.
(** cumsum: running sums. *)
Lemma lscan_length {A} (op : A -> A -> A) : forall l acc, length (lscan op acc l) = length l.
Proof. induction l as [|x l IH]; intros acc; cbn; auto. Qed.
Lemma lcumsum_get (l : list R) : forall i, (i < length l)%nat -> nth_error (lcumsum l) i = Some (Rsum (firstn (S i) l)).
Proof.
  unfold lcumsum. cbn [nadd NumR n0]. intros i Hi.
  assert (G : forall (l : list R) acc i, (i < length l)%nat -> nth_error (lscan Rplus acc l) i = Some (acc + Rsum (firstn (S i) l))).
  { clear. induction l as [|x l IH]; intros acc i Hi; [cbn in Hi; lia|]. cbn [lscan]. destruct i as [|i]; cbn [nth_error].
    - cbn. f_equal. ring.
    - rewrite IH by (cbn in Hi; lia). rewrite (firstn_cons (S i)), Rsum_cons. f_equal. ring. }
  rewrite G by auto. f_equal. ring.
Qed.
Lemma lcumsum_scale v (l : list R) : lcumsum (scale v l) = scale v (lcumsum l).
Proof.
  unfold lcumsum. cbn [nadd NumR n0].
  assert (G : forall (l : list R) acc, lscan Rplus (acc * v) (scale v l) = scale v (lscan Rplus acc l)).
  { clear l. induction l as [|x l IH]; intros acc; auto. rewrite scale_cons. cbn [lscan]. rewrite scale_cons.
    replace (acc * v + x * v) with ((acc + x) * v) by ring. now rewrite IH. }
  rewrite <- G. f_equal. ring.
Qed.
(** The running sums of a lane, at positions of the result. *)
Definition scan_spec (f : list R -> R) (a r : arr R) (axis : option Z) : Prop :=
  match axis with
  | None => shp r = [length (dat a)] /\ forall i, (i < length (dat a))%nat -> aget r [i] = Some (f (firstn (S i) (dat a)))
  | Some k => shp r = shp a /\ exists ax, axis_means (length (shp a)) k ax /\
      forall idx, in_range (shp a) idx -> exists lane i,
        is_lane a ax (firstn ax idx ++ skipn (S ax) idx) lane /\ nth_error idx ax = Some i /\
        aget r idx = Some (f (firstn (S i) lane))
  end.
Lemma aget_flat {A} (l : list A) i : (i < length l)%nat -> aget (Arr [length l] l) [i] = nth_error l i.
Proof.
  intros H. unfold aget. rewrite at_idx_ravel; cbn [shp dat prodn].
  - cbn [ravel prodn]. f_equal. lia.
  - lia.
  - repeat constructor. exact H.
Qed.
Lemma scan_general (F : list R -> list R) (f : list R -> R) (a r : arr R) axis ax :
  awf a -> (forall l, length (F l) = length l) ->
  (forall l i, (i < length l)%nat -> nth_error (F l) i = Some (f (firstn (S i) l))) ->
  norm_axis (length (shp a)) axis = Ok ax -> ascan F ax a = Ok r -> scan_spec f a r axis.
Proof.
  intros W HL HF Ha Hr. apply norm_axis_spec in Ha. destruct axis as [k|]; cbn [scan_spec].
  - destruct Ha as (i & -> & M).
    assert (S : shp r = shp a).
    { cbn in Hr. destruct (split_axis (shp a) i) as [[[p n] t]|]; [|discriminate]. now injection Hr as <-. }
    split; auto. exists i. split; auto. intros idx HR.
    destruct (ascan_get F i (idx := idx) W HL Hr) as (_ & lane & j & L1 & L2 & L3); [now rewrite S|].
    exists lane, j. split; auto. split; auto. rewrite L3. apply HF.
    destruct M as [Hi _]. destruct L1 as [L1 _].
    assert (G : forall s idx n j ax, in_range s idx -> nth_error s ax = Some n -> nth_error idx ax = Some j -> (j < n)%nat).
    { clear. intros s idx n j ax H. revert ax. induction H as [|i m idx s Hi H IH]; intros [|ax] A B; try discriminate; cbn in *.
      - congruence.
      - eauto. }
    eauto.
  - subst ax. injection Hr as <-. split; [reflexivity|]. intros i Hi.
    rewrite <- (HL (dat a)). rewrite aget_flat by (rewrite HL; auto). now apply HF.
Qed.
(** Reducing and converting commute. *)
Theorem C44_rescale : forall E op axis (q r q' : qty R) d,
  renv_ok E -> qty_ok q -> dims_ok d ->
  q_red op axis q = Ok r -> rescale_to E q d = Ok q' ->
  exists s s', rescale_to E r d = Ok s /\ q_red op axis q' = Ok s' /\ qsame s s'.
Proof.
  intros E op axis q r q' d HE Hq Hd H Hr.
  pose proof (rescale_to_qty_ok E q d q' Hq Hd Hr) as Hq'.
  pose proof (rescale_value E q d q' HE (proj2 Hq) Hd Hr) as V.
  destruct (C44_unit_independent E op axis q q' r HE Hq Hq') as (s' & Hs' & V'); [intros phi HC; symmetry; exact (V phi HC)|exact H|].
  destruct (C44_reductions op axis q r Hq H) as (D & Ho & _).
  destruct (C44_reductions op axis q' s' Hq' Hs') as (D' & Ho' & _).
  destruct (proj2 (rescale_ok_iff E r d HE (proj2 Ho) Hd)) as [s Hs].
  { rewrite D. apply (proj1 (rescale_ok_iff E q d HE (proj2 Hq) Hd)). eauto. }
  exists s, s'. split; [exact Hs|]. split; [exact Hs'|].
  pose proof (rescale_to_qty_ok E r d s Ho Hd Hs) as Hos.
  assert (X : forall u, exp_of (qdim s) u = exp_of (qdim s') u).
  { intros u. rewrite D'. rewrite (rescale_to_dim E r d s (proj1 (proj2 Ho)) (proj1 Hd) Hs u).
    symmetry. exact (rescale_to_dim E q d q' (proj1 (proj2 Hq)) (proj1 Hd) Hr u). }
  split; [|exact X]. destruct (consistent_exists E HE) as [phi HC].
  pose proof (rescale_value E r d s HE (proj2 Ho) Hd Hs phi HC) as V2. rewrite (V' phi HC) in V2. unfold phys in V2.
  rewrite (dimval_exp phi _ _ (proj1 (proj2 Hos)) (proj1 (proj2 Ho')) X) in V2.
  pose proof (dimval_pos phi (qdim s')) as P.
  assert (Q : forall m m' : arr R, amap (fun x => x * dimval phi (qdim s')) m = amap (fun x => x * dimval phi (qdim s')) m' -> m = m').
  { intros [sh l] [sh' l'] Y. unfold amap in Y. cbn [shp dat] in Y. assert (sh = sh') as -> by congruence. f_equal.
    apply (f_equal (@dat R)) in Y. cbn [dat] in Y. clear - P Y. revert l' Y.
    induction l as [|x l IH]; intros [|y l'] Y; cbn [map] in Y; try discriminate; auto.
    assert (Y1 : x * dimval phi (qdim s') = y * dimval phi (qdim s')) by congruence.
    apply Rmult_eq_reg_r in Y1; [|lra]. rewrite Y1. f_equal. apply IH. congruence. }
  exact (Q _ _ V2).
Qed.
Theorem C44_cumsum : forall axis (q r : qty R), qty_ok q -> q_cumsum axis q = Ok r ->
  qdim r = qdim q /\ forall phi, scan_spec Rsum (phys phi q) (phys phi r) axis.
Proof.
  intros axis q r [W _] H. unfold q_cumsum in H. destruct (norm_axis _ axis) as [ax|] eqn:Ea; cbn [bind] in H; [|discriminate].
  destruct (ascan lcumsum ax (mag q)) as [m|] eqn:Em; cbn [bind] in H; [|discriminate]. injection H as <-. split; [reflexivity|].
  intros phi. apply (scan_general lcumsum Rsum (phys phi q) _ axis ax).
  - now apply phys_awf.
  - intros l. apply lscan_length.
  - apply lcumsum_get.
  - exact Ea.
  - unfold phys at 1. rewrite ascan_amap.
    rewrite (ascan_ext _ (fun l => map (fun x => x * dimval phi (qdim q)) (lcumsum l))) by (intros l; apply (lcumsum_scale _ l)).
    rewrite <- (rmap_ascan lcumsum (fun z => z * dimval phi (qdim q))), Em. reflexivity.
    intros l. apply lscan_length.
Qed.
Theorem C44_cumsum_defined : forall axis (q : qty R), qty_ok q ->
  ((exists r, q_cumsum axis q = Ok r) <->
   match axis with None => True | Some k => exists ax, axis_means (length (shp (mag q))) k ax end) /\
  (forall e, q_cumsum axis q = Err e -> e = ValueError).
Proof.
  intros axis q _. unfold q_cumsum. split.
  - split.
    + intros [r H]. destruct (norm_axis _ axis) as [ax|] eqn:Ea; cbn [bind] in H; [|discriminate].
      apply norm_axis_spec in Ea. destruct axis; auto. destruct Ea as (i & _ & M). eauto.
    + intros H. destruct axis as [k|].
      * destruct H as [i M]. rewrite (norm_axis_complete _ _ _ M). cbn [bind ascan]. unfold split_axis.
        destruct (skipn i (shp (mag q))) as [|n t] eqn:Es; [|cbn; eauto]. destruct M as [M _].
        assert (X := skipn_length i (shp (mag q))). rewrite Es in X. cbn in X. lia.
      * cbn. eauto.
  - intros e. destruct (norm_axis _ axis) as [ax|] eqn:Ea; cbn [bind].
    + destruct (ascan lcumsum ax (mag q)) as [m|] eqn:Em; cbn [bind]; [discriminate|]. intros [= <-].
      destruct ax; cbn in Em; [|discriminate]. destruct (split_axis _ n) as [[[? ?] ?]|]; congruence.
    + intros [= <-]. now apply norm_axis_err in Ea.
Qed.
Example C44_example :
  let q := Qty (Arr [2%nat; 3%nat] (qcs [1; 5; 3; 7; 2; 0]%Z)) d_cm in
  q_red RedSum (Some (-1)%Z) q = Ok (Qty (Arr [2%nat] (qcs [9; 9]%Z)) d_cm) /\
  q_red RedMax (Some 0%Z) q = Ok (Qty (Arr [3%nat] (qcs [7; 5; 3]%Z)) d_cm) /\
  q_red RedMean None q = Ok (Qty (scalar (zq 3)) d_cm) /\
  q_red RedMin (Some 2%Z) q = Err ValueError /\
  q_red RedMax None (Qty (Arr [0%nat] (qcs [])) d_cm) = Err ValueError /\
  q_cumsum (Some 0%Z) q = Ok (Qty (Arr [2%nat; 3%nat] (qcs [1; 5; 3; 8; 7; 3]%Z)) d_cm) /\
  q_red (RedStd 0) None (Qty (Arr [4%nat] (qcs [1; 1; 5; 5]%Z)) d_cm) = Ok (Qty (scalar (zq 2)) d_cm).
Proof. cbn zeta. repeat split; vm_compute; reflexivity. Qed.

(** C45 *)
Theorem C45_prod : forall axis (q r : qty R), qty_ok q -> q_prod axis q = Ok r ->
  exists n : nat,
    (match axis with
     | None => n = length (dat (mag q))
     | Some k => exists ax, axis_means (length (shp (mag q))) k ax /\ nth_error (shp (mag q)) ax = Some n
     end) /\
    (forall u, exp_of (qdim r) u = (exp_of (qdim q) u * Z2Qc (Z.of_nat n))%Qc) /\ qty_ok r /\
    forall phi idx, in_range (shp (mag r)) idx ->
      exists lane, lane_of (phys phi q) axis idx lane /\ length lane = n /\ aget (phys phi r) idx = Some (Rprod lane).
Proof.
  intros axis q r [W Hd] H. unfold q_prod in H.
  destruct (norm_axis _ axis) as [ax|] eqn:Ea; cbn [bind] in H; [|discriminate].
  destruct (areduce lprod ax (mag q)) as [m|] eqn:Em; cbn [bind] in H; [|discriminate]. injection H as <-.
  exists (lane_length ax (mag q)). cbn [qdim mag]. split; [|split; [|split]].
  - pose proof (norm_axis_spec _ _ _ Ea) as Ha. destruct axis as [k|].
    + destruct Ha as (i & -> & M). exists i. split; auto. cbn. destruct M as [M _]. now apply nth_error_nth'.
    + subst ax. reflexivity.
  - intros u. rewrite exp_of_pow. reflexivity.
  - split; [exact (awf_areduce _ _ W Em)|]. now apply dims_ok_pow.
  - intros phi idx HR.
    assert (HR' : areduce lprod ax (phys phi q) = Ok (phys phi (Qty m (dim_pow (qdim q) (PInt (Z.of_nat (lane_length ax (mag q)))))))).
    { apply areduce_phys; auto. intros l Hl. rewrite !lprod_Rprod, Rprod_scale, dimval_pow. cbn [pval].
      rewrite Qc2R_Z, <- INR_IZR_INZ, Rpower_pow by apply dimval_pos. now rewrite Hl. }
    destruct (areduce_lane lprod (phys phi q) axis ax _ idx (phys_awf phi q W) Ea HR' HR) as (lane & L & G).
    exists lane. split; auto. split; [|now rewrite <- lprod_Rprod].
    rewrite (lane_of_length (phys phi q) axis ax idx lane Ea L). unfold phys. apply lane_length_map.
Qed.
Theorem C45_prod_defined : forall axis (q : qty R),
  ((exists r, q_prod axis q = Ok r) <->
   match axis with None => True | Some k => exists ax, axis_means (length (shp (mag q))) k ax end) /\
  (forall e, q_prod axis q = Err e -> e = IndexError).
Proof.
  intros axis q. unfold q_prod. destruct (norm_axis _ axis) as [ax|e0] eqn:Ea; cbn [bind].
  - destruct (norm_axis_areduce lprod (mag q) axis ax Ea) as [m Hm]. rewrite Hm. cbn [bind]. split; [|discriminate]. split; [|eauto].
    intros _. apply norm_axis_spec in Ea. destruct axis; auto. destruct Ea as (i & _ & M). eauto.
  - split; [|now intros e [= <-]]. split; [intros [r X]; discriminate|]. intros H. destruct axis as [k|]; [|discriminate].
    destruct H as [i M]. rewrite (norm_axis_complete _ _ _ M) in Ea. discriminate.
Qed.
Theorem C45_var : forall ddof axis (q r : qty R), qty_ok q -> q_var ddof axis q = Ok r ->
  (forall u, exp_of (qdim r) u = (exp_of (qdim q) u * Z2Qc 2)%Qc) /\ qty_ok r /\
  forall phi idx, in_range (shp (mag r)) idx ->
    exists lane z, lane_of (phys phi q) axis idx lane /\ aget (phys phi r) idx = Some z /\
      ((ddof < length lane)%nat -> z = Rvar ddof lane).
Proof.
  intros dd axis q r [W Hd] H. unfold q_var in H.
  destruct (norm_axis _ axis) as [ax|] eqn:Ea; cbn [bind] in H; [|discriminate].
  destruct (areduce (lvar dd) ax (mag q)) as [m|] eqn:Em; cbn [bind] in H; [|discriminate]. injection H as <-.
  cbn [qdim mag]. split; [|split].
  - intros u. rewrite exp_of_pow. reflexivity.
  - split; [exact (awf_areduce _ _ W Em)|]. now apply dims_ok_pow.
  - intros phi idx HR.
    assert (HR' : areduce (lvar dd) ax (phys phi q) = Ok (phys phi (Qty m (dim_pow (qdim q) (PInt 2))))).
    { apply areduce_phys; auto. intros l _. rewrite !lvar_Rvar, Rvar_scale, dimval_pow. now rewrite pow2_val by apply dimval_pos. }
    destruct (areduce_lane (lvar dd) (phys phi q) axis ax _ idx (phys_awf phi q W) Ea HR' HR) as (lane & L & G).
    exists lane, (Rvar dd lane). split; auto. split; auto. now rewrite <- lvar_Rvar.
Qed.
(** cumprod: refused unless the units are empty, then running products. *)
Lemma lcumprod_get (l : list R) : forall i, (i < length l)%nat -> nth_error (lcumprod l) i = Some (Rprod (firstn (S i) l)).
Proof.
  unfold lcumprod. cbn [nmul NumR n1]. intros i Hi.
  assert (G : forall (l : list R) acc i, (i < length l)%nat -> nth_error (lscan Rmult acc l) i = Some (acc * Rprod (firstn (S i) l))).
  { clear. induction l as [|x l IH]; intros acc i Hi; [cbn in Hi; lia|]. cbn [lscan]. destruct i as [|i]; cbn [nth_error].
    - cbn. f_equal. ring.
    - rewrite IH by (cbn in Hi; lia). rewrite (firstn_cons (S i)), Rprod_cons. f_equal. ring. }
  rewrite G by auto. f_equal. ring.
Qed.
Theorem C45_cumprod : forall axis (q : qty R), qty_ok q ->
  (qdim q <> [] -> q_cumprod axis q = Err ValueError) /\
  (forall r, q_cumprod axis q = Ok r -> qdim q = [] /\ qdim r = [] /\ scan_spec Rprod (mag q) (mag r) axis).
Proof.
  intros axis q [W _]. unfold q_cumprod. split.
  - intros H. destruct (qdim q); [congruence|reflexivity].
  - intros r H. destruct (qdim q) eqn:Ed; cbn [dim_nonempty] in H; [|discriminate].
    destruct (norm_axis _ axis) as [ax|] eqn:Ea; cbn [bind] in H; [|discriminate].
    destruct (ascan lcumprod ax (mag q)) as [m|] eqn:Em; cbn [bind] in H; [|discriminate]. injection H as <-.
    split; auto. split; auto. cbn [mag].
    exact (scan_general lcumprod Rprod (mag q) m axis ax W (fun l => lscan_length _ l _) lcumprod_get Ea Em).
Qed.
Example C45_example :
  let q := Qty (Arr [2%nat; 3%nat] (qcs [1; 5; 3; 7; 2; 1]%Z)) d_cm in
  q_prod (Some (-1)%Z) q = Ok (Qty (Arr [2%nat] (qcs [15; 14]%Z)) [(u_cm, PInt 3)]) /\
  q_prod None q = Ok (Qty (scalar (zq 210)) [(u_cm, PInt 6)]) /\
  q_prod (Some 7%Z) q = Err IndexError /\
  q_var 0 None (Qty (Arr [4%nat] (qcs [1; 1; 5; 5]%Z)) d_cm) = Ok (Qty (scalar (zq 4)) [(u_cm, PInt 2)]) /\
  q_cumprod None q = Err ValueError /\
  q_cumprod None (Qty (Arr [3%nat] (qcs [2; 3; 4]%Z)) []) = Ok (Qty (Arr [3%nat] (qcs [2; 6; 24]%Z)) []).
Proof. cbn zeta. repeat split; vm_compute; reflexivity. Qed.

(** C46 *)
Lemma nmax_Rmax (x y : R) : nmax x y = Rmax x y.
Proof.
  unfold nmax. cbn [nltb NumR]. destruct (Rltb x y) eqn:X.
  - apply Rltb_true in X. symmetry. apply Rmax_right. lra.
  - apply Rltb_false in X. symmetry. apply Rmax_left. lra.
Qed.
Lemma nmin_Rmin (x y : R) : nmin x y = Rmin x y.
Proof.
  unfold nmin. cbn [nltb NumR]. destruct (Rltb y x) eqn:X.
  - apply Rltb_true in X. symmetry. apply Rmin_right. lra.
  - apply Rltb_false in X. symmetry. apply Rmin_left. lra.
Qed.
(** Limiting by an optional bound. *)
Definition limited (g : R -> R -> R) (a : arr R) (b : option (arr R)) (r : arr R) : Prop :=
  match b with None => r = a | Some b => amap2 g a b = Ok r end.
Definition bound_ok (b : option (qty R)) : Prop := match b with None => True | Some q => qty_ok q end.
Definition bound_operand (b : option (qty R)) : option (operand R) := option_map (@OQ R) b.

Lemma clip_bound_spec (E : uenv R) d b o : renv_ok E -> dims_ok d -> bound_ok b ->
  clip_bound E d (bound_operand b) = Ok o ->
  (b = None /\ o = None) \/
  exists q r, b = Some q /\ o = Some (mag r) /\ rescale_to E q d = Ok r /\ qty_ok r /\
    forall phi, consistent E phi -> amap (fun x => x * dimval phi d) (mag r) = phys phi q.
Proof.
  intros HE Hd Hb. destruct b as [q|]; cbn [bound_operand option_map clip_bound].
  - destruct (rescale_to E q d) as [r|] eqn:Er; cbn [rmap]; [|discriminate]. intros [= <-]. right.
    assert (Hr := rescale_to_qty_ok E q d r Hb Hd Er).
    exists q, r. split; auto. split; auto. split; auto. split; [exact Hr|].
    intros phi HC. rewrite <- (rescale_value E q d r HE (proj2 Hb) Hd Er phi HC). unfold phys.
    assert (He := rescale_to_eqb E q d r (proj1 (proj2 Hb)) (proj1 Hd) Er).
    now rewrite (dimval_eqb phi _ _ (proj1 (proj2 Hr)) (proj1 Hd) He).
  - intros [= <-]. now left.
Qed.
Lemma clip_with_phys (g : R -> R -> R) (g' : R -> R -> R) v m a o t : 0 < v -> (forall x y, g x y = g' x y) -> homog g' ->
  clip_with g m o = Ok t ->
  (o = None /\ a = None \/ exists b, o = Some b /\ a = Some (amap (fun x => x * v) b)) ->
  limited g' (amap (fun x => x * v) m) a (amap (fun x => x * v) t).
Proof.
  intros Hv Hg HH H [[-> ->]|(b & -> & ->)]; cbn in *.
  - now injection H as ->.
  - rewrite amap2_amap. rewrite (amap2_ext _ (fun x y => g x y * v)) by (intros; rewrite Hg; now apply HH).
    rewrite <- (rmap_amap_amap2 (fun z => z * v)), H. reflexivity.
Qed.
Theorem C46_clip : forall E (q r : qty R) mn mx,
  renv_ok E -> qty_ok q -> bound_ok mn -> bound_ok mx ->
  q_clip E q (bound_operand mn) (bound_operand mx) = Ok r ->
  qdim r = qdim q /\ qty_ok r /\
  forall phi, consistent E phi -> exists t,
    limited Rmax (phys phi q) (option_map (phys phi) mn) t /\
    limited Rmin t (option_map (phys phi) mx) (phys phi r).
Proof.
  intros E q r mn mx HE Hq Hmn Hmx H.
  assert (H' : exists lo hi t1 t2, clip_bound E (qdim q) (bound_operand mn) = Ok lo /\ clip_bound E (qdim q) (bound_operand mx) = Ok hi /\
     clip_with nmax (mag q) lo = Ok t1 /\ clip_with nmin t1 hi = Ok t2 /\ r = Qty t2 (qdim q)).
  { unfold q_clip in H.
    assert (P : (is_plain (bound_operand mn) || is_plain (bound_operand mx))%bool = false) by (destruct mn, mx; reflexivity).
    rewrite P, andb_false_r in H.
    destruct (clip_bound E (qdim q) (bound_operand mn)) as [lo|] eqn:E1;
      [|destruct mn, mx; cbn [bound_operand option_map bind] in *; discriminate].
    destruct (clip_bound E (qdim q) (bound_operand mx)) as [hi|] eqn:E2;
      [|destruct mn, mx; cbn [bound_operand option_map bind] in *; discriminate].
    destruct (clip_with nmax (mag q) lo) as [t1|] eqn:E3;
      [|destruct mn, mx; cbn [bound_operand option_map bind] in *; try rewrite E3 in H; discriminate].
    destruct (clip_with nmin t1 hi) as [t2|] eqn:E4;
      [|destruct mn, mx; cbn [bound_operand option_map bind] in *; try rewrite E3 in H; cbn [bind] in H; try rewrite E4 in H; discriminate].
    exists lo, hi, t1, t2. repeat (split; auto).
    destruct mn, mx; cbn [bound_operand option_map bind] in *; try discriminate; rewrite E3 in H; cbn [bind] in H; rewrite E4 in H; now injection H as <-. }
  destruct H' as (lo & hi & t1 & t2 & E1 & E2 & E3 & E4 & ->). cbn [qdim mag].
  pose proof (clip_bound_spec E (qdim q) mn lo HE (proj2 Hq) Hmn E1) as B1.
  pose proof (clip_bound_spec E (qdim q) mx hi HE (proj2 Hq) Hmx E2) as B2.
  split; [reflexivity|]. split.
  - split; [|apply Hq]. cbn [mag].
    assert (W1 : awf t1).
    { destruct B1 as [[_ ->]|(b & rb & _ & -> & _ & Wb & _)]; cbn in E3.
      - injection E3 as <-. apply Hq.
      - exact (awf_amap2 _ (a := mag q) (b := mag rb) (proj1 Hq) (proj1 Wb) E3). }
    destruct B2 as [[_ ->]|(b & rb & _ & -> & _ & Wb & _)]; cbn in E4.
    + now injection E4 as <-.
    + exact (awf_amap2 _ (a := t1) (b := mag rb) W1 (proj1 Wb) E4).
  - intros phi HC. pose proof (dimval_pos phi (qdim q)) as P.
    exists (amap (fun x => x * dimval phi (qdim q)) t1). split.
    + refine (clip_with_phys nmax Rmax _ (mag q) _ lo t1 P nmax_Rmax homog_max E3 _).
      destruct B1 as [[-> ->]|(b & rb & -> & -> & _ & _ & Hp)]; [now left|]. right. exists (mag rb). split; auto.
      cbn. now rewrite (Hp phi HC).
    + unfold phys at 2. cbn [mag qdim]. refine (clip_with_phys nmin Rmin _ t1 _ hi t2 P nmin_Rmin homog_min E4 _).
      destruct B2 as [[-> ->]|(b & rb & -> & -> & _ & _ & Hp)]; [now left|]. right. exists (mag rb). split; auto.
      cbn. now rewrite (Hp phi HC).
Qed.
(** With scalar bounds [lo <= hi] every element of the result lies between them, and
    elements that already did are unchanged. *)
Theorem C46_clip_scalar : forall E (q r a b : qty R) phi lo hi,
  renv_ok E -> qty_ok q -> qty_ok a -> qty_ok b -> consistent E phi ->
  q_clip E q (Some (OQ a)) (Some (OQ b)) = Ok r ->
  phys phi a = scalar lo -> phys phi b = scalar hi -> lo <= hi ->
  shp (mag r) = shp (mag q) /\
  forall idx x, aget (phys phi q) idx = Some x -> exists z, aget (phys phi r) idx = Some z /\
    lo <= z <= hi /\ (lo <= x <= hi -> z = x) /\ (x < lo -> z = lo) /\ (hi < x -> z = hi).
Proof.
  intros E q r a b phi lo hi HE Hq Ha Hb HC H Pa Pb L.
  destruct (C46_clip E q r (Some a) (Some b) HE Hq Ha Hb H) as (_ & _ & X). destruct (X phi HC) as (t & T1 & T2).
  cbn [option_map limited] in T1, T2. rewrite Pa in T1. rewrite Pb in T2.
  rewrite amap2_scalar_r in T1; [|now apply phys_awf; apply Hq]. apply Ok_inj in T1. subst t.
  rewrite amap2_scalar_r in T2; [|apply awf_amap; apply phys_awf; apply Hq]. apply Ok_inj in T2.
  split; [apply (f_equal (@shp R)) in T2; exact (eq_sym T2)|]. intros idx x Hx. rewrite <- T2, !amap_get, Hx. cbn.
  eexists. split; [reflexivity|]. unfold Rmin, Rmax. destruct (Rle_dec x lo), (Rle_dec lo hi); repeat destruct (Rle_dec _ _); repeat split; intros; try lra.
Qed.
Theorem C46_clip_defined : forall E (q : qty R) mn mx,
  renv_ok E -> qty_ok q -> bound_ok mn -> bound_ok mx ->
  ((exists r, q_clip E q (bound_operand mn) (bound_operand mx) = Ok r) ->
     (mn <> None \/ mx <> None) /\
     (forall b, mn = Some b \/ mx = Some b -> convertible E (qdim b) (qdim q))) /\
  ((mn <> None \/ mx <> None) ->
   (forall b, mn = Some b \/ mx = Some b -> convertible E (qdim b) (qdim q) /\ mag b = scalar (hd 0 (dat (mag b)))) ->
   exists r, q_clip E q (bound_operand mn) (bound_operand mx) = Ok r) /\
  (forall e, q_clip E q (bound_operand mn) (bound_operand mx) = Err e -> e = ValueError).
Proof.
  intros E q mn mx HE Hq Hmn Hmx.
  assert (P : (is_plain (bound_operand mn) || is_plain (bound_operand mx))%bool = false) by (destruct mn, mx; reflexivity).
  assert (U : (mn <> None \/ mx <> None) -> q_clip E q (bound_operand mn) (bound_operand mx) =
     (lo <- clip_bound E (qdim q) (bound_operand mn) ;; hi <- clip_bound E (qdim q) (bound_operand mx) ;;
      m <- clip_with nmax (mag q) lo ;; m <- clip_with nmin m hi ;; Ok (Qty m (qdim q)))).
  { intros K. unfold q_clip. rewrite P, andb_false_r. destruct mn, mx; cbn [bound_operand option_map]; auto. destruct K; congruence. }
  assert (N : ~ (mn <> None \/ mx <> None) -> q_clip E q (bound_operand mn) (bound_operand mx) = Err ValueError).
  { destruct mn, mx; intros K; try reflexivity; exfalso; apply K; (left; discriminate) || (right; discriminate). }
  assert (CB : forall b, bound_ok b -> (forall e, clip_bound E (qdim q) (bound_operand b) = Err e -> e = ValueError) /\
     ((exists o, clip_bound E (qdim q) (bound_operand b) = Ok o) <-> forall x, b = Some x -> convertible E (qdim x) (qdim q))).
  { intros [x|] Hx; cbn [bound_operand option_map clip_bound].
    - destruct (rescale_to E x (qdim q)) as [r|e0] eqn:Er; cbn [rmap].
      + split; [discriminate|]. split; eauto. intros _ y [= <-]. apply (rescale_ok_iff E x (qdim q) HE (proj2 Hx) (proj2 Hq)). eauto.
      + split; [intros e [= <-]; now apply rescale_to_err in Er|]. split; [intros [o X]; discriminate|]. intros K.
        assert (Y : exists r, rescale_to E x (qdim q) = Ok r) by (apply (rescale_ok_iff E x (qdim q) HE (proj2 Hx) (proj2 Hq)); auto).
        destruct Y as [r Y]. congruence.
    - split; [discriminate|]. split; eauto. intros _ y [=]. }
  assert (Dec : (mn <> None \/ mx <> None) \/ ~ (mn <> None \/ mx <> None)).
  { destruct mn, mx; try (left; left; discriminate); try (left; right; discriminate). right. intros [K|K]; now apply K. }
  destruct (CB mn Hmn) as [CE1 CO1]. destruct (CB mx Hmx) as [CE2 CO2]. split; [|split].
  - intros [r H]. destruct Dec as [K|K]; [|rewrite (N K) in H; discriminate]. rewrite (U K) in H. split; auto.
    destruct (clip_bound E (qdim q) (bound_operand mn)) as [lo|] eqn:E1; cbn [bind] in H; [|discriminate].
    destruct (clip_bound E (qdim q) (bound_operand mx)) as [hi|] eqn:E2; cbn [bind] in H; [|discriminate].
    intros b [Hb|Hb]; [apply (proj1 CO1)|apply (proj1 CO2)]; eauto.
  - intros K HB. rewrite (U K).
    assert (X1 : exists o, clip_bound E (qdim q) (bound_operand mn) = Ok o) by (apply CO1; intros x Hx; apply HB; auto).
    assert (X2 : exists o, clip_bound E (qdim q) (bound_operand mx) = Ok o) by (apply CO2; intros x Hx; apply HB; auto).
    destruct X1 as [lo E1], X2 as [hi E2]. rewrite E1, E2. cbn [bind].
    assert (SC : forall b o, bound_ok b -> clip_bound E (qdim q) (bound_operand b) = Ok o ->
       (forall x, b = Some x -> mag x = scalar (hd 0 (dat (mag x)))) -> o = None \/ exists z, o = Some (scalar z)).
    { intros b o Hb Eb Hs. destruct (clip_bound_spec E (qdim q) b o HE (proj2 Hq) Hb Eb) as [[_ ->]|(x & r & -> & -> & Er & Hr & _)]; auto.
      right. assert (S := rescale_to_shape E x (qdim q) r Er). rewrite (Hs x eq_refl) in S. destruct r as [[s l] d]. cbn [mag shp scalar] in *.
      subst s. destruct Hr as [W _]. unfold awf in W. cbn in W. destruct l as [|z [|? ?]]; try discriminate. exists z. reflexivity. }
    assert (T1 : exists t, clip_with nmax (mag q) lo = Ok t /\ awf t).
    { destruct (SC mn lo Hmn E1) as [->|[z ->]]; [intros; apply HB; auto|exists (mag q); split; [reflexivity|apply Hq]|].
      cbn. rewrite amap2_scalar_r by apply Hq. eexists. split; eauto. apply awf_amap. apply Hq. }
    destruct T1 as (t & -> & Wt). cbn [bind].
    destruct (SC mx hi Hmx E2) as [->|[z ->]]; [intros; apply HB; auto|cbn; eauto|].
    cbn [clip_with]. rewrite amap2_scalar_r by auto. cbn. eauto.
  - intros e H. destruct Dec as [K|K]; [|rewrite (N K) in H; congruence]. rewrite (U K) in H.
    destruct (clip_bound E (qdim q) (bound_operand mn)) as [lo|] eqn:E1; cbn [bind] in H; [|injection H as <-; auto].
    destruct (clip_bound E (qdim q) (bound_operand mx)) as [hi|] eqn:E2; cbn [bind] in H; [|injection H as <-; auto].
    assert (CW : forall g (m : arr R) o e, clip_with g m o = Err e -> e = ValueError).
    { intros g m [b|] e0; cbn; [apply amap2_err|discriminate]. }
    destruct (clip_with nmax (mag q) lo) as [t|] eqn:E3; cbn [bind] in H; [|injection H as <-; eapply CW; eauto].
    destruct (clip_with nmin t hi) as [t'|] eqn:E4; cbn [bind] in H; [discriminate|injection H as <-; eapply CW; eauto].
Qed.
(** Plain bounds: refused for a dimensional [q] (ValueError); and for a dimensionless
    one too, by an AttributeError. *)
Theorem C46_clip_plain_refused : forall A (N : Num A) E (q : qty A) a mx,
  (qdim q <> [] -> q_clip E q (Some (OArr a)) mx = Err ValueError) /\
  (qdim q = [] -> q_clip E q (Some (OArr a)) mx = Err AttributeError).
Proof.
  intros A N E q a mx. unfold q_clip. split; intros H.
  - destruct (qdim q); [congruence|]. cbn. now destruct mx.
  - rewrite H. cbn. now destruct mx.
Qed.
Example C46_example :
  q_clip exE (Qty (Arr [3%nat] (qcs [1; 50; 500]%Z)) d_cm)
         (Some (OQ (Qty (scalar (zq 10)) d_cm))) (Some (OQ (Qty (scalar (zq 1)) d_m)))
  = Ok (Qty (Arr [3%nat] (qcs [10; 50; 100]%Z)) d_cm) /\
  q_clip exE (Qty (Arr [3%nat] (qcs [1; 50; 500]%Z)) d_cm) None (Some (OQ (Qty (scalar (zq 1)) d_s))) = Err ValueError /\
  q_clip exE (Qty (Arr [1%nat] (qcs [7]%Z)) []) (Some (OArr (scalar (zq 10)))) None = Err AttributeError.
Proof. repeat split; vm_compute; reflexivity. Qed.

(** C47 *)
(** Reading: units kept, and the elements the key picks. *)
Theorem C47_getitem_basic : forall (key : list item) (q r : qty R),
  qty_ok q -> q_getitem (sel_basic key) q = Ok r ->
  qdim r = qdim q /\ qty_ok r /\
  forall idx, in_range (shp (mag r)) idx ->
    exists idx', picks key (shp (mag q)) idx idx' /\ in_range (shp (mag q)) idx' /\ aget (mag r) idx = aget (mag q) idx'.
Proof.
  intros key q r [W Hd] H. unfold q_getitem in H.
  destruct (sel_basic key (shp (mag q))) as [[t ps]|] eqn:Es; cbn [bind] in H; [|discriminate]. injection H as <-. cbn [qdim mag shp].
  destruct (sel_basic_ok key _ _ _ Es) as (L & F & ND). split; auto.
  assert (Wr : awf (Arr t (gather (dat (mag q)) ps))) by (unfold awf, gather; cbn; now rewrite map_length).
  split; [split; auto|]. intros idx HR. destruct (sel_basic_picks key _ _ _ idx Es HR) as (idx' & P & R' & Nt).
  exists idx'. split; auto. split; auto. unfold aget. cbn [shp dat]. rewrite at_idx_ravel; [|exact Wr|exact HR].
  rewrite at_idx_ravel; [|exact W|exact R']. unfold gather. rewrite nth_error_map, Nt. cbn. symmetry. apply nth_error_nth'.
  unfold awf in W. rewrite W. now apply ravel_lt.
Qed.
(** For any key: the selected positions, in order. *)
Theorem C47_getitem : forall A (N : Num A) sel (q r : qty A) t ps,
  qty_ok q -> selection_ok sel -> sel (shp (mag q)) = Ok (t, ps) -> q_getitem sel q = Ok r ->
  qdim r = qdim q /\ shp (mag r) = t /\
  (forall k p, nth_error ps k = Some p -> nth_error (dat (mag r)) k = nth_error (dat (mag q)) p) /\
  length (dat (mag r)) = length ps.
Proof.
  intros A N sel q r t ps [W _] Hs Es H. unfold q_getitem in H. rewrite Es in H. injection H as <-. cbn [qdim mag shp dat].
  destruct (Hs _ _ _ Es) as (L & F & _). split; auto. split; auto. split; [|apply map_length]. intros k p Hk. unfold gather. rewrite nth_error_map, Hk. cbn.
  symmetry. apply nth_error_nth'. unfold awf in W. rewrite W. rewrite Forall_forall in F. apply F. eapply nth_error_In; eauto.
Qed.
(** Writing: the selected elements take the value of [v] (expressed in [q]'s units),
    the others keep theirs; units and shape never change. *)
Theorem C47_setitem : forall E sel (q r : qty R) (v : operand R) t ps,
  renv_ok E -> qty_ok q -> operand_ok v -> selection_ok sel -> sel (shp (mag q)) = Ok (t, ps) ->
  q_setitem E sel q v = Ok r ->
  qdim r = qdim q /\ shp (mag r) = shp (mag q) /\ qty_ok r /\
  (forall p, ~ In p ps -> nth_error (dat (mag r)) p = nth_error (dat (mag q)) p) /\
  forall phi, consistent E phi -> exists xs, broadcast_to (ophys phi v) t = Ok xs /\
    forall k p, nth_error ps k = Some p -> nth_error (dat (phys phi r)) p = nth_error xs k.
Proof.
  intros E sel q r v t ps HE Hq Hv Hs Es H. unfold q_setitem in H.
  destruct (scale_other E q v) as [v'|] eqn:Ev; cbn [bind] in H; [|discriminate]. rewrite Es in H. cbn [bind] in H.
  destruct (broadcast_to (mag v') t) as [xs|] eqn:Eb; cbn [bind] in H; [|discriminate]. injection H as <-. cbn [qdim mag shp dat].
  destruct (scale_other_spec E q v v' HE Hq Hv Ev) as (He & Hok & Hsh & Hp). destruct (Hs _ _ _ Es) as (L & F & ND).
  destruct Hq as [W Hd]. unfold awf in W. split; auto. split; auto. split.
  { split; auto. unfold awf. cbn. now rewrite scatter_length. }
  split; [intros p Hn; now apply scatter_other|]. intros phi HC. rewrite <- (Hp phi HC). unfold phys at 1.
  assert (V : dimval phi (qdim v') = dimval phi (qdim q)) by exact (dimval_eqb phi _ _ (proj1 (proj2 Hok)) (proj1 Hd) He).
  rewrite V, broadcast_to_amap, Eb. cbn [rmap]. eexists. split; [reflexivity|]. intros k p Hk.
  unfold phys. cbn [mag amap dat qdim]. rewrite !nth_error_map.
  destruct (broadcast_to_spec (mag v') t xs (proj1 Hok) Eb) as [Lx _].
  destruct (nth_error xs k) as [x|] eqn:Ex.
  - erewrite scatter_at; eauto. rewrite W. exact F.
  - apply nth_error_None in Ex. assert (k < length ps)%nat by (apply nth_error_Some; congruence). lia.
Qed.
(** In terms of indices, for integers, slices and new axes. *)
Theorem C47_setitem_basic : forall E key (q r : qty R) (v : operand R) phi,
  renv_ok E -> qty_ok q -> operand_ok v -> consistent E phi ->
  q_setitem E (sel_basic key) q v = Ok r ->
  qdim r = qdim q /\ shp (mag r) = shp (mag q) /\
  (forall idx idx', picks key (shp (mag q)) idx idx' ->
     exists x, aget (phys phi r) idx' = Some x /\ aget (ophys phi v) (operand_index (shp (odat v)) idx) = Some x) /\
  (forall idx', in_range (shp (mag q)) idx' -> (forall idx, ~ picks key (shp (mag q)) idx idx') ->
     aget (mag r) idx' = aget (mag q) idx').
Proof.
  intros E key q r v phi HE Hq Hv HC H.
  assert (Es : exists t ps, sel_basic key (shp (mag q)) = Ok (t, ps)).
  { unfold q_setitem in H. destruct (scale_other E q v); cbn [bind] in H; [|discriminate].
    destruct (sel_basic key (shp (mag q))) as [[t ps]|]; cbn [bind] in H; [|discriminate]. eauto. }
  destruct Es as (t & ps & Es).
  destruct (C47_setitem E (sel_basic key) q r v t ps HE Hq Hv (sel_basic_ok key) Es H) as (D & S & Hr & O & K).
  destruct (K phi HC) as (xs & Bx & Kx). destruct Hq as [W Hd]. destruct Hr as [Wr _].
  assert (Wv : awf (ophys phi v)) by (destruct v; [apply phys_awf; apply Hv|exact Hv]).
  assert (Sv : shp (ophys phi v) = shp (odat v)) by (destruct v; reflexivity).
  split; auto. split; auto. split.
  - intros idx idx' P. destruct (picks_in_range key _ _ _ _ _ P Es) as [R1 R2].
    destruct (sel_basic_picks key _ _ _ idx Es R1) as (i2 & P2 & R3 & Nt).
    rewrite <- (picks_fun_src key _ _ _ _ _ _ Es P P2) in *.
    destruct (broadcast_to_spec (ophys phi v) t xs Wv Bx) as [_ G]. destruct (G idx R1) as [G1 [x Gx]].
    exists x. rewrite <- Sv, <- G1. split; [|exact Gx].
    unfold aget. rewrite at_idx_ravel.
    + change (shp (phys phi r)) with (shp (mag r)). rewrite S. rewrite (Kx _ _ Nt). exact Gx.
    + exact (phys_awf phi r Wr).
    + change (shp (phys phi r)) with (shp (mag r)). rewrite S. exact R2.
  - intros idx' R2 Hn. unfold aget. rewrite S. rewrite at_idx_ravel by (auto; unfold awf in Wr; now rewrite Wr, S).
    rewrite at_idx_ravel by auto. apply O. intros X. apply In_nth_error in X. destruct X as [k Hk].
    destruct (sel_basic_ok key _ _ _ Es) as (L & F & _).
    assert (U : forall s k, (k < prodn s)%nat -> exists idx, in_range s idx /\ ravel s idx = k).
    { clear. induction s as [|n s IH]; intros k Hk.
      - exists []. split; [constructor|]. cbn in *. lia.
      - cbn [prodn] in Hk. assert (P : prodn s <> 0%nat) by nia. destruct (IH (k mod prodn s)%nat) as (i & I1 & I2).
        { now apply Nat.mod_upper_bound. }
        exists ((k / prodn s)%nat :: i). split.
        + constructor; auto. apply Nat.div_lt_upper_bound; auto. lia.
        + cbn [ravel]. rewrite I2. rewrite (Nat.div_mod k (prodn s) P) at 3. lia. }
    destruct (U t k) as (idx & R1 & Rk); [rewrite <- L; apply nth_error_Some; congruence|].
    destruct (sel_basic_picks key _ _ _ idx Es R1) as (i2 & P2 & R3 & Nt). rewrite Rk, Hk in Nt. injection Nt as Nt.
    apply (ravel_inj _ _ _ R2 R3) in Nt. subst. apply (Hn _ P2).
Qed.
(** Boolean masks: [q[mask]] lists exactly the elements where the mask is true, in
    order, and [q[mask] = v] writes exactly these; a mask of another shape raises. *)
Theorem C47_mask : forall A (N : Num A) (q : qty A) (m : arr bool), qty_ok q -> awf m ->
  (shp m <> shp (mag q) -> q_getitem (sel_mask m) q = Err IndexError) /\
  (shp m = shp (mag q) -> selection_ok (sel_mask m) /\ exists ps,
     sel_mask m (shp (mag q)) = Ok ([length ps], ps) /\
     (forall p, In p ps <-> nth_error (dat m) p = Some true) /\
     (forall k k' p p', (k < k')%nat -> nth_error ps k = Some p -> nth_error ps k' = Some p' -> (p < p')%nat) /\
     exists r, q_getitem (sel_mask m) q = Ok r /\ qdim r = qdim q /\ shp (mag r) = [length ps] /\
       forall k p, nth_error ps k = Some p -> nth_error (dat (mag r)) k = nth_error (dat (mag q)) p).
Proof.
  intros A N q m Hq Wm. split.
  - intros H. unfold q_getitem, sel_mask. destruct (list_eq_dec _ _ _); [congruence|reflexivity].
  - intros H. pose proof (sel_mask_ok m Wm) as SO. split; auto. exists (mask_positions 0 (dat m)).
    assert (Es : sel_mask m (shp (mag q)) = Ok ([length (mask_positions 0 (dat m))], mask_positions 0 (dat m))).
    { unfold sel_mask. destruct (list_eq_dec _ _ _); [reflexivity|congruence]. }
    split; auto. destruct (mask_positions_spec (dat m) 0) as [M1 M2]. split.
    { intros p. rewrite M1, Nat.sub_0_r. split; [tauto|split; [lia|auto]]. }
    split; auto. assert (Er : exists r, q_getitem (sel_mask m) q = Ok r) by (unfold q_getitem; rewrite Es; cbn; eauto).
    destruct Er as [r Er]. exists r. split; auto. destruct (C47_getitem A N (sel_mask m) q r _ _ Hq SO Es Er) as (H1 & H2 & H3 & _). auto.
Qed.
Example C47_mask_example : q_getitem (sel_mask (Arr [3%nat] [true; false; true])) (Qty (Arr [3%nat] (qcs [5; 6; 7]%Z)) d_m) =
  Ok (Qty (Arr [2%nat] (qcs [5; 7]%Z)) d_m).
Proof. vm_compute. reflexivity. Qed.
(** Reading back what was written. *)
Theorem C47_read_back : forall E sel (q r g : qty R) (v : operand R) phi t ps,
  renv_ok E -> qty_ok q -> operand_ok v -> selection_ok sel -> consistent E phi ->
  sel (shp (mag q)) = Ok (t, ps) ->
  q_setitem E sel q v = Ok r -> q_getitem sel r = Ok g ->
  broadcast_to (ophys phi v) t = Ok (dat (phys phi g)).
Proof.
  intros E sel q r g v phi t ps HE Hq Hv Hs HC Es H Hg.
  destruct (C47_setitem E sel q r v t ps HE Hq Hv Hs Es H) as (D & S & Hr & _ & K). destruct (K phi HC) as (xs & Bx & Kx).
  assert (Es' := Es). rewrite <- S in Es'. destruct (C47_getitem R _ sel r g t ps Hr Hs Es' Hg) as (Dg & Sg & Ng & Lg).
  rewrite Bx. f_equal. apply nth_error_ext'. intros k. destruct (nth_error ps k) as [p|] eqn:Ek.
  - rewrite <- (Kx k p Ek). unfold phys. cbn [amap dat]. rewrite !nth_error_map, Dg, (Ng k p Ek). reflexivity.
  - apply nth_error_None in Ek. destruct (Hs _ _ _ Es) as (L & _).
    assert (Wv : awf (ophys phi v)) by (destruct v; [apply phys_awf; apply Hv|exact Hv]).
    destruct (broadcast_to_spec (ophys phi v) t xs Wv Bx) as [Lx _].
    rewrite !(proj2 (nth_error_None _ _)); auto; [|lia]. unfold phys. cbn [amap dat]. rewrite map_length, Lg. exact Ek.
Qed.
(** Failure changes nothing (the assignment raises before writing); the error is
    ValueError if the units do not match. *)
Theorem C47_setitem_defined : forall E sel (q : qty R) (v : operand R),
  renv_ok E -> qty_ok q -> operand_ok v ->
  (~ convertible E (odims v) (qdim q) -> q_setitem E sel q v = Err ValueError) /\
  (convertible E (odims v) (qdim q) -> forall t ps e, sel (shp (mag q)) = Ok (t, ps) ->
     q_setitem E sel q v = Err e -> e = ValueError) /\
  (convertible E (odims v) (qdim q) -> (exists x, odat v = scalar x) -> forall t ps, sel (shp (mag q)) = Ok (t, ps) ->
     exists r, q_setitem E sel q v = Ok r).
Proof.
  intros E sel q v HE Hq Hv. pose proof (scale_other_ok_iff E q v HE Hq Hv) as Iff. unfold q_setitem. split; [|split].
  - intros Hn. destruct (scale_other E q v) as [o|e] eqn:Es; [exfalso; apply Hn; apply Iff; eauto|]. cbn [bind]. f_equal.
    now apply scale_other_err in Es.
  - intros Hc t ps e Es. destruct (scale_other E q v) as [o|e0] eqn:Ev; cbn [bind].
    + rewrite Es. cbn [bind]. destruct (broadcast_to (mag o) t) as [xs|] eqn:Eb; cbn [bind]; [discriminate|].
      intros [= <-]. now apply broadcast_to_err in Eb.
    + intros [= <-]. now apply scale_other_err in Ev.
  - intros Hc [x Hx] t ps Es. apply Iff in Hc. destruct Hc as [o Ho]. rewrite Ho. cbn [bind]. rewrite Es. cbn [bind].
    destruct (scale_other_spec E q v o HE Hq Hv Ho) as (_ & Hok & Hsh & _). rewrite Hx in Hsh. destruct o as [[s l] d]. cbn [mag shp scalar] in *.
    subst s. destruct Hok as [W _]. unfold awf in W. cbn in W. destruct l as [|z [|? ?]]; try discriminate.
    change (Arr [] [z]) with (scalar z). rewrite broadcast_to_scalar. cbn. eauto.
Qed.
(** [put]: flat positions, values repeated as often as needed. *)
Theorem C47_put : forall E (q r : qty R) ks (v : operand R),
  renv_ok E -> qty_ok q -> operand_ok v -> dat (odat v) <> [] -> q_put E q ks v = Ok r ->
  qdim r = qdim q /\ shp (mag r) = shp (mag q) /\
  exists ps, length ps = length ks /\
    (forall i k, nth_error ks i = Some k -> exists p, nth_error ps i = Some p /\ (p < length (dat (mag q)))%nat /\
       (Z.of_nat p = k \/ (k < 0 /\ Z.of_nat p = k + Z.of_nat (length (dat (mag q)))))%Z) /\
    (forall p, ~ In p ps -> nth_error (dat (mag r)) p = nth_error (dat (mag q)) p) /\
    forall phi, consistent E phi -> NoDup ps -> forall i p, nth_error ps i = Some p ->
      nth_error (dat (phys phi r)) p = nth_error (dat (ophys phi v)) (i mod length (dat (odat v))).
Proof.
  intros E q r ks v HE Hq Hv Hne H. unfold q_put in H.
  destruct (scale_other E q v) as [v'|] eqn:Ev; cbn [bind] in H; [|discriminate].
  destruct (norm_indices (length (dat (mag q))) ks) as [ps|] eqn:Es; cbn [bind] in H; [|discriminate]. injection H as <-. cbn [qdim mag shp dat].
  destruct (scale_other_spec E q v v' HE Hq Hv Ev) as (He & Hok & Hsh & Hp). destruct (norm_indices_spec _ _ _ Es) as (L & F & N).
  split; auto. split; auto. exists ps. split; auto. split; [|split].
  - intros i k Hk. destruct (N i k Hk) as (p & P1 & P2). exists p. split; auto. split; auto. rewrite Forall_forall in F. apply F. eapply nth_error_In; eauto.
  - intros p Hn. now apply scatter_other.
  - intros phi HC ND i p Hi. rewrite <- (Hp phi HC). unfold phys. cbn [mag qdim amap dat]. rewrite !nth_error_map.
    rewrite (dimval_eqb phi _ _ (proj1 (proj2 Hok)) (proj1 (proj2 Hq)) He).
    assert (LV : length (dat (mag v')) = length (dat (odat v))).
    { destruct Hok as [W1 _]. assert (W2 : awf (odat v)) by (destruct v; apply Hv). unfold awf in *. now rewrite W1, W2, Hsh. }
    assert (HneV : dat (mag v') <> []) by (intros X; apply Hne; apply length_zero_iff_nil; rewrite <- LV, X; reflexivity).
    assert (Hil : (i < length ps)%nat) by (apply nth_error_Some; congruence).
    pose proof (nth_error_cycle (length ps) [] (dat (mag v')) (dat (mag v')) eq_refl HneV i Hil) as C. cbn [length Nat.add] in C. rewrite LV in C.
    destruct (nth_error (cycle (length ps) (dat (mag v')) (dat (mag v'))) i) as [x|] eqn:Ex.
    + erewrite scatter_at; eauto. rewrite <- C. reflexivity.
    + apply nth_error_None in Ex. rewrite cycle_length in Ex by auto. lia.
Qed.
Example C47_example :
  let q := Qty (Arr [2%nat; 3%nat] (qcs [1; 2; 3; 4; 5; 6]%Z)) d_m in
  q_getitem (sel_basic [IInt (-1)]) q = Ok (Qty (Arr [3%nat] (qcs [4; 5; 6]%Z)) d_m) /\
  q_getitem (sel_basic [ISlice None None 1; ISlice None None (-2)]) q = Ok (Qty (Arr [2%nat; 2%nat] (qcs [3; 1; 6; 4]%Z)) d_m) /\
  q_getitem (sel_basic [IInt 2]) q = Err IndexError /\
  q_setitem exE (sel_basic [ISlice None None 1; IInt 1]) q (OQ (Qty (scalar (zq 700)) d_cm))
    = Ok (Qty (Arr [2%nat; 3%nat] (qcs [1; 7; 3; 4; 7; 6]%Z)) d_m) /\
  q_setitem exE (sel_basic [IInt 0]) q (OQ (Qty (scalar (zq 700)) d_s)) = Err ValueError /\
  q_setitem exE (sel_basic [IInt 0]) q (OArr (scalar (zq 7))) = Err ValueError /\
  q_put exE q [0; -1; 3]%Z (OQ (Qty (Arr [2%nat] (qcs [700; 800]%Z)) d_cm))
    = Ok (Qty (Arr [2%nat; 3%nat] (qcs [7; 2; 3; 7; 5; 8]%Z)) d_m).
Proof. cbn zeta. repeat split; vm_compute; reflexivity. Qed.

(** C48 *)
Theorem C48_tolist : forall A (N : Num A) (q : qty A), awf (mag q) ->
  exists t, q_tolist q = Some t /\ nested_shape (shp (mag q)) t /\
    forall idx, nested_get t idx = option_map (fun x => Qty (scalar x) (qdim q)) (aget (mag q) idx).
Proof.
  intros A N q W. unfold q_tolist. destruct (nd_tolist_spec (shp (mag q)) (dat (mag q)) W) as (t & Et & St & Gt).
  rewrite Et. cbn [option_map]. eexists. split; [reflexivity|]. split; [now apply wrap_leaves_shape|].
  intros idx. rewrite wrap_leaves_get, Gt. reflexivity.
Qed.
Example C48_example :
  q_tolist (Qty (Arr [2%nat; 1%nat] (qcs [1; 2]%Z)) d_m)
  = Some (Node [Node [Leaf (Qty (scalar (zq 1)) d_m)]; Node [Leaf (Qty (scalar (zq 2)) d_m)]]) /\
  q_tolist (Qty (scalar (zq 4)) d_cm) = Some (Leaf (Qty (scalar (zq 4)) d_cm)).
Proof. split; vm_compute; reflexivity. Qed.

(** C49 *)
Definition sorted (l : list R) : Prop := forall i j x y, (i <= j)%nat -> nth_error l i = Some x -> nth_error l j = Some y -> x <= y.
Lemma lead_spec (p : R -> bool) : forall l,
  (forall i x, (i < lead p l)%nat -> nth_error l i = Some x -> p x = true) /\
  (forall x, nth_error l (lead p l) = Some x -> p x = false) /\ (lead p l <= length l)%nat.
Proof.
  induction l as [|x l (I1 & I2 & I3)]; cbn [lead].
  - split; [|split]; auto; intros; [lia|discriminate].
  - destruct (p x) eqn:X; cbn [length].
    + split; [|split]; [|exact I2|lia]. intros [|i] y Hi Hy; cbn in Hy; [congruence|]. apply (I1 i); auto. lia.
    + split; [intros; lia|]. split; [|lia]. intros y Hy. cbn in Hy. congruence.
Qed.
Theorem C49_searchsorted : forall right (q : qty R) (v : operand R) r,
  qty_ok q -> operand_ok v -> q_searchsorted right q v = Ok r ->
  (forall u, exp_of (odims v) u = exp_of (qdim q) u) /\ shp r = shp (odat v) /\
  forall phi, sorted (dat (phys phi q)) ->
  forall idx k x, aget r idx = Some k -> aget (ophys phi v) idx = Some x ->
    (k <= length (dat (mag q)))%nat /\
    forall i y, nth_error (dat (phys phi q)) i = Some y ->
      ((i < k)%nat -> if right then y <= x else y < x) /\ ((k <= i)%nat -> if right then x < y else x <= y).
Proof.
  intros right q v r Hq Hv H. unfold q_searchsorted in H.
  destruct (dim_eqb (qdim (as_q v)) (qdim q)) eqn:Ed; [|discriminate].
  assert (Wv : dims_ok (qdim (as_q v))) by (destruct v; [apply Hv|apply dims_ok_nil]).
  assert (X := proj1 (dim_eqb_exp _ _ (proj1 Wv) (proj1 (proj2 Hq))) Ed).
  assert (Hr : r = amap (search right (dat (mag q))) (odat v)) by (destruct (shp (mag q)) as [|? [|? ?]]; congruence). subst r. clear H.
  split; [intros u; rewrite <- X; destruct v; reflexivity|]. split; [reflexivity|].
  intros phi HS idx k x Hk Hx. rewrite amap_get in Hk.
  assert (V : ophys phi v = amap (fun z => z * dimval phi (qdim q)) (odat v)).
  { rewrite <- (dimval_eqb phi _ _ (proj1 Wv) (proj1 (proj2 Hq)) Ed). destruct v; [reflexivity|]. cbn [ophys odat as_q qdim dimval].
    symmetry. rewrite (amap_ext _ (fun z => z)); [apply amap_id|]. intros; ring. }
  rewrite V, amap_get in Hx. destruct (aget (odat v) idx) as [z|]; [|discriminate]. cbn in Hk, Hx. injection Hk as <-. injection Hx as <-.
  pose proof (dimval_pos phi (qdim q)) as P. unfold search. set (p := fun w : R => if right then nleb w z else nltb w z).
  destruct (lead_spec p (dat (mag q))) as (I1 & I2 & I3). split; auto. intros i y Hy.
  unfold phys in Hy. cbn [amap dat] in Hy. rewrite nth_error_map in Hy. destruct (nth_error (dat (mag q)) i) as [w|] eqn:Ew; [|discriminate].
  injection Hy as <-. split; intros Hi.
  - specialize (I1 i w Hi Ew). unfold p in I1. destruct right; cbn [nleb nltb NumR] in I1.
    + apply Rleb_true in I1. apply Rmult_le_compat_r; lra.
    + apply Rltb_true in I1. apply Rmult_lt_compat_r; lra.
  - assert (Hlt : (lead p (dat (mag q)) < length (dat (mag q)))%nat).
    { assert (i < length (dat (mag q)))%nat by (apply nth_error_Some; congruence). lia. }
    destruct (nth_error (dat (mag q)) (lead p (dat (mag q)))) as [w0|] eqn:E0; [|apply nth_error_None in E0; lia].
    specialize (I2 w0 eq_refl). unfold sorted in HS.
    specialize (HS (lead p (dat (mag q))) i (w0 * dimval phi (qdim q)) (w * dimval phi (qdim q)) Hi).
    unfold phys in HS. cbn [amap dat] in HS. rewrite !nth_error_map, E0, Ew in HS. specialize (HS eq_refl eq_refl).
    assert (w0 <= w) by (apply Rmult_le_reg_r with (dimval phi (qdim q)); auto).
    unfold p in I2. destruct right; cbn [nleb nltb NumR] in I2.
    + assert (z < w0) by (apply Rnot_le_lt; intros K; apply Rleb_true in K; congruence). apply Rmult_lt_compat_r; lra.
    + apply Rltb_false in I2. apply Rmult_le_compat_r; lra.
Qed.
Theorem C49_searchsorted_defined : forall right (q : qty R) (v : operand R),
  qty_ok q -> operand_ok v ->
  ((exists r, q_searchsorted right q v = Ok r) <->
   (forall u, exp_of (odims v) u = exp_of (qdim q) u) /\ length (shp (mag q)) = 1%nat) /\
  (forall e, q_searchsorted right q v = Err e -> e = ValueError).
Proof.
  intros right q v Hq Hv. unfold q_searchsorted.
  assert (Wv : dims_ok (qdim (as_q v))) by (destruct v; [apply Hv|apply dims_ok_nil]).
  pose proof (dim_eqb_exp _ _ (proj1 Wv) (proj1 (proj2 Hq))) as X.
  assert (Y : qdim (as_q v) = odims v) by (destruct v; reflexivity). rewrite Y in *.
  destruct (dim_eqb (odims v) (qdim q)) eqn:Ed.
  - destruct (shp (mag q)) as [|n [|m s]] eqn:S; cbn [length]; (split; [|intros e; congruence]); split.
    + intros [r H]; discriminate.
    + intros [_ H]; discriminate.
    + intros _. split; auto. now apply X.
    + eauto.
    + intros [r H]; discriminate.
    + intros [_ H]; discriminate.
  - split; [|intros e; congruence]. split; [intros [r H]; discriminate|]. intros [H _]. apply X in H. discriminate.
Qed.
Example C49_example :
  let q := Qty (Arr [4%nat] (qcs [1; 3; 3; 8]%Z)) d_m in
  q_searchsorted false q (OQ (Qty (Arr [3%nat] (qcs [0; 3; 9]%Z)) d_m)) = Ok (Arr [3%nat] [0%nat; 1%nat; 4%nat]) /\
  q_searchsorted true q (OQ (Qty (Arr [1%nat] (qcs [3]%Z)) d_m)) = Ok (Arr [1%nat] [3%nat]) /\
  q_searchsorted false q (OQ (Qty (scalar (zq 100)) d_cm)) = Err ValueError.
Proof. cbn zeta. repeat split; vm_compute; reflexivity. Qed.

(** C74 *)
(** The position of the largest (smallest) element of every lane; the first one. *)
Lemma larg_spec (cmp : R -> R -> bool) (le : R -> R -> Prop) :
  (forall a b, cmp a b = true -> le b a) -> (forall a b, cmp a b = false -> le a b) -> (forall a, le a a) ->
  (forall a b c, le a b -> le b c -> le a c) ->
  forall pre (l : list R) best ib, nth_error pre ib = Some best -> (forall i x, nth_error pre i = Some x -> le x best) ->
  (forall i x, (i < ib)%nat -> nth_error pre i = Some x -> cmp best x = true) ->
  (forall a b c, cmp a b = true -> le c b -> cmp a c = true) ->
  exists z, nth_error (pre ++ l) (larg cmp best ib (length pre) l) = Some z /\
            (forall i x, nth_error (pre ++ l) i = Some x -> le x z) /\
            (forall i x, (i < larg cmp best ib (length pre) l)%nat -> nth_error (pre ++ l) i = Some x -> cmp z x = true).
Proof.
  intros H1 H2 Hr Ht pre l. revert pre. induction l as [|x l IH]; intros pre best ib Hb Hm Hf Hs; cbn [larg].
  - rewrite app_nil_r. exists best. auto.
  - assert (E : pre ++ x :: l = (pre ++ [x]) ++ l) by (rewrite <- app_assoc; reflexivity). rewrite E.
    assert (Ls : S (length pre) = length (pre ++ [x])) by (rewrite app_length; cbn; lia). rewrite Ls.
    assert (Nx : nth_error (pre ++ [x]) (length pre) = Some x) by (rewrite nth_error_app2, Nat.sub_diag by lia; reflexivity).
    destruct (cmp x best) eqn:C.
    + apply IH; auto.
      * intros i y Hy. destruct (Nat.lt_ge_cases i (length pre)) as [Hi|Hi].
        -- rewrite nth_error_app1 in Hy by auto. apply Ht with best; eauto.
        -- rewrite nth_error_app2 in Hy by auto. destruct (i - length pre)%nat as [|[|k]]; cbn in Hy; try discriminate. injection Hy as <-. apply Hr.
      * intros i y Hi Hy. rewrite nth_error_app1 in Hy by auto. apply Hs with best; auto. eauto.
    + apply IH; auto.
      * rewrite nth_error_app1; auto. apply nth_error_Some. congruence.
      * intros i y Hy. destruct (Nat.lt_ge_cases i (length pre)) as [Hi|Hi].
        -- rewrite nth_error_app1 in Hy by auto. eauto.
        -- rewrite nth_error_app2 in Hy by auto. destruct (i - length pre)%nat as [|[|k]]; cbn in Hy; try discriminate. injection Hy as <-. auto.
      * intros i y Hi Hy. assert (Hib : (ib < length pre)%nat) by (apply nth_error_Some; congruence). rewrite nth_error_app1 in Hy by lia. eauto.
Qed.
Definition first_max (l : list R) (k : nat) : Prop :=
  exists z, nth_error l k = Some z /\ is_max l z /\ forall i x, (i < k)%nat -> nth_error l i = Some x -> x < z.
Definition first_min (l : list R) (k : nat) : Prop :=
  exists z, nth_error l k = Some z /\ is_min l z /\ forall i x, (i < k)%nat -> nth_error l i = Some x -> z < x.
Lemma largmax_first (l : list R) : l <> [] -> first_max l (largmax l).
Proof.
  destruct l as [|x l]; [congruence|]. intros _. unfold largmax.
  destruct (larg_spec (fun a b => nltb b a) (fun a b => a <= b)) with (pre := [x]) (l := l) (best := x) (ib := 0%nat) as (z & Z1 & Z2 & Z3).
  - intros a b H. apply Rltb_true in H. lra.
  - intros a b H. apply Rltb_false in H. lra.
  - intros; lra.
  - intros; lra.
  - reflexivity.
  - intros [|[|i]] y Hy; cbn in Hy; try discriminate. injection Hy as <-. lra.
  - intros; lia.
  - intros a b c H H'. apply Rltb_true in H. apply Rltb_true. lra.
  - exists z. split; [exact Z1|]. split.
    + split; [eapply nth_error_In; exact Z1|]. intros y Hy. apply In_nth_error in Hy. destruct Hy as [i Hi]. eapply Z2; eauto.
    + intros i y Hi Hy. apply Rltb_true. exact (Z3 i y Hi Hy).
Qed.
Lemma largmin_first (l : list R) : l <> [] -> first_min l (largmin l).
Proof.
  destruct l as [|x l]; [congruence|]. intros _. unfold largmin.
  destruct (larg_spec (fun a b => nltb a b) (fun a b => b <= a)) with (pre := [x]) (l := l) (best := x) (ib := 0%nat) as (z & Z1 & Z2 & Z3).
  - intros a b H. apply Rltb_true in H. lra.
  - intros a b H. apply Rltb_false in H. lra.
  - intros; lra.
  - intros; lra.
  - reflexivity.
  - intros [|[|i]] y Hy; cbn in Hy; try discriminate. injection Hy as <-. lra.
  - intros; lia.
  - intros a b c H H'. apply Rltb_true in H. apply Rltb_true. lra.
  - exists z. split; [exact Z1|]. split.
    + split; [eapply nth_error_In; exact Z1|]. intros y Hy. apply In_nth_error in Hy. destruct Hy as [i Hi]. eapply Z2; eauto.
    + intros i y Hi Hy. apply Rltb_true. exact (Z3 i y Hi Hy).
Qed.
Lemma largmax_scale v (l : list R) : 0 < v -> largmax (scale v l) = largmax l.
Proof. intros Hv. destruct l as [|x l]; auto. unfold largmax. rewrite scale_cons. apply largcmp_scale. intros a b. now apply Rltb_scale. Qed.
Lemma largmin_scale v (l : list R) : 0 < v -> largmin (scale v l) = largmin l.
Proof. intros Hv. destruct l as [|x l]; auto. unfold largmin. rewrite scale_cons. apply largcmp_scale. intros a b. now apply Rltb_scale. Qed.
Lemma arg_general (f : list R -> nat) (spec : list R -> nat -> Prop) axis (q : qty R) r phi :
  (forall l, l <> [] -> spec l (f l)) -> (forall v l, 0 < v -> f (scale v l) = f l) -> awf (mag q) ->
  (ax <- norm_axis (length (shp (mag q))) axis ;; m <- areduce f ax (mag q) ;; check_lanes true ax (mag q) m) = Ok r ->
  forall idx, in_range (shp r) idx -> exists lane k, lane_of (phys phi q) axis idx lane /\ aget r idx = Some k /\ spec lane k.
Proof.
  intros Hf Hs W H idx HR. destruct (norm_axis _ axis) as [ax|] eqn:Ea; cbn [bind] in H; [|discriminate].
  destruct (areduce f ax (mag q)) as [m|] eqn:Em; cbn [bind] in H; [|discriminate].
  unfold check_lanes in H. cbn [andb] in H. destruct (Nat.eqb (lane_length ax (mag q)) 0 && negb (Nat.eqb (length (dat m)) 0))%bool eqn:Ec; [discriminate|].
  injection H as <-.
  assert (Hp : areduce f ax (phys phi q) = Ok m).
  { unfold phys. rewrite areduce_amap. rewrite (areduce_ext _ f); auto. intros l. apply Hs. apply dimval_pos. }
  destruct (areduce_lane f (phys phi q) axis ax m idx (phys_awf phi q W) Ea Hp HR) as (lane & L & G).
  exists lane, (f lane). split; auto. split; auto. apply Hf. intros ->.
  assert (LL := lane_of_length (phys phi q) axis ax idx [] Ea L). unfold phys in LL. rewrite lane_length_map in LL. cbn [length] in LL.
  rewrite <- LL in Ec. cbn in Ec. apply negb_false_iff, Nat.eqb_eq in Ec. apply aget_in in G. apply G. now apply length_zero_iff_nil.
Qed.
Theorem C74_argmax : forall axis (q : qty R) r phi, qty_ok q -> q_argmax axis q = Ok r ->
  forall idx, in_range (shp r) idx ->
    exists lane k, lane_of (phys phi q) axis idx lane /\ aget r idx = Some k /\ first_max lane k.
Proof.
  intros axis q r phi [W _] H. apply (arg_general largmax first_max axis q r phi); auto.
  - apply largmax_first. - intros; now apply largmax_scale.
Qed.
Theorem C74_argmin : forall axis (q : qty R) r phi, qty_ok q -> q_argmin axis q = Ok r ->
  forall idx, in_range (shp r) idx ->
    exists lane k, lane_of (phys phi q) axis idx lane /\ aget r idx = Some k /\ first_min lane k.
Proof.
  intros axis q r phi [W _] H. apply (arg_general largmin first_min axis q r phi); auto.
  - apply largmin_first. - intros; now apply largmin_scale.
Qed.
Theorem C74_nonzero : forall (q : qty R) phi p,
  In p (q_nonzero q) <-> exists x, nth_error (dat (phys phi q)) p = Some x /\ x <> 0.
Proof.
  intros q phi p. unfold q_nonzero, phys. cbn [amap dat]. pose proof (dimval_pos phi (qdim q)) as P. rewrite nth_error_map.
  assert (G : forall (l : list R) i p, In p (lnonzero i l) <-> exists k x, p = (i + k)%nat /\ nth_error l k = Some x /\ x <> 0).
  { clear. induction l as [|x l IH]; intros i p; cbn [lnonzero].
    - split; [easy|]. intros (k & x & _ & X & _). destruct k; discriminate.
    - cbn [neqb NumR n0]. destruct (Reqb x 0) eqn:X.
      + apply Reqb_true in X. rewrite IH. split.
        * intros (k & y & -> & Y & Z). exists (S k), y. split; [lia|]. auto.
        * intros ([|k] & y & -> & Y & Z); cbn in Y; [congruence|]. exists k, y. split; [lia|]. auto.
      + apply Reqb_false in X. cbn [In]. rewrite IH. split.
        * intros [<-|(k & y & -> & Y & Z)]; [exists 0%nat, x; split; [lia|auto]|]. exists (S k), y. split; [lia|]. auto.
        * intros ([|k] & y & -> & Y & Z); cbn in Y; [left; lia|]. right. exists k, y. split; [lia|]. auto. }
  rewrite G. split.
  - intros (k & x & -> & Hx & Hn). exists (x * dimval phi (qdim q)). cbn [Nat.add]. rewrite Hx. split; auto.
    apply Rmult_integral_contrapositive_currified; auto. lra.
  - intros (y & Hy & Hn). destruct (nth_error (dat (mag q)) p) as [x|] eqn:Ex; [|discriminate]. injection Hy as <-.
    exists p, x. split; auto. split; auto. intros ->. apply Hn. ring.
Qed.
(** The answers, and the exceptions, are the same for the same values in other units. *)
Theorem C74_unit_independent : forall E axis (q q' : qty R), renv_ok E -> same_value E q q' ->
  q_argmax axis q = q_argmax axis q' /\ q_argmin axis q = q_argmin axis q' /\ q_nonzero q = q_nonzero q'.
Proof.
  intros E axis q q' HE HS. destruct (consistent_exists E HE) as [phi HC]. specialize (HS phi HC).
  assert (G : forall (f : list R -> nat) (q : qty R), (forall v l, 0 < v -> f (scale v l) = f l) ->
    (ax <- norm_axis (length (shp (mag q))) axis ;; m <- areduce f ax (mag q) ;; check_lanes true ax (mag q) m) =
    (ax <- norm_axis (length (shp (phys phi q))) axis ;; m <- areduce f ax (phys phi q) ;; check_lanes true ax (phys phi q) m)).
  { clear. intros f q Hs. change (shp (phys phi q)) with (shp (mag q)). destruct (norm_axis _ axis) as [ax|e]; cbn [bind]; [|reflexivity].
    assert (X : areduce f ax (phys phi q) = areduce f ax (mag q)).
    { unfold phys. rewrite areduce_amap. apply areduce_ext. intros l. apply Hs. apply dimval_pos. }
    rewrite X. destruct (areduce f ax (mag q)) as [m|e]; cbn [bind]; [|reflexivity].
    unfold check_lanes. unfold phys. now rewrite lane_length_map. }
  split; [|split].
  - unfold q_argmax. rewrite (G largmax q), (G largmax q'), HS; [reflexivity|intros; now apply largmax_scale..].
  - unfold q_argmin. rewrite (G largmin q), (G largmin q'), HS; [reflexivity|intros; now apply largmin_scale..].
  - assert (Z : forall (q : qty R), q_nonzero q = lnonzero 0 (dat (phys phi q))).
    { clear. intros q. unfold q_nonzero, phys. cbn [amap dat]. pose proof (dimval_pos phi (qdim q)) as P. generalize 0%nat.
      induction (dat (mag q)) as [|x l IH]; intros i; [reflexivity|]. cbn [map lnonzero]. rewrite <- !IH. cbn [neqb NumR n0].
      destruct (Reqb x 0) eqn:X, (Reqb (x * dimval phi (qdim q)) 0) eqn:Y; try reflexivity.
      - apply Reqb_true in X. apply Reqb_false in Y. exfalso. apply Y. rewrite X. ring.
      - apply Reqb_false in X. apply Reqb_true in Y. exfalso. apply Rmult_integral in Y. destruct Y; lra. }
    now rewrite (Z q), (Z q'), HS.
Qed.
Example C74_example :
  let q := Qty (Arr [2%nat; 3%nat] (qcs [1; 5; 5; 7; 0; 7]%Z)) d_cm in
  q_argmax (Some 1%Z) q = Ok (Arr [2%nat] [1%nat; 0%nat]) /\ q_argmin None q = Ok (scalar 4%nat) /\
  q_nonzero q = [0%nat; 1%nat; 2%nat; 3%nat; 5%nat] /\ q_argmax (Some 5%Z) q = Err ValueError.
Proof. cbn zeta. repeat split; vm_compute; reflexivity. Qed.

(** C75 *)
(** [nanmax]/[nanmin] ignore their axis argument: the result is always the overall
    extremum, so the claim "reduces along the axis" is false. *)
Theorem C75_nanmax_ignores_axis : forall (q : qty R) axis,
  q_nanmax axis q = q_red RedMax None q /\ q_nanmin axis q = q_red RedMin None q.
Proof. intros q axis. unfold q_nanmax, q_nanmin, q_red. cbn. split; reflexivity. Qed.
Theorem C75_nanmax_refuted : exists (q : qty Qc) axis r1 r2,
  q_nanmax axis q = Ok r1 /\ q_red RedMax axis q = Ok r2 /\ shp (mag r1) <> shp (mag r2).
Proof.
  exists (Qty (Arr [2%nat; 1%nat] (qcs [1; 2]%Z)) d_m), (Some 0%Z). do 2 eexists.
  split; [vm_compute; reflexivity|]. split; [vm_compute; reflexivity|]. vm_compute. discriminate.
Qed.

Print Assumptions C44_reductions.
Print Assumptions C44_shape.
Print Assumptions C44_defined.
Print Assumptions C44_defined_nonempty.
Print Assumptions C44_unit_independent.
Print Assumptions C44_rescale.
Print Assumptions C44_cumsum.
Print Assumptions C44_cumsum_defined.
Print Assumptions C45_prod.
Print Assumptions C45_prod_defined.
Print Assumptions C45_var.
Print Assumptions C45_cumprod.
Print Assumptions C46_clip.
Print Assumptions C46_clip_scalar.
Print Assumptions C46_clip_defined.
Print Assumptions C46_clip_plain_refused.
Print Assumptions C47_getitem_basic.
Print Assumptions C47_getitem.
Print Assumptions C47_setitem.
Print Assumptions C47_setitem_basic.
Print Assumptions C47_mask.
Print Assumptions C47_read_back.
Print Assumptions C47_setitem_defined.
Print Assumptions C47_put.
Print Assumptions C48_tolist.
Print Assumptions C49_searchsorted.
Print Assumptions C49_searchsorted_defined.
Print Assumptions C74_argmax.
Print Assumptions C74_argmin.
Print Assumptions C74_nonzero.
Print Assumptions C74_unit_independent.
Print Assumptions C75_nanmax_ignores_axis.
Print Assumptions C75_nanmax_refuted.
