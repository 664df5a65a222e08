(** * Properties C100-C102: data with NaN. *)
From Coq Require Import Reals Lra Lia.
From Verif Require Import Py Num Dim DimFacts Arr ArrFacts Lanes Units Spec UnitFacts Quant QuantFacts SimpFacts SpecApi ConvFacts
  Ufunc Ops OpsFacts Methods MethodsFacts Examples Props_Conv Props_Ops Props_Ufunc Props_Methods Nan.

Open Scope R_scope.

(** The physical values of a quantity with missing values: NaN stays NaN. *)
Definition physo (phi : interp) (q : qty (option R)) : arr (option R) :=
  amap (option_map (fun x => x * dimval phi (qdim q))) (mag q).

(** C100 *)
(** What a NaN-aware reduction of a lane must be: the reduction of the numbers in it. *)
Definition nan_spec (op : nanred) (lane : list (option R)) (z : option R) : Prop :=
  match op with
  | NanSum => z = Some (Rsum (somes lane))
  | NanMean => (somes lane = [] -> z = None) /\ (somes lane <> [] -> z = Some (Rmean (somes lane)))
  | NanStd ddof => ((length (somes lane) <= ddof)%nat -> z = None) /\
                   ((ddof < length (somes lane))%nat -> z = Some (sqrt (Rvar ddof (somes lane))))
  end.
(** [somes] are the numbers of the lane, in order. *)
Theorem C100_somes : forall (A : Type) (l : list (option A)),
  map Some (somes l) = filter (fun o => match o with Some _ => true | None => false end) l.
Proof. intros A l. induction l as [|[x|] l IH]; cbn; [reflexivity| |exact IH]. now rewrite IH. Qed.
Lemma somes_map {A B} (f : A -> B) l : somes (map (option_map f) l) = map f (somes l).
Proof. induction l as [|[x|] l IH]; cbn; auto. now rewrite IH. Qed.
Lemma somes_some {A} (l : list A) : somes (map Some l) = l.
Proof. induction l as [|x l IH]; cbn; auto. now rewrite IH. Qed.
Lemma nan_fun_spec op (l : list (option R)) : nan_spec op l (nan_fun op l).
Proof.
  destruct op as [| |dd]; cbn [nan_spec nan_fun].
  - now rewrite lsum_Rsum.
  - destruct (somes l) as [|x s]; [split; [auto|congruence]|]. split; [discriminate|]. intros _. now rewrite lmean_Rmean.
  - destruct (Nat.ltb dd (length (somes l))) eqn:X.
    + apply Nat.ltb_lt in X. split; [lia|]. intros _. unfold lstd. cbn [nsqrt NumR]. now rewrite lvar_Rvar.
    + apply Nat.ltb_ge in X. split; [auto|lia].
Qed.
Lemma nan_fun_scale op v (l : list (option R)) : 0 < v ->
  nan_fun op (map (option_map (fun x => x * v)) l) = option_map (fun x => x * v) (nan_fun op l).
Proof.
  intros Hv. destruct op as [| |dd]; cbn [nan_fun]; rewrite somes_map.
  - cbn [option_map]. f_equal. exact (red_fun_scale RedSum v (somes l) Hv).
  - destruct (somes l) as [|x s]; [reflexivity|]. cbn [map option_map]. f_equal. exact (red_fun_scale RedMean v (x :: s) Hv).
  - rewrite map_length. destruct (Nat.ltb dd (length (somes l))); [|reflexivity]. cbn [option_map]. f_equal.
    exact (red_fun_scale (RedStd dd) v (somes l) Hv).
Qed.
Theorem C100_nan_reductions : forall op axis (q r : qty (option R)),
  qty_ok q -> q_nanred op axis q = Ok r ->
  qdim r = qdim q /\ qty_ok r /\
  forall phi idx, in_range (shp (mag r)) idx ->
    exists lane z, lane_of (physo phi q) axis idx lane /\ aget (physo phi r) idx = Some z /\ nan_spec op lane z.
Proof.
  intros op axis q r [W D] H. unfold q_nanred in H.
  destruct (norm_axis _ axis) as [ax|] eqn:Ea; cbn [bind] in H; [|discriminate].
  destruct (areduce (nan_fun op) ax (mag q)) as [m|] eqn:Em; cbn [bind] in H; [|discriminate].
  assert (r = Qty m (qdim q)) as -> by congruence. cbn [qdim mag]. split; [reflexivity|].
  split; [split; [exact (awf_areduce _ _ W Em)|exact D]|]. intros phi idx HR.
  set (v := dimval phi (qdim q)). set (g := option_map (fun x => x * v)).
  assert (Hr : areduce (nan_fun op) ax (physo phi q) = Ok (amap g m)).
  { unfold physo. rewrite areduce_amap. fold v. fold g.
    rewrite (areduce_ext (fun l => nan_fun op (map g l)) (fun l => g (nan_fun op l))) by (intros l; apply nan_fun_scale; apply dimval_pos).
    rewrite <- (rmap_areduce (nan_fun op) g), Em. reflexivity. }
  assert (Wp : awf (physo phi q)) by (now apply awf_amap).
  destruct (areduce_lane (nan_fun op) (physo phi q) axis ax (amap g m) idx Wp Ea Hr HR) as (lane & L & G).
  exists lane, (nan_fun op lane). split; [exact L|]. split; [exact G|apply nan_fun_spec].
Qed.
Theorem C100_defined : forall op axis (q : qty (option R)),
  ((exists r, q_nanred op axis q = Ok r) <->
   match axis with None => True | Some k => exists ax, axis_means (length (shp (mag q))) k ax end) /\
  (forall e, q_nanred op axis q = Err e -> e = ValueError).
Proof.
  intros op axis q. unfold q_nanred. split.
  - split.
    + intros [r H]. destruct (norm_axis _ axis) as [ax|] eqn:Ea; cbn [bind] in H; [|discriminate].
      apply norm_axis_spec in Ea. destruct axis; auto. destruct Ea as (i & _ & M). eauto.
    + intros H. assert (X : exists ax, norm_axis (length (shp (mag q))) axis = Ok ax).
      { destruct axis as [k|]; [|cbn; eauto]. destruct H as [i M]. rewrite (norm_axis_complete _ _ _ M). eauto. }
      destruct X as [ax Ha]. rewrite Ha. cbn [bind].
      destruct (norm_axis_areduce (nan_fun op) (mag q) axis ax Ha) as [m Hm]. rewrite Hm. cbn. eauto.
  - intros e. destruct (norm_axis _ axis) as [ax|] eqn:Ea; cbn [bind].
    + destruct (areduce (nan_fun op) ax (mag q)) as [m|] eqn:Em; cbn [bind]; [discriminate|].
      intros [= <-]. now apply areduce_err in Em.
    + intros [= <-]. now apply norm_axis_err in Ea.
Qed.
(** Without NaN, [nansum], [nanmean] and [nanstd] are [sum], [mean] and [std], where
    those are numbers: lanes have length [n], at least one element for the mean and more
    than [ddof] for the standard deviation. *)
Definition plain_of (op : nanred) : red := match op with NanSum => RedSum | NanMean => RedMean | NanStd ddof => RedStd ddof end.
Definition lane_size {A} (a : arr A) (axis : option Z) (n : nat) : Prop :=
  match axis with
  | None => n = length (dat a)
  | Some k => exists ax, axis_means (length (shp a)) k ax /\ nth_error (shp a) ax = Some n
  end.
Definition enough (op : nanred) (n : nat) : Prop :=
  match op with NanSum => True | NanMean => (0 < n)%nat | NanStd ddof => (ddof < n)%nat end.
Theorem C100_without_nan : forall op axis (m : arr R) d n,
  awf m -> lane_size m axis n -> enough op n ->
  q_nanred op axis (Qty (amap Some m) d) =
    rmap (fun r => Qty (amap Some (mag r)) (qdim r)) (q_red (plain_of op) axis (Qty m d)).
Proof.
  intros op axis m d n W Ln En. unfold q_nanred, q_red. cbn [mag qdim]. rewrite amap_shp.
  destruct (norm_axis _ axis) as [ax|] eqn:Ea; cbn [bind rmap]; [|reflexivity].
  assert (K : red_needs_elements (plain_of op) = false) by (destruct op; reflexivity).
  rewrite K. unfold check_lanes. cbn [andb].
  rewrite areduce_amap.
  assert (G : forall l : list R, length l = n -> nan_fun op (map Some l) = Some (red_fun (plain_of op) l)).
  { intros l Hl. destruct op as [| |dd]; cbn [nan_fun plain_of red_fun]; rewrite somes_some; [reflexivity| |].
    - cbn [enough] in En. destruct l; [cbn [length] in Hl; lia|reflexivity].
    - cbn [enough] in En. rewrite Hl. destruct (Nat.ltb_spec dd n); [reflexivity|lia]. }
  assert (X : areduce (fun l => nan_fun op (map Some l)) ax m = areduce (fun l => Some (red_fun (plain_of op) l)) ax m).
  { destruct axis as [k|]; cbn [lane_size] in Ln.
    - destruct Ln as (i & Mi & Ni). rewrite (norm_axis_complete _ _ _ Mi) in Ea. assert (ax = Some i) as -> by congruence.
      apply areduce_ext_axis with n; [exact W|exact Ni|]. intros l Hl _. exact (G l Hl).
    - apply norm_axis_spec in Ea. subst ax. cbn [areduce]. rewrite G by (now symmetry). reflexivity. }
  rewrite X, <- (rmap_areduce (red_fun (plain_of op)) Some).
  destruct (areduce (red_fun (plain_of op)) ax m) as [r|e]; reflexivity.
Qed.
(** For the sum without any condition. *)
Theorem C100_without_nan_sum : forall axis (m : arr R) d,
  q_nanred NanSum axis (Qty (amap Some m) d) =
    rmap (fun r => Qty (amap Some (mag r)) (qdim r)) (q_red RedSum axis (Qty m d)).
Proof.
  intros axis m d. unfold q_nanred, q_red. cbn [mag qdim]. rewrite amap_shp.
  destruct (norm_axis _ axis) as [ax|]; cbn [bind rmap]; [|reflexivity].
  rewrite areduce_amap.
  rewrite (areduce_ext _ (fun l => Some (red_fun RedSum l))) by (intros l; cbn [nan_fun red_fun]; now rewrite somes_some).
  rewrite <- (rmap_areduce (red_fun RedSum) Some).
  destruct (areduce (red_fun RedSum) ax m) as [r|e]; reflexivity.
Qed.
Example C100_example :
  let q := Qty (Arr [2%nat; 3%nat] [Some (zq 1); None; Some (zq 3); None; None; None]) d_cm in
  q_nanred NanSum (Some (-1)%Z) q = Ok (Qty (Arr [2%nat] [Some (zq 4); Some (zq 0)]) d_cm) /\
  q_nanred NanMean (Some 1%Z) q = Ok (Qty (Arr [2%nat] [Some (zq 2); None]) d_cm) /\
  q_nanred NanMean None q = Ok (Qty (scalar (Some (zq 2))) d_cm) /\
  q_nanred NanSum (Some 2%Z) q = Err ValueError.
Proof. cbn zeta. repeat split; vm_compute; reflexivity. Qed.

(** C101 *)
(** [nanmax], [nanmin]: the greatest and smallest number of the whole array, NaN if there
    is none, whatever the axis; [nanargmax], [nanargmin]: the position of its first
    occurrence. *)
Theorem C101_nanmax : forall axis (q : qty (option R)), qty_ok q ->
  (dat (mag q) = [] -> qn_max axis q = Err ValueError /\ qn_min axis q = Err ValueError) /\
  (dat (mag q) <> [] -> exists hi lo,
     qn_max axis q = Ok (Qty (scalar hi) (qdim q)) /\ qn_min axis q = Ok (Qty (scalar lo) (qdim q)) /\
     forall phi, let l := somes (dat (physo phi q)) in
       (l = [] -> hi = None /\ lo = None) /\
       (l <> [] -> exists a b, physo phi (Qty (scalar hi) (qdim q)) = scalar (Some a) /\ is_max l a /\
                               physo phi (Qty (scalar lo) (qdim q)) = scalar (Some b) /\ is_min l b)).
Proof.
  intros axis q _. unfold qn_max, qn_min. split; [intros ->; split; reflexivity|]. intros Hne.
  assert (X : forall (T : Type) (a b : T), match dat (mag q) with [] => a | _ => b end = b).
  { intros T a b. destruct (dat (mag q)); [contradiction|reflexivity]. }
  exists (match somes (dat (mag q)) with [] => None | s => Some (lmax s) end),
         (match somes (dat (mag q)) with [] => None | s => Some (lmin s) end).
  split; [destruct (dat (mag q)); [contradiction|reflexivity]|].
  split; [destruct (dat (mag q)); [contradiction|reflexivity]|]. clear X. intros phi. cbn zeta.
  unfold physo. cbn [amap mag qdim dat]. rewrite somes_map. set (v := dimval phi (qdim q)).
  assert (Hv : 0 < v) by apply dimval_pos.
  destruct (somes (dat (mag q))) as [|x s] eqn:Es.
  - split; [auto|]. cbn. congruence.
  - split; [discriminate|]. intros _. exists (lmax (x :: s) * v), (lmin (x :: s) * v).
    split; [reflexivity|]. split; [rewrite <- (lmax_scale v (x :: s) Hv); now apply lmax_is_max|].
    split; [reflexivity|]. rewrite <- (lmin_scale v (x :: s) Hv). now apply lmin_is_min.
Qed.
Lemma find_val_spec (m : R) : forall l k, In m (somes l) -> exists i, find_val m k l = Some (k + i)%nat /\
  nth_error l i = Some (Some m) /\ forall j, (j < i)%nat -> nth_error l j <> Some (Some m).
Proof.
  induction l as [|[x|] l IH]; intros k H; cbn [somes find_val] in *.
  - destruct H.
  - cbn [neqb NumR]. destruct (Reqb x m) eqn:X.
    + unfold Reqb in X. destruct (Req_EM_T x m) as [->|]; [|discriminate]. exists 0%nat. split; [f_equal; lia|].
      split; [reflexivity|]. intros j Hj. lia.
    + unfold Reqb in X. destruct (Req_EM_T x m) as [|Ne]; [discriminate|]. destruct H as [H|H]; [contradiction|].
      destruct (IH (S k) H) as (i & F & G & J). exists (S i). split; [rewrite F; f_equal; lia|]. split; [exact G|].
      intros [|j] Hj; cbn; [congruence|]. apply J. lia.
  - destruct (IH (S k) H) as (i & F & G & J). exists (S i). split; [rewrite F; f_equal; lia|]. split; [exact G|].
    intros [|j] Hj; cbn; [congruence|]. apply J. lia.
Qed.
(** [i] is the first position of the extremum [is_ext] among the numbers of [l]. *)
Definition first_extremum (is_ext : list R -> R -> Prop) (l : list (option R)) (i : nat) : Prop :=
  exists m, is_ext (somes l) m /\ nth_error l i = Some (Some m) /\ forall j, (j < i)%nat -> nth_error l j <> Some (Some m).
Lemma first_ext_scale (is_ext : list R -> R -> Prop) l i v : 0 < v ->
  (forall s m, is_ext s m -> is_ext (map (fun x => x * v) s) (m * v)) ->
  first_extremum is_ext l i -> first_extremum is_ext (map (option_map (fun x => x * v)) l) i.
Proof.
  intros Hv Hs (m & M & Hi & Hj). exists (m * v). rewrite somes_map. split; [auto|]. rewrite nth_error_map, Hi. split; [reflexivity|].
  intros j Lj. rewrite nth_error_map. destruct (nth_error l j) as [[x|]|] eqn:X; cbn [option_map]; [|congruence..].
  intros E. assert (x * v = m * v) by congruence. assert (x = m) by (apply (Rmult_eq_reg_r v); lra). subst. now apply (Hj j Lj).
Qed.
Lemma is_max_scale v s m : 0 < v -> is_max s m -> is_max (map (fun x => x * v) s) (m * v).
Proof.
  intros Hv [I B]. split; [now apply (in_map (fun x => x * v))|]. intros y Hy. apply in_map_iff in Hy.
  destruct Hy as (x & <- & Hx). apply Rmult_le_compat_r; [lra|auto].
Qed.
Lemma is_min_scale v s m : 0 < v -> is_min s m -> is_min (map (fun x => x * v) s) (m * v).
Proof.
  intros Hv [I B]. split; [now apply (in_map (fun x => x * v))|]. intros y Hy. apply in_map_iff in Hy.
  destruct Hy as (x & <- & Hx). apply Rmult_le_compat_r; [lra|auto].
Qed.
Theorem C101_nanargmax : forall axis (q : qty (option R)) phi,
  (somes (dat (mag q)) = [] -> qn_argmax axis q = Err ValueError /\ qn_argmin axis q = Err ValueError) /\
  (somes (dat (mag q)) <> [] -> exists i j, qn_argmax axis q = Ok i /\ qn_argmin axis q = Ok j /\
     first_extremum is_max (dat (physo phi q)) i /\ first_extremum is_min (dat (physo phi q)) j).
Proof.
  intros axis q phi. unfold qn_argmax, qn_argmin. split; [intros ->; split; reflexivity|]. intros Hne.
  assert (M1 := lmax_is_max _ Hne). assert (M2 := lmin_is_min _ Hne).
  destruct (find_val_spec (lmax (somes (dat (mag q)))) (dat (mag q)) 0 (proj1 M1)) as (i & F1 & G1 & J1).
  destruct (find_val_spec (lmin (somes (dat (mag q)))) (dat (mag q)) 0 (proj1 M2)) as (j & F2 & G2 & J2).
  exists i, j. destruct (somes (dat (mag q))) as [|x s] eqn:Es; [contradiction|]. rewrite F1, F2.
  split; [reflexivity|]. split; [reflexivity|]. set (v := dimval phi (qdim q)). assert (Hv : 0 < v) by apply dimval_pos.
  split; (apply first_ext_scale; [exact Hv| |]).
  - intros s' m. now apply is_max_scale.
  - exists (lmax (x :: s)). rewrite Es. auto.
  - intros s' m. now apply is_min_scale.
  - exists (lmin (x :: s)). rewrite Es. auto.
Qed.
(** The axis argument is ignored; NumPy's functions of the same name would reduce along
    it. *)
Theorem C101_axis_ignored : forall A (N : Num A) axis axis' (q : qty (option A)),
  qn_max axis q = qn_max axis' q /\ qn_min axis q = qn_min axis' q /\
  qn_argmax axis q = qn_argmax axis' q /\ qn_argmin axis q = qn_argmin axis' q.
Proof. intros. do 3 (split; [reflexivity|]). reflexivity. Qed.
Theorem C101_axis_refuted : exists (q : qty (option Qc)) axis r, qn_max axis q = Ok r /\
  (forall s, q_nanred NanSum axis q = Ok s -> shp (mag r) <> shp (mag s)) /\ (exists s, q_nanred NanSum axis q = Ok s).
Proof.
  exists (Qty (Arr [2%nat; 2%nat] [Some (zq 1); None; Some (zq 2); Some (zq 3)]) d_m), (Some 0%Z). eexists.
  split; [vm_compute; reflexivity|]. split; [|eexists; vm_compute; reflexivity].
  intros s H. vm_compute in H. assert (s = s) by reflexivity. injection H as <-. vm_compute. discriminate.
Qed.
Example C101_example :
  let q := Qty (Arr [5%nat] [Some (zq 2); None; Some (zq 7); Some (zq 7); Some (zq 1)]) d_cm in
  qn_max None q = Ok (Qty (scalar (Some (zq 7))) d_cm) /\ qn_min (Some 0%Z) q = Ok (Qty (scalar (Some (zq 1))) d_cm) /\
  qn_argmax None q = Ok 2%nat /\ qn_argmin None q = Ok 4%nat /\
  qn_max None (Qty (Arr [1%nat] [@None Qc]) d_cm) = Ok (Qty (scalar None) d_cm) /\
  qn_argmax None (Qty (Arr [1%nat] [@None Qc]) d_cm) = Err ValueError.
Proof. cbn zeta. repeat split; vm_compute; reflexivity. Qed.

(** C102 *)
(** The computation of references and conversion factors does not see NaN: units are
    defined by numbers. *)
Section Lift.
  Context {A : Type} {N : Num A}.
  Let lp (x : A * dims) : option A * dims := (Some (fst x), snd x).
  Lemma lift_lookup (E : uenv A) u : ulookup (lift_env E) u = option_map (@lift_rec A) (ulookup E u).
  Proof.
    unfold ulookup, lift_env. induction E as [|[k r] E IH]; [reflexivity|]. cbn [map dget fst snd].
    destruct (uid_eqb u k); [reflexivity|exact IH].
  Qed.
  Lemma lift_unit_ref (E : uenv A) u : @unit_ref _ NumO (lift_env E) u = lp (unit_ref E u).
  Proof.
    unfold unit_ref. rewrite lift_lookup. destruct (ulookup E u) as [r|]; [|reflexivity]. cbn [option_map lift_rec ur_ref].
    destruct (ur_ref r) as [[a d]|]; reflexivity.
  Qed.
  Lemma lift_ref_pair (E : uenv A) d : @ref_pair _ NumO (lift_env E) d = lp (ref_pair E d).
  Proof.
    unfold ref_pair.
    assert (G : forall acc, fold_left (@ref_step _ NumO (lift_env E)) d (lp acc) = lp (fold_left (ref_step E) d acc)).
    { induction d as [|[u p] d IH]; intros acc; [reflexivity|]. cbn [fold_left]. rewrite <- IH. f_equal.
      unfold ref_step. rewrite lift_unit_ref. reflexivity. }
    exact (G (n1, [])).
  Qed.
  Lemma lift_conv_factor (E : uenv A) d1 d2 : @conv_factor _ NumO (lift_env E) d1 d2 = rmap Some (conv_factor E d1 d2).
  Proof.
    unfold conv_factor, qty_ref. rewrite !lift_ref_pair. cbn [fst snd lp].
    destruct (dim_eqb (snd (ref_pair E d1)) (snd (ref_pair E d2))); reflexivity.
  Qed.
  Lemma lift_rescale (E : uenv A) (q : qty (option A)) d : @rescale_to _ NumO (lift_env E) q d =
    if dim_eqb (qdim q) d then Ok q
    else match conv_factor E (qdim q) d with
         | Ok cf => Ok (Qty (amap (option_map (fun x => nmul cf x)) (mag q)) d)
         | Err AssertionError => Err ValueError
         | Err e => Err e
         end.
  Proof.
    unfold rescale_to. destruct (dim_eqb (qdim q) d); [reflexivity|]. rewrite lift_conv_factor.
    destruct (conv_factor E (qdim q) d) as [cf|e]; [|destruct e; reflexivity]. cbn [rmap]. do 2 f_equal.
  Qed.
  Let rlp (x : res (A * dims)) : res (option A * dims) := rmap lp x.
  Lemma lift_simp_unit (E : uenv A) D : forall fuel u, @simp_unit _ NumO fuel (lift_env E) D u = rlp (simp_unit fuel E D u).
  Proof.
    induction fuel as [|fuel IH]; intros u; [reflexivity|]. cbn [simp_unit].
    destruct (is_irreducible (u_cls u)).
    - destruct (D (u_cls u)) as [dd|]; [|reflexivity]. destruct (dim_eqb (unit_dims u) dd); [reflexivity|].
      rewrite lift_conv_factor. destruct (conv_factor E (unit_dims u) dd) as [cf|e]; [reflexivity|destruct e; reflexivity].
    - rewrite lift_lookup. destruct (ulookup E u) as [r|]; cbn [option_map]; [|apply IH].
      cbn [lift_rec ur_ref]. destruct (ur_ref r) as [[a d]|]; cbn [option_map fst snd]; [|apply IH].
      assert (G : forall d acc, fold_left (fun acc kv => rq <- acc ;; x <- @simp_unit _ NumO fuel (lift_env E) D (fst kv) ;;
                      Ok (@sc_mul_pow _ NumO rq x (snd kv))) d (rlp acc) =
                    rlp (fold_left (fun acc kv => rq <- acc ;; x <- simp_unit fuel E D (fst kv) ;;
                      Ok (sc_mul_pow rq x (snd kv))) d acc)).
      { clear - IH. induction d as [|kv d IHd]; intros acc; [reflexivity|]. cbn [fold_left]. rewrite <- IHd. f_equal.
        destruct acc as [x|e]; [|reflexivity]. cbn [rlp rmap bind]. rewrite IH.
        destruct (simp_unit fuel E D (fst kv)) as [y|e]; reflexivity. }
      refine (eq_trans (f_equal (fun z => bind z _) (G d (Ok (n1, [])))) _).
      match goal with |- context [rlp ?z] => destruct z as [x|e]; reflexivity end.
  Qed.
  Lemma lift_simp_dims (E : uenv A) D fuel d : @simp_dims _ NumO fuel (lift_env E) D d = rlp (simp_dims fuel E D d).
  Proof.
    unfold simp_dims.
    assert (G : forall d acc, fold_left (fun acc kv => rq <- acc ;; x <- @simp_unit _ NumO fuel (lift_env E) D (fst kv) ;;
                      Ok (@sc_mul_pow _ NumO rq x (snd kv))) d (rlp acc) =
                    rlp (fold_left (fun acc kv => rq <- acc ;; x <- simp_unit fuel E D (fst kv) ;;
                      Ok (sc_mul_pow rq x (snd kv))) d acc)).
    { clear. induction d as [|kv d IHd]; intros acc; [reflexivity|]. cbn [fold_left]. rewrite <- IHd. f_equal.
      destruct acc as [x|e]; [|reflexivity]. cbn [rlp rmap bind]. rewrite lift_simp_unit.
      destruct (simp_unit fuel E D (fst kv)) as [y|e]; reflexivity. }
    exact (G d (Ok (n1, []))).
  Qed.
End Lift.

(** [rescale] and [simplified] keep the value of every number and leave NaN where it
    is; they succeed exactly as on data without NaN. *)
Lemma omap_mul (v w c : R) (a : arr (option R)) : v = c * w ->
  amap (option_map (fun x => x * w)) (amap (option_map (fun x => c * x)) a) = amap (option_map (fun x => x * v)) a.
Proof. intros ->. rewrite amap_amap. apply amap_ext. intros [x|] _; [|reflexivity]. cbn. f_equal. ring. Qed.
Lemma rescaleo_value (E : uenv R) (q : qty (option R)) d r phi : renv_ok E -> dims_ok (qdim q) -> dims_ok d -> consistent E phi ->
  @rescale_to _ NumO (lift_env E) q d = Ok r -> physo phi r = physo phi q.
Proof.
  intros HE Hq Hd HC. rewrite lift_rescale. destruct (dim_eqb (qdim q) d) eqn:X; [intros H; congruence|].
  destruct (conv_factor E (qdim q) d) as [cf|e] eqn:Ec; [|destruct e; discriminate].
  intros H. assert (r = Qty (amap (option_map (fun x => nmul cf x)) (mag q)) d) as -> by congruence. clear H.
  apply (proj1 (conv_factor_spec E (qdim q) d HE Hq Hd)) in Ec. unfold physo. cbn [mag qdim nmul NumR].
  apply omap_mul. exact (Ec phi HC).
Qed.
Theorem C102_rescale : forall E (q : qty (option R)) d,
  renv_ok E -> qty_ok q -> dims_ok d ->
  ((exists r, @rescale_to _ NumO (lift_env E) q d = Ok r) <-> convertible E (qdim q) d) /\
  (forall e, @rescale_to _ NumO (lift_env E) q d = Err e -> e = ValueError) /\
  (forall r, @rescale_to _ NumO (lift_env E) q d = Ok r ->
     (forall u, exp_of (qdim r) u = exp_of d u) /\ shp (mag r) = shp (mag q) /\
     (forall idx, aget (mag r) idx = Some None <-> aget (mag q) idx = Some None) /\
     forall phi, consistent E phi -> physo phi r = physo phi q).
Proof.
  intros E q d HE [W Hq] Hd. split; [|split].
  - rewrite <- (rescale_ok_iff E (Qty (scalar 0) (qdim q)) d HE Hq Hd). rewrite lift_rescale. unfold rescale_to. cbn [qdim mag].
    destruct (dim_eqb (qdim q) d); [split; eauto|].
    destruct (conv_factor E (qdim q) d) as [cf|e]; [split; eauto|]. destruct e; split; intros [r H]; discriminate.
  - intros e. exact (@rescale_to_err _ NumO (lift_env E) q d e).
  - intros r H. split; [exact (@rescale_to_dim _ NumO (lift_env E) q d r (proj1 Hq) (proj1 Hd) H)|].
    split; [exact (@rescale_to_shape _ NumO (lift_env E) q d r H)|]. split.
    + intros idx. rewrite lift_rescale in H. destruct (dim_eqb (qdim q) d); [assert (r = q) as -> by congruence; reflexivity|].
      destruct (conv_factor E (qdim q) d) as [cf|e]; [|destruct e; discriminate].
      assert (r = Qty (amap (option_map (fun x => nmul cf x)) (mag q)) d) as -> by congruence. cbn [mag].
      unfold aget. cbn [amap shp dat]. rewrite at_idx_map. destruct (at_idx (shp (mag q)) (dat (mag q)) idx) as [[x|]|]; cbn; split; congruence.
    + intros phi HC. exact (rescaleo_value E q d r phi HE Hq Hd HC H).
Qed.
Theorem C102_simplified : forall E D fuel (q r : qty (option R)),
  renv_ok E -> (forall c dd, D c = Some dd -> dims_ok dd) -> qty_ok q ->
  @simplified _ NumO fuel (lift_env E) D q = Ok r ->
  (exists s, simplified fuel E D (Qty (scalar 1) (qdim q)) = Ok s /\ qdim r = qdim s) /\
  forall phi, consistent E phi -> physo phi r = physo phi q.
Proof.
  intros E D fuel q r HE HD [W Hq] H. unfold simplified in H. rewrite lift_simp_dims in H.
  destruct (simp_dims fuel E D (qdim q)) as [[c d']|e] eqn:Es; [|discriminate]. cbn [rmap bind fst snd] in H.
  assert (r = Qty (amap (option_map (fun x => c * x)) (mag q)) d') as -> by (unfold olift2 in H; cbn in H; injection H as <-; f_equal; apply amap_ext; intros [x|] _; reflexivity).
  assert (S : simplified fuel E D (Qty (scalar 1) (qdim q)) = Ok (Qty (scalar (c * 1)) d')).
  { unfold simplified. cbn [qdim]. rewrite Es. reflexivity. }
  split; [eexists; split; [exact S|reflexivity]|]. intros phi HC.
  assert (Q1 : qty_ok (Qty (scalar 1) (qdim q))) by (split; [reflexivity|exact Hq]).
  destruct (C17_simplified_preserves_value E D fuel _ _ HE HD Q1 S) as (V & _ & _ & _).
  specialize (V phi HC). unfold phys, scalar, amap in V. cbn [mag qdim shp dat map] in V.
  assert (V' : c * 1 * dimval phi d' = 1 * dimval phi (qdim q)) by (injection V; auto).
  unfold physo. cbn [mag qdim]. apply omap_mul. lra.
Qed.

(** [simplified] succeeds, and raises, as for data without NaN. *)
Theorem C102_simplified_defined : forall E D fuel (q : qty (option R)),
  ((exists r, @simplified _ NumO fuel (lift_env E) D q = Ok r) <-> exists s, simplified fuel E D (Qty (scalar 1) (qdim q)) = Ok s) /\
  (forall e, @simplified _ NumO fuel (lift_env E) D q = Err e <-> simplified fuel E D (Qty (scalar 1) (qdim q)) = Err e).
Proof.
  intros E D fuel q. unfold simplified. rewrite lift_simp_dims. cbn [qdim mag].
  destruct (simp_dims fuel E D (qdim q)) as [[c d']|e]; cbn [rmap bind].
  - split; [split; eauto|]. intros e. split; discriminate.
  - split; [split; intros [x X]; discriminate|]. intros e'. split; congruence.
Qed.

(** Sums and differences: NaN where one of the operands is NaN, otherwise the sum of the
    values.  Comparisons with NaN are false, [!=] is true. *)
Lemma apply2o_uniform (f : R -> R -> R) q1 q2 r phi : wf_dims (qdim q1) -> wf_dims (qdim q2) -> homog f ->
  @apply2 _ NumO _ (olift2 f) RUniform (OQ q1) (OQ q2) = Ok r ->
  qdim r = qdim q1 /\ amap2 (olift2 f) (physo phi q1) (physo phi q2) = Ok (physo phi r).
Proof.
  intros W1 W2 Hf H. destruct (@apply2_uniform_inv _ _ NumO (olift2 f) q1 q2 r H) as (E & D & M). split; [exact D|].
  unfold physo. rewrite D, <- (dimval_eqb phi _ _ W1 W2 E). rewrite amap2_amap.
  rewrite (amap2_ext _ (fun x y => option_map (fun z => z * dimval phi (qdim q1)) (olift2 f x y))).
  - rewrite <- rmap_amap_amap2, M. reflexivity.
  - intros [x|] [y|]; cbn; auto. f_equal. apply Hf. apply dimval_pos.
Qed.
Lemma scaleo E (self q : qty (option R)) o phi : renv_ok E -> dims_ok (qdim self) -> dims_ok (qdim q) -> consistent E phi ->
  @scale_other _ NumO (lift_env E) self (OQ q) = Ok o ->
  dims_ok (qdim o) /\ dim_eqb (qdim o) (qdim self) = true /\ physo phi o = physo phi q.
Proof.
  intros HE Hs Hq HC H. rewrite scale_other_rescale in H. cbn [as_q] in H.
  split; [|split].
  - rewrite lift_rescale in H. destruct (dim_eqb (qdim q) (qdim self)); [congruence|].
    destruct (conv_factor E (qdim q) (qdim self)) as [cf|e]; [|destruct e; discriminate]. injection H as <-. exact Hs.
  - exact (@rescale_to_eqb _ NumO (lift_env E) q (qdim self) o (proj1 Hq) (proj1 Hs) H).
  - exact (rescaleo_value E q (qdim self) o phi HE Hq Hs HC H).
Qed.
Theorem C102_add_sub : forall E (q1 q2 r : qty (option R)) phi,
  renv_ok E -> qty_ok q1 -> qty_ok q2 -> consistent E phi ->
  (@q_add _ NumO (lift_env E) q1 (OQ q2) = Ok r ->
     qdim r = qdim q1 /\ amap2 (olift2 Rplus) (physo phi q1) (physo phi q2) = Ok (physo phi r)) /\
  (@q_sub _ NumO (lift_env E) q1 (OQ q2) = Ok r ->
     qdim r = qdim q1 /\ amap2 (olift2 Rminus) (physo phi q1) (physo phi q2) = Ok (physo phi r)).
Proof.
  intros E q1 q2 r phi HE [W1 H1] [W2 H2] HC.
  assert (G : forall f, homog f -> (o <- @scale_other _ NumO (lift_env E) q1 (OQ q2) ;; @apply2 _ NumO _ (olift2 f) RUniform (OQ q1) (OQ o)) = Ok r ->
     qdim r = qdim q1 /\ amap2 (olift2 f) (physo phi q1) (physo phi q2) = Ok (physo phi r)).
  { intros f Hf H. destruct (@scale_other _ NumO (lift_env E) q1 (OQ q2)) as [o|] eqn:Eo; cbn [bind] in H; [|discriminate].
    destruct (scaleo E q1 q2 o phi HE H1 H2 HC Eo) as (Do & _ & Po). rewrite <- Po.
    exact (apply2o_uniform f q1 o r phi (proj1 H1) (proj1 Do) Hf H). }
  split; intros H; [exact (G Rplus homog_add H)|exact (G Rminus homog_sub H)].
Qed.
(** Sums and differences are defined as without NaN. *)
Theorem C102_add_sub_defined : forall E (q1 q2 : qty (option R)) op,
  renv_ok E -> qty_ok q1 -> qty_ok q2 ->
  op = @q_add _ NumO \/ op = @q_sub _ NumO ->
  ((exists r, op (lift_env E) q1 (OQ q2) = Ok r) <->
   convertible E (qdim q2) (qdim q1) /\ broadcast (shp (mag q1)) (shp (mag q2))) /\
  (forall e, op (lift_env E) q1 (OQ q2) = Err e -> e = ValueError).
Proof.
  intros E q1 q2 op HE H1 H2 Hop.
  assert (G : forall f : R -> R -> R,
    ((exists r, (o <- @scale_other _ NumO (lift_env E) q1 (OQ q2) ;; @apply2 _ NumO _ (olift2 f) RUniform (OQ q1) (OQ o)) = Ok r) <->
     convertible E (qdim q2) (qdim q1) /\ broadcast (shp (mag q1)) (shp (mag q2))) /\
    (forall e, (o <- @scale_other _ NumO (lift_env E) q1 (OQ q2) ;; @apply2 _ NumO _ (olift2 f) RUniform (OQ q1) (OQ o)) = Err e -> e = ValueError)).
  { intros f. rewrite scale_other_rescale. cbn [as_q].
    destruct (C102_rescale E q2 (qdim q1) HE H2 (proj2 H1)) as (Cv & Ce & Cp).
    destruct (@rescale_to _ NumO (lift_env E) q2 (qdim q1)) as [o|e] eqn:Eo; cbn [bind].
    - destruct (Cp o eq_refl) as (Hd & Hs & _). pose proof (proj1 Cv (ex_intro _ o eq_refl)) as HC.
      assert (He : dim_eqb (qdim o) (qdim q1) = true) by exact (@rescale_to_eqb _ NumO (lift_env E) q2 (qdim q1) o (proj1 (proj2 H2)) (proj1 (proj2 H1)) Eo).
      assert (Ho : qty_ok o) by exact (@rescale_to_qty_ok _ NumO (lift_env E) q2 (qdim q1) o H2 (proj2 H1) Eo).
      unfold apply2. cbn [odat pd2]. rewrite (dim_eqb_sym _ _ (proj1 (proj2 H1)) (proj1 (proj2 Ho))), He. rewrite <- Hs.
      destruct (amap2 (olift2 f) (mag q1) (mag o)) as [m|e] eqn:Em; cbn [bind].
      + split; [|discriminate]. split; [|eauto]. intros _. split; [exact HC|]. apply (amap2_ok (olift2 f)). eauto.
      + split; [|intros e' X; injection X as <-; exact (amap2_err _ _ _ Em)]. split; [intros [x X]; discriminate|].
        intros [_ B]. apply (amap2_ok (olift2 f)) in B. destruct B as [y Y]. congruence.
    - split; [|intros e' X; injection X as <-; now apply Ce]. split; [intros [x X]; discriminate|]. intros [X _].
      apply Cv in X. destruct X; discriminate. }
  destruct Hop as [-> | ->]; [exact (G Rplus)|exact (G Rminus)].
Qed.
(** The outcome of a comparison of possibly missing values. *)
Definition holdso (c : ucmp) (x y : option R) : Prop :=
  match x, y with
  | Some a, Some b => holds c a b
  | _, _ => c = UNe
  end.
Lemma ncmpo c (x y : option R) : @ncmp _ NumO c x y = true <-> holdso c x y.
Proof.
  destruct x as [x|], y as [y|]; cbn [holdso].
  - rewrite <- ncmp_holds. destruct c; reflexivity.
  - destruct c; cbn; split; congruence.
  - destruct c; cbn; split; congruence.
  - destruct c; cbn; split; congruence.
Qed.
Lemma ncmpo_scale c (x y : option R) v : 0 < v ->
  @ncmp _ NumO c (option_map (fun a => a * v) x) (option_map (fun a => a * v) y) = @ncmp _ NumO c x y.
Proof.
  intros Hv. apply eq_true_iff_eq. rewrite !ncmpo. destruct x as [x|], y as [y|]; cbn [option_map holdso]; [|reflexivity..].
  rewrite <- !ncmp_holds, ncmp_scale by exact Hv. reflexivity.
Qed.
Theorem C102_comparisons : forall E c (q1 q2 : qty (option R)) b phi idx t,
  renv_ok E -> qty_ok q1 -> qty_ok q2 -> consistent E phi -> convertible E (qdim q2) (qdim q1) ->
  (match c with UEq | UNe => @q_eqne _ NumO (lift_env E) c q1 (OQ q2) | _ => @q_order _ NumO (lift_env E) c q1 (OQ q2) end) = Ok b ->
  aget b idx = Some t ->
  exists x y, aget (physo phi q1) (operand_index (shp (mag q1)) idx) = Some x /\
              aget (physo phi q2) (operand_index (shp (mag q2)) idx) = Some y /\
              (t = true <-> holdso c x y).
Proof.
  intros E c q1 q2 b phi idx t HE [W1 H1] [W2 H2] HC CV H Ht.
  assert (H' : (r <- @rescale_to _ NumO (lift_env E) q2 (qdim q1) ;; amap2 (@ncmp _ NumO c) (mag q1) (mag r)) = Ok b).
  { destruct (proj2 (proj1 (C102_rescale E q2 (qdim q1) HE (conj W2 H2) H1)) CV) as [r Hr].
    destruct c; [unfold q_eqne in H..| | | |]; try (rewrite Hr in H; rewrite Hr; exact H); rewrite q_order_rescale in H; exact H. }
  clear H. destruct (@rescale_to _ NumO (lift_env E) q2 (qdim q1)) as [r|] eqn:Hr; cbn [bind] in H'; [|discriminate].
  assert (X : amap2 (@ncmp _ NumO c) (physo phi q1) (physo phi q2) = Ok b).
  { rewrite <- (rescaleo_value E q2 (qdim q1) r phi HE H2 H1 HC Hr). rewrite <- H'.
    assert (He := @rescale_to_eqb _ NumO (lift_env E) q2 (qdim q1) r (proj1 H2) (proj1 H1) Hr).
    assert (Wr : wf_dims (qdim r)).
    { assert (Q := @rescale_to_qty_ok _ NumO (lift_env E) q2 (qdim q1) r (conj W2 H2) H1 Hr). apply Q. }
    unfold physo. rewrite (dimval_eqb phi _ _ Wr (proj1 H1) He). rewrite amap2_amap. apply amap2_ext.
    intros x y. apply ncmpo_scale. apply dimval_pos. }
  destruct (amap2_get _ _ _ _ idx t (awf_amap _ W1) (awf_amap _ W2) X Ht) as (x & y & Hx & Hy & ->).
  exists x, y. split; [exact Hx|]. split; [exact Hy|]. apply ncmpo.
Qed.
(** So a quantity that contains NaN is not equal to itself. *)
Theorem C102_nan_not_equal : forall E (q : qty (option R)) b idx,
  renv_ok E -> qty_ok q -> in_range (shp (mag q)) idx -> aget (mag q) idx = Some None ->
  @q_eqne _ NumO (lift_env E) UEq q (OQ q) = Ok b -> aget b idx = Some false.
Proof.
  intros E q b idx HE [W H] HR Hn Hb. unfold q_eqne in Hb.
  assert (Rr : @rescale_to _ NumO (lift_env E) q (qdim q) = Ok q).
  { apply (@rescale_to_same _ NumO (lift_env E) q (qdim q)). apply dim_eqb_refl. apply H. }
  rewrite Rr in Hb.
  assert (X := @amap2_same_shape _ _ _ (@ncmp _ NumO UEq) (mag q) (mag q) W W eq_refl). rewrite X in Hb.
  assert (b = Arr (shp (mag q)) (zip_with (@ncmp _ NumO UEq) (dat (mag q)) (dat (mag q)))) as -> by congruence.
  assert (Z : zip_with (@ncmp _ NumO UEq) (dat (mag q)) (dat (mag q)) = map (fun x => @ncmp _ NumO UEq x x) (dat (mag q))).
  { generalize (dat (mag q)). intros l. induction l as [|x l IH]; cbn [zip_with map]; congruence. }
  rewrite Z. unfold aget in *. cbn [shp dat]. rewrite at_idx_map, Hn. reflexivity.
Qed.
Example C102_example :
  @rescale_to _ NumO (lift_env exE) (Qty (Arr [2%nat] [Some (zq 3); None]) d_m) d_cm =
    Ok (Qty (Arr [2%nat] [Some (zq 300); None]) d_cm) /\
  @q_add _ NumO (lift_env exE) (Qty (Arr [2%nat] [Some (zq 3); None]) d_m) (OQ (Qty (Arr [2%nat] [Some (zq 100); Some (zq 1)]) d_cm)) =
    Ok (Qty (Arr [2%nat] [Some (zq 4); None]) d_m) /\
  @q_order _ NumO (lift_env exE) ULt (Qty (Arr [2%nat] [Some (zq 3); None]) d_m) (OQ (Qty (scalar (Some (zq 500))) d_cm)) =
    Ok (Arr [2%nat] [true; false]).
Proof. split; [vm_compute; reflexivity|]. split; vm_compute; reflexivity. Qed.

Print Assumptions C100_somes.
Print Assumptions C100_nan_reductions.
Print Assumptions C100_defined.
Print Assumptions C100_without_nan.
Print Assumptions C100_without_nan_sum.
Print Assumptions C101_nanmax.
Print Assumptions C101_nanargmax.
Print Assumptions C101_axis_ignored.
Print Assumptions C101_axis_refuted.
Print Assumptions C102_rescale.
Print Assumptions C102_simplified.
Print Assumptions C102_simplified_defined.
Print Assumptions C102_add_sub.
Print Assumptions C102_add_sub_defined.
Print Assumptions C102_comparisons.
Print Assumptions C102_nan_not_equal.
