(** * Props_Double: conversions in double precision with its range of exponents (C123, C124). *)
From Coq Require Import Reals Lra Lia Qreals Qabs Ascii NArith FunctionalExtensionality.
From Verif Require Import Py Num Dim DimFacts Arr ArrFacts Units Spec UnitFacts Quant QuantFacts ConvFacts Ufunc Ops OpsFacts
     Text Lex Registry RegFacts HistFacts Table Import TableFacts SpecSizes Props_Table Float SpecFloat FloatFacts LibFloat Props_Float
     Double SpecDouble DoubleFacts LibDouble.

Open Scope list_scope.
Open Scope R_scope.

(** ** C123: conversions *)
(** Specification-level: the array of finite doubles [a]. *)
Definition finite (a : arr R) : arr (option R) := amap (@Some R) a.

(** With overflow and subnormal numbers modelled, a conversion of numbers of moderate size
    between units whose definitions are of moderate size succeeds and fails as in exact
    arithmetic, no element overflows, and every element is the exact result up to the
    number of roundings. *)
Theorem C123_accuracy : forall pw w (ED : uenv (option R)) (ER : uenv R) (a : arr R) d d',
  faithfulD pw -> env_nearD pw w ED ER -> roundings w d + roundings w d' <= 480 -> Forall moderate (dat a) ->
  match @rescale_to _ (NumD pw) ED (Qty (finite a) d) d', @rescale_to R NumR ER (Qty a d) d' with
  | Ok r, Ok r' => qdim r = qdim r' /\ shp (mag r) = shp (mag r') /\
                   Forall2 (accurateD (roundings w d + roundings w d' + 4)) (dat (mag r)) (dat (mag r'))
  | Err e, Err e' => e = e'
  | _, _ => False
  end.
Proof.
  intros pw w ED ER a d d' Hpw HE HK Hm. pose proof (env_nearD_w _ _ _ _ HE) as Hw.
  pose proof (roundings_nn w d Hw). pose proof (roundings_nn w d' Hw).
  unfold rescale_to. cbn [qdim mag]. destruct (dim_eqb d d').
  - split; [reflexivity|]. split; [reflexivity|]. unfold finite. cbn [mag dat amap]. induction (dat a) as [|x l IH]; cbn [map]; constructor.
    + exists x. split; [reflexivity|]. apply accurate_refl. lra.
    + apply IH. now inversion Hm.
  - pose proof (conv_factor_nearD pw Hpw w ED ER d d' HE ltac:(lra)) as C.
    destruct (@conv_factor _ (NumD pw) ED d d') as [c|e], (@conv_factor R NumR ER d d') as [c'|e']; try contradiction.
    + cbn [qdim mag]. split; [reflexivity|]. split; [reflexivity|]. unfold finite. cbn [dat amap mag]. rewrite map_map.
      induction (dat a) as [|x l IH]; cbn [map]; constructor.
      * replace (roundings w d + roundings w d' + 4) with (roundings w d + roundings w d' + 3 + 1) by ring.
        apply scaleD_accurate; auto; [lra|]. now inversion Hm.
      * apply IH. now inversion Hm.
    + subst e'. now destruct e.
Qed.

(** ** The units of the library *)
(** Specification-level: the state of a process after [import quantities], with magnitudes in doubles. *)
Definition dlib (pw : R -> pynum -> option R) (fread : text -> Qc) : rstate (option R) := fst (@trun _ (NumD pw) (parse_arith fread) rempty library).
(** Specification-level: all counts are at most 164. *)
Definition check_sizes (W : counts) : bool := forallb (fun x => Qle_bool (snd x) 164) W.
Lemma dlib_checks fread : match drun (parse_arith fread) sempty [] library with
  | Some (_, W) => check_sizes W
  | None => false
  end = true.
Proof. vm_compute. reflexivity. Qed.
Lemma wR_size W : check_sizes W = true -> forall u, wR W u <= 164.
Proof.
  intros H u. unfold wR, wq. destruct (dget uid_eqb W u) as [k|] eqn:E.
  - apply dget_In in E; [|apply uid_eqb_eq]. unfold check_sizes in H. rewrite forallb_forall in H. specialize (H _ E). cbn [snd] in H.
    apply Qle_bool_iff, Qle_Rle in H. replace (Q2R 164) with 164 in H by (unfold Q2R; cbn; lra). exact H.
  - unfold Q2R. cbn. lra.
Qed.
Lemma dlib_lock pw fread : faithfulD pw -> snd (@trun _ (NumD pw) (parse_arith fread) rempty library) = Ok tt /\
  exists w sh, (forall u, w u <= 164) /\ sim (parse_arith fread) (lib fread) sh /\ lockD w (dlib pw fread) (lib fread) sh.
Proof.
  intros Hpw. pose proof (dlib_checks fread) as H. unfold dlib.
  destruct (drun (parse_arith fread) sempty [] library) as [[sh W]|] eqn:E; [|discriminate H].
  destruct (drun_ok pw Hpw (parse_arith fread) library [] rempty rempty sempty sh W (sim_empty _) lockD_empty (fun _ _ => eq_refl) E)
    as (stF & stR & EF & ER & HS & HL).
  assert (El : lib fread = stR) by (unfold lib; now rewrite ER). rewrite EF, El. cbn [fst snd]. split; [reflexivity|].
  exists (wR W), sh. split; [now apply wR_size|]. auto.
Qed.
Opaque lib library dlib.

(** Specification-level: two registries of the same units with definitions of the same units. *)
Definition same_defsD (ED : uenv (option R)) (ER : uenv R) : Prop :=
  forall u, match ulookup ED u, ulookup ER u with
            | Some r, Some r' => ur_ref r = None <-> ur_ref r' = None
            | None, None => True
            | _, _ => False
            end.
Lemma lockD_defs w E E' : Forall2 (omatchD w) E E' -> same_defsD E E'.
Proof.
  intros H u. unfold ulookup. induction H as [|[u0 r0] [u1 r1] E E' H HF IH]; cbn [dget]; auto.
  destruct H as (Hu & H1 & _). cbn [fst snd] in *. subst u1. destruct (uid_eqb u u0); auto.
Qed.
(** The import succeeds in double precision, with the same units under the same names, and
    every unit's size is finite, normal and within 2^-164 .. 2^164. *)
Theorem C123_import : forall pw fread, faithfulD pw ->
  snd (@trun _ (NumD pw) (parse_arith fread) rempty library) = Ok tt /\
  dkeys (objs (dlib pw fread)) = map entry_uid library /\
  (forall s, exists i, ctx_get (dlib pw fread) s = option_map (fun n => VUnit n) i /\ ctx_get (lib fread) s = option_map (fun n => VUnit n) i) /\
  (forall c, dflt (dlib pw fread) c = dflt (lib fread) c) /\
  same_defsD (objs (dlib pw fread)) (objs (lib fread)) /\
  exists w, (forall u, 0 <= w u <= 164) /\ env_nearD pw w (objs (dlib pw fread)) (objs (lib fread)).
Proof.
  intros pw fread Hpw. destruct (dlib_lock pw fread Hpw) as (Hok & w & sh & Hw & HS & HL). split; [exact Hok|].
  split; [|split; [|split; [|split]]].
  - rewrite <- (lib_keys fread). pose proof (ld_env _ _ _ _ HL) as HE. clear -HE. unfold dkeys.
    induction HE as [|o o' E E' H HE IH]; [reflexivity|]. cbn [map]. now rewrite IH, (proj1 H).
  - intros s. rewrite (ld_ctx _ _ _ _ HL), (sim_ctx _ _ _ HS). eexists. split; reflexivity.
  - intros c. now rewrite (ld_dflt _ _ _ _ HL), (sim_dflt _ _ _ HS).
  - exact (lockD_defs _ _ _ (ld_env _ _ _ _ HL)).
  - exists w. split; [intros u; split; [apply (ld_w _ _ _ _ HL)|apply Hw]|].
    exact (lockD_env_near pw w _ _ (fun u => proj1 (ld_w _ _ _ _ HL u)) (ld_env _ _ _ _ HL)).
Qed.
Lemma macheps_450 : 450 * macheps <= / 10 ^ 13.
Proof.
  unfold macheps. assert (450 * 10 ^ 13 <= 2 ^ 52).
  { replace (10 ^ 13) with 10000000000000 by lra. replace (2 ^ 52) with 4503599627370496 by lra. lra. }
  assert (0 < 2 ^ 52) by (apply pow_lt; lra). assert (0 < 10 ^ 13) by (apply pow_lt; lra).
  apply (Rmult_le_reg_r (2 ^ 52)); auto. rewrite Rmult_assoc, Rinv_l, Rmult_1_r by lra.
  apply (Rmult_le_reg_l (10 ^ 13)); auto. rewrite <- Rmult_assoc, Rinv_r, Rmult_1_l by lra. lra.
Qed.
(** Converting an array of moderate numbers between any two units of the library never
    overflows or loses accuracy: every element is finite and exact up to 1e-13. *)
Theorem C123_units : forall pw fread (a : arr R) u v, faithfulD pw -> Forall moderate (dat a) ->
  match @rescale_to _ (NumD pw) (objs (dlib pw fread)) (Qty (finite a) (unit_dims u)) (unit_dims v),
        @rescale_to R NumR (objs (lib fread)) (Qty a (unit_dims u)) (unit_dims v) with
  | Ok r, Ok r' => qdim r = qdim r' /\ shp (mag r) = shp (mag r') /\
                   Forall2 (fun x y => exists z, x = Some z /\ Rabs (z - y) <= / 10 ^ 13 * Rabs y) (dat (mag r)) (dat (mag r'))
  | Err e, Err e' => e = e'
  | _, _ => False
  end.
Proof.
  intros pw fread a u v Hpw Hm. destruct (C123_import pw fread Hpw) as (_ & _ & _ & _ & _ & w & Hw & HE).
  assert (Hr : forall x, roundings w (unit_dims x) <= 168).
  { intros x. unfold unit_dims. specialize (Hw x). destruct (u_cls x); cbn [roundings]; try lra;
      replace (Qc2R (pval (PInt 1))) with 1 by (unfold Qc2R, Q2R; cbn; lra); rewrite Rabs_R1; lra. }
  pose proof (Hr u) as Hu. pose proof (Hr v) as Hv.
  pose proof (C123_accuracy pw w (objs (dlib pw fread)) (objs (lib fread)) a (unit_dims u) (unit_dims v) Hpw HE ltac:(lra) Hm) as H.
  set (RF := @rescale_to _ (NumD pw) (objs (dlib pw fread)) (Qty (finite a) (unit_dims u)) (unit_dims v)) in *.
  set (RR := @rescale_to R NumR (objs (lib fread)) (Qty a (unit_dims u)) (unit_dims v)) in *.
  clearbody RF RR. destruct RF as [r|e], RR as [r'|e']; try contradiction; [|exact H].
  destruct H as (H1 & H2 & H3). split; [exact H1|]. split; [exact H2|].
  induction H3 as [|x y l l' H3 _ IH]; constructor; [|exact IH]. destruct H3 as (z & Ez & H3). exists z. split; [exact Ez|].
  unfold accurate in H3. eapply Rle_trans; [exact H3|].
  apply Rmult_le_compat_r; [apply Rabs_pos|]. eapply Rle_trans; [|apply macheps_450].
  assert (0 < macheps) by (apply Rinv_0_lt_compat, pow_lt; lra). apply Rmult_le_compat_r; lra.
Qed.

(** ** C124: [simplified] *)
(** Specification-level: outcomes of [simplified] at most [k] roundings apart. *)
Definition rcloseD (k : R) (x : res (option R * dims)) (y : res (R * dims)) : Prop :=
  match x, y with
  | Ok x, Ok y => snd x = snd y /\ nearD k (fst x) (fst y)
  | Err e, Err e' => e = e'
  | _, _ => False
  end.
(** Specification-level: a set of units that contains the units of their references, and whose simplified sizes
    are moderate. *)
Definition moderate_units (P : uid -> Prop) (w : uid -> R) (ER : uenv R) (D : defaults) : Prop :=
  forall u, P u ->
    (forall f, simp_roundings f w ER D u <= 400) /\
    (is_irreducible (u_cls u) = true -> forall dd, D (u_cls u) = Some dd -> roundings w (unit_dims u) + roundings w dd <= 400) /\
    (is_irreducible (u_cls u) = false -> forall r a d, ulookup ER u = Some r -> ur_ref r = Some (a, d) ->
       (forall v, In v (dkeys d) -> P v) /\ forall f, roundings (simp_roundings f w ER D) d <= 400).
Lemma simp_fold_nearD pw (Hpw : faithfulD pw) (P : uid -> Prop) (g : uid -> R) (fD : uid -> res (option R * dims)) (fR : uid -> res (R * dims)) :
  (forall v, P v -> rcloseD (g v) (fD v) (fR v)) -> (forall v, 0 <= g v) ->
  forall d accF accR k, (forall v, In v (dkeys d) -> P v) -> 0 <= k -> k + roundings g d <= 900 ->
  rcloseD k accF accR -> rcloseD (k + roundings g d)
    (fold_left (fun acc kv => rq <- acc ;; x <- fD (fst kv) ;; Ok (@sc_mul_pow _ (NumD pw) rq x (snd kv))) d accF)
    (fold_left (fun acc kv => rq <- acc ;; x <- fR (fst kv) ;; Ok (@sc_mul_pow R NumR rq x (snd kv))) d accR).
Proof.
  intros IH Hg. induction d as [|[v e] d IHd]; intros accF accR k HP Hk HB Ha; cbn [fold_left roundings] in *.
  - rewrite Rplus_0_r. exact Ha.
  - pose proof (roundings_nn g d Hg) as K1. pose proof (Rabs_pos (Qc2R (pval e))) as K2. pose proof (Hg v) as K3.
    assert (K4 : 0 <= Rabs (Qc2R (pval e)) * g v) by nra.
    replace (k + (Rabs (Qc2R (pval e)) * g v + 4 + roundings g d))
      with (k + (Rabs (Qc2R (pval e)) * g v + 3) + 1 + roundings g d) in * by ring.
    apply IHd; [intros x Hx; apply HP; now right|lra|lra|]. cbn [fst snd].
    destruct accF as [x|x], accR as [y|y]; try contradiction; cbn [bind]; [|exact Ha].
    specialize (IH v (HP v (or_introl eq_refl))). destruct (fD v) as [z|z], (fR v) as [z'|z']; try contradiction; cbn [bind]; [|exact IH].
    unfold sc_mul_pow. cbn [rcloseD fst snd]. destruct Ha as [H1 H2'], IH as [I1 I2]. split; [now rewrite H1, I1|].
    apply nearD_mul; [exact H2'| |lra]. apply (nearD_pow pw Hpw _ _ _ e); [exact I2|lra].
Qed.
Lemma simp_roundings_nn w (Hw : forall u, 0 <= w u) E D f : forall u, 0 <= simp_roundings f w E D u.
Proof.
  induction f as [|f IH]; intros u; cbn [simp_roundings]; [lra|].
  destruct (is_irreducible _); [destruct (D _) as [dd|]; [destruct (dim_eqb _ _)|]; try lra; pose proof (roundings_nn w (unit_dims u) Hw); pose proof (roundings_nn w dd Hw); lra|].
  destruct (ulookup E u) as [r|]; auto. destruct (ur_ref r) as [[a d]|]; auto. pose proof (Hw u).
  pose proof (roundings_nn (simp_roundings f w E D) d IH). lra.
Qed.
Lemma simp_nearD pw w (ED : uenv (option R)) (ER : uenv R) D P : faithfulD pw -> env_nearD pw w ED ER -> same_defsD ED ER ->
  moderate_units P w ER D -> (forall u, w u <= 400) ->
  forall fuel u, P u ->
  rcloseD (simp_roundings fuel w ER D u) (@simp_unit _ (NumD pw) fuel ED D u) (@simp_unit R NumR fuel ER D u).
Proof.
  intros Hpw HE HD HP Hw4. pose proof (env_nearD_w _ _ _ _ HE) as Hw. induction fuel as [|f IH]; intros u Pu; cbn [simp_unit simp_roundings]; [reflexivity|].
  destruct (HP u Pu) as (B1 & B2 & B3).
  destruct (is_irreducible (u_cls u)) eqn:Ei.
  - specialize (B2 eq_refl). destruct (D (u_cls u)) as [dd|]; [|reflexivity]. specialize (B2 dd eq_refl). destruct (dim_eqb (unit_dims u) dd).
    + cbn [rcloseD fst snd]. split; [reflexivity|]. apply nearD_1. lra.
    + pose proof (conv_factor_nearD pw Hpw w ED ER (unit_dims u) dd HE ltac:(lra)) as C.
      destruct (@conv_factor _ (NumD pw) ED (unit_dims u) dd) as [c|e], (@conv_factor R NumR ER (unit_dims u) dd) as [c'|e']; try contradiction.
      * cbn [rcloseD fst snd]. split; [reflexivity|].
        replace (roundings w (unit_dims u) + roundings w dd + 4) with (roundings w (unit_dims u) + roundings w dd + 3 + 0 + 1) by ring.
        apply nearD_mul; [exact C|apply nearD_1; lra|lra].
      * subst e'. destruct e; reflexivity.
  - pose proof (HD u) as Hd. pose proof (HE u) as He. unfold unit_ref in He.
    destruct (ulookup ED u) as [r|] eqn:E1, (ulookup ER u) as [r'|] eqn:E2; try contradiction; [|exact (IH u Pu)].
    destruct (ur_ref r) as [[a d]|] eqn:R1, (ur_ref r') as [[b d']|] eqn:R2; cbn [fst snd] in He.
    + destruct He as [<- He]. destruct (B3 eq_refl r' b d eq_refl R2) as [B4 B5]. specialize (B5 f).
      pose proof (simp_fold_nearD pw Hpw P (simp_roundings f w ER D) (@simp_unit _ (NumD pw) f ED D) (@simp_unit R NumR f ER D) IH
        (simp_roundings_nn w Hw ER D f) d (Ok (Some 1, [])) (Ok (1, [])) 0 B4 (Rle_refl 0) ltac:(lra) (conj eq_refl (nearD_1 0 (Rle_refl 0)))) as G.
      rewrite Rplus_0_l in G.
      change (@n1 _ (NumD pw)) with (Some 1). change (@n1 R NumR) with 1.
      match goal with |- rcloseD _ (bind ?x _) (bind ?y _) => set (X := x) in *; set (Y := y) in * end.
      clearbody X Y. destruct X as [x|x], Y as [y|y]; try contradiction; cbn [bind]; [|exact G].
      cbn [rcloseD fst snd]. destruct G as [G1 G2]. split; [exact G1|]. apply nearD_mul; auto. pose proof (Hw4 u). lra.
    + exfalso. destruct Hd as [_ Hd]. specialize (Hd eq_refl). discriminate.
    + exfalso. destruct Hd as [Hd _]. specialize (Hd eq_refl). discriminate.
    + exact (IH u Pu).
Qed.
(** [simplified] in double precision: the same outcome, units and shape; every element is
    finite and exact up to the number of roundings. *)
Theorem C124_simplified : forall pw w (ED : uenv (option R)) (ER : uenv R) D P fuel (a : arr R) d,
  faithfulD pw -> env_nearD pw w ED ER -> same_defsD ED ER -> moderate_units P w ER D -> (forall u, w u <= 400) ->
  (forall u, In u (dkeys d) -> P u) -> roundings (simp_roundings fuel w ER D) d <= 400 -> Forall moderate (dat a) ->
  match @simplified _ (NumD pw) fuel ED D (Qty (finite a) d), @simplified R NumR fuel ER D (Qty a d) with
  | Ok r, Ok r' => qdim r = qdim r' /\ shp (mag r) = shp (mag r') /\
                   Forall2 (accurateD (roundings (simp_roundings fuel w ER D) d + 1)) (dat (mag r)) (dat (mag r'))
  | Err e, Err e' => e = e'
  | _, _ => False
  end.
Proof.
  intros pw w ED ER D P fuel a d Hpw HE HD HP Hw4 Hd HK Hm. unfold simplified. cbn [qdim mag].
  pose proof (env_nearD_w _ _ _ _ HE) as Hw. pose proof (simp_nearD pw w ED ER D P Hpw HE HD HP Hw4 fuel) as IH.
  pose proof (simp_fold_nearD pw Hpw P (simp_roundings fuel w ER D) (@simp_unit _ (NumD pw) fuel ED D) (@simp_unit R NumR fuel ER D) IH
        (simp_roundings_nn w Hw ER D fuel) d (Ok (Some 1, [])) (Ok (1, [])) 0 Hd (Rle_refl 0) ltac:(lra) (conj eq_refl (nearD_1 0 (Rle_refl 0)))) as H.
  rewrite Rplus_0_l in H. unfold simp_dims. change (@n1 _ (NumD pw)) with (Some 1). change (@n1 R NumR) with 1.
  match goal with |- match bind ?x _ with _ => _ end => set (X := x) in * end.
  match goal with |- match _ with Ok r => match bind ?x _ with _ => _ end | _ => _ end => set (Y := x) in * end.
  clearbody X Y. destruct X as [x|e], Y as [y|e']; try contradiction; cbn [bind]; [|exact H].
  cbn [rcloseD] in H. destruct H as [H1 H2]. cbn [qdim mag amap shp dat]. split; [exact H1|]. split; [reflexivity|].
  unfold finite. cbn [dat amap]. rewrite map_map. induction (dat a) as [|z l IHl]; cbn [map]; constructor.
  - apply scaleD_accurate; auto; [lra|]. now inversion Hm.
  - apply IHl. now inversion Hm.
Qed.
Lemma lib_roots fread u r a d : u_cls u <> CDimless -> is_irreducible (u_cls u) = false -> ulookup (objs (lib fread)) u = Some r -> ur_ref r = Some (a, d) ->
  (length d <= 8)%nat /\ forall v, In v (dkeys d) -> u_cls v <> CDimless /\ forall f w, simp_roundings f w (objs (lib fread)) (dflt (lib fread)) v = 0.
Proof.
  intros Hnd Ei. destruct (lib_sim fread) as (_ & sh & HS & HK). pose proof (C73_defaults fread) as HD.
  pose proof (lib_env fread) as HE. pose proof (lib_keys fread) as HL. revert sh HS HK HD HE HL. generalize (lib fread) as st. intros st sh HS HK HD HE HL El Er.
  pose proof (sim_env _ _ _ HS) as HM.
  assert (Hd : d = snd (unit_ref (objs st) u)) by (unfold unit_ref; now rewrite El, Er).
  assert (Hin : In u (map entry_uid library)).
  { rewrite <- HL. unfold ulookup in El. apply dget_In in El; [|apply uid_eqb_eq]. now apply (in_map fst) in El. }
  pose proof (ck_simp _ HK) as C. unfold check_simp in C. rewrite forallb_forall in C. specialize (C u Hin).
  apply orb_prop in C. destruct C as [C|C].
  { exfalso. apply existsb_exists in C. destruct C as (x & Hx & E). apply uid_eqb_eq in E. subst x.
    destruct Hx as [<-|[<-|[]]]; [discriminate Ei|now apply Hnd]. }
  rewrite Ei in C. rewrite forallb_forall in C. rewrite <- (proj2 (env_ref _ _ u HM)), <- Hd in C.
  split.
  - assert (HN : NoDup (dkeys d)) by (rewrite Hd; apply (unit_ref_roots _ (objs st) u HE)).
    assert (Hincl : incl (dkeys d) (map lib_root [CMass; CLength; CTime; CCurrent; CLumInt; CSubstance; CTemperature; CInformation])).
    { intros v Hv. specialize (C v Hv). apply andb_prop in C. destruct C as [C1 C2]. apply uid_eqb_eq in C2. rewrite C2. apply in_map.
      destruct (u_cls v); try discriminate C1; cbn [In]; auto 20. }
    pose proof (NoDup_incl_length HN Hincl) as G. unfold dkeys in G. rewrite !map_length in G. exact G.
  - intros v Hv. specialize (C v Hv). apply andb_prop in C. destruct C as [C1 C2]. apply uid_eqb_eq in C2. split.
    { intros E. rewrite E in C1. discriminate C1. }
    intros f w. destruct f as [|f]; [reflexivity|]. cbn [simp_roundings]. assert (Hi : is_irreducible (u_cls v) = true) by (unfold has_base in C1; now destruct (is_irreducible (u_cls v))).
    rewrite Hi, (proj1 (HD (u_cls v))), C1. rewrite <- C2.
    replace (unit_dims v) with [(v, PInt 1)] by (unfold unit_dims; destruct (u_cls v); try reflexivity; discriminate Hi).
    rewrite dim_eqb_refl; [reflexivity|]. repeat constructor. intros [].
Qed.
Lemma roundings_one w u B : (forall v, 0 <= w v <= B) -> roundings w (unit_dims u) <= B + 4.
Proof.
  intros Hw. pose proof (Hw u) as K. assert (H1 : Rabs (Qc2R (pval (PInt 1))) = 1) by (replace (Qc2R (pval (PInt 1))) with 1 by (unfold Qc2R, Q2R; cbn; lra); apply Rabs_R1).
  unfold unit_dims. destruct (u_cls u); cbn [roundings]; rewrite ?H1; lra.
Qed.
Lemma lib_moderate fread w : (forall v, 0 <= w v <= 164) ->
  moderate_units (fun u => u_cls u <> CDimless) w (objs (lib fread)) (dflt (lib fread)) /\
  forall f u, u_cls u <> CDimless -> simp_roundings f w (objs (lib fread)) (dflt (lib fread)) u <= 340.
Proof.
  intros Hw. pose proof (lib_roots fread) as HR. pose proof (C73_defaults fread) as HD.
  revert HR HD. generalize (objs (lib fread)) as E, (dflt (lib fread)) as D. intros E D HR HD.
  assert (Hdd : forall u dd, D (u_cls u) = Some dd -> roundings w (unit_dims u) + roundings w dd <= 336).
  { intros u dd Hd. pose proof (roundings_one w u 164 Hw) as A1.
    assert (A2 : roundings w dd <= 168); [|lra]. rewrite (proj1 (HD (u_cls u))) in Hd. destruct (has_base (u_cls u)); [|discriminate Hd].
    assert (dd = [(lib_root (u_cls u), PInt 1)]) as -> by congruence. cbn [roundings].
    replace (Qc2R (pval (PInt 1))) with 1 by (unfold Qc2R, Q2R; cbn; lra). rewrite Rabs_R1. pose proof (Hw (lib_root (u_cls u))). lra. }
  assert (Hrt : forall u r a d, u_cls u <> CDimless -> is_irreducible (u_cls u) = false -> ulookup E u = Some r -> ur_ref r = Some (a, d) ->
      forall f, roundings (simp_roundings f w E D) d <= 32).
  { intros u r a d Hnd Hi El Er f. destruct (HR u r a d Hnd Hi El Er) as [Hlen Hk].
    rewrite (roundings_zero _ d (fun v Hv => proj2 (Hk v Hv) f w)). apply le_INR in Hlen. replace (INR 8) with 8 in Hlen by (cbn; lra). lra. }
  assert (HS : forall f u, u_cls u <> CDimless -> simp_roundings f w E D u <= 340).
  { induction f as [|f IH]; intros u Hnd; cbn [simp_roundings]; [lra|]. destruct (is_irreducible (u_cls u)) eqn:Ei.
    - destruct (D (u_cls u)) as [dd|] eqn:Ed; [|lra]. destruct (dim_eqb _ _); [lra|]. specialize (Hdd u dd Ed). lra.
    - destruct (ulookup E u) as [r|] eqn:El; [|now apply IH]. destruct (ur_ref r) as [[a d]|] eqn:Er; [|now apply IH].
      pose proof (Hrt u r a d Hnd Ei El Er f) as H. pose proof (Hw u). lra. }
  split; [|exact HS]. intros u Hnd. split; [|split].
  - intros f. specialize (HS f u Hnd). lra.
  - intros _ dd Hd. specialize (Hdd u dd Hd). lra.
  - intros Ei r a d El Er. destruct (HR u r a d Hnd Ei El Er) as [_ Hk]. split.
    + intros v Hv. exact (proj1 (Hk v Hv)).
    + intros f. pose proof (Hrt u r a d Hnd Ei El Er f). lra.
Qed.
(** The shipped library is moderate: [simplified] of moderate numbers in any of its units
    is finite and exact up to 1e-13. *)
Theorem C124_library : forall pw fread (a : arr R) u fuel, faithfulD pw -> u_cls u <> CDimless -> Forall moderate (dat a) ->
  match @simplified _ (NumD pw) fuel (objs (dlib pw fread)) (dflt (dlib pw fread)) (Qty (finite a) (unit_dims u)),
        @simplified R NumR fuel (objs (lib fread)) (dflt (lib fread)) (Qty a (unit_dims u)) with
  | Ok r, Ok r' => qdim r = qdim r' /\ shp (mag r) = shp (mag r') /\
                   Forall2 (fun x y => exists z, x = Some z /\ Rabs (z - y) <= / 10 ^ 13 * Rabs y) (dat (mag r)) (dat (mag r'))
  | Err e, Err e' => e = e'
  | _, _ => False
  end.
Proof.
  intros pw fread a u fuel Hpw Hnd Hm. destruct (C123_import pw fread Hpw) as (_ & _ & _ & Hdf & HD & w & Hw & HE).
  destruct (lib_moderate fread w Hw) as [HM HS]. specialize (HS fuel). apply functional_extensionality in Hdf. rewrite Hdf. clear Hdf.
  revert HE HD HM HS. generalize (objs (dlib pw fread)) as ED, (objs (lib fread)) as ER, (dflt (lib fread)) as D. intros ED ER D HE HD HM HS.
  assert (Hr : roundings (simp_roundings fuel w ER D) (unit_dims u) <= 344).
  { specialize (HS u Hnd). unfold unit_dims. assert (H1 : Rabs (Qc2R (pval (PInt 1))) = 1) by (replace (Qc2R (pval (PInt 1))) with 1 by (unfold Qc2R, Q2R; cbn; lra); apply Rabs_R1).
    destruct (u_cls u); cbn [roundings]; rewrite ?H1; lra. }
  assert (HP : forall v, In v (dkeys (unit_dims u)) -> u_cls v <> CDimless).
  { intros v Hv. apply In_unit_dims in Hv. now subst v. }
  assert (Hw4 : forall v, w v <= 400) by (intros v; pose proof (Hw v); lra).
  pose proof (C124_simplified pw w ED ER D (fun x => u_cls x <> CDimless) fuel a (unit_dims u) Hpw HE HD HM Hw4 HP ltac:(lra) Hm) as H.
  revert H Hr. generalize (roundings (simp_roundings fuel w ER D) (unit_dims u)) as k.
  generalize (@simplified _ (NumD pw) fuel ED D (Qty (finite a) (unit_dims u))) as RF.
  generalize (@simplified R NumR fuel ER D (Qty a (unit_dims u))) as RR.
  intros RR RF k H Hr. destruct RF as [r|e], RR as [r'|e']; try contradiction; [|exact H].
  destruct H as (H1 & H2 & H3). split; [exact H1|]. split; [exact H2|].
  induction H3 as [|x y l l' H3 _ IH]; constructor; [|exact IH]. destruct H3 as (z & Ez & H3). exists z. split; [exact Ez|].
  unfold accurate in H3. eapply Rle_trans; [exact H3|].
  apply Rmult_le_compat_r; [apply Rabs_pos|]. eapply Rle_trans; [|apply macheps_450].
  assert (0 < macheps) by (apply Rinv_0_lt_compat, pow_lt; lra). apply Rmult_le_compat_r; lra.
Qed.
(** ** Examples *)
(** Specification-level: a correctly rounded power is faithful. *)
Definition ex_pwD (x : R) (p : pynum) : option R := rndD (rpow x p).
Lemma ex_pwD_faithful : faithfulD ex_pwD.
Proof.
  intros x p Hx [H1 H2]. pose proof (rpow_pos p Hx) as Hp. pose proof ln2_pos. exists (rnd (rpow x p)). unfold ex_pwD. split.
  - apply rndD_ln; auto. assert (HI : INR 1020 = 1020) by (rewrite INR_IZR_INZ; reflexivity).
    rewrite pow2_ln, HI in H1, H2. rewrite <- exp_Ropp in H1. apply Rabs_le. split.
    + replace (- (1020 * ln 2)) with (ln (exp (- (1020 * ln 2)))) by apply ln_exp. apply ln_le'; auto. apply exp_pos.
    + rewrite <- (ln_exp (1020 * ln 2)). now apply ln_le'.
  - exact (ex_pw_faithful x p Hx).
Qed.
(** Three inches are 0.0762 m up to 1e-13, as a finite double. *)
Example ex_inchD fread : exists r x, @rescale_to _ (NumD ex_pwD) (objs (dlib ex_pwD fread)) (Qty (finite (scalar 3)) (unit_dims (uL "inch"))) (unit_dims (uL "meter")) = Ok r /\
  dat (mag r) = [Some x] /\ Rabs (x - 762 / 10000) <= / 10 ^ 13 * (762 / 10000).
Proof.
  assert (Hz : In (Size (uL "inch") (254 # 10000) (unit_dims (uL "meter"))) standard_sizes).
  { unfold standard_sizes. apply in_or_app. left. unfold lengths. do 7 right. left. reflexivity. }
  destruct (C89_rescale fread _ (Qty (scalar 3) (unit_dims (uL "inch"))) Hz eq_refl eq_refl) as (r' & E' & Em & _). cbn [sz_of sz_factor mag] in E', Em.
  assert (H500 : 4 <= 2 ^ 500).
  { replace 500%nat with (2 + 498)%nat by reflexivity. rewrite pow_add. assert (1 <= 2 ^ 498) by (apply pow_R1_Rle; lra). replace (2 ^ 2) with 4 by (simpl; lra). nra. }
  assert (Hmod : Forall moderate (dat (scalar 3))).
  { constructor; [|constructor]. right. rewrite Rabs_pos_eq by lra. split; [|lra].
    assert (/ 2 ^ 500 <= / 4) by (apply Rinv_le_contravar; lra). lra. }
  pose proof (C123_units ex_pwD fread (scalar 3) (uL "inch") (uL "meter") ex_pwD_faithful Hmod) as H. rewrite E' in H.
  set (RF := @rescale_to _ (NumD ex_pwD) (objs (dlib ex_pwD fread)) (Qty (finite (scalar 3)) (unit_dims (uL "inch"))) (unit_dims (uL "meter"))) in *.
  clearbody RF. destruct RF as [r|e]; [|contradiction H]. destruct H as (_ & _ & H3). rewrite Em in H3. cbn [amap scalar dat map] in H3.
  replace (Q2R (254 # 10000) * 3) with (762 / 10000) in H3 by (unfold Q2R; cbn; lra).
  inversion H3 as [|x y l l' Hx Hl E1 E2]. subst. inversion Hl. subst. destruct Hx as (z & -> & Hx). exists r, z. split; [reflexivity|]. split; [now rewrite <- E1|].
  rewrite (Rabs_pos_eq (762 / 10000)) in Hx by lra. exact Hx.
Qed.

Print Assumptions C123_accuracy.
Print Assumptions C123_import.
Print Assumptions C123_units.
Print Assumptions C124_simplified.
Print Assumptions C124_library.
