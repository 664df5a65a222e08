(** * Properties C115, C116: programs. *)
From Coq Require Import Reals Lra Lia.
From Verif Require Import Py Num Dim DimFacts Arr ArrFacts Lanes Units Spec UnitFacts Quant QuantFacts SimpFacts SpecApi ConvFacts
  Ufunc Ops OpsFacts Methods MethodsFacts ItemFacts Methods2 Examples Props_Conv Props_Ops Props_Ufunc Props_Methods Props_Methods2 Program.

Open Scope R_scope.

Section Progs.
  Variable E : uenv R.
  Variable D : ucls -> option dims.
  Variable root : ucls -> uid.
  Hypothesis HE : renv_ok E.
  Hypothesis HS : std_defaults E D root.
  Hypothesis HD : forall c dd, D c = Some dd -> dims_ok dd.
  Hypothesis Hsd : forall c dd u, D c = Some dd -> In u (dkeys dd) -> simplifiable E D root u.
  Variable fuel : nat.

  (** Quantities whose units can be simplified. *)
  Definition gdims (d : dims) : Prop := dims_ok d /\ forall u, In u (dkeys d) -> simplifiable E D root u.
  Definition goodq (q : qty R) : Prop := awf (mag q) /\ gdims (qdim q).
  Definition qrel (q q' : qty R) : Prop := goodq q /\ goodq q' /\ equal_in_other_units E q q'.

  Lemma good_ok q : goodq q -> qty_ok q.
  Proof. intros [H1 [H2 _]]. split; auto. Qed.
  Lemma qrel_sym q q' : qrel q q' -> qrel q' q.
  Proof.
    intros (H1 & H2 & C & S). split; [auto|]. split; [auto|]. split.
    - apply convertible_sym; auto; [apply (good_ok _ H1)|apply (good_ok _ H2)].
    - intros phi HC. symmetry. now apply S.
  Qed.
  Lemma qrel_shp q q' : qrel q q' -> shp (mag q) = shp (mag q').
  Proof. intros (_ & _ & _ & S). exact (same_value_shp E q q' HE S). Qed.
  Lemma qrel_len q q' : qrel q q' -> length (dat (mag q)) = length (dat (mag q')).
  Proof. intros H. pose proof (qrel_shp _ _ H) as X. destruct H as ([W _] & [W' _] & _). unfold awf in *. now rewrite W, W', X. Qed.
  Lemma gdims_pow d p : gdims d -> gdims (dim_pow d p).
  Proof. intros [H1 H2]. split; [now apply dims_ok_pow|]. intros u Hu. apply In_dkeys_pow in Hu. auto. Qed.
  Lemma gdims_mul d d' : gdims d -> gdims d' -> gdims (dim_mul d d').
  Proof.
    intros [H1 H2] [H1' H2']. split; [now apply dims_ok_mul|]. intros u Hu.
    apply In_dkeys_exp_mul in Hu; [destruct Hu; auto|apply H1|apply H1'].
  Qed.
  Lemma gdims_div d d' : gdims d -> gdims d' -> gdims (dim_div d d').
  Proof.
    intros [H1 H2] [H1' H2']. split; [now apply dims_ok_div|]. intros u Hu.
    apply In_dkeys_exp_div in Hu; [destruct Hu; auto|apply H1|apply H1'].
  Qed.
  Lemma gdims_nil : gdims [].
  Proof. split; [apply dims_ok_nil|intros u []]. Qed.
  Lemma gdims_exp d d' : gdims d -> dims_ok d' -> (forall u, exp_of d' u = exp_of d u) -> gdims d'.
  Proof.
    intros [H1 H2] H1' He. split; [exact H1'|]. intros u Hu. apply H2.
    apply (in_dkeys_exp d u (proj1 H1)). rewrite <- He. now apply (in_dkeys_exp d' u (proj1 H1')).
  Qed.

  (** ** Outcomes *)
  Definition rrel {A} (P : A -> A -> Prop) (x y : res A) : Prop :=
    match x, y with Ok a, Ok b => P a b | Err e, Err e' => e = e' | _, _ => False end.
  Lemma rrel_intro {A} (P : A -> A -> Prop) (x y : res A) e0 :
    (forall a, x = Ok a -> exists b, y = Ok b /\ P a b) -> (forall b, y = Ok b -> exists a, x = Ok a) ->
    (forall e, x = Err e -> e = e0) -> (forall e, y = Err e -> e = e0) -> rrel P x y.
  Proof.
    intros H1 H2 H3 H4. destruct x as [a|e], y as [b|e']; cbn.
    - destruct (H1 a eq_refl) as (b' & X & Y). congruence.
    - destruct (H1 a eq_refl) as (b' & X & Y). congruence.
    - destruct (H2 b eq_refl) as (b' & X). congruence.
    - now rewrite (H3 e eq_refl), (H4 e' eq_refl).
  Qed.
  Lemma rrel_map {A B} (P : A -> A -> Prop) (Q : B -> B -> Prop) (f : A -> B) x y :
    (forall a b, P a b -> Q (f a) (f b)) -> rrel P x y -> rrel Q (rmap f x) (rmap f y).
  Proof. intros H. destruct x, y; cbn; auto. Qed.

  (** Array functions that commute with changes of units. *)
  Lemma arr_rel (F : arr R -> res (arr R)) (G : dims -> dims) q q' :
    qrel q q' ->
    (forall d, gdims d -> gdims (G d)) -> (forall d d', convertible E d d' -> convertible E (G d) (G d')) ->
    (forall a m, awf a -> shp a = shp (mag q) -> F a = Ok m -> awf m) ->
    (forall a d phi, awf a -> shp a = shp (mag q) ->
       F (amap (fun x => x * dimval phi d) a) = rmap (amap (fun x => x * dimval phi (G d))) (F a)) ->
    rrel qrel (m <- F (mag q) ;; Ok (Qty m (G (qdim q)))) (m <- F (mag q') ;; Ok (Qty m (G (qdim q')))).
  Proof.
    intros H HG HGc HW HF. pose proof (qrel_shp _ _ H) as Sh. destruct H as (H1 & H2 & C & S).
    assert (K : forall phi, consistent E phi ->
      rmap (amap (fun x => x * dimval phi (G (qdim q)))) (F (mag q)) = rmap (amap (fun x => x * dimval phi (G (qdim q')))) (F (mag q'))).
    { intros phi HC. rewrite <- (HF (mag q)), <- (HF (mag q')); auto; [|apply H2|apply H1].
      fold (phys phi q). fold (phys phi q'). now rewrite (S phi HC). }
    destruct (F (mag q)) as [m|e] eqn:E1, (F (mag q')) as [m'|e'] eqn:E2; cbn [bind rrel].
    - split; [|split].
      + split; [exact (HW _ _ (proj1 H1) eq_refl E1)|apply HG, H1].
      + split; [exact (HW _ _ (proj1 H2) (eq_sym Sh) E2)|apply HG, H2].
      + split; [apply HGc, C|]. intros phi HC. specialize (K phi HC). exact (Ok_inj _ _ K).
    - destruct (consistent_exists E HE) as [phi HC]. specialize (K phi HC). discriminate.
    - destruct (consistent_exists E HE) as [phi HC]. specialize (K phi HC). discriminate.
    - destruct (consistent_exists E HE) as [phi HC]. specialize (K phi HC). now injection K.
  Qed.
  Lemma idx_rel {B} (F : arr R -> res B) q q' :
    qrel q q' -> (forall a v, 0 < v -> F (amap (fun x => x * v) a) = F a) -> rrel eq (F (mag q)) (F (mag q')).
  Proof.
    intros (_ & _ & _ & S) HF. destruct (consistent_exists E HE) as [phi HC]. specialize (S phi HC).
    rewrite <- (HF (mag q) _ (dimval_pos phi (qdim q))), <- (HF (mag q') _ (dimval_pos phi (qdim q'))).
    fold (phys phi q). fold (phys phi q'). rewrite S. destruct (F (phys phi q')); reflexivity.
  Qed.

  (** Calls that compute an array from the magnitude, for quantities of shape [s], and
      commute with changes of units. *)
  Definition nat1 (s : list nat) (call : qty R -> res (qty R)) : Prop := exists (F : arr R -> res (arr R)) (G : dims -> dims),
    (forall q, shp (mag q) = s -> awf (mag q) -> call q = (m <- F (mag q) ;; Ok (Qty m (G (qdim q))))) /\
    (forall d, gdims d -> gdims (G d)) /\ (forall d d', convertible E d d' -> convertible E (G d) (G d')) /\ G [] = [] /\
    (forall a m, awf a -> shp a = s -> F a = Ok m -> awf m) /\
    (forall a d phi, awf a -> shp a = s ->
       F (amap (fun x => x * dimval phi d) a) = rmap (amap (fun x => x * dimval phi (G d))) (F a)).
  Lemma nat1_intro (F : arr R -> res (arr R)) (G : dims -> dims) s call :
    (forall q, shp (mag q) = s -> awf (mag q) -> call q = (m <- F (mag q) ;; Ok (Qty m (G (qdim q))))) ->
    (forall d, gdims d -> gdims (G d)) -> (forall d d', convertible E d d' -> convertible E (G d) (G d')) -> G [] = [] ->
    (forall a m, awf a -> shp a = s -> F a = Ok m -> awf m) ->
    (forall a d phi, awf a -> shp a = s ->
       F (amap (fun x => x * dimval phi d) a) = rmap (amap (fun x => x * dimval phi (G d))) (F a)) -> nat1 s call.
  Proof. intros. exists F, G. auto 7. Qed.
  Lemma nat1_rel call q q' : qrel q q' -> nat1 (shp (mag q)) call -> rrel qrel (call q) (call q').
  Proof.
    intros H (F & G & X & H1 & H2 & _ & H3 & H4). rewrite (X q eq_refl), (X q' (eq_sym (qrel_shp _ _ H))); [|apply H|apply H].
    now apply (arr_rel F G).
  Qed.
  (** In a coherent system of units [phi]: the value of the result is what the call gives
      for the dimensionless value. *)
  Lemma nat1_erase call q r phi : goodq q -> nat1 (shp (mag q)) call -> call q = Ok r ->
    goodq r /\ call (Qty (phys phi q) []) = Ok (Qty (phys phi r) []).
  Proof.
    intros H (F & G & X & H1 & H2 & H0 & H3 & H4). rewrite (X q eq_refl (proj1 H)), (X (Qty (phys phi q) []) eq_refl (phys_awf phi q (proj1 H))). cbn [mag qdim].
    specialize (H4 (mag q) (qdim q) phi (proj1 H) eq_refl). fold (phys phi q) in H4. rewrite H4, H0.
    destruct (F (mag q)) as [m|] eqn:Em; cbn [bind rmap]; [|discriminate]. intros K. apply Ok_inj in K. subst r.
    split; [|reflexivity]. split; [exact (H3 _ _ (proj1 H) eq_refl Em)|apply H1, H].
  Qed.

  (** ** The array methods *)
  Lemma conv_pow d d' p : convertible E d d' -> convertible E (dim_pow d p) (dim_pow d' p).
  Proof. intros [c Hc]. exists (rpow c p). now apply converts_pow. Qed.
  Lemma check_lanes_map {A B} (f : R -> R) (h : A -> B) need ax (a : arr R) (m : arr A) :
    check_lanes need ax (amap f a) (amap h m) = rmap (amap h) (check_lanes need ax a m).
  Proof.
    unfold check_lanes. rewrite lane_length_map. cbn [amap dat]. rewrite map_length.
    now destruct (need && _ && _)%bool.
  Qed.
  Lemma red_nat r axis s : nat1 s (q_red r axis).
  Proof.
    pose (F := fun a : arr R => ax <- norm_axis (length (shp a)) axis ;; m <- areduce (red_fun r) ax a ;; check_lanes (red_needs_elements r) ax a m).
    assert (X : forall q, q_red r axis q = (m <- F (mag q) ;; Ok (Qty m (qdim q)))).
    { intros q0. unfold q_red, F. destruct (norm_axis _ axis) as [ax|]; cbn [bind]; auto.
      now destruct (areduce (red_fun r) ax (mag q0)). }
    apply (nat1_intro F (fun d => d)); auto.
    - intros a m W _ Hm. unfold F in Hm. destruct (norm_axis _ axis) as [ax|]; cbn [bind] in Hm; [|discriminate].
      destruct (areduce (red_fun r) ax a) as [m'|] eqn:Em; cbn [bind] in Hm; [|discriminate].
      unfold check_lanes in Hm. destruct (_ && _ && _)%bool; [discriminate|]. assert (m = m') as -> by congruence.
      exact (awf_areduce _ _ W Em).
    - intros a d phi W _. unfold F. cbn [amap shp]. destruct (norm_axis _ axis) as [ax|]; cbn [bind]; auto.
      change (Arr (shp a) (map (fun x => x * dimval phi d) (dat a))) with (amap (fun x => x * dimval phi d) a).
      rewrite areduce_amap, (areduce_ext _ (fun l => red_fun r l * dimval phi d)) by (intros l; apply red_fun_scale, dimval_pos).
      rewrite <- (rmap_areduce (red_fun r) (fun z => z * dimval phi d)).
      destruct (areduce (red_fun r) ax a) as [m|]; cbn [bind rmap]; auto. apply check_lanes_map.
  Qed.
  Lemma var_nat dd axis s : nat1 s (q_var dd axis).
  Proof.
    pose (F := fun a : arr R => ax <- norm_axis (length (shp a)) axis ;; areduce (lvar dd) ax a).
    assert (X : forall q, q_var dd axis q = (m <- F (mag q) ;; Ok (Qty m (dim_pow (qdim q) (PInt 2))))).
    { intros q0. unfold q_var, F. destruct (norm_axis _ axis) as [ax|]; cbn [bind]; auto. }
    apply (nat1_intro F (fun d => dim_pow d (PInt 2))); auto.
    - intros d. apply gdims_pow.
    - intros d d'. apply conv_pow.
    - intros a m W _ Hm. unfold F in Hm. destruct (norm_axis _ axis) as [ax|]; cbn [bind] in Hm; [|discriminate].
      exact (awf_areduce _ _ W Hm).
    - intros a d phi W _. unfold F. cbn [amap shp]. destruct (norm_axis _ axis) as [ax|]; cbn [bind]; auto.
      change (Arr (shp a) (map (fun x => x * dimval phi d) (dat a))) with (amap (fun x => x * dimval phi d) a).
      rewrite areduce_amap, (areduce_ext _ (fun l => lvar dd l * dimval phi (dim_pow d (PInt 2)))).
      + now rewrite <- (rmap_areduce (lvar dd) (fun z => z * dimval phi (dim_pow d (PInt 2)))).
      + intros l. rewrite !lvar_Rvar, dimval_pow, pow2_val by apply dimval_pos. apply Rvar_scale.
  Qed.
  Lemma prod_nat axis s : nat1 s (q_prod axis).
  Proof.
    destruct (norm_axis (length s) axis) as [ax|e] eqn:Ea.
    2:{ apply (nat1_intro (fun _ => Err IndexError) (fun d => d)); auto; [|discriminate]. intros q <- _. unfold q_prod. now rewrite Ea. }
    set (n := match ax with None => prodn s | Some i => nth i s 0%nat end).
    assert (LL : forall a : arr R, awf a -> shp a = s -> lane_length ax a = n).
    { intros a W <-. unfold n. destruct ax; [reflexivity|exact W]. }
    apply (nat1_intro (fun a => areduce lprod ax a) (fun d => dim_pow d (PInt (Z.of_nat n)))); auto.
    - intros q Hs W. unfold q_prod. rewrite Hs, Ea. cbn [bind]. now rewrite (LL _ W Hs).
    - intros d. apply gdims_pow.
    - intros d d'. apply conv_pow.
    - unfold dim_pow. now destruct (pzero _).
    - intros a m W _ Hm. exact (awf_areduce _ _ W Hm).
    - intros a d phi W Sa. rewrite areduce_amap.
      rewrite (@areduce_ext_axis _ _ _ (fun l => lprod l * dimval phi (dim_pow d (PInt (Z.of_nat n)))) ax a n W).
      + now rewrite <- (rmap_areduce lprod (fun z => z * dimval phi (dim_pow d (PInt (Z.of_nat n))))).
      + apply norm_axis_spec in Ea. destruct axis as [k|].
        * destruct Ea as (i & -> & [Hi _]). unfold n. rewrite Sa. now apply nth_error_nth'.
        * subst ax. unfold n. unfold awf in W. now rewrite W, Sa.
      + intros l Hl _. rewrite !lprod_Rprod. rewrite dimval_pow. cbn [pval]. rewrite Qc2R_Z, <- INR_IZR_INZ, Rpower_pow by apply dimval_pos.
        fold (scale (dimval phi d) l). now rewrite Rprod_scale, Hl.
  Qed.
  Lemma ascan_wf (f : list R -> list R) ax (a : arr R) m : (forall l, length (f l) = length l) -> awf a -> ascan f ax a = Ok m -> awf m.
  Proof.
    clear. intros Hf W. destruct ax as [ax|].
    - cbn [ascan]. destruct (split_axis (shp a) ax) as [[[pre n] post]|] eqn:ES; [|discriminate]. intros H.
      apply split_axis_spec in ES. destruct ES as [Hs Lp]. apply Ok_inj in H. subst m. unfold awf. cbn [shp dat].
      rewrite (@flat_map_const_length _ _ _ _ (n * prodn post)).
      + rewrite chunks_length, Hs, prodn_app. reflexivity.
      + apply Forall_forall. intros b Hb.
        destruct (@block_lanes_len _ n (prodn post) b) as [X1 X2]; [rewrite (block_len W _ _ _ Hs _ Hb); lia|].
        assert (F : Forall (fun r : list R => length r = n) (map f (block_lanes n (prodn post) b))).
        { apply Forall_forall. intros y Hy. apply in_map_iff in Hy. destruct Hy as (z & <- & Hz). rewrite Hf.
          rewrite Forall_forall in X2. now apply X2. }
        destruct (columns_len F) as [Y1 Y2]. rewrite map_length, X1 in Y2.
        assert (GC : forall (cs : list (list R)) k, Forall (fun c => length c = k) cs -> length (concat cs) = (length cs * k)%nat).
        { clear. induction cs as [|c cs IH]; intros k F; cbn; auto. inversion F; subst. rewrite app_length, (IH _ H2). lia. }
        rewrite (GC _ _ Y2). now rewrite Y1.
    - cbn [ascan]. intros X. apply Ok_inj in X. subst m. unfold awf. cbn [shp dat prodn]. rewrite Hf. lia.
  Qed.
  Lemma cumsum_nat axis s : nat1 s (q_cumsum axis).
  Proof.
    pose (F := fun a : arr R => ax <- norm_axis (length (shp a)) axis ;; ascan lcumsum ax a).
    assert (X : forall q, q_cumsum axis q = (m <- F (mag q) ;; Ok (Qty m (qdim q)))).
    { intros q0. unfold q_cumsum, F. destruct (norm_axis _ axis) as [ax|]; cbn [bind]; auto. }
    assert (LL : forall l : list R, length (lcumsum l) = length l) by (intros l; apply lscan_length).
    apply (nat1_intro F (fun d => d)); auto.
    - intros a m W _ Hm. unfold F in Hm. destruct (norm_axis _ axis) as [ax|]; cbn [bind] in Hm; [|discriminate].
      exact (ascan_wf lcumsum ax a m LL W Hm).
    - intros a d phi W _. unfold F. cbn [amap shp]. destruct (norm_axis _ axis) as [ax|]; cbn [bind]; auto.
      change (Arr (shp a) (map (fun x => x * dimval phi d) (dat a))) with (amap (fun x => x * dimval phi d) a).
      rewrite ascan_amap, (ascan_ext _ (fun l => map (fun z => z * dimval phi d) (lcumsum l))) by (intros l; apply (lcumsum_scale _ l)).
      now rewrite <- (rmap_ascan lcumsum (fun z => z * dimval phi d)).
  Qed.
  Lemma trace_nat o a1 a2 s : nat1 s (q_trace o a1 a2).
  Proof.
    pose (F := fun a : arr R => o1 <- norm_axis (length (shp a)) (Some a1) ;; o2 <- norm_axis (length (shp a)) (Some a2) ;;
      match o1, o2 with Some a1, Some a2 => if Nat.eqb a1 a2 then Err ValueError else Ok (atrace o a1 a2 a) | _, _ => Err ValueError end).
    assert (X : forall q, q_trace o a1 a2 q = (m <- F (mag q) ;; Ok (Qty m (qdim q)))).
    { intros q0. unfold q_trace, F. destruct (norm_axis _ (Some a1)) as [[|]|]; cbn [bind]; auto;
        destruct (norm_axis _ (Some a2)) as [[|]|]; cbn [bind]; auto. now destruct (Nat.eqb _ _). }
    apply (nat1_intro F (fun d => d)); auto.
    - intros a m W _ Hm. unfold F in Hm. destruct (norm_axis _ (Some a1)) as [[|]|]; cbn [bind] in Hm; try discriminate;
        destruct (norm_axis _ (Some a2)) as [[|]|]; cbn [bind] in Hm; try discriminate. destruct (Nat.eqb _ _); [discriminate|].
      injection Hm as <-. apply atab_wf.
    - intros a d phi W _. unfold F. cbn [amap shp].
      change (Arr (shp a) (map (fun x => x * dimval phi d) (dat a))) with (amap (fun x => x * dimval phi d) a).
      destruct (norm_axis _ (Some a1)) as [[k1|]|]; cbn [bind]; auto; destruct (norm_axis _ (Some a2)) as [[k2|]|]; cbn [bind]; auto.
      destruct (Nat.eqb _ _); cbn [rmap]; auto. f_equal. unfold atrace, atab, amap. cbn [shp dat]. f_equal. rewrite map_map. apply map_ext.
      intros idx. rewrite !lsum_Rsum.
      rewrite <- (Rsum_scale (dimval phi d)). f_equal. unfold scale. rewrite map_map. apply map_ext. intros k. unfold elem, aget. cbn [shp dat].
      rewrite at_idx_map. destruct (at_idx _ _ _); cbn [option_map]; auto. cbn. ring.
  Qed.
  Lemma squeeze_nat axis s : nat1 s (q_squeeze axis).
  Proof.
    pose (F := fun a : arr R => ax <- norm_axis (length (shp a)) axis ;;
      match ax with
      | None => Ok (Arr (filter (fun n => negb (Nat.eqb n 1)) (shp a)) (dat a))
      | Some i => if Nat.eqb (nth i (shp a) 0%nat) 1 then Ok (Arr (drop_at i (shp a)) (dat a)) else Err ValueError end).
    assert (X : forall q, q_squeeze axis q = (m <- F (mag q) ;; Ok (Qty m (qdim q)))).
    { intros q0. unfold q_squeeze, F. destruct (norm_axis _ axis) as [[i|]|]; cbn [bind]; auto. now destruct (Nat.eqb _ _). }
    apply (nat1_intro F (fun d => d)); auto.
    - intros a m W Sa Hm.
      assert (K : q_squeeze axis (Qty a []) = Ok (Qty m [])) by (rewrite X; cbn [mag qdim]; now rewrite Hm).
      assert (Q : qty_ok (Qty a [])) by (split; [exact W|apply dims_ok_nil]).
      destruct axis as [k|].
      + destruct (C99_squeeze_axis R NumR k (Qty a []) Q) as [T _]. destruct (T _ K) as (ax & _ & _ & [T1 _] & _). exact T1.
      + destruct (C99_squeeze R NumR (Qty a []) Q) as (r & T & [T1 _] & _). rewrite K in T. injection T as <-. exact T1.
    - intros a d phi W _. unfold F. cbn [amap shp dat]. destruct (norm_axis _ axis) as [[i|]|]; cbn [bind]; auto.
      now destruct (Nat.eqb _ _).
  Qed.
  Lemma getitem_nat (sel : selector) s0 :
    (forall s t ps, sel s = Ok (t, ps) -> length ps = prodn t) -> nat1 s0 (q_getitem sel).
  Proof.
    intros Hs.
    pose (F := fun a : arr R => '(s, ps) <- sel (shp a) ;; Ok (Arr s (gather (dat a) ps))).
    assert (X : forall q, q_getitem sel q = (m <- F (mag q) ;; Ok (Qty m (qdim q)))).
    { intros q0. unfold q_getitem, F. now destruct (sel _) as [[s ps]|]. }
    apply (nat1_intro F (fun d => d)); auto.
    - intros a m W Sa Hm. unfold F in Hm. destruct (sel (shp a)) as [[s ps]|] eqn:Es; cbn [bind] in Hm; [|discriminate].
      injection Hm as <-. unfold awf, gather. cbn [shp dat]. rewrite map_length. eauto.
    - intros a d phi W _. unfold F. cbn [amap shp dat]. destruct (sel (shp a)) as [[s ps]|]; cbn [bind rmap]; auto. f_equal.
      unfold amap, gather. cbn [shp dat]. f_equal. rewrite map_map. apply map_ext. intros p.
      cbn [n0 NumR]. rewrite <- (map_nth (fun x => x * dimval phi d)). f_equal. ring.
  Qed.
  Lemma arg_rel (f : list R -> nat) axis q q' : qrel q q' -> (forall v l, 0 < v -> f (scale v l) = f l) ->
    let g q := ax <- norm_axis (length (shp (mag q))) axis ;; m <- areduce f ax (mag q) ;; check_lanes true ax (mag q) m in
    rrel eq (g q) (g q').
  Proof.
    intros H Hf. cbn zeta.
    apply (idx_rel (fun a : arr R => ax <- norm_axis (length (shp a)) axis ;; m <- areduce f ax a ;; check_lanes true ax a m)); auto.
    intros a v Hv. cbn [amap shp].
    change (Arr (shp a) (map (fun x => x * v) (dat a))) with (amap (fun x => x * v) a).
    destruct (norm_axis _ axis) as [ax|]; cbn [bind]; auto. rewrite areduce_amap, (areduce_ext _ f) by (intros l; now apply Hf).
    destruct (areduce f ax a) as [m|]; cbn [bind]; auto. unfold check_lanes. now rewrite lane_length_map.
  Qed.
  Lemma nonzero_inv (q : qty R) v d : 0 < v -> q_nonzero (Qty (amap (fun x => x * v) (mag q)) d) = q_nonzero q.
  Proof.
    clear. intros Hv. unfold q_nonzero. cbn [mag amap dat]. generalize 0%nat as i.
    induction (dat (mag q)) as [|x l IH]; intros i; cbn [lnonzero map]; auto.
    assert (Z0 : neqb (x * v) (n0 (A := R)) = neqb x n0).
    { apply eq_true_iff_eq. pose proof (ncmp_holds UEq (x * v) n0) as A1. pose proof (ncmp_holds UEq x n0) as A2. cbn [ncmp holds] in *.
      rewrite A1, A2. cbn [n0 NumR]. split; [intros K; apply Rmult_integral in K; lra|intros ->; ring]. }
    rewrite Z0, !IH. reflexivity.
  Qed.
  Lemma nonzero_rel q q' : qrel q q' -> q_nonzero q = q_nonzero q'.
  Proof.
    intros H.
    assert (K : rrel eq (Ok (q_nonzero q)) (Ok (q_nonzero q'))).
    { apply (idx_rel (fun a : arr R => Ok (lnonzero 0 (dat a))) q q' H). intros a v Hv. f_equal.
      exact (nonzero_inv (Qty a []) v [] Hv). }
    exact K.
  Qed.

  (** ** Conversions *)
  Lemma qrel_refl q : goodq q -> qrel q q.
  Proof.
    intros H. split; [exact H|]. split; [exact H|]. split.
    - apply convertible_refl.
    - intros phi HC. reflexivity.
  Qed.
  Lemma conv_rel d1 d1' d2 d2' : gdims d1 -> gdims d1' -> gdims d2 -> gdims d2' ->
    convertible E d1 d1' -> convertible E d2 d2' -> convertible E d2 d1 -> convertible E d2' d1'.
  Proof.
    intros G1 G1' G2 G2' C1 C2 C. apply convertible_trans with d2; [apply convertible_sym; auto; [apply G2|apply G2']|].
    apply convertible_trans with d1; auto.
  Qed.
  (** The result of [rescale_to] in the units [d]. *)
  Lemma rescale_facts q d r : goodq q -> gdims d -> rescale_to E q d = Ok r ->
    goodq r /\ dim_eqb (qdim r) d = true /\ (forall u, exp_of (qdim r) u = exp_of d u) /\
    forall phi, consistent E phi -> amap (fun x => x * dimval phi d) (mag r) = phys phi q.
  Proof.
    intros Hq Hd Hr. pose proof (good_ok _ Hq) as Oq.
    assert (Hro := rescale_to_qty_ok E q d r Oq (proj1 Hd) Hr).
    assert (He := rescale_to_eqb E q d r (proj1 (proj2 Oq)) (proj1 (proj1 Hd)) Hr).
    assert (Hx := proj1 (dim_eqb_exp _ _ (proj1 (proj2 Hro)) (proj1 (proj1 Hd))) He).
    split; [|split; [exact He|split; [exact Hx|]]].
    - split; [apply Hro|]. apply (gdims_exp d); auto. apply Hro.
    - intros phi HC. rewrite <- (rescale_value E q d r HE (proj2 Oq) (proj1 Hd) Hr phi HC). unfold phys.
      now rewrite (dimval_eqb phi _ _ (proj1 (proj2 Hro)) (proj1 (proj1 Hd)) He).
  Qed.
  Lemma rescale_outcome q q' d d' : qrel q q' -> gdims d -> gdims d' -> convertible E d d' ->
    rrel (fun _ _ => True) (rescale_to E q d) (rescale_to E q' d').
  Proof.
    intros (H1 & H2 & C & S) G G' Cd. apply (rrel_intro _ _ _ ValueError).
    - intros r Hr. destruct (proj2 (rescale_ok_iff E q' d' HE (proj2 (good_ok _ H2)) (proj1 G'))) as [r' Hr']; [|eauto].
      apply (conv_rel d d' (qdim q) (qdim q')); auto; [apply H1|apply H2|].
      apply (rescale_ok_iff E q d HE (proj2 (good_ok _ H1)) (proj1 G)). eauto.
    - intros r Hr. destruct (proj2 (rescale_ok_iff E q d HE (proj2 (good_ok _ H1)) (proj1 G))) as [r' Hr']; [|eauto].
      apply (conv_rel d' d (qdim q') (qdim q)); auto; [apply H2|apply H1|apply convertible_sym; auto; [apply G|apply G']|
        apply convertible_sym; auto; [apply H1|apply H2]|].
      apply (rescale_ok_iff E q' d' HE (proj2 (good_ok _ H2)) (proj1 G')). eauto.
    - intros e. apply rescale_to_err.
    - intros e. apply rescale_to_err.
  Qed.
  (** Functions of two arrays in the same units that commute with changes of units. *)
  Lemma bin_arr {B C} (F : arr R -> arr R -> res B) (h : R -> B -> C) q1 q1' q2 q2' r r' :
    qrel q1 q1' -> qrel q2 q2' -> rescale_to E q2 (qdim q1) = Ok r -> rescale_to E q2' (qdim q1') = Ok r' ->
    forall phi (K : arr R -> arr R -> res C), consistent E phi ->
    (forall a b v, 0 < v -> K (amap (fun x => x * v) a) (amap (fun x => x * v) b) = rmap (h v) (F a b)) ->
    rmap (h (dimval phi (qdim q1))) (F (mag q1) (mag r)) = rmap (h (dimval phi (qdim q1'))) (F (mag q1') (mag r')).
  Proof.
    intros (H1 & H1' & _ & S1) (H2 & H2' & _ & S2) Hr Hr' phi K HC HK.
    destruct (rescale_facts q2 (qdim q1) r H2 (proj2 H1) Hr) as (_ & _ & _ & V).
    destruct (rescale_facts q2' (qdim q1') r' H2' (proj2 H1') Hr') as (_ & _ & _ & V').
    rewrite <- !HK by apply dimval_pos. rewrite (V phi HC), (V' phi HC). fold (phys phi q1). fold (phys phi q1').
    now rewrite (S1 phi HC), (S2 phi HC).
  Qed.
  (** The result carries the units of the first operand, or those of the converted
      second one. *)
  Lemma bin_rel (left : bool) (F : arr R -> arr R -> res (arr R)) q1 q1' q2 q2' :
    qrel q1 q1' -> qrel q2 q2' ->
    (forall a b m, awf a -> awf b -> F a b = Ok m -> awf m) ->
    (forall a b v, 0 < v -> F (amap (fun x => x * v) a) (amap (fun x => x * v) b) = rmap (amap (fun x => x * v)) (F a b)) ->
    let B q1 q2 := r <- rescale_to E q2 (qdim q1) ;; m <- F (mag q1) (mag r) ;; Ok (Qty m (if left then qdim q1 else qdim r)) in
    rrel qrel (B q1 q2) (B q1' q2').
  Proof.
    intros H1 H2 HW HF. cbn zeta. pose proof H1 as (G1 & G1' & C1 & S1). pose proof H2 as (G2 & G2' & C2 & S2).
    pose proof (rescale_outcome q2 q2' (qdim q1) (qdim q1') H2 (proj2 G1) (proj2 G1') C1) as O.
    destruct (rescale_to E q2 (qdim q1)) as [r|e] eqn:Hr, (rescale_to E q2' (qdim q1')) as [r'|e'] eqn:Hr'; cbn [rrel] in O; try contradiction; cbn [bind]; [|exact O].
    pose proof (fun phi HC => bin_arr F (fun v => amap (fun x => x * v)) q1 q1' q2 q2' r r' H1 H2 Hr Hr' phi F HC HF) as K.
    destruct (rescale_facts q2 (qdim q1) r G2 (proj2 G1) Hr) as (Gr & _ & X & _).
    destruct (rescale_facts q2' (qdim q1') r' G2' (proj2 G1') Hr') as (Gr' & _ & X' & _).
    destruct (F (mag q1) (mag r)) as [m|e] eqn:E1, (F (mag q1') (mag r')) as [m'|e'] eqn:E2; cbn [bind rrel].
    - assert (Gd : goodq (Qty m (qdim q1)) /\ goodq (Qty m (qdim r)) /\ goodq (Qty m' (qdim q1')) /\ goodq (Qty m' (qdim r'))).
      { assert (W := HW _ _ _ (proj1 G1) (proj1 Gr) E1). assert (W' := HW _ _ _ (proj1 G1') (proj1 Gr') E2).
        split; [split; [exact W|apply G1]|]. split; [split; [exact W|apply Gr]|]. split; [split; [exact W'|apply G1']|split; [exact W'|apply Gr']]. }
      destruct Gd as (A1 & A2 & A3 & A4).
      assert (V : equal_in_other_units E (Qty m (qdim q1)) (Qty m' (qdim q1'))).
      { split; [exact C1|]. intros phi HC. specialize (K phi HC). exact (Ok_inj _ _ K). }
      destruct left; [split; [exact A1|split; [exact A3|exact V]]|]. split; [exact A2|split; [exact A4|]]. split.
      + cbn [qdim]. apply convertible_trans with (qdim q1); [apply convertible_exp; auto; [apply Gr|apply G1]|].
        apply convertible_trans with (qdim q1'); [exact C1|]. apply convertible_exp; auto; [apply G1'|apply Gr'].
      + intros phi HC. destruct V as [_ V]. specialize (V phi HC). unfold phys in *. cbn [mag qdim] in *.
        rewrite (dimval_exp phi (qdim r) (qdim q1)), (dimval_exp phi (qdim r') (qdim q1')); auto;
          [apply Gr'|apply G1'|apply Gr|apply G1].
    - destruct (consistent_exists E HE) as [phi HC]. specialize (K phi HC). discriminate.
    - destruct (consistent_exists E HE) as [phi HC]. specialize (K phi HC). discriminate.
    - destruct (consistent_exists E HE) as [phi HC]. specialize (K phi HC). now injection K.
  Qed.
  (** Calls that convert the second operand to the units of the first. *)
  Definition nat2 {O} (call : qty R -> O -> res (qty R)) (val : O -> qty R) : Prop := exists (left : bool) (F : arr R -> arr R -> res (arr R)),
    (forall q o, goodq q -> goodq (val o) ->
       call q o = (r <- rescale_to E (val o) (qdim q) ;; m <- F (mag q) (mag r) ;; Ok (Qty m (if left then qdim q else qdim r)))) /\
    (forall a b m, awf a -> awf b -> F a b = Ok m -> awf m) /\
    (forall a b v, 0 < v -> F (amap (fun x => x * v) a) (amap (fun x => x * v) b) = rmap (amap (fun x => x * v)) (F a b)).
  Lemma nat2_rel {O} (call : qty R -> O -> res (qty R)) val q q' o o' :
    nat2 call val -> qrel q q' -> qrel (val o) (val o') -> rrel qrel (call q o) (call q' o').
  Proof.
    intros (left & F & X & HW & HF) H1 H2. rewrite !X; try (apply H1 || apply H2).
    exact (bin_rel left F q q' (val o) (val o') H1 H2 HW HF).
  Qed.
  Lemma erased_good phi q : goodq q -> goodq (Qty (phys phi q) []).
  Proof. intros H. split; [apply phys_awf, H|exact gdims_nil]. Qed.
  Lemma rescale_plain (a : arr R) : rescale_to E (Qty a []) [] = Ok (Qty a []).
  Proof. reflexivity. Qed.
  Lemma nat2_erase {O} (call : qty R -> O -> res (qty R)) val q o o' r phi : consistent E phi ->
    nat2 call val -> goodq q -> goodq (val o) -> val o' = Qty (phys phi (val o)) [] -> call q o = Ok r ->
    goodq r /\ call (Qty (phys phi q) []) o' = Ok (Qty (phys phi r) []).
  Proof.
    intros HC (left & F & X & HW & HF) H1 H2 Ho Hr.
    rewrite (X q o H1 H2) in Hr. rewrite (X _ o' (erased_good phi q H1)) by (rewrite Ho; now apply erased_good). rewrite Ho. cbn [qdim].
    rewrite rescale_plain. cbn [bind mag qdim].
    destruct (rescale_to E (val o) (qdim q)) as [w|] eqn:Hw; cbn [bind] in Hr; [|discriminate].
    destruct (rescale_facts (val o) (qdim q) w H2 (proj2 H1) Hw) as (Gw & _ & Xw & V).
    rewrite <- (V phi HC). unfold phys at 1. rewrite HF by apply dimval_pos.
    destruct (F (mag q) (mag w)) as [m|] eqn:Em; cbn [bind] in Hr; [|discriminate]. apply Ok_inj in Hr. subst r. cbn [rmap bind].
    assert (W := HW _ _ _ (proj1 H1) (proj1 Gw) Em).
    destruct left.
    - split; [split; [exact W|apply H1]|reflexivity].
    - split; [split; [exact W|apply Gw]|]. unfold phys. cbn [mag qdim]. f_equal. f_equal.
      now rewrite (dimval_exp phi (qdim w) (qdim q)) by (assumption || apply Gw || apply H1).
  Qed.
  Lemma homog_amap2 (f : R -> R -> R) : homog f -> forall a b v, 0 < v ->
    amap2 f (amap (fun x => x * v) a) (amap (fun x => x * v) b) = rmap (amap (fun x => x * v)) (amap2 f a b).
  Proof.
    intros Hf a b v Hv. rewrite amap2_amap, rmap_amap_amap2. apply amap2_ext. intros x y. now apply Hf.
  Qed.
  Lemma uniform_eq (f : R -> R -> R) q o : goodq q -> goodq (as_q o) ->
    (o <- scale_other E q o ;; apply2 f RUniform (OQ q) (OQ o)) =
    (r <- rescale_to E (as_q o) (qdim q) ;; m <- amap2 f (mag q) (mag r) ;; Ok (Qty m (qdim q))).
  Proof.
    intros Hq Ho. rewrite scale_other_rescale. destruct (rescale_to E (as_q o) (qdim q)) as [r|] eqn:Hr; cbn [bind]; auto.
    destruct (rescale_facts (as_q o) (qdim q) r Ho (proj2 Hq) Hr) as (Gr & He & _ & _).
    unfold apply2. cbn [odat]. destruct (amap2 f (mag q) (mag r)) as [m|]; cbn [bind]; auto. cbn [pd2].
    rewrite (dim_eqb_sym (qdim q) (qdim r)) by (apply Hq || apply Gr). now rewrite He.
  Qed.
  Lemma uniform_req (f : R -> R -> R) q o : goodq q -> goodq (as_q o) ->
    (o <- scale_other E q o ;; apply2 f RUniform (OQ o) (OQ q)) =
    (r <- rescale_to E (as_q o) (qdim q) ;; m <- amap2 f (mag r) (mag q) ;; Ok (Qty m (qdim r))).
  Proof.
    intros Hq Ho. rewrite scale_other_rescale. destruct (rescale_to E (as_q o) (qdim q)) as [r|] eqn:Hr; cbn [bind]; auto.
    destruct (rescale_facts (as_q o) (qdim q) r Ho (proj2 Hq) Hr) as (Gr & He & _ & _).
    unfold apply2. cbn [odat]. destruct (amap2 f (mag r) (mag q)) as [m|]; cbn [bind]; auto. cbn [pd2]. now rewrite He.
  Qed.
  Lemma sum_nat (f : R -> R -> R) : homog f -> nat2 (fun q o => x <- scale_other E q o ;; apply2 f RUniform (OQ q) (OQ x)) as_q.
  Proof.
    intros Hf. exists true, (amap2 f). split; [|split].
    - intros q o Hq Ho. now apply uniform_eq.
    - intros a b m. apply awf_amap2.
    - exact (homog_amap2 f Hf).
  Qed.
  Lemma rsum_nat (f : R -> R -> R) : homog f -> nat2 (fun q o => x <- scale_other E q o ;; apply2 f RUniform (OQ x) (OQ q)) as_q.
  Proof.
    intros Hf. exists false, (fun a b => amap2 f b a). split; [|split].
    - intros q o Hq Ho. now apply uniform_req.
    - intros a b m Wa Wb. now apply awf_amap2.
    - intros a b v Hv. exact (homog_amap2 f Hf b a v Hv).
  Qed.
  Lemma clip_lo_nat : nat2 (fun q b => q_clip E q (Some (OQ b)) None) (fun q => q).
  Proof.
    assert (X : forall q b, q_clip E q (Some (OQ b)) None = (r <- rescale_to E b (qdim q) ;; m <- amap2 nmax (mag q) (mag r) ;; Ok (Qty m (qdim q)))).
    { intros q0 b0. unfold q_clip. cbn [is_plain orb]. rewrite andb_false_r. cbn [clip_bound].
      destruct (rescale_to E b0 (qdim q0)) as [r|]; cbn [rmap bind clip_with]; auto. }
    exists true, (amap2 nmax). split; [intros q0 o0 _ _; apply X|]. split.
    - intros x y m. apply awf_amap2.
    - apply homog_amap2. intros v x y Hv. rewrite !nmax_Rmax. now apply homog_max.
  Qed.
  Lemma clip_hi_nat : nat2 (fun q b => q_clip E q None (Some (OQ b))) (fun q => q).
  Proof.
    assert (X : forall q b, q_clip E q None (Some (OQ b)) = (r <- rescale_to E b (qdim q) ;; m <- amap2 nmin (mag q) (mag r) ;; Ok (Qty m (qdim q)))).
    { intros q0 b0. unfold q_clip. cbn [is_plain orb]. rewrite andb_false_r. cbn [clip_bound].
      destruct (rescale_to E b0 (qdim q0)) as [r|]; cbn [rmap bind clip_with]; auto. }
    exists true, (amap2 nmin). split; [intros q0 o0 _ _; apply X|]. split.
    - intros x y m. apply awf_amap2.
    - apply homog_amap2. intros v x y Hv. rewrite !nmin_Rmin. now apply homog_min.
  Qed.
  Lemma setitem_nat (sel : selector) : nat2 (fun q v => q_setitem E sel q (OQ v)) (fun q => q).
  Proof.
    pose (F := fun a b : arr R => '(s, ps) <- sel (shp a) ;; xs <- broadcast_to b s ;; Ok (Arr (shp a) (scatter (dat a) ps xs))).
    assert (X : forall q v, q_setitem E sel q (OQ v) = (r <- rescale_to E v (qdim q) ;; m <- F (mag q) (mag r) ;; Ok (Qty m (qdim q)))).
    { intros q0 v0. unfold q_setitem, F. rewrite scale_other_rescale. cbn [as_q].
      destruct (rescale_to E v0 (qdim q0)) as [r|]; cbn [bind]; auto. destruct (sel (shp (mag q0))) as [[s ps]|]; cbn [bind]; auto.
      now destruct (broadcast_to (mag r) s). }
    exists true, F. split; [intros q0 o0 _ _; apply X|]. split.
    - intros a b m Wa Wb Hm. unfold F in Hm. destruct (sel (shp a)) as [[s ps]|]; cbn [bind] in Hm; [|discriminate].
      destruct (broadcast_to b s) as [xs|]; cbn [bind] in Hm; [|discriminate]. apply Ok_inj in Hm. subst m.
      unfold awf. cbn [shp dat]. now rewrite scatter_length.
    - intros a b w Hw. unfold F. cbn [amap shp dat]. destruct (sel (shp a)) as [[s ps]|]; cbn [bind rmap]; auto.
      change (Arr (shp b) (map (fun x => x * w) (dat b))) with (amap (fun x => x * w) b). rewrite broadcast_to_amap.
      destruct (broadcast_to b s) as [xs|]; cbn [bind rmap]; auto. f_equal. unfold amap. cbn [shp dat]. f_equal. symmetry. apply scatter_map.
  Qed.
  Lemma cycle_map (f : R -> R) : forall k rest all, cycle k (map f rest) (map f all) = map f (cycle k rest all).
  Proof.
    clear. induction k as [|k IH]; intros rest all; cbn; auto. destruct all as [|x0 all]; auto. destruct rest as [|x rest].
    - cbn [map tl]. cbn. f_equal. exact (IH all (x0 :: all)).
    - cbn [map]. cbn. f_equal. exact (IH rest (x0 :: all)).
  Qed.
  Lemma put_nat ks : nat2 (fun q v => q_put E q ks (OQ v)) (fun q => q).
  Proof.
    pose (F := fun a b : arr R => ps <- norm_indices (length (dat a)) ks ;; Ok (Arr (shp a) (scatter (dat a) ps (cycle (length ps) (dat b) (dat b))))).
    assert (X : forall q v, q_put E q ks (OQ v) = (r <- rescale_to E v (qdim q) ;; m <- F (mag q) (mag r) ;; Ok (Qty m (qdim q)))).
    { intros q0 v0. unfold q_put, F. rewrite scale_other_rescale. cbn [as_q].
      destruct (rescale_to E v0 (qdim q0)) as [r|]; cbn [bind]; auto. now destruct (norm_indices _ ks). }
    exists true, F. split; [intros q0 o0 _ _; apply X|]. split.
    - intros a b m Wa Wb Hm. unfold F in Hm. destruct (norm_indices _ ks) as [ps|]; cbn [bind] in Hm; [|discriminate].
      apply Ok_inj in Hm. subst m. unfold awf. cbn [shp dat]. now rewrite scatter_length.
    - intros a b w Hw. unfold F. cbn [amap shp dat]. rewrite map_length. destruct (norm_indices _ ks) as [ps|]; cbn [bind rmap]; auto.
      f_equal. unfold amap. cbn [shp dat]. f_equal. rewrite cycle_map. symmetry. apply scatter_map.
  Qed.
  (** Comparisons. *)
  Lemma cmp_equi c : forall (a b : arr R) v, 0 < v ->
    amap2 (ncmp c) (amap (fun x => x * v) a) (amap (fun x => x * v) b) = rmap (fun z => z) (amap2 (ncmp c) a b).
  Proof.
    intros a b v Hv. rewrite amap2_amap. rewrite (amap2_ext _ (ncmp c)); [now destruct (amap2 (ncmp c) a b)|].
    intros x y. now apply ncmp_scale.
  Qed.
  Lemma rmap_id {A} (x : res A) : rmap (fun z => z) x = x.
  Proof. now destruct x. Qed.
  Lemma order_rel c q1 q1' q2 q2' : qrel q1 q1' -> qrel q2 q2' -> rrel eq (q_order E c q1 (OQ q2)) (q_order E c q1' (OQ q2')).
  Proof.
    intros H1 H2. rewrite !q_order_rescale. pose proof H1 as (G1 & G1' & C1 & _).
    pose proof (rescale_outcome q2 q2' (qdim q1) (qdim q1') H2 (proj2 G1) (proj2 G1') C1) as O.
    destruct (rescale_to E q2 (qdim q1)) as [r|e] eqn:Hr, (rescale_to E q2' (qdim q1')) as [r'|e'] eqn:Hr'; cbn [rrel] in O; try contradiction; cbn [bind]; [|exact O].
    destruct (consistent_exists E HE) as [phi HC].
    pose proof (bin_arr (amap2 (ncmp c)) (fun _ z => z) q1 q1' q2 q2' r r' H1 H2 Hr Hr' phi _ HC (cmp_equi c)) as K.
    rewrite !rmap_id in K. rewrite K. now destruct (amap2 (ncmp c) (mag q1') (mag r')).
  Qed.
  Lemma eqne_rel c q1 q1' q2 q2' : qrel q1 q1' -> qrel q2 q2' -> rrel eq (q_eqne E c q1 (OQ q2)) (q_eqne E c q1' (OQ q2')).
  Proof.
    intros H1 H2. unfold q_eqne. pose proof H1 as (G1 & G1' & C1 & _).
    pose proof (rescale_outcome q2 q2' (qdim q1) (qdim q1') H2 (proj2 G1) (proj2 G1') C1) as O.
    destruct (rescale_to E q2 (qdim q1)) as [r|e] eqn:Hr, (rescale_to E q2' (qdim q1')) as [r'|e'] eqn:Hr'; cbn [rrel] in O; try contradiction.
    - destruct (consistent_exists E HE) as [phi HC].
      pose proof (bin_arr (amap2 (ncmp c)) (fun _ z => z) q1 q1' q2 q2' r r' H1 H2 Hr Hr' phi _ HC (cmp_equi c)) as K.
      rewrite !rmap_id in K. rewrite K. now destruct (amap2 (ncmp c) (mag q1') (mag r')).
    - subst e'. destruct e; cbn [rrel]; auto. unfold amap. rewrite (qrel_shp _ _ H1). f_equal.
      pose proof (qrel_len _ _ H1) as L. revert L. generalize (dat (mag q1')). induction (dat (mag q1)) as [|x l IH]; intros [|y l'] L; try discriminate; auto.
      cbn [map]. f_equal. apply IH. now injection L.
  Qed.

  (** ** Products, powers, ufuncs, conversions *)
  Definition orel (o o' : operand R) : Prop :=
    match o, o' with OQ q, OQ q' => qrel q q' | OArr a, OArr a' => a = a' /\ awf a | _, _ => False end.
  Lemma orel_as_q o o' : orel o o' -> qrel (as_q o) (as_q o').
  Proof.
    destruct o as [q|a], o' as [q'|a']; cbn; try tauto. intros [<- W]. apply qrel_refl. split; [exact W|exact gdims_nil].
  Qed.
  Lemma orel_ok o o' : orel o o' -> operand_ok o /\ operand_ok o'.
  Proof.
    destruct o as [q|a], o' as [q'|a']; cbn; try tauto; [intros (H1 & H2 & _); split; now apply good_ok|intros [<- W]; auto].
  Qed.
  Lemma orel_shp o o' : orel o o' -> shp (odat o) = shp (odat o').
  Proof. destruct o as [q|a], o' as [q'|a']; cbn; try tauto; [apply qrel_shp|intros [<- _]; reflexivity]. Qed.
  Lemma orel_phys o o' : orel o o' -> forall phi, consistent E phi -> ophys phi o = ophys phi o'.
  Proof.
    destruct o as [q|a], o' as [q'|a']; cbn [orel ophys]; intros H; try contradiction; [destruct H as (_ & _ & _ & S); exact S|destruct H as [<- _]; reflexivity].
  Qed.
  Lemma conv_mul a b c d : convertible E a b -> convertible E c d -> convertible E (dim_mul a c) (dim_mul b d).
  Proof. intros [x Hx] [y Hy]. exists (x * y). now apply converts_mul. Qed.
  Lemma conv_div a b c d : convertible E a b -> convertible E c d -> convertible E (dim_div a c) (dim_div b d).
  Proof. intros [x Hx] [y Hy]. exists (x / y). now apply converts_div. Qed.
  Lemma apply2_err {C} (f : R -> R -> C) ru o1 o2 e : (exists d, pd2 ru o1 o2 = Ok d) -> apply2 f ru o1 o2 = Err e -> e = ValueError.
  Proof.
    clear. intros [d Hd]. unfold apply2. destruct (amap2 f (odat o1) (odat o2)) as [m|x] eqn:Em; cbn [bind].
    - rewrite Hd. discriminate.
    - intros [= <-]. exact (amap2_err _ _ _ Em).
  Qed.
  Lemma mul_rel o1 o1' o2 o2' : orel o1 o1' -> orel o2 o2' -> (exists q, o1 = OQ q \/ o2 = OQ q) ->
    rrel qrel (q_mul o1 o2) (q_mul o1' o2').
  Proof.
    intros H1 H2 Hq. destruct (orel_ok _ _ H1) as [K1 K1'], (orel_ok _ _ H2) as [K2 K2'].
    assert (Hq' : exists q, o1' = OQ q \/ o2' = OQ q).
    { destruct Hq as [q [-> | ->]]; [destruct o1'|destruct o2']; cbn in *; try tauto; eauto. }
    assert (PD : (exists d, pd2 RMul o1 o2 = Ok d) /\ (exists d, pd2 RMul o1' o2' = Ok d)).
    { split; [destruct Hq as [q [-> | ->]]; [destruct o2|destruct o1]|destruct Hq' as [q [-> | ->]]; [destruct o2'|destruct o1']]; cbn; eauto. }
    assert (B : broadcast (shp (odat o1)) (shp (odat o2)) <-> broadcast (shp (odat o1')) (shp (odat o2'))).
    { now rewrite <- (orel_shp _ _ H1), <- (orel_shp _ _ H2). }
    pose proof (C28_never_fail R NumR o1 o2 q_mul (or_introl eq_refl) Hq) as N.
    pose proof (C28_never_fail R NumR o1' o2' q_mul (or_introl eq_refl) Hq') as N'.
    apply (rrel_intro _ _ _ ValueError).
    - intros r Hr. destruct (proj2 N') as [r' Hr']; [apply B, N; eauto|]. exists r'. split; [exact Hr'|].
      destruct (C28_products o1 o2 r K1 K2 Hr) as (_ & O & V). destruct (C28_products o1' o2' r' K1' K2' Hr') as (_ & O' & V').
      pose proof (apply2_inv _ _ _ _ _ Hr) as [_ D1]. pose proof (apply2_inv _ _ _ _ _ Hr') as [_ D1'].
      assert (G : gdims (qdim r) /\ gdims (qdim r') /\ convertible E (qdim r) (qdim r')).
      { destruct o1 as [q1|a1], o1' as [q1'|a1'], o2 as [q2|a2], o2' as [q2'|a2']; cbn in H1, H2; try tauto; cbn [pd2] in D1, D1'; try discriminate;
          apply Ok_inj in D1; apply Ok_inj in D1'; rewrite <- D1, <- D1'.
        - destruct H1 as (A1 & A2 & A3 & _), H2 as (B1 & B2 & B3 & _). split; [apply gdims_mul; [apply A1|apply B1]|].
          split; [apply gdims_mul; [apply A2|apply B2]|]. now apply conv_mul.
        - destruct H1 as (A1 & A2 & A3 & _). split; [apply A1|]. split; [apply A2|exact A3].
        - destruct H2 as (A1 & A2 & A3 & _). split; [apply A1|]. split; [apply A2|exact A3]. }
      destruct G as (G1 & G2 & G3). split; [split; [apply O|exact G1]|]. split; [split; [apply O'|exact G2]|]. split; [exact G3|].
      intros phi HC. specialize (V phi). specialize (V' phi). rewrite <- (orel_phys _ _ H1 phi HC), <- (orel_phys _ _ H2 phi HC), V in V'.
      exact (Ok_inj _ _ V').
    - intros r Hr. apply N, B, N'. eauto.
    - intros e. apply (apply2_err Rmult RMul o1 o2 e (proj1 PD)).
    - intros e. apply (apply2_err Rmult RMul o1' o2' e (proj2 PD)).
  Qed.
  Lemma nonzero_phys o o' : orel o o' -> Forall (fun y => y <> 0) (dat (odat o)) -> Forall (fun y => y <> 0) (dat (odat o')).
  Proof.
    destruct o as [q|a], o' as [q'|a']; cbn [orel odat]; intros H F; try contradiction; [|destruct H as [<- _]; exact F].
    destruct H as (_ & _ & _ & S). destruct (consistent_exists E HE) as [phi HC]. specialize (S phi HC). apply (f_equal (@dat R)) in S. cbn in S.
    apply Forall_forall. intros y Hy Z0. subst y.
    assert (X : In 0 (map (fun x => x * dimval phi (qdim q')) (dat (mag q')))) by (apply in_map_iff; exists 0; split; [ring|auto]).
    rewrite <- S in X. apply in_map_iff in X. destruct X as (x & X1 & X2).
    rewrite Forall_forall in F. apply (F x X2). pose proof (dimval_pos phi (qdim q)). apply Rmult_integral in X1. destruct X1; auto. lra.
  Qed.
  Lemma div_rel o1 o1' o2 o2' : orel o1 o1' -> orel o2 o2' -> (exists q, o1 = OQ q \/ o2 = OQ q) ->
    Forall (fun y => y <> 0) (dat (odat o2)) ->
    rrel qrel (q_div o1 o2) (q_div o1' o2').
  Proof.
    intros H1 H2 Hq Hnz. pose proof (nonzero_phys _ _ H2 Hnz) as Hnz'.
    destruct (orel_ok _ _ H1) as [K1 K1'], (orel_ok _ _ H2) as [K2 K2'].
    assert (Hq' : exists q, o1' = OQ q \/ o2' = OQ q).
    { destruct Hq as [q [-> | ->]]; [destruct o1'|destruct o2']; cbn in *; try tauto; eauto. }
    assert (PD : (exists d, pd2 RDiv o1 o2 = Ok d) /\ (exists d, pd2 RDiv o1' o2' = Ok d)).
    { split; [destruct Hq as [q [-> | ->]]; [destruct o2|destruct o1]|destruct Hq' as [q [-> | ->]]; [destruct o2'|destruct o1']]; cbn; eauto. }
    assert (B : broadcast (shp (odat o1)) (shp (odat o2)) <-> broadcast (shp (odat o1')) (shp (odat o2'))).
    { now rewrite <- (orel_shp _ _ H1), <- (orel_shp _ _ H2). }
    pose proof (C28_never_fail R NumR o1 o2 q_div (or_intror (or_introl eq_refl)) Hq) as N.
    pose proof (C28_never_fail R NumR o1' o2' q_div (or_intror (or_introl eq_refl)) Hq') as N'.
    apply (rrel_intro _ _ _ ValueError).
    - intros r Hr. destruct (proj2 N') as [r' Hr']; [apply B, N; eauto|]. exists r'. split; [exact Hr'|].
      destruct (C28_quotients o1 o2 r K1 K2 Hnz Hr) as (_ & O & V). destruct (C28_quotients o1' o2' r' K1' K2' Hnz' Hr') as (_ & O' & V').
      pose proof (apply2_inv _ _ _ _ _ Hr) as [_ D1]. pose proof (apply2_inv _ _ _ _ _ Hr') as [_ D1'].
      assert (G : gdims (qdim r) /\ gdims (qdim r') /\ convertible E (qdim r) (qdim r')).
      { destruct o1 as [q1|a1], o1' as [q1'|a1'], o2 as [q2|a2], o2' as [q2'|a2']; cbn in H1, H2; try tauto; cbn [pd2] in D1, D1'; try discriminate;
          apply Ok_inj in D1; apply Ok_inj in D1'; rewrite <- D1, <- D1'.
        - destruct H1 as (A1 & A2 & A3 & _), H2 as (B1 & B2 & B3 & _). split; [apply gdims_div; [apply A1|apply B1]|].
          split; [apply gdims_div; [apply A2|apply B2]|]. now apply conv_div.
        - destruct H1 as (A1 & A2 & A3 & _). split; [apply A1|]. split; [apply A2|exact A3].
        - destruct H2 as (A1 & A2 & A3 & _). split; [apply gdims_pow, A1|]. split; [apply gdims_pow, A2|]. now apply conv_pow. }
      destruct G as (G1 & G2 & G3). split; [split; [apply O|exact G1]|]. split; [split; [apply O'|exact G2]|]. split; [exact G3|].
      intros phi HC. specialize (V phi). specialize (V' phi). rewrite <- (orel_phys _ _ H1 phi HC), <- (orel_phys _ _ H2 phi HC), V in V'.
      exact (Ok_inj _ _ V').
    - intros r Hr. apply N, B, N'. eauto.
    - intros e. apply (apply2_err Rdiv RDiv o1 o2 e (proj1 PD)).
    - intros e. apply (apply2_err Rdiv RDiv o1' o2' e (proj2 PD)).
  Qed.
  Lemma elem_scale (P : R -> Prop) q q' : qrel q q' -> (forall x v, 0 < v -> P x -> P (x * v)) ->
    Forall P (dat (mag q)) -> Forall P (dat (mag q')).
  Proof.
    intros (_ & _ & _ & S) HP F. destruct (consistent_exists E HE) as [phi HC]. specialize (S phi HC). apply (f_equal (@dat R)) in S. cbn in S.
    pose proof (dimval_pos phi (qdim q)) as P1. pose proof (dimval_pos phi (qdim q')) as P2.
    apply Forall_forall. intros y Hy.
    assert (X : In (y * dimval phi (qdim q')) (map (fun x => x * dimval phi (qdim q')) (dat (mag q')))) by (apply in_map_iff; eauto).
    rewrite <- S in X. apply in_map_iff in X. destruct X as (x & X1 & X2). rewrite Forall_forall in F.
    replace y with (x * (dimval phi (qdim q) / dimval phi (qdim q'))).
    - apply HP; [now apply Rdiv_lt_0_compat|]. now apply F.
    - apply (Rmult_eq_reg_r (dimval phi (qdim q'))); [|lra]. rewrite <- X1. field. lra.
  Qed.
  Lemma pow_rel q q' e : qrel q q' -> awf (odat e) ->
    (forall x p, In x (dat (mag q)) -> In p (dat (odat e)) -> power_defined x p) ->
    rrel qrel (q_pow q e) (q_pow q' e).
  Proof.
    intros H We Hd. pose proof (qrel_shp _ _ H) as Sh. pose proof H as (G & G' & V).
    destruct (C29_pow_units R NumR q e) as (I & Er & _). destruct (C29_pow_units R NumR q' e) as (I' & Er' & _).
    assert (W : forall q0 r : qty R, goodq q0 -> q_pow q0 e = Ok r -> goodq r).
    { intros q0 r0 H0 Hr0. unfold q_pow, apply_power in Hr0. cbn [odat] in Hr0.
      destruct (match e with OQ p1 => if dim_nonempty (qdim p1) then Err ValueError else Ok tt | OArr _ => Ok tt end); cbn [bind] in Hr0; [|discriminate].
      destruct (uniform (dat (odat e))); [|discriminate].
      destruct (amap2 npow (mag q0) (odat e)) as [m|] eqn:Em; cbn [bind] in Hr0; [|discriminate]. apply Ok_inj in Hr0. subst r0.
      split; [exact (awf_amap2 npow (proj1 H0) We Em)|]. cbn [qdim]. apply gdims_pow, H0. }
    apply (rrel_intro _ _ _ ValueError); auto.
    - intros r Hr. destruct (C32_powers E q q' e r HE (good_ok _ G) (good_ok _ G') V Hd Hr) as (r' & Hr' & V').
      exists r'. split; [exact Hr'|]. split; [exact (W q r G Hr)|]. split; [exact (W q' r' G' Hr')|exact V'].
    - intros r Hr. apply I. destruct (proj1 I') as (A1 & A2 & A3); [eauto|]. split; auto. split; auto. now rewrite Sh.
  Qed.
  Lemma ufunc_rel f q q' : qrel q q' -> In f [UFabs; UAbsolute; UConjugate; UNegative; USquare; UReciprocal; USqrt] ->
    Forall (value_defined f) (dat (mag q)) -> rrel qrel (np1 E f q) (np1 E f q').
  Proof.
    intros H Hf Hd. pose proof H as (G & G' & C & S).
    destruct (C38_unary E f q (fun _ => 1) Hf Hd) as (r & Hr & _).
    destruct (C38_unary_unit_independent E f q q' r HE Hf Hd S Hr) as (r' & Hr' & V). rewrite Hr, Hr'. cbn [rrel].
    assert (W : forall q0 r0, goodq q0 -> np1 E f q0 = Ok r0 -> goodq r0).
    { intros q0 r0 G0 H0. unfold np1, apply1 in H0.
      destruct Hf as [<-|[<-|[<-|[<-|[<-|[<-|[<-|[]]]]]]]]; cbn [rule_of1 pd1 bind] in H0; apply Ok_inj in H0; subst r0;
        (split; [apply awf_amap, G0|]); cbn [qdim]; try apply gdims_pow; apply G0. }
    split; [exact (W q r G Hr)|]. split; [exact (W q' r' G' Hr')|]. split; [|exact V].
    unfold np1, apply1 in Hr, Hr'.
    destruct Hf as [<-|[<-|[<-|[<-|[<-|[<-|[<-|[]]]]]]]]; cbn [rule_of1 pd1 bind] in Hr, Hr'; apply Ok_inj in Hr; apply Ok_inj in Hr'; subst r r';
      cbn [qdim]; try apply conv_pow; exact C.
  Qed.
  Lemma rescale_rel q q' d : qrel q q' -> gdims d ->
    rrel qrel (rescale (fun _ => Err LookupError) E q (UDim d)) (rescale (fun _ => Err LookupError) E q' (UDim d)).
  Proof.
    intros H Gd. pose proof H as (G & G' & C & S). rewrite !(rescale_denotes _ _ _ _ d) by constructor.
    pose proof (rescale_outcome q q' d d H Gd Gd (convertible_refl E d)) as O.
    destruct (rescale_to E q d) as [r|e] eqn:Hr, (rescale_to E q' d) as [r'|e'] eqn:Hr'; cbn [rrel] in *; try contradiction; [|exact O].
    destruct (rescale_facts q d r G Gd Hr) as (Gr & _ & X & _).
    destruct (rescale_facts q' d r' G' Gd Hr') as (Gr' & _ & X' & _).
    split; [exact Gr|]. split; [exact Gr'|]. split.
    - apply convertible_exp; [apply Gr|apply Gr'|]. intros u. now rewrite X, X'.
    - intros phi HC. rewrite (rescale_value E q d r HE (proj2 (good_ok _ G)) (proj1 Gd) Hr phi HC).
      rewrite (rescale_value E q' d r' HE (proj2 (good_ok _ G')) (proj1 Gd) Hr' phi HC). now apply S.
  Qed.
  Lemma simplified_rel q q' : qrel q q' -> rrel qrel (simplified (S (S fuel)) E D q) (simplified (S (S fuel)) E D q').
  Proof.
    intros H. pose proof H as (G & G' & C & S).
    destruct (C19_simplified_terminates_iff E D root q HE HS (proj2 (good_ok _ G))) as [_ T].
    destruct (C19_simplified_terminates_iff E D root q' HE HS (proj2 (good_ok _ G'))) as [_ T'].
    destruct (T (proj2 (proj2 G)) fuel) as [r Hr]. destruct (T' (proj2 (proj2 G')) fuel) as [r' Hr']. rewrite Hr, Hr'. cbn [rrel].
    destruct (C17_simplified_preserves_value E D _ q r HE HD (good_ok _ G) Hr) as (V & K & Sh & Dr).
    destruct (C17_simplified_preserves_value E D _ q' r' HE HD (good_ok _ G') Hr') as (V' & K' & Sh' & Dr').
    destruct (C18_simplified_canonical E D root _ _ q q' r r' HE HS HD (good_ok _ G) (good_ok _ G') C S Hr Hr') as [M X].
    assert (W : forall q0 r0 : qty R, goodq q0 -> (forall phi, consistent E phi -> phys phi r0 = phys phi q0) -> awf (mag r0)).
    { intros q0 r0 G0 V0. destruct (consistent_exists E HE) as [phi HC]. specialize (V0 phi HC).
      assert (Y := phys_awf phi q0 (proj1 G0)). rewrite <- V0 in Y. unfold awf, phys, amap in Y. cbn [shp dat] in Y. now rewrite map_length in Y. }
    split; [|split; [|split]].
    - split; [exact (W q r G V)|]. split; [exact Dr|]. intros u Hu. destruct (K u Hu) as (c & dd & Hc & Hi). eauto.
    - split; [exact (W q' r' G' V')|]. split; [exact Dr'|]. intros u Hu. destruct (K' u Hu) as (c & dd & Hc & Hi). eauto.
    - now apply convertible_exp.
    - intros phi HC. rewrite (V phi HC), (V' phi HC). now apply S.
  Qed.

  (** ** Programs *)
  (** Equal values, possibly in other units. *)
  Definition vrel (v v' : value) : Prop :=
    match v, v' with
    | VQ q, VQ q' => qrel q q'
    | VA a, VA a' => a = a' /\ awf a
    | VB b, VB b' => b = b'
    | VN n, VN n' => n = n'
    | _, _ => False
    end.
  (** The units and arrays written in the program are proper ones. *)
  Definition op1_ok (o : op1) : Prop :=
    match o with
    | ORescale d => gdims d
    | OPow e => awf (odat e)
    | _ => True
    end.
  Fixpoint prog_ok (p : prog) : Prop :=
    match p with
    | PVar _ => True
    | PPlain a => awf a
    | P1 o p => op1_ok o /\ prog_ok p
    | P2 _ p1 p2 => prog_ok p1 /\ prog_ok p2
    | PLet p1 p2 => prog_ok p1 /\ prog_ok p2
    | PIf c p1 p2 => prog_ok c /\ prog_ok p1 /\ prog_ok p2
    | PLoop c b => prog_ok c /\ prog_ok b
    end.
  Lemma sel_basic_len key s t ps : sel_basic key s = Ok (t, ps) -> length ps = prodn t.
  Proof. intros H. now destruct (sel_basic_ok key s t ps H) as [X _]. Qed.
  Lemma sel_mask_len m s t ps : sel_mask m s = Ok (t, ps) -> length ps = prodn t.
  Proof.
    unfold sel_mask. destruct (list_eq_dec Nat.eq_dec (shp m) s); [|discriminate]. intros H. apply Ok_inj in H.
    assert (t = [length (mask_positions 0 (dat m))] /\ ps = mask_positions 0 (dat m)) as [-> ->] by (split; congruence). cbn. lia.
  Qed.
  Lemma rel_VQ x y : rrel qrel x y -> rrel vrel (rmap VQ x) (rmap VQ y).
  Proof. apply rrel_map. auto. Qed.
  Lemma rel_VB x y : rrel eq x y -> rrel vrel (rmap VB x) (rmap VB y).
  Proof. apply rrel_map. intros a b ->. reflexivity. Qed.
  Lemma rel_VN x y : rrel eq x y -> rrel vrel (rmap VN x) (rmap VN y).
  Proof. apply rrel_map. intros a b ->. reflexivity. Qed.
  Lemma call1_rel o v v' r : vrel v v' -> op1_ok o -> defined1 o v -> call1 E D fuel o v = Some r ->
    exists r', call1 E D fuel o v' = Some r' /\ defined1 o v' /\ rrel vrel r r'.
  Proof.
    intros H Ho Hd. destruct v as [q| | |]; try discriminate. destruct v' as [q'| | |]; try contradiction. cbn [vrel] in H.
    assert (UF : forall f, In f [UFabs; UAbsolute; UConjugate; UNegative; USquare; UReciprocal; USqrt] -> o = OUfunc f ->
       Forall (value_defined f) (dat (mag q)) -> call1 E D fuel o (VQ q) = Some r ->
       exists r', call1 E D fuel o (VQ q') = Some r' /\ rrel vrel r r').
    { intros f Hf -> Fd. cbn [call1]. intros [= <-]. eexists. split; [reflexivity|]. apply rel_VQ. now apply ufunc_rel. }
    destruct o; cbn [call1].
    - intros Hr.
      assert (K : In f [UFabs; UAbsolute; UConjugate; UNegative; USquare; UReciprocal; USqrt] /\ Forall (value_defined f) (dat (mag q)) /\ defined1 (OUfunc f) (VQ q')).
      { assert (T : forall g, (forall x, value_defined g x) -> Forall (value_defined g) (dat (mag q))) by (intros g X; apply Forall_forall; auto).
        destruct f; cbn [defined1] in Hd; try (exfalso; cbn in Hd; intuition discriminate);
          try (split; [cbn; intuition|]; split; [apply T; cbn; auto|]; exact Hd).
        - split; [cbn; intuition|]. split; [exact Hd|]. cbn [defined1].
          apply (elem_scale (fun x => x <> 0) q q' H); auto. intros x v Hv Hx X. apply Rmult_integral in X. destruct X; auto. lra.
        - split; [cbn; intuition|]. split; [exact Hd|]. cbn [defined1].
          apply (elem_scale (fun x => 0 <= x) q q' H); auto. intros x v Hv Hx. apply Rmult_le_pos; lra. }
      destruct K as (K1 & K2 & K3). destruct (UF f K1 eq_refl K2 Hr) as (r' & R1 & R2). exists r'. auto.
    - intros [= <-]. eexists. split; [reflexivity|]. cbn [defined1] in *. split.
      + intros x p Hx Hp.
        assert (F : Forall (fun x => power_defined x p) (dat (mag q'))).
        { apply (elem_scale (fun x => power_defined x p) q q' H).
          - intros y v Hv [Y|[[Y1 Y2]|[Y1 Y2]]].
            + left. now apply Rmult_lt_0_compat.
            + right. left. split; auto. destruct Y2 as [Y2|Y2]; auto. left. intros X. apply Rmult_integral in X. destruct X; auto. lra.
            + right. right. split; auto. rewrite Y1. ring.
          - apply Forall_forall. intros y Hy. now apply Hd. }
        rewrite Forall_forall in F. exact (F x Hx).
      + apply rel_VQ. apply pow_rel; auto.
    - intros [= <-]. eexists. split; [reflexivity|]. split; [exact I|]. apply rel_VQ. now apply rescale_rel.
    - intros [= <-]. eexists. split; [reflexivity|]. split; [exact I|]. apply rel_VQ. now apply simplified_rel.
    - intros [= <-]. eexists. split; [reflexivity|]. split; [exact I|]. apply rel_VQ. apply nat1_rel; [exact H|apply red_nat].
    - intros [= <-]. eexists. split; [reflexivity|]. split; [exact I|]. apply rel_VQ. apply nat1_rel; [exact H|apply var_nat].
    - intros [= <-]. eexists. split; [reflexivity|]. split; [exact I|]. apply rel_VQ. apply nat1_rel; [exact H|apply prod_nat].
    - intros [= <-]. eexists. split; [reflexivity|]. split; [exact I|]. apply rel_VQ. apply nat1_rel; [exact H|apply cumsum_nat].
    - intros [= <-]. eexists. split; [reflexivity|]. split; [exact I|]. apply rel_VQ. apply nat1_rel; [exact H|apply trace_nat].
    - intros [= <-]. eexists. split; [reflexivity|]. split; [exact I|]. apply rel_VQ. apply nat1_rel; [exact H|apply squeeze_nat].
    - intros [= <-]. eexists. split; [reflexivity|]. split; [exact I|]. apply rel_VQ. apply nat1_rel; [exact H|]. apply getitem_nat. apply sel_basic_len.
    - intros [= <-]. eexists. split; [reflexivity|]. split; [exact I|]. apply rel_VN.
      apply (arg_rel largmax axis q q' H). intros v l. apply largmax_scale.
    - intros [= <-]. eexists. split; [reflexivity|]. split; [exact I|]. apply rel_VN.
      apply (arg_rel largmin axis q q' H). intros v l. apply largmin_scale.
    - intros [= <-]. eexists. split; [reflexivity|]. split; [exact I|]. cbn [rrel vrel]. now rewrite (nonzero_rel _ _ H).
  Qed.
  Lemma call2_rel o v1 v1' v2 v2' r : vrel v1 v1' -> vrel v2 v2' -> defined2 o v1 v2 -> call2 E o v1 v2 = Some r ->
    exists r', call2 E o v1' v2' = Some r' /\ defined2 o v1' v2' /\ rrel vrel r r'.
  Proof.
    intros H1 H2 Hd Hr.
    assert (Hd' : defined2 o v1' v2').
    { destruct o; auto; destruct v2 as [q2|a2| |], v2' as [q2'|a2'| |]; cbn [vrel] in H2; try contradiction; cbn [defined2] in *; auto.
      - exact (nonzero_phys (OQ q2) (OQ q2') H2 Hd).
      - exact (nonzero_phys (OArr a2) (OArr a2') H2 Hd).
      - exact (nonzero_phys (OQ q2) (OQ q2') H2 Hd).
      - exact (nonzero_phys (OArr a2) (OArr a2') H2 Hd). }
    enough (K : exists r', call2 E o v1' v2' = Some r' /\ rrel vrel r r') by (destruct K as (r' & K1 & K2); eauto).
    destruct o; destruct v1 as [q1|a1|b1|n1], v1' as [q1'|a1'|b1'|n1']; cbn [vrel] in H1; try contradiction;
      destruct v2 as [q2|a2|b2|n2], v2' as [q2'|a2'|b2'|n2']; cbn [vrel] in H2; try contradiction;
      try (destruct c; discriminate Hr); try discriminate Hr.
    - cbn [call2] in *. injection Hr as <-. eexists. split; [reflexivity|]. apply rel_VQ. exact (nat2_rel _ _ q1 q1' (OQ q2) (OQ q2') (sum_nat Rplus homog_add) H1 H2).
    - cbn [call2] in *. injection Hr as <-. eexists. split; [reflexivity|]. apply rel_VQ.
      exact (nat2_rel _ _ q1 q1' (OArr a2) (OArr a2') (sum_nat Rplus homog_add) H1 (orel_as_q (OArr a2) (OArr a2') H2)).
    - cbn [call2] in *. injection Hr as <-. eexists. split; [reflexivity|]. apply rel_VQ.
      exact (nat2_rel _ _ q2 q2' (OArr a1) (OArr a1') (rsum_nat Rplus homog_add) H2 (orel_as_q (OArr a1) (OArr a1') H1)).
    - cbn [call2] in *. injection Hr as <-. eexists. split; [reflexivity|]. apply rel_VQ. exact (nat2_rel _ _ q1 q1' (OQ q2) (OQ q2') (sum_nat Rminus homog_sub) H1 H2).
    - cbn [call2] in *. injection Hr as <-. eexists. split; [reflexivity|]. apply rel_VQ.
      exact (nat2_rel _ _ q1 q1' (OArr a2) (OArr a2') (sum_nat Rminus homog_sub) H1 (orel_as_q (OArr a2) (OArr a2') H2)).
    - cbn [call2] in *. injection Hr as <-. eexists. split; [reflexivity|]. apply rel_VQ.
      exact (nat2_rel _ _ q2 q2' (OArr a1) (OArr a1') (rsum_nat Rminus homog_sub) H2 (orel_as_q (OArr a1) (OArr a1') H1)).
    - cbn [call2] in *. injection Hr as <-. eexists. split; [reflexivity|]. apply rel_VQ. exact (nat2_rel _ _ q1 q1' (OQ q2) (OQ q2') (sum_nat nmod homog_mod) H1 H2).
    - cbn [call2] in *. injection Hr as <-. eexists. split; [reflexivity|]. apply rel_VQ.
      exact (nat2_rel _ _ q1 q1' (OArr a2) (OArr a2') (sum_nat nmod homog_mod) H1 (orel_as_q (OArr a2) (OArr a2') H2)).
    - cbn [call2] in *. injection Hr as <-. eexists. split; [reflexivity|]. apply rel_VQ. apply mul_rel; auto. exists q1. auto.
    - cbn [call2] in *. injection Hr as <-. eexists. split; [reflexivity|]. apply rel_VQ. apply mul_rel; auto. exists q1. auto.
    - cbn [call2] in *. injection Hr as <-. eexists. split; [reflexivity|]. apply rel_VQ. apply mul_rel; auto. exists q2. auto.
    - cbn [call2] in *. injection Hr as <-. eexists. split; [reflexivity|]. apply rel_VQ. apply div_rel; auto. exists q1. auto.
    - cbn [call2] in *. injection Hr as <-. eexists. split; [reflexivity|]. apply rel_VQ. apply div_rel; auto. exists q1. auto.
    - cbn [call2] in *. injection Hr as <-. eexists. split; [reflexivity|]. apply rel_VQ. apply div_rel; auto. exists q2. auto.
    - destruct c; cbn [call2] in *; injection Hr as <-; (eexists; split; [reflexivity|]); apply rel_VB;
        (exact (eqne_rel UEq _ _ _ _ H1 H2) || exact (eqne_rel UNe _ _ _ _ H1 H2) || now apply order_rel).
    - cbn [call2] in *. injection Hr as <-. eexists. split; [reflexivity|]. apply rel_VQ. subst b2'. apply nat1_rel; [exact H1|]. apply getitem_nat. apply sel_mask_len.
    - cbn [call2] in *. injection Hr as <-. eexists. split; [reflexivity|]. apply rel_VQ. exact (nat2_rel _ _ q1 q1' q2 q2' clip_lo_nat H1 H2).
    - cbn [call2] in *. injection Hr as <-. eexists. split; [reflexivity|]. apply rel_VQ. exact (nat2_rel _ _ q1 q1' q2 q2' clip_hi_nat H1 H2).
    - cbn [call2] in *. injection Hr as <-. eexists. split; [reflexivity|]. apply rel_VQ. exact (nat2_rel _ _ q1 q1' q2 q2' (setitem_nat (sel_basic key)) H1 H2).
    - cbn [call2] in *. injection Hr as <-. eexists. split; [reflexivity|]. apply rel_VQ. exact (nat2_rel _ _ q1 q1' q2 q2' (put_nat indices) H1 H2).
  Qed.
  Lemma Ok_rel r v : rrel vrel (Ok v) r -> exists v', r = Ok v' /\ vrel v v'.
  Proof. destruct r; cbn; [eauto|contradiction]. Qed.
  Lemma Err_rel r e : rrel vrel (Err e) r -> r = Err e.
  Proof. destruct r; cbn; [contradiction|congruence]. Qed.
  Lemma VB_rel b v : vrel (VB b) v -> v = VB b.
  Proof. destruct v; cbn; try contradiction. congruence. Qed.
  Theorem runs_rel env p r : runs E D fuel env p r -> forall env', prog_ok p -> Forall2 vrel env env' ->
    exists r', runs E D fuel env' p r' /\ rrel vrel r r'.
  Proof.
    induction 1; intros env' Hp He; cbn [prog_ok] in Hp.
    - revert n H. induction He as [|x y l l' Hxy He IH]; intros [|n] Hn; try discriminate; cbn in Hn.
      + injection Hn as ->. exists (Ok y). split; [now constructor|exact Hxy].
      + destruct (IH n Hn) as (r' & R1 & R2). exists r'. split; [|exact R2]. inversion R1; subst. now constructor.
    - exists (Ok (VA a)). split; [constructor|]. cbn. auto.
    - destruct Hp as [Ho Hp]. destruct (IHruns env' Hp He) as (r1 & R1 & R2). apply Ok_rel in R2. destruct R2 as (v' & -> & Hv).
      destruct (call1_rel o v v' r Hv Ho H0 H1) as (r' & C1 & C2 & C3). exists r'. split; [|exact C3]. econstructor; eauto.
    - destruct Hp as [Ho Hp]. destruct (IHruns env' Hp He) as (r1 & R1 & R2). apply Err_rel in R2. subst r1.
      exists (Err e). split; [now apply R1e|reflexivity].
    - destruct Hp as [Hp1 Hp2]. destruct (IHruns1 env' Hp1 He) as (r1 & R1 & R2). apply Ok_rel in R2. destruct R2 as (v1' & -> & Hv1).
      destruct (IHruns2 env' Hp2 He) as (r2 & R3 & R4). apply Ok_rel in R4. destruct R4 as (v2' & -> & Hv2).
      destruct (call2_rel o v1 v1' v2 v2' r Hv1 Hv2 H1 H2) as (r' & C1 & C2 & C3). exists r'. split; [|exact C3]. econstructor; eauto.
    - destruct Hp as [Hp1 Hp2]. destruct (IHruns env' Hp1 He) as (r1 & R1 & R2). apply Err_rel in R2. subst r1.
      exists (Err e). split; [now apply R2e|reflexivity].
    - destruct Hp as [Hp1 Hp2]. destruct (IHruns1 env' Hp1 He) as (r1 & R1 & R2). apply Ok_rel in R2. destruct R2 as (v1' & -> & Hv1).
      destruct (IHruns2 env' Hp2 He) as (r2 & R3 & R4). apply Err_rel in R4. subst r2.
      exists (Err e). split; [eapply R2e'; eauto|reflexivity].
    - destruct Hp as [Hp1 Hp2]. destruct (IHruns1 env' Hp1 He) as (r1 & R1 & R2). apply Ok_rel in R2. destruct R2 as (v1' & -> & Hv1).
      destruct (IHruns2 (v1' :: env') Hp2 (Forall2_cons _ _ Hv1 He)) as (r2 & R3 & R4). exists r2. split; [|exact R4]. eapply RLet; eauto.
    - destruct Hp as [Hp1 Hp2]. destruct (IHruns env' Hp1 He) as (r1 & R1 & R2). apply Err_rel in R2. subst r1.
      exists (Err e). split; [now apply RLete|reflexivity].
    - destruct Hp as (Hc & Hp1 & Hp2). destruct (IHruns1 env' Hc He) as (r1 & R1 & R2). apply Ok_rel in R2. destruct R2 as (v1' & -> & Hv1).
      apply VB_rel in Hv1. subst v1'. destruct (IHruns2 env') as (r2 & R3 & R4); [destruct t; auto|exact He|]. exists r2. split; [|exact R4].
      eapply RIf; eauto.
    - destruct Hp as (Hc & Hp1 & Hp2). destruct (IHruns env' Hc He) as (r1 & R1 & R2). apply Ok_rel in R2. destruct R2 as (v1' & -> & Hv1).
      apply VB_rel in Hv1. subst v1'. exists (Err ValueError). split; [eapply RIfa; eauto|reflexivity].
    - destruct Hp as (Hc & Hp1 & Hp2). destruct (IHruns env' Hc He) as (r1 & R1 & R2). apply Err_rel in R2. subst r1.
      exists (Err e). split; [now apply RIfe|reflexivity].
    - destruct Hp as (Hc & Hb). destruct (IHruns env' Hc He) as (r1 & R1 & R2). apply Ok_rel in R2. destruct R2 as (v1' & -> & Hv1).
      apply VB_rel in Hv1. subst v1'. inversion He; subst. exists (Ok y). split; [eapply RLoop; eauto|assumption].
    - destruct Hp as (Hc & Hb). destruct (IHruns1 env' Hc He) as (r1 & R1 & R2). apply Ok_rel in R2. destruct R2 as (v1' & -> & Hv1).
      apply VB_rel in Hv1. subst v1'. destruct (IHruns2 env' Hb He) as (r2 & R3 & R4). apply Ok_rel in R4. destruct R4 as (v2' & -> & Hv2).
      inversion He as [|x y l l' Hxy He']; subst. destruct (IHruns3 (v2' :: l') (conj Hc Hb) (Forall2_cons _ _ Hv2 He')) as (r3 & R5 & R6).
      exists r3. split; [eapply RLoops; eauto|exact R6].
    - destruct Hp as (Hc & Hb). destruct (IHruns env' Hc He) as (r1 & R1 & R2). apply Ok_rel in R2. destruct R2 as (v1' & -> & Hv1).
      apply VB_rel in Hv1. subst v1'. inversion He; subst. exists (Err ValueError). split; [eapply RLoopa; eauto|reflexivity].
    - destruct Hp as (Hc & Hb). destruct (IHruns env' Hc He) as (r1 & R1 & R2). apply Err_rel in R2. subst r1. inversion He; subst.
      exists (Err e). split; [now apply RLoope|reflexivity].
    - destruct Hp as (Hc & Hb). destruct (IHruns1 env' Hc He) as (r1 & R1 & R2). apply Ok_rel in R2. destruct R2 as (v1' & -> & Hv1).
      apply VB_rel in Hv1. subst v1'. destruct (IHruns2 env' Hb He) as (r2 & R3 & R4). apply Err_rel in R4. subst r2. inversion He; subst.
      exists (Err e). split; [eapply RLoopbe; eauto|reflexivity].
  Qed.

  (** ** Erasing the units *)
  (** The value in the coherent system of units [phi], as a dimensionless quantity. *)
  Definition erase (phi : uid -> R) (v : value) : value := match v with VQ q => VQ (Qty (phys phi q) []) | _ => v end.
  (** The program without its unit conversions. *)
  Fixpoint strip (p : prog) : prog :=
    match p with
    | P1 (ORescale _) p => strip p
    | P1 OSimplified p => strip p
    | P1 o p => P1 o (strip p)
    | P2 o p1 p2 => P2 o (strip p1) (strip p2)
    | PLet p b => PLet (strip p) (strip b)
    | PIf c p1 p2 => PIf (strip c) (strip p1) (strip p2)
    | PLoop c b => PLoop (strip c) (strip b)
    | p => p
    end.
  (** [==] and [!=] answer for quantities of different kinds instead of refusing them. *)
  Fixpoint no_equality (p : prog) : Prop :=
    match p with
    | PVar _ | PPlain _ => True
    | P1 _ p => no_equality p
    | P2 o p1 p2 => o <> OCmp UEq /\ o <> OCmp UNe /\ no_equality p1 /\ no_equality p2
    | PLet p1 p2 => no_equality p1 /\ no_equality p2
    | PIf c p1 p2 => no_equality c /\ no_equality p1 /\ no_equality p2
    | PLoop c b => no_equality c /\ no_equality b
    end.
  Definition goodv (v : value) : Prop := match v with VQ q => goodq q | VA a => awf a | _ => True end.

  Lemma phys_forall (P : R -> Prop) phi q : (forall x v, 0 < v -> P x -> P (x * v)) ->
    Forall P (dat (mag q)) -> Forall P (dat (phys phi q)).
  Proof.
    intros HP F. cbn [phys amap dat]. apply Forall_forall. intros y Hy. apply in_map_iff in Hy. destruct Hy as (x & <- & Hx).
    apply HP; [apply dimval_pos|]. rewrite Forall_forall in F. now apply F.
  Qed.
  Lemma power_defined_scale p x v : 0 < v -> power_defined x p -> power_defined (x * v) p.
  Proof.
    intros Hv [Y|[[Y1 Y2]|[Y1 Y2]]].
    - left. now apply Rmult_lt_0_compat.
    - right. left. split; auto. destruct Y2 as [Y2|Y2]; auto. left. intros X. apply Rmult_integral in X. destruct X; auto. lra.
    - right. right. split; auto. rewrite Y1. ring.
  Qed.
  Lemma nz_scale x v : 0 < v -> x <> 0 -> x * v <> 0.
  Proof. intros Hv Hx X. apply Rmult_integral in X. destruct X; auto. lra. Qed.
  Lemma defined1_erase o v phi : defined1 o v -> defined1 o (erase phi v).
  Proof.
    destruct v as [q| | |]; auto. destruct o; auto.
    - destruct f; auto; cbn [defined1 erase mag]; apply phys_forall.
      + intros x v Hv Hx. now apply nz_scale.
      + intros x v Hv Hx. apply Rmult_le_pos; lra.
    - cbn [defined1 erase mag]. intros H x p Hx Hp.
      assert (F : Forall (fun x => power_defined x p) (dat (phys phi q))).
      { apply phys_forall; [intros y v; apply power_defined_scale|]. apply Forall_forall. intros y Hy. now apply H. }
      rewrite Forall_forall in F. exact (F x Hx).
  Qed.
  Lemma defined2_erase o v1 v2 phi : defined2 o v1 v2 -> defined2 o (erase phi v1) (erase phi v2).
  Proof.
    destruct o; auto; destruct v2 as [q| | |]; auto; cbn [defined2 erase mag]; apply phys_forall; intros x v; apply nz_scale.
  Qed.
  Lemma rmapq (x : res (qty R)) w : rmap VQ x = Ok w -> exists r, x = Ok r /\ w = VQ r.
  Proof. destruct x; cbn; [|discriminate]. intros H. apply Ok_inj in H. eauto. Qed.
  Lemma dim_pow_nil p : dim_pow [] p = [].
  Proof. unfold dim_pow. now destruct (pzero p). Qed.
  Lemma pow_good (q : qty R) e r : awf (odat e) -> goodq q -> q_pow q e = Ok r -> goodq r.
  Proof.
    intros We G Hr. unfold q_pow, apply_power in Hr. cbn [odat] in Hr.
    destruct (match e with OQ p1 => if dim_nonempty (qdim p1) then Err ValueError else Ok tt | OArr _ => Ok tt end); cbn [bind] in Hr; [|discriminate].
    destruct (uniform (dat (odat e))); [|discriminate].
    destruct (amap2 npow (mag q) (odat e)) as [m|] eqn:Em; cbn [bind] in Hr; [|discriminate]. apply Ok_inj in Hr. subst r.
    split; [exact (awf_amap2 npow (proj1 G) We Em)|]. cbn [qdim]. apply gdims_pow, G.
  Qed.
  Lemma pow_plain (a : arr R) e r : q_pow (Qty a []) e = Ok r -> qdim r = [].
  Proof.
    clear. intros Hr. unfold q_pow, apply_power in Hr. cbn [odat] in Hr.
    destruct (match e with OQ p1 => if dim_nonempty (qdim p1) then Err ValueError else Ok tt | OArr _ => Ok tt end); cbn [bind] in Hr; [|discriminate].
    destruct (uniform (dat (odat e))); [|discriminate].
    destruct (amap2 npow _ (odat e)) as [m|] eqn:Em; cbn [bind] in Hr; [|discriminate]. apply Ok_inj in Hr. subst r. cbn [qdim].
    unfold dim_pow. now destruct (pzero _).
  Qed.
  (** Any result of a call is a proper quantity. *)
  Lemma call1_good o v w : goodv v -> op1_ok o -> defined1 o v -> call1 E D fuel o v = Some (Ok w) -> goodv w.
  Proof.
    intros G Ho Hd Hr.
    assert (V : vrel v v) by (destruct v as [q| | |]; [now apply qrel_refl|split; [reflexivity|exact G]|reflexivity..]).
    destruct (call1_rel o v v (Ok w) V Ho Hd Hr) as (r' & _ & _ & R). apply Ok_rel in R. destruct R as (w' & _ & R).
    destruct w as [q|a| |]; try exact I; destruct w'; cbn in R; try contradiction; [apply R|destruct R; assumption].
  Qed.
  Lemma call2_good o v1 v2 w : goodv v1 -> goodv v2 -> defined2 o v1 v2 -> call2 E o v1 v2 = Some (Ok w) -> goodv w.
  Proof.
    intros G1 G2 Hd Hr.
    assert (V : forall v, goodv v -> vrel v v) by (intros v G; destruct v as [q| | |]; [now apply qrel_refl|split; [reflexivity|exact G]|reflexivity..]).
    destruct (call2_rel o v1 v1 v2 v2 (Ok w) (V v1 G1) (V v2 G2) Hd Hr) as (r' & _ & _ & R). apply Ok_rel in R. destruct R as (w' & _ & R).
    destruct w as [q|a| |]; try exact I; destruct w'; cbn in R; try contradiction; [apply R|destruct R; assumption].
  Qed.
  Definition converts_only (o : op1) : Prop := match o with ORescale _ | OSimplified => True | _ => False end.
  Lemma call1_erase o v w phi : consistent E phi -> goodv v -> op1_ok o -> defined1 o v -> call1 E D fuel o v = Some (Ok w) ->
    (converts_only o -> erase phi w = erase phi v) /\
    (~ converts_only o -> call1 E D fuel o (erase phi v) = Some (Ok (erase phi w))).
  Proof.
    intros HC G Ho Hd Hr. destruct v as [q| | |]; try discriminate. cbn [goodv] in G.
    assert (N1 : forall call : qty R -> res (qty R), nat1 (shp (mag q)) call -> Some (rmap VQ (call q)) = Some (Ok w) ->
      Some (rmap VQ (call (Qty (phys phi q) []))) = Some (Ok (erase phi w))).
    { intros call HN HS'. assert (HS2 : rmap VQ (call q) = Ok w) by congruence. apply rmapq in HS2. destruct HS2 as (r & HS2 & ->).
      destruct (nat1_erase call q r phi G HN HS2) as [_ X]. rewrite X. reflexivity. }
    assert (AG : forall (f : list R -> nat) axis, (forall v l, 0 < v -> f (scale v l) = f l) ->
      forall g : qty R -> res (arr nat), g = (fun q : qty R => ax <- norm_axis (length (shp (mag q))) axis ;; m <- areduce f ax (mag q) ;; check_lanes true ax (mag q) m) ->
      g (Qty (phys phi q) []) = g q).
    { intros f axis Hf g ->. unfold phys. cbn [mag]. set (v := dimval phi (qdim q)).
      change (shp (amap (fun x => x * v) (mag q))) with (shp (mag q)).
      destruct (norm_axis _ axis) as [ax|]; cbn [bind]; auto.
      rewrite areduce_amap, (areduce_ext _ f) by (intros l; apply Hf, dimval_pos).
      destruct (areduce f ax (mag q)) as [m|]; cbn [bind]; auto. unfold check_lanes. now rewrite lane_length_map. }
    destruct o; cbn [converts_only]; (split; [try (intros []; fail)|try (intros []; tauto)]).
    all: cbn [call1] in Hr; cbn [call1 erase].
    - intros _. assert (Hr' : rmap VQ (np1 E f q) = Ok w) by congruence. apply rmapq in Hr'. destruct Hr' as (r & Hr' & ->).
      assert (Hf : In f [UFabs; UAbsolute; UConjugate; UNegative; USquare; UReciprocal; USqrt] /\ Forall (value_defined f) (dat (mag q))).
      { assert (T : forall g, (forall x, value_defined g x) -> Forall (value_defined g) (dat (mag q))) by (intros g X; apply Forall_forall; auto).
        destruct f; cbn [defined1] in Hd; try (exfalso; cbn in Hd; intuition discriminate);
          (split; [cbn; intuition|]); try exact Hd; apply T; cbn; auto. }
      destruct Hf as [Hf Hv].
      assert (Hv' : Forall (value_defined f) (dat (phys phi q))).
      { apply phys_forall; auto. intros x v Pv. destruct f; cbn [value_defined]; auto; [apply nz_scale; auto|intros; apply Rmult_le_pos; lra]. }
      destruct (C38_unary E f q phi Hf Hv) as (r0 & X & Y). rewrite Hr' in X. apply Ok_inj in X. subst r0.
      destruct (C38_unary E f (Qty (phys phi q) []) phi Hf Hv') as (r0 & X & Y').
      rewrite X. cbn [rmap erase]. do 3 f_equal.
      assert (P0 : phys phi (Qty (phys phi q) []) = phys phi q).
      { unfold phys at 1. cbn [mag qdim]. rewrite (amap_ext _ (fun x => x)); [apply amap_id|]. intros x _. rewrite dimval_nil. ring. }
      assert (Dr : qdim r0 = []).
      { unfold np1, apply1 in X. destruct Hf as [<-|[<-|[<-|[<-|[<-|[<-|[<-|[]]]]]]]]; cbn [rule_of1 pd1 bind] in X; apply Ok_inj in X; subst r0;
          cbn [qdim]; try reflexivity. }
      rewrite P0, <- Y in Y'. destruct r0 as [m0 d0]. cbn [qdim] in Dr. subst d0. f_equal. rewrite <- Y'.
      unfold phys. cbn [mag qdim]. rewrite (amap_ext _ (fun x => x)); [now rewrite amap_id|]. intros x _. rewrite dimval_nil. ring.
    - intros _. assert (Hr' : rmap VQ (q_pow q e) = Ok w) by congruence. apply rmapq in Hr'. destruct Hr' as (r & Hr' & ->).
      cbn [defined1] in Hd. pose proof (C29_pow_value q e r phi Hr' Hd) as V.
      destruct (C29_pow_units R NumR q e) as (I & _ & _). destruct (C29_pow_units R NumR (Qty (phys phi q) []) e) as (I' & _ & U').
      destruct (proj2 I') as [r0 Hr0]; [cbn [mag phys amap shp]; apply I; eauto|]. rewrite Hr0. cbn [rmap erase]. do 3 f_equal.
      destruct (proj1 I') as (_ & (p & Hp) & _); [eauto|]. destruct (U' r0 p Hr0 Hp) as [_ M].
      pose proof (pow_plain _ _ _ Hr0) as Dr. destruct r0 as [m0 d0]. cbn [qdim] in Dr. subst d0. f_equal. cbn [mag] in M.
      change (amap2 npow (phys phi q) (odat e)) with (amap2 rpow (phys phi q) (odat e)) in M. rewrite V in M. now apply Ok_inj in M.
    - intros _. assert (Hr' : rmap VQ (rescale (fun _ => Err LookupError) E q (UDim d)) = Ok w) by congruence.
      apply rmapq in Hr'. destruct Hr' as (r & Hr' & ->). cbn [erase]. do 2 f_equal. rewrite (rescale_denotes _ _ _ _ d) in Hr' by constructor.
      exact (rescale_value E q d r HE (proj2 (good_ok _ G)) (proj1 Ho) Hr' phi HC).
    - intros _. assert (Hr' : rmap VQ (simplified (S (S fuel)) E D q) = Ok w) by congruence.
      apply rmapq in Hr'. destruct Hr' as (r & Hr' & ->). cbn [erase]. do 2 f_equal.
      destruct (C17_simplified_preserves_value E D _ q r HE HD (good_ok _ G) Hr') as (V & _). now apply V.
    - intros _. revert Hr. apply (N1 (q_red r axis)), red_nat.
    - intros _. revert Hr. apply (N1 (q_var ddof axis)), var_nat.
    - intros _. revert Hr. apply (N1 (q_prod axis)), prod_nat.
    - intros _. revert Hr. apply (N1 (q_cumsum axis)), cumsum_nat.
    - intros _. revert Hr. apply (N1 (q_trace offset axis1 axis2)), trace_nat.
    - intros _. revert Hr. apply (N1 (q_squeeze axis)), squeeze_nat.
    - intros _. revert Hr. apply (N1 (q_getitem (sel_basic key))), getitem_nat. apply sel_basic_len.
    - intros _. rewrite (AG largmax axis (fun v l => largmax_scale v l) (q_argmax axis) eq_refl).
      rewrite Hr. destruct (q_argmax axis q); cbn in Hr; [|discriminate]. assert (w = VN a) as -> by congruence. reflexivity.
    - intros _. rewrite (AG largmin axis (fun v l => largmin_scale v l) (q_argmin axis) eq_refl).
      rewrite Hr. destruct (q_argmin axis q); cbn in Hr; [|discriminate]. assert (w = VN a) as -> by congruence. reflexivity.
    - intros _. assert (w = VN (Arr [length (q_nonzero q)] (q_nonzero q))) as -> by congruence. cbn [erase].
      assert (K : q_nonzero (Qty (phys phi q) []) = q_nonzero q).
      { apply nonzero_inv, dimval_pos. }
      now rewrite K.
  Qed.
  Lemma order_erase c q1 q2 b phi : consistent E phi -> goodq q1 -> goodq q2 -> q_order E c q1 (OQ q2) = Ok b ->
    q_order E c (Qty (phys phi q1) []) (OQ (Qty (phys phi q2) [])) = Ok b.
  Proof.
    intros HC G1 G2. rewrite !q_order_rescale. destruct (rescale_to E q2 (qdim q1)) as [r|] eqn:Hr; cbn [bind]; [|discriminate].
    destruct (rescale_facts q2 (qdim q1) r G2 (proj2 G1) Hr) as (_ & _ & _ & V). cbn [qdim]. rewrite rescale_plain. cbn [bind mag].
    rewrite <- (V phi HC). unfold phys. rewrite (cmp_equi c) by apply dimval_pos. now rewrite rmap_id.
  Qed.
  Definition eraseo (phi : uid -> R) (o : operand R) : operand R := match o with OQ q => OQ (Qty (phys phi q) []) | _ => o end.
  Definition goodo (o : operand R) : Prop := match o with OQ q => goodq q | OArr a => awf a end.
  Lemma eraseo_phys phi o : odat (eraseo phi o) = ophys phi o.
  Proof. destruct o; reflexivity. Qed.
  Lemma muldiv_erase (f : R -> R -> R) ru o1 o2 r phi : In ru [RMul; RDiv] ->
    apply2 f ru o1 o2 = Ok r -> amap2 f (ophys phi o1) (ophys phi o2) = Ok (phys phi r) ->
    apply2 f ru (eraseo phi o1) (eraseo phi o2) = Ok (Qty (phys phi r) []).
  Proof.
    clear. intros Hru Hr Hp. unfold apply2. rewrite !eraseo_phys, Hp. cbn [bind]. pose proof (apply2_inv _ _ _ _ _ Hr) as [_ D1].
    destruct Hru as [<-|[<-|[]]]; destruct o1, o2; cbn [eraseo pd2 qdim] in *; try discriminate; reflexivity.
  Qed.
  Lemma call2_erase o v1 v2 w phi : consistent E phi -> goodv v1 -> goodv v2 -> defined2 o v1 v2 ->
    o <> OCmp UEq -> o <> OCmp UNe -> call2 E o v1 v2 = Some (Ok w) ->
    call2 E o (erase phi v1) (erase phi v2) = Some (Ok (erase phi w)).
  Proof.
    intros HC G1 G2 Hd NE NN Hr.
    assert (N2 : forall O (call : qty R -> O -> res (qty R)) val q o1 o2, nat2 call val -> goodq q -> goodq (val o1) ->
      val o2 = Qty (phys phi (val o1)) [] -> Some (rmap VQ (call q o1)) = Some (Ok w) ->
      Some (rmap VQ (call (Qty (phys phi q) []) o2)) = Some (Ok (erase phi w))).
    { intros O call val q o1 o2 HN Gq Go Hv HS'. assert (HS2 : rmap VQ (call q o1) = Ok w) by congruence. apply rmapq in HS2. destruct HS2 as (r & HS2 & ->).
      destruct (nat2_erase call val q o1 o2 r phi HC HN Gq Go Hv HS2) as [_ X]. rewrite X. reflexivity. }
    assert (PA : forall a, as_q (OArr a) = Qty (phys phi (as_q (OArr a))) []).
    { intros a. cbn [as_q]. f_equal. unfold phys. cbn [mag qdim]. rewrite (amap_ext _ (fun x => x)); [now rewrite amap_id|].
      intros x _. rewrite dimval_nil. ring. }
    assert (GA : forall a, awf a -> goodq (as_q (OArr a))) by (intros a W; split; [exact W|exact gdims_nil]).
    assert (MD : forall (f : R -> R -> R) ru o1 o2 v1' v2', In ru [RMul; RDiv] -> (forall r, apply2 f ru o1 o2 = Ok r -> forall phi, amap2 f (ophys phi o1) (ophys phi o2) = Ok (phys phi r)) ->
      eraseo phi o1 = v1' -> eraseo phi o2 = v2' -> Some (rmap VQ (apply2 f ru o1 o2)) = Some (Ok w) ->
      Some (rmap VQ (apply2 f ru v1' v2')) = Some (Ok (erase phi w))).
    { intros f ru o1 o2 v1' v2' Hru HP <- <- HS'. assert (HS2 : rmap VQ (apply2 f ru o1 o2) = Ok w) by congruence. apply rmapq in HS2. destruct HS2 as (r & HS2 & ->).
      rewrite (muldiv_erase f ru o1 o2 r phi Hru HS2 (HP r HS2 phi)). reflexivity. }
    assert (OK : forall o, goodo o -> operand_ok o) by (intros o0; destruct o0; cbn; [apply good_ok|auto]).
    destruct o; destruct v1 as [q1|a1|b1|n1]; try discriminate Hr; destruct v2 as [q2|a2|b2|n2]; try discriminate Hr;
      try (destruct c; discriminate Hr); cbn [goodv] in G1, G2; cbn [call2] in Hr; cbn [call2 erase].
    - exact (N2 _ _ as_q q1 (OQ q2) (OQ (Qty (phys phi q2) [])) (sum_nat Rplus homog_add) G1 G2 eq_refl Hr).
    - exact (N2 _ _ as_q q1 (OArr a2) (OArr a2) (sum_nat Rplus homog_add) G1 (GA a2 G2) (PA a2) Hr).
    - exact (N2 _ _ as_q q2 (OArr a1) (OArr a1) (rsum_nat Rplus homog_add) G2 (GA a1 G1) (PA a1) Hr).
    - exact (N2 _ _ as_q q1 (OQ q2) (OQ (Qty (phys phi q2) [])) (sum_nat Rminus homog_sub) G1 G2 eq_refl Hr).
    - exact (N2 _ _ as_q q1 (OArr a2) (OArr a2) (sum_nat Rminus homog_sub) G1 (GA a2 G2) (PA a2) Hr).
    - exact (N2 _ _ as_q q2 (OArr a1) (OArr a1) (rsum_nat Rminus homog_sub) G2 (GA a1 G1) (PA a1) Hr).
    - exact (N2 _ _ as_q q1 (OQ q2) (OQ (Qty (phys phi q2) [])) (sum_nat nmod homog_mod) G1 G2 eq_refl Hr).
    - exact (N2 _ _ as_q q1 (OArr a2) (OArr a2) (sum_nat nmod homog_mod) G1 (GA a2 G2) (PA a2) Hr).
    - exact (MD Rmult RMul (OQ q1) (OQ q2) _ _ (or_introl eq_refl) (fun r Hr => proj2 (proj2 (C28_products (OQ q1) (OQ q2) r (OK (OQ q1) G1) (OK (OQ q2) G2) Hr))) eq_refl eq_refl Hr).
    - exact (MD Rmult RMul (OQ q1) (OArr a2) _ _ (or_introl eq_refl) (fun r Hr => proj2 (proj2 (C28_products (OQ q1) (OArr a2) r (OK (OQ q1) G1) (OK (OArr a2) G2) Hr))) eq_refl eq_refl Hr).
    - exact (MD Rmult RMul (OArr a1) (OQ q2) _ _ (or_introl eq_refl) (fun r Hr => proj2 (proj2 (C28_products (OArr a1) (OQ q2) r (OK (OArr a1) G1) (OK (OQ q2) G2) Hr))) eq_refl eq_refl Hr).
    - exact (MD Rdiv RDiv (OQ q1) (OQ q2) _ _ (or_intror (or_introl eq_refl)) (fun r Hr => proj2 (proj2 (C28_quotients (OQ q1) (OQ q2) r (OK (OQ q1) G1) (OK (OQ q2) G2) Hd Hr))) eq_refl eq_refl Hr).
    - exact (MD Rdiv RDiv (OQ q1) (OArr a2) _ _ (or_intror (or_introl eq_refl)) (fun r Hr => proj2 (proj2 (C28_quotients (OQ q1) (OArr a2) r (OK (OQ q1) G1) (OK (OArr a2) G2) Hd Hr))) eq_refl eq_refl Hr).
    - exact (MD Rdiv RDiv (OArr a1) (OQ q2) _ _ (or_intror (or_introl eq_refl)) (fun r Hr => proj2 (proj2 (C28_quotients (OArr a1) (OQ q2) r (OK (OArr a1) G1) (OK (OQ q2) G2) Hd Hr))) eq_refl eq_refl Hr).
    - assert (OC : forall c, Some (rmap VB (q_order E c q1 (OQ q2))) = Some (Ok w) ->
        Some (rmap VB (q_order E c (Qty (phys phi q1) []) (OQ (Qty (phys phi q2) [])))) = Some (Ok (erase phi w))).
      { intros c0 H0. destruct (q_order E c0 q1 (OQ q2)) as [b|] eqn:Eb; cbn [rmap] in H0; [|discriminate].
        rewrite (order_erase c0 q1 q2 b phi HC G1 G2 Eb). assert (w = VB b) as -> by congruence. reflexivity. }
      destruct c; try contradiction; now apply OC.
    - cbn [erase]. assert (Hr' : rmap VQ (q_getitem (sel_mask b2) q1) = Ok w) by congruence. apply rmapq in Hr'. destruct Hr' as (r & Hr' & ->).
      destruct (nat1_erase _ q1 r phi G1 (getitem_nat (sel_mask b2) _ (sel_mask_len b2)) Hr') as [_ X]. rewrite X. reflexivity.
    - exact (N2 _ _ _ q1 q2 (Qty (phys phi q2) []) clip_lo_nat G1 G2 eq_refl Hr).
    - exact (N2 _ _ _ q1 q2 (Qty (phys phi q2) []) clip_hi_nat G1 G2 eq_refl Hr).
    - exact (N2 _ _ _ q1 q2 (Qty (phys phi q2) []) (setitem_nat (sel_basic key)) G1 G2 eq_refl Hr).
    - exact (N2 _ _ _ q1 q2 (Qty (phys phi q2) []) (put_nat indices) G1 G2 eq_refl Hr).
  Qed.
  Theorem runs_erase env p r : runs E D fuel env p r -> forall v phi, r = Ok v -> consistent E phi ->
    prog_ok p -> no_equality p -> Forall goodv env ->
    goodv v /\ runs E D fuel (map (erase phi) env) (strip p) (Ok (erase phi v)).
  Proof.
    assert (VBE : forall phi b, erase phi (VB b) = VB b) by reflexivity.
    induction 1; intros v0 phi Hv HC Hp Hq He; cbn [prog_ok no_equality] in Hp, Hq; try discriminate Hv.
    - apply Ok_inj in Hv. subst v0. split.
      + rewrite Forall_forall in He. apply He. eapply nth_error_In; eauto.
      + cbn [strip]. constructor. now apply map_nth_error.
    - apply Ok_inj in Hv. subst v0. split; [exact Hp|]. cbn [strip erase]. constructor.
    - destruct Hp as [Ho Hp]. subst r. destruct (IHruns v phi eq_refl HC Hp Hq He) as [Gv Rv].
      split; [exact (call1_good o v v0 Gv Ho H0 H1)|].
      destruct (call1_erase o v v0 phi HC Gv Ho H0 H1) as [X1 X2].
      assert (St : converts_only o /\ strip (P1 o p) = strip p \/ ~ converts_only o /\ strip (P1 o p) = P1 o (strip p)).
      { destruct o; cbn; auto. }
      destruct St as [[So ->]|[So ->]].
      + rewrite (X1 So). exact Rv.
      + eapply R1; [exact Rv|now apply defined1_erase|now apply X2].
    - destruct Hp as [Hp1 Hp2]. destruct Hq as (N1 & N2 & Hq1 & Hq2). subst r.
      destruct (IHruns1 v1 phi eq_refl HC Hp1 Hq1 He) as [Gv1 Rv1]. destruct (IHruns2 v2 phi eq_refl HC Hp2 Hq2 He) as [Gv2 Rv2].
      split; [exact (call2_good o v1 v2 v0 Gv1 Gv2 H1 H2)|]. cbn [strip].
      eapply R2; [exact Rv1|exact Rv2|now apply defined2_erase|]. now apply call2_erase.
    - destruct Hp as [Hp1 Hp2]. destruct Hq as [Hq1 Hq2]. destruct (IHruns1 v phi eq_refl HC Hp1 Hq1 He) as [Gv Rv].
      destruct (IHruns2 v0 phi Hv HC Hp2 Hq2 (Forall_cons _ Gv He)) as [Gw Rw]. split; [exact Gw|]. cbn [strip]. eapply RLet; [exact Rv|exact Rw].
    - destruct Hp as (Hc & Hp1 & Hp2). destruct Hq as (Qc0 & Hq1 & Hq2). destruct (IHruns1 (VB b) phi eq_refl HC Hc Qc0 He) as [_ Rb].
      destruct (IHruns2 v0 phi Hv HC) as [Gw Rw]; [destruct t; auto|destruct t; auto|exact He|]. split; [exact Gw|]. cbn [strip].
      eapply RIf; [exact Rb|exact H0|]. destruct t; exact Rw.
    - destruct Hp as (Hc & Hb). destruct Hq as (Qc0 & Hq). apply Ok_inj in Hv. subst v0. destruct (IHruns (VB t) phi eq_refl HC Hc Qc0 He) as [_ Rb].
      split; [now inversion He|]. cbn [strip map]. eapply RLoop; [exact Rb|exact H0].
    - destruct Hp as (Hc & Hb). destruct Hq as (Qc0 & Hq). destruct (IHruns1 (VB t) phi eq_refl HC Hc Qc0 He) as [_ Rb].
      destruct (IHruns2 v' phi eq_refl HC Hb Hq He) as [Gv Rv].
      destruct (IHruns3 v0 phi Hv HC (conj Hc Hb) (conj Qc0 Hq)) as [Gw Rw]; [inversion He; subst; now constructor|].
      split; [exact Gw|]. cbn [strip map] in *. eapply RLoops; [exact Rb|exact H0|exact Rv|exact Rw].
  Qed.
End Progs.


(** ** C115 *)
(** A run has one result. *)
Theorem C115_one_result : forall E D fuel env p r1 r2, runs E D fuel env p r1 -> runs E D fuel env p r2 -> r1 = r2.
Proof.
  assert (OI : forall a b : value, Ok a = Ok b -> a = b) by (intros; congruence).
  assert (BI : forall a b, VB a = VB b -> a = b) by (intros; congruence).
  assert (LI : forall a b : bool, [a] = [b] -> a = b) by (intros; congruence).
  intros E D fuel env p r1 r2 H. revert r2.
  induction H; intros r2 K; inversion K; subst;
    repeat (match goal with
    | IH : forall r, runs E D fuel ?e ?p r -> ?x = r, K : runs E D fuel ?e ?p ?y |- _ => tryif unify x y then fail else apply IH in K
    | K : Ok _ = Err _ |- _ => discriminate K
    | K : Err _ = Ok _ |- _ => discriminate K
    | K : Ok _ = Ok _ |- _ => apply OI in K
    | K : VB _ = VB _ |- _ => apply BI in K
    | K : dat ?b = [?x], K' : dat ?b = [?y] |- _ => rewrite K in K'; apply LI in K'
    | K : (2 <= length (dat ?b))%nat, K' : dat ?b = _ |- _ => rewrite K' in K; cbn in K; lia
    | K : true = false |- _ => discriminate K
    | K : false = true |- _ => discriminate K
    end; try subst); try congruence.
Qed.

(** Programs do not depend on the units of their inputs: if two lists of inputs hold equal
    values (quantities possibly in other units), a program ends with an exception for one
    iff it ends with the same exception for the other, it returns the same booleans, indices
    and plain arrays, and quantities that are equal in other units. *)
Theorem C115_units_of_inputs : forall E D root fuel p env env',
  renv_ok E -> std_defaults E D root -> (forall c dd, D c = Some dd -> dims_ok dd) ->
  (forall c dd u, D c = Some dd -> In u (dkeys dd) -> simplifiable E D root u) ->
  prog_ok E D root p -> Forall2 (vrel E D root) env env' ->
  (forall e, runs E D fuel env p (Err e) <-> runs E D fuel env' p (Err e)) /\
  (forall b, runs E D fuel env p (Ok (VB b)) <-> runs E D fuel env' p (Ok (VB b))) /\
  (forall n, runs E D fuel env p (Ok (VN n)) <-> runs E D fuel env' p (Ok (VN n))) /\
  (forall a, runs E D fuel env p (Ok (VA a)) <-> runs E D fuel env' p (Ok (VA a))) /\
  (forall q, runs E D fuel env p (Ok (VQ q)) ->
     exists q', runs E D fuel env' p (Ok (VQ q')) /\ shp (mag q') = shp (mag q) /\ equal_in_other_units E q q').
Proof.
  intros E D root fuel p env env' HE HS HD Hsd Hp He.
  assert (He' : Forall2 (vrel E D root) env' env).
  { induction He as [|v v' l l' Hv He IH]; constructor; auto. destruct v as [q|a|b|n], v' as [q'|a'|b'|n']; cbn in *; try tauto; auto.
    - now apply qrel_sym.
    - destruct Hv as [<- W]. auto. }
  pose proof (fun r H => runs_rel E D root HE HS HD Hsd fuel env p r H env' Hp He) as F.
  pose proof (fun r H => runs_rel E D root HE HS HD Hsd fuel env' p r H env Hp He') as B.
  assert (X : forall r, (forall q, r <> Ok (VQ q)) -> runs E D fuel env p r <-> runs E D fuel env' p r).
  { intros r Hr. assert (Q : forall r', rrel (vrel E D root) r r' -> r' = r).
    { intros r' R. destruct r as [v|e], r' as [v'|e']; cbn in R; try contradiction; [|congruence].
      destruct v as [q|a|b|n], v' as [q'|a'|b'|n']; cbn in R; try contradiction; first [exfalso; exact (Hr _ eq_refl)|destruct R; congruence|congruence]. }
    split; intros H; [destruct (F r H) as (r' & R1 & R2)|destruct (B r H) as (r' & R1 & R2)]; rewrite (Q r' R2) in R1; exact R1. }
  split; [intros e; apply X; discriminate|]. split; [intros b; apply X; discriminate|]. split; [intros n; apply X; discriminate|].
  split; [intros a; apply X; discriminate|]. intros q H. destruct (F _ H) as (r' & R1 & R2). destruct r' as [[q'| | |]|]; cbn in R2; try contradiction.
  exists q'. split; [exact R1|]. split; [symmetry; exact (qrel_shp E D root HE q q' R2)|apply R2].
Qed.

(** ** C116 *)
(** What a program computes with quantities is what the same program, without its unit
    conversions, computes with the dimensionless values in any coherent system of units:
    the same booleans, indices and plain arrays, and the values of the quantities. *)
Theorem C116_units_erased : forall E D root fuel p env v phi,
  renv_ok E -> std_defaults E D root -> (forall c dd, D c = Some dd -> dims_ok dd) ->
  (forall c dd u, D c = Some dd -> In u (dkeys dd) -> simplifiable E D root u) ->
  prog_ok E D root p -> no_equality p -> Forall (goodv E D root) env ->
  runs E D fuel env p (Ok v) -> consistent E phi ->
  runs E D fuel (map (erase phi) env) (strip p) (Ok (erase phi v)).
Proof.
  intros E D root fuel p env v phi HE HS HD Hsd Hp Hq He Hr HC.
  exact (proj2 (runs_erase E D root HE HS HD Hsd fuel env p _ Hr v phi eq_refl HC Hp Hq He)).
Qed.
(** The hypotheses are met: [while x < limit: x = x + step], for inputs in metres and the
    same inputs in centimetres.  It runs once round the loop. *)
Definition ex_loop : prog := PLoop (P2 (OCmp ULt) (PVar 0) (PVar 1)) (P2 OAdd (PVar 0) (PVar 2)).
Definition ex_lengths (d : dims) (l : list R) : list value := map (fun x => VQ (Qty (scalar x) d)) l.
Lemma ex_loop_m : runs exE exD 0 (ex_lengths d_m [0; 1; 2]) ex_loop (Ok (VQ (Qty (scalar 2) d_m))).
Proof.
  assert (Ot : forall x y t, (t = true <-> x < y) ->
    runs exE exD 0 (ex_lengths d_m [x; y; 2]) (P2 (OCmp ULt) (PVar 0) (PVar 1)) (Ok (VB (scalar t)))).
  { intros x y t Ht. eapply R2; [constructor; reflexivity|constructor; reflexivity|exact I|]. cbn [call2].
    change (q_order exE ULt (Qty (scalar x) d_m) (OQ (Qty (scalar y) d_m))) with (Ok (scalar (ncmp ULt x y))). cbn [rmap].
    do 3 f_equal. apply (f_equal (@scalar bool)). apply eq_true_iff_eq. rewrite (ncmp_holds ULt). symmetry. exact Ht. }
  unfold ex_loop.
  assert (A1 : runs exE exD 0 (ex_lengths d_m [0; 1; 2]) (P2 OAdd (PVar 0) (PVar 2)) (Ok (VQ (Qty (scalar 2) d_m)))).
  { eapply R2; [constructor; reflexivity|constructor; reflexivity|exact I|]. cbn [call2].
    change (q_add exE (Qty (scalar 0) d_m) (OQ (Qty (scalar 2) d_m))) with (Ok (Qty (scalar (0 + 2)) d_m)). rewrite Rplus_0_l. reflexivity. }
  eapply (RLoops exE exD 0 (ex_lengths d_m [1; 2])); [apply (Ot 0 1 true); split; [intros _; lra|reflexivity]|reflexivity|exact A1|].
  eapply (RLoop exE exD 0 (ex_lengths d_m [1; 2])); [apply (Ot 2 1 false); split; [discriminate|intros X; lra]|reflexivity].
Qed.
Lemma ex_gd d u : dims_okb d = true -> dkeys d = [u] -> simplifiable exE exD ex_root u -> gdims exE exD ex_root d.
Proof. intros H1 H2 H3. split; [now apply dims_okb_ok|]. intros w Hw. rewrite H2 in Hw. destruct Hw as [<-|[]]. exact H3. Qed.
Lemma ex_gm : gdims exE exD ex_root d_m.
Proof. apply (ex_gd d_m u_m); [reflexivity|reflexivity|]. apply (simplifiable_root exE exD ex_root exD_std CLength eq_refl). discriminate. Qed.
Lemma ex_gcm : gdims exE exD ex_root d_cm.
Proof.
  apply (ex_gd d_cm u_cm); [reflexivity|reflexivity|]. unfold simplifiable. cbn [is_irreducible u_cls u_cm].
  split; [discriminate|]. exists (1 / 100). intros phi HC. exact (ex_cm_size phi HC).
Qed.
Example C115_example :
  Forall2 (vrel exE exD ex_root) (ex_lengths d_m [0; 1; 2]) (ex_lengths d_cm [0; 100; 200]) /\
  prog_ok exE exD ex_root ex_loop /\
  runs exE exD 0 (ex_lengths d_m [0; 1; 2]) ex_loop (Ok (VQ (Qty (scalar 2) d_m))) /\
  (exists q, runs exE exD 0 (ex_lengths d_cm [0; 100; 200]) ex_loop (Ok (VQ q)) /\ equal_in_other_units exE (Qty (scalar 2) d_m) q).
Proof.
  assert (V : forall x y, y = 100 * x -> vrel exE exD ex_root (VQ (Qty (scalar x) d_m)) (VQ (Qty (scalar y) d_cm))).
  { intros x y ->. split; [split; [reflexivity|exact ex_gm]|]. split; [split; [reflexivity|exact ex_gcm]|]. split; cbn [qdim].
    - exists 100. intros phi HC. rewrite (ex_cm_size phi HC). lra.
    - intros phi HC. unfold phys, scalar, amap. cbn [mag qdim shp dat map]. rewrite (ex_cm_size phi HC). do 2 f_equal. lra. }
  assert (F : Forall2 (vrel exE exD ex_root) (ex_lengths d_m [0; 1; 2]) (ex_lengths d_cm [0; 100; 200])).
  { unfold ex_lengths. cbn [map]. constructor; [apply V; lra|]. constructor; [apply V; lra|]. constructor; [apply V; lra|constructor]. }
  assert (P : prog_ok exE exD ex_root ex_loop) by (cbn; tauto).
  split; [exact F|]. split; [exact P|]. split; [exact ex_loop_m|].
  destruct (C115_units_of_inputs exE exD ex_root 0 ex_loop _ _ exE_ok exD_std exD_ok (proj1 (proj2 C18_example)) P F) as (_ & _ & _ & _ & X).
  destruct (X _ ex_loop_m) as (q & X1 & _ & X2). exists q. split; [exact X1|exact X2].
Qed.
Example C116_example : forall phi, consistent exE phi ->
  no_equality ex_loop /\ Forall (goodv exE exD ex_root) (ex_lengths d_m [0; 1; 2]) /\
  runs exE exD 0 (map (erase phi) (ex_lengths d_m [0; 1; 2])) ex_loop (Ok (VQ (Qty (scalar (2 * dimval phi d_m)) []))).
Proof.
  intros phi HC. assert (N : no_equality ex_loop) by (cbn; repeat split; discriminate).
  assert (G : Forall (goodv exE exD ex_root) (ex_lengths d_m [0; 1; 2])).
  { unfold ex_lengths. cbn [map]. repeat (constructor; [split; [reflexivity|exact ex_gm]|]). constructor. }
  split; [exact N|]. split; [exact G|].
  exact (C116_units_erased exE exD ex_root 0 ex_loop _ _ phi exE_ok exD_std exD_ok (proj1 (proj2 C18_example)) ltac:(cbn; tauto) N G ex_loop_m HC).
Qed.
(** Not so for programs with [==]: 1 m == 1 s is false, 1 == 1 is true. *)
Theorem C116_equality_refuted : exists E D root fuel p env phi,
  renv_ok E /\ std_defaults E D root /\ (forall c dd, D c = Some dd -> dims_ok dd) /\
  (forall c dd u, D c = Some dd -> In u (dkeys dd) -> simplifiable E D root u) /\
  prog_ok E D root p /\ Forall (goodv E D root) env /\ consistent E phi /\
  runs E D fuel env p (Ok (VB (scalar false))) /\
  runs E D fuel (map (erase phi) env) (strip p) (Ok (VB (scalar true))).
Proof.
  assert (Sd : forall c dd u, exD c = Some dd -> In u (dkeys dd) -> simplifiable exE exD ex_root u) by exact (proj1 (proj2 C18_example)).
  destruct (consistent_exists exE exE_ok) as [phi HC].
  exists exE, exD, ex_root, 0%nat, (P2 (OCmp UEq) (PVar 0) (PVar 1)), [VQ (Qty (scalar 1) d_m); VQ (Qty (scalar (dimval phi d_m / dimval phi d_s)) d_s)], phi.
  split; [exact exE_ok|]. split; [exact exD_std|]. split; [exact exD_ok|]. split; [exact Sd|]. split; [split; exact I|].
  assert (Gm : gdims exE exD ex_root d_m) by (split; [apply dims_okb_ok; reflexivity|]; intros u [Hu|[]]; change (u_m = u) in Hu; subst u; exact (Sd CLength d_m u_m eq_refl (or_introl eq_refl))).
  assert (Gs : gdims exE exD ex_root d_s) by (split; [apply dims_okb_ok; reflexivity|]; intros u [Hu|[]]; change (u_s = u) in Hu; subst u; exact (Sd CTime d_s u_s eq_refl (or_introl eq_refl))).
  split; [constructor; [split; [reflexivity|exact Gm]|constructor; [split; [reflexivity|exact Gs]|constructor]]|]. split; [exact HC|].
  split.
  - eapply R2; [constructor; reflexivity|constructor; reflexivity|exact I|]. cbn [call2].
    destruct (C34_incompatible exE (Qty (scalar 1) d_m) (Qty (scalar (dimval phi d_m / dimval phi d_s)) d_s) exE_ok) as [X _].
    + split; [reflexivity|apply dims_okb_ok; reflexivity].
    + split; [reflexivity|apply dims_okb_ok; reflexivity].
    + cbn [qdim]. rewrite convertible_iff; [|exact exE_ok|apply dims_okb_ok; reflexivity|apply dims_okb_ok; reflexivity]. cbn. discriminate.
    + rewrite X. reflexivity.
  - cbn [strip map erase]. eapply R2; [constructor; reflexivity|constructor; reflexivity|exact I|]. cbn [call2].
    unfold q_eq, q_eqne. cbn [qdim]. rewrite rescale_plain. cbn [mag].
    change (amap2 (ncmp UEq) (phys phi (Qty (scalar 1) d_m)) (phys phi (Qty (scalar (dimval phi d_m / dimval phi d_s)) d_s)))
      with (Ok (scalar (ncmp UEq (1 * dimval phi d_m) (dimval phi d_m / dimval phi d_s * dimval phi d_s)))).
    cbn [rmap]. do 3 f_equal. apply (f_equal (@scalar bool)). apply ncmp_holds. cbn [holds].
    pose proof (dimval_pos phi d_s). field. lra.
Qed.

Print Assumptions C115_one_result.
Print Assumptions C115_units_of_inputs.
Print Assumptions C116_units_erased.
Print Assumptions C116_equality_refuted.
