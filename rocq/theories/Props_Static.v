(** * Property C122: units and shapes do not depend on the data. *)
From Coq Require Import Reals Lra Lia.
From Verif Require Import Py Num Dim DimFacts Arr ArrFacts Lanes Units Spec UnitFacts Quant QuantFacts SimpFacts SpecApi ConvFacts
  Ufunc Ops OpsFacts Methods MethodsFacts ItemFacts Methods2 Examples Props_Conv Props_Ops Props_Ufunc Props_Methods Props_Methods2 Program
  Props_Program.

Open Scope R_scope.

(** ** Specification *)
(** What is known of a variable before the program runs: the kind of object, the units
    and the shape. *)
Inductive vtype : Type :=
| TQ (d : dims) (s : list nat)
| TA (s : list nat)
| TB (s : list nat)
| TN (s : list nat).
Definition has_type (v : value) (t : vtype) : Prop :=
  match v, t with
  | VQ q, TQ d s => qdim q = d /\ shp (mag q) = s /\ awf (mag q)
  | VA a, TA s => shp a = s /\ awf a
  | VB b, TB s => shp b = s /\ awf b
  | VN n, TN s => shp n = s /\ awf n
  | _, _ => False
  end.
(** An outcome: a value of a known kind, units and shape, or a known exception. *)
Definition outcome (r : res value) (t : res vtype) : Prop :=
  match r, t with
  | Ok v, Ok t => has_type v t
  | Err e, Err e' => e = e'
  | _, _ => False
  end.
(** Data of a given type: ones everywhere. *)
Definition sample (t : vtype) : value :=
  match t with
  | TQ d s => VQ (Qty (Arr s (repeat 1 (prodn s))) d)
  | TA s => VA (Arr s (repeat 1 (prodn s)))
  | TB s => VB (Arr s (repeat true (prodn s)))
  | TN s => VN (Arr s (repeat 1%nat (prodn s)))
  end.
(** Calls whose result has a shape that is known in advance: all but the selection with a
    mask and [nonzero].  Exponents and plain arrays of the program are arrays. *)
Definition shaped1 (o : op1) : Prop :=
  match o with ONonzero => False | OPow e => awf (odat e) | _ => True end.
Definition shaped2 (o : op2) : Prop := match o with OMask => False | _ => True end.

Section Static.
  Variable E : uenv R.
  Variable D : ucls -> option dims.
  Variable fuel : nat.

  (** A check of a program, without its data: every call is tried once on sample data. *)
  Inductive checks : list vtype -> prog -> res vtype -> Prop :=
  | c_var G n t : nth_error G n = Some t -> checks G (PVar n) (Ok t)
  | c_lit G a : awf a -> checks G (PPlain a) (Ok (TA (shp a)))
  | c_1 G o p t r rt : checks G p (Ok t) -> shaped1 o -> call1 E D fuel o (sample t) = Some r -> outcome r rt ->
      checks G (P1 o p) rt
  | c_1e G o p e : checks G p (Err e) -> checks G (P1 o p) (Err e)
  | c_2 G o p1 p2 t1 t2 r rt : checks G p1 (Ok t1) -> checks G p2 (Ok t2) -> shaped2 o ->
      call2 E o (sample t1) (sample t2) = Some r -> outcome r rt -> checks G (P2 o p1 p2) rt
  | c_2e G o p1 p2 e : checks G p1 (Err e) -> checks G (P2 o p1 p2) (Err e)
  | c_2e' G o p1 p2 t e : checks G p1 (Ok t) -> checks G p2 (Err e) -> checks G (P2 o p1 p2) (Err e)
  | c_let G p b t rt : checks G p (Ok t) -> checks (t :: G) b rt -> checks G (PLet p b) rt
  | c_lete G p b e : checks G p (Err e) -> checks G (PLet p b) (Err e)
  | c_if G c p1 p2 s rt : checks G c (Ok (TB s)) -> prodn s = 1%nat -> checks G p1 rt -> checks G p2 rt -> checks G (PIf c p1 p2) rt
  | c_ifa G c p1 p2 s : checks G c (Ok (TB s)) -> (2 <= prodn s)%nat -> checks G (PIf c p1 p2) (Err ValueError)
  | c_ife G c p1 p2 e : checks G c (Err e) -> checks G (PIf c p1 p2) (Err e)
  | c_loop G c b t s : checks (t :: G) c (Ok (TB s)) -> prodn s = 1%nat -> checks (t :: G) b (Ok t) -> checks (t :: G) (PLoop c b) (Ok t)
  | c_loopa G c b t s : checks (t :: G) c (Ok (TB s)) -> (2 <= prodn s)%nat -> checks (t :: G) (PLoop c b) (Err ValueError)
  | c_loope G c b t e : checks (t :: G) c (Err e) -> checks (t :: G) (PLoop c b) (Err e).

  (** ** Proofs *)
  Definition like {A} (a b : arr A) : Prop := shp a = shp b /\ awf a /\ awf b.
  Definition qlike (q q' : qty R) : Prop := qdim q = qdim q' /\ like (mag q) (mag q').
  Definition vlike (v v' : value) : Prop :=
    match v, v' with
    | VQ q, VQ q' => qlike q q'
    | VA a, VA a' => like a a'
    | VB b, VB b' => like b b'
    | VN n, VN n' => like n n'
    | _, _ => False
    end.
  Definition olike (r r' : res value) : Prop := rrel vlike r r'.

  Lemma like_refl {A} (a : arr A) : awf a -> like a a. Proof. intros W. now split. Qed.
  Lemma like_len {A} (a b : arr A) : like a b -> length (dat a) = length (dat b).
  Proof. intros (S & W & W'). unfold awf in *. now rewrite W, W', S. Qed.
  Lemma like_amap {A B} (f g : A -> B) (a b : arr A) : like a b -> like (amap f a) (amap g b).
  Proof. intros (S & W & W'). split; [exact S|]. split; now apply awf_amap. Qed.

  Lemma areduce_like {A B} (f : list A -> B) ax (a b : arr A) : like a b -> rrel like (areduce f ax a) (areduce f ax b).
  Proof.
    intros (S & W & W').
    assert (X : match areduce f ax a, areduce f ax b with Ok m, Ok m' => shp m = shp m' | Err e, Err e' => e = e' | _, _ => False end).
    { destruct ax as [ax|]; cbn [areduce]; [|reflexivity]. rewrite S. destruct (split_axis (shp b) ax) as [[[pre n] post]|]; reflexivity. }
    destruct (areduce f ax a) as [m|] eqn:E1, (areduce f ax b) as [m'|] eqn:E2; try contradiction; [|exact X].
    split; [exact X|]. split; eapply awf_areduce; [exact W|exact E1|exact W'|exact E2].
  Qed.
  Lemma ascan_like (f : list R -> list R) ax (a b : arr R) : (forall l, length (f l) = length l) -> like a b ->
    rrel like (ascan f ax a) (ascan f ax b).
  Proof.
    intros Hf L. pose proof (like_len _ _ L) as LL. destruct L as (S & W & W').
    assert (X : match ascan f ax a, ascan f ax b with Ok m, Ok m' => shp m = shp m' | Err e, Err e' => e = e' | _, _ => False end).
    { destruct ax as [ax|]; cbn [ascan]; [|cbn; congruence]. rewrite S. destruct (split_axis (shp b) ax) as [[[pre n] post]|]; reflexivity. }
    destruct (ascan f ax a) as [m|] eqn:E1, (ascan f ax b) as [m'|] eqn:E2; try contradiction; [|exact X].
    split; [exact X|]. split; eapply ascan_wf; [exact Hf|exact W|exact E1|exact Hf|exact W'|exact E2].
  Qed.
  Lemma check_like {A B} need ax (a b : arr A) (m m' : arr B) : like a b -> like m m' ->
    rrel like (check_lanes need ax a m) (check_lanes need ax b m').
  Proof.
    intros L M. unfold check_lanes, lane_length. rewrite (like_len _ _ M), (like_len _ _ L), (proj1 L). now destruct (_ && _ && _)%bool.
  Qed.
  Lemma amap2_like {A B C} (f g : A -> B -> C) (a a' : arr A) (b b' : arr B) : like a a' -> like b b' ->
    rrel like (amap2 f a b) (amap2 g a' b').
  Proof.
    intros (S & W & W') (S2 & V & V').
    assert (X : match amap2 f a b, amap2 g a' b' with Ok m, Ok m' => shp m = shp m' | Err e, Err e' => e = e' | _, _ => False end).
    { unfold amap2. rewrite S, S2. destruct (bc_shape (shp a') (shp b')); reflexivity. }
    destruct (amap2 f a b) as [m|] eqn:E1, (amap2 g a' b') as [m'|] eqn:E2; try contradiction; [|exact X].
    split; [exact X|]. split; [exact (awf_amap2 f W V E1)|exact (awf_amap2 g W' V' E2)].
  Qed.
  Lemma rrel_bind {A B} (P : A -> A -> Prop) (Q : B -> B -> Prop) (x y : res A) (h k : A -> res B) :
    rrel P x y -> (forall a b, P a b -> rrel Q (h a) (k b)) -> rrel Q (bind x h) (bind y k).
  Proof. intros H K. destruct x, y; cbn [bind rrel] in *; try contradiction; auto. Qed.
  Lemma rescale_like q q' d : qlike q q' -> rrel qlike (rescale_to E q d) (rescale_to E q' d).
  Proof.
    intros [H L]. unfold rescale_to. rewrite H. destruct (dim_eqb (qdim q') d); [split; assumption|].
    destruct (conv_factor E (qdim q') d) as [cf|e]; [|destruct e; reflexivity]. split; [reflexivity|]. now apply like_amap.
  Qed.
  Lemma scale_like q q' o o' : qlike q q' -> qlike (as_q o) (as_q o') -> rrel qlike (scale_other E q o) (scale_other E q' o').
  Proof.
    intros [H _] Ho. unfold scale_other. rewrite H, (proj1 Ho). destruct (dim_eqb _ _); [exact Ho|]. now apply rescale_like.
  Qed.
  Lemma uniform_like {C} (f : R -> R -> C) q1 q1' q2 q2' : qlike q1 q1' -> qlike q2 q2' ->
    rrel (fun x y => qdim x = qdim y /\ like (mag x) (mag y)) (apply2 f RUniform (OQ q1) (OQ q2)) (apply2 f RUniform (OQ q1') (OQ q2')).
  Proof.
    intros [H L] [H2 L2]. unfold apply2. apply (rrel_bind like); [now apply amap2_like|]. intros m m' M. cbn [pd2].
    rewrite H, H2. destruct (dim_eqb _ _); cbn [bind]; [|reflexivity]. split; [reflexivity|exact M].
  Qed.
  Lemma muldiv_like (f : R -> R -> R) ru o1 o1' o2 o2' : In ru [RMul; RDiv] ->
    (match o1, o1' with OQ q, OQ q' => qlike q q' | OArr a, OArr a' => like a a' | _, _ => False end) ->
    (match o2, o2' with OQ q, OQ q' => qlike q q' | OArr a, OArr a' => like a a' | _, _ => False end) ->
    rrel qlike (apply2 f ru o1 o2) (apply2 f ru o1' o2').
  Proof.
    intros Hru H1 H2.
    assert (L : forall o o', (match o, o' with OQ q, OQ q' => qlike q q' | OArr a, OArr a' => like a a' | _, _ => False end) -> @like R (odat o) (odat o')).
    { intros [q|a] [q'|a']; try contradiction; [intros [_ X]; exact X|auto]. }
    unfold apply2. apply (rrel_bind like); [apply amap2_like; now apply L|]. intros m m' M.
    assert (X : pd2 ru o1 o2 = pd2 ru o1' o2').
    { destruct Hru as [<- | [<- | []]], o1, o1', o2, o2'; try contradiction; cbn [pd2]; rewrite ?(proj1 H1), ?(proj1 H2); reflexivity. }
    rewrite X. destruct (pd2 ru o1' o2'); cbn [bind]; [|reflexivity]. split; [reflexivity|exact M].
  Qed.
  Lemma VQ_like x y : rrel qlike x y -> olike (rmap VQ x) (rmap VQ y).
  Proof. now apply rrel_map. Qed.
  Lemma VB_like x y : rrel like x y -> olike (rmap VB x) (rmap VB y).
  Proof. now apply rrel_map. Qed.
  Lemma VN_like x y : rrel like x y -> olike (rmap VN x) (rmap VN y).
  Proof. now apply rrel_map. Qed.
  Lemma rrel_same {A} (x : res A) : rrel eq x x. Proof. destruct x; reflexivity. Qed.

  Lemma call1_like o v v' r : vlike v v' -> shaped1 o -> call1 E D fuel o v = Some r ->
    exists r', call1 E D fuel o v' = Some r' /\ olike r r'.
  Proof.
    intros V So H. destruct v as [q| | |]; try discriminate H. destruct v' as [q'| | |]; try contradiction V.
    assert (V0 := V). destruct V as [Hd L]. pose proof (like_len _ _ L) as LL.
    destruct o; cbn [call1] in *; cbn [shaped1] in So;
      match type of H with Some ?x = Some _ => assert (r = x) as -> by congruence end; eexists; (split; [reflexivity|]); clear H.
    - apply VQ_like. unfold np1, apply1. rewrite Hd. destruct (pd1 E (rule_of1 f) (qdim q')) as [d|]; cbn [bind]; [|reflexivity].
      split; [reflexivity|]. now apply like_amap.
    - apply VQ_like. unfold q_pow, apply_power. destruct (match e with OQ p => _ | OArr _ => _ end) as [|]; cbn [bind]; [|reflexivity].
      destruct (uniform (dat (odat e))) as [p|] eqn:Eu; [|reflexivity]. cbn [odat] in *.
      apply (rrel_bind like); [apply amap2_like; [exact L|now apply like_refl]|]. intros m m' M. cbn [bind]. rewrite Eu, Hd. split; [reflexivity|exact M].
    - apply VQ_like. unfold rescale. cbn [validate_dimensionality bind]. now apply rescale_like.
    - apply VQ_like. unfold simplified. rewrite Hd. destruct (simp_dims _ E D (qdim q')) as [[f d]|]; cbn [bind]; [|reflexivity].
      split; [reflexivity|]. now apply like_amap.
    - apply VQ_like. unfold q_red. rewrite (proj1 L). destruct (norm_axis _ axis) as [ax|]; cbn [bind]; [|reflexivity].
      apply (rrel_bind like); [now apply areduce_like|]. intros m m' M. apply (rrel_bind like); [now apply check_like|].
      intros n n' M'. now split.
    - apply VQ_like. unfold q_var. rewrite (proj1 L). destruct (norm_axis _ axis) as [ax|]; cbn [bind]; [|reflexivity].
      apply (rrel_bind like); [now apply areduce_like|]. intros m m' M. split; [cbn [qdim]; now rewrite Hd|exact M].
    - apply VQ_like. unfold q_prod. rewrite (proj1 L). destruct (norm_axis _ axis) as [ax|]; cbn [bind]; [|reflexivity].
      apply (rrel_bind like); [now apply areduce_like|]. intros m m' M. split; [|exact M]. cbn [qdim]. unfold lane_length. now rewrite Hd, LL, (proj1 L).
    - apply VQ_like. unfold q_cumsum. rewrite (proj1 L). destruct (norm_axis _ axis) as [ax|]; cbn [bind]; [|reflexivity].
      apply (rrel_bind like); [apply ascan_like; [intros l; apply lscan_length|exact L]|]. intros m m' M. now split.
    - apply VQ_like. unfold q_trace. rewrite (proj1 L). destruct (norm_axis _ (Some axis1)) as [[a1|]|]; cbn [bind]; try reflexivity;
        (destruct (norm_axis _ (Some axis2)) as [[a2|]|]; cbn [bind]; try reflexivity).
      destruct (Nat.eqb a1 a2); [reflexivity|]. split; [exact Hd|]. unfold atrace. rewrite (proj1 L). split; [reflexivity|]. split; apply atab_wf.
    - apply VQ_like.
      assert (K : forall a : arr R, awf a -> forall m d, q_squeeze axis (Qty a d) = Ok m -> awf (mag m)).
      { intros a W m d Hm.
        assert (Hm0 : exists m0, q_squeeze axis (Qty a []) = Ok m0 /\ mag m0 = mag m).
        { unfold q_squeeze in *. cbn [mag qdim] in *. destruct (norm_axis (length (shp a)) axis) as [[i|]|]; cbn [bind] in *; try discriminate Hm;
            [destruct (Nat.eqb _ _); [|discriminate Hm]|]; (eexists; split; [reflexivity|]); apply Ok_inj in Hm; now subst m. }
        destruct Hm0 as (m0 & Hm0 & <-).
        assert (Q : qty_ok (Qty a [])) by (split; [exact W|apply dims_ok_nil]). destruct axis as [k|].
        - destruct (C99_squeeze_axis R NumR k (Qty a []) Q) as [T _]. destruct (T _ Hm0) as (ax & _ & _ & [T1 _] & _). exact T1.
        - destruct (C99_squeeze R NumR (Qty a []) Q) as (r & T & [T1 _] & _). rewrite Hm0 in T. apply Ok_inj in T. now subst. }
      assert (X : match q_squeeze axis q, q_squeeze axis q' with Ok m, Ok m' => qdim m = qdim m' /\ shp (mag m) = shp (mag m') | Err e, Err e' => e = e' | _, _ => False end).
      { unfold q_squeeze. rewrite (proj1 L). destruct (norm_axis _ axis) as [[i|]|]; cbn [bind]; try reflexivity; [|now split].
        destruct (Nat.eqb _ _); [now split|reflexivity]. }
      destruct (q_squeeze axis q) as [m|] eqn:E1, (q_squeeze axis q') as [m'|] eqn:E2; try contradiction; [|exact X].
      destruct X as [X1 X2]. split; [exact X1|]. split; [exact X2|]. destruct q as [a d], q' as [a' d'].
      split; [apply (K a (proj1 (proj2 L)) m d E1)|apply (K a' (proj2 (proj2 L)) m' d' E2)].
    - apply VQ_like. unfold q_getitem. rewrite (proj1 L). destruct (sel_basic key (shp (mag q'))) as [[s ps]|] eqn:Es; cbn [bind]; [|reflexivity].
      split; [exact Hd|]. split; [reflexivity|]. split; unfold awf, gather; cbn [shp dat mag]; rewrite map_length; exact (sel_basic_len _ _ _ _ Es).
    - apply VN_like. unfold q_argmax. rewrite (proj1 L). destruct (norm_axis _ axis) as [ax|]; cbn [bind]; [|reflexivity].
      apply (rrel_bind like); [now apply areduce_like|]. intros m m' M. now apply check_like.
    - apply VN_like. unfold q_argmin. rewrite (proj1 L). destruct (norm_axis _ axis) as [ax|]; cbn [bind]; [|reflexivity].
      apply (rrel_bind like); [now apply areduce_like|]. intros m m' M. now apply check_like.
    - contradiction.
  Qed.
  Lemma as_q_like (a a' : arr R) : like a a' -> qlike (as_q (OArr a)) (as_q (OArr a')).
  Proof. intros L. split; [reflexivity|exact L]. Qed.
  Lemma sum_like (f : R -> R -> R) q q' o o' : qlike q q' -> qlike (as_q o) (as_q o') ->
    rrel qlike (x <- scale_other E q o ;; apply2 f RUniform (OQ q) (OQ x)) (x <- scale_other E q' o' ;; apply2 f RUniform (OQ q') (OQ x)).
  Proof. intros H Ho. apply (rrel_bind qlike); [now apply scale_like|]. intros x x' X. now apply uniform_like. Qed.
  Lemma rsum_like (f : R -> R -> R) q q' o o' : qlike q q' -> qlike (as_q o) (as_q o') ->
    rrel qlike (x <- scale_other E q o ;; apply2 f RUniform (OQ x) (OQ q)) (x <- scale_other E q' o' ;; apply2 f RUniform (OQ x) (OQ q')).
  Proof. intros H Ho. apply (rrel_bind qlike); [now apply scale_like|]. intros x x' X. now apply uniform_like. Qed.
  Lemma clip_like (g : R -> R -> R) q q' b b' : qlike q q' -> qlike b b' ->
    rrel qlike (lo <- rescale_to E b (qdim q) ;; m <- amap2 g (mag q) (mag lo) ;; Ok (Qty m (qdim q)))
               (lo <- rescale_to E b' (qdim q') ;; m <- amap2 g (mag q') (mag lo) ;; Ok (Qty m (qdim q'))).
  Proof.
    intros [H L] Hb. rewrite H. apply (rrel_bind qlike); [now apply rescale_like|]. intros x x' [_ X].
    apply (rrel_bind like); [now apply amap2_like|]. intros m m' M. now split.
  Qed.
  Lemma order_like c q q' b b' : qlike q q' -> qlike b b' -> rrel like (q_order E c q (OQ b)) (q_order E c q' (OQ b')).
  Proof.
    intros [H L] Hb. unfold q_order. rewrite H, (proj1 Hb). apply (rrel_bind like); [|intros m m' M; now apply amap2_like].
    destruct (dim_eqb _ _); [apply Hb|]. apply rrel_map with (P := qlike); [intros x x' [_ X]; exact X|]. now apply rescale_like.
  Qed.
  Lemma eqne_like c q q' b b' : qlike q q' -> qlike b b' -> rrel like (q_eqne E c q (OQ b)) (q_eqne E c q' (OQ b')).
  Proof.
    intros [H L] Hb. unfold q_eqne. rewrite H. pose proof (rescale_like _ _ (qdim q') Hb) as X.
    destruct (rescale_to E b (qdim q')) as [r|e], (rescale_to E b' (qdim q')) as [r'|e']; cbn [rrel] in X; try contradiction.
    - apply amap2_like; [exact L|apply X].
    - subst e'. destruct e; try reflexivity. now apply like_amap.
  Qed.
  Lemma bto_like (a a' : arr R) s : like a a' -> rrel (fun _ _ => True) (broadcast_to a s) (broadcast_to a' s).
  Proof.
    intros [S _]. unfold broadcast_to. rewrite S. destruct (bc_shape (shp a') s); [|reflexivity].
    destruct (list_eq_dec Nat.eq_dec l s); [exact I|reflexivity].
  Qed.
  Lemma scatter_like (a a' : arr R) ps ps' xs xs' : like a a' ->
    like (Arr (shp a) (scatter (dat a) ps xs)) (Arr (shp a') (scatter (dat a') ps' xs')).
  Proof. intros (S & W & W'). split; [exact S|]. split; unfold awf; cbn [shp dat]; now rewrite scatter_length. Qed.
  Lemma setitem_like sel q q' b b' : qlike q q' -> qlike b b' -> rrel qlike (q_setitem E sel q (OQ b)) (q_setitem E sel q' (OQ b')).
  Proof.
    intros Hq Hb. unfold q_setitem. apply (rrel_bind qlike); [now apply scale_like|]. intros x x' [_ X].
    rewrite (proj1 (proj2 Hq)). destruct (sel (shp (mag q'))) as [[s ps]|]; cbn [bind]; [|reflexivity].
    apply (rrel_bind (fun _ _ => True)); [now apply bto_like|]. intros xs xs' _. split; [apply Hq|].
    destruct Hq as [_ (S & W & W')]. split; [reflexivity|]. split; unfold awf; cbn [shp dat mag]; rewrite scatter_length; [rewrite <- S; exact W|exact W'].
  Qed.
  Lemma put_like ks q q' b b' : qlike q q' -> qlike b b' -> rrel qlike (q_put E q ks (OQ b)) (q_put E q' ks (OQ b')).
  Proof.
    intros Hq Hb. unfold q_put. apply (rrel_bind qlike); [now apply scale_like|]. intros x x' [_ X].
    rewrite (like_len _ _ (proj2 Hq)). destruct (norm_indices _ ks) as [ps|]; cbn [bind]; [|reflexivity].
    split; [apply Hq|]. apply scatter_like, Hq.
  Qed.

  Lemma call2_like o v1 v1' v2 v2' r : vlike v1 v1' -> vlike v2 v2' -> shaped2 o -> call2 E o v1 v2 = Some r ->
    exists r', call2 E o v1' v2' = Some r' /\ olike r r'.
  Proof.
    intros V W So H.
    destruct v1 as [q1|a1|b1|n1], v1' as [q1'|a1'|b1'|n1']; try contradiction V;
    destruct v2 as [q2|a2|b2|n2], v2' as [q2'|a2'|b2'|n2']; try contradiction W; cbn [vlike] in V, W;
    (destruct o as [ | | | | |c| | | |key|ks]; try discriminate H; try contradiction So).
    all: try match type of H with context [OCmp ?c] => destruct c; cbn [call2] in H end.
    all: cbn [call2] in *; try discriminate H.
    all: match type of H with Some ?x = Some _ => assert (r = x) as -> by congruence end; eexists; (split; [reflexivity|]); clear H.
    all: try (apply VQ_like; first
      [ apply (sum_like nadd); assumption | apply (sum_like nsub); assumption | apply (sum_like nmod); assumption
      | apply (sum_like nadd); [assumption|now apply as_q_like] | apply (sum_like nsub); [assumption|now apply as_q_like]
      | apply (sum_like nmod); [assumption|now apply as_q_like]
      | apply (rsum_like nadd); [assumption|now apply as_q_like] | apply (rsum_like nsub); [assumption|now apply as_q_like]
      | apply (muldiv_like nmul RMul); [now left|assumption|assumption]
      | apply (muldiv_like ndiv RDiv); [right; now left|assumption|assumption]
      | now apply setitem_like | now apply put_like ]).
    all: try (apply VB_like; first [now apply eqne_like | now apply order_like]).
    - apply VQ_like. pose proof (clip_like nmax _ _ _ _ V W) as X. unfold q_clip. cbn [is_plain orb]. rewrite !Bool.andb_false_r.
      cbn [clip_bound bind]. unfold clip_with. clear - X.
      destruct (rescale_to E q2 (qdim q1)) as [x|], (rescale_to E q2' (qdim q1')) as [x'|]; cbn [bind rmap] in *; try contradiction; exact X.
    - apply VQ_like. pose proof (clip_like nmin _ _ _ _ V W) as X. unfold q_clip. cbn [is_plain orb]. rewrite !Bool.andb_false_r.
      cbn [clip_bound bind]. unfold clip_with. clear - X.
      destruct (rescale_to E q2 (qdim q1)) as [x|], (rescale_to E q2' (qdim q1')) as [x'|]; cbn [bind rmap] in *; try contradiction; exact X.
  Qed.

  (** *** Values of a type *)
  Lemma awf_repeat {A} (x : A) s : awf (Arr s (repeat x (prodn s))).
  Proof. unfold awf. cbn [shp dat]. apply repeat_length. Qed.
  Lemma has_like v v' t : has_type v t -> has_type v' t -> vlike v v'.
  Proof.
    destruct v, v', t; cbn [has_type vlike]; try contradiction.
    - intros (? & ? & ?) (? & ? & ?). split; [congruence|]. split; [congruence|]. now split.
    - intros (? & ?) (? & ?). split; [congruence|]. now split.
    - intros (? & ?) (? & ?). split; [congruence|]. now split.
    - intros (? & ?) (? & ?). split; [congruence|]. now split.
  Qed.
  Lemma like_has v v' t : vlike v v' -> has_type v t -> has_type v' t.
  Proof.
    destruct v, v', t; cbn [has_type vlike]; try contradiction.
    - intros (? & ? & ? & ?) (? & ? & ?). split; [congruence|]. split; [congruence|assumption].
    - intros (? & ? & ?) (? & ?). split; [congruence|assumption].
    - intros (? & ? & ?) (? & ?). split; [congruence|assumption].
    - intros (? & ? & ?) (? & ?). split; [congruence|assumption].
  Qed.
  Lemma sample_has t : has_type (sample t) t.
  Proof.
    destruct t; cbn [sample has_type].
    - split; [reflexivity|]. split; [reflexivity|apply awf_repeat].
    - split; [reflexivity|apply awf_repeat].
    - split; [reflexivity|apply awf_repeat].
    - split; [reflexivity|apply awf_repeat].
  Qed.
  Lemma outcome_like r r' t : olike r r' -> outcome r t -> outcome r' t.
  Proof. destruct r as [v|], r' as [v'|], t as [t|]; cbn; try contradiction; [apply like_has|congruence]. Qed.
  Lemma nth_has env G n v t : Forall2 has_type env G -> nth_error env n = Some v -> nth_error G n = Some t -> has_type v t.
  Proof.
    intros F. revert n. induction F as [|x y env G H F IH]; intros [|n] H1 H2; try discriminate; cbn in *; [|eauto].
    congruence.
  Qed.
  Lemma TB_inv b t s : has_type (VB b) (TB s) -> dat b = [t] -> prodn s = 1%nat.
  Proof. intros [<- W] Hb. unfold awf in W. now rewrite Hb in W. Qed.

  Theorem checks_sound env p r : runs E D fuel env p r -> forall G rt, Forall2 has_type env G -> checks G p rt -> outcome r rt.
  Proof.
    induction 1 as [env n v Hn|env a|env o p v r H IH Hd Hc|env o p e H IH|env o p1 p2 v1 v2 r H1 IH1 H2 IH2 Hd Hc
      |env o p1 p2 e H IH|env o p1 p2 v e H1 IH1 H2 IH2|env p b v r H1 IH1 H2 IH2|env p b e H IH
      |env c p1 p2 b t r H1 IH1 Hb H2 IH2|env c p1 p2 b H IH Hb|env c p1 p2 e H IH
      |env c b t v H IH Ht|env c b t v v' r H IH Ht H1 IH1 H2 IH2|env c b t v H IH Ht|env c b v e H IH
      |env c b t v e H IH Ht H1 IH1]; intros G rt F C.
    - inversion C; subst. cbn. now apply (nth_has env G n).
    - inversion C; subst. now split.
    - inversion C as [| |G' o' p' t r' rt' C' So Cc Out|G' o' p' e C'| | | | | | | | | | |]; subst.
      + specialize (IH _ _ F C'). cbn [outcome] in IH.
        destruct (call1_like o (sample t) v r' (has_like _ _ _ (sample_has t) IH) So Cc) as (r0 & Hr0 & L).
        assert (r0 = r) as -> by congruence. now apply (outcome_like r').
      + exact (False_ind _ (IH _ _ F C')).
    - inversion C as [| |G' o' p' t r' rt' C' So Cc Out|G' o' p' e' C'| | | | | | | | | | |]; subst.
      + exact (False_ind _ (IH _ _ F C')).
      + exact (IH _ _ F C').
    - inversion C as [| | | |G' o' p1' p2' t1 t2 r' rt' C1 C2 So Cc Out|G' o' p1' p2' e C1|G' o' p1' p2' t e C1 C2| | | | | | | |]; subst.
      + specialize (IH1 _ _ F C1). specialize (IH2 _ _ F C2). cbn [outcome] in IH1, IH2.
        destruct (call2_like o (sample t1) v1 (sample t2) v2 r' (has_like _ _ _ (sample_has t1) IH1) (has_like _ _ _ (sample_has t2) IH2) So Cc) as (r0 & Hr0 & L).
        assert (r0 = r) as -> by congruence. now apply (outcome_like r').
      + exact (False_ind _ (IH1 _ _ F C1)).
      + exact (False_ind _ (IH2 _ _ F C2)).
    - inversion C as [| | | |G' o' p1' p2' t1 t2 r' rt' C1 C2 So Cc Out|G' o' p1' p2' e' C1|G' o' p1' p2' t e' C1 C2| | | | | | | |]; subst.
      + exact (False_ind _ (IH _ _ F C1)).
      + exact (IH _ _ F C1).
      + exact (False_ind _ (IH _ _ F C1)).
    - inversion C as [| | | |G' o' p1' p2' t1 t2 r' rt' C1 C2 So Cc Out|G' o' p1' p2' e' C1|G' o' p1' p2' t e' C1 C2| | | | | | | |]; subst.
      + exact (False_ind _ (IH2 _ _ F C2)).
      + exact (False_ind _ (IH1 _ _ F C1)).
      + exact (IH2 _ _ F C2).
    - inversion C as [| | | | | | |G' p' b' t rt' C1 C2|G' p' b' e C1| | | | | |]; subst.
      + apply (IH2 (t :: G)); [|exact C2]. constructor; [exact (IH1 _ _ F C1)|exact F].
      + exact (False_ind _ (IH1 _ _ F C1)).
    - inversion C as [| | | | | | |G' p' b' t rt' C1 C2|G' p' b' e' C1| | | | | |]; subst.
      + exact (False_ind _ (IH _ _ F C1)).
      + exact (IH _ _ F C1).
    - inversion C as [| | | | | | | | |G' c' q1 q2 s rt' C1 Ps C2 C3|G' c' q1 q2 s C1 Ps|G' c' q1 q2 e C1| | |]; subst.
      + apply (IH2 G); [exact F|]. destruct t; assumption.
      + pose proof (TB_inv _ _ _ (IH1 _ _ F C1) Hb). lia.
      + exact (False_ind _ (IH1 _ _ F C1)).
    - inversion C as [| | | | | | | | |G' c' q1 q2 s rt' C1 Ps C2 C3|G' c' q1 q2 s C1 Ps|G' c' q1 q2 e C1| | |]; subst.
      + specialize (IH _ _ F C1). destruct IH as [IS W]. unfold awf in W. rewrite W, IS, Ps in Hb. lia.
      + reflexivity.
      + exact (False_ind _ (IH _ _ F C1)).
    - inversion C as [| | | | | | | | |G' c' q1 q2 s rt' C1 Ps C2 C3|G' c' q1 q2 s C1 Ps|G' c' q1 q2 e' C1| | |]; subst.
      + exact (False_ind _ (IH _ _ F C1)).
      + exact (False_ind _ (IH _ _ F C1)).
      + exact (IH _ _ F C1).
    - inversion C as [| | | | | | | | | | | |G' c' b' t' s C1 Ps C2|G' c' b' t' s C1 Ps|G' c' b' t' e C1]; subst; inversion F; subst.
      + assumption.
      + pose proof (TB_inv _ _ _ (IH _ _ F C1) Ht). lia.
      + exact (False_ind _ (IH _ _ F C1)).
    - inversion C as [| | | | | | | | | | | |G' c' b' t' s C1 Ps C2|G' c' b' t' s C1 Ps|G' c' b' t' e C1]; subst; inversion F; subst.
      + apply (IH2 (t' :: G')); [|exact C]. constructor; [exact (IH1 _ _ F C2)|assumption].
      + pose proof (TB_inv _ _ _ (IH _ _ F C1) Ht). lia.
      + exact (False_ind _ (IH _ _ F C1)).
    - inversion C as [| | | | | | | | | | | |G' c' b' t' s C1 Ps C2|G' c' b' t' s C1 Ps|G' c' b' t' e C1]; subst; inversion F; subst.
      + specialize (IH _ _ F C1). destruct IH as [IS W]. unfold awf in W. rewrite W, IS, Ps in Ht. lia.
      + reflexivity.
      + exact (False_ind _ (IH _ _ F C1)).
    - inversion C as [| | | | | | | | | | | |G' c' b' t' s C1 Ps C2|G' c' b' t' s C1 Ps|G' c' b' t' e' C1]; subst; inversion F; subst.
      + exact (False_ind _ (IH _ _ F C1)).
      + exact (False_ind _ (IH _ _ F C1)).
      + exact (IH _ _ F C1).
    - inversion C as [| | | | | | | | | | | |G' c' b' t' s C1 Ps C2|G' c' b' t' s C1 Ps|G' c' b' t' e' C1]; subst; inversion F; subst.
      + exact (False_ind _ (IH1 _ _ F C2)).
      + pose proof (TB_inv _ _ _ (IH _ _ F C1) Ht). lia.
      + exact (False_ind _ (IH _ _ F C1)).
  Qed.

  (** *** Straight-line programs can always be checked *)
  Fixpoint straight (p : prog) : Prop :=
    match p with
    | PVar _ => True
    | PPlain a => awf a
    | P1 o p => shaped1 o /\ straight p
    | P2 o p1 p2 => shaped2 o /\ straight p1 /\ straight p2
    | PLet p b => straight p /\ straight b
    | PIf _ _ _ | PLoop _ _ => False
    end.
  Lemma like_typed v v' : vlike v v' -> exists t, has_type v t.
  Proof.
    destruct v, v'; cbn [vlike]; try contradiction; intros L.
    - exists (TQ (qdim q) (shp (mag q))). split; [reflexivity|]. split; [reflexivity|apply L].
    - exists (TA (shp a)). split; [reflexivity|apply L].
    - exists (TB (shp b)). split; [reflexivity|apply L].
    - exists (TN (shp n)). split; [reflexivity|apply L].
  Qed.
  Lemma olike_typed r r' : olike r r' -> exists t, outcome r t.
  Proof.
    destruct r as [v|e], r' as [v'|e']; cbn; try contradiction.
    - intros L. destruct (like_typed v v' L) as [t Ht]. exists (Ok t). exact Ht.
    - intros _. now exists (Err e).
  Qed.
  Lemma vlike_sym v v' : vlike v v' -> vlike v' v.
  Proof.
    destruct v, v'; cbn [vlike]; auto.
    - intros (A1 & A2 & A3 & A4). split; [auto|]. split; auto.
    - intros (A2 & A3 & A4). split; auto.
    - intros (A2 & A3 & A4). split; auto.
    - intros (A2 & A3 & A4). split; auto.
  Qed.
  Lemma olike_sym r r' : olike r r' -> olike r' r.
  Proof. destruct r, r'; cbn; auto. apply vlike_sym. Qed.

  Theorem straight_checks env p r : runs E D fuel env p r -> forall G, straight p -> Forall2 has_type env G ->
    exists rt, checks G p rt /\ outcome r rt.
  Proof.
    induction 1 as [env n v Hn|env a|env o p v r H IH Hd Hc|env o p e H IH|env o p1 p2 v1 v2 r H1 IH1 H2 IH2 Hd Hc
      |env o p1 p2 e H IH|env o p1 p2 v e H1 IH1 H2 IH2|env p b v r H1 IH1 H2 IH2|env p b e H IH
      |env c p1 p2 b t r H1 IH1 Hb H2 IH2|env c p1 p2 b H IH Hb|env c p1 p2 e H IH
      |env c b t v H IH Ht|env c b t v v' r H IH Ht H1 IH1 H2 IH2|env c b t v H IH Ht|env c b v e H IH
      |env c b t v e H IH Ht H1 IH1]; intros G Hs F; cbn [straight] in Hs; try contradiction.
    - assert (T : exists t, nth_error G n = Some t).
      { revert n Hn. clear - F. induction F; intros [|n] Hn; try discriminate; cbn in *; eauto. }
      destruct T as [t Ht]. exists (Ok t). split; [now constructor|]. exact (nth_has env G n v t F Hn Ht).
    - exists (Ok (TA (shp a))). split; [now constructor|now split].
    - destruct Hs as [So Hs]. destruct (IH G Hs F) as ([t|] & C & O); [|contradiction]. cbn [outcome] in O.
      destruct (call1_like o v (sample t) r (has_like _ _ _ O (sample_has t)) So Hc) as (r' & Hr' & L).
      destruct (olike_typed _ _ L) as [rt Hrt]. exists rt. split; [|exact Hrt].
      apply (c_1 G o p t r' rt C So Hr'). now apply (outcome_like r).
    - destruct Hs as [So Hs]. destruct (IH G Hs F) as ([t|e'] & C & O); [contradiction|]. cbn [outcome] in O. subst e'.
      exists (Err e). split; [now constructor|reflexivity].
    - destruct Hs as (So & Hs1 & Hs2). destruct (IH1 G Hs1 F) as ([t1|] & C1 & O1); [|contradiction]. destruct (IH2 G Hs2 F) as ([t2|] & C2 & O2); [|contradiction].
      cbn [outcome] in O1, O2.
      destruct (call2_like o v1 (sample t1) v2 (sample t2) r (has_like _ _ _ O1 (sample_has t1)) (has_like _ _ _ O2 (sample_has t2)) So Hc) as (r' & Hr' & L).
      destruct (olike_typed _ _ L) as [rt Hrt]. exists rt. split; [|exact Hrt].
      apply (c_2 G o p1 p2 t1 t2 r' rt C1 C2 So Hr'). now apply (outcome_like r).
    - destruct Hs as (So & Hs1 & Hs2). destruct (IH G Hs1 F) as ([t|e'] & C & O); [contradiction|]. cbn [outcome] in O. subst e'.
      exists (Err e). split; [now constructor|reflexivity].
    - destruct Hs as (So & Hs1 & Hs2). destruct (IH1 G Hs1 F) as ([t1|] & C1 & O1); [|contradiction]. destruct (IH2 G Hs2 F) as ([t2|e'] & C2 & O2); [contradiction|].
      cbn [outcome] in O2. subst e'. exists (Err e). split; [exact (c_2e' G o p1 p2 t1 e C1 C2)|reflexivity].
    - destruct Hs as [Hs1 Hs2]. destruct (IH1 G Hs1 F) as ([t|] & C & O); [|contradiction]. cbn [outcome] in O.
      destruct (IH2 (t :: G) Hs2 (Forall2_cons _ _ O F)) as (rt & C2 & O2). exists rt. split; [exact (c_let G p b t rt C C2)|exact O2].
    - destruct Hs as [Hs1 Hs2]. destruct (IH G Hs1 F) as ([t|e'] & C & O); [contradiction|]. cbn [outcome] in O. subst e'.
      exists (Err e). split; [now constructor|reflexivity].
  Qed.
End Static.

(** ** C122 *)
(** A program that passes the check does what the check says, whatever the data: it ends
    with a value of the units and the shape found, or with the exception found; with
    conditionals and loops, and for every environment of units. *)
Theorem C122_checked : forall E D fuel G p rt env r,
  checks E D fuel G p rt -> Forall2 has_type env G -> runs E D fuel env p r -> outcome r rt.
Proof. intros E D fuel G p rt env r C F H. exact (checks_sound E D fuel env p r H G rt F C). Qed.
(** Without conditionals and loops the check always has a result if the program runs for
    some data of these units and shapes: one run tells about all. *)
Theorem C122_one_run : forall E D fuel G p env r,
  straight p -> Forall2 has_type env G -> runs E D fuel env p r ->
  exists rt, outcome r rt /\ forall env' r', Forall2 has_type env' G -> runs E D fuel env' p r' -> outcome r' rt.
Proof.
  intros E D fuel G p env r Hs F H. destruct (straight_checks E D fuel env p r H G Hs F) as (rt & C & O).
  exists rt. split; [exact O|]. intros env' r' F' H'. exact (checks_sound E D fuel env' p r' H' G rt F' C).
Qed.
(** The loop of the example for C115 is accepted for lengths; adding a time to a length is
    found to be a ValueError. *)
Example C122_example :
  checks exE exD 0 [TQ d_m []; TQ d_m []; TQ d_m []] ex_loop (Ok (TQ d_m [])) /\
  Forall2 has_type (ex_lengths d_m [0; 1; 2]) [TQ d_m []; TQ d_m []; TQ d_m []] /\
  checks exE exD 0 [TQ d_m [2%nat]; TQ d_s []] (P2 OAdd (PVar 0) (PVar 1)) (Err ValueError) /\
  straight (P2 OAdd (PVar 0) (PVar 1)).
Proof.
  split; [|split; [|split]].
  - unfold ex_loop. apply c_loop with (s := []); [|reflexivity|].
    + eapply c_2; [constructor; reflexivity|constructor; reflexivity|exact I| |]; [cbn [call2 sample]|].
      * change (q_order exE ULt (Qty (Arr [] (repeat 1 (prodn []))) d_m) (OQ (Qty (Arr [] (repeat 1 (prodn []))) d_m)))
          with (Ok (scalar (ncmp ULt 1 1))). reflexivity.
      * cbn [rmap outcome has_type]. now split.
    + eapply c_2; [constructor; reflexivity|constructor; reflexivity|exact I| |]; [cbn [call2 sample]|].
      * change (q_add exE (Qty (Arr [] (repeat 1 (prodn []))) d_m) (OQ (Qty (Arr [] (repeat 1 (prodn []))) d_m)))
          with (Ok (Qty (scalar (1 + 1)) d_m)). reflexivity.
      * cbn [rmap outcome has_type]. now split.
  - unfold ex_lengths. cbn [map]. repeat (constructor; [now split|]). constructor.
  - eapply c_2; [constructor; reflexivity|constructor; reflexivity|exact I|reflexivity|]. cbn [sample].
    destruct (C26_add_sub_mod_iff exE (Qty (Arr [2%nat] (repeat 1 (prodn [2%nat]))) d_m) (Qty (Arr [] (repeat 1 (prodn []))) d_s) q_add exE_ok) as [I1 I2].
    + split; [reflexivity|apply dims_okb_ok; reflexivity].
    + split; [reflexivity|apply dims_okb_ok; reflexivity].
    + now left.
    + destruct (q_add exE _ _) as [r|e] eqn:Er; cbn [rmap outcome].
      * destruct (proj1 I1 (ex_intro _ r eq_refl)) as [X _]. cbn [qdim] in X.
        rewrite convertible_iff in X; [|exact exE_ok|apply dims_okb_ok; reflexivity|apply dims_okb_ok; reflexivity]. cbn in X. discriminate X.
      * now apply I2.
  - now split.
Qed.

Print Assumptions C122_checked.
Print Assumptions C122_one_run.
