(** * Properties C25-C37: operators, comparisons, construction. *)
From Coq Require Import Reals Lra.
From Verif Require Import Py Num Dim DimFacts Arr ArrFacts Units Spec UnitFacts Quant QuantFacts SpecApi ConvFacts
  Ufunc Ops OpsFacts Examples.

Open Scope R_scope.

(** Shapes broadcast together. *)
Definition broadcast (s t : list nat) : Prop := exists r, bc_shape s t = Some r.

Lemma Ok_inj {A} (x y : A) : Ok x = Ok y -> x = y.
Proof. now intros [=]. Qed.

(** What a comparison of two numbers means. *)
Definition holds (c : ucmp) (x y : R) : Prop :=
  match c with
  | UEq => x = y | UNe => x <> y | ULt => x < y | ULe => x <= y | UGt => x > y | UGe => x >= y
  end.
Lemma ncmp_holds c x y : ncmp c x y = true <-> holds c x y.
Proof.
  destruct c; cbn.
  - apply Reqb_true.
  - rewrite negb_true_iff. apply Reqb_false.
  - apply Rltb_true.
  - apply Rleb_true.
  - rewrite Rltb_true. reflexivity.
  - rewrite Rleb_true. split; intros; lra.
Qed.

(** C25 *)
Theorem C25_add : forall E q1 q2 r,
  renv_ok E -> qty_ok q1 -> qty_ok q2 ->
  q_add E q1 (OQ q2) = Ok r ->
  qdim r = qdim q1 /\ qty_ok r /\
  forall phi, consistent E phi -> amap2 Rplus (phys phi q1) (phys phi q2) = Ok (phys phi r).
Proof. intros E q1 q2 r HE H1 H2 H. exact (uniform_op_spec E Rplus q1 (OQ q2) r homog_add HE H1 H2 H). Qed.
Theorem C25_sub : forall E q1 q2 r,
  renv_ok E -> qty_ok q1 -> qty_ok q2 ->
  q_sub E q1 (OQ q2) = Ok r ->
  qdim r = qdim q1 /\ qty_ok r /\
  forall phi, consistent E phi -> amap2 Rminus (phys phi q1) (phys phi q2) = Ok (phys phi r).
Proof. intros E q1 q2 r HE H1 H2 H. exact (uniform_op_spec E Rminus q1 (OQ q2) r homog_sub HE H1 H2 H). Qed.
(** Element by element: the value at an index is the sum of the operands' values at
    the corresponding indices. *)
Theorem C25_add_elements : forall E q1 q2 r phi idx z,
  renv_ok E -> qty_ok q1 -> qty_ok q2 -> q_add E q1 (OQ q2) = Ok r -> consistent E phi ->
  aget (phys phi r) idx = Some z ->
  exists x y, aget (phys phi q1) (operand_index (shp (mag q1)) idx) = Some x /\
              aget (phys phi q2) (operand_index (shp (mag q2)) idx) = Some y /\ z = x + y.
Proof.
  intros E q1 q2 r phi idx z HE H1 H2 H HC Hz.
  destruct (C25_add E q1 q2 r HE H1 H2 H) as (_ & _ & Hp). specialize (Hp phi HC).
  exact (amap2_get Rplus (phys phi q1) (phys phi q2) (phys phi r) idx z
           (phys_awf phi q1 (proj1 H1)) (phys_awf phi q2 (proj1 H2)) Hp Hz).
Qed.
(** Negation and absolute value. *)
Theorem C25_neg_abs : forall E q phi,
  exists r s, q_neg E q = Ok r /\ q_abs E q = Ok s /\ qdim r = qdim q /\ qdim s = qdim q /\
    phys phi r = amap Ropp (phys phi q) /\ phys phi s = amap Rabs (phys phi q).
Proof.
  intros E q phi. do 2 eexists. split; [reflexivity|]. split; [reflexivity|].
  split; [reflexivity|]. split; [reflexivity|]. unfold phys; cbn [mag qdim]. rewrite !amap_amap. split; apply amap_ext; intros x _; cbn.
  - ring.
  - rewrite Rabs_mult, (Rabs_right (dimval phi (qdim q))); auto. pose proof (dimval_pos phi (qdim q)). lra.
Qed.
(** Unary plus is refused for every quantity. *)
Theorem C25_pos_refused : forall A (N : Num A) E (q : qty A), q_pos E q = Err ValueError.
Proof. reflexivity. Qed.
Example C25_example :
  q_add exE (Qty (Arr [2%nat; 1%nat] (qcs [1; 2]%Z)) d_m) (OQ (Qty (Arr [2%nat] (qcs [50; 100]%Z)) d_cm))
  = Ok (Qty (Arr [2%nat; 2%nat] [q_of 3 2; q_of 2 1; q_of 5 2; q_of 3 1]) d_m) /\
  q_sub exE (Qty (scalar (zq 1)) d_m) (OQ (Qty (scalar (zq 50)) d_cm)) = Ok (Qty (scalar (q_of 1 2)) d_m).
Proof. split; vm_compute; reflexivity. Qed.

(** C26 *)
Theorem C26_add_sub_mod_iff : forall E q1 q2 op,
  renv_ok E -> qty_ok q1 -> qty_ok q2 -> In op [q_add; q_sub; q_mod] ->
  ((exists r, op E q1 (OQ q2) = Ok r) <->
   convertible E (qdim q2) (qdim q1) /\ broadcast (shp (mag q1)) (shp (mag q2))) /\
  (forall e, op E q1 (OQ q2) = Err e -> e = ValueError).
Proof.
  intros E q1 q2 op HE H1 H2 [<-|[<-|[<-|[]]]].
  - exact (uniform_op_iff E Rplus q1 (OQ q2) HE H1 H2).
  - exact (uniform_op_iff E Rminus q1 (OQ q2) HE H1 H2).
  - exact (uniform_op_iff E nmod q1 (OQ q2) HE H1 H2).
Qed.
Example C26_example :
  ~ convertible exE d_s d_m /\
  q_add exE (Qty (scalar (zq 1)) d_m) (OQ (Qty (scalar (zq 50)) d_s)) = Err ValueError /\
  is_ok (q_mod exE (Qty (scalar (zq 1)) d_m) (OQ (Qty (scalar (zq 50)) d_cm))) = true.
Proof.
  split; [|split; vm_compute; reflexivity].
  rewrite convertible_iff; [|exact exE_ok|apply dims_okb_ok; reflexivity|apply dims_okb_ok; reflexivity].
  cbn. discriminate.
Qed.

(** C27 *)
Theorem C27_plain_sums : forall E q a r,
  renv_ok E -> qty_ok q -> awf a ->
  (q_add E q (OArr a) = Ok r ->
     qdim r = qdim q /\ forall phi, consistent E phi -> amap2 Rplus (phys phi q) a = Ok (phys phi r)) /\
  (q_radd E q (OArr a) = Ok r ->
     (forall u, exp_of (qdim r) u = exp_of (qdim q) u) /\
     forall phi, consistent E phi -> amap2 Rplus a (phys phi q) = Ok (phys phi r)) /\
  (q_sub E q (OArr a) = Ok r ->
     qdim r = qdim q /\ forall phi, consistent E phi -> amap2 Rminus (phys phi q) a = Ok (phys phi r)) /\
  (q_rsub E q (OArr a) = Ok r ->
     (forall u, exp_of (qdim r) u = exp_of (qdim q) u) /\
     forall phi, consistent E phi -> amap2 Rminus a (phys phi q) = Ok (phys phi r)).
Proof.
  intros E q a r HE Hq Ha. split; [|split; [|split]]; intros H.
  - destruct (uniform_op_spec E Rplus q (OArr a) r homog_add HE Hq Ha H) as (X & _ & Y). auto.
  - destruct (uniform_rop_spec E Rplus q (OArr a) r homog_add HE Hq Ha H) as (X & _ & Y). auto.
  - destruct (uniform_op_spec E Rminus q (OArr a) r homog_sub HE Hq Ha H) as (X & _ & Y). auto.
  - destruct (uniform_rop_spec E Rminus q (OArr a) r homog_sub HE Hq Ha H) as (X & _ & Y). auto.
Qed.
Theorem C27_plain_sums_iff : forall E q a op,
  renv_ok E -> qty_ok q -> awf a -> In op [q_add; q_radd; q_sub; q_rsub] ->
  ((exists r, op E q (OArr a) = Ok r) <->
   (exists c, forall phi, consistent E phi -> dimval phi (qdim q) = c) /\ broadcast (shp a) (shp (mag q))) /\
  (forall e, op E q (OArr a) = Err e -> e = ValueError).
Proof.
  intros E q a op HE Hq Ha Hop.
  assert (C : convertible E [] (qdim q) <-> exists c, forall phi, consistent E phi -> dimval phi (qdim q) = c).
  { split.
    - intros H. apply convertible_sym in H; auto; [|apply dims_ok_nil|apply Hq].
      destruct H as [c Hc]. exists c. intros phi HC. rewrite (Hc phi HC). cbn. ring.
    - intros [c Hc]. apply convertible_sym; auto; [apply Hq|apply dims_ok_nil|].
      exists c. intros phi HC. rewrite (Hc phi HC). cbn. ring. }
  assert (B : broadcast (shp (mag q)) (shp a) <-> broadcast (shp a) (shp (mag q))).
  { unfold broadcast. rewrite bc_shape_comm. reflexivity. }
  rewrite <- C.
  destruct Hop as [<-|[<-|[<-|[<-|[]]]]].
  - rewrite <- B. exact (uniform_op_iff E Rplus q (OArr a) HE Hq Ha).
  - exact (uniform_rop_iff E Rplus q (OArr a) HE Hq Ha).
  - rewrite <- B. exact (uniform_op_iff E Rminus q (OArr a) HE Hq Ha).
  - exact (uniform_rop_iff E Rminus q (OArr a) HE Hq Ha).
Qed.
Example C27_example :
  q_radd exE (Qty (scalar (zq 3)) (dim_div d_m d_cm)) (OArr (scalar (zq 100))) =
    Ok (Qty (scalar (zq 4)) (dim_div d_m d_cm)) /\
  q_add exE (Qty (scalar (zq 3)) d_m) (OArr (scalar (zq 100))) = Err ValueError /\
  q_add exE (Qty (scalar (zq 3)) d_m) (OArr (scalar (zq 0))) = Err ValueError.
Proof. split; [|split]; vm_compute; reflexivity. Qed.

(** C28 *)
Theorem C28_products : forall o1 o2 r,
  operand_ok o1 -> operand_ok o2 ->
  q_mul o1 o2 = Ok r ->
  (forall u, exp_of (qdim r) u = (exp_of (odims o1) u + exp_of (odims o2) u)%Qc) /\ qty_ok r /\
  forall phi, amap2 Rmult (ophys phi o1) (ophys phi o2) = Ok (phys phi r).
Proof.
  intros o1 o2 r H1 H2 H. pose proof (apply2_inv _ _ _ _ _ H) as [Hm Hd].
  destruct (mul_rule o1 o2 _ Hd H1 H2) as (X & Y & Z). split; [exact X|]. split.
  - apply (apply2_qty_ok Rmult RMul o1 o2 r H1 H2 H). intros d Hd'. rewrite Hd in Hd'. injection Hd' as <-. exact Y.
  - intros phi. rewrite !ophys_eq, amap2_amap.
    rewrite (amap2_ext _ (fun x y => (x * y) * dimval phi (qdim r))).
    2:{ intros x y. rewrite Z. ring. }
    rewrite <- (rmap_amap_amap2 (fun z => z * dimval phi (qdim r)) Rmult). cbn in Hm. rewrite Hm. reflexivity.
Qed.
Theorem C28_quotients : forall o1 o2 r,
  operand_ok o1 -> operand_ok o2 -> Forall (fun y => y <> 0) (dat (odat o2)) ->
  q_div o1 o2 = Ok r ->
  (forall u, exp_of (qdim r) u = (exp_of (odims o1) u - exp_of (odims o2) u)%Qc) /\ qty_ok r /\
  forall phi, amap2 Rdiv (ophys phi o1) (ophys phi o2) = Ok (phys phi r).
Proof.
  intros o1 o2 r H1 H2 Hnz H. pose proof (apply2_inv _ _ _ _ _ H) as [Hm Hd].
  destruct (div_rule o1 o2 _ Hd H1 H2) as (X & Y & Z). split; [exact X|]. split.
  - apply (apply2_qty_ok Rdiv RDiv o1 o2 r H1 H2 H). intros d Hd'. rewrite Hd in Hd'. injection Hd' as <-. exact Y.
  - intros phi. rewrite !ophys_eq, amap2_amap.
    rewrite (amap2_ext_in _ (fun x y => (x / y) * dimval phi (qdim r))).
    2:{ intros x y Hx Hy. rewrite Z. rewrite Forall_forall in Hnz. specialize (Hnz y Hy).
        pose proof (dimval_pos phi (odims o2)). field. lra. }
    rewrite <- (rmap_amap_amap2 (fun z => z * dimval phi (qdim r)) Rdiv). cbn in Hm. rewrite Hm. reflexivity.
Qed.
(** They never fail for broadcastable shapes, whatever the units and the number type. *)
Theorem C28_never_fail : forall A (N : Num A) (o1 o2 : operand A) op,
  In op [q_mul; q_div; q_fdiv] ->
  (exists q, o1 = OQ q \/ o2 = OQ q) ->
  ((exists r, op o1 o2 = Ok r) <-> broadcast (shp (odat o1)) (shp (odat o2))).
Proof.
  intros A N o1 o2 op Hop Hq.
  assert (D : (exists d, pd2 RMul o1 o2 = Ok d) /\ (exists d, pd2 RDiv o1 o2 = Ok d)).
  { destruct Hq as [q [-> | ->]]; [destruct o2|destruct o1]; cbn; split; eauto. }
  destruct D as [[d1 D1] [d2 D2]].
  assert (G : forall (f : A -> A -> A) ru d, pd2 ru o1 o2 = Ok d ->
     ((exists r, apply2 f ru o1 o2 = Ok r) <-> broadcast (shp (odat o1)) (shp (odat o2)))).
  { intros f ru d Hd. unfold broadcast. rewrite <- (amap2_ok f). split; intros [r Hr].
    - apply apply2_inv in Hr. destruct Hr as [Hr _]. eauto.
    - exists (Qty r d). now apply apply2_intro. }
  destruct Hop as [<-|[<-|[<-|[]]]]; [exact (G _ _ _ D1)|exact (G _ _ _ D2)|exact (G _ _ _ D2)].
Qed.
(** Magnitudes are multiplied without conversion, for every number type. *)
Theorem C28_no_conversion : forall A (N : Num A) (q1 q2 r : qty A),
  q_mul (OQ q1) (OQ q2) = Ok r -> amap2 nmul (mag q1) (mag q2) = Ok (mag r) /\ qdim r = dim_mul (qdim q1) (qdim q2).
Proof.
  intros A N q1 q2 r H. apply apply2_inv in H. destruct H as [H1 H2]. split; auto. cbn in H2. congruence.
Qed.
Example C28_example :
  q_div (OQ (Qty (Arr [2%nat] (qcs [6; 9]%Z)) d_m)) (OQ (Qty (scalar (zq 3)) d_s)) =
    Ok (Qty (Arr [2%nat] (qcs [2; 3]%Z)) d_ms) /\
  q_div (OArr (scalar (zq 6))) (OQ (Qty (scalar (zq 3)) d_ms)) =
    Ok (Qty (scalar (zq 2)) [(u_m, PInt (-1)); (u_s, PInt 1)]) /\
  q_mul (OQ (Qty (scalar (zq 6)) d_m)) (OQ (Qty (scalar (zq 3)) d_cm)) =
    Ok (Qty (scalar (zq 18)) [(u_m, PInt 1); (u_cm, PInt 1)]).
Proof. split; [|split]; vm_compute; reflexivity. Qed.

(** C29 *)
(** [p] is the common value of all the exponents, of which there is at least one. *)
Definition uniform_value (l : list pynum) (p : Qc) : Prop :=
  l <> [] /\ Forall (fun x => pval x = p) l.
Lemma uniform_spec l p : uniform l = Some p -> uniform_value l (pval p).
Proof.
  destruct l as [|x l]; [discriminate|]. cbn. destruct (forallb (fun y => peqb y x) l) eqn:F; [|discriminate].
  intros [= <-]. split; [discriminate|]. constructor; auto. apply Forall_forall. intros y Hy.
  rewrite forallb_forall in F. apply peqb_true. now apply F.
Qed.
Lemma uniform_complete l p : uniform_value l p -> exists p', uniform l = Some p' /\ pval p' = p.
Proof.
  intros [H F]. destruct l as [|x l]; [congruence|]. inversion F as [|a b Hx Hl]; subst. exists x. cbn.
  assert (X : forallb (fun y => peqb y x) l = true).
  { apply forallb_forall. intros y Hy. apply peqb_true. rewrite Forall_forall in Hl. now apply Hl. }
  rewrite X. auto.
Qed.
Theorem C29_pow_units : forall A (N : Num A) (q : qty A) e,
  ((exists r, q_pow q e = Ok r) <->
   (forall p, e = OQ p -> qdim p = []) /\ (exists p, uniform_value (dat (odat e)) p) /\
   broadcast (shp (mag q)) (shp (odat e))) /\
  (forall x, q_pow q e = Err x -> x = ValueError) /\
  (forall r p, q_pow q e = Ok r -> uniform_value (dat (odat e)) p ->
     (forall u, exp_of (qdim r) u = (exp_of (qdim q) u * p)%Qc) /\
     amap2 npow (mag q) (odat e) = Ok (mag r)).
Proof.
  intros A N q e.
  assert (D : forall p0, e = OQ p0 -> dim_nonempty (qdim p0) = true \/ qdim p0 = []).
  { intros p0 _. destruct (qdim p0); cbn; auto. }
  assert (Main : (q_pow q e = Err ValueError /\ ((exists p, e = OQ p /\ dim_nonempty (qdim p) = true) \/
        (forall p, ~ uniform_value (dat (odat e)) p))) \/
     ((forall p, e = OQ p -> qdim p = []) /\ exists p', uniform (dat (odat e)) = Some p' /\
        q_pow q e = (m <- amap2 npow (mag q) (odat e) ;; Ok (Qty m (dim_pow (qdim q) p'))))).
  { unfold q_pow, apply_power. cbn [odat].
    destruct e as [p0|a]; cbn [odat bind].
    - destruct (D p0 eq_refl) as [X|X]; [rewrite X; left; split; [reflexivity|left; eauto]|].
      rewrite X. cbn [dim_nonempty bind].
      destruct (uniform (dat (mag p0))) as [p'|] eqn:U.
      + right. split; [intros p [= <-]; exact X|]. exists p'. split; auto.
      + left. split; auto. right. intros p Hp. apply uniform_complete in Hp. destruct Hp as (p' & Hp & _). congruence.
    - destruct (uniform (dat a)) as [p'|] eqn:U.
      + right. split; [discriminate|]. exists p'. split; auto.
      + left. split; auto. right. intros p Hp. apply uniform_complete in Hp. destruct Hp as (p' & Hp & _). congruence. }
  split; [|split].
  - destruct Main as [[-> M]|[M1 (p' & U & ->)]].
    + split; [intros [r X]; discriminate|]. intros (X1 & (p & X2) & _). exfalso. destruct M as [(p0 & -> & M)|M].
      * rewrite (X1 p0 eq_refl) in M. discriminate.
      * exact (M p X2).
    + unfold broadcast. rewrite <- (amap2_ok npow). split.
      * intros [r Hr]. split; auto. split; [eexists; eapply uniform_spec; eauto|].
        destruct (amap2 npow (mag q) (odat e)); [eauto|discriminate].
      * intros (_ & _ & [m ->]). cbn. eauto.
  - intros x. destruct Main as [[-> M]|[M1 (p' & U & ->)]]; [congruence|].
    destruct (amap2 npow (mag q) (odat e)) as [m|e0] eqn:Em; cbn [bind]; [discriminate|].
    intros [= <-]. exact (amap2_err _ _ _ Em).
  - intros r p H Hp. destruct Main as [[X _]|[_ (p' & U & X)]]; rewrite X in H; [discriminate|].
    destruct (amap2 npow (mag q) (odat e)) as [m|] eqn:Em; cbn [bind] in H; [|discriminate].
    injection H as <-. cbn [mag qdim]. split; auto. intros u. rewrite exp_of_pow. f_equal.
    apply uniform_spec in U. destruct U as [_ U], Hp as [Hne Hp].
    destruct (dat (odat e)) as [|x l]; [congruence|]. inversion U; inversion Hp; subst; congruence.
Qed.
(** Real powers: the base is positive, or the exponent is an integer (and not
    negative if the base is zero), or the base is zero and the exponent positive. *)
Definition power_defined (x : R) (p : pynum) : Prop :=
  0 < x \/ (Qden (this (pval p)) = 1%positive /\ (x <> 0 \/ (0 <= Qnum (this (pval p)))%Z)) \/
  (x = 0 /\ (0 < Qnum (this (pval p)))%Z).
Lemma powerRZ_mult_gen x y z : 0 < y -> x <> 0 \/ (0 <= z)%Z -> powerRZ (x * y) z = powerRZ x z * powerRZ y z.
Proof.
  intros Hy Hx. destruct z as [|n|n]; cbn [powerRZ].
  - ring.
  - apply Rpow_mult_distr.
  - destruct Hx as [Hx|Hx]; [|lia]. rewrite Rpow_mult_distr. apply Rinv_mult.
Qed.
Lemma rpow_scale x v p : 0 < v -> power_defined x p -> rpow (x * v) p = rpow x p * rpow v p.
Proof.
  intros Hv [Hx|[[Hd Hx]|[Hx Hp]]].
  - rewrite !rpow_Rpower by (auto using Rmult_lt_0_compat). symmetry. apply Rpower_mult_distr; auto.
  - unfold rpow. rewrite Hd. cbn [Pos.eqb]. now apply powerRZ_mult_gen.
  - subst x. rewrite Rmult_0_l.
    assert (Z : rpow 0 p = 0).
    { unfold rpow. destruct (Pos.eqb _ 1); [|destruct (Req_EM_T 0 0); [reflexivity|lra]].
      destruct (Qnum (this (pval p))) as [|n|n]; try lia. cbn [powerRZ]. apply pow_i. lia. }
    rewrite Z. ring.
Qed.
Lemma rpow_val x p p' : pval p = pval p' -> rpow x p = rpow x p'.
Proof. unfold rpow. now intros ->. Qed.
Theorem C29_pow_value : forall q e r phi,
  q_pow q e = Ok r ->
  (forall x p, In x (dat (mag q)) -> In p (dat (odat e)) -> power_defined x p) ->
  amap2 rpow (phys phi q) (odat e) = Ok (phys phi r).
Proof.
  intros q e r phi H Hdef.
  assert (U : exists p', uniform (dat (odat e)) = Some p' /\ amap2 npow (mag q) (odat e) = Ok (mag r) /\ qdim r = dim_pow (qdim q) p').
  { unfold q_pow, apply_power in H. cbn [odat] in H.
    destruct e as [p0|a]; cbn [odat bind] in *.
    - destruct (dim_nonempty (qdim p0)); [discriminate|]. cbn [bind] in H.
      destruct (uniform (dat (mag p0))) as [p'|] eqn:Eu; [|discriminate].
      destruct (amap2 npow (mag q) (mag p0)) as [m|]; cbn [bind] in H; [|discriminate].
      injection H as <-. eauto.
    - destruct (uniform (dat a)) as [p'|] eqn:Eu; [|discriminate].
      destruct (amap2 npow (mag q) a) as [m|]; cbn [bind] in H; [|discriminate].
      injection H as <-. eauto. }
  destruct U as (p' & Eu & Hm & Hd). apply uniform_spec in Eu. destruct Eu as [_ F]. rewrite Forall_forall in F.
  unfold phys at 1. rewrite <- (amap_id (odat e)), amap2_amap.
  rewrite (amap2_ext_in _ (fun x p => rpow x p * dimval phi (qdim r))).
  - rewrite <- (rmap_amap_amap2 (fun z => z * dimval phi (qdim r)) rpow). cbn in Hm. rewrite Hm. reflexivity.
  - intros x p Hx Hp. rewrite rpow_scale; [|apply dimval_pos|now apply Hdef].
    f_equal. rewrite Hd, dimval_rpow. apply rpow_val. now apply F.
Qed.
(** [x ** q]: accepted exactly for dimensionless uniform [q]. *)
Theorem C29_rpow : forall A (N : Num A) (q : qty pynum) (a : arr A),
  ((exists r, q_rpow q a = Ok r) <->
   qdim q = [] /\ (exists p, uniform_value (dat (mag q)) p) /\ broadcast (shp a) (shp (mag q))) /\
  (forall e, q_rpow q a = Err e -> e = ValueError) /\
  (forall r, q_rpow q a = Ok r -> qdim r = [] /\ amap2 npow a (mag q) = Ok (mag r)).
Proof.
  intros A N q a. unfold q_rpow, apply_power. cbn [odat]. unfold broadcast. rewrite <- (amap2_ok npow).
  destruct (amap2 npow a (mag q)) as [m|e] eqn:Em; cbn [bind].
  2:{ split; [|split].
      - split; [intros [r X]; discriminate|intros (_ & _ & [r X]); discriminate].
      - intros e' [= <-]. exact (amap2_err _ _ _ Em).
      - discriminate. }
  destruct (qdim q) as [|kv d] eqn:Eq; cbn [dim_nonempty bind].
  2:{ split; [|split].
      - split; [intros [r X]; discriminate|intros (X & _); discriminate].
      - intros e' [= <-]. reflexivity.
      - discriminate. }
  destruct (uniform (dat (mag q))) as [p|] eqn:U.
  - split; [|split].
    + split; [|eauto]. intros _. split; auto. split; [eexists; eapply uniform_spec; eauto|eauto].
    + discriminate.
    + intros r [= <-]. cbn. auto.
  - split; [|split].
    + split; [intros [r X]; discriminate|]. intros (_ & [p Hp] & _). apply uniform_complete in Hp.
      destruct Hp as (p' & Hp & _). congruence.
    + intros e' [= <-]. reflexivity.
    + discriminate.
Qed.
Example C29_example :
  q_pow (Qty (Arr [2%nat] (qcs [2; 3]%Z)) d_ms) (OArr (Arr [2%nat] [PInt 2; PFlt (q_of 2 1)])) =
    Ok (Qty (Arr [2%nat] (qcs [4; 9]%Z)) [(u_m, PInt 2); (u_s, PInt (-2))]) /\
  q_pow (Qty (scalar (zq 2)) d_m) (OArr (Arr [2%nat] [PInt 2; PInt 3])) = Err ValueError /\
  q_pow (Qty (scalar (zq 2)) d_m) (OQ (Qty (scalar (PInt 2)) d_m)) = Err ValueError /\
  power_defined (-2) (PInt 2) /\ power_defined 2 (PFlt (q_of 1 2)).
Proof.
  split; [vm_compute; reflexivity|]. split; [reflexivity|]. split; [reflexivity|].
  split; [right; left; split; [reflexivity|left; lra]|left; lra].
Qed.

(** C30 *)
Theorem C30_remainder : forall E q1 q2 r,
  renv_ok E -> qty_ok q1 -> qty_ok q2 ->
  q_mod E q1 (OQ q2) = Ok r ->
  qdim r = qdim q1 /\ qty_ok r /\
  forall phi, consistent E phi -> amap2 nmod (phys phi q1) (phys phi q2) = Ok (phys phi r).
Proof. intros E q1 q2 r HE H1 H2 H. exact (uniform_op_spec E nmod q1 (OQ q2) r homog_mod HE H1 H2 H). Qed.
(** [nmod] is Python's remainder: an integer multiple away, with the divisor's sign. *)
Theorem C30_remainder_meaning : forall x y : R, y <> 0 ->
  exists k : Z, x = IZR k * y + nmod x y /\
    (0 < y -> 0 <= nmod x y < y) /\ (y < 0 -> y < nmod x y <= 0).
Proof.
  intros x y Hy. exists (Int_part (x / y)). unfold nmod. cbn.
  pose proof (base_Int_part (x / y)) as [B1 B2].
  assert (X : x = (x / y) * y) by (field; auto).
  split; [ring|]. set (k := IZR (Int_part (x / y))) in *. set (t := x / y) in *. split; intros Hs.
  - rewrite X. replace (t * y - k * y) with ((t - k) * y) by ring. split.
    + apply Rmult_le_pos; lra.
    + rewrite <- (Rmult_1_l y) at 2. apply Rmult_lt_compat_r; lra.
  - rewrite X. replace (t * y - k * y) with (- ((t - k) * (- y))) by ring. split.
    + apply Ropp_lt_cancel. rewrite Ropp_involutive. rewrite <- (Rmult_1_l (- y)) at 2. apply Rmult_lt_compat_r; lra.
    + assert (0 <= (t - k) * - y) by (apply Rmult_le_pos; lra). lra.
Qed.
(** With a plain number on the left the remainder is refused for quantities with
    units (unless all the numbers are zero), by an AttributeError. *)
Theorem C30_plain_left : forall A (N : Num A) (q : qty A) a,
  dim_nonempty (qdim q) = true -> all_zero a = false -> broadcast (shp a) (shp (mag q)) ->
  q_rmod q a = Err AttributeError.
Proof.
  intros A N q a Hd Hz Hb. unfold q_rmod, apply2. cbn [odat pd2].
  apply (amap2_ok nmod) in Hb. destruct Hb as [m ->]. cbn [bind]. rewrite Hd, Hz. reflexivity.
Qed.
Example C30_example :
  q_mod exE (Qty (scalar (zq 5)) d_m) (OQ (Qty (scalar (zq 300)) d_cm)) = Ok (Qty (scalar (zq 2)) d_m) /\
  q_mod exE (Qty (scalar (zq (-1))) d_m) (OQ (Qty (scalar (zq 300)) d_cm)) = Ok (Qty (scalar (zq 2)) d_m) /\
  q_rmod (Qty (scalar (zq 3)) d_m) (scalar (zq 5)) = Err AttributeError.
Proof. split; [|split]; vm_compute; reflexivity. Qed.

(** C31 *)
(** The quotient of the magnitudes is floored, whatever the units. *)
Theorem C31_floor_div_units : forall o1 o2 r phi,
  operand_ok o1 -> operand_ok o2 ->
  q_fdiv o1 o2 = Ok r ->
  (forall u, exp_of (qdim r) u = (exp_of (odims o1) u - exp_of (odims o2) u)%Qc) /\ qty_ok r /\
  amap2 (fun x y => nfloor (x / y) * (dimval phi (odims o1) / dimval phi (odims o2))) (odat o1) (odat o2) = Ok (phys phi r).
Proof.
  intros o1 o2 r phi H1 H2 H. pose proof (apply2_inv _ _ _ _ _ H) as [Hm Hd].
  destruct (div_rule o1 o2 _ Hd H1 H2) as (X & Y & Z). split; [exact X|]. split.
  - apply (apply2_qty_ok nfdiv RDiv o1 o2 r H1 H2 H). intros d Hd'. rewrite Hd in Hd'. injection Hd' as <-. exact Y.
  - rewrite <- Z. rewrite (amap2_ext _ (fun x y => nfdiv x y * dimval phi (qdim r))) by reflexivity.
    rewrite <- (rmap_amap_amap2 (fun z => z * dimval phi (qdim r)) nfdiv). rewrite Hm. reflexivity.
Qed.
(** With identical units it is the floor of the quotient of the physical values. *)
Theorem C31_floor_div_same_units : forall q1 q2 r phi,
  qty_ok q1 -> qty_ok q2 -> (forall u, exp_of (qdim q1) u = exp_of (qdim q2) u) ->
  q_fdiv (OQ q1) (OQ q2) = Ok r ->
  qdim r = [] /\ amap2 (fun x y => nfloor (x / y)) (phys phi q1) (phys phi q2) = Ok (phys phi r).
Proof.
  intros q1 q2 r phi H1 H2 He H.
  destruct (C31_floor_div_units (OQ q1) (OQ q2) r phi H1 H2 H) as (X & Y & Z). cbn [odims odat] in *.
  split.
  - apply exp_of_all_zero; [apply Y|]. intros u. rewrite X, He. ring.
  - rewrite <- Z. unfold phys. rewrite amap2_amap. apply amap2_ext. intros x y.
    rewrite (dimval_exp phi _ _ (proj1 (proj2 H1)) (proj1 (proj2 H2)) He).
    rewrite div_common by apply dimval_pos. unfold Rdiv at 3. rewrite Rinv_r by apply dimval_neq0. ring.
Qed.
Lemma Int_part_eq x z : IZR z <= x < IZR z + 1 -> Int_part x = z.
Proof.
  intros H. pose proof (base_Int_part x) as [B1 B2].
  assert (IZR (Int_part x) < IZR (z + 1)) by (rewrite plus_IZR; lra).
  assert (IZR z < IZR (Int_part x + 1)) by (rewrite plus_IZR; lra).
  apply lt_IZR in H0. apply lt_IZR in H1. lia.
Qed.
(** So the physical result depends on the units of the operands: 5 m // 2 m is 2 but
    5 m // 200 cm is 0. *)
Theorem C31_floor_div_refuted :
  exists E q1 q2 q2' r r' phi,
    renv_ok E /\ qty_ok q1 /\ qty_ok q2 /\ qty_ok q2' /\ convertible E (qdim q2) (qdim q2') /\ same_value E q2 q2' /\
    q_fdiv (OQ q1) (OQ q2) = Ok r /\ q_fdiv (OQ q1) (OQ q2') = Ok r' /\
    consistent E phi /\ phys phi r = scalar 2 /\ phys phi r' = scalar 0.
Proof.
  destruct (consistent_exists exE exE_ok) as [phi HC].
  exists exE, (Qty (scalar 5) d_m), (Qty (scalar 2) d_m), (Qty (scalar 200) d_cm).
  do 2 eexists. exists phi. split; [exact exE_ok|].
  assert (O : forall (x : R) d, dims_okb d = true -> qty_ok (Qty (scalar x) d)).
  { intros x d Hd. split; [reflexivity|now apply dims_okb_ok]. }
  split; [now apply O|]. split; [now apply O|]. split; [now apply O|]. split.
  { cbn [qdim]. exists 100. intros psi HC'. rewrite (ex_cm_size psi HC'). lra. }
  split. { intros psi HC'. unfold phys, scalar, amap. cbn [mag qdim shp dat map]. rewrite (ex_cm_size psi HC'). do 2 f_equal. lra. }
  split; [reflexivity|]. split; [reflexivity|]. split; [exact HC|].
  unfold phys, scalar, amap. cbn [mag qdim shp dat map zip_with expand pad bc_shape]. split.
  - replace (dimval phi (dim_div d_m d_m)) with 1 by reflexivity. unfold nfdiv. cbn.
    rewrite (Int_part_eq (5 / 2) 2) by lra. do 2 f_equal. ring.
  - generalize (dimval phi (dim_div d_m d_cm)) as v. intros v. unfold nfdiv. cbn.
    rewrite (Int_part_eq (5 / 200) 0) by lra. do 2 f_equal. ring.
Qed.

(** C32 *)
(** [q'] is [q] expressed in other units. *)
Definition equal_in_other_units (E : uenv R) (q q' : qty R) : Prop :=
  convertible E (qdim q) (qdim q') /\ same_value E q q'.
Lemma same_value_shp E q q' : renv_ok E -> same_value E q q' -> shp (mag q) = shp (mag q').
Proof.
  intros HE H. destruct (consistent_exists E HE) as [phi HC]. specialize (H phi HC).
  apply (f_equal (@shp R)) in H. exact H.
Qed.
Theorem C32_sums : forall E q1 q2 q1' q2' op r,
  renv_ok E -> qty_ok q1 -> qty_ok q2 -> qty_ok q1' -> qty_ok q2' -> In op [q_add; q_sub; q_mod] ->
  equal_in_other_units E q1 q1' -> equal_in_other_units E q2 q2' ->
  op E q1 (OQ q2) = Ok r ->
  exists r', op E q1' (OQ q2') = Ok r' /\ equal_in_other_units E r r'.
Proof.
  intros E q1 q2 q1' q2' op r HE H1 H2 H1' H2' Hop [C1 S1] [C2 S2] H.
  assert (I := C26_add_sub_mod_iff E q1 q2 op HE H1 H2 Hop).
  assert (I' := C26_add_sub_mod_iff E q1' q2' op HE H1' H2' Hop).
  destruct (proj1 (proj1 I)) as [Cv Br]; [eauto|].
  destruct (proj2 (proj1 I')) as [r' Hr'].
  { split.
    - apply convertible_trans with (qdim q2); [apply convertible_sym; auto; [apply H2|apply H2']|].
      apply convertible_trans with (qdim q1); auto.
    - rewrite <- (same_value_shp E q1 q1' HE S1), <- (same_value_shp E q2 q2' HE S2). exact Br. }
  exists r'. split; [exact Hr'|].
  assert (G : forall f, homog f ->
    (o <- scale_other E q1 (OQ q2) ;; apply2 f RUniform (OQ q1) (OQ o)) = Ok r ->
    (o <- scale_other E q1' (OQ q2') ;; apply2 f RUniform (OQ q1') (OQ o)) = Ok r' -> equal_in_other_units E r r').
  { intros f Hf A1 A2.
    destruct (uniform_op_spec E f q1 (OQ q2) r Hf HE H1 H2 A1) as (D & _ & V).
    destruct (uniform_op_spec E f q1' (OQ q2') r' Hf HE H1' H2' A2) as (D' & _ & V').
    split; [now rewrite D, D'|]. intros phi HC. specialize (V phi HC). specialize (V' phi HC). cbn [ophys] in *.
    rewrite <- (S1 phi HC), <- (S2 phi HC), V in V'. exact (Ok_inj _ _ V'). }
  destruct Hop as [<-|[<-|[<-|[]]]].
  - exact (G Rplus homog_add H Hr').
  - exact (G Rminus homog_sub H Hr').
  - exact (G nmod homog_mod H Hr').
Qed.
Theorem C32_products : forall E q1 q2 q1' q2' r,
  renv_ok E -> qty_ok q1 -> qty_ok q2 -> qty_ok q1' -> qty_ok q2' ->
  equal_in_other_units E q1 q1' -> equal_in_other_units E q2 q2' ->
  (q_mul (OQ q1) (OQ q2) = Ok r ->
     exists r', q_mul (OQ q1') (OQ q2') = Ok r' /\ equal_in_other_units E r r') /\
  (Forall (fun y => y <> 0) (dat (mag q2)) -> q_div (OQ q1) (OQ q2) = Ok r ->
     exists r', q_div (OQ q1') (OQ q2') = Ok r' /\ equal_in_other_units E r r').
Proof.
  intros E q1 q2 q1' q2' r HE H1 H2 H1' H2' [C1 S1] [C2 S2].
  assert (B : broadcast (shp (mag q1)) (shp (mag q2)) -> broadcast (shp (mag q1')) (shp (mag q2'))).
  { now rewrite <- (same_value_shp E q1 q1' HE S1), <- (same_value_shp E q2 q2' HE S2). }
  split.
  - intros H. destruct (proj2 (C28_never_fail R _ (OQ q1') (OQ q2') q_mul (or_introl eq_refl) (ex_intro _ q1' (or_introl eq_refl)))) as [r' Hr'].
    { apply B. apply (C28_never_fail R _ (OQ q1) (OQ q2) q_mul (or_introl eq_refl) (ex_intro _ q1 (or_introl eq_refl))). eauto. }
    exists r'. split; [exact Hr'|]. split.
    + apply apply2_inv in H. apply apply2_inv in Hr'. destruct H as [_ D], Hr' as [_ D']. cbn in D, D'.
      injection D as <-. injection D' as <-. destruct C1 as [a Ca], C2 as [b Cb].
      exists (a * b). exact (converts_mul E _ _ _ _ _ _ Ca Cb).
    + intros phi HC. destruct (C28_products (OQ q1) (OQ q2) r H1 H2 H) as (_ & _ & V).
      destruct (C28_products (OQ q1') (OQ q2') r' H1' H2' Hr') as (_ & _ & V').
      specialize (V phi). specialize (V' phi). cbn [ophys] in *.
      rewrite <- (S1 phi HC), <- (S2 phi HC), V in V'. exact (Ok_inj _ _ V').
  - intros Hnz H. destruct (proj2 (C28_never_fail R _ (OQ q1') (OQ q2') q_div (or_intror (or_introl eq_refl)) (ex_intro _ q1' (or_introl eq_refl)))) as [r' Hr'].
    { apply B. apply (C28_never_fail R _ (OQ q1) (OQ q2) q_div (or_intror (or_introl eq_refl)) (ex_intro _ q1 (or_introl eq_refl))). eauto. }
    exists r'. split; [exact Hr'|].
    assert (Hnz' : Forall (fun y => y <> 0) (dat (mag q2'))).
    { destruct (consistent_exists E HE) as [phi HC]. specialize (S2 phi HC). apply (f_equal (@dat R)) in S2. cbn in S2.
      apply Forall_forall. intros y Hy Z. subst y.
      assert (X : In 0 (map (fun x => x * dimval phi (qdim q2')) (dat (mag q2')))) by (apply in_map_iff; exists 0; split; [ring|auto]).
      rewrite <- S2 in X. apply in_map_iff in X. destruct X as (x & X1 & X2).
      rewrite Forall_forall in Hnz. apply (Hnz x X2). pose proof (dimval_pos phi (qdim q2)).
      apply Rmult_integral in X1. destruct X1; auto. lra. }
    split.
    + apply apply2_inv in H. apply apply2_inv in Hr'. destruct H as [_ D], Hr' as [_ D']. cbn in D, D'.
      injection D as <-. injection D' as <-. destruct C1 as [a Ca], C2 as [b Cb].
      exists (a / b). exact (converts_div E _ _ _ _ _ _ HE Ca Cb).
    + intros phi HC. destruct (C28_quotients (OQ q1) (OQ q2) r H1 H2 Hnz H) as (_ & _ & V).
      destruct (C28_quotients (OQ q1') (OQ q2') r' H1' H2' Hnz' Hr') as (_ & _ & V').
      specialize (V phi). specialize (V' phi). cbn [ophys] in *.
      rewrite <- (S1 phi HC), <- (S2 phi HC), V in V'. exact (Ok_inj _ _ V').
Qed.
Theorem C32_powers : forall E q q' e r,
  renv_ok E -> qty_ok q -> qty_ok q' -> equal_in_other_units E q q' ->
  (forall x p, In x (dat (mag q)) -> In p (dat (odat e)) -> power_defined x p) ->
  q_pow q e = Ok r ->
  exists r', q_pow q' e = Ok r' /\ equal_in_other_units E r r'.
Proof.
  intros E q q' e r HE Hq Hq' [C S] Hdef H.
  destruct (C29_pow_units R _ q e) as (I & _ & U). destruct (C29_pow_units R _ q' e) as (I' & _ & U').
  destruct (proj1 I) as (D & [p Hp] & B); [eauto|].
  destruct (proj2 I') as [r' Hr'].
  { split; auto. split; eauto. now rewrite <- (same_value_shp E q q' HE S). }
  exists r'. split; auto.
  assert (Hdef' : forall x p, In x (dat (mag q')) -> In p (dat (odat e)) -> power_defined x p).
  { intros x p0 Hx Hp0. destruct (consistent_exists E HE) as [phi HC]. specialize (S phi HC).
    apply (f_equal (@dat R)) in S. cbn in S.
    assert (X : In (x * dimval phi (qdim q')) (map (fun x => x * dimval phi (qdim q')) (dat (mag q')))) by (apply in_map_iff; eauto).
    rewrite <- S in X. apply in_map_iff in X. destruct X as (y & X1 & X2).
    pose proof (dimval_pos phi (qdim q)) as P1. pose proof (dimval_pos phi (qdim q')) as P2.
    assert (Hx' : x = y * (dimval phi (qdim q) / dimval phi (qdim q'))) by (apply (Rmult_eq_reg_r (dimval phi (qdim q'))); [|lra]; rewrite <- X1; field; lra).
    assert (P3 : 0 < dimval phi (qdim q) / dimval phi (qdim q')) by (apply Rdiv_lt_0_compat; auto).
    destruct (Hdef y p0 X2 Hp0) as [Y|[[Y1 Y2]|[Y1 Y2]]].
    - left. rewrite Hx'. now apply Rmult_lt_0_compat.
    - right. left. split; auto. destruct Y2 as [Y2|Y2]; auto. left. rewrite Hx'. intros Z. apply Rmult_integral in Z. lra.
    - right. right. split; auto. rewrite Hx', Y1. ring. }
  split.
  - destruct (U r p H Hp) as [U1 _]. destruct (U' r' p Hr' Hp) as [U1' _].
    assert (exists p', uniform (dat (odat e)) = Some p' /\ pval p' = p) as (p' & _ & Ep) by (now apply uniform_complete).
    destruct C as [c Hc]. pose proof (converts_pow E _ _ _ p' HE Hc) as CP.
    assert (W : forall q0 r0 : qty R, qty_ok q0 -> q_pow q0 e = Ok r0 -> wf_dims (qdim r0)).
    { intros q0 r0 H0 Hr0. unfold q_pow, apply_power in Hr0. cbn [odat] in Hr0.
      destruct (match e with OQ p1 => if dim_nonempty (qdim p1) then Err ValueError else Ok tt | OArr _ => Ok tt end); cbn [bind] in Hr0; [|discriminate].
      destruct (uniform (dat (odat e))); [|discriminate].
      destruct (amap2 npow (mag q0) (odat e)); cbn [bind] in Hr0; [|discriminate]. injection Hr0 as <-.
      cbn [qdim]. apply wf_pow. apply H0. }
    exists (rpow c p'). intros phi HC. rewrite <- (dimval_exp phi (dim_pow (qdim q) p') (qdim r)).
    + rewrite (CP phi HC). f_equal. apply dimval_exp; [apply wf_pow; apply Hq'|exact (W q' r' Hq' Hr')|].
      intros u. rewrite exp_of_pow, U1', Ep. reflexivity.
    + apply wf_pow; apply Hq.
    + exact (W q r Hq H).
    + intros u. rewrite exp_of_pow, U1, Ep. reflexivity.
  - intros phi HC. pose proof (C29_pow_value q e r phi H Hdef) as V. pose proof (C29_pow_value q' e r' phi Hr' Hdef') as V'.
    rewrite <- (S phi HC), V in V'. exact (Ok_inj _ _ V').
Qed.
Example C32_example :
  q_add exE (Qty (scalar (zq 1)) d_m) (OQ (Qty (scalar (zq 50)) d_cm)) = Ok (Qty (scalar (q_of 3 2)) d_m) /\
  q_add exE (Qty (scalar (zq 100)) d_cm) (OQ (Qty (scalar (q_of 1 2)) d_m)) = Ok (Qty (scalar (zq 150)) d_cm) /\
  equal_in_other_units exE (Qty (scalar 1) d_m) (Qty (scalar 100) d_cm).
Proof.
  split; [vm_compute; reflexivity|]. split; [vm_compute; reflexivity|]. split; cbn [qdim].
  - exists 100. intros psi HC'. rewrite (ex_cm_size psi HC'). lra.
  - intros psi HC'. unfold phys, scalar, amap. cbn [mag qdim shp dat map]. rewrite (ex_cm_size psi HC'). do 2 f_equal. lra.
Qed.

(** C33 *)
Lemma ncmp_scale c (x y v : R) : 0 < v -> ncmp c (x * v) (y * v) = ncmp c x y.
Proof.
  intros Hv. apply eq_true_iff_eq. rewrite !ncmp_holds.
  assert (L : forall a b, a * v < b * v <-> a < b).
  { intros a b. split; intros H; [apply Rmult_lt_reg_r with v|apply Rmult_lt_compat_r]; auto. }
  assert (Q : x * v = y * v <-> x = y) by (split; [intros H; apply Rmult_eq_reg_r with v; lra|intros ->; auto]).
  pose proof (L x y). pose proof (L y x). destruct c; cbn; try tauto; split; intros; apply Rnot_lt_le || apply Rnot_lt_ge; lra.
Qed.
Lemma cmp_rescaled (E : uenv R) c q1 q2 r phi : renv_ok E -> qty_ok q1 -> qty_ok q2 ->
  rescale_to E q2 (qdim q1) = Ok r -> consistent E phi ->
  amap2 (ncmp c) (mag q1) (mag r) = amap2 (ncmp c) (phys phi q1) (phys phi q2).
Proof.
  intros HE H1 H2 Hr HC.
  rewrite <- (rescale_value E q2 (qdim q1) r HE (proj2 H2) (proj2 H1) Hr phi HC).
  assert (He := rescale_to_eqb E q2 (qdim q1) r (proj1 (proj2 H2)) (proj1 (proj2 H1)) Hr).
  assert (Ho := rescale_to_qty_ok E q2 (qdim q1) r H2 (proj2 H1) Hr).
  unfold phys. rewrite (dimval_eqb phi _ _ (proj1 (proj2 Ho)) (proj1 (proj2 H1)) He).
  rewrite amap2_amap. apply amap2_ext. intros x y. symmetry. apply ncmp_scale. apply dimval_pos.
Qed.
Lemma q_order_rescale {A} {N : Num A} (E : uenv A) c q1 q2 :
  q_order E c q1 (OQ q2) = (r <- rescale_to E q2 (qdim q1) ;; amap2 (ncmp c) (mag q1) (mag r)).
Proof.
  unfold q_order, rescale_to. destruct (dim_eqb (qdim q2) (qdim q1)); [reflexivity|].
  destruct (conv_factor E (qdim q2) (qdim q1)) as [x|[]]; reflexivity.
Qed.
(** C32 for comparisons: the same booleans, or the same exception. *)
Theorem C32_comparisons : forall E c q1 q2 q1' q2',
  renv_ok E -> qty_ok q1 -> qty_ok q2 -> qty_ok q1' -> qty_ok q2' ->
  equal_in_other_units E q1 q1' -> equal_in_other_units E q2 q2' ->
  q_order E c q1 (OQ q2) = q_order E c q1' (OQ q2') /\
  q_eq E q1 (OQ q2) = q_eq E q1' (OQ q2') /\ q_ne E q1 (OQ q2) = q_ne E q1' (OQ q2').
Proof.
  intros E c q1 q2 q1' q2' HE H1 H2 H1' H2' [C1 S1] [C2 S2].
  destruct (consistent_exists E HE) as [phi HC].
  assert (P : forall c q p r, qty_ok q -> qty_ok p -> rescale_to E p (qdim q) = Ok r ->
    amap2 (ncmp c) (mag q) (mag r) = amap2 (ncmp c) (phys phi q) (phys phi p)).
  { intros c0 q p r Hq Hp Hr. rewrite <- (rescale_value E p (qdim q) r HE (proj2 Hp) (proj2 Hq) Hr phi HC). unfold phys.
    rewrite <- (dimval_exp phi (qdim r) (qdim q)).
    - rewrite amap2_amap. symmetry. apply amap2_ext. intros x y. apply ncmp_scale. apply dimval_pos.
    - exact (proj1 (proj2 (rescale_to_qty_ok E p (qdim q) r Hp (proj2 Hq) Hr))).
    - exact (proj1 (proj2 Hq)).
    - exact (rescale_to_dim E p (qdim q) r (proj1 (proj2 Hp)) (proj1 (proj2 Hq)) Hr). }
  assert (CC : convertible E (qdim q2) (qdim q1) <-> convertible E (qdim q2') (qdim q1')).
  { pose proof (convertible_sym E (qdim q1) (qdim q1') HE (proj2 H1) (proj2 H1') C1) as C1'.
    pose proof (convertible_sym E (qdim q2) (qdim q2') HE (proj2 H2) (proj2 H2') C2) as C2'.
    split; intros X.
    - exact (convertible_trans E _ _ _ C2' (convertible_trans E _ _ _ X C1)).
    - exact (convertible_trans E _ _ _ C2 (convertible_trans E _ _ _ X C1')). }
  assert (Sh : forall b : bool, amap (fun _ => b) (mag q1) = amap (fun _ => b) (mag q1')).
  { intros b. pose proof (f_equal (amap (fun _ : R => b)) (S1 phi HC)) as X. unfold phys in X. rewrite !amap_amap in X. exact X. }
  rewrite !q_order_rescale. unfold q_eq, q_ne, q_eqne.
  pose proof (rescale_ok_iff E q2 (qdim q1) HE (proj2 H2) (proj2 H1)) as I.
  pose proof (rescale_ok_iff E q2' (qdim q1') HE (proj2 H2') (proj2 H1')) as I'.
  destruct (rescale_to E q2 (qdim q1)) as [r|e] eqn:Hr, (rescale_to E q2' (qdim q1')) as [r'|e'] eqn:Hr'.
  - cbn [bind]. rewrite !(P _ _ _ _ H1 H2 Hr), !(P _ _ _ _ H1' H2' Hr'), (S1 phi HC), (S2 phi HC). auto.
  - exfalso. destruct (proj2 I' (proj1 CC (proj1 I (ex_intro _ r eq_refl)))) as [x X]. discriminate X.
  - exfalso. destruct (proj2 I (proj2 CC (proj1 I' (ex_intro _ r' eq_refl)))) as [x X]. discriminate X.
  - rewrite (rescale_to_err E _ _ _ Hr), (rescale_to_err E _ _ _ Hr'). cbn [bind]. rewrite !Sh. auto.
Qed.
Theorem C33_order : forall E c q1 q2 b phi idx t,
  renv_ok E -> qty_ok q1 -> qty_ok q2 -> q_order E c q1 (OQ q2) = Ok b -> consistent E phi ->
  aget b idx = Some t ->
  exists x y, aget (phys phi q1) (operand_index (shp (mag q1)) idx) = Some x /\
              aget (phys phi q2) (operand_index (shp (mag q2)) idx) = Some y /\
              (t = true <-> holds c x y).
Proof.
  intros E c q1 q2 b phi idx t HE H1 H2 H HC Ht. rewrite q_order_rescale in H.
  destruct (rescale_to E q2 (qdim q1)) as [r|] eqn:Hr; cbn [bind] in H; [|discriminate].
  rewrite (cmp_rescaled E c q1 q2 r phi HE H1 H2 Hr HC) in H.
  destruct (amap2_get _ _ _ _ idx t (phys_awf phi q1 (proj1 H1)) (phys_awf phi q2 (proj1 H2)) H Ht) as (x & y & Hx & Hy & ->).
  exists x, y. split; [exact Hx|]. split; [exact Hy|]. apply ncmp_holds.
Qed.
Theorem C33_order_iff : forall E c q1 q2,
  renv_ok E -> qty_ok q1 -> qty_ok q2 ->
  ((exists b, q_order E c q1 (OQ q2) = Ok b) <->
   convertible E (qdim q2) (qdim q1) /\ broadcast (shp (mag q1)) (shp (mag q2))) /\
  (forall b, q_order E c q1 (OQ q2) = Ok b -> bc_shape (shp (mag q1)) (shp (mag q2)) = Some (shp b)) /\
  (forall e, q_order E c q1 (OQ q2) = Err e -> e = ValueError).
Proof.
  intros E c q1 q2 HE H1 H2. rewrite q_order_rescale.
  rewrite <- (rescale_ok_iff E q2 (qdim q1) HE (proj2 H2) (proj2 H1)). unfold broadcast.
  destruct (rescale_to E q2 (qdim q1)) as [r|e] eqn:Hr; cbn [bind].
  - rewrite <- (rescale_to_shape E q2 (qdim q1) r Hr). rewrite <- (amap2_ok (ncmp c) (mag q1) (mag r)).
    split; [|split].
    + split; eauto. intros [_ X]; exact X.
    + intros b Hb. exact (amap2_shape _ _ _ Hb).
    + intros e He. exact (amap2_err _ _ _ He).
  - split; [|split].
    + split; [intros [b X]; discriminate|intros [[b X] _]; discriminate].
    + discriminate.
    + intros e' [= <-]. exact (rescale_to_err E q2 (qdim q1) e Hr).
Qed.
Example C33_example :
  q_order exE ULt (Qty (Arr [2%nat] (qcs [1; 3]%Z)) d_m) (OQ (Qty (scalar (zq 200)) d_cm)) =
    Ok (Arr [2%nat] [true; false]) /\
  q_order exE ULt (Qty (scalar (zq 1)) d_m) (OQ (Qty (scalar (zq 1)) d_s)) = Err ValueError.
Proof. split; vm_compute; reflexivity. Qed.

(** C34 *)
Theorem C34_eq_elements : forall E q1 q2 b phi idx t,
  renv_ok E -> qty_ok q1 -> qty_ok q2 -> convertible E (qdim q2) (qdim q1) -> consistent E phi ->
  q_eq E q1 (OQ q2) = Ok b -> aget b idx = Some t ->
  exists x y, aget (phys phi q1) (operand_index (shp (mag q1)) idx) = Some x /\
              aget (phys phi q2) (operand_index (shp (mag q2)) idx) = Some y /\ (t = true <-> x = y).
Proof.
  intros E q1 q2 b phi idx t HE H1 H2 Hc HC H Ht. unfold q_eq, q_eqne in H.
  apply (rescale_ok_iff E q2 (qdim q1) HE (proj2 H2) (proj2 H1)) in Hc. destruct Hc as [r Hr]. rewrite Hr in H.
  rewrite (cmp_rescaled E UEq q1 q2 r phi HE H1 H2 Hr HC) in H.
  destruct (amap2_get _ _ _ _ idx t (phys_awf phi q1 (proj1 H1)) (phys_awf phi q2 (proj1 H2)) H Ht) as (x & y & Hx & Hy & ->).
  exists x, y. split; [exact Hx|]. split; [exact Hy|]. apply (ncmp_holds UEq).
Qed.
(** Inconvertible units: no error; every element of the result, which has the shape of
    the left operand, says "different". *)
Theorem C34_incompatible : forall E q1 q2,
  renv_ok E -> qty_ok q1 -> qty_ok q2 -> ~ convertible E (qdim q2) (qdim q1) ->
  q_eq E q1 (OQ q2) = Ok (amap (fun _ => false) (mag q1)) /\
  q_ne E q1 (OQ q2) = Ok (amap (fun _ => true) (mag q1)).
Proof.
  intros E q1 q2 HE H1 H2 Hc. apply (rescale_fail_iff E q2 (qdim q1) HE (proj2 H2) (proj2 H1)) in Hc.
  unfold q_eq, q_ne, q_eqne. rewrite Hc. split; reflexivity.
Qed.
(** It fails only when the units are convertible and the shapes do not broadcast. *)
Theorem C34_never_raises : forall E q1 q2,
  renv_ok E -> qty_ok q1 -> qty_ok q2 ->
  ((exists b, q_eq E q1 (OQ q2) = Ok b) <->
   (convertible E (qdim q2) (qdim q1) -> broadcast (shp (mag q1)) (shp (mag q2)))).
Proof.
  intros E q1 q2 HE H1 H2. unfold broadcast, q_eq, q_eqne.
  pose proof (rescale_ok_iff E q2 (qdim q1) HE (proj2 H2) (proj2 H1)) as I.
  destruct (rescale_to E q2 (qdim q1)) as [r|e] eqn:Hr.
  - rewrite <- (rescale_to_shape E q2 (qdim q1) r Hr). rewrite (amap2_ok (ncmp UEq)).
    split; [tauto|]. intros H. apply H. apply I. eauto.
  - rewrite (rescale_to_err E q2 (qdim q1) e Hr). split; eauto.
    intros _ Hc. apply I in Hc. destruct Hc as [r X]. discriminate.
Qed.
(** [!=] is the elementwise negation of [==], for every number type and operand. *)
Theorem C34_complementary : forall A (N : Num A) E (q : qty A) o,
  q_ne E q o = rmap (amap negb) (q_eq E q o).
Proof.
  intros A N E q o. unfold q_ne, q_eq, q_eqne. destruct o as [q2|a].
  - destruct (rescale_to E q2 (qdim q)) as [r|[]]; try reflexivity.
    + rewrite rmap_amap_amap2. apply amap2_ext. reflexivity.
    + cbn [rmap]. rewrite amap_amap. reflexivity.
  - rewrite rmap_amap_amap2. apply amap2_ext. reflexivity.
Qed.
(** "All elements equal" for nonempty operands of one shape is physical equality;
    hence [==] is an equivalence on them. *)
Definition all_true (x : res (arr bool)) : Prop := exists b, x = Ok b /\ Forall (fun t => t = true) (dat b).
Lemma zip_with_all {A} (f : A -> A -> bool) : forall l l', length l = length l' ->
  (Forall (fun t => t = true) (zip_with f l l') <-> Forall2 (fun x y => f x y = true) l l').
Proof.
  induction l as [|x l IH]; intros [|y l'] H; try discriminate; cbn.
  - split; constructor.
  - injection H as H. specialize (IH _ H). split; intros X; inversion X; subst; constructor; tauto.
Qed.
Lemma Forall2_eq_iff {A} (l l' : list A) : Forall2 eq l l' <-> l = l'.
Proof.
  split; [induction 1; congruence|]. intros <-. induction l; constructor; auto.
Qed.
Lemma Forall2_cmp_eq (l l' : list R) : Forall2 (fun x y => ncmp UEq x y = true) l l' -> Forall2 eq l l'.
Proof.
  revert l'. induction l as [|x l IH]; intros l' F; inversion F; subst; constructor; auto. now apply (ncmp_holds UEq).
Qed.
Theorem C34_eq_iff : forall E q1 q2,
  renv_ok E -> qty_ok q1 -> qty_ok q2 -> shp (mag q1) = shp (mag q2) -> dat (mag q1) <> [] ->
  (all_true (q_eq E q1 (OQ q2)) <-> convertible E (qdim q2) (qdim q1) /\ same_value E q1 q2).
Proof.
  intros E q1 q2 HE H1 H2 Hs Hn.
  pose proof (rescale_ok_iff E q2 (qdim q1) HE (proj2 H2) (proj2 H1)) as I.
  unfold all_true, q_eq, q_eqne. destruct (rescale_to E q2 (qdim q1)) as [r|e] eqn:Hr.
  - assert (K : forall phi, consistent E phi ->
      ((exists b, amap2 (ncmp UEq) (mag q1) (mag r) = Ok b /\ Forall (fun t => t = true) (dat b)) <-> phys phi q1 = phys phi q2)).
    { intros phi HC. rewrite (cmp_rescaled E UEq q1 q2 r phi HE H1 H2 Hr HC).
      rewrite amap2_same_shape; [|apply phys_awf; apply H1|apply phys_awf; apply H2|exact Hs].
      assert (L : length (dat (phys phi q1)) = length (dat (phys phi q2))).
      { pose proof (phys_awf phi q1 (proj1 H1)) as W1. pose proof (phys_awf phi q2 (proj1 H2)) as W2.
        unfold awf in *. rewrite W1, W2. rewrite !phys_shp. congruence. }
      split.
      - intros (b & [= <-] & F). cbn [dat] in F. apply zip_with_all in F; auto.
        assert (D : dat (phys phi q1) = dat (phys phi q2)).
        { apply Forall2_eq_iff. exact (Forall2_cmp_eq _ _ F). }
        destruct (phys phi q1) as [s1 d1] eqn:P1, (phys phi q2) as [s2 d2] eqn:P2. cbn in D. f_equal; auto.
        apply (f_equal (@shp R)) in P1. apply (f_equal (@shp R)) in P2. rewrite phys_shp in P1, P2. cbn in P1, P2. congruence.
      - intros Heq. eexists. split; [reflexivity|]. cbn [dat]. apply zip_with_all; auto.
        rewrite Heq. generalize (dat (phys phi q2)). induction l; constructor; auto. now apply (ncmp_holds UEq). }
    split.
    + intros H. split; [apply I; eauto|]. intros phi HC. now apply K.
    + intros [_ S]. destruct (consistent_exists E HE) as [phi HC]. apply (K phi HC). now apply S.
  - rewrite (rescale_to_err E q2 (qdim q1) e Hr). split.
    + intros (b & [= <-] & F). cbn in F. destruct (dat (mag q1)); [congruence|]. inversion F. discriminate.
    + intros [Hc _]. apply I in Hc. destruct Hc as [r X]. discriminate.
Qed.
Theorem C34_equivalence : forall E q1 q2 q3,
  renv_ok E -> qty_ok q1 -> qty_ok q2 -> qty_ok q3 ->
  shp (mag q1) = shp (mag q2) -> shp (mag q2) = shp (mag q3) -> dat (mag q1) <> [] ->
  all_true (q_eq E q1 (OQ q1)) /\
  (all_true (q_eq E q1 (OQ q2)) -> all_true (q_eq E q2 (OQ q1))) /\
  (all_true (q_eq E q1 (OQ q2)) -> all_true (q_eq E q2 (OQ q3)) -> all_true (q_eq E q1 (OQ q3))).
Proof.
  intros E q1 q2 q3 HE H1 H2 H3 S12 S23 Hn.
  assert (N2 : dat (mag q2) <> []).
  { destruct H1 as [W1 _], H2 as [W2 _]. unfold awf in *. destruct (dat (mag q2)); [|discriminate].
    rewrite <- S12 in W2. rewrite <- W2 in W1. destruct (dat (mag q1)); [congruence|discriminate]. }
  rewrite (C34_eq_iff E q1 q1), (C34_eq_iff E q1 q2), (C34_eq_iff E q2 q1), (C34_eq_iff E q2 q3), (C34_eq_iff E q1 q3); auto; try congruence.
  split; [|split].
  - split; [apply convertible_refl|apply same_value_refl].
  - intros [C S]. split; [|now apply same_value_sym]. apply convertible_sym; auto; [apply H2|apply H1].
  - intros [C S] [C' S']. split; [|now apply same_value_trans with q2].
    apply convertible_trans with (qdim q2); auto.
Qed.
Example C34_example :
  q_eq exE (Qty (Arr [2%nat] (qcs [1; 3]%Z)) d_m) (OQ (Qty (Arr [2%nat] (qcs [100; 200]%Z)) d_cm)) =
    Ok (Arr [2%nat] [true; false]) /\
  q_eq exE (Qty (Arr [2%nat] (qcs [1; 3]%Z)) d_m) (OQ (Qty (scalar (zq 1)) d_s)) = Ok (Arr [2%nat] [false; false]) /\
  q_ne exE (Qty (Arr [2%nat] (qcs [1; 3]%Z)) d_m) (OQ (Qty (scalar (zq 1)) d_s)) = Ok (Arr [2%nat] [true; true]) /\
  all_true (q_eq exE (Qty (scalar (zq 1)) d_m) (OQ (Qty (scalar (zq 100)) d_cm))).
Proof.
  split; [vm_compute; reflexivity|]. split; [vm_compute; reflexivity|]. split; [vm_compute; reflexivity|].
  exists (scalar true). split; [vm_compute; reflexivity|]. repeat constructor.
Qed.

(** C35 *)
(** What holds: the raw magnitude is compared, whatever the units, so the answer does
    not depend on them. *)
Theorem C35_plain_ignores_units : forall A (N : Num A) E (m : arr A) d d' a c,
  q_eqne E c (Qty m d) (OArr a) = q_eqne E c (Qty m d') (OArr a) /\
  q_order E c (Qty m d) (OArr a) = q_order E c (Qty m d') (OArr a) /\
  q_order E c (Qty m d) (OArr a) = amap2 (ncmp c) m a.
Proof. intros. split; [|split]; reflexivity. Qed.
(** So a quantity with units can equal a plain number, and two quantities that equal
    the same number need not be equal. *)
Theorem C35_plain_comparison_refuted :
  exists (E : uenv R) q1 q2 x,
    renv_ok E /\ qty_ok q1 /\ qty_ok q2 /\
    (~ exists c, forall phi, consistent E phi -> dimval phi (qdim q1) = c) /\
    q_eq E q1 (OArr (scalar x)) = Ok (scalar true) /\
    q_eq E q2 (OArr (scalar x)) = Ok (scalar true) /\
    q_eq E q1 (OQ q2) = Ok (scalar false).
Proof.
  exists exE, (Qty (scalar 5) d_m), (Qty (scalar 5) d_s), 5.
  assert (O : forall (x : R) d, dims_okb d = true -> qty_ok (Qty (scalar x) d)).
  { intros x d Hd. split; [reflexivity|now apply dims_okb_ok]. }
  assert (T : amap2 (ncmp UEq) (scalar 5) (scalar 5) = Ok (scalar true)).
  { unfold amap2, scalar. cbn. unfold Reqb. destruct (Req_EM_T 5 5); [reflexivity|lra]. }
  split; [exact exE_ok|]. split; [now apply O|]. split; [now apply O|]. split; [|split; [exact T|split; [exact T|]]].
  - intros [c Hc]. assert (X : convertible exE d_m []).
    { exists c. intros phi HC. specialize (Hc phi HC). cbn [qdim] in Hc. rewrite Hc. cbn. ring. }
    rewrite convertible_iff in X; [|exact exE_ok|apply dims_okb_ok; reflexivity|apply dims_okb_ok; reflexivity].
    revert X. cbn. discriminate.
  - apply (C34_incompatible exE (Qty (scalar 5) d_m) (Qty (scalar 5) d_s)); [exact exE_ok|now apply O|now apply O|].
    cbn [qdim]. rewrite convertible_iff; [|exact exE_ok|apply dims_okb_ok; reflexivity|apply dims_okb_ok; reflexivity].
    cbn. discriminate.
Qed.

(** C36 *)
Theorem C36_plain_data : forall A (N : Num A) lookup E (a : arr A) ua d,
  denotes_units lookup ua d -> q_new lookup E (OArr a) ua = Ok (Qty a d).
Proof.
  intros A N lookup E a ua d H. unfold q_new, validate_dimensionality. destruct H as [s q Hs|q x Hq Hx|d].
  - rewrite Hs. reflexivity.
  - unfold is_unit_quantity. destruct Hq as [-> | ->]; cbn; rewrite Hx; reflexivity.
  - reflexivity.
Qed.
(** A unit argument that has a truth value of True: a nonempty string, or a nonempty
    dimensionality, or a unit quantity. *)
Theorem C36_quantity_data : forall A (N : Num A) lookup E (q : qty A) ua d,
  denotes_units lookup ua d -> neqb n1 n0 = false -> (forall x y : A, neqb x n1 = true -> neqb x y = neqb n1 y) ->
  (ua = UStr ""%string \/ ua = UDim [] -> False) ->
  q_new lookup E (OQ q) ua = rescale lookup E q ua.
Proof.
  intros A N lookup E q ua d H H10 Hcong Hne. unfold q_new. destruct H as [s q' Hs|q' x Hq Hx|d].
  - destruct s; [exfalso; auto|reflexivity].
  - unfold truthy. destruct Hq as [-> | ->]; cbn [dat]; rewrite (Hcong x n0 Hx), H10; reflexivity.
  - destruct d; [exfalso; auto|reflexivity].
Qed.
(** But converting to "no units" by an empty dimensionality silently does nothing:
    the result keeps its units. *)
Theorem C36_empty_dimensionality_refuted : forall A (N : Num A) lookup E (q : qty A),
  q_new lookup E (OQ q) (UDim []) = Ok q /\ q_new lookup E (OQ q) (UStr ""%string) = Ok q.
Proof. intros. split; reflexivity. Qed.
Definition ex_lookup (s : string) : res (qty Qc) :=
  if String.eqb s "m" then Ok (Qty (scalar (zq 1)) d_m)
  else if String.eqb s "cm" then Ok (Qty (scalar (zq 1)) d_cm)
  else if String.eqb s "3*m" then Ok (Qty (scalar (zq 3)) d_m)
  else Err LookupError.
Example C36_example :
  q_new ex_lookup exE (OArr (Arr [2%nat] (qcs [1; 2]%Z))) (UStr "m") = Ok (Qty (Arr [2%nat] (qcs [1; 2]%Z)) d_m) /\
  q_new ex_lookup exE (OQ (Qty (scalar (zq 3)) d_m)) (UStr "cm") = Ok (Qty (scalar (zq 300)) d_cm) /\
  q_new ex_lookup exE (OQ (Qty (scalar (zq 3)) d_s)) (UStr "cm") = Err ValueError /\
  denotes_units ex_lookup (UStr "cm") d_cm.
Proof.
  split; [reflexivity|]. split; [vm_compute; reflexivity|]. split; [vm_compute; reflexivity|].
  exact (den_str ex_lookup "cm" (Qty (scalar (zq 1)) d_cm) eq_refl).
Qed.

(** C37 *)
(** Only the dimensionality of a unit string is used; its numeric factor is dropped. *)
Theorem C37_factor_dropped : forall A (N : Num A) lookup E (a : arr A) s q0,
  lookup s = Ok q0 -> q_new lookup E (OArr a) (UStr s) = Ok (Qty a (qdim q0)).
Proof. intros A N lookup E a s q0 H. apply C36_plain_data. now constructor. Qed.
(** So the value of "x s" is not x times the value of s unless that factor is one. *)
Theorem C37_unit_strings_refuted : forall (lookup : string -> res (qty R)) E s k d x r phi,
  lookup s = Ok (Qty (scalar k) d) ->
  q_new lookup E (OArr (scalar x)) (UStr s) = Ok r ->
  (phys phi r = amap (fun v => x * v) (phys phi (Qty (scalar k) d)) <-> x = 0 \/ k = 1).
Proof.
  intros lookup E s k d x r phi Hs H. rewrite (C37_factor_dropped R _ lookup E (scalar x) s _ Hs) in H. injection H as <-.
  unfold phys, scalar, amap. cbn [mag qdim shp dat map]. pose proof (dimval_pos phi d) as P. split.
  - intros [= H]. assert (X : x * (k - 1) = 0).
    { apply (Rmult_eq_reg_r (dimval phi d)); [|lra]. rewrite Rmult_0_l. lra. }
    apply Rmult_integral in X. destruct X; [now left|right; lra].
  - intros H. do 2 f_equal. destruct H as [-> | ->]; ring.
Qed.
Example C37_example :
  q_new ex_lookup exE (OArr (scalar (zq 1))) (UStr "3*m") = Ok (Qty (scalar (zq 1)) d_m).
Proof. reflexivity. Qed.

Print Assumptions C25_add.
Print Assumptions C25_sub.
Print Assumptions C25_add_elements.
Print Assumptions C25_neg_abs.
Print Assumptions C25_pos_refused.
Print Assumptions C26_add_sub_mod_iff.
Print Assumptions C27_plain_sums.
Print Assumptions C27_plain_sums_iff.
Print Assumptions C28_products.
Print Assumptions C28_quotients.
Print Assumptions C28_never_fail.
Print Assumptions C28_no_conversion.
Print Assumptions C29_pow_units.
Print Assumptions C29_pow_value.
Print Assumptions C29_rpow.
Print Assumptions C30_remainder.
Print Assumptions C30_remainder_meaning.
Print Assumptions C30_plain_left.
Print Assumptions C31_floor_div_units.
Print Assumptions C31_floor_div_same_units.
Print Assumptions C31_floor_div_refuted.
Print Assumptions C32_sums.
Print Assumptions C32_products.
Print Assumptions C32_powers.
Print Assumptions C32_comparisons.
Print Assumptions C33_order.
Print Assumptions C33_order_iff.
Print Assumptions C34_eq_elements.
Print Assumptions C34_incompatible.
Print Assumptions C34_never_raises.
Print Assumptions C34_complementary.
Print Assumptions C34_eq_iff.
Print Assumptions C34_equivalence.
Print Assumptions C35_plain_ignores_units.
Print Assumptions C35_plain_comparison_refuted.
Print Assumptions C36_plain_data.
Print Assumptions C36_quantity_data.
Print Assumptions C36_empty_dimensionality_refuted.
Print Assumptions C37_factor_dropped.
Print Assumptions C37_unit_strings_refuted.
