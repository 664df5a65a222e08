(** * Property C129: programs with uncertain quantities do not depend on the units. *)
From Coq Require Import Reals Lra Lia.
From Verif Require Import Py Num Dim DimFacts Arr ArrFacts Units Spec SpecApi UnitFacts Quant QuantFacts ConvFacts Ufunc Ops OpsFacts
  Lanes Methods MethodsFacts ItemFacts Uncert SpecUncert UncertFacts Props_Ops Props_Methods Props_Uncert Examples.

Open Scope R_scope.

(** Specification-level: the same measurements, perhaps in other units. *)
Definition same_measurements (E : uenv R) (x x' : uqty R) : Prop :=
  convertible E (qdim (uv x)) (qdim (uv x')) /\ forall phi, consistent E phi -> meas phi x = meas phi x'.
(** Specification-level: the same exact factor, perhaps in other units. *)
Definition same_factor (E : uenv R) (o o' : operand R) : Prop :=
  convertible E (odims o) (odims o') /\ forall phi, consistent E phi -> ophys phi o = ophys phi o'.

(** Specification-level: programs over uncertain variables [x_i] and exact ones [c_j]. *)
Inductive uprog : Type :=
| PVar (i : nat)
| PAdd (a b : uprog) | PSub (a b : uprog) | PMul (a b : uprog) | PDiv (a b : uprog)
| PTimes (a : uprog) (j : nat) | POver (a : uprog) (j : nat) | PUnder (j : nat) (a : uprog) | PLess (j : nat) (a : uprog)
| PNeg (a : uprog) | PPow (a : uprog) (p : pynum) | PSqrt (a : uprog)
| PSum (axis : option Z) (a : uprog) | PMean (axis : option Z) (a : uprog)
| PMax (axis : option Z) (a : uprog) | PMin (axis : option Z) (a : uprog).

(** uncertainquantity.py:90-271, one method call after the other. *)
Fixpoint uprog_run (E : uenv R) (xs : list (uqty R)) (cs : list (operand R)) (p : uprog) : res (uqty R) :=
  let run := uprog_run E xs cs in
  let const j := match nth_error cs j with Some c => Ok c | None => Err NameError end in
  match p with
  | PVar i => match nth_error xs i with Some x => Ok x | None => Err NameError end
  | PAdd a b => x <- run a ;; y <- run b ;; u_add E x y
  | PSub a b => x <- run a ;; y <- run b ;; u_sub E x y
  | PMul a b => x <- run a ;; y <- run b ;; u_mul x y
  | PDiv a b => x <- run a ;; y <- run b ;; u_div x y
  | PTimes a j => x <- run a ;; c <- const j ;; u_mul_plain x c
  | POver a j => x <- run a ;; c <- const j ;; u_div_plain x c
  | PUnder j a => x <- run a ;; c <- const j ;; u_rdiv_plain E x c
  | PLess j a => x <- run a ;; c <- const j ;; u_rsub_plain E x c
  | PNeg a => x <- run a ;; u_neg x
  | PPow a n => x <- run a ;; u_pow E x n
  | PSqrt a => x <- run a ;; u_sqrt E x
  | PSum k a => x <- run a ;; u_sum E k x
  | PMean k a => x <- run a ;; u_mean E k x
  | PMax k a => x <- run a ;; u_max E k x
  | PMin k a => x <- run a ;; u_min E k x
  end.

(** Specification-level: no division by zero on the way, and only powers that are real
    numbers (NumPy gives nan or inf otherwise). *)
Fixpoint regular (E : uenv R) (xs : list (uqty R)) (cs : list (operand R)) (p : uprog) : Prop :=
  let reg := regular E xs cs in
  let of a (P : uqty R -> Prop) := reg a /\ forall x, uprog_run E xs cs a = Ok x -> P x in
  match p with
  | PVar _ => True
  | PAdd a b | PSub a b => reg a /\ reg b
  | PMul a b | PDiv a b => of a nonzero_values /\ of b nonzero_values
  | PTimes a _ | PLess _ a | PNeg a | PSum _ a | PMean _ a | PMax _ a | PMin _ a => reg a
  | POver a j => reg a /\ forall c, nth_error cs j = Some c -> Forall (fun t => t <> 0) (dat (odat c))
  | PUnder _ a => of a nonzero_values
  | PPow a n => of a (fun x => nonzero_values x /\ Forall (fun v => power_defined v n) (dat (mag (uv x))))
  | PSqrt a => of a (fun x => Forall (fun v => 0 < v) (dat (mag (uv x))))
  end.

Section C129.
  Variable E : uenv R.
  Hypothesis HE : renv_ok E.
  Notation same := (same_measurements E).

  Lemma same_shape x x' : same x x' -> shp (mag (uv x)) = shp (mag (uv x')).
  Proof. intros [_ S]. destruct (consistent_exists E HE) as [phi HC]. specialize (S phi HC). apply (f_equal (@shp _)) in S. exact S. Qed.
  Lemma same_fshape o o' : same_factor E o o' -> shp (odat o) = shp (odat o').
  Proof.
    intros [_ S]. destruct (consistent_exists E HE) as [phi HC]. specialize (S phi HC). apply (f_equal (@shp _)) in S.
    rewrite !ophys_odat in S. exact S.
  Qed.
  (** Values that exist: what holds of magnitudes up to a positive factor is shared. *)
  Lemma same_values (P : R -> Prop) x x' : (forall t v, 0 < v -> P (t * v) <-> P t) -> uq_ok x -> uq_ok x' -> same x x' ->
    Forall P (dat (mag (uv x))) -> Forall P (dat (mag (uv x'))).
  Proof.
    intros HP Hx Hx' [_ S] F. destruct (consistent_exists E HE) as [phi HC]. specialize (S phi HC).
    apply (f_equal (amap fst)) in S. rewrite !meas_fst in S by auto. apply (f_equal (@dat R)) in S. unfold phys in S. cbn [amap dat] in S.
    rewrite Forall_forall in F. apply Forall_forall. intros t Ht. apply (HP t _ (dimval_pos phi (qdim (uv x')))).
    assert (X : In (t * dimval phi (qdim (uv x'))) (map (fun v => v * dimval phi (qdim (uv x'))) (dat (mag (uv x'))))) by (now apply (in_map (fun v => v * dimval phi (qdim (uv x'))))).
    rewrite <- S in X. apply in_map_iff in X. destruct X as (s & Es & Is). rewrite <- Es. apply HP; [apply dimval_pos|auto].
  Qed.
  Lemma same_nonzero x x' : uq_ok x -> uq_ok x' -> same x x' -> nonzero_values x -> nonzero_values x'.
  Proof.
    apply same_values. intros t v Hv. split; intros H X; apply H; [rewrite X; ring|apply Rmult_integral in X; destruct X; lra].
  Qed.
  Lemma same_positive x x' : uq_ok x -> uq_ok x' -> same x x' -> Forall (fun v => 0 < v) (dat (mag (uv x))) -> Forall (fun v => 0 < v) (dat (mag (uv x'))).
  Proof. apply same_values. intros t v Hv. split; intros H; [|now apply Rmult_lt_0_compat]. apply (Rmult_lt_reg_r v); lra. Qed.
  Lemma same_power n x x' : uq_ok x -> uq_ok x' -> same x x' -> Forall (fun v => power_defined v n) (dat (mag (uv x))) -> Forall (fun v => power_defined v n) (dat (mag (uv x'))).
  Proof.
    apply same_values. intros t v Hv. unfold power_defined.
    assert (A : 0 < t * v <-> 0 < t) by (split; intros H; [apply (Rmult_lt_reg_r v); lra|now apply Rmult_lt_0_compat]).
    assert (B : t * v = 0 <-> t = 0) by (split; intros H; [apply Rmult_integral in H; destruct H; lra|rewrite H; ring]).
    tauto.
  Qed.

  (** Products and quotients of convertible units. *)
  Lemma conv_pk g ru (q q' : qty R) o o' d d' : prod_kind g ru -> qty_ok q -> qty_ok q' -> operand_ok o -> operand_ok o' ->
    convertible E (qdim q) (qdim q') -> convertible E (odims o) (odims o') ->
    pd2 ru (OQ q) o = Ok d -> pd2 ru (OQ q') o' = Ok d' -> convertible E d d'.
  Proof.
    intros K Hq Hq' Ho Ho' [c1 H1] [c2 H2] Hd Hd'. exists (g c1 c2). intros phi HC.
    pose proof (pk_scale g ru q o d phi K Hq Ho Hd 1 1) as A. pose proof (pk_scale g ru q' o' d' phi K Hq' Ho' Hd' 1 1) as B.
    rewrite (H1 phi HC), (H2 phi HC) in A.
    destruct K.
    - rewrite !Rmult_1_l in *. rewrite <- A, <- B. ring.
    - unfold Rdiv in *. rewrite !Rmult_1_l in *. rewrite Rinv_1 in *. rewrite Rmult_1_l in *. rewrite <- A, <- B, Rinv_mult. ring.
  Qed.
  Lemma conv_sum x y x' y' : uq_ok x -> uq_ok y -> uq_ok x' -> uq_ok y' -> same x x' -> same y y' ->
    convertible E (qdim (uv y)) (qdim (uv x)) -> convertible E (qdim (uv y')) (qdim (uv x')).
  Proof.
    intros Hx Hy Hx' Hy' [Cx _] [Cy _] C. apply (convertible_trans E _ (qdim (uv y))).
    - apply convertible_sym; auto; [apply Hy|apply Hy'].
    - apply (convertible_trans E _ (qdim (uv x))); auto.
  Qed.
  Lemma same_sum g (op : uqty R -> uqty R -> res (uqty R)) x y z x' y' :
    (forall x y z, uq_ok x -> uq_ok y -> op x y = Ok z -> uq_ok z /\ qdim (uv z) = qdim (uv x) /\
       forall phi, consistent E phi -> amap2 g (meas phi x) (meas phi y) = Ok (meas phi z)) ->
    (forall x y, uq_ok x -> uq_ok y -> (exists z, op x y = Ok z) <-> convertible E (qdim (uv y)) (qdim (uv x)) /\ broadcast (shp (mag (uv x))) (shp (mag (uv y)))) ->
    uq_ok x -> uq_ok y -> uq_ok x' -> uq_ok y' -> same x x' -> same y y' -> op x y = Ok z ->
    exists z', op x' y' = Ok z' /\ uq_ok z /\ uq_ok z' /\ same z z'.
  Proof.
    intros SP DF Hx Hy Hx' Hy' Sx Sy H. destruct (proj1 (DF x y Hx Hy) (ex_intro _ z H)) as [C B].
    destruct (proj2 (DF x' y' Hx' Hy')) as [z' H'].
    { split; [now apply (conv_sum x y)|]. now rewrite <- (same_shape x x' Sx), <- (same_shape y y' Sy). }
    exists z'. destruct (SP x y z Hx Hy H) as (Hz & Dz & M). destruct (SP x' y' z' Hx' Hy' H') as (Hz' & Dz' & M').
    split; [exact H'|]. split; [exact Hz|]. split; [exact Hz'|]. split; [rewrite Dz, Dz'; apply Sx|].
    intros phi HC. specialize (M phi HC). specialize (M' phi HC). rewrite (proj2 Sx phi HC), (proj2 Sy phi HC) in M. congruence.
  Qed.
  Lemma same_prod g ru rule (op : uqty R -> uqty R -> res (uqty R)) x y z x' y' : prod_kind g ru -> (forall x y, op x y = u_prod g ru x y) ->
    (forall x y z, uq_ok x -> uq_ok y -> nonzero_values x -> nonzero_values y -> op x y = Ok z -> forall phi, amap2 rule (meas phi x) (meas phi y) = Ok (meas phi z)) ->
    (forall x y, uq_ok x -> uq_ok y -> (exists z, op x y = Ok z) <-> broadcast (shp (mag (uv x))) (shp (mag (uv y)))) ->
    uq_ok x -> uq_ok y -> uq_ok x' -> uq_ok y' -> same x x' -> same y y' -> nonzero_values x -> nonzero_values y -> op x y = Ok z ->
    exists z', op x' y' = Ok z' /\ uq_ok z /\ uq_ok z' /\ same z z'.
  Proof.
    intros K EQ SP DF Hx Hy Hx' Hy' Sx Sy Nx Ny H. pose proof (proj1 (DF x y Hx Hy) (ex_intro _ z H)) as B.
    destruct (proj2 (DF x' y' Hx' Hy')) as [z' H'].
    { now rewrite <- (same_shape x x' Sx), <- (same_shape y y' Sy). }
    exists z'. split; [exact H'|].
    assert (T : forall x y z, uq_ok x -> uq_ok y -> op x y = Ok z -> uq_ok z /\ pd2 ru (OQ (uv x)) (OQ (uv y)) = Ok (qdim (uv z))).
    { intros a b c Ha Hb Hc. rewrite EQ in Hc. destruct (u_prod_spec g ru a b c Ha Hb Hc) as (T1 & T2 & _); [|auto].
      intros d Hd. exact (pk_dims g ru (uv a) (OQ (uv b)) d K (proj1 Ha) (proj1 Hb) Hd). }
    destruct (T x y z Hx Hy H) as [Hz Dz]. destruct (T x' y' z' Hx' Hy' H') as [Hz' Dz']. split; [exact Hz|]. split; [exact Hz'|]. split.
    - exact (conv_pk g ru (uv x) (uv x') (OQ (uv y)) (OQ (uv y')) _ _ K (proj1 Hx) (proj1 Hx') (proj1 Hy) (proj1 Hy') (proj1 Sx) (proj1 Sy) Dz Dz').
    - intros phi HC. pose proof (SP x y z Hx Hy Nx Ny H phi) as M.
      pose proof (SP x' y' z' Hx' Hy' (same_nonzero x x' Hx Hx' Sx Nx) (same_nonzero y y' Hy Hy' Sy Ny) H' phi) as M'.
      rewrite (proj2 Sx phi HC), (proj2 Sy phi HC) in M. congruence.
  Qed.
  Lemma same_plain g ru x o z x' o' : prod_kind g ru -> uq_ok x -> uq_ok x' -> operand_ok o -> operand_ok o' -> same x x' -> same_factor E o o' ->
    u_plain g ru x o = Ok z -> exists z', u_plain g ru x' o' = Ok z' /\ uq_ok z /\ uq_ok z' /\ same z z'.
  Proof.
    intros K Hx Hx' Ho Ho' Sx So H. pose proof (proj1 (proj1 (u_plain_iff g ru x o K Hx Ho)) (ex_intro _ z H)) as B.
    destruct (proj2 (proj1 (u_plain_iff g ru x' o' K Hx' Ho'))) as [z' H'].
    { now rewrite <- (same_shape x x' Sx), <- (same_fshape o o' So). }
    exists z'. split; [exact H'|]. destruct (u_plain_spec g ru x o z K Hx Ho H) as (Hz & Dz & _). destruct (u_plain_spec g ru x' o' z' K Hx' Ho' H') as (Hz' & Dz' & _).
    split; [exact Hz|]. split; [exact Hz'|]. split.
    - exact (conv_pk g ru (uv x) (uv x') o o' _ _ K (proj1 Hx) (proj1 Hx') Ho Ho' (proj1 Sx) (proj1 So) Dz Dz').
    - intros phi HC. pose proof (u_plain_meas g ru x o z phi K Hx Ho H) as M. pose proof (u_plain_meas g ru x' o' z' phi K Hx' Ho' H') as M'.
      rewrite (proj2 Sx phi HC), (proj2 So phi HC) in M. congruence.
  Qed.
  Lemma conv_pow d d' n : convertible E d d' -> convertible E (dim_pow d n) (dim_pow d' n).
  Proof.
    intros (c & Hc). assert (Pc : 0 < c).
    { destruct (consistent_exists E HE) as [phi HC]. specialize (Hc phi HC). pose proof (dimval_pos phi d). pose proof (dimval_pos phi d').
      apply (Rmult_lt_reg_r (dimval phi d')); lra. }
    exists (Rpower c (Qc2R (pval n))). intros phi HC. rewrite !dimval_pow, (Hc phi HC). symmetry. apply Rpower_mult_distr; auto using dimval_pos.
  Qed.
  Lemma same_pow n x z x' : uq_ok x -> uq_ok x' -> same x x' -> nonzero_values x -> Forall (fun v => power_defined v n) (dat (mag (uv x))) ->
    u_pow E x n = Ok z -> exists z', u_pow E x' n = Ok z' /\ uq_ok z /\ uq_ok z' /\ same z z'.
  Proof.
    intros Hx Hx' S Nx Px H. pose proof (same_power n x x' Hx Hx' S Px) as Px'. pose proof (same_nonzero x x' Hx Hx' S Nx) as Nx'.
    rewrite Forall_forall in Px, Px'. destruct (C65_pow_defined E x' n Hx') as [z' H'].
    exists z'. split; [exact H'|].
    destruct (u_pow_spec E x n Hx) as (w & Ew & Hz & Dz & _). assert (w = z) as -> by congruence.
    destruct (u_pow_spec E x' n Hx') as (w' & Ew' & Hz' & Dz' & _). assert (w' = z') as -> by congruence.
    split; [exact Hz|]. split; [exact Hz'|]. split; [rewrite Dz, Dz'; apply conv_pow, S|].
    intros phi HC. destruct (C65_pow E x z n phi Hx Nx Px H) as (_ & _ & M). destruct (C65_pow E x' z' n phi Hx' Nx' Px' H') as (_ & _ & M').
    rewrite M, M', (proj2 S phi HC). reflexivity.
  Qed.
  Lemma same_sums axis x z x' : uq_ok x -> uq_ok x' -> same x x' -> u_sum E axis x = Ok z ->
    exists z', u_sum E axis x' = Ok z' /\ uq_ok z /\ uq_ok z' /\ same z z'.
  Proof.
    intros Hx Hx' S H. pose proof (same_shape x x' S) as Sh.
    destruct (proj2 (proj1 (C69_defined E axis x' Hx'))) as [z' H'].
    { rewrite <- Sh. apply (proj1 (proj1 (C69_defined E axis x Hx))). now exists z. }
    exists z'. split; [exact H'|].
    destruct (u_sum_spec E axis x z Hx H) as (ax & Ha & Hz & Dz & M). destruct (u_sum_spec E axis x' z' Hx' H') as (ax' & Ha' & Hz' & Dz' & M').
    split; [exact Hz|]. split; [exact Hz'|]. split; [rewrite Dz, Dz'; apply S|]. intros phi HC. specialize (M phi). specialize (M' phi).
    assert (ax' = ax) as -> by congruence. rewrite (proj2 S phi HC) in M. congruence.
  Qed.
  Lemma same_means axis x z x' : uq_ok x -> uq_ok x' -> same x x' -> u_mean E axis x = Ok z ->
    exists z', u_mean E axis x' = Ok z' /\ uq_ok z /\ uq_ok z' /\ same z z'.
  Proof.
    intros Hx Hx' S H. pose proof (same_shape x x' S) as Sh.
    assert (Em : dat (mag (uv x)) = [] <-> dat (mag (uv x')) = []).
    { destruct Hx as ((W & _) & _). destruct Hx' as ((W' & _) & _). unfold awf in *. rewrite <- !length_zero_iff_nil, W, W', Sh. tauto. }
    destruct (proj2 (proj1 (proj2 (C69_defined E axis x' Hx')))) as [z' H'].
    { rewrite <- Sh. destruct (proj1 (proj1 (proj2 (C69_defined E axis x Hx)))) as [A B]; [now exists z|]. split; [exact A|]. intros X. apply B. destruct axis; [exact X|now apply Em]. }
    exists z'. split; [exact H'|].
    destruct (u_mean_spec E axis x z Hx H) as (ax & Ha & Hz & Dz & _ & M). destruct (u_mean_spec E axis x' z' Hx' H') as (ax' & Ha' & Hz' & Dz' & _ & M').
    split; [exact Hz|]. split; [exact Hz'|]. split; [rewrite Dz, Dz'; apply S|]. intros phi HC. specialize (M phi). specialize (M' phi).
    assert (ax' = ax) as -> by congruence.
    assert (L : lane_length ax (mag (uv x')) = lane_length ax (mag (uv x))).
    { destruct Hx as ((W & _) & _). destruct Hx' as ((W' & _) & _). unfold awf in *. unfold lane_length. destruct ax; rewrite ?Sh; congruence. }
    rewrite L in M'. rewrite (proj2 S phi HC) in M. congruence.
  Qed.
  Lemma first_max_same l i j : first_max l i -> first_max l j -> i = j.
  Proof.
    intros (a & A1 & (_ & A2) & A3) (b & B1 & (_ & B2) & B3). destruct (Nat.lt_trichotomy i j) as [L|[L|L]]; [|exact L|].
    - specialize (B3 i a L A1). assert (b <= a) by (apply A2; apply (nth_error_In l j B1)). lra.
    - specialize (A3 j b L B1). assert (a <= b) by (apply B2; apply (nth_error_In l i A1)). lra.
  Qed.
  Lemma first_min_same l i j : first_min l i -> first_min l j -> i = j.
  Proof.
    intros (a & A1 & (_ & A2) & A3) (b & B1 & (_ & B2) & B3). destruct (Nat.lt_trichotomy i j) as [L|[L|L]]; [|exact L|].
    - specialize (B3 i a L A1). assert (a <= b) by (apply A2; apply (nth_error_In l j B1)). lra.
    - specialize (A3 j b L B1). assert (b <= a) by (apply B2; apply (nth_error_In l i A1)). lra.
  Qed.
  Lemma same_extreme (op : option Z -> uqty R -> res (uqty R)) (best : list R -> nat -> Prop) axis x z x' :
    (forall l i j, best l i -> best l j -> i = j) ->
    (forall x z phi, uq_ok x -> op axis x = Ok z -> exists i p, best (dat (phys phi (uv x))) i /\ nth_error (dat (meas phi x)) i = Some p /\ meas phi z = scalar p) ->
    (forall x z, uq_ok x -> op axis x = Ok z -> uq_ok z /\ qdim (uv z) = qdim (uv x)) ->
    (forall x, uq_ok x -> (exists z, op axis x = Ok z) <-> dat (mag (uv x)) <> []) ->
    uq_ok x -> uq_ok x' -> same x x' -> op axis x = Ok z -> exists z', op axis x' = Ok z' /\ uq_ok z /\ uq_ok z' /\ same z z'.
  Proof.
    intros U SP OK DF Hx Hx' S H. pose proof (same_shape x x' S) as Sh.
    destruct (proj2 (DF x' Hx')) as [z' H'].
    { intros X. apply (proj1 (DF x Hx) (ex_intro _ z H)). apply length_zero_iff_nil in X. apply length_zero_iff_nil.
      destruct Hx as ((W & _) & _). destruct Hx' as ((W' & _) & _). unfold awf in *. congruence. }
    exists z'. destruct (OK x z Hx H) as [Hz Dz]. destruct (OK x' z' Hx' H') as [Hz' Dz'].
    split; [exact H'|]. split; [exact Hz|]. split; [exact Hz'|]. split; [rewrite Dz, Dz'; apply S|]. intros phi HC.
    destruct (SP x z phi Hx H) as (i & p & I1 & I2 & I3). destruct (SP x' z' phi Hx' H') as (j & q & J1 & J2 & J3).
    rewrite <- (meas_fst phi x Hx), (proj2 S phi HC), (meas_fst phi x' Hx') in I1. assert (i = j) as -> by (exact (U _ _ _ I1 J1)).
    rewrite (proj2 S phi HC) in I2. congruence.
  Qed.
  Lemma extreme_ok (arg : option Z -> uqty R -> res nat) axis x z : uq_ok x -> (i <- arg axis x ;; u_at E i x) = Ok z -> uq_ok z /\ qdim (uv z) = qdim (uv x).
  Proof.
    intros Hx H. destruct (arg axis x) as [i|]; [|discriminate]. cbn [bind] in H. destruct (u_at_ok E i x z HE Hx H) as [Hz ->]. split; [exact Hz|reflexivity].
  Qed.
  Lemma rsub_dims x z o : uq_ok x -> operand_ok o -> u_rsub_plain E x o = Ok z -> forall w, exp_of (qdim (uv z)) w = exp_of (qdim (uv x)) w.
  Proof.
    intros Hx Ho H w. unfold u_rsub_plain in H. destruct (scale_other E (uv x) o) as [y|] eqn:Ey; [|discriminate]. cbn [bind] in H.
    destruct (scale_other_spec E (uv x) o y HE (proj1 Hx) Ho Ey) as (He & Hy & _ & _).
    destruct (C65_sub E (u_of_q y) x z HE (uq_ok_of_q y Hy) Hx H) as (_ & -> & _). exact (exp_eqb _ _ (proj2 Hy) (proj2 (proj1 Hx)) He w).
  Qed.
  Lemma same_rsub x o z x' o' : uq_ok x -> uq_ok x' -> operand_ok o -> operand_ok o' -> same x x' -> same_factor E o o' ->
    u_rsub_plain E x o = Ok z -> exists z', u_rsub_plain E x' o' = Ok z' /\ uq_ok z /\ uq_ok z' /\ same z z'.
  Proof.
    intros Hx Hx' Ho Ho' S So H. destruct (proj1 (proj1 (C68_reflected_sub_defined E x o HE Hx Ho)) (ex_intro _ z H)) as [C B].
    assert (Dz : forall o : operand R, operand_ok o -> dims_ok (odims o)) by (intros [q|a] K; [apply K|apply dims_okb_ok; reflexivity]).
    destruct (proj2 (proj1 (C68_reflected_sub_defined E x' o' HE Hx' Ho'))) as [z' H'].
    { rewrite <- (same_shape x x' S), <- (same_fshape o o' So). split; [|exact B].
      apply (convertible_trans E _ (odims o)); [apply convertible_sym; auto; apply So|]. apply (convertible_trans E _ (qdim (uv x))); [exact C|apply S]. }
    exists z'. destruct (C68_reflected_sub E x z o HE Hx Ho H) as [Hz M]. destruct (C68_reflected_sub E x' z' o' HE Hx' Ho' H') as [Hz' M'].
    split; [exact H'|]. split; [exact Hz|]. split; [exact Hz'|]. split.
    - apply (convertible_trans E _ (qdim (uv x))); [apply convertible_exp; [apply Hz|apply Hx|exact (rsub_dims x z o Hx Ho H)]|].
      apply (convertible_trans E _ (qdim (uv x'))); [apply S|]. apply convertible_exp; [apply Hx'|apply Hz'|]. intros w. symmetry. exact (rsub_dims x' z' o' Hx' Ho' H' w).
    - intros phi HC. specialize (M phi HC). specialize (M' phi HC). rewrite (proj2 S phi HC), (proj2 So phi HC) in M. congruence.
  Qed.
  Lemma same_factor_nonzero o o' : operand_ok o -> operand_ok o' -> same_factor E o o' -> Forall (fun t => t <> 0) (dat (odat o)) -> Forall (fun t => t <> 0) (dat (odat o')).
  Proof.
    intros Ho Ho' [_ S] F. destruct (consistent_exists E HE) as [phi HC]. specialize (S phi HC). rewrite !ophys_odat in S.
    apply (f_equal (@dat R)) in S. cbn [amap dat] in S. rewrite Forall_forall in F. apply Forall_forall. intros t Ht X. subst t.
    assert (Y : In (0 * dimval phi (odims o')) (map (fun v => v * dimval phi (odims o')) (dat (odat o')))) by (now apply (in_map (fun v => v * dimval phi (odims o')))).
    rewrite <- S in Y. apply in_map_iff in Y. destruct Y as (s & Es & Is). apply (F s Is). rewrite Rmult_0_l in Es.
    apply Rmult_integral in Es. destruct Es as [Es|Es]; [exact Es|]. pose proof (dimval_pos phi (odims o)). lra.
  Qed.
End C129.

(** Any program: if it computes a result from some measurements and factors, it computes from
    the same ones in other units a result with the same values and the same uncertainties. *)
Theorem C129_unit_independent : forall E xs xs' cs cs' p z, renv_ok E ->
  Forall uq_ok xs -> Forall uq_ok xs' -> Forall operand_ok cs -> Forall operand_ok cs' ->
  Forall2 (same_measurements E) xs xs' -> Forall2 (same_factor E) cs cs' ->
  regular E xs cs p -> uprog_run E xs cs p = Ok z ->
  exists z', uprog_run E xs' cs' p = Ok z' /\ uq_ok z /\ uq_ok z' /\ same_measurements E z z'.
Proof.
  intros E xs xs' cs cs' p z HE Gx Gx' Gc Gc' Sx Sc. revert z.
  assert (CN : forall j c, nth_error cs j = Some c -> exists c', nth_error cs' j = Some c' /\ operand_ok c /\ operand_ok c' /\ same_factor E c c').
  { clear - Gc Gc' Sc. induction Sc as [|a b l l' S1 S2 IH]; intros [|j] c H; try discriminate; inversion Gc; inversion Gc'; subst; cbn in *.
    - injection H as <-. eauto 8.
    - now apply IH. }
  induction p as [i|a IHa b IHb|a IHa b IHb|a IHa b IHb|a IHa b IHb|a IHa j|a IHa j|j a IHa|j a IHa|a IHa|a IHa n|a IHa|k a IHa|k a IHa|k a IHa|k a IHa];
    intros z Hr H; cbn [uprog_run regular] in *.
  - revert i z H. clear - Gx Gx' Sx. induction Sx as [|a b l l' S1 S2 IH]; intros [|i] z H; try discriminate; inversion Gx; inversion Gx'; subst; cbn in *.
    + injection H as <-. eauto 8.
    + now apply IH.
  - destruct (uprog_run E xs cs a) as [x|] eqn:Ea; [|discriminate]. destruct (uprog_run E xs cs b) as [y|] eqn:Eb; [|discriminate]. cbn [bind] in H.
    destruct (IHa x (proj1 Hr) eq_refl) as (x' & -> & Ox & Ox' & Sa). destruct (IHb y (proj2 Hr) eq_refl) as (y' & -> & Oy & Oy' & Sb). cbn [bind].
    refine (same_sum E HE rule_add (u_add E) x y z x' y' _ _ Ox Oy Ox' Oy' Sa Sb H).
    + intros u v w Hu Hv Hw. exact (C65_add E u v w HE Hu Hv Hw).
    + intros u v Hu Hv. exact (proj1 (C65_add_defined E u v HE Hu Hv)).
  - destruct (uprog_run E xs cs a) as [x|] eqn:Ea; [|discriminate]. destruct (uprog_run E xs cs b) as [y|] eqn:Eb; [|discriminate]. cbn [bind] in H.
    destruct (IHa x (proj1 Hr) eq_refl) as (x' & -> & Ox & Ox' & Sa). destruct (IHb y (proj2 Hr) eq_refl) as (y' & -> & Oy & Oy' & Sb). cbn [bind].
    refine (same_sum E HE rule_sub (u_sub E) x y z x' y' _ _ Ox Oy Ox' Oy' Sa Sb H).
    + intros u v w Hu Hv Hw. exact (C65_sub E u v w HE Hu Hv Hw).
    + intros u v Hu Hv. exact (proj1 (proj2 (C65_add_defined E u v HE Hu Hv))).
  - destruct (uprog_run E xs cs a) as [x|] eqn:Ea; [|discriminate]. destruct (uprog_run E xs cs b) as [y|] eqn:Eb; [|discriminate]. cbn [bind] in H.
    destruct Hr as ((Ra & Na) & Rb & Nb).
    destruct (IHa x Ra eq_refl) as (x' & -> & Ox & Ox' & Sa). destruct (IHb y Rb eq_refl) as (y' & -> & Oy & Oy' & Sb). cbn [bind].
    refine (same_prod E HE Rmult RMul rule_mul u_mul x y z x' y' pk_mul (fun _ _ => eq_refl) _ _ Ox Oy Ox' Oy' Sa Sb (Na x eq_refl) (Nb y eq_refl) H).
    + intros u v w Hu Hv Nu Nv Hw. apply (C65_mul u v w Hu Hv Nu Nv Hw).
    + intros u v Hu Hv. exact (proj1 (C65_mul_defined u v Hu Hv)).
  - destruct (uprog_run E xs cs a) as [x|] eqn:Ea; [|discriminate]. destruct (uprog_run E xs cs b) as [y|] eqn:Eb; [|discriminate]. cbn [bind] in H.
    destruct Hr as ((Ra & Na) & Rb & Nb).
    destruct (IHa x Ra eq_refl) as (x' & -> & Ox & Ox' & Sa). destruct (IHb y Rb eq_refl) as (y' & -> & Oy & Oy' & Sb). cbn [bind].
    refine (same_prod E HE Rdiv RDiv rule_div u_div x y z x' y' pk_div (fun _ _ => eq_refl) _ _ Ox Oy Ox' Oy' Sa Sb (Na x eq_refl) (Nb y eq_refl) H).
    + intros u v w Hu Hv Nu Nv Hw. apply (C65_div u v w Hu Hv Nu Nv Hw).
    + intros u v Hu Hv. exact (proj2 (C65_mul_defined u v Hu Hv)).
  - destruct (uprog_run E xs cs a) as [x|] eqn:Ea; [|discriminate]. cbn [bind] in H. destruct (nth_error cs j) as [c|] eqn:Ec; [|discriminate]. cbn [bind] in H.
    destruct (IHa x Hr eq_refl) as (x' & -> & Ox & Ox' & Sa). destruct (CN j c Ec) as (c' & -> & Oc & Oc' & Sf). cbn [bind]. rewrite u_mul_plain_eq in *.
    exact (same_plain E HE Rmult RMul x c z x' c' pk_mul Ox Ox' Oc Oc' Sa Sf H).
  - destruct (uprog_run E xs cs a) as [x|] eqn:Ea; [|discriminate]. cbn [bind] in H. destruct (nth_error cs j) as [c|] eqn:Ec; [|discriminate]. cbn [bind] in H.
    destruct (IHa x (proj1 Hr) eq_refl) as (x' & -> & Ox & Ox' & Sa). destruct (CN j c Ec) as (c' & -> & Oc & Oc' & Sf). cbn [bind]. rewrite u_div_plain_eq in *.
    exact (same_plain E HE Rdiv RDiv x c z x' c' pk_div Ox Ox' Oc Oc' Sa Sf H).
  - destruct (uprog_run E xs cs a) as [x|] eqn:Ea; [|discriminate]. cbn [bind] in H. destruct (nth_error cs j) as [c|] eqn:Ec; [|discriminate]. cbn [bind] in H.
    destruct (IHa x (proj1 Hr) eq_refl) as (x' & -> & Ox & Ox' & Sa). destruct (CN j c Ec) as (c' & -> & Oc & Oc' & Sf). cbn [bind].
    rewrite u_rdiv_plain_eq in H |- * by assumption.
    apply (same_plain E HE Rmult RMul (u_inv_temp x) c z (u_inv_temp x') c' pk_mul (u_inv_temp_ok x Ox) (u_inv_temp_ok x' Ox') Oc Oc'); [|exact Sf|exact H].
    split; [apply (conv_pow E HE _ _ (PInt (-1))), Sa|]. intros phi HC. rewrite !meas_inv_temp, (proj2 Sa phi HC) by assumption. reflexivity.
  - destruct (uprog_run E xs cs a) as [x|] eqn:Ea; [|discriminate]. cbn [bind] in H. destruct (nth_error cs j) as [c|] eqn:Ec; [|discriminate]. cbn [bind] in H.
    destruct (IHa x Hr eq_refl) as (x' & -> & Ox & Ox' & Sa). destruct (CN j c Ec) as (c' & -> & Oc & Oc' & Sf). cbn [bind].
    exact (same_rsub E HE x c z x' c' Ox Ox' Oc Oc' Sa Sf H).
  - destruct (uprog_run E xs cs a) as [x|] eqn:Ea; [|discriminate]. cbn [bind] in H.
    destruct (IHa x Hr eq_refl) as (x' & -> & Ox & Ox' & Sa). cbn [bind]. unfold u_neg in *. rewrite u_mul_plain_eq in *.
    apply (same_plain E HE Rmult RMul x (OArr (scalar (nneg n1))) z x' _ pk_mul Ox Ox'); [reflexivity|reflexivity|exact Sa|split; [apply convertible_refl|reflexivity]|exact H].
  - destruct (uprog_run E xs cs a) as [x|] eqn:Ea; [|discriminate]. cbn [bind] in H. destruct Hr as (Ra & Na).
    destruct (IHa x Ra eq_refl) as (x' & -> & Ox & Ox' & Sa). cbn [bind]. destruct (Na x eq_refl) as [N1 N2].
    exact (same_pow E HE n x z x' Ox Ox' Sa N1 N2 H).
  - destruct (uprog_run E xs cs a) as [x|] eqn:Ea; [|discriminate]. cbn [bind] in H. destruct Hr as (Ra & Na).
    destruct (IHa x Ra eq_refl) as (x' & -> & Ox & Ox' & Sa). cbn [bind]. specialize (Na x eq_refl). cbv beta in Na.
    refine (same_pow E HE p_half x z x' Ox Ox' Sa _ _ H).
    + refine (Forall_impl _ _ Na). intros v Hv X. lra.
    + refine (Forall_impl _ _ Na). intros v Hv. now left.
  - destruct (uprog_run E xs cs a) as [x|] eqn:Ea; [|discriminate]. cbn [bind] in H.
    destruct (IHa x Hr eq_refl) as (x' & -> & Ox & Ox' & Sa). cbn [bind]. exact (same_sums E HE k x z x' Ox Ox' Sa H).
  - destruct (uprog_run E xs cs a) as [x|] eqn:Ea; [|discriminate]. cbn [bind] in H.
    destruct (IHa x Hr eq_refl) as (x' & -> & Ox & Ox' & Sa). cbn [bind]. exact (same_means E HE k x z x' Ox Ox' Sa H).
  - destruct (uprog_run E xs cs a) as [x|] eqn:Ea; [|discriminate]. cbn [bind] in H.
    destruct (IHa x Hr eq_refl) as (x' & -> & Ox & Ox' & Sa). cbn [bind].
    refine (same_extreme E HE (u_max E) first_max k x z x' first_max_same _ _ _ Ox Ox' Sa H).
    + intros u v phi Hu. apply (proj1 (C86_max_min E k u v phi HE Hu)).
    + intros u v Hu Hv. exact (extreme_ok E HE (@u_argmax R NumR) k u v Hu Hv).
    + intros u Hu. apply (proj1 (C86_defined E k u HE Hu)).
  - destruct (uprog_run E xs cs a) as [x|] eqn:Ea; [|discriminate]. cbn [bind] in H.
    destruct (IHa x Hr eq_refl) as (x' & -> & Ox & Ox' & Sa). cbn [bind].
    refine (same_extreme E HE (u_min E) first_min k x z x' first_min_same _ _ _ Ox Ox' Sa H).
    + intros u v phi Hu. apply (proj2 (C86_max_min E k u v phi HE Hu)).
    + intros u v Hu Hv. exact (extreme_ok E HE (@u_argmin R NumR) k u v Hu Hv).
    + intros u Hu. apply (proj1 (proj2 (C86_defined E k u HE Hu))).
Qed.
Example C129_example :
  let xs := [ex_um 2 3 d_m; ex_um 5 1 d_cm] in let xs' := [ex_um 200 300 d_cm; ex_um (5 / 100) (1 / 100) d_m] in
  let p := PAdd (PMul (PVar 0) (PVar 1)) (PMul (PVar 1) (PVar 0)) in
  Forall uq_ok xs /\ Forall uq_ok xs' /\ Forall2 (same_measurements exE) xs xs' /\ regular exE xs [] p /\ exists z, uprog_run exE xs [] p = Ok z.
Proof.
  assert (D1 := d_m_ok). assert (D2 : dims_ok d_cm) by (apply dims_okb_ok; reflexivity).
  assert (O : forall v s d, dims_ok d -> uq_ok (ex_um v s d)) by (intros; now apply ex_um_ok).
  assert (Cmc : converts exE d_m d_cm 100) by (intros phi HC; rewrite (ex_cm_size phi HC); lra).
  assert (Ccm : converts exE d_cm d_m (1 / 100)) by (intros phi HC; exact (ex_cm_size phi HC)).
  assert (Nz : forall v s d, v <> 0 -> nonzero_values (ex_um v s d)) by (intros v s d H; constructor; [exact H|constructor]).
  cbv zeta. split; [constructor; [now apply O|constructor; [now apply O|constructor]]|]. split; [constructor; [now apply O|constructor; [now apply O|constructor]]|]. split; [|split].
  - constructor; [|constructor; [|constructor]]; (split; [eexists; eassumption|]); intros phi HC; rewrite !ex_um_meas, (ex_cm_size phi HC); unfold scalar; do 3 f_equal; lra.
  - cbn [regular uprog_run nth_error]. repeat split; intros x X; apply Ok_inj in X; subst x; apply Nz; lra.
  - cbn [uprog_run nth_error bind]. set (x := ex_um 2 3 d_m). set (y := ex_um 5 1 d_cm).
    assert (Hx : uq_ok x) by now apply O. assert (Hy : uq_ok y) by now apply O. assert (Nx : nonzero_values x) by (apply Nz; lra). assert (Ny : nonzero_values y) by (apply Nz; lra).
    destruct (proj2 (proj1 (C65_mul_defined x y Hx Hy)) broadcast_scalar) as [a Ha]. destruct (proj2 (proj1 (C65_mul_defined y x Hy Hx)) broadcast_scalar) as [b Hb].
    rewrite Ha, Hb. cbn [bind]. destruct (C65_mul x y a Hx Hy Nx Ny Ha) as (Oa & Ea & Ma). destruct (C65_mul y x b Hy Hx Ny Nx Hb) as (Ob & Eb & Mb).
    apply (proj1 (C65_add_defined exE a b exE_ok Oa Ob)). split.
    + apply convertible_exp; [apply Ob|apply Oa|]. intros w. rewrite Ea, Eb. ring.
    + specialize (Ma (fun _ => 1)). specialize (Mb (fun _ => 1)). unfold x, y in Ma, Mb. rewrite !ex_um_meas in Ma, Mb.
      apply Ok_inj in Ma. apply Ok_inj in Mb. apply (f_equal (@shp _)) in Ma. apply (f_equal (@shp _)) in Mb.
      change ([] = shp (mag (uv a))) in Ma. change ([] = shp (mag (uv b))) in Mb. rewrite <- Ma, <- Mb. exact broadcast_scalar.
Qed.

Print Assumptions C129_unit_independent.
