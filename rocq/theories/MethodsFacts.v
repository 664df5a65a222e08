(** * MethodsFacts: lemmas about array methods. *)
From Coq Require Import Reals Lra Lia.
From Verif Require Import Py Num Dim DimFacts Arr ArrFacts Lanes Units Spec UnitFacts Quant QuantFacts Ufunc Ops OpsFacts Methods.

Open Scope R_scope.

(** ** Mathematical meaning of the lane functions (specification) *)
Definition Rsum (l : list R) : R := fold_right Rplus 0 l.
Definition Rprod (l : list R) : R := fold_right Rmult 1 l.
Definition is_max (l : list R) (m : R) : Prop := In m l /\ forall x, In x l -> x <= m.
Definition is_min (l : list R) (m : R) : Prop := In m l /\ forall x, In x l -> m <= x.
Definition Rmean (l : list R) : R := Rsum l / INR (length l).
Definition Rvar (ddof : nat) (l : list R) : R :=
  Rsum (map (fun x => (x - Rmean l) * (x - Rmean l)) l) / INR (length l - ddof).

Lemma Rsum_cons x l : Rsum (x :: l) = x + Rsum l.
Proof. reflexivity. Qed.
Lemma Rprod_cons x l : Rprod (x :: l) = x * Rprod l.
Proof. reflexivity. Qed.
Lemma fold_left_plus l : forall acc, fold_left Rplus l acc = acc + Rsum l.
Proof. induction l as [|x l IH]; intros acc; cbn; [lra|]. rewrite IH. fold (Rsum l). ring. Qed.
Lemma lsum_Rsum (l : list R) : lsum l = Rsum l.
Proof. unfold lsum. cbn [nadd NumR n0]. rewrite fold_left_plus. lra. Qed.
Lemma fold_left_mult l : forall acc, fold_left Rmult l acc = acc * Rprod l.
Proof. induction l as [|x l IH]; intros acc; cbn; [lra|]. rewrite IH. fold (Rprod l). ring. Qed.
Lemma lprod_Rprod (l : list R) : lprod l = Rprod l.
Proof. unfold lprod. cbn [nmul NumR n1]. rewrite fold_left_mult. lra. Qed.
Lemma nofnat_INR n : nofnat (A := R) n = INR n.
Proof. unfold nofnat. cbn [nofQ NumR]. rewrite Qc2R_Z. now rewrite <- INR_IZR_INZ. Qed.
Lemma lmean_Rmean (l : list R) : lmean l = Rmean l.
Proof. unfold lmean, Rmean. rewrite lsum_Rsum, nofnat_INR. reflexivity. Qed.
Lemma lvar_Rvar dd (l : list R) : lvar dd l = Rvar dd l.
Proof.
  unfold lvar, Rvar. rewrite lsum_Rsum, nofnat_INR. cbn [ndiv NumR nmul nsub]. do 2 f_equal. apply map_ext. intros x.
  now rewrite lmean_Rmean.
Qed.
Lemma lmax_is_max (l : list R) : l <> [] -> is_max l (lmax l).
Proof.
  destruct l as [|x l]; [congruence|]. intros _. cbn [lmax].
  assert (G : forall l (acc : R), (acc = fold_left nmax l acc \/ In (fold_left nmax l acc) l) /\
     acc <= fold_left nmax l acc /\ forall y, In y l -> y <= fold_left nmax l acc).
  { clear. induction l as [|x l IH]; intros acc; cbn [fold_left].
    - split; [now left|]. split; [lra|]. intros y [].
    - destruct (IH (nmax acc x)) as (I1 & I2 & I3). unfold nmax in I1, I2, I3 |- *. cbn [nltb NumR] in *.
      destruct (Rltb acc x) eqn:X.
      + apply Rltb_true in X. split; [destruct I1 as [I1|I1]; right; [left; auto|right; auto]|].
        split; [lra|]. intros y [<-|Hy]; auto.
      + apply Rltb_false in X. split; [destruct I1 as [I1|I1]; [left; auto|right; right; auto]|].
        split; [auto|]. intros y [<-|Hy]; auto. lra. }
  destruct (G l x) as (I1 & I2 & I3). split.
  - destruct I1 as [I1|I1]; [left; congruence|right; auto].
  - intros y [<-|Hy]; auto.
Qed.
Lemma lmin_is_min (l : list R) : l <> [] -> is_min l (lmin l).
Proof.
  destruct l as [|x l]; [congruence|]. intros _. cbn [lmin].
  assert (G : forall l (acc : R), (acc = fold_left nmin l acc \/ In (fold_left nmin l acc) l) /\
     fold_left nmin l acc <= acc /\ forall y, In y l -> fold_left nmin l acc <= y).
  { clear. induction l as [|x l IH]; intros acc; cbn [fold_left].
    - split; [now left|]. split; [lra|]. intros y [].
    - destruct (IH (nmin acc x)) as (I1 & I2 & I3). unfold nmin in I1, I2, I3 |- *. cbn [nltb NumR] in *.
      destruct (Rltb x acc) eqn:X.
      + apply Rltb_true in X. split; [destruct I1 as [I1|I1]; right; [left; auto|right; auto]|].
        split; [lra|]. intros y [<-|Hy]; auto.
      + apply Rltb_false in X. split; [destruct I1 as [I1|I1]; [left; auto|right; right; auto]|].
        split; [auto|]. intros y [<-|Hy]; auto. lra. }
  destruct (G l x) as (I1 & I2 & I3). split.
  - destruct I1 as [I1|I1]; [left; congruence|right; auto].
  - intros y [<-|Hy]; auto.
Qed.

(** ** Homogeneity of the lane functions *)
Definition scale (v : R) (l : list R) : list R := map (fun x => x * v) l.
Lemma scale_cons v x l : scale v (x :: l) = x * v :: scale v l.
Proof. reflexivity. Qed.
Lemma Rsum_scale v l : Rsum (scale v l) = Rsum l * v.
Proof. induction l as [|x l IH]; [cbn; ring|]. rewrite scale_cons, !Rsum_cons, IH. ring. Qed.
Lemma Rprod_scale v l : Rprod (scale v l) = Rprod l * v ^ length l.
Proof. induction l as [|x l IH]; [cbn; ring|]. rewrite scale_cons, !Rprod_cons, IH. cbn [length pow]. ring. Qed.
Lemma scale_length v l : length (scale v l) = length l.
Proof. apply map_length. Qed.
Lemma Rmean_scale v l : Rmean (scale v l) = Rmean l * v.
Proof. unfold Rmean. rewrite Rsum_scale, scale_length. unfold Rdiv. ring. Qed.
Lemma Rvar_scale dd v l : Rvar dd (scale v l) = Rvar dd l * (v * v).
Proof.
  unfold Rvar. rewrite scale_length, Rmean_scale. unfold scale. rewrite map_map.
  replace (Rsum (map (fun x => (x * v - Rmean l * v) * (x * v - Rmean l * v)) l))
    with (Rsum (map (fun x => (x - Rmean l) * (x - Rmean l)) l) * (v * v)).
  - unfold Rdiv. ring.
  - generalize (Rmean l). intros m. induction l as [|x l IH]; [cbn; ring|]. cbn [map]. rewrite !Rsum_cons, <- IH. ring.
Qed.
Lemma lmax_scale v (l : list R) : 0 < v -> lmax (scale v l) = lmax l * v.
Proof.
  intros Hv. destruct l as [|x l]; cbn [lmax scale map].
  - cbn. ring.
  - revert x. induction l as [|y l IH]; intros x; cbn [map fold_left]; auto.
    fold (scale v l) in *. rewrite <- IH. f_equal. unfold nmax. cbn [nltb NumR].
    assert (X : Rltb (x * v) (y * v) = Rltb x y).
    { apply eq_true_iff_eq. rewrite !Rltb_true. split; intros H; [apply Rmult_lt_reg_r with v|apply Rmult_lt_compat_r]; auto. }
    rewrite X. now destruct (Rltb x y).
Qed.
Lemma lmin_scale v (l : list R) : 0 < v -> lmin (scale v l) = lmin l * v.
Proof.
  intros Hv. destruct l as [|x l]; cbn [lmin scale map].
  - cbn. ring.
  - revert x. induction l as [|y l IH]; intros x; cbn [map fold_left]; auto.
    fold (scale v l) in *. rewrite <- IH. f_equal. unfold nmin. cbn [nltb NumR].
    assert (X : Rltb (y * v) (x * v) = Rltb y x).
    { apply eq_true_iff_eq. rewrite !Rltb_true. split; intros H; [apply Rmult_lt_reg_r with v|apply Rmult_lt_compat_r]; auto. }
    rewrite X. now destruct (Rltb y x).
Qed.
Lemma red_fun_scale op v (l : list R) : 0 < v -> red_fun op (scale v l) = red_fun op l * v.
Proof.
  intros Hv. destruct op; cbn [red_fun].
  - rewrite !lsum_Rsum. apply Rsum_scale.
  - rewrite !lmean_Rmean. apply Rmean_scale.
  - now apply lmax_scale.
  - now apply lmin_scale.
  - unfold lptp. rewrite lmax_scale, lmin_scale by auto. cbn. ring.
  - unfold lstd. rewrite !lvar_Rvar, Rvar_scale. cbn [nsqrt NumR].
    assert (V0 : 0 <= Rvar ddof l).
    { unfold Rvar. assert (S : 0 <= Rsum (map (fun x => (x - Rmean l) * (x - Rmean l)) l)).
      { generalize (Rmean l). intros m. induction l as [|x l IH]; [cbn; lra|]. cbn [map]. rewrite Rsum_cons. pose proof (Rle_0_sqr (x - m)). unfold Rsqr in *. lra. }
      destruct (Req_dec (INR (length l - ddof)) 0) as [->|Hn].
      - unfold Rdiv. rewrite Rinv_0. lra.
      - pose proof (pos_INR (length l - ddof)). apply Rmult_le_pos; auto. left. apply Rinv_0_lt_compat. lra. }
    rewrite sqrt_mult by (auto; apply Rmult_le_pos; lra). now rewrite sqrt_square by lra.
Qed.
Lemma largcmp_scale (cmp : R -> R -> bool) v : (forall a b, cmp (a * v) (b * v) = cmp a b) ->
  forall l best ib i, larg cmp (best * v) ib i (scale v l) = larg cmp best ib i l.
Proof.
  intros H. induction l as [|x l IH]; intros best ib i; cbn [larg scale map]; auto.
  fold (scale v l). rewrite H. destruct (cmp x best); apply IH.
Qed.
Lemma Rltb_scale v a b : 0 < v -> Rltb (a * v) (b * v) = Rltb a b.
Proof.
  intros Hv. apply eq_true_iff_eq. rewrite !Rltb_true.
  split; intros H; [apply Rmult_lt_reg_r with v|apply Rmult_lt_compat_r]; auto.
Qed.
Lemma Rleb_scale v a b : 0 < v -> Rleb (a * v) (b * v) = Rleb a b.
Proof.
  intros Hv. apply eq_true_iff_eq. rewrite !Rleb_true.
  split; intros H; [apply Rmult_le_reg_r with v|apply Rmult_le_compat_r; lra]; auto.
Qed.

(** ** Axes *)
(** Which axis an argument means: [k] itself or, if negative, counted from the end. *)
Definition axis_means (ndim : nat) (k : Z) (ax : nat) : Prop :=
  (ax < ndim)%nat /\ (Z.of_nat ax = k \/ (k < 0 /\ Z.of_nat ax = k + Z.of_nat ndim))%Z.
Lemma norm_axis_spec ndim axis r : norm_axis ndim axis = Ok r ->
  match axis with None => r = None | Some k => exists ax, r = Some ax /\ axis_means ndim k ax end.
Proof.
  destruct axis as [k|]; cbn; [|now intros [= <-]].
  set (z := if (k <? 0)%Z then (k + Z.of_nat ndim)%Z else k).
  destruct ((0 <=? z) && (z <? Z.of_nat ndim))%Z eqn:X; [|discriminate]. intros [= <-].
  apply andb_true_iff in X. destruct X as [X1 X2]. apply Z.leb_le in X1. apply Z.ltb_lt in X2.
  exists (Z.to_nat z). split; auto. split; [lia|]. rewrite Z2Nat.id by auto. unfold z in *.
  destruct (k <? 0)%Z eqn:Y; [right|left]; auto. apply Z.ltb_lt in Y. lia.
Qed.
Lemma norm_axis_complete ndim k ax : axis_means ndim k ax -> norm_axis ndim (Some k) = Ok (Some ax).
Proof.
  intros [H1 H2]. cbn. set (z := if (k <? 0)%Z then (k + Z.of_nat ndim)%Z else k).
  assert (Z : z = Z.of_nat ax).
  { unfold z. destruct (k <? 0)%Z eqn:Y; [apply Z.ltb_lt in Y|apply Z.ltb_ge in Y]; lia. }
  rewrite Z. assert (X : ((0 <=? Z.of_nat ax) && (Z.of_nat ax <? Z.of_nat ndim))%Z = true).
  { apply andb_true_iff. split; [apply Z.leb_le|apply Z.ltb_lt]; lia. }
  rewrite X, Nat2Z.id. reflexivity.
Qed.
Lemma norm_axis_err ndim axis e : norm_axis ndim axis = Err e -> e = ValueError.
Proof. destruct axis; cbn; [|discriminate]. destruct (_ && _)%bool; [discriminate|]. now intros [= <-]. Qed.

(** The elements along an axis (or all of them) at a position of the result. *)
Definition lane_of {A} (a : arr A) (axis : option Z) (idx : list nat) (lane : list A) : Prop :=
  match axis with
  | None => lane = dat a
  | Some k => exists ax, axis_means (length (shp a)) k ax /\ is_lane a ax idx lane
  end.
Lemma areduce_lane {A B} (f : list A -> B) (a : arr A) axis ax r idx :
  awf a -> norm_axis (length (shp a)) axis = Ok ax -> areduce f ax a = Ok r -> in_range (shp r) idx ->
  exists lane, lane_of a axis idx lane /\ aget r idx = Some (f lane).
Proof.
  intros W Hn Hr HR. apply norm_axis_spec in Hn. destruct axis as [k|].
  - destruct Hn as (ax' & -> & Hm). destruct (areduce_get f ax' W Hr HR) as (lane & L1 & L2).
    exists lane. split; auto. exists ax'. auto.
  - subst ax. apply areduce_all in Hr. subst r. cbn [shp scalar] in HR. inversion HR; subst.
    exists (dat a). split; [reflexivity|]. reflexivity.
Qed.
Lemma is_lane_length {A} (a : arr A) ax idx lane : is_lane a ax idx lane -> length lane = nth ax (shp a) 0%nat.
Proof. intros [H _]. symmetry. apply nth_error_nth with (d := 0%nat) in H. exact H. Qed.
Lemma lane_of_length {A} (a : arr A) axis ax idx lane : norm_axis (length (shp a)) axis = Ok ax ->
  lane_of a axis idx lane -> length lane = lane_length ax a.
Proof.
  intros Hn HL. destruct axis as [k|].
  - destruct HL as (ax' & M & L). rewrite (norm_axis_complete _ _ _ M) in Hn. injection Hn as <-. cbn. now apply is_lane_length with idx.
  - apply norm_axis_spec in Hn. subst ax. cbn in *. now subst.
Qed.
Lemma lane_length_map {A B} (f : A -> B) ax (a : arr A) : lane_length ax (amap f a) = lane_length ax a.
Proof. destruct ax; cbn; auto. apply map_length. Qed.

(** ** The scheme of reductions that multiply the units by a power *)
Lemma areduce_phys (f : list R -> R) ax (q : qty R) m phi d' : awf (mag q) ->
  (forall l, length l = lane_length ax (mag q) -> f (scale (dimval phi (qdim q)) l) = f l * dimval phi d') ->
  areduce f ax (mag q) = Ok m -> areduce f ax (phys phi q) = Ok (phys phi (Qty m d')).
Proof.
  intros W H Hm. unfold phys at 1. rewrite areduce_amap.
  assert (X : areduce (fun l => f (map (fun x => x * dimval phi (qdim q)) l)) ax (mag q) = areduce (fun l => f l * dimval phi d') ax (mag q)).
  { destruct ax as [i|].
    - destruct (nth_error (shp (mag q)) i) as [n|] eqn:En.
      + apply areduce_ext_axis with n; auto. intros l Hl _. apply H. cbn. rewrite Hl. symmetry. exact (nth_error_nth _ _ 0%nat En).
      + apply nth_error_None in En. destruct (areduce f (Some i) (mag q)) eqn:X; [|discriminate].
        assert (Y : exists r, areduce f (Some i) (mag q) = Ok r) by eauto. apply areduce_ok_iff in Y. lia.
    - cbn. unfold scalar. do 3 f_equal. now apply H. }
  rewrite X. rewrite <- (rmap_areduce f (fun z => z * dimval phi d')), Hm. reflexivity.
Qed.
Lemma areduce_err {A B} (f : list A -> B) ax a e : areduce f ax a = Err e -> e = ValueError.
Proof.
  destruct ax; cbn; [|discriminate]. destruct (split_axis (shp a) n) as [[[? ?] ?]|]; [discriminate|]. now intros [= <-].
Qed.
Lemma norm_axis_areduce {A B} (f : list A -> B) (a : arr A) axis ax :
  norm_axis (length (shp a)) axis = Ok ax -> exists r, areduce f ax a = Ok r.
Proof.
  intros H. apply norm_axis_spec in H. destruct axis as [k|].
  - destruct H as (i & -> & M). apply areduce_ok_iff. apply M.
  - subst. eexists. reflexivity.
Qed.
