(** * LibDouble: creating the units of a table in double precision with its range.

    The checker of TableFacts.v is extended with a count that bounds the roundings and the
    binary exponents of everything computed in the definitions; it refuses when the count
    exceeds 1000.  Where it does not, the run in doubles meets no overflow and no subnormal
    number, and it stays close to the exact run (as in LibFloat.v without limits). *)
From Coq Require Import Reals Lra Lia Qreals Qabs Ascii NArith.
From Verif Require Import Py Num Dim DimFacts Arr Units Spec UnitFacts Quant QuantFacts Ufunc Ops OpsFacts
     Text Markup Lex LexFacts Registry RegFacts RegEq UncertFacts SpecPickle PickleFacts HistFacts Table Import TableFacts
     Float SpecFloat FloatFacts LibFloat Double SpecDouble DoubleFacts.

Open Scope list_scope.
Open Scope R_scope.

(** ** Counting *)
(** Specification-level: a bound of the binary logarithm of a positive literal, at least one. *)
Definition lc (p : pynum) : Q :=
  let n := Qnum (this (pval p)) in let d := Zpos (Qden (this (pval p))) in
  inject_Z (Z.max 1 (Z.max (Z.log2_up n - Z.log2 d) (Z.log2_up d - Z.log2 n))).
(** Specification-level: counts are at most 1000. *)
Definition capq (q : Q) : option Q := if Qle_bool q 1000 then Some q else None.
(** Specification-level: the count of an operand. *)
Definition opk (s : sval) (k : Q) : Q := match s with SNum p => lc p | _ => k end.
(** Specification-level: the count of an expression of the table (each operation adds one; powers multiply). *)
Fixpoint dcst (sh : sstate) (e : expr) : option Q :=
  match e with
  | EName _ => Some 0%Q
  | ENum _ => Some 0%Q
  | EUn UNeg (ENum _) => Some 0%Q
  | EBin BMul a b | EBin BDiv a b =>
      match seval sh a, seval sh b, dcst sh a, dcst sh b with
      | Some s, Some t, Some x, Some y => capq (Qred (opk s x + opk t y + 1))
      | _, _, _, _ => None
      end
  | EBin BPow a b =>
      match seval sh a, lit b, dcst sh a with
      | Some s, Some p, Some x => capq (Qred (Qabs (this (pval p)) * opk s x + 3))
      | _, _, _ => None
      end
  | _ => None
  end%Q.
(** Specification-level: the count of a unit is at most 900. *)
Definition capd (q : Q) : option Q := if Qle_bool q 900 then Some q else None.
(** Specification-level: the count of a definition with value [s]. *)
Definition ddcost (W : counts) (s : sval) (k : Q) : option Q :=
  match s with
  | SNum p => capd (Qred (lc p + 1))
  | SUnit _ u => Some (wq W u)
  | SQty _ d => capd (Qred (qroundings W d + k + 1))
  end%Q.
(** Specification-level: the count of a definition given as an expression. *)
Definition ddefcost (sh : sstate) (W : counts) (x : expr) : option Q :=
  match seval sh x, dcst sh x with Some s, Some k => ddcost W s k | _, _ => None end.
(** Specification-level: the count of a unit of the table. *)
Definition dcount (parse : text -> res expr) (sh : sstate) (W : counts) (e : tentry) : option Q :=
  if nodupb (entry_names e) then
  match e with
  | TNew c name None sym usym al => Some 0%Q
  | TNew c name (Some x) sym usym al => ddefcost sh W x
  | TComp name => match parse (preprocess (T name)) with Ok x => ddefcost sh W x | Err _ => None end
  end else None.
(** Specification-level: the checker, along the table. *)
Fixpoint drun (parse : text -> res expr) (sh : sstate) (W : counts) (l : list tentry) : option (sstate * counts) :=
  match l with
  | [] => Some (sh, W)
  | e :: l' => match sstep parse sh e, dcount parse sh W e with
               | Some sh', Some k => drun parse sh' (W ++ [(entry_uid e, k)]) l'
               | _, _ => None
               end
  end.

(** ** Soundness *)
Lemma capq_ok q k : capq q = Some k -> k = q /\ Q2R q <= 1000.
Proof.
  unfold capq. destruct (Qle_bool q 1000) eqn:E; [|discriminate]. intros H. split; [congruence|].
  apply Qle_bool_iff, Qle_Rle in E. replace (Q2R 1000) with 1000 in E by (unfold Q2R; cbn; lra). exact E.
Qed.
Lemma capd_ok q k : capd q = Some k -> k = q /\ Q2R q <= 900.
Proof.
  unfold capd. destruct (Qle_bool q 900) eqn:E; [|discriminate]. intros H. split; [congruence|].
  apply Qle_bool_iff, Qle_Rle in E. replace (Q2R 900) with 900 in E by (unfold Q2R; cbn; lra). exact E.
Qed.
Lemma ln_2z z : (0 <= z)%Z -> ln (IZR (2 ^ z)) = IZR z * ln 2.
Proof.
  intros H. rewrite <- (Z2Nat.id z) at 1 by auto. rewrite <- pow_IZR, <- Rpower_pow by lra. unfold Rpower. rewrite ln_exp, INR_IZR_INZ, Z2Nat.id by auto. reflexivity.
Qed.
Lemma ln_log2 n : (0 < n)%Z -> IZR (Z.log2 n) * ln 2 <= ln (IZR n) <= IZR (Z.log2_up n) * ln 2.
Proof.
  intros H. pose proof (Z.log2_nonneg n). pose proof (Z.log2_up_nonneg n). rewrite <- !ln_2z by auto. split; apply ln_le'.
  - apply IZR_lt. lia.
  - apply IZR_le. apply Z.log2_spec. exact H.
  - now apply IZR_lt.
  - apply IZR_le. destruct (Z.eq_dec n 1) as [->|N1]; [cbn; lia|]. apply Z.log2_up_spec. lia.
Qed.
Lemma Q2R_Z z : Q2R (inject_Z z) = IZR z.
Proof. unfold Q2R, inject_Z; cbn. lra. Qed.
Lemma lc_ge p : 1 <= Q2R (lc p).
Proof. unfold lc. rewrite Q2R_Z. apply IZR_le. apply Z.le_max_l. Qed.
Lemma lc_ok p : ppos p = true -> Rabs (ln (Qc2R (pval p))) <= Q2R (lc p) * ln 2.
Proof.
  intros H. unfold ppos in H. apply Z.ltb_lt in H. unfold lc. set (n := Qnum (this (pval p))) in *. set (d := Zpos (Qden (this (pval p)))).
  assert (Hd : (0 < d)%Z) by reflexivity. pose proof ln2_pos.
  rewrite Q2R_Z.
  replace (ln (Qc2R (pval p))) with (ln (IZR n) - ln (IZR d)).
  2:{ unfold Qc2R, Q2R. fold n. fold d. rewrite ln_mult, ln_Rinv; try lra; try (apply Rinv_0_lt_compat); now apply IZR_lt. }
  pose proof (ln_log2 n H) as [A1 A2]. pose proof (ln_log2 d Hd) as [B1 B2].
  set (m := Z.max 1 _).
  assert (M1 : IZR (Z.log2_up n - Z.log2 d) <= IZR m) by (apply IZR_le; unfold m; lia).
  assert (M2 : IZR (Z.log2_up d - Z.log2 n) <= IZR m) by (apply IZR_le; unfold m; lia).
  rewrite minus_IZR in M1, M2. apply Rabs_le. split; nra.
Qed.
Lemma nearD_lit p : ppos p = true -> Q2R (lc p) <= 1000 -> nearD (Q2R (lc p)) (rndD (Qc2R (pval p))) (Qc2R (pval p)).
Proof.
  intros H HB. pose proof (lc_ok p H) as HL. pose proof (proj1 (ppos_R p H)) as HP. pose proof ln2_pos. pose proof (lc_ge p).
  exists (rnd (Qc2R (pval p))). split; [apply rndD_ln; auto; nra|]. split; [|exact HL]. apply (near_weaken 1); auto. now apply near_rnd.
Qed.

(** Specification-level: the same unit, with definitions at most [w] roundings apart. *)
Definition omatchD (w : uid -> R) (o : uid * urec (option R)) (o' : uid * urec R) : Prop :=
  fst o = fst o' /\ (ur_ref (snd o) = None <-> ur_ref (snd o') = None) /\
  match ur_ref (snd o), ur_ref (snd o') with
  | Some (a, d), Some (b, d') => d = d' /\ nearD (w (fst o)) a b
  | None, None => True
  | _, _ => False
  end.
(** Specification-level: the states of the two runs. *)
Record lockD (w : uid -> R) (stF : rstate (option R)) (stR : rstate R) (sh : sstate) : Prop := LockD {
  ld_env : Forall2 (omatchD w) (objs stF) (objs stR);
  ld_ctx : forall s, ctx_get stF s = option_map (fun i => VUnit i) (dget teqb (s_ctx sh) s);
  ld_w : forall u, 0 <= w u <= 900;
  ld_dflt : forall c, dflt stF c = dget ucls_eqb (s_dflt sh) c
}.
Lemma lockD_env_near pw w E E' : (forall u, 0 <= w u) -> Forall2 (omatchD w) E E' -> env_nearD pw w E E'.
Proof.
  intros Hw H u. unfold unit_ref, ulookup. induction H as [|[u0 r0] [u1 r1] E E' H HF IH]; cbn [dget].
  - cbn [fst snd]. split; [reflexivity|]. now apply nearD_1.
  - destruct H as (Hu & _ & H1). cbn [fst snd] in *. subst u1. destruct (uid_eqb u u0) eqn:Eu; auto.
    apply uid_eqb_eq in Eu. subst u0. destruct (ur_ref r0) as [[a d]|], (ur_ref r1) as [[b d']|]; try contradiction.
    + destruct H1 as [-> H1]. auto.
    + cbn [fst snd]. split; [reflexivity|]. now apply nearD_1.
Qed.
Lemma omatchD_nth w E E' : Forall2 (omatchD w) E E' -> forall i u r, nth_error E' i = Some (u, r) ->
  exists r', nth_error E i = Some (u, r').
Proof.
  induction 1 as [|[u0 r0] [u1 r1] E E' H HF IH]; intros i u r Hi; [destruct i; discriminate|].
  destruct i as [|i]; cbn [nth_error] in *; [|eauto]. destruct H as (Hu & _). cbn [fst] in Hu. subst u1.
  exists r0. congruence.
Qed.

Section Run.
  Variable pw : R -> pynum -> option R.
  Hypothesis Hpw : faithfulD pw.
  Local Notation F := (NumD pw).
  Local Notation DR := (option R).

  (** Specification-level: the values of an expression in the two runs. *)
  Definition flvD (stF : rstate DR) (stR : rstate R) (vF : value DR) (v : value R) (s : sval) (k : R) : Prop :=
    match s with
    | SNum p => vF = VNum p /\ v = VNum p
    | SUnit i u => vF = VUnit i /\ v = VUnit i /\ 0 <= k /\
                   (exists r, nth_error (objs stF) i = Some (u, r)) /\ (exists r, nth_error (objs stR) i = Some (u, r))
    | SQty o d => exists a b, vF = VQty (Qty (scalar a) d) /\ v = VQty (Qty (scalar b) d) /\ nearD k a b
    end.
  (** Specification-level: [opk] in the reals. *)
  Definition opkR (s : sval) (k : R) : R := match s with SNum p => Q2R (lc p) | _ => k end.
  Lemma flvD_op stF stR vF v s k x od : flvD stF stR vF v s k -> sop s = Some (x, od) -> (od = None -> opkR s k <= 1000) ->
    exists a b, nearD (opkR s k) a b /\
      match od with
      | Some d => @val_operand DR F stF vF = Some (OQ (Qty (scalar a) d)) /\ @val_q DR F stF vF = Some (Qty (scalar a) d) /\
                  @val_operand R NumR stR v = Some (OQ (Qty (scalar b) d)) /\ @val_q R NumR stR v = Some (Qty (scalar b) d)
      | None => @val_operand DR F stF vF = Some (OArr (scalar a)) /\ @val_operand R NumR stR v = Some (OArr (scalar b))
      end.
  Proof.
    clear Hpw. destruct s as [p|i u|o d]; cbn [flvD sop opkR].
    - intros (-> & ->). destruct (ppos p) eqn:Ep; [|discriminate]. intros [= <- <-] HB.
      exists (rndD (Qc2R (pval p))), (Qc2R (pval p)). split; [apply nearD_lit; auto|].
      cbn [val_operand nofQ NumD NumR]. auto.
    - intros (-> & -> & Hk & (r & Hi) & (r' & Hi')) [= <- <-] HB. exists (Some 1), 1. split; [now apply nearD_1|].
      unfold val_operand, val_q. rewrite Hi, Hi'. cbn [option_map]. unfold unit_q, one_q. auto.
    - intros (a & b & -> & -> & Hk) [= <- <-] HB. exists a, b. cbn [val_operand val_q option_map]. auto.
  Qed.
  Lemma opkR_pos s k : 0 <= k -> 0 <= opkR s k.
  Proof. clear. intros H. destruct s; cbn [opkR]; auto. pose proof (lc_ge p). lra. Qed.

  (** Specification-level: the count of a value. *)
  Definition bcostD (o : binop) (ka kb : R) (a b : sval) : R :=
    match o with
    | BPow => match b with SNum p => Rabs (Qc2R (pval p)) * opkR a ka + 3 | _ => 0 end
    | _ => opkR a ka + opkR b kb + 1
    end.
  Lemma flvD_num stF stR vF v s k p : flvD stF stR vF v s k -> vF = VNum p \/ v = VNum p -> s = SNum p.
  Proof.
    clear Hpw. destruct s as [p'|i u|o d]; cbn [flvD].
    - intros (-> & ->) [H|H]; congruence.
    - intros (-> & -> & _) [H|H]; discriminate.
    - intros (a & b & -> & -> & _) [H|H]; discriminate.
  Qed.
  Lemma dbin stF stR o vaF va vbF vb a b s ka kb :
    flvD stF stR vaF va a ka -> flvD stF stR vbF vb b kb -> 0 <= ka -> 0 <= kb -> bcostD o ka kb a b <= 1000 -> sbin o a b = Some s ->
    exists vF v, @v_bin DR F stF o vaF vbF = Ok vF /\ @v_bin R NumR stR o va vb = Ok v /\ flvD stF stR vF v s (bcostD o ka kb a b).
  Proof.
    intros Ha Hb Pa Pb HC H.
    pose proof (opkR_pos a ka Pa) as Oa. pose proof (opkR_pos b kb Pb) as Ob.
    assert (Hnn : (exists p p', a = SNum p /\ b = SNum p') \/ ~ (exists p p', a = SNum p /\ b = SNum p')).
    { destruct a, b; [left; eauto|..]; right; intros (? & ? & ? & ?); discriminate. }
    destruct Hnn as [(p & p' & -> & ->)|Hnn].
    - cbn [flvD] in Ha, Hb. destruct Ha as (-> & ->), Hb as (-> & ->). cbn [sbin] in H. cbn [v_bin].
      assert (Hr : exists r, num_bin o p p' = Ok r /\ s = SNum r /\ (o = BMul \/ o = BDiv \/ o = BPow)).
      { destruct o; try discriminate; destruct (num_bin _ p p') as [r|]; try discriminate; injection H as <-; eauto 8. }
      destruct Hr as (r & -> & -> & Ho). cbn [rmap]. eexists _, _. split; [reflexivity|]. split; [reflexivity|].
      cbn [flvD]. split; reflexivity.
    - assert (Hs : sbin o a b = match o with
        | BPow => match b, sop a with
                  | SNum p, Some (x, Some d) => Some (SQty (fpow x p) (dim_pow d p))
                  | _, _ => None
                  end
        | BMul => match sop a, sop b with
                  | Some (x, Some d), Some (y, Some d') => Some (SQty (fmul x y) (dim_mul d d'))
                  | Some (x, Some d), Some (y, None) => Some (SQty (fmul x y) d)
                  | Some (x, None), Some (y, Some d') => Some (SQty (fmul x y) d')
                  | _, _ => None
                  end
        | BDiv => match sop a, sop b with
                  | Some (x, Some d), Some (y, Some d') => Some (SQty (fdiv x y) (dim_div d d'))
                  | Some (x, Some d), Some (y, None) => Some (SQty (fdiv x y) d)
                  | Some (x, None), Some (y, Some d') => Some (SQty (fdiv x y) (dim_pow d' (PInt (-1))))
                  | _, _ => None
                  end
        | _ => None
        end).
      { destruct a, b; try reflexivity. exfalso. apply Hnn. eauto. }
      rewrite Hs in H. clear Hs.
      rewrite (@v_bin_general DR F).
      2:{ intros (p & p' & -> & ->). apply Hnn. exists p, p'. split; [exact (flvD_num _ _ _ _ _ _ _ Ha (or_introl eq_refl))|exact (flvD_num _ _ _ _ _ _ _ Hb (or_introl eq_refl))]. }
      rewrite (@v_bin_general R NumR).
      2:{ intros (p & p' & -> & ->). apply Hnn. exists p, p'. split; [exact (flvD_num _ _ _ _ _ _ _ Ha (or_intror eq_refl))|exact (flvD_num _ _ _ _ _ _ _ Hb (or_intror eq_refl))]. }
      destruct o; try discriminate.
      + destruct (sop a) as [[x od]|] eqn:Ea; [|discriminate]. destruct (sop b) as [[y od']|] eqn:Eb; [|destruct od; discriminate].
        destruct (flvD_op _ _ _ _ _ _ _ _ Ha Ea ltac:(intros _; cbn [bcostD] in HC; lra)) as (r & t & Hr & Ga). destruct (flvD_op _ _ _ _ _ _ _ _ Hb Eb ltac:(intros _; cbn [bcostD] in HC; lra)) as (r' & t' & Hr' & Gb).
        destruct od as [d|], od' as [d'|]; try discriminate; injection H as <-.
        * destruct Ga as (-> & _ & -> & _), Gb as (-> & _ & -> & _). cbn [q_bin]. unfold q_mul, apply2. cbn [odat mag].
          rewrite !amap2_scalar_r by reflexivity. cbn [bind pd2 qdim rmap]. eexists _, _. split; [reflexivity|]. split; [reflexivity|].
          eexists _, (t * t'). split; [reflexivity|]. split; [reflexivity|]. cbn [bcostD] in *. now apply nearD_mul.
        * destruct Ga as (-> & _ & -> & _), Gb as (-> & ->). cbn [q_bin]. unfold q_mul, apply2. cbn [odat mag].
          rewrite !amap2_scalar_r by reflexivity. cbn [bind pd2 qdim rmap]. eexists _, _. split; [reflexivity|]. split; [reflexivity|].
          eexists _, (t * t'). split; [reflexivity|]. split; [reflexivity|]. cbn [bcostD] in *. now apply nearD_mul.
        * destruct Ga as (-> & ->), Gb as (-> & _ & -> & _). cbn [q_bin]. unfold q_mul, apply2. cbn [odat mag].
          rewrite !amap2_scalar_r by reflexivity. cbn [bind pd2 qdim rmap]. eexists _, _. split; [reflexivity|]. split; [reflexivity|].
          eexists _, (t * t'). split; [reflexivity|]. split; [reflexivity|]. cbn [bcostD] in *. now apply nearD_mul.
      + destruct (sop a) as [[x od]|] eqn:Ea; [|discriminate]. destruct (sop b) as [[y od']|] eqn:Eb; [|destruct od; discriminate].
        destruct (flvD_op _ _ _ _ _ _ _ _ Ha Ea ltac:(intros _; cbn [bcostD] in HC; lra)) as (r & t & Hr & Ga). destruct (flvD_op _ _ _ _ _ _ _ _ Hb Eb ltac:(intros _; cbn [bcostD] in HC; lra)) as (r' & t' & Hr' & Gb).
        destruct od as [d|], od' as [d'|]; try discriminate; injection H as <-.
        * destruct Ga as (-> & _ & -> & _), Gb as (-> & _ & -> & _). cbn [q_bin]. unfold q_div, apply2. cbn [odat mag].
          rewrite !amap2_scalar_r by reflexivity. cbn [bind pd2 qdim rmap]. eexists _, _. split; [reflexivity|]. split; [reflexivity|].
          eexists _, (t / t'). split; [reflexivity|]. split; [reflexivity|]. cbn [bcostD] in *. now apply nearD_div.
        * destruct Ga as (-> & _ & -> & _), Gb as (-> & ->). cbn [q_bin]. unfold q_div, apply2. cbn [odat mag].
          rewrite !amap2_scalar_r by reflexivity. cbn [bind pd2 qdim rmap]. eexists _, _. split; [reflexivity|]. split; [reflexivity|].
          eexists _, (t / t'). split; [reflexivity|]. split; [reflexivity|]. cbn [bcostD] in *. now apply nearD_div.
        * destruct Ga as (-> & ->), Gb as (-> & _ & -> & _). cbn [q_bin]. unfold q_div, apply2. cbn [odat mag].
          rewrite !amap2_scalar_r by reflexivity. cbn [bind pd2 qdim rmap]. eexists _, _. split; [reflexivity|]. split; [reflexivity|].
          eexists _, (t / t'). split; [reflexivity|]. split; [reflexivity|]. cbn [bcostD] in *. now apply nearD_div.
      + destruct b as [p| |]; try discriminate. destruct (sop a) as [[x [d|]]|] eqn:Ea; try discriminate. injection H as <-.
        destruct (flvD_op _ _ _ _ _ _ _ _ Ha Ea ltac:(discriminate)) as (r & t & Hr & (_ & Q1 & _ & Q2)). cbn [flvD] in Hb. destruct Hb as (-> & ->).
        unfold q_power. rewrite Q1, Q2. replace (@val_q DR F stF (VNum p)) with (@None (qty DR)) by reflexivity.
        replace (@val_q R NumR stR (VNum p)) with (@None (qty R)) by reflexivity.
        rewrite (@q_pow_scalar DR F (Qty (scalar r) d) p eq_refl), (@q_pow_scalar R NumR (Qty (scalar t) d) p eq_refl). cbn [rmap qdim mag].
        eexists _, _. split; [reflexivity|]. split; [reflexivity|]. eexists _, (rpow t p). split; [reflexivity|]. split; [reflexivity|].
        cbn [bcostD] in *. exact (nearD_pow pw Hpw _ _ _ p Hr HC).
  Qed.

  Lemma opk_R s k : Q2R (opk s k) = opkR s (Q2R k).
  Proof. clear. destruct s; reflexivity. Qed.
  Lemma dcst_pos sh e k : dcst sh e = Some k -> 0 <= Q2R k.
  Proof.
    clear Hpw. revert k. induction e as [t|p|c|o a IHa b IHb|o a IHa|kk l]; intros k H; cbn [dcst] in H; try discriminate.
    - injection H as <-. unfold Q2R; cbn; lra.
    - injection H as <-. unfold Q2R; cbn; lra.
    - assert (Hr : forall x, match seval sh a, seval sh b, dcst sh a, dcst sh b with Some s, Some t, Some x, Some y => capq (Qred (opk s x + opk t y + 1)) | _, _, _, _ => None end = Some x -> 0 <= Q2R x).
      { intros x Hx. destruct (seval sh a) as [s1|]; [|discriminate]. destruct (seval sh b) as [s2|]; [|discriminate].
        destruct (dcst sh a) as [x1|]; [|discriminate]. destruct (dcst sh b) as [x2|]; [|discriminate].
        apply capq_ok in Hx. destruct Hx as [-> _]. rewrite Q2R_red, !Q2R_plus, !opk_R.
        pose proof (opkR_pos s1 _ (IHa _ eq_refl)). pose proof (opkR_pos s2 _ (IHb _ eq_refl)). replace (Q2R 1) with 1 by (unfold Q2R; cbn; lra). lra. }
      destruct o; try discriminate; try (apply (Hr k); auto; fail).
      destruct (seval sh a) as [s1|]; [|discriminate]. destruct (lit b) as [p|]; [|discriminate]. destruct (dcst sh a) as [x1|]; [|discriminate].
      apply capq_ok in H. destruct H as [-> _]. rewrite Q2R_red, Q2R_plus, Q2R_mult, Q2R_abs, opk_R.
      pose proof (opkR_pos s1 _ (IHa _ eq_refl)). pose proof (Rabs_pos (Q2R (this (pval p)))). replace (Q2R 3) with 3 by (unfold Q2R; cbn; lra). nra.
    - destruct o; try discriminate. destruct a; try discriminate. injection H as <-. unfold Q2R; cbn; lra.
  Qed.
  Lemma deval parse w stF stR sh e : sim parse stR sh -> lockD w stF stR sh -> forall s k, seval sh e = Some s -> dcst sh e = Some k ->
    exists vF v, @eval DR F stF e = Ok vF /\ @eval R NumR stR e = Ok v /\ flvD stF stR vF v s (Q2R k).
  Proof.
    intros HS HL. induction e as [t|p|c|o a IHa b IHb|o a IHa|kk l]; intros s k H Hk; cbn [seval dcst] in H, Hk; cbn [eval]; try discriminate.
    - rewrite (sim_ctx _ _ _ HS), (ld_ctx _ _ _ _ HL). destruct (dget teqb (s_ctx sh) t) as [i|]; [|discriminate].
      destruct (nth_error (s_env sh) i) as [[u x]|] eqn:Ei; [|discriminate]. injection H as <-. cbn [option_map].
      eexists _, _. split; [reflexivity|]. split; [reflexivity|]. injection Hk as <-. cbn [flvD].
      destruct (env_nth _ _ (sim_env _ _ _ HS) i u x Ei) as (r & Hr & _).
      destruct (omatchD_nth w _ _ (ld_env _ _ _ _ HL) i u r Hr) as (r' & Hr').
      split; [reflexivity|]. split; [reflexivity|]. split; [unfold Q2R; cbn; lra|]. eauto.
    - injection H as <-. injection Hk as <-. eexists _, _. split; [reflexivity|]. split; [reflexivity|]. cbn [flvD]. auto.
    - destruct (seval sh a) as [x|] eqn:Ea; [|discriminate]. destruct (seval sh b) as [y|] eqn:Eb; [|discriminate].
      assert (Ho : o = BMul \/ o = BDiv \/ o = BPow) by (destruct o; try discriminate; auto).
      assert (Hkb : exists ka kb, dcst sh a = Some ka /\ dcst sh b = Some kb /\ Q2R k = bcostD o (Q2R ka) (Q2R kb) x y /\ Q2R k <= 1000).
      { destruct Ho as [-> | [-> | ->]].
        - destruct (dcst sh a) as [ka|]; [|discriminate]. destruct (dcst sh b) as [kb|]; [|discriminate]. exists ka, kb. split; auto. split; auto.
          apply capq_ok in Hk. destruct Hk as [-> Hk]. split; [|exact Hk]. rewrite Q2R_red, !Q2R_plus, !opk_R. cbn [bcostD]. f_equal. unfold Q2R; cbn; lra.
        - destruct (dcst sh a) as [ka|]; [|discriminate]. destruct (dcst sh b) as [kb|]; [|discriminate]. exists ka, kb. split; auto. split; auto.
          apply capq_ok in Hk. destruct Hk as [-> Hk]. split; [|exact Hk]. rewrite Q2R_red, !Q2R_plus, !opk_R. cbn [bcostD]. f_equal. unfold Q2R; cbn; lra.
        - destruct (lit b) as [p|] eqn:El; [|discriminate]. destruct (dcst sh a) as [ka|]; [|discriminate]. pose proof (lit_seval sh b p El) as Es.
          assert (y = SNum p) as -> by congruence. exists ka, 0%Q. split; auto. split.
          + destruct b as [|q| | |o' b'|]; cbn [lit] in El; try discriminate; auto. destruct o'; try discriminate. destruct b'; try discriminate; auto.
          + apply capq_ok in Hk. destruct Hk as [-> Hk]. split; [|exact Hk]. rewrite Q2R_red, Q2R_plus, Q2R_mult, Q2R_abs, opk_R. cbn [bcostD]. f_equal. unfold Q2R; cbn; lra. }
      destruct Hkb as (ka & kb & Eka & Ekb & Ek & Hle).
      destruct (IHa _ _ eq_refl Eka) as (vaF & va & E1 & E2 & Fa). destruct (IHb _ _ eq_refl Ekb) as (vbF & vb & E3 & E4 & Fb).
      rewrite E1, E2, E3, E4. cbn [bind]. rewrite Ek. eapply dbin; eauto; try (eapply dcst_pos; eassumption). now rewrite <- Ek.
    - destruct o; try discriminate. destruct a; try discriminate. injection H as <-. injection Hk as <-.
      eexists _, _. split; [reflexivity|]. split; [reflexivity|]. cbn [flvD]. auto.
  Qed.

  Lemma ddef W stF stR sh vF v s k kd fd : lockD (wR W) stF stR sh -> flvD stF stR vF v s (Q2R k) -> sdef (s_env sh) s = Some fd ->
    0 <= Q2R k -> ddcost W s k = Some kd ->
    0 <= Q2R kd <= 900 /\
    exists dF dR, @val_def DR F stF vF = Some dF /\ @val_def R NumR stR v = Some dR /\
      snd (@def_ref DR F (objs stF) dF) = snd (@def_ref R NumR (objs stR) dR) /\
      nearD (Q2R kd) (fst (@def_ref DR F (objs stF) dF)) (fst (@def_ref R NumR (objs stR) dR)).
  Proof.
    intros HL Hv H Pk Hkd. assert (Hw : forall u, 0 <= wR W u) by (intros u; apply (ld_w _ _ _ _ HL)).
    pose proof (lockD_env_near pw _ _ _ Hw (ld_env _ _ _ _ HL)) as HE.
    assert (One : Q2R 1 = 1) by (unfold Q2R; cbn; lra).
    destruct s as [p|i u|o d]; cbn [flvD sdef ddcost] in *.
    - destruct Hv as (-> & ->). destruct (ppos p) eqn:Ep; [|discriminate]. cbn [val_def].
      apply capd_ok in Hkd. destruct Hkd as [-> Hkd]. rewrite Q2R_red, Q2R_plus, One in *. pose proof (lc_ge p). split; [lra|].
      eexists _, _. split; [reflexivity|]. split; [reflexivity|]. cbn [def_ref]. unfold qty_ref, ref_pair. cbn [fold_left fst snd].
      split; [reflexivity|]. replace (Q2R (lc p) + 1) with (0 + Q2R (lc p) + 1) by ring.
      apply nearD_mul; [apply nearD_1; lra|apply nearD_lit; auto; lra|lra].
    - destruct Hv as (-> & -> & _ & (r & Hi) & (r' & Hi')). cbn [val_def]. rewrite Hi, Hi'. cbn [option_map fst].
      assert (kd = wq W u) as -> by congruence. change (Q2R (wq W u)) with (wR W u). split; [apply (ld_w _ _ _ _ HL)|].
      eexists _, _. split; [reflexivity|]. split; [reflexivity|]. cbn [def_ref]. exact (HE u).
    - destruct Hv as (a & b & -> & -> & Hk). cbn [val_def mag scalar dat qdim].
      apply capd_ok in Hkd. destruct Hkd as [-> Hkd]. rewrite Q2R_red, !Q2R_plus, qroundings_R, One in *.
      pose proof (roundings_nn (wR W) d Hw). split; [lra|].
      eexists _, _. split; [reflexivity|]. split; [reflexivity|].
      cbn [def_ref]. unfold qty_ref. cbn [fst snd].
      destruct (ref_pair_nearD pw Hpw (wR W) (objs stF) (objs stR) d HE ltac:(lra)) as [G1 G2]. split; [exact G1|].
      apply nearD_mul; auto. lra.
  Qed.
  Lemma dlock_new W stF stR sh sh' c name dF dR fd sym usym al k parse :
    sim parse stR sh -> lockD (wR W) stF stR sh -> knowsW sh W -> 0 <= Q2R k <= 900 ->
    NoDup (reg_names c name sym al) ->
    snew sh c name fd sym usym al = Some sh' ->
    match dF, dR with
    | None, None => True
    | Some x, Some y => snd (@def_ref DR F (objs stF) x) = snd (@def_ref R NumR (objs stR) y) /\
                        nearD (Q2R k) (fst (@def_ref DR F (objs stF) x)) (fst (@def_ref R NumR (objs stR) y))
    | _, _ => False
    end ->
    snd (@create_unit DR F stF c name dF sym usym al) = Ok (VUnit (length (objs stF))) /\
    lockD (wR (W ++ [(UId c name, k)])) (fst (@create_unit DR F stF c name dF sym usym al)) (fst (@create_unit R NumR stR c name dR sym usym al)) sh'.
  Proof.
    intros HS HL HW Hk Hn H Hm. unfold snew in H.
    destruct (known (s_env sh) (UId c name)) eqn:Ek; [discriminate|]. cbn [negb andb] in H.
    destruct (forallb _ (reg_names c name sym al)) eqn:Ef; [|discriminate].
    pose proof (f_equal (option_map s_dflt) H) as H'. cbn [option_map s_dflt] in H'.
    apply (f_equal (option_map s_ctx)) in H. cbn [option_map s_ctx] in H.
    assert (Ec : s_ctx sh' = s_ctx sh ++ map (fun s => (s, length (s_env sh))) (reg_names c name sym al)) by congruence. clear H.
    assert (Hf : forall s, In s (reg_names c name sym al) -> ctx_get stF s = None).
    { intros s Hs. rewrite (ld_ctx _ _ _ _ HL). rewrite forallb_forall in Ef. specialize (Ef s Hs). destruct (dget teqb (s_ctx sh) s); [discriminate|auto]. }
    destruct (@create_fresh DR F stF c name dF sym usym al Hn Hf) as [Hok Hctx]. split; [exact Hok|].
    assert (Hlen : length (objs stF) = length (s_env sh)).
    { rewrite <- (env_len _ _ (sim_env _ _ _ HS)). clear -HL. destruct HL as [HL _ _ _]. induction HL; cbn; auto. }
    assert (Hw : forall u, u <> UId c name -> wR (W ++ [(UId c name, k)]) u = wR W u).
    { intros u Hu. unfold wR, wq. rewrite dget_app. cbn [dget]. destruct (dget uid_eqb W u); auto.
      destruct (uid_eqb u (UId c name)) eqn:E; auto. apply uid_eqb_eq in E. contradiction. }
    assert (Hw' : wR (W ++ [(UId c name, k)]) (UId c name) = Q2R k).
    { unfold wR, wq. rewrite dget_app, (HW _ Ek). cbn [dget].
      replace (uid_eqb (UId c name) (UId c name)) with true by (symmetry; now apply uid_eqb_eq). reflexivity. }
    constructor.
    - destruct (@create_unit_objs DR F stF c name dF sym usym al) as [o1 E1]. destruct (@create_unit_objs R NumR stR c name dR sym usym al) as [o2 E2].
      rewrite E1, E2. apply Forall2_app.
      + pose proof (ld_env _ _ _ _ HL) as HE.
        assert (Hin : forall o, In o (objs stR) -> fst o <> UId c name).
        { intros [u r] Ho Eu. cbn [fst] in Eu. subst u. apply (in_map fst) in Ho.
          apply (env_keys _ _ _ (sim_env _ _ _ HS)) in Ho. cbn [fst] in Ho. congruence. }
        clear -HE Hin Hw. induction HE as [|o o' E E' H HE IH]; constructor.
        * destruct H as (H1 & H2 & H3). split; [auto|]. split; [auto|]. rewrite Hw; auto. rewrite H1. apply Hin. now left.
        * apply IH. intros x Hx. apply Hin. now right.
      + constructor; [|constructor]. split; [reflexivity|]. cbn [fst snd ur_ref new_unit]. rewrite Hw'.
        destruct dF as [x|], dR as [y|]; try contradiction; cbn [option_map].
        * split; [split; discriminate|]. destruct Hm as [Hm1 Hm2]. destruct (@def_ref DR F (objs stF) x) as [a1 d1], (@def_ref R NumR (objs stR) y) as [b1 d2]. auto.
        * split; [tauto|exact I].
    - intros s. rewrite Hctx, Ec, dget_app, (ld_ctx _ _ _ _ HL). destruct (dget teqb (s_ctx sh) s) as [i|]; cbn [option_map]; auto.
      rewrite dget_names. destruct (existsb (teqb s) (reg_names c name sym al)); cbn [option_map]; auto. now rewrite Hlen.
    - intros u. destruct (uid_eqb u (UId c name)) eqn:E.
      + apply uid_eqb_eq in E. subst u. now rewrite Hw'.
      + rewrite Hw; [apply (ld_w _ _ _ _ HL)|]. intros ->. replace (uid_eqb (UId c name) (UId c name)) with true in E by (symmetry; now apply uid_eqb_eq). discriminate.
    - intros c'. rewrite (create_unit_dflt _ _ _ _ _ _ _ _ Hok). rewrite (dflt_new _ _ _ _ (ld_dflt _ _ _ _ HL)). f_equal. congruence.
  Qed.

  Theorem dstep parse W stF stR sh sh' e k : sim parse stR sh -> lockD (wR W) stF stR sh -> knowsW sh W ->
    sstep parse sh e = Some sh' -> dcount parse sh W e = Some k ->
    exists stF' stR' vF v, @tstep DR F parse stF e = (stF', Ok vF) /\ @tstep R NumR parse stR e = (stR', Ok v) /\
      sim parse stR' sh' /\ lockD (wR (W ++ [(entry_uid e, k)])) stF' stR' sh' /\ knowsW sh' (W ++ [(entry_uid e, k)]).
  Proof.
    intros HS HL HW H Hk. destruct (sstep_ok parse stR sh e sh' HS H) as (stR' & ER & HS').
    unfold dcount in Hk. destruct (nodupb (entry_names e)) eqn:En; [|discriminate]. apply nodupb_ok in En.
    assert (Hdef : forall x k, ddefcost sh W x = Some k -> forall fd, sdef_of sh x = Some fd ->
      exists vF v dF dR, @eval DR F stF x = Ok vF /\ @eval R NumR stR x = Ok v /\ product x /\
        @val_def DR F stF vF = Some dF /\ @val_def R NumR stR v = Some dR /\ 0 <= Q2R k <= 900 /\
        snd (@def_ref DR F (objs stF) dF) = snd (@def_ref R NumR (objs stR) dR) /\
        nearD (Q2R k) (fst (@def_ref DR F (objs stF) dF)) (fst (@def_ref R NumR (objs stR) dR))).
    { clear k Hk. intros x k Hd fd Hfd. unfold ddefcost, sdef_of in *. destruct (seval sh x) as [s|] eqn:Es; [|discriminate].
      destruct (dcst sh x) as [kx|] eqn:Ex; [|discriminate].
      destruct (deval parse _ stF stR sh x HS HL s kx Es Ex) as (vF & v & E1 & E2 & Hv).
      destruct (ddef W stF stR sh vF v s kx k fd HL Hv Hfd (dcst_pos _ _ _ Ex) Hd) as (K9 & dF & dR & D1 & D2 & D3 & D4).
      destruct (seval_ok parse stR sh x HS s Es) as (Hp & _).
      exists vF, v, dF, dR. repeat (split; [assumption|]). auto. }
    destruct e as [c name [x|] sym usym al|name]; cbn [sstep tstep entry_uid entry_names] in *.
    - destruct (ucls_eqb c CCompound || ucls_eqb c CDimless); [discriminate|].
      destruct (sdef_of sh x) as [fd|] eqn:Ed; [|discriminate].
      destruct (Hdef x k Hk fd Ed) as (vF & v & dF & dR & E1 & E2 & _ & D1 & D2 & Hk0 & D3).
      rewrite E1, D1. rewrite E2, D2 in *.
      destruct (dlock_new W stF stR sh sh' c name (Some dF) (Some dR) (Some fd) sym usym al k parse HS HL HW Hk0 En H D3) as [Hok HL'].
      exists (fst (@create_unit DR F stF c name (Some dF) sym usym al)), stR', (VUnit (length (objs stF))), (VUnit (length (objs stR))).
      split; [rewrite <- Hok; now destruct (@create_unit DR F stF c name (Some dF) sym usym al)|]. split; [exact ER|]. split; [exact HS'|].
      rewrite ER in HL'. split; [exact HL'|]. exact (knowsW_new sh sh' W c name (Some fd) sym usym al k HW H).
    - destruct (ucls_eqb c CCompound); [discriminate|]. assert (k = 0%Q) as -> by congruence.
      assert (Hk0 : 0 <= Q2R 0 <= 900) by (unfold Q2R; cbn; lra).
      destruct (dlock_new W stF stR sh sh' c name None None None sym usym al 0%Q parse HS HL HW Hk0 En H I) as [Hok HL'].
      exists (fst (@create_unit DR F stF c name None sym usym al)), stR', (VUnit (length (objs stF))), (VUnit (length (objs stR))).
      split; [rewrite <- Hok; now destruct (@create_unit DR F stF c name None sym usym al)|]. split; [exact ER|]. split; [exact HS'|].
      rewrite ER in HL'. split; [exact HL'|]. exact (knowsW_new sh sh' W c name None sym usym al 0%Q HW H).
    - destruct (parse (preprocess (T name))) as [x|] eqn:Ep; [|discriminate].
      destruct (sdef_of sh x) as [fd|] eqn:Ed; [|discriminate].
      destruct (Hdef x k Hk fd Ed) as (vF & v & dF & dR & E1 & E2 & Hp & D1 & D2 & Hk0 & D3).
      assert (EcF : @create_compound DR F parse stF name = @create_unit DR F stF CCompound name (Some dF) None None []).
      { unfold create_compound, get_item, inner_get. rewrite Ep. cbn [bind]. rewrite (product_valid x Hp), E1. cbn [catch]. now rewrite D1. }
      assert (EcR : @create_compound R NumR parse stR name = @create_unit R NumR stR CCompound name (Some dR) None None []).
      { unfold create_compound, get_item, inner_get. rewrite Ep. cbn [bind]. rewrite (product_valid x Hp), E2. cbn [catch]. now rewrite D2. }
      rewrite EcF. rewrite EcR in *.
      destruct (dlock_new W stF stR sh sh' CCompound name (Some dF) (Some dR) (Some fd) None None [] k parse HS HL HW Hk0 En H D3) as [Hok HL'].
      exists (fst (@create_unit DR F stF CCompound name (Some dF) None None [])), stR', (VUnit (length (objs stF))), (VUnit (length (objs stR))).
      split; [rewrite <- Hok; now destruct (@create_unit DR F stF CCompound name (Some dF) None None [])|]. split; [exact ER|]. split; [exact HS'|].
      rewrite ER in HL'. split; [exact HL'|]. exact (knowsW_new sh sh' W CCompound name (Some fd) None None [] k HW H).
  Qed.
  Theorem drun_ok parse l : forall W stF stR sh sh' W', sim parse stR sh -> lockD (wR W) stF stR sh -> knowsW sh W ->
    drun parse sh W l = Some (sh', W') ->
    exists stF' stR', @trun DR F parse stF l = (stF', Ok tt) /\ @trun R NumR parse stR l = (stR', Ok tt) /\
      sim parse stR' sh' /\ lockD (wR W') stF' stR' sh'.
  Proof.
    induction l as [|e l IH]; intros W stF stR sh sh' W' HS HL HW H; cbn [drun trun] in *.
    - injection H as <- <-. exists stF, stR. auto.
    - destruct (sstep parse sh e) as [sh1|] eqn:E1; [|discriminate]. destruct (dcount parse sh W e) as [k|] eqn:E2; [|discriminate].
      destruct (dstep parse W stF stR sh sh1 e k HS HL HW E1 E2) as (stF1 & stR1 & vF & v & -> & -> & HS1 & HL1 & HW1). eapply IH; eauto.
  Qed.
  Lemma lockD_empty : lockD (wR []) rempty rempty sempty.
  Proof.
    clear Hpw. constructor; [constructor|reflexivity| |reflexivity]. intros u. unfold wR, wq, Q2R. cbn. lra.
  Qed.
End Run.
