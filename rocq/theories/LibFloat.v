(** * LibFloat: creating the units of a table in floating-point arithmetic.

    The checker of TableFacts.v is extended with a count of the roundings made in the
    definitions.  The run in floating-point numbers then stays close to the exact one. *)
From Coq Require Import Reals Lra Lia Qreals Qabs Ascii NArith.
From Verif Require Import Py Num Dim DimFacts Arr Units Spec UnitFacts Quant QuantFacts Ufunc Ops OpsFacts
     Text Markup Lex LexFacts Registry RegFacts RegEq UncertFacts SpecPickle PickleFacts HistFacts Table Import TableFacts
     Float SpecFloat FloatFacts.

Open Scope list_scope.
Open Scope R_scope.

(** ** Counting roundings *)
Definition lit (e : expr) : option pynum :=
  match e with ENum p => Some p | EUn UNeg (ENum p) => Some (pneg p) | _ => None end.
Fixpoint ecost (e : expr) : option Q :=
  match e with
  | EName _ => Some 0%Q
  | ENum _ => Some 1%Q
  | EUn UNeg (ENum _) => Some 1%Q
  | EBin BMul a b | EBin BDiv a b =>
      match ecost a, ecost b with Some x, Some y => Some (Qred (x + y + 1)) | _, _ => None end
  | EBin BPow a b =>
      match ecost a, lit b with Some x, Some p => Some (Qred (Qabs (this (pval p)) * x + 3)) | _, _ => None end
  | _ => None
  end%Q.
(** The counts of the units created so far. *)
Definition counts := list (uid * Q).
Definition wq (W : counts) (u : uid) : Q := match dget uid_eqb W u with Some k => k | None => 0%Q end.
Definition wR (W : counts) (u : uid) : R := Q2R (wq W u).
Fixpoint qroundings (W : counts) (d : dims) : Q :=
  match d with
  | [] => 0
  | (u, e) :: d' => Qred (Qabs (this (pval e)) * wq W u + 4 + qroundings W d')
  end%Q.
Definition dcost (W : counts) (s : sval) (k : Q) : Q :=
  match s with
  | SNum _ => k + 1
  | SUnit _ u => wq W u
  | SQty _ d => Qred (qroundings W d + k + 1)
  end%Q.
Fixpoint nodupb (l : list text) : bool :=
  match l with [] => true | s :: l' => negb (existsb (teqb s) l') && nodupb l' end.
Definition defcost (sh : sstate) (W : counts) (x : expr) : option Q :=
  match seval sh x, ecost x with Some s, Some k => Some (dcost W s k) | _, _ => None end.
Definition ecount (parse : text -> res expr) (sh : sstate) (W : counts) (e : tentry) : option Q :=
  if nodupb (entry_names e) then
  match e with
  | TNew c name None sym usym al => Some 0%Q
  | TNew c name (Some x) sym usym al => defcost sh W x
  | TComp name => match parse (preprocess (T name)) with Ok x => defcost sh W x | Err _ => None end
  end else None.
Fixpoint crun (parse : text -> res expr) (sh : sstate) (W : counts) (l : list tentry) : option (sstate * counts) :=
  match l with
  | [] => Some (sh, W)
  | e :: l' => match sstep parse sh e, ecount parse sh W e with
               | Some sh', Some k => crun parse sh' (W ++ [(entry_uid e, k)]) l'
               | _, _ => None
               end
  end.

(** ** Soundness *)
Lemma Q2R_abs q : Q2R (Qabs q) = Rabs (Q2R q).
Proof.
  apply Qabs_case; intros H; apply Qle_Rle in H; unfold Q2R in H at 1 2; cbn in H.
  - rewrite Rabs_pos_eq; auto. unfold Q2R. lra.
  - rewrite Q2R_opp. rewrite Rabs_left1; auto. unfold Q2R. lra.
Qed.
Lemma qroundings_R W d : Q2R (qroundings W d) = roundings (wR W) d.
Proof.
  induction d as [|[u e] d IH]; cbn [qroundings roundings].
  - unfold Q2R; cbn; lra.
  - rewrite Q2R_red, !Q2R_plus, Q2R_mult, Q2R_abs, IH. unfold wR, Qc2R. f_equal. f_equal. unfold Q2R; cbn; lra.
Qed.

Section Creation.
  Context {A : Type} {N : Num A}.
  Lemma set_items_fresh l : forall (st : rstate A) v, NoDup l -> (forall s, In s l -> ctx_get st s = None) ->
    snd (set_items st l v) = Ok tt.
  Proof.
    induction l as [|s l IH]; intros st v Hn H; cbn [set_items]; [reflexivity|].
    apply NoDup_cons_iff in Hn. destruct Hn as [Hs Hn].
    destruct (set_item_fresh st s v (H s (or_introl eq_refl))) as [H1 _].
    pose proof (set_item_get st s v) as G. destruct (set_item st s v) as [st1 [u|e]]; cbn [fst snd] in *; [|discriminate].
    apply IH; auto. intros s' Hs'. rewrite G, (H s' (or_intror Hs')). destruct (teqb s' s) eqn:E; auto.
    apply teqb_eq in E. subst s'. contradiction.
  Qed.
  Lemma create_fresh (st : rstate A) c name df sym usym al :
    NoDup (reg_names c name sym al) -> (forall s, In s (reg_names c name sym al) -> ctx_get st s = None) ->
    snd (create_unit st c name df sym usym al) = Ok (VUnit (length (objs st))) /\
    forall s, ctx_get (fst (create_unit st c name df sym usym al)) s =
      match ctx_get st s with
      | Some w => Some w
      | None => if existsb (teqb s) (reg_names c name sym al) then Some (VUnit (length (objs st))) else None
      end.
  Proof.
    intros Hn H. unfold create_unit. set (st0 := new_obj st c name df sym usym al). set (l := reg_names c name sym al) in *.
    pose proof (set_items_fresh l st0 (VUnit (length (objs st))) Hn H) as Hok.
    pose proof (set_items_ok l st0 (VUnit (length (objs st))) Hok) as Hc.
    destruct (set_items st0 l (VUnit (length (objs st)))) as [st1 [x|e]]; cbn [fst snd] in *; [|discriminate].
    split; [reflexivity|]. intros s. exact (Hc s).
  Qed.
End Creation.
Lemma nodupb_ok l : nodupb l = true -> NoDup l.
Proof.
  induction l as [|s l IH]; cbn [nodupb]; intros H; constructor; apply andb_prop in H; destruct H as [H1 H2]; auto.
  intros Hs. apply negb_true_iff in H1. assert (existsb (teqb s) l = true); [|congruence].
  apply existsb_exists. exists s. split; auto. now apply teqb_eq.
Qed.

Definition omatch (w : uid -> R) (o o' : uid * urec R) : Prop :=
  (fst o = fst o' /\ (ur_ref (snd o) = None <-> ur_ref (snd o') = None)) /\ snd (own_ref (fst o) (snd o)) = snd (own_ref (fst o') (snd o')) /\
  near (w (fst o)) (fst (own_ref (fst o) (snd o))) (fst (own_ref (fst o') (snd o'))).
Record lock (w : uid -> R) (stF stR : rstate R) (sh : sstate) : Prop := Lock {
  lk_env : Forall2 (omatch w) (objs stF) (objs stR);
  lk_ctx : forall s, ctx_get stF s = option_map (fun i => VUnit i) (dget teqb (s_ctx sh) s);
  lk_w : forall u, 0 <= w u;
  lk_dflt : forall c, dflt stF c = dget ucls_eqb (s_dflt sh) c
}.
Lemma lock_env_near w E E' : (forall u, 0 <= w u) -> Forall2 (omatch w) E E' -> env_near w E E'.
Proof.
  intros Hw H u. unfold unit_ref, ulookup. induction H as [|[u0 r0] [u1 r1] E E' H HF IH]; cbn [dget].
  - cbn [fst snd]. split; auto. apply (near_weaken 0); auto. apply near_refl. cbn. lra.
  - destruct H as ((Hu & _) & H1 & H2). cbn [fst snd] in *. subst u1. destruct (uid_eqb u u0) eqn:Eu; auto.
    apply uid_eqb_eq in Eu. subst u0. auto.
Qed.
Lemma lock_same_defs w E E' : Forall2 (omatch w) E E' -> same_defs E E'.
Proof.
  intros H u. unfold ulookup. induction H as [|[u0 r0] [u1 r1] E E' H HF IH]; cbn [dget]; [exact I|].
  destruct H as ((Hu & Hr) & _). cbn [fst snd] in *. subst u1. destruct (uid_eqb u u0); auto.
Qed.
Lemma omatch_nth w E E' : Forall2 (omatch w) E E' -> forall i u r, nth_error E' i = Some (u, r) ->
  exists r', nth_error E i = Some (u, r').
Proof.
  induction 1 as [|[u0 r0] [u1 r1] E E' H HF IH]; intros i u r Hi; [destruct i; discriminate|].
  destruct i as [|i]; cbn [nth_error] in *; [|eauto]. destruct H as ((Hu & _) & _). cbn [fst] in Hu. subst u1.
  exists r0. congruence.
Qed.

Section Run.
  Variable pw : R -> pynum -> R.
  Hypothesis Hpw : faithful pw.
  Local Notation F := (NumF pw).

  Definition flv (stF stR : rstate R) (vF v : value R) (s : sval) (k : R) : Prop :=
    match s with
    | SNum p => vF = VNum p /\ v = VNum p /\ 1 <= k
    | SUnit i u => vF = VUnit i /\ v = VUnit i /\ 0 <= k /\
                   (exists r, nth_error (objs stF) i = Some (u, r)) /\ (exists r, nth_error (objs stR) i = Some (u, r))
    | SQty o d => exists a b, vF = VQty (Qty (scalar a) d) /\ v = VQty (Qty (scalar b) d) /\ near k a b
    end.
  Lemma flv_op stF stR vF v s k x od : flv stF stR vF v s k -> sop s = Some (x, od) ->
    exists a b, near k a b /\
      match od with
      | Some d => @val_operand R F stF vF = Some (OQ (Qty (scalar a) d)) /\ @val_q R F stF vF = Some (Qty (scalar a) d) /\
                  @val_operand R NumR stR v = Some (OQ (Qty (scalar b) d)) /\ @val_q R NumR stR v = Some (Qty (scalar b) d)
      | None => @val_operand R F stF vF = Some (OArr (scalar a)) /\ @val_operand R NumR stR v = Some (OArr (scalar b))
      end.
  Proof.
    clear Hpw. destruct s as [p|i u|o d]; cbn [flv sop].
    - intros (-> & -> & Hk). destruct (ppos p) eqn:Ep; [|discriminate]. intros [= <- <-].
      exists (rnd (Qc2R (pval p))), (Qc2R (pval p)). split.
      + apply (near_weaken 1); auto. apply near_rnd. apply (ppos_R p Ep).
      + cbn [val_operand nofQ NumF NumR]. auto.
    - intros (-> & -> & Hk & (r & Hi) & (r' & Hi')) [= <- <-]. exists 1, 1. split; [apply (near_weaken 0); auto; apply near_refl; lra|].
      unfold val_operand, val_q. rewrite Hi, Hi'. cbn [option_map]. unfold unit_q, one_q. auto.
    - intros (a & b & -> & -> & Hk) [= <- <-]. exists a, b. cbn [val_operand val_q option_map]. auto.
  Qed.

  Definition bcost (o : binop) (ka kb : R) (b : sval) : R :=
    match o with
    | BPow => match b with SNum p => Rabs (Qc2R (pval p)) * ka + 3 | _ => 0 end
    | _ => ka + kb + 1
    end.
  Lemma flv_num stF stR vF v s k p : flv stF stR vF v s k -> vF = VNum p \/ v = VNum p -> s = SNum p.
  Proof.
    clear Hpw. destruct s as [p'|i u|o d]; cbn [flv].
    - intros (-> & -> & _) [H|H]; congruence.
    - intros (-> & -> & _) [H|H]; discriminate.
    - intros (a & b & -> & -> & _) [H|H]; discriminate.
  Qed.
  Lemma v_bin_general {A} {N : Num A} (st : rstate A) o va vb :
    ~ (exists p p', va = VNum p /\ vb = VNum p') ->
    v_bin st o va vb = match o with
        | BPow => rmap (@VQty A) (q_power st va vb)
        | _ => match val_operand st va, val_operand st vb with
               | Some x, Some y => rmap (@VQty A) (q_bin (objs st) o x y)
               | _, _ => Err Unmodelled
               end
        end.
  Proof.
    clear. intros H. destruct va as [p|?|?|?|?]; try reflexivity. destruct vb as [p'|?|?|?|?]; try reflexivity.
    exfalso. apply H. eauto.
  Qed.
  Lemma fbin stF stR o vaF va vbF vb a b s ka kb :
    flv stF stR vaF va a ka -> flv stF stR vbF vb b kb -> 0 <= ka -> 0 <= kb -> sbin o a b = Some s ->
    exists vF v, @v_bin R F stF o vaF vbF = Ok vF /\ @v_bin R NumR stR o va vb = Ok v /\ flv stF stR vF v s (bcost o ka kb b).
  Proof.
    intros Ha Hb Pa Pb H.
    assert (Hnn : (exists p p', a = SNum p /\ b = SNum p') \/ ~ (exists p p', a = SNum p /\ b = SNum p')).
    { destruct a, b; [left; eauto|..]; right; intros (? & ? & ? & ?); discriminate. }
    destruct Hnn as [(p & p' & -> & ->)|Hnn].
    - cbn [flv] in Ha, Hb. destruct Ha as (-> & -> & Ka), Hb as (-> & -> & Kb). cbn [sbin] in H. cbn [v_bin].
      assert (Hr : exists r, num_bin o p p' = Ok r /\ s = SNum r /\ (o = BMul \/ o = BDiv \/ o = BPow)).
      { destruct o; try discriminate; destruct (num_bin _ p p') as [r|]; try discriminate; injection H as <-; eauto 8. }
      destruct Hr as (r & -> & -> & Ho). cbn [rmap]. eexists _, _. split; [reflexivity|]. split; [reflexivity|].
      cbn [flv]. split; [reflexivity|]. split; [reflexivity|].
      pose proof (Rabs_pos (Qc2R (pval p'))). destruct Ho as [-> | [-> | ->]]; cbn [bcost]; nra.
    - assert (Hs : sbin o a b = match o with
        | BPow => match b, sop a with
                  | SNum p, Some (x, Some d) => Some (SQty (fpow x p) (dim_pow d p))
                  | _, _ => None
                  end
        | BMul => match sop a, sop b with
                  | Some (x, Some d), Some (y, Some d') => Some (SQty (fmul x y) (dim_mul d d'))
                  | Some (x, Some d), Some (y, None) => Some (SQty (fmul x y) d)
                  | Some (x, None), Some (y, Some d') => Some (SQty (fmul x y) d')
                  | _, _ => None
                  end
        | BDiv => match sop a, sop b with
                  | Some (x, Some d), Some (y, Some d') => Some (SQty (fdiv x y) (dim_div d d'))
                  | Some (x, Some d), Some (y, None) => Some (SQty (fdiv x y) d)
                  | Some (x, None), Some (y, Some d') => Some (SQty (fdiv x y) (dim_pow d' (PInt (-1))))
                  | _, _ => None
                  end
        | _ => None
        end).
      { destruct a, b; try reflexivity. exfalso. apply Hnn. eauto. }
      rewrite Hs in H. clear Hs.
      rewrite (@v_bin_general R F).
      2:{ intros (p & p' & -> & ->). apply Hnn. exists p, p'. split; [exact (flv_num _ _ _ _ _ _ _ Ha (or_introl eq_refl))|exact (flv_num _ _ _ _ _ _ _ Hb (or_introl eq_refl))]. }
      rewrite (@v_bin_general R NumR).
      2:{ intros (p & p' & -> & ->). apply Hnn. exists p, p'. split; [exact (flv_num _ _ _ _ _ _ _ Ha (or_intror eq_refl))|exact (flv_num _ _ _ _ _ _ _ Hb (or_intror eq_refl))]. }
      destruct o; try discriminate.
      + destruct (sop a) as [[x od]|] eqn:Ea; [|discriminate]. destruct (sop b) as [[y od']|] eqn:Eb; [|destruct od; discriminate].
        destruct (flv_op _ _ _ _ _ _ _ _ Ha Ea) as (r & t & Hr & Ga). destruct (flv_op _ _ _ _ _ _ _ _ Hb Eb) as (r' & t' & Hr' & Gb).
        destruct od as [d|], od' as [d'|]; try discriminate; injection H as <-.
        * destruct Ga as (-> & _ & -> & _), Gb as (-> & _ & -> & _). cbn [q_bin]. unfold q_mul, apply2. cbn [odat mag].
          rewrite !amap2_scalar_r by reflexivity. cbn [bind pd2 qdim rmap]. eexists _, _. split; [reflexivity|]. split; [reflexivity|].
          exists (rnd (r * r')), (t * t'). split; [reflexivity|]. split; [reflexivity|]. cbn [bcost]. apply near_rnd_of. now apply near_mul.
        * destruct Ga as (-> & _ & -> & _), Gb as (-> & ->). cbn [q_bin]. unfold q_mul, apply2. cbn [odat mag].
          rewrite !amap2_scalar_r by reflexivity. cbn [bind pd2 qdim rmap]. eexists _, _. split; [reflexivity|]. split; [reflexivity|].
          exists (rnd (r * r')), (t * t'). split; [reflexivity|]. split; [reflexivity|]. cbn [bcost]. apply near_rnd_of. now apply near_mul.
        * destruct Ga as (-> & ->), Gb as (-> & _ & -> & _). cbn [q_bin]. unfold q_mul, apply2. cbn [odat mag].
          rewrite !amap2_scalar_r by reflexivity. cbn [bind pd2 qdim rmap]. eexists _, _. split; [reflexivity|]. split; [reflexivity|].
          exists (rnd (r * r')), (t * t'). split; [reflexivity|]. split; [reflexivity|]. cbn [bcost]. apply near_rnd_of. now apply near_mul.
      + destruct (sop a) as [[x od]|] eqn:Ea; [|discriminate]. destruct (sop b) as [[y od']|] eqn:Eb; [|destruct od; discriminate].
        destruct (flv_op _ _ _ _ _ _ _ _ Ha Ea) as (r & t & Hr & Ga). destruct (flv_op _ _ _ _ _ _ _ _ Hb Eb) as (r' & t' & Hr' & Gb).
        destruct od as [d|], od' as [d'|]; try discriminate; injection H as <-.
        * destruct Ga as (-> & _ & -> & _), Gb as (-> & _ & -> & _). cbn [q_bin]. unfold q_div, apply2. cbn [odat mag].
          rewrite !amap2_scalar_r by reflexivity. cbn [bind pd2 qdim rmap]. eexists _, _. split; [reflexivity|]. split; [reflexivity|].
          exists (rnd (r / r')), (t / t'). split; [reflexivity|]. split; [reflexivity|]. cbn [bcost]. apply near_rnd_of. now apply near_div.
        * destruct Ga as (-> & _ & -> & _), Gb as (-> & ->). cbn [q_bin]. unfold q_div, apply2. cbn [odat mag].
          rewrite !amap2_scalar_r by reflexivity. cbn [bind pd2 qdim rmap]. eexists _, _. split; [reflexivity|]. split; [reflexivity|].
          exists (rnd (r / r')), (t / t'). split; [reflexivity|]. split; [reflexivity|]. cbn [bcost]. apply near_rnd_of. now apply near_div.
        * destruct Ga as (-> & ->), Gb as (-> & _ & -> & _). cbn [q_bin]. unfold q_div, apply2. cbn [odat mag].
          rewrite !amap2_scalar_r by reflexivity. cbn [bind pd2 qdim rmap]. eexists _, _. split; [reflexivity|]. split; [reflexivity|].
          exists (rnd (r / r')), (t / t'). split; [reflexivity|]. split; [reflexivity|]. cbn [bcost]. apply near_rnd_of. now apply near_div.
      + destruct b as [p| |]; try discriminate. destruct (sop a) as [[x [d|]]|] eqn:Ea; try discriminate. injection H as <-.
        destruct (flv_op _ _ _ _ _ _ _ _ Ha Ea) as (r & t & Hr & (_ & Q1 & _ & Q2)). cbn [flv] in Hb. destruct Hb as (-> & -> & _).
        unfold q_power. rewrite Q1, Q2. replace (@val_q R F stF (VNum p)) with (@None (qty R)) by reflexivity.
        replace (@val_q R NumR stR (VNum p)) with (@None (qty R)) by reflexivity.
        rewrite (@q_pow_scalar R F (Qty (scalar r) d) p eq_refl), (@q_pow_scalar R NumR (Qty (scalar t) d) p eq_refl). cbn [rmap qdim mag].
        eexists _, _. split; [reflexivity|]. split; [reflexivity|]. exists (pw r p), (rpow t p). split; [reflexivity|]. split; [reflexivity|].
        cbn [bcost]. now apply near_pw.
  Qed.

  Lemma lit_seval sh e p : lit e = Some p -> seval sh e = Some (SNum p).
  Proof.
    clear Hpw. destruct e as [|q| | |o a|]; cbn [lit]; try discriminate.
    - intros [= <-]. reflexivity.
    - destruct o; try discriminate. destruct a; try discriminate. intros [= <-]. reflexivity.
  Qed.
  Lemma ecost_pos e k : ecost e = Some k -> 0 <= Q2R k.
  Proof.
    clear Hpw. revert k. induction e as [t|p|c|o a IHa b IHb|o a IHa|kk l]; intros k H; cbn [ecost] in H; try discriminate.
    - injection H as <-. unfold Q2R; cbn; lra.
    - injection H as <-. unfold Q2R; cbn; lra.
    - assert (Hr : forall x, (o = BMul \/ o = BDiv) -> (match ecost a, ecost b with Some x, Some y => Some (Qred (x + y + 1)) | _, _ => None end) = Some x -> 0 <= Q2R x).
      { intros x _ Hx. destruct (ecost a) as [x1|]; [|discriminate]. destruct (ecost b) as [x2|]; [|discriminate].
        assert (x = Qred (x1 + x2 + 1)) as -> by congruence. rewrite Q2R_red, !Q2R_plus.
        pose proof (IHa _ eq_refl). pose proof (IHb _ eq_refl). unfold Q2R at 3; cbn. lra. }
      destruct o; try discriminate; try (apply (Hr k); auto; fail).
      destruct (ecost a) as [x1|]; [|discriminate]. destruct (lit b) as [p|]; [|discriminate].
      assert (k = Qred (Qabs (this (pval p)) * x1 + 3)) as -> by congruence. rewrite Q2R_red, Q2R_plus, Q2R_mult, Q2R_abs.
      pose proof (IHa _ eq_refl). pose proof (Rabs_pos (Q2R (this (pval p)))). unfold Q2R at 3; cbn. nra.
    - destruct o; try discriminate. destruct a; try discriminate. injection H as <-. unfold Q2R; cbn; lra.
  Qed.
  Lemma feval parse w stF stR sh e : sim parse stR sh -> lock w stF stR sh -> forall s k, seval sh e = Some s -> ecost e = Some k ->
    exists vF v, @eval R F stF e = Ok vF /\ @eval R NumR stR e = Ok v /\ flv stF stR vF v s (Q2R k).
  Proof.
    intros HS HL. induction e as [t|p|c|o a IHa b IHb|o a IHa|kk l]; intros s k H Hk; cbn [seval ecost] in H, Hk; cbn [eval]; try discriminate.
    - rewrite (sim_ctx _ _ _ HS), (lk_ctx _ _ _ _ HL). destruct (dget teqb (s_ctx sh) t) as [i|]; [|discriminate].
      destruct (nth_error (s_env sh) i) as [[u x]|] eqn:Ei; [|discriminate]. injection H as <-. cbn [option_map].
      eexists _, _. split; [reflexivity|]. split; [reflexivity|]. injection Hk as <-. cbn [flv].
      destruct (env_nth _ _ (sim_env _ _ _ HS) i u x Ei) as (r & Hr & _).
      destruct (omatch_nth w _ _ (lk_env _ _ _ _ HL) i u r Hr) as (r' & Hr').
      split; [reflexivity|]. split; [reflexivity|]. split; [unfold Q2R; cbn; lra|]. eauto.
    - injection H as <-. injection Hk as <-. eexists _, _. split; [reflexivity|]. split; [reflexivity|]. cbn [flv].
      split; [reflexivity|]. split; [reflexivity|]. unfold Q2R; cbn; lra.
    - destruct (seval sh a) as [x|]; [|discriminate]. destruct (seval sh b) as [y|] eqn:Eb; [|discriminate].
      assert (Ho : o = BMul \/ o = BDiv \/ o = BPow) by (destruct o; try discriminate; auto).
      destruct (ecost a) as [ka|] eqn:Ka; [|destruct Ho as [-> | [-> | ->]]; discriminate].
      assert (Hkb : exists kb, ecost b = Some kb /\ Q2R k = bcost o (Q2R ka) (Q2R kb) y).
      { destruct Ho as [-> | [-> | ->]].
        - destruct (ecost b) as [kb|]; [|discriminate]. exists kb. split; auto.
          assert (k = Qred (ka + kb + 1)) as -> by congruence. rewrite Q2R_red, !Q2R_plus. cbn [bcost]. f_equal. unfold Q2R; cbn; lra.
        - destruct (ecost b) as [kb|]; [|discriminate]. exists kb. split; auto.
          assert (k = Qred (ka + kb + 1)) as -> by congruence. rewrite Q2R_red, !Q2R_plus. cbn [bcost]. f_equal. unfold Q2R; cbn; lra.
        - destruct (lit b) as [p|] eqn:El; [|discriminate]. pose proof (lit_seval sh b p El) as Es.
          assert (y = SNum p) as -> by congruence. exists 1%Q. split.
          + destruct b as [|q| | |o' b'|]; cbn [lit] in El; try discriminate; auto. destruct o'; try discriminate. destruct b'; try discriminate; auto.
          + assert (k = Qred (Qabs (this (pval p)) * ka + 3)) as -> by congruence. rewrite Q2R_red, Q2R_plus, Q2R_mult, Q2R_abs. cbn [bcost]. f_equal. unfold Q2R; cbn; lra. }
      destruct Hkb as (kb & Ekb & Ek).
      destruct (IHa _ _ eq_refl eq_refl) as (vaF & va & E1 & E2 & Fa). destruct (IHb _ _ eq_refl Ekb) as (vbF & vb & E3 & E4 & Fb).
      rewrite E1, E2, E3, E4. cbn [bind]. rewrite Ek. eapply fbin; eauto; eapply ecost_pos; eauto.
    - destruct o; try discriminate. destruct a; try discriminate. injection H as <-. injection Hk as <-.
      eexists _, _. split; [reflexivity|]. split; [reflexivity|]. cbn [flv]. split; [reflexivity|]. split; [reflexivity|]. unfold Q2R; cbn; lra.
  Qed.

  Lemma flv_same stF stR vF v s k k' : k <= k' -> flv stF stR vF v s k -> flv stF stR vF v s k'.
  Proof.
    clear Hpw. intros Hk. destruct s as [p|i u|o d]; cbn [flv].
    - intros (-> & -> & H). split; [auto|]. split; [auto|]. lra.
    - intros (-> & -> & H & H'). split; [auto|]. split; [auto|]. split; [lra|auto].
    - intros (a & b & -> & -> & H). exists a, b. split; [auto|]. split; [auto|]. now apply (near_weaken k).
  Qed.
  Lemma fdef W stF stR sh vF v s k fd : lock (wR W) stF stR sh -> flv stF stR vF v s (Q2R k) -> sdef (s_env sh) s = Some fd ->
    exists dF dR, @val_def R F stF vF = Some dF /\ @val_def R NumR stR v = Some dR /\
      snd (@def_ref R F (objs stF) dF) = snd (@def_ref R NumR (objs stR) dR) /\
      near (Q2R (dcost W s k)) (fst (@def_ref R F (objs stF) dF)) (fst (@def_ref R NumR (objs stR) dR)).
  Proof.
    intros HL Hv H. pose proof (lock_env_near _ _ _ (lk_w _ _ _ _ HL) (lk_env _ _ _ _ HL)) as HE.
    destruct s as [p|i u|o d]; cbn [flv sdef dcost] in *.
    - destruct Hv as (-> & -> & Hk). destruct (ppos p) eqn:Ep; [|discriminate]. cbn [val_def].
      eexists _, _. split; [reflexivity|]. split; [reflexivity|]. cbn [def_ref]. unfold qty_ref, ref_pair. cbn [fold_left fst snd nofQ nmul NumF NumR].
      split; [reflexivity|]. rewrite Q2R_plus. replace (Q2R 1) with 1 by (unfold Q2R; cbn; lra). apply near_rnd_of.
      rewrite <- (Rplus_0_l (Q2R k)). apply near_mul; [apply near_refl; cbn; lra|]. apply (near_weaken 1); auto. apply near_rnd. apply (ppos_R p Ep).
    - destruct Hv as (-> & -> & _ & (r & Hi) & (r' & Hi')). cbn [val_def]. rewrite Hi, Hi'. cbn [option_map fst].
      eexists _, _. split; [reflexivity|]. split; [reflexivity|]. cbn [def_ref].
      change (@unit_ref R F (objs stF) u) with (@unit_ref R NumR (objs stF) u). exact (HE u).
    - destruct Hv as (a & b & -> & -> & Hk). cbn [val_def mag scalar dat qdim]. eexists _, _. split; [reflexivity|]. split; [reflexivity|].
      cbn [def_ref]. unfold qty_ref. cbn [fst snd nmul NumF NumR].
      destruct (ref_pair_near pw Hpw (wR W) (objs stF) (objs stR) d HE) as [G1 G2]. split; [exact G1|].
      rewrite Q2R_red, !Q2R_plus, qroundings_R. replace (Q2R 1) with 1 by (unfold Q2R; cbn; lra). apply near_rnd_of. now apply near_mul.
  Qed.

  Definition knowsW (sh : sstate) (W : counts) : Prop := forall u, known (s_env sh) u = false -> dget uid_eqb W u = None.

  Lemma dcost_pos W s k : (forall u, 0 <= wR W u) -> 0 <= Q2R k -> 0 <= Q2R (dcost W s k).
  Proof.
    clear Hpw. intros HW Hk. destruct s as [p|i u|o d]; cbn [dcost].
    - rewrite Q2R_plus. unfold Q2R at 2; cbn. lra.
    - apply HW.
    - rewrite Q2R_red, !Q2R_plus, qroundings_R. assert (G : 0 <= roundings (wR W) d).
      { induction d as [|[u e] d IH]; cbn [roundings]; [lra|]. pose proof (Rabs_pos (Qc2R (pval e))). pose proof (HW u). nra. }
      unfold Q2R at 2; cbn. lra.
  Qed.
  Lemma knowsW_new sh sh' W c name fd sym usym al k :
    knowsW sh W -> snew sh c name fd sym usym al = Some sh' -> knowsW sh' (W ++ [(UId c name, k)]).
  Proof.
    clear Hpw. intros HW H u Hu. unfold snew in H. destruct (_ && _); [|discriminate].
    apply (f_equal (option_map s_env)) in H. cbn [option_map s_env] in H.
    assert (E : s_env sh' = s_env sh ++ [(UId c name, match fd with
                                         | Some (q, d) => SRec q d true sym usym
                                         | None => SRec (Some 1%Q) (unit_dims (UId c name)) false sym usym
                                         end)]) by congruence.
    unfold known in *. rewrite E, dget_app in Hu. rewrite dget_app. cbn [dget] in *.
    destruct (dget uid_eqb (s_env sh) u) eqn:E1; [discriminate|].
    assert (Hk : known (s_env sh) u = false) by (unfold known; now rewrite E1). rewrite (HW u Hk).
    destruct (uid_eqb u (UId c name)); [discriminate|reflexivity].
  Qed.
  Lemma flock_new W stF stR sh sh' c name dF dR fd sym usym al k parse :
    sim parse stR sh -> lock (wR W) stF stR sh -> knowsW sh W -> 0 <= Q2R k ->
    NoDup (reg_names c name sym al) ->
    snew sh c name fd sym usym al = Some sh' ->
    match dF, dR with
    | None, None => True
    | Some x, Some y => snd (@def_ref R F (objs stF) x) = snd (@def_ref R NumR (objs stR) y) /\
                        near (Q2R k) (fst (@def_ref R F (objs stF) x)) (fst (@def_ref R NumR (objs stR) y))
    | _, _ => False
    end ->
    snd (@create_unit R F stF c name dF sym usym al) = Ok (VUnit (length (objs stF))) /\
    lock (wR (W ++ [(UId c name, k)])) (fst (@create_unit R F stF c name dF sym usym al)) (fst (@create_unit R NumR stR c name dR sym usym al)) sh'.
  Proof.
    intros HS HL HW Hk Hn H Hm. unfold snew in H.
    destruct (known (s_env sh) (UId c name)) eqn:Ek; [discriminate|]. cbn [negb andb] in H.
    destruct (forallb _ (reg_names c name sym al)) eqn:Ef; [|discriminate].
    pose proof (f_equal (option_map s_dflt) H) as H'. cbn [option_map s_dflt] in H'.
    apply (f_equal (option_map s_ctx)) in H. cbn [option_map s_ctx] in H.
    assert (Ec : s_ctx sh' = s_ctx sh ++ map (fun s => (s, length (s_env sh))) (reg_names c name sym al)) by congruence. clear H.
    assert (Hf : forall s, In s (reg_names c name sym al) -> ctx_get stF s = None).
    { intros s Hs. rewrite (lk_ctx _ _ _ _ HL). rewrite forallb_forall in Ef. specialize (Ef s Hs). destruct (dget teqb (s_ctx sh) s); [discriminate|auto]. }
    destruct (@create_fresh R F stF c name dF sym usym al Hn Hf) as [Hok Hctx]. split; [exact Hok|].
    assert (Hlen : length (objs stF) = length (s_env sh)).
    { rewrite <- (env_len _ _ (sim_env _ _ _ HS)). clear -HL. destruct HL as [HL _ _ _]. induction HL; cbn; auto. }
    assert (Hw : forall u, u <> UId c name -> wR (W ++ [(UId c name, k)]) u = wR W u).
    { intros u Hu. unfold wR, wq. rewrite dget_app. cbn [dget]. destruct (dget uid_eqb W u); auto.
      destruct (uid_eqb u (UId c name)) eqn:E; auto. apply uid_eqb_eq in E. contradiction. }
    assert (Hw' : wR (W ++ [(UId c name, k)]) (UId c name) = Q2R k).
    { unfold wR, wq. rewrite dget_app, (HW _ Ek). cbn [dget].
      replace (uid_eqb (UId c name) (UId c name)) with true by (symmetry; now apply uid_eqb_eq). reflexivity. }
    constructor.
    - destruct (@create_unit_objs R F stF c name dF sym usym al) as [o1 E1]. destruct (@create_unit_objs R NumR stR c name dR sym usym al) as [o2 E2].
      rewrite E1, E2. apply Forall2_app.
      + pose proof (lk_env _ _ _ _ HL) as HE.
        assert (Hin : forall o, In o (objs stR) -> fst o <> UId c name).
        { intros [u r] Ho Eu. cbn [fst] in Eu. subst u. apply (in_map fst) in Ho.
          apply (env_keys _ _ _ (sim_env _ _ _ HS)) in Ho. cbn [fst] in Ho. congruence. }
        clear -HE Hin Hw. induction HE as [|o o' E E' H HE IH]; constructor.
        * destruct H as (H1 & H2 & H3). split; [auto|]. split; [auto|]. rewrite Hw; auto. rewrite (proj1 H1). apply Hin. now left.
        * apply IH. intros x Hx. apply Hin. now right.
      + constructor; [|constructor]. split.
        { split; [reflexivity|]. cbn [snd ur_ref new_unit]. destruct dF as [x|], dR as [y|]; try contradiction; cbn [option_map]; split; auto; discriminate. }
        cbn [fst snd]. rewrite Hw'. unfold own_ref. cbn [ur_ref new_unit].
        destruct dF as [x|], dR as [y|]; try contradiction; cbn [option_map]; auto.
        cbn [fst snd]. split; [reflexivity|]. apply (near_weaken 0); auto. apply near_refl. lra.
    - intros s. rewrite Hctx, Ec, dget_app, (lk_ctx _ _ _ _ HL). destruct (dget teqb (s_ctx sh) s) as [i|]; cbn [option_map]; auto.
      rewrite dget_names. destruct (existsb (teqb s) (reg_names c name sym al)); cbn [option_map]; auto. now rewrite Hlen.
    - intros u. destruct (uid_eqb u (UId c name)) eqn:E.
      + apply uid_eqb_eq in E. subst u. now rewrite Hw'.
      + rewrite Hw; [apply (lk_w _ _ _ _ HL)|]. intros ->. replace (uid_eqb (UId c name) (UId c name)) with true in E by (symmetry; now apply uid_eqb_eq). discriminate.
    - intros c'. rewrite (create_unit_dflt _ _ _ _ _ _ _ _ Hok). rewrite (dflt_new _ _ _ _ (lk_dflt _ _ _ _ HL)). f_equal. congruence.
  Qed.

  Theorem fstep parse W stF stR sh sh' e k : sim parse stR sh -> lock (wR W) stF stR sh -> knowsW sh W ->
    sstep parse sh e = Some sh' -> ecount parse sh W e = Some k ->
    exists stF' stR' vF v, @tstep R F parse stF e = (stF', Ok vF) /\ @tstep R NumR parse stR e = (stR', Ok v) /\
      sim parse stR' sh' /\ lock (wR (W ++ [(entry_uid e, k)])) stF' stR' sh' /\ knowsW sh' (W ++ [(entry_uid e, k)]).
  Proof.
    intros HS HL HW H Hk. destruct (sstep_ok parse stR sh e sh' HS H) as (stR' & ER & HS').
    unfold ecount in Hk. destruct (nodupb (entry_names e)) eqn:En; [|discriminate]. apply nodupb_ok in En.
    assert (Hdef : forall x k, defcost sh W x = Some k -> forall fd, sdef_of sh x = Some fd ->
      exists vF v dF dR, @eval R F stF x = Ok vF /\ @eval R NumR stR x = Ok v /\ product x /\
        @val_def R F stF vF = Some dF /\ @val_def R NumR stR v = Some dR /\ 0 <= Q2R k /\
        snd (@def_ref R F (objs stF) dF) = snd (@def_ref R NumR (objs stR) dR) /\
        near (Q2R k) (fst (@def_ref R F (objs stF) dF)) (fst (@def_ref R NumR (objs stR) dR))).
    { clear k Hk. intros x k Hd fd Hfd. unfold defcost, sdef_of in *. destruct (seval sh x) as [s|] eqn:Es; [|discriminate].
      destruct (ecost x) as [kx|] eqn:Ex; [|discriminate]. assert (k = dcost W s kx) as -> by congruence.
      destruct (feval parse _ stF stR sh x HS HL s kx Es Ex) as (vF & v & E1 & E2 & Hv).
      destruct (fdef W stF stR sh vF v s kx fd HL Hv Hfd) as (dF & dR & D1 & D2 & D3 & D4).
      destruct (seval_ok parse stR sh x HS s Es) as (Hp & _).
      exists vF, v, dF, dR. repeat (split; [assumption|]). split; [|auto]. apply dcost_pos; [apply (lk_w _ _ _ _ HL)|]. eapply ecost_pos; eauto. }
    destruct e as [c name [x|] sym usym al|name]; cbn [sstep tstep entry_uid entry_names] in *.
    - destruct (ucls_eqb c CCompound || ucls_eqb c CDimless); [discriminate|].
      destruct (sdef_of sh x) as [fd|] eqn:Ed; [|discriminate].
      destruct (Hdef x k Hk fd Ed) as (vF & v & dF & dR & E1 & E2 & _ & D1 & D2 & Hk0 & D3).
      rewrite E1, D1. rewrite E2, D2 in *.
      destruct (flock_new W stF stR sh sh' c name (Some dF) (Some dR) (Some fd) sym usym al k parse HS HL HW Hk0 En H D3) as [Hok HL'].
      exists (fst (@create_unit R F stF c name (Some dF) sym usym al)), stR', (VUnit (length (objs stF))), (VUnit (length (objs stR))).
      split; [rewrite <- Hok; now destruct (@create_unit R F stF c name (Some dF) sym usym al)|]. split; [exact ER|]. split; [exact HS'|].
      rewrite ER in HL'. split; [exact HL'|]. exact (knowsW_new sh sh' W c name (Some fd) sym usym al k HW H).
    - destruct (ucls_eqb c CCompound); [discriminate|]. assert (k = 0%Q) as -> by congruence.
      assert (Hk0 : 0 <= Q2R 0) by (unfold Q2R; cbn; lra).
      destruct (flock_new W stF stR sh sh' c name None None None sym usym al 0%Q parse HS HL HW Hk0 En H I) as [Hok HL'].
      exists (fst (@create_unit R F stF c name None sym usym al)), stR', (VUnit (length (objs stF))), (VUnit (length (objs stR))).
      split; [rewrite <- Hok; now destruct (@create_unit R F stF c name None sym usym al)|]. split; [exact ER|]. split; [exact HS'|].
      rewrite ER in HL'. split; [exact HL'|]. exact (knowsW_new sh sh' W c name None sym usym al 0%Q HW H).
    - destruct (parse (preprocess (T name))) as [x|] eqn:Ep; [|discriminate].
      destruct (sdef_of sh x) as [fd|] eqn:Ed; [|discriminate].
      destruct (Hdef x k Hk fd Ed) as (vF & v & dF & dR & E1 & E2 & Hp & D1 & D2 & Hk0 & D3).
      assert (EcF : @create_compound R F parse stF name = @create_unit R F stF CCompound name (Some dF) None None []).
      { unfold create_compound, get_item, inner_get. rewrite Ep. cbn [bind]. rewrite (product_valid x Hp), E1. cbn [catch]. now rewrite D1. }
      assert (EcR : @create_compound R NumR parse stR name = @create_unit R NumR stR CCompound name (Some dR) None None []).
      { unfold create_compound, get_item, inner_get. rewrite Ep. cbn [bind]. rewrite (product_valid x Hp), E2. cbn [catch]. now rewrite D2. }
      rewrite EcF. rewrite EcR in *.
      destruct (flock_new W stF stR sh sh' CCompound name (Some dF) (Some dR) (Some fd) None None [] k parse HS HL HW Hk0 En H D3) as [Hok HL'].
      exists (fst (@create_unit R F stF CCompound name (Some dF) None None [])), stR', (VUnit (length (objs stF))), (VUnit (length (objs stR))).
      split; [rewrite <- Hok; now destruct (@create_unit R F stF CCompound name (Some dF) None None [])|]. split; [exact ER|]. split; [exact HS'|].
      rewrite ER in HL'. split; [exact HL'|]. exact (knowsW_new sh sh' W CCompound name (Some fd) None None [] k HW H).
  Qed.
  Theorem frun parse l : forall W stF stR sh sh' W', sim parse stR sh -> lock (wR W) stF stR sh -> knowsW sh W ->
    crun parse sh W l = Some (sh', W') ->
    exists stF' stR', @trun R F parse stF l = (stF', Ok tt) /\ @trun R NumR parse stR l = (stR', Ok tt) /\
      sim parse stR' sh' /\ lock (wR W') stF' stR' sh'.
  Proof.
    induction l as [|e l IH]; intros W stF stR sh sh' W' HS HL HW H; cbn [crun trun] in *.
    - injection H as <- <-. exists stF, stR. auto.
    - destruct (sstep parse sh e) as [sh1|] eqn:E1; [|discriminate]. destruct (ecount parse sh W e) as [k|] eqn:E2; [|discriminate].
      destruct (fstep parse W stF stR sh sh1 e k HS HL HW E1 E2) as (stF1 & stR1 & vF & v & -> & -> & HS1 & HL1 & HW1). eapply IH; eauto.
  Qed.
  Lemma lock_empty : lock (wR []) rempty rempty sempty.
  Proof.
    clear Hpw. constructor; [constructor|reflexivity| |reflexivity]. intros u. unfold wR, wq, Q2R. cbn. lra.
  Qed.
End Run.
