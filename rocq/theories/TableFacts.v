(** * TableFacts: a checker for tables of units, and its soundness.

    The checker runs through a table with rational (or unknown) factors instead of real
    numbers.  If it succeeds, then creating the units over the real numbers succeeds. *)
From Coq Require Import Reals Lra Lia Qreals Ascii NArith.
From Verif Require Import Py Num Dim DimFacts Arr Units Spec UnitFacts Quant QuantFacts Ufunc Ops OpsFacts
     Text Markup Lex LexFacts Registry RegFacts RegEq Props_Registry UncertFacts SpecPickle PickleFacts HistFacts Table Import.

Open Scope list_scope.
Open Scope R_scope.

(** ** Known and unknown positive factors *)
Fixpoint qpn (q : Q) (n : nat) : Q := match n with O => 1%Q | S m => Qred (q * qpn q m) end.
Definition qpz (q : Q) (z : Z) : Q :=
  match z with Z0 => 1%Q | Zpos p => qpn q (Pos.to_nat p) | Zneg p => Qred (/ qpn q (Pos.to_nat p)) end.

Definition factor := option Q.
Definition frel (a : R) (o : factor) : Prop := 0 < a /\ forall q, o = Some q -> a = Q2R q.
Definition fmul (a b : factor) : factor :=
  match a, b with Some x, Some y => Some (Qred (x * y)) | _, _ => None end.
Definition fdiv (a b : factor) : factor :=
  match a, b with Some x, Some y => Some (Qred (x / y)) | _, _ => None end.
Definition fpow (a : factor) (p : pynum) : factor :=
  match a with
  | None => None
  | Some x => let e := this (pval p) in
              if Pos.eqb (Qden e) 1 then Some (qpz x (Qnum e))
              else if Qeq_bool x 1 then Some 1%Q else None
  end.

Lemma Q2R_red q : Q2R (Qred q) = Q2R q.
Proof. apply Qeq_eqR, Qred_correct. Qed.
Lemma Q2R_one : Q2R 1%Q = 1.
Proof. unfold Q2R. cbn. lra. Qed.
Lemma qpn_R q n : Q2R (qpn q n) = Q2R q ^ n.
Proof. induction n as [|n IH]; cbn [qpn pow]; [apply Q2R_one|]. now rewrite Q2R_red, Q2R_mult, IH. Qed.
Lemma Q2R_neq0 q : 0 < Q2R q -> ~ (q == 0)%Q.
Proof. intros H E. apply Qeq_eqR in E. unfold Q2R at 2 in E. cbn in E. lra. Qed.
Lemma qpz_R q z : 0 < Q2R q -> Q2R (qpz q z) = powerRZ (Q2R q) z.
Proof.
  intros H. destruct z as [|p|p]; cbn [qpz powerRZ].
  - apply Q2R_one.
  - apply qpn_R.
  - rewrite Q2R_red, Q2R_inv, qpn_R; auto. apply Q2R_neq0. rewrite qpn_R. now apply pow_lt.
Qed.
Lemma frel_one : frel 1 (Some 1%Q).
Proof. split; [lra|]. intros q [= <-]. now rewrite Q2R_one. Qed.
Lemma frel_mul a b x y : frel a x -> frel b y -> frel (a * b) (fmul x y).
Proof.
  intros [Ha Hx] [Hb Hy]. split; [now apply Rmult_lt_0_compat|].
  intros q. destruct x as [x|], y as [y|]; cbn [fmul]; try discriminate. intros E.
  assert (q = Qred (x * y)) as -> by congruence.
  rewrite Q2R_red, Q2R_mult, <- (Hx x), <- (Hy y) by reflexivity. reflexivity.
Qed.
Lemma frel_div a b x y : frel a x -> frel b y -> frel (a / b) (fdiv x y).
Proof.
  intros [Ha Hx] [Hb Hy]. split; [apply Rdiv_lt_0_compat; auto|].
  intros q. destruct x as [x|], y as [y|]; cbn [fdiv]; try discriminate. intros E.
  assert (q = Qred (x / y)) as -> by congruence.
  rewrite Q2R_red, Q2R_div, <- (Hx x), <- (Hy y) by (try reflexivity; apply Q2R_neq0; rewrite <- (Hy y); auto).
  reflexivity.
Qed.
Lemma frel_pow a x p : frel a x -> frel (rpow a p) (fpow x p).
Proof.
  intros [Ha Hx]. split; [now apply rpow_pos|].
  intros q. destruct x as [x|]; cbn [fpow]; [|discriminate].
  specialize (Hx x eq_refl). unfold rpow. destruct (Pos.eqb (Qden (this (pval p))) 1) eqn:Ed.
  - intros [= <-]. rewrite qpz_R by (rewrite <- Hx; auto). now rewrite Hx.
  - destruct (Qeq_bool x 1) eqn:E1; [|discriminate]. intros [= <-]. apply Qeq_bool_eq, Qeq_eqR in E1.
    rewrite Q2R_one in *. rewrite Hx, E1. destruct (Req_EM_T 1 0); [lra|]. unfold Rpower. rewrite ln_1, Rmult_0_r. apply exp_0.
Qed.

(** ** The checker *)
Record srec : Type := SRec { sr_q : factor; sr_d : dims; sr_def : bool; sr_sym : option string; sr_usym : option string }.
Record sstate : Type := SState { s_env : list (uid * srec); s_ctx : list (text * nat); s_dflt : list (ucls * dims) }.
Definition sempty : sstate := SState [] [] [].

Definition sref (E : list (uid * srec)) (u : uid) : factor * dims :=
  match dget uid_eqb E u with Some x => (sr_q x, sr_d x) | None => (Some 1%Q, unit_dims u) end.
Definition sref_step (E : list (uid * srec)) (acc : factor * dims) (kv : uid * pynum) : factor * dims :=
  let '(u, d) := kv in
  (fmul (fst acc) (fpow (fst (sref E u)) d), dim_mul (snd acc) (dim_pow (snd (sref E u)) d)).
Definition sref_pair (E : list (uid * srec)) (d : dims) : factor * dims :=
  fold_left (sref_step E) d (Some 1%Q, []).

Inductive sval : Type := SNum (p : pynum) | SUnit (i : nat) (u : uid) | SQty (o : factor) (d : dims).

Definition ppos (p : pynum) : bool := (0 <? Qnum (this (pval p)))%Z.
Definition sop (s : sval) : option (factor * option dims) :=
  match s with
  | SNum p => if ppos p then Some (Some (this (pval p)), None) else None
  | SUnit _ u => Some (Some 1%Q, Some (unit_dims u))
  | SQty o d => Some (o, Some d)
  end.
Definition sbin (o : binop) (a b : sval) : option sval :=
  match a, b with
  | SNum p, SNum p' => match o with
                       | BMul | BDiv | BPow => match num_bin o p p' with Ok r => Some (SNum r) | Err _ => None end
                       | _ => None
                       end
  | _, _ =>
      match o with
      | BPow => match b, sop a with
                | SNum p, Some (x, Some d) => Some (SQty (fpow x p) (dim_pow d p))
                | _, _ => None
                end
      | BMul => match sop a, sop b with
                | Some (x, Some d), Some (y, Some d') => Some (SQty (fmul x y) (dim_mul d d'))
                | Some (x, Some d), Some (y, None) => Some (SQty (fmul x y) d)
                | Some (x, None), Some (y, Some d') => Some (SQty (fmul x y) d')
                | _, _ => None
                end
      | BDiv => match sop a, sop b with
                | Some (x, Some d), Some (y, Some d') => Some (SQty (fdiv x y) (dim_div d d'))
                | Some (x, Some d), Some (y, None) => Some (SQty (fdiv x y) d)
                | Some (x, None), Some (y, Some d') => Some (SQty (fdiv x y) (dim_pow d' (PInt (-1))))
                | _, _ => None
                end
      | _ => None
      end
  end.
Fixpoint seval (sh : sstate) (e : expr) : option sval :=
  match e with
  | EName s => match dget teqb (s_ctx sh) s with
               | Some i => match nth_error (s_env sh) i with Some (u, _) => Some (SUnit i u) | None => None end
               | None => None
               end
  | ENum p => Some (SNum p)
  | EUn UNeg (ENum p) => Some (SNum (pneg p))
  | EBin o a b => match seval sh a, seval sh b with Some x, Some y => sbin o x y | _, _ => None end
  | _ => None
  end.

Definition known (E : list (uid * srec)) (u : uid) : bool :=
  match dget uid_eqb E u with Some _ => true | None => false end.
(** The reference of the unit defined by a value. *)
Definition sdef (E : list (uid * srec)) (s : sval) : option (factor * dims) :=
  match s with
  | SNum p => if ppos p then Some (fmul (Some 1%Q) (Some (this (pval p))), []) else None
  | SUnit _ u => Some (sref E u)
  | SQty o d => if wf_dimsb d && forallb (fun u => known E u && negb (ucls_eqb (u_cls u) CDimless)) (dkeys d)
                then Some (fmul (fst (sref_pair E d)) o, snd (sref_pair E d)) else None
  end.

Definition snew (sh : sstate) (c : ucls) (name : string) (df : option (factor * dims))
           (sym usym : option string) (al : list string) : option sstate :=
  let u := UId c name in
  let names := reg_names c name sym al in
  if negb (known (s_env sh) u)
     && forallb (fun s => match dget teqb (s_ctx sh) s with None => true | Some _ => false end) names
  then Some {| s_env := s_env sh ++ [(u, match df with
                                         | Some (q, d) => SRec q d true sym usym
                                         | None => SRec (Some 1%Q) (unit_dims u) false sym usym
                                         end)];
               s_ctx := s_ctx sh ++ map (fun s => (s, length (s_env sh))) names;
               s_dflt := if is_irreducible c
                         then match dget ucls_eqb (s_dflt sh) c with
                              | None => s_dflt sh ++ [(c, unit_dims u)]
                              | Some _ => s_dflt sh
                              end
                         else s_dflt sh |}
  else None.
Definition sdef_of (sh : sstate) (x : expr) : option (factor * dims) :=
  match seval sh x with Some s => sdef (s_env sh) s | None => None end.
Definition sstep (parse : text -> res expr) (sh : sstate) (e : tentry) : option sstate :=
  match e with
  | TNew c name None sym usym al =>
      if ucls_eqb c CCompound then None else snew sh c name None sym usym al
  | TNew c name (Some x) sym usym al =>
      if ucls_eqb c CCompound || ucls_eqb c CDimless then None
      else match sdef_of sh x with
           | Some r => snew sh c name (Some r) sym usym al
           | None => None
           end
  | TComp name =>
      match parse (preprocess (T name)) with
      | Ok x => match sdef_of sh x with
                | Some r => snew sh CCompound name (Some r) None None []
                | None => None
                end
      | Err _ => None
      end
  end.
Fixpoint srun (parse : text -> res expr) (sh : sstate) (l : list tentry) : option sstate :=
  match l with
  | [] => Some sh
  | e :: l' => match sstep parse sh e with Some sh' => srun parse sh' l' | None => None end
  end.

(** ** Soundness *)
Definition own_ref (u : uid) (r : urec R) : R * dims :=
  match ur_ref r with Some x => x | None => (1, unit_dims u) end.
Definition rmatch (o : uid * urec R) (x : uid * srec) : Prop :=
  fst o = fst x /\ frel (fst (own_ref (fst o) (snd o))) (sr_q (snd x)) /\ snd (own_ref (fst o) (snd o)) = sr_d (snd x) /\
  ur_symbol (snd o) = sr_sym (snd x) /\ ur_usymbol (snd o) = sr_usym (snd x) /\
  (if sr_def (snd x) then ur_def (snd o) <> None else ur_def (snd o) = None).

Record sim (parse : text -> res expr) (st : rstate R) (sh : sstate) : Prop := Sim {
  sim_hist : history parse st;
  sim_env : Forall2 rmatch (objs st) (s_env sh);
  sim_ctx : forall s, ctx_get st s = option_map (fun i => VUnit i) (dget teqb (s_ctx sh) s);
  sim_idx : forall s i, dget teqb (s_ctx sh) s = Some i -> (i < length (s_env sh))%nat;
  sim_dflt : forall c, dflt st c = dget ucls_eqb (s_dflt sh) c
}.

Lemma env_nth E S : Forall2 rmatch E S -> forall i u x, nth_error S i = Some (u, x) ->
  exists r, nth_error E i = Some (u, r) /\ rmatch (u, r) (u, x).
Proof.
  induction 1 as [|[u0 r0] [u1 x1] E S H HF IH]; intros i u x Hi; [destruct i; discriminate|].
  destruct i as [|i]; cbn [nth_error] in *; [|eauto].
  assert (u1 = u /\ x1 = x) as [-> ->] by (split; congruence).
  pose proof (proj1 H) as Hu. cbn [fst] in Hu. subst u0. eauto.
Qed.
Lemma env_len E S : Forall2 rmatch E S -> length E = length S.
Proof. induction 1; cbn; auto. Qed.
Lemma env_get E S u : Forall2 rmatch E S ->
  match dget uid_eqb S u with
  | Some x => exists r, ulookup E u = Some r /\ rmatch (u, r) (u, x)
  | None => ulookup E u = None
  end.
Proof.
  induction 1 as [|[u0 r0] [u1 x1] E S H HF IH]; cbn [dget]; [reflexivity|].
  pose proof (proj1 H) as Hu. cbn [fst] in Hu. subst u1. unfold ulookup in *. cbn [dget].
  destruct (uid_eqb u u0) eqn:Eu; [|exact IH]. apply uid_eqb_eq in Eu. subst u0. eauto.
Qed.
Lemma env_ref E S u : Forall2 rmatch E S ->
  frel (fst (unit_ref E u)) (fst (sref S u)) /\ snd (unit_ref E u) = snd (sref S u).
Proof.
  intros H. pose proof (env_get E S u H) as G. unfold sref, unit_ref. destruct (dget uid_eqb S u) as [x|].
  - destruct G as (r & -> & (_ & G1 & G2 & _)). cbn [fst snd] in *. unfold own_ref in *. auto.
  - rewrite G. cbn [fst snd]. split; [apply frel_one|reflexivity].
Qed.
Lemma env_ref_pair E S d : Forall2 rmatch E S ->
  frel (fst (ref_pair E d)) (fst (sref_pair S d)) /\ snd (ref_pair E d) = snd (sref_pair S d).
Proof.
  intros H. unfold ref_pair, sref_pair.
  assert (G : forall acc sacc, frel (fst acc) (fst sacc) -> snd acc = snd sacc ->
    frel (fst (fold_left (ref_step E) d acc)) (fst (fold_left (sref_step S) d sacc)) /\
    snd (fold_left (ref_step E) d acc) = snd (fold_left (sref_step S) d sacc)).
  { induction d as [|[u e] d IH]; intros acc sacc H1 H2; cbn [fold_left]; [auto|].
    destruct (env_ref E S u H) as [R1 R2]. apply IH; cbn [ref_step sref_step fst snd].
    - apply frel_mul; auto. now apply frel_pow.
    - now rewrite H2, R2. }
  apply G; [apply frel_one|reflexivity].
Qed.
Lemma env_keys E S u : Forall2 rmatch E S -> (known S u = true <-> In u (dkeys E)).
Proof.
  intros H. pose proof (env_get E S u H) as G. unfold known. destruct (dget uid_eqb S u) as [x|].
  - destruct G as (r & Hr & _). split; auto. intros _. destruct (in_dec uid_eq_dec u (dkeys E)) as [Hi|Hi]; auto.
    exfalso. apply ulookup_None in Hi. congruence.
  - split; [discriminate|]. intros Hi. exfalso. revert Hi. now apply ulookup_None.
Qed.

(** *** Evaluation *)
Definition vmatch (st : rstate R) (v : value R) (s : sval) : Prop :=
  match s with
  | SNum p => v = VNum p
  | SUnit i u => v = VUnit i /\ exists r, nth_error (objs st) i = Some (u, r)
  | SQty o d => exists a, v = VQty (Qty (scalar a) d) /\ frel a o
  end.

Lemma ppos_R p : ppos p = true -> frel (Qc2R (pval p)) (Some (this (pval p))).
Proof.
  unfold ppos. intros H. apply Z.ltb_lt in H. split; [|intros q [= <-]; reflexivity].
  unfold Qc2R, Q2R. apply Rmult_lt_0_compat; [now apply IZR_lt|]. apply Rinv_0_lt_compat. now apply IZR_lt.
Qed.
(** The operand of an arithmetic operator that a value stands for. *)
Lemma vmatch_op st v s x od : vmatch st v s -> sop s = Some (x, od) ->
  exists a, frel a x /\
    match od with
    | Some d => val_operand st v = Some (OQ (Qty (scalar a) d)) /\ (forall p, v <> VNum p) /\ val_q st v = Some (Qty (scalar a) d)
    | None => val_operand st v = Some (OArr (scalar a)) /\ exists p, v = VNum p
    end.
Proof.
  destruct s as [p|i u|o d]; cbn [vmatch sop].
  - intros ->. destruct (ppos p) eqn:Ep; [|discriminate]. intros [= <- <-]. exists (Qc2R (pval p)).
    split; [now apply ppos_R|]. cbn [val_operand nofQ NumR]. eauto.
  - intros [-> (r & Hi)] [= <- <-]. exists 1. split; [apply frel_one|]. unfold val_operand, val_q. rewrite Hi.
    cbn [option_map]. unfold unit_q, one_q. split; [reflexivity|]. split; [discriminate|reflexivity].
  - intros (a & -> & Ha) [= <- <-]. exists a. split; auto. cbn [val_operand val_q option_map].
    split; [reflexivity|]. split; [discriminate|reflexivity].
Qed.
Lemma sop_num p x d : sop (SNum p) = Some (x, Some d) -> False.
Proof. cbn [sop]. destruct (ppos p); discriminate. Qed.

Lemma sbin_ok st o va vb a b s : vmatch st va a -> vmatch st vb b -> sbin o a b = Some s ->
  exists v, v_bin st o va vb = Ok v /\ vmatch st v s.
Proof.
  intros Ha Hb H.
  assert (Hnn : (exists p p', a = SNum p /\ b = SNum p') \/ ~ (exists p p', a = SNum p /\ b = SNum p')).
  { destruct a, b; [left; eauto|..]; right; intros (? & ? & ? & ?); discriminate. }
  destruct Hnn as [(p & p' & -> & ->)|Hnn].
  - cbn [vmatch] in *. subst va vb. cbn [sbin] in H. cbn [v_bin].
    assert (Hr : exists r, num_bin o p p' = Ok r /\ s = SNum r).
    { destruct o; try discriminate; destruct (num_bin _ p p') as [r|]; try discriminate; injection H as <-; eauto. }
    destruct Hr as (r & -> & ->). cbn [rmap]. eexists. split; reflexivity.
  - assert (Hs : sbin o a b = match o with
      | BPow => match b, sop a with
                | SNum p, Some (x, Some d) => Some (SQty (fpow x p) (dim_pow d p))
                | _, _ => None
                end
      | BMul => match sop a, sop b with
                | Some (x, Some d), Some (y, Some d') => Some (SQty (fmul x y) (dim_mul d d'))
                | Some (x, Some d), Some (y, None) => Some (SQty (fmul x y) d)
                | Some (x, None), Some (y, Some d') => Some (SQty (fmul x y) d')
                | _, _ => None
                end
      | BDiv => match sop a, sop b with
                | Some (x, Some d), Some (y, Some d') => Some (SQty (fdiv x y) (dim_div d d'))
                | Some (x, Some d), Some (y, None) => Some (SQty (fdiv x y) d)
                | Some (x, None), Some (y, Some d') => Some (SQty (fdiv x y) (dim_pow d' (PInt (-1))))
                | _, _ => None
                end
      | _ => None
      end).
    { destruct a, b; try reflexivity. exfalso. apply Hnn. eauto. }
    rewrite Hs in H. clear Hs.
    assert (Hv : v_bin st o va vb = match o with
        | BPow => rmap (@VQty R) (q_power st va vb)
        | _ => match val_operand st va, val_operand st vb with
               | Some x, Some y => rmap (@VQty R) (q_bin (objs st) o x y)
               | _, _ => Err Unmodelled
               end
        end).
    { destruct va as [p|?|?|?|?]; try reflexivity. destruct vb as [p'|?|?|?|?]; try reflexivity. exfalso. apply Hnn.
      assert (Hx : forall w c, vmatch st (VNum w) c -> exists p0, c = SNum p0).
      { intros w [p0|i u|o' d] Hc; cbn [vmatch] in Hc; [eauto| |]; [destruct Hc; discriminate|destruct Hc as (? & ? & _); discriminate]. }
      destruct (Hx _ _ Ha) as [? ->]. destruct (Hx _ _ Hb) as [? ->]. eauto. }
    rewrite Hv. clear Hv. destruct o; try discriminate.
    + destruct (sop a) as [[x [d|]]|] eqn:Ea; try discriminate; destruct (sop b) as [[y [d'|]]|] eqn:Eb; try discriminate; injection H as <-.
      * destruct (vmatch_op st va a x _ Ha Ea) as (r & Hr & -> & _). destruct (vmatch_op st vb b y _ Hb Eb) as (r' & Hr' & -> & _).
        cbn [q_bin]. unfold q_mul, apply2. cbn [odat mag]. rewrite amap2_scalar_r by reflexivity. cbn [bind pd2 qdim rmap].
        eexists. split; [reflexivity|]. exists (r * r'). split; [reflexivity|]. now apply frel_mul.
      * destruct (vmatch_op st va a x _ Ha Ea) as (r & Hr & -> & _). destruct (vmatch_op st vb b y _ Hb Eb) as (r' & Hr' & -> & _).
        cbn [q_bin]. unfold q_mul, apply2. cbn [odat mag]. rewrite amap2_scalar_r by reflexivity. cbn [bind pd2 qdim rmap].
        eexists. split; [reflexivity|]. exists (r * r'). split; [reflexivity|]. now apply frel_mul.
      * destruct (vmatch_op st va a x _ Ha Ea) as (r & Hr & -> & _). destruct (vmatch_op st vb b y _ Hb Eb) as (r' & Hr' & -> & _).
        cbn [q_bin]. unfold q_mul, apply2. cbn [odat mag]. rewrite amap2_scalar_r by reflexivity. cbn [bind pd2 qdim rmap].
        eexists. split; [reflexivity|]. exists (r * r'). split; [reflexivity|]. now apply frel_mul.
    + destruct (sop a) as [[x [d|]]|] eqn:Ea; try discriminate; destruct (sop b) as [[y [d'|]]|] eqn:Eb; try discriminate; injection H as <-.
      * destruct (vmatch_op st va a x _ Ha Ea) as (r & Hr & -> & _). destruct (vmatch_op st vb b y _ Hb Eb) as (r' & Hr' & -> & _).
        cbn [q_bin]. unfold q_div, apply2. cbn [odat mag]. rewrite amap2_scalar_r by reflexivity. cbn [bind pd2 qdim rmap].
        eexists. split; [reflexivity|]. exists (r / r'). split; [reflexivity|]. now apply frel_div.
      * destruct (vmatch_op st va a x _ Ha Ea) as (r & Hr & -> & _). destruct (vmatch_op st vb b y _ Hb Eb) as (r' & Hr' & -> & _).
        cbn [q_bin]. unfold q_div, apply2. cbn [odat mag]. rewrite amap2_scalar_r by reflexivity. cbn [bind pd2 qdim rmap].
        eexists. split; [reflexivity|]. exists (r / r'). split; [reflexivity|]. now apply frel_div.
      * destruct (vmatch_op st va a x _ Ha Ea) as (r & Hr & -> & _). destruct (vmatch_op st vb b y _ Hb Eb) as (r' & Hr' & -> & _).
        cbn [q_bin]. unfold q_div, apply2. cbn [odat mag]. rewrite amap2_scalar_r by reflexivity. cbn [bind pd2 qdim rmap].
        eexists. split; [reflexivity|]. exists (r / r'). split; [reflexivity|]. now apply frel_div.
    + destruct b as [p| |]; try discriminate. destruct (sop a) as [[x [d|]]|] eqn:Ea; try discriminate. injection H as <-.
      destruct (vmatch_op st va a x _ Ha Ea) as (r & Hr & _ & _ & Hq). cbn [vmatch] in Hb. subst vb.
      unfold q_power. rewrite Hq. replace (val_q st (VNum p)) with (@None (qty R)) by reflexivity.
      rewrite (q_pow_scalar (Qty (scalar r) d) p eq_refl). cbn [rmap qdim mag].
      eexists. split; [reflexivity|]. exists (rpow r p). split; [reflexivity|]. now apply frel_pow.
Qed.
Lemma seval_ok parse st sh e : sim parse st sh -> forall s, seval sh e = Some s ->
  product e /\ exists v, eval st e = Ok v /\ vmatch st v s.
Proof.
  intros HS. induction e as [t|p|c|o a IHa b IHb|o a IHa|k l]; intros s H; cbn [seval eval] in *; try discriminate.
  - split; [constructor|]. rewrite (sim_ctx _ _ _ HS). destruct (dget teqb (s_ctx sh) t) as [i|]; [|discriminate].
    destruct (nth_error (s_env sh) i) as [[u x]|] eqn:Ei; [|discriminate]. injection H as <-. cbn [option_map].
    eexists. split; [reflexivity|]. cbn [vmatch]. split; auto.
    destruct (env_nth _ _ (sim_env _ _ _ HS) i u x Ei) as (r & Hr & _). eauto.
  - injection H as <-. split; [constructor|]. eexists. split; reflexivity.
  - destruct (seval sh a) as [x|]; [|discriminate]. destruct (seval sh b) as [y|]; [|discriminate].
    destruct (IHa _ eq_refl) as (Pa & va & -> & Ha). destruct (IHb _ eq_refl) as (Pb & vb & -> & Hb). cbn [bind].
    split; [|eapply sbin_ok; eauto]. constructor; auto.
    destruct o; cbn; auto; exfalso; destruct x, y; discriminate.
  - destruct o; try discriminate. destruct a; try discriminate. injection H as <-. split; [constructor|].
    cbn [eval bind v_un]. eexists. split; reflexivity.
Qed.
Lemma sdef_ok parse st sh v s fd : sim parse st sh -> vmatch st v s -> sdef (s_env sh) s = Some fd ->
  exists df, val_def st v = Some df /\ def_ok (fun a => 0 < a) (objs st) df /\
    frel (fst (def_ref (objs st) df)) (fst fd) /\ snd (def_ref (objs st) df) = snd fd.
Proof.
  intros HS Hv H. pose proof (sim_env _ _ _ HS) as HE. destruct s as [p|i u|o d]; cbn [vmatch sdef] in *.
  - subst v. destruct (ppos p) eqn:Ep; [|discriminate].
    assert (fd = (fmul (Some 1%Q) (Some (this (pval p))), [])) as -> by congruence. cbn [val_def nofQ NumR].
    eexists. split; [reflexivity|]. pose proof (ppos_R p Ep) as G. split; [|split].
    + cbn [def_ok]. split; [apply G|]. split; [apply wf_nil|intros x []].
    + exact (frel_mul _ _ _ _ frel_one G).
    + reflexivity.
  - destruct Hv as [-> (r & Hi)]. injection H as <-. cbn [val_def]. rewrite Hi. cbn [option_map fst].
    eexists. split; [reflexivity|]. split; [|cbn [def_ref]; now apply env_ref].
    cbn [def_ok]. unfold dkeys. apply in_map_iff. exists (u, r). split; auto. eapply nth_error_In; eauto.
  - destruct Hv as (a & -> & Ha). destruct (wf_dimsb d) eqn:Ew; [|discriminate].
    destruct (forallb _ (dkeys d)) eqn:Ef; [|discriminate]. cbn [andb] in H. injection H as <-.
    cbn [val_def mag scalar dat qdim]. eexists. split; [reflexivity|].
    destruct (env_ref_pair _ _ d HE) as [G1 G2]. split; [|split].
    + cbn [def_ok]. split; [apply Ha|]. split; [now apply wf_dimsb_true|]. intros u Hu.
      rewrite forallb_forall in Ef. specialize (Ef u Hu). apply andb_prop in Ef. destruct Ef as [E1 E2].
      split; [now apply (env_keys _ _ _ HE)|]. intros Hc. rewrite Hc in E2. discriminate.
    + cbn [def_ref qty_ref fst nmul NumR]. now apply frel_mul.
    + exact G2.
Qed.

(** *** Creation *)
Lemma dget_app {K V} (keq : K -> K -> bool) (l l' : list (K * V)) k :
  dget keq (l ++ l') k = match dget keq l k with Some v => Some v | None => dget keq l' k end.
Proof. induction l as [|[k' v] l IH]; cbn [app dget]; auto. destruct (keq k k'); auto. Qed.
Lemma dget_names (l : list text) (i : nat) s :
  dget teqb (map (fun s => (s, i)) l) s = if existsb (teqb s) l then Some i else None.
Proof. induction l as [|t l IH]; cbn [map dget existsb]; auto. destruct (teqb s t); auto. Qed.
Lemma create_unit_dflt {A} {N : Num A} (st : rstate A) c name df sym usym al v :
  snd (create_unit st c name df sym usym al) = Ok v ->
  forall c', dflt (fst (create_unit st c name df sym usym al)) c' =
    if is_irreducible c then match dflt st c with
                             | None => if ucls_eqb c c' then Some (unit_dims (UId c name)) else dflt st c'
                             | Some _ => dflt st c'
                             end
    else dflt st c'.
Proof.
  unfold create_unit. set (st0 := new_obj st c name df sym usym al). set (l := reg_names c name sym al).
  pose proof (set_items_same l st0 (VUnit (length (objs st)))) as (_ & _ & S3).
  destruct (set_items st0 l (VUnit (length (objs st)))) as [st1 [x|e]]; cbn [fst snd] in *; [|discriminate].
  intros _ c'. rewrite S3. cbn [dflt new_obj st0]. destruct (is_irreducible c); auto. destruct (dflt st c); auto.
Qed.
Lemma dflt_new (df : ucls -> option dims) l c u : (forall c, df c = dget ucls_eqb l c) -> forall c',
  (if is_irreducible c then match df c with
                            | None => if ucls_eqb c c' then Some (unit_dims u) else df c'
                            | Some _ => df c'
                            end
   else df c') =
  dget ucls_eqb (if is_irreducible c
                 then match dget ucls_eqb l c with None => l ++ [(c, unit_dims u)] | Some _ => l end
                 else l) c'.
Proof.
  intros H c'. rewrite !H. destruct (is_irreducible c); auto.
    destruct (dget ucls_eqb l c) as [d|] eqn:Ed; auto. rewrite dget_app. cbn [dget].
    destruct (ucls_eqb c c') eqn:Ec.
    + apply ucls_eqb_eq in Ec. subst c'. rewrite Ed.
      replace (ucls_eqb c c) with true by (symmetry; now apply ucls_eqb_eq). reflexivity.
    + replace (ucls_eqb c' c) with false.
      2:{ symmetry. destruct (ucls_eqb c' c) eqn:X; auto. apply ucls_eqb_eq in X. subst c'.
          replace (ucls_eqb c c) with true in Ec by (symmetry; now apply ucls_eqb_eq). discriminate. }
      destruct (dget ucls_eqb l c'); reflexivity.
Qed.
Lemma create_ok parse (st : rstate R) sh c name df sym usym al :
  sim parse st sh -> known (s_env sh) (UId c name) = false ->
  (forall s, In s (reg_names c name sym al) -> dget teqb (s_ctx sh) s = None) ->
  (forall x, df = Some x -> c <> CDimless /\ def_ok (fun a => 0 < a) (objs st) x) ->
  snd (create_unit st c name df sym usym al) = Ok (VUnit (length (objs st))) /\ ~ In (UId c name) (dkeys (objs st)).
Proof.
  intros HS Hk Hn Hd. pose proof (history_ok _ _ (sim_hist _ _ _ HS)) as HO.
  assert (Hi : ~ In (UId c name) (dkeys (objs st))).
  { intros X. apply (env_keys _ _ _ (sim_env _ _ _ HS)) in X. congruence. }
  split; auto.
  destruct (C59_clashes_refused st c name df sym usym al (ho_env _ _ HO) (ho_units _ _ HO)) as [[Hok _] _].
  { split; auto. }
  apply Hok. intros s i u r Hs Hc. rewrite (sim_ctx _ _ _ HS), (Hn s Hs) in Hc. discriminate.
Qed.
Lemma snew_sim parse (st st' : rstate R) sh sh' c name df fd sym usym al :
  sim parse st sh -> snew sh c name fd sym usym al = Some sh' ->
  match df, fd with
  | None, None => True
  | Some x, Some y => frel (fst (def_ref (objs st) x)) (fst y) /\ snd (def_ref (objs st) x) = snd y
  | _, _ => False
  end ->
  (forall x, df = Some x -> c <> CDimless /\ def_ok (fun a => 0 < a) (objs st) x) ->
  st' = fst (create_unit st c name df sym usym al) ->
  (snd (create_unit st c name df sym usym al) = Ok (VUnit (length (objs st))) /\ ~ In (UId c name) (dkeys (objs st))) /\
  (history parse st' -> sim parse st' sh').
Proof.
  intros HS H Hm Hd Est. unfold snew in H.
  destruct (known (s_env sh) (UId c name)) eqn:Ek; [discriminate|]. cbn [negb andb] in H.
  destruct (forallb _ (reg_names c name sym al)) eqn:Ef; [|discriminate].
  assert (sh' = {| s_env := s_env sh ++ [(UId c name, match fd with
                                         | Some (q, d) => SRec q d true sym usym
                                         | None => SRec (Some 1%Q) (unit_dims (UId c name)) false sym usym
                                         end)];
               s_ctx := s_ctx sh ++ map (fun s => (s, length (s_env sh))) (reg_names c name sym al);
               s_dflt := if is_irreducible c
                         then match dget ucls_eqb (s_dflt sh) c with
                              | None => s_dflt sh ++ [(c, unit_dims (UId c name))]
                              | Some _ => s_dflt sh
                              end
                         else s_dflt sh |}) as -> by congruence. clear H.
  assert (Hn : forall s, In s (reg_names c name sym al) -> dget teqb (s_ctx sh) s = None).
  { intros s Hs. rewrite forallb_forall in Ef. specialize (Ef s Hs). destruct (dget teqb (s_ctx sh) s); [discriminate|auto]. }
  pose proof (create_ok parse st sh c name df sym usym al HS Ek Hn Hd) as [Hok Hi].
  split; [auto|]. intros Hh. pose proof (env_len _ _ (sim_env _ _ _ HS)) as HL.
  constructor; auto.
  - destruct (create_unit_objs st c name df sym usym al) as [order Eo]. subst st'. rewrite Eo. cbn [s_env].
    apply Forall2_app; [apply (sim_env _ _ _ HS)|]. constructor; [|constructor].
    unfold rmatch. cbn [fst snd new_unit ur_symbol ur_usymbol ur_def]. split; auto.
    unfold own_ref. cbn [ur_ref new_unit].
    destruct df as [x|], fd as [[q d]|]; try contradiction; cbn [option_map sr_q sr_d sr_sym sr_usym sr_def].
    + destruct Hm as [M1 M2]. cbn [fst snd] in *. split; [exact M1|]. split; [exact M2|]. split; [auto|]. split; [auto|discriminate].
    + cbn [fst snd]. split; [apply frel_one|]. auto.
  - intros s. subst st'. destruct (create_unit_ctx st c name df sym usym al _ Hok) as [_ Hctx]. rewrite Hctx. cbn [s_ctx].
    rewrite dget_app, (sim_ctx _ _ _ HS). destruct (dget teqb (s_ctx sh) s) as [i|]; cbn [option_map]; auto.
    rewrite dget_names. destruct (existsb (teqb s) (reg_names c name sym al)); cbn [option_map]; auto. now rewrite HL.
  - intros s i. cbn [s_ctx s_env]. rewrite dget_app, app_length. cbn [length].
    destruct (dget teqb (s_ctx sh) s) as [j|] eqn:Ej.
    + intros [= <-]. pose proof (sim_idx _ _ _ HS s j Ej). lia.
    + rewrite dget_names. destruct (existsb _ _); [|discriminate]. intros [= <-]. lia.
  - intros c'. subst st'. rewrite (create_unit_dflt _ _ _ _ _ _ _ _ Hok). cbn [s_dflt].
    apply dflt_new. exact (sim_dflt _ _ _ HS).
Qed.

Lemma ucls_eqb_neq c c' : ucls_eqb c c' = false -> c <> c'.
Proof. intros H ->. rewrite (proj2 (ucls_eqb_eq c' c') eq_refl) in H. discriminate. Qed.

Theorem sstep_ok parse (st : rstate R) sh e sh' : sim parse st sh -> sstep parse sh e = Some sh' ->
  exists st', tstep parse st e = (st', Ok (VUnit (length (objs st)))) /\ sim parse st' sh'.
Proof.
  intros HS H. destruct e as [c name [x|] sym usym al|name]; cbn [sstep tstep] in *.
  - destruct (ucls_eqb c CCompound || ucls_eqb c CDimless) eqn:Ec; [discriminate|].
    apply orb_false_iff in Ec. destruct Ec as [Ec1 Ec2]. apply ucls_eqb_neq in Ec1, Ec2.
    unfold sdef_of in H. destruct (seval sh x) as [s|] eqn:Es; [|discriminate].
    destruct (sdef (s_env sh) s) as [fd|] eqn:Ed; [|discriminate].
    destruct (seval_ok parse st sh x HS s Es) as (_ & v & -> & Hv).
    destruct (sdef_ok parse st sh v s fd HS Hv Ed) as (df & -> & Hdok & Hf1 & Hf2).
    assert (Hd : forall y, Some df = Some y -> c <> CDimless /\ def_ok (fun a => 0 < a) (objs st) y) by (intros y [= <-]; auto).
    destruct (snew_sim parse st _ sh sh' c name (Some df) (Some fd) sym usym al HS H (conj Hf1 Hf2) Hd eq_refl) as [[Hok Hi] Hs].
    exists (fst (create_unit st c name (Some df) sym usym al)). split.
    + rewrite <- Hok. now destruct (create_unit st c name (Some df) sym usym al).
    + apply Hs. eapply h_new; eauto. apply (sim_hist _ _ _ HS).
  - destruct (ucls_eqb c CCompound) eqn:Ec; [discriminate|]. apply ucls_eqb_neq in Ec.
    assert (Hd : forall y : udef R, None = Some y -> c <> CDimless /\ def_ok (fun a => 0 < a) (objs st) y) by (intros; discriminate).
    destruct (snew_sim parse st _ sh sh' c name None None sym usym al HS H I Hd eq_refl) as [[Hok Hi] Hs].
    exists (fst (create_unit st c name None sym usym al)). split.
    + rewrite <- Hok. now destruct (create_unit st c name None sym usym al).
    + apply Hs. eapply h_new; eauto. apply (sim_hist _ _ _ HS).
  - destruct (parse (preprocess (T name))) as [x|] eqn:Ep; [|discriminate].
    unfold sdef_of in H. destruct (seval sh x) as [s|] eqn:Es; [|discriminate].
    destruct (sdef (s_env sh) s) as [fd|] eqn:Ed; [|discriminate].
    destruct (seval_ok parse st sh x HS s Es) as (Hp & v & Ev & Hv).
    destruct (sdef_ok parse st sh v s fd HS Hv Ed) as (df & Evd & Hdok & Hf1 & Hf2).
    assert (Ec : create_compound parse st name = create_unit st CCompound name (Some df) None None []).
    { unfold create_compound, get_item, inner_get. rewrite Ep. cbn [bind]. rewrite (product_valid x Hp), Ev. cbn [catch]. now rewrite Evd. }
    assert (Hd : forall y, Some df = Some y -> CCompound <> CDimless /\ def_ok (fun a => 0 < a) (objs st) y)
      by (intros y [= <-]; split; [discriminate|auto]).
    destruct (snew_sim parse st _ sh sh' CCompound name (Some df) (Some fd) None None [] HS H (conj Hf1 Hf2) Hd eq_refl) as [[Hok Hi] Hs].
    exists (fst (create_unit st CCompound name (Some df) None None [])). split.
    + rewrite Ec, <- Hok. now destruct (create_unit st CCompound name (Some df) None None []).
    + apply Hs. rewrite <- Ec. eapply h_compound; eauto. apply (sim_hist _ _ _ HS).
Qed.
Lemma sim_empty parse : sim parse rempty sempty.
Proof. constructor; cbn; auto; try constructor; discriminate. Qed.
Theorem srun_ok parse l : forall (st : rstate R) sh sh', sim parse st sh -> srun parse sh l = Some sh' ->
  exists st', trun parse st l = (st', Ok tt) /\ sim parse st' sh'.
Proof.
  induction l as [|e l IH]; intros st sh sh' HS H; cbn [srun trun] in *.
  - injection H as <-. eauto.
  - destruct (sstep parse sh e) as [sh1|] eqn:E1; [|discriminate].
    destruct (sstep_ok parse st sh e sh1 HS E1) as (st1 & -> & HS1). eauto.
Qed.
