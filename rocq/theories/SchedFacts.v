(** * SchedFacts: reasoning about interleavings. *)
From Coq Require Import Reals Lra Lia.
From Verif Require Import Py Num Dim DimFacts Arr ArrFacts Units Spec UnitFacts Quant QuantFacts SimpFacts SpecApi ConvFacts
  Defaults DefaultsFacts Ufunc Ops OpsFacts Text Lex Registry RegFacts Sched.

Section Gen.
  Context {S X : Type}.
  (** Every access made by the call, whatever the states it meets, is in [G]. *)
  Fixpoint guar (G : S -> S -> Prop) (c : code S X) : Prop :=
    match c with
    | Ret _ _ => True
    | Do f k => forall s, G s (f s) /\ guar G (k s)
    end.
  (** As long as the states that occur satisfy [P] and the call meets states in [I], its
      accesses keep [I] and its result satisfies [Q]. *)
  Fixpoint safe (P I : S -> Prop) (Q : X -> Prop) (c : code S X) : Prop :=
    match c with
    | Ret _ x => Q x
    | Do f k => forall s, P s -> P (f s) -> I s -> I (f s) /\ safe P I Q (k s)
    end.
End Gen.

Lemma guar_cbind {S X Y} (G : S -> S -> Prop) (c : code S X) (h : X -> code S Y) :
  guar G c -> (forall x, guar G (h x)) -> guar G (cbind c h).
Proof. intros Hc Hh. induction c as [x|f k IH]; cbn [cbind guar] in *; [apply Hh|]. intros s. destruct (Hc s). auto. Qed.
Lemma guar_rbind {S X Y} (G : S -> S -> Prop) (c : code S (res X)) (h : X -> code S (res Y)) :
  guar G c -> (forall x, guar G (h x)) -> guar G (rbind c h).
Proof. intros Hc Hh. apply guar_cbind; auto. intros [x|e]; [apply Hh|exact I]. Qed.
Lemma safe_cbind {S X Y} (P I : S -> Prop) (Q : X -> Prop) (Q' : Y -> Prop) (c : code S X) (h : X -> code S Y) :
  safe P I Q c -> (forall x, Q x -> safe P I Q' (h x)) -> safe P I Q' (cbind c h).
Proof.
  intros Hc Hh. induction c as [x|f k IH]; cbn [cbind safe] in *; [now apply Hh|].
  intros s HP HP' HI. destruct (Hc s HP HP' HI) as [H1 H2]. split; auto.
Qed.
(** [Q] on the values, anything on exceptions. *)
Definition onok {X} (Q : X -> Prop) (r : res X) : Prop := match r with Ok x => Q x | Err _ => True end.
Lemma safe_rbind {S X Y} (P I : S -> Prop) (Q : X -> Prop) (Q' : res Y -> Prop) (c : code S (res X)) (h : X -> code S (res Y)) :
  safe P I (onok Q) c -> (forall x, Q x -> safe P I Q' (h x)) -> (forall e, Q' (Err e)) -> safe P I Q' (rbind c h).
Proof. intros Hc Hh He. apply (safe_cbind P I (onok Q)); auto. intros [x|e] Hx; [now apply Hh|apply He]. Qed.
Lemma safe_mono {S X} (P I : S -> Prop) (Q Q' : X -> Prop) (c : code S X) :
  safe P I Q c -> (forall x, Q x -> Q' x) -> safe P I Q' c.
Proof. intros Hc H. induction c as [x|f k IH]; cbn [safe] in *; auto. intros s HP HP' HI. destruct (Hc s HP HP' HI). auto. Qed.
Lemma solo_cbind {S X Y} (c : code S X) (h : X -> code S Y) s :
  solo (cbind c h) s = solo (h (snd (solo c s))) (fst (solo c s)).
Proof. revert s. induction c as [x|f k IH]; intros s; cbn [cbind solo]; auto. Qed.
Lemma solo_rbind {S X Y} (c : code S (res X)) (h : X -> code S (res Y)) s :
  solo (rbind c h) s = match snd (solo c s) with
                       | Ok x => solo (h x) (fst (solo c s))
                       | Err e => (fst (solo c s), Err e)
                       end.
Proof. unfold rbind. rewrite solo_cbind. destruct (snd (solo c s)); reflexivity. Qed.

(** ** A call that is not disturbed does what the sequential model says *)
Section Solo.
  Context {A : Type} {N : Num A}.
  Variable parse : text -> res expr.
  Implicit Types s : rstate A.

  Lemma solo_set_item n v s : solo (set_item_c n v) s = set_item s n v.
  Proof.
    unfold set_item_c, set_item, rd, wr. cbn [solo]. destruct (ctx_get s n) as [w|] eqn:Ew; cbn [solo]; [|reflexivity].
    now rewrite Ew.
  Qed.
  Lemma solo_set_items l v : forall s, solo (set_items_c l v) s = set_items s l v.
  Proof.
    induction l as [|n l IH]; intros s; cbn [set_items_c set_items]; [reflexivity|].
    rewrite solo_rbind, solo_set_item. destruct (set_item s n v) as [s1 [x|e]]; cbn [fst snd]; auto.
  Qed.
  Lemma solo_create c name df sym usym al s :
    solo (create_c c name df sym usym al) s = create_unit s c name df sym usym al.
  Proof.
    unfold create_unit.
    assert (G : exists k s1, solo (create_c c name df sym usym al) s =
      solo (rbind (set_items_c (reg_names c name sym al) (VUnit (length (objs s)))) (fun _ => init_default_c c name (VUnit (length (objs s)))))
           (put_obj (UId c name, new_unit (objs s1) (primary c, k) df sym usym al) s1) /\ 
      put_obj (UId c name, new_unit (objs s1) (primary c, k) df sym usym al) s1 = new_obj s c name df sym usym al).
    { destruct s as [o x cn d].
      destruct c; (eexists; eexists; split; [cbn [create_c order_c rd solo]; unfold order_c, rd; cbn [solo]; reflexivity|reflexivity]). }
    destruct G as (k & s1 & G1 & G2). rewrite G1, G2. clear k s1 G1 G2.
    rewrite solo_rbind, solo_set_items.
    destruct (set_items (new_obj s c name df sym usym al) (reg_names c name sym al) (VUnit (length (objs s)))) as [s1 [x|e]]; cbn [fst snd]; auto.
    unfold init_default_c, rd, wr. destruct (is_irreducible c) eqn:Ei; cbn [solo].
    - destruct (dflt s1 c) eqn:Ed; cbn [solo]; [destruct s1; reflexivity|]. reflexivity.
    - destruct s1; reflexivity.
  Qed.
  Lemma solo_eval e : forall s, solo (eval_c e) s = (s, eval s e).
  Proof.
    induction e as [n|p|c|o a IHa b IHb|o a IHa|k l]; intros s; try reflexivity; cbn [eval_c eval].
    - rewrite solo_rbind, IHa. cbn [fst snd]. destruct (eval s a) as [v|]; cbn [bind]; [|reflexivity].
      rewrite solo_rbind, IHb. cbn [fst snd]. destruct (eval s b) as [w|]; reflexivity.
    - rewrite solo_rbind, IHa. cbn [fst snd]. destruct (eval s a) as [v|]; reflexivity.
  Qed.
  Lemma solo_get_item l s : solo (get_item_c parse l) s = (s, get_item parse s l).
  Proof.
    unfold get_item_c, get_item, inner_get. destruct (parse (preprocess l)) as [t|]; cbn [bind]; [|reflexivity].
    destruct (valid t); [|reflexivity]. rewrite solo_cbind, solo_eval. reflexivity.
  Qed.
  Lemma solo_compound name s : solo (compound_c parse name) s = create_compound parse s name.
  Proof.
    unfold compound_c, create_compound. rewrite solo_rbind, solo_get_item. cbn [fst snd].
    destruct (get_item parse s (T name)) as [v|]; [|reflexivity]. unfold rd. cbn [solo].
    destruct (val_def s v); [|reflexivity]. apply solo_create.
  Qed.
  Lemma solo_set_default_q c q s :
    solo (set_default_q_c c q) s =
    (let '(D, r) := set_default_q (objs s) (dflt s) c q in
     (RState (objs s) (ctx s) (counters s) D, r)).
  Proof.
    unfold set_default_q_c, set_default_q, rd, wr. cbn [solo]. destruct s as [o x cn d]; cbn [objs dflt ctx counters].
    destruct (d c) as [dd|]; [|reflexivity]. destruct (is_unit_quantity q); [|reflexivity].
    destruct (conv_factor o dd (qdim q)) as [cf|e]; [reflexivity|]. destruct e; reflexivity.
  Qed.
  Lemma solo_simp_loop (f : uid -> code (rstate A) (res (A * dims))) (g : uid -> res (A * dims)) s d :
    (forall u, In u (dkeys d) -> solo (f u) s = (s, g u)) -> forall acc,
    solo (simp_loop f d acc) s =
    (s, fold_left (fun acc kv => rq <- acc ;; x <- g (fst kv) ;; Ok (sc_mul_pow rq x (snd kv))) d (Ok acc)).
  Proof.
    induction d as [|[u e] d IH]; intros Hf acc; cbn [simp_loop fold_left]; [reflexivity|].
    rewrite solo_rbind, (Hf u) by (cbn; auto). cbn [fst snd bind].
    destruct (g u) as [x|er]; cbn [bind].
    - apply IH. intros v Hv. apply Hf. cbn; auto.
    - f_equal. clear. induction d; cbn [fold_left]; auto.
  Qed.
  Lemma solo_simp_unit fuel : forall u s, solo (simp_unit_c fuel u) s = (s, simp_unit fuel (objs s) (dflt s) u).
  Proof.
    induction fuel as [|fuel IH]; intros u s; [reflexivity|]. cbn [simp_unit_c]. unfold rd. cbn [solo].
    destruct (is_irreducible (u_cls u)) eqn:Ei; [cbn [simp_unit solo]; now rewrite Ei|].
    cbn [simp_unit]. rewrite Ei. destruct (ulookup (objs s) u) as [r|]; [|apply IH].
    destruct (ur_ref r) as [[a d]|]; [|apply IH].
    rewrite solo_rbind, (solo_simp_loop (simp_unit_c fuel) (simp_unit fuel (objs s) (dflt s)) s d (fun v _ => IH v s)).
    cbn [fst snd]. destruct (fold_left _ d _); reflexivity.
  Qed.
  Lemma solo_simplified fuel q s : solo (simplified_c fuel q) s = (s, simplified fuel (objs s) (dflt s) q).
  Proof.
    unfold simplified_c, simplified, simp_dims.
    rewrite solo_rbind, (solo_simp_loop (simp_unit_c fuel) (simp_unit fuel (objs s) (dflt s)) s (qdim q) (fun v _ => solo_simp_unit fuel v s)).
    cbn [fst snd]. destruct (fold_left _ (qdim q) _); reflexivity.
  Qed.
End Solo.

(** ** Executions *)
Section Runs.
  Context {A : Type} {N : Num A}.
  Variable parse : text -> res expr.
  Implicit Types s : rstate A.

  Lemma run_last s ts tr s' ts' : run parse s ts tr s' ts' -> In s' tr.
  Proof. induction 1; [left; reflexivity|right; assumption]. Qed.
  Lemma run_first s ts tr s' ts' : run parse s ts tr s' ts' -> In s tr.
  Proof. induction 1; left; reflexivity. Qed.

  (** *** Objects are never lost *)
  Definition grows s s' : Prop := exists X, objs s' = objs s ++ X.
  Lemma grows_same s s' : objs s' = objs s -> grows s s'.
  Proof. intros H. exists []. now rewrite app_nil_r. Qed.
  Lemma grows_trans s1 s2 s3 : grows s1 s2 -> grows s2 s3 -> grows s1 s3.
  Proof. intros [X H] [Y H']. exists (X ++ Y). now rewrite H', H, app_assoc. Qed.

  Lemma g_set_item n v : guar grows (set_item_c (A:=A) n v).
  Proof.
    intros s. split; [now apply grows_same|]. destruct (ctx_get s n); intros s'; (split; [now apply grows_same|exact I]).
  Qed.
  Lemma g_set_items l v : guar grows (set_items_c (A:=A) l v).
  Proof. induction l; cbn [set_items_c]; [exact I|]. apply guar_rbind; auto. apply g_set_item. Qed.
  Lemma g_create c name df sym usym al : guar grows (create_c (A:=A) c name df sym usym al).
  Proof.
    assert (O : forall h : nat -> code (rstate A) (res (value A)), (forall k, guar grows (h k)) -> guar grows (order_c c h)).
    { intros h Hh s. split; [now apply grows_same|]. intros s1. split; [now apply grows_same|].
      intros s2. split; [now apply grows_same|]. apply Hh. }
    unfold create_c. apply O. intros k.
    assert (F : forall k, guar grows (Do (fun s => put_obj (UId c name, new_unit (objs s) (primary c, k) df sym usym al) s)
         (fun s => let v := VUnit (length (objs s)) in
                   rbind (set_items_c (reg_names c name sym al) v) (fun _ => init_default_c c name v)))).
    { intros k1 s. split; [eexists; reflexivity|]. apply guar_rbind; [apply g_set_items|]. intros _.
      unfold init_default_c. destruct (is_irreducible c); [|exact I]. intros s1. split; [now apply grows_same|].
      destruct (dflt s1 c); [exact I|]. intros s2. split; [now apply grows_same|exact I]. }
    destruct c; try apply F. apply O. apply F.
  Qed.
  Lemma g_eval e : guar grows (eval_c (A:=A) e).
  Proof.
    induction e as [n|p|c|o a IHa b IHb|o a IHa|k l]; try (intros s; split; [now apply grows_same|exact I]); cbn [eval_c].
    - apply guar_rbind; auto. intros v. apply guar_rbind; auto. intros w s. split; [now apply grows_same|exact I].
    - apply guar_rbind; auto. intros v s. split; [now apply grows_same|exact I].
  Qed.
  Lemma g_get_item l : guar grows (get_item_c (A:=A) parse l).
  Proof.
    unfold get_item_c. destruct (parse (preprocess l)) as [t|]; [|exact I]. destruct (valid t); [|exact I].
    apply guar_cbind; [apply g_eval|]. intros r. exact I.
  Qed.
  Lemma g_set_default_q c q : guar grows (set_default_q_c (A:=A) c q).
  Proof.
    intros s. split; [now apply grows_same|]. destruct (dflt s c) as [dd|]; [|exact I].
    destruct (is_unit_quantity q); [|exact I]. destruct (conv_factor (objs s) dd (qdim q)) as [cf|e]; [|destruct e; exact I].
    intros s1. split; [now apply grows_same|exact I].
  Qed.
  Lemma g_set_default c a : guar grows (set_default_c (A:=A) parse c a).
  Proof.
    destruct a as [|l|q|]; try exact I; cbn [set_default_c]; [|apply g_set_default_q].
    apply guar_rbind; [apply g_get_item|]. intros v s. split; [now apply grows_same|].
    destruct (val_q s v); [apply g_set_default_q|exact I].
  Qed.
  Lemma g_set_defaults l : guar grows (set_defaults_c (A:=A) parse l).
  Proof. induction l as [|[c a] l IH]; cbn [set_defaults_c]; [exact I|]. apply guar_rbind; auto. apply g_set_default. Qed.
  Lemma g_loop f d : (forall u, guar grows (f u)) -> forall acc, guar grows (simp_loop (A:=A) f d acc).
  Proof. intros Hf. induction d as [|[u e] d IH]; intros acc; cbn [simp_loop]; [exact I|]. apply guar_rbind; auto. Qed.
  Lemma g_simp_unit fuel : forall u, guar grows (simp_unit_c (A:=A) fuel u).
  Proof.
    induction fuel as [|fuel IH]; intros u; [exact I|]. cbn [simp_unit_c]. intros s. split; [now apply grows_same|].
    destruct (is_irreducible (u_cls u)); [exact I|]. destruct (ulookup (objs s) u) as [r|]; [|apply IH].
    destruct (ur_ref r) as [[a d]|]; [|apply IH]. apply guar_rbind; [now apply g_loop|]. intros rq. exact I.
  Qed.
  Lemma g_call o : guar grows (call (A:=A) parse o).
  Proof.
    destruct o; cbn [call]; (apply guar_rbind; [|intros x; exact I]).
    - apply g_set_item.
    - apply g_create.
    - unfold compound_c. apply guar_rbind; [apply g_get_item|]. intros v s. split; [now apply grows_same|].
      destruct (val_def s v); [apply g_create|exact I].
    - apply g_get_item.
    - apply g_set_default.
    - unfold set_default_units_c. destruct sys; try apply g_set_defaults. exact I.
    - unfold simplified_c. apply guar_rbind; [apply g_loop, g_simp_unit|]. intros rq. exact I.
  Qed.

  (** *** Rely and guarantee *)
  Section Rule.
    Variables (G : rstate A -> rstate A -> Prop).
    Hypothesis (Grefl : forall s, G s s) (Gtrans : forall s1 s2 s3, G s1 s2 -> G s2 s3 -> G s1 s3).
    Hypothesis Gcall : forall o, guar G (call parse o).
    Definition tguar (t : tstate A) : Prop := match t with Idle _ => True | Busy _ c _ => guar G c end.
    Lemma run_guar s ts tr s' ts' : run parse s ts tr s' ts' -> (forall t, In t ts -> tguar t) ->
      (forall x, In x tr -> G s x /\ G x s') /\ (forall t, In t ts' -> tguar t).
    Proof.
      induction 1 as [s ts|s pre t post s1 t1 tr s2 ts2 Hs Hr IH]; intros Ht.
      - split; auto. intros x [<-|[]]. auto.
      - assert (T : G s s1 /\ tguar t1).
        { assert (Ht0 : tguar t) by (apply Ht; rewrite in_app_iff; cbn; auto).
          inversion Hs; subst; cbn [tguar guar] in *; auto. }
        destruct T as [T1 T2]. destruct IH as [I1 I2].
        { intros x Hx. rewrite in_app_iff in Hx. cbn in Hx. destruct Hx as [Hx|[<-|Hx]]; auto; apply Ht; rewrite in_app_iff; cbn; auto. }
        split; auto. intros x [<-|Hx].
        + split; auto. apply (Gtrans _ s1); auto. apply I1. exact (run_first _ _ _ _ _ Hr).
        + destruct (I1 x Hx). split; auto. exact (Gtrans _ s1 _ T1 H).
    Qed.
  End Rule.

  Section Invariant.
    Variables (P I : rstate A -> Prop) (OK : cop A -> Prop) (Q : cop A -> res (out A) -> Prop).
    (** A thread that makes only calls in [OK], as long as the results are in [Q]. *)
    Fixpoint client_in (c : client A) : Prop :=
      match c with
      | Stop => True
      | Call o k => OK o /\ client_in (k None) /\ forall r, Q o r -> client_in (k (Some r))
      end.
    Hypothesis Hcall : forall o, OK o -> safe P I (Q o) (call parse o).
    Definition tsafe (t : tstate A) : Prop :=
      match t with
      | Idle c => client_in c
      | Busy o c k => OK o /\ safe P I (Q o) c /\ client_in (k None) /\ forall r, Q o r -> client_in (k (Some r))
      end.
    Lemma run_safe s ts tr s' ts' : run parse s ts tr s' ts' -> (forall x, In x tr -> P x) -> I s ->
      (forall t, In t ts -> tsafe t) -> (forall x, In x tr -> I x) /\ (forall t, In t ts' -> tsafe t).
    Proof.
      induction 1 as [s ts|s pre t post s1 t1 tr s2 ts2 Hs Hr IH]; intros HP HI Ht.
      - split; auto. intros x [<-|[]]. auto.
      - assert (Ps : P s) by (apply HP; left; reflexivity).
        assert (Ps1 : P s1) by (apply HP; right; exact (run_first _ _ _ _ _ Hr)).
        assert (T : I s1 /\ tsafe t1).
        { assert (Ht0 : tsafe t) by (apply Ht; rewrite in_app_iff; cbn; auto).
          inversion Hs; subst; cbn [tsafe client_in safe] in *.
          - split; auto. destruct Ht0 as (H1 & H2 & H3). split; [|split; [|split]]; auto.
          - destruct Ht0 as (H1 & H2 & H3). destruct (H2 s Ps Ps1 HI). split; auto.
          - destruct Ht0 as (H1 & H2 & H3 & H4). auto.
          - destruct Ht0 as (H1 & H2 & H3 & H4). auto. }
        destruct T as [T1 T2]. destruct IH as [I1 I2]; auto.
        { intros x Hx. apply HP. right. exact Hx. }
        { intros x Hx. rewrite in_app_iff in Hx. cbn in Hx. destruct Hx as [Hx|[<-|Hx]]; auto; apply Ht; rewrite in_app_iff; cbn; auto. }
        split; auto. intros x [<-|Hx]; auto.
    Qed.
  End Invariant.

  Definition idle (t : tstate A) : Prop := exists c, t = Idle c.
  Lemma run_grows s ts tr s' ts' : run parse s ts tr s' ts' -> (forall t, In t ts -> idle t) ->
    forall x, In x tr -> grows s x /\ grows x s'.
  Proof.
    intros H Hi. apply (run_guar grows (fun x => grows_same x x eq_refl) grows_trans g_call s ts tr s' ts' H).
    intros t Ht. destruct (Hi t Ht) as [c ->]. exact I.
  Qed.
End Runs.

(** ** Executable schedules *)
Section Go.
  Context {A : Type} {N : Num A}.
  Variable parse : text -> res expr.
  (** The next step of a thread that is not interrupted. *)
  Definition tnext (s : rstate A) (t : tstate A) : option (rstate A * tstate A) :=
    match t with
    | Idle (Call o k) => Some (s, Busy o (call parse o) k)
    | Busy o (Do f g) k => Some (f s, Busy o (g s) k)
    | Busy o (Ret _ r) k => Some (s, Idle (k (Some r)))
    | Idle Stop => None
    end.
  Fixpoint tnth (s : rstate A) (ts : list (tstate A)) (i : nat) : option (rstate A * list (tstate A)) :=
    match ts, i with
    | [], _ => None
    | t :: ts', 0 => match tnext s t with Some (s', t') => Some (s', t' :: ts') | None => None end
    | t :: ts', S i' => match tnth s ts' i' with Some (s', ts1) => Some (s', t :: ts1) | None => None end
    end.
  (** The threads make steps in the given order. *)
  Fixpoint go (l : list nat) (s : rstate A) (ts : list (tstate A)) : option (rstate A * list (tstate A)) :=
    match l with
    | [] => Some (s, ts)
    | i :: l' => match tnth s ts i with Some (s', ts') => go l' s' ts' | None => None end
    end.
  Lemma tnext_step s t s' t' : tnext s t = Some (s', t') -> tstep parse s t s' t'.
  Proof.
    destruct t as [[|o k]|o [r|f g] k]; cbn [tnext]; try discriminate; intros H;
      (assert (s' = fst (s', t') /\ t' = snd (s', t')) as [-> ->] by auto; injection H as <- <-; constructor).
  Qed.
  Lemma tnth_step s ts i s' ts' : tnth s ts i = Some (s', ts') ->
    exists pre t post t', ts = pre ++ t :: post /\ ts' = pre ++ t' :: post /\ tstep parse s t s' t'.
  Proof.
    revert i ts'. induction ts as [|t ts IH]; intros i ts'; cbn [tnth]; [discriminate|]. destruct i as [|i].
    - destruct (tnext s t) as [[s1 t1]|] eqn:En; [|discriminate]. intros [= <- <-]. exists [], t, ts, t1.
      split; [reflexivity|split; [reflexivity|]]. now apply tnext_step.
    - destruct (tnth s ts i) as [[s1 ts1]|] eqn:En; [|discriminate]. intros [= <- <-].
      destruct (IH i ts1 En) as (pre & t0 & post & t' & -> & -> & H). exists (t :: pre), t0, post, t'. auto.
  Qed.
  Lemma go_run l : forall s ts s' ts', go l s ts = Some (s', ts') -> exists tr, run parse s ts tr s' ts'.
  Proof.
    induction l as [|i l IH]; intros s ts s' ts'; cbn [go].
    - intros [= <- <-]. exists [s]. constructor.
    - destruct (tnth s ts i) as [[s1 ts1]|] eqn:En; [|discriminate]. intros H.
      destruct (tnth_step _ _ _ _ _ En) as (pre & t & post & t' & -> & -> & Hs).
      destruct (IH _ _ _ _ H) as [tr Htr]. exists (s :: tr). econstructor; eauto.
  Qed.
End Go.

(** ** One thread in an execution *)
Section One.
  Context {A : Type} {N : Num A}.
  Variable parse : text -> res expr.
  Variables (P I : rstate A -> Prop) (OK : cop A -> Prop) (Q : cop A -> res (out A) -> Prop).
  Hypothesis Hcall : forall o, OK o -> safe P I (Q o) (call parse o).
  Lemma step_safe s t s1 t1 : P s -> P s1 -> I s -> tsafe P I OK Q t -> tstep parse s t s1 t1 -> tsafe P I OK Q t1.
  Proof.
    intros Ps Ps1 HI Ht Hs. inversion Hs; subst; cbn [tsafe client_in safe] in *.
    - destruct Ht as (H1 & H2 & H3). split; [|split; [|split]]; auto.
    - destruct Ht as (H1 & H2 & H3). destruct (H2 s Ps Ps1 HI). split; auto.
    - destruct Ht as (H1 & H2 & H3 & H4). auto.
    - destruct Ht as (H1 & H2 & H3 & H4). auto.
  Qed.
  Lemma run_one s ts tr s' ts' : run parse s ts tr s' ts' -> (forall x, In x tr -> P x /\ I x) ->
    forall i t, nth_error ts i = Some t -> tsafe P I OK Q t -> exists t', nth_error ts' i = Some t' /\ tsafe P I OK Q t'.
  Proof.
    induction 1 as [s ts|s pre t0 post s1 t1 tr s2 ts2 Hs Hr IH]; intros HP i t Hi Ht; [eauto|].
    assert (P0 : P s /\ I s) by (apply HP; left; reflexivity).
    assert (P1 : P s1 /\ I s1) by (apply HP; right; exact (run_first parse _ _ _ _ _ Hr)).
    assert (HP' : forall x, In x tr -> P x /\ I x) by (intros x Hx; apply HP; right; exact Hx).
    destruct (lt_eq_lt_dec i (length pre)) as [[L|L]|L].
    - rewrite nth_error_app1 in Hi by assumption. apply (IH HP' i t); auto. now rewrite nth_error_app1.
    - subst i. rewrite nth_error_app2, Nat.sub_diag in Hi by auto. cbn [nth_error] in Hi. injection Hi as <-.
      apply (IH HP' (length pre) t1).
      + rewrite nth_error_app2, Nat.sub_diag by auto. reflexivity.
      + apply (step_safe s t0 s1 t1); tauto.
    - rewrite nth_error_app2 in Hi by lia. destruct (i - length pre)%nat as [|j] eqn:Ej; [lia|]. cbn [nth_error] in Hi.
      apply (IH HP' i t); auto. rewrite nth_error_app2 by lia. rewrite Ej. exact Hi.
  Qed.
End One.

(** ** What can be seen of a thread that is about to return *)
Definition answers {A} (t : tstate A) : option (cop A * res (out A)) :=
  match t with Busy o (Ret _ r) _ => Some (o, r) | _ => None end.
Lemma answers_in {A} (ts : list (tstate A)) i o r : nth_error (map answers ts) i = Some (Some (o, r)) ->
  exists k, nth_error ts i = Some (Busy o (Ret _ r) k).
Proof.
  rewrite nth_error_map. destruct (nth_error ts i) as [t|]; [|discriminate]. cbn [option_map].
  destruct t as [c|o' [r'|f g] k]; cbn [answers]; try discriminate.
  intros H. assert (o' = o) as -> by congruence. assert (r' = r) as -> by congruence. eauto.
Qed.

(** ** A call that is cut off *)
Lemma cut_cbind {S X Y} (c : code S X) (h : X -> code S Y) n s :
  cut n (cbind c h) s = cut n c s \/
  exists m, cut n (cbind c h) s = cut m (h (snd (solo c s))) (fst (solo c s)).
Proof.
  revert n s. induction c as [x|f k IH]; intros n s; cbn [cbind solo fst snd].
  - right. exists n. reflexivity.
  - destruct n as [|n]; [left; reflexivity|]. cbn [cut]. apply IH.
Qed.
Lemma cut_rbind {S X Y} (c : code S (res X)) (h : X -> code S (res Y)) n s :
  cut n (rbind c h) s = cut n c s \/
  (exists x m, snd (solo c s) = Ok x /\ cut n (rbind c h) s = cut m (h x) (fst (solo c s))) \/
  (exists e, snd (solo c s) = Err e /\ cut n (rbind c h) s = fst (solo c s)).
Proof.
  destruct (cut_cbind c (fun r => match r with Ok x => h x | Err e => Ret _ (Err e) end) n s) as [H|[m H]]; [left; exact H|].
  right. unfold rbind. destruct (snd (solo c s)) as [x|e].
  - left. exists x, m. auto.
  - right. exists e. split; [reflexivity|]. rewrite H. destruct m; reflexivity.
Qed.
Lemma cut_all {St X} (c : code St X) s : exists n, forall m, (n <= m)%nat -> cut m c s = fst (solo c s).
Proof.
  revert s. induction c as [x|f k IH]; intros s; cbn [solo fst].
  - exists 0%nat. intros [|m] _; reflexivity.
  - destruct (IH s (f s)) as [n Hn]. exists (S n). intros [|m] Hm; [lia|]. cbn [cut]. apply Hn. lia.
Qed.
Section Cut.
  Context {A : Type} {N : Num A}.
  Variable parse : text -> res expr.
  Implicit Types s : rstate A.
  Lemma cut_set_item n v m s : cut m (set_item_c n v) s = s \/ cut m (set_item_c n v) s = fst (set_item s n v).
  Proof.
    unfold set_item_c, set_item, rd, wr. destruct m as [|m]; [left; reflexivity|]. cbn [cut].
    destruct (ctx_get s n) as [w|]; destruct m as [|m]; cbn [cut fst]; auto; destruct m; auto.
  Qed.
  (** Some of the names, in order, are registered. *)
  Lemma cut_set_items l v : forall m s, exists l1 l2, l = l1 ++ l2 /\ cut m (set_items_c l v) s = fst (set_items s l1 v).
  Proof.
    induction l as [|n l IH]; intros m s; cbn [set_items_c].
    - exists [], []. split; [reflexivity|]. destruct m; reflexivity.
    - destruct (cut_rbind (set_item_c n v) (fun _ => set_items_c l v) m s) as [H|[(x & m' & H1 & H2)|(e & H1 & H2)]].
      + rewrite H. destruct (cut_set_item n v m s) as [-> | ->].
        * exists [], (n :: l). auto.
        * exists [n], l. split; [reflexivity|]. cbn [set_items]. destruct (set_item s n v) as [s1 [x|e]]; reflexivity.
      + rewrite H2. rewrite solo_set_item in *. destruct (IH m' (fst (set_item s n v))) as (l1 & l2 & -> & E).
        exists (n :: l1), l2. split; [reflexivity|]. rewrite E. cbn [set_items]. destruct (set_item s n v) as [s1 r]. cbn [fst snd] in *.
        now subst r.
      + rewrite H2. rewrite solo_set_item in *. exists [n], l. split; [reflexivity|]. cbn [set_items].
        destruct (set_item s n v) as [s1 r]. cbn [fst snd] in *. now subst r.
  Qed.
  (** Nothing is visible; or the object exists and some of its names; or everything. *)
  Lemma cut_create c name df sym usym al m s :
    (let s' := cut m (create_c c name df sym usym al) s in objs s' = objs s /\ ctx s' = ctx s /\ dflt s' = dflt s) \/
    (exists l1 l2, reg_names c name sym al = l1 ++ l2 /\
       cut m (create_c c name df sym usym al) s = fst (set_items (new_obj s c name df sym usym al) l1 (VUnit (length (objs s))))) \/
    (exists v, snd (create_unit s c name df sym usym al) = Ok v /\
       cut m (create_c c name df sym usym al) s = fst (create_unit s c name df sym usym al)).
  Proof.
    set (V := VUnit (length (objs s))). set (l := reg_names c name sym al).
    assert (Early : forall s', objs s' = objs s -> ctx s' = ctx s -> dflt s' = dflt s ->
      (forall m, (let s'' := cut m (create_c c name df sym usym al) s in objs s'' = objs s /\ ctx s'' = ctx s /\ dflt s'' = dflt s) \/
         exists m', cut m (create_c c name df sym usym al) s =
           cut m' (rbind (set_items_c l V) (fun _ => init_default_c c name V)) (new_obj s c name df sym usym al))).
    { intros _ _ _ _ m0. unfold create_c, order_c, rd.
      destruct s as [o x cn d]; subst V l.
      destruct c; do 3 (destruct m0 as [|m0]; [left; cbn; auto|]); (destruct m0 as [|m0]; [left; cbn; auto|]); try (cbn [cut]; right; exists m0; reflexivity).
      do 3 (destruct m0 as [|m0]; [left; cbn; auto|]); cbn [cut]; right; exists m0; reflexivity. }
    destruct (Early s eq_refl eq_refl eq_refl m) as [H|[m' ->]]; [left; exact H|]. clear Early.
    destruct (cut_rbind (set_items_c l V) (fun _ => init_default_c c name V) m' (new_obj s c name df sym usym al)) as [H|[(x & m1 & H1 & H2)|(e & H1 & H2)]].
    - right; left. rewrite H. apply cut_set_items.
    - rewrite solo_set_items in *. rewrite H2.
      assert (F : cut m1 (init_default_c c name V) (fst (set_items (new_obj s c name df sym usym al) l V)) = fst (set_items (new_obj s c name df sym usym al) l V) \/
                  cut m1 (init_default_c c name V) (fst (set_items (new_obj s c name df sym usym al) l V)) = fst (create_unit s c name df sym usym al)).
      { unfold create_unit. fold V l. destruct (set_items (new_obj s c name df sym usym al) l V) as [s1 r]. cbn [fst snd] in *. subst r. cbn [fst].
        unfold init_default_c, rd, wr. destruct (is_irreducible c) eqn:Ei; [|left; destruct m1; reflexivity].
        destruct m1 as [|m1]; [left; reflexivity|]. cbn [cut].
        destruct (dflt s1 c) as [dd|] eqn:Ed; [left; destruct m1; reflexivity|].
        destruct m1 as [|m1]; [left; reflexivity|]. cbn [cut]. right. destruct m1; reflexivity. }
      destruct F as [-> | ->].
      + right; left. exists l, []. rewrite app_nil_r. auto.
      + right; right. exists V. split; [|reflexivity]. unfold create_unit. fold V l.
        destruct (set_items (new_obj s c name df sym usym al) l V) as [s1 r]. cbn [fst snd] in *. now subst r.
    - right; left. rewrite solo_set_items in *. exists l, []. rewrite app_nil_r. auto.
  Qed.
End Cut.

(** ** [set_default_units] alone, and cut off *)
Section Defaults.
  Context {A : Type} {N : Num A}.
  Variable parse : text -> res expr.
  Implicit Types s : rstate A.
  Definition with_dflt s (D : defaults) : rstate A := RState (objs s) (ctx s) (counters s) D.
  (** The unit that a label denotes. *)
  Definition label_unit s (l : string) : res (qty A) :=
    v <- get_item parse s (T l) ;; match val_q s v with Some q => Ok q | None => Err TypeError end.
  Lemma eval_dflt s D e : eval (with_dflt s D) e = eval s e.
  Proof.
    induction e as [n|p|c|o a IHa b IHb|o a IHa|k l]; try reflexivity; cbn [eval].
    - rewrite IHa. destruct (eval s a); cbn [bind]; [|reflexivity]. rewrite IHb. destruct (eval s b); reflexivity.
    - rewrite IHa. destruct (eval s a); reflexivity.
  Qed.
  Lemma label_unit_dflt s D l : label_unit (with_dflt s D) l = label_unit s l.
  Proof.
    unfold label_unit, get_item, inner_get. destruct (parse (preprocess (T l))) as [t|]; cbn [bind]; [|reflexivity].
    destruct (valid t); [|reflexivity]. now rewrite eval_dflt.
  Qed.
  Lemma set_default_unit_ext (l1 l2 : string -> res (qty A)) E D c a : (forall x, l1 x = l2 x) ->
    set_default_unit l1 E D c a = set_default_unit l2 E D c a.
  Proof. intros H. destruct a; cbn [set_default_unit]; rewrite ?H; reflexivity. Qed.
  Lemma set_defaults_ext (l1 l2 : string -> res (qty A)) E l : (forall x, l1 x = l2 x) -> forall D,
    set_defaults l1 E D l = set_defaults l2 E D l.
  Proof.
    intros H. induction l as [|[c a] l IH]; intros D; cbn [set_defaults]; [reflexivity|].
    rewrite (set_default_unit_ext l1 l2) by exact H. destruct (set_default_unit l2 E D c a) as [D' [x|e]]; auto.
  Qed.
  Lemma solo_set_default c a s :
    solo (set_default_c parse c a) s =
    (let '(D, r) := set_default_unit (label_unit s) (objs s) (dflt s) c a in (with_dflt s D, r)).
  Proof.
    destruct a as [|l|q|]; cbn [set_default_c set_default_unit]; try (destruct s; reflexivity).
    - rewrite solo_rbind, solo_get_item. cbn [fst snd]. unfold label_unit.
      destruct (get_item parse s (T l)) as [v|e]; cbn [bind]; [|destruct s; reflexivity].
      unfold rd. cbn [solo]. destruct (val_q s v) as [q|]; [|destruct s; reflexivity].
      rewrite solo_set_default_q. destruct (set_default_q (objs s) (dflt s) c q); reflexivity.
    - rewrite solo_set_default_q. destruct (set_default_q (objs s) (dflt s) c q); reflexivity.
  Qed.
  Lemma solo_set_defaults l : forall s,
    solo (set_defaults_c parse l) s =
    (let '(D, r) := set_defaults (label_unit s) (objs s) (dflt s) l in (with_dflt s D, r)).
  Proof.
    induction l as [|[c a] l IH]; intros s; cbn [set_defaults_c set_defaults]; [destruct s; reflexivity|].
    rewrite solo_rbind, solo_set_default.
    destruct (set_default_unit (label_unit s) (objs s) (dflt s) c a) as [D [x|e]]; cbn [fst snd]; [|reflexivity].
    rewrite IH. cbn [with_dflt objs dflt].
    rewrite (set_defaults_ext (label_unit (with_dflt s D)) (label_unit s)) by apply label_unit_dflt.
    destruct (set_defaults (label_unit s) (objs s) D l); reflexivity.
  Qed.
  Lemma eval_c_reads e : forall m s, cut m (eval_c (A:=A) e) s = s.
  Proof.
    induction e as [n|p|c|o a IHa b IHb|o a IHa|k l]; intros m s; try (destruct m as [|[|m]]; reflexivity); cbn [eval_c].
    - destruct (cut_rbind (eval_c a) (fun v => rbind (eval_c b) (fun w => rd (fun s => Ret _ (v_bin s o v w)))) m s)
        as [H|[(x & m' & H1 & H2)|(e & H1 & H2)]]; [rewrite H; apply IHa| |rewrite H2, solo_eval; reflexivity].
      rewrite H2, solo_eval. cbn [fst].
      destruct (cut_rbind (eval_c b) (fun w => rd (fun s => Ret _ (v_bin s o x w))) m' s)
        as [H|[(y & m1 & H3 & H4)|(e & H3 & H4)]]; [rewrite H; apply IHb| |rewrite H4, solo_eval; reflexivity].
      rewrite H4, solo_eval. destruct m1 as [|[|m1]]; reflexivity.
    - destruct (cut_rbind (eval_c a) (fun v => rd (fun s => Ret _ (v_un s o v))) m s)
        as [H|[(x & m' & H1 & H2)|(e & H1 & H2)]]; [rewrite H; apply IHa| |rewrite H2, solo_eval; reflexivity].
      rewrite H2, solo_eval. destruct m' as [|[|m']]; reflexivity.
  Qed.
  Lemma cut_get_item l m s : cut m (get_item_c (A:=A) parse l) s = s.
  Proof.
    unfold get_item_c. destruct (parse (preprocess l)) as [t|]; [|destruct m; reflexivity]. destruct (valid t); [|destruct m; reflexivity].
    destruct (cut_cbind (eval_c t) (fun r => Ret (rstate A) (catch r NameError (Err LookupError))) m s) as [H|[m' H]].
    - rewrite H. apply eval_c_reads.
    - rewrite H, solo_eval. destruct m'; reflexivity.
  Qed.
  Lemma cut_set_default_q c q m s :
    cut m (set_default_q_c c q) s = s \/ cut m (set_default_q_c c q) s = with_dflt s (fst (set_default_q (objs s) (dflt s) c q)).
  Proof.
    assert (W : s = with_dflt s (dflt s)) by (destruct s; reflexivity).
    unfold set_default_q_c, set_default_q, rd, wr. destruct m as [|m]; [left; reflexivity|]. cbn [cut].
    destruct (dflt s c) as [dd|]; [|left; destruct m; reflexivity]. destruct (is_unit_quantity q); [|left; destruct m; reflexivity].
    destruct (conv_factor (objs s) dd (qdim q)) as [cf|e]; [|left; destruct e; destruct m; reflexivity].
    destruct m as [|m]; [left; reflexivity|]. right. cbn [cut]. destruct m; reflexivity.
  Qed.
  Lemma cut_set_default c a m s :
    cut m (set_default_c parse c a) s = s \/
    cut m (set_default_c parse c a) s = with_dflt s (fst (set_default_unit (label_unit s) (objs s) (dflt s) c a)).
  Proof.
    destruct a as [|l|q|]; cbn [set_default_c set_default_unit]; try (left; destruct m; reflexivity); [|apply cut_set_default_q].
    set (h := fun v => rd (fun s => match val_q s v with Some q => set_default_q_c c q | None => Ret _ (Err TypeError) end)).
    destruct (cut_rbind (get_item_c parse (T l)) h m s) as [H|[(x & m' & H1 & H2)|(e & H1 & H2)]].
    - left. rewrite H. apply cut_get_item.
    - rewrite H2. rewrite solo_get_item in *. cbn [fst snd] in *. unfold label_unit. rewrite H1. cbn [bind]. unfold h, rd.
      destruct m' as [|m']; [left; reflexivity|]. cbn [cut]. destruct (val_q s x) as [q|]; [|left; destruct m'; reflexivity].
      apply cut_set_default_q.
    - left. rewrite H2, solo_get_item. reflexivity.
  Qed.
  (** Some of the settings, in order, are made. *)
  Lemma cut_set_defaults l : forall m s, exists l1 l2, l = l1 ++ l2 /\
    cut m (set_defaults_c parse l) s = with_dflt s (fst (set_defaults (label_unit s) (objs s) (dflt s) l1)).
  Proof.
    induction l as [|[c a] l IH]; intros m s; cbn [set_defaults_c].
    - exists [], []. split; [reflexivity|]. destruct m, s; reflexivity.
    - assert (One : with_dflt s (fst (set_default_unit (label_unit s) (objs s) (dflt s) c a)) =
                    with_dflt s (fst (set_defaults (label_unit s) (objs s) (dflt s) [(c, a)]))).
      { cbn [set_defaults]. destruct (set_default_unit (label_unit s) (objs s) (dflt s) c a) as [D [x|e]]; reflexivity. }
      destruct (cut_rbind (set_default_c parse c a) (fun _ => set_defaults_c parse l) m s) as [H|[(x & m' & H1 & H2)|(e & H1 & H2)]].
      + rewrite H. destruct (cut_set_default c a m s) as [-> | ->].
        * exists [], ((c, a) :: l). split; [reflexivity|]. destruct s; reflexivity.
        * exists [(c, a)], l. split; [reflexivity|exact One].
      + rewrite H2. rewrite solo_set_default in *.
        destruct (set_default_unit (label_unit s) (objs s) (dflt s) c a) as [D r] eqn:Er. cbn [fst snd] in *. subst r.
        destruct (IH m' (with_dflt s D)) as (l1 & l2 & -> & E). exists ((c, a) :: l1), l2. split; [reflexivity|].
        rewrite E. cbn [set_defaults with_dflt objs dflt]. rewrite Er.
        now rewrite (set_defaults_ext (label_unit (with_dflt s D)) (label_unit s)) by apply label_unit_dflt.
      + rewrite H2, solo_set_default.
        exists [(c, a)], l. split; [reflexivity|]. rewrite <- One.
        destruct (set_default_unit (label_unit s) (objs s) (dflt s) c a) as [D r]. reflexivity.
  Qed.
End Defaults.
