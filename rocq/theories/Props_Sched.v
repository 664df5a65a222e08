(** * Props_Sched: C117-C121.  Threads and interrupts. *)
From Coq Require Import Reals Lra Lia.
From Verif Require Import Py Num Dim DimFacts Arr ArrFacts Units Spec UnitFacts Quant QuantFacts SimpFacts SpecApi ConvFacts
  Defaults DefaultsFacts Ufunc Ops OpsFacts Text Markup Lex LexFacts PrintFacts Registry RegFacts Sched SchedFacts Examples Props_Ops RoundTrip PrintEq Render RegEq Props_Registry
  SpecPickle PickleFacts HistFacts Props_Labels.

Open Scope list_scope.
Open Scope nat_scope.

(** ** C117: names *)

(** The calls a thread can make, whatever its calls return. *)
Fixpoint may_call {A} (c : client A) (o : cop A) : Prop :=
  match c with
  | Stop => False
  | Call o' k => o = o' \/ exists r, may_call (k r) o
  end.
(** ... a program (a list of threads that have not begun a call). *)
Definition program_calls {A} (ts : list (tstate A)) (o : cop A) : Prop :=
  exists c, In (Idle c) ts /\ may_call c o.
(** The call [o] binds the name [n] to [v] (if it gets that far), in a process with the
    unit objects [F]. *)
Definition binds {A} (F : uenv A) (o : cop A) (n : text) (v : value A) : Prop :=
  match o with
  | ORegister n' v' => n = n' /\ v = v'
  | OCreate c name df sym usym al =>
      In n (reg_names c name sym al) /\
      exists i r, v = VUnit i /\ nth_error F i = Some (UId c name, r) /\ ur_def r = df
  | _ => False
  end.

Section Names.
  Context {A : Type} {N : Num A}.
  Variable parse : text -> res expr.
  Variables (s0 : rstate A) (F : uenv A) (called : cop A -> Prop).
  Implicit Types s : rstate A.

  Definition Pn s : Prop := exists X, F = objs s ++ X.
  Definition In_ s : Prop :=
    grows s0 s /\
    (forall n v, ctx_get s0 n = Some v -> ctx_get s n = Some v) /\
    (forall n v, ctx_get s n = Some v -> ctx_get s0 n = Some v \/ exists o, called o /\ binds F o n v).

  Lemma ctx_put n v s n' : ctx_get (put_ctx n v s) n' = if teqb n' n then Some v else ctx_get s n'.
  Proof.
    unfold ctx_get, put_ctx. cbn [ctx]. destruct (teqb n' n) eqn:E.
    - apply teqb_eq in E. subst. apply (dget_dset_same _ teqb_eq).
    - apply (dget_dset_other _ teqb_eq). intros ->. rewrite (proj2 (teqb_eq _ _) eq_refl) in E. discriminate E.
  Qed.
  Definition any {X} (_ : X) : Prop := True.
  Lemma n_set_item o n v : called o -> binds F o n v -> safe Pn In_ any (set_item_c (A:=A) n v).
  Proof.
    intros Ho Hb s _ _ HI. split; [exact HI|]. destruct (ctx_get s n) as [w|] eqn:Ew; intros s1 _ _ H1; (split; [|exact I]); [exact H1|].
    destruct H1 as (G & K & W). split; [exact G|]. split.
    - intros n' v' Hv. rewrite ctx_put. destruct (teqb n' n) eqn:E; auto.
      apply teqb_eq in E. subst. apply (proj1 (proj2 HI)) in Hv. congruence.
    - intros n' v'. rewrite ctx_put. destruct (teqb n' n) eqn:E; auto.
      apply teqb_eq in E. subst. intros [= <-]. right. eauto.
  Qed.
  Lemma n_set_items o l v : called o -> (forall n, In n l -> binds F o n v) -> safe Pn In_ any (set_items_c (A:=A) l v).
  Proof.
    intros Ho. induction l as [|n l IH]; intros Hl; cbn [set_items_c]; [exact I|].
    apply (safe_rbind Pn In_ any).
    - apply (safe_mono Pn In_ any); [|intros [x|e] _; exact I]. apply (n_set_item o); auto. apply Hl. now left.
    - intros _ _. apply IH. intros n' Hn'. apply Hl. now right.
    - intros e. exact I.
  Qed.
  Lemma n_keep (f : rstate A -> rstate A) s : objs (f s) = objs s -> ctx (f s) = ctx s -> In_ s -> In_ (f s).
  Proof.
    intros Ho Hc (G & K & W). unfold In_, ctx_get in *. rewrite Hc. split; [|split; auto].
    destruct G as [X G]. exists X. congruence.
  Qed.
  Lemma n_order c h : (forall k, safe Pn In_ any (h k)) -> safe Pn In_ any (order_c (A:=A) c h).
  Proof.
    intros Hh s _ _ HI. split; [exact HI|]. intros s1 _ _ H1. split; [exact H1|].
    intros s2 _ _ H2. split; [now apply n_keep|]. apply Hh.
  Qed.
  Lemma n_create o c name df sym usym al : called o ->
    (forall n i r, In n (reg_names c name sym al) -> nth_error F i = Some (UId c name, r) -> ur_def r = df -> binds F o n (VUnit i)) ->
    safe Pn In_ any (create_c (A:=A) c name df sym usym al).
  Proof.
    intros Ho Hb. unfold create_c. apply n_order. intros k.
    assert (Fin : forall k, safe Pn In_ any (Do (fun s => put_obj (UId c name, new_unit (objs s) (primary c, k) df sym usym al) s)
         (fun s => let v := VUnit (length (objs s)) in
                   rbind (set_items_c (reg_names c name sym al) v) (fun _ => init_default_c c name v)))).
    { intros k1 s _ Ps' (G & K & W). split.
      - split; [|split; [exact K|exact W]]. destruct G as [X G]. exists (X ++ [(UId c name, new_unit (objs s) (primary c, k1) df sym usym al)]).
        cbn [put_obj objs]. now rewrite G, app_assoc.
      - apply (safe_rbind Pn In_ any).
        + apply (safe_mono Pn In_ any); [|intros [x|e] _; exact I]. apply (n_set_items o); auto. intros n Hn.
          apply (Hb n (length (objs s)) (new_unit (objs s) (primary c, k1) df sym usym al)); auto.
          destruct Ps' as [X HX]. rewrite HX. cbn [put_obj objs]. rewrite <- app_assoc. cbn [app].
          rewrite nth_error_app2 by lia. rewrite Nat.sub_diag. reflexivity.
        + intros _ _. unfold init_default_c. destruct (is_irreducible c); [|exact I].
          intros s1 _ _ H1. split; [exact H1|]. destruct (dflt s1 c); [exact I|].
          intros s2 _ _ H2. split; [now apply n_keep|exact I].
        + intros e. exact I. }
    destruct c; try apply Fin. apply n_order. exact Fin.
  Qed.
  Lemma n_read {X} (k : rstate A -> code (rstate A) X) Q : (forall s, In_ s -> safe Pn In_ Q (k s)) -> safe Pn In_ Q (rd k).
  Proof. intros H s _ _ HI. split; auto. Qed.
  Lemma n_eval e : safe Pn In_ any (eval_c (A:=A) e).
  Proof.
    induction e as [n|p|c|o a IHa b IHb|o a IHa|k l]; try (apply n_read; intros s _; exact I); cbn [eval_c].
    - apply (safe_rbind Pn In_ any); [apply (safe_mono _ _ _ _ _ IHa); intros [x|e] _; exact I| |intros e; exact I].
      intros v _. apply (safe_rbind Pn In_ any); [apply (safe_mono _ _ _ _ _ IHb); intros [x|e] _; exact I| |intros e; exact I].
      intros w _. apply n_read. intros s _. exact I.
    - apply (safe_rbind Pn In_ any); [apply (safe_mono _ _ _ _ _ IHa); intros [x|e] _; exact I| |intros e; exact I].
      intros v _. apply n_read. intros s _. exact I.
  Qed.
  Lemma n_get_item l : safe Pn In_ any (get_item_c (A:=A) parse l).
  Proof.
    unfold get_item_c. destruct (parse (preprocess l)) as [t|]; [|exact I]. destruct (valid t); [|exact I].
    apply (safe_cbind Pn In_ any); [apply n_eval|]. intros r _. exact I.
  Qed.
  Lemma n_set_default_q c q : safe Pn In_ any (set_default_q_c (A:=A) c q).
  Proof.
    apply n_read. intros s _. destruct (dflt s c) as [dd|]; [|exact I].
    destruct (is_unit_quantity q); [|exact I]. destruct (conv_factor (objs s) dd (qdim q)) as [cf|e]; [|destruct e; exact I].
    intros s1 _ _ H1. split; [now apply n_keep|exact I].
  Qed.
  Lemma anyok {S X} (P I : S -> Prop) (c : code S (res X)) : safe P I any c -> safe P I (onok any) c.
  Proof. intros H. apply (safe_mono _ _ _ _ _ H). intros [x|e] _; exact Logic.I. Qed.
  Lemma n_set_default c a : safe Pn In_ any (set_default_c (A:=A) parse c a).
  Proof.
    destruct a as [|l|q|]; try exact I; cbn [set_default_c]; [|apply n_set_default_q].
    apply (safe_rbind Pn In_ any); [apply anyok, n_get_item| |intros e; exact I]. intros v _. apply n_read. intros s _.
    destruct (val_q s v); [apply n_set_default_q|exact I].
  Qed.
  Lemma n_set_defaults l : safe Pn In_ any (set_defaults_c (A:=A) parse l).
  Proof.
    induction l as [|[c a] l IH]; cbn [set_defaults_c]; [exact I|].
    apply (safe_rbind Pn In_ any); [apply anyok, n_set_default| |intros e; exact I]. intros _ _. exact IH.
  Qed.
  Lemma n_loop f d : (forall u, safe Pn In_ any (f u)) -> forall acc, safe Pn In_ any (simp_loop (A:=A) f d acc).
  Proof.
    intros Hf. induction d as [|[u e] d IH]; intros acc; cbn [simp_loop]; [exact I|].
    apply (safe_rbind Pn In_ any); [apply anyok, Hf| |intros er; exact I]. auto.
  Qed.
  Lemma n_simp_unit fuel : forall u, safe Pn In_ any (simp_unit_c (A:=A) fuel u).
  Proof.
    induction fuel as [|fuel IH]; intros u; [exact I|]. cbn [simp_unit_c]. apply n_read. intros s _.
    destruct (is_irreducible (u_cls u)); [exact I|]. destruct (ulookup (objs s) u) as [r|]; [|apply IH].
    destruct (ur_ref r) as [[a d]|]; [|apply IH].
    apply (safe_rbind Pn In_ any); [apply anyok, n_loop, IH| |intros er; exact I]. intros rq _. exact I.
  Qed.

  (** A product of names that are bound at the start always has the same meaning. *)
  Definition Qe (e : expr) (r : res (value A)) : Prop :=
    product e -> (forall n, In n (names e) -> ctx_get s0 n <> None) -> forall v, eval s0 e = Ok v -> r = Ok v.
  Lemma n_eval_product e : safe Pn In_ (Qe e) (eval_c (A:=A) e).
  Proof.
    assert (Up : forall e s v, product e -> (forall n, In n (names e) -> ctx_get s0 n <> None) -> In_ s -> eval s0 e = Ok v -> eval s e = Ok v).
    { intros e1 s v He Hn ((X & G) & K & _). exact (eval_product s0 s X e1 He Hn K G v). }
    induction e as [n|p|c|o a IHa b IHb|o a IHa|k l]; cbn [eval_c];
      try (apply n_read; intros s HI; cbn [safe]; intros He Hn v Hv; exact (Up _ s v He Hn HI Hv)).
    - apply (safe_cbind Pn In_ (Qe a)); [exact IHa|]. intros ra Ha.
      assert (Split : product (EBin o a b) -> (forall n, In n (names (EBin o a b)) -> ctx_get s0 n <> None) ->
        (product a /\ forall n, In n (names a) -> ctx_get s0 n <> None) /\ product b /\ forall n, In n (names b) -> ctx_get s0 n <> None).
      { intros He Hn. inversion He; subst. split; split; auto; intros n Hn'; apply Hn; cbn [names]; apply in_or_app; auto. }
      destruct ra as [va|e1].
      2:{ intros He Hn v Hv. destruct (Split He Hn) as [[Pa Na] _]. cbn [eval] in Hv.
          destruct (eval s0 a) as [va|] eqn:Ea; [|discriminate Hv]. pose proof (Ha Pa Na va Ea) as X. discriminate X. }
      apply (safe_cbind Pn In_ (Qe b)); [exact IHb|]. intros rb Hb. destruct rb as [vb|e1].
      2:{ intros He Hn v Hv. destruct (Split He Hn) as [_ [Pb Nb]]. cbn [eval] in Hv.
          destruct (eval s0 a) as [va'|] eqn:Ea; [|discriminate Hv]. cbn [bind] in Hv.
          destruct (eval s0 b) as [vb|] eqn:Eb; [|discriminate Hv]. pose proof (Hb Pb Nb vb Eb) as X. discriminate X. }
      apply n_read. intros s HI. cbn [safe]. intros He Hn v Hv. destruct (Split He Hn) as [[Pa Na] [Pb Nb]].
      pose proof (Up (EBin o a b) s v He Hn HI Hv) as U. cbn [eval] in U, Hv.
      destruct (eval s0 a) as [va'|] eqn:Ea; [|discriminate Hv]. cbn [bind] in Hv.
      destruct (eval s0 b) as [vb'|] eqn:Eb; [|discriminate Hv].
      pose proof (Ha Pa Na va' Ea) as Xa. pose proof (Hb Pb Nb vb' Eb) as Xb.
      rewrite (Up a s va' Pa Na HI Ea), (Up b s vb' Pb Nb HI Eb) in U. cbn [bind] in U. congruence.
    - apply (safe_cbind Pn In_ (Qe a)); [exact IHa|]. intros ra Ha.
      assert (Split : product (EUn o a) -> exists p, a = ENum p) by (intros He; inversion He; subst; eauto).
      destruct ra as [va|e1].
      + apply n_read. intros s HI. cbn [safe]. intros He Hn v Hv.
        pose proof (Up (EUn o a) s v He Hn HI Hv) as U. destruct (Split He) as [p ->]. cbn [eval bind] in U.
        pose proof (Ha (prod_num p) (fun n (H : In n []) => match H with end) (VNum p) eq_refl) as X. congruence.
      + intros He Hn v Hv. destruct (Split He) as [p ->].
        pose proof (Ha (prod_num p) (fun n (H : In n []) => match H with end) (VNum p) eq_refl) as X. discriminate X.
  Qed.
  (** What the calls return, as far as the names at the start determine it. *)
  Definition Qn (o : cop A) (r : res (out A)) : Prop :=
    match o with
    | OLookup label => forall tree v, parse (preprocess label) = Ok tree -> product tree ->
        (forall n, In n (names tree) -> ctx_get s0 n <> None) -> eval s0 tree = Ok v -> r = Ok (RVal v)
    | _ => True
    end.
  Lemma n_call o : called o -> safe Pn In_ (Qn o) (call (A:=A) parse o).
  Proof.
    intros Ho.
    assert (B : forall X (c : code (rstate A) (res X)) (h : X -> res (out A)), safe Pn In_ any c ->
       safe Pn In_ any (rbind c (fun x => Ret _ (h x)))).
    { intros X c h Hc. apply (safe_rbind Pn In_ any); [now apply anyok|intros x _; exact I|intros e; exact I]. }
    destruct o as [n v|c name df sym usym al|name|label|c a|sys own|fuel q]; cbn [call Qn].
    - apply B. apply (n_set_item (ORegister n v)); auto. cbn. auto.
    - apply B. apply (n_create (OCreate c name df sym usym al)); auto. intros n i r Hn Hi Hr. cbn [binds]. split; auto.
      exists i, r. auto.
    - apply B. unfold compound_c. apply (safe_rbind Pn In_ any); [apply anyok, n_get_item| |intros e; exact I].
      intros v _. apply n_read. intros s _. destruct (val_def s v) as [df|]; [|exact I].
      apply (n_create (OCompound name)); auto.
    - unfold get_item_c. destruct (parse (preprocess label)) as [t|] eqn:Ep.
      2:{ cbn [rbind cbind safe]. intros tree v X. congruence. }
      destruct (valid t) eqn:Ev.
      2:{ cbn [rbind cbind safe]. intros tree v X Hp. assert (tree = t) as -> by congruence. rewrite (product_valid _ Hp) in Ev. discriminate Ev. }
      unfold rbind. apply (safe_cbind Pn In_ (Qe t)).
      + apply (safe_cbind Pn In_ (Qe t)); [apply n_eval_product|]. intros r Hr. cbn [safe]. intros Hp Hn v Hv.
        now rewrite (Hr Hp Hn v Hv).
      + intros r Hr. assert (G : forall x, (forall v, r = Ok v -> x = Ok (RVal v)) -> Qn (OLookup label) x).
        { intros x Hx tree v X Hp Hn Hv. assert (tree = t) as -> by congruence. apply Hx. exact (Hr Hp Hn v Hv). }
        destruct r as [w|e]; cbn [safe]; apply G; [intros v [= <-]; reflexivity|intros v [=]].
    - apply B, n_set_default.
    - apply B. unfold set_default_units_c. destruct sys; try apply n_set_defaults. exact I.
    - apply B. unfold simplified_c. apply (safe_rbind Pn In_ any); [apply anyok, n_loop, n_simp_unit| |intros e; exact I].
      intros rq _. exact I.
  Qed.
End Names.

Lemma client_in_calls {A} (OK : cop A -> Prop) (Q : cop A -> res (out A) -> Prop) c :
  (forall o, may_call c o -> OK o) -> client_in OK Q c.
Proof.
  induction c as [|o k IH]; cbn [client_in may_call]; intros H; [exact I|].
  split; [apply H; auto|]. split; [apply IH; intros o' Ho; apply H; eauto|]. intros r _. apply IH. intros o' Ho. apply H; eauto.
Qed.

(** For every program and every order in which its threads make their steps, including
    interrupts: names and units that exist at the start never change, and every other
    name is bound to something that one of the calls of the program binds it to. *)
Theorem C117_names_kept : forall A (N : Num A) parse (s : rstate A) ts tr s' ts' x,
  (forall t, In t ts -> idle t) -> run parse s ts tr s' ts' -> In x tr ->
  (forall n v, ctx_get s n = Some v -> ctx_get x n = Some v) /\
  (forall i o, nth_error (objs s) i = Some o -> nth_error (objs x) i = Some o) /\
  (forall n v, ctx_get x n = Some v -> ctx_get s n = Some v \/
     exists o, program_calls ts o /\ binds (objs s') o n v).
Proof.
  intros A N parse s ts tr s' ts' x Hi Hr Hx.
  pose proof (run_grows parse s ts tr s' ts' Hr Hi) as G.
  destruct (run_safe parse (Pn (objs s')) (In_ s (objs s') (program_calls ts)) (program_calls ts) (Qn parse s)
     (fun o => n_call parse s (objs s') (program_calls ts) o) s ts tr s' ts' Hr) as [H _].
  - intros y Hy. exact (proj2 (G y Hy)).
  - split; [exact (proj1 (G s (run_first parse _ _ _ _ _ Hr)))|]. split; auto.
  - intros t Ht. destruct (Hi t Ht) as [c ->]. cbn [tsafe]. apply client_in_calls. intros o Ho. exists c. auto.
  - destruct (H x Hx) as ((X & E) & K & W). split; [exact K|]. split; [|exact W].
    intros i o Ho. rewrite E. rewrite nth_error_app1; auto. apply nth_error_Some. congruence.
Qed.
(** Whatever the other threads do, a lookup of a label made of names known at the start
    (by products, quotients and powers) returns what it meant at the start. *)
Theorem C117_lookup : forall A (N : Num A) parse (s : rstate A) ts tr s' ts' label k r tree v,
  (forall t, In t ts -> idle t) -> run parse s ts tr s' ts' ->
  In (Busy (OLookup label) (Ret _ r) k) ts' ->
  parse (preprocess label) = Ok tree -> product tree -> (forall n, In n (names tree) -> ctx_get s n <> None) ->
  get_item parse s label = Ok v ->
  r = Ok (RVal v).
Proof.
  intros A N parse s ts tr s' ts' label k r tree v Hi Hr Hin Hp Hpr Hn Hg.
  pose proof (run_grows parse s ts tr s' ts' Hr Hi) as G.
  destruct (run_safe parse (Pn (objs s')) (In_ s (objs s') (program_calls ts)) (program_calls ts) (Qn parse s)
     (fun o => n_call parse s (objs s') (program_calls ts) o) s ts tr s' ts' Hr) as [_ H].
  - intros y Hy. exact (proj2 (G y Hy)).
  - split; [exact (proj1 (G s (run_first parse _ _ _ _ _ Hr)))|]. split; auto.
  - intros t Ht. destruct (Hi t Ht) as [c ->]. cbn [tsafe]. apply client_in_calls. intros o Ho. exists c. auto.
  - destruct (H _ Hin) as (_ & Hs & _). apply (Hs tree v Hp Hpr Hn). unfold get_item, inner_get in Hg. rewrite Hp in Hg.
    cbn [bind] in Hg. rewrite (product_valid _ Hpr) in Hg. destruct (eval s tree) as [w|e]; [|destruct e; discriminate Hg].
    exact Hg.
Qed.
(** A plain name. *)
Theorem C117_lookup_name : forall A (N : Num A) fread (s : rstate A) ts tr s' ts' n k r v,
  (forall t, In t ts -> idle t) -> run (parse_arith fread) s ts tr s' ts' ->
  In (Busy (OLookup n) (Ret _ r) k) ts' -> identifier n -> lower n <> T "in" -> ctx_get s n = Some v ->
  r = Ok (RVal v).
Proof.
  intros A N fread s ts tr s' ts' n k r v Hi Hr Hin Hid Hl Hc.
  assert (Hp : parse_arith fread (preprocess n) = Ok (EName n)).
  { rewrite preprocess_clean; auto using identifier_nonempty.
    2:{ apply clean_idchars, identifier_chars; auto. }
    unfold parse_arith. rewrite (lexes_lex fread n [TName n]).
    - reflexivity.
    - now apply lexes_name.
    - pose proof (identifier_chars n Hid) as H. destruct n; [destruct Hid as [[] _]|]. inversion H; subst.
      now apply idchar_not_space. }
  apply (C117_lookup A N (parse_arith fread) s ts tr s' ts' n k r (EName n) v Hi Hr Hin Hp).
  - constructor.
  - intros m [<-|[]]. congruence.
  - now apply ident_get.
Qed.

(** Without a race a name that is taken cannot be bound to something else (C58).  Two
    threads can both find a name free: both calls succeed, and the name that meant one
    value when the first call was done means the other one afterwards. *)
Theorem C117_names_refuted : forall A (N : Num A) parse (s : rstate A) n v1 v2 k1 k2,
  ctx_get s n = None ->
  exists tr1 s1 ts1 tr2 s2 ts2,
    run parse s [Idle (Call (ORegister n v1) k1); Idle (Call (ORegister n v2) k2)] tr1 s1 ts1 /\
    In (Busy (ORegister n v1) (Ret _ (Ok RNone)) k1) ts1 /\ ctx_get s1 n = Some v1 /\
    run parse s1 ts1 tr2 s2 ts2 /\
    In (Busy (ORegister n v2) (Ret _ (Ok RNone)) k2) ts2 /\ ctx_get s2 n = Some v2.
Proof.
  intros A N parse s n v1 v2 k1 k2 Hn.
  set (ts := [Idle (Call (ORegister n v1) k1); Idle (Call (ORegister n v2) k2)]).
  assert (G1 : go parse [0;1;0;1;0] s ts = Some (put_ctx n v1 s,
     [Busy (ORegister n v1) (Ret _ (Ok RNone)) k1; Busy (ORegister n v2) (Do (put_ctx n v2) (fun _ => Ret _ (Ok RNone))) k2])).
  { unfold ts. cbn [go tnth tnext call]. unfold set_item_c, rbind, rd, wr. cbn [cbind go tnth tnext]. rewrite Hn. reflexivity. }
  assert (G2 : go parse [1] (put_ctx n v1 s) [Busy (ORegister n v1) (Ret _ (Ok RNone)) k1; Busy (ORegister n v2) (Do (put_ctx n v2) (fun _ => Ret _ (Ok RNone))) k2]
     = Some (put_ctx n v2 (put_ctx n v1 s), [Busy (ORegister n v1) (Ret _ (Ok RNone)) k1; Busy (ORegister n v2) (Ret _ (Ok RNone)) k2])) by reflexivity.
  destruct (go_run _ _ _ _ _ _ G1) as [tr1 R1]. destruct (go_run _ _ _ _ _ _ G2) as [tr2 R2].
  assert (E : teqb n n = true) by now apply teqb_eq.
  eexists tr1, _, _, tr2, _, _. split; [exact R1|]. split; [left; reflexivity|]. split; [rewrite ctx_put; now rewrite E|].
  split; [exact R2|]. split; [right; left; reflexivity|]. rewrite ctx_put. now rewrite E.
Qed.
(** Units in the example: neither value is equal to the other; the name is free. *)
Example C117_refuted_example : ctx_get (ex_st Qc) (T "foo") = None /\ veq (ex_st Qc) (VUnit 1) (VUnit 2) = Ok false.
Proof. split; vm_compute; reflexivity. Qed.

(** ** C118, C119: default units *)

(** A value that is a number, a constant, a unit object or a quantity with well-formed
    units that exist in [F]. *)
Definition value_ok {A} (F : uenv A) (v : value A) : Prop := match v with VQty q => proper F q | _ => True end.
(** Calls with proper arguments: what is registered is a value; a default is given by a
    label or by a quantity with well-formed units; what is simplified is a quantity. *)
Definition sarg_ok {A} (a : sarg A) : Prop := match a with SQty q => dims_ok (qdim q) | _ => True end.
Definition call_ok {A} (F : uenv A) (o : cop A) : Prop :=
  match o with
  | ORegister _ v => value_ok F v
  | ODefault _ a => sarg_ok a
  | ODefaults _ own => forall c a, In (c, a) own -> sarg_ok a
  | OSimplified _ q => qty_ok q
  | _ => True
  end.

Lemma env_ok_front {A} {N : Num A} pos (E X : uenv A) : env_ok pos (E ++ X) -> env_ok pos E.
Proof.
  induction X as [|x X IH] using rev_ind; [now rewrite app_nil_r|]. rewrite app_assoc. intros H. apply IH.
  inversion H as [He|E' u order df sym usym al H' Hn Hd He].
  - exfalso. symmetry in He. apply app_eq_nil in He. destruct He as [_ He]. discriminate He.
  - apply app_inj_tail in He. destruct He as [<- _]. exact H'.
Qed.

Section Defs.
  Variable parse : text -> res expr.
  (** [fixed]: no unit is created. *)
  Variables (s0 : rstate R) (F : uenv R) (W : ucls -> dims -> Prop) (fixed : Prop).
  Hypothesis HF : renv_ok F.
  Local Notation code := (code (rstate R)).
  Implicit Types s : rstate R.
  Local Open Scope R_scope.

  Definition Pd s : Prop := (exists X, F = objs s ++ X) /\ (forall c dd, dflt s c = Some dd -> W c dd) /\ (fixed -> objs s = F).
  Definition Id s : Prop :=
    (forall n v, ctx_get s n = Some v -> value_ok F v) /\
    (forall c dd, dflt s c = Some dd -> dims_ok dd) /\
    (forall c d0, dflt s0 c = Some d0 -> exists dd, dflt s c = Some dd /\ convertible F dd d0) /\
    (fixed -> forall c, dflt s0 c = None -> dflt s c = None).

  Lemma pd_env s : Pd s -> renv_ok (objs s).
  Proof. intros [[X HX] _]. unfold renv_ok in *. rewrite HX in HF. exact (env_ok_front _ _ _ HF). Qed.
  Lemma pd_consistent s phi : Pd s -> consistent F phi -> consistent (objs s) phi.
  Proof. intros [[X ->] _]. apply consistent_extend. Qed.
  Lemma pd_convertible s d1 d2 : Pd s -> convertible (objs s) d1 d2 -> convertible F d1 d2.
  Proof. intros [[X HX] _] H. rewrite HX. now apply convertible_extend. Qed.
  Lemma value_q s v q : Pd s -> value_ok F v -> val_q s v = Some q -> proper F q.
  Proof.
    intros [[X HX] _] Hv Hq. destruct v as [p|c|i|q0|t]; cbn [val_q] in Hq; try discriminate Hq.
    - destruct (nth_error (objs s) i) as [[u r]|] eqn:Ei; [|discriminate Hq]. injection Hq as <-.
      split; [exists 1; reflexivity|]. cbn [unit_q qdim]. split; [apply dims_ok_unit|]. intros w Hw. apply In_unit_dims in Hw. subst w.
      rewrite HX. unfold dkeys. rewrite map_app, in_app_iff. left. apply nth_error_In in Ei. exact (in_map fst _ _ Ei).
    - injection Hq as <-. exact Hv.
  Qed.
  Lemma d_read {X} (k : rstate R -> code X) Q : (forall s, Pd s -> Id s -> safe Pd Id Q (k s)) -> safe Pd Id Q (rd k).
  Proof. intros H s HP _ HI. split; auto. Qed.
  Lemma d_keep (f : rstate R -> rstate R) s : ctx (f s) = ctx s -> dflt (f s) = dflt s -> Id s -> Id (f s).
  Proof. intros Hc Hd HI. unfold Id, ctx_get in *. rewrite Hc, Hd. exact HI. Qed.

  Lemma d_set_item n v : value_ok F v -> safe Pd Id any (set_item_c n v).
  Proof.
    intros Hv. apply d_read. intros s _ _. destruct (ctx_get s n) as [w|].
    - apply d_read. intros s1 _ _. exact I.
    - intros s1 _ _ (I1 & I2 & I3 & I4). split; [|exact I]. split; [|split; [exact I2|split; [exact I3|exact I4]]].
      intros n' v'. rewrite ctx_put. destruct (teqb n' n); [intros [= <-]; exact Hv|apply I1].
  Qed.
  Lemma d_set_items l v : value_ok F v -> safe Pd Id any (set_items_c l v).
  Proof.
    intros Hv. induction l as [|n l IH]; cbn [set_items_c]; [exact I|].
    apply (safe_rbind Pd Id any); [apply anyok; now apply d_set_item|intros _ _; exact IH|intros e; exact I].
  Qed.
  Lemma d_create c name df sym usym al : safe Pd Id (onok (value_ok F)) (create_c c name df sym usym al).
  Proof.
    assert (Ord : forall h, (forall k, safe Pd Id (onok (value_ok F)) (h k)) -> safe Pd Id (onok (value_ok F)) (order_c c h)).
    { intros h Hh. apply d_read. intros s _ _. apply d_read. intros s1 _ _ s2 _ _ H2. split; [now apply d_keep|]. apply Hh. }
    unfold create_c. apply Ord. intros k.
    assert (Fin : forall k, safe Pd Id (onok (value_ok F)) (Do (fun s => put_obj (UId c name, new_unit (objs s) (primary c, k) df sym usym al) s)
         (fun s => let v := VUnit (length (objs s)) in
                   rbind (set_items_c (reg_names c name sym al) v) (fun _ => init_default_c c name v)))).
    { intros k1 s Ps Ps' HI. split; [now apply d_keep|].
      apply (safe_rbind Pd Id any); [apply anyok; now apply d_set_items| |intros e; exact I]. intros _ _.
      unfold init_default_c. destruct (is_irreducible c); [|exact I]. apply d_read. intros s1 _ HI1.
      destruct (dflt s1 c) as [dd|] eqn:Ed; [exact I|]. intros s2 _ _ (I1 & I2 & I3 & I4). split; [|exact I].
      split; [exact I1|]. cbn [put_default dflt]. split; [|split].
      - intros c' dd. unfold set_cls. destruct (ucls_eqb c c'); [intros [= <-]; apply dims_ok_unit|apply I2].
      - intros c' d0 H0. unfold set_cls. destruct (ucls_eqb c c') eqn:Ec; [|now apply I3].
        apply ucls_eqb_eq in Ec. subst c'. destruct (proj1 (proj2 (proj2 HI1)) c d0 H0) as (dd & Hdd & _). congruence.
      - intros Hfix. exfalso. pose proof (proj2 (proj2 Ps) Hfix) as X1. pose proof (proj2 (proj2 Ps') Hfix) as X2. cbn [put_obj objs] in X2.
        rewrite X1 in X2. apply (f_equal (@length _)) in X2. rewrite app_length in X2. cbn [length] in X2. lia. }
    destruct c; try apply Fin. apply Ord. exact Fin.
  Qed.
  Lemma v_bin_value s o v w x : Pd s -> value_ok F v -> value_ok F w -> v_bin s o v w = Ok x -> value_ok F x.
  Proof.
    intros HP Hv Hw H. destruct x as [p|c|i|q|t]; try exact I. cbn [value_ok].
    exact (v_bin_proper s F o v w (VQty q) (fun q' => value_q s v q' HP Hv) (fun q' => value_q s w q' HP Hw) H q eq_refl).
  Qed.
  Lemma v_un_value s o v x : Pd s -> value_ok F v -> v_un s o v = Ok x -> value_ok F x.
  Proof.
    intros HP Hv H. destruct x as [p|c|i|q|t]; try exact I. cbn [value_ok].
    exact (v_un_proper s F o v (VQty q) (fun q' => value_q s v q' HP Hv) H q eq_refl).
  Qed.
  Lemma d_eval e : safe Pd Id (onok (value_ok F)) (eval_c (A:=R) e).
  Proof.
    induction e as [n|p|c|o a IHa b IHb|o a IHa|k l]; cbn [eval_c];
      try (apply d_read; intros s _ HI; exact I).
    - apply d_read. intros s _ HI. cbn [safe eval]. destruct (ctx_get s n) as [v|] eqn:Ev; [exact (proj1 HI n v Ev)|].
      destruct (teqb n (T "__builtins__")); exact I.
    - apply (safe_rbind Pd Id (value_ok F)); [exact IHa| |intros e; exact I]. intros v Hv.
      apply (safe_rbind Pd Id (value_ok F)); [exact IHb| |intros e; exact I]. intros w Hw.
      apply d_read. intros s HP _. cbn [safe]. destruct (v_bin s o v w) as [x|] eqn:Ex; [|exact I]. exact (v_bin_value s o v w x HP Hv Hw Ex).
    - apply (safe_rbind Pd Id (value_ok F)); [exact IHa| |intros e; exact I]. intros v Hv.
      apply d_read. intros s HP _. cbn [safe]. destruct (v_un s o v) as [x|] eqn:Ex; [|exact I]. exact (v_un_value s o v x HP Hv Ex).
  Qed.
  Lemma d_get_item l : safe Pd Id (onok (value_ok F)) (get_item_c (A:=R) parse l).
  Proof.
    unfold get_item_c. destruct (parse (preprocess l)) as [t|]; [|exact I]. destruct (valid t); [|exact I].
    apply (safe_cbind Pd Id (onok (value_ok F))); [apply d_eval|]. intros [v|e] Hr; [exact Hr|]. destruct e; exact I.
  Qed.
  Lemma d_set_default_q c q : dims_ok (qdim q) -> safe Pd Id any (set_default_q_c c q).
  Proof.
    intros Hq. apply d_read. intros s HP HI. destruct (dflt s c) as [dd|] eqn:Ed; [|exact I].
    destruct (is_unit_quantity q); [|exact I]. destruct (conv_factor (objs s) dd (qdim q)) as [cf|e] eqn:Ec; [|destruct e; exact I].
    assert (Hdd : dims_ok dd) by exact (proj1 (proj2 HI) c dd Ed).
    apply (proj1 (conv_factor_spec (objs s) dd (qdim q) (pd_env s HP) Hdd Hq)) in Ec.
    assert (C : convertible F (qdim q) dd).
    { apply (pd_convertible s _ _ HP). apply convertible_sym; auto; [now apply pd_env|]. now exists cf. }
    intros s1 _ _ (I1 & I2 & I3 & I4). split; [|exact I]. split; [exact I1|]. cbn [put_default dflt]. split; [|split].
    - intros c' d'. unfold set_cls. destruct (ucls_eqb c c'); [intros [= <-]; exact Hq|apply I2].
    - intros c' d0 H0. unfold set_cls. destruct (ucls_eqb c c') eqn:E1; [|now apply I3].
      apply ucls_eqb_eq in E1. subst c'. exists (qdim q). split; [reflexivity|].
      destruct (proj1 (proj2 (proj2 HI)) c d0 H0) as (dd' & H1 & H2). assert (dd' = dd) as -> by congruence.
      exact (convertible_trans _ _ _ _ C H2).
    - intros Hfix c' H0. unfold set_cls. destruct (ucls_eqb c c') eqn:E1; [|now apply I4].
      apply ucls_eqb_eq in E1. subst c'. exfalso. rewrite (proj2 (proj2 (proj2 HI)) Hfix c H0) in Ed. discriminate Ed.
  Qed.
  Lemma d_set_default c a : sarg_ok a -> safe Pd Id any (set_default_c parse c a).
  Proof.
    intros Ha. destruct a as [|l|q|]; try exact I; cbn [set_default_c]; [|now apply d_set_default_q].
    apply (safe_rbind Pd Id (value_ok F)); [apply d_get_item| |intros e; exact I]. intros v Hv. apply d_read. intros s HP _.
    destruct (val_q s v) as [q|] eqn:Eq; [|exact I]. apply d_set_default_q. exact (proj1 (proj2 (value_q s v q HP Hv Eq))).
  Qed.
  Lemma d_set_defaults l : (forall c a, In (c, a) l -> sarg_ok a) -> safe Pd Id any (set_defaults_c parse l).
  Proof.
    induction l as [|[c a] l IH]; intros Hl; cbn [set_defaults_c]; [exact I|].
    apply (safe_rbind Pd Id any); [apply anyok, d_set_default; apply (Hl c a); now left| |intros e; exact I].
    intros _ _. apply IH. intros c' a' Hin. apply (Hl c' a'). now right.
  Qed.

  (** *** simplified *)
  Definition was_default (w : uid) : Prop := exists c dd, W c dd /\ In w (dkeys dd).
  Definition byW (d : dims) : Prop := dims_ok d /\ forall w, In w (dkeys d) -> was_default w.
  Definition goodW (d : dims) (x : R * dims) : Prop :=
    0 < fst x /\ byW (snd x) /\ forall phi, consistent F phi -> dimval phi d = fst x * dimval phi (snd x).
  Lemma byW_mul d1 d2 : byW d1 -> byW d2 -> byW (dim_mul d1 d2).
  Proof.
    intros [W1 H1] [W2 H2]. split; [now apply dims_ok_mul|]. intros u Hu.
    apply In_dkeys_exp_mul in Hu; [|apply W1|apply W2]. destruct Hu; auto.
  Qed.
  Lemma byW_pow d p : byW d -> byW (dim_pow d p).
  Proof. intros [W1 H]. split; [now apply dims_ok_pow|]. intros u Hu. apply In_dkeys_pow in Hu; auto. Qed.
  Lemma byW_nil : byW [].
  Proof. split; [apply dims_ok_nil|intros u []]. Qed.

  Lemma d_loop (f : uid -> code (res (R * dims))) d :
    (forall u, In u (dkeys d) -> u_cls u <> CDimless /\ safe Pd Id (onok (goodW (unit_dims u))) (f u)) ->
    forall acc, 0 < fst acc -> byW (snd acc) ->
    safe Pd Id (onok (fun rq => 0 < fst rq /\ byW (snd rq) /\
       forall phi, consistent F phi -> fst acc * dimval phi (snd acc) * dimval phi d = fst rq * dimval phi (snd rq))) (simp_loop f d acc).
  Proof.
    induction d as [|[u e] d IH]; intros Hf acc Hp Hb; cbn [simp_loop].
    - cbn [safe onok]. split; [exact Hp|]. split; [exact Hb|]. intros phi _. cbn [dimval]. ring.
    - destruct (Hf u) as [Hu Hs]; [now left|].
      apply (safe_rbind Pd Id (goodW (unit_dims u))); [exact Hs| |intros er; exact I]. intros x (X1 & X2 & X3).
      eapply safe_mono; [apply IH|].
      + intros v Hv. apply Hf. now right.
      + cbn [sc_mul_pow fst nmul npow NumR]. apply Rmult_lt_0_compat; auto. now apply rpow_pos.
      + cbn [sc_mul_pow snd]. apply byW_mul; auto. now apply byW_pow.
      + intros [rq|er] Hr; [|exact I]. destruct Hr as (R1 & R2 & R3). split; [exact R1|]. split; [exact R2|].
        intros phi HC. rewrite <- (R3 phi HC). cbn [sc_mul_pow fst snd dimval nmul npow NumR].
        rewrite dimval_mul, dimval_pow, rpow_Rpower by assumption.
        assert (Hphi : phi u = fst x * dimval phi (snd x)).
        { rewrite <- (X3 phi HC), dimval_unit'; auto. apply HC. }
        rewrite Hphi, <- Rpower_mult_distr by (auto; apply dimval_pos). ring.
  Qed.
  Lemma d_simp_unit fuel : forall u, safe Pd Id (onok (goodW (unit_dims u))) (simp_unit_c (A:=R) fuel u).
  Proof.
    induction fuel as [|fuel IH]; intros u; [exact I|]. cbn [simp_unit_c]. apply d_read. intros s HP HI.
    pose proof (pd_env s HP) as HE.
    destruct (is_irreducible (u_cls u)) eqn:Ei.
    - cbn [safe]. destruct (simp_unit 1 (objs s) (dflt s) u) as [x|e] eqn:Ex; [|exact I].
      destruct (simp_unit_good (objs s) (dflt s) HE (proj1 (proj2 HI)) 1 u x Ex) as (G1 & (G2 & G3) & G4).
      split; [exact G1|]. split.
      + split; [exact G2|]. intros w Hw. destruct (G3 w Hw) as (c & dd & Hc & Hin). exists c, dd. split; auto. now apply (proj1 (proj2 HP)).
      + intros phi HC. apply G4. now apply (pd_consistent s).
    - destruct (ulookup (objs s) u) as [r|] eqn:Er; [|apply IH].
      destruct (ur_ref r) as [[a d]|] eqn:Ef; [|apply IH].
      assert (Hroots : roots_only (objs s) (snd (unit_ref (objs s) u))) by (eapply unit_ref_roots; eauto).
      assert (Hu : unit_ref (objs s) u = (a, d)) by (unfold unit_ref; now rewrite Er, Ef).
      rewrite Hu in Hroots. cbn [snd] in Hroots.
      eapply safe_rbind; [apply (d_loop (simp_unit_c fuel) d)| |intros er; exact I].
      + intros v Hv. split; [now apply Hroots|apply IH].
      + cbn [fst n1 NumR]. lra.
      + apply byW_nil.
      + intros rq (I1 & I2 & I3). cbn [safe onok]. 
        assert (Ha : 0 < a) by (pose proof (ref_pos_all (objs s) HE u) as X; rewrite Hu in X; exact X).
        split; [cbn [fst nmul NumR]; now apply Rmult_lt_0_compat|]. split; [exact I2|].
        intros phi HC. cbn [fst snd nmul NumR].
        assert (Hc : u_cls u <> CDimless).
        { destruct (ur_def r) as [df|] eqn:Edf.
          - now destruct (env_ok_lookup _ (objs s) HE u r df Er Edf).
          - apply (env_ok_def_ref _ (objs s) HE u r Er) in Edf. congruence. }
        pose proof (pd_consistent s phi HP HC) as HC'.
        rewrite dimval_unit' by (auto; apply HC').
        rewrite (consistent_ref (objs s) phi HE HC' u Hc), Hu. cbn [fst snd].
        specialize (I3 phi HC). cbn [fst snd dimval n1 NumR] in I3. rewrite !Rmult_1_l in I3. rewrite I3. ring.
  Qed.

  (** What calls return. *)
  Definition Qd (o : cop R) (r : res (out R)) : Prop :=
    match o with
    | OSimplified _ q => onok (fun x => exists p, x = RQty p /\ same_value F p q /\ qty_ok p /\ shp (mag p) = shp (mag q) /\
        forall u, In u (dkeys (qdim p)) -> was_default u) r
    | OCreate _ _ _ _ _ _ | OCompound _ | OLookup _ => onok (fun x => exists v, x = RVal v /\ value_ok F v) r
    | _ => onok (fun x => x = RNone) r
    end.
  Lemma d_call o : call_ok F o -> safe Pd Id (Qd o) (call parse o).
  Proof.
    intros Ho.
    assert (B : forall X (c : code (res X)), safe Pd Id any c -> safe Pd Id (onok (fun x : out R => x = RNone)) (rbind c (fun _ => Ret _ (Ok RNone)))).
    { intros X c Hc. apply (safe_rbind Pd Id any); [now apply anyok|intros x _; reflexivity|intros e; exact I]. }
    assert (V : forall (c : code (res (value R))), safe Pd Id (onok (value_ok F)) c ->
       safe Pd Id (onok (fun x => exists v, x = RVal v /\ value_ok F v)) (rbind c (fun v => Ret _ (Ok (RVal v))))).
    { intros c Hc. apply (safe_rbind Pd Id (value_ok F)); [exact Hc|intros v Hv; exists v; auto|intros e; exact I]. }
    destruct o as [n v|c name df sym usym al|name|label|c a|sys own|fuel q]; cbn [call call_ok] in *.
    - apply B. now apply d_set_item.
    - apply V, d_create.
    - apply V. unfold compound_c. apply (safe_rbind Pd Id (value_ok F)); [apply d_get_item| |intros e; exact I].
      intros v _. apply d_read. intros s _ _. destruct (val_def s v); [apply d_create|exact I].
    - apply V, d_get_item.
    - apply B. now apply d_set_default.
    - apply B. unfold set_default_units_c.
      assert (L : forall y, safe Pd Id any (set_defaults_c parse (system_calls y ++ own))).
      { intros y. apply d_set_defaults. intros c a Hin. apply in_app_or in Hin. destruct Hin as [Hin|Hin]; [|exact (Ho c a Hin)].
        destruct y; cbn in Hin; repeat (destruct Hin as [Hin|Hin]; [injection Hin as <- <-; exact I|]); destruct Hin. }
      destruct sys; [apply L|apply L|apply L|exact I].
    - unfold simplified_c. unfold Qd. destruct Ho as [Hq1 Hq2].
      eapply safe_rbind with (Q := fun p => same_value F p q /\ qty_ok p /\ shp (mag p) = shp (mag q) /\
        forall u, In u (dkeys (qdim p)) -> was_default u); [|intros p Hp; exists p; auto|intros e; exact I].
      eapply safe_rbind; [apply (d_loop (simp_unit_c fuel) (qdim q))| |intros er; exact I].
      + intros u Hu. split; [now apply Hq2|apply d_simp_unit].
      + cbn [fst n1 NumR]. lra.
      + apply byW_nil.
      + intros rq (I1 & I2 & I3). cbn [safe onok].
        split; [|split; [split; [|exact (proj1 I2)]|split; [reflexivity|exact (proj2 I2)]]].
        * intros phi HC. destruct q as [m d]; cbn [mag qdim] in *. apply phys_rescaled.
          specialize (I3 phi HC). cbn [fst snd dimval n1 NumR] in I3. rewrite <- I3. ring.
        * unfold awf in *. cbn [mag amap dat shp]. now rewrite map_length.
  Qed.

  (** *** [simplified] succeeds *)
  Variable root : ucls -> uid.
  Hypothesis HS : std_defaults F (dflt s0) root.
  Hypothesis Hfix : fixed.
  Lemma now_std s : Pd s -> Id s -> std_defaults F (dflt s) root.
  Proof.
    intros HP (I1 & I2 & I3 & I4) c Hc. destruct (HS c Hc) as (H1 & H2 & H3). split; [exact H1|]. split; [exact H2|].
    intros dd Hd. split; [exact (I2 c dd Hd)|]. destruct (dflt s0 c) as [d0|] eqn:E0.
    - destruct (I3 c d0 E0) as (dd' & Hd' & Hc'). assert (dd' = dd) as -> by congruence.
      exact (convertible_trans _ _ _ _ Hc' (proj2 (H3 d0 eq_refl))).
    - rewrite (I4 Hfix c E0) in Hd. discriminate Hd.
  Qed.
  Lemma now_some s c : Id s -> dflt s0 c <> None -> dflt s c <> None.
  Proof. intros (_ & _ & I3 & _) H. destruct (dflt s0 c) as [d0|] eqn:E0; [|contradiction]. destruct (I3 c d0 E0) as (dd & Hd & _). congruence. Qed.
  Lemma now_simplifiable s u : Id s -> simplifiable F (dflt s0) root u -> simplifiable F (dflt s) root u.
  Proof.
    intros HI. unfold simplifiable. destruct (is_irreducible (u_cls u)).
    - intros [H1 H2]. split; [now apply now_some|exact H2].
    - intros (d & H1 & H2 & H3). exists d. split; [exact H1|]. split; [|exact H3]. intros w Hw.
      destruct (H2 w Hw) as (c & C1 & C2 & C3). exists c. split; [exact C1|]. split; [now apply now_some|exact C3].
  Qed.
  Definition fine {X} (r : res X) : Prop := exists x, r = Ok x.
  Lemma d_irr_ok fuel u : is_irreducible (u_cls u) = true -> simplifiable F (dflt s0) root u ->
    safe Pd Id fine (simp_unit_c (A:=R) (S fuel) u).
  Proof.
    intros Hi Hs. cbn [simp_unit_c]. apply d_read. intros s HP HI. rewrite Hi. cbn [safe].
    rewrite (proj2 (proj2 HP) Hfix).
    exact (simp_unit_irr_total F (dflt s) root HF (now_std s HP HI) 0 u Hi (now_simplifiable s u HI Hs)).
  Qed.
  Lemma d_loop_ok (f : uid -> code (res (R * dims))) d :
    (forall u, In u (dkeys d) -> safe Pd Id fine (f u)) -> forall acc, safe Pd Id fine (simp_loop f d acc).
  Proof.
    induction d as [|[u e] d IH]; intros Hf acc; cbn [simp_loop]; [exists acc; reflexivity|].
    apply (safe_cbind Pd Id fine); [apply Hf; now left|]. intros r [x ->]. apply IH. intros v Hv. apply Hf. now right.
  Qed.
  Lemma d_unit_ok fuel u : u_cls u <> CDimless -> simplifiable F (dflt s0) root u ->
    safe Pd Id fine (simp_unit_c (A:=R) (S (S fuel)) u).
  Proof.
    intros Hnd Hs. destruct (is_irreducible (u_cls u)) eqn:Ei; [now apply d_irr_ok|].
    apply (simplifiable_red F (dflt s0) root HF HS u Ei Hnd) in Hs.
    assert (RT : forall w, In w (dkeys (snd (unit_ref F u))) -> is_irreducible (u_cls w) = true /\ simplifiable F (dflt s0) root w).
    { intros w Hw. destruct (Hs w Hw) as (c & Hc & Hd & ->). destruct (std_root F (dflt s0) root HS c Hc) as [_ Rc].
      rewrite Rc. split; [exact Hc|]. apply (simplifiable_irr F (dflt s0) root); [now rewrite Rc|]. rewrite Rc. split; [exact Hd|].
      rewrite (root_unit_dims F (dflt s0) root HS c Hc). apply convertible_refl. }
    remember (S fuel) as fu eqn:Efu. cbn [simp_unit_c]. apply d_read. intros s HP HI. rewrite Ei, (proj2 (proj2 HP) Hfix).
    unfold unit_ref in RT. destruct (ulookup F u) as [r|] eqn:Er.
    - destruct (ur_ref r) as [[a d]|] eqn:Ef.
      + cbn [snd] in RT. apply (safe_cbind Pd Id fine); [|intros x [y ->]; eexists; reflexivity].
        apply d_loop_ok. intros w Hw. subst fu. destruct (RT w Hw). now apply d_irr_ok.
      + cbn [snd] in RT. exfalso. destruct (RT u) as [X _]; [|congruence]. unfold unit_dims. destruct (u_cls u); try contradiction; cbn; auto.
    - cbn [snd] in RT. exfalso. destruct (RT u) as [X _]; [|congruence]. unfold unit_dims. destruct (u_cls u); try contradiction; cbn; auto.
  Qed.
  Lemma d_simplified_ok fuel q : dims_ok (qdim q) -> (forall u, In u (dkeys (qdim q)) -> simplifiable F (dflt s0) root u) ->
    safe Pd Id fine (call parse (OSimplified (S (S fuel)) q)).
  Proof.
    intros Hq Hs. cbn [call]. unfold simplified_c. apply (safe_cbind Pd Id fine); [|intros r [x ->]; eexists; reflexivity].
    apply (safe_cbind Pd Id fine); [|intros r [x ->]; eexists; reflexivity].
    apply d_loop_ok. intros u Hu. apply d_unit_ok; [now apply Hq|now apply Hs].
  Qed.
End Defs.

(** A thread all of whose calls have proper arguments, as long as the values it gets from
    its calls are proper. *)
Definition out_ok {A} (F : uenv A) (r : res (out A)) : Prop :=
  match r with
  | Ok (RVal v) => value_ok F v
  | Ok (RQty q) => qty_ok q
  | _ => True
  end.
Fixpoint prudent {A} (F : uenv A) (c : client A) : Prop :=
  match c with
  | Stop => True
  | Call o k => call_ok F o /\ prudent F (k None) /\ forall r, out_ok F r -> prudent F (k (Some r))
  end.
(** A process: its registered values and default units are well formed, its threads are
    about to make proper calls (with respect to the units [F]). *)
Definition process_ok (F : uenv R) (s : rstate R) (ts : list (tstate R)) : Prop :=
  (forall n v, ctx_get s n = Some v -> value_ok F v) /\
  (forall c dd, dflt s c = Some dd -> dims_ok dd) /\
  (forall t, In t ts -> exists c, t = Idle c /\ prudent F c).

Lemma qd_out_ok F W o r : Qd F W o r -> out_ok F r.
Proof.
  intros Hr. destruct o; cbn [Qd] in Hr; destruct r as [x|e]; try exact I; cbn [onok] in Hr.
  - now subst x.
  - destruct Hr as (v & -> & Hv). exact Hv.
  - destruct Hr as (v & -> & Hv). exact Hv.
  - destruct Hr as (v & -> & Hv). exact Hv.
  - now subst x.
  - now subst x.
  - destruct Hr as (p & -> & _ & Hp & _). exact Hp.
Qed.
Lemma prudent_in F (Q : cop R -> res (out R) -> Prop) c : (forall o r, Q o r -> out_ok F r) -> prudent F c -> client_in (call_ok F) Q c.
Proof.
  intros HQ. induction c as [|o k IH]; cbn [prudent client_in]; [auto|]. intros (H1 & H2 & H3). split; [exact H1|]. split; [now apply IH|].
  intros r Hr. apply IH, H3. exact (HQ o r Hr).
Qed.
Lemma in_prudent F c : client_in (call_ok F) (fun _ => out_ok F) c -> prudent (A:=R) F c.
Proof.
  induction c as [|o k IH]; cbn [prudent client_in]; [auto|]. intros (H1 & H2 & H3). split; [exact H1|]. split; [now apply IH|].
  intros r Hr. now apply IH, H3.
Qed.
Lemma process_run parse s ts tr s' ts' F : run parse s ts tr s' ts' -> renv_ok F -> process_ok F s ts ->
  (forall x, In x tr -> exists X, F = objs x ++ X) -> forall fixed : Prop, (fixed -> forall x, In x tr -> objs x = F) ->
  (forall x, In x tr -> Id s F fixed x) /\
  (forall t, In t ts' -> tsafe (Pd F (fun _ _ => True) fixed) (Id s F fixed) (call_ok F) (fun _ => out_ok F) t).
Proof.
  intros Hr HF (H1 & H2 & H3) HX fixed Hfx.
  apply (run_safe parse (Pd F (fun _ _ => True) fixed) (Id s F fixed) (call_ok F) (fun _ => out_ok F)
     (fun o Ho => safe_mono _ _ _ _ _ (d_call parse s F (fun _ _ => True) fixed HF o Ho) (qd_out_ok F _ o)) s ts tr s' ts' Hr).
  - intros x Hx. split; auto.
  - split; [exact H1|]. split; [exact H2|]. split; [|auto]. intros c d0 H0. exists d0. split; [exact H0|apply convertible_refl].
  - intros t Ht. destruct (H3 t Ht) as (c & -> & Hc). cbn [tsafe]. apply prudent_in; auto.
Qed.
Lemma process_idle F s ts t : process_ok F s ts -> In t ts -> idle t.
Proof. intros (_ & _ & H) Ht. destruct (H t Ht) as (c & -> & _). exists c. reflexivity. Qed.

(** C119: for every schedule, the default unit of a class that has one at the start is
    at all times convertible to the one at the start, and well formed. *)
Theorem C119_defaults : forall parse (s : rstate R) ts tr s' ts' x c d0,
  run parse s ts tr s' ts' -> renv_ok (objs s') -> process_ok (objs s') s ts ->
  In x tr -> dflt s c = Some d0 ->
  exists dd, dflt x c = Some dd /\ dims_ok dd /\ convertible (objs s') dd d0.
Proof.
  intros parse s ts tr s' ts' x c d0 Hr HF HP Hx H0.
  assert (G : forall y, In y tr -> exists X, objs s' = objs y ++ X)
    by (intros y Hy; exact (proj2 (run_grows parse s ts tr s' ts' Hr (fun t => process_idle _ s ts t HP) y Hy))).
  destruct (process_run parse s ts tr s' ts' (objs s') Hr HF HP G False (fun f => match f with end)) as [H _].
  destruct (H x Hx) as (I1 & I2 & I3 & _).
  destruct (I3 c d0 H0) as (dd & Hd & Hc). exists dd. eauto.
Qed.

(** C118: whatever the other threads do, what [simplified] returns has the value of the
    argument, and every unit in it belongs to a default unit at some moment between the
    call and the return. *)
Theorem C118_simplified : forall parse (s : rstate R) ts tr1 s1 ts1 tr2 s2 ts2 i fuel q k p k',
  run parse s ts tr1 s1 ts1 -> run parse s1 ts1 tr2 s2 ts2 -> renv_ok (objs s2) -> process_ok (objs s2) s ts ->
  nth_error ts1 i = Some (Idle (Call (OSimplified fuel q) k)) ->
  nth_error ts2 i = Some (Busy (OSimplified fuel q) (Ret _ (Ok (RQty p))) k') ->
  same_value (objs s2) p q /\ qty_ok p /\ shp (mag p) = shp (mag q) /\
  forall u, In u (dkeys (qdim p)) -> exists x c dd, In x tr2 /\ dflt x c = Some dd /\ In u (dkeys dd).
Proof.
  intros parse s ts tr1 s1 ts1 tr2 s2 ts2 i fuel q k p k' R1 R2 HF HP H1 H2.
  assert (R12 : exists tr, run parse s ts tr s2 ts2 /\ (forall x, In x tr <-> In x tr1 \/ In x tr2)).
  { clear - R1 R2. induction R1 as [s ts|s pre t post s' t' tr s1 ts1 Hs Hr IH].
    - exists tr2. split; [exact R2|]. intros x. split; [auto|]. intros [[<-|[]]|H]; auto. exact (run_first parse _ _ _ _ _ R2).
    - destruct (IH R2) as (tr' & H1 & H2). exists (s :: tr'). split; [econstructor; eauto|].
      intros x. cbn [In]. rewrite H2. tauto. }
  destruct R12 as (tr & R12 & Htr).
  assert (G : forall x, In x tr -> exists X, objs s2 = objs x ++ X)
    by (intros x Hx; exact (proj2 (run_grows parse s ts tr s2 ts2 R12 (fun t => process_idle _ s ts t HP) x Hx))).
  destruct (process_run parse s ts tr s2 ts2 (objs s2) R12 HF HP G False (fun f => match f with end)) as [HA _].
  destruct (process_run parse s ts tr1 s1 ts1 (objs s2) R1 HF HP (fun x Hx => G x (proj2 (Htr x) (or_introl Hx))) False (fun f => match f with end)) as [_ HB].
  assert (Hp : prudent (objs s2) (Call (OSimplified fuel q) k)).
  { apply in_prudent. exact (HB _ (nth_error_In _ _ H1)). }
  set (W := fun c dd => exists x, In x tr2 /\ dflt x c = Some dd).
  assert (HA2 : forall x, In x tr2 -> Pd (objs s2) W False x /\ Id s (objs s2) False x).
  { intros x Hx. split; [|apply HA, Htr; auto]. split; [apply G, Htr; auto|]. split; [|intros []]. intros c dd Hc. exists x. auto. }
  destruct (run_one parse (Pd (objs s2) W False) (Id s (objs s2) False) (call_ok (objs s2)) (Qd (objs s2) W)
     (fun o => d_call parse s (objs s2) W False HF o) s1 ts1 tr2 s2 ts2 R2 HA2 i _ H1) as (t' & Ht' & Hs).
  - cbn [tsafe]. apply prudent_in; [apply qd_out_ok|exact Hp].
  - assert (t' = Busy (OSimplified fuel q) (Ret _ (Ok (RQty p))) k') as -> by congruence.
    destruct Hs as (_ & Hs & _). cbn [safe Qd onok] in Hs. destruct Hs as (p' & Ep & S1 & S2 & S3 & S4).
    injection Ep as <-. split; [exact S1|]. split; [exact S2|]. split; [exact S3|].
    intros u Hu. destruct (S4 u Hu) as (c & dd & (x & Hx & Hd) & Hin). exists x, c, dd. auto.
Qed.

Lemma run_append {A} {N : Num A} parse (s : rstate A) ts tr1 s1 ts1 tr2 s2 ts2 :
  run parse s ts tr1 s1 ts1 -> run parse s1 ts1 tr2 s2 ts2 ->
  exists tr, run parse s ts tr s2 ts2 /\ (forall x, In x tr <-> In x tr1 \/ In x tr2).
Proof.
  intros R1 R2. induction R1 as [s ts|s pre t post s' t' tr s1 ts1 Hs Hr IH].
  - exists tr2. split; [exact R2|]. intros x. split; [auto|]. intros [[<-|[]]|H]; auto. exact (run_first parse _ _ _ _ _ R2).
  - destruct (IH R2) as (tr' & H1 & H2). exists (s :: tr'). split; [econstructor; eauto|].
    intros x. cbn [In]. rewrite H2. tauto.
Qed.

(** If no unit is created meanwhile, [simplified] succeeds under every schedule whenever
    it would succeed at the start. *)
Theorem C118_succeeds : forall parse (s : rstate R) ts tr1 s1 ts1 tr2 s2 ts2 i fuel q k r k' root,
  run parse s ts tr1 s1 ts1 -> run parse s1 ts1 tr2 s2 ts2 -> renv_ok (objs s) -> process_ok (objs s) s ts ->
  objs s2 = objs s -> std_defaults (objs s) (dflt s) root ->
  (forall u, In u (dkeys (qdim q)) -> simplifiable (objs s) (dflt s) root u) ->
  nth_error ts1 i = Some (Idle (Call (OSimplified (S (S fuel)) q) k)) ->
  nth_error ts2 i = Some (Busy (OSimplified (S (S fuel)) q) (Ret _ r) k') ->
  exists p, r = Ok (RQty p).
Proof.
  intros parse s ts tr1 s1 ts1 tr2 s2 ts2 i fuel q k r k' root R1 R2 HF HP Ho HS Hsimp H1 H2.
  destruct (run_append _ _ _ _ _ _ _ _ _ R1 R2) as (tr & R12 & Htr).
  assert (G : forall x, In x tr -> objs x = objs s).
  { intros x Hx. destruct (run_grows parse s ts tr s2 ts2 R12 (fun t => process_idle _ s ts t HP) x Hx) as [[X GX] [Y GY]].
    rewrite Ho, GX, <- app_assoc in GY. symmetry in GY. rewrite <- (app_nil_r (objs s)) in GY at 2. apply app_inv_head in GY.
    apply app_eq_nil in GY. destruct GY as [-> _]. rewrite GX. apply app_nil_r. }
  assert (G' : forall x, In x tr -> exists X, objs s = objs x ++ X).
  { intros x Hx. exists []. rewrite (G x Hx). symmetry. apply app_nil_r. }
  destruct (process_run parse s ts tr s2 ts2 (objs s) R12 HF HP G' True (fun _ => G)) as [HA _].
  destruct (process_run parse s ts tr1 s1 ts1 (objs s) R1 HF HP (fun x Hx => G' x (proj2 (Htr x) (or_introl Hx))) True
     (fun _ x Hx => G x (proj2 (Htr x) (or_introl Hx)))) as [_ HB].
  assert (Hp : prudent (objs s) (Call (OSimplified (S (S fuel)) q) k)).
  { apply in_prudent. exact (HB _ (nth_error_In _ _ H1)). }
  set (W := fun (c : ucls) (dd : dims) => True).
  assert (HA2 : forall x, In x tr2 -> Pd (objs s) W True x /\ Id s (objs s) True x).
  { intros x Hx. split; [|apply HA, Htr; auto]. split; [apply G', Htr; auto|]. split; [intros c dd _; exact I|]. intros _. apply G, Htr; auto. }
  set (OK := fun o => call_ok (objs s) o).
  set (can := fun o : cop R => match o with
      | OSimplified (S (S _)) q' => forall u, In u (dkeys (qdim q')) -> simplifiable (objs s) (dflt s) root u
      | _ => False end).
  set (Q := fun o r => Qd (objs s) W o r /\ (can o -> fine r)).
  assert (HQ : forall o, OK o -> safe (Pd (objs s) W True) (Id s (objs s) True) (Q o) (call parse o)).
  { intros o Hok. 
    assert (Sand : forall X (H : Prop) (Q1 Q2 : X -> Prop) (c : code (rstate R) X),
      safe (Pd (objs s) W True) (Id s (objs s) True) Q1 c -> (H -> safe (Pd (objs s) W True) (Id s (objs s) True) Q2 c) ->
      safe (Pd (objs s) W True) (Id s (objs s) True) (fun x => Q1 x /\ (H -> Q2 x)) c).
    { intros X H Q1 Q2 c. induction c as [x|f g IH]; cbn [safe]; [auto|]. intros A1 A2 y Y1 Y2 Y3.
      destruct (A1 y Y1 Y2 Y3) as [B1 B2]. split; [exact B1|]. apply IH; [exact B2|]. intros h. exact (proj2 (A2 h y Y1 Y2 Y3)). }
    apply Sand; [exact (d_call parse s (objs s) W True HF o Hok)|]. intros Hc.
    destruct o as [n v|c name df sym usym al|name|label|c a|sys own|[|[|f']] q']; try contradiction Hc.
    exact (d_simplified_ok parse s (objs s) W True HF root HS I f' q' (proj2 Hok) Hc). }
  destruct (run_one parse (Pd (objs s) W True) (Id s (objs s) True) OK Q HQ s1 ts1 tr2 s2 ts2 R2 HA2 i _ H1) as (t' & Ht' & Hs).
  - cbn [tsafe]. apply prudent_in; [|exact Hp]. intros o x [Hx _]. exact (qd_out_ok _ _ _ _ Hx).
  - assert (t' = Busy (OSimplified (S (S fuel)) q) (Ret _ r) k') as -> by congruence.
    destruct Hs as (_ & [Hs1 Hs2] & _). destruct (Hs2 Hsimp) as [x ->]. cbn [Qd onok] in Hs1.
    destruct Hs1 as (p & -> & _). exists p. reflexivity.
Qed.

Open Scope string_scope.
(** Two threads that create the first two units of a class: the default unit that was set
    when the first call was about to return is replaced by a unit that cannot be
    converted to it. *)
Definition two_creations (c : ucls) (n1 n2 : string) : list (tstate Qc) :=
  [Idle (Call (OCreate c n1 None None None []) (fun _ => Stop)); Idle (Call (OCreate c n2 None None None []) (fun _ => Stop))].
(** What is seen of a state and its threads: the default of a class, the answers. *)
Definition seen (c : ucls) (p : rstate Qc * list (tstate Qc)) :=
  (dflt (fst p) c, map (fun t => option_map snd (answers t)) (snd p)).
Definition sched1 : list nat := repeat 0 8 ++ repeat 1 8 ++ [0].
Lemma go_seen {A} {N : Num A} {X} parse l (s : rstate A) ts (obs : rstate A * list (tstate A) -> X) x :
  option_map obs (go parse l s ts) = Some x -> exists tr s' ts', run parse s ts tr s' ts' /\ obs (s', ts') = x /\ go parse l s ts = Some (s', ts').
Proof.
  destruct (go parse l s ts) as [[s' ts']|] eqn:E; [|discriminate]. cbn [option_map]. intros H. injection H as <-.
  destruct (go_run _ _ _ _ _ _ E) as [tr Htr]. exists tr, s', ts'. auto.
Qed.
Lemma go_app {A} {N : Num A} parse l1 l2 (s : rstate A) ts :
  go parse (l1 ++ l2) s ts = match go parse l1 s ts with Some (s', ts') => go parse l2 s' ts' | None => None end.
Proof.
  revert s ts. induction l1 as [|i l IH]; intros s ts; cbn [app go]; [reflexivity|].
  destruct (tnth parse s ts i) as [[s' ts']|]; auto.
Qed.
Theorem C119_refuted : exists (s : rstate Qc) ts tr1 s1 ts1 tr2 s2 ts2 c d1 d2 v1 v2,
  run (parse_arith dec_read) s ts tr1 s1 ts1 /\
  map (fun t => option_map snd (answers t)) ts1 = [Some (Ok (RVal v1)); None] /\ dflt s1 c = Some d1 /\
  run (parse_arith dec_read) s1 ts1 tr2 s2 ts2 /\
  map (fun t => option_map snd (answers t)) ts2 = [Some (Ok (RVal v1)); Some (Ok (RVal v2))] /\ dflt s2 c = Some d2 /\
  conv_factor (objs s2) d1 d2 = Err AssertionError.
Proof.
  pose (a := UId CTemperature "kelvin"). pose (b := UId CTemperature "rankine").
  assert (G1 : option_map (seen CTemperature) (go (parse_arith dec_read) sched1 (ex_st Qc) (two_creations CTemperature "kelvin" "rankine")) =
     Some (Some [(a, PInt 1)], [Some (Ok (RVal (VUnit 6))); None])) by (vm_compute; reflexivity).
  assert (G2 : option_map (fun p => (seen CTemperature p, conv_factor (objs (fst p)) [(a, PInt 1)] [(b, PInt 1)]))
       (go (parse_arith dec_read) (sched1 ++ [1]) (ex_st Qc) (two_creations CTemperature "kelvin" "rankine")) =
     Some ((Some [(b, PInt 1)], [Some (Ok (RVal (VUnit 6))); Some (Ok (RVal (VUnit 7)))]), Err AssertionError)) by (vm_compute; reflexivity).
  destruct (go_seen _ _ _ _ _ _ G1) as (tr1 & s1 & ts1 & R1 & S1 & E1). rewrite go_app, E1 in G2.
  destruct (go_seen _ _ _ _ _ _ G2) as (tr2 & s2 & ts2 & R2 & S2 & _).
  pose proof (f_equal fst S1) as A1. pose proof (f_equal snd S1) as B1. pose proof (f_equal (fun p => fst (fst p)) S2) as A2.
  pose proof (f_equal (fun p => snd (fst p)) S2) as B2. pose proof (f_equal snd S2) as C2.
  exists (ex_st Qc), (two_creations CTemperature "kelvin" "rankine"), tr1, s1, ts1, tr2, s2, ts2, CTemperature, [(a, PInt 1)], [(b, PInt 1)], (VUnit 6), (VUnit 7).
  split; [exact R1|]. split; [exact B1|]. split; [exact A1|]. split; [exact R2|]. split; [exact B2|]. split; [exact A2|]. exact C2.
Qed.

(** Two threads that create a unit at the same time: both succeed, but the units get the
    same place in the order in which units are printed, so that the two equal products of
    them print differently. *)
Theorem C117_order_refuted : exists (s : rstate Qc) ts tr s' ts' u v r1 r2,
  run (parse_arith dec_read) s ts tr s' ts' /\
  map (fun t => option_map snd (answers t)) ts' = [Some (Ok (RVal (VUnit 6))); Some (Ok (RVal (VUnit 7)))] /\
  nth_error (objs s') 6 = Some (u, r1) /\ nth_error (objs s') 7 = Some (v, r2) /\ u <> v /\ ur_order r1 = ur_order r2 /\
  dim_eqb [(u, PInt 1); (v, PInt 1)] [(v, PInt 1); (u, PInt 1)] = true /\
  dim_str (objs s') dec_repr false [(u, PInt 1); (v, PInt 1)] <> dim_str (objs s') dec_repr false [(v, PInt 1); (u, PInt 1)].
Proof.
  pose (a := UId CLength "pace"). pose (b := UId CLength "span").
  assert (G : option_map (fun p => (map (fun t => option_map snd (answers t)) (snd p), map (fun i => option_map fst (nth_error (objs (fst p)) i)) [6; 7],
        map (fun i => option_map (fun o => ur_order (snd o)) (nth_error (objs (fst p)) i)) [6; 7],
        (dim_str (objs (fst p)) dec_repr false [(a, PInt 1); (b, PInt 1)], dim_str (objs (fst p)) dec_repr false [(b, PInt 1); (a, PInt 1)])))
      (go (parse_arith dec_read) ([0; 0; 1; 1] ++ repeat 0 6 ++ repeat 1 6) (ex_st Qc) (two_creations CLength "pace" "span")) =
     Some ([Some (Ok (RVal (VUnit 6))); Some (Ok (RVal (VUnit 7)))], [Some a; Some b], [Some (primary CLength, 2); Some (primary CLength, 2)],
       (T "pace*span", T "span*pace"))) by (vm_compute; reflexivity).
  destruct (go_seen _ _ _ _ _ _ G) as (tr & s' & ts' & R1 & S1 & _). clear G.
  pose proof (f_equal (fun p => fst (fst (fst p))) S1) as B1. pose proof (f_equal (fun p => snd (fst (fst p))) S1) as A1.
  pose proof (f_equal (fun p => snd (fst p)) S1) as O1. pose proof (f_equal snd S1) as D1. clear S1. cbn [fst snd map] in A1, O1, D1.
  destruct (nth_error (objs s') 6) as [[u r1]|] eqn:E6; [|discriminate A1].
  destruct (nth_error (objs s') 7) as [[v r2]|] eqn:E7; [|discriminate A1]. cbn [option_map fst snd] in A1, O1.
  assert (u = a) as -> by congruence. assert (v = b) as -> by congruence.
  exists (ex_st Qc), (two_creations CLength "pace" "span"), tr, s', ts', a, b, r1, r2.
  split; [exact R1|]. split; [exact B1|]. split; [exact E6|]. split; [exact E7|]. split; [discriminate|]. split; [congruence|].
  split; [vm_compute; reflexivity|]. intros H.
  assert (X : T "pace*span" = T "span*pace") by congruence. vm_compute in X. discriminate X.
Qed.
Close Scope string_scope.

Print Assumptions C117_names_kept.
Print Assumptions C117_lookup.
Print Assumptions C117_lookup_name.
Print Assumptions C117_names_refuted.
Print Assumptions C119_defaults.
Print Assumptions C118_simplified.
Print Assumptions C118_succeeds.
Print Assumptions C119_refuted.
Print Assumptions C117_order_refuted.
