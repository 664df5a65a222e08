(** * RoundTrip: evaluating a printed dimensionality gives it back. *)
From Coq Require Import Ascii NArith Permutation Reals Qreals Lra.
From Verif Require Import Py Num Dim DimFacts Arr Units Hash Quant Ufunc Ops Text Lex LexFacts Markup
     PrintFacts Registry RegFacts Spec.

Open Scope list_scope.
Open Scope nat_scope.

(** Arithmetic in which products, quotients and powers of one are one (true of the
    reals, the rationals and IEEE floats). *)
Definition unit_arith (A : Type) {N : Num A} : Prop :=
  nmul n1 n1 = n1 /\ ndiv n1 n1 = n1 /\ (forall p, npow n1 p = n1) /\ nofQ 1%Qc = n1.

Lemma unit_arith_R : unit_arith R.
Proof.
  unfold unit_arith. cbn. split; [lra|]. split; [lra|]. split.
  - intros p. unfold rpow. destruct (Pos.eqb _ 1).
    + apply powerRZ_R1.
    + destruct (Req_EM_T 1 0); [lra|]. unfold Rpower. rewrite ln_1, Rmult_0_r. apply exp_0.
  - unfold Qc2R. cbn. unfold Q2R. cbn. lra.
Qed.

Section RoundTrip.
  Context {A : Type} {N : Num A}.
  Hypothesis UA : unit_arith A.
  Variable st : rstate A.

  (** [e] evaluates to a quantity of magnitude one whose exponents are [F]. *)
  Definition ev (e : expr) (F : uid -> Qc) : Prop :=
    exists v d, eval st e = Ok v /\ val_q st v = Some (Qty (scalar n1) d) /\ wf_dims d /\
                forall u, exp_of d u = F u.

  Lemma val_q_not_num v q : val_q st v = Some q -> val_operand st v = Some (OQ q).
  Proof. unfold val_operand. destruct v; cbn [val_q]; intros H; try discriminate; rewrite H; reflexivity. Qed.

  Lemma ev_name s v u : ctx_get st s = Some v -> val_q st v = Some (unit_q u) ->
    ev (EName s) (fun w => exp_of (unit_dims u) w).
  Proof.
    intros H1 H2. exists v, (unit_dims u). cbn [eval]. rewrite H1.
    split; [reflexivity|]. split; [exact H2|]. split; [apply wf_unit_dims|reflexivity].
  Qed.
  Lemma ev_pow e F p : ev e F -> ev (EBin BPow e (ENum p)) (fun u => (F u * pval p)%Qc).
  Proof.
    intros (v & d & E1 & E2 & W & E3). destruct UA as (U1 & U2 & U3 & U4).
    exists (VQty (Qty (scalar n1) (dim_pow d p))), (dim_pow d p).
    cbn [eval]. rewrite E1. cbn [bind].
    assert (Ev : v_bin st BPow v (VNum p) = Ok (VQty (Qty (scalar n1) (dim_pow d p)))).
    { unfold v_bin, q_power. change (val_q st (VNum p)) with (@None (qty A)). rewrite E2.
      cbn. rewrite U3. destruct v; try discriminate E2; reflexivity. }
    rewrite Ev. split; [reflexivity|]. split; [reflexivity|]. split; [now apply wf_pow|]. intros u. now rewrite exp_of_pow, E3.
  Qed.
  Lemma ev_mul a b F G : ev a F -> ev b G -> ev (EBin BMul a b) (fun u => (F u + G u)%Qc).
  Proof.
    intros (v & d & E1 & E2 & W & E3) (v' & d' & E1' & E2' & W' & E3').
    destruct UA as (U1 & U2 & U3 & U4).
    exists (VQty (Qty (scalar n1) (dim_mul d d'))), (dim_mul d d').
    cbn [eval]. rewrite E1, E1'. cbn [bind].
    assert (Ev : v_bin st BMul v v' = Ok (VQty (Qty (scalar n1) (dim_mul d d')))).
    { unfold v_bin. rewrite (val_q_not_num _ _ E2), (val_q_not_num _ _ E2').
      cbn. rewrite U1. destruct v; try discriminate E2; reflexivity. }
    rewrite Ev. split; [reflexivity|]. split; [reflexivity|]. split; [now apply wf_mul|].
    intros u. rewrite exp_of_mul by auto using wf_NoDup. now rewrite E3, E3'.
  Qed.
  Lemma ev_div a b F G : ev a F -> ev b G -> ev (EBin BDiv a b) (fun u => (F u - G u)%Qc).
  Proof.
    intros (v & d & E1 & E2 & W & E3) (v' & d' & E1' & E2' & W' & E3').
    destruct UA as (U1 & U2 & U3 & U4).
    exists (VQty (Qty (scalar n1) (dim_div d d'))), (dim_div d d').
    cbn [eval]. rewrite E1, E1'. cbn [bind].
    assert (Ev : v_bin st BDiv v v' = Ok (VQty (Qty (scalar n1) (dim_div d d')))).
    { unfold v_bin. rewrite (val_q_not_num _ _ E2), (val_q_not_num _ _ E2').
      cbn. rewrite U2. destruct v; try discriminate E2; reflexivity. }
    rewrite Ev. split; [reflexivity|]. split; [reflexivity|]. split; [now apply wf_div|].
    intros u. rewrite exp_of_div by auto using wf_NoDup. now rewrite E3, E3'.
  Qed.
  Lemma ev_inv b G : ev b G -> ev (EBin BDiv (ENum (PInt 1)) b) (fun u => (0 - G u)%Qc).
  Proof.
    intros (v' & d' & E1' & E2' & W' & E3').
    destruct UA as (U1 & U2 & U3 & U4).
    exists (VQty (Qty (scalar n1) (dim_pow d' (PInt (-1))))), (dim_pow d' (PInt (-1))).
    cbn [eval]. rewrite E1'. cbn [bind].
    assert (Ev : v_bin st BDiv (VNum (PInt 1)) v' = Ok (VQty (Qty (scalar n1) (dim_pow d' (PInt (-1)))))).
    { unfold v_bin. rewrite (val_q_not_num _ _ E2').
      destruct v'; try discriminate; cbn [val_operand];
      change (pval (PInt 1)) with 1%Qc; rewrite U4;
      unfold q_bin, q_div, apply2, pd2; cbn [bind odat mag qdim];
      cbn; rewrite U2; reflexivity. }
    rewrite Ev. split; [reflexivity|]. split; [reflexivity|]. split; [now apply wf_pow|].
    intros u. rewrite exp_of_pow, E3'. cbn [pval]. replace (Z2Qc (-1)%Z) with (- (1))%Qc by (apply Qc_is_canon; reflexivity). ring.
  Qed.

  (** Each unit's symbol is bound to the unit. *)
  Definition symbols_bound (l : dims) : Prop :=
    forall kv, In kv l -> u_cls (fst kv) <> CDimless /\
      exists v, ctx_get st (shown (objs st) false (fst kv)) = Some v /\ val_q st v = Some (unit_q (fst kv)).

  Lemma unit_dims_single u : u_cls u <> CDimless -> unit_dims u = [(u, PInt 1)].
  Proof. intros H. unfold unit_dims. destruct (u_cls u); congruence. Qed.

  Lemma ev_fac kv : symbols_bound [kv] -> ev (fexpr (fac_of (objs st) false kv)) (fun u => exp_of [kv] u).
  Proof.
    intros H. destruct kv as [u e]. destruct (H (u, e)) as (Hc & v & E1 & E2); [cbn; auto|]. cbn [fst snd] in *.
    unfold fac_of. cbn [fst snd].
    pose proof (ev_name _ _ _ E1 E2) as Hn. rewrite unit_dims_single in Hn by auto.
    destruct (peqb e (PInt 1)) eqn:Ep; cbn [fexpr].
    - destruct Hn as (v' & d & X1 & X2 & X3 & X4). exists v', d. split; [exact X1|]. split; [exact X2|]. split; [exact X3|].
      intros w. rewrite X4, !exp_of_single. apply peqb_true in Ep. rewrite Ep. reflexivity.
    - pose proof (ev_pow _ _ (read_exp e) Hn) as (v' & d & X1 & X2 & X3 & X4). exists v', d. split; [exact X1|]. split; [exact X2|]. split; [exact X3|].
      intros w. rewrite X4, !exp_of_single, pval_read_exp.
      destruct (uid_eqb w u); cbn [pval]; [change (Z2Qc 1) with 1%Qc|]; ring.
  Qed.
  Lemma exp_of_split kv (l : dims) u : NoDup (dkeys (kv :: l)) -> exp_of (kv :: l) u = (exp_of [kv] u + exp_of l u)%Qc.
  Proof.
    intros ND. destruct kv as [w p]. inversion ND; subst. destruct (uid_eq_dec u w) as [->|Hn].
    - rewrite !exp_of_cons_same, (exp_of_notin l) by auto. ring.
    - rewrite !exp_of_cons_other by auto. rewrite exp_of_nil. ring.
  Qed.
  Lemma ev_prod l : forall e F, ev e F -> symbols_bound l -> NoDup (dkeys l) ->
    ev (prod_expr e (map (fac_of (objs st) false) l)) (fun u => (F u + exp_of l u)%Qc).
  Proof.
    induction l as [|kv l IH]; intros e F He Hl ND.
    - destruct He as (v & d & X1 & X2 & X3 & X4). exists v, d. split; [exact X1|]. split; [exact X2|]. split; [exact X3|].
      intros u. rewrite X4, exp_of_nil. ring.
    - cbn [map prod_expr fold_left].
      assert (Hk : ev (fexpr (fac_of (objs st) false kv)) (fun u => exp_of [kv] u)).
      { apply ev_fac. intros x [<-|[]]. apply Hl; cbn; auto. }
      pose proof (ev_mul _ _ _ _ He Hk) as Hm.
      assert (Hl' : symbols_bound l) by (intros x Hx; apply Hl; cbn; auto).
      assert (ND' : NoDup (dkeys l)) by (inversion ND; auto).
      destruct (IH _ _ Hm Hl' ND') as (v & d & X1 & X2 & X3 & X4). exists v, d. split; [exact X1|]. split; [exact X2|]. split; [exact X3|].
      intros u. rewrite X4, (exp_of_split kv l) by auto. ring.
  Qed.
  Lemma ev_items kv l : symbols_bound (kv :: l) -> NoDup (dkeys (kv :: l)) ->
    ev (prod_expr (fexpr (fac_of (objs st) false kv)) (map (fac_of (objs st) false) l)) (fun u => exp_of (kv :: l) u).
  Proof.
    intros H ND.
    assert (Hk : ev (fexpr (fac_of (objs st) false kv)) (fun u => exp_of [kv] u)).
    { apply ev_fac. intros x [<-|[]]. apply H; cbn; auto. }
    assert (Hl' : symbols_bound l) by (intros x Hx; apply H; cbn; auto).
    assert (ND' : NoDup (dkeys l)) by (inversion ND; auto).
    destruct (ev_prod l _ _ Hk Hl' ND') as (v & d & X1 & X2 & X3 & X4). exists v, d. split; [exact X1|]. split; [exact X2|]. split; [exact X3|].
    intros u. rewrite X4, (exp_of_split kv l) by auto. ring.
  Qed.
  Lemma ev_layout num den : symbols_bound num -> symbols_bound den -> NoDup (dkeys num) -> NoDup (dkeys den) ->
    num <> [] \/ den <> [] ->
    ev (den_expr (num_expr (map (fac_of (objs st) false) num)) (map (fac_of (objs st) false) den))
       (fun u => (exp_of num u - exp_of den u)%Qc).
  Proof.
    intros Hn Hd NDn NDd Hne.
    destruct den as [|kd ld].
    - destruct num as [|kv l]; [destruct Hne; congruence|]. cbn [map den_expr num_expr].
      destruct (ev_items kv l Hn NDn) as (v & d & X1 & X2 & X3 & X4). exists v, d. split; [exact X1|]. split; [exact X2|]. split; [exact X3|].
      intros u. rewrite X4, exp_of_nil. ring.
    - pose proof (ev_items kd ld Hd NDd) as He. cbn [map den_expr].
      destruct num as [|kv l]; cbn [map num_expr].
      + destruct (ev_inv _ _ He) as (v & d & X1 & X2 & X3 & X4). exists v, d. split; [exact X1|]. split; [exact X2|]. split; [exact X3|].
        intros u. rewrite X4, exp_of_nil. ring.
      + pose proof (ev_items kv l Hn NDn) as Hn'. exact (ev_div _ _ _ _ Hn' He).
  Qed.
End RoundTrip.

(** ** Numerator minus denominator is the dimensionality *)
Section Parts.
  Context {A : Type}.
  Variable E : uenv A.

  Lemma sorted_perm d : Permutation d (sorted_items E d).
  Proof. apply sort_by_perm. Qed.
  Lemma sorted_keys d : Permutation (dkeys d) (dkeys (sorted_items E d)).
  Proof. apply Permutation_map, sorted_perm. Qed.
  Lemma NoDup_filter_keys (f : uid * pynum -> bool) (l : dims) : NoDup (dkeys l) -> NoDup (dkeys (filter f l)).
  Proof.
    induction l as [|kv l IH]; cbn; intros ND; auto. inversion ND; subst.
    destruct (f kv); cbn; auto. constructor; auto.
    intros Hin. apply H1. unfold dkeys in *. apply in_map_iff in Hin. destruct Hin as (x & Hx & Hin).
    apply filter_In in Hin. apply in_map_iff. exists x. tauto.
  Qed.
  Lemma NoDup_num d : NoDup (dkeys d) -> NoDup (dkeys (num_of E d)).
  Proof. intros H. apply NoDup_filter_keys. eapply Permutation_NoDup; [apply sorted_keys|exact H]. Qed.
  Lemma NoDup_den d : NoDup (dkeys d) -> NoDup (dkeys (den_of E d)).
  Proof.
    intros H. unfold den_of. rewrite (dkeys_map_snd pneg). apply NoDup_filter_keys.
    eapply Permutation_NoDup; [apply sorted_keys|exact H].
  Qed.
  Lemma in_num d u p : In (u, p) (num_of E d) <-> In (u, p) d /\ (0 < pval p)%Qc.
  Proof.
    unfold num_of, num_items. rewrite filter_In. cbn [snd].
    assert (Hp : ppos p = true <-> (0 < pval p)%Qc).
    { unfold ppos. rewrite andb_true_iff, !negb_true_iff, pneg_b_false, pzero_false.
      split.
      - intros [H1 H2]. apply Qcle_lt_or_eq in H1. destruct H1; auto. exfalso; apply H2; auto.
      - intros H. split; [now apply Qclt_le_weak|]. intros X. rewrite X in H. now apply Qclt_not_eq in H. }
    rewrite Hp. split; intros [H1 H2]; split; auto.
    - eapply Permutation_in; [apply Permutation_sym, sorted_perm|exact H1].
    - eapply Permutation_in; [apply sorted_perm|exact H1].
  Qed.
  Lemma in_den d u p : In (u, p) (den_of E d) <-> exists p', In (u, p') d /\ (pval p' < 0)%Qc /\ p = pneg p'.
  Proof.
    unfold den_of, den_items. rewrite in_map_iff. split.
    - intros ([u' p'] & [= -> <-] & H). apply filter_In in H. destruct H as [H1 H2]. cbn [snd] in *.
      exists p'. split; [|split; auto; now apply pneg_b_true].
      eapply Permutation_in; [apply Permutation_sym, sorted_perm|exact H1].
    - intros (p' & H1 & H2 & ->). exists (u, p'). split; auto. apply filter_In. split.
      + eapply Permutation_in; [apply sorted_perm|exact H1].
      + now apply pneg_b_true.
  Qed.
  Lemma exp_parts d u : wf_dims d -> (exp_of (num_of E d) u - exp_of (den_of E d) u)%Qc = exp_of d u.
  Proof.
    intros W. pose proof (wf_NoDup _ W) as ND.
    pose proof (NoDup_num d ND) as Nn. pose proof (NoDup_den d ND) as Nd.
    destruct (dim_get d u) as [p|] eqn:Eg.
    - apply dim_get_In in Eg. rewrite (exp_of_In d u p) by auto.
      destruct (Qclt_le_dec (pval p) 0) as [Hl|Hl].
      + assert (Hd : In (u, pneg p) (den_of E d)) by (apply in_den; eauto).
        rewrite (exp_of_In _ _ _ Nd Hd), pval_pneg.
        rewrite exp_of_notin; [ring|]. intros Hin. apply in_map_iff in Hin.
        destruct Hin as ([u' p'] & Hu & Hin). cbn in Hu. subst u'. apply in_num in Hin. destruct Hin as [Hin Hp].
        assert (p' = p).
        { apply (In_dim_get _ _ _ ND) in Hin. apply (In_dim_get _ _ _ ND) in Eg. congruence. }
        subst p'. exfalso. exact (Qclt_not_le _ _ Hl (Qclt_le_weak _ _ Hp)).
      + assert (Hp : (0 < pval p)%Qc).
        { apply Qcle_lt_or_eq in Hl. destruct Hl as [Hl|Hl]; auto.
          exfalso. apply (wf_In d u p W Eg). auto. }
        assert (Hn : In (u, p) (num_of E d)) by (apply in_num; auto).
        rewrite (exp_of_In _ _ _ Nn Hn).
        rewrite (exp_of_notin (den_of E d)); [ring|]. intros Hin. apply in_map_iff in Hin.
        destruct Hin as ([u' p'] & Hu & Hin). cbn in Hu. subst u'. apply in_den in Hin. destruct Hin as (p'' & Hin & Hneg & _).
        assert (p'' = p).
        { apply (In_dim_get _ _ _ ND) in Hin. apply (In_dim_get _ _ _ ND) in Eg. congruence. }
        subst p''. exact (Qclt_not_le _ _ Hneg Hl).
    - apply dim_get_None in Eg. rewrite (exp_of_notin d) by auto.
      rewrite !exp_of_notin; [ring| |].
      + intros Hin. apply Eg. apply in_map_iff in Hin. destruct Hin as ([u' p'] & Hu & Hin). cbn in Hu. subst u'.
        apply in_den in Hin. destruct Hin as (p'' & Hin & _). eapply In_dkeys; eauto.
      + intros Hin. apply Eg. apply in_map_iff in Hin. destruct Hin as ([u' p'] & Hu & Hin). cbn in Hu. subst u'.
        apply in_num in Hin. destruct Hin as (Hin & _). eapply In_dkeys; eauto.
  Qed.
  Lemma parts_nonempty d : wf_dims d -> d <> [] -> num_of E d <> [] \/ den_of E d <> [].
  Proof.
    intros W Hd. destruct (num_of E d) as [|x l] eqn:En; [|left; congruence].
    destruct (den_of E d) as [|y l'] eqn:Ed; [|right; congruence].
    exfalso. apply Hd. apply exp_of_all_zero; auto. intros u. rewrite <- exp_parts, En, Ed, exp_of_nil by auto. ring.
  Qed.
End Parts.

(** ** The round trip *)
Section Main.
  Context {A : Type} {N : Num A}.
  Variable fread : text -> Qc.
  Variable frepr : Qc -> text.

  (** The dimensionality is made of registered units: each unit's symbol is an
      identifier (not a keyword, not "in" in any capitalisation) bound to that unit;
      exponents survive the stripping of zeros. *)
  Definition printable (st : rstate A) (d : dims) : Prop :=
    dims_ok d /\
    forall u e, In (u, e) d ->
      let s := shown (objs st) false u in
      identifier s /\ lower s <> T "in" /\
      (exists v, ctx_get st s = Some v /\ val_q st v = Some (unit_q u)) /\
      exp_printable fread frepr (pabs e).

  Lemma pabs_pos e : (0 < pval e)%Qc -> pabs e = e.
  Proof.
    intros H. unfold pabs. destruct (pneg_b e) eqn:En; auto. apply pneg_b_true in En.
    exfalso. exact (Qclt_not_le _ _ H (Qclt_le_weak _ _ En)).
  Qed.
  Lemma pabs_neg e : (pval e < 0)%Qc -> pabs e = pneg e.
  Proof. intros H. unfold pabs. now rewrite (proj2 (pneg_b_true e) H). Qed.
  Lemma pneg_pos e : (pval e < 0)%Qc -> (0 < pval (pneg e))%Qc.
  Proof.
    intros H. rewrite pval_pneg. apply Qclt_minus_iff in H.
    replace (- pval e)%Qc with (0 + - pval e)%Qc by ring. exact H.
  Qed.

  Lemma printable_num st d : printable st d -> items_ok (objs st) fread frepr false (num_of (objs st) d).
  Proof.
    intros [_ H] [u e] Hin. apply in_num in Hin. destruct Hin as [Hin Hp]. cbn [fst snd].
    destruct (H u e Hin) as (H1 & _ & _ & H4). rewrite pabs_pos in H4 by auto. auto.
  Qed.
  Lemma printable_den st d : printable st d -> items_ok (objs st) fread frepr false (den_of (objs st) d).
  Proof.
    intros [_ H] [u e] Hin. apply in_den in Hin. destruct Hin as (e' & Hin & Hp & ->). cbn [fst snd].
    destruct (H u e' Hin) as (H1 & _ & _ & H4). rewrite pabs_neg in H4 by auto. auto using pneg_pos.
  Qed.
  Lemma bound_num st d : printable st d -> symbols_bound st (num_of (objs st) d).
  Proof.
    intros [Hd H] [u e] Hin. apply in_num in Hin. destruct Hin as [Hin Hp]. cbn [fst snd].
    destruct (H u e Hin) as (_ & _ & H3 & _). split; auto. apply Hd. eapply In_dkeys; eauto.
  Qed.
  Lemma bound_den st d : printable st d -> symbols_bound st (den_of (objs st) d).
  Proof.
    intros [Hd H] [u e] Hin. apply in_den in Hin. destruct Hin as (e' & Hin & Hp & ->). cbn [fst snd].
    destruct (H u e' Hin) as (_ & _ & H3 & _). split; auto. apply Hd. eapply In_dkeys; eauto.
  Qed.

  (** A printed text is never "in". *)
  Lemma lower_app a b : lower (a ++ b) = lower a ++ lower b.
  Proof. apply map_app. Qed.
  Lemma lower_has a c t : lower_char c = c -> ~ In c (T "in") -> lower (a ++ c :: t) <> T "in".
  Proof.
    intros Hc Hn X. apply Hn. rewrite <- X. apply in_map_iff. exists c. split; auto. apply in_or_app; cbn; auto.
  Qed.
  Lemma join_split (x y : text) l : exists a b, join (T "*") (x :: y :: l) = a ++ "*"%char :: b.
  Proof. exists x, (join (T "*") (y :: l)). reflexivity. Qed.
  Lemma in_nostar : ~ In "*"%char (T "in").
  Proof. cbn. intros [H|[H|[]]]; discriminate. Qed.
  Lemma in_noslash : ~ In "/"%char (T "in").
  Proof. cbn. intros [H|[H|[]]]; discriminate. Qed.
  Lemma layout_not_in st d : printable st d -> d <> [] -> lower (format_units (objs st) frepr false d) <> T "in".
  Proof.
    intros HP Hne. rewrite format_units_eq.
    pose proof (printable_num st d HP) as Hn.
    pose proof HP as [[W _] HPi].
    destruct (den_of (objs st) d) as [|kd ld] eqn:Ed.
    - assert (Hnn : num_of (objs st) d <> []).
      { destruct (parts_nonempty (objs st) d W Hne) as [X|X]; [exact X|exfalso; congruence]. }
      destruct (num_of (objs st) d) as [|kv l] eqn:En; [congruence|]. cbn [map].
      destruct (Hn kv) as (H1 & H2 & H3); [cbn; auto|].
      destruct (fac_start (objs st) fread frepr false kv H1 H2 H3) as (c & t & Ec & Hc).
      destruct l as [|kv' l].
      + change (layout (fac_text (objs st) frepr false kv :: map (fac_text (objs st) frepr false) []) [])
          with (match fac_text (objs st) frepr false kv with
                | [] => T "dimensionless" | _ => fac_text (objs st) frepr false kv end).
        rewrite Ec. rewrite <- Ec. clear c t Ec Hc.
        rewrite (fac_text_eq (objs st) fread frepr) by auto.
        assert (Hin : In kv (num_of (objs st) d)) by (rewrite En; cbn; auto).
        destruct kv as [u e]. apply in_num in Hin. destruct Hin as [Hin _]. cbn [fst snd].
        destruct (peqb e (PInt 1)).
        * rewrite app_nil_r. apply (HPi u e Hin).
        * apply lower_has; [reflexivity|apply in_nostar].
      + cbn [map layout]. unfold layout. cbn [map].
        destruct (join_split (fac_text (objs st) frepr false kv) (fac_text (objs st) frepr false kv') (map (fac_text (objs st) frepr false) l)) as (a & b & Ej).
        rewrite Ej. destruct (a ++ "*"%char :: b) eqn:Ex; [destruct a; discriminate|]. rewrite <- Ex.
        apply lower_has; [reflexivity|apply in_nostar].
    - cbn [map]. unfold layout.
      set (r := match join (T "*") _ with [] => _ | _ => _ end). set (b := match map _ ld with [] => _ | _ => _ end).
      assert (Ex : exists c t, r ++ T "/" ++ b = c :: t) by (destruct r as [|c t]; cbn; eauto).
      destruct Ex as (c & t & Ex). rewrite Ex. rewrite <- Ex. apply lower_has; [reflexivity|apply in_noslash].
  Qed.

  Lemma catch_ok {X} (v : X) e h : catch (Ok v) e h = Ok v.
  Proof. reflexivity. Qed.
  Lemma arith_fexpr x : arith (fexpr x).
  Proof. destruct x as [s [p|]]; cbn; repeat constructor. Qed.
  Lemma arith_prod l : forall e, arith e -> arith (prod_expr e l).
  Proof. induction l as [|x l IH]; intros e H; cbn; auto. apply IH. constructor; auto using arith_fexpr. Qed.

  Theorem round_trip st d : unit_arith A -> printable st d -> d <> [] ->
    exists v d', get_item (parse_arith fread) st (format_units (objs st) frepr false d) = Ok v /\
      val_q st v = Some (Qty (scalar n1) d') /\ wf_dims d' /\ (forall u, exp_of d' u = exp_of d u).
  Proof.
    intros UA HP Hne. pose proof HP as [[W _] _].
    pose proof (printable_num st d HP) as Hn. pose proof (printable_den st d HP) as Hd.
    pose proof (parts_nonempty (objs st) d W Hne) as Hp.
    pose proof (layout_not_in st d HP Hne) as Hin. rewrite format_units_eq in *.
    destruct (layout_lexes (objs st) fread frepr false _ _ Hn Hd Hp) as [L (c & t & Ec & Hc)].
    unfold get_item. rewrite preprocess_clean; auto.
    2:{ rewrite Ec. discriminate. }
    2:{ now apply (clean_layout (objs st) fread). }
    unfold inner_get, parse_arith.
    rewrite (lexes_lex _ _ _ L) by (rewrite Ec; now apply idchar_not_space).
    cbn [bind]. rewrite parse_product. cbn [bind].
    set (e := den_expr _ _).
    assert (Hv : valid e = true).
    { apply valid_arith. subst e.
      assert (Han : arith (num_expr (map (fac_of (objs st) false) (num_of (objs st) d)))).
      { destruct (map (fac_of (objs st) false) (num_of (objs st) d)); cbn [num_expr]; [constructor|].
        apply arith_prod, arith_fexpr. }
      destruct (map (fac_of (objs st) false) (den_of (objs st) d)); cbn [den_expr]; auto.
      constructor; auto. apply arith_prod, arith_fexpr. }
    rewrite Hv.
    destruct (ev_layout UA st (num_of (objs st) d) (den_of (objs st) d)) as (v & d' & X1 & X2 & X3 & X4);
      auto using bound_num, bound_den, NoDup_num, NoDup_den, wf_NoDup.
    fold e in X1. rewrite X1. exists v, d'. split; [reflexivity|]. split; [exact X2|]. split; [exact X3|]. intros u. rewrite X4. now apply exp_parts.
  Qed.

  (** The empty dimensionality prints as [dimensionless]. *)
  Lemma format_empty (E : uenv A) uc : format_units E frepr uc [] = T "dimensionless".
  Proof. reflexivity. Qed.
  Lemma ident_get st s v : identifier s -> lower s <> T "in" -> ctx_get st s = Some v ->
    get_item (parse_arith fread) st s = Ok v.
  Proof.
    intros Hi Hl Hc. unfold get_item.
    rewrite preprocess_clean; auto using identifier_nonempty.
    2:{ apply clean_idchars, identifier_chars; auto. }
    unfold inner_get, parse_arith. rewrite (lexes_lex fread s [TName s]).
    - cbn [bind]. change (parse_tokens [TName s]) with (Ok (EName s)). cbn [bind]. cbn [valid walk forallb whitelisted andb].
      cbn [eval]. now rewrite Hc.
    - now apply lexes_name.
    - pose proof (identifier_chars s Hi) as H. destruct s; [destruct Hi as [[] _]|]. inversion H; subst.
      now apply idchar_not_space.
  Qed.
  Lemma ident_miss st s : identifier s -> lower s <> T "in" -> ctx_get st s = None -> s <> T "__builtins__" ->
    get_item (parse_arith fread) st s = Err LookupError.
  Proof.
    intros Hi Hl Hc Hb. unfold get_item.
    rewrite preprocess_clean; auto using identifier_nonempty.
    2:{ apply clean_idchars, identifier_chars; auto. }
    unfold inner_get, parse_arith. rewrite (lexes_lex fread s [TName s]).
    - cbn [bind]. change (parse_tokens [TName s]) with (Ok (EName s)). cbn [bind]. cbn [valid walk forallb whitelisted andb].
      cbn [eval]. rewrite Hc, teqb_neq by auto. reflexivity.
    - now apply lexes_name.
    - pose proof (identifier_chars s Hi) as H. destruct s; [destruct Hi as [[] _]|]. inversion H; subst.
      now apply idchar_not_space.
  Qed.
End Main.
