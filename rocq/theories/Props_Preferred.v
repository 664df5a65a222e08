(** * Props_Preferred: C23. *)
From Coq Require Import Reals Lra Ascii NArith.
From Verif Require Import Py Num Dim DimFacts Arr Units Spec UnitFacts Hash Quant QuantFacts SimpFacts SpecApi ConvFacts Ufunc Ops
     Text Lex LexFacts Markup PrintFacts Registry RegFacts RoundTrip PrintEq Preferred Examples Props_Conv Props_Ops Props_Registry.

Open Scope list_scope.
Open Scope nat_scope.

(** [q] and [p] have the same simplified units exactly when they are convertible. *)
Lemma simplified_dims_convertible E D root fuel q p rq rp :
  renv_ok E -> std_defaults E D root -> (forall c dd, D c = Some dd -> dims_ok dd) ->
  qty_ok q -> qty_ok p ->
  simplified fuel E D q = Ok rq -> simplified fuel E D p = Ok rp ->
  (dim_eqb (qdim rq) (qdim rp) = true <-> convertible E (qdim q) (qdim p)).
Proof.
  intros HE HS HD [_ Hq] [_ Hp] Eq Ep.
  destruct (simplified_units E D root HE HS fuel q rq Hq Eq) as [W1 X1].
  destruct (simplified_units E D root HE HS fuel p rp Hp Ep) as [W2 X2].
  rewrite (dim_eqb_exp _ _ W1 W2). split.
  - intros H. unfold simplified in Eq, Ep.
    destruct (simp_dims fuel E D (qdim q)) as [a|] eqn:Ea; [|discriminate].
    destruct (simp_dims fuel E D (qdim p)) as [b|] eqn:Eb; [|discriminate].
    cbn [bind] in Eq, Ep. apply Ok_inj in Eq. apply Ok_inj in Ep. subst rq rp. cbn [qdim] in *.
    destruct (simp_dims_good E D HE HD _ _ _ Hq Ea) as (P1 & _ & V1).
    destruct (simp_dims_good E D HE HD _ _ _ Hp Eb) as (P2 & _ & V2).
    exists (fst a / fst b)%R. intros phi HC. rewrite (V1 phi HC), (V2 phi HC).
    rewrite (dimval_eqb phi (snd a) (snd b) W1 W2 (proj2 (dim_eqb_exp _ _ W1 W2) H)). field. lra.
  - intros HC u. rewrite X1, X2. apply combo_ext. exact (convertible_ref_exp E HE (qdim q) (qdim p) Hq Hp HC).
Qed.

(** [q.rescale_preferred()]: if some entry of PREFERRED can be converted to, the
    result is [q] in the first such entry, which must be a unit (magnitude one);
    without such an entry, Exception is raised. *)
Theorem C23_first_convertible : forall fread frepr parse history v name D root fuel prefs (q : qty R),
  let st := rrun parse (@rempty R) history in
  let E := objs st in
  renv_ok E -> std_defaults E D root -> (forall c dd, D c = Some dd -> dims_ok dd) ->
  ctx_get st (T "dimensionless") = Some v -> val_q st v = Some (unit_q (UId CDimless name)) ->
  (forall x, In x (q :: prefs) -> qty_ok x /\
     exists s, simplified fuel E D x = Ok s /\ printable fread frepr st (qdim s) /\
               forall u, In u (dkeys (qdim s)) -> In u (dkeys E)) ->
  let out := rescale_preferred frepr false fuel E D prefs q in
  (forall before p after, prefs = before ++ p :: after ->
     (forall b, In b before -> ~ convertible E (qdim q) (qdim b)) -> convertible E (qdim q) (qdim p) ->
     (is_unit_quantity p = true -> exists r, out = Ok r /\ same_value E r q /\ forall u, exp_of (qdim r) u = exp_of (qdim p) u) /\
     (is_unit_quantity p = false -> out = Err ValueError)) /\
  ((forall p, In p prefs -> ~ convertible E (qdim q) (qdim p)) -> out = Err PlainException).
Proof.
  intros fread frepr parse history v name D root fuel prefs q st E HE HS HD Hv Hdl HX out.
  destruct (HX q (or_introl eq_refl)) as [Hq (sq & Sq & Pq & Kq)].
  assert (Cmp : forall p, In p prefs -> exists sp, simplified fuel E D p = Ok sp /\
     (teqb (dim_str E frepr false (qdim sq)) (dim_str E frepr false (qdim sp)) = true <-> convertible E (qdim q) (qdim p))).
  { intros p Hp. destruct (HX p (or_intror Hp)) as [Hpq (sp & Sp & Pp & _)]. exists sp. split; auto.
    rewrite <- (simplified_dims_convertible E D root fuel q p sq sp HE HS HD Hq Hpq Sq Sp).
    unfold dim_str. rewrite <- (C63_same_text_iff_equal R NumR fread frepr parse history (qdim sq) (qdim sp) v name unit_arith_R Pq Pp Kq Hv Hdl).
    apply teqb_eq. }
  subst out. unfold rescale_preferred. rewrite Sq. cbn [bind].
  assert (Skip : forall before, (forall b, In b before -> In b prefs /\ ~ convertible E (qdim q) (qdim b)) ->
    forall rest, find_preferred frepr false fuel E D q (dim_str E frepr false (qdim sq)) (before ++ rest) =
                 find_preferred frepr false fuel E D q (dim_str E frepr false (qdim sq)) rest).
  { induction before as [|b before IH]; intros HB rest; [reflexivity|].
    destruct (HB b (or_introl eq_refl)) as [Hb Hn]. destruct (Cmp b Hb) as (sp & Sp & I).
    cbn [app find_preferred]. rewrite Sp. cbn [bind].
    destruct (teqb _ _); [exfalso; apply Hn, I; reflexivity|]. apply IH. intros x Hx. apply HB. now right. }
  split.
  - intros before p after Ep HB HC.
    assert (Hp : In p prefs) by (rewrite Ep; apply in_or_app; right; left; reflexivity).
    rewrite Ep. rewrite Skip; [|intros b Hb; split; [rewrite Ep; apply in_or_app; now left|auto]].
    destruct (Cmp p Hp) as (sp & Sp & I). cbn [find_preferred]. rewrite Sp. cbn [bind].
    rewrite (proj2 I HC). destruct (HX p (or_intror Hp)) as [[_ Wp] _].
    split; intros Hu; unfold rescale; cbn [validate_dimensionality]; rewrite Hu; cbn [bind]; [|reflexivity].
    destruct (rescale_to E q (qdim p)) as [r|e] eqn:Er.
    + exists r. split; auto. split.
      * intros phi Hphi. exact (rescale_value E q (qdim p) r HE (proj2 Hq) Wp Er phi Hphi).
      * destruct (C10_rescale_preserves_value E (fun _ => Err LookupError) q (UDim (qdim p)) (qdim p) r HE Hq (den_dim _ _) Wp Er) as [X _]. exact X.
    + exfalso. destruct (proj2 (rescale_ok_iff E q (qdim p) HE (proj2 Hq) Wp) HC) as [r Hr]. congruence.
  - intros HN. rewrite <- (app_nil_r prefs), Skip; [reflexivity|]. intros b Hb. split; auto.
Qed.
(** [q.rescale()] is the same, except that every failure is a bare Exception. *)
Theorem C23_rescale_without_argument : forall A (N : Num A) frepr uc fuel E D prefs (q : qty A),
  (forall r, rescale_none frepr uc fuel E D prefs q = Ok r <-> rescale_preferred frepr uc fuel E D prefs q = Ok r) /\
  (forall e, rescale_none frepr uc fuel E D prefs q = Err e -> e = PlainException).
Proof.
  intros A N frepr uc fuel E D prefs q. unfold rescale_none. split.
  - intros r. destruct (rescale_preferred _ _ _ _ _ _ _); split; congruence.
  - intros e. destruct (rescale_preferred _ _ _ _ _ _ _); congruence.
Qed.
Lemma ex_base_env : renv_ok (objs ex_base).
Proof.
  apply rrun_env; [constructor|]. cbn [firstn ex_ops rops_ok rop_ok].
  split; [|split; [|split; [|split; [|exact I]]]]; split; try discriminate; vm_compute; intuition discriminate.
Qed.
Lemma no_defs_forallb (E : uenv R) :
  forallb (fun kv => match ur_def (snd kv) with None => true | Some _ => false end) E = true ->
  forall u r, ulookup E u = Some r -> ur_def r = None.
Proof.
  intros F u r H. unfold ulookup in H. apply dget_In in H; [|apply uid_eqb_eq].
  rewrite forallb_forall in F. specialize (F _ H). cbn [snd] in F. destruct (ur_def r); [discriminate|reflexivity].
Qed.
Lemma ex_base_defs u r : ulookup (objs ex_base) u = Some r -> ur_def r = None.
Proof. apply no_defs_forallb. vm_compute. reflexivity. Qed.
Lemma ex_base_std : std_defaults (objs ex_base) exD ex_root.
Proof.
  intros c Hc. split; [destruct c; try discriminate Hc; reflexivity|]. split.
  - intros r Hr. exact (ex_base_defs _ _ Hr).
  - intros dd. unfold exD. rewrite Hc. intros [= <-].
    split; [destruct c; try discriminate Hc; apply dims_okb_ok; reflexivity|apply convertible_refl].
Qed.
Lemma ex_speed_printable : printable dec_read dec_repr ex_base [(u_m, PInt 1); (u_s, PInt (-1))].
Proof.
  split.
  - apply dims_okb_ok; reflexivity.
  - intros u e [[= <- <-]|[[= <- <-]|[]]].
    + split; [split; [vm_compute; repeat constructor|vm_compute; reflexivity]|]. split; [vm_compute; discriminate|].
      split; [exists (VUnit 1); split; reflexivity|]. cbn. discriminate.
    + split; [split; [vm_compute; repeat constructor|vm_compute; reflexivity]|]. split; [vm_compute; discriminate|].
      split; [exists (VUnit 3); split; reflexivity|]. cbn. discriminate.
Qed.
Lemma ex_kg_printable : printable dec_read dec_repr ex_base [(u_kg, PInt 1)].
Proof.
  split.
  - apply dims_okb_ok; reflexivity.
  - intros u e [[= <- <-]|[]].
    split; [split; [vm_compute; repeat constructor|vm_compute; reflexivity]|]. split; [vm_compute; discriminate|].
      split; [exists (VUnit 2); split; reflexivity|]. cbn. discriminate.
Qed.
Example C23_example :
  let q := Qty (scalar 7%R) [(u_m, PInt 1); (u_s, PInt (-1))] in
  let prefs := [unit_q u_kg; one_q [(u_m, PInt 1); (u_s, PInt (-1))]] in
  let E := objs ex_base in
  renv_ok E /\ std_defaults E exD ex_root /\
  (forall x, In x (q :: prefs) -> qty_ok x /\
     exists s, simplified 3 E exD x = Ok s /\ printable dec_read dec_repr ex_base (qdim s) /\
               forall u, In u (dkeys (qdim s)) -> In u (dkeys E)) /\
  convertible E (qdim q) (qdim (one_q (A:=R) [(u_m, PInt 1); (u_s, PInt (-1))])) /\
  ~ convertible E (qdim q) (qdim (unit_q (A:=R) u_kg)).
Proof.
  cbv zeta. split; [exact ex_base_env|]. split; [exact ex_base_std|]. split; [|split].
  - intros x [<-|[<-|[<-|[]]]].
    + split; [split; [reflexivity|apply dims_okb_ok; reflexivity]|].
      eexists. split; [reflexivity|]. split; [exact ex_speed_printable|].
      rewrite ex_base_keys. intros u [<-|[<-|[]]]; cbn; auto 10.
    + split; [split; [reflexivity|apply dims_okb_ok; reflexivity]|].
      eexists. split; [reflexivity|]. split; [exact ex_kg_printable|].
      rewrite ex_base_keys. intros u [<-|[]]; cbn; auto 10.
    + split; [split; [reflexivity|apply dims_okb_ok; reflexivity]|].
      eexists. split; [reflexivity|]. split; [exact ex_speed_printable|].
      rewrite ex_base_keys. intros u [<-|[<-|[]]]; cbn; auto 10.
  - apply convertible_refl.
  - rewrite convertible_iff; [|exact ex_base_env|apply dims_okb_ok; reflexivity|apply dims_okb_ok; reflexivity].
    vm_compute. discriminate.
Qed.
(** Units are compared as text: with an exponent that prints like another (C63), an
    inconvertible entry is chosen and the conversion fails, although a suitable
    entry follows. *)
Theorem C23_text_comparison_refuted :
  let st := ex_st Qc in
  let q := Qty (scalar (zq 7)) [(u_m, PInt 20)] in
  rescale_preferred dec_repr false 5 (objs st) exD [one_q [(u_m, PInt 2)]; one_q [(u_m, PInt 20)]] q = Err ValueError /\
  rescale_preferred dec_repr false 5 (objs st) exD [one_q [(u_m, PInt 20)]] q = Ok q.
Proof. split; vm_compute; reflexivity. Qed.

Print Assumptions C23_first_convertible.
Print Assumptions C23_rescale_without_argument.
Print Assumptions C23_text_comparison_refuted.
