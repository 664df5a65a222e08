(** * Props_Heap: shared memory and in-place operations (C51-C57, C81-C84). *)
From Coq Require Import Reals Lra Lia.
From Verif Require Import Py Num Dim DimFacts Arr ArrFacts Lanes Units Spec SpecApi UnitFacts Quant QuantFacts Dtype ConvFacts
  Ufunc Ops Methods ItemFacts Heap HeapFacts HeapDims Examples OpsFacts.

(** The operation [x] applied to object [k] can replace the units of a quantity
    without asking whether it is a view: [fill], the [out] parameter and [//=]. *)
Definition replaces_units {A} (x : op A) (k : nat) : Prop :=
  match x with
  | OFill i _ | ORedOut _ _ _ i | OInplace IFloorDiv i _ => i = k
  | _ => False
  end.

Lemma NoDup_map_in {A B} (f : A -> B) l : (forall x y, In x l -> In y l -> f x = f y -> x = y) -> NoDup l -> NoDup (map f l).
Proof.
  induction l as [|x l IH]; cbn; intros H ND; [constructor|]. inversion ND; subst. constructor; auto.
  intros X. apply in_map_iff in X. destruct X as (y & Hy & Hin). assert (y = x) as -> by auto. contradiction.
Qed.

(** [o] is a view of a quantity: its [base] is a quantity object (a unit is one). *)
Definition views_quantity {A} (h : heap A) (o : obj) : Prop :=
  exists j oj, o_base o = BObj j /\ nth_error (objs h) j = Some oj /\ o_kind oj <> KArr.
Lemma is_qview_iff {A} (h : heap A) o : is_qview h o = true <-> views_quantity h o.
Proof.
  unfold is_qview, views_quantity. destruct (o_base o) as [| |b].
  1-2: split; [discriminate|intros (j & oj & X & _); discriminate].
  destruct (nth_error (objs h) b) as [ob|] eqn:Eb.
  - split.
    + intros K. exists b, ob. split; auto. split; auto. intros X. rewrite X in K. discriminate.
    + intros (j & oj & [= <-] & Hj & K). rewrite Eb in Hj. injection Hj as <-. now destruct (o_kind ob).
  - split; [discriminate|]. intros (j & oj & [= <-] & Hj & _). congruence.
Qed.
Lemma is_qview_false {A} (h : heap A) o : is_qview h o = false <-> ~ views_quantity h o.
Proof. rewrite <- is_qview_iff. destruct (is_qview h o); split; congruence. Qed.

Section Any.
  Context {A : Type} {N : Num A}.
  Variable lookup : string -> res (qty A).
  Variable E : uenv A.
  Variable v : npv.

  Lemma same_exp_refl d : forall u : uid, exp_of d u = exp_of d u. Proof. reflexivity. Qed.
  Lemma dim_pow_1 d p : pval p = 1%Qc -> forall u, exp_of (dim_pow d p) u = exp_of d u.
  Proof.
    intros Hp u. rewrite exp_of_pow, Hp. ring.
  Qed.

  (** Nothing but [replaces_units] changes the units of a view of a quantity. *)
  Lemma view_dims_step h x h' r i o : heap_ok h -> op_ok x -> step lookup E v h x = (h', r) ->
    nth_error (objs h) i = Some o -> o_kind o = KQty -> is_qview h o = true -> ~ replaces_units x i ->
    exists o', nth_error (objs h') i = Some o' /\ same_but_dims o o' /\ forall u, exp_of (o_dims o') u = exp_of (o_dims o) u.
  Proof.
    intros HO OK Hs Ho Hk Hv HR. destruct (step_frame lookup E v h x h' r HO OK Hs) as [F _].
    destruct (F _ _ Ho) as (o' & H1 & H2 & H3).
    destruct (target x) as [t|] eqn:ET.
    2:{ exists o'. split; auto. split; auto. rewrite H3 by discriminate. reflexivity. }
    destruct (Nat.eq_dec t i) as [->|Hne].
    2:{ exists o'. split; auto. split; auto. rewrite H3 by congruence. reflexivity. }
    exists o'. split; auto. split; auto. 
    assert (KEEP : h' = h \/ objs h' = objs h -> forall u, exp_of (o_dims o') u = exp_of (o_dims o) u).
    { intros K u. assert (X : objs h' = objs h) by (destruct K as [->|]; auto). rewrite X, Ho in H1. now injection H1 as <-. }
    assert (UF : forall k m d, (forall dd, d = Ok dd -> forall u, exp_of dd u = exp_of (o_dims o) u) ->
       ufunc_out v h i o k m d = (h', r) -> forall u, exp_of (o_dims o') u = exp_of (o_dims o) u).
    { intros k m d Hd HU. unfold ufunc_out in HU. rewrite Hk in HU.
      destruct (negb (o_wr o)); [injection HU as <- <-; apply KEEP; auto|].
      assert (Y : match m with Err e => (h, Err e) | Ok a =>
                 if list_eq_dec Nat.eq_dec (shp a) (o_shp o) then
                   match v with
                   | NumPy1 => match d with Ok d => (set_dims (write h o (dat a)) i d, Ok i) | Err e => (h, Err e) end
                   | NumPy2 => (write h o (dat a), Ok i)
                   end else (h, Err ValueError) end = (h', r) -> forall u, exp_of (o_dims o') u = exp_of (o_dims o) u).
      { clear HU. destruct m as [a|e]; [|intros [= <- <-]; apply KEEP; auto].
        destruct (list_eq_dec _ _ _); [|intros [= <- <-]; apply KEEP; auto].
        destruct v; [|intros [= <- <-]; apply KEEP; auto]. destruct d as [dd|e']; [|intros [= <- <-]; apply KEEP; auto].
        intros [= <- <-]. rewrite objs_set_dims, Nat.eqb_refl in H1. cbn [objs write write_at] in H1. rewrite Ho in H1. injection H1 as <-.
        cbn. now apply Hd. }
      destruct k, (o_dt o); auto; injection HU as <- <-; apply KEEP; auto. }
    destruct x; cbn [target] in ET; try discriminate; injection ET as ->; cbn [step] in Hs; unfold with_obj, with_arg in Hs;
      rewrite ?Ho in Hs.
    - unfold set_units_run in Hs. rewrite Hk, Hv in Hs. injection Hs as <- <-. apply KEEP; auto.
    - destruct (harg_op h x) as [[y k]|e]; [|injection Hs as <- <-; apply KEEP; auto]. unfold iop_run in Hs. rewrite Hk in Hs.
      destruct b; cbn [iop_scales iop_protected iop_rule andb] in Hs; try (destruct HR; reflexivity).
      1-3: destruct (scale_other E (obj_qty h o) y) as [z|e] eqn:Ez; [|injection Hs as <- <-; apply KEEP; auto];
        revert Hs; apply UF; intros dd; cbn [pd2]; destruct (dim_eqb _ _); [|discriminate]; intros [= <-]; cbn [obj_qty qdim]; unfold obj_dims; rewrite Hk; auto.
      all: rewrite Hv, andb_true_r in Hs; destruct (dim_nonempty (qdim (as_q y))) eqn:En; [injection Hs as <- <-; apply KEEP; auto|];
        revert Hs; apply UF; intros dd Hdd; assert (Dd : obj_dims o = o_dims o) by (unfold obj_dims; now rewrite Hk);
        destruct y as [y|y]; cbn in Hdd; injection Hdd as <-; rewrite Dd; auto;
        cbn in En; destruct (qdim y); [reflexivity|discriminate].
    - unfold ipow_run in Hs. rewrite Hk, Hv in Hs. destruct (uniform ps) as [p|] eqn:EU; [|injection Hs as <- <-; apply KEEP; auto].
      destruct ps as [|p' [|p'' ps]]; try (injection Hs as <- <-; apply KEEP; auto; fail). cbn in EU. injection EU as ->.
      destruct (peqb p (PInt 1)) eqn:E1; cbn [negb andb] in Hs; [|injection Hs as <- <-; apply KEEP; auto].
      apply peqb_true in E1. assert (Hp : pval p = 1%Qc) by exact E1.
      assert (PD : forall dd, Ok (dim_pow (o_dims o) p) = Ok dd -> forall u, exp_of dd u = exp_of (o_dims o) u)
        by (intros dd [= <-]; now apply dim_pow_1).
      destruct p as [z|q]; [|revert Hs; now apply UF]. destruct (o_dt o); [|revert Hs; now apply UF].
      destruct (z <? 0)%Z; [injection Hs as <- <-; apply KEEP; auto|revert Hs; now apply UF].
    - destruct (harg_op h x) as [[y k]|e]; [|injection Hs as <- <-; apply KEEP; auto]. unfold setitem_run in Hs.
      destruct (if is_quantity _ then _ else _) as [z|e]; [|injection Hs as <- <-; apply KEEP; auto].
      destruct (negb _); [injection Hs as <- <-; apply KEEP; auto|]. destruct (sel _) as [[s ps]|e]; [|injection Hs as <- <-; apply KEEP; auto].
      destruct (broadcast_to z s) as [xs|e]; injection Hs as <- <-; apply KEEP; auto.
    - destruct HR. reflexivity.
    - destruct HR. reflexivity.
  Qed.
  Lemma is_qview_stable h x h' r i o o' : heap_ok h -> op_ok x -> step lookup E v h x = (h', r) ->
    nth_error (objs h) i = Some o -> same_but_dims o o' -> is_qview h o = true -> is_qview h' o' = true.
  Proof.
    intros HO OK Hs Ho HS. unfold is_qview. rewrite HS. cbn [o_base with_dims]. destruct (o_base o) as [| |b]; auto.
    destruct (nth_error (objs h) b) as [ob|] eqn:Eb; [|discriminate].
    destruct (step_frame lookup E v h x h' r HO OK Hs) as [F _]. destruct (F _ _ Eb) as (ob' & -> & HB & _).
    rewrite HB. auto.
  Qed.

  (** ** C51 Views cannot change units under their base *)

  (** [q[key]], and [Quantity(q)] without units, are views of a quantity, and stay so. *)
  Theorem C51_views : forall h j o, heap_ok h -> nth_error (objs h) j = Some o -> is_quantity (o_kind o) = true ->
    (forall sel h' i, step lookup E v h (OSlice j sel) = (h', Ok i) ->
       exists o', nth_error (objs h') i = Some o' /\ o_kind o' = KQty /\ views_quantity h' o') /\
    (forall u h' i, o_kind o = KQty -> truthy u = Ok false -> step lookup E v h (OQuantity j u) = (h', Ok i) ->
       exists o', nth_error (objs h') i = Some o' /\ o_kind o' = KQty /\ views_quantity h' o').
  Proof.
    intros h j o HO Ho Hq.
    assert (K : forall d s ps h' i, view_of h j o KQty d s ps = (h', Ok i) ->
       exists o', nth_error (objs h') i = Some o' /\ o_kind o' = KQty /\ views_quantity h' o').
    { intros d s ps h' i. unfold view_of, add_obj.
      destruct (collapse_quantity (objs h) (S (length (objs h))) j o Ho Hq) as (b & ob & -> & Hb & Hk).
      intros Hs. injection Hs as <- <-. eexists. split; [cbn [objs]; rewrite nth_error_app2, Nat.sub_diag by lia; reflexivity|]. split; [reflexivity|].
      apply is_qview_iff. unfold is_qview. cbn [o_base objs]. rewrite nth_error_app1 by (apply nth_error_Some; congruence). now rewrite Hb. }
    split.
    - intros sel h' i. cbn [step]. unfold with_obj. rewrite Ho. destruct (sel (o_shp o)) as [[s ps]|e]; [|discriminate].
      destruct (_ && _ && _); [|discriminate]. rewrite Hq. apply K.
    - intros u h' i Hk Ht. cbn [step]. unfold with_obj. rewrite Ho, Hk, Ht. apply K.
  Qed.

  (** Operations that would change the units of a view of a quantity raise ValueError
      and change nothing. *)
  Theorem C51_views_protected : forall h i o, nth_error (objs h) i = Some o -> o_kind o = KQty -> views_quantity h o ->
    (forall u, step lookup E v h (OSetUnits i u) = (h, Err ValueError)) /\
    (forall b x y k, b = IMul \/ b = IDiv -> harg_op h x = Ok (OQ y, k) -> qdim y <> [] ->
       step lookup E v h (OInplace b i x) = (h, Err ValueError)) /\
    (forall p, pval p <> 1%Qc -> step lookup E v h (OIPow i [p]) = (h, Err ValueError)).
  Proof.
    intros h i o Ho Hk Hv. apply is_qview_iff in Hv. cbn [step]. unfold with_obj, with_arg. rewrite Ho. split; [|split].
    - intros u. unfold set_units_run. now rewrite Hk, Hv.
    - intros b x y k Hb Hx Hy. rewrite Hx. unfold iop_run. rewrite Hk, Hv.
      assert (X : dim_nonempty (qdim (as_q (OQ y))) = true) by (cbn; destruct (qdim y); [congruence|reflexivity]).
      destruct Hb as [-> | ->]; cbn [iop_scales iop_protected andb]; now rewrite X.
    - intros p Hp. unfold ipow_run. rewrite Hk, Hv. cbn [uniform forallb].
      destruct (peqb p (PInt 1)) eqn:E1; [|reflexivity]. apply peqb_true in E1. destruct Hp. exact E1.
  Qed.

  (** So, whatever is done, a view of a quantity keeps its units, unless it is the
      target of [fill], of an [out] parameter or of [//=]. *)
  Theorem C51_history : forall ops h i o, heap_ok h -> Forall op_ok ops ->
    nth_error (objs h) i = Some o -> o_kind o = KQty -> views_quantity h o ->
    Forall (fun x => ~ replaces_units x i) ops ->
    exists o', nth_error (objs (run lookup E v h ops)) i = Some o' /\ forall u, exp_of (o_dims o') u = exp_of (o_dims o) u.
  Proof.
    induction ops as [|x ops IH]; intros h i o HO F Ho Hk Hv HR; cbn [run]; [eauto|].
    apply Forall_cons_iff in F, HR. destruct F as [H1 H2]. destruct HR as [H4 H5]. destruct (step lookup E v h x) as [h' r] eqn:Es. cbn [fst].
    destruct (view_dims_step h x h' r i o HO H1 Es Ho Hk (proj2 (is_qview_iff h o) Hv) H4) as (o' & X1 & X2 & X3).
    assert (HO' : heap_ok h') by (pose proof (step_ok lookup E v h x HO H1) as Y; now rewrite Es in Y).
    assert (Hk' : o_kind o' = KQty) by (rewrite X2; exact Hk).
    destruct (IH h' i o' HO' H2 X1 Hk' (proj1 (is_qview_iff _ _) (is_qview_stable _ _ _ _ _ _ _ HO H1 Es Ho X2 (proj2 (is_qview_iff _ _) Hv))) H5) as (o'' & Z1 & Z2).
    exists o''. split; auto. intros u. now rewrite Z2, X3.
  Qed.

  (** ** C81 A failing operation changes nothing *)
  Theorem C81_errors_change_nothing : forall h x h' e, heap_ok h -> op_ok x ->
    step lookup E v h x = (h', Err e) -> h' = h.
  Proof. intros h x h' e. apply step_err. Qed.
  (** Every heap that a program can build is well-formed. *)
  Theorem C81_reachable : forall ops, Forall op_ok ops -> heap_ok (run lookup E v (empty_heap (A := A)) ops).
  Proof. intros ops F. apply run_ok; auto. apply empty_ok. Qed.

  (** ** C54 Units are immutable *)
  Lemma unit_step h x i o u : heap_ok h -> op_ok x -> nth_error (objs h) i = Some o -> o_kind o = KUnit u ->
    nth_error (objs (fst (step lookup E v h x))) i = Some o.
  Proof.
    intros HO OK Ho Hk. destruct (step lookup E v h x) as [h' r] eqn:Es. cbn [fst].
    destruct (step_cases lookup E v h x h' r HO OK Es) as [->|[(T & X & _)|(t & T & M & _)]]; auto.
    - eapply extends_objs; eauto.
    - pose proof (mutates_objs h h' t i M) as Y. rewrite Ho in Y. destruct Y as (o' & Y1 & _ & Y3).
      destruct (Nat.eq_dec i t) as [->|Hne]; [|now rewrite Y1, Y3].
      destruct M as (ot & ps & xs & od & Ht & Hw & _). rewrite Ho in Ht. injection Ht as <-.
      destruct (proj2 HO _ _ _ Ho Hk) as (_ & _ & W). rewrite (W _ _ Ho eq_refl) in Hw. discriminate.
  Qed.
  Theorem C54_units_immutable : forall ops h i o u, heap_ok h -> Forall op_ok ops ->
    nth_error (objs h) i = Some o -> o_kind o = KUnit u ->
    nth_error (objs (run lookup E v h ops)) i = Some o /\
    obj_qty (run lookup E v h ops) o = Qty (scalar n1) (unit_dims u).
  Proof.
    intros ops h i o u HO F Ho Hk.
    assert (K : nth_error (objs (run lookup E v h ops)) i = Some o).
    { revert h HO Ho. induction F as [|x ops Hx F IH]; intros h HO Ho; cbn [run]; auto.
      apply IH; [now apply step_ok|]. eapply unit_step; eauto. }
    split; auto. pose proof (run_ok lookup E v h ops HO F) as HO'. destruct (proj2 HO' _ _ _ K Hk) as (C1 & C2 & _).
    unfold obj_qty, obj_arr, obj_dims. now rewrite C1, C2, Hk.
  Qed.
  Theorem C54_refusals : forall h i o u, heap_ok h -> nth_error (objs h) i = Some o -> o_kind o = KUnit u ->
    (forall x y k b, harg_op h x = Ok (y, k) -> In b [IAdd; ISub; IMul; IDiv] ->
       step lookup E v h (OInplace b i x) = (h, Err TypeError)) /\
    (forall ps, step lookup E v h (OIPow i ps) = (h, Err TypeError)) /\
    (forall w, step lookup E v h (OSetUnits i w) = (h, Err AttributeError)) /\
    (forall x y k, harg_op h x = Ok (y, k) -> step lookup E v h (OFill i x) = (h, Err ValueError)) /\
    (forall sel x y k z, harg_op h x = Ok (y, k) -> scale_other E (obj_qty h o) y = Ok z ->
       step lookup E v h (OSetItem i sel x) = (h, Err ValueError)).
  Proof.
    intros h i o u HO Ho Hk. assert (W : o_wr o = false) by (destruct (proj2 HO _ _ _ Ho Hk) as (_ & _ & W); eapply W; eauto).
    cbn [step]. unfold with_obj, with_arg. rewrite Ho. repeat split.
    - intros x y k b Hx Hb. rewrite Hx. unfold iop_run. rewrite Hk. cbn in Hb.
      destruct Hb as [<-|[<-|[<-|[<-|[]]]]]; reflexivity.
    - intros ps. unfold ipow_run. now rewrite Hk.
    - intros w. unfold set_units_run. now rewrite Hk.
    - intros x y k Hx. rewrite Hx. unfold fill_run. now rewrite W.
    - intros sel x y k z Hx Hz. rewrite Hx. unfold setitem_run. rewrite Hk. cbn [is_quantity]. rewrite Hz. cbn. now rewrite W.
  Qed.

  (** ** C55 Effects are confined *)

  (** What is read through an object depends only on its own elements and units. *)
  Lemma obj_qty_ext (h h' : heap A) i o : heap_ok h -> nth_error (objs h) i = Some o ->
    (length (buffer h' (o_buf o)) = length (buffer h (o_buf o))) ->
    (forall p, In p (o_pos o) -> nth_error (buffer h' (o_buf o)) p = nth_error (buffer h (o_buf o)) p) ->
    obj_qty h' o = obj_qty h o.
  Proof.
    intros HO Ho L H. unfold obj_qty, obj_arr, contents. do 2 f_equal. now apply gather_ext.
  Qed.
  (** An operation changes what is read through an object only if it has a target
      that is this object or shares an element with it. *)
  Theorem C55_effects_confined : forall h x h' r i o, heap_ok h -> op_ok x -> step lookup E v h x = (h', r) ->
    nth_error (objs h) i = Some o ->
    (forall t ot, target x = Some t -> nth_error (objs h) t = Some ot -> t <> i /\ disjoint_objs ot o) ->
    nth_error (objs h') i = Some o /\ obj_qty h' o = obj_qty h o.
  Proof.
    intros h x h' r i o HO OK Hs Ho HT.
    destruct (step_frame lookup E v h x h' r HO OK Hs) as [F1 F2].
    destruct (proj1 HO _ _ Ho) as (Lb & _).
    destruct (F1 _ _ Ho) as (o' & H1 & _ & H3).
    assert (TI : target x <> Some i).
    { intros X. destruct (HT i o X Ho) as [Y _]. congruence. }
    split; [rewrite H1; f_equal; auto|]. apply (obj_qty_ext h h' i o HO Ho).
    - eapply step_buffer_length; eauto.
    - intros p Hp. apply F2; auto. intros t ot Ht Hot [_ [C1 C2]]. destruct (HT _ _ Ht Hot) as [_ [D|D]]; [auto|exact (D p C2 Hp)].
  Qed.
  (** Arithmetic, conversions, reductions, item access, copies and views change no
      existing object. *)
  Theorem C55_pure : forall h x h' r, heap_ok h -> op_ok x -> target x = None -> step lookup E v h x = (h', r) ->
    forall i o, nth_error (objs h) i = Some o -> nth_error (objs h') i = Some o /\ obj_qty h' o = obj_qty h o.
  Proof.
    intros h x h' r HO OK HT Hs i o Ho. apply (C55_effects_confined h x h' r i o); auto. intros t ot Ht. congruence.
  Qed.
  (** Results of computations have memory of their own. *)
  Theorem C55_results_fresh : forall h p h' n, heap_ok h -> op_ok (OPure p) -> step lookup E v h (OPure p) = (h', Ok n) ->
    exists o r k, nth_error (objs h') n = Some o /\ pure_run lookup E h p = Ok (r, k) /\ obj_qty h' o = r /\ o_kind o = KQty /\
      forall i oi, nth_error (objs h) i = Some oi -> disjoint_objs o oi.
  Proof.
    intros h p h' n HO OK. cbn [step]. destruct (pure_run lookup E h p) as [[r k]|e] eqn:Ep; [|discriminate].
    intros Hs. injection Hs as <- <-. 
    exists (Obj KQty (length (bufs h)) (seq 0 (length (dat (mag r)))) (shp (mag r)) BHidden true k (qdim r)), r, k.
    split; [cbn; rewrite nth_error_app2, Nat.sub_diag by lia; reflexivity|]. split; auto.
    split; [|split; auto].
    - unfold obj_qty, obj_arr, contents, buffer. cbn. rewrite app_nth2, Nat.sub_diag by lia. cbn.
      destruct r as [[s l] d]. cbn. do 2 f_equal. apply gather_whole.
    - intros i oi Hi. left. cbn. destruct (proj1 HO _ _ Hi) as (L & _). lia.
  Qed.

  (** ** C56 Copies *)

  (** Objects keep their memory for ever. *)
  Lemma run_obj ops h i o : heap_ok h -> Forall op_ok ops -> nth_error (objs h) i = Some o ->
    exists o', nth_error (objs (run lookup E v h ops)) i = Some o' /\ same_but_dims o o'.
  Proof.
    intros HO F. revert h HO i o. induction F as [|x ops Hx F IH]; intros h HO i o Ho; cbn [run].
    - exists o. split; auto. destruct o; reflexivity.
    - destruct (step lookup E v h x) as [h' r] eqn:Es. cbn [fst].
      destruct (step_frame lookup E v h x h' r HO Hx Es) as [F1 _]. destruct (F1 _ _ Ho) as (o1 & H1 & S1 & _).
      assert (HO' : heap_ok h') by (pose proof (step_ok lookup E v h x HO Hx) as Y; now rewrite Es in Y).
      destruct (IH h' HO' i o1 H1) as (o2 & H2 & S2). exists o2. split; auto.
      rewrite S2, S1. reflexivity.
  Qed.
  Lemma map_nth_whole (o : obj) : map (fun p => nth p (o_pos o) 0%nat) (whole o) = o_pos o.
  Proof.
    unfold whole. generalize (o_pos o). intros l. apply nth_error_ext'. intros i. rewrite nth_error_map. destruct (Nat.lt_ge_cases i (length l)) as [X|X].
    + rewrite (nth_error_nth' _ 0%nat) by (now rewrite seq_length). rewrite seq_nth by auto. cbn. symmetry. now apply nth_error_nth'.
    + rewrite (proj2 (nth_error_None (seq 0 (length l)) i)) by (rewrite seq_length; lia). cbn. symmetry. now apply nth_error_None.
  Qed.
  (** [copy.deepcopy(q)] is another object on the same memory: for ever after both
      read the same magnitudes, whichever of them is written to. *)
  Theorem C56_deepcopy_shares_refuted : forall h j o h' n, heap_ok h -> nth_error (objs h) j = Some o ->
    is_quantity (o_kind o) = true -> step lookup E v h (ODeepcopy j) = (h', Ok n) ->
    exists o', nth_error (objs h') n = Some o' /\ n <> j /\ o_kind o' = KQty /\ o_dims o' = obj_dims o /\ o_shp o' = o_shp o /\
      forall ops, Forall op_ok ops -> exists on oj,
        nth_error (objs (run lookup E v h' ops)) n = Some on /\ nth_error (objs (run lookup E v h' ops)) j = Some oj /\
        contents (run lookup E v h' ops) on = contents (run lookup E v h' ops) oj.
  Proof.
    intros h j o h' n HO Ho Hq Hs. 
    assert (HO' : heap_ok h') by (pose proof (step_ok lookup E v h (ODeepcopy j) HO I) as Y; now rewrite Hs in Y).
    assert (Hj : nth_error (objs h') j = Some o) by (apply (C55_pure h (ODeepcopy j) h' (Ok n) HO I eq_refl Hs j o Ho)).
    assert (Lj : (j < length (objs h))%nat) by (apply nth_error_Some; congruence).
    cbn [step] in Hs. unfold with_obj in Hs. rewrite Ho, Hq in Hs.
    set (m := Obj KArr (o_buf o) (map (fun p => nth p (o_pos o) 0%nat) (whole o)) (o_shp o)
                   (collapse (S (length (objs h))) (objs h) KArr j) (o_wr o) (o_dt o) []) in *.
    assert (Em : nth_error (objs (fst (view_of h j o KArr [] (o_shp o) (whole o)))) (length (objs h)) = Some m).
    { cbn. rewrite nth_error_app2, Nat.sub_diag by lia. reflexivity. }
    rewrite Em in Hs. unfold view_of at 1, add_obj in Hs.
    assert (Pm : o_pos m = o_pos o) by (unfold m; cbn; apply map_nth_whole).
    eexists. split; [|split; [|split; [|split; [|split]]]].
    - injection Hs as <- <-. cbn [objs]. rewrite nth_error_app2, Nat.sub_diag by lia. reflexivity.
    - injection Hs as _ <-. cbn [objs view_of add_obj fst]. rewrite app_length. cbn. lia.
    - reflexivity.
    - reflexivity.
    - reflexivity.
    - intros ops F. 
      set (o' := Obj KQty (o_buf m) (map (fun p => nth p (o_pos m) 0%nat) (whole m)) (o_shp m)
            (collapse (S (length (objs (fst (view_of h j o KArr [] (o_shp o) (whole o))))))
              (objs (fst (view_of h j o KArr [] (o_shp o) (whole o)))) KQty (length (objs h))) (o_wr m) (o_dt m) (obj_dims o)).
      assert (Hn : nth_error (objs h') n = Some o').
      { injection Hs as <- <-. cbn [objs]. rewrite nth_error_app2, Nat.sub_diag by lia. reflexivity. }
      destruct (run_obj ops h' n o' HO' F Hn) as (on & N1 & N2). destruct (run_obj ops h' j o HO' F Hj) as (oj & J1 & J2).
      exists on, oj. split; auto. split; auto. rewrite N2, J2, !contents_with_dims. unfold contents, o'. cbn [o_buf o_pos].
      rewrite map_nth_whole, Pm. reflexivity.
  Qed.
  (** [q.copy()] has memory of its own and the same value; writing to the copy, by
      whatever operation, does not change [q] and conversely. *)
  Theorem C56_copy_independent : forall h j o h' n, heap_ok h -> nth_error (objs h) j = Some o -> o_kind o = KQty ->
    step lookup E v h (OCopy j) = (h', Ok n) ->
    exists o', nth_error (objs h') n = Some o' /\ o_kind o' = KQty /\ obj_qty h' o' = obj_qty h o /\
      (forall x h'' r, op_ok x -> target x = Some n -> step lookup E v h' x = (h'', r) -> obj_qty h'' o = obj_qty h o) /\
      (forall x h'' r, op_ok x -> target x = Some j -> step lookup E v h' x = (h'', r) -> obj_qty h'' o' = obj_qty h' o').
  Proof.
    intros h j o h' n HO Ho Hk Hs.
    assert (HO' : heap_ok h') by (pose proof (step_ok lookup E v h (OCopy j) HO I) as Y; now rewrite Hs in Y).
    destruct (C55_pure h (OCopy j) h' (Ok n) HO I eq_refl Hs j o Ho) as [Hj Vj].
    assert (Lj : (j < length (objs h))%nat) by (apply nth_error_Some; congruence).
    destruct (proj1 HO _ _ Ho) as (Lb & _).
    cbn [step] in Hs. unfold with_obj in Hs. rewrite Ho, Hk in Hs. unfold alloc in Hs.
    set (o' := Obj KQty (length (bufs h)) (seq 0 (length (dat (obj_arr h o)))) (shp (obj_arr h o)) BNone true (o_dt o) (o_dims o)) in *.
    injection Hs as <- <-.
    assert (Hn : nth_error (objs h ++ [o']) (length (objs h)) = Some o') by (rewrite nth_error_app2, Nat.sub_diag by lia; reflexivity).
    assert (D : disjoint_objs o' o) by (left; cbn; lia).
    assert (D' : disjoint_objs o o') by (left; cbn; lia).
    exists o'. split; [exact Hn|]. split; [reflexivity|]. split; [|split].
    - unfold obj_qty, obj_arr, contents at 1, buffer. cbn. rewrite app_nth2, Nat.sub_diag by lia. cbn.
      unfold obj_dims. rewrite Hk. cbn. do 2 f_equal. apply gather_whole.
    - intros x h'' r OK HT Hx. rewrite <- Vj. refine (proj2 (C55_effects_confined _ x h'' r j o HO' OK Hx Hj _)).
      intros t ot Ht Hot. rewrite HT in Ht. injection Ht as <-. cbn [objs] in Hot. rewrite Hn in Hot. injection Hot as <-. split; [lia|auto].
    - intros x h'' r OK HT Hx. refine (proj2 (C55_effects_confined _ x h'' r (length (objs h)) o' HO' OK Hx Hn _)).
      intros t ot Ht Hot. rewrite HT in Ht. injection Ht as <-. rewrite Hj in Hot. injection Hot as <-. split; [lia|auto].
  Qed.

  (** Histories. *)
  (** Every operation of the history that has a target has one that satisfies [P] at that
      moment. *)
  Fixpoint all_targets (P : nat -> obj -> Prop) (h : heap A) (ops : list (op A)) : Prop :=
    match ops with
    | [] => True
    | x :: ops' => (forall t ot, target x = Some t -> nth_error (objs h) t = Some ot -> P t ot) /\
                   all_targets P (fst (step lookup E v h x)) ops'
    end.
  Theorem C55_history : forall ops h i o, heap_ok h -> Forall op_ok ops -> nth_error (objs h) i = Some o ->
    all_targets (fun t ot => t <> i /\ disjoint_objs ot o) h ops ->
    nth_error (objs (run lookup E v h ops)) i = Some o /\ obj_qty (run lookup E v h ops) o = obj_qty h o.
  Proof.
    induction ops as [|x ops IH]; intros h i o HO OK Ho HT; cbn [run]; [auto|]. inversion OK as [|? ? O1 O2]; subst.
    destruct HT as [T1 T2]. destruct (step lookup E v h x) as [h' r] eqn:Hx.
    destruct (C55_effects_confined h x h' r i o HO O1 Hx Ho T1) as [X1 X2].
    pose proof (step_ok lookup E v h x HO O1) as HO'. cbn [fst] in T2. rewrite Hx in HO'. cbn [fst] in *.
    destruct (IH h' i o HO' O2 X1 T2) as [Y1 Y2]. split; [exact Y1|]. now rewrite Y2.
  Qed.
  (** The copy has memory of its own: no history of operations on it and on views of it
      changes an older object, and no history of operations on anything else changes it. *)
  Theorem C56_copy_history : forall h j o h' n ops, heap_ok h -> nth_error (objs h) j = Some o -> o_kind o = KQty ->
    step lookup E v h (OCopy j) = (h', Ok n) -> Forall op_ok ops ->
    exists o', nth_error (objs h') n = Some o' /\ obj_qty h' o' = obj_qty h o /\
      (all_targets (fun _ ot => o_buf ot = o_buf o') h' ops ->
         forall i oi, nth_error (objs h) i = Some oi ->
           nth_error (objs (run lookup E v h' ops)) i = Some oi /\ obj_qty (run lookup E v h' ops) oi = obj_qty h oi) /\
      (all_targets (fun _ ot => o_buf ot <> o_buf o') h' ops ->
         nth_error (objs (run lookup E v h' ops)) n = Some o' /\ obj_qty (run lookup E v h' ops) o' = obj_qty h o).
  Proof.
    intros h j o h' n ops HO Ho Hk Hs OK.
    destruct (C56_copy_independent h j o h' n HO Ho Hk Hs) as (o' & Hn & K & Q & _).
    assert (HO' : heap_ok h') by (pose proof (step_ok lookup E v h (OCopy j) HO I) as Y; now rewrite Hs in Y).
    assert (B : o_buf o' = length (bufs h)).
    { clear Q K. cbn [step] in Hs. unfold with_obj in Hs. rewrite Ho, Hk in Hs. unfold alloc in Hs.
      injection Hs as <- <-. cbn [objs] in Hn. rewrite nth_error_app2, Nat.sub_diag in Hn by lia. cbn [nth_error] in Hn. injection Hn as <-. reflexivity. }
    assert (Mono : forall (P P' : nat -> obj -> Prop), (forall t ot, P t ot -> P' t ot) -> forall ops h, all_targets P h ops -> all_targets P' h ops).
    { intros P P' HP. induction ops0 as [|x l IH]; intros h0; cbn [all_targets]; auto. intros [T1 T2]. split; eauto. }
    exists o'. split; [exact Hn|]. split; [exact Q|]. split.
    - intros HT i oi Hi. destruct (C55_pure h (OCopy j) h' (Ok n) HO I eq_refl Hs i oi Hi) as [X1 X2]. rewrite <- X2.
      pose proof (proj1 (proj1 HO _ _ Hi)) as Lb.
      apply C55_history; auto. clear - HT B Lb X1 HO' OK. revert HT. revert X1. generalize h' HO'. clear HO'.
      induction ops as [|x l IH]; intros h0 HO0 Hi; cbn [all_targets]; auto. intros [T1 T2]. inversion OK as [|? ? O1 O2]; subst.
      assert (T : forall t ot, target x = Some t -> nth_error (objs h0) t = Some ot -> t <> i /\ disjoint_objs ot oi).
      { intros t ot Ht Hot. specialize (T1 t ot Ht Hot). split.
        - intros ->. assert (oi = ot) as -> by congruence. rewrite B in T1. lia.
        - left. rewrite T1, B. lia. }
      split; [exact T|]. apply (IH O2); auto.
      + now apply step_ok.
      + destruct (step lookup E v h0 x) as [h1 r] eqn:Hx. exact (proj1 (C55_effects_confined h0 x h1 r i oi HO0 O1 Hx Hi T)).
    - intros HT. rewrite <- Q. apply C55_history; auto. clear - HT Hn HO' OK. revert HT Hn. generalize h' HO'. clear HO'.
      induction ops as [|x l IH]; intros h0 HO0; cbn [all_targets]; auto. intros [T1 T2] Hn. inversion OK as [|? ? O1 O2]; subst.
      assert (T : forall t ot, target x = Some t -> nth_error (objs h0) t = Some ot -> t <> n /\ disjoint_objs ot o').
      { intros t ot Ht Hot. specialize (T1 t ot Ht Hot). split; [|now left]. intros ->. congruence. }
      split; [exact T|]. apply (IH O2); auto.
      + now apply step_ok.
      + destruct (step lookup E v h0 x) as [h1 r] eqn:Hx. exact (proj1 (C55_effects_confined h0 x h1 r n o' HO0 O1 Hx Hn T)).
  Qed.

  (** ** C82 What shares memory *)

  (** [Quantity(a, units)] of an ndarray, [q.magnitude], and slices are windows on the
      same memory: an element seen by both objects is the same for ever. *)
  Theorem C82_views_share : forall h j o h' n, heap_ok h -> nth_error (objs h) j = Some o ->
    ((exists u, o_kind o = KArr /\ step lookup E v h (OQuantity j u) = (h', Ok n)) \/ step lookup E v h (OMagnitude j) = (h', Ok n)) ->
    exists o', nth_error (objs h') n = Some o' /\ o_shp o' = o_shp o /\ n <> j /\
      forall ops, Forall op_ok ops -> exists on oj,
        nth_error (objs (run lookup E v h' ops)) n = Some on /\ nth_error (objs (run lookup E v h' ops)) j = Some oj /\
        contents (run lookup E v h' ops) on = contents (run lookup E v h' ops) oj.
  Proof.
    intros h j o h' n HO Ho Hs.
    assert (Lj : (j < length (objs h))%nat) by (apply nth_error_Some; congruence).
    assert (K : forall k d, heap_ok h' -> view_of h j o k d (o_shp o) (whole o) = (h', Ok n) -> 
      exists o', nth_error (objs h') n = Some o' /\ o_shp o' = o_shp o /\ n <> j /\
      forall ops, Forall op_ok ops -> exists on oj,
        nth_error (objs (run lookup E v h' ops)) n = Some on /\ nth_error (objs (run lookup E v h' ops)) j = Some oj /\
        contents (run lookup E v h' ops) on = contents (run lookup E v h' ops) oj).
    { intros k d HO' Hv. unfold view_of, add_obj in Hv.
      set (o' := Obj k (o_buf o) (map (fun p => nth p (o_pos o) 0%nat) (whole o)) (o_shp o) (collapse (S (length (objs h))) (objs h) k j) (o_wr o) (o_dt o) d) in *.
      assert (Hn : nth_error (objs h') n = Some o').
      { injection Hv as <- <-. cbn [objs]. rewrite nth_error_app2, Nat.sub_diag by lia. reflexivity. }
      assert (Hj : nth_error (objs h') j = Some o).
      { injection Hv as <- <-. cbn [objs]. now rewrite nth_error_app1. }
      exists o'. split; auto. split; [reflexivity|]. split; [injection Hv as _ <-; lia|].
      intros ops F. destruct (run_obj ops h' n o' HO' F Hn) as (on & N1 & N2). destruct (run_obj ops h' j o HO' F Hj) as (oj & J1 & J2).
      exists on, oj. split; auto. split; auto. rewrite N2, J2, !contents_with_dims. unfold contents, o'. cbn [o_buf o_pos].
      now rewrite map_nth_whole. }
    destruct Hs as [(u & Hk & Hs)|Hs].
    - assert (HO' : heap_ok h') by (pose proof (step_ok lookup E v h (OQuantity j u) HO I) as Y; now rewrite Hs in Y).
      cbn [step] in Hs. unfold with_obj in Hs. rewrite Ho, Hk in Hs. destruct (validate_dimensionality lookup u); [|discriminate].
      exact (K _ _ HO' Hs).
    - assert (HO' : heap_ok h') by (pose proof (step_ok lookup E v h (OMagnitude j) HO I) as Y; now rewrite Hs in Y).
      cbn [step] in Hs. unfold with_obj in Hs. rewrite Ho in Hs. exact (K _ _ HO' Hs).
  Qed.

  (** ** C57 In-place arithmetic *)

  (** The operators without side effects that the in-place operators abbreviate. *)
  Definition pure_of (b : iop) (q : qty A) (x : operand A) : res (qty A) :=
    match b with
    | IAdd => q_add E q x | ISub => q_sub E q x | IMod => q_mod E q x
    | IMul => q_mul (OQ q) x | IDiv => q_div (OQ q) x | IFloorDiv => q_fdiv (OQ q) x
    end.
  Definition additive (b : iop) : Prop := b = IAdd \/ b = ISub \/ b = IMod.

  Lemma contents_write (h : heap A) i o xs : heap_ok h -> nth_error (objs h) i = Some o -> length xs = length (o_pos o) ->
    contents (write h o xs) o = map (cast_to (o_dt o)) xs.
  Proof.
    intros HO Ho L. destruct (proj1 HO _ _ Ho) as (Lb & F & ND & _). unfold contents, write. rewrite buffer_write_at by auto.
    rewrite Nat.eqb_refl. apply gather_scatter; auto. now rewrite map_length.
  Qed.
  Lemma contents_set_dims (h : heap A) i d o : contents (set_dims h i d) o = contents h o.
  Proof. unfold contents. now rewrite buffer_set_dims. Qed.
  Lemma ufunc_out_spec h i o k m d h' n : heap_ok h -> nth_error (objs h) i = Some o -> o_kind o = KQty ->
    (forall a, m = Ok a -> awf a) -> ufunc_out v h i o k m d = (h', Ok n) ->
    n = i /\ o_wr o = true /\ ~ (k = KFloat /\ o_dt o = KInt) /\ exists a, m = Ok a /\ shp a = o_shp o /\
      exists o', nth_error (objs h') i = Some o' /\ same_but_dims o o' /\ obj_arr h' o' = amap (cast_to (o_dt o)) a /\
        match v with NumPy1 => d = Ok (o_dims o') | NumPy2 => o_dims o' = o_dims o end.
  Proof.
    intros HO Ho Hk W. unfold ufunc_out. rewrite Hk. destruct (o_wr o) eqn:Ew; [|discriminate]. cbn [negb].
    assert (Y : ~ (k = KFloat /\ o_dt o = KInt) -> match m with Err e => (h, Err e) | Ok a =>
                 if list_eq_dec Nat.eq_dec (shp a) (o_shp o) then
                   match v with
                   | NumPy1 => match d with Ok d => (set_dims (write h o (dat a)) i d, Ok i) | Err e => (h, Err e) end
                   | NumPy2 => (write h o (dat a), Ok i)
                   end else (h, Err ValueError) end = (h', Ok n) ->
       n = i /\ true = true /\ ~ (k = KFloat /\ o_dt o = KInt) /\ exists a, m = Ok a /\ shp a = o_shp o /\
       exists o', nth_error (objs h') i = Some o' /\ same_but_dims o o' /\ obj_arr h' o' = amap (cast_to (o_dt o)) a /\
        match v with NumPy1 => d = Ok (o_dims o') | NumPy2 => o_dims o' = o_dims o end).
    { intros HK. destruct m as [a|e]; [|discriminate]. destruct (list_eq_dec _ _ _) as [Es|]; [|discriminate].
      destruct (proj1 HO _ _ Ho) as (_ & _ & _ & L & _).
      assert (C : contents (write h o (dat a)) o = map (cast_to (o_dt o)) (dat a)).
      { apply (contents_write h i); auto. rewrite L, <- Es. apply W; auto. }
      destruct v.
      - destruct d as [dd|e]; [|discriminate]. intros [= <- <-]. split; auto. split; auto. split; auto. exists a. split; auto. split; auto.
        exists (with_dims o dd). rewrite objs_set_dims, Nat.eqb_refl. cbn [objs write write_at]. rewrite Ho. split; [reflexivity|].
        split; [reflexivity|]. split; [|reflexivity]. unfold obj_arr. rewrite contents_set_dims, contents_with_dims, C. cbn [o_shp with_dims]. 
        unfold amap. now rewrite <- Es.
      - intros [= <- <-]. split; auto. split; auto. split; auto. exists a. split; auto. split; auto. exists o. split; [exact Ho|].
        split; [destruct o; reflexivity|]. split; auto. unfold obj_arr. rewrite C. unfold amap. now rewrite <- Es. }
    destruct k, (o_dt o) eqn:Ed; try (apply Y; intros [X1 X2]; discriminate); discriminate.
  Qed.

  (** [q += x], [q -= x], [q %= x] store what [q + x], ... return, and keep the units
      of [q]; [q *= x], [q /= x], [q //= x] store the magnitudes that [q * x], ...
      return, and, before NumPy 2, their units. *)
  Theorem C57_inplace : forall h i o b x y k h' n, heap_ok h -> heap_dims h -> nth_error (objs h) i = Some o -> o_kind o = KQty ->
    harg_op h x = Ok (y, k) -> step lookup E v h (OInplace b i x) = (h', Ok n) ->
    n = i /\ exists r o', pure_of b (obj_qty h o) y = Ok r /\ nth_error (objs h') i = Some o' /\ same_but_dims o o' /\
      obj_arr h' o' = amap (cast_to (o_dt o)) (mag r) /\
      (additive b -> o_dims o' = o_dims o /\ qdim r = o_dims o) /\
      (~ additive b -> v = NumPy1 -> o_dims o' = qdim r) /\
      (~ additive b -> v = NumPy2 -> o_dims o' = o_dims o).
  Proof.
    intros h i o b x y k h' n HO HD Ho Hk Hx. cbn [step]. unfold with_obj, with_arg. rewrite Ho, Hx. unfold iop_run. rewrite Hk. intros Hs.
    pose proof (awf_obj h i o HO Ho) as Wq. pose proof (awf_harg h x y k HO Hx) as Wy. pose proof (harg_dims h x y k HD Hx) as Hy.
    assert (Dq : qdim (obj_qty h o) = o_dims o) by (cbn; unfold obj_dims; now rewrite Hk).
    pose proof (obj_dims_ok h i o HD Ho) as Od.
    assert (ADD : forall g kk ry, scale_other E (obj_qty h o) y = Ok ry ->
      ufunc_out v h i o kk (amap2 g (mag (obj_qty h o)) (mag ry)) (pd2 RUniform (OQ (obj_qty h o)) (OQ ry)) = (h', Ok n) ->
      n = i /\ exists r o', (z <- scale_other E (obj_qty h o) y ;; apply2 g RUniform (OQ (obj_qty h o)) (OQ z)) = Ok r /\
        nth_error (objs h') i = Some o' /\ same_but_dims o o' /\
        obj_arr h' o' = amap (cast_to (o_dt o)) (mag r) /\ (o_dims o' = o_dims o /\ qdim r = o_dims o)).
    { intros g kk ry Ez HU.
      assert (Wz : awf (mag ry)) by exact (awf_scale_other E _ _ _ Wy Ez).
      destruct (scale_other_dims E (obj_qty h o) y ry Od Hy Ez) as [_ He].
      destruct (ufunc_out_spec h i o _ _ _ h' n HO Ho Hk (fun a Ha => awf_amap2 g (a := mag (obj_qty h o)) (b := mag ry) Wq Wz Ha) HU)
        as (-> & _ & _ & a & Ha & Sa & o' & H1 & H2 & H3 & H4). split; [reflexivity|].
      exists (Qty a (o_dims o)), o'. rewrite Ez. cbn [bind]. unfold apply2. cbn [odat]. rewrite Ha. cbn [bind pd2]. rewrite He. cbn [bind]. rewrite Dq.
      split; [reflexivity|]. split; auto. split; auto. split; auto. split; [|reflexivity].
      cbn [pd2] in H4. rewrite He, Dq in H4. destruct v; congruence. }
    assert (MUL : forall g r kk, r = RMul \/ r = RDiv ->
      ufunc_out v h i o kk (amap2 g (mag (obj_qty h o)) (odat y)) (pd2 r (OQ (obj_qty h o)) y) = (h', Ok n) ->
      n = i /\ exists q o', apply2 g r (OQ (obj_qty h o)) y = Ok q /\
        nth_error (objs h') i = Some o' /\ same_but_dims o o' /\
        obj_arr h' o' = amap (cast_to (o_dt o)) (mag q) /\ (v = NumPy1 -> o_dims o' = qdim q) /\ (v = NumPy2 -> o_dims o' = o_dims o)).
    { intros g r kk Hr HU.
      destruct (ufunc_out_spec h i o _ _ _ h' n HO Ho Hk (fun a Ha => awf_amap2 g (a := mag (obj_qty h o)) (b := odat y) Wq Wy Ha) HU)
        as (-> & _ & _ & a & Ha & Sa & o' & H1 & H2 & H3 & H4). split; [reflexivity|].
      assert (PD : exists d, pd2 r (OQ (obj_qty h o)) y = Ok d) by (destruct Hr as [-> | ->], y; cbn; eauto). destruct PD as [d Ed].
      exists (Qty a d), o'. unfold apply2. cbn [odat]. rewrite Ha. cbn [bind]. rewrite Ed. cbn [bind]. split; [reflexivity|].
      split; auto. split; auto. split; auto. cbn [qdim]. rewrite Ed in H4. split; intros ->; congruence. }
    assert (NA : forall (P Q : Prop) (b : iop), b = IMul \/ b = IDiv \/ b = IFloorDiv -> (v = NumPy1 -> P) /\ (v = NumPy2 -> Q) ->
       forall T : Prop, (additive b -> T) /\ (~ additive b -> v = NumPy1 -> P) /\ (~ additive b -> v = NumPy2 -> Q)).
    { intros P Q b' Hb [H1 H2] T. split; [|auto]. intros [-> |[-> | ->]]; destruct Hb as [X|[X|X]]; discriminate. }
    destruct b; cbn [iop_scales iop_protected iop_rule iop_fun iop_kind andb pure_of] in *.
    1-3: destruct (scale_other E (obj_qty h o) y) as [z|e] eqn:Ez; [|discriminate];
      destruct (ADD _ _ _ eq_refl Hs) as (-> & r & o' & H1 & H2 & H3 & H4 & H5); (split; [reflexivity|]);
      exists r, o'; unfold q_add, q_sub, q_mod; rewrite Ez; (split; [exact H1|]); (split; [auto|]); (split; [auto|]); (split; [auto|]); (split; [auto|]);
      (split; intros X; destruct X; unfold additive; auto).
    1-2: destruct (dim_nonempty (qdim (as_q y)) && is_qview h o); [discriminate|].
    all: (destruct (MUL _ _ _ (or_introl eq_refl) Hs) as (-> & r & o' & H1 & H2 & H3 & H4 & H5) ||
      destruct (MUL _ _ _ (or_intror eq_refl) Hs) as (-> & r & o' & H1 & H2 & H3 & H4 & H5)); (split; [reflexivity|]);
      exists r, o'; (split; [exact H1|]); (split; [auto|]); (split; [auto|]); (split; [auto|]); apply NA; auto.
  Qed.

  (** ** C83 Integer arrays *)

  (** Item assignment stores the values of [q[key] = x] (C47), truncated toward zero
      when the array holds integers. *)
  Theorem C83_setitem : forall h i o sel x y k h' n, heap_ok h -> nth_error (objs h) i = Some o -> o_kind o = KQty ->
    selection_ok sel -> harg_op h x = Ok (y, k) -> step lookup E v h (OSetItem i sel x) = (h', Ok n) ->
    n = i /\ nth_error (objs h') i = Some o /\
    exists r s ps, q_setitem E sel (obj_qty h o) y = Ok r /\ sel (o_shp o) = Ok (s, ps) /\
      (forall p, ~ In p ps -> nth_error (contents h' o) p = nth_error (contents h o) p) /\
      (forall p, In p ps -> nth_error (contents h' o) p = option_map (cast_to (o_dt o)) (nth_error (dat (mag r)) p)).
  Proof.
    intros h i o sel x y k h' n HO Ho Hk HS Hx. cbn [step]. unfold with_obj, with_arg. rewrite Ho, Hx. unfold setitem_run. rewrite Hk.
    cbn [is_quantity]. destruct (scale_other E (obj_qty h o) y) as [z|e] eqn:Ez; [|discriminate]. cbn [rmap].
    destruct (negb (o_wr o)); [discriminate|]. destruct (sel (o_shp o)) as [[s ps]|e] eqn:Es; [|discriminate].
    destruct (broadcast_to (mag z) s) as [xs|e] eqn:Eb; [|discriminate]. intros Hs. injection Hs as <- <-. split; auto. split; auto.
    destruct (HS _ _ _ Es) as (L & F & ND). destruct (proj1 HO _ _ Ho) as (Lb & Fb & NDb & Lo & _).
    assert (Wz : awf (mag z)) by exact (awf_scale_other E _ _ _ (awf_harg h x y k HO Hx) Ez).
    assert (Lx : length xs = length ps) by (rewrite L; apply (broadcast_to_spec (mag z) s xs Wz Eb)).
    unfold q_setitem. rewrite Ez. cbn [bind obj_qty mag shp obj_arr]. rewrite Es. cbn [bind]. rewrite Eb. cbn [bind].
    eexists _, s, ps. split; [reflexivity|]. split; auto. cbn [mag dat].
    assert (PP : forall p, nth_error (contents (write_at h (o_buf o) (map (fun p => nth p (o_pos o) 0%nat) ps) (map (cast_to (o_dt o)) xs)) o) p =
      match nth_error (o_pos o) p with Some q => nth_error (scatter (buffer h (o_buf o)) (map (fun p => nth p (o_pos o) 0%nat) ps) (map (cast_to (o_dt o)) xs)) q | None => None end).
    { intros p. unfold contents, gather. rewrite nth_error_map, buffer_write_at, Nat.eqb_refl by auto.
      destruct (nth_error (o_pos o) p) as [q|] eqn:Eq; cbn; auto. symmetry. apply nth_error_nth'. rewrite scatter_length.
      rewrite Forall_forall in Fb. apply Fb. eapply nth_error_In; eauto. }
    assert (NDq : NoDup (map (fun p => nth p (o_pos o) 0%nat) ps)).
    { apply NoDup_map_in; auto. intros p q Hp Hq He. rewrite Forall_forall in F.
      apply (proj1 (NoDup_nth (o_pos o) 0%nat) NDb); auto; rewrite Lo; auto. }
    split; intros p Hp; rewrite PP.
    - unfold contents, gather. rewrite nth_error_map. destruct (nth_error (o_pos o) p) as [q|] eqn:Eq; cbn; auto.
      rewrite scatter_other.
      + apply nth_error_nth'. rewrite Forall_forall in Fb. apply Fb. eapply nth_error_In; eauto.
      + intros X. apply in_map_iff in X. destruct X as (p' & Hp' & Hin). apply Hp. rewrite Forall_forall in F.
        assert (p = p') as ->; auto. apply (proj1 (NoDup_nth (o_pos o) 0%nat) NDb); [apply nth_error_Some; congruence|rewrite Lo; auto|].
        rewrite Hp'. now apply nth_error_nth.
    - apply In_nth_error in Hp. destruct Hp as [m Hm].
      assert (Lp : (p < length (o_pos o))%nat) by (rewrite Lo; rewrite Forall_forall in F; apply F; eapply nth_error_In; eauto).
      destruct (nth_error (o_pos o) p) as [q|] eqn:Eq; [|apply nth_error_None in Eq; lia].
      destruct (nth_error xs m) as [w|] eqn:Ew; [|apply nth_error_None in Ew; assert (m < length ps)%nat by (apply nth_error_Some; congruence); lia].
      rewrite (scatter_at _ _ _ m q (cast_to (o_dt o) w)); auto.
      + change (dat (obj_arr h o)) with (contents h o). rewrite (scatter_at ps xs (contents h o) m p w); auto. eapply Forall_impl; [|exact F]. intros p' Hp'. unfold contents. rewrite gather_length, Lo. exact Hp'.
      + rewrite Forall_forall. intros q' Hq'. apply in_map_iff in Hq'. destruct Hq' as (p' & <- & Hin). rewrite Forall_forall in F, Fb. apply Fb. apply nth_In. rewrite Lo. auto.
      + rewrite nth_error_map, Hm. cbn. f_equal. now apply nth_error_nth.
      + rewrite nth_error_map, Ew. reflexivity.
  Qed.

  (** The elements selected from an integer array are an integer array: assigning floats to
      them truncates as in C83_truncates. *)
  Theorem C83_items_keep_the_type : forall h i o sel h' n, nth_error (objs h) i = Some o ->
    step lookup E v h (OPure (PItem i sel)) = (h', Ok n) ->
    exists o', nth_error (objs h') n = Some o' /\ o_dt o' = o_dt o /\ o_dims o' = obj_dims o.
  Proof.
    intros h i o sel h' n Ho. remember (PItem i sel) as p eqn:Hp. cbn [step]. destruct (pure_run lookup E h p) as [[r k]|e] eqn:Ep; [|discriminate].
    intros Hs. injection Hs as <- <-.
    exists (Obj KQty (length (bufs h)) (seq 0 (length (dat (mag r)))) (shp (mag r)) BHidden true k (qdim r)).
    split; [cbn; rewrite nth_error_app2, Nat.sub_diag by lia; reflexivity|].
    subst p. cbn [pure_run] in Ep. unfold get_qty, get_obj in Ep. rewrite !Ho in Ep. cbn [bind] in Ep.
    destruct (is_quantity (o_kind o)) eqn:Ek; cbn [bind] in Ep; [|discriminate]. unfold q_getitem in Ep.
    match type of Ep with context [bind ?Y _] => destruct Y as [[s ps]|] eqn:Ex end; cbn [bind rmap] in Ep; [|discriminate].
    assert (E1 : fst (Qty (Arr s (gather (dat (mag (obj_qty h o))) ps)) (qdim (obj_qty h o)), o_dt o) = fst (r, k)) by congruence.
    assert (E2 : o_dt o = k) by congruence. cbn [fst] in E1. subst r k. cbn [o_dt o_dims]. split; reflexivity.
  Qed.

  (** An integer array never takes the result of a floating-point computation:
      dividing, combining with floats, or converting units in place raises and
      changes nothing. *)
  Theorem C83_no_float_into_int : forall h i o, nth_error (objs h) i = Some o -> o_kind o = KQty -> o_dt o = KInt ->
    (forall b x y k, harg_op h x = Ok (y, k) ->
       b = IDiv \/ k = KFloat \/ (additive b /\ dim_eqb (qdim (as_q y)) (o_dims o) = false) ->
       exists e, step lookup E v h (OInplace b i x) = (h, Err e)) /\
    (forall u d, denotes_units lookup u d -> dim_eqb (o_dims o) d = false -> exists e, step lookup E v h (OSetUnits i u) = (h, Err e)).
  Proof.
    intros h i o Ho Hk Hd. cbn [step]. unfold with_obj, with_arg. rewrite Ho.
    assert (UF : forall m d, exists e, ufunc_out v h i o KFloat m d = (h, Err e)).
    { intros m d. unfold ufunc_out. rewrite Hd. destruct (negb _); eauto. }
    split.
    - intros b x y k Hx Hb. rewrite Hx. unfold iop_run. rewrite Hk, Hd.
      assert (Dq : qdim (obj_qty h o) = o_dims o) by (cbn; unfold obj_dims; now rewrite Hk).
      destruct (iop_scales b) eqn:Es.
      + destruct (scale_other E (obj_qty h o) y) as [z|e]; [|eauto].
        replace (iop_kind b KInt _) with KFloat; [apply UF|]. rewrite Dq. destruct Hb as [-> |[-> |[_ ->]]]; [reflexivity| |]; destruct b; cbn; auto.
        all: destruct (dim_eqb _ _); auto.
      + destruct (_ && _ && _); [eauto|]. replace (iop_kind b KInt k) with KFloat; [apply UF|].
        destruct Hb as [-> |[-> |[X _]]]; [reflexivity|destruct b; reflexivity|destruct X as [-> |[-> | ->]]; discriminate].
    - intros u d Hu He. unfold set_units_run. rewrite Hk. destruct (is_qview h o); [eauto|]. destruct (negb _); [eauto|].
      rewrite (denotes_validate _ _ _ Hu), He, Hd. destruct (conv_factor E _ _) as [c|[]]; eauto.
  Qed.

  (** ** C84 Converting through the constructor *)

  (** [Quantity(q, units)] of a quantity [q] has memory of its own, holds what
      [q.rescale(units)] returns, and is a view of a quantity no variable refers to:
      its units can never be changed in place. *)
  Theorem C84_quantity_of_quantity : forall h j o u h' n, heap_ok h -> nth_error (objs h) j = Some o ->
    is_quantity (o_kind o) = true -> truthy u = Ok true -> step lookup E v h (OQuantity j u) = (h', Ok n) ->
    exists o' r, nth_error (objs h') n = Some o' /\ o_kind o' = KQty /\
      rescale lookup E (obj_qty h o) u = Ok r /\ obj_qty h' o' = r /\
      (forall i oi, nth_error (objs h) i = Some oi -> disjoint_objs o' oi) /\
      views_quantity h' o' /\ (forall w, step lookup E v h' (OSetUnits n w) = (h', Err ValueError)).
  Proof.
    intros h j o u h' n HO Ho Hq Ht. cbn [step]. unfold with_obj. rewrite Ho, Ht.
    assert (K : forall r b dt, fresh_then_view h r b dt = (h', Ok n) ->
      exists o', nth_error (objs h') n = Some o' /\ o_kind o' = KQty /\ obj_qty h' o' = r /\
       (forall i oi, nth_error (objs h) i = Some oi -> disjoint_objs o' oi) /\ views_quantity h' o').
    { intros r b dt. unfold fresh_then_view, with_obj. rewrite nth_alloc. cbn [o_shp].
      set (o1 := Obj KQty (length (bufs h)) (seq 0 (length (dat (mag r)))) (shp (mag r)) b true dt (qdim r)).
      set (h1 := fst (alloc h KQty (mag r) (qdim r) b true dt)).
      assert (H1 : nth_error (objs h1) (length (objs h)) = Some o1) by (unfold h1; apply nth_alloc).
      unfold view_of, add_obj. fold o1. rewrite (map_nth_whole o1).
      destruct (collapse_quantity (objs h1) (S (length (objs h1))) (length (objs h)) o1 H1 eq_refl) as (bb & ob & -> & Hb & Hk).
      intros Hs. injection Hs as <- <-. eexists. split; [cbn [objs]; rewrite nth_error_app2, Nat.sub_diag by lia; reflexivity|].
      split; [reflexivity|]. split; [|split].
      - unfold obj_qty, obj_arr, contents, buffer. cbn [o_pos o_buf o_shp obj_dims o_kind o_dims bufs o1].
        unfold h1. cbn [alloc fst bufs]. rewrite app_nth2, Nat.sub_diag by lia. cbn [nth]. rewrite gather_whole. now destruct r as [[s l] d].
      - intros i oi Hi. left. cbn [o_buf o1]. destruct (proj1 HO _ _ Hi) as (L & _). lia.
      - assert (LB : (bb < length (objs h1))%nat) by (apply nth_error_Some; congruence).
        apply is_qview_iff. unfold is_qview. cbn [o_base]. match goal with |- match ?t with _ => _ end = _ => assert (Z : t = Some ob) end.
        { transitivity (nth_error (objs h1) bb); [|exact Hb]. exact (nth_error_app1 (objs h1) _ LB). }
        now rewrite Z. }
    intros Hs. assert (X : exists r, rescale lookup E (obj_qty h o) u = Ok r /\ exists b dt, fresh_then_view h r b dt = (h', Ok n)).
    { unfold rescale. destruct (o_kind o); [discriminate| |];
        (destruct (validate_dimensionality lookup u) as [d|e]; [|discriminate]; cbn [bind];
         destruct (rescale_to E (obj_qty h o) d) as [r|e]; [|discriminate]; exists r; split; auto; destruct (dim_eqb _ _); eauto). }
    destruct X as (r & Hr & b & dt & Hf). destruct (K r b dt Hf) as (o' & H1 & H2 & H3 & H4 & H5). exists o', r.
    repeat (split; auto). intros w. apply (C51_views_protected h' n o' H1 H2 H5).
  Qed.
End Any.

Open Scope R_scope.

(** ** C83, continued *)

(** What an array can hold of a number [x]: floats hold it, integers the integer next
    to it on the side of zero. *)
Definition holds_of (k : kind) (x y : R) : Prop :=
  match k with
  | KFloat => y = x
  | KInt => exists z, y = IZR z /\ (0 <= x -> IZR z <= x < IZR z + 1) /\ (x <= 0 -> IZR z - 1 < x <= IZR z)
  end.
Lemma cast_holds k x : holds_of k x (cast_to k x).
Proof.
  destruct k; [|reflexivity]. unfold cast_to, ntrunc. cbn [nltb nneg nfloor n0 NumR holds_of]. unfold Rltb.
  destruct (Rlt_dec x 0) as [H|H].
  - pose proof (base_Int_part (- x)) as [H1 H2]. exists (- Int_part (- x))%Z. rewrite opp_IZR. split; [reflexivity|].
    split; intros; lra.
  - pose proof (base_Int_part x) as [H1 H2]. exists (Int_part x). split; [reflexivity|]. split; intros Hx; [lra|].
    assert (x = 0) as -> by lra.
    assert (X : (Int_part 0 < 1)%Z) by (apply lt_IZR; lra).
    assert (Y : (-1 < Int_part 0)%Z) by (apply lt_IZR; replace (IZR (-1)) with (Ropp 1) by lra; lra).
    replace (Int_part 0) with 0%Z by lia. lra.
Qed.
(** After [q[key] = x] the selected elements hold what [q[key] = x] should store. *)
Theorem C83_truncates : forall lookup (E : uenv R) v h i o sel x y k h' n, heap_ok h -> nth_error (objs h) i = Some o -> o_kind o = KQty ->
  selection_ok sel -> harg_op h x = Ok (y, k) -> step lookup E v h (OSetItem i sel x) = (h', Ok n) ->
  exists r (s ps : list nat), q_setitem E sel (obj_qty h o) y = Ok r /\ sel (o_shp o) = Ok (s, ps) /\
    forall p, In p ps -> exists (a b : R), nth_error (contents h' o) p = Some b /\ nth_error (dat (mag r)) p = Some a /\ holds_of (o_dt o) a b.
Proof.
  intros lookup E v h i o sel x y k h' n HO Ho Hk HS Hx Hs.
  destruct (C83_setitem lookup E v h i o sel x y k h' n HO Ho Hk HS Hx Hs) as (_ & Ho' & r & s & ps & H1 & H2 & _ & H3).
  exists r, s, ps. split; auto. split; auto. intros p Hp. rewrite (H3 p Hp).
  destruct (nth_error (dat (mag r)) p) as [a|] eqn:Ea.
  - exists a, (cast_to (o_dt o) a). split; [reflexivity|]. split; [reflexivity|]. apply cast_holds.
  - exfalso. specialize (H3 p Hp). rewrite Ea in H3. cbn in H3. apply nth_error_None in H3.
    destruct (HS _ _ _ H2) as (_ & F & _). rewrite Forall_forall in F. specialize (F p Hp).
    destruct (proj1 HO _ _ Ho) as (_ & _ & _ & L & _). unfold contents in H3. rewrite gather_length in H3. lia.
Qed.

(** ** C52 Setting units in place *)

Lemma set_units_ok lookup E h i o u h' n : renv_ok E -> heap_ok h -> nth_error (objs h) i = Some o -> o_kind o = KQty ->
  dims_ok (o_dims o) -> uarg_ok lookup u ->
  set_units_run lookup E h i o u = (h', Ok n) ->
  n = i /\ is_qview h o = false /\ o_wr o = true /\
  exists d c, denotes_units lookup u d /\ dims_ok d /\ converts E (o_dims o) d c /\
    ((h' = h /\ c = 1 /\ (forall w, exp_of (o_dims o) w = exp_of d w)) \/
     (o_dt o = KFloat /\ h' = set_dims (write h o (map (fun x => c * x) (contents h o))) i d)).
Proof.
  intros HE HO Ho Hk Hd Hu. unfold set_units_run. rewrite Hk. destruct (is_qview h o); [discriminate|].
  destruct (o_wr o) eqn:Ew; [|discriminate]. cbn [negb]. destruct (validate_dimensionality lookup u) as [d|e] eqn:Ed; [|discriminate].
  apply validate_denotes in Ed. pose proof (Hu _ Ed) as Hdd.
  destruct (dim_eqb (o_dims o) d) eqn:He.
  - intros Hs. injection Hs as <- <-. repeat split; auto. exists d, 1. split; auto. split; auto.
    split; [intros phi _; rewrite Rmult_1_l; apply dimval_eqb; auto; [apply Hd|apply Hdd]|].
    left. split; auto. split; auto. exact (proj1 (dim_eqb_exp _ _ (proj1 Hd) (proj1 Hdd)) He).
  - destruct (conv_factor E (o_dims o) d) as [c|e] eqn:Ec; [|destruct e; discriminate].
    destruct (o_dt o) eqn:Et; [discriminate|]. intros Hs. assert (n = i) as -> by congruence.
    split; auto. split; auto. split; auto. exists d, c. split; auto. split; auto. split; [now apply (conv_factor_spec E _ _ HE Hd Hdd)|].
    right. split; auto. assert (h' = fst (h', Ok i)) as -> by reflexivity. rewrite <- Hs. reflexivity.
Qed.
Lemma map_cast_float (l : list R) : map (cast_to KFloat) l = l.
Proof. rewrite <- (map_id l) at 2. apply map_ext. reflexivity. Qed.

(** [q.units = u] keeps the memory, the value and the dtype of [q] and replaces its
    units by [u]. *)
Theorem C52_set_units : forall lookup E v h i o u h' n, renv_ok E -> heap_ok h -> heap_dims h -> uarg_ok lookup u ->
  nth_error (objs h) i = Some o -> o_kind o = KQty -> step lookup E v h (OSetUnits i u) = (h', Ok n) ->
  n = i /\ exists d o', denotes_units lookup u d /\ nth_error (objs h') i = Some o' /\ same_but_dims o o' /\
    (forall w, exp_of (o_dims o') w = exp_of d w) /\ same_value E (obj_qty h' o') (obj_qty h o).
Proof.
  intros lookup E v h i o u h' n HE HO HD Hu Ho Hk. cbn [step]. unfold with_obj. rewrite Ho. intros Hs.
  destruct (set_units_ok lookup E h i o u h' n HE HO Ho Hk (HD _ _ Ho) Hu Hs) as (-> & _ & _ & d & c & Hd & Hdd & HC & HH).
  split; auto. destruct HH as [(-> & -> & He)|(Ht & ->)].
  - exists d, o. split; auto. split; auto. split; [destruct o; reflexivity|]. split; auto. intros phi _. reflexivity.
  - exists d, (with_dims o d). split; auto. rewrite objs_set_dims, Nat.eqb_refl. cbn [objs write write_at]. rewrite Ho.
    split; [reflexivity|]. split; [reflexivity|]. split; [reflexivity|]. intros phi HP. specialize (HC phi HP).
    unfold obj_qty, obj_arr, obj_dims. cbn [o_kind with_dims o_shp o_dims]. rewrite Hk.
    rewrite contents_set_dims, contents_with_dims.
    assert (CW : contents (write h o (map (fun x => c * x) (contents h o))) o = map (fun x => c * x) (contents h o)).
    { rewrite (contents_write h i o) by (auto; rewrite map_length; apply gather_length). rewrite Ht. apply map_cast_float. }
    rewrite CW.
    unfold phys, amap. cbn [mag qdim shp dat]. f_equal. rewrite map_map. apply map_ext. intros x. rewrite HC. ring.
Qed.
(** It succeeds exactly when [q] is not a view of a quantity, its array is writeable,
    the units are convertible, and [q] holds floats (or has these units already). *)
Theorem C52_when : forall lookup E v h i o u d, renv_ok E -> heap_dims h -> uarg_ok lookup u ->
  nth_error (objs h) i = Some o -> o_kind o = KQty -> denotes_units lookup u d ->
  (exists h' n, step lookup E v h (OSetUnits i u) = (h', Ok n)) <->
  (~ views_quantity h o /\ o_wr o = true /\ convertible E (o_dims o) d /\
   (o_dt o = KFloat \/ forall w, exp_of (o_dims o) w = exp_of d w)).
Proof.
  intros lookup E v h i o u d HE HD Hu Ho Hk Hd. cbn [step]. unfold with_obj. rewrite Ho. unfold set_units_run. rewrite Hk.
  pose proof (HD _ _ Ho) as Ho'. pose proof (Hu _ Hd) as Hd'.
  rewrite (denotes_validate _ _ _ Hd), <- is_qview_false.
  destruct (is_qview h o). { split; [intros (h' & n & X); discriminate|intros (X & _); discriminate]. }
  destruct (o_wr o). 2:{ split; [intros (h' & n & X); discriminate|intros (_ & X & _); discriminate]. } cbn [negb].
  destruct (dim_eqb (o_dims o) d) eqn:He.
  { pose proof (proj1 (dim_eqb_exp _ _ (proj1 Ho') (proj1 Hd')) He) as Heq. split; [intros _|eauto]. repeat split; auto.
    exists 1. intros phi _. rewrite Rmult_1_l. apply dimval_eqb; auto; [apply Ho'|apply Hd']. }
  destruct (conv_factor_spec E (o_dims o) d HE Ho' Hd') as [S1 S2].
  destruct (conv_factor E (o_dims o) d) as [c|e] eqn:Ec.
  - assert (CV : convertible E (o_dims o) d) by (exists c; now apply S1). destruct (o_dt o).
    + split; [intros (h' & n & X); discriminate|]. intros (_ & _ & _ & [X|X]); [discriminate|].
      rewrite (proj2 (dim_eqb_exp _ _ (proj1 Ho') (proj1 Hd')) X) in He. discriminate.
    + split; [|eauto]. intros _. auto.
  - pose proof (conv_factor_err E (o_dims o) d e Ec) as ->. split; [intros (h' & n & X); discriminate|].
    intros (_ & _ & X & _). now apply S2 in X.
Qed.

(** When it does not succeed it changes nothing and raises: ValueError for a view of a
    quantity, for a read-only array and for units that are not convertible,
    UFuncTypeError (a TypeError) for integers that would have to be converted, and
    AttributeError for units of measurement themselves. *)
Theorem C52_errors : forall lookup E v h i o u d, renv_ok E -> heap_dims h -> uarg_ok lookup u ->
  nth_error (objs h) i = Some o -> denotes_units lookup u d ->
  (o_kind o = KQty -> views_quantity h o -> step lookup E v h (OSetUnits i u) = (h, Err ValueError)) /\
  (o_kind o = KQty -> o_wr o = false -> step lookup E v h (OSetUnits i u) = (h, Err ValueError)) /\
  (o_kind o = KQty -> ~ convertible E (o_dims o) d -> step lookup E v h (OSetUnits i u) = (h, Err ValueError)) /\
  (o_kind o = KQty -> ~ views_quantity h o -> o_wr o = true -> convertible E (o_dims o) d ->
   o_dt o = KInt -> ~ (forall w, exp_of (o_dims o) w = exp_of d w) ->
   step lookup E v h (OSetUnits i u) = (h, Err UFuncTypeError)) /\
  (forall c, o_kind o = KUnit c -> step lookup E v h (OSetUnits i u) = (h, Err AttributeError)).
Proof.
  intros lookup E v h i o u d HE HD Hu Ho Hd. cbn [step]. unfold with_obj. rewrite Ho. unfold set_units_run.
  pose proof (HD _ _ Ho) as Ho'. pose proof (Hu _ Hd) as Hd'. rewrite (denotes_validate _ _ _ Hd).
  split; [|split; [|split; [|split]]].
  - intros Hk Hv. rewrite Hk. apply is_qview_iff in Hv. now rewrite Hv.
  - intros Hk Hw. rewrite Hk, Hw. now destruct (is_qview h o).
  - intros Hk Hc. rewrite Hk. destruct (is_qview h o); auto. destruct (o_wr o); auto. cbn [negb].
    destruct (dim_eqb (o_dims o) d) eqn:He.
    { exfalso. apply Hc. exists 1. intros phi _. rewrite Rmult_1_l. apply dimval_eqb; auto; [apply Ho'|apply Hd']. }
    destruct (conv_factor_spec E (o_dims o) d HE Ho' Hd') as [S1 S2].
    destruct (conv_factor E (o_dims o) d) as [c|e] eqn:Ec; [exfalso; apply Hc; exists c; now apply S1|].
    now pose proof (conv_factor_err E (o_dims o) d e Ec) as ->.
  - intros Hk Hv Hw Hc Ht He. rewrite Hk, Hw. cbn [negb]. rewrite <- is_qview_false in Hv. rewrite Hv.
    destruct (dim_eqb (o_dims o) d) eqn:Hde.
    { exfalso. apply He. exact (proj1 (dim_eqb_exp _ _ (proj1 Ho') (proj1 Hd')) Hde). }
    destruct (conv_factor_spec E (o_dims o) d HE Ho' Hd') as [S1 S2].
    destruct (conv_factor E (o_dims o) d) as [c|e] eqn:Ec; [now rewrite Ht|].
    pose proof (conv_factor_err E (o_dims o) d e Ec) as ->. exfalso. now apply (proj1 S2).
  - intros c Hk. now rewrite Hk.
Qed.

(** ** C53 Effects of [q.units = u] on other objects *)

(** The numbers of [q] are multiplied by the conversion factor, wherever they are
    seen from; every other object keeps its units. *)
Theorem C53_others : forall lookup E v h i o u h' n, renv_ok E -> heap_ok h -> heap_dims h -> uarg_ok lookup u ->
  nth_error (objs h) i = Some o -> o_kind o = KQty -> step lookup E v h (OSetUnits i u) = (h', Ok n) ->
  exists d c, denotes_units lookup u d /\ converts E (o_dims o) d c /\
    forall k ok, k <> i -> nth_error (objs h) k = Some ok ->
      nth_error (objs h') k = Some ok /\
      forall m p x, nth_error (o_pos ok) m = Some p -> nth_error (contents h ok) m = Some x ->
        (covers o (o_buf ok) p -> nth_error (contents h' ok) m = Some (c * x)) /\
        (~ covers o (o_buf ok) p -> nth_error (contents h' ok) m = Some x).
Proof.
  intros lookup E v h i o u h' n HE HO HD Hu Ho Hk Hs. 
  assert (FR := step_frame lookup E v h (OSetUnits i u) h' (Ok n) HO I Hs). destruct FR as [FR _].
  cbn [step] in Hs. unfold with_obj in Hs. rewrite Ho in Hs.
  destruct (set_units_ok lookup E h i o u h' n HE HO Ho Hk (HD _ _ Ho) Hu Hs) as (-> & _ & _ & d & c & Hd & Hdd & HC & HH).
  exists d, c. split; auto. split; auto. intros k ok Hne Hok. split.
  { destruct (FR _ _ Hok) as (o' & H1 & _ & H3). rewrite H1. f_equal. apply H3. cbn. congruence. }
  intros m p x Hp Hx. destruct HH as [(-> & -> & He)|(Ht & ->)].
  { rewrite Hx, Rmult_1_l. auto. }
  destruct (proj1 HO _ _ Ho) as (Lb & F & ND & _). destruct (proj1 HO _ _ Hok) as (Lb' & F' & ND' & _).
  assert (CE : forall hh : heap R, nth_error (contents hh ok) m = Some (nth p (buffer hh (o_buf ok)) n0))
    by (intros hh; unfold contents, gather; rewrite nth_error_map, Hp; reflexivity).
  rewrite contents_set_dims, CE. rewrite CE in Hx. injection Hx as Hx.
  unfold write. rewrite buffer_write_at by auto. rewrite Ht, map_cast_float. split; intros HV.
  - destruct HV as [Eb Hin]. rewrite <- Eb in *. rewrite Nat.eqb_refl. apply In_nth_error in Hin. destruct Hin as [q Hq]. f_equal.
    apply nth_error_nth. apply (scatter_at _ _ _ q p (c * x)); auto. unfold contents, gather. rewrite !nth_error_map, Hq. cbn.
    do 2 f_equal. exact Hx.
  - f_equal. destruct (Nat.eqb_spec (o_buf o) (o_buf ok)) as [Eb|]; auto. rewrite <- Hx, <- Eb. 
    assert (X : nth_error (scatter (buffer h (o_buf o)) (o_pos o) (map (fun x => c * x) (contents h o))) p = nth_error (buffer h (o_buf o)) p).
    { apply scatter_other. intros X. apply HV. split; auto. }
    assert (Lp : (p < length (buffer h (o_buf o)))%nat). { rewrite Eb. rewrite Forall_forall in F'. apply F'. eapply nth_error_In; eauto. }
    rewrite (nth_error_nth' _ n0 Lp) in X. now apply (nth_error_nth _ _ n0) in X.
Qed.
(** Hence an object that shares a non-zero number with [q] stops denoting its value
    whenever the units really change (unless it is [q] itself). *)
Theorem C53_corrupts_refuted : forall lookup E v h i o u h' n k ok m p x d c, renv_ok E -> heap_ok h -> heap_dims h -> uarg_ok lookup u ->
  nth_error (objs h) i = Some o -> o_kind o = KQty -> step lookup E v h (OSetUnits i u) = (h', Ok n) ->
  denotes_units lookup u d -> converts E (o_dims o) d c -> c <> 1 ->
  k <> i -> nth_error (objs h) k = Some ok -> nth_error (o_pos ok) m = Some p -> covers o (o_buf ok) p ->
  nth_error (contents h ok) m = Some x -> x <> 0 ->
  nth_error (objs h') k = Some ok /\ ~ same_value E (obj_qty h' ok) (obj_qty h ok).
Proof.
  intros lookup E v h i o u h' n k ok m p x d c HE HO HD Hu Ho Hk Hs Hd HC Hc Hne Hok Hm Hp Hx Hx0.
  destruct (C53_others lookup E v h i o u h' n HE HO HD Hu Ho Hk Hs) as (d' & c' & Hd' & HC' & HH).
  assert (d' = d) as -> by (apply denotes_validate in Hd; apply denotes_validate in Hd'; congruence).
  destruct (consistent_exists E HE) as [phi HP].
  assert (c' = c) as ->.
  { specialize (HC phi HP). specialize (HC' phi HP). pose proof (dimval_pos phi d) as P. 
    apply (Rmult_eq_reg_r (dimval phi d)); [congruence|lra]. }
  destruct (HH k ok Hne Hok) as [H1 H2]. split; auto. destruct (H2 m p x Hm Hx) as [H3 _]. specialize (H3 Hp).
  intros SV. specialize (SV phi HP). unfold phys, amap, obj_qty, obj_arr in SV. cbn [mag qdim shp dat] in SV.
  injection SV as SV. apply (f_equal (fun l => nth_error l m)) in SV. rewrite !nth_error_map, H3, Hx in SV. cbn in SV. injection SV as SV.
  pose proof (dimval_pos phi (obj_dims ok)) as P. apply Hc. 
  apply (Rmult_eq_reg_r (x * dimval phi (obj_dims ok))); [lra|]. intros Z. apply Rmult_integral in Z. destruct Z; lra.
Qed.

(** ** Concrete runs *)
Definition hlookup {A} {N : Num A} (s : string) : res (qty A) :=
  if String.eqb s "m" then Ok (Qty (scalar n1) d_m) else if String.eqb s "cm" then Ok (Qty (scalar n1) d_cm)
  else if String.eqb s "s" then Ok (Qty (scalar n1) d_s) else Err LookupError.
Definition hrun (v : npv) (ops : list (op Qc)) : heap Qc := run hlookup exE v empty_heap ops.
Definition show (h : heap Qc) (i : nat) : option (list nat * list Qc * dims) :=
  option_map (fun o => (o_shp o, contents h o, obj_dims o)) (nth_error (objs h) i).

(** ** C51 The protection has holes *)

(** [fill] (with a quantity) and the [out] parameter replace the units of a view of a
    quantity; the object viewed keeps its own. *)
Theorem C51_fill_refuted : forall A (N : Num A) lookup (E : uenv A) v h i o x (y : qty A) k z,
  heap_ok h -> nth_error (objs h) i = Some o -> o_kind o = KQty -> o_wr o = true -> harg_op h x = Ok (OQ y, k) -> mag y = scalar z ->
  exists h', step lookup E v h (OFill i x) = (h', Ok i) /\ nth_error (objs h') i = Some (with_dims o (qdim y)) /\
    forall j oj, j <> i -> nth_error (objs h) j = Some oj -> nth_error (objs h') j = Some oj.
Proof.
  intros A N lookup E v h i o x y k z HO Ho Hk Hw Hx Hy. cbn [step]. unfold with_obj, with_arg. rewrite Ho, Hx. unfold fill_run.
  rewrite Hw, Hk. cbn [negb odat]. rewrite Hy. cbn [scalar shp dat]. eexists. split; [reflexivity|]. split.
  - rewrite objs_set_dims, Nat.eqb_refl. cbn [objs write write_at]. now rewrite Ho.
  - intros j oj Hne Hj. rewrite objs_set_dims. apply Nat.neq_sym in Hne. apply Nat.eqb_neq in Hne. rewrite Hne. exact Hj.
Qed.

(** ** C57 In NumPy 2 multiplying in place does not change the units *)
Theorem C57_numpy2_refuted : forall lookup (E : uenv R) h i o b x (y : qty R) k h' n phi, renv_ok E -> heap_ok h -> heap_dims h ->
  nth_error (objs h) i = Some o -> o_kind o = KQty -> o_dt o = KFloat -> b = IMul \/ b = IDiv ->
  harg_op h x = Ok (OQ y, k) -> step lookup E NumPy2 h (OInplace b i x) = (h', Ok n) ->
  consistent E phi -> dimval phi (qdim y) <> 1 ->
  exists r o', pure_of E b (obj_qty h o) (OQ y) = Ok r /\ nth_error (objs h') i = Some o' /\
    mag (obj_qty h' o') = mag r /\ o_dims o' = o_dims o /\
    ((exists z, In z (dat (mag r)) /\ z <> 0) -> ~ same_value E (obj_qty h' o') r).
Proof.
  intros lookup E h i o b x y k h' n phi HE HO HD Ho Hk Ht Hb Hx Hs HP Hy.
  destruct (C57_inplace lookup E NumPy2 h i o b x (OQ y) k h' n HO HD Ho Hk Hx Hs) as (-> & r & o' & H1 & H2 & H3 & H4 & _ & _ & H5).
  exists r, o'. split; auto. split; auto.
  assert (H6 : mag (obj_qty h' o') = mag r).
  { cbn [obj_qty mag]. rewrite H4, Ht. unfold amap. rewrite map_cast_float. now destruct (mag r). }
  assert (NA : ~ additive b) by (intros [-> |[-> | ->]]; destruct Hb as [X|X]; discriminate).
  split; auto. split; auto. intros (z & Hz & Hz0) SV. specialize (SV phi HP). unfold phys in SV. rewrite H6 in SV.
  assert (Dn : qdim (obj_qty h' o') = o_dims o).
  { cbn [obj_qty qdim]. unfold obj_dims. rewrite H3. cbn [o_kind with_dims o_dims]. rewrite Hk. auto. }
  assert (Dr : qdim r = match b with IMul => dim_mul (o_dims o) (qdim y) | _ => dim_div (o_dims o) (qdim y) end).
  { assert (D0 : qdim (obj_qty h o) = o_dims o) by (cbn [obj_qty qdim]; unfold obj_dims; now rewrite Hk).
    destruct Hb as [-> | ->]; cbn [pure_of] in H1; unfold q_mul, q_div, apply2 in H1; (destruct (amap2 _ _ _); [|discriminate]);
      cbn [bind pd2] in H1; rewrite D0 in H1; apply (f_equal (fun w => match w with Ok q => qdim q | Err _ => [] end)) in H1; cbn [qdim] in H1; auto. }
  pose proof (HD _ _ Ho) as Do. pose proof (harg_dims h x (OQ y) k HD Hx) as Dy. cbn [as_q qdim] in Dy.
  pose proof (dimval_pos phi (o_dims o)) as P1. pose proof (dimval_pos phi (qdim y)) as P2.
  rewrite Dn in SV. apply In_nth_error in Hz. destruct Hz as [m Hm].
  apply (f_equal (fun a => nth_error (dat a) m)) in SV. unfold amap in SV. cbn [dat] in SV. rewrite !nth_error_map, Hm in SV. cbn [option_map] in SV.
  assert (SW : z * dimval phi (o_dims o) = z * dimval phi (qdim r)) by congruence. clear SV. apply Rmult_eq_reg_l in SW; auto.
  apply Hy. rewrite Dr in SW. destruct Hb as [-> | ->].
  - rewrite dimval_mul in SW. apply (Rmult_eq_reg_l (dimval phi (o_dims o))); lra.
  - pose proof (dimval_div' phi (o_dims o) (qdim y)) as X. rewrite <- SW in X. apply (Rmult_eq_reg_l (dimval phi (o_dims o))); lra.
Qed.

(** ** Examples *)

(** A metre array, a view of it, a second array of seconds. *)
Definition prog : list (op Qc) :=
  [ONewArray (Arr [3%nat] (qcs [1; 2; 3]%Z)) KFloat; OQuantity 0 (UStr "m");
   OSlice 1 (sel_basic [ISlice (Some 0%Z) (Some 2%Z) 1]);
   ONewArray (Arr [] (qcs [4]%Z)) KFloat; OQuantity 3 (UStr "s")].
Example prog_ok : forall v, Forall op_ok prog /\ heap_ok (hrun v prog) /\
  show (hrun v prog) 1 = Some ([3%nat], qcs [1; 2; 3]%Z, d_m) /\ show (hrun v prog) 2 = Some ([2%nat], qcs [1; 2]%Z, d_m) /\
  (exists o, nth_error (objs (hrun v prog)) 2 = Some o /\ o_kind o = KQty /\ views_quantity (hrun v prog) o /\ o_wr o = true) /\
  (exists o, nth_error (objs (hrun v prog)) 1 = Some o /\ o_kind o = KQty /\ is_qview (hrun v prog) o = false).
Proof.
  assert (P : Forall op_ok prog) by (repeat constructor). intros v. split; auto. split; [now apply C81_reachable|].
  destruct v; (repeat split; try (vm_compute; reflexivity)); eexists; rewrite <- ?is_qview_iff; vm_compute; eauto.
Qed.
(** C51: the view cannot be converted or multiplied by seconds, but it can be filled
    with seconds. *)
Example C51_example : forall v, 
  step hlookup exE v (hrun v prog) (OSetUnits 2 (UStr "cm")) = (hrun v prog, Err ValueError) /\
  step hlookup exE v (hrun v prog) (OInplace IMul 2 (HObj 4)) = (hrun v prog, Err ValueError) /\
  step hlookup exE v (hrun v prog) (OIPow 2 [PInt 2]) = (hrun v prog, Err ValueError) /\
  show (hrun v (prog ++ [OFill 2 (HObj 4)])) 2 = Some ([2%nat], qcs [4; 4]%Z, d_s) /\
  show (hrun v (prog ++ [OFill 2 (HObj 4)])) 1 = Some ([3%nat], qcs [4; 4; 3]%Z, d_m).
Proof. intros []; vm_compute; auto. Qed.
(** C52, C53: converting the base to centimetres corrupts the view. *)
Example C53_example : forall v,
  show (hrun v (prog ++ [OSetUnits 1 (UStr "cm")])) 1 = Some ([3%nat], qcs [100; 200; 300]%Z, d_cm) /\
  show (hrun v (prog ++ [OSetUnits 1 (UStr "cm")])) 2 = Some ([2%nat], qcs [100; 200]%Z, d_m).
Proof. intros []; vm_compute; auto. Qed.
(** C54 *)
Example C54_example : forall v, let h := hrun v (prog ++ [ONewUnit u_m]) in
  show h 5 = Some ([], qcs [1]%Z, d_m) /\ step hlookup exE v h (OInplace IMul 5 (HObj 4)) = (h, Err TypeError) /\
  step hlookup exE v h (OSetItem 5 (sel_basic []) (HObj 1)) = (h, Err ValueError).
Proof. intros []; vm_compute; auto. Qed.
(** C56: writing to the deep copy changes the original, writing to the copy does not. *)
Example C56_example : forall v,
  show (hrun v (prog ++ [ODeepcopy 1; OInplace IAdd 6 (HObj 1)])) 1 = Some ([3%nat], qcs [2; 4; 6]%Z, d_m) /\
  show (hrun v (prog ++ [OCopy 1; OInplace IAdd 5 (HObj 1)])) 1 = Some ([3%nat], qcs [1; 2; 3]%Z, d_m) /\
  show (hrun v (prog ++ [OCopy 1; OInplace IAdd 5 (HObj 1)])) 5 = Some ([3%nat], qcs [2; 4; 6]%Z, d_m).
Proof. intros []; vm_compute; auto. Qed.
(** C57 *)
Example C57_example :
  show (hrun NumPy1 (prog ++ [OInplace IMul 1 (HObj 4)])) 1 = Some ([3%nat], qcs [4; 8; 12]%Z, [(u_m, PInt 1); (u_s, PInt 1)]) /\
  show (hrun NumPy2 (prog ++ [OInplace IMul 1 (HObj 4)])) 1 = Some ([3%nat], qcs [4; 8; 12]%Z, d_m) /\
  show (hrun NumPy2 (prog ++ [OInplace IMul 1 (HNum (zq 2) KInt)])) 1 = Some ([3%nat], qcs [2; 4; 6]%Z, d_m).
Proof. vm_compute; auto. Qed.
(** C82: an array wrapped by Quantity and the magnitude of a quantity are windows. *)
Example C82_example : forall v,
  show (hrun v (prog ++ [OInplace IAdd 1 (HObj 1)])) 0 = Some ([3%nat], qcs [2; 4; 6]%Z, []) /\
  show (hrun v (prog ++ [OMagnitude 1; OInplace IAdd 5 (HObj 0)])) 1 = Some ([3%nat], qcs [2; 4; 6]%Z, d_m).
Proof. intros []; vm_compute; auto. Qed.
(** C83: integers. *)
Definition progi : list (op Qc) :=
  [ONewArray (Arr [2%nat] (qcs [1; 2]%Z)) KInt; OQuantity 0 (UStr "m"); ONewArray (Arr [] [q_of 7 2]) KFloat; OQuantity 2 (UStr "m")].
Example C83_example : forall v,
  show (hrun v (progi ++ [OSetItem 1 (sel_basic [IInt 0%Z]) (HObj 3)])) 1 = Some ([2%nat], qcs [3; 2]%Z, d_m) /\
  step hlookup exE v (hrun v progi) (OInplace IAdd 1 (HObj 3)) = (hrun v progi, Err UFuncTypeError) /\
  step hlookup exE v (hrun v progi) (OSetUnits 1 (UStr "cm")) = (hrun v progi, Err UFuncTypeError).
Proof. intros []; vm_compute; auto. Qed.
Example C83_items_example : forall v,
  snd (step hlookup exE v (hrun v progi) (OPure (PItem 1 (sel_basic [])))) = Ok 4%nat /\
  show (hrun v (progi ++ [OPure (PItem 1 (sel_basic [])); OSetItem 4 (sel_basic [IInt 0%Z]) (HObj 3)])) 4 = Some ([2%nat], qcs [3; 2]%Z, d_m).
Proof. intros []; vm_compute; auto. Qed.
(** C84 *)
Example C84_example : forall v, let h := hrun v (prog ++ [OQuantity 1 (UStr "cm")]) in
  show h 6 = Some ([3%nat], qcs [100; 200; 300]%Z, d_cm) /\ step hlookup exE v h (OSetUnits 6 (UStr "m")) = (h, Err ValueError).
Proof. intros []; vm_compute; auto. Qed.
(** The hypotheses of the theorems over the reals are met by the same program. *)
Lemma hlookup_ok : lookup_ok (hlookup (A := R)).
Proof.
  intros s q. unfold hlookup. destruct (String.eqb s "m"); [intros [= <-]; now apply dims_okb_ok|].
  destruct (String.eqb s "cm"); [intros [= <-]; now apply dims_okb_ok|]. destruct (String.eqb s "s"); [intros [= <-]; now apply dims_okb_ok|discriminate].
Qed.
Lemma uarg_str_ok s : uarg_ok (hlookup (A := R)) (UStr s).
Proof. intros d H. inversion H; subst. eapply hlookup_ok; eauto. Qed.
Definition progR : list (op R) :=
  [ONewArray (Arr [3%nat] [1; 2; 3]) KFloat; OQuantity 0 (UStr "m"); OSlice 1 (sel_basic [ISlice (Some 0%Z) (Some 2%Z) 1])].
Example progR_ok : forall v, let h := run hlookup exE v empty_heap progR in heap_ok h /\ heap_dims h /\
  exists o o2, nth_error (objs h) 1 = Some o /\ o_kind o = KQty /\ o_dims o = d_m /\ is_qview h o = false /\ o_wr o = true /\ o_dt o = KFloat /\
    nth_error (objs h) 2 = Some o2 /\ nth_error (o_pos o2) 0 = Some 0%nat /\ covers o (o_buf o2) 0 /\ nth_error (contents h o2) 0 = Some 1 /\
    convertible exE (o_dims o) d_cm /\ denotes_units (hlookup (A := R)) (UStr "cm") d_cm.
Proof.
  intros v h. split; [apply C81_reachable; repeat constructor|]. 
  split; [apply run_dims; [apply empty_dims|repeat (apply Forall_cons; [first [exact I|apply uarg_str_ok]|]); apply Forall_nil]|].
  eexists _, _. split; [reflexivity|]. repeat (split; [reflexivity|]). split; [split; [reflexivity|left; reflexivity]|]. split; [reflexivity|].
  split. { exists 100. intros phi HP. cbn [o_dims]. change (dimval phi d_m = 100 * dimval phi d_cm). rewrite (ex_cm_size phi HP). lra. }
  apply (den_str hlookup "cm" (Qty (scalar n1) d_cm)). reflexivity.
Qed.

Print Assumptions C51_views.
Print Assumptions C51_views_protected.
Print Assumptions C51_history.
Print Assumptions C81_errors_change_nothing.
Print Assumptions C81_reachable.
Print Assumptions C54_units_immutable.
Print Assumptions C54_refusals.
Print Assumptions C55_effects_confined.
Print Assumptions C55_pure.
Print Assumptions C55_results_fresh.
Print Assumptions C56_deepcopy_shares_refuted.
Print Assumptions C56_copy_independent.
Print Assumptions C55_history.
Print Assumptions C56_copy_history.
Print Assumptions C82_views_share.
Print Assumptions C57_inplace.
Print Assumptions C83_setitem.
Print Assumptions C83_items_keep_the_type.
Print Assumptions C83_no_float_into_int.
Print Assumptions C84_quantity_of_quantity.
Print Assumptions C83_truncates.
Print Assumptions C52_set_units.
Print Assumptions C52_when.
Print Assumptions C52_errors.
Print Assumptions C53_others.
Print Assumptions C53_corrupts_refuted.
Print Assumptions C51_fill_refuted.
Print Assumptions C57_numpy2_refuted.
