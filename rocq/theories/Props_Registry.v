(** * Props_Registry: C58-C64, C85.  The unit registry, unit labels and the printing of
    dimensionalities. *)
From Coq Require Import Reals Lra Ascii NArith.
From Verif Require Import Py Num Dim DimFacts Arr Units Spec UnitFacts Hash Quant QuantFacts Ufunc Ops
     Text Lex LexFacts Markup PrintFacts Registry RegFacts RoundTrip PrintEq Render RegEq Examples Props_Ops.

Open Scope list_scope.
Open Scope nat_scope.

(** ** Decimal notation of floats, for the examples *)
Fixpoint frac_digits (fuel : nat) (r d : N) : text :=
  match fuel with
  | 0 => []
  | S f => if (r =? 0)%N then [] else digit_char (10 * r / d) :: frac_digits f ((10 * r) mod d) d
  end.
Definition dec_repr (q : Qc) : text :=
  let n := Z.to_N (Qnum (this q)) in
  let d := Npos (Qden (this q)) in
  digits (n / d) ++ "."%char :: match frac_digits 17 (n mod d) d with [] => T "0" | t => t end.
Definition dec_read (t : text) : Qc :=
  let ip := fst (span is_digit t) in
  dec_val ip (tl (snd (span is_digit t))).

(** A registry with a few of the library's units. *)
Open Scope string_scope.
Definition ex_ops (A : Type) {N : Num A} : list (rop A) :=
  [RNew CDimless "dimensionless" None None None [];
   RNew CLength "meter" None (Some "m") None ["meters"];
   RNew CMass "kilogram" None (Some "kg") None ["kilograms"];
   RNew CTime "second" None (Some "s") None ["sec"];
   RNew CLength "inch" (Some (DQty (nofQ (q_of 254 10000)) [(u_m, PInt 1)])) (Some "in") None ["inches"];
   RNew CCompound "m/s" (Some (DQty (nofQ 1%Qc) [(u_m, PInt 1); (u_s, PInt (-1))])) None None []].
Definition ex_st (A : Type) {N : Num A} : rstate A := rrun (parse_arith dec_read) rempty (ex_ops A).
Definition u_mps : uid := UId CCompound "m/s".
Close Scope string_scope.

(** ** C58 *)
(** Whatever is registered or created later, a name keeps its value and the value
    keeps its meaning. *)
Theorem C58_names_keep_their_value : forall A (N : Num A) parse (st : rstate A) history name v,
  ctx_get st name = Some v ->
  ctx_get (rrun parse st history) name = Some v /\
  forall i o, v = VUnit i -> nth_error (objs st) i = Some o ->
              nth_error (objs (rrun parse st history)) i = Some o.
Proof.
  intros A N parse st l s v H. split; [now apply rrun_keeps|].
  intros i o _ Hi. destruct (rrun_objs parse l st) as [X ->]. rewrite nth_error_app1; auto.
  apply nth_error_Some. congruence.
Qed.
(** Looking a registered name up finds that value, for ever. *)
Theorem C58_lookup : forall A (N : Num A) fread (st : rstate A) history name v,
  identifier name -> lower name <> T "in" -> ctx_get st name = Some v ->
  get_item (parse_arith fread) (rrun (parse_arith fread) st history) name = Ok v.
Proof.
  intros A N fread st l s v Hi Hl H. apply ident_get; auto. now apply rrun_keeps.
Qed.
(** [unit_registry[name] = value]: a free name is bound; a taken name stays as it is,
    and the call raises KeyError unless the values compare equal. *)
Theorem C58_register : forall A (N : Num A) fread (st : rstate A) name v,
  identifier name -> lower name <> T "in" ->
  match ctx_get st name with
  | None => snd (set_item st name v) = Ok tt /\
            get_item (parse_arith fread) (fst (set_item st name v)) name = Ok v /\
            (forall s, s <> name -> ctx_get (fst (set_item st name v)) s = ctx_get st s)
  | Some w => fst (set_item st name v) = st /\
              (veq st v w = Ok true -> snd (set_item st name v) = Ok tt) /\
              (veq st v w = Ok false -> snd (set_item st name v) = Err KeyError)
  end.
Proof.
  intros A N fread st s v Hi Hl. destruct (ctx_get st s) as [w|] eqn:Es.
  - rewrite (set_item_bound _ _ _ Es). cbn [fst snd]. split; auto.
    split; intros ->; reflexivity.
  - destruct (set_item_fresh st s v Es) as [F1 F2]. split; auto. split; [now apply ident_get|].
    intros s' Hs. rewrite set_item_get. destruct (ctx_get st s'); auto. now rewrite teqb_neq.
Qed.
(** Creating a unit of an ordinary class binds its name, its symbol and all its aliases
    to the new object, except those that are taken already; no other name changes.
    Dimensionless units register their name only, compound units and constants
    nothing. *)
Theorem C58_created : forall A (N : Num A) (st : rstate A) c name df sym usym aliases v,
  snd (create_unit st c name df sym usym aliases) = Ok v ->
  let st' := fst (create_unit st c name df sym usym aliases) in
  let mine s := match c with
                | CCompound | CConstant => False
                | CDimless => s = name
                | _ => s = name \/ (sym = Some s /\ s <> EmptyString) \/ In s aliases
                end in
  v = VUnit (length (objs st)) /\
  (exists r, nth_error (objs st') (length (objs st)) = Some (UId c name, r) /\
             ur_symbol r = sym /\ ur_usymbol r = usym) /\
  (forall s w, ctx_get st s = Some w -> ctx_get st' s = Some w) /\
  (forall s, ctx_get st (T s) = None -> mine s -> ctx_get st' (T s) = Some v) /\
  (forall t, ctx_get st t = None -> (forall s, t = T s -> ~ mine s) -> ctx_get st' t = None).
Proof.
  intros A N st c name df sym usym al v H st' mine.
  assert (Hin : forall t, existsb (teqb t) (reg_names c name sym al) = true <-> exists s, t = T s /\ mine s).
  { intros t. rewrite existsb_exists.
    assert (X : forall t, In t (reg_names c name sym al) <-> exists s, t = T s /\ mine s).
    { clear. intros t. subst mine. cbv beta.
      assert (Y : In t (T name :: match sym with Some (String _ _ as s) => [T s] | _ => [] end ++ map T al) <->
        exists s, t = T s /\ (s = name \/ (sym = Some s /\ s <> EmptyString) \/ In s al)).
      { cbn [In]. rewrite in_app_iff, in_map_iff. split.
        - intros [<-|[X|(s & <- & Hs)]]; [exists name; auto| |exists s; auto].
          destruct sym as [[|a s]|]; try destruct X as [].
          + subst t. exists (String a s). split; auto. right; left. split; [reflexivity|discriminate].
          + destruct H.
        - intros (s & -> & [-> |[[-> Hs]|Hs]]); auto.
          + right; left. destruct s as [|a s]; [congruence|]. left; reflexivity.
          + right; right. exists s; auto. }
      destruct c; try exact Y; cbn [reg_names In].
      - split; [intros []|intros (s & _ & [])].
      - split; [intros [<-|[]]; exists name; auto|intros (s & -> & ->); auto].
      - split; [intros []|intros (s & _ & [])]. }
    split.
    - intros (x & Hx & E). apply teqb_eq in E. subst x. now apply X.
    - intros Hx. exists t. split; [now apply X|apply teqb_refl]. }
  subst st'. destruct (create_unit_objs st c name df sym usym al) as [ord Hobj].
  pose proof (@create_unit_keeps A N st c name df sym usym al) as K.
  rewrite Hobj. clear Hobj. unfold create_unit in *. set (st0 := new_obj st c name df sym usym al) in *.
  set (l := reg_names c name sym al) in *.
  pose proof (@set_items_ok A N l st0 (VUnit (length (objs st)))) as G.
  destruct (set_items st0 l (VUnit (length (objs st)))) as [st1 [u|e]] eqn:Es; [|discriminate].
  cbn [fst snd] in *. specialize (G u eq_refl). assert (v = VUnit (length (objs st))) as -> by congruence.
  split; auto. split.
  { eexists. rewrite nth_error_app2, Nat.sub_diag by auto. split; [reflexivity|]. split; reflexivity. }
  split; [exact K|]. unfold ctx_get in *. cbn [ctx] in *. split.
  - intros s Hs Hm. rewrite G. unfold st0, new_obj at 1. cbn [ctx]. rewrite Hs.
    rewrite (proj2 (Hin (T s)) (ex_intro _ s (conj eq_refl Hm))). reflexivity.
  - intros t Ht Hm. rewrite G. unfold st0, new_obj at 1. cbn [ctx]. rewrite Ht.
    destruct (existsb (teqb t) l) eqn:Ex; auto. apply Hin in Ex. destruct Ex as (s & -> & Hs). now apply Hm in Hs.
Qed.
Example C58_example :
  identifier (T "meters") /\
  (exists o, ctx_get (ex_st Qc) (T "meters") = Some (VUnit 1) /\ nth_error (objs (ex_st Qc)) 1 = Some (u_m, o)) /\
  veq (ex_st Qc) (VUnit 2) (VUnit 1) = Ok false /\ veq (ex_st Qc) (VUnit 1) (VUnit 1) = Ok true /\
  snd (set_item (ex_st Qc) (T "m") (VUnit 2)) = Err KeyError.
Proof.
  split; [split; [cbn; repeat constructor|reflexivity]|].
  split; [eexists; split; vm_compute; reflexivity|].
  repeat (split; [vm_compute; reflexivity|]); vm_compute; reflexivity.
Qed.

(** ** C59 *)
(** All names of the registry are unit objects. *)
Definition units_only {A} (st : rstate A) : Prop :=
  forall s v, ctx_get st s = Some v -> exists i o, v = VUnit i /\ nth_error (objs st) i = Some o.

(** Creating a unit (with a class and name not used before) succeeds if and only if
    every taken one of its names belongs to a unit of exactly the same size;
    otherwise it raises KeyError. *)
Theorem C59_clashes_refused : forall (st : rstate R) c name df sym usym aliases,
  renv_ok (objs st) -> units_only st ->
  rop_ok (fun a => 0 < a)%R st (RNew c name df sym usym aliases) ->
  let st' := fst (create_unit st c name df sym usym aliases) in
  let res := snd (create_unit st c name df sym usym aliases) in
  let harmless := forall s i u r, In s (reg_names c name sym aliases) -> ctx_get st s = Some (VUnit i) ->
                  nth_error (objs st) i = Some (u, r) -> same_size (objs st') (UId c name) u in
  (harmless <-> res = Ok (VUnit (length (objs st)))) /\ (~ harmless <-> res = Err KeyError).
Proof.
  intros st c name df sym usym al HE HU Hop st' res harmless.
  set (v := @VUnit R (length (objs st))). set (st0 := new_obj st c name df sym usym al).
  set (l := reg_names c name sym al).
  assert (Ho : objs st' = objs st0).
  { subst st'. unfold create_unit. fold st0 l v. pose proof (set_items_same l st0 v) as (S1 & _ & _).
    destruct (set_items st0 l v) as [st1 [x|e]]; exact S1. }
  assert (HE' : renv_ok (objs st0)).
  { subst st0. cbn [new_obj objs]. destruct Hop as [H1 H2]. constructor; auto. }
  assert (Hn : exists r, nth_error (objs st0) (length (objs st)) = Some (UId c name, r)).
  { subst st0. cbn [new_obj objs]. eexists. rewrite nth_error_app2 by auto. rewrite Nat.sub_diag. reflexivity. }
  destruct Hn as [rn Hn].
  assert (HK : forall i o, nth_error (objs st) i = Some o -> nth_error (objs st0) i = Some o).
  { intros i o Hi. subst st0. cbn [new_obj objs]. rewrite nth_error_app1; auto. apply nth_error_Some. congruence. }
  (* decide same_size by the comparison itself *)
  set (f := fun w : value R => match veq st0 v w with Ok b => b | Err _ => false end).
  assert (Hf : forall w, w = v \/ (exists s, ctx_get st0 s = Some w) -> veq st0 v w = Ok (f w) /\
             (forall i u r, w = VUnit i -> nth_error (objs st0) i = Some (u, r) -> (f w = true <-> same_size (objs st0) (UId c name) u))).
  { intros w Hw.
    assert (X : exists i u r, w = VUnit i /\ nth_error (objs st0) i = Some (u, r)).
    { destruct Hw as [->|[s Hs]]; [exists (length (objs st)), (UId c name), rn; auto|].
      destruct (HU s w Hs) as (i & [u r] & -> & Hi). exists i, u, r. auto. }
    destruct X as (i & u & r & -> & Hi).
    destruct (veq_units st0 _ _ _ _ _ _ HE' Hn Hi) as [V1 V2]. fold v in V1, V2.
    assert (D : veq st0 v (VUnit i) = Ok (f (VUnit i))).
    { unfold f. destruct (veq st0 v (VUnit i)) as [b|e] eqn:Ev; auto. exfalso.
      assert (NS : ~ same_size (objs st0) (UId c name) u) by (intros Y; apply V1 in Y; discriminate).
      apply V2 in NS. discriminate. }
    split; [exact D|]. intros i' u' r' [= <-] Hi'. rewrite Hi in Hi'. injection Hi' as <- <-.
    rewrite <- V1, D. split; [intros ->; reflexivity|intros Y; apply Ok_inj in Y; exact Y]. }
  assert (Hv : f v = true).
  { apply (proj2 (Hf v (or_introl eq_refl)) _ _ _ eq_refl Hn). apply same_size_refl. }
  pose proof (set_items_outcome f v l st0 (fun w Hw => proj1 (Hf w Hw)) Hv) as O.
  assert (Hres : res = if forallb (fun s => match ctx_get st0 s with Some w => f w | None => true end) l
                       then Ok v else Err KeyError).
  { subst res. unfold create_unit. fold st0 l v.
    destruct (set_items st0 l v) as [st1 [x|e]]; cbn [snd] in *;
      destruct (forallb _ l); try discriminate; auto. injection O as ->. reflexivity. }
  assert (HH : harmless <-> forallb (fun s => match ctx_get st0 s with Some w => f w | None => true end) l = true).
  { rewrite forallb_forall. unfold harmless. rewrite Ho. split.
    - intros H s Hs. destruct (ctx_get st0 s) as [w|] eqn:Es; auto.
      destruct (HU s w Es) as (i & [u r] & -> & Hi).
      apply (proj2 (Hf _ (or_intror (ex_intro _ s Es))) i u r eq_refl (HK _ _ Hi)). exact (H s i u r Hs Es Hi).
    - intros H s i u r Hs Es Hi. specialize (H s Hs). change (ctx_get st0 s) with (ctx_get st s) in H. rewrite Es in H.
      apply (proj2 (Hf _ (or_intror (ex_intro _ s Es))) i u r eq_refl (HK _ _ Hi)). exact H. }
  fold v. rewrite Hres, HH. destruct (forallb _ l); split; split; intros H; auto; try discriminate.
  exfalso; now apply H.
Qed.
(** A unit of the same class and name is always accepted, whatever its definition;
    the name goes on meaning the old unit. *)
Theorem C59_same_name_accepted : forall (st : rstate R) c name df usym i r,
  In c [CQuantity; CMass; CLength; CTime; CCurrent; CLumInt; CSubstance; CTemperature; CInformation; CCurrency; CDimless] ->
  ctx_get st (T name) = Some (VUnit i) -> nth_error (objs st) i = Some (UId c name, r) ->
  snd (create_unit st c name df None usym []) = Ok (VUnit (length (objs st))) /\
  (exists r', nth_error (objs (fst (create_unit st c name df None usym []))) (length (objs st)) = Some (UId c name, r') /\ ur_def r' = df) /\
  ctx_get (fst (create_unit st c name df None usym [])) (T name) = Some (VUnit i).
Proof.
  intros st c name df usym i r Hc Hn Hi.
  assert (K : ctx_get (fst (create_unit st c name df None usym [])) (T name) = Some (VUnit i)) by now apply create_unit_keeps.
  destruct (create_unit_objs st c name df None usym []) as [order Eo].
  split; [|split; [|exact K]].
  - unfold create_unit.
    assert (El : reg_names c name None [] = [T name]).
    { repeat (destruct Hc as [<-|Hc]; [reflexivity|]). destruct Hc. }
    rewrite El. set (st0 := new_obj st c name df None usym []). set (v := VUnit (length (objs st))).
    assert (Ev : veq st0 v (VUnit i) = Ok true).
    { unfold veq. subst v. cbn [val_q]. subst st0. cbn [new_obj objs].
      rewrite nth_error_app2, Nat.sub_diag by auto. cbn [nth_error].
      rewrite nth_error_app1 by (apply nth_error_Some; congruence). rewrite Hi.
      unfold q_eq, q_eqne. rewrite rescale_to_same; [|apply dim_eqb_refl, wf_NoDup, wf_unit_dims].
      cbn. unfold Reqb. destruct (Req_EM_T 1 1); [reflexivity|congruence]. }
    cbn [set_items]. rewrite (set_item_bound st0 (T name) v Hn), Ev. reflexivity.
  - rewrite Eo, nth_error_app2, Nat.sub_diag by auto. eexists. split; reflexivity.
Qed.
Open Scope string_scope.
(** Registering a text constant: only the same text again is accepted. *)
Theorem C59_constants : forall A (N : Num A) (st : rstate A) name s t,
  ctx_get st name = Some (VConst (KStr t)) ->
  (s = t -> snd (set_item st name (VConst (KStr s))) = Ok tt) /\
  (s <> t -> snd (set_item st name (VConst (KStr s))) = Err KeyError) /\
  snd (set_item st name (VConst KNone)) = Err KeyError.
Proof.
  intros A N st name s t H. rewrite !(set_item_bound _ _ _ H). cbn.
  split; [|split; [|reflexivity]]; intros X.
  - subst. assert (E : teqb t t = true) by now apply teqb_eq. now rewrite E.
  - destruct (teqb s t) eqn:E; [apply teqb_eq in E; contradiction|reflexivity].
Qed.
(** [UnitLength('foo', 2*m)] and then [UnitLength('foo', 3*m)]: accepted, but the two
    objects have different definitions (and the name means the first). *)
Theorem C59_redefinition_refuted :
  exists (st : rstate Qc) (d1 d2 : udef Qc),
    let st1 := fst (create_unit st CLength "foo" (Some d1) None None []) in
    let st2 := fst (create_unit st1 CLength "foo" (Some d2) None None []) in
    snd (create_unit st CLength "foo" (Some d1) None None []) = Ok (VUnit 6) /\
    snd (create_unit st1 CLength "foo" (Some d2) None None []) = Ok (VUnit 7) /\
    option_map (fun o => ur_ref (snd o)) (nth_error (objs st2) 6) = Some (Some (zq 2, [(u_m, PInt 1)])) /\
    option_map (fun o => ur_ref (snd o)) (nth_error (objs st2) 7) = Some (Some (zq 3, [(u_m, PInt 1)])) /\
    ctx_get st2 (T "foo") = Some (VUnit 6).
Proof.
  exists (ex_st Qc), (DQty (zq 2) [(u_m, PInt 1)]), (DQty (zq 3) [(u_m, PInt 1)]).
  repeat (split; [vm_compute; reflexivity|]); vm_compute; reflexivity.
Qed.
(** The hypotheses of [C59_clashes_refused] hold of a small registry (two base units). *)
Definition ex_small : rstate R :=
  rrun (parse_arith dec_read) rempty
    [RNew CLength "meter" None (Some "m") None []; RNew CTime "second" None (Some "s") None []].
Example C59_example :
  renv_ok (objs ex_small) /\ units_only ex_small /\
  rop_ok (fun a => 0 < a)%R ex_small (RNew CLength "metre" (Some (DQty 1%R [(u_m, PInt 1)])) (Some "m") None []) /\
  ctx_get ex_small (T "m") = Some (VUnit 0).
Proof.
  split.
  { apply rrun_env; [constructor|]. cbn [rops_ok rop_ok].
    split; [|split; [|exact I]]; split; try discriminate.
    - cbn. tauto.
    - vm_compute. intros [H|[]]. discriminate. }
  split.
  { intros s v H. unfold ctx_get in H. apply dget_In in H; [|apply teqb_eq].
    assert (X : v = VUnit 0 \/ v = VUnit 1).
    { vm_compute in H. repeat (destruct H as [H|H]; [injection H as _ <-; auto|]). destruct H. }
    destruct X as [-> | ->]; do 2 eexists; (split; [reflexivity|vm_compute; reflexivity]). }
  split; [|vm_compute; reflexivity].
  split; [vm_compute; intros [H|[H|[]]]; discriminate|].
  intros x [= <-]. split; [discriminate|]. split; [lra|]. split; [apply wf_dimsb_true; reflexivity|].
  intros u [<-|[]]. split; [vm_compute; auto|discriminate].
Qed.
Close Scope string_scope.

(** ** C20: creation of units and the default units *)
(** The first unit that is created for a base class becomes the default unit of the
    class; later ones, units of other classes, and failed creations do not change any
    default. *)
Theorem C20_first_unit : forall A (N : Num A) (st : rstate A) c name df sym usym aliases,
  let st' := fst (create_unit st c name df sym usym aliases) in
  let r := snd (create_unit st c name df sym usym aliases) in
  (forall v, r = Ok v -> is_irreducible c = true -> dflt st c = None -> dflt st' c = Some (unit_dims (UId c name))) /\
  (forall dd, dflt st c = Some dd -> dflt st' c = Some dd) /\
  (forall c', c' <> c -> dflt st' c' = dflt st c') /\
  (forall e, r = Err e -> forall c', dflt st' c' = dflt st c') /\
  (is_irreducible c = false -> forall c', dflt st' c' = dflt st c').
Proof.
  intros A N st c name df sym usym al. cbv zeta. unfold create_unit.
  pose proof (@set_items_same A N (reg_names c name sym al) (new_obj st c name df sym usym al) (VUnit (length (objs st)))) as (_ & _ & S3).
  destruct (set_items _ _ _) as [st1 [u|e]]; cbn [fst snd dflt] in *; change (dflt (new_obj st c name df sym usym al)) with (dflt st) in S3; rewrite S3.
  - assert (RR : ucls_eqb c c = true) by (destruct c; reflexivity).
    split; [|split; [|split; [|split]]].
    + intros v _ Hi Hd. rewrite Hi, Hd. now rewrite RR.
    + intros dd Hd. rewrite Hd. now destruct (is_irreducible c).
    + intros c' Hc. destruct (is_irreducible c); auto. destruct (dflt st c); auto.
      replace (ucls_eqb c c') with false; auto. destruct c, c'; try reflexivity; congruence.
    + discriminate.
    + intros Hi. now rewrite Hi.
  - split; [discriminate|]. repeat split; auto.
Qed.
Example C20_first_unit_example :
  dflt (ex_st Qc) CLength = Some [(u_m, PInt 1)] /\
  dflt (@rempty Qc) CLength = None /\
  dflt (fst (create_unit (ex_st Qc) CLength "pace" None None None [])) CLength = Some [(u_m, PInt 1)] /\
  snd (create_unit (ex_st Qc) CLength "pace" None None None []) = Ok (VUnit 6).
Proof. split; [|split; [|split]]; vm_compute; reflexivity. Qed.

(** A name that holds an array quantity cannot be bound again to an array of the same shape
    and more than one element, not even to an equal one: the comparison is ambiguous. *)
Theorem C59_arrays_are_ambiguous : forall A (N : Num A) (st : rstate A) s (q q' : qty A),
  ctx_get st s = Some (VQty q') -> awf (mag q) -> awf (mag q') -> shp (mag q) = shp (mag q') -> (2 <= prodn (shp (mag q)))%nat ->
  set_item st s (VQty q) = (st, Err ValueError).
Proof.
  intros A N st s q q' Hs W W' Es H2. unfold set_item. rewrite Hs. f_equal. unfold veq. cbn [val_q].
  assert (Ht : forall b : arr bool, shp b = shp (mag q) -> awf b -> arr_truth b = Err ValueError).
  { intros b Eb Wb. unfold awf in Wb. rewrite Eb in Wb. unfold arr_truth. destruct (dat b) as [|x [|y l]]; cbn in Wb; try reflexivity; exfalso; rewrite <- Wb in H2; lia. }
  unfold q_eq, q_eqne. match goal with |- context [rescale_to ?E q' ?d] => pose proof (@rescale_to_shape A N E q' d) as Hsh; destruct (rescale_to_cases E q' d) as [[_ ->]|[_ [[_ ->]|[_ ->]]]] end; cbn [bind].
  - rewrite amap2_same_shape by auto. cbn [bind]. rewrite Ht; [reflexivity|reflexivity|].
    unfold awf. cbn [shp dat]. rewrite zip_with_length, W, W', <- Es. apply Nat.min_id.
  - rewrite amap2_same_shape by (auto; now apply awf_amap). cbn [bind]. rewrite Ht; [reflexivity|reflexivity|].
    unfold awf. cbn [shp dat mag amap]. rewrite zip_with_length, map_length, W, W', <- Es. apply Nat.min_id.
  - rewrite Ht; [reflexivity|reflexivity|]. now apply awf_amap.
Qed.
Example C59_arrays_example :
  let q := @Qty Qc (@Arr Qc [2%nat] [1%Qc; 1%Qc]) [(u_m, PInt 1)] in
  let st := fst (set_item (ex_st Qc) (T "pair") (VQty q)) in
  ctx_get st (T "pair") = Some (VQty q) /\ awf (mag q) /\ set_item st (T "pair") (VQty q) = (st, Err ValueError).
Proof. cbv zeta. split; [vm_compute; reflexivity|]. split; [reflexivity|]. vm_compute; reflexivity. Qed.

(** ** C60 *)
(** A creation that raises leaves bound the names that come before the clash, to the
    half-made unit, and no other name changes. *)
Theorem C60_failed_creation : forall A (N : Num A) (st : rstate A) c name df sym usym aliases e,
  snd (create_unit st c name df sym usym aliases) = Err e ->
  exists before clash after w,
    reg_names c name sym aliases = before ++ clash :: after /\
    ctx_get (fst (create_unit st c name df sym usym aliases)) clash = Some w /\
    forall s, ctx_get (fst (create_unit st c name df sym usym aliases)) s =
      match ctx_get st s with
      | Some w => Some w
      | None => if existsb (teqb s) before then Some (VUnit (length (objs st))) else None
      end.
Proof.
  intros A N st c name df sym usym al e H. unfold create_unit in *.
  set (st0 := new_obj st c name df sym usym al) in *. set (l := reg_names c name sym al) in *.
  set (v := VUnit (length (objs st))) in *.
  destruct (snd (set_items st0 l v)) as [u|e'] eqn:Er.
  { destruct (set_items st0 l v) as [st1 r]. cbn [snd] in Er. subst r. discriminate. }
  destruct (set_items_err l st0 v Er) as (before & s & after & w & E1 & E2 & _ & E4).
  exists before, s, after, w. split; [exact E1|].
  destruct (set_items st0 l v) as [st1 r]. cbn [snd fst] in *. subst r. cbn [fst]. split; [exact E2|exact E4].
Qed.
(** If the name itself is taken, nothing is registered. *)
Theorem C60_name_clash : forall A (N : Num A) (st : rstate A) c name df sym usym aliases e w,
  In (T name) (reg_names c name sym aliases) -> ctx_get st (T name) = Some w ->
  snd (create_unit st c name df sym usym aliases) = Err e ->
  veq (new_obj st c name df sym usym aliases) (VUnit (length (objs st))) w <> Ok true ->
  forall s, ctx_get (fst (create_unit st c name df sym usym aliases)) s = ctx_get st s.
Proof.
  intros A N st c name df sym usym al e w Hin Hw H Hv s.
  assert (El : exists l, reg_names c name sym al = T name :: l).
  { unfold reg_names in *. destruct c; cbn in Hin; try tauto; eexists; reflexivity. }
  destruct El as [l El]. unfold create_unit in *. rewrite El in *. cbn [set_items] in *.
  rewrite (set_item_bound (new_obj st c name df sym usym al) (T name) (VUnit (length (objs st))) Hw) in *.
  destruct (veq _ _ w) as [[|]|e']; cbn [bind] in *; try congruence; reflexivity.
Qed.
Open Scope string_scope.
Theorem C60_atomic_refuted :
  exists (st : rstate Qc),
    snd (create_unit st CLength "bar" (Some (DQty (zq 2) [(u_m, PInt 1)])) (Some "s") None []) = Err KeyError /\
    ctx_get st (T "bar") = None /\
    ctx_get (fst (create_unit st CLength "bar" (Some (DQty (zq 2) [(u_m, PInt 1)])) (Some "s") None [])) (T "bar") = Some (VUnit 6).
Proof. exists (ex_st Qc). repeat (split; [vm_compute; reflexivity|]); vm_compute; reflexivity. Qed.
Close Scope string_scope.

(** ** C61 *)
(** For any parser: an answer means that the label parsed to an arithmetic expression
    whose names are registered (or [__builtins__]). *)
Theorem C61_only_arithmetic : forall A (N : Num A) parse (st : rstate A) label v,
  get_item parse st label = Ok v ->
  exists tree, parse (preprocess label) = Ok tree /\ arith tree /\
    forall s, In s (names tree) -> ctx_get st s <> None \/ s = T "__builtins__".
Proof.
  intros A N parse st label v H. unfold get_item, inner_get in H.
  destruct (parse (preprocess label)) as [tree|e]; [|discriminate]. cbn [bind] in H.
  destruct (valid tree) eqn:Ev; [|discriminate]. exists tree. split; auto. split; [now apply valid_arith|].
  destruct (eval st tree) as [w|[]] eqn:Ee; cbn in H; try discriminate.
  exact (eval_names _ _ Ee).
Qed.
Theorem C61_everything_else_refused : forall A (N : Num A) parse (st : rstate A) label tree,
  parse (preprocess label) = Ok tree -> ~ arith tree -> get_item parse st label = Err LookupError.
Proof.
  intros A N parse st label tree H Ha. unfold get_item, inner_get. rewrite H. cbn [bind].
  destruct (valid tree) eqn:Ev; auto. apply valid_arith in Ev. contradiction.
Qed.
(** A name that is not registered. *)
Theorem C61_unknown_names : forall A (N : Num A) fread (st : rstate A) name,
  identifier name -> lower name <> T "in" -> ctx_get st name = None -> name <> T "__builtins__" ->
  get_item (parse_arith fread) st name = Err LookupError.
Proof. intros. now apply ident_miss. Qed.
Theorem C61_unknown_names_inside : forall A (N : Num A) parse (st : rstate A) label tree s,
  parse (preprocess label) = Ok tree -> In s (names tree) -> ctx_get st s = None -> s <> T "__builtins__" ->
  exists e, get_item parse st label = Err e /\ e <> NameError.
Proof.
  intros A N parse st label tree s H Hs Hc Hb. unfold get_item, inner_get. rewrite H. cbn [bind].
  destruct (valid tree) eqn:Ev; [|exists LookupError; split; [reflexivity|discriminate]].
  destruct (eval st tree) as [v|e] eqn:Ee.
  - destruct (eval_names _ _ Ee s Hs); contradiction.
  - destruct e; cbn; eexists; (split; [reflexivity|discriminate]).
Qed.
(** What a label means depends on the registered meaning of its own names only. *)
Theorem C61_only_its_names : forall A (N : Num A) parse (st st' : rstate A) label tree,
  parse (preprocess label) = Ok tree -> objs st' = objs st ->
  (forall s, In s (names tree) -> ctx_get st' s = ctx_get st s) ->
  get_item parse st' label = get_item parse st label.
Proof.
  intros A N parse st st' label tree H Ho Hn. unfold get_item, inner_get. rewrite H. cbn [bind].
  now rewrite (@eval_ext A N st st' tree Ho Hn).
Qed.
(** A power whose exponent has units is refused with ValueError, one operand being a
    registered unit. *)
Theorem C61_exponents_without_units : forall A (N : Num A) parse (st : rstate A) label x y i j u r q,
  parse (preprocess label) = Ok (EBin BPow (EName x) (EName y)) ->
  ctx_get st x = Some (VUnit i) -> nth_error (objs st) i = Some (u, r) ->
  ctx_get st y = Some (VUnit j) -> val_q st (VUnit j) = Some q -> qdim q <> [] ->
  get_item parse st label = Err ValueError.
Proof.
  intros A N parse st label x y i j u r q Hp Hx Hi Hy Hq Hd. unfold get_item, inner_get. rewrite Hp. cbn [bind].
  cbn [valid walk forallb whitelisted app andb eval]. rewrite Hx, Hy. cbn [bind]. unfold v_bin, q_power.
  rewrite Hq. destruct (qdim q) as [|k d]; [congruence|]. reflexivity.
Qed.
(** Python's reserved words are no unit names, whatever is registered under them (the word
    "in" alone is read as "inch"; "not", "lambda", "await" and "yield" start expressions
    outside the modelled grammar). *)
(** Specification-level: Python's keywords, without these five and the constants. *)
Definition reserved_words : list text :=
  map T ["and"; "as"; "assert"; "async"; "break"; "class"; "continue"; "def"; "del"; "elif"; "else"; "except"; "finally";
         "for"; "from"; "global"; "if"; "import"; "is"; "nonlocal"; "or"; "pass"; "raise"; "return"; "try"; "while"; "with"]%string.
Theorem C61_reserved_words : forall A (N : Num A) fread (st : rstate A),
  (forall w, In w reserved_words -> get_item (parse_arith fread) st w = Err SyntaxError) /\
  (forall w c, In (w, c) [(T "True", KTrue); (T "False", KFalse); (T "None", KNone)] -> get_item (parse_arith fread) st w = Ok (VConst c)) /\
  (forall w x, In w (T "in" :: reserved_words) -> In x (map T ["m*"; "1/"; "m^2*"; "("]%string) -> get_item (parse_arith fread) st (x ++ w) = Err SyntaxError) /\
  get_item (parse_arith fread) st (T "in") = get_item (parse_arith fread) st (T "inch").
Proof.
  intros A N fread st. split; [|split; [|split]].
  - intros w H. unfold reserved_words in H. cbn [map In] in H.
    repeat (destruct H as [<- | H]; [vm_compute; reflexivity|]). contradiction.
  - intros w c H. cbn [In] in H. repeat (destruct H as [H | H]; [assert (w = _) as -> by (symmetry; exact (f_equal fst H)); assert (c = _) as -> by (symmetry; exact (f_equal snd H)); vm_compute; reflexivity|]). contradiction.
  - intros w x H Hx. unfold reserved_words in H. cbn [map In] in H, Hx.
    repeat (destruct Hx as [<- | Hx]; [repeat (destruct H as [<- | H]; [vm_compute; reflexivity|]); contradiction|]). contradiction.
  - assert (E : preprocess (T "in") = preprocess (T "inch")) by (vm_compute; reflexivity). unfold get_item. now rewrite E.
Qed.
Theorem C61_builtins_refuted : exists (st : rstate Qc) v,
  ctx_get st (T "__builtins__") = None /\ get_item (parse_arith dec_read) st (T "__builtins__") = Ok v.
Proof. exists (ex_st Qc). eexists. split; vm_compute; reflexivity. Qed.
Example C61_examples :
  let get l := get_item (parse_arith dec_read) (ex_st Qc) (T l) in
  get "m.s"%string = Ok (VQty (Qty (scalar 1%Qc) [(u_m, PInt 1); (u_s, PInt 1)])) /\
  get "IN"%string = Ok (VUnit 4) /\
  get "m*in"%string = Err SyntaxError /\
  get "foo*m"%string = Err LookupError /\
  get "kg*m^2/s**2"%string = Ok (VQty (Qty (scalar 1%Qc) [(u_kg, PInt 1); (u_m, PInt 2); (u_s, PInt (-2))])) /\
  get ""%string = Ok (VUnit 0).
Proof. repeat (split; [vm_compute; reflexivity|]); vm_compute; reflexivity. Qed.

(** ** C62 *)
(** Evaluating the printed text of a dimensionality made of registered units gives
    one of exactly these units. *)
Theorem C62_text_means_the_product : forall A (N : Num A) fread frepr (st : rstate A) d,
  unit_arith A -> printable fread frepr st d -> d <> [] ->
  exists v d', get_item (parse_arith fread) st (format_units (objs st) frepr false d) = Ok v /\
    val_q st v = Some (Qty (scalar n1) d') /\ dim_eqb d' d = true.
Proof.
  intros A N fread frepr st d UA HP Hne.
  destruct (round_trip fread frepr st d UA HP Hne) as (v & d' & E1 & E2 & W & E3).
  exists v, d'. split; auto. split; auto. apply dim_eqb_exp; auto. apply HP.
Qed.
Lemma lookup_first {A} (E X : uenv A) u r : ~ In u (dkeys E) -> ulookup ((E ++ [(u, r)]) ++ X) u = Some r.
Proof.
  intros Hk. unfold ulookup. induction E as [|[k r'] E IH].
  - cbn. now rewrite uid_eqb_refl.
  - cbn [app dget]. destruct (uid_eqb u k) eqn:Eu.
    + apply uid_eqb_eq in Eu. exfalso. apply Hk. cbn. auto.
    + apply IH. intros Y. apply Hk. cbn. auto.
Qed.
(** A new compound unit is the amount that its label stands for: if the registry makes
    [x * d] of the label, then one such unit is [x * d]. *)
Theorem C62_compound_unit : forall parse (st : rstate R) name v x d phi,
  ~ In (UId CCompound name) (dkeys (objs st)) ->
  snd (create_compound parse st name) = Ok v ->
  get_item parse st (T name) = Ok (VQty (Qty (scalar x) d)) ->
  consistent (objs (fst (create_compound parse st name))) phi ->
  v = VUnit (length (objs st)) /\
  val_q (fst (create_compound parse st name)) v = Some (unit_q (UId CCompound name)) /\
  dimval phi (unit_dims (UId CCompound name)) = (x * dimval phi d)%R.
Proof.
  intros parse st name v x d phi Hn Hv Hg HC. unfold create_compound in *. rewrite Hg in *. cbn [val_def mag scalar dat qdim] in *.
  destruct (create_unit_objs st CCompound name (Some (DQty x d)) None None []) as [order Eo].
  assert (v = VUnit (length (objs st))) as ->.
  { unfold create_unit in Hv. destruct (set_items _ _ _) as [st1 [u|e]]; cbn in Hv; congruence. }
  split; auto. rewrite Eo in HC. split.
  - cbn [val_q]. rewrite Eo, nth_error_app2, Nat.sub_diag by auto. reflexivity.
  - destruct HC as [Hpos HC]. specialize (HC (UId CCompound name) (new_unit (objs st) order (Some (DQty x d)) None None []) (DQty x d)).
    assert (L : ulookup (objs st ++ [(UId CCompound name, new_unit (objs st) order (Some (DQty x d)) None None [])]) (UId CCompound name)
                = Some (new_unit (objs st) order (Some (DQty x d)) None None [])).
    { pose proof (lookup_first (objs st) [] (UId CCompound name) (new_unit (objs st) order (Some (DQty x d)) None None []) Hn) as X.
      now rewrite app_nil_r in X. }
    specialize (HC L eq_refl). cbn [defval] in HC. rewrite <- HC.
    apply dimval_unit'; [apply Hpos|discriminate].
Qed.
Example C62_compound_unit_example :
  get_item (parse_arith dec_read) (ex_st Qc) (T "2*kg/m**3") = Ok (VQty (Qty (scalar (zq 2)) [(u_kg, PInt 1); (u_m, PInt (-3))])) /\
  snd (create_compound (parse_arith dec_read) (ex_st Qc) "2*kg/m**3") = Ok (VUnit 6) /\
  ~ In (UId CCompound "2*kg/m**3") (dkeys (objs (ex_st Qc))).
Proof. split; [|split]; [vm_compute; reflexivity..|]. vm_compute. intuition discriminate. Qed.
(** No units at all: the text is [dimensionless], which is registered as such. *)
Theorem C62_dimensionless : forall A (N : Num A) fread frepr (st : rstate A) v name,
  ctx_get st (T "dimensionless") = Some v -> val_q st v = Some (unit_q (UId CDimless name)) ->
  get_item (parse_arith fread) st (format_units (objs st) frepr false []) = Ok v /\
  val_q st v = Some (Qty (scalar n1) []).
Proof.
  intros A N fread frepr st v name H Hv. rewrite format_empty. split; [|exact Hv].
  apply ident_get; auto; [split; [cbn; repeat constructor|reflexivity]|discriminate].
Qed.
(** Units created in the library are of that kind: after the creation of a unit with
    a free symbol, the unit prints as its symbol and the symbol means the unit,
    whatever happens later. *)
Theorem C62_created_units : forall A (N : Num A) parse (st : rstate A) c name df sym usym aliases history v,
  In c [CQuantity; CMass; CLength; CTime; CCurrent; CLumInt; CSubstance; CTemperature; CInformation; CCurrency] ->
  sym <> ""%string -> ~ In (UId c name) (dkeys (objs st)) -> T name <> T sym ->
  ctx_get st (T sym) = None ->
  snd (create_unit st c name df (Some sym) usym aliases) = Ok v ->
  let st' := rrun parse (fst (create_unit st c name df (Some sym) usym aliases)) history in
  shown (objs st') false (UId c name) = T sym /\
  ctx_get st' (T sym) = Some v /\ val_q st' v = Some (unit_q (UId c name)).
Proof.
  intros A N parse st c name df sym usym al l v Hc Hs Hk Hne Hf Hok st'.
  destruct (create_unit_objs st c name df (Some sym) usym al) as [order Eo].
  destruct (rrun_objs parse l (fst (create_unit st c name df (Some sym) usym al))) as [X EX].
  assert (Hv : v = VUnit (length (objs st))).
  { unfold create_unit in Hok. destruct (set_items _ _ _) as [st1 [u|e]]; cbn in Hok; congruence. }
  split; [|split].
  - unfold shown, unit_symbol. subst st'. rewrite EX, Eo.
    assert (L : ulookup ((objs st ++ [(UId c name, new_unit (objs st) order df (Some sym) usym al)]) ++ X) (UId c name) =
                Some (new_unit (objs st) order df (Some sym) usym al)).
    { now apply lookup_first. }
    rewrite L. cbn [ur_symbol new_unit]. destruct sym; [congruence|reflexivity].
  - apply rrun_keeps. unfold create_unit in *.
    set (st0 := new_obj st c name df (Some sym) usym al) in *.
    assert (El : exists l', reg_names c name (Some sym) al = T name :: T sym :: l').
    { unfold reg_names. destruct sym as [|a s]; [congruence|]. 
      repeat (destruct Hc as [<-|Hc]; [eexists; reflexivity|]). destruct Hc. }
    destruct El as [l' El]. rewrite El in *.
    destruct (set_items st0 (T name :: T sym :: l') (VUnit (length (objs st)))) as [st1 [u|e]] eqn:Es; [|discriminate].
    pose proof (set_items_ok (T name :: T sym :: l') st0 (VUnit (length (objs st)))) as O. rewrite Es in O. cbn [fst snd] in O.
    specialize (O u eq_refl (T sym)). change (ctx_get st0 (T sym)) with (ctx_get st (T sym)) in O. rewrite Hf in O.
    cbn [existsb] in O. rewrite (teqb_refl (T sym)), orb_true_r in O. rewrite Hv. exact O.
  - rewrite Hv. cbn [val_q]. subst st'. rewrite EX, Eo, <- app_assoc.
    rewrite nth_error_app2, Nat.sub_diag by auto. reflexivity.
Qed.
Definition ex_base : rstate R := rrun (parse_arith dec_read) rempty (firstn 4 (ex_ops R)).
Definition ex_d : dims := [(u_m, PFlt (q_of 1 2)); (u_s, PInt (-2)); (u_kg, PInt 1)].
Lemma ex_base_get s : ctx_get ex_base s = dget teqb
  [(T "dimensionless", VUnit 0); (T "meter", VUnit 1); (T "m", VUnit 1); (T "meters", VUnit 1);
   (T "kilogram", VUnit 2); (T "kg", VUnit 2); (T "kilograms", VUnit 2);
   (T "second", VUnit 3); (T "s", VUnit 3); (T "sec", VUnit 3)] s.
Proof. reflexivity. Qed.
Lemma ex_base_keys : dkeys (objs ex_base) = [u_nodim; u_m; u_kg; u_s].
Proof. reflexivity. Qed.
Lemma fixed_half : fixed_repr dec_read (q_of 1 2) (dec_repr (q_of 1 2)).
Proof.
  exists 0%N, ["5"%char]. split; [reflexivity|]. split; [discriminate|]. split; [repeat constructor|].
  right. split; [discriminate|]. split; [apply Qc_is_canon; reflexivity|].
  intros [z Hz]. apply (f_equal (fun q => Qden (this q))) in Hz. rewrite this_Z2Qc in Hz. discriminate.
Qed.
Lemma ex_d_printable : printable dec_read dec_repr ex_base ex_d.
Proof.
  split.
  - split; [apply wf_dimsb_true; reflexivity|]. intros u [<-|[<-|[<-|[]]]]; discriminate.
  - intros u e [[= <- <-]|[[= <- <-]|[[= <- <-]|[]]]].
    + split; [split; [cbn; repeat constructor|reflexivity]|]. split; [discriminate|].
      split; [exists (VUnit 1); split; reflexivity|]. exact fixed_half.
    + split; [split; [cbn; repeat constructor|reflexivity]|]. split; [discriminate|].
      split; [exists (VUnit 3); split; reflexivity|]. cbn. discriminate.
    + split; [split; [cbn; repeat constructor|reflexivity]|]. split; [discriminate|].
      split; [exists (VUnit 2); split; reflexivity|]. cbn. discriminate.
Qed.
Example C62_example :
  unit_arith R /\ printable dec_read dec_repr ex_base ex_d /\
  format_units (objs ex_base) dec_repr false ex_d = T "kg*m**0.5/s**2" /\
  ctx_get ex_base (T "dimensionless") = Some (VUnit 0) /\ val_q ex_base (VUnit 0) = Some (unit_q u_nodim).
Proof.
  split; [exact unit_arith_R|]. split; [exact ex_d_printable|]. split; [vm_compute; reflexivity|].
  split; reflexivity.
Qed.
Example C62_created_example :
  let st := @rempty R in
  snd (create_unit st CLength "meter"%string None (Some "m"%string) None []) = Ok (VUnit 0).
Proof. reflexivity. Qed.

(** ** C63 *)
(** Two printable dimensionalities over the units of a registry have the same text if
    and only if they are equal (in whatever order they were built). *)
Theorem C63_same_text_iff_equal : forall A (N : Num A) fread frepr parse history d1 d2 v name,
  let st := rrun parse (@rempty A) history in
  unit_arith A -> printable fread frepr st d1 -> printable fread frepr st d2 ->
  (forall u, In u (dkeys d1) -> In u (dkeys (objs st))) ->
  ctx_get st (T "dimensionless") = Some v -> val_q st v = Some (unit_q (UId CDimless name)) ->
  (format_units (objs st) frepr false d1 = format_units (objs st) frepr false d2 <-> dim_eqb d1 d2 = true).
Proof.
  intros A N fread frepr parse history d1 d2 v name st UA P1 P2 K Hv Hq.
  pose proof P1 as [[W1 _] _]. pose proof P2 as [[W2 _] _].
  rewrite (dim_eqb_exp d1 d2 W1 W2).
  assert (Ev : forall d, printable fread frepr st d -> exists w d',
     get_item (parse_arith fread) st (format_units (objs st) frepr false d) = Ok w /\
     val_q st w = Some (Qty (scalar n1) d') /\ forall u, exp_of d' u = exp_of d u).
  { intros d P. destruct d as [|kv d].
    - destruct (C62_dimensionless A N fread frepr st v name Hv Hq) as [X1 X2]. exists v, []. auto.
    - destruct (round_trip fread frepr st (kv :: d) UA P ltac:(discriminate)) as (w & d' & X1 & X2 & _ & X3). eauto. }
  split.
  - intros H u. destruct (Ev d1 P1) as (w1 & d1' & X1 & X2 & X3). destruct (Ev d2 P2) as (w2 & d2' & Y1 & Y2 & Y3).
    rewrite H in X1. rewrite X1 in Y1. apply Ok_inj in Y1. subst w2. rewrite X2 in Y2.
    injection Y2 as <-. rewrite <- X3, <- Y3. reflexivity.
  - intros H. apply (equal_prints_equal fread frepr st d1 d2 P1 P2); auto.
    apply ord_inv_distinct; auto. apply rrun_inv, rempty_inv.
Qed.
Example C63_example :
  printable dec_read dec_repr ex_base ex_d /\ (forall u, In u (dkeys ex_d) -> In u (dkeys (objs ex_base))) /\
  format_units (objs ex_base) dec_repr false ex_d =
  format_units (objs ex_base) dec_repr false [(u_kg, PFlt (q_of 1 1)); (u_m, PFlt (q_of 1 2)); (u_s, PFlt (q_of (-2) 1))].
Proof.
  split; [exact ex_d_printable|]. split; [|vm_compute; reflexivity].
  rewrite ex_base_keys. intros u [<-|[<-|[<-|[]]]]; cbn; auto 10.
Qed.
(** With exponents that are multiples of ten this fails, in both directions. *)
Theorem C63_injective_refuted :
  format_units (objs (ex_st Qc)) dec_repr false [(u_m, PInt 20)] = format_units (objs (ex_st Qc)) dec_repr false [(u_m, PInt 2)] /\
  dim_eqb [(u_m, PInt 20)] [(u_m, PInt 2)] = false.
Proof. split; vm_compute; reflexivity. Qed.
Theorem C63_equal_print_same_refuted :
  format_units (objs (ex_st Qc)) dec_repr false [(u_m, PInt 10)] = T "m**1" /\
  format_units (objs (ex_st Qc)) dec_repr false [(u_m, PFlt (q_of 10 1))] = T "m**10" /\
  dim_eqb [(u_m, PInt 10)] [(u_m, PFlt (q_of 10 1))] = true.
Proof. split; [|split]; vm_compute; reflexivity. Qed.

(** ** C64 *)
(** For whole exponents (no multiples of ten) and symbols without special characters,
    the four renderings are the same product: they differ in the multiplication sign,
    the exponents and the fraction only.  [facs] are the symbols and exponents above
    and below the line, [render] (Render.v) puts them together. *)
Theorem C64_plain : forall A (E : uenv A) frepr uc d, renderable E uc d ->
  format_units E frepr uc d =
  render (T "*") (fun e => T "**" ++ e) (fun a b => a ++ T "/" ++ b) (facs E uc (num_items E d)) (facs E uc (den_items E d)).
Proof. intros A E frepr uc d H. exact (format_render E frepr uc d H). Qed.
Theorem C64_unicode : forall A (E : uenv A) frepr uc d, renderable E uc d ->
  format_units_unicode E frepr uc d =
  render (T "·") (flat_map (fun c => nth (N.to_nat (digit_val c)) (map T ["⁰"; "¹"; "²"; "³"; "⁴"; "⁵"; "⁶"; "⁷"; "⁸"; "⁹"]%string) []))
         (fun a b => a ++ T "/" ++ b) (facs E uc (num_items E d)) (facs E uc (den_items E d)).
Proof. intros A E frepr uc d H. exact (unicode_render E frepr uc d H). Qed.
Theorem C64_latex : forall A (E : uenv A) frepr uc font mult paren d, renderable E uc d ->
  format_units_latex E frepr uc font mult paren d =
  let body := render (T "{" ++ mult ++ T "}") (fun e => T "^{" ++ e ++ T "}") (fun a b => T "\frac{" ++ a ++ T "}{" ++ b ++ T "}")
                     (facs E uc (num_items E d)) (facs E uc (den_items E d)) in
  T "$\" ++ font ++ T "{" ++ (if paren then T "\left(" ++ body ++ T "\right)" else body) ++ T "}$".
Proof. intros A E frepr uc font mult paren d H. exact (latex_render E frepr uc font mult paren d H). Qed.
Theorem C64_html : forall A (E : uenv A) frepr uc font mult paren d, renderable E uc d ->
  format_units_html E frepr uc font mult paren d =
  let body := render mult (fun e => T "<sup>" ++ e ++ T "</sup>") (fun a b => a ++ T "/" ++ b)
                     (facs E uc (num_items E d)) (facs E uc (den_items E d)) in
  fst font ++ (if paren then T "(" ++ body ++ T ")" else body) ++ snd font.
Proof. intros A E frepr uc font mult paren d H. exact (html_render E frepr uc font mult paren d H). Qed.
(** The attributes [d.latex] and [d.html] ([\cdot] and [&sdot;] between factors, no
    parentheses around the whole), and [str(d)]. *)
Theorem C64_attributes : forall A (E : uenv A) frepr uc d, renderable E uc d ->
  let num := facs E uc (num_items E d) in let den := facs E uc (den_items E d) in
  dim_latex E frepr uc d = T "$\mathrm{" ++
    render (T "{\cdot}") (fun e => T "^{" ++ e ++ T "}") (fun a b => T "\frac{" ++ a ++ T "}{" ++ b ++ T "}") num den ++ T "}$" /\
  dim_html E frepr uc d = render (T "&sdot;") (fun e => T "<sup>" ++ e ++ T "</sup>") (fun a b => a ++ T "/" ++ b) num den /\
  dim_str E frepr uc d =
    if uc then render (T "·") (flat_map (fun c => nth (N.to_nat (digit_val c)) (map T ["⁰"; "¹"; "²"; "³"; "⁴"; "⁵"; "⁶"; "⁷"; "⁸"; "⁹"]%string) []))
                 (fun a b => a ++ T "/" ++ b) num den
    else render (T "*") (fun e => T "**" ++ e) (fun a b => a ++ T "/" ++ b) num den.
Proof.
  intros A E frepr uc d H num den. unfold dim_latex, dim_html, dim_str.
  rewrite (C64_latex A E frepr uc _ _ _ d H), (C64_html A E frepr uc _ _ _ d H). cbn [fst snd app]. rewrite app_nil_r.
  split; [reflexivity|]. split; [reflexivity|]. destruct uc.
  - exact (C64_unicode A E frepr true d H).
  - exact (C64_plain A E frepr false d H).
Qed.
(** The factors above the line are the units with positive exponents, those below the
    units with negative exponents; each unit is on its side exactly once. *)
Theorem C64_sides : forall A (E : uenv A) d u e, wf_dims d ->
  (In (u, e) (num_items E d) <-> In (u, e) d /\ (0 < pval e)%Qc) /\
  (In (u, e) (den_items E d) <-> In (u, e) d /\ (pval e < 0)%Qc) /\
  NoDup (dkeys (num_items E d)) /\ NoDup (dkeys (den_items E d)) /\
  (In (u, e) d -> In (u, e) (num_items E d) \/ In (u, e) (den_items E d)).
Proof.
  intros A E d u e W.
  assert (Hn : In (u, e) (num_items E d) <-> In (u, e) d /\ (0 < pval e)%Qc) by exact (in_num E d u e).
  assert (Hd : In (u, e) (den_items E d) <-> In (u, e) d /\ (pval e < 0)%Qc).
  { unfold den_items. rewrite filter_In. cbn [snd]. rewrite pneg_b_true. rewrite (in_sorted E d (u, e)). tauto. }
  split; [exact Hn|]. split; [exact Hd|]. split; [apply (NoDup_num E), wf_NoDup, W|]. split.
  - pose proof (NoDup_den E d (wf_NoDup _ W)) as X. unfold den_of in X. now rewrite (dkeys_map_snd pneg) in X.
  - intros Hin. rewrite Hn, Hd. destruct (Qclt_le_dec (pval e) 0) as [H|H]; [right; auto|].
    left. split; auto. apply Qcle_lt_or_eq in H. destruct H as [H|H]; auto. exfalso. exact (wf_In d u e W Hin (eq_sym H)).
Qed.
Example C64_example :
  let d := [(u_m, PInt 12); (u_s, PInt (-2)); (u_kg, PInt 1)] in
  renderable (objs (ex_st Qc)) false d /\
  format_units_unicode (objs (ex_st Qc)) dec_repr false d = T "kg·m¹²/s²" /\
  dim_latex (objs (ex_st Qc)) dec_repr false d = T "$\mathrm{\frac{kg{\cdot}m^{12}}{s^{2}}}$" /\
  dim_html (objs (ex_st Qc)) dec_repr false d = T "kg&sdot;m<sup>12</sup>/s<sup>2</sup>".
Proof.
  cbv zeta. split; [|split; [|split]; vm_compute; reflexivity].
  split; [apply wf_dimsb_true; reflexivity|].
  assert (S1 : shown (objs (ex_st Qc)) false u_m = T "m") by (vm_compute; reflexivity).
  assert (S2 : shown (objs (ex_st Qc)) false u_s = T "s") by (vm_compute; reflexivity).
  assert (S3 : shown (objs (ex_st Qc)) false u_kg = T "kg") by (vm_compute; reflexivity).
  intros u e [[= <- <-]|[[= <- <-]|[[= <- <-]|[]]]]; rewrite ?S1, ?S2, ?S3;
    (split; [unfold plain_symbol; cbn; intuition discriminate|eexists; split; [reflexivity|vm_compute; discriminate]]).
Qed.
(** What is shown for a unit: with [use_unicode] its unicode symbol if it has one,
    else its symbol if it has one, else its name (in parentheses for compound units). *)
Theorem C64_symbols : forall A (E : uenv A) u r, ulookup E u = Some r ->
  let has o := match o with Some s => s <> EmptyString | None => False end in
  (forall s, ur_usymbol r = Some s -> s <> EmptyString -> shown E true u = T s) /\
  (forall uc s, ur_symbol r = Some s -> s <> EmptyString -> (uc = true -> ~ has (ur_usymbol r)) -> shown E uc u = T s) /\
  (forall uc, ~ has (ur_symbol r) -> (uc = true -> ~ has (ur_usymbol r)) -> u_cls u <> CCompound -> shown E uc u = T (u_name u)) /\
  (~ has (ur_symbol r) -> u_cls u = CCompound -> shown E false u = T "(" ++ T (u_name u) ++ T ")").
Proof.
  intros A E u r Hr has.
  assert (HU : ~ has (ur_usymbol r) -> unit_usymbol E true u = unit_symbol E true u).
  { intros H. unfold unit_usymbol. rewrite Hr. destruct (ur_usymbol r) as [[|c s]|]; auto. exfalso. apply H. cbn. discriminate. }
  assert (HS : forall uc, ~ has (ur_symbol r) -> unit_symbol E uc u = unit_name uc u).
  { intros uc H. unfold unit_symbol. rewrite Hr. destruct (ur_symbol r) as [[|c s]|]; auto. exfalso. apply H. cbn. discriminate. }
  split; [|split; [|split]].
  - intros s Hs He. unfold shown, unit_usymbol. rewrite Hr, Hs. destruct s; congruence.
  - intros uc s Hs He Hu. unfold shown. destruct uc; [rewrite (HU (Hu eq_refl))|]; unfold unit_symbol; rewrite Hr, Hs; destruct s; congruence.
  - intros uc Hs Hu Hc. unfold shown. assert (X : unit_name uc u = T (u_name u)) by (unfold unit_name; destruct (u_cls u); congruence).
    destruct uc; [rewrite (HU (Hu eq_refl))|]; now rewrite HS.
  - intros Hs Hc. unfold shown. rewrite HS by auto. unfold unit_name. now rewrite Hc.
Qed.
Lemma scan_nothing m f : (forall t, match t with "*"%char :: "*"%char :: _ => False | _ => True end -> m t = None) ->
  forall t, ~ In "*"%char t -> forall k, scan (S (length t) + k) m f t = t.
Proof.
  intros Hm. induction t as [|c t IH]; intros H k; [reflexivity|]. cbn [length plus scan].
  assert (Hc : c <> "*"%char) by (intros ->; apply H; left; reflexivity).
  rewrite Hm by (destruct c as [[] [] [] [] [] [] [] []]; auto; congruence).
  f_equal. apply (IH (fun X => H (or_intror X))).
Qed.
(** A compound unit on its own is one symbol: no fraction, no further parentheses. *)
Theorem C64_compound_alone : forall A (E : uenv A) frepr font mult paren hfont name r,
  ulookup E (UId CCompound name) = Some r -> ur_symbol r = None -> ~ In "*"%char (T name) ->
  let d := [(UId CCompound name, PInt 1)] in
  let body := T "(" ++ T name ++ T ")" in
  format_units E frepr false d = body /\
  format_units_latex E frepr false font mult paren d = T "$\" ++ font ++ T "{" ++ body ++ T "}$" /\
  format_units_html E frepr false hfont mult paren d = fst hfont ++ body ++ snd hfont.
Proof.
  intros A E frepr font mult paren hfont name r Hr Hs Hstar d body.
  assert (F : format_units E frepr false d = body).
  { unfold format_units, num_items, den_items, sorted_items. subst d. 
    change (sort_by (fun kv => unit_order E (fst kv)) [(UId CCompound name, PInt 1)]) with [(UId CCompound name, PInt 1)].
    cbn [filter].
    change (ppos (snd (UId CCompound name, PInt 1))) with true. change (pneg_b (snd (UId CCompound name, PInt 1))) with false.
    cbn [map fst snd]. unfold factor_text. change (peqb (PInt 1) (PInt 1)) with true. cbn iota.
    unfold shown, unit_symbol. rewrite Hr, Hs. unfold unit_name. cbn [u_cls u_name]. reflexivity. }
  assert (C : compound body = true).
  { unfold compound, body. change (T "(") with ["("%char]. cbn [app].
    change ("("%char :: T name ++ T ")") with (("("%char :: T name) ++ [")"%char]). now rewrite last_last. }
  assert (NS : ~ In "*"%char body).
  { unfold body. rewrite !in_app_iff. cbn. intuition congruence. }
  split; [exact F|]. unfold format_units_latex, format_units_html. rewrite F, C. cbn [negb]. rewrite !andb_false_r.
  pose proof match_pow'_none as Hm.
  assert (Z : forall f, scan (S (length body)) match_pow' f body = body).
  { intros f. pose proof (scan_nothing match_pow' f Hm body NS 0) as X. now rewrite Nat.add_0_r in X. }
  rewrite !Z, !(replace_char_none "*"%char) by auto. split; reflexivity.
Qed.
(** In unicode, a decimal exponent with one digit before the point is written with [^]. *)
Theorem C64_unicode_decimals : forall A (E : uenv A) frepr uc u s q c t,
  shown E uc u = s -> ~ In "*"%char s -> s <> [] ->
  (0 < q)%Qc -> q <> 1%Qc ->
  frepr q = c :: "."%char :: t -> Forall (fun x => is_digit x = true) (c :: t) -> t <> [] -> last t "0"%char <> "0"%char ->
  format_units_unicode E frepr uc [(u, PFlt q)] = s ++ T "^" ++ frepr q.
Proof.
  intros A E frepr uc u s q c t Hs Hst Hne Hq H1 Hf Hd Ht Hl.
  assert (F : format_units E frepr uc [(u, PFlt q)] = s ++ T "**" ++ frepr q).
  { unfold format_units, num_items, den_items, sorted_items.
    change (sort_by (fun kv => unit_order E (fst kv)) [(u, PFlt q)]) with [(u, PFlt q)].
    cbn [filter fst snd].
    assert (P1 : pneg_b (PFlt q) = false).
    { destruct (pneg_b (PFlt q)) eqn:X; auto. apply pneg_b_true in X. cbn [pval] in X. exfalso. exact (Qclt_not_le _ _ Hq (Qclt_le_weak _ _ X)). }
    assert (P2 : pzero (PFlt q) = false).
    { destruct (pzero (PFlt q)) eqn:X; auto. apply pzero_true in X. cbn [pval] in X. subst q. discriminate Hq. }
    unfold ppos. rewrite P1, P2. cbn [negb andb map fst snd]. unfold factor_text.
    replace (peqb (PFlt q) (PInt 1)) with false.
    2:{ destruct (peqb (PFlt q) (PInt 1)) eqn:X; auto. apply peqb_true in X. cbn [pval] in X. exfalso. apply H1. rewrite X. apply Qc_is_canon. reflexivity. }
    rewrite Hs. cbn [num_text]. rewrite Hf.
    assert (EL : T "**" ++ c :: "."%char :: t = (T "**" ++ c :: "."%char :: removelast t) ++ [last t "0"%char]).
    { rewrite (app_removelast_last "0"%char Ht) at 1. rewrite <- app_assoc. reflexivity. }
    rewrite EL, (rstrip_last "0"%char) by auto. rewrite rstrip_last, <- EL.
    2:{ intros X. inversion Hd as [|? ? _ Hd']. subst. rewrite Forall_forall in Hd'.
        assert (In (last t "0"%char) t) by (rewrite (app_removelast_last "0"%char Ht) at 2; apply in_or_app; right; left; reflexivity).
        apply Hd' in H. rewrite X in H. discriminate. }
    unfold layout. cbn [join]. destruct s; [congruence|reflexivity]. }
  unfold format_units_unicode. rewrite F, Hf.
  pose proof (Forall_inv Hd) as Hc. pose proof (Forall_inv_tail Hd) as Hdt. cbn beta in Hc.
  assert (NT : ~ In "*"%char (c :: "."%char :: t)).
  { intros [X|[X|X]]; [subst c; discriminate|discriminate|]. rewrite Forall_forall in Hdt. apply Hdt in X. discriminate. }
  assert (S : superscript (s ++ T "**" ++ c :: "."%char :: t) = s ++ T "**" ++ c :: "."%char :: t).
  { unfold superscript. 
    pose proof match_pow_none as Hm.
    rewrite app_length. change (length (T "**" ++ c :: "."%char :: t)) with (S (S (S (S (length t))))).
    replace (S (length s + S (S (S (S (length t)))))) with (length s + S (S (S (S (S (length t)))))) by lia.
    clear F Hf Hs Hne. induction s as [|x s IH].
    - change (length (@nil ascii)) with 0%nat. cbn [plus]. change ([] ++ T "**" ++ c :: "."%char :: t) with ("*"%char :: "*"%char :: c :: "."%char :: t).
      assert (M0 : match_pow ("*"%char :: "*"%char :: c :: "."%char :: t) = None).
      { unfold match_pow. cbn [span]. rewrite Hc. cbn [fst snd]. change (is_digit ".") with false. reflexivity. }
      assert (M1 : match_pow ("*"%char :: c :: "."%char :: t) = None).
      { apply Hm. destruct c as [[] [] [] [] [] [] [] []]; auto; discriminate. }
      assert (ST : forall k x y, match_pow (x :: y) = None -> scan (S k) match_pow sup_digits (x :: y) = x :: scan k match_pow sup_digits y).
      { intros k x y Hxy. cbn [scan]. now rewrite Hxy. }
      rewrite (ST _ _ _ M0), (ST _ _ _ M1). apply f_equal. apply f_equal.
      pose proof (scan_nothing match_pow sup_digits Hm (c :: "."%char :: t) NT 0) as X. cbn [length plus] in X. rewrite Nat.add_0_r in X. exact X.
    - cbn [length plus app scan].
      assert (Hx : x <> "*"%char) by (intros ->; apply Hst; left; reflexivity).
      rewrite Hm by (destruct x as [[] [] [] [] [] [] [] []]; auto; congruence).
      f_equal. apply IH. intros X; apply Hst; right; exact X. }
  rewrite S.
  assert (RP : forall x, ~ In "*"%char x -> replace_pow x = x).
  { clear. induction x as [|y x IH]; intros H; auto. assert (y <> "*"%char) by (intros ->; apply H; left; reflexivity).
    assert (replace_pow (y :: x) = y :: replace_pow x) as -> by (destruct y as [[] [] [] [] [] [] [] []]; auto; congruence).
    f_equal. apply IH. intros X; apply H; right; exact X. }
  assert (RA : forall x y, ~ In "*"%char x -> replace_pow (x ++ y) = x ++ replace_pow y).
  { clear. induction x as [|z x IH]; intros y H; auto. assert (z <> "*"%char) by (intros ->; apply H; left; reflexivity).
    cbn [app]. assert (replace_pow (z :: x ++ y) = z :: replace_pow (x ++ y)) as -> by (destruct z as [[] [] [] [] [] [] [] []]; auto; congruence).
    f_equal. apply IH. intros X; apply H; right; exact X. }
  rewrite RA by auto. change (replace_pow (T "**" ++ c :: "."%char :: t)) with ("^"%char :: replace_pow (c :: "."%char :: t)).
  rewrite RP by auto. apply replace_char_none. rewrite in_app_iff. intros [X|[X|X]]; [auto|discriminate|auto].
Qed.
Example C64_unicode_decimals_example :
  format_units_unicode (objs (ex_st Qc)) dec_repr true [(u_m, PFlt (q_of 1 2))] = T "m^0.5" /\
  dec_repr (q_of 1 2) = T "0.5" /\
  format_units_latex (objs (ex_st Qc)) dec_repr false (T "mathrm") (T "\cdot") true [(u_mps, PInt 1)] = T "$\mathrm{(m/s)}$" /\
  format_units_html (objs (ex_st Qc)) dec_repr false ([], []) (T "&sdot;") true [(u_mps, PInt 2)] = T "((m/s)<sup>2</sup>)".
Proof. split; [|split; [|split]]; vm_compute; reflexivity. Qed.
(** Other exponents are torn apart, and so are compound units inside a product. *)
Theorem C64_fractions_refuted :
  dim_latex (objs (ex_st Qc)) dec_repr false [(u_m, PFlt (q_of 1 2))] = T "$\mathrm{m^{0}.5}$" /\
  dim_html (objs (ex_st Qc)) dec_repr false [(u_m, PFlt (q_of 1 2))] = T "m<sup>0</sup>.5" /\
  format_units_unicode (objs (ex_st Qc)) dec_repr false [(u_m, PFlt (q_of 21 2))] = T "m¹0.5".
Proof. split; [|split]; vm_compute; reflexivity. Qed.
Theorem C64_compound_refuted :
  dim_latex (objs (ex_st Qc)) dec_repr false [(u_mps, PInt 1); (u_kg, PInt 1)] = T "$\mathrm{\frac{kg{\cdot}(m}{s)}}$".
Proof. vm_compute. reflexivity. Qed.

(** ** C85 *)
(** [^] and [**], and the middle dot and [*], are interchangeable in labels; the
    empty label is [dimensionless]. *)
Lemma replace_char_gone c by_ t : ~ In c by_ -> ~ In c (replace_char c by_ t).
Proof.
  intros H X. unfold replace_char in X. apply in_flat_map in X. destruct X as (x & _ & X).
  destruct (ascii_dec x c); [contradiction|]. destruct X as [X|[]]. congruence.
Qed.
Theorem C85_caret : forall A (N : Num A) parse (st : rstate A) label,
  get_item parse st (replace_char "^" (T "**") label) = get_item parse st label.
Proof.
  intros A N parse st l. unfold get_item. f_equal. unfold preprocess.
  rewrite (replace_char_none "^" (T "**") (replace_char "^" (T "**") l)); auto.
  apply replace_char_gone. cbn. intuition discriminate.
Qed.
Definition dot1 : ascii := "194"%char.
Definition dot2 : ascii := "183"%char.
Lemma replace_dot_other c t : c <> dot1 -> replace_dot (c :: t) = c :: replace_dot t.
Proof. intros H. destruct c as [[] [] [] [] [] [] [] []]; auto. exfalso; now apply H. Qed.
Lemma replace_dot_single t : match t with c :: _ => c <> dot2 | [] => True end ->
  replace_dot (dot1 :: t) = dot1 :: replace_dot t.
Proof. intros H. destruct t as [|[[] [] [] [] [] [] [] []] t]; auto. exfalso; now apply H. Qed.
Lemma text_dot_cases (t : text) :
  t = [] \/ (exists t', t = dot1 :: dot2 :: t') \/ (exists c t', t = c :: t' /\ replace_dot t = c :: replace_dot t' /\
     (c = dot1 -> match t' with x :: _ => x <> dot2 | [] => True end)).
Proof.
  destruct t as [|c t]; auto. right. destruct (ascii_dec c dot1) as [->|H].
  - destruct t as [|x t].
    + right. exists dot1, []. repeat split; auto.
    + destruct (ascii_dec x dot2) as [->|Hx]; [left; eauto|]. right. exists dot1, (x :: t).
      split; auto. split; auto. now apply replace_dot_single.
  - right. exists c, t. split; auto. split; [now apply replace_dot_other|]. intros X; contradiction.
Qed.
Lemma replace_dot_head t : match t with x :: _ => x <> dot2 | [] => True end ->
  match replace_dot t with x :: _ => x <> dot2 | [] => True end.
Proof.
  destruct (text_dot_cases t) as [->|[[t' ->]|(c & t' & -> & E & _)]]; auto.
  - intros _. cbn. discriminate.
  - rewrite E. auto.
Qed.
Lemma replace_dot_idem n : forall t, length t < n -> replace_dot (replace_dot t) = replace_dot t.
Proof.
  induction n as [|n IH]; intros t Hn; [lia|].
  destruct (text_dot_cases t) as [->|[[t' ->]|(c & t' & -> & E & Hc)]]; auto.
  - cbn in Hn. change (replace_dot (dot1 :: dot2 :: t')) with ("*"%char :: replace_dot t').
    rewrite replace_dot_other by discriminate. f_equal. apply IH. lia.
  - rewrite E. destruct (ascii_dec c dot1) as [->|H].
    + rewrite replace_dot_single by exact (replace_dot_head _ (Hc eq_refl)). f_equal. apply IH. cbn in Hn. lia.
    + rewrite replace_dot_other by auto. f_equal. apply IH. cbn in Hn. lia.
Qed.
Lemma replace_caret_cons c t : c <> "^"%char -> replace_char "^" (T "**") (c :: t) = c :: replace_char "^" (T "**") t.
Proof.
  intros H. unfold replace_char. cbn [flat_map]. destruct (ascii_dec c "^"); [contradiction|reflexivity].
Qed.
Lemma replace_caret_head t : match t with x :: _ => x <> dot2 | [] => True end ->
  match replace_char "^" (T "**") t with x :: _ => x <> dot2 | [] => True end.
Proof.
  destruct t as [|c t]; auto. intros H. destruct (ascii_dec c "^"%char) as [->|Hc].
  - cbn. discriminate.
  - rewrite replace_caret_cons; auto.
Qed.
Lemma caret_dot n : forall t, length t < n ->
  replace_dot (replace_char "^" (T "**") t) = replace_char "^" (T "**") (replace_dot t).
Proof.
  induction n as [|n IH]; intros t Hn; [lia|].
  destruct (text_dot_cases t) as [->|[[t' ->]|(c & t' & -> & E & Hc)]]; auto.
  - cbn in Hn. change (replace_dot (dot1 :: dot2 :: t')) with ("*"%char :: replace_dot t').
    rewrite !replace_caret_cons by discriminate.
    change (replace_dot (dot1 :: dot2 :: replace_char "^" (T "**") t')) with ("*"%char :: replace_dot (replace_char "^" (T "**") t')).
    f_equal. apply IH. lia.
  - rewrite E. cbn in Hn. destruct (ascii_dec c "^"%char) as [->|H].
    + change (replace_char "^" (T "**") ("^"%char :: t')) with ("*"%char :: "*"%char :: replace_char "^" (T "**") t').
      change (replace_char "^" (T "**") ("^"%char :: replace_dot t')) with ("*"%char :: "*"%char :: replace_char "^" (T "**") (replace_dot t')).
      rewrite !replace_dot_other by discriminate. do 2 f_equal. apply IH. lia.
    + rewrite !replace_caret_cons by auto. destruct (ascii_dec c dot1) as [->|Hd].
      * rewrite replace_dot_single by exact (replace_caret_head _ (Hc eq_refl)). f_equal. apply IH. lia.
      * rewrite replace_dot_other by auto. f_equal. apply IH. lia.
Qed.
(** [replace_dot] turns every middle dot (UTF-8) into [*]. *)
Theorem C85_middle_dot : forall A (N : Num A) parse (st : rstate A) label,
  get_item parse st (replace_dot label) = get_item parse st label.
Proof.
  intros A N parse st l. unfold get_item. f_equal. unfold preprocess.
  rewrite (caret_dot (S (length (replace_dot l)))) by auto. rewrite (replace_dot_idem (S (length l))) by auto.
  rewrite <- (caret_dot (S (length l))) by auto. reflexivity.
Qed.
Example C85_example :
  replace_dot (T "kg·m^2") = T "kg*m^2" /\ replace_char "^" (T "**") (T "kg·m^2") = T "kg·m**2" /\
  get_item (parse_arith dec_read) (ex_st Qc) (T "kg·m^2") = Ok (VQty (Qty (scalar 1%Qc) [(u_kg, PInt 1); (u_m, PInt 2)])).
Proof. split; [|split]; vm_compute; reflexivity. Qed.
Theorem C85_empty : forall A (N : Num A) parse (st : rstate A),
  get_item parse st [] = get_item parse st (T "dimensionless").
Proof. reflexivity. Qed.

Print Assumptions C58_names_keep_their_value.
Print Assumptions C58_lookup.
Print Assumptions C58_register.
Print Assumptions C58_created.
Print Assumptions C59_clashes_refused.
Print Assumptions C59_same_name_accepted.
Print Assumptions C59_constants.
Print Assumptions C59_redefinition_refuted.
Print Assumptions C20_first_unit.
Print Assumptions C59_arrays_are_ambiguous.
Print Assumptions C60_failed_creation.
Print Assumptions C60_name_clash.
Print Assumptions C60_atomic_refuted.
Print Assumptions C61_only_arithmetic.
Print Assumptions C61_everything_else_refused.
Print Assumptions C61_unknown_names.
Print Assumptions C61_unknown_names_inside.
Print Assumptions C61_only_its_names.
Print Assumptions C61_exponents_without_units.
Print Assumptions C61_reserved_words.
Print Assumptions C61_builtins_refuted.
Print Assumptions C62_text_means_the_product.
Print Assumptions C62_compound_unit.
Print Assumptions C62_dimensionless.
Print Assumptions C62_created_units.
Print Assumptions C63_same_text_iff_equal.
Print Assumptions C63_injective_refuted.
Print Assumptions C63_equal_print_same_refuted.
Print Assumptions C64_plain.
Print Assumptions C64_unicode.
Print Assumptions C64_latex.
Print Assumptions C64_html.
Print Assumptions C64_attributes.
Print Assumptions C64_sides.
Print Assumptions C64_symbols.
Print Assumptions C64_compound_alone.
Print Assumptions C64_unicode_decimals.
Print Assumptions C64_fractions_refuted.
Print Assumptions C64_compound_refuted.
Print Assumptions C85_caret.
Print Assumptions C85_middle_dot.
Print Assumptions C85_empty.
