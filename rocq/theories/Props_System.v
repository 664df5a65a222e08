(** * Property C113: the default units of the shipped library. *)
From Coq Require Import Reals Lra.
From Verif Require Import Py Num Dim DimFacts Arr Units Spec UnitFacts Quant QuantFacts SimpFacts SpecApi ConvFacts Defaults DefaultsFacts
  Text Lex Registry RegFacts Examples Props_Conv Props_Registry SpecPickle HistFacts Props_Labels Table Import TableFacts SpecSizes Props_Table.

Open Scope R_scope.
Opaque lib library.

(** The registry of the library, as set_default_units uses it. *)
Definition lib_lookup (fread : text -> Qc) : string -> res (qty R) := reg_lookup (parse_arith fread) (lib fread).

(** set_default_units(system, currency=..., ..., time=...) on the library. *)
Definition set_lib_defaults (fread : text -> Qc) (D : defaults) (sys : usystem) (arg : ucls -> sarg R) : defaults * res unit :=
  set_default_units (lib_lookup fread) (objs (lib fread)) D sys (arg CCurrency) (arg CCurrent) (arg CInformation) (arg CLength)
    (arg CLumInt) (arg CMass) (arg CSubstance) (arg CTemperature) (arg CTime).
(** The default units after importing the library and any number of calls, successful
    or not, with any arguments. *)
Inductive lib_defaults (fread : text -> Qc) : defaults -> Prop :=
| ld_import : lib_defaults fread (dflt (lib fread))
| ld_call D sys arg : lib_defaults fread D -> (forall c q, arg c = Defaults.SQty q -> dims_ok (qdim q)) ->
    lib_defaults fread (fst (set_lib_defaults fread D sys arg)).

(** ** General facts *)
Definition good_defaults (E : uenv R) (root : ucls -> uid) (D0 D : defaults) : Prop :=
  std_defaults E D root /\ (forall c, D c = None <-> D0 c = None) /\ forall c, D c <> None -> is_irreducible c = true.
Lemma set_one E root D0 lookup D c a : renv_ok E -> good_defaults E root D0 D ->
  (forall s q, lookup s = Ok q -> dims_ok (qdim q)) -> (forall q, a = Defaults.SQty q -> dims_ok (qdim q)) ->
  good_defaults E root D0 (fst (set_default_unit lookup E D c a)).
Proof.
  intros HE (HS & HN & HI) Hl Hq. destruct (set_default_cases lookup E D c a) as [->|(q & dd & Ha & Hd & _ & [cf Hcf] & ->)]; [split; auto|].
  cbn [fst].
  assert (Wq : dims_ok (qdim q)) by (destruct Ha as [->|(s & -> & Hs)]; eauto).
  assert (Hc : is_irreducible c = true) by (apply HI; congruence).
  destruct (HS c Hc) as (R1 & R2 & R3). destruct (R3 dd Hd) as [Wd Cd].
  assert (Cq : convertible E (qdim q) [(root c, PInt 1)]).
  { apply convertible_trans with dd; auto. apply convertible_sym; auto. exists cf.
    exact (proj1 (proj1 (conv_factor_spec E dd (qdim q) HE Wd Wq) cf) Hcf). }
  split; [|split].
  - intros c' Hc'. destruct (HS c' Hc') as (Q1 & Q2 & Q3). split; [auto|]. split; [auto|]. intros d. unfold set_cls.
    destruct (ucls_eqb c c') eqn:Ec; [|apply Q3]. apply ucls_eqb_eq in Ec. subst c'. intros [= <-]. auto.
  - intros c'. unfold set_cls. destruct (ucls_eqb c c') eqn:Ec; [|apply HN]. apply ucls_eqb_eq in Ec. subst c'.
    rewrite <- HN, Hd. split; discriminate.
  - intros c'. unfold set_cls. destruct (ucls_eqb c c') eqn:Ec; [|apply HI]. apply ucls_eqb_eq in Ec. subst c'. auto.
Qed.
Lemma set_all E root D0 lookup l : renv_ok E -> (forall s q, lookup s = Ok q -> dims_ok (qdim q)) ->
  forall D, good_defaults E root D0 D -> (forall c q, In (c, Defaults.SQty q) l -> dims_ok (qdim q)) ->
  good_defaults E root D0 (fst (set_defaults lookup E D l)).
Proof.
  intros HE Hl. induction l as [|[c a] l IH]; intros D HD Hq; cbn [set_defaults]; auto.
  assert (G : good_defaults E root D0 (fst (set_default_unit lookup E D c a))).
  { apply set_one; auto. intros q ->. apply (Hq c q). cbn [In]; auto. }
  destruct (set_default_unit lookup E D c a) as [D' [x|e]]; cbn [fst] in *; auto.
  apply IH; auto. intros c' q Hin. apply (Hq c' q). cbn [In]; auto.
Qed.
Lemma set_units_good E root D0 D lookup sys (arg : ucls -> sarg R) : renv_ok E -> (forall s q, lookup s = Ok q -> dims_ok (qdim q)) ->
  good_defaults E root D0 D -> (forall c q, arg c = Defaults.SQty q -> dims_ok (qdim q)) ->
  good_defaults E root D0 (fst (set_default_units lookup E D sys (arg CCurrency) (arg CCurrent) (arg CInformation) (arg CLength)
    (arg CLumInt) (arg CMass) (arg CSubstance) (arg CTemperature) (arg CTime))).
Proof.
  intros HE Hl HD Ha. unfold set_default_units.
  destruct sys; auto; (apply set_all; auto; intros c q Hin; apply in_app_or in Hin; destruct Hin as [Hin|Hin]; cbn [system_calls app In] in Hin;
    repeat (destruct Hin as [Hin|Hin]; [first [discriminate Hin | injection Hin as _ Hin; exact (Ha _ _ Hin)]|]); destruct Hin).
Qed.
(** A list of calls naming units of the right classes. *)
Lemma set_strings E root lookup : renv_ok E ->
  forall l : list (ucls * string * uid), (forall c s u, In (c, s, u) l -> is_irreducible c = true /\ lookup s = Ok (unit_q u) /\
     u_cls u <> CDimless /\ convertible E (unit_dims u) [(root c, PInt 1)]) ->
  forall D, std_defaults E D root -> (forall c s u, In (c, s, u) l -> D c <> None) ->
  set_defaults lookup E D (map (fun x => (fst (fst x), SStr (snd (fst x)))) l) =
    (fold_left (fun D x => set_cls D (fst (fst x)) (unit_dims (snd x))) l D, Ok tt).
Proof.
  intros HE. induction l as [|[[c s] u] l IH]; intros Hl D HD HN; cbn [map fold_left set_defaults fst snd]; auto.
  destruct (Hl c s u (or_introl eq_refl)) as (Hc & Hs & Hu & Cu).
  cbn [set_default_unit]. rewrite Hs. unfold set_default_q.
  destruct (D c) as [dd|] eqn:Ed; [|exfalso; exact (HN c s u (or_introl eq_refl) Ed)].
  assert (Uq : is_unit_quantity (@unit_q R NumR u) = true).
  { unfold is_unit_quantity. cbn [unit_q mag scalar shp dat]. apply Reqb_true. reflexivity. }
  rewrite Uq. cbn [unit_q qdim].
  destruct (HD c Hc) as (R1 & R2 & R3). destruct (R3 dd Ed) as [Wd Cd].
  assert (W1 : dims_ok [(root c, PInt 1)]).
  { replace [(root c, PInt 1)] with (unit_dims (root c)); [apply dims_ok_unit|]. unfold unit_dims. rewrite R1. destruct c; (discriminate Hc || reflexivity). }
  assert (Cc : convertible E dd (unit_dims u)).
  { apply convertible_trans with [(root c, PInt 1)]; auto. apply convertible_sym; auto. apply dims_ok_unit. }
  destruct (conv_factor E dd (unit_dims u)) as [cf|e] eqn:Ec.
  2: { exfalso. pose proof (conv_factor_err E dd (unit_dims u) e Ec) as ->.
       exact (proj1 (proj2 (conv_factor_spec E dd (unit_dims u) HE Wd (dims_ok_unit u))) Ec Cc). }
  apply IH.
  - intros c' s' u' Hin. apply Hl. cbn [In]; auto.
  - intros c' Hc'. destruct (HD c' Hc') as (Q1 & Q2 & Q3). split; [auto|]. split; [auto|]. intros d. unfold set_cls.
    destruct (ucls_eqb c c') eqn:E0; [|apply Q3]. apply ucls_eqb_eq in E0. subst c'. intros [= <-]. split; [apply dims_ok_unit|exact Cu].
  - intros c' s' u' Hin. unfold set_cls. destruct (ucls_eqb c c'); [discriminate|]. apply (HN c' s' u'). cbn [In]; auto.
Qed.
Lemma set_none (E : uenv R) lookup l : (forall c a, In (c, a) l -> a = SNone) -> forall D, set_defaults lookup E D l = (D, Ok tt).
Proof.
  induction l as [|[c a] l IH]; intros H D; cbn [set_defaults]; auto.
  rewrite (H c a (or_introl eq_refl)). cbn [set_default_unit]. apply IH. intros c' a' Hin. apply (H c' a'). cbn [In]; auto.
Qed.
Lemma set_defaults_app {A} {N : Num A} lookup (E : uenv A) l l' : forall D D', set_defaults lookup E D l = (D', Ok tt) ->
  set_defaults lookup E D (l ++ l') = set_defaults lookup E D' l'.
Proof.
  induction l as [|[c a] l IH]; intros D D' H; cbn [set_defaults app] in *; [congruence|].
  destruct (set_default_unit lookup E D c a) as [D1 [x|e]]; [now apply IH|congruence].
Qed.

(** ** The library *)
Lemma lib_lookup_ok fread s q : lib_lookup fread s = Ok q -> dims_ok (qdim q).
Proof.
  intros H. unfold lib_lookup, reg_lookup in H.
  destruct (get_item (parse_arith fread) (lib fread) (T s)) as [v|] eqn:Ev; [|discriminate H]. cbn [bind] in H.
  destruct (val_q (lib fread) v) as [p|] eqn:Ep; [|discriminate H]. assert (p = q) as -> by congruence.
  exact (proj1 (proj2 (C112_label_values R NumR _ _ _ v q (C112_histories _ _ (lib_hist fread)) Ev Ep))).
Qed.
Lemma lib_good fread D : lib_defaults fread D -> good_defaults (objs (lib fread)) lib_root (dflt (lib fread)) D.
Proof.
  induction 1 as [|D sys arg H IH Ha].
  - split; [exact (C73_std_defaults fread)|]. split; [intros c; reflexivity|]. intros c. rewrite (proj1 (C73_defaults fread c)).
    unfold has_base. destruct (is_irreducible c); [reflexivity|]. cbn [andb]. intros X. exfalso. apply X. reflexivity.
  - exact (set_units_good _ _ _ D (lib_lookup fread) sys arg (lib_env fread) (lib_lookup_ok fread) IH Ha).
Qed.

(** C113: whatever calls are made, the default of each class stays convertible to the SI
    base unit of the class, and no class loses or gains a default. *)
Theorem C113_defaults_convertible : forall fread D c, lib_defaults fread D ->
  (D c = None <-> has_base c = false) /\
  forall dd, D c = Some dd -> dims_ok dd /\ convertible (objs (lib fread)) dd (unit_dims (lib_root c)).
Proof.
  intros fread D c H. destruct (lib_good fread D H) as (HS & HN & HI). split.
  - rewrite HN, (proj1 (C73_defaults fread c)). destruct (has_base c); split; intros X; (reflexivity || discriminate X).
  - intros dd Hd. assert (Hc : is_irreducible c = true) by (apply HI; congruence).
    destruct (HS c Hc) as (R1 & _ & R3). unfold unit_dims. rewrite R1. destruct c; try discriminate Hc; exact (R3 dd Hd).
Qed.
(** [simplified] then succeeds for every quantity in library units (the statampere apart,
    C73), preserves the value and uses nothing but the current default units. *)
Theorem C113_simplified : forall fread D (q : qty R) fuel, lib_defaults fread D -> qty_ok q ->
  (forall u, In u (dkeys (qdim q)) -> In u (map entry_uid library) /\ u <> statampere) ->
  exists r, simplified (S (S fuel)) (objs (lib fread)) D q = Ok r /\ qty_ok r /\ shp (mag r) = shp (mag q) /\
    (forall phi, consistent (objs (lib fread)) phi -> phys phi r = phys phi q) /\
    (forall w, In w (dkeys (qdim r)) -> exists c dd, D c = Some dd /\ In w (dkeys dd)).
Proof.
  intros fread D q fuel H Hq Hu. destruct (lib_good fread D H) as (HS & HN & HI).
  assert (HD : forall c dd, D c = Some dd -> dims_ok dd) by (intros c dd Hd; exact (proj1 (proj2 (C113_defaults_convertible fread D c H) dd Hd))).
  assert (HU : forall u, In u (dkeys (qdim q)) -> simplifiable (objs (lib fread)) D lib_root u).
  { intros u Hin. destruct (Hu u Hin) as [H1 H2]. assert (H3 : u_cls u <> CDimless) by (apply Hq; exact Hin).
    pose proof (C73_simplifiable fread u H1 H2 H3) as S1. unfold simplifiable in *. destruct (is_irreducible (u_cls u)).
    - split; [rewrite HN; exact (proj1 S1)|exact (proj2 S1)].
    - destruct S1 as (d & W & K & C). exists d. split; [exact W|]. split; [|exact C]. intros w Hw. destruct (K w Hw) as (c & K1 & K2 & K3).
      exists c. split; [exact K1|]. split; [rewrite HN; exact K2|exact K3]. }
  destruct (simplified_fuel (objs (lib fread)) D lib_root (lib_env fread) HS fuel q (proj2 Hq) HU) as [r Hr].
  exists r. split; [exact Hr|].
  destruct (C17_simplified_preserves_value _ _ _ q r (lib_env fread) HD Hq Hr) as (V1 & V2 & V3 & V4).
  split; [|split; [exact V3|]; split; [exact V1|exact V2]].
  split; [|exact V4]. unfold simplified in Hr. destruct (simp_dims _ _ D (qdim q)) as [rq|]; [|discriminate Hr]. cbn [bind] in Hr.
  assert (r = Qty (amap (fun x => nmul (fst rq) x) (mag q)) (snd rq)) as -> by congruence. cbn [mag]. apply awf_amap. apply Hq.
Qed.

(** ** The named systems *)
Definition si_calls : list (ucls * string * uid) :=
  [(CCurrent, "A", uI "ampere"); (CLength, "m", uL "meter"); (CMass, "kg", uM "kilogram"); (CLumInt, "cd", UId CLumInt "candela");
   (CSubstance, "mol", uN "mole"); (CTemperature, "degK", uK "Kelvin"); (CTime, "s", uT "second")]%string.
Definition cgs_calls : list (ucls * string * uid) :=
  [(CLength, "cm", uL "centimeter"); (CMass, "g", uM "gram"); (CLumInt, "cd", UId CLumInt "candela");
   (CSubstance, "mol", uN "mole"); (CTemperature, "degK", uK "Kelvin"); (CTime, "s", uT "second")]%string.
Definition named_in_library (x : ucls * string * uid) : bool :=
  match x with (c, s, u) =>
    existsb (fun e => uid_eqb (entry_uid e) u && existsb (teqb (T s)) (entry_names e)) library &&
    ucls_eqb (u_cls u) c && is_irreducible c && has_base c && negb (uid_eqb u statampere) &&
    negb (existsb (teqb (T s)) (map T ["as"; "(esu/s)"]%string))
  end.
Lemma systems_named : forallb named_in_library (si_calls ++ cgs_calls) = true.
Proof. vm_compute. reflexivity. Qed.
Lemma lib_named fread c s u : named_in_library (c, s, u) = true ->
  is_irreducible c = true /\ lib_lookup fread s = Ok (unit_q u) /\ u_cls u <> CDimless /\
  convertible (objs (lib fread)) (unit_dims u) [(lib_root c, PInt 1)] /\ has_base c = true.
Proof.
  intros H. unfold named_in_library in H. apply andb_prop in H. destruct H as [H H6]. apply andb_prop in H. destruct H as [H H5].
  apply andb_prop in H. destruct H as [H H4]. apply andb_prop in H. destruct H as [H H3]. apply andb_prop in H. destruct H as [H H2].
  apply ucls_eqb_eq in H2. subst c. apply existsb_exists in H. destruct H as (e & He & H). apply andb_prop in H. destruct H as [H0 H1].
  apply uid_eqb_eq in H0. subst u. apply existsb_exists in H1. destruct H1 as (t & Ht & H1). apply teqb_eq in H1. subst t.
  destruct (In_nth_error _ _ He) as [i Hi].
  assert (Hn : ~ In (T s) (map T ["as"; "(esu/s)"]%string)).
  { intros X. rewrite (proj2 (existsb_exists _ _)) in H6; [discriminate H6|]. exists (T s). split; [exact X|]. apply teqb_eq. reflexivity. }
  destruct (C73_names fread i e (T s) Hi Ht Hn) as [G [r Gr]].
  assert (Hd : u_cls (entry_uid e) <> CDimless) by (intros X; rewrite X in H3; discriminate H3).
  assert (Hs : entry_uid e <> statampere).
  { intros X. rewrite (proj2 (uid_eqb_eq _ _) X) in H5. discriminate H5. }
  split; [exact H3|]. split; [|split; [exact Hd|]; split; [|exact H4]].
  - unfold lib_lookup, reg_lookup. rewrite G. cbn [bind val_q]. rewrite Gr. reflexivity.
  - pose proof (C73_simplifiable fread (entry_uid e) (in_map entry_uid _ _ He) Hs Hd) as S1. unfold simplifiable in S1. rewrite H3 in S1.
    exact (proj2 S1).
Qed.
Definition no_args : ucls -> sarg R := fun _ => SNone.
Lemma set_system fread D sys (calls : list (ucls * string * uid)) : lib_defaults fread D ->
  @system_calls R sys = map (fun x => (fst (fst x), SStr (snd (fst x)))) calls -> sys <> SysBad ->
  (forall x, In x calls -> named_in_library x = true) ->
  set_lib_defaults fread D sys no_args = (fold_left (fun D x => set_cls D (fst (fst x)) (unit_dims (snd x))) calls D, Ok tt).
Proof.
  intros HD Hc Hs Hn. destruct (lib_good fread D HD) as (HS & HN & _).
  assert (G : set_defaults (lib_lookup fread) (objs (lib fread)) D (system_calls sys) =
     (fold_left (fun D x => set_cls D (fst (fst x)) (unit_dims (snd x))) calls D, Ok tt)).
  { rewrite Hc. apply (set_strings (objs (lib fread)) lib_root (lib_lookup fread) (lib_env fread) calls); auto.
    - intros c s u Hin. destruct (lib_named fread c s u (Hn _ Hin)) as (A1 & A2 & A3 & A4 & _). auto.
    - intros c s u Hin. rewrite HN. destruct (lib_named fread c s u (Hn _ Hin)) as (_ & _ & _ & _ & A5).
      rewrite (proj1 (C73_defaults fread c)), A5. discriminate. }
  unfold set_lib_defaults. clear - G Hs. revert G. generalize (lib_lookup fread) as lk. generalize (objs (lib fread)) as E.
  generalize (fold_left (fun D x => set_cls D (fst (fst x)) (unit_dims (snd x))) calls D) as D'.
  intros D' E lk G. unfold set_default_units, no_args.
  destruct sys; [| | |exfalso; apply Hs; reflexivity]; rewrite (set_defaults_app _ _ _ _ _ _ G); reflexivity.
Qed.
(** set_default_units('SI') and ('cgs') always succeed.  'SI' resets every class to its
    base unit; 'cgs' sets lengths to centimetres and masses to grams but leaves the
    default current as it was; neither touches information. *)
Definition si_defaults (D : defaults) : defaults := fun c =>
  match c with
  | CInformation => D CInformation
  | _ => if has_base c then Some (one_of (lib_root c)) else D c
  end.
Definition cgs_defaults (D : defaults) : defaults := fun c =>
  match c with
  | CInformation => D CInformation
  | CCurrent => D CCurrent
  | CLength => Some (one_of (uL "centimeter"))
  | CMass => Some (one_of (uM "gram"))
  | _ => if has_base c then Some (one_of (lib_root c)) else D c
  end%string.
Theorem C113_systems : forall fread D, lib_defaults fread D ->
  (snd (set_lib_defaults fread D SysSI no_args) = Ok tt /\
   forall c, fst (set_lib_defaults fread D SysSI no_args) c = si_defaults D c) /\
  (snd (set_lib_defaults fread D SysCGS no_args) = Ok tt /\
   forall c, fst (set_lib_defaults fread D SysCGS no_args) c = cgs_defaults D c) /\
  set_lib_defaults fread D SysBad no_args = (D, Err ValueError).
Proof.
  intros fread D H.
  pose proof (proj1 (forallb_forall _ _) systems_named) as Hn.
  assert (HnS : forall x, In x si_calls -> named_in_library x = true) by (intros x Hx; apply Hn, in_or_app; left; exact Hx).
  assert (HnC : forall x, In x cgs_calls -> named_in_library x = true) by (intros x Hx; apply Hn, in_or_app; right; exact Hx).
  assert (GS := set_system fread D SysSI si_calls H eq_refl ltac:(discriminate) HnS).
  assert (GC := set_system fread D SysCGS cgs_calls H eq_refl ltac:(discriminate) HnC).
  rewrite GS, GC. split; [split; [reflexivity|]|]; [intros c; destruct c; reflexivity|].
  split; [split; [reflexivity|]; intros c; destruct c; reflexivity|]. reflexivity.
Qed.
(** One newton after set_default_units('cgs') is 100000 g cm/s**2, computed with rational
    magnitudes; a mile, after asking for kilometres and then naming a unit of time for
    the mass (AssertionError, C21), is still simplified to kilometres. *)
Example C113_example :
  let st := fst (trun (parse_arith dec_read) (@rempty Qc) library) in
  let set D sys arg := set_default_units (reg_lookup (parse_arith dec_read) st) (objs st) D sys (arg CCurrency) (arg CCurrent)
    (arg CInformation) (arg CLength) (arg CLumInt) (arg CMass) (arg CSubstance) (arg CTemperature) (arg CTime) in
  let D := fst (set (dflt st) SysCGS (fun _ => SNone)) in
  let D' := set D NoSystem (fun c => match c with CLength => SStr "km"%string | CMass => SStr "hour"%string | _ => SNone end) in
  (simplified 3 (objs st) D (Qty (scalar (zq 1)) (unit_dims (uQ "newton"%string))), snd D',
   simplified 3 (objs st) (fst D') (Qty (scalar (zq 1)) (unit_dims (uL "mile"%string)))) =
  (Ok (Qty (scalar (zq 100000)) [(uM "gram", PInt 1); (uL "centimeter", PInt 1); (uT "second", PInt (-2))]%string), Err AssertionError,
   Ok (Qty (scalar (Q2Qc (25146 # 15625))) [(uL "kilometer", PInt 1)]%string)).
Proof. vm_compute. reflexivity. Qed.

(** ** C114: temperatures *)
(** The temperature scales, by international definition: t °C is (t + 273.15) K, and
    t °F is (t + 459.67) * 5/9 K. *)
Definition kelvins_of_celsius (t : R) : R := t + 27315 / 100.
Definition kelvins_of_fahrenheit (t : R) : R := (t + 45967 / 100) * 5 / 9.
Lemma in_temperatures z : In z temperatures -> In z standard_sizes.
Proof. intros H. unfold standard_sizes. do 6 (apply in_or_app; right). apply in_or_app. left. exact H. Qed.
(** The library converts temperatures as intervals: never is a temperature in degrees
    Celsius or Fahrenheit converted to the kelvins of the scale. *)
Theorem C114_temperatures_refuted : forall fread (x : R),
  let E := objs (lib fread) in
  (exists r, rescale_to E (Qty (scalar x) (unit_dims (uK "Celsius"%string))) (one_of (uK "Kelvin"%string)) = Ok r /\
     mag r = scalar x /\ x <> kelvins_of_celsius x) /\
  (exists r, rescale_to E (Qty (scalar x) (unit_dims (uK "Fahrenheit"%string))) (one_of (uK "Kelvin"%string)) = Ok r /\
     mag r = scalar (5 / 9 * x) /\ 5 / 9 * x <> kelvins_of_fahrenheit x).
Proof.
  intros fread x E. unfold E. clear E. split.
  - destruct (C89_rescale fread (Size (uK "Celsius"%string) 1 (one_of (uK "Kelvin"%string))) (Qty (scalar x) (unit_dims (uK "Celsius"%string))))
      as (r & Hr & Hm & _); [apply in_temperatures; unfold temperatures; auto 6 using in_eq, in_cons|reflexivity|reflexivity|].
    exists r. split; [exact Hr|]. split; [|unfold kelvins_of_celsius; lra]. rewrite Hm. cbn [sz_factor mag].
    change (amap (fun y => Q2R 1 * y) (scalar x)) with (scalar (Q2R 1 * x)). apply (f_equal (@scalar R)). unfold Q2R. cbn [QArith_base.Qnum QArith_base.Qden]. lra.
  - destruct (C89_rescale fread (Size (uK "Fahrenheit"%string) (5 # 9) (one_of (uK "Kelvin"%string))) (Qty (scalar x) (unit_dims (uK "Fahrenheit"%string))))
      as (r & Hr & Hm & _); [apply in_temperatures; unfold temperatures; auto 6 using in_eq, in_cons|reflexivity|reflexivity|].
    exists r. split; [exact Hr|]. split; [|unfold kelvins_of_fahrenheit; lra]. rewrite Hm. cbn [sz_factor mag].
    change (amap (fun y => Q2R (5 # 9) * y) (scalar x)) with (scalar (Q2R (5 # 9) * x)). apply (f_equal (@scalar R)). unfold Q2R. cbn [QArith_base.Qnum QArith_base.Qden]. lra.
Qed.
(** No definition of a unit can express such a scale: every conversion keeps zeros zero
    and differences in proportion. *)
Theorem C114_no_offsets : forall E (q r : qty R) d, renv_ok E -> qty_ok q -> dims_ok d -> rescale_to E q d = Ok r ->
  exists c, 0 < c /\ mag r = amap (fun x => c * x) (mag q).
Proof.
  intros E q r d HE Hq Hd H.
  assert (Hc : convertible E (qdim q) d) by (apply (rescale_ok_iff E q d HE (proj2 Hq) Hd); eauto).
  destruct Hc as [c Hc]. destruct (rescale_factor E q d c HE Hq Hd Hc) as (r' & H' & Hm & _).
  assert (r' = r) as -> by congruence. exists c. split; [|exact Hm].
  destruct (consistent_exists E HE) as [phi HC]. pose proof (Hc phi HC) as X.
  assert (P1 : 0 < dimval phi (qdim q)) by (apply dimval_pos; apply HC). assert (P2 : 0 < dimval phi d) by (apply dimval_pos; apply HC).
  destruct (Rlt_or_le 0 c) as [L|L]; [exact L|]. exfalso. nra.
Qed.

Print Assumptions C113_defaults_convertible.
Print Assumptions C113_simplified.
Print Assumptions C113_systems.
Print Assumptions C114_temperatures_refuted.
Print Assumptions C114_no_offsets.
