(** * Examples: one concrete collection of units, used beside the theorems to show
    that their hypotheses are met.  It copies definitions of
    /repo/quantities/units/{length,time,mass,force,angle}.py. *)
From Coq Require Import Reals Lra.
From Verif Require Import Py Num Dim DimFacts Arr Units Spec UnitFacts Quant QuantFacts.

Open Scope string_scope.
Definition u_m := UId CLength "meter".
Definition u_kg := UId CMass "kilogram".
Definition u_s := UId CTime "second".
Definition u_cm := UId CLength "centimeter".
Definition u_km := UId CLength "kilometer".
Definition u_h := UId CTime "hour".
Definition u_N := UId CQuantity "newton".
Definition u_rad := UId CQuantity "radian".
Definition u_deg := UId CQuantity "degree".
Definition u_foo := UId CQuantity "foo".
Definition u_A := UId CCurrent "ampere".
Definition u_statA := UId CCurrent "statampere".
Definition u_cd := UId CLumInt "candela".
Definition u_mol := UId CSubstance "mole".
Definition u_K := UId CTemperature "Kelvin".
Definition u_bit := UId CInformation "bit".
Definition u_xxx := UId CCurrency "XXX".
Definition u_nodim := UId CDimless "dimensionless".
Close Scope string_scope.

Definition q_of (n : Z) (d : positive) : Qc := nqc (Q2Qc (Qmake n d)).

Definition add_unit {A} {N : Num A} (E : uenv A) (u : uid) (df : option (udef A)) (sym : option string) : uenv A :=
  E ++ [(u, new_unit E (length E, length E) df sym None [])].

Section Env.
  Context {A : Type} {N : Num A}.
  Definition exE0 : uenv A := add_unit [] u_nodim None None.
  Definition exE1 : uenv A := add_unit exE0 u_m None (Some "m"%string).
  Definition exE2 : uenv A := add_unit exE1 u_kg None (Some "kg"%string).
  Definition exE3 : uenv A := add_unit exE2 u_s None (Some "s"%string).
  Definition exE4 : uenv A := add_unit exE3 u_cm (Some (DQty (nofQ (q_of 1 100)) [(u_m, PInt 1)])) (Some "cm"%string).
  Definition exE5 : uenv A := add_unit exE4 u_km (Some (DQty (nofQ (q_of 1000 1)) [(u_m, PInt 1)])) (Some "km"%string).
  Definition exE6 : uenv A := add_unit exE5 u_h (Some (DQty (nofQ (q_of 3600 1)) [(u_s, PInt 1)])) (Some "h"%string).
  Definition exE7 : uenv A := add_unit exE6 u_N (Some (DQty (nofQ (q_of 1 1)) [(u_kg, PInt 1); (u_m, PInt 1); (u_s, PInt (-2))])) (Some "N"%string).
  Definition exE8 : uenv A := add_unit exE7 u_rad (Some (DQty (nofQ (q_of 1 1)) [])) (Some "rad"%string).
  Definition exE9 : uenv A := add_unit exE8 u_deg (Some (DQty (nofQ (q_of 314159 18000000)) [(u_rad, PInt 1)])) (Some "deg"%string).
  Definition exE10 : uenv A := add_unit exE9 u_foo None None.
  Definition exE11 : uenv A := add_unit exE10 u_A None (Some "A"%string).
  Definition exE12 : uenv A := add_unit exE11 u_cd None (Some "cd"%string).
  Definition exE13 : uenv A := add_unit exE12 u_mol None (Some "mol"%string).
  Definition exE14 : uenv A := add_unit exE13 u_K None (Some "K"%string).
  Definition exE15 : uenv A := add_unit exE14 u_bit None None.
  Definition exE16 : uenv A := add_unit exE15 u_xxx None None.
  Definition exE : uenv A := add_unit exE16 u_statA
    (Some (DQty (nofQ (q_of 1 1)) [(u_m, PFlt (q_of 3 2)); (u_kg, PFlt (q_of 1 2)); (u_s, PInt (-2))])) None.
End Env.

Lemma Qc2R_pos q : (0 < Qnum (this q))%Z -> (0 < Qc2R q)%R.
Proof.
  intros H. unfold Qc2R, Q2R. apply Rmult_lt_0_compat; [apply IZR_lt; auto|].
  apply Rinv_0_lt_compat. apply IZR_lt. reflexivity.
Qed.
Definition ex_def_okb (ks : list uid) (df : option (Qc * dims)) : bool :=
  match df with
  | None => true
  | Some (q, d) => (0 <? Qnum (this q))%Z && wf_dimsb d &&
      forallb (fun u => existsb (uid_eqb u) ks && negb (ucls_eqb (u_cls u) CDimless)) (dkeys d)
  end.
Definition ex_def (df : option (Qc * dims)) : option (udef R) :=
  option_map (fun x => DQty (Qc2R (fst x)) (snd x)) df.
Lemma existsb_uid u ks : existsb (uid_eqb u) ks = true <-> In u ks.
Proof.
  rewrite existsb_exists. split.
  - intros (x & Hx & He). apply uid_eqb_eq in He. now subst.
  - intros H. exists u. split; auto. apply uid_eqb_refl.
Qed.
Lemma add_unit_ok (E : uenv R) ks u df sym : renv_ok E /\ dkeys E = ks ->
  existsb (uid_eqb u) ks = false -> ex_def_okb ks df = true ->
  (df <> None -> u_cls u <> CDimless) ->
  renv_ok (add_unit E u (ex_def df) sym) /\ dkeys (add_unit E u (ex_def df) sym) = ks ++ [u].
Proof.
  intros [H <-] Hn Hd Hc. split; [|unfold add_unit; now rewrite dkeys_app].
  apply env_new; auto.
  - intros Hin. apply existsb_uid in Hin. congruence.
  - intros x Hx. destruct df as [[q d]|]; [|discriminate]. injection Hx as <-. split; [apply Hc; discriminate|].
    cbn [ex_def_okb] in Hd. apply andb_prop in Hd. destruct Hd as [Hd H3]. apply andb_prop in Hd. destruct Hd as [H1 H2].
    cbn [fst snd]. split; [apply Qc2R_pos; now apply Z.ltb_lt|]. split; [now apply wf_dimsb_true|].
    intros v Hv. rewrite forallb_forall in H3. specialize (H3 v Hv). apply andb_prop in H3. destruct H3 as [K1 K2].
    split; [now apply existsb_uid|]. intros X. rewrite X in K2. discriminate.
Qed.

Ltac env_step prev E df :=
  refine (add_unit_ok E _ _ df _ prev _ _ _);
  [ vm_compute; reflexivity | vm_compute; reflexivity | first [discriminate | intros X; contradiction]].

Lemma exN_ok' : renv_ok ([] : uenv R) /\ dkeys ([] : uenv R) = [].
Proof. split; [apply env_nil|reflexivity]. Qed.
Lemma exE0_ok' : renv_ok exE0 /\ dkeys (exE0 (A := R)) = [u_nodim].
Proof. env_step exN_ok' ([] : uenv R) (@None (Qc * dims)). Qed.
Lemma exE1_ok' : renv_ok exE1 /\ dkeys (exE1 (A := R)) = [u_nodim; u_m].
Proof. env_step exE0_ok' (exE0 : uenv R) (@None (Qc * dims)). Qed.
Lemma exE2_ok' : renv_ok exE2 /\ dkeys (exE2 (A := R)) = [u_nodim; u_m; u_kg].
Proof. env_step exE1_ok' (exE1 : uenv R) (@None (Qc * dims)). Qed.
Lemma exE3_ok' : renv_ok exE3 /\ dkeys (exE3 (A := R)) = [u_nodim; u_m; u_kg; u_s].
Proof. env_step exE2_ok' (exE2 : uenv R) (@None (Qc * dims)). Qed.
Lemma exE4_ok' : renv_ok exE4 /\ dkeys (exE4 (A := R)) = [u_nodim; u_m; u_kg; u_s; u_cm].
Proof. env_step exE3_ok' (exE3 : uenv R) (Some (q_of 1 100, [(u_m, PInt 1)])). Qed.
Lemma exE5_ok' : renv_ok exE5 /\ dkeys (exE5 (A := R)) = [u_nodim; u_m; u_kg; u_s; u_cm; u_km].
Proof. env_step exE4_ok' (exE4 : uenv R) (Some (q_of 1000 1, [(u_m, PInt 1)])). Qed.
Lemma exE6_ok' : renv_ok exE6 /\ dkeys (exE6 (A := R)) = [u_nodim; u_m; u_kg; u_s; u_cm; u_km; u_h].
Proof. env_step exE5_ok' (exE5 : uenv R) (Some (q_of 3600 1, [(u_s, PInt 1)])). Qed.
Lemma exE7_ok' : renv_ok exE7 /\ dkeys (exE7 (A := R)) = [u_nodim; u_m; u_kg; u_s; u_cm; u_km; u_h; u_N].
Proof. env_step exE6_ok' (exE6 : uenv R) (Some (q_of 1 1, [(u_kg, PInt 1); (u_m, PInt 1); (u_s, PInt (-2))])). Qed.
Lemma exE8_ok' : renv_ok exE8 /\ dkeys (exE8 (A := R)) = [u_nodim; u_m; u_kg; u_s; u_cm; u_km; u_h; u_N; u_rad].
Proof. env_step exE7_ok' (exE7 : uenv R) (Some (q_of 1 1, @nil (uid * pynum))). Qed.
Lemma exE9_ok' : renv_ok exE9 /\ dkeys (exE9 (A := R)) = [u_nodim; u_m; u_kg; u_s; u_cm; u_km; u_h; u_N; u_rad; u_deg].
Proof. env_step exE8_ok' (exE8 : uenv R) (Some (q_of 314159 18000000, [(u_rad, PInt 1)])). Qed.
Lemma exE10_ok' : renv_ok exE10 /\ dkeys (exE10 (A := R)) = [u_nodim; u_m; u_kg; u_s; u_cm; u_km; u_h; u_N; u_rad; u_deg; u_foo].
Proof. env_step exE9_ok' (exE9 : uenv R) (@None (Qc * dims)). Qed.
Lemma exE11_ok' : renv_ok exE11 /\ dkeys (exE11 (A := R)) = [u_nodim; u_m; u_kg; u_s; u_cm; u_km; u_h; u_N; u_rad; u_deg; u_foo; u_A].
Proof. env_step exE10_ok' (exE10 : uenv R) (@None (Qc * dims)). Qed.
Lemma exE12_ok' : renv_ok exE12 /\ dkeys (exE12 (A := R)) = [u_nodim; u_m; u_kg; u_s; u_cm; u_km; u_h; u_N; u_rad; u_deg; u_foo; u_A; u_cd].
Proof. env_step exE11_ok' (exE11 : uenv R) (@None (Qc * dims)). Qed.
Lemma exE13_ok' : renv_ok exE13 /\ dkeys (exE13 (A := R)) = [u_nodim; u_m; u_kg; u_s; u_cm; u_km; u_h; u_N; u_rad; u_deg; u_foo; u_A; u_cd; u_mol].
Proof. env_step exE12_ok' (exE12 : uenv R) (@None (Qc * dims)). Qed.
Lemma exE14_ok' : renv_ok exE14 /\ dkeys (exE14 (A := R)) = [u_nodim; u_m; u_kg; u_s; u_cm; u_km; u_h; u_N; u_rad; u_deg; u_foo; u_A; u_cd; u_mol; u_K].
Proof. env_step exE13_ok' (exE13 : uenv R) (@None (Qc * dims)). Qed.
Lemma exE15_ok' : renv_ok exE15 /\ dkeys (exE15 (A := R)) = [u_nodim; u_m; u_kg; u_s; u_cm; u_km; u_h; u_N; u_rad; u_deg; u_foo; u_A; u_cd; u_mol; u_K; u_bit].
Proof. env_step exE14_ok' (exE14 : uenv R) (@None (Qc * dims)). Qed.
Lemma exE16_ok' : renv_ok exE16 /\ dkeys (exE16 (A := R)) = [u_nodim; u_m; u_kg; u_s; u_cm; u_km; u_h; u_N; u_rad; u_deg; u_foo; u_A; u_cd; u_mol; u_K; u_bit; u_xxx].
Proof. env_step exE15_ok' (exE15 : uenv R) (@None (Qc * dims)). Qed.
Lemma exE_ok' : renv_ok exE /\ dkeys (exE (A := R)) = [u_nodim; u_m; u_kg; u_s; u_cm; u_km; u_h; u_N; u_rad; u_deg; u_foo; u_A; u_cd; u_mol; u_K; u_bit; u_xxx; u_statA].
Proof. env_step exE16_ok' (exE16 : uenv R) (Some (q_of 1 1, [(u_m, PFlt (q_of 3 2)); (u_kg, PFlt (q_of 1 2)); (u_s, PInt (-2))])). Qed.
Lemma exE_ok : renv_ok exE.
Proof. apply exE_ok'. Qed.

(** Dimensionalities are well-formed when a computation says so. *)
Definition dims_okb (d : dims) : bool :=
  wf_dimsb d && forallb (fun u => negb (ucls_eqb (u_cls u) CDimless)) (dkeys d).
Lemma dims_okb_ok d : dims_okb d = true -> dims_ok d.
Proof.
  unfold dims_okb. intros H. apply andb_prop in H. destruct H as [H1 H2].
  split; [now apply wf_dimsb_true|]. intros u Hu Hc. rewrite forallb_forall in H2.
  specialize (H2 u Hu). rewrite Hc in H2. discriminate.
Qed.

Definition d_m : dims := [(u_m, PInt 1)].
Definition d_s : dims := [(u_s, PInt 1)].
Definition d_cm : dims := [(u_cm, PInt 1)].
Definition d_kmh : dims := [(u_km, PInt 1); (u_h, PInt (-1))].
Definition d_ms : dims := [(u_m, PInt 1); (u_s, PInt (-1))].
Definition d_sm : dims := [(u_s, PFlt (q_of (-1) 1)); (u_m, PInt 1)].
Definition d_N : dims := [(u_N, PInt 1)].

Definition zq (z : Z) : Qc := nqc (Z2Qc z).
Definition qcs (l : list Z) : list Qc := map zq l.
Definition rs (l : list Z) : list R := map IZR l.

(** Base units as defaults (as after importing the package). *)
Definition ex_root (c : ucls) : uid :=
  match c with
  | CMass => u_kg | CLength => u_m | CTime => u_s | CCurrent => u_A | CLumInt => u_cd
  | CSubstance => u_mol | CTemperature => u_K | CInformation => u_bit | CCurrency => u_xxx
  | _ => u_nodim
  end.
Definition exD : defaults := fun c =>
  if is_irreducible c then Some [(ex_root c, PInt 1)] else None.
(** Which units of the example have definitions. *)
Lemma ulookup_add (E : uenv R) w df sym u r : ulookup (add_unit E w df sym) u = Some r ->
  ulookup E u = Some r \/ (uid_eqb u w = true /\ ur_def r = df).
Proof.
  unfold ulookup, add_unit. induction E as [|[k v] E IH]; cbn.
  - destruct (uid_eqb u w); [|discriminate]. intros H. injection H as <-. now right.
  - destruct (uid_eqb u k); [now left|]. intros H.
    assert (G : forall (l : uenv R) x, dget uid_eqb (l ++ [(w, x)]) u = Some r ->
       dget uid_eqb l u = Some r \/ uid_eqb u w = true /\ x = r).
    { induction l as [|[a b] l IHl]; cbn; intros x.
      - destruct (uid_eqb u w); [|discriminate]. intros X. injection X as <-. auto.
      - destruct (uid_eqb u a); auto. }
    apply G in H. destruct H as [H|[H1 H2]]; auto. right. subst r. auto.
Qed.
Definition ex_defined : list uid := [u_statA; u_deg; u_rad; u_N; u_h; u_km; u_cm].
Lemma ulookup_nil u (r : urec R) : ulookup [] u = Some r -> False.
Proof. discriminate. Qed.
Opaque ulookup add_unit.
Lemma exE_defs u r : ulookup (exE (A := R)) u = Some r ->
  match ur_def r with Some _ => existsb (uid_eqb u) ex_defined | None => true end = true.
Proof.
  unfold exE, exE16, exE15, exE14, exE13, exE12, exE11, exE10, exE9, exE8, exE7, exE6, exE5, exE4, exE3, exE2, exE1, exE0.
  intros H.
  do 18 (apply ulookup_add in H; destruct H as [H|[H1 H2]];
    [|rewrite H2; first [reflexivity | cbn [ex_defined existsb]; rewrite H1, ?orb_true_r; reflexivity]]).
  now apply ulookup_nil in H.
Qed.
Transparent ulookup add_unit.
Lemma exD_std : std_defaults exE exD ex_root.
Proof.
  intros c Hc. split; [destruct c; try discriminate Hc; reflexivity|]. split.
  - intros r Hr. assert (X := exE_defs (ex_root c) r Hr).
    destruct c; try discriminate Hc; destruct (ur_def r); auto; discriminate X.
  - intros dd. unfold exD. rewrite Hc. intros [= <-].
    split; [destruct c; try discriminate Hc; apply dims_okb_ok; reflexivity|apply convertible_refl].
Qed.
Lemma exD_ok : forall c dd, exD c = Some dd -> dims_ok dd.
Proof.
  intros c dd. destruct c; intros H; try discriminate H; injection H as <-; apply dims_okb_ok; reflexivity.
Qed.

(** A defined unit of the example in every consistent system of sizes. *)
Lemma ulookup_add_old (E : uenv R) w df sym u r : ulookup E u = Some r -> ulookup (add_unit E w df sym) u = Some r.
Proof. intros H. now apply ulookup_app_l. Qed.
Lemma ulookup_add_new (E : uenv R) w df sym : ~ In w (dkeys E) ->
  ulookup (add_unit E w df sym) w = Some (new_unit E (length E, length E) df sym None []).
Proof. intros H. now apply ulookup_last. Qed.
Lemma not_in_keys u ks : existsb (uid_eqb u) ks = false -> ~ In u ks.
Proof. intros H X. apply existsb_uid in X. congruence. Qed.
Opaque ulookup add_unit.
Lemma ex_lookup_cm : exists r, ulookup (exE (A := R)) u_cm = Some r /\ ur_def r = Some (DQty (Qc2R (q_of 1 100)) [(u_m, PInt 1)]).
Proof.
  eexists. split.
  - unfold exE, exE16, exE15, exE14, exE13, exE12, exE11, exE10, exE9, exE8, exE7, exE6, exE5.
    do 13 apply ulookup_add_old. unfold exE4. apply ulookup_add_new.
    rewrite (proj2 exE3_ok'). apply not_in_keys. reflexivity.
  - reflexivity.
Qed.
Lemma ex_lookup_rad : exists r, ulookup (exE (A := R)) u_rad = Some r /\ ur_def r = Some (DQty (Qc2R (q_of 1 1)) []).
Proof.
  eexists. split.
  - unfold exE, exE16, exE15, exE14, exE13, exE12, exE11, exE10, exE9.
    do 9 apply ulookup_add_old. unfold exE8. apply ulookup_add_new.
    rewrite (proj2 exE7_ok'). apply not_in_keys. reflexivity.
  - reflexivity.
Qed.
Transparent ulookup add_unit.
Lemma Qc2R_q_of n d : Qc2R (q_of n d) = (IZR n / IZR (Zpos d))%R.
Proof.
  unfold q_of, nqc, Qc2R. cbn [this Q2Qc]. transitivity (Q2R (Qmake n d)); [|reflexivity]. apply Q2R_eq_of_Qeq.
  rewrite !Qred_correct. reflexivity.
Qed.
Lemma Qc2R_PInt1 : Qc2R (pval (PInt 1)) = 1%R.
Proof. cbn [pval]. apply Qc2R_Z. Qed.
Lemma ex_cm_size phi : consistent exE phi -> dimval phi d_cm = (1 / 100 * dimval phi d_m)%R.
Proof.
  intros [Hp HC]. destruct ex_lookup_cm as (r & Hr & Hd). specialize (HC u_cm r _ Hr Hd).
  cbn [defval] in HC. rewrite Qc2R_q_of in HC.
  unfold d_cm, d_m in *. cbn [dimval] in *. rewrite Qc2R_PInt1, !Rpower_1 in * by apply Hp. rewrite HC. ring.
Qed.
Lemma ex_rad_size phi : consistent exE phi -> phi u_rad = 1%R.
Proof.
  intros [Hp HC]. destruct ex_lookup_rad as (r & Hr & Hd). specialize (HC u_rad r _ Hr Hd).
  cbn [defval] in HC. rewrite Qc2R_q_of in HC. rewrite HC. cbn [dimval]. field.
Qed.
