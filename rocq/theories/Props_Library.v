(** * Properties C115, C116 for the units of the shipped library. *)
From Coq Require Import Reals Lra.
From Verif Require Import Py Num Dim DimFacts Arr Units Spec UnitFacts Quant QuantFacts SimpFacts SpecApi ConvFacts Defaults DefaultsFacts
  Ufunc Ops Text Markup Lex Registry RegFacts Table Import TableFacts SpecSizes Props_Conv Props_Ops Props_Table Props_System Program Props_Program.

#[local] Opaque library lib.

Section Library.
  Variable fread : text -> Qc.
  Variable D : defaults.
  (** The defaults at import, or after any [set_default_units] calls with library units. *)
  Hypothesis HD : lib_defaults fread D.

  (** Units of the library; not the statampere, which cannot be simplified (C73). *)
  Definition lib_units (d : dims) : Prop :=
    dims_ok d /\ forall u, In u (dkeys d) -> In u (map entry_uid library) /\ u <> statampere.
  Hypothesis HU : forall c dd, D c = Some dd -> lib_units dd.

  Lemma lib_gdims d : lib_units d -> gdims (objs (lib fread)) D lib_root d.
  Proof.
    intros [Hd Hu]. split; [exact Hd|]. intros u Hin. destruct (Hu u Hin) as [H1 H2].
    destruct (lib_good fread D HD) as (HS & HN & HI). assert (H3 : u_cls u <> CDimless) by (apply Hd; exact Hin).
    pose proof (C73_simplifiable fread u H1 H2 H3) as S1. unfold simplifiable in *. destruct (is_irreducible (u_cls u)).
    - split; [rewrite HN; exact (proj1 S1)|exact (proj2 S1)].
    - destruct S1 as (d0 & W & K & C). exists d0. split; [exact W|]. split; [|exact C]. intros w Hw. destruct (K w Hw) as (c & K1 & K2 & K3).
      exists c. split; [exact K1|]. split; [rewrite HN; exact K2|exact K3].
  Qed.
  Lemma lib_hyps :
    renv_ok (objs (lib fread)) /\ std_defaults (objs (lib fread)) D lib_root /\ (forall c dd, D c = Some dd -> dims_ok dd) /\
    (forall c dd u, D c = Some dd -> In u (dkeys dd) -> simplifiable (objs (lib fread)) D lib_root u).
  Proof.
    destruct (lib_good fread D HD) as (HS & HN & HI). split; [exact (lib_env fread)|]. split; [exact HS|]. split.
    - intros c dd Hd. exact (proj1 (proj2 (C113_defaults_convertible fread D c HD) dd Hd)).
    - intros c dd u Hd Hin. exact (proj2 (lib_gdims dd (HU c dd Hd)) u Hin).
  Qed.
End Library.

(** Arguments: the same arrays, or quantities in library units that are equal in other
    units. *)
Definition same_inputs (E : uenv R) (v v' : value) : Prop :=
  match v, v' with
  | VQ q, VQ q' => lib_units (qdim q) /\ lib_units (qdim q') /\ awf (mag q) /\ awf (mag q') /\ equal_in_other_units E q q'
  | VA a, VA a' => a = a' /\ awf a
  | VB b, VB b' => b = b'
  | VN n, VN n' => n = n'
  | _, _ => False
  end.
(** The units named in the program are library units. *)
Fixpoint lib_prog (p : prog) : Prop :=
  match p with
  | PVar _ => True
  | PPlain a => awf a
  | P1 (ORescale d) p => lib_units d /\ lib_prog p
  | P1 (OPow e) p => awf (odat e) /\ lib_prog p
  | P1 _ p => lib_prog p
  | P2 _ p1 p2 => lib_prog p1 /\ lib_prog p2
  | PLet p1 p2 => lib_prog p1 /\ lib_prog p2
  | PIf c p1 p2 => lib_prog c /\ lib_prog p1 /\ lib_prog p2
  | PLoop c b => lib_prog c /\ lib_prog b
  end.
Lemma lib_prog_ok fread D p : lib_defaults fread D -> lib_prog p -> prog_ok (objs (lib fread)) D lib_root p.
Proof.
  intros HD. induction p; cbn [lib_prog prog_ok]; try tauto.
  destruct o; cbn [op1_ok]; try tauto. intros [H1 H2]. split; [|now apply IHp]. now apply lib_gdims.
Qed.
(** For every program on quantities in library units, whatever default units were set. *)
Theorem C115_library : forall fread D fuel p env env',
  lib_defaults fread D -> (forall c dd, D c = Some dd -> lib_units dd) ->
  lib_prog p -> Forall2 (same_inputs (objs (lib fread))) env env' ->
  (forall e, runs (objs (lib fread)) D fuel env p (Err e) <-> runs (objs (lib fread)) D fuel env' p (Err e)) /\
  (forall b, runs (objs (lib fread)) D fuel env p (Ok (VB b)) <-> runs (objs (lib fread)) D fuel env' p (Ok (VB b))) /\
  (forall n, runs (objs (lib fread)) D fuel env p (Ok (VN n)) <-> runs (objs (lib fread)) D fuel env' p (Ok (VN n))) /\
  (forall a, runs (objs (lib fread)) D fuel env p (Ok (VA a)) <-> runs (objs (lib fread)) D fuel env' p (Ok (VA a))) /\
  (forall q, runs (objs (lib fread)) D fuel env p (Ok (VQ q)) ->
     exists q', runs (objs (lib fread)) D fuel env' p (Ok (VQ q')) /\ shp (mag q') = shp (mag q) /\
       equal_in_other_units (objs (lib fread)) q q').
Proof.
  intros fread D fuel p env env' HD HU Hp He. destruct (lib_hyps fread D HD HU) as (H1 & H2 & H3 & H4).
  apply (C115_units_of_inputs (objs (lib fread)) D lib_root fuel p env env' H1 H2 H3 H4 (lib_prog_ok fread D p HD Hp)).
  clear - He HD. induction He as [|v v' l l' Hv He IH]; constructor; [|exact IH].
  destruct v as [q|a|b|n], v' as [q'|a'|b'|n']; cbn [same_inputs vrel] in *; try contradiction; try exact Hv.
  destruct Hv as (U1 & U2 & W1 & W2 & V). split; [split; [exact W1|exact (lib_gdims fread D HD _ U1)]|].
  split; [split; [exact W2|exact (lib_gdims fread D HD _ U2)]|exact V].
Qed.
(** And programs without [==] and [!=] compute what the unitless program computes in any
    coherent system of units. *)
Theorem C116_library : forall fread D fuel p env v phi,
  lib_defaults fread D -> (forall c dd, D c = Some dd -> lib_units dd) ->
  lib_prog p -> no_equality p -> Forall (fun v => same_inputs (objs (lib fread)) v v) env ->
  runs (objs (lib fread)) D fuel env p (Ok v) -> consistent (objs (lib fread)) phi ->
  runs (objs (lib fread)) D fuel (map (erase phi) env) (strip p) (Ok (erase phi v)).
Proof.
  intros fread D fuel p env v phi HD HU Hp Hn He Hr HC. destruct (lib_hyps fread D HD HU) as (H1 & H2 & H3 & H4).
  apply (C116_units_erased (objs (lib fread)) D lib_root fuel p env v phi H1 H2 H3 H4 (lib_prog_ok fread D p HD Hp) Hn); [|exact Hr|exact HC].
  clear - He HD. induction He as [|w l Hw He IH]; constructor; [|exact IH].
  destruct w as [q|a|b|n]; cbn [same_inputs goodv] in *; [|destruct Hw; assumption|exact I..].
  destruct Hw as (U1 & _ & W1 & _). split; [exact W1|exact (lib_gdims fread D HD _ U1)].
Qed.
(** At import, and with any quantities in library units, the hypotheses are met. *)
Definition in_library (u : uid) : bool := existsb (fun e => uid_eqb (entry_uid e) u) library.
Lemma roots_in_library :
  forallb (fun c => if has_base c then in_library (lib_root c) else true)
    [CQuantity; CMass; CLength; CTime; CCurrent; CLumInt; CSubstance; CTemperature; CInformation; CCurrency; CCompound; CDimless; CConstant] = true /\
  in_library (uL "foot") = true.
Proof. vm_compute. split; reflexivity. Qed.
Lemma in_library_In u : in_library u = true -> In u (map entry_uid library).
Proof.
  unfold in_library. generalize library as l. intros l H. apply existsb_exists in H. destruct H as (e & H1 & H2). apply uid_eqb_eq in H2. subst u.
  now apply in_map.
Qed.
Lemma import_units fread c dd : dflt (lib fread) c = Some dd -> lib_units dd.
Proof.
  intros H. split; [exact (C73_defaults_wf fread c dd H)|]. rewrite (proj1 (C73_defaults fread c)) in H.
  destruct (has_base c) eqn:Eb; [|discriminate H]. assert (dd = [(lib_root c, PInt 1)]) as -> by congruence.
  intros u [<-|[]]. split.
  - apply in_library_In. pose proof (proj1 (forallb_forall _ _) (proj1 roots_in_library) c) as X. cbv beta in X. rewrite Eb in X. apply X.
    destruct c; cbn [In]; tauto.
  - destruct c; discriminate.
Qed.
Example C115_library_example : forall fread,
  lib_defaults fread (dflt (lib fread)) /\ (forall c dd, dflt (lib fread) c = Some dd -> lib_units dd) /\
  lib_units (unit_dims (uL "meter")) /\ lib_units (unit_dims (uL "foot")) /\ lib_prog ex_loop /\ no_equality ex_loop.
Proof.
  intros fread. split; [constructor|]. split; [apply import_units|].
  assert (U : forall u, u_cls u = CLength -> in_library u = true -> lib_units (unit_dims u)).
  { intros u Hc Hu. split; [apply dims_ok_unit|]. intros w Hw. apply In_unit_dims in Hw. subst w.
    split; [now apply in_library_In|]. intros ->. discriminate Hc. }
  split; [apply U; [reflexivity|exact (proj1 (forallb_forall _ _) (proj1 roots_in_library) CLength ltac:(cbn [In]; tauto))]|].
  split; [apply U; [reflexivity|exact (proj2 roots_in_library)]|]. split; [cbn; tauto|]. cbn. repeat split; discriminate.
Qed.

Print Assumptions C115_library.
Print Assumptions C116_library.
