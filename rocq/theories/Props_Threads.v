(** * Props_Threads: threads that use the shipped library (C128).

    The schedules of Sched.v, started in the state right after [import quantities]
    (Table.v). *)
From Coq Require Import Reals Lra.
From Verif Require Import Py Num Dim DimFacts Arr Units Spec UnitFacts Quant QuantFacts SimpFacts SpecApi ConvFacts Defaults DefaultsFacts
  Ufunc Ops Text Markup Lex Registry RegFacts LexFacts SpecPickle PickleFacts HistFacts RegEq Props_Registry Props_Labels Sched SchedFacts Props_Sched Props_Crash
  Table Import TableFacts SpecSizes Props_Conv Props_Ops Props_Table Props_System.

#[local] Opaque library lib.

(** Specification-level: threads that start in the state after the import, and use whatever they got back. *)
Definition after_import (fread : text -> Qc) (F : uenv R) (ts : list (tstate R)) : Prop :=
  forall t, In t ts -> exists c, t = Idle c /\ prudent F c.
Lemma after_import_ok fread F ts : after_import fread F ts -> process_ok F (lib fread) ts.
Proof. intros H. exact (history_process (parse_arith fread) (lib fread) F ts (lib_hist fread) H). Qed.
Lemma after_import_idle fread F ts t : after_import fread F ts -> In t ts -> idle t.
Proof. intros H Ht. destruct (H t Ht) as (c & -> & _). exists c. reflexivity. Qed.

Lemma kept parse (s0 : rstate R) ts tr s' ts' x u :
  process_ok (objs s') s0 ts -> run parse s0 ts tr s' ts' -> In x tr -> In u (dkeys (objs s0)) -> ulookup (objs x) u = ulookup (objs s0) u.
Proof.
  intros HP Hr Hx Hu. destruct (run_grows parse s0 ts tr s' ts' Hr (fun t => process_idle _ s0 ts t HP) x Hx) as [[X GX] _].
  rewrite GX. now apply ulookup_extend.
Qed.
(** At every moment of every schedule, every name of the library means its unit, the units
    are defined as they were, and the default unit of each class that has one is
    convertible to the one of the import. *)
Theorem C128_library_kept : forall fread ts tr s' ts' x,
  after_import fread (objs s') ts -> run (parse_arith fread) (lib fread) ts tr s' ts' -> renv_ok (objs s') -> In x tr ->
  (forall n v, ctx_get (lib fread) n = Some v -> ctx_get x n = Some v) /\
  (forall u, In u (map entry_uid library) -> ulookup (objs x) u = ulookup (objs (lib fread)) u) /\
  (forall c d0, dflt (lib fread) c = Some d0 -> exists dd, dflt x c = Some dd /\ dims_ok dd /\ convertible (objs s') dd d0).
Proof.
  intros fread ts tr s' ts' x HA Hr HF Hx. split; [|split].
  - exact (proj1 (C117_names_kept R NumR (parse_arith fread) (lib fread) ts tr s' ts' x (fun t => after_import_idle fread _ ts t HA) Hr Hx)).
  - intros u Hu. apply (kept (parse_arith fread) (lib fread) ts tr s' ts' x u (after_import_ok fread _ ts HA) Hr Hx).
    rewrite lib_keys. exact Hu.
  - intros c d0. exact (C119_defaults (parse_arith fread) (lib fread) ts tr s' ts' x c d0 Hr HF (after_import_ok fread _ ts HA) Hx).
Qed.
(** A label made of names of the library (by products, quotients and powers) is looked up
    with the same result whatever the other threads do. *)
Theorem C128_labels : forall fread ts tr s' ts' label k r tree v,
  after_import fread (objs s') ts -> run (parse_arith fread) (lib fread) ts tr s' ts' ->
  In (Busy (OLookup label) (Ret _ r) k) ts' ->
  parse_arith fread (preprocess label) = Ok tree -> product tree ->
  (forall n, In n (names tree) -> ctx_get (lib fread) n <> None) ->
  get_item (parse_arith fread) (lib fread) label = Ok v ->
  r = Ok (RVal v).
Proof.
  intros fread ts tr s' ts' label k r tree v HA.
  exact (C117_lookup R NumR (parse_arith fread) (lib fread) ts tr s' ts' label k r tree v (fun t => after_import_idle fread _ ts t HA)).
Qed.
(** Whatever the other threads do, [simplified] of a quantity in units of the library
    returns a quantity of the same value, in units that are default units at some moment
    between the call and the return; unless a unit is created meanwhile, it succeeds. *)
Theorem C128_simplified : forall fread ts tr1 s1 ts1 tr2 s2 ts2 i fuel q k r k',
  after_import fread (objs s2) ts ->
  run (parse_arith fread) (lib fread) ts tr1 s1 ts1 -> run (parse_arith fread) s1 ts1 tr2 s2 ts2 -> renv_ok (objs s2) ->
  nth_error ts1 i = Some (Idle (Call (OSimplified (S (S fuel)) q) k)) ->
  nth_error ts2 i = Some (Busy (OSimplified (S (S fuel)) q) (Ret _ r) k') ->
  (forall p, r = Ok (RQty p) -> same_value (objs s2) p q /\ shp (mag p) = shp (mag q) /\
     forall u, In u (dkeys (qdim p)) -> exists x c dd, In x tr2 /\ dflt x c = Some dd /\ In u (dkeys dd)) /\
  (objs s2 = objs (lib fread) ->
   (forall u, In u (dkeys (qdim q)) -> In u (map entry_uid library) /\ u <> statampere /\ u_cls u <> CDimless) ->
   exists p, r = Ok (RQty p)).
Proof.
  intros fread ts tr1 s1 ts1 tr2 s2 ts2 i fuel q k r k' HA R1 R2 HF H1 H2.
  pose proof (after_import_ok fread _ ts HA) as HP. split.
  - intros p ->. destruct (C118_simplified (parse_arith fread) (lib fread) ts tr1 s1 ts1 tr2 s2 ts2 i (S (S fuel)) q k p k' R1 R2 HF HP H1 H2) as (V & _ & Sh & Hu).
    split; [exact V|]. split; [exact Sh|exact Hu].
  - intros Ho Hq. rewrite Ho in HP.
    refine (C118_succeeds (parse_arith fread) (lib fread) ts tr1 s1 ts1 tr2 s2 ts2 i fuel q k r k' lib_root R1 R2 (lib_env fread) HP Ho (C73_std_defaults fread) _ H1 H2).
    intros u Hu. destruct (Hq u Hu) as (Q1 & Q2 & Q3). exact (C73_simplifiable fread u Q1 Q2 Q3).
Qed.

(** ** Example *)
(** One thread makes the foot the default length while another one simplifies 3 miles. *)
Definition ex_lib_threads : list (tstate R) :=
  [Idle (Call (ODefault CLength (SStr "foot"%string)) (fun _ => Stop));
   Idle (Call (OSimplified 2 (Qty (scalar 3%R) (unit_dims (uL "mile"%string)))) (fun _ => Stop))].
Example C128_example fread :
  (forall F, after_import fread F ex_lib_threads) /\
  exists tr s' r k, run (parse_arith fread) (lib fread) ex_lib_threads tr s'
    [Idle (Call (ODefault CLength (SStr "foot"%string)) (fun _ => Stop)); Busy (OSimplified 2 (Qty (scalar 3%R) (unit_dims (uL "mile"%string)))) (Ret _ r) k].
Proof.
  split.
  - intros F t [<-|[<-|[]]]; (eexists; split; [reflexivity|]); cbn [prudent call_ok sarg_ok]; auto.
    split; [|auto]. split; [reflexivity|]. apply dims_ok_unit.
  - destruct (C117_undisturbed R _ (parse_arith fread) (lib fread) [Idle (Call (ODefault CLength (SStr "foot"%string)) (fun _ => Stop))]
      (OSimplified 2 (Qty (scalar 3%R) (unit_dims (uL "mile"%string)))) (fun _ => Stop) []) as (tr & s' & r & Hr & _).
    exists tr, s', r, (fun _ => Stop). exact Hr.
Qed.

Print Assumptions C128_library_kept.
Print Assumptions C128_labels.
Print Assumptions C128_simplified.
