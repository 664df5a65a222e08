(** * SpecPickle: what it takes for a pickle to be readable, in terms of definitions
    and names. *)
From Coq Require Import Reals.
From Verif Require Import Py Num Dim Arr Units Spec Quant Text Lex Registry RegEq.

Open Scope list_scope.

(** The units a definition mentions. *)
Definition def_units {A} (df : udef A) : list uid :=
  match df with DQty _ d => dkeys d | DUnit v => [v] end.

(** Pickling [u] also pickles [w]: [u] itself, and what the units in its definition
    need.  Compound units are pickled as a text: their definition is not needed. *)
Inductive needs {A} (E : uenv A) : uid -> uid -> Prop :=
| needs_self u : needs E u u
| needs_def u r df v w :
    u_cls u <> CCompound -> ulookup E u = Some r -> ur_def r = Some df -> In v (def_units df) ->
    needs E v w -> needs E u w.

(** Every unit object in [E] has the definition (and the conversion reference that
    follows from it) that [F] gives to the unit of that class and name. *)
Definition agrees (E F : uenv R) : Prop :=
  forall u r, In (u, r) E -> exists r', ulookup F u = Some r' /\ ur_def r = ur_def r' /\ ur_ref r = ur_ref r'.
(** The units in definitions are there as well. *)
Definition closed {A} (E : uenv A) : Prop :=
  forall u r df v, In (u, r) E -> ur_def r = Some df -> In v (def_units df) -> In v (dkeys E).

(** Labels that are products of powers of names and numbers. *)
Inductive product : expr -> Prop :=
| prod_name s : product (EName s)
| prod_num p : product (ENum p)
| prod_neg o p : product (EUn o (ENum p))
| prod_bin o a b : In o [BMul; BDiv; BPow] -> product a -> product b -> product (EBin o a b).

(** The names a unit registers. *)
Definition unit_names {A} (w : uid) (r : urec A) : list text :=
  reg_names (u_cls w) (u_name w) (ur_symbol r) (ur_aliases r).

(** The unit [w] (pickled with the symbol and the aliases in [r]) fits into the process
    [st], in view of the definitions [F]: each of its names is free or means a unit of
    the same size; if it is a compound unit, its text has the meaning [F] says. *)
Definition fits (F : uenv R) (parse : text -> res expr) (st : rstate R) (w : uid) (r : urec R) : Prop :=
  (forall s v, In s (unit_names w r) -> ctx_get st s = Some v ->
     exists i x rx, v = VUnit i /\ nth_error (objs st) i = Some (x, rx) /\ same_size F w x) /\
  (u_cls w = CCompound ->
     exists e v df, parse (preprocess (T (u_name w))) = Ok e /\ product e /\
       (forall s, In s (RegFacts.names e) -> ctx_get st s <> None) /\
       eval st e = Ok v /\ val_def st v = Some df /\ ur_def r = Some df /\
       (forall x, In x (def_units df) -> In x (dkeys (objs st)))).

(** Loading into the process [st] has led to [st']: every unit object has the
    definition that [F] says; the old objects, names and defaults are still there;
    new objects are units from [Nd]; new names mean units from [Nd] that were pickled
    (in [E1]) with that name; new defaults are units from [Nd] of that class. *)
Record loaded (F E1 : uenv R) (st : rstate R) (Nd : uid -> Prop) (st' : rstate R) : Prop := LInv {
  li_agrees : agrees (objs st') F;
  li_objs : exists X, objs st' = objs st ++ X /\ forall u r, In (u, r) X -> Nd u;
  li_new : forall s v, ctx_get st' s = Some v -> ctx_get st s = Some v \/
             (ctx_get st s = None /\ exists i w rx r, v = VUnit i /\ nth_error (objs st') i = Some (w, rx) /\
                Nd w /\ ulookup E1 w = Some r /\ In s (unit_names w r));
  li_keeps : forall s v, ctx_get st s = Some v -> ctx_get st' s = Some v;
  li_dflt : forall c, dflt st' c = dflt st c \/
              (dflt st c = None /\ exists w, Nd w /\ u_cls w = c /\ dflt st' c = Some (unit_dims w))
}.

(** The states of a process in which units are created, successfully, one after the
    other, each under a class and name not used before and with a positive factor;
    compound units from products; and units are given further names. *)
Inductive history (parse : text -> res expr) : rstate R -> Prop :=
| h_empty : history parse rempty
| h_new st c name df sym usym aliases v :
    history parse st -> c <> CCompound -> ~ In (UId c name) (dkeys (objs st)) ->
    (forall x, df = Some x -> c <> CDimless /\ def_ok (fun a => 0 < a)%R (objs st) x) ->
    snd (create_unit st c name df sym usym aliases) = Ok v ->
    history parse (fst (create_unit st c name df sym usym aliases))
| h_compound st name e v df :
    history parse st -> ~ In (UId CCompound name) (dkeys (objs st)) ->
    parse (preprocess (T name)) = Ok e -> product e -> eval st e = Ok v -> val_def st v = Some df ->
    def_ok (fun a => 0 < a)%R (objs st) df ->
    history parse (fst (create_compound parse st name))
| h_name st s i o :
    history parse st -> nth_error (objs st) i = Some o -> snd (set_item st s (VUnit i)) = Ok tt ->
    history parse (fst (set_item st s (VUnit i))).
