(** * Spec: what the numbers mean, independently of how /repo converts units.

    A reader who wants to know what the value-level theorems claim needs only this
    file, [exp_of] (Dim.v) and the array operations (Arr.v). *)

From Coq Require Import Reals.
From Verif Require Import Py Num Dim Arr Units.

Open Scope R_scope.

(** An interpretation gives every unit a size (a real number). *)
Definition interp := uid -> R.

(** The size of a product of powers of units. *)
Fixpoint dimval (phi : interp) (d : dims) : R :=
  match d with
  | [] => 1
  | (u, e) :: d' => Rpower (phi u) (Qc2R (pval e)) * dimval phi d'
  end.

(** The size a definition prescribes for the unit it defines. *)
Definition defval (phi : interp) (df : udef R) : R :=
  match df with
  | DQty a d => a * dimval phi d
  | DUnit u => dimval phi (unit_dims u)
  end.

(** An interpretation is consistent with a collection of unit definitions if all
    sizes are positive and every defined unit has the size its definition says. *)
Definition consistent (E : uenv R) (phi : interp) : Prop :=
  (forall u, 0 < phi u) /\
  (forall u r df, ulookup E u = Some r -> ur_def r = Some df -> phi u = defval phi df).

(** Collections of unit definitions that can be built by creating units one after
    the other: a new key, a positive factor, built from units created before.
    ([Dimensionless] objects carry no definition.) *)
Definition def_ok {A} (pos : A -> Prop) (E : uenv A) (df : udef A) : Prop :=
  match df with
  | DQty a d => pos a /\ wf_dims d /\ forall u, In u (dkeys d) -> In u (dkeys E) /\ u_cls u <> CDimless
  | DUnit u => In u (dkeys E)
  end.

Inductive env_ok {A} {N : Num A} (pos : A -> Prop) : uenv A -> Prop :=
| env_nil : env_ok pos []
| env_new E u order df sym usym aliases :
    env_ok pos E ->
    ~ In u (dkeys E) ->
    (forall x, df = Some x -> u_cls u <> CDimless /\ def_ok pos E x) ->
    env_ok pos (E ++ [(u, new_unit E order df sym usym aliases)]).

(** Real environments: positive factors. *)
Definition renv_ok (E : uenv R) : Prop := env_ok (fun a => 0 < a) E.

(** Dimensionalities of quantities: well-formed dictionaries without the
    [Dimensionless] objects (whose own dimensionality is empty). *)
Definition dims_ok (d : dims) : Prop :=
  wf_dims d /\ forall u, In u (dkeys d) -> u_cls u <> CDimless.

(** There is a conversion factor [c] from [d1] to [d2]: 1 [d1] is [c] [d2] whatever
    sizes the units have. *)
Definition converts (E : uenv R) (d1 d2 : dims) (c : R) : Prop :=
  forall phi, consistent E phi -> dimval phi d1 = c * dimval phi d2.
Definition convertible (E : uenv R) (d1 d2 : dims) : Prop := exists c, converts E d1 d2 c.

(** The physical value of a quantity: its magnitudes times the size of its units. *)
Definition phys (phi : interp) (q : qty R) : arr R :=
  amap (fun x => x * dimval phi (qdim q)) (mag q).

(** Quantities that can exist: as many magnitudes as the shape says, a well-formed
    dimensionality. *)
Definition qty_ok {A} (q : qty A) : Prop := awf (mag q) /\ dims_ok (qdim q).

(** Two quantities denote the same thing in every consistent system of unit sizes. *)
Definition same_value (E : uenv R) (q1 q2 : qty R) : Prop :=
  forall phi, consistent E phi -> phys phi q1 = phys phi q2.

(** Same magnitudes and the same units (as a map from units to exponents). *)
Definition qsame {A} (q1 q2 : qty A) : Prop :=
  mag q1 = mag q2 /\ forall u, exp_of (qdim q1) u = exp_of (qdim q2) u.

(** ** [simplified] *)

(** [u] has no definition: it is a primitive unit. *)
Definition undefined_unit {A} (E : uenv A) (u : uid) : Prop :=
  forall r, ulookup E u = Some r -> ur_def r = None.

(** Every class of base units has a base unit without definition ([root c], e.g. the
    metre for lengths); the default unit of the class, if it has one, is convertible to
    it.  (A class without any unit, such as the currencies of /repo, has no default.) *)
Definition std_defaults (E : uenv R) (D : ucls -> option dims) (root : ucls -> uid) : Prop :=
  forall c, is_irreducible c = true ->
    u_cls (root c) = c /\ undefined_unit E (root c) /\
    forall dd, D c = Some dd -> dims_ok dd /\ convertible E dd [(root c, PInt 1)].

(** A unit that can be expressed by base units of classes that have a default: an
    instance of a base-unit class must be convertible to the base unit of its own
    class, any other unit to a product of powers of base units. *)
Definition simplifiable (E : uenv R) (D : ucls -> option dims) (root : ucls -> uid) (u : uid) : Prop :=
  if is_irreducible (u_cls u)
  then D (u_cls u) <> None /\ convertible E (unit_dims u) [(root (u_cls u), PInt 1)]
  else exists d, dims_ok d /\
         (forall w, In w (dkeys d) -> exists c, is_irreducible c = true /\ D c <> None /\ w = root c) /\
         convertible E (unit_dims u) d.
