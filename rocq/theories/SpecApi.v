(** * SpecApi: reading of API arguments, used by the statements of theorems. *)
From Coq Require Import Reals.
From Verif Require Import Py Num Dim Arr Units Spec Quant.

(** The [units] argument of an API call denotes the dimensionality [d]: a string the
    registry resolves, a scalar quantity (shape () or (1,)) of magnitude one, or a
    dimensionality. *)
Inductive denotes_units {A} {N : Num A} (lookup : string -> res (qty A)) : uarg A -> dims -> Prop :=
| den_str s q : lookup s = Ok q -> denotes_units lookup (UStr s) (qdim q)
| den_qty q x : (mag q = Arr [] [x] \/ mag q = Arr [1%nat] [x]) -> neqb x n1 = true ->
                denotes_units lookup (UQty q) (qdim q)
| den_dim d : denotes_units lookup (UDim d) d.

(** A registry whose entries have well-formed dimensionalities. *)
Definition lookup_ok {A} (lookup : string -> res (qty A)) : Prop :=
  forall s q, lookup s = Ok q -> dims_ok (qdim q).

(** [E'] extends [E] by further units. *)
Definition extends {A} (E E' : uenv A) : Prop := exists X, E' = E ++ X.
(** All units of [d] exist in [E]. *)
Definition known {A} (E : uenv A) (d : dims) : Prop := forall u, In u (dkeys d) -> In u (dkeys E).
