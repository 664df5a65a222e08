(** * Units: unit objects, their definitions and conversion references.

    Models /repo/quantities/unitquantity.py:23-100 and
    /repo/quantities/quantity.py:138-144. *)

From Verif Require Import Py Num Dim Arr.

Set Implicit Arguments.

Section Units.
  Context {A : Type} {N : Num A}.

  (** The [definition] argument of a unit: a scalar quantity [a * d], a plain
      number (which [definition *= dimensionless] turns into a quantity without
      units, unitquantity.py:57-58: [DQty a []]), or another unit object.
      Simplification: definitions are scalars. *)
  Inductive udef : Type :=
  | DQty (a : A) (d : dims)
  | DUnit (u : uid).

  (** What [UnitQuantity.__new__] stores (unitquantity.py:47-68). *)
  Record urec : Type := URec {
    ur_def : option udef;              (* _definition *)
    ur_ref : option (A * dims);        (* _conv_ref: magnitude and dimensionality *)
    ur_symbol : option string;         (* _symbol *)
    ur_usymbol : option string;        (* _u_symbol *)
    ur_aliases : list string;          (* _aliases *)
    ur_order : nat * nat               (* _format_order *)
  }.

  (** All unit objects created so far, by key. *)
  (** The unit objects of unitquantity.py:31-70; a key is the identity of a unit (unitquantity.py:85-86). *)
  Definition uenv : Type := list (uid * urec).

  (** Access to the attributes of a unit object (unitquantity.py:88-112). *)
  Definition ulookup (E : uenv) (u : uid) : option urec := dget uid_eqb E u.

  (** unitquantity.py:88-93 [_reference] of a unit object: [_conv_ref], or the unit
      itself (magnitude 1, its own dimensionality). *)
  Definition unit_ref (E : uenv) (u : uid) : A * dims :=
    match ulookup E u with
    | Some r => match ur_ref r with
                | Some x => x
                | None => (n1, unit_dims u)
                end
    | None => (n1, unit_dims u)
    end.

  (** quantity.py:141-143: the product over the dimensionality of the powers of the
      units' references, starting from [1*dimensionless]. *)
  Definition ref_step (E : uenv) (acc : A * dims) (kv : uid * pynum) : A * dims :=
    let '(u, d) := kv in
    (nmul (fst acc) (npow (fst (unit_ref E u)) d),
     dim_mul (snd acc) (dim_pow (snd (unit_ref E u)) d)).
  Definition ref_pair (E : uenv) (d : dims) : A * dims :=
    fold_left (ref_step E) d (n1, []).

  (** quantity.py:138-144 [_reference] of a scalar quantity [a * d]. *)
  Definition qty_ref (E : uenv) (a : A) (d : dims) : A * dims :=
    (nmul (fst (ref_pair E d)) a, snd (ref_pair E d)).

  (** unitquantity.py:60 [definition._reference]. *)
  Definition def_ref (E : uenv) (df : udef) : A * dims :=
    match df with
    | DQty a d => qty_ref E a d
    | DUnit u => unit_ref E u
    end.

  (** unitquantity.py:31-70 [UnitQuantity.__new__]: the record of a new unit. *)
  Definition new_unit (E : uenv) (order : nat * nat) (df : option udef)
             (sym usym : option string) (aliases : list string) : urec :=
    {| ur_def := df;
       ur_ref := option_map (def_ref E) df;
       ur_symbol := sym; ur_usymbol := usym; ur_aliases := aliases;
       ur_order := order |}.

End Units.

Arguments udef : clear implicits.
Arguments urec : clear implicits.
Arguments uenv : clear implicits.

(** A quantity: magnitudes and dimensionality (quantity.py:113-136). *)
Record qty (A : Type) : Type := Qty { mag : arr A; qdim : dims }.
