(** * Import: creating the units of a table one after the other.

    Importing /repo/quantities executes the constructor calls of
    /repo/quantities/units/*.py (Table.v) in order.  An exception would end the import. *)
From Verif Require Import Py Num Dim Arr Units Text Lex Registry Table.

Section Import.
  Context {A : Type} {N : Num A}.
  Variable parse : text -> res expr.

  (** One constructor call (unitquantity.py:31-80, 294-303, 375-380, 413-423).  The
      definition is the value of a Python expression over the units created before; it
      is evaluated like a label (registry.py:35-44), which is the same computation:
      quantity.py:336-401, unitquantity.py:168-223.
      Simplification: the bindings of the classes (unitquantity.py:287, 406
      [unit_registry['UnitQuantity'] = UnitQuantity]) are left out. *)
  Definition tstep (st : rstate A) (e : tentry) : rstate A * res (value A) :=
    match e with
    | TNew c name None sym usym al => create_unit st c name None sym usym al
    | TNew c name (Some x) sym usym al =>
        match eval st x with
        | Err e => (st, Err e)
        | Ok v => match val_def st v with
                  | None => (st, Err Unmodelled)
                  | Some df => create_unit st c name (Some df) sym usym al
                  end
        end
    | TComp name => create_compound parse st name
    end.
  (** The statements of the modules, in order, up to the first exception. *)
  (** units/*.py in import order (units/__init__.py). *)
  Fixpoint trun (st : rstate A) (l : list tentry) : rstate A * res unit :=
    match l with
    | [] => (st, Ok tt)
    | e :: l' => match tstep st e with
                 | (st1, Ok _) => trun st1 l'
                 | (st1, Err x) => (st1, Err x)
                 end
    end.
End Import.

(** The unit that an entry creates and the names that it registers. *)
(** unitquantity.py:31-70. *)
Definition entry_uid (e : tentry) : uid :=
  match e with TNew c name _ _ _ _ => UId c name | TComp name => UId CCompound name end.
(** unitquantity.py:72-80. *)
Definition entry_names (e : tentry) : list text :=
  match e with TNew c name _ sym _ al => reg_names c name sym al | TComp _ => [] end.
