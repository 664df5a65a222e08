(** * Kimport: creating the physical constants.

    Importing /repo/quantities executes the constructor calls of
    /repo/quantities/constants/*.py (Constants.v) after those of units/*.py
    (quantities/__init__.py:280-286).  An exception would end the import. *)
From Verif Require Import Py Num Dim Arr Units Quant Text Lex Registry Constants.

Section Kimport.
  Context {A : Type} {N : Num A}.
  Variable parse : text -> res expr.

  (** constants/_utils.py:6-13 [_cd(name)] = [Quantity(value, label)]
      (quantity.py:123-124, 28-37: the dimensionality of what the registry makes of the
      label); without label unitquantity.py:56-58 [definition *= dimensionless]. *)
  Definition kdef (st : rstate A) (e : kentry) : res (udef A) :=
    match k_label e with
    | None => Ok (DQty (nofQ (k_value e)) [])
    | Some l => q <- reg_lookup parse st l ;; Ok (DQty (nofQ (k_value e)) (qdim q))
    end.
  (** One [UnitConstant(name, definition, symbol, u_symbol, aliases)]
      (unitquantity.py:31-70, 440-453). *)
  Definition kstep (st : rstate A) (e : kentry) : rstate A * res (value A) :=
    match kdef st e with
    | Err x => (st, Err x)
    | Ok df => create_unit st CConstant (k_name e) (Some df) (k_sym e) (k_usym e) (k_aliases e)
    end.
  (** constants/*.py in import order (constants/__init__.py:1-19), up to the first
      exception. *)
  Fixpoint krun (st : rstate A) (l : list kentry) : rstate A * res unit :=
    match l with
    | [] => (st, Ok tt)
    | e :: l' => match kstep st e with
                 | (st1, Ok _) => krun st1 l'
                 | (st1, Err x) => (st1, Err x)
                 end
    end.
End Kimport.
(** The unit object that an entry creates. *)
(** unitquantity.py:31-70. *)
Definition k_uid (e : kentry) : uid := UId CConstant (k_name e).
