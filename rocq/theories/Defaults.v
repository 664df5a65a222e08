(** * Defaults: default units of the base-unit classes.

    Models /repo/quantities/unitquantity.py:290-323 (IrreducibleUnit) and 456-500
    (set_default_units). *)
From Verif Require Import Py Num Dim Arr Units Quant.

Set Implicit Arguments.

Section Defaults.
  Context {A : Type} {N : Num A}.
  (** The registry (Registry.v). *)
  Variable lookup : string -> res (qty A).

  (** unitquantity.py:323 [cls._default_unit = unit]. *)
  Definition set_cls (D : defaults) (c : ucls) (d : dims) : defaults :=
    fun c' => if ucls_eqb c c' then Some d else D c'.

  (** unitquantity.py:294-303 [IrreducibleUnit.__init__]: the first unit of a class
      becomes its default. *)
  Definition init_default (D : defaults) (u : uid) : defaults :=
    if is_irreducible (u_cls u)
    then match D (u_cls u) with
         | None => set_cls D (u_cls u) (unit_dims u)
         | Some _ => D
         end
    else D.

  (** Arguments of [set_default_unit]. *)
  (** unitquantity.py:312-316. *)
  Inductive sarg : Type := SNone | SStr (s : string) | SQty (q : qty A) | SOther.

  (** unitquantity.py:317-323 once [unit] is an object: only ValueError (from
      [validate_unit_quantity]) is turned into TypeError; the AssertionError of
      [get_conversion_factor] escapes.  A class without default fails
      [validate_unit_quantity(None)]. *)
  Definition set_default_q (E : uenv A) (D : defaults) (c : ucls) (q : qty A) : defaults * res unit :=
    match D c with
    | None => (D, Err TypeError)
    | Some dd =>
        if is_unit_quantity q then
          match conv_factor E dd (qdim q) with
          | Ok _ => (set_cls D c (qdim q), Ok tt)
          | Err ValueError => (D, Err TypeError)
          | Err e => (D, Err e)
          end
        else (D, Err TypeError)
    end.
  (** unitquantity.py:312-323 [set_default_unit]. *)
  Definition set_default_unit (E : uenv A) (D : defaults) (c : ucls) (arg : sarg) : defaults * res unit :=
    match arg with
    | SNone => (D, Ok tt)
    | SStr s => match lookup s with
                | Ok q => set_default_q E D c q
                | Err e => (D, Err e)
                end
    | SQty q => set_default_q E D c q
    | SOther => (D, Err TypeError)
    end.

  (** unitquantity.py:475-500 [set_default_units]: a sequence of calls, the first
      exception ends it and the earlier calls stay in effect. *)
  Fixpoint set_defaults (E : uenv A) (D : defaults) (l : list (ucls * sarg)) : defaults * res unit :=
    match l with
    | [] => (D, Ok tt)
    | (c, a) :: l' =>
        match set_default_unit E D c a with
        | (D', Ok _) => set_defaults E D' l'
        | (D', Err e) => (D', Err e)
        end
    end.
  (** The [system] argument after [.lower()]. *)
  (** unitquantity.py:475-479. *)
  Inductive usystem : Type := NoSystem | SysSI | SysCGS | SysBad.
  (** unitquantity.py:480-490. *)
  Definition system_calls (s : usystem) : list (ucls * sarg) :=
    let common := [(CLumInt, SStr "cd"); (CSubstance, SStr "mol"); (CTemperature, SStr "degK"); (CTime, SStr "s")]%string in
    match s with
    | SysSI => [(CCurrent, SStr "A"); (CLength, SStr "m"); (CMass, SStr "kg")]%string ++ common
    | SysCGS => [(CLength, SStr "cm"); (CMass, SStr "g")]%string ++ common
    | _ => []
    end.
  (** unitquantity.py:456-500. *)
  Definition set_default_units (E : uenv A) (D : defaults) (sys : usystem)
             (currency current information length lumint mass substance temperature time : sarg)
             : defaults * res unit :=
    match sys with
    | SysBad => (D, Err ValueError)
    | _ => set_defaults E D (system_calls sys ++
             [(CCurrency, currency); (CCurrent, current); (CInformation, information);
              (CLength, length); (CLumInt, lumint); (CMass, mass); (CSubstance, substance);
              (CTemperature, temperature); (CTime, time)])
    end.
End Defaults.
Arguments sarg : clear implicits.
