(** * Quant: conversion of quantities.

    Models /repo/quantities/quantity.py:19-54, 113-292 and
    /repo/quantities/unitquantity.py:114-116, 305-323. *)

From Verif Require Import Py Num Dim Arr Units.

Set Implicit Arguments.

Section Quant.
  Context {A : Type} {N : Num A}.

  (** [u] used as a quantity: a 0-d array holding 1.0 (unitquantity.py:47, 95-97). *)
  Definition unit_q (u : uid) : qty A := Qty (scalar n1) (unit_dims u).
  (** [Quantity(1.0, dims)]. *)
  (** quantity.py:184-185 [self.units] and quantity.py:228 [Quantity(1.0, to_dims)]. *)
  Definition one_q (d : dims) : qty A := Qty (scalar n1) d.

  (** quantity.py:138-144 [Quantity._reference]. *)
  Definition q_reference (E : uenv A) (q : qty A) : qty A :=
    Qty (amap (fun x => nmul (fst (ref_pair E (qdim q))) x) (mag q)) (snd (ref_pair E (qdim q))).

  (** quantity.py:48-54 [get_conversion_factor] between [Quantity(1.0, d1)] and
      [Quantity(1.0, d2)] (both pass [validate_unit_quantity]); the failed assert is
      AssertionError. *)
  Definition conv_factor (E : uenv A) (d1 d2 : dims) : res A :=
    let from_u := qty_ref E n1 d1 in
    let to_u := qty_ref E n1 d2 in
    if dim_eqb (snd from_u) (snd to_u)
    then Ok (ndiv (fst from_u) (fst to_u))
    else Err AssertionError.

  (** quantity.py:223-241 [rescale] once the target dimensionality is known.
      Simplification: dtypes are not represented here (see Dtype.v): [astype] and the
      cast of [cf] are the identity. *)
  Definition rescale_to (E : uenv A) (q : qty A) (to_dims : dims) : res (qty A) :=
    if dim_eqb (qdim q) to_dims then Ok q
    else match conv_factor E (qdim q) to_dims with
         | Ok cf => Ok (Qty (amap (fun x => nmul cf x) (mag q)) to_dims)
         | Err AssertionError => Err ValueError
         | Err e => Err e
         end.

  (** The default unit of each class of irreducible units, given by its
      dimensionality (unitquantity.py:292, 309-311: a quantity of magnitude 1). *)
  Definition defaults : Type := ucls -> option dims.

  (** [rq * x**d] on scalar quantities, as used by the two loops
      quantity.py:179-180 and dimensionality.py:38-40. *)
  Definition sc_mul_pow (rq x : A * dims) (d : pynum) : A * dims :=
    (nmul (fst rq) (npow (fst x) d), dim_mul (snd rq) (dim_pow (snd x) d)).

  (** quantity.py:176-181, unitquantity.py:114-116 and 305-307: [simplified] of a
      unit.  Irreducible units are rescaled to the class default; other units
      delegate to their reference, which is the unit itself when it has no
      definition: the recursion is then endless (fuel: RecursionError). *)
  Fixpoint simp_unit (fuel : nat) (E : uenv A) (D : defaults) (u : uid) : res (A * dims) :=
    match fuel with
    | 0 => Err RecursionError
    | S fuel' =>
        if is_irreducible (u_cls u) then
          match D (u_cls u) with
          | None => Err PlainException
          | Some dd =>
              if dim_eqb (unit_dims u) dd then Ok (n1, unit_dims u)
              else match conv_factor E (unit_dims u) dd with
                   | Ok cf => Ok (nmul cf n1, dd)
                   | Err AssertionError => Err ValueError
                   | Err e => Err e
                   end
          end
        else
          match ulookup E u with
          | Some r =>
              match ur_ref r with
              | Some (a, d) =>
                  rq <- fold_left (fun acc kv =>
                                     rq <- acc ;; x <- simp_unit fuel' E D (fst kv) ;;
                                     Ok (sc_mul_pow rq x (snd kv)))
                                  d (Ok (n1, [])) ;;
                  Ok (nmul (fst rq) a, snd rq)
              | None => simp_unit fuel' E D u
              end
          | None => simp_unit fuel' E D u
          end
    end.

  (** The loop of quantity.py:178-180. *)
  Definition simp_dims (fuel : nat) (E : uenv A) (D : defaults) (d : dims) : res (A * dims) :=
    fold_left (fun acc kv =>
                 rq <- acc ;; x <- simp_unit fuel E D (fst kv) ;;
                 Ok (sc_mul_pow rq x (snd kv)))
              d (Ok (n1, [])).

  (** quantity.py:176-181 [Quantity.simplified]. *)
  Definition simplified (fuel : nat) (E : uenv A) (D : defaults) (q : qty A) : res (qty A) :=
    rq <- simp_dims fuel E D (qdim q) ;;
    Ok (Qty (amap (fun x => nmul (fst rq) x) (mag q)) (snd rq)).

  (** dimensionality.py:33-41 [Dimensionality.simplified]. *)
  Definition dim_simplified (fuel : nat) (E : uenv A) (D : defaults) (d : dims) : res dims :=
    match d with
    | [] => Ok d
    | _ => rq <- simp_dims fuel E D d ;; Ok (snd rq)
    end.

  (** dimensionality.py:29-31 [ndims]. *)
  Definition sum_abs (d : dims) : Qc :=
    fold_right (fun kv acc => (pval (pabs (snd kv)) + acc)%Qc) 0%Qc d.
  Definition ndims (fuel : nat) (E : uenv A) (D : defaults) (d : dims) : res Qc :=
    s <- dim_simplified fuel E D d ;; Ok (sum_abs s).

  (** ** The [units] argument *)

  (** quantity.py:31-46 distinguishes strings, quantities, dimensionalities, others. *)
  Inductive uarg : Type :=
  | UStr (s : string)
  | UQty (q : qty A)
  | UDim (d : dims)
  | UOther.

  (** quantity.py:19-29 [validate_unit_quantity]: shape () or (1,), magnitude == 1. *)
  Definition is_unit_quantity (q : qty A) : bool :=
    match shp (mag q), dat (mag q) with
    | [], [x] => neqb x n1
    | [1], [x] => neqb x n1
    | _, _ => false
    end.

  Section WithLookup.
    (** The registry: string to quantity (Registry.v); an item without
        [dimensionality] attribute raises AttributeError. *)
    Variable lookup : string -> res (qty A).

    (** quantity.py:31-46.  The except clause of lines 33-36 retries the same lookup
        on KeyError; UnicodeDecodeError does not occur for str. *)
    Definition validate_dimensionality (value : uarg) : res dims :=
      match value with
      | UStr s => match lookup s with
                  | Ok q => Ok (qdim q)
                  | Err KeyError => rmap (@qdim A) (lookup s)
                  | Err e => Err e
                  end
      | UQty q => if is_unit_quantity q then Ok (qdim q) else Err ValueError
      | UDim d => Ok d
      | UOther => Err TypeError
      end.

    (** quantity.py:212-241 with an explicit [units]. *)
    Definition rescale (E : uenv A) (q : qty A) (units : uarg) : res (qty A) :=
      to_dims <- validate_dimensionality units ;; rescale_to E q to_dims.

    (** [if units:] for each kind of argument (quantity.py:124); the truth value of
        an array with more than one element raises ValueError, that of an empty one
        is False. *)
    Definition truthy (units : uarg) : res bool :=
      match units with
      | UStr EmptyString => Ok false
      | UStr _ => Ok true
      | UQty q => match dat (mag q) with
                  | [] => Ok false
                  | [x] => Ok (negb (neqb x n0))
                  | _ => Err ValueError
                  end
      | UDim d => Ok (dim_nonempty d)
      | UOther => Ok true
      end.

    (** A numeric operand: a Quantity (units included) or plain data. *)
    (** quantity.py:59-61: what a binary operator receives. *)
    Inductive operand : Type :=
    | OQ (q : qty A)
    | OArr (a : arr A).

    (** quantity.py:118-132 [Quantity.__new__] (no dtype argument). *)
    Definition q_new (E : uenv A) (data : operand) (units : uarg) : res (qty A) :=
      match data with
      | OQ q => b <- truthy units ;; if b then rescale E q units else Ok q
      | OArr a => d <- validate_dimensionality units ;; Ok (Qty a d)
      end.
  End WithLookup.

  (** quantity.py:263-278 [dimensionless_magnitude]: the target is the
      [dimensionless] unit object, whose dimensionality is empty. *)
  Definition dimensionless_magnitude (E : uenv A) (q : qty A) : res (arr A) :=
    rmap (@mag A) (rescale_to E q []).
End Quant.

Arguments uarg : clear implicits.
Arguments operand : clear implicits.

(** dimensionality.py:205-215 [__gt__], [__ge__], [__lt__], [__le__]. *)
Inductive cmp_op : Type := CLt | CLe | CGt | CGe.
Definition qc_cmp (op : cmp_op) (x y : Qc) : bool :=
  match op with
  | CLt => Qcltb x y
  | CLe => negb (Qcltb y x)
  | CGt => Qcltb y x
  | CGe => negb (Qcltb x y)
  end.
Definition py_dim_cmp {A} {N : Num A} (fuel : nat) (E : uenv A) (D : defaults)
           (op : cmp_op) (d1 d2 : dims) : res bool :=
  n1 <- ndims fuel E D d1 ;; n2 <- ndims fuel E D d2 ;; Ok (qc_cmp op n1 n2).
