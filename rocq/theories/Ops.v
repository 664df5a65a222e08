(** * Ops: operators and comparisons of quantities.

    Models /repo/quantities/quantity.py:56-111 (decorators), 336-407 (operators) and
    454-490 (comparisons); the unit objects' versions (unitquantity.py:168-223)
    delegate to these with the unit viewed as a quantity of magnitude 1. *)
From Verif Require Import Py Num Dim Arr Units Quant Ufunc.

Set Implicit Arguments.

Section Ops.
  Context {A : Type} {N : Num A}.

  (** quantity.py:59-61: a plain operand becomes a quantity without units
      ([view(type=Quantity)]). *)
  Definition as_q (o : operand A) : qty A :=
    match o with OQ q => q | OArr a => Qty a [] end.

  (** quantity.py:56-65 [scale_other_units]. *)
  Definition scale_other (E : uenv A) (self : qty A) (other : operand A) : res (qty A) :=
    let o := as_q other in
    if dim_eqb (qdim o) (qdim self) then Ok o else rescale_to E o (qdim self).

  (** quantity.py:336-339, 352-355, 368-371: [self + other], [self - other],
      [self % other]. *)
  Definition q_add (E : uenv A) (self : qty A) (other : operand A) : res (qty A) :=
    o <- scale_other E self other ;; apply2 nadd RUniform (OQ self) (OQ o).
  Definition q_sub (E : uenv A) (self : qty A) (other : operand A) : res (qty A) :=
    o <- scale_other E self other ;; apply2 nsub RUniform (OQ self) (OQ o).
  Definition q_mod (E : uenv A) (self : qty A) (other : operand A) : res (qty A) :=
    o <- scale_other E self other ;; apply2 nmod RUniform (OQ self) (OQ o).
  (** quantity.py:341-345, 357-361: [other + self], [other - self]. *)
  Definition q_radd (E : uenv A) (self : qty A) (other : operand A) : res (qty A) :=
    o <- scale_other E self other ;; apply2 nadd RUniform (OQ o) (OQ self).
  Definition q_rsub (E : uenv A) (self : qty A) (other : operand A) : res (qty A) :=
    o <- scale_other E self other ;; apply2 nsub RUniform (OQ o) (OQ self).
  (** [x % q]: Quantity does not define [__rmod__], ndarray's is np.remainder(x, q). *)
  (** Not defined in quantity.py:368-376; dimensionality.py:246-273 decides. *)
  Definition q_rmod (self : qty A) (other : arr A) : res (qty A) :=
    apply2 nmod RUniform (OArr other) (OQ self).

  (** [*], [/], [//] (quantity.py:383-386, 393-396; the others are ndarray's):
      np.multiply, np.true_divide, np.floor_divide. *)
  Definition q_mul (o1 o2 : operand A) : res (qty A) := apply2 nmul RMul o1 o2.
  Definition q_div (o1 o2 : operand A) : res (qty A) := apply2 ndiv RDiv o1 o2.
  Definition q_fdiv (o1 o2 : operand A) : res (qty A) := apply2 nfdiv RDiv o1 o2.

  (** quantity.py:78-89 [check_uniform] and 398-401 [__pow__]. *)
  Definition q_pow (self : qty A) (other : operand pynum) : res (qty A) :=
    _ <- match other with
         | OQ p => if dim_nonempty (qdim p) then Err ValueError else Ok tt
         | OArr _ => Ok tt
         end ;;
    match uniform (dat (odat other)) with
    | None => Err ValueError
    | Some _ => apply_power (OQ self) (OArr (odat other))
    end.
  (** [x ** q], x plain: ndarray's [__rpow__] is np.power(x, q). *)
  (** Not defined in quantity.py:398-407; dimensionality.py:302-313 decides. *)
  Definition q_rpow (self : qty pynum) (other : arr A) : res (qty A) :=
    apply_power (OArr other) (OQ self).

  (** [-q], [abs(q)]: ndarray's np.negative, np.absolute. *)
  (** dimensionality.py:323-328 decides. *)
  Definition q_neg (E : uenv A) (q : qty A) : res (qty A) := apply1 E nneg UNegative q.
  (** dimensionality.py:323-328 decides. *)
  Definition q_abs (E : uenv A) (q : qty A) : res (qty A) := apply1 E nabs UAbsolute q.
  (** [+q]: np.positive, not in the table. *)
  (** quantity.py:300-312: a ufunc without entry in [p_dict] raises. *)
  Definition q_pos (E : uenv A) (q : qty A) : res (qty A) := apply1 E (fun x => x) UMissing1 q.

  (** The comparison of two elements. *)
  (** NumPy comparison of elements (quantity.py:456-490). *)
  Definition ncmp (c : ucmp) (x y : A) : bool :=
    match c with
    | UEq => neqb x y
    | UNe => negb (neqb x y)
    | ULt => nltb x y
    | ULe => nleb x y
    | UGt => nltb y x
    | UGe => nleb y x
    end.

  (** quantity.py:102-110 [wrap_comparison] with 454-462, 482-490: [<], [<=], [>], [>=];
      the result is a plain boolean array. *)
  Definition q_order (E : uenv A) (c : ucmp) (self : qty A) (other : operand A) : res (arr bool) :=
    o <- match other with
         | OQ q => if dim_eqb (qdim q) (qdim self) then Ok (mag q)
                   else rmap (@mag A) (rescale_to E q (qdim self))
         | OArr a => Ok a
         end ;;
    amap2 (ncmp c) (mag self) o.

  (** quantity.py:464-480: [==] and [!=]. *)
  Definition q_eqne (E : uenv A) (c : ucmp) (self : qty A) (other : operand A) : res (arr bool) :=
    match other with
    | OQ q =>
        match rescale_to E q (qdim self) with
        | Ok r => amap2 (ncmp c) (mag self) (mag r)
        | Err ValueError =>
            Ok (amap (fun _ => match c with UEq => false | _ => true end) (mag self))
        | Err e => Err e
        end
    | OArr a => amap2 (ncmp c) (mag self) a
    end.
  Definition q_eq (E : uenv A) := q_eqne E UEq.
  Definition q_ne (E : uenv A) := q_eqne E UNe.
End Ops.
