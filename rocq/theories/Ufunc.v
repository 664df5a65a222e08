(** * Ufunc: the units of NumPy ufuncs applied to quantities.

    Models /repo/quantities/dimensionality.py:221-405 (the table [p_dict]) and
    /repo/quantities/quantity.py:297-333 ([__array_prepare__], [__array_wrap__]).

    NumPy computes the output array (broadcasting the operands) and lets the
    Quantity operand wrap it; the wrapper calls [p_dict[ufunc]] on the operands.  The
    entries for np.cross, np.ones_like, np.fix and np.clip are not ufuncs and are
    never looked up by the wrapper. *)
From Coq Require Import Reals.
From Verif Require Import Py Num Dim Arr Units Quant.

Set Implicit Arguments.

(** ** The table *)

(** Unary ufuncs.  [UIs]: those whose name starts with "is" (isnan, isinf, isfinite,
    isnat: quantity.py:308-309).  [UMissing1]: every ufunc without entry (positive,
    sign, signbit, trunc, cbrt, invert, spacing, ...). *)
Inductive uf1 : Type :=
| UFabs | UAbsolute | UConjugate | UNegative | URint | UFloor | UCeil
| USquare | UReciprocal | USqrt
| URadians | UDegrees
| ULog | ULog10 | ULog2 | ULog1p | UExp | UExp2 | UExpm1
| USin | USinh | UCos | UCosh | UTan | UTanh
| UArcsin | UArcsinh | UArccos | UArccosh | UArctan | UArctanh
| UIs | UMissing1.

Inductive rule1 : Type :=
| RCopy | RPow (p : pynum) | RRadians | RDegrees | RDimless | RTrig | RArctrig | RPlain | RMissing.

(** dimensionality.py:315-405. *)
Definition rule_of1 (f : uf1) : rule1 :=
  match f with
  | UFabs | UAbsolute | UConjugate | UNegative | URint | UFloor | UCeil => RCopy
  | USquare => RPow (PInt 2)
  | UReciprocal => RPow (PInt (-1))
  | USqrt => RPow (PFlt (Q2Qc (1 # 2)))
  | URadians => RRadians
  | UDegrees => RDegrees
  | ULog | ULog10 | ULog2 | ULog1p | UExp | UExp2 | UExpm1 => RDimless
  | USin | USinh | UCos | UCosh | UTan | UTanh => RTrig
  | UArcsin | UArcsinh | UArccos | UArccosh | UArctan | UArctanh => RArctrig
  | UIs => RPlain
  | UMissing1 => RMissing
  end.

(** Binary ufuncs with numeric results; the comparison ufuncs are [ucmp]. *)
(** dimensionality.py:223-313, 371-379, the keys of [p_dict]. *)
Inductive uf2 : Type :=
| UMultiply | UDivide | UFloorDivide
| UAdd | USubtract | UMod | UFmod | UHypot | UMaximum | UMinimum
| UArctan2 | ULogaddexp | ULogaddexp2 | UMissing2.
(** dimensionality.py:281-286. *)
Inductive ucmp : Type := UEq | UNe | ULt | ULe | UGt | UGe.

(** dimensionality.py:223-313, 367-379: the functions stored in [p_dict]. *)
Inductive rule2 : Type := RMul | RDiv | RUniform | RArctan2 | RDimless2 | RMissing2.

(** dimensionality.py:223-313, 371-379 (np.mod and np.remainder are the same ufunc). *)
Definition rule_of2 (f : uf2) : rule2 :=
  match f with
  | UMultiply => RMul
  | UDivide | UFloorDivide => RDiv
  | UAdd | USubtract | UMod | UFmod | UHypot | UMaximum | UMinimum => RUniform
  | UArctan2 => RArctan2
  | ULogaddexp | ULogaddexp2 => RDimless2
  | UMissing2 => RMissing2
  end.

Definition odat {A} (o : operand A) : arr A :=
  match o with OQ q => mag q | OArr a => a end.

(** The names 'radian' and 'degree' in the registry. *)
(** units/angle.py; looked up at dimensionality.py:383, 359. *)
Definition k_radian : uid := UId CQuantity "radian".
(** units/angle.py; looked up at dimensionality.py:349. *)
Definition k_degree : uid := UId CQuantity "degree".

Section Rules.
  Context {A : Type} {N : Num A}.

  (** [q.units == unit] (dimensionality.py:349, 359, 383): the right operand's class
      is a subclass of Quantity, so Python evaluates [unit == q.units] first:
      quantity.py:464-471, one unit of [q] is rescaled to [unit] and compared with
      1; inconvertible units compare unequal. *)
  Definition units_eq (E : uenv A) (d : dims) (u : uid) : bool :=
    match rescale_to E (one_q d) (unit_dims u) with
    | Ok r => match dat (mag r) with [x] => neqb n1 x | _ => false end
    | Err _ => false
    end.

  (** dimensionality.py:315-405: the dimensionality of the result of a unary ufunc. *)
  Definition pd1 (E : uenv A) (r : rule1) (d : dims) : res dims :=
    match r with
    | RCopy => Ok d
    | RPow p => Ok (dim_pow d p)
    | RRadians => if units_eq E d k_degree then Ok (unit_dims k_radian) else Err ValueError
    | RDegrees => if units_eq E d k_radian then Ok (unit_dims k_degree) else Err ValueError
    | RDimless => if dim_nonempty d then Err ValueError else Ok []
    | RTrig => if units_eq E d k_radian then Ok [] else Err ValueError
    | RArctrig => if dim_nonempty d then Err ValueError else Ok (unit_dims k_radian)
    | RPlain => Ok []
    | RMissing => Err ValueError
    end.

  (** All elements zero: [not np.asarray(x).any()]. *)
  (** dimensionality.py:258, 264. *)
  Definition all_zero (a : arr A) : bool := forallb (fun x => neqb x n0) (dat a).

  (** dimensionality.py:223-313, 367-379 for two operands of which at least one is a
      quantity. *)
  Definition pd2 (r : rule2) (o1 o2 : operand A) : res dims :=
    match r with
    | RMul =>
        (* 223-231: without [_dimensionality] on one side, the other side's *)
        match o1, o2 with
        | OQ q1, OQ q2 => Ok (dim_mul (qdim q1) (qdim q2))
        | OQ q1, OArr _ => Ok (qdim q1)
        | OArr _, OQ q2 => Ok (qdim q2)
        | OArr _, OArr _ => Err AttributeError
        end
    | RDiv =>
        (* 235-243 *)
        match o1, o2 with
        | OQ q1, OQ q2 => Ok (dim_div (qdim q1) (qdim q2))
        | OQ q1, OArr _ => Ok (qdim q1)
        | OArr _, OQ q2 => Ok (dim_pow (qdim q2) (PInt (-1)))
        | OArr _, OArr _ => Err AttributeError
        end
    | RUniform =>
        (* 248-275; the message of the second ValueError (272-275) reads [.units] of
           both operands, one of which is plain: AttributeError *)
        match o1, o2 with
        | OQ q1, OQ q2 => if dim_eqb (qdim q1) (qdim q2) then Ok (qdim q1) else Err ValueError
        | OQ q1, OArr a => if negb (dim_nonempty (qdim q1)) || all_zero a then Ok (qdim q1) else Err AttributeError
        | OArr a, OQ q2 => if negb (dim_nonempty (qdim q2)) || all_zero a then Ok (qdim q2) else Err AttributeError
        | OArr _, OArr _ => Err AttributeError
        end
    | RArctan2 =>
        (* 292-301 *)
        match o1, o2 with
        | OQ q1, OQ q2 => if dim_eqb (qdim q1) (qdim q2) then Ok [] else Err ValueError
        | _, _ => Err AttributeError
        end
    | RDimless2 =>
        (* 370-373 called with two operands: the second is bound to [out] *)
        match o1 with
        | OQ q1 => if dim_nonempty (qdim q1) then Err ValueError else Ok []
        | OArr _ => Ok []
        end
    | RMissing2 => Err ValueError
    end.

  (** quantity.py:297-333: a unary ufunc computing [g] elementwise. *)
  Definition apply1 (E : uenv A) (g : A -> A) (f : uf1) (q : qty A) : res (qty A) :=
    d <- pd1 E (rule_of1 f) (qdim q) ;; Ok (Qty (amap g (mag q)) d).

  (** A binary ufunc computing [g] elementwise with broadcasting; the result of a
      comparison ufunc is a boolean array that carries units all the same. *)
  (** quantity.py:297-333 for two operands. *)
  Definition apply2 {C} (g : A -> A -> C) (r : rule2) (o1 o2 : operand A) : res (qty C) :=
    m <- amap2 g (odat o1) (odat o2) ;; d <- pd2 r o1 o2 ;; Ok (Qty m d).

  (** A uniform array of exponents: its value ([q2.min()] if it equals [q2.max()];
      the minimum of an empty array raises ValueError as well). *)
  (** dimensionality.py:304-310, quantity.py:80-87. *)
  Definition uniform (l : list pynum) : option pynum :=
    match l with
    | [] => None
    | p :: l' => if forallb (fun x => peqb x p) l' then Some p else None
    end.

  (** dimensionality.py:302-313 [_d_power] and the elementwise power. *)
  Definition apply_power (o1 : operand A) (o2 : operand pynum) : res (qty A) :=
    m <- amap2 npow (odat o1) (odat o2) ;;
    _ <- match o2 with
         | OQ p => if dim_nonempty (qdim p) then Err ValueError else Ok tt
         | OArr _ => Ok tt
         end ;;
    match uniform (dat (odat o2)) with
    | None => Err ValueError
    | Some p => Ok (Qty m match o1 with OQ q => dim_pow (qdim q) p | OArr _ => [] end)
    end.
End Rules.

(** ** The numeric functions, over the reals *)
Open Scope R_scope.

(** Truncation toward zero, rounding to nearest even. *)
(** NumPy (np.trunc, np.fix). *)
Definition Rtrunc (x : R) : R := if Rltb x 0 then - IZR (Int_part (- x)) else IZR (Int_part x).
(** NumPy (np.rint). *)
Definition Rrint (x : R) : R :=
  let n := Int_part x in
  let f := x - IZR n in
  if Rltb f (1/2) then IZR n
  else if Rltb (1/2) f then IZR (n + 1)
  else if Z.even n then IZR n else IZR (n + 1).
(** NumPy (np.arctan2). *)
Definition Ratan2 (y x : R) : R :=
  if Rltb 0 x then atan (y / x)
  else if Rltb x 0 then (if Rleb 0 y then atan (y / x) + PI else atan (y / x) - PI)
  else if Rltb 0 y then PI / 2 else if Rltb y 0 then - (PI / 2) else 0.

(** NumPy: the mathematical function of each unary ufunc of dimensionality.py:315-405. *)
Definition R_uf1 (f : uf1) (x : R) : R :=
  match f with
  | UFabs | UAbsolute => Rabs x
  | UConjugate => x
  | UNegative => - x
  | URint => Rrint x
  | UFloor => IZR (Int_part x)
  | UCeil => - IZR (Int_part (- x))
  | USquare => x * x
  | UReciprocal => / x
  | USqrt => sqrt x
  | URadians => x * (PI / 180)
  | UDegrees => x * (180 / PI)
  | ULog => ln x
  | ULog10 => ln x / ln 10
  | ULog2 => ln x / ln 2
  | ULog1p => ln (1 + x)
  | UExp => exp x
  | UExp2 => Rpower 2 x
  | UExpm1 => exp x - 1
  | USin => sin x
  | USinh => sinh x
  | UCos => cos x
  | UCosh => cosh x
  | UTan => tan x
  | UTanh => tanh x
  | UArcsin => asin x
  | UArcsinh => arcsinh x
  | UArccos => acos x
  | UArccosh => ln (x + sqrt (x * x - 1))
  | UArctan => atan x
  | UArctanh => ln ((1 + x) / (1 - x)) / 2
  | UIs => 0
  | UMissing1 => x
  end.

(** NumPy: the mathematical function of each binary ufunc of dimensionality.py:223-313. *)
Definition R_uf2 (f : uf2) (x y : R) : R :=
  match f with
  | UMultiply => x * y
  | UDivide => x / y
  | UFloorDivide => nfdiv x y
  | UAdd => x + y
  | USubtract => x - y
  | UMod => nmod x y
  | UFmod => x - Rtrunc (x / y) * y
  | UHypot => sqrt (x * x + y * y)
  | UMaximum => Rmax x y
  | UMinimum => Rmin x y
  | UArctan2 => Ratan2 x y
  | ULogaddexp => ln (exp x + exp y)
  | ULogaddexp2 => ln (Rpower 2 x + Rpower 2 y) / ln 2
  | UMissing2 => x
  end.

(** [np.f(q)] and [np.f(o1, o2)] over the reals. *)
(** quantity.py:297-333 with the real functions above. *)
Definition np1 (E : uenv R) (f : uf1) (q : qty R) : res (qty R) := apply1 E (R_uf1 f) f q.
(** quantity.py:297-333 with the real functions above. *)
Definition np2 (f : uf2) (o1 o2 : operand R) : res (qty R) := apply2 (R_uf2 f) (rule_of2 f) o1 o2.
