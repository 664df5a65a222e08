(** * Uncert: quantities with uncertainties.

    Models /repo/quantities/uncertainquantity.py.  An uncertain quantity is a value
    and an uncertainty, two quantities; nothing forces their shapes and units to
    agree, that is a theorem about the operations that keep it so.

    Not modelled: [dtype], [out], NaN, an uncertainty that is itself an uncertain
    quantity, NumPy scalars as left operands. *)
From Coq Require Import Lia.
From Verif Require Import Py Num Dim Arr Units Quant Ufunc Ops Methods.

Set Implicit Arguments.

(** The exponents 2 and 0.5. *)
(** uncertainquantity.py:94, 106 and alike. *)
Definition p_two : pynum := PInt 2.
(** uncertainquantity.py:94, 106 and alike. *)
Definition p_half : pynum := PFlt (Q2Qc (1 # 2)).

Section Uncert.
  Context {A : Type} {N : Num A}.

  (** uncertainquantity.py:12-34, 53-55. *)
  Record uqty : Type := UQ { uv : qty A; uu : qty A }.

  (** uncertainquantity.py:79-88. *)
  Definition azero (a : arr A) : arr A := amap (fun _ => n0) a.

  (** uncertainquantity.py:79-88 [__array_finalize__] for a view of a Quantity [q]: zero
      uncertainty in the units of [q]. *)
  Definition u_of_q (q : qty A) : uqty := UQ q (Qty (azero (mag q)) (qdim q)).
  (** The same for the output of a ufunc, a plain array whose units are set after
      [__array_finalize__] (quantity.py:297-318): zero uncertainty without units. *)
  Definition u_wrap (q : qty A) : uqty := UQ q (Qty (azero (mag q)) []).

  (** uncertainquantity.py:56-66, the setter of [uncertainty]. *)
  Definition set_uncertainty (E : uenv A) (v : qty A) (w : operand A) : res uqty :=
    let u := as_q w in
    if list_eq_dec Nat.eq_dec (shp (mag v)) (shp (mag u)) then
      if dim_eqb (qdim u) (qdim v) then Ok (UQ v u)
      else u' <- rescale_to E u (qdim v) ;; Ok (UQ v u')
    else Err ValueError.

  (** uncertainquantity.py:23-27 once the value [v] is there and is not uncertain:
      [Quantity(uncertainty, v.dimensionality)] (quantity.py:123-132), then the setter. *)
  Definition u_make (E : uenv A) (v : qty A) (w : option (operand A)) : res uqty :=
    match w with
    | None => Ok (u_of_q v)
    | Some w =>
        u <- match w with
             | OArr a => Ok (Qty a (qdim v))
             | OQ q => if dim_nonempty (qdim v) then rescale_to E q (qdim v) else Ok q
             end ;;
        set_uncertainty E v (OQ u)
    end.

  Section WithLookup.
    Variable lookup : string -> res (qty A).

    (** uncertainquantity.py:17-34 [UncertainQuantity(data, units, uncertainty)] for
        data that is not uncertain. *)
    Definition u_new (E : uenv A) (data : operand A) (units : uarg A) (w : option (operand A)) : res uqty :=
      v <- q_new lookup E data units ;; u_make E v w.

    (** uncertainquantity.py:72-77. *)
    Definition u_rescale (E : uenv A) (x : uqty) (units : uarg A) : res uqty :=
      v <- rescale lookup E (uv x) units ;;
      u <- rescale lookup E (uu x) units ;;
      set_uncertainty E v (OQ u).

    (** The same for uncertain data; [None._dimensionality] (line 30) raises
        AttributeError when no uncertainty is given. *)
    Definition u_new_unc (E : uenv A) (data : uqty) (units : uarg A) (w : option (operand A)) : res uqty :=
      b <- truthy units ;;
      x <- (if b then u_rescale E data units else Ok data) ;;
      match w with
      | None => Err AttributeError
      | Some _ => u_make E (uv x) w
      end.
  End WithLookup.

  (** uncertainquantity.py:41-45, 47-51. *)
  Definition u_reference (E : uenv A) (x : uqty) : res uqty :=
    set_uncertainty E (q_reference E (uv x)) (OQ (q_reference E (uu x))).
  Definition u_simplified (fuel : nat) (E : uenv A) (D : defaults) (x : uqty) : res uqty :=
    v <- simplified fuel E D (uv x) ;; u <- simplified fuel E D (uu x) ;; set_uncertainty E v (OQ u).

  (** uncertainquantity.py:68-70. *)
  Definition rel (x : uqty) : res (arr A) := amap2 ndiv (mag (uu x)) (mag (uv x)).

  (** [rescale] once the dimensionality is known. *)
  (** uncertainquantity.py:72-77. *)
  Definition u_rescale_to (E : uenv A) (x : uqty) (d : dims) : res uqty :=
    v <- rescale_to E (uv x) d ;; u <- rescale_to E (uu x) d ;; set_uncertainty E v (OQ u).
  (** quantity.py:56-65 for an uncertain [other]. *)
  Definition u_scale (E : uenv A) (self other : uqty) : res uqty :=
    if dim_eqb (qdim (uv other)) (qdim (uv self)) then Ok other
    else u_rescale_to E other (qdim (uv self)).

  (** [(u1**2 + u2**2)**0.5] on quantities. *)
  (** uncertainquantity.py:94, 106. *)
  Definition quadrature (E : uenv A) (u1 u2 : qty A) : res (qty A) :=
    s1 <- q_pow u1 (OArr (scalar p_two)) ;;
    s2 <- q_pow u2 (OArr (scalar p_two)) ;;
    s <- q_add E s1 (OQ s2) ;;
    q_pow s (OArr (scalar p_half)).
  (** uncertainquantity.py:90-95 and 102-107: [x + y], [x - y]. *)
  Definition u_add (E : uenv A) (x y : uqty) : res uqty :=
    o <- u_scale E x y ;;
    r <- q_add E (uv x) (OQ (uv o)) ;;
    u <- quadrature E (uu x) (uu o) ;;
    u_make E r (Some (OQ u)).
  Definition u_sub (E : uenv A) (x y : uqty) : res uqty :=
    o <- u_scale E x y ;;
    r <- q_sub E (uv x) (OQ (uv o)) ;;
    u <- quadrature E (uu x) (uu o) ;;
    u_make E r (Some (OQ u)).
  (** [x + o], [o + x], [x - o] for an [o] without uncertainty: [other.uncertainty] does
      not exist (94, 106). *)
  (** uncertainquantity.py:90-95. *)
  Definition u_add_plain (E : uenv A) (x : uqty) (o : operand A) : res uqty :=
    y <- scale_other E (uv x) o ;; _ <- q_add E (uv x) (OQ y) ;; Err AttributeError.
  (** uncertainquantity.py:97-100. *)
  Definition u_radd_plain (E : uenv A) (x : uqty) (o : operand A) : res uqty :=
    y <- scale_other E (uv x) o ;; u_add_plain E x (OQ y).
  (** uncertainquantity.py:102-107. *)
  Definition u_sub_plain (E : uenv A) (x : uqty) (o : operand A) : res uqty :=
    y <- scale_other E (uv x) o ;; _ <- q_sub E (uv x) (OQ y) ;; Err AttributeError.
  (** uncertainquantity.py:109-115: [o - x]. *)
  Definition u_rsub_plain (E : uenv A) (x : uqty) (o : operand A) : res uqty :=
    y <- scale_other E (uv x) o ;; u_sub E (u_of_q y) x.

  (** [(a**2 + b**2)**0.5] on plain arrays. *)
  (** uncertainquantity.py:121-124, 143-146. *)
  Definition asquare (a : arr A) : arr A := amap (fun x => npow x p_two) a.
  (** uncertainquantity.py:121-124, 143-146. *)
  Definition aroot (a : arr A) : arr A := amap (fun x => npow x p_half) a.
  (** uncertainquantity.py:121-124, 143-146. *)
  Definition rel_quadrature (x y : uqty) : res (arr A) :=
    a <- rel x ;; b <- rel y ;; s <- amap2 nadd (asquare a) (asquare b) ;; Ok (aroot s).
  (** uncertainquantity.py:117-130, 139-152 for an uncertain [other]. *)
  Definition u_mul (x y : uqty) : res uqty :=
    r <- q_mul (OQ (uv x)) (OQ (uv y)) ;;
    ru <- rel_quadrature x y ;;
    u <- q_mul (OQ r) (OArr ru) ;; Ok (UQ r u).
  Definition u_div (x y : uqty) : res uqty :=
    r <- q_div (OQ (uv x)) (OQ (uv y)) ;;
    ru <- rel_quadrature x y ;;
    u <- q_mul (OQ r) (OArr ru) ;; Ok (UQ r u).
  (** [other**2] for a quantity or an array. *)
  (** uncertainquantity.py:126, 148. *)
  Definition osquare (o : operand A) : res (operand A) :=
    match o with
    | OQ q => rmap (@OQ A) (q_pow q (OArr (scalar p_two)))
    | OArr a => Ok (OArr (asquare a))
    end.
  (** The same for an [other] without uncertainty (125-127, 147-149), [x * o] and [x / o];
      [o * x] is [x * o] (132-134) and [-x] is [x * -1] (136-137). *)
  (** uncertainquantity.py:117-130. *)
  Definition u_mul_plain (x : uqty) (o : operand A) : res uqty :=
    r <- q_mul (OQ (uv x)) o ;;
    u2 <- q_pow (uu x) (OArr (scalar p_two)) ;; o2 <- osquare o ;;
    s <- q_mul (OQ u2) o2 ;; u <- q_pow s (OArr (scalar p_half)) ;; Ok (UQ r u).
  (** uncertainquantity.py:139-152. *)
  Definition u_div_plain (x : uqty) (o : operand A) : res uqty :=
    r <- q_div (OQ (uv x)) o ;;
    u2 <- q_pow (uu x) (OArr (scalar p_two)) ;; o2 <- osquare o ;;
    s <- q_div (OQ u2) o2 ;; u <- q_pow s (OArr (scalar p_half)) ;; Ok (UQ r u).
  (** uncertainquantity.py:136-137. *)
  Definition u_neg (x : uqty) : res uqty := u_mul_plain x (OArr (scalar (nneg n1))).
  (** uncertainquantity.py:154-160: [o / x]. *)
  Definition u_rdiv_plain (E : uenv A) (x : uqty) (o : operand A) : res uqty :=
    let m := amap (fun v => ndiv n1 v) (mag (uv x)) in
    r <- rel x ;; w <- amap2 ndiv r (mag (uv x)) ;;
    t <- u_make E (Qty m (dim_pow (qdim (uv x)) (PInt (-1)))) (Some (OArr w)) ;;
    u_mul_plain t o.
  (** uncertainquantity.py:162-166 with a Python number as exponent. *)
  Definition u_pow (E : uenv A) (x : uqty) (p : pynum) : res uqty :=
    r <- q_pow (uv x) (OArr (scalar p)) ;;
    s <- q_mul (OQ r) (OArr (scalar (nofQ (pval p)))) ;;
    ru <- rel x ;;
    u <- q_mul (OQ s) (OArr ru) ;;
    set_uncertainty E r (OQ u).
  (** uncertainquantity.py:233-235. *)
  Definition u_sqrt (E : uenv A) (x : uqty) : res uqty := u_pow E x p_half.

  (** uncertainquantity.py:168-174: [x[key]]. *)
  Definition u_getitem (E : uenv A) (sel : selector) (x : uqty) : res uqty :=
    v <- q_getitem sel (uv x) ;; u <- q_getitem sel (uu x) ;; u_make E v (Some (OQ u)).

  (** uncertainquantity.py:200-206 (208-214 [nansum] on data without NaN). *)
  Definition u_sum (E : uenv A) (axis : option Z) (x : uqty) : res uqty :=
    v <- q_red RedSum axis (uv x) ;;
    ax <- norm_axis (length (shp (mag (uu x)))) axis ;;
    s <- areduce lsum ax (asquare (mag (uu x))) ;;
    u_make E v (Some (OArr (aroot s))).
  (** uncertainquantity.py:216-222 (224-231 [nanmean] on data without NaN and without empty
      lanes); [1.0/0] for an empty lane. *)
  Definition u_mean (E : uenv A) (axis : option Z) (x : uqty) : res uqty :=
    v <- q_red RedMean axis (uv x) ;;
    ax <- norm_axis (length (shp (mag (uv x)))) axis ;;
    let n := lane_length ax (mag (uv x)) in
    if Nat.eqb n 0 then Err ZeroDivisionError else
    s <- areduce lsum ax (asquare (mag (uu x))) ;;
    u_make E v (Some (OArr (aroot (amap (fun t => nmul (npow (ndiv n1 (nofnat n)) p_two) t) s)))).

  (** uncertainquantity.py:237-271: the [axis] argument is ignored. *)
  Definition u_at (E : uenv A) (i : nat) (x : uqty) : res uqty :=
    u_make E (Qty (scalar (nth i (dat (mag (uv x))) n0)) (qdim (uv x)))
           (Some (OQ (Qty (scalar (nth i (dat (mag (uu x))) n0)) (qdim (uu x))))).
  Definition u_argmax (axis : option Z) (x : uqty) : res nat :=
    match dat (mag (uv x)) with [] => Err ValueError | l => Ok (largmax l) end.
  Definition u_argmin (axis : option Z) (x : uqty) : res nat :=
    match dat (mag (uv x)) with [] => Err ValueError | l => Ok (largmin l) end.
  Definition u_max (E : uenv A) (axis : option Z) (x : uqty) : res uqty :=
    i <- u_argmax axis x ;; u_at E i x.
  Definition u_min (E : uenv A) (axis : option Z) (x : uqty) : res uqty :=
    i <- u_argmin axis x ;; u_at E i x.

  (** ** What ndarray does without uncertainquantity.py knowing *)

  (** A ufunc (np.sqrt, abs, np.add, //, %): quantity.py:297-333. *)
  Definition u_ufunc1 (E : uenv A) (g : A -> A) (f : uf1) (x : uqty) : res uqty :=
    rmap u_wrap (apply1 E g f (uv x)).
  (** A unit as left operand: unitquantity.py:168-170, 179-181, 201-203, 209-211 call
      Quantity's operator, that is the ufunc ([uq.__radd__] is not tried first, as
      UncertainQuantity is not a subclass of UnitQuantity). *)
  Definition u_unit_mul (w : uid) (x : uqty) : res uqty := rmap u_wrap (q_mul (OQ (unit_q w)) (OQ (uv x))).
  Definition u_unit_div (w : uid) (x : uqty) : res uqty := rmap u_wrap (q_div (OQ (unit_q w)) (OQ (uv x))).
  Definition u_unit_add (E : uenv A) (w : uid) (x : uqty) : res uqty :=
    rmap u_wrap (q_add E (unit_q w) (OQ (uv x))).
  Definition u_unit_sub (E : uenv A) (w : uid) (x : uqty) : res uqty :=
    rmap u_wrap (q_sub E (unit_q w) (OQ (uv x))).
  (** A view with another shape ([reshape], [T], [ravel], ...): lines 81-88 hand over the
      uncertainty as it is. *)
  Definition u_reshape (s : list nat) (x : uqty) : res uqty :=
    if Nat.eqb (prodn s) (length (dat (mag (uv x))))
    then Ok (UQ (Qty (Arr s (dat (mag (uv x)))) (qdim (uv x))) (uu x)) else Err ValueError.
  (** [x += y]: Quantity's operator (quantity.py:347-350), the value only. *)
  Definition u_iadd (E : uenv A) (x y : uqty) : res uqty :=
    o <- u_scale E x y ;;
    r <- q_add E (uv x) (OQ (uv o)) ;;
    if list_eq_dec Nat.eq_dec (shp (mag r)) (shp (mag (uv x))) then Ok (UQ r (uu x)) else Err ValueError.
  (** uncertainquantity.py:36-39: [super()] has no [_set_units]. *)
  Definition u_set_units (x : uqty) (units : uarg A) : res uqty := Err AttributeError.
End Uncert.

Arguments uqty : clear implicits.
