(** * Umath: the functions of /repo/quantities/umath.py.

    [prod], [sum], [nansum], [cumprod], [cumsum] (37-67) forward to the methods
    modelled in Methods.v. *)
From Coq Require Import Reals.
From Verif Require Import Py Num Dim Arr Units Quant Ufunc Ops Methods.

Set Implicit Arguments.

(** ** Unary functions: convert, compute, attach units *)

(** umath.py:242-328 (sin, arcsin, cos, arccos, tan, arctan), 399-488 (sinh, cosh,
    tanh, arcsinh, arccosh, arctanh).  A plain argument is passed to NumPy. *)
Definition um_source (f : uf1) : option dims :=
  match f with
  | USin | UCos | UTan => Some (unit_dims k_radian)
  | UArcsin | UArccos | UArctan => Some []
  | USinh | UCosh | UTanh | UArcsinh | UArccosh | UArctanh => Some []
  | _ => None
  end.
(** The units of the result; [dimensionless] has the empty dimensionality. *)
(** umath.py:242-328, 399-487 (the return statements). *)
Definition um_target (f : uf1) : dims :=
  match f with
  | UArcsin | UArccos | UArctan => unit_dims k_radian
  | _ => []
  end.
(** umath.py:242-328, 399-487. *)
Definition um1 (E : uenv R) (f : uf1) (q : qty R) : res (qty R) :=
  match um_source f with
  | Some d => r <- rescale_to E q d ;; Ok (Qty (amap (R_uf1 f) (mag r)) (um_target f))
  | None => Err AttributeError
  end.

(** ** Two quantities *)

(** umath.py:330-355 [arctan2]: the dimensionalities are compared after
    simplification, the magnitudes are used as they are.  [simplified] of a
    dimensionality can itself fail. *)
Definition um_arctan2 (fuel : nat) (E : uenv R) (D : defaults) (x1 x2 : qty R) : res (qty R) :=
  d1 <- dim_simplified fuel E D (qdim x1) ;;
  d2 <- dim_simplified fuel E D (qdim x2) ;;
  if dim_eqb d1 d2 then m <- amap2 Ratan2 (mag x1) (mag x2) ;; Ok (Qty m (unit_dims k_radian))
  else Err ValueError.
(** umath.py:357-380 [hypot]. *)
Definition um_hypot (x1 x2 : qty R) : res (qty R) :=
  if dim_eqb (qdim x1) (qdim x2) then m <- amap2 (R_uf2 UHypot) (mag x1) (mag x2) ;; Ok (Qty m (qdim x1))
  else Err ValueError.

Section Umath.
  Context {A : Type} {N : Num A}.

  (** umath.py:106-120 [cross] of two quantities: np.cross of the magnitudes, units
      multiplied.  (Simplification: operands of the same shape whose last axis has
      length 3, default axes.) *)
  Definition cross3 (a b : list A) : list A :=
    match a, b with
    | [a1; a2; a3], [b1; b2; b3] =>
        [nsub (nmul a2 b3) (nmul a3 b2); nsub (nmul a3 b1) (nmul a1 b3); nsub (nmul a1 b2) (nmul a2 b1)]
    | _, _ => []
    end.
  Definition um_cross (a b : qty A) : res (qty A) :=
    if list_eq_dec Nat.eq_dec (shp (mag a)) (shp (mag b)) then
      match rev (shp (mag a)) with
      | 3%nat :: pre =>
          let k := prodn pre in
          Ok (Qty (Arr (shp (mag a)) (concat (zip_with cross3 (chunks k 3 (dat (mag a))) (chunks k 3 (dat (mag b))))))
                  (dim_mul (qdim a) (qdim b)))
      | _ => Err ValueError
      end
    else Err ValueError.

  (** ** Differences *)

  (** [a[:, ..., it]]: the slice [it] of axis [ax], everything of the axes before. *)
  (** NumPy slicing (umath.py:226-232). *)
  Definition full : item := ISlice None None 1.
  (** NumPy slicing (umath.py:226-232). *)
  Definition aslice (ax : nat) (it : item) (a : arr A) : res (arr A) :=
    rmap (@mag A) (q_getitem (sel_basic (repeat full ax ++ [it])) (Qty a [])).
  (** umath.py:229 [slice(1, None)]. *)
  Definition tail_of : item := ISlice (Some 1%Z) None 1.    (* [1:] *)
  (** umath.py:230 [slice(None, -1)]. *)
  Definition init_of : item := ISlice None (Some (-1)%Z) 1. (* [:-1] *)

  (** np.diff (umath.py:69), n = 1: [a[1:] - a[:-1]] along the axis. *)
  Definition adiff (ax : nat) (a : arr A) : res (arr A) :=
    hi <- aslice ax tail_of a ;; lo <- aslice ax init_of a ;; amap2 nsub hi lo.
  (** On a quantity np.diff subtracts two slices, which keep the units. *)
  (** umath.py:69. *)
  Definition um_diff (axis : Z) (q : qty A) : res (qty A) :=
    ax <- norm_axis (length (shp (mag q))) (Some axis) ;;
    match ax with
    | Some i =>
        hi <- aslice i tail_of (mag q) ;; lo <- aslice i init_of (mag q) ;;
        apply2 nsub RUniform (OQ (Qty hi (qdim q))) (OQ (Qty lo (qdim q)))
    | None => Err ValueError
    end.
  (** umath.py:71-80 [ediff1d]: differences of the flattened magnitudes, with the raw
      numbers of [to_begin] and [to_end] put before and after, whatever their units. *)
  Fixpoint ldiff (l : list A) : list A :=
    match l with
    | x :: ((y :: _) as l') => nsub y x :: ldiff l'
    | _ => []
    end.
  Definition oraw (o : option (operand A)) : list A :=
    match o with None => [] | Some o => dat (odat o) end.
  Definition um_ediff1d (q : qty A) (to_end to_begin : option (operand A)) : qty A :=
    let l := oraw to_begin ++ ldiff (dat (mag q)) ++ oraw to_end in
    Qty (Arr [length l] l) (qdim q).

  (** ** [gradient] *)

  (** umath.py:82-104 on a 1-dimensional [f] (magnitudes [l], units [d]): np.gradient
      returns one array, over whose elements the tuple comprehension runs.  The
      spacing is a scalar or an array of coordinates; [w i] is the width of the
      [i]-th interval.  (The general formula of np.gradient, which in exact
      arithmetic agrees with the special case it uses for equal widths.) *)
  Definition grad_at (l : list A) (w : nat -> A) (i : nat) : A :=
    let f i := nth i l n0 in
    if Nat.eqb i 0 then ndiv (nsub (f 1%nat) (f 0%nat)) (w 0%nat)
    else let h1 := w (i - 1)%nat in
         if Nat.eqb (S i) (length l) then ndiv (nsub (f i) (f (i - 1)%nat)) h1
         else let h2 := w i in
              nadd (nadd (nmul (ndiv (nneg h2) (nmul h1 (nadd h1 h2))) (f (i - 1)%nat))
                         (nmul (ndiv (nsub h2 h1) (nmul h1 h2)) (f i)))
                   (nmul (ndiv h1 (nmul h2 (nadd h1 h2))) (f (S i))).
  Definition lgradient (w : nat -> A) (l : list A) : list A := map (grad_at l w) (seq 0 (length l)).
  (** The widths NumPy derives from a spacing argument. *)
  Definition grad_widths (n : nat) (h : arr A) : res (nat -> A) :=
    match shp h, dat h with
    | [], [x] => Ok (fun _ => x)
    | [k], xs => if Nat.eqb k n then Ok (fun i => nth i (ldiff xs) n0) else Err ValueError
    | _, _ => Err ValueError
    end.
  Definition um_gradient (l : list A) (d : dims) (spacing : list (operand A)) : res (list (qty A)) :=
    if Nat.ltb (length l) 2 then Err ValueError else
    match spacing with
    | [] => Ok []    (* the comprehension zips with the empty list of spacings *)
    | [h] =>
        w <- grad_widths (length l) (odat h) ;;
        match h with
        | OQ h => Ok (map (fun z => Qty (scalar z) (dim_div d (qdim h))) (lgradient w l))
        | OArr _ => Err AttributeError   (* [varargs[0].units] *)
        end
    | _ => Err TypeError                 (* np.gradient: invalid number of arguments *)
    end.

  (** ** [trapz] *)

  (** umath.py:204-240 [_trapz] (the branch without SciPy, which computes the same).
      [axis] counts from the end if negative. *)
  Inductive samples : Type :=
  | SX (x : arr A)      (* sample points *)
  | SDx (dx : arr A).   (* spacing *)
  Definition trapz_d (ndim ax : nat) (s : samples) : res (arr A) :=
    match s with
    | SDx dx => Ok dx
    | SX x =>
        if Nat.eqb (length (shp x)) 1 then
          d <- adiff 0 x ;;
          Ok (Arr (repeat 1%nat ax ++ length (dat d) :: repeat 1%nat (ndim - ax - 1)%nat) (dat d))
        else adiff ax x
    end.
  Definition trapz_arr (y : arr A) (s : samples) (axis : Z) : res (arr A) :=
    ax <- match norm_axis (length (shp y)) (Some axis) with
          | Ok (Some i) => Ok i
          | _ => Err IndexError          (* slice1[axis] *)
          end ;;
    d <- trapz_d (length (shp y)) ax s ;;
    hi <- aslice ax tail_of y ;; lo <- aslice ax init_of y ;;
    sums <- amap2 nadd hi lo ;;
    areas <- amap2 nmul d sums ;;
    areduce lsum (Some ax) (amap (fun z => ndiv z (nofQ (Z2Qc 2))) areas).
  (** umath.py:123-202 [trapz], at least one argument a quantity. *)
  Inductive qsamples : Type :=
  | QX (x : operand A)
  | QDx (dx : operand A).
  Definition um_trapz (y : operand A) (s : qsamples) (axis : Z) : res (qty A) :=
    match s with
    | QX x => m <- trapz_arr (odat y) (SX (odat x)) axis ;; Ok (Qty m (dim_mul (qdim (as_q y)) (qdim (as_q x))))
    | QDx dx => m <- trapz_arr (odat y) (SDx (odat dx)) axis ;; Ok (Qty m (dim_mul (qdim (as_q y)) (qdim (as_q dx))))
    end.
End Umath.

(** ** [unwrap] *)
Open Scope R_scope.

(** np.unwrap of one lane: [period] is 2*pi whatever the units. *)
(** NumPy np.unwrap (umath.py:382-397). *)
Definition unwrap_step (discont dd : R) : R :=
  let ddmod := nmod (dd - - PI) (2 * PI) + - PI in
  let ddmod := if andb (Reqb ddmod (- PI)) (Rltb 0 dd) then PI else ddmod in
  if Rltb (Rabs dd) discont then 0 else ddmod - dd.
(** NumPy np.unwrap (umath.py:382-397). *)
Fixpoint unwrap_from (discont prev corr : R) (l : list R) : list R :=
  match l with
  | [] => []
  | x :: l' => let c := corr + unwrap_step discont (x - prev) in (x + c) :: unwrap_from discont x c l'
  end.
(** NumPy np.unwrap (umath.py:382-397). *)
Definition lunwrap (discont : R) (l : list R) : list R :=
  match l with [] => [] | x :: l' => x :: unwrap_from discont x 0 l' end.
(** umath.py:382-397 [unwrap(p, discont, axis)] of two quantities; with a plain
    [discont] (the default) the result is np.unwrap(p, ...), a plain array. *)
Definition um_unwrap (E : uenv R) (p : qty R) (discont : operand R) (axis : Z) : res (operand R) :=
  ax <- norm_axis (length (shp (mag p))) (Some axis) ;;
  match discont with
  | OQ d => r <- rescale_to E d (qdim p) ;;
            match dat (mag r) with
            | [x] => m <- ascan (lunwrap x) ax (mag p) ;; Ok (OQ (Qty m (qdim p)))
            | _ => Err ValueError
            end
  | OArr d => match dat d with
              | [x] => m <- ascan (lunwrap x) ax (mag p) ;; Ok (OArr m)
              | _ => Err ValueError
              end
  end.
