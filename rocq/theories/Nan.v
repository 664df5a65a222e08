(** * Nan: magnitudes that may be NaN.

    A magnitude is [None] (NaN) or [Some x].  Models the NaN-aware methods of
    /repo/quantities/quantity.py (529-535 [nansum], 595-600 [nanmax], 613-618 [nanmin],
    624-630 [nanargmin], [nanargmax], 710-715 [nanmean], 739-744 [nanstd]) and
    umath.py:46-55 [nansum], and gives the arithmetic under which the definitions of
    Units.v, Quant.v and Ops.v run on data with NaN.  Infinities are not modelled. *)
From Coq Require Import Lia.
From Verif Require Import Py Num Dim Arr Units Quant Ufunc Ops Methods.

Set Implicit Arguments.

(** Both operands present. *)
(** Environment (IEEE 754): NaN is absorbing. *)
Definition olift2 {A B C} (f : A -> B -> C) (x : option A) (y : option B) : option C :=
  match x, y with Some a, Some b => Some (f a b) | _, _ => None end.
(** A comparison with NaN is false. *)
(** Environment (IEEE 754). *)
Definition ocmp {A B} (f : A -> B -> bool) (x : option A) (y : option B) : bool :=
  match x, y with Some a, Some b => f a b | _, _ => false end.

(** The elements that are not NaN, in order. *)
(** Environment (NumPy's nan-functions skip NaN). *)
Fixpoint somes {A} (l : list (option A)) : list A :=
  match l with
  | [] => []
  | Some x :: l' => x :: somes l'
  | None :: l' => somes l'
  end.

Section Nan.
  Context {A : Type} {N : Num A}.

  (** Arithmetic with NaN; [nan ** 0] is 1. *)
  (** Environment (NumPy, IEEE 754): the arithmetic of quantity.py:48-54, 212-241, 336-401. *)
  Definition NumO : Num (option A) := {|
    n0 := Some n0; n1 := Some n1;
    nadd := olift2 nadd; nsub := olift2 nsub; nmul := olift2 nmul; ndiv := olift2 ndiv;
    nneg := option_map nneg; nabs := option_map nabs;
    npow := fun x p => match x with
                       | Some a => Some (npow a p)
                       | None => if peqb p (PInt 0) then Some n1 else None
                       end;
    nofQ := fun q => Some (nofQ q);
    neqb := ocmp neqb; nltb := ocmp nltb; nleb := ocmp nleb;
    nfloor := option_map nfloor; nsqrt := option_map nsqrt
  |}.

  (** The unit objects of Units.v, seen with this arithmetic: definitions and references
      are numbers. *)
  (** Units.v at [NumO] (unitquantity.py:31-70). *)
  Definition lift_def (df : udef A) : udef (option A) :=
    match df with DQty a d => DQty (Some a) d | DUnit u => DUnit u end.
  Definition lift_rec (r : urec A) : urec (option A) :=
    {| ur_def := option_map lift_def (ur_def r);
       ur_ref := option_map (fun x => (Some (fst x), snd x)) (ur_ref r);
       ur_symbol := ur_symbol r; ur_usymbol := ur_usymbol r; ur_aliases := ur_aliases r;
       ur_order := ur_order r |}.
  Definition lift_env (E : uenv A) : uenv (option A) := map (fun kv => (fst kv, lift_rec (snd kv))) E.

  (** *** NaN-aware reductions *)

  (** quantity.py:529-535, 710-715, 739-744. *)
  Inductive nanred : Type := NanSum | NanMean | NanStd (ddof : nat).
  (** NumPy: np.nansum, np.nanmean (NaN for an empty slice), np.nanstd (NaN without
      degrees of freedom). *)
  (** Environment (NumPy), quantity.py:533, 714, 742. *)
  Definition nan_fun (op : nanred) (l : list (option A)) : option A :=
    match op with
    | NanSum => Some (lsum (somes l))
    | NanMean => match somes l with [] => None | s => Some (lmean s) end
    | NanStd ddof => if Nat.ltb ddof (length (somes l)) then Some (lstd ddof (somes l)) else None
    end.
  (** quantity.py:529-535, 710-715, 739-744 with [dtype=None], [out=None], and
      umath.py:46-55. *)
  Definition q_nanred (op : nanred) (axis : option Z) (q : qty (option A)) : res (qty (option A)) :=
    ax <- norm_axis (length (shp (mag q))) axis ;;
    m <- areduce (nan_fun op) ax (mag q) ;;
    Ok (Qty m (qdim q)).

  (** quantity.py:595-600, 613-618: [np.nanmax(self.magnitude)] of all elements, whatever
      [axis] is; an empty array raises ValueError, an array of NaN gives NaN. *)
  Definition qn_max (axis : option Z) (q : qty (option A)) : res (qty (option A)) :=
    match dat (mag q) with
    | [] => Err ValueError
    | l => Ok (Qty (scalar (match somes l with [] => None | s => Some (lmax s) end)) (qdim q))
    end.
  Definition qn_min (axis : option Z) (q : qty (option A)) : res (qty (option A)) :=
    match dat (mag q) with
    | [] => Err ValueError
    | l => Ok (Qty (scalar (match somes l with [] => None | s => Some (lmin s) end)) (qdim q))
    end.

  (** The first position of a number equal to [m]. *)
  (** Environment (NumPy, np.nanargmax), quantity.py:626, 630. *)
  Fixpoint find_val (m : A) (i : nat) (l : list (option A)) : option nat :=
    match l with
    | [] => None
    | Some x :: l' => if neqb x m then Some i else find_val m (S i) l'
    | None :: l' => find_val m (S i) l'
    end.
  (** quantity.py:624-630: [np.nanargmax(self.magnitude)] of all elements, whatever
      [axis] is; ValueError if there is no number. *)
  Definition qn_argmax (axis : option Z) (q : qty (option A)) : res nat :=
    match somes (dat (mag q)) with
    | [] => Err ValueError
    | s => match find_val (lmax s) 0 (dat (mag q)) with Some i => Ok i | None => Err ValueError end
    end.
  Definition qn_argmin (axis : option Z) (q : qty (option A)) : res nat :=
    match somes (dat (mag q)) with
    | [] => Err ValueError
    | s => match find_val (lmin s) 0 (dat (mag q)) with Some i => Ok i | None => Err ValueError end
    end.
End Nan.
