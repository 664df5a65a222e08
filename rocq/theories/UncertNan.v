(** * UncertNan: the NaN-aware methods of uncertain quantities.

    Models /repo/quantities/uncertainquantity.py:208-214 [nansum], 224-231 [nanmean],
    242-245 [nanmax], 252-255 [nanmin], 265-271 [nanargmin], [nanargmax] on magnitudes
    that may be NaN ([None], Nan.v).  Value and uncertainty can be NaN independently.
    Infinities are not modelled: where the code divides by the number 0 of numbers in a
    lane ([1.0/size], giving inf, or NaN after [inf*0]) the uncertainty is [None]. *)
From Verif Require Import Py Num Dim Arr Units Quant Ufunc Ops Methods Nan Uncert.

Set Implicit Arguments.

Section UncertNan.
  Context {A : Type} {N : Num A}.
  Local Notation O := (option A).

  (** [u**2] and [a**0.5] with NaN (uncertainquantity.py:213, 230). *)
  Definition osq (a : arr O) : arr O := @asquare O NumO a.
  Definition ort (a : arr O) : arr O := @aroot O NumO a.

  (** uncertainquantity.py:208-214 [nansum]. *)
  Definition un_sum (E : uenv O) (axis : option Z) (x : uqty O) : res (uqty O) :=
    v <- q_nanred NanSum axis (uv x) ;;
    ax <- norm_axis (length (shp (mag (uu x)))) axis ;;
    s <- areduce (nan_fun NanSum) ax (osq (mag (uu x))) ;;
    @u_make O NumO E v (Some (OArr (ort s))).

  (** uncertainquantity.py:230 [np.nan_to_num]. *)
  Definition nan_to_num (a : arr O) : arr O := amap (fun o => match o with None => Some n0 | _ => o end) a.
  (** uncertainquantity.py:230: [((1.0/size)**2 * s)**0.5] for one lane. *)
  Definition mean_unc (n : nat) (s : O) : O :=
    if Nat.eqb n 0 then None
    else option_map (fun t => npow (nmul (npow (ndiv n1 (nofnat n)) p_two) t) p_half) s.
  (** uncertainquantity.py:224-231 [nanmean]. *)
  Definition un_mean (E : uenv O) (axis : option Z) (x : uqty O) : res (uqty O) :=
    ax <- norm_axis (length (shp (mag (uv x)))) axis ;;
    size <- areduce (fun l => length (somes l)) ax (mag (uv x)) ;;
    v <- q_nanred NanMean axis (uv x) ;;
    ax' <- norm_axis (length (shp (mag (uu x)))) axis ;;
    s <- areduce (nan_fun NanSum) ax' (osq (nan_to_num (mag (uu x)))) ;;
    u <- amap2 mean_unc size s ;;
    @u_make O NumO E v (Some (OArr u)).

  (** uncertainquantity.py:265-271: [np.nanargmax(self.magnitude)], whatever [axis] is. *)
  Definition un_argmax (axis : option Z) (x : uqty O) : res nat := qn_argmax axis (uv x).
  Definition un_argmin (axis : option Z) (x : uqty O) : res nat := qn_argmin axis (uv x).
  (** uncertainquantity.py:242-245, 252-255: the element at that position. *)
  Definition un_max (E : uenv O) (axis : option Z) (x : uqty O) : res (uqty O) :=
    i <- un_argmax axis x ;; @u_at O NumO E i x.
  Definition un_min (E : uenv O) (axis : option Z) (x : uqty O) : res (uqty O) :=
    i <- un_argmin axis x ;; @u_at O NumO E i x.
End UncertNan.
