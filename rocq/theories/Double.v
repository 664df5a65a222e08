(** * Double: IEEE double precision with its range of exponents.

    [NumD] is double precision arithmetic without the simplification of Float.v: a result
    of magnitude 2^1024 or more is not a number of the model ([None]), and results below
    2^-1022 are rounded to the subnormal numbers (multiples of 2^-1074).  [None] stands for
    everything that is not finite; simplification: it is not told apart further (inf, -inf
    and NaN), every operation on it gives [None] and every comparison with it is false.

    All operations of the model (Quant.v, Ops.v, ...) are defined for any instance of
    [Num]; the ones on doubles are those at [NumD]. *)
From Coq Require Import Reals ZArith.
From Flocq Require Import Core.
From Verif Require Import Py Num.

(** Rounding to nearest, ties to even, 53 bits, no bit below 2^-1074; overflow. *)
(** Environment: IEEE 754 double arithmetic (NumPy float64). *)
Definition rndD (x : R) : option R :=
  let r := round radix2 (FLT_exp (-1074) 53) ZnearestE x in
  if Rlt_bool (Rabs r) (bpow radix2 1024) then Some r else None.

(** The C library's [pow]: where the exact power is well inside the range, the result is
    finite and its relative error at most one machine epsilon. *)
(** Environment: np.power at quantity.py:142. *)
Definition faithfulD (pw : R -> pynum -> option R) : Prop :=
  forall x p, (0 < x)%R -> (/ 2 ^ 1020 <= rpow x p <= 2 ^ 1020)%R ->
  exists y, pw x p = Some y /\ (Rabs (y - rpow x p) <= / 2 ^ 52 * rpow x p)%R.

(** Operations on finite numbers. *)
(** Environment: IEEE 754 (simplified for inf and NaN, see above). *)
Definition on1 (f : R -> option R) (a : option R) : option R := match a with Some x => f x | None => None end.
(** Environment: IEEE 754 (simplified for inf and NaN, see above). *)
Definition on2 (f : R -> R -> option R) (a b : option R) : option R :=
  match a, b with Some x, Some y => f x y | _, _ => None end.
(** Environment: IEEE 754 (simplified for inf and NaN, see above). *)
Definition test2 (f : R -> R -> bool) (a b : option R) : bool :=
  match a, b with Some x, Some y => f x y | _, _ => false end.

(** Environment: the arithmetic that NumPy uses for quantity.py and umath.py; division by
    zero and roots of negative numbers are not finite. *)
Definition NumD (pw : R -> pynum -> option R) : Num (option R) := {|
  n0 := Some 0%R; n1 := Some 1%R;
  nadd := on2 (fun x y => rndD (x + y)); nsub := on2 (fun x y => rndD (x - y));
  nmul := on2 (fun x y => rndD (x * y));
  ndiv := on2 (fun x y => if Reqb y 0 then None else rndD (x / y));
  nneg := on1 (fun x => Some (- x)%R); nabs := on1 (fun x => Some (Rabs x));
  npow := fun a p => on1 (fun x => pw x p) a;
  nofQ := fun q => rndD (Qc2R q);
  neqb := test2 Reqb; nltb := test2 Rltb; nleb := test2 Rleb;
  nfloor := on1 (fun x => rndD (IZR (Int_part x)));
  nsqrt := on1 (fun x => if Rltb x 0 then None else rndD (sqrt x))
|}.
