(** * Float: floating-point numbers.

    The magnitudes of quantities are IEEE double precision numbers.  [NumF] is double
    precision arithmetic, a real number standing for a double: every operation returns
    the double nearest to the exact result (ties to even).  Simplifications: the range
    of exponents is not limited (no overflow, no subnormal numbers, no NaN; Double.v has
    the limits).  Powers are
    those of the C library, which are not correctly rounded: they are a parameter [pw],
    about which [faithful] is assumed.

    All operations of the model (Quant.v, Ops.v, ...) are defined for any instance of
    [Num]; the ones on floating-point numbers are those at [NumF]. *)
From Coq Require Import Reals ZArith.
From Flocq Require Import Core.
From Verif Require Import Py Num.

(** Rounding to 53 bits, to nearest, ties to even. *)
(** Environment: IEEE 754 double arithmetic (NumPy float64). *)
Definition rnd (x : R) : R := round radix2 (FLX_exp 53) ZnearestE x.
(** The numbers that are doubles (of unlimited exponent range). *)
(** Environment: IEEE 754. *)
Definition is_float (x : R) : Prop := generic_format radix2 (FLX_exp 53) x.

(** The C library's [pow]: its relative error is at most one machine epsilon. *)
(** Environment: np.power at quantity.py:142. *)
Definition faithful (pw : R -> pynum -> R) : Prop :=
  forall x p, (0 < x)%R -> (Rabs (pw x p - rpow x p) <= / 2 ^ 52 * rpow x p)%R.

(** Environment: the arithmetic that NumPy uses for quantity.py and umath.py. *)
Definition NumF (pw : R -> pynum -> R) : Num R := {|
  n0 := 0%R; n1 := 1%R;
  nadd := fun x y => rnd (x + y); nsub := fun x y => rnd (x - y);
  nmul := fun x y => rnd (x * y); ndiv := fun x y => rnd (x / y);
  nneg := Ropp; nabs := Rabs;
  npow := pw;
  nofQ := fun q => rnd (Qc2R q);
  neqb := Reqb; nltb := Rltb; nleb := Rleb;
  nfloor := fun x => rnd (IZR (Int_part x));
  nsqrt := fun x => rnd (sqrt x)
|}.
