(** * SpecDouble: what it means that no double overflows or loses accuracy.

    A single count bounds both the roundings and the size (binary exponent, in absolute
    value) of what is computed for a unit. *)
From Coq Require Import Reals.
From Verif Require Import Py Num Dim Arr Units Quant Float SpecFloat Double.
Open Scope R_scope.

(** Specification-level: the double [a] is finite, at most [k] roundings away from the positive number [b], and
    [b] is between 2^-k and 2^k. *)
Definition nearD (k : R) (a : option R) (b : R) : Prop :=
  exists x, a = Some x /\ near k x b /\ Rabs (ln b) <= k * ln 2.

(** Specification-level: two registries of the same units, whose references agree in this sense. *)
Definition env_nearD (pw : R -> pynum -> option R) (w : uid -> R) (ED : uenv (option R)) (ER : uenv R) : Prop :=
  forall u, snd (@unit_ref (option R) (NumD pw) ED u) = snd (@unit_ref R NumR ER u) /\
            nearD (w u) (fst (@unit_ref (option R) (NumD pw) ED u)) (fst (@unit_ref R NumR ER u)).

(** Specification-level: the double [a] is finite and [b] up to a relative error of [k] machine epsilons. *)
Definition accurateD (k : R) (a : option R) (b : R) : Prop := exists x, a = Some x /\ accurate k x b.

(** Specification-level: a number that leaves room for a conversion: zero, or of moderate size. *)
Definition moderate (x : R) : Prop := x = 0 \/ / 2 ^ 500 <= Rabs x <= 2 ^ 500.
