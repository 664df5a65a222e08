(** * SpecUncert: what an uncertain quantity means.

    An uncertain quantity is an array of measurements: pairs of a physical value and
    its standard uncertainty.  Each operation is described by what it does to pairs. *)
From Coq Require Import Reals.
From Verif Require Import Py Num Dim Arr Units Spec Quant MethodsFacts Uncert.

Open Scope R_scope.

(** Value and uncertainty have the same shape and the same units. *)
Definition uq_ok {A} (x : uqty A) : Prop :=
  qty_ok (uv x) /\ qty_ok (uu x) /\ shp (mag (uu x)) = shp (mag (uv x)) /\
  forall w, exp_of (qdim (uu x)) w = exp_of (qdim (uv x)) w.

(** The measurements, given the sizes of the units. *)
Definition meas (phi : interp) (x : uqty R) : arr (R * R) :=
  Arr (shp (mag (uv x))) (combine (dat (phys phi (uv x))) (dat (phys phi (uu x)))).

(** No value is zero (NumPy divides by the values otherwise). *)
Definition nonzero_values (x : uqty R) : Prop := Forall (fun v => v <> 0) (dat (mag (uv x))).
(** No uncertainty is negative. *)
Definition nonneg (x : uqty R) : Prop := Forall (fun s => 0 <= s) (dat (mag (uu x))).

(** Independent errors: the uncertainty of a sum or difference, and the relative
    uncertainty of a product or quotient. *)
Definition quad (a b : R) : R := sqrt (a * a + b * b).
Definition rule_add (p q : R * R) : R * R := (fst p + fst q, quad (snd p) (snd q)).
Definition rule_sub (p q : R * R) : R * R := (fst p - fst q, quad (snd p) (snd q)).
Definition rule_mul (p q : R * R) : R * R :=
  (fst p * fst q, (fst p * fst q) * quad (snd p / fst p) (snd q / fst q)).
Definition rule_div (p q : R * R) : R * R :=
  (fst p / fst q, (fst p / fst q) * quad (snd p / fst p) (snd q / fst q)).
(** Exact factors. *)
Definition rule_scale (p : R * R) (c : R) : R * R := (fst p * c, Rabs (snd p * c)).
Definition rule_unscale (p : R * R) (c : R) : R * R := (fst p / c, Rabs (snd p / c)).
Definition rule_inv (p : R * R) (c : R) : R * R := (c / fst p, Rabs (c * (snd p / (fst p * fst p)))).
(** Powers: the derivative times the uncertainty. *)
Definition rule_pow (n : pynum) (p : R * R) : R * R :=
  (rpow (fst p) n, rpow (fst p) n * Qc2R (pval n) * (snd p / fst p)).
(** Sums and means of independent measurements. *)
Definition rule_sum (l : list (R * R)) : R * R := (Rsum (map fst l), sqrt (Rsum (map (fun p => snd p * snd p) l))).
Definition rule_mean (l : list (R * R)) : R * R :=
  (Rsum (map fst l) / INR (length l), sqrt (Rsum (map (fun p => snd p * snd p) l)) / INR (length l)).
