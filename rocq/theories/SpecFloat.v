(** * SpecFloat: what "accurate" means.

    [w u] bounds the number of roundings in the reference of the unit [u]; a conversion
    counts four roundings for every unit involved (three for a power, one for a product), and its
    relative error is bounded by the number of roundings times the machine epsilon. *)
From Coq Require Import Reals.
From Verif Require Import Py Num Dim Arr Units Quant.
Open Scope R_scope.

(** The machine epsilon of double precision, 2.2e-16. *)
Definition macheps : R := / 2 ^ 52.

(** [x] is [y] up to a relative error of [k] machine epsilons. *)
Definition accurate (k : R) (x y : R) : Prop := Rabs (x - y) <= k * macheps * Rabs y.

(** The number of roundings in the reference of a product of powers. *)
Fixpoint roundings (w : uid -> R) (d : dims) : R :=
  match d with
  | [] => 0
  | (u, e) :: d' => Rabs (Qc2R (pval e)) * w u + 4 + roundings w d'
  end.

(** [x] and [y] are positive and differ by at most [k] roundings. *)
Definition eps : R := / 2 ^ 53.
Definition elog : R := - ln (1 - eps).
Definition near (k x y : R) : Prop := 0 < x /\ 0 < y /\ Rabs (ln x - ln y) <= k * elog.

(** Two registries of the same units, whose references agree up to [w] roundings. *)
Definition env_near (w : uid -> R) (EF ER : uenv R) : Prop :=
  forall u, snd (@unit_ref R NumR EF u) = snd (@unit_ref R NumR ER u) /\
            near (w u) (fst (@unit_ref R NumR EF u)) (fst (@unit_ref R NumR ER u)).

(** ... and the same units have definitions. *)
Definition same_defs (EF ER : uenv R) : Prop :=
  forall u, match ulookup EF u, ulookup ER u with
            | Some r, Some r' => ur_ref r = None <-> ur_ref r' = None
            | None, None => True
            | _, _ => False
            end.

(** The number of roundings in [simplified] of a unit ([fuel] bounds its depth): a base
    unit that is not the default is converted; a unit with a definition is replaced by
    the simplified units in its reference. *)
Fixpoint simp_roundings (fuel : nat) (w : uid -> R) (E : uenv R) (D : defaults) (u : uid) : R :=
  match fuel with
  | O => 0
  | S f =>
      if is_irreducible (u_cls u) then
        match D (u_cls u) with
        | Some dd => if dim_eqb (unit_dims u) dd then 0 else roundings w (unit_dims u) + roundings w dd + 4
        | None => 0
        end
      else match ulookup E u with
           | Some r => match ur_ref r with
                       | Some (_, d) => roundings (simp_roundings f w E D) d + w u + 1
                       | None => simp_roundings f w E D u
                       end
           | None => simp_roundings f w E D u
           end
  end.
