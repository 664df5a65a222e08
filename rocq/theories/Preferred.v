(** * Preferred: [rescale_preferred] and [rescale()] without argument.

    Models /repo/quantities/quantity.py:212-222 and 243-261.  [PREFERRED] is the list
    [prefs] of quantities (or units, as quantities). *)
From Verif Require Import Py Num Dim Arr Units Quant Text Markup.

Set Implicit Arguments.

Section Preferred.
  Context {A : Type} {N : Num A}.
  Variable frepr : Qc -> text.
  Variable uc : bool.

  (** quantity.py:257-259, the loop over PREFERRED. *)
  Fixpoint find_preferred (fuel : nat) (E : uenv A) (D : defaults) (q : qty A) (units_str : text)
           (prefs : list (qty A)) : res (qty A) :=
    match prefs with
    | [] => Err PlainException
    | p :: ps =>
        sp <- simplified fuel E D p ;;
        if teqb units_str (dim_str E frepr uc (qdim sp))
        then rescale (fun _ => Err LookupError) E q (UQty p)
        else find_preferred fuel E D q units_str ps
    end.
  (** quantity.py:243-261 [rescale_preferred]. *)
  Definition rescale_preferred (fuel : nat) (E : uenv A) (D : defaults) (prefs : list (qty A)) (q : qty A) : res (qty A) :=
    s <- simplified fuel E D q ;;
    find_preferred fuel E D q (dim_str E frepr uc (qdim s)) prefs.
  (** quantity.py:218-222 [rescale()]: every exception becomes a bare Exception.
      Simplification: the message is not represented. *)
  Definition rescale_none (fuel : nat) (E : uenv A) (D : defaults) (prefs : list (qty A)) (q : qty A) : res (qty A) :=
    match rescale_preferred fuel E D prefs q with
    | Ok r => Ok r
    | Err _ => Err PlainException
    end.
End Preferred.
