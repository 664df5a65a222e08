(** * Complex: real and imaginary parts.

    Models /repo/quantities/quantity.py:160-174 ([real], [imag] and their setters) and 212-241
    ([rescale]) for magnitudes of complex dtype: pairs of a real and an imaginary part.
    Not modelled: a complex value given to a setter (NumPy drops its imaginary part with a
    warning); arithmetic between complex quantities. *)
From Verif Require Import Py Num Dim Arr Units Quant Methods.

Set Implicit Arguments.

Section Complex.
  Context {A : Type} {N : Num A}.

  (** quantity.py:160-162, 168-170. *)
  Definition q_real (q : qty (A * A)) : qty A := Qty (amap fst (mag q)) (qdim q).
  Definition q_imag (q : qty (A * A)) : qty A := Qty (amap snd (mag q)) (qdim q).

  (** [Quantity(r, self.dimensionality).magnitude], then NumPy's assignment, which
      broadcasts the value to the shape of [self] (no string is looked up). *)
  (** quantity.py:164-166, 172-174. *)
  Definition part_value (E : uenv A) (q : qty (A * A)) (r : operand A) : res (list A) :=
    v <- q_new (fun _ => Err KeyError) E r (UDim (qdim q)) ;; broadcast_to (mag v) (shp (mag q)).
  (** quantity.py:164-166; the result is [self] afterwards. *)
  Definition set_real (E : uenv A) (q : qty (A * A)) (r : operand A) : res (qty (A * A)) :=
    xs <- part_value E q r ;; Ok (Qty (Arr (shp (mag q)) (zip_with (fun x z => (x, snd z)) xs (dat (mag q)))) (qdim q)).
  (** quantity.py:172-174. *)
  Definition set_imag (E : uenv A) (q : qty (A * A)) (r : operand A) : res (qty (A * A)) :=
    xs <- part_value E q r ;; Ok (Qty (Arr (shp (mag q)) (zip_with (fun x z => (fst z, x)) xs (dat (mag q)))) (qdim q)).

  (** quantity.py:223-241: the factor is real, it multiplies both parts. *)
  Definition c_rescale_to (E : uenv A) (q : qty (A * A)) (to_dims : dims) : res (qty (A * A)) :=
    if dim_eqb (qdim q) to_dims then Ok q
    else match conv_factor E (qdim q) to_dims with
         | Ok cf => Ok (Qty (amap (fun z => (nmul cf (fst z), nmul cf (snd z))) (mag q)) to_dims)
         | Err AssertionError => Err ValueError
         | Err e => Err e
         end.

  (** A quantity of real dtype: [real] is a view of everything, [imag] is zero, and setting
      [imag] raises TypeError once the value has been converted (NumPy). *)
  (** quantity.py:160-174. *)
  Definition r_set_real (E : uenv A) (q : qty A) (r : operand A) : res (qty A) :=
    v <- q_new (fun _ => Err KeyError) E r (UDim (qdim q)) ;; xs <- broadcast_to (mag v) (shp (mag q)) ;;
    Ok (Qty (Arr (shp (mag q)) xs) (qdim q)).
  Definition r_set_imag (E : uenv A) (q : qty A) (r : operand A) : res (qty A) :=
    v <- q_new (fun _ => Err KeyError) E r (UDim (qdim q)) ;; Err TypeError.
End Complex.
