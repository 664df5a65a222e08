(** * Dtype: integer and floating magnitudes in [rescale].

    Models /repo/quantities/quantity.py:212-241 including the [dtype] handling that
    Quant.v leaves out.  Simplification: two dtypes, integers and floats; a float is
    an exact number (no float32/float64 distinction), so casting to a float type is
    the identity on values and casting to an integer type truncates toward zero. *)
From Coq Require Import Reals Lra.
From Verif Require Import Py Num Dim DimFacts Arr Units Spec UnitFacts Quant QuantFacts.

Inductive kind : Type := KInt | KFloat.

(** [np.result_type] of the two kinds. *)
(** NumPy; used at quantity.py:228-241. *)
Definition result_kind (a b : kind) : kind :=
  match a, b with KInt, KInt => KInt | _, _ => KFloat end.

Section Dtype.
  Context {A : Type} {N : Num A}.
  (** NumPy: casting to an integer type truncates. *)
  Definition ntrunc (x : A) : A := if nltb x n0 then nneg (nfloor (nneg x)) else nfloor x.

  (** A quantity with its dtype. *)
  (** quantity.py:113-136 with [self.dtype]. *)
  Record dqty : Type := DQ { dq_kind : kind; dq_q : qty A }.

  (** [astype] (quantity.py:280-292). *)
  Definition dq_astype (x : dqty) (k : kind) : dqty :=
    match dq_kind x, k with
    | KFloat, KInt => DQ KInt (Qty (amap ntrunc (mag (dq_q x))) (qdim (dq_q x)))
    | _, _ => DQ k (dq_q x)
    end.

  (** quantity.py:223-241.  The conversion factor is a float whatever [dtype] is
      (the units' references are floats; line 237 casts it to a float dtype only),
      hence [new_magnitude] is a float array and so is the result (line 240). *)
  Definition rescale_dt (E : uenv A) (x : dqty) (to_dims : dims) (dtype : option kind) : res dqty :=
    let dt := match dtype with Some k => k | None => dq_kind x end in
    if dim_eqb (qdim (dq_q x)) to_dims then Ok (dq_astype x dt)
    else match conv_factor E (qdim (dq_q x)) to_dims with
         | Ok cf => let k_new := result_kind KFloat (dq_kind x) in
                    Ok (DQ (result_kind dt k_new) (Qty (amap (fun v => nmul cf v) (mag (dq_q x))) to_dims))
         | Err AssertionError => Err ValueError
         | Err e => Err e
         end.

  (** Without an explicit dtype the values are those of [rescale_to]. *)
  Lemma rescale_dt_values E x to :
    rmap dq_q (rescale_dt E x to None) = rescale_to E (dq_q x) to.
  Proof.
    unfold rescale_dt, rescale_to. destruct (dim_eqb _ _).
    - destruct x as [[] q]; reflexivity.
    - destruct (conv_factor _ _ _) as [cf|e]; [reflexivity|]. destruct e; reflexivity.
  Qed.
  Lemma rescale_dt_kind E x to y : rescale_dt E x to None = Ok y ->
    (dim_eqb (qdim (dq_q x)) to = true /\ y = x) \/ (dim_eqb (qdim (dq_q x)) to = false /\ dq_kind y = KFloat).
  Proof.
    unfold rescale_dt. destruct (dim_eqb _ _).
    - intros [= <-]. left. split; auto. destruct x as [[] q]; reflexivity.
    - destruct (conv_factor _ _ _) as [cf|e].
      + intros [= <-]. right. split; auto. destruct x as [[] q]; reflexivity.
      + destruct e; discriminate.
  Qed.
End Dtype.
Arguments dqty : clear implicits.
