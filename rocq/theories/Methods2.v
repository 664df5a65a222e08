(** * Methods2: rounding, sorting order, trace and squeeze.

    Models /repo/quantities/quantity.py:409-410 ([__round__]), 562-564 ([argsort]),
    670-679 ([round]), 681-690 ([trace]), 692-697 ([squeeze]).  The [out], [dtype] and
    [order] arguments are not modelled. *)
From Coq Require Import Lia.
From Verif Require Import Py Num Dim Arr Units Quant Ufunc Ops Methods.

Set Implicit Arguments.

(** All indices of an array of shape [s], in row-major order (NumPy's iteration order). *)
(** Environment (NumPy). *)
Fixpoint all_idx (s : list nat) : list (list nat) :=
  match s with
  | [] => [[]]
  | n :: s' => flat_map (fun i => map (cons i) (all_idx s')) (seq 0 n)
  end.
(** The array of shape [s] with element [f idx] at [idx]. *)
(** Environment (NumPy). *)
Definition atab {A} (s : list nat) (f : list nat -> A) : arr A := Arr s (map f (all_idx s)).

(** Shape or index without position [ax]. *)
(** Environment (NumPy). *)
Definition drop_at {A} (ax : nat) (l : list A) : list A := firstn ax l ++ skipn (S ax) l.
(** Shape or index with [x] put in at position [ax]. *)
(** Environment (NumPy). *)
Definition put_at {A} (ax : nat) (x : A) (l : list A) : list A := firstn ax l ++ x :: skipn ax l.

Section Methods2.
  Context {A : Type} {N : Num A}.

  (** *** Rounding *)

  (** 1/2 and 2 as numbers. *)
  (** Environment (NumPy). *)
  Definition nhalf : A := nofQ (Q2Qc (1 # 2)).
  Definition ntwo : A := nofQ (Z2Qc 2).
  (** np.rint: to the nearest integer, ties to even. *)
  (** Environment (NumPy), used by ndarray.round, quantity.py:672. *)
  Definition nrint (x : A) : A :=
    let f := nfloor x in
    let d := nsub x f in
    if nltb d nhalf then f
    else if nltb nhalf d then nadd f n1
    else if neqb (nmul (nfloor (ndiv f ntwo)) ntwo) f then f else nadd f n1.
  (** [10 ** |decimals|]. *)
  (** Environment (NumPy), ndarray.round, quantity.py:672. *)
  Definition ten_to (k : Z) : A := nofQ (Z2Qc (10 ^ k)).
  (** ndarray.round: scale by a power of ten, np.rint, scale back. *)
  (** Environment (NumPy), quantity.py:672. *)
  Definition nround (decimals : Z) (x : A) : A :=
    if (0 <=? decimals)%Z then ndiv (nrint (nmul x (ten_to decimals))) (ten_to decimals)
    else nmul (nrint (ndiv x (ten_to (- decimals)))) (ten_to (- decimals)).
  (** quantity.py:670-675 with [out=None]: the magnitudes are rounded in the current
      units; [Quantity(ret, dim)]. *)
  Definition q_round (decimals : Z) (q : qty A) : res (qty A) :=
    Ok (Qty (amap (nround decimals) (mag q)) (qdim q)).
  (** quantity.py:409-410: [np.around(self, decimals)] calls [self.round(decimals)];
      [round(q)] passes no decimals, default 0. *)
  Definition q_dunder_round (decimals : option Z) (q : qty A) : res (qty A) :=
    q_round (match decimals with Some d => d | None => 0%Z end) q.

  (** *** [argsort] *)

  (** quantity.py:562-564: [self.magnitude.argsort(axis, kind, order)], plain indices.
      [srt] is NumPy's argsort of one lane ([kind='quick'] is not stable, so which of
      several equal elements comes first is not determined).  0-d arrays are not
      modelled. *)
  Definition q_argsort (srt : list A -> list nat) (axis : option Z) (q : qty A) : res (arr nat) :=
    ax <- norm_axis (length (shp (mag q))) axis ;;
    ascan srt ax (mag q).

  (** *** [trace] *)

  (** ndarray.diagonal: how many elements the diagonal has, and where it starts. *)
  (** Environment (NumPy), quantity.py:683. *)
  Definition diag_len (n1 n2 : nat) (offset : Z) : nat :=
    Z.to_nat (Z.min (Z.of_nat n1 + Z.min 0 offset) (Z.of_nat n2 - Z.max 0 offset)).
  Definition diag_i (offset : Z) (k : nat) : nat := k + Z.to_nat (- offset).
  Definition diag_j (offset : Z) (k : nat) : nat := k + Z.to_nat offset.
  (** The index of the full array: [i] at axis [a1], [j] at axis [a2], [idx] elsewhere. *)
  (** Environment (NumPy), quantity.py:683. *)
  Definition put_two (a1 a2 i j : nat) (idx : list nat) : list nat :=
    if Nat.ltb a1 a2 then put_at a2 j (put_at a1 i idx) else put_at a1 i (put_at a2 j idx).
  Definition drop_two (a1 a2 : nat) (l : list nat) : list nat :=
    if Nat.ltb a1 a2 then drop_at a1 (drop_at a2 l) else drop_at a2 (drop_at a1 l).
  (** The element at an index (in range: see the theorems). *)
  (** Environment (NumPy). *)
  Definition elem (a : arr A) (idx : list nat) : A := match aget a idx with Some x => x | None => n0 end.
  (** ndarray.trace: the sum along the diagonal. *)
  (** Environment (NumPy), quantity.py:683. *)
  Definition atrace (offset : Z) (a1 a2 : nat) (a : arr A) : arr A :=
    atab (drop_two a1 a2 (shp a)) (fun idx =>
      lsum (map (fun k => elem a (put_two a1 a2 (diag_i offset k) (diag_j offset k) idx))
                (seq 0 (diag_len (nth a1 (shp a) 0) (nth a2 (shp a) 0) offset)))).
  (** quantity.py:681-686 with [dtype=None], [out=None]; [axis1], [axis2] default to 0
      and 1.  NumPy raises ValueError for arrays with less than two axes, unknown axes
      (AxisError) and [axis1 = axis2]. *)
  Definition q_trace (offset axis1 axis2 : Z) (q : qty A) : res (qty A) :=
    o1 <- norm_axis (length (shp (mag q))) (Some axis1) ;;
    o2 <- norm_axis (length (shp (mag q))) (Some axis2) ;;
    match o1, o2 with
    | Some a1, Some a2 =>
        if Nat.eqb a1 a2 then Err ValueError else Ok (Qty (atrace offset a1 a2 (mag q)) (qdim q))
    | _, _ => Err ValueError
    end.

  (** *** [squeeze] *)

  (** quantity.py:692-697: [self.magnitude.squeeze(axis)]: remove every axis of length
      one, or the given one (ValueError if its length is not one). *)
  Definition q_squeeze (axis : option Z) (q : qty A) : res (qty A) :=
    ax <- norm_axis (length (shp (mag q))) axis ;;
    match ax with
    | None => Ok (Qty (Arr (filter (fun n => negb (Nat.eqb n 1)) (shp (mag q))) (dat (mag q))) (qdim q))
    | Some i =>
        if Nat.eqb (nth i (shp (mag q)) 0) 1
        then Ok (Qty (Arr (drop_at i (shp (mag q))) (dat (mag q))) (qdim q))
        else Err ValueError
    end.
End Methods2.
