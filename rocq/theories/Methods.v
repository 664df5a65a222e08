(** * Methods: array methods of quantities.

    Models /repo/quantities/quantity.py:436-452 (item access), 494-787 (methods).
    The [out], [dtype] arguments are not modelled here (see Heap.v for writes into
    existing arrays). *)
From Coq Require Import Lia.
From Verif Require Import Py Num Dim Arr Units Quant Ufunc Ops.

Set Implicit Arguments.

(** An [axis] argument: an int, negative values counting from the end; out of range
    raises AxisError, a subclass of ValueError. *)
(** NumPy [axis] arguments (quantity.py:518-787). *)
Definition norm_axis (ndim : nat) (ax : option Z) : res (option nat) :=
  match ax with
  | None => Ok None
  | Some z =>
      let z' := if (z <? 0)%Z then (z + Z.of_nat ndim)%Z else z in
      if ((0 <=? z') && (z' <? Z.of_nat ndim))%Z then Ok (Some (Z.to_nat z')) else Err ValueError
  end.

Section Methods.
  Context {A : Type} {N : Num A}.

  (** ** Reductions of one lane (NumPy's loops) *)
  Definition nofnat (n : nat) : A := nofQ (Z2Qc (Z.of_nat n)).
  Definition lsum (l : list A) : A := fold_left nadd l n0.
  Definition lprod (l : list A) : A := fold_left nmul l n1.
  Definition lmax (l : list A) : A := match l with [] => n0 | x :: l' => fold_left nmax l' x end.
  Definition lmin (l : list A) : A := match l with [] => n0 | x :: l' => fold_left nmin l' x end.
  Definition lptp (l : list A) : A := nsub (lmax l) (lmin l).
  Definition lmean (l : list A) : A := ndiv (lsum l) (nofnat (length l)).
  Definition lvar (ddof : nat) (l : list A) : A :=
    ndiv (lsum (map (fun x => nmul (nsub x (lmean l)) (nsub x (lmean l))) l)) (nofnat (length l - ddof)).
  Definition lstd (ddof : nat) (l : list A) : A := nsqrt (lvar ddof l).
  Fixpoint lscan (op : A -> A -> A) (acc : A) (l : list A) : list A :=
    match l with
    | [] => []
    | x :: l' => let s := op acc x in s :: lscan op s l'
    end.
  Definition lcumsum (l : list A) : list A := lscan nadd n0 l.
  Definition lcumprod (l : list A) : list A := lscan nmul n1 l.

  (** Index of the first maximum / minimum. *)
  (** NumPy [argmax], [argmin] of a lane (quantity.py:591-593, 620-622). *)
  Fixpoint larg (better : A -> A -> bool) (best : A) (ibest i : nat) (l : list A) : nat :=
    match l with
    | [] => ibest
    | x :: l' => if better x best then larg better x i (S i) l' else larg better best ibest (S i) l'
    end.
  (** NumPy (quantity.py:591-593). *)
  Definition largmax (l : list A) : nat :=
    match l with [] => 0 | x :: l' => larg (fun a b => nltb b a) x 0 1 l' end.
  (** NumPy (quantity.py:620-622). *)
  Definition largmin (l : list A) : nat :=
    match l with [] => 0 | x :: l' => larg (fun a b => nltb a b) x 0 1 l' end.

  (** The reductions that keep the units. *)
  (** quantity.py:518-527 [sum], 580-589 [max], 602-611 [min], 632-641 [ptp], 699-708 [mean], 728-737 [std]. *)
  Inductive red : Type :=
  | RedSum            (* 519-527; nansum 530-535 on data without NaN *)
  | RedMean           (* 700-708; nanmean 711-715 *)
  | RedMax            (* 581-589 *)
  | RedMin            (* 603-611 *)
  | RedPtp            (* 633-641 *)
  | RedStd (ddof : nat). (* 729-737; nanstd 740-744 *)
  (** NumPy: what each reduction computes on a lane. *)
  Definition red_fun (r : red) : list A -> A :=
    match r with
    | RedSum => lsum | RedMean => lmean | RedMax => lmax | RedMin => lmin | RedPtp => lptp | RedStd dd => lstd dd
    end.
  (** max, min, ptp, argmax, argmin refuse empty lanes. *)
  (** NumPy. *)
  Definition red_needs_elements (r : red) : bool :=
    match r with RedMax | RedMin | RedPtp => true | _ => false end.
  (** NumPy. *)
  Definition lane_length (ax : option nat) (a : arr A) : nat :=
    match ax with None => length (dat a) | Some i => nth i (shp a) 0 end.
  (** NumPy: ValueError for empty lanes. *)
  Definition check_lanes {B} (need : bool) (ax : option nat) (a : arr A) (r : arr B) : res (arr B) :=
    if need && Nat.eqb (lane_length ax a) 0 && negb (Nat.eqb (length (dat r)) 0) then Err ValueError else Ok r.

  (** [self.magnitude.op(axis)] wrapped with [self.dimensionality]. *)
  (** quantity.py:518-527, 580-589, 602-611, 632-641, 699-708, 728-737 with [out=None]. *)
  Definition q_red (op : red) (axis : option Z) (q : qty A) : res (qty A) :=
    ax <- norm_axis (length (shp (mag q))) axis ;;
    m <- areduce (red_fun op) ax (mag q) ;;
    m <- check_lanes (red_needs_elements op) ax (mag q) m ;;
    Ok (Qty m (qdim q)).

  (** quantity.py:718-726 [var]: units squared. *)
  Definition q_var (ddof : nat) (axis : option Z) (q : qty A) : res (qty A) :=
    ax <- norm_axis (length (shp (mag q))) axis ;;
    m <- areduce (lvar ddof) ax (mag q) ;;
    Ok (Qty m (dim_pow (qdim q) (PInt 2))).

  (** quantity.py:747-760 [prod]: [power = self.size], or [self.shape[axis]] (which
      raises IndexError for a bad axis). *)
  Definition q_prod (axis : option Z) (q : qty A) : res (qty A) :=
    ax <- match norm_axis (length (shp (mag q))) axis with Ok x => Ok x | Err _ => Err IndexError end ;;
    m <- areduce lprod ax (mag q) ;;
    Ok (Qty m (dim_pow (qdim q) (PInt (Z.of_nat (lane_length ax (mag q)))))).

  (** quantity.py:763-771 [cumsum], 774-787 [cumprod]. *)
  Definition q_cumsum (axis : option Z) (q : qty A) : res (qty A) :=
    ax <- norm_axis (length (shp (mag q))) axis ;;
    m <- ascan lcumsum ax (mag q) ;; Ok (Qty m (qdim q)).
  Definition q_cumprod (axis : option Z) (q : qty A) : res (qty A) :=
    if dim_nonempty (qdim q) then Err ValueError
    else ax <- norm_axis (length (shp (mag q))) axis ;;
         m <- ascan lcumprod ax (mag q) ;; Ok (Qty m (qdim q)).

  (** quantity.py:592-593 [argmax], 621-622 [argmin]: plain indices. *)
  Definition q_argmax (axis : option Z) (q : qty A) : res (arr nat) :=
    ax <- norm_axis (length (shp (mag q))) axis ;;
    m <- areduce largmax ax (mag q) ;; check_lanes true ax (mag q) m.
  Definition q_argmin (axis : option Z) (q : qty A) : res (arr nat) :=
    ax <- norm_axis (length (shp (mag q))) axis ;;
    m <- areduce largmin ax (mag q) ;; check_lanes true ax (mag q) m.
  (** quantity.py:577-578 [nonzero], here as positions in row-major order. *)
  Fixpoint lnonzero (i : nat) (l : list A) : list nat :=
    match l with
    | [] => []
    | x :: l' => if neqb x n0 then lnonzero (S i) l' else i :: lnonzero (S i) l'
    end.
  Definition q_nonzero (q : qty A) : list nat := lnonzero 0 (dat (mag q)).

  (** quantity.py:596-600, 614-618 [nanmax], [nanmin] on data without NaN: the [axis]
      argument is accepted and ignored. *)
  Definition q_nanmax (axis : option Z) (q : qty A) : res (qty A) :=
    m <- areduce lmax None (mag q) ;; m <- check_lanes true None (mag q) m ;; Ok (Qty m (qdim q)).
  Definition q_nanmin (axis : option Z) (q : qty A) : res (qty A) :=
    m <- areduce lmin None (mag q) ;; m <- check_lanes true None (mag q) m ;; Ok (Qty m (qdim q)).

  (** ** [clip] *)

  (** quantity.py:644-668.  A missing bound is an infinite one; [min.rescale] of a
      plain bound (possible only for dimensionless [self]) is an AttributeError. *)
  Definition clip_bound (E : uenv A) (d : dims) (b : option (operand A)) : res (option (arr A)) :=
    match b with
    | None => Ok None
    | Some (OArr _) => Err AttributeError
    | Some (OQ q) => rmap (fun r => Some (mag r)) (rescale_to E q d)
    end.
  Definition clip_with (g : A -> A -> A) (m : arr A) (b : option (arr A)) : res (arr A) :=
    match b with None => Ok m | Some a => amap2 g m a end.
  Definition is_plain (b : option (operand A)) : bool :=
    match b with Some (OArr _) => true | _ => false end.
  Definition q_clip (E : uenv A) (q : qty A) (mn mx : option (operand A)) : res (qty A) :=
    match mn, mx with
    | None, None => Err ValueError
    | _, _ =>
        if dim_nonempty (qdim q) && (is_plain mn || is_plain mx) then Err ValueError
        else
          lo <- clip_bound E (qdim q) mn ;;
          hi <- clip_bound E (qdim q) mx ;;
          m <- clip_with nmax (mag q) lo ;;
          m <- clip_with nmin m hi ;;
          Ok (Qty m (qdim q))
    end.

  (** ** Item access *)

  (** What a NumPy key selects in an array of the given shape: the shape of the
      selection and the row-major positions of its elements, or an IndexError.  The
      theorems hold for every such function. *)
  Definition selector : Type := list nat -> res (list nat * list nat).

  (** NumPy's basic indexing: a tuple of integers, slices and [np.newaxis], one per
      leading axis. *)
  Inductive item : Type :=
  | IInt (k : Z)
  | ISlice (start stop : option Z) (step : Z)
  | INew.

  (** Python's [slice(start, stop, step).indices(n)] and the range it denotes. *)
  Definition slice_clamp (n : Z) (neg_step : bool) (k : Z) : Z :=
    let k' := if (k <? 0)%Z then (k + n)%Z else k in
    if neg_step then Z.max (-1) (Z.min k' (n - 1)) else Z.max 0 (Z.min k' n).
  Definition slice_start (n : nat) (start : option Z) (step : Z) : Z :=
    let neg := (step <? 0)%Z in
    match start with
    | Some k => slice_clamp (Z.of_nat n) neg k
    | None => if neg then (Z.of_nat n - 1)%Z else 0%Z
    end.
  Definition slice_stop (n : nat) (stop : option Z) (step : Z) : Z :=
    let neg := (step <? 0)%Z in
    match stop with
    | Some k => slice_clamp (Z.of_nat n) neg k
    | None => if neg then (-1)%Z else Z.of_nat n
    end.
  Definition slice_count (lo hi step : Z) : nat :=
    Z.to_nat (if (step <? 0)%Z then Z.max 0 ((lo - hi + (- step) - 1) / (- step))%Z
              else Z.max 0 ((hi - lo + step - 1) / step)%Z).
  Definition slice_indices (n : nat) (start stop : option Z) (step : Z) : list nat :=
    let lo := slice_start n start step in
    map (fun i => Z.to_nat (lo + Z.of_nat i * step)%Z)
        (seq 0 (slice_count lo (slice_stop n stop step) step)).

  (** Negative indices count from the end. *)
  (** Python/NumPy indexing (quantity.py:436-442). *)
  Definition norm_index (n : nat) (k : Z) : res nat :=
    let k' := if (k <? 0)%Z then (k + Z.of_nat n)%Z else k in
    if ((0 <=? k') && (k' <? Z.of_nat n))%Z then Ok (Z.to_nat k') else Err IndexError.

  (** NumPy basic indexing (quantity.py:437). *)
  Fixpoint sel_basic (key : list item) (s : list nat) : res (list nat * list nat) :=
    match key with
    | [] => Ok (s, seq 0 (prodn s))
    | INew :: key' => '(t, ps) <- sel_basic key' s ;; Ok (1 :: t, ps)
    | IInt k :: key' =>
        match s with
        | [] => Err IndexError
        | n :: s' => j <- norm_index n k ;; '(t, ps) <- sel_basic key' s' ;;
                     Ok (t, map (fun x => j * prodn s' + x) ps)
        end
    | ISlice start stop step :: key' =>
        match s with
        | [] => Err IndexError
        | n :: s' => if (step =? 0)%Z then Err ValueError
                     else let js := slice_indices n start stop step in
                          '(t, ps) <- sel_basic key' s' ;;
                          Ok (length js :: t, flat_map (fun j => map (fun x => j * prodn s' + x) ps) js)
        end
    end.

  (** A boolean mask of the same shape. *)
  (** NumPy boolean indexing. *)
  Fixpoint mask_positions (i : nat) (m : list bool) : list nat :=
    match m with [] => [] | b :: m' => if b then i :: mask_positions (S i) m' else mask_positions (S i) m' end.
  (** NumPy boolean indexing (quantity.py:437). *)
  Definition sel_mask (m : arr bool) : selector := fun s =>
    if list_eq_dec Nat.eq_dec (shp m) s
    then let ps := mask_positions 0 (dat m) in Ok ([length ps], ps)
    else Err IndexError.

  (** NumPy [ndarray.__getitem__] (quantity.py:438). *)
  Definition gather (l : list A) (ps : list nat) : list A := map (fun p => nth p l n0) ps.
  (** quantity.py:437-442. *)
  Definition q_getitem (sel : selector) (q : qty A) : res (qty A) :=
    '(s, ps) <- sel (shp (mag q)) ;; Ok (Qty (Arr s (gather (dat (mag q)) ps)) (qdim q)).

  Fixpoint update {B} (l : list B) (p : nat) (x : B) : list B :=
    match l, p with
    | [], _ => []
    | _ :: l', 0 => x :: l'
    | y :: l', S p' => y :: update l' p' x
    end.
  Definition scatter {B} (l : list B) (ps : list nat) (xs : list B) : list B :=
    fold_left (fun l px => update l (fst px) (snd px)) (combine ps xs) l.
  (** Values are broadcast to the selection.  (Simplification: NumPy also drops
      superfluous leading dimensions of length 1 of the value.) *)
  Definition broadcast_to (a : arr A) (s : list nat) : res (list A) :=
    match bc_shape (shp a) s with
    | Some t => if list_eq_dec Nat.eq_dec t s then Ok (expand (pad (length s) (shp a)) s (dat a)) else Err ValueError
    | None => Err ValueError
    end.
  (** quantity.py:444-452; the returned quantity is [self] afterwards. *)
  Definition q_setitem (E : uenv A) (sel : selector) (q : qty A) (v : operand A) : res (qty A) :=
    v' <- scale_other E q v ;;
    '(s, ps) <- sel (shp (mag q)) ;;
    xs <- broadcast_to (mag v') s ;;
    Ok (Qty (Arr (shp (mag q)) (scatter (dat (mag q)) ps xs)) (qdim q)).

  (** quantity.py:546-557 [put(indices, values)]: flat positions, values repeated as
      necessary. *)
  Fixpoint cycle (k : nat) (rest all : list A) : list A :=
    match k, all with
    | 0, _ => []
    | _, [] => []
    | S k', x0 :: _ => match rest with
                       | x :: rest' => x :: cycle k' rest' all
                       | [] => x0 :: cycle k' (tl all) all
                       end
    end.
  Fixpoint norm_indices (n : nat) (ks : list Z) : res (list nat) :=
    match ks with
    | [] => Ok []
    | k :: ks' => p <- norm_index n k ;; ps <- norm_indices n ks' ;; Ok (p :: ps)
    end.
  Definition q_put (E : uenv A) (q : qty A) (indices : list Z) (v : operand A) : res (qty A) :=
    v' <- scale_other E q v ;;
    ps <- norm_indices (length (dat (mag q))) indices ;;
    Ok (Qty (Arr (shp (mag q)) (scatter (dat (mag q)) ps (cycle (length ps) (dat (mag v')) (dat (mag v'))))) (qdim q)).

  (** ** [tolist] *)
  (** Python nested lists (quantity.py:494-513). *)
  Inductive nested (B : Type) : Type := Leaf (x : B) | Node (l : list (nested B)).
  (** ndarray.tolist *)
  (** NumPy ndarray.tolist (quantity.py:498). *)
  Fixpoint nd_tolist {B} (s : list nat) (l : list B) : option (nested B) :=
    match s with
    | [] => option_map (@Leaf B) (hd_error l)
    | n :: s' =>
        option_map (@Node B)
          (fold_right (fun c acc => match nd_tolist s' c, acc with Some x, Some xs => Some (x :: xs) | _, _ => None end)
                      (Some []) (chunks n (prodn s') l))
    end.
  (** quantity.py:505-513 [_tolist]. *)
  Fixpoint wrap_leaves (d : dims) (t : nested A) : nested (qty A) :=
    match t with
    | Leaf x => Leaf (Qty (scalar x) d)
    | Node l => Node (map (wrap_leaves d) l)
    end.
  (** quantity.py:495-503; [None] cannot happen for well-formed arrays. *)
  Definition q_tolist (q : qty A) : option (nested (qty A)) :=
    option_map (wrap_leaves (qdim q)) (nd_tolist (shp (mag q)) (dat (mag q))).

  (** ** [searchsorted] *)

  (** NumPy's result for a sorted 1-D array: how many elements are smaller than the
      value ([side='left']), or not greater ([side='right']). *)
  Fixpoint lead (p : A -> bool) (l : list A) : nat :=
    match l with [] => 0 | x :: l' => if p x then S (lead p l') else 0 end.
  Definition search (right : bool) (l : list A) (v : A) : nat :=
    lead (fun x => if right then nleb x v else nltb x v) l.
  (** quantity.py:567-574. *)
  Definition q_searchsorted (right : bool) (q : qty A) (v : operand A) : res (arr nat) :=
    if dim_eqb (qdim (as_q v)) (qdim q) then
      match shp (mag q) with
      | [_] => Ok (amap (search right (dat (mag q))) (odat v))
      | _ => Err ValueError
      end
    else Err ValueError.
End Methods.
Arguments Leaf {B} x.
Arguments Node {B} l.
