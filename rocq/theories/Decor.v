(** * Decor: the decorators of /repo/quantities/decorators.py.

    [memoize] (lines 10-17) and [quantitizer] (56-160). *)
From Verif Require Import Py Num Dim Arr Units Quant.

Set Implicit Arguments.

(** ** memoize, decorators.py:10-17 *)

Section Memo.
  (** Calls: the function together with its positional and keyword arguments.  [same]
      is Python's equality of the key tuples [(f, tuple(args), frozenset(kwargs.items()))],
      [hashable] tells whether the key can be hashed.  [V] is what an object returned
      by a function contains. *)
  Variables K V : Type.
  Variable same : K -> K -> bool.
  Variable hashable : K -> bool.
  (** What the function does at its [n]-th invocation (it need not be pure): it returns
      a new object with these contents, or raises. *)
  Variable f : nat -> K -> res V.

  (** The objects (an object's identity is its position), the cache shared by all
      memoized functions, and the invocations of the functions made so far. *)
  (** decorators.py:10 (the shared default [cache]). *)
  Record mstate : Type := MState { mem : list V; cache : list (K * nat); invoked : list K }.
  (** decorators.py:10. *)
  Definition mempty : mstate := MState [] [] [].

  (** A key of a dict that is equal to [k]. *)
  (** decorators.py:14-15. *)
  Fixpoint cached (c : list (K * nat)) (k : K) : option nat :=
    match c with
    | [] => None
    | (k', i) :: c' => if same k' k then Some i else cached c' k
    end.

  (** [x.copy()]: a new object with the same contents. *)
  (** decorators.py:16. *)
  Definition copy_of (st : mstate) (i : nat) : mstate * res nat :=
    match nth_error (mem st) i with
    | Some v => (MState (mem st ++ [v]) (cache st) (invoked st), Ok (length (mem st)))
    | None => (st, Err Unmodelled)
    end.

  (** decorators.py:12-16: the call [k] of a memoized function. *)
  Definition memo_call (st : mstate) (k : K) : mstate * res nat :=
    if negb (hashable k) then (st, Err TypeError)
    else match cached (cache st) k with
         | Some i => copy_of st i
         | None =>
             match f (length (invoked st)) k with
             | Err e => (MState (mem st) (cache st) (invoked st ++ [k]), Err e)
             | Ok v => copy_of (MState (mem st ++ [v]) (cache st ++ [(k, length (mem st))]) (invoked st ++ [k]))
                               (length (mem st))
             end
         end.

  (** What the rest of the program does: calls, and changes to objects that calls have
      returned.  [given]: the objects returned so far. *)
  (** Specification-level: programs using a memoized function. *)
  Inductive mop : Type :=
  | MCall (k : K)
  | MChange (n : nat) (v : V).      (* the [n]-th returned object gets new contents *)

  (** Auxiliary. *)
  Fixpoint set_nth (l : list V) (i : nat) (v : V) : list V :=
    match l, i with
    | [], _ => []
    | _ :: l', 0 => v :: l'
    | x :: l', S i' => x :: set_nth l' i' v
    end.

  (** decorators.py:11-16. *)
  Definition mstep (s : mstate * list nat) (o : mop) : mstate * list nat :=
    let '(st, given) := s in
    match o with
    | MCall k => match memo_call st k with
                 | (st', Ok i) => (st', given ++ [i])
                 | (st', Err _) => (st', given)
                 end
    | MChange n v => match nth_error given n with
                     | Some i => (MState (set_nth (mem st) i v) (cache st) (invoked st), given)
                     | None => (st, given)
                     end
    end.
  (** Specification-level. *)
  Fixpoint mrun (s : mstate * list nat) (l : list mop) : mstate * list nat :=
    match l with
    | [] => s
    | o :: l' => mrun (mstep s o) l'
    end.
End Memo.

(** ** quantitizer, decorators.py:56-160 *)

Section Quantitizer.
  Context {A : Type} {N : Num A}.

  (** Values passed in and out: quantities, plain arrays and numbers, and anything else
      (for which only identity matters). *)
  (** decorators.py:77-112. *)
  Inductive pv : Type :=
  | PVQ (q : qty A)
  | PVA (a : arr A)
  | PVO (s : string).

  (** What the handler returns: a sequence, a single quantity, or something without a
      length, like the [1.0] of the default handler (line 57). *)
  Inductive hres : Type :=
  | HSeq (l : list pv)
  | HQty (q : qty A)
  | HNoLen.
  (** What the wrapped function returns: something [list()] accepts, or not. *)
  (** decorators.py:117-121. *)
  Inductive bres : Type :=
  | BSeq (l : list pv)
  | BNotIterable.

  (** decorators.py:57 *)
  Definition default_handler (args : list pv) (kwargs : list (string * pv)) : res hres := Ok HNoLen.

  Variable fuel : nat.
  Variable E : uenv A.
  Variable D : defaults.

  (** decorators.py:92-101: a positional argument. *)
  Definition strip_arg (x : pv) : res pv :=
    match x with
    | PVQ q => s <- simplified fuel E D q ;; Ok (PVA (mag s))
    | _ => Ok x
    end.
  Fixpoint strip_args (l : list pv) : res (list pv) :=
    match l with
    | [] => Ok []
    | x :: l' => y <- strip_arg x ;; ys <- strip_args l' ;; Ok (y :: ys)
    end.
  (** decorators.py:107-115: keyword arguments; quantities have no attribute
      [simplifed]. *)
  Fixpoint strip_kwargs (l : list (string * pv)) : res (list (string * pv)) :=
    match l with
    | [] => Ok []
    | (k, PVQ _) :: _ => Err AttributeError
    | (k, x) :: l' => ys <- strip_kwargs l' ;; Ok ((k, x) :: ys)
    end.

  (** decorators.py:129, 135: [len(handler_quantities)] and its items.  A Quantity has
      the length of its first axis; its items keep its units. *)
  Definition h_items (h : hres) : res (list pv) :=
    match h with
    | HSeq l => Ok l
    | HQty q => match shp (mag q) with
                | [] => Err TypeError
                | n :: s => let k := prodn s in
                            Ok (map (fun i => PVQ (Qty (Arr s (firstn k (skipn (i * k) (dat (mag q))))) (qdim q))) (seq 0 n))
                end
    | HNoLen => Err TypeError
    end.

  (** decorators.py:131-147: the [i]-th result and the [i]-th item of the handler. *)
  Definition give_units (h r : pv) : res pv :=
    match h with
    | PVQ hq =>
        ds <- dim_simplified fuel E D (qdim hq) ;;
        q <- match r with
             | PVQ q => q_new (fun _ => Err Unmodelled) E (OQ q) (UDim ds)
             | PVA a => q_new (fun _ => Err Unmodelled) E (OArr a) (UDim ds)
             | PVO _ => Err Unmodelled
             end ;;
        q' <- rescale_to E q (qdim hq) ;; Ok (PVQ q')
    | _ => Ok r
    end.
  Fixpoint give_all (hs rs : list pv) : res (list pv) :=
    match hs, rs with
    | h :: hs', r :: rs' => x <- give_units h r ;; xs <- give_all hs' rs' ;; Ok (x :: xs)
    | _, _ => Ok rs
    end.

  (** decorators.py:77-150 [wrapped_function]. *)
  Definition quantitized (base : list pv -> list (string * pv) -> res bres)
             (handler : list pv -> list (string * pv) -> res hres)
             (args : list pv) (kwargs : list (string * pv)) : res (list pv) :=
    h <- handler args kwargs ;;
    args' <- strip_args args ;;
    kwargs' <- strip_kwargs kwargs ;;
    r <- base args' kwargs' ;;
    match r with
    | BNotIterable => Err TypeError
    | BSeq l => hs <- h_items h ;; give_all hs l
    end.
End Quantitizer.

Arguments mstate : clear implicits.
Arguments pv : clear implicits.
Arguments hres : clear implicits.
Arguments bres : clear implicits.
