(** * Program: programs that use quantities.

    A small language of programs whose elementary steps are the API calls modelled in
    Ops.v, Methods.v, Methods2.v and Ufunc.v.  The language itself is not in /repo: it
    stands for the code users write with the operators and methods of
    /repo/quantities/quantity.py:135-787. *)
From Coq Require Import Reals.
From Verif Require Import Py Num Dim Arr Units Quant Ufunc Ops Methods Methods2.

(** What variables hold: quantities, plain arrays, boolean arrays (the results of
    comparisons), index arrays. *)
(** quantity.py:113-115 (quantities); plain ndarrays otherwise. *)
Inductive value : Type :=
| VQ (q : qty R)
| VA (a : arr R)
| VB (b : arr bool)
| VN (n : arr nat).

(** Calls with one quantity argument. *)
(** quantity.py:171-194 (simplified, rescale), 398-401 (power), 436-442 (indexing),
    518-787 (methods); ufuncs 290-334. *)
Inductive op1 : Type :=
| OUfunc (f : uf1)
| OPow (e : operand pynum)
| ORescale (d : dims)
| OSimplified
| ORed (r : red) (axis : option Z)
| OVar (ddof : nat) (axis : option Z)
| OProd (axis : option Z)
| OCumsum (axis : option Z)
| OTrace (offset axis1 axis2 : Z)
| OSqueeze (axis : option Z)
| OItem (key : list item)
| OArgmax (axis : option Z)
| OArgmin (axis : option Z)
| ONonzero.

(** Calls with two arguments. *)
(** quantity.py:336-396 (operators), 454-490 (comparisons), 436-452 (item access with
    a mask, assignment), 644-668 (clip with one bound), 546-557 (put). *)
Inductive op2 : Type :=
| OAdd | OSub | OMod | OMul | ODiv
| OCmp (c : ucmp)
| OMask
| OClipLo | OClipHi
| OSetItem (key : list item)
| OPut (indices : list Z).

(** Programs.  [PLoop c b] works on variable 0: while [c] is true, variable 0 becomes
    the value of [b]; the value of the loop is variable 0. *)
(** User code, not in /repo (it calls quantity.py:135-787). *)
Inductive prog : Type :=
| PVar (n : nat)
| PPlain (a : arr R)
| P1 (o : op1) (p : prog)
| P2 (o : op2) (p1 p2 : prog)
| PLet (p body : prog)
| PIf (c p1 p2 : prog)
| PLoop (c b : prog).

Section Program.
  Variable E : uenv R.
  Variable D : ucls -> option dims.
  (** Python's recursion limit, less two. *)
  Variable fuel : nat.

  (** The calls.  [None]: not a program considered here (e.g. a boolean array where a
      quantity is expected). *)
  (** quantity.py:171-194, 290-334, 398-401, 436-442, 518-787, as modelled in Quant.v,
      Ufunc.v, Ops.v, Methods.v, Methods2.v. *)
  Definition call1 (o : op1) (v : value) : option (res value) :=
    match v with
    | VQ q =>
        match o with
        | OUfunc f => Some (rmap VQ (np1 E f q))
        | OPow e => Some (rmap VQ (q_pow q e))
        | ORescale d => Some (rmap VQ (rescale (fun _ => Err LookupError) E q (UDim d)))
        | OSimplified => Some (rmap VQ (simplified (S (S fuel)) E D q))
        | ORed r axis => Some (rmap VQ (q_red r axis q))
        | OVar dd axis => Some (rmap VQ (q_var dd axis q))
        | OProd axis => Some (rmap VQ (q_prod axis q))
        | OCumsum axis => Some (rmap VQ (q_cumsum axis q))
        | OTrace o a1 a2 => Some (rmap VQ (q_trace o a1 a2 q))
        | OSqueeze axis => Some (rmap VQ (q_squeeze axis q))
        | OItem key => Some (rmap VQ (q_getitem (sel_basic key) q))
        | OArgmax axis => Some (rmap VN (q_argmax axis q))
        | OArgmin axis => Some (rmap VN (q_argmin axis q))
        | ONonzero => let l := q_nonzero q in Some (Ok (VN (Arr [length l] l)))
        end
    | _ => None
    end.

  (** quantity.py:336-396, 436-490, 546-557, 644-668, as modelled in Ops.v, Methods.v. *)
  Definition call2 (o : op2) (v1 v2 : value) : option (res value) :=
    match o, v1, v2 with
    | OAdd, VQ q1, VQ q2 => Some (rmap VQ (q_add E q1 (OQ q2)))
    | OAdd, VQ q, VA a => Some (rmap VQ (q_add E q (OArr a)))
    | OAdd, VA a, VQ q => Some (rmap VQ (q_radd E q (OArr a)))
    | OSub, VQ q1, VQ q2 => Some (rmap VQ (q_sub E q1 (OQ q2)))
    | OSub, VQ q, VA a => Some (rmap VQ (q_sub E q (OArr a)))
    | OSub, VA a, VQ q => Some (rmap VQ (q_rsub E q (OArr a)))
    | OMod, VQ q1, VQ q2 => Some (rmap VQ (q_mod E q1 (OQ q2)))
    | OMod, VQ q, VA a => Some (rmap VQ (q_mod E q (OArr a)))
    | OMul, VQ q1, VQ q2 => Some (rmap VQ (q_mul (OQ q1) (OQ q2)))
    | OMul, VQ q, VA a => Some (rmap VQ (q_mul (OQ q) (OArr a)))
    | OMul, VA a, VQ q => Some (rmap VQ (q_mul (OArr a) (OQ q)))
    | ODiv, VQ q1, VQ q2 => Some (rmap VQ (q_div (OQ q1) (OQ q2)))
    | ODiv, VQ q, VA a => Some (rmap VQ (q_div (OQ q) (OArr a)))
    | ODiv, VA a, VQ q => Some (rmap VQ (q_div (OArr a) (OQ q)))
    | OCmp UEq, VQ q1, VQ q2 => Some (rmap VB (q_eq E q1 (OQ q2)))
    | OCmp UNe, VQ q1, VQ q2 => Some (rmap VB (q_ne E q1 (OQ q2)))
    | OCmp c, VQ q1, VQ q2 => Some (rmap VB (q_order E c q1 (OQ q2)))
    | OMask, VQ q, VB b => Some (rmap VQ (q_getitem (sel_mask b) q))
    | OClipLo, VQ q, VQ b => Some (rmap VQ (q_clip E q (Some (OQ b)) None))
    | OClipHi, VQ q, VQ b => Some (rmap VQ (q_clip E q None (Some (OQ b))))
    | OSetItem key, VQ q, VQ v => Some (rmap VQ (q_setitem E (sel_basic key) q (OQ v)))
    | OPut ks, VQ q, VQ v => Some (rmap VQ (q_put E q ks (OQ v)))
    | _, _, _ => None
    end.

  (** Where the real-number model says something about NumPy's result: no division by
      zero, no root of a negative number, ...; and the ufuncs considered. *)
  (** Scope of the model (Num.v), not a function of /repo. *)
  Definition defined1 (o : op1) (v : value) : Prop :=
    match o, v with
    | OUfunc USqrt, VQ q => Forall (fun x => 0 <= x)%R (dat (mag q))
    | OUfunc UReciprocal, VQ q => Forall (fun x => x <> 0)%R (dat (mag q))
    | OUfunc f, _ => In f [UFabs; UAbsolute; UConjugate; UNegative; USquare]
    | OPow e, VQ q => forall x p, In x (dat (mag q)) -> In p (dat (odat e)) ->
        (0 < x)%R \/ (Qden (this (pval p)) = 1%positive /\ (x <> 0%R \/ (0 <= Qnum (this (pval p)))%Z)) \/
        (x = 0%R /\ (0 < Qnum (this (pval p)))%Z)
    | _, _ => True
    end.
  (** Scope of the model (Num.v), not a function of /repo. *)
  Definition defined2 (o : op2) (v1 v2 : value) : Prop :=
    match o, v2 with
    | ODiv, VQ q => Forall (fun y => y <> 0)%R (dat (mag q))
    | ODiv, VA a => Forall (fun y => y <> 0)%R (dat a)
    | OMod, VQ q => Forall (fun y => y <> 0)%R (dat (mag q))
    | OMod, VA a => Forall (fun y => y <> 0)%R (dat a)
    | _, _ => True
    end.

  (** [runs env p r]: in the environment [env], [p] ends with the value or exception [r]. *)
  (** Python's evaluation order (user code, not in /repo). *)
  Inductive runs : list value -> prog -> res value -> Prop :=
  | RVar env n v : nth_error env n = Some v -> runs env (PVar n) (Ok v)
  | RLit env a : runs env (PPlain a) (Ok (VA a))
  | R1 env o p v r : runs env p (Ok v) -> defined1 o v -> call1 o v = Some r -> runs env (P1 o p) r
  | R1e env o p e : runs env p (Err e) -> runs env (P1 o p) (Err e)
  | R2 env o p1 p2 v1 v2 r : runs env p1 (Ok v1) -> runs env p2 (Ok v2) -> defined2 o v1 v2 ->
      call2 o v1 v2 = Some r -> runs env (P2 o p1 p2) r
  | R2e env o p1 p2 e : runs env p1 (Err e) -> runs env (P2 o p1 p2) (Err e)
  | R2e' env o p1 p2 v e : runs env p1 (Ok v) -> runs env p2 (Err e) -> runs env (P2 o p1 p2) (Err e)
  | RLet env p b v r : runs env p (Ok v) -> runs (v :: env) b r -> runs env (PLet p b) r
  | RLete env p b e : runs env p (Err e) -> runs env (PLet p b) (Err e)
  | RIf env c p1 p2 b t r : runs env c (Ok (VB b)) -> dat b = [t] ->
      runs env (if t then p1 else p2) r -> runs env (PIf c p1 p2) r
  | RIfa env c p1 p2 b : runs env c (Ok (VB b)) -> (2 <= length (dat b))%nat -> runs env (PIf c p1 p2) (Err ValueError)
  | RIfe env c p1 p2 e : runs env c (Err e) -> runs env (PIf c p1 p2) (Err e)
  | RLoop env c b t v : runs (v :: env) c (Ok (VB t)) -> dat t = [false] -> runs (v :: env) (PLoop c b) (Ok v)
  | RLoops env c b t v v' r : runs (v :: env) c (Ok (VB t)) -> dat t = [true] ->
      runs (v :: env) b (Ok v') -> runs (v' :: env) (PLoop c b) r -> runs (v :: env) (PLoop c b) r
  | RLoopa env c b t v : runs (v :: env) c (Ok (VB t)) -> (2 <= length (dat t))%nat ->
      runs (v :: env) (PLoop c b) (Err ValueError)
  | RLoope env c b v e : runs (v :: env) c (Err e) -> runs (v :: env) (PLoop c b) (Err e)
  | RLoopbe env c b t v e : runs (v :: env) c (Ok (VB t)) -> dat t = [true] ->
      runs (v :: env) b (Err e) -> runs (v :: env) (PLoop c b) (Err e).
End Program.
