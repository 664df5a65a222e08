(** * Heap: array objects, shared memory and in-place operations.

    Models the effects on memory of /repo/quantities/quantity.py:118-132 ([__new__]),
    155 ([magnitude]), 183-210 ([units] setter), 67-76 and 91-100 (the protections of
    views), 347-350, 363-366, 373-381, 388-391, 403-407 (in-place operators), 436-452
    (item access), 519-527 and the other [out] parameters, 537-543 ([fill]), 807-809
    ([__deepcopy__]) and of unitquantity.py:47-48, 132-137, 225-243 (units).

    Memory is a list of buffers; an array object selects positions of one buffer.
    NumPy is modelled in two variants: before version 2 a ufunc with an output array
    calls [__array_prepare__] (quantity.py:297-318), since version 2 it only calls
    [__array_wrap__] (quantity.py:320-333), which leaves a Quantity as it is. *)
From Verif Require Import Py Num Dim Arr Units Quant Dtype Ufunc Ops Methods.

Set Implicit Arguments.

Inductive npv : Type := NumPy1 | NumPy2.

(** The Python type of an array object: ndarray, Quantity, or the unit [u]. *)
Inductive okind : Type := KArr | KQty | KUnit (u : uid).

(** The [base] attribute: [None] for an array owning its memory, an ndarray that no
    variable refers to, or another object. *)
(** NumPy [ndarray.base], tested at quantity.py:71, 95, 189. *)
Inductive obase : Type := BNone | BHidden | BObj (j : nat).

(** NumPy array objects with quantity.py:113-136's attribute. *)
Record obj : Type := Obj {
  o_kind : okind;
  o_buf : nat;             (* which buffer *)
  o_pos : list nat;        (* which of its elements, in row-major order *)
  o_shp : list nat;
  o_base : obase;
  o_wr : bool;             (* flags.writeable *)
  o_dt : kind;             (* integer or floating *)
  o_dims : dims            (* _dimensionality, of a Quantity *)
}.

(** [type(a) == type(b)] as far as views need it. *)
(** NumPy views (quantity.py:125-132). *)
Definition same_type (a b : okind) : bool :=
  match a, b with KArr, KArr | KQty, KQty => true | _, _ => false end.
(** [isinstance(x, Quantity)]; units are quantities. *)
(** quantity.py:71, 95, 189. *)
Definition is_quantity (k : okind) : bool := match k with KArr => false | _ => true end.

(** The value of [_dimensionality] (unitquantity.py:95-97 for units). *)
Definition obj_dims (o : obj) : dims :=
  match o_kind o with KArr => [] | KQty => o_dims o | KUnit u => unit_dims u end.

(** NumPy's PyArray_SetBaseObject: the base of a new view of type [k] on object [j].
    The chain of bases is followed while the next one has the type of the new view. *)
Fixpoint collapse (fuel : nat) (os : list obj) (k : okind) (j : nat) : obase :=
  match fuel with
  | 0 => BObj j
  | S f =>
      match nth_error os j with
      | None => BObj j
      | Some o =>
          match o_base o with
          | BNone => BObj j
          | BHidden => match k with KArr => BHidden | _ => BObj j end
          | BObj b => match nth_error os b with
                      | Some ob => if same_type (o_kind ob) k then collapse f os k b else BObj j
                      | None => BObj j
                      end
          end
      end
  end.

(** No position occurs twice. *)
(** Auxiliary. *)
Fixpoint nodupb (l : list nat) : bool :=
  match l with [] => true | x :: l' => negb (existsb (Nat.eqb x) l') && nodupb l' end.

Section Heap.
  Context {A : Type} {N : Num A}.
  Variable lookup : string -> res (qty A).
  Variable E : uenv A.
  Variable v : npv.

  (** The state: memory and objects (NumPy). *)
  Record heap : Type := Heap { bufs : list (list A); objs : list obj }.

  (** What is read through an object. *)
  (** NumPy. *)
  Definition buffer (h : heap) (b : nat) : list A := nth b (bufs h) [].
  (** NumPy. *)
  Definition contents (h : heap) (o : obj) : list A := gather (buffer h (o_buf o)) (o_pos o).
  (** NumPy. *)
  Definition obj_arr (h : heap) (o : obj) : arr A := Arr (o_shp o) (contents h o).
  (** quantity.py:113-136. *)
  Definition obj_qty (h : heap) (o : obj) : qty A := Qty (obj_arr h o) (obj_dims o).
  (** quantity.py:59-61. *)
  Definition obj_op (h : heap) (o : obj) : operand A :=
    if is_quantity (o_kind o) then OQ (obj_qty h o) else OArr (obj_arr h o).

  (** [isinstance(self.base, Quantity)] (quantity.py:71, 95, 189). *)
  Definition is_qview (h : heap) (o : obj) : bool :=
    match o_base o with
    | BObj b => match nth_error (objs h) b with Some ob => is_quantity (o_kind ob) | None => false end
    | _ => false
    end.

  (** ** Writing *)

  (** Storing into an integer array truncates. *)
  (** NumPy casting. *)
  Definition cast_to (k : kind) (x : A) : A := match k with KInt => ntrunc x | KFloat => x end.
  (** NumPy assignment. *)
  Definition write_at (h : heap) (b : nat) (ps : list nat) (xs : list A) : heap :=
    Heap (update (bufs h) b (scatter (buffer h b) ps xs)) (objs h).
  (** NumPy assignment. *)
  Definition write (h : heap) (o : obj) (xs : list A) : heap :=
    write_at h (o_buf o) (o_pos o) (map (cast_to (o_dt o)) xs).
  (** [self._dimensionality = ...] as in quantity.py:131, 210, 541. *)
  Definition with_dims (o : obj) (d : dims) : obj :=
    Obj (o_kind o) (o_buf o) (o_pos o) (o_shp o) (o_base o) (o_wr o) (o_dt o) d.
  (** [self._dimensionality = ...] as in quantity.py:131, 210, 541. *)
  Definition set_dims (h : heap) (i : nat) (d : dims) : heap :=
    match nth_error (objs h) i with
    | Some o => Heap (bufs h) (update (objs h) i (with_dims o d))
    | None => h
    end.

  (** ** New objects *)
  (** Auxiliary. *)
  Definition add_obj (h : heap) (o : obj) : heap * res nat :=
    (Heap (bufs h) (objs h ++ [o]), Ok (length (objs h))).
  (** A new buffer with an object that sees all of it. *)
  (** NumPy. *)
  Definition alloc (h : heap) (k : okind) (a : arr A) (d : dims) (b : obase) (wr : bool) (dt : kind) : heap * res nat :=
    (Heap (bufs h ++ [dat a])
          (objs h ++ [Obj k (length (bufs h)) (seq 0 (length (dat a))) (shp a) b wr dt d]),
     Ok (length (objs h))).
  (** [x.view(type)] of elements [ps] of object [j]. *)
  (** NumPy [ndarray.view]. *)
  Definition view_of (h : heap) (j : nat) (o : obj) (k : okind) (d : dims) (s ps : list nat) : heap * res nat :=
    add_obj h (Obj k (o_buf o) (map (fun p => nth p (o_pos o) 0) ps) s
                   (collapse (S (length (objs h))) (objs h) k j) (o_wr o) (o_dt o) d).
  (** NumPy [ndarray.view]. *)
  Definition whole (o : obj) : list nat := seq 0 (length (o_pos o)).

  (** ** Operands: an object or a plain number *)
  (** Operands of quantity.py:347-407. *)
  Inductive harg : Type := HObj (j : nat) | HNum (x : A) (k : kind).
  (** Operands of quantity.py:347-407. *)
  Definition harg_op (h : heap) (a : harg) : res (operand A * kind) :=
    match a with
    | HObj j => match nth_error (objs h) j with
                | Some o => Ok (obj_op h o, o_dt o)
                | None => Err Unmodelled
                end
    | HNum x k => Ok (OArr (scalar x), k)
    end.

  (** ** A ufunc writing into object [i]

      [m]: the computed values, [k]: their kind, [d]: the entry of the table p_dict.
      The output must be writeable, floats are not cast to integers, the shape must
      be that of the output. *)
  (** NumPy ufuncs with [out=self], quantity.py:297-333. *)
  Definition ufunc_out (h : heap) (i : nat) (o : obj) (k : kind) (m : res (arr A)) (d : res dims) : heap * res nat :=
    if negb (o_wr o) then (h, Err ValueError)
    else match k, o_dt o with
         | KFloat, KInt => (h, Err UFuncTypeError)
         | _, _ =>
             match m with
             | Err e => (h, Err e)
             | Ok a =>
                 if list_eq_dec Nat.eq_dec (shp a) (o_shp o) then
                   match o_kind o, v with
                   | KQty, NumPy1 =>
                       match d with
                       | Ok d => (set_dims (write h o (dat a)) i d, Ok i)
                       | Err e => (h, Err e)
                       end
                   | _, _ => (write h o (dat a), Ok i)
                   end
                 else (h, Err ValueError)
             end
         end.

  (** In-place operators.  [IAdd] stands for [+=], etc. *)
  (** quantity.py:347-391. *)
  Inductive iop : Type := IAdd | ISub | IMod | IMul | IDiv | IFloorDiv.
  (** NumPy. *)
  Definition iop_fun (b : iop) : A -> A -> A :=
    match b with
    | IAdd => nadd | ISub => nsub | IMod => nmod | IMul => nmul | IDiv => ndiv | IFloorDiv => nfdiv
    end.
  (** dimensionality.py:223-279. *)
  Definition iop_rule (b : iop) : rule2 :=
    match b with IAdd | ISub | IMod => RUniform | IMul => RMul | IDiv | IFloorDiv => RDiv end.
  (** NumPy result types. *)
  Definition iop_kind (b : iop) (k1 k2 : kind) : kind :=
    match b with IDiv => KFloat | _ => result_kind k1 k2 end.
  (** unitquantity.py:225-243; [%=] and [//=] are not overridden there. *)
  Definition iop_unit_refuses (b : iop) : bool :=
    match b with IAdd | ISub | IMul | IDiv => true | _ => false end.
  (** quantity.py:347-350, 363-366, 373-376: converted first; 67-76 with 378-381 and
      388-391: protected; [//=] is ndarray's. *)
  Definition iop_scales (b : iop) : bool := match b with IAdd | ISub | IMod => true | _ => false end.
  Definition iop_protected (b : iop) : bool := match b with IMul | IDiv => true | _ => false end.

  Definition iop_run (h : heap) (b : iop) (i : nat) (o : obj) (x : operand A) (kx : kind) : heap * res nat :=
    match o_kind o with
    | KArr =>
        (* ndarray's operator: the operand's magnitudes are used as they are *)
        ufunc_out h i o (iop_kind b (o_dt o) kx) (amap2 (iop_fun b) (obj_arr h o) (odat x)) (Ok [])
    | KUnit _ =>
        if iop_unit_refuses b then (h, Err TypeError)
        else (h, Err ValueError) (* the array is not writeable *)
    | KQty =>
        let self := obj_qty h o in
        if iop_scales b then
          match scale_other E self x with
          | Err e => (h, Err e)
          | Ok y =>
              let ky := if dim_eqb (qdim (as_q x)) (qdim self) then kx else KFloat in
              ufunc_out h i o (iop_kind b (o_dt o) ky) (amap2 (iop_fun b) (mag self) (mag y))
                        (pd2 (iop_rule b) (OQ self) (OQ y))
          end
        else if iop_protected b && dim_nonempty (qdim (as_q x)) && is_qview h o then (h, Err ValueError)
        else ufunc_out h i o (iop_kind b (o_dt o) kx) (amap2 (iop_fun b) (mag self) (odat x))
                       (pd2 (iop_rule b) (OQ self) x)
    end.

  (** quantity.py:78-89, 91-100, 403-407 [**=] with plain exponents [ps].  (NumPy
      computes some scalar exponents with np.square, np.sqrt, ...; the units agree
      except that exponent 1 may be refused.) *)
  Definition ipow_run (h : heap) (i : nat) (o : obj) (ps : list pynum) : heap * res nat :=
    match o_kind o with
    | KArr => (h, Err Unmodelled)
    | KUnit _ => (h, Err TypeError)
    | KQty =>
        match uniform ps, ps with
        | Some p, [_] =>
            if negb (peqb p (PInt 1)) && is_qview h o then (h, Err ValueError)
            else match p, o_dt o with
                 | PInt z, KInt => if (z <? 0)%Z then (h, Err ValueError)
                                   else ufunc_out h i o KInt (Ok (amap (fun x => npow x p) (obj_arr h o))) (Ok (dim_pow (o_dims o) p))
                 | _, _ => ufunc_out h i o KFloat (Ok (amap (fun x => npow x p) (obj_arr h o))) (Ok (dim_pow (o_dims o) p))
                 end
        | _, _ => (h, Err ValueError)
        end
    end.

  (** quantity.py:186-210 [q.units = u]; unitquantity.py:135-137. *)
  Definition set_units_run (h : heap) (i : nat) (o : obj) (u : uarg A) : heap * res nat :=
    match o_kind o with
    | KArr | KUnit _ => (h, Err AttributeError)
    | KQty =>
        if is_qview h o then (h, Err ValueError)
        else if negb (o_wr o) then (h, Err ValueError)
        else match validate_dimensionality lookup u with
             | Err e => (h, Err e)
             | Ok to_dims =>
                 if dim_eqb (o_dims o) to_dims then (h, Ok i)
                 else match conv_factor E (o_dims o) to_dims with
                      | Err AssertionError => (h, Err ValueError)
                      | Err e => (h, Err e)
                      | Ok cf =>
                          match o_dt o with
                          | KInt => (h, Err UFuncTypeError)
                          | KFloat => (set_dims (write h o (map (fun x => nmul cf x) (contents h o))) i to_dims, Ok i)
                          end
                      end
             end
    end.

  (** quantity.py:444-452 [q[key] = x]. *)
  Definition setitem_run (h : heap) (i : nat) (o : obj) (sel : selector) (x : operand A) : heap * res nat :=
    match (if is_quantity (o_kind o) then rmap (@mag A) (scale_other E (obj_qty h o) x) else Ok (odat x)) with
    | Err e => (h, Err e)
    | Ok y =>
        if negb (o_wr o) then (h, Err ValueError)
        else match sel (o_shp o) with
             | Err e => (h, Err e)
             | Ok (s, ps) =>
                 match broadcast_to y s with
                 | Err e => (h, Err e)
                 | Ok xs => (write_at h (o_buf o) (map (fun p => nth p (o_pos o) 0) ps) (map (cast_to (o_dt o)) xs), Ok i)
                 end
             end
    end.

  (** quantity.py:537-543 [q.fill(x)]. *)
  Definition fill_run (h : heap) (i : nat) (o : obj) (x : operand A) : heap * res nat :=
    if negb (o_wr o) then (h, Err ValueError)
    else match shp (odat x), dat (odat x) with
         | [], [y] =>
             let h' := write h o (repeat y (length (o_pos o))) in
             match o_kind o, x with
             | KQty, OQ q => (set_dims h' i (qdim q), Ok i)
             | _, _ => (h', Ok i)
             end
         | _, _ => (h, Err ValueError)
         end.

  (** quantity.py:519-527 and alike: [q.sum(axis, out=out)] ... *)
  Definition red_out_run (h : heap) (op : red) (axis : option Z) (o : obj) (i : nat) (out : obj) : heap * res nat :=
    if is_quantity (o_kind out) then
      match q_red op axis (obj_qty h o) with
      | Err e => (h, Err e)
      | Ok r =>
          if negb (o_wr out) then (h, Err ValueError)
          else match (match op with RedMean | RedStd _ => KFloat | _ => o_dt o end), o_dt out with
               | KFloat, KInt => (h, Err UFuncTypeError)
               | _, _ =>
                   if list_eq_dec Nat.eq_dec (shp (mag r)) (o_shp out)
                   then (set_dims (write h out (dat (mag r))) i (qdim r), Ok i)
                   else (h, Err ValueError)
               end
      end
    else (h, Err AttributeError). (* [out.magnitude] *)

  (** ** Operations without side effects: a new object with new memory *)
  (** quantity.py:118-132, 176-181, 212-241, 336-401, 436-442, 518-787. *)
  Inductive pure : Type :=
  | PAdd (i : nat) (x : harg) | PSub (i : nat) (x : harg) | PMul (i : nat) (x : harg) | PDiv (i : nat) (x : harg)
  | PNeg (i : nat) | PPow (i : nat) (p : pynum) | PRescale (i : nat) (u : uarg A)
  | PRed (op : red) (axis : option Z) (i : nat) | PItem (i : nat) (sel : selector).
  (** Auxiliary. *)
  Definition get_obj (h : heap) (i : nat) : res obj :=
    match nth_error (objs h) i with Some o => Ok o | None => Err Unmodelled end.
  (** Auxiliary. *)
  Definition get_qty (h : heap) (i : nat) : res (qty A) :=
    o <- get_obj h i ;; if is_quantity (o_kind o) then Ok (obj_qty h o) else Err Unmodelled.
  (** The functions of Quant.v, Ops.v, Methods.v applied to the contents of objects. *)
  Definition pure_run (h : heap) (p : pure) : res (qty A * kind) :=
    match p with
    | PAdd i x => q <- get_qty h i ;; '(y, k) <- harg_op h x ;; rmap (fun r => (r, KFloat)) (q_add E q y)
    | PSub i x => q <- get_qty h i ;; '(y, k) <- harg_op h x ;; rmap (fun r => (r, KFloat)) (q_sub E q y)
    | PMul i x => q <- get_qty h i ;; '(y, k) <- harg_op h x ;; rmap (fun r => (r, KFloat)) (q_mul (OQ q) y)
    | PDiv i x => q <- get_qty h i ;; '(y, k) <- harg_op h x ;; rmap (fun r => (r, KFloat)) (q_div (OQ q) y)
    | PNeg i => q <- get_qty h i ;; rmap (fun r => (r, KFloat)) (q_neg E q)
    | PPow i p => q <- get_qty h i ;; rmap (fun r => (r, KFloat)) (q_pow q (OArr (scalar p)))
    | PRescale i u => q <- get_qty h i ;; rmap (fun r => (r, KFloat)) (rescale lookup E q u)
    | PRed op axis i => q <- get_qty h i ;; rmap (fun r => (r, KFloat)) (q_red op axis q)
    | PItem i sel => o <- get_obj h i ;; q <- get_qty h i ;; rmap (fun r => (r, o_dt o)) (q_getitem sel q)
    end.

  (** ** All operations *)
  (** What a program can do with objects; each case cites its code in [step]. *)
  Inductive op : Type :=
  | ONewArray (a : arr A) (k : kind)                (* np.array(data) *)
  | ONewUnit (u : uid)                              (* a unit object *)
  | OQuantity (j : nat) (u : uarg A)                (* Quantity(x, units) *)
  | OMagnitude (j : nat)                            (* q.magnitude *)
  | OSlice (j : nat) (sel : selector)               (* x[key], x.T, x.reshape: views *)
  | OCopy (j : nat)                                 (* x.copy() *)
  | ODeepcopy (j : nat)                             (* copy.deepcopy(x) *)
  | OPure (p : pure)
  | OSetUnits (i : nat) (u : uarg A)                (* q.units = u *)
  | OInplace (b : iop) (i : nat) (x : harg)         (* q += x, ... *)
  | OIPow (i : nat) (ps : list pynum)               (* q **= p *)
  | OSetItem (i : nat) (sel : selector) (x : harg)  (* q[key] = x *)
  | OFill (i : nat) (x : harg)                      (* q.fill(x) *)
  | ORedOut (r : red) (axis : option Z) (j i : nat) (* q.sum(axis, out=out) *).

  (** Auxiliary. *)
  Definition with_obj (h : heap) (i : nat) (f : obj -> heap * res nat) : heap * res nat :=
    match nth_error (objs h) i with Some o => f o | None => (h, Err Unmodelled) end.
  (** Auxiliary. *)
  Definition with_arg (h : heap) (x : harg) (f : operand A -> kind -> heap * res nat) : heap * res nat :=
    match harg_op h x with Ok (y, k) => f y k | Err e => (h, Err e) end.
  (** A copy of the quantity [r] as a new object, then a view of it. *)
  (** quantity.py:125-132 for a Quantity as data. *)
  Definition fresh_then_view (h : heap) (r : qty A) (b : obase) (dt : kind) : heap * res nat :=
    let h1 := fst (alloc h KQty (mag r) (qdim r) b true dt) in
    with_obj h1 (length (objs h)) (fun o => view_of h1 (length (objs h)) o KQty (qdim r) (o_shp o) (whole o)).

  (** quantity.py:118-210, 336-407, 436-452, 518-543, 807-809; unitquantity.py:132-137, 225-243. *)
  Definition step (h : heap) (x : op) : heap * res nat :=
    match x with
    | ONewArray a k => if Nat.eqb (length (dat a)) (prodn (shp a)) then alloc h KArr a [] BNone true k else (h, Err Unmodelled)
    | ONewUnit u => alloc h (KUnit u) (scalar n1) [] BHidden false KFloat
    | OQuantity j u =>
        with_obj h j (fun o =>
          match o_kind o with
          | KArr => match validate_dimensionality lookup u with
                    | Ok d => view_of h j o KQty d (o_shp o) (whole o)
                    | Err e => (h, Err e)
                    end
          | k => match truthy u with
                 | Err e => (h, Err e)
                 | Ok true =>
                     match validate_dimensionality lookup u with
                     | Err e => (h, Err e)
                     | Ok d => match rescale_to E (obj_qty h o) d with
                               | Err e => (h, Err e)
                               | Ok r => if dim_eqb (obj_dims o) d then fresh_then_view h r BNone (o_dt o)
                                         else fresh_then_view h r BHidden KFloat
                               end
                     end
                 | Ok false =>
                     match k with
                     | KUnit _ => alloc h KQty (obj_arr h o) (obj_dims o) BHidden true KFloat  (* 1*data *)
                     | _ => view_of h j o KQty (obj_dims o) (o_shp o) (whole o)
                     end
                 end
          end)
    | OMagnitude j => with_obj h j (fun o => view_of h j o KArr [] (o_shp o) (whole o))
    | OSlice j sel =>
        with_obj h j (fun o =>
          match sel (o_shp o) with
          | Err e => (h, Err e)
          | Ok (s, ps) =>
              if Nat.eqb (length ps) (prodn s) && forallb (fun p => Nat.ltb p (length (o_pos o))) ps && nodupb ps
              then view_of h j o (if is_quantity (o_kind o) then KQty else KArr) (obj_dims o) s ps
              else (h, Err Unmodelled)
          end)
    | OCopy j =>
        with_obj h j (fun o =>
          match o_kind o with
          | KUnit u => alloc h (KUnit u) (scalar n1) [] BHidden false KFloat
          | k => alloc h k (obj_arr h o) (o_dims o) BNone true (o_dt o)
          end)
    | ODeepcopy j =>
        with_obj h j (fun o =>
          if is_quantity (o_kind o) then
            let h1 := fst (view_of h j o KArr [] (o_shp o) (whole o)) in
            with_obj h1 (length (objs h)) (fun m => view_of h1 (length (objs h)) m KQty (obj_dims o) (o_shp m) (whole m))
          else alloc h KArr (obj_arr h o) [] BNone true (o_dt o))
    | OPure p => match pure_run h p with
                 | Ok (r, k) => alloc h KQty (mag r) (qdim r) BHidden true k
                 | Err e => (h, Err e)
                 end
    | OSetUnits i u => with_obj h i (fun o => set_units_run h i o u)
    | OInplace b i y => with_obj h i (fun o => with_arg h y (fun x k => iop_run h b i o x k))
    | OIPow i ps => with_obj h i (fun o => ipow_run h i o ps)
    | OSetItem i sel y => with_obj h i (fun o => with_arg h y (fun x k => setitem_run h i o sel x))
    | OFill i y => with_obj h i (fun o => with_arg h y (fun x k => fill_run h i o x))
    | ORedOut r axis j i => with_obj h j (fun o =>
                              if is_quantity (o_kind o) then with_obj h i (fun out => red_out_run h r axis o i out)
                              else (h, Err Unmodelled))
    end.

  (** A sequence of operations; an exception does not end it. *)
  (** Programs as sequences of operations. *)
  Fixpoint run (h : heap) (ops : list op) : heap :=
    match ops with [] => h | x :: ops' => run (fst (step h x)) ops' end.

  (** The initial state. *)
  Definition empty_heap : heap := Heap [] [].

  (** The object an operation may change. *)
  (** Specification-level. *)
  Definition target (x : op) : option nat :=
    match x with
    | OSetUnits i _ | OInplace _ i _ | OIPow i _ | OSetItem i _ _ | OFill i _ | ORedOut _ _ _ i => Some i
    | _ => None
    end.
End Heap.
Arguments heap : clear implicits.
Arguments harg : clear implicits.
Arguments pure : clear implicits.
Arguments op : clear implicits.
