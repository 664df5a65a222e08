(** * Pickle: pickling, copying and deep-copying of quantities and units.

    Models /repo/quantities/unitquantity.py:245-285, 393-404, 425-435,
    /repo/quantities/quantity.py:791-809 and /repo/quantities/uncertainquantity.py:273-286.

    What the pickle module does with the tuples of [__reduce__] is modelled as a tree
    that is written and read back in order.  Simplifications: an object that is pickled
    twice is written twice (no memo; two copies of a unit have the same class and name
    and are therefore the same key); the state of an ndarray is its version, shape and
    data ([SVersion], [SShape], [SData]; the dtype and the byte order are not modelled);
    [_reconstruct_quantity] (quantity.py:812-818) only makes the empty object whose
    [__setstate__] is called. *)
From Coq Require Import Ascii NArith.
From Verif Require Import Py Num Dim Arr Units Quant Ufunc Ops Text Lex Registry Uncert.

Set Implicit Arguments.

Section Pickle.
  Context {A : Type} {N : Num A}.

  (** ** What is written *)

  (** A unit is written as its class, the arguments of the class and [__getstate__]
      (the format order): all of them (unitquantity.py:258-273), or the name only
      (CompoundUnit 393-401, Dimensionless 425-435).  The definition is a quantity, a
      unit, or None. *)
  Inductive punit : Type :=
  | PUnit (c : ucls) (name : string) (df : pdef) (sym usym : option string)
          (aliases : list string) (order : nat * nat)
  | PName (c : ucls) (name : string) (order : nat * nat)
  with pdef : Type :=
  | PDNone
  | PDQty (a : A) (l : pitems)
  | PDUnit (t : punit)
  with pitems : Type :=
  | PNil
  | PCons (t : punit) (e : pynum) (l : pitems).

  (** The dictionary of a dimensionality, item by item. *)
  (** dimensionality.py:24 (pickled as a dict). *)
  Fixpoint dump_items (f : uid -> res punit) (d : dims) : res pitems :=
    match d with
    | [] => Ok PNil
    | (u, e) :: d' => t <- f u ;; l <- dump_items f d' ;; Ok (PCons t e l)
    end.

  (** The classes whose [__reduce__] writes the name only. *)
  (** unitquantity.py:393-401, 425-435. *)
  Definition by_name (c : ucls) : bool :=
    match c with CCompound | CDimless => true | _ => false end.

  (** unitquantity.py:245-252, 258-273, 393-401, 425-435.  [fuel] bounds the depth of
      definitions (RecursionError). *)
  Fixpoint dump_unit (fuel : nat) (E : uenv A) (u : uid) : res punit :=
    match fuel with
    | 0 => Err RecursionError
    | S f =>
        match ulookup E u with
        | None => Err Unmodelled
        | Some r =>
            if by_name (u_cls u) then Ok (PName (u_cls u) (u_name u) (ur_order r))
            else
              df <- match ur_def r with
                    | None => Ok PDNone
                    | Some (DQty a d) => l <- dump_items (dump_unit f E) d ;; Ok (PDQty a l)
                    | Some (DUnit v) => t <- dump_unit f E v ;; Ok (PDUnit t)
                    end ;;
              Ok (PUnit (u_cls u) (u_name u) df (ur_symbol r) (ur_usymbol r) (ur_aliases r) (ur_order r))
        end
    end.

  (** ** What is read back *)

  (** unitquantity.py:254-256 [__setstate__] of the unit made last. *)
  Definition with_order (r : urec A) (o : nat * nat) : urec A :=
    {| ur_def := ur_def r; ur_ref := ur_ref r; ur_symbol := ur_symbol r; ur_usymbol := ur_usymbol r;
       ur_aliases := ur_aliases r; ur_order := o |}.
  Fixpoint set_last_order (l : uenv A) (o : nat * nat) : uenv A :=
    match l with
    | [] => []
    | [(u, r)] => [(u, with_order r o)]
    | x :: l' => x :: set_last_order l' o
    end.
  Definition set_order (st : rstate A) (o : nat * nat) : rstate A :=
    {| objs := set_last_order (objs st) o; ctx := ctx st; counters := counters st; dflt := dflt st |}.
  Definition finish (o : nat * nat) (u : uid) (sr : rstate A * res (value A)) : rstate A * res uid :=
    match sr with
    | (st, Ok _) => (set_order st o, Ok u)
    | (st, Err e) => (st, Err e)
    end.

  Section Load.
    Variable parse : text -> res expr.

    (** The class is called with the arguments, which are read first, and
        [__setstate__] on the result. *)
    (** unitquantity.py:258-273, 393-401, 425-435. *)
    Fixpoint load_unit (t : punit) (st : rstate A) : rstate A * res uid :=
      match t with
      | PName c name o =>
          finish o (UId c name)
                 (match c with
                  | CCompound => create_compound parse st name
                  | _ => create_unit st c name None None None []
                  end)
      | PUnit c name df sym usym aliases o =>
          match load_def df st with
          | (st1, Err e) => (st1, Err e)
          | (st1, Ok df') => finish o (UId c name) (create_unit st1 c name df' sym usym aliases)
          end
      end
    with load_def (df : pdef) (st : rstate A) : rstate A * res (option (udef A)) :=
      match df with
      | PDNone => (st, Ok None)
      | PDQty a l => match load_items l [] st with
                     | (st1, Err e) => (st1, Err e)
                     | (st1, Ok d) => (st1, Ok (Some (DQty a d)))
                     end
      | PDUnit t => match load_unit t st with
                    | (st1, Err e) => (st1, Err e)
                    | (st1, Ok u) => (st1, Ok (Some (DUnit u)))
                    end
      end
    with load_items (l : pitems) (acc : dims) (st : rstate A) : rstate A * res dims :=
      match l with
      | PNil => (st, Ok acc)
      | PCons t e l' => match load_unit t st with
                        | (st1, Err x) => (st1, Err x)
                        | (st1, Ok u) => load_items l' (dset uid_eqb acc u e) st1
                        end
      end.
  End Load.

  (** ** Quantities *)

  (** The items of the state tuple that [__reduce__] makes. *)
  (** quantity.py:797-805, uncertainquantity.py:280-286. *)
  Inductive sitem : Type :=
  | SVersion (n : nat)
  | SShape (s : list nat)
  | SData (l : list A)
  | SDims (l : pitems)
  | SQty (st : list sitem).

  (** NumPy's own [__reduce__] state and [__setstate__]. *)
  Definition nd_state (a : arr A) : list sitem := [SVersion 1; SShape (shp a); SData (dat a)].
  Definition nd_setstate (l : list sitem) : res (arr A) :=
    match l with
    | [SVersion 1; SShape s; SData d] => Ok (Arr s d)
    | _ => Err TypeError
    end.

  (** quantity.py:797-805 [Quantity.__reduce__]: the state. *)
  Definition dump_q (fuel : nat) (E : uenv A) (q : qty A) : res (list sitem) :=
    l <- dump_items (dump_unit fuel E) (qdim q) ;;
    Ok (nd_state (mag q) ++ [SDims l]).
  (** uncertainquantity.py:280-286: the same and the uncertainty. *)
  Definition dump_u (fuel : nat) (E : uenv A) (x : uqty A) : res (list sitem) :=
    s <- dump_q fuel E (uv x) ;;
    t <- dump_q fuel E (uu x) ;;
    Ok (s ++ [SQty t]).

  (** [l[:-n]] and [l[-1]]. *)
  (** uncertainquantity.py:275-277. *)
  Definition but_last (n : nat) (l : list sitem) : list sitem := firstn (length l - n) l.

  Section LoadQ.
    Variable parse : text -> res expr.
    (** quantity.py:791-795 [Quantity.__setstate__]. *)
    Definition load_q (l : list sitem) (st : rstate A) : rstate A * res (qty A) :=
      match rev l with
      | SDims p :: _ =>
          match load_items parse p [] st with
          | (st1, Err e) => (st1, Err e)
          | (st1, Ok d) => (st1, a <- nd_setstate (but_last 1 l) ;; Ok (Qty a d))
          end
      | _ => (st, Err Unmodelled)
      end.
    (** uncertainquantity.py:273-278. *)
    Definition load_u (l : list sitem) (st : rstate A) : rstate A * res (uqty A) :=
      match rev l with
      | SQty s :: SDims p :: _ =>
          match load_items parse p [] st with
          | (st1, Err e) => (st1, Err e)
          | (st1, Ok d) =>
              match load_q s st1 with
              | (st2, Err e) => (st2, Err e)
              | (st2, Ok sigma) => (st2, a <- nd_setstate (but_last 2 l) ;; Ok (UQ (Qty a d) sigma))
              end
          end
      | _ => (st, Err Unmodelled)
      end.
  End LoadQ.

  (** ** Copies *)

  (** unitquantity.py:275-285, 403-404 [u.copy()]: the class is called with the
      arguments of [u]; Dimensionless has no [copy] of its own, and its [__init__]
      (413) takes two of the six arguments. *)
  Definition copy_unit (parse : text -> res expr) (st : rstate A) (i : nat) : rstate A * res (value A) :=
    match nth_error (objs st) i with
    | None => (st, Err Unmodelled)
    | Some (u, r) =>
        match u_cls u with
        | CCompound => create_compound parse st (u_name u)
        | CDimless => ({| objs := objs st; ctx := ctx st; counters := bump st CDimless; dflt := dflt st |},
                       Err TypeError)
        | c => create_unit st c (u_name u) (ur_def r) (ur_symbol r) (ur_usymbol r) (ur_aliases r)
        end
    end.

  (** quantity.py:807-809 [__deepcopy__], which neither UnitQuantity nor
      UncertainQuantity overrides: [Quantity(self.magnitude, self.dimensionality)]. *)
  Definition deepcopy_q (lookup : string -> res (qty A)) (E : uenv A) (q : qty A) : res (qty A) :=
    q_new lookup E (OArr (mag q)) (@UDim A (qdim q)).
  Definition deepcopy_unit (lookup : string -> res (qty A)) (E : uenv A) (u : uid) : res (qty A) :=
    deepcopy_q lookup E (unit_q u).
  Definition deepcopy_u (lookup : string -> res (qty A)) (E : uenv A) (x : uqty A) : res (qty A) :=
    deepcopy_q lookup E (uv x).
End Pickle.

Arguments punit : clear implicits.
Arguments pdef : clear implicits.
Arguments pitems : clear implicits.
Arguments sitem : clear implicits.
