(** * Registry: the unit registry, evaluation of unit labels, creation of units.

    Models /repo/quantities/registry.py:8-82 and the constructors of
    /repo/quantities/unitquantity.py:31-80, 294-303, 371-384, 409-423, 444-453. *)
From Coq Require Import Ascii NArith.
From Verif Require Import Py Num Dim Arr Units Quant Ufunc Ops Text Lex.

Set Implicit Arguments.

(** ** The whitelist, registry.py:14-23 *)

(** The classes of the nodes that [ast.walk] visits. *)
(** registry.py:14-23, 33. *)
Inductive node_class : Type :=
| CExpression | CConst | CName | CLoad | CStore | CBinOp | CUnaryOp | COperator | CUnaryop
| CNode (k : node_kind).

(** registry.py:33 [ast.walk(tree)] below the Expression node.  The identifiers of
    attributes, argument lists, comparison operators ... are not listed: the node
    that carries them is. *)
Fixpoint walk (e : expr) : list node_class :=
  match e with
  | EName _ => [CName; CLoad]
  | ENum _ | EConst _ => [CConst]
  | EBin _ a b => CBinOp :: COperator :: walk a ++ walk b
  | EUn _ a => CUnaryOp :: CUnaryop :: walk a
  | ENode k l => CNode k :: flat_map walk l
  end.
(** registry.py:14-23, 33 [isinstance(node, whitelist)]. *)
Definition whitelisted (c : node_class) : bool :=
  match c with
  | CExpression | CConst | CName | CLoad | CBinOp | CUnaryOp | COperator | CUnaryop => true
  | CStore | CNode _ => false
  end.
Definition valid (e : expr) : bool := forallb whitelisted (CExpression :: walk e).

Section Registry.
  Context {A : Type} {N : Num A}.

  (** Values bound to names or returned by the registry.  [VUnit i] is the i-th unit
      object created ([i] is its identity); [VObj s] stands for classes, functions ...
      ([unit_registry['UnitQuantity'] = UnitQuantity], unitquantity.py:287, 406). *)
  Inductive value : Type :=
  | VNum (p : pynum)
  | VConst (c : pyconst)
  | VUnit (i : nat)
  | VQty (q : qty A)
  | VObj (s : text).

  (** The state of the library: the unit objects in order of creation, the registry's
      dictionary, the class attributes [_secondary_order] and [_default_unit]. *)
  (** registry.py:25-27 [__context], unitquantity.py:26 [_secondary_order], 291-292 [_default_unit]. *)
  Record rstate : Type := RState {
    objs : uenv A;
    ctx : list (text * value);
    counters : ucls -> option nat;
    dflt : defaults
  }.

  (** The state before any unit exists. *)
  Definition rempty : rstate := RState [] [] (fun _ => None) (fun _ => None).

  (** A value as a quantity. *)
  (** registry.py:35-44: values of names. *)
  Definition val_q (st : rstate) (v : value) : option (qty A) :=
    match v with
    | VUnit i => match nth_error (objs st) i with
                 | Some (u, _) => Some (unit_q u)
                 | None => None
                 end
    | VQty q => Some q
    | _ => None
    end.
  (** A value as an operand of an arithmetic operation. *)
  (** registry.py:35-44, quantity.py:59-61. *)
  Definition val_operand (st : rstate) (v : value) : option (operand A) :=
    match v with
    | VNum p => Some (OArr (scalar (nofQ (pval p))))
    | _ => option_map (@OQ A) (val_q st v)
    end.

  (** The truth value of an array (more than one element: ValueError). *)
  (** NumPy; registry.py:54. *)
  Definition arr_truth (a : arr bool) : res bool :=
    match dat a with
    | [] => Ok false
    | [b] => Ok b
    | _ => Err ValueError
    end.

  (** The units seen by a comparison: those of the compared objects themselves first
      (an object is compared through its own reference, whatever the registry holds). *)
  (** registry.py:54, quantity.py:464-471. *)
  Definition own_env (st : rstate) (v : value) : uenv A :=
    match v with
    | VUnit i => match nth_error (objs st) i with Some o => [o] | None => [] end
    | _ => []
    end.
  (** Python equality of constants, registry.py:54. *)
  Definition const_eqb (a b : pyconst) : bool :=
    match a, b with
    | KNone, KNone | KTrue, KTrue | KFalse, KFalse | KEllipsis, KEllipsis => true
    | KStr s, KStr t => teqb s t
    | _, _ => false
    end.

  (** registry.py:54 [val == self.__context[string]] as a truth value; quantities
      compare by quantity.py:464-471.  Simplification: booleans are not numbers. *)
  Definition veq (st : rstate) (v w : value) : res bool :=
    match val_q st v, val_q st w with
    | Some q1, Some q2 =>
        a <- q_eq (own_env st v ++ own_env st w ++ objs st) q1 (OQ q2) ;; arr_truth a
    | Some q, None =>
        match w with
        | VNum p => a <- q_eq (objs st) q (OArr (scalar (nofQ (pval p)))) ;; arr_truth a
        | _ => Ok false
        end
    | None, Some q =>
        match v with
        | VNum p => a <- q_eq (objs st) q (OArr (scalar (nofQ (pval p)))) ;; arr_truth a
        | _ => Ok false
        end
    | None, None =>
        match v, w with
        | VNum p, VNum p' => Ok (peqb p p')
        | VConst c, VConst c' => Ok (const_eqb c c')
        | VObj s, VObj t => Ok (teqb s t)
        | _, _ => Ok false
        end
    end.

  Definition ctx_get (st : rstate) (s : text) : option value := dget teqb (ctx st) s.

  (** registry.py:49-60 [__setitem__]: state afterwards and outcome. *)
  Definition set_item (st : rstate) (s : text) (v : value) : rstate * res unit :=
    match ctx_get st s with
    | None => ({| objs := objs st; ctx := dset teqb (ctx st) s v;
                  counters := counters st; dflt := dflt st |}, Ok tt)
    | Some w => (st, b <- veq st v w ;; if b then Ok tt else Err KeyError)
    end.
  (** Registration of a list of names for one value, stopping at the first exception. *)
  (** unitquantity.py:72-80. *)
  Fixpoint set_items (st : rstate) (l : list text) (v : value) : rstate * res unit :=
    match l with
    | [] => (st, Ok tt)
    | s :: l' => match set_item st s v with
                 | (st1, Ok _) => set_items st1 l' v
                 | (st1, Err e) => (st1, Err e)
                 end
    end.

  (** ** Evaluation, registry.py:35-44 *)

  (** Python numbers.  Simplification: true powers with non-integral exponents, and
      [//], [%] of floats are not modelled. *)
  Definition num_bin (o : binop) (a b : pynum) : res pynum :=
    match o with
    | BAdd => Ok (padd a b)
    | BSub => Ok (psub a b)
    | BMul => Ok (pmul a b)
    | BDiv => if pzero b then Err ZeroDivisionError else Ok (PFlt (pval a / pval b)%Qc)
    | BPow => match a, b with
              | PInt x, PInt y => if (0 <=? y)%Z then Ok (PInt (x ^ y)%Z)
                                  else if pzero a then Err ZeroDivisionError
                                  else Ok (PFlt (Qcpowz (pval a) y))
              | PFlt x, PInt y => if pzero a && (y <? 0)%Z then Err ZeroDivisionError
                                  else Ok (PFlt (Qcpowz x y))
              | _, _ => Err Unmodelled
              end
    | BFloorDiv => match a, b with
                   | PInt x, PInt y => if (y =? 0)%Z then Err ZeroDivisionError else Ok (PInt (x / y)%Z)
                   | _, _ => Err Unmodelled
                   end
    | BMod => match a, b with
              | PInt x, PInt y => if (y =? 0)%Z then Err ZeroDivisionError else Ok (PInt (x mod y)%Z)
              | _, _ => Err Unmodelled
              end
    | _ => Err Unmodelled
    end.

  (** A binary operator of which at least one operand is a quantity (quantity.py:336-401;
      unitquantity.py:168-223 views the unit as a quantity and does the same). *)
  Definition q_bin (E : uenv A) (o : binop) (x y : operand A) : res (qty A) :=
    match o with
    | BMul => q_mul x y
    | BDiv => q_div x y
    | BFloorDiv => q_fdiv x y
    | BAdd => match x, y with
              | OQ q, _ => q_add E q y
              | OArr _, OQ q => q_radd E q x
              | _, _ => Err Unmodelled
              end
    | BSub => match x, y with
              | OQ q, _ => q_sub E q y
              | OArr _, OQ q => q_rsub E q x
              | _, _ => Err Unmodelled
              end
    | BMod => match x, y with
              | OQ q, _ => q_mod E q y
              | OArr a, OQ q => q_rmod q a
              | _, _ => Err Unmodelled
              end
    | _ => Err Unmodelled
    end.
  (** [v ** w] with a quantity on one side: quantity.py:78-89, 398-401 and np.power's
      entry dimensionality.py:302-313.  Simplification: quantities as exponents are
      only modelled when they have units (ValueError). *)
  Definition q_power (st : rstate) (v w : value) : res (qty A) :=
    match val_q st w with
    | Some e => if dim_nonempty (qdim e) then Err ValueError else Err Unmodelled
    | None => match val_q st v, w with
              | Some q, VNum p => q_pow q (OArr (scalar p))
              | _, _ => Err Unmodelled
              end
    end.
  Definition v_bin (st : rstate) (o : binop) (v w : value) : res value :=
    match v, w with
    | VNum a, VNum b => rmap VNum (num_bin o a b)
    | _, _ =>
        match o with
        | BPow => rmap VQty (q_power st v w)
        | _ => match val_operand st v, val_operand st w with
               | Some x, Some y => rmap VQty (q_bin (objs st) o x y)
               | _, _ => Err Unmodelled
               end
        end
    end.
  Definition v_un (st : rstate) (o : unop) (v : value) : res value :=
    match v with
    | VNum p => match o with
                | UPos => Ok (VNum p)
                | UNeg => Ok (VNum (pneg p))
                | UInv => match p with PInt z => Ok (VNum (PInt (Z.lnot z))) | _ => Err TypeError end
                | UNot => Ok (VConst (if pzero p then KTrue else KFalse))
                end
    | _ => match val_q st v with
           | Some q => match o with
                       | UPos => rmap VQty (q_pos (objs st) q)
                       | UNeg => rmap VQty (q_neg (objs st) q)
                       | UInv => Err TypeError
                       | UNot => match dat (mag q) with
                                 | [x] => Ok (VConst (if neqb x n0 then KTrue else KFalse))
                                 | _ => Err Unmodelled
                                 end
                       end
           | None => Err Unmodelled
           end
    end.

  (** registry.py:36-40: [eval] with the registry as local names and an (empty)
      [__builtins__] as the only global name. *)
  Fixpoint eval (st : rstate) (e : expr) : res value :=
    match e with
    | EName s => match ctx_get st s with
                 | Some v => Ok v
                 | None => if teqb s (T "__builtins__") then Ok (VObj (T "{}")) else Err NameError
                 end
    | ENum p => Ok (VNum p)
    | EConst c => Ok (VConst c)
    | EBin o a b => v <- eval st a ;; w <- eval st b ;; v_bin st o v w
    | EUn o a => v <- eval st a ;; v_un st o v
    | ENode _ _ => Err Unmodelled
    end.

  Section Get.
    (** registry.py:32 [ast.parse(string, mode="eval")]. *)
    Variable parse : text -> res expr.

    (** registry.py:29-47 *)
    Definition inner_get (st : rstate) (s : text) : res value :=
      tree <- parse s ;;
      if valid tree then catch (eval st tree) NameError (Err LookupError)
      else Err LookupError.
    (** registry.py:71-82 [unit_registry[label]] *)
    Definition get_item (st : rstate) (label : text) : res value := inner_get st (preprocess label).

    (** The registry as used by quantity.py:32-37 [unit_registry[value].dimensionality]. *)
    Definition reg_lookup (st : rstate) (s : string) : res (qty A) :=
      v <- get_item st (T s) ;;
      match val_q st v with Some q => Ok q | None => Err AttributeError end.
  End Get.

  (** ** Creation of units *)

  (** unitquantity.py:25, 292-368, 373, 411, 446 [_primary_order]. *)
  Definition primary (c : ucls) : nat :=
    match c with
    | CQuantity => 90 | CMass => 1 | CLength => 2 | CTime => 3 | CCurrent => 4 | CLumInt => 5
    | CSubstance => 6 | CTemperature => 7 | CInformation => 8 | CCurrency => 9
    | CCompound => 99 | CDimless => 100 | CConstant => 0
    end.
  (** unitquantity.py:26, 67-68: [_secondary_order] is a class attribute, inherited from
      UnitQuantity until the class gets its own by the first increment. *)
  Definition counter (st : rstate) (c : ucls) : nat :=
    match counters st c with
    | Some n => n
    | None => match counters st CQuantity with Some n => n | None => 0 end
    end.
  Definition bump (st : rstate) (c : ucls) : ucls -> option nat :=
    fun c' => if ucls_eqb c c' then Some (S (counter st c)) else counters st c'.

  (** unitquantity.py:31-70 [__new__]: a new object at the end of [objs].  A
      [Dimensionless] object gets its order again in [__init__] (420-421). *)
  Definition new_obj (st : rstate) (c : ucls) (name : string) (df : option (udef A))
             (sym usym : option string) (aliases : list string) : rstate :=
    let k := match c with CDimless => S (counter st c) | _ => counter st c end in
    let b := bump st c in
    {| objs := objs st ++ [(UId c name, new_unit (objs st) (primary c, k) df sym usym aliases)];
       ctx := ctx st;
       counters := match c with
                   | CDimless => fun c' => if ucls_eqb c c' then Some (S k) else b c'
                   | _ => b
                   end;
       dflt := dflt st |}.

  (** The names that [__init__] registers: unitquantity.py:72-80 (name, symbol if any,
      aliases), 419-423 (name only), 381-384, 448-453 (none). *)
  Definition reg_names (c : ucls) (name : string) (sym : option string) (aliases : list string) : list text :=
    match c with
    | CCompound | CConstant => []
    | CDimless => [T name]
    | _ => T name :: match sym with Some (String _ _ as s) => [T s] | _ => [] end ++ map T aliases
    end.

  (** [cls(name, definition, symbol, u_symbol, aliases)]: state and outcome (the new
      object).  unitquantity.py:294-303: an irreducible unit becomes the default of its
      class if there is none. *)
  Definition create_unit (st : rstate) (c : ucls) (name : string) (df : option (udef A))
             (sym usym : option string) (aliases : list string) : rstate * res value :=
    let v := VUnit (length (objs st)) in
    match set_items (new_obj st c name df sym usym aliases) (reg_names c name sym aliases) v with
    | (st1, Ok _) =>
        ({| objs := objs st1; ctx := ctx st1; counters := counters st1;
            dflt := if is_irreducible c
                    then match dflt st1 c with
                         | None => fun c' => if ucls_eqb c c' then Some (unit_dims (UId c name)) else dflt st1 c'
                         | Some _ => dflt st1
                         end
                    else dflt st1 |}, Ok v)
    | (st1, Err e) => (st1, Err e)
    end.

  (** unitquantity.py:375-380 [CompoundUnit(name)]: the definition is what the registry
      makes of the name. *)
  Definition val_def (st : rstate) (v : value) : option (udef A) :=
    match v with
    | VUnit i => option_map (fun o => DUnit (fst o)) (nth_error (objs st) i)
    | VQty q => match dat (mag q) with [x] => Some (DQty x (qdim q)) | _ => None end
    | VNum p => Some (DQty (nofQ (pval p)) [])
    | _ => None
    end.
  Definition create_compound (parse : text -> res expr) (st : rstate) (name : string) : rstate * res value :=
    match get_item parse st (T name) with
    | Err e => (st, Err e)
    | Ok v => match val_def st v with
              | None => (st, Err Unmodelled)
              | Some df => create_unit st CCompound name (Some df) None None []
              end
    end.

  (** ** Histories *)
  (** What can happen to the registry: unitquantity.py:72-80, registry.py:49-60. *)
  Inductive rop : Type :=
  | RSet (s : text) (v : value)                     (* unit_registry[s] = v *)
  | RNew (c : ucls) (name : string) (df : option (udef A)) (sym usym : option string) (aliases : list string)
  | RCompound (name : string).
  (** unitquantity.py:31-80, 375-380, 413-423; registry.py:49-60. *)
  Definition rstep (parse : text -> res expr) (st : rstate) (o : rop) : rstate * res unit :=
    match o with
    | RSet s v => set_item st s v
    | RNew c name df sym usym al =>
        let '(st1, r) := create_unit st c name df sym usym al in (st1, rmap (fun _ => tt) r)
    | RCompound name =>
        let '(st1, r) := create_compound parse st name in (st1, rmap (fun _ => tt) r)
    end.
  (** Histories. *)
  Fixpoint rrun (parse : text -> res expr) (st : rstate) (l : list rop) : rstate :=
    match l with
    | [] => st
    | o :: l' => rrun parse (fst (rstep parse st o)) l'
    end.
End Registry.

Arguments value : clear implicits.
Arguments rstate : clear implicits.
Arguments rop : clear implicits.
