(** * Sched: calls as sequences of atomic accesses to the shared state.

    CPython switches threads, and delivers KeyboardInterrupt, between bytecodes; reading
    or writing one entry of a dict or one attribute is atomic.  The calls of the library
    that use shared state (the registry, the class attributes [_default_unit] and
    [_secondary_order], the attributes of a quantity) are modelled here as sequences of
    such accesses.  The computations between two accesses only use the thread's own
    objects and immutable ones (unit objects after [__new__]), so they are one step
    together with the access before them. *)
From Verif Require Import Py Num Dim Arr Units Quant Defaults Ufunc Ops Text Lex Registry.

Set Implicit Arguments.

Section Code.
  (** [Do f k]: one access: in state [s] the state becomes [f s] and the rest of the
      call is [k s]. *)
  (** Specification-level: programs over a shared state. *)
  Inductive code (S X : Type) : Type :=
  | Ret (x : X)
  | Do (f : S -> S) (k : S -> code S X).
  (** Sequencing. *)
  Fixpoint cbind {S X Y} (c : code S X) (h : X -> code S Y) : code S Y :=
    match c with
    | Ret _ x => h x
    | Do f k => Do f (fun s => cbind (k s) h)
    end.
  (** Sequencing of calls that can raise. *)
  Definition rbind {S X Y} (c : code S (res X)) (h : X -> code S (res Y)) : code S (res Y) :=
    cbind c (fun r => match r with Ok x => h x | Err e => Ret _ (Err e) end).
  (** Reading. *)
  Definition rd {S X} (k : S -> code S X) : code S X := Do (fun s => s) k.
  (** Writing. *)
  Definition wr {S X} (f : S -> S) (x : X) : code S X := Do f (fun _ => Ret _ x).
  (** The call alone, without any other thread. *)
  Fixpoint solo {S X} (c : code S X) (s : S) : S * X :=
    match c with
    | Ret _ x => (s, x)
    | Do f k => solo (k s) (f s)
    end.
  (** The state after [n] accesses of the call alone. *)
  Fixpoint cut {S X} (n : nat) (c : code S X) (s : S) : S :=
    match n, c with
    | 0, _ | _, Ret _ _ => s
    | S n', Do f k => cut n' (k s) (f s)
    end.
End Code.

Section Calls.
  Context {A : Type} {N : Num A}.
  Variable parse : text -> res expr.
  Local Notation st := (rstate A).
  Implicit Types s : rstate A.

  (** registry.py:60 [self.__context[string] = val]. *)
  Definition put_ctx (n : text) (v : value A) s : st :=
    {| objs := objs s; ctx := dset teqb (ctx s) n v; counters := counters s; dflt := dflt s |}.
  (** unitquantity.py:70, 423 [cls._secondary_order = n]. *)
  Definition put_counter (c : ucls) (n : nat) s : st :=
    {| objs := objs s; ctx := ctx s;
       counters := fun c' => if ucls_eqb c c' then Some n else counters s c'; dflt := dflt s |}.
  (** unitquantity.py:303, 323 [cls._default_unit = unit]. *)
  Definition put_default (c : ucls) (d : dims) s : st :=
    {| objs := objs s; ctx := ctx s; counters := counters s; dflt := set_cls (dflt s) c d |}.
  (** The object that [__new__] returns (unitquantity.py:47-72). *)
  Definition put_obj (o : uid * urec A) s : st :=
    {| objs := objs s ++ [o]; ctx := ctx s; counters := counters s; dflt := dflt s |}.

  (** registry.py:49-60 [__setitem__]: [string in context]; then either the entry is
      read and compared, or the new entry is written. *)
  Definition set_item_c (n : text) (v : value A) : code st (res unit) :=
    rd (fun s => match ctx_get s n with
                 | None => wr (put_ctx n v) (Ok tt)
                 | Some _ => rd (fun s' => Ret _ match ctx_get s' n with
                                                 | Some w => b <- veq s' v w ;; if b then Ok tt else Err KeyError
                                                 | None => Err KeyError
                                                 end)
                 end).
  (** unitquantity.py:72-80. *)
  Fixpoint set_items_c (l : list text) (v : value A) : code st (res unit) :=
    match l with
    | [] => Ret _ (Ok tt)
    | n :: l' => rbind (set_item_c n v) (fun _ => set_items_c l' v)
    end.

  (** [order = cls._secondary_order; cls._secondary_order += 1]: two reads, one write
      (unitquantity.py:69-70, 420-421). *)
  Definition order_c (c : ucls) (h : nat -> code st (res (value A))) : code st (res (value A)) :=
    rd (fun s => let k := counter s c in
    rd (fun s' => Do (put_counter c (S (counter s' c))) (fun _ => h k))).

  (** unitquantity.py:294-303: the first unit of a class becomes its default. *)
  Definition init_default_c (c : ucls) (name : string) (v : value A) : code st (res (value A)) :=
    if is_irreducible c then
      rd (fun s => match dflt s c with
                   | None => wr (put_default c (unit_dims (UId c name))) (Ok v)
                   | Some _ => Ret _ (Ok v)
                   end)
    else Ret _ (Ok v).

  (** unitquantity.py:31-80, 294-303, 413-423: creation of a unit.  (The new object gets
      its place in the list of all objects when it is complete; nothing refers to it
      before.) *)
  Definition create_c (c : ucls) (name : string) (df : option (udef A)) (sym usym : option string)
             (al : list string) : code st (res (value A)) :=
    let finish k :=
      Do (fun s => put_obj (UId c name, new_unit (objs s) (primary c, k) df sym usym al) s)
         (fun s => let v := VUnit (length (objs s)) in
                   rbind (set_items_c (reg_names c name sym al) v) (fun _ => init_default_c c name v)) in
    order_c c (fun k => match c with
                        | CDimless => order_c c finish
                        | _ => finish k
                        end).

  (** registry.py:36-40 [eval]: every name is one read of the dictionary. *)
  Fixpoint eval_c (e : expr) : code st (res (value A)) :=
    match e with
    | EBin o a b => rbind (eval_c a) (fun v => rbind (eval_c b) (fun w => rd (fun s => Ret _ (v_bin s o v w))))
    | EUn o a => rbind (eval_c a) (fun v => rd (fun s => Ret _ (v_un s o v)))
    | _ => rd (fun s => Ret _ (eval s e))
    end.
  (** registry.py:29-47, 71-82 [unit_registry[label]]. *)
  Definition get_item_c (label : text) : code st (res (value A)) :=
    match parse (preprocess label) with
    | Err e => Ret _ (Err e)
    | Ok tree => if valid tree
                 then cbind (eval_c tree) (fun r => Ret _ (catch r NameError (Err LookupError)))
                 else Ret _ (Err LookupError)
    end.

  (** unitquantity.py:375-380 [CompoundUnit(name)]. *)
  Definition compound_c (name : string) : code st (res (value A)) :=
    rbind (get_item_c (T name)) (fun v =>
      rd (fun s => match val_def s v with
                   | None => Ret _ (Err Unmodelled)
                   | Some df => create_c CCompound name (Some df) None None []
                   end)).

  (** unitquantity.py:317-323: the default is read, the conversion is checked, the
      default is written. *)
  Definition set_default_q_c (c : ucls) (q : qty A) : code st (res unit) :=
    rd (fun s => match dflt s c with
                 | None => Ret _ (Err TypeError)
                 | Some dd =>
                     if is_unit_quantity q then
                       match conv_factor (objs s) dd (qdim q) with
                       | Ok _ => wr (put_default c (qdim q)) (Ok tt)
                       | Err ValueError => Ret _ (Err TypeError)
                       | Err e => Ret _ (Err e)
                       end
                     else Ret _ (Err TypeError)
                 end).
  (** unitquantity.py:312-323 [set_default_unit]; a label can denote a number, which is
      no unit. *)
  Definition set_default_c (c : ucls) (a : sarg A) : code st (res unit) :=
    match a with
    | SNone => Ret _ (Ok tt)
    | SOther => Ret _ (Err TypeError)
    | SQty q => set_default_q_c c q
    | SStr l => rbind (get_item_c (T l)) (fun v =>
                    rd (fun s => match val_q s v with
                                 | Some q => set_default_q_c c q
                                 | None => Ret _ (Err TypeError)
                                 end))
    end.
  (** unitquantity.py:475-500: the calls one after the other. *)
  Fixpoint set_defaults_c (l : list (ucls * sarg A)) : code st (res unit) :=
    match l with
    | [] => Ret _ (Ok tt)
    | (c, a) :: l' => rbind (set_default_c c a) (fun _ => set_defaults_c l')
    end.
  (** unitquantity.py:456-500 [set_default_units]. *)
  Definition set_default_units_c (sys : usystem) (own : list (ucls * sarg A)) : code st (res unit) :=
    match sys with
    | SysBad => Ret _ (Err ValueError)
    | _ => set_defaults_c (system_calls sys ++ own)
    end.

  (** The loop of quantity.py:178-180. *)
  Fixpoint simp_loop (f : uid -> code st (res (A * dims))) (d : dims) (acc : A * dims) : code st (res (A * dims)) :=
    match d with
    | [] => Ret _ (Ok acc)
    | (u, e) :: d' => rbind (f u) (fun x => simp_loop f d' (sc_mul_pow acc x e))
    end.
  (** unitquantity.py:114-116, 305-307 and quantity.py:176-181: the default of its class
      is read once for every irreducible unit. *)
  Fixpoint simp_unit_c (fuel : nat) (u : uid) : code st (res (A * dims)) :=
    match fuel with
    | 0 => Ret _ (Err RecursionError)
    | S fuel' =>
        rd (fun s =>
          if is_irreducible (u_cls u) then Ret _ (simp_unit 1 (objs s) (dflt s) u)
          else match ulookup (objs s) u with
               | Some r => match ur_ref r with
                           | Some (a, d) => rbind (simp_loop (simp_unit_c fuel') d (n1, []))
                                              (fun rq => Ret _ (Ok (nmul (fst rq) a, snd rq)))
                           | None => simp_unit_c fuel' u
                           end
               | None => simp_unit_c fuel' u
               end)
    end.
  (** quantity.py:176-181 [simplified]. *)
  Definition simplified_c (fuel : nat) (q : qty A) : code st (res (qty A)) :=
    rbind (simp_loop (simp_unit_c fuel) (qdim q) (n1, []))
      (fun rq => Ret _ (Ok (Qty (amap (fun x => nmul (fst rq) x) (mag q)) (snd rq)))).

  (** ** Programs with threads *)
  (** Calls that a program can make (registry.py:49-82, unitquantity.py:31-80, 312-323,
      375-380, 456-500, quantity.py:176-181). *)
  Inductive cop : Type :=
  | ORegister (n : text) (v : value A)
  | OCreate (c : ucls) (name : string) (df : option (udef A)) (sym usym : option string) (al : list string)
  | OCompound (name : string)
  | OLookup (label : text)
  | ODefault (c : ucls) (a : sarg A)
  | ODefaults (sys : usystem) (own : list (ucls * sarg A))
  | OSimplified (fuel : nat) (q : qty A).
  (** What a call returns. *)
  (** Specification-level. *)
  Inductive out : Type := RNone | RVal (v : value A) | RQty (q : qty A).
  (** registry.py:49-82, unitquantity.py:31-80, 312-323, 375-380, 456-500, quantity.py:176-181. *)
  Definition call (o : cop) : code st (res out) :=
    match o with
    | ORegister n v => rbind (set_item_c n v) (fun _ => Ret _ (Ok RNone))
    | OCreate c name df sym usym al => rbind (create_c c name df sym usym al) (fun v => Ret _ (Ok (RVal v)))
    | OCompound name => rbind (compound_c name) (fun v => Ret _ (Ok (RVal v)))
    | OLookup l => rbind (get_item_c l) (fun v => Ret _ (Ok (RVal v)))
    | ODefault c a => rbind (set_default_c c a) (fun _ => Ret _ (Ok RNone))
    | ODefaults sys own => rbind (set_default_units_c sys own) (fun _ => Ret _ (Ok RNone))
    | OSimplified fuel q => rbind (simplified_c fuel q) (fun r => Ret _ (Ok (RQty r)))
    end.
  (** A thread: it makes a call and goes on in a way that depends on what the call
      returned or raised; [None] if the call was interrupted. *)
  (** Specification-level. *)
  Inductive client : Type :=
  | Stop
  | Call (o : cop) (k : option (res out) -> client).
  (** A thread between calls or inside a call. *)
  (** Specification-level. *)
  Inductive tstate : Type :=
  | Idle (c : client)
  | Busy (o : cop) (c : code st (res out)) (k : option (res out) -> client).
  (** One step of one thread.  A KeyboardInterrupt can end a call at any point. *)
  (** Specification-level. *)
  Inductive tstep : st -> tstate -> st -> tstate -> Prop :=
  | t_begin s o k : tstep s (Idle (Call o k)) s (Busy o (call o) k)
  | t_access s o f g k : tstep s (Busy o (Do f g) k) (f s) (Busy o (g s) k)
  | t_return s o r k : tstep s (Busy o (Ret _ r) k) s (Idle (k (Some r)))
  | t_interrupt s o c k : tstep s (Busy o c k) s (Idle (k None)).
  (** Executions: any thread can make the next step.  The list holds all states that
      occur, in order. *)
  (** Specification-level. *)
  Inductive run : st -> list tstate -> list st -> st -> list tstate -> Prop :=
  | run_nil s ts : run s ts [s] s ts
  | run_cons s pre t post s1 t1 tr s2 ts2 :
      tstep s t s1 t1 -> run s1 (pre ++ t1 :: post) tr s2 ts2 ->
      run s (pre ++ t :: post) (s :: tr) s2 ts2.
End Calls.
Arguments cop : clear implicits.
Arguments out : clear implicits.
Arguments client : clear implicits.
Arguments tstate : clear implicits.

(** ** The [units] attribute of a quantity *)
Section Setter.
  Context {A : Type} {N : Num A}.
  (** quantity.py:186-210: the state is the quantity itself (its magnitudes and its
      [_dimensionality]); the dimensionality is read twice, then the magnitudes are
      multiplied in place (one call into NumPy) and the dimensionality is written. *)
  Definition set_units_c (E : uenv A) (to : dims) : code (qty A) (res unit) :=
    rd (fun q => if dim_eqb (qdim q) to then Ret _ (Ok tt)
                 else rd (fun q' => match conv_factor E (qdim q') to with
                      | Ok cf => Do (fun p => Qty (amap (fun x => nmul x cf) (mag p)) (qdim p))
                                    (fun _ => wr (fun p => Qty (mag p) to) (Ok tt))
                      | Err AssertionError => Ret _ (Err ValueError)
                      | Err e => Ret _ (Err e)
                      end)).
End Setter.
