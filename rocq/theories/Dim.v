(** * Dim: units as dictionary keys, and [Dimensionality].

    Models /repo/quantities/dimensionality.py:24-218. *)

From Verif Require Import Py.

Set Implicit Arguments.

(** The classes of unit objects, /repo/quantities/unitquantity.py:
    UnitQuantity 23-285, UnitMass 326, UnitLength 331, UnitTime 336, UnitCurrent
    341, UnitLuminousIntensity 346, UnitSubstance 351, UnitTemperature 356,
    UnitInformation 361, UnitCurrency 366, CompoundUnit 371, Dimensionless 409,
    UnitConstant 444. *)
Inductive ucls : Type :=
| CQuantity | CMass | CLength | CTime | CCurrent | CLumInt | CSubstance
| CTemperature | CInformation | CCurrency | CCompound | CDimless | CConstant.

Definition ucls_eqb (a b : ucls) : bool :=
  match a, b with
  | CQuantity, CQuantity | CMass, CMass | CLength, CLength | CTime, CTime
  | CCurrent, CCurrent | CLumInt, CLumInt | CSubstance, CSubstance
  | CTemperature, CTemperature | CInformation, CInformation
  | CCurrency, CCurrency | CCompound, CCompound | CDimless, CDimless
  | CConstant, CConstant => true
  | _, _ => false
  end.

(** Subclasses of IrreducibleUnit (unitquantity.py:290-368). *)
Definition is_irreducible (c : ucls) : bool :=
  match c with
  | CMass | CLength | CTime | CCurrent | CLumInt | CSubstance | CTemperature
  | CInformation | CCurrency => true
  | _ => false
  end.

(** A unit as a dictionary key.  [UnitQuantity.__hash__] is
    [hash((type(self), self._name))] (unitquantity.py:85-86) and two units with the
    same type and name also compare [==] (their dimensionalities hash alike, so
    [Quantity.__eq__] compares 1 with 1): a key is the pair class, name. *)
Record uid : Type := UId { u_cls : ucls; u_name : string }.

Definition uid_eqb (a b : uid) : bool :=
  ucls_eqb (u_cls a) (u_cls b) && String.eqb (u_name a) (u_name b).

Lemma ucls_eqb_eq a b : ucls_eqb a b = true <-> a = b.
Proof. destruct a, b; cbn; split; congruence. Qed.
Lemma uid_eqb_eq a b : uid_eqb a b = true <-> a = b.
Proof.
  unfold uid_eqb. rewrite andb_true_iff, ucls_eqb_eq, String.eqb_eq.
  destruct a, b; cbn; split; [intros [-> ->]; auto | intros [= -> ->]; auto].
Qed.
Lemma uid_eqb_refl a : uid_eqb a a = true.
Proof. now apply uid_eqb_eq. Qed.
Lemma uid_eq_dec (a b : uid) : {a = b} + {a <> b}.
Proof.
  destruct (uid_eqb a b) eqn:E.
  - left; now apply uid_eqb_eq.
  - right; intros ->. rewrite uid_eqb_refl in E; congruence.
Qed.

(** A dimensionality: a dict from units to exponents, in insertion order. *)
(** dimensionality.py:24-26 [class Dimensionality(dict)]. *)
Definition dims : Type := list (uid * pynum).

(** Python dict lookup in a Dimensionality (dimensionality.py:24). *)
Definition dim_get (d : dims) (u : uid) : option pynum := dget uid_eqb d u.

(** Reading of a dimensionality as a map: the exponent of [u], 0 if absent.
    (Specification-level observation; not a function of /repo.) *)
Definition exp_of (d : dims) (u : uid) : Qc :=
  match dim_get d u with Some p => pval p | None => 0%Qc end.

(** dimensionality.py:117-127 [__mul__] (loop body; lines 129-138 [__imul__] are
    the same loop on [self]): [new[unit] += power; if new[unit] == 0: pop], or
    [new[unit] = power] on KeyError. *)
Definition dim_mul_step (new : dims) (kv : uid * pynum) : dims :=
  let '(unit, power) := kv in
  match dim_get new unit with
  | Some e =>
      let new1 := dset uid_eqb new unit (padd e power) in
      if pzero (padd e power) then dpop uid_eqb new1 unit else new1
  | None => dset uid_eqb new unit power
  end.
Definition dim_mul (self other : dims) : dims := fold_left dim_mul_step other self.

(** dimensionality.py:140-150 [__truediv__]. *)
Definition dim_div_step (new : dims) (kv : uid * pynum) : dims :=
  let '(unit, power) := kv in
  match dim_get new unit with
  | Some e =>
      let new1 := dset uid_eqb new unit (psub e power) in
      if pzero (psub e power) then dpop uid_eqb new1 unit else new1
  | None => dset uid_eqb new unit (pneg power)
  end.
Definition dim_div (self other : dims) : dims := fold_left dim_div_step other self.

(** dimensionality.py:163-173 [__pow__] with a scalar exponent. *)
Definition dim_pow (self : dims) (other : pynum) : dims :=
  if pzero other then []
  else map (fun kv => (fst kv, pmul (snd kv) other)) self.

(** Equality of dimensionalities.  dimensionality.py:197-198 compares hashes; this
    is the dictionary equality that the hash stands for (same keys, equal
    exponents, any order).  Hash.v models the hash itself, proves that this
    equality implies equal hashes and shows collisions for the converse. *)
Definition dim_eqb (d1 d2 : dims) : bool :=
  Nat.eqb (length d1) (length d2) &&
  forallb (fun kv => match dim_get d2 (fst kv) with
                     | Some e => peqb (snd kv) e
                     | None => false
                     end) d1.

(** Truth value of a dict: [if dimensionality]. *)
(** Python truth value of a dict; used at quantity.py:82 and dimensionality.py:368. *)
Definition dim_nonempty (d : dims) : bool := match d with [] => false | _ => true end.

(** What an operator receives on its right: a Dimensionality or something else
    ([assert_isinstance], dimensionality.py:15-21, raises TypeError). *)
Inductive dim_arg : Type := ADim (d : dims) | ANotDim.

Definition as_dim (x : dim_arg) : res dims :=
  match x with ADim d => Ok d | ANotDim => Err TypeError end.

(** dimensionality.py:69-80 [__add__], [__radd__]. *)
Definition py_dim_add (self : dims) (other : dim_arg) : res dims :=
  o <- as_dim other ;;
  if dim_eqb self o then Ok self else Err ValueError.
(** dimensionality.py:93-104 [__sub__], [__rsub__]. *)
Definition py_dim_sub (self : dims) (other : dim_arg) : res dims :=
  o <- as_dim other ;;
  if dim_eqb self o then Ok self else Err ValueError.
Definition py_dim_mul (self : dims) (other : dim_arg) : res dims :=
  o <- as_dim other ;; Ok (dim_mul self o).
Definition py_dim_div (self : dims) (other : dim_arg) : res dims :=
  o <- as_dim other ;; Ok (dim_div self o).

(** What [**] receives: a scalar or not ([np.isscalar], dimensionality.py:164-167). *)
Inductive pow_arg : Type := AScalar (p : pynum) | ANotScalar.
Definition py_dim_pow (self : dims) (other : pow_arg) : res dims :=
  match other with
  | AScalar p => Ok (dim_pow self p)
  | ANotScalar => Err TypeError
  end.

(** ** In-place operators: functions from the old contents of [self] to its new
    contents and the outcome of the call (what [self] holds matters even when the
    call raises). *)

(** dimensionality.py:82-91, 106-115 [__iadd__], [__isub__]: return self unchanged. *)
Definition dim_iadd (self : dims) (other : dim_arg) : dims * res unit :=
  (self, o <- as_dim other ;; if dim_eqb self o then Ok tt else Err ValueError).
(** dimensionality.py:129-138 [__imul__], [other] a different object. *)
Definition dim_imul (self : dims) (other : dim_arg) : dims * res unit :=
  match as_dim other with
  | Ok o => (fold_left dim_mul_step o self, Ok tt)
  | Err e => (self, Err e)
  end.
(** dimensionality.py:152-161 [__itruediv__], [other] a different object. *)
Definition dim_idiv (self : dims) (other : dim_arg) : dims * res unit :=
  match as_dim other with
  | Ok o => (fold_left dim_div_step o self, Ok tt)
  | Err e => (self, Err e)
  end.
(** dimensionality.py:175-185 [__ipow__]: [clear] on 0, else [self[i] *= other]
    for each key. *)
Definition dim_ipow (self : dims) (other : pow_arg) : dims * res unit :=
  match other with
  | AScalar p =>
      if pzero p then ([], Ok tt)
      else (fold_left (fun s k => match dim_get s k with
                                  | Some e => dset uid_eqb s k (pmul e p)
                                  | None => s
                                  end) (dkeys self) self, Ok tt)
  | ANotScalar => (self, Err TypeError)
  end.

(** The same loops when [other is self] ([d *= d], [d /= d]): the loop iterates
    over the very dictionary it changes.  CPython's dict iterator raises
    RuntimeError when the dict's size differs from the size at the start of the
    iteration (checked before delivering each item, also before StopIteration is
    decided: [dictiter_iternextitem] compares [di_used] with [ma_used] first).
    [done] keys were visited, [todo] are the keys still to visit. *)
Fixpoint dim_iself_loop (step : dims -> uid * pynum -> dims) (n0 : nat)
         (todo : list uid) (s : dims) : dims * res unit :=
  if negb (Nat.eqb (length s) n0) then (s, Err RuntimeError)
  else match todo with
       | [] => (s, Ok tt)
       | k :: todo' =>
           match dim_get s k with
           | Some e => dim_iself_loop step n0 todo' (step s (k, e))
           | None => (s, Err RuntimeError)
           end
       end.
(** [d *= d] and [d /= d] on one object. *)
(** dimensionality.py:129-138 with [other is self]. *)
Definition dim_imul_self (self : dims) : dims * res unit :=
  dim_iself_loop dim_mul_step (length self) (dkeys self) self.
(** dimensionality.py:152-161 with [other is self]. *)
Definition dim_idiv_self (self : dims) : dims * res unit :=
  dim_iself_loop dim_div_step (length self) (dkeys self) self.

(** ** Well-formed dimensionalities: what every public operation produces. *)
(** Specification-level invariant; not a function of /repo. *)
Definition wf_dims (d : dims) : Prop :=
  NoDup (dkeys d) /\ Forall (fun kv => pval (snd kv) <> 0%Qc) d.

(** The same as a boolean, for examples. *)
Definition wf_dimsb (d : dims) : bool :=
  (fix nd (l : list uid) : bool :=
     match l with [] => true | x :: l' => negb (existsb (uid_eqb x) l') && nd l' end)
    (dkeys d)
  && forallb (fun kv => negb (pzero (snd kv))) d.

(** A single unit's dimensionality: unitquantity.py:95-97 and 437-439. *)
Definition unit_dims (u : uid) : dims :=
  match u_cls u with
  | CDimless => []
  | _ => [(u, PInt 1)]
  end.
