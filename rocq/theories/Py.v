(** * Py: the fragment of Python used by the model.

    - exceptions as values: [exn], [res] (every Python function that may raise
      is modelled as a function into [res]);
    - Python numbers used as unit exponents: [pynum] (int or float);
    - insertion-ordered dictionaries: [dget], [dset], [dpop] (CPython [dict]).

    Nothing here is specific to /repo; it is the language layer on which the
    other files model /repo function by function. *)

From Coq Require Export String Arith ZArith Lia Bool QArith Qcanon List.
From Coq Require Import Ascii.
Export ListNotations.
Set Implicit Arguments.
Open Scope list_scope.
Open Scope nat_scope.

(** Python exception classes that the modelled code raises or lets escape.
    [Unmodelled] marks inputs outside the modelled fragment; no theorem
    concludes anything useful from it except where it is named. *)
Inductive exn : Type :=
| ValueError | TypeError | KeyError | LookupError | AttributeError
| AssertionError | RuntimeError | IndexError | SyntaxError | RecursionError
| UFuncTypeError | PlainException | NameError | ZeroDivisionError | Unmodelled.

Definition exn_eqb (a b : exn) : bool :=
  match a, b with
  | ValueError, ValueError | TypeError, TypeError | KeyError, KeyError
  | LookupError, LookupError | AttributeError, AttributeError
  | AssertionError, AssertionError | RuntimeError, RuntimeError
  | IndexError, IndexError | SyntaxError, SyntaxError
  | RecursionError, RecursionError | UFuncTypeError, UFuncTypeError
  | PlainException, PlainException | NameError, NameError
  | ZeroDivisionError, ZeroDivisionError | Unmodelled, Unmodelled => true
  | _, _ => false
  end.

Lemma exn_eqb_eq a b : exn_eqb a b = true <-> a = b.
Proof. destruct a, b; cbn; split; congruence. Qed.

(** The outcome of a Python call: a returned value or a raised exception. *)
Inductive res (A : Type) : Type :=
| Ok (a : A)
| Err (e : exn).
Arguments Ok {A} a.
Arguments Err {A} e.

Definition bind {A B} (x : res A) (f : A -> res B) : res B :=
  match x with Ok a => f a | Err e => Err e end.

Notation "x <- e ;; k" := (bind e (fun x => k))
  (at level 61, e at next level, right associativity).
Notation "' p <- e ;; k" := (bind e (fun x => match x with p => k end))
  (at level 61, p pattern, e at next level, right associativity).

Definition rmap {A B} (f : A -> B) (x : res A) : res B :=
  match x with Ok a => Ok (f a) | Err e => Err e end.

Definition is_ok {A} (x : res A) : bool :=
  match x with Ok _ => true | Err _ => false end.

(** [try: x / except E: h]. *)
(** Language layer (Python): used for dimensionality.py:347-354 and alike. *)
Definition catch {A} (x : res A) (e : exn) (h : res A) : res A :=
  match x with
  | Err e' => if exn_eqb e e' then h else x
  | Ok _ => x
  end.

(** ** Python numbers used as exponents.

    A unit exponent is a Python/NumPy int or a Python/NumPy float.  Simplification:
    a float is represented by its exact rational value and float arithmetic on
    exponents is exact (true of every exponent arising from ints and halves,
    quarters ... of moderate size; rounding of exponents such as 0.1+0.2 is not
    modelled). *)
Inductive pynum : Type :=
| PInt (z : Z)
| PFlt (q : Qc).

Definition Z2Qc (z : Z) : Qc := Q2Qc (inject_Z z).

Definition pval (p : pynum) : Qc :=
  match p with PInt z => Z2Qc z | PFlt q => q end.

(** [x + y], [x - y], [x * y], [-x], [x == 0], [x == y], [x < 0] on Python
    numbers: int op int is an int, anything else is a float. *)
Definition padd (x y : pynum) : pynum :=
  match x, y with
  | PInt a, PInt b => PInt (a + b)
  | _, _ => PFlt (pval x + pval y)
  end.
Definition psub (x y : pynum) : pynum :=
  match x, y with
  | PInt a, PInt b => PInt (a - b)
  | _, _ => PFlt (pval x - pval y)
  end.
Definition pmul (x y : pynum) : pynum :=
  match x, y with
  | PInt a, PInt b => PInt (a * b)
  | _, _ => PFlt (pval x * pval y)
  end.
Definition pneg (x : pynum) : pynum :=
  match x with PInt a => PInt (- a) | PFlt q => PFlt (- q) end.
Definition peqb (x y : pynum) : bool := Qc_eq_bool (pval x) (pval y).
Definition pzero (x : pynum) : bool := Qc_eq_bool (pval x) 0%Qc.
Definition pneg_b (x : pynum) : bool := (Qnum (this (pval x)) <? 0)%Z.
Definition pabs (x : pynum) : pynum := if pneg_b x then pneg x else x.

Lemma Z2Qc_add a b : Z2Qc (a + b) = (Z2Qc a + Z2Qc b)%Qc.
Proof.
  apply Qc_is_canon. unfold Z2Qc, Qcplus, Q2Qc; cbn [this]. rewrite !Qred_correct, inject_Z_plus. reflexivity.
Qed.
Lemma Z2Qc_mul a b : Z2Qc (a * b) = (Z2Qc a * Z2Qc b)%Qc.
Proof.
  apply Qc_is_canon. unfold Z2Qc, Qcmult, Q2Qc; cbn [this]. rewrite !Qred_correct, inject_Z_mult. reflexivity.
Qed.
Lemma Z2Qc_opp a : Z2Qc (- a) = (- Z2Qc a)%Qc.
Proof.
  apply Qc_is_canon. unfold Z2Qc, Qcopp, Q2Qc; cbn [this]. rewrite !Qred_correct, inject_Z_opp. reflexivity.
Qed.
Lemma Z2Qc_sub a b : Z2Qc (a - b) = (Z2Qc a - Z2Qc b)%Qc.
Proof. unfold Z.sub. rewrite Z2Qc_add, Z2Qc_opp. reflexivity. Qed.

Lemma this_Z2Qc z : this (Z2Qc z) = (z # 1)%Q.
Proof.
  unfold Z2Qc. cbn [this Q2Qc]. unfold inject_Z, Qred.
  pose proof (Z.ggcd_gcd z 1) as G. pose proof (Z.ggcd_correct_divisors z 1) as D.
  destruct (Z.ggcd z 1) as [g [aa bb]]. cbn in *.
  rewrite Z.gcd_1_r in G. subst g. destruct D as [D1 D2].
  replace bb with 1%Z by lia. replace aa with z by lia. reflexivity.
Qed.

Lemma Z2Qc_inj a b : Z2Qc a = Z2Qc b -> a = b.
Proof.
  intros H. apply (f_equal this) in H. rewrite !this_Z2Qc in H. congruence.
Qed.

Lemma pval_padd x y : pval (padd x y) = (pval x + pval y)%Qc.
Proof. destruct x, y; cbn; auto using Z2Qc_add. Qed.
Lemma pval_psub x y : pval (psub x y) = (pval x - pval y)%Qc.
Proof. destruct x, y; cbn; auto using Z2Qc_sub. Qed.
Lemma pval_pmul x y : pval (pmul x y) = (pval x * pval y)%Qc.
Proof. destruct x, y; cbn; auto using Z2Qc_mul. Qed.
Lemma pval_pneg x : pval (pneg x) = (- pval x)%Qc.
Proof. destruct x; cbn; auto using Z2Qc_opp. Qed.

Lemma Qc_eqb_eq a b : Qc_eq_bool a b = true <-> a = b.
Proof.
  split.
  - apply Qc_eq_bool_correct.
  - intros ->. unfold Qc_eq_bool. destruct (Qc_eq_dec b b); congruence.
Qed.
Lemma Qc_eqb_neq a b : Qc_eq_bool a b = false <-> a <> b.
Proof.
  rewrite <- Qc_eqb_eq. destruct (Qc_eq_bool a b); split; congruence.
Qed.
Lemma pzero_true x : pzero x = true <-> pval x = 0%Qc.
Proof. apply Qc_eqb_eq. Qed.
Lemma pzero_false x : pzero x = false <-> pval x <> 0%Qc.
Proof. apply Qc_eqb_neq. Qed.
Lemma peqb_true x y : peqb x y = true <-> pval x = pval y.
Proof. apply Qc_eqb_eq. Qed.

Lemma pneg_b_true x : pneg_b x = true <-> (pval x < 0)%Qc.
Proof.
  unfold pneg_b, Qclt, Qlt. cbn. rewrite Z.ltb_lt.
  destruct (this (pval x)) as [n d]; cbn. lia.
Qed.
Lemma pneg_b_false x : pneg_b x = false <-> (0 <= pval x)%Qc.
Proof.
  unfold pneg_b, Qcle, Qle. cbn. rewrite Z.ltb_ge.
  destruct (this (pval x)) as [n d]; cbn. lia.
Qed.

(** ** Insertion-ordered dictionaries (CPython [dict]). *)
Section Dict.
  Variables K V : Type.
  Variable keqb : K -> K -> bool.

  (** [d.get(k)] *)
  (** Language layer (Python dict), for dimensionality.py:120-125. *)
  Fixpoint dget (d : list (K * V)) (k : K) : option V :=
    match d with
    | [] => None
    | (k', v) :: d' => if keqb k k' then Some v else dget d' k
    end.
  (** [d[k] = v]: an existing key keeps its position, a new one goes last. *)
  (** Language layer (Python dict). *)
  Fixpoint dset (d : list (K * V)) (k : K) (v : V) : list (K * V) :=
    match d with
    | [] => [(k, v)]
    | (k', v') :: d' => if keqb k k' then (k', v) :: d' else (k', v') :: dset d' k v
    end.
  (** [d.pop(k)] *)
  (** Language layer (Python dict), dimensionality.py:123. *)
  Fixpoint dpop (d : list (K * V)) (k : K) : list (K * V) :=
    match d with
    | [] => []
    | (k', v') :: d' => if keqb k k' then d' else (k', v') :: dpop d' k
    end.
  (** [k in d] *)
  (** Language layer (Python dict). *)
  Definition dmem (d : list (K * V)) (k : K) : bool :=
    match dget d k with Some _ => true | None => false end.
  (** [d.update(e)] *)
  (** Language layer (Python dict). *)
  Definition dupdate (d e : list (K * V)) : list (K * V) :=
    fold_left (fun acc kv => dset acc (fst kv) (snd kv)) e d.

  (** Language layer (Python dict). *)
  Definition dkeys (d : list (K * V)) : list K := map fst d.

  Hypothesis keqb_eq : forall a b, keqb a b = true <-> a = b.

  Lemma keqb_refl a : keqb a a = true.
  Proof. apply keqb_eq; reflexivity. Qed.
  Lemma keqb_neq a b : a <> b -> keqb a b = false.
  Proof. intros H. destruct (keqb a b) eqn:E; auto. apply keqb_eq in E. contradiction. Qed.

  Lemma dget_dset_same d k v : dget (dset d k v) k = Some v.
  Proof.
    induction d as [|[k' v'] d IH]; cbn.
    - now rewrite keqb_refl.
    - destruct (keqb k k') eqn:E; cbn; rewrite E; auto.
  Qed.
  Lemma dget_dset_other d k k' v : k' <> k -> dget (dset d k v) k' = dget d k'.
  Proof.
    intros N. induction d as [|[k1 v1] d IH]; cbn.
    - now rewrite keqb_neq.
    - destruct (keqb k k1) eqn:E; cbn.
      + apply keqb_eq in E; subst. now rewrite keqb_neq.
      + destruct (keqb k' k1); auto.
  Qed.
  Lemma dget_dpop_other d k k' : k' <> k -> dget (dpop d k) k' = dget d k'.
  Proof.
    intros N. induction d as [|[k1 v1] d IH]; cbn; auto.
    destruct (keqb k k1) eqn:E; cbn.
    - apply keqb_eq in E; subst. now rewrite keqb_neq.
    - destruct (keqb k' k1); auto.
  Qed.
  Lemma dget_None_notin d k : dget d k = None <-> ~ In k (dkeys d).
  Proof.
    induction d as [|[k1 v1] d IH]; cbn.
    - split; auto.
    - destruct (keqb k k1) eqn:E.
      + apply keqb_eq in E; subst. split; [congruence | intros H; exfalso; apply H; auto].
      + rewrite IH. split; intros H.
        * intros [->|H']; [rewrite keqb_refl in E; congruence | auto].
        * intros H'; apply H; auto.
  Qed.
  Lemma dget_dpop_same d k : NoDup (dkeys d) -> dget (dpop d k) k = None.
  Proof.
    induction d as [|[k1 v1] d IH]; cbn; auto.
    intros ND. inversion ND; subst.
    destruct (keqb k k1) eqn:E; cbn.
    - apply keqb_eq in E; subst. now apply dget_None_notin.
    - rewrite E. auto.
  Qed.
  Lemma dget_In d k v : dget d k = Some v -> In (k, v) d.
  Proof.
    induction d as [|[k1 v1] d IH]; cbn; [congruence|].
    destruct (keqb k k1) eqn:E.
    - apply keqb_eq in E; subst. intros [= ->]. auto.
    - auto.
  Qed.
  Lemma In_dget d k v : NoDup (dkeys d) -> In (k, v) d -> dget d k = Some v.
  Proof.
    induction d as [|[k1 v1] d IH]; cbn; [tauto|].
    intros ND H. inversion ND; subst. destruct H as [[= -> ->]|H].
    - now rewrite keqb_refl.
    - rewrite keqb_neq; auto. intros ->. apply H2. apply (in_map fst) in H. exact H.
  Qed.
  Lemma dkeys_dset_in d k v : In k (dkeys d) -> dkeys (dset d k v) = dkeys d.
  Proof.
    induction d as [|[k1 v1] d IH]; cbn; [tauto|].
    intros H. destruct (keqb k k1) eqn:E; cbn; auto.
    f_equal. apply IH. destruct H as [->|H]; auto. rewrite keqb_refl in E; congruence.
  Qed.
  Lemma dset_notin d k v : ~ In k (dkeys d) -> dset d k v = d ++ [(k, v)].
  Proof.
    induction d as [|[k1 v1] d IH]; cbn; auto.
    intros H. rewrite keqb_neq.
    - rewrite IH; auto.
    - intros ->; apply H; auto.
  Qed.
  Lemma In_dkeys_dset d k v x : In x (dkeys (dset d k v)) <-> x = k \/ In x (dkeys d).
  Proof.
    induction d as [|[k1 v1] d IH]; cbn.
    - intuition.
    - destruct (keqb k k1) eqn:E; cbn.
      + apply keqb_eq in E; subst. intuition.
      + rewrite IH. intuition.
  Qed.
  Lemma In_dkeys_dpop d k x : In x (dkeys (dpop d k)) -> In x (dkeys d).
  Proof.
    induction d as [|[k1 v1] d IH]; cbn; auto.
    destruct (keqb k k1) eqn:E; cbn; intuition.
  Qed.
  Lemma NoDup_dset d k v : NoDup (dkeys d) -> NoDup (dkeys (dset d k v)).
  Proof.
    induction d as [|[k1 v1] d IH]; cbn; intros ND.
    - constructor; auto.
    - inversion ND; subst. destruct (keqb k k1) eqn:E; cbn.
      + constructor; auto.
      + constructor; auto. rewrite In_dkeys_dset. intros [->|H]; auto.
        rewrite keqb_refl in E; congruence.
  Qed.
  Lemma NoDup_dpop d k : NoDup (dkeys d) -> NoDup (dkeys (dpop d k)).
  Proof.
    induction d as [|[k1 v1] d IH]; cbn; intros ND; auto.
    inversion ND; subst. destruct (keqb k k1) eqn:E; cbn; auto.
    constructor; auto. intros H; apply In_dkeys_dpop in H; auto.
  Qed.
  Lemma In_dset d k v x w : In (x, w) (dset d k v) -> (x = k /\ w = v) \/ In (x, w) d.
  Proof.
    induction d as [|[k1 v1] d IH]; cbn.
    - intros [[= <- <-]|[]]; auto.
    - destruct (keqb k k1) eqn:E; cbn.
      + apply keqb_eq in E; subst. intros [[= <- <-]|H]; auto.
      + intros [[= <- <-]|H]; auto. destruct (IH H); auto.
  Qed.
  Lemma In_dpop d k x w : In (x, w) (dpop d k) -> In (x, w) d.
  Proof.
    induction d as [|[k1 v1] d IH]; cbn; auto.
    destruct (keqb k k1) eqn:E; cbn; intuition.
  Qed.
End Dict.

Arguments dget {K V} keqb d k.
Arguments dset {K V} keqb d k v.
Arguments dpop {K V} keqb d k.
Arguments dmem {K V} keqb d k.
Arguments dupdate {K V} keqb d e.
Arguments dkeys {K V} d.
