(** * Num: the arithmetic of magnitudes.

    /repo delegates every numeric computation to NumPy.  The model is parametric
    in that arithmetic: a theorem stated for every [Num A] holds for IEEE floats,
    integers or reals alike; a value-level theorem is stated at the instance
    [NumR] (exact real arithmetic).  [NumQc] is executable and is used for
    [vm_compute] examples and counter-examples only. *)

From Coq Require Import Reals Lra Lia.
From Coq Require Import Qreals.
From Verif Require Import Py.

Set Implicit Arguments.

(** Operations that the modelled code applies to single array elements. *)
(** Environment (NumPy scalars): the arithmetic used by quantity.py:48-54, 212-241, 336-401 and umath.py. *)
Class Num (A : Type) := {
  n0 : A;
  n1 : A;
  nadd : A -> A -> A;       (* np.add *)
  nsub : A -> A -> A;       (* np.subtract *)
  nmul : A -> A -> A;       (* np.multiply *)
  ndiv : A -> A -> A;       (* np.true_divide *)
  nneg : A -> A;            (* np.negative *)
  nabs : A -> A;            (* np.absolute *)
  npow : A -> pynum -> A;   (* np.power with a uniform exponent *)
  nofQ : Qc -> A;           (* conversion of an exact number *)
  neqb : A -> A -> bool;    (* np.equal *)
  nltb : A -> A -> bool;    (* np.less *)
  nleb : A -> A -> bool;    (* np.less_equal *)
  nfloor : A -> A;          (* np.floor *)
  nsqrt : A -> A            (* np.sqrt *)
}.

(** [x % y] for floats: [x - floor(x/y)*y] (NumPy's np.remainder). *)
Definition nmod {A} {N : Num A} (x y : A) : A := nsub x (nmul (nfloor (ndiv x y)) y).
(** [x // y] for floats (np.floor_divide). *)
(** Environment (NumPy): quantity.py has no __floordiv__, ndarray's is used. *)
Definition nfdiv {A} {N : Num A} (x y : A) : A := nfloor (ndiv x y).
(** Python/NumPy [max]/[min] of two elements. *)
Definition nmax {A} {N : Num A} (x y : A) : A := if nltb x y then y else x.
Definition nmin {A} {N : Num A} (x y : A) : A := if nltb y x then y else x.

(** ** Real numbers *)

(** The real value of an exact rational. *)
(** Mathematics only. *)
Definition Qc2R (q : Qc) : R := Q2R (this q).

(** [x ** p]: integral exponents (2 or 2.0) by repeated multiplication, other
    exponents by [exp (p * ln x)] and [0 ** p = 0], meaningful for [0 < x], or
    [x = 0] and [0 < p] (NumPy returns nan or inf otherwise; the theorems using it
    assume this). *)
Definition rpow (x : R) (p : pynum) : R :=
  let q := this (pval p) in
  if Pos.eqb (Qden q) 1 then powerRZ x (Qnum q)
  else if Req_EM_T x 0 then 0%R else Rpower x (Q2R q).

Definition Reqb (x y : R) : bool := if Req_EM_T x y then true else false.
Definition Rltb (x y : R) : bool := if Rlt_dec x y then true else false.
Definition Rleb (x y : R) : bool := if Rle_dec x y then true else false.

#[global] Instance NumR : Num R := {|
  n0 := 0%R; n1 := 1%R;
  nadd := Rplus; nsub := Rminus; nmul := Rmult; ndiv := Rdiv;
  nneg := Ropp; nabs := Rabs;
  npow := rpow;
  nofQ := Qc2R;
  neqb := Reqb; nltb := Rltb; nleb := Rleb;
  nfloor := fun x => IZR (Int_part x);
  nsqrt := sqrt
|}.

(** ** Rationals (executable, for examples) *)

Definition Qc_floor (q : Qc) : Z := (Qnum (this q) / Zpos (Qden (this q)))%Z.
Definition Qcpowz (x : Qc) (z : Z) : Qc :=
  match z with
  | Z0 => 1%Qc
  | Zpos p => Qcpower x (Pos.to_nat p)
  | Zneg p => (/ Qcpower x (Pos.to_nat p))%Qc
  end.

(** Exact square root of a rational square, used by the examples; any other
    non-integral power is outside the executable instance and yields 0. *)
Definition Qc_sqrt (x : Qc) : Qc :=
  let n := Z.sqrt (Qnum (this x)) in
  let d := Z.sqrt (Zpos (Qden (this x))) in
  Q2Qc (Qmake n (Z.to_pos d)).
Definition qcpow (x : Qc) (p : pynum) : Qc :=
  let q := this (pval p) in
  match Qden q with
  | xH => Qcpowz x (Qnum q)
  | xO xH => let r := Qcpowz (Qc_sqrt x) (Qnum q) in r
  | _ => 0%Qc
  end.
Definition Qcltb (x y : Qc) : bool := (Qnum (this x) * Zpos (Qden (this y)) <? Qnum (this y) * Zpos (Qden (this x)))%Z.

(** Values are re-normalised ([nqc x = x]) so that equal results are syntactically
    equal after [vm_compute]. *)
(** Mathematics only. *)
Definition nqc (x : Qc) : Qc := Q2Qc (this x).

(** Environment: exact rational magnitudes (fractions), for examples. *)
#[global] Instance NumQc : Num Qc := {|
  n0 := nqc 0%Qc; n1 := nqc 1%Qc;
  nadd := fun x y => nqc (Qcplus x y); nsub := fun x y => nqc (Qcminus x y);
  nmul := fun x y => nqc (Qcmult x y); ndiv := fun x y => nqc (Qcdiv x y);
  nneg := fun x => nqc (Qcopp x); nabs := fun x => if Qcltb x 0 then nqc (- x)%Qc else nqc x;
  npow := fun x p => nqc (qcpow x p);
  nofQ := fun q => nqc q;
  neqb := Qc_eq_bool; nltb := Qcltb; nleb := fun x y => negb (Qcltb y x);
  nfloor := fun x => nqc (Z2Qc (Qc_floor x));
  nsqrt := fun x => nqc (Qc_sqrt x)
|}.

(** ** Facts about real powers *)

Lemma Reqb_true x y : Reqb x y = true <-> x = y.
Proof. unfold Reqb; destruct (Req_EM_T x y); split; congruence. Qed.
Lemma Reqb_false x y : Reqb x y = false <-> x <> y.
Proof. unfold Reqb; destruct (Req_EM_T x y); split; congruence. Qed.
Lemma Rltb_true x y : Rltb x y = true <-> (x < y)%R.
Proof. unfold Rltb; destruct (Rlt_dec x y); split; try congruence; tauto. Qed.
Lemma Rleb_true x y : Rleb x y = true <-> (x <= y)%R.
Proof. unfold Rleb; destruct (Rle_dec x y); split; try congruence; tauto. Qed.
Lemma Rltb_false x y : Rltb x y = false <-> (y <= x)%R.
Proof. unfold Rltb; destruct (Rlt_dec x y); split; try congruence; intros; lra. Qed.
Lemma Rleb_false x y : Rleb x y = false <-> (y < x)%R.
Proof. unfold Rleb; destruct (Rle_dec x y); split; try congruence; intros; lra. Qed.

Lemma Q2R_eq_of_Qeq a b : (a == b)%Q -> Q2R a = Q2R b.
Proof. apply Qeq_eqR. Qed.

Lemma Qc2R_add a b : Qc2R (a + b)%Qc = (Qc2R a + Qc2R b)%R.
Proof.
  unfold Qc2R, Qcplus, Q2Qc; cbn [this]. rewrite <- Q2R_plus. apply Q2R_eq_of_Qeq.
  apply Qred_correct.
Qed.
Lemma Qc2R_mul a b : Qc2R (a * b)%Qc = (Qc2R a * Qc2R b)%R.
Proof.
  unfold Qc2R, Qcmult, Q2Qc; cbn [this]. rewrite <- Q2R_mult. apply Q2R_eq_of_Qeq.
  apply Qred_correct.
Qed.
Lemma Qc2R_opp a : Qc2R (- a)%Qc = (- Qc2R a)%R.
Proof.
  unfold Qc2R, Qcopp, Q2Qc; cbn [this]. rewrite <- Q2R_opp. apply Q2R_eq_of_Qeq.
  apply Qred_correct.
Qed.
Lemma Qc2R_sub a b : Qc2R (a - b)%Qc = (Qc2R a - Qc2R b)%R.
Proof. unfold Qcminus. rewrite Qc2R_add, Qc2R_opp. reflexivity. Qed.
Lemma Qc2R_0 : Qc2R 0%Qc = 0%R.
Proof. unfold Qc2R, Q2R; cbn. lra. Qed.
Lemma Qc2R_1 : Qc2R 1%Qc = 1%R.
Proof. unfold Qc2R, Q2R; cbn. lra. Qed.
Lemma Qc2R_Z z : Qc2R (Z2Qc z) = IZR z.
Proof. unfold Qc2R. rewrite this_Z2Qc. unfold Q2R; cbn. lra. Qed.
Lemma Qc2R_inj a b : Qc2R a = Qc2R b -> a = b.
Proof. unfold Qc2R. intros H. apply Qc_is_canon. apply eqR_Qeq. exact H. Qed.

(** On positive numbers [rpow] is the real power function, for every exponent. *)
Lemma rpow_Rpower x p : (0 < x)%R -> rpow x p = Rpower x (Qc2R (pval p)).
Proof.
  intros Hx. unfold rpow, Qc2R.
  destruct (this (pval p)) as [n d]; cbn [Qden Qnum].
  destruct (Pos.eqb_spec d 1) as [->|]; [|destruct (Req_EM_T x 0); [lra|reflexivity]].
  rewrite powerRZ_Rpower by assumption. f_equal. unfold Q2R; cbn. lra.
Qed.
Lemma Rpower_pos x y : (0 < Rpower x y)%R.
Proof. unfold Rpower. apply exp_pos. Qed.
Lemma rpow_pos x p : (0 < x)%R -> (0 < rpow x p)%R.
Proof. intros. rewrite rpow_Rpower by assumption. apply Rpower_pos. Qed.
