(** * Hash: the hash of a dimensionality, and equality as /repo computes it.

    Models /repo/quantities/dimensionality.py:59-67 [__hash__], 197-201 [__eq__],
    [__ne__], and unitquantity.py:85-86 [UnitQuantity.__hash__]. *)

From Coq Require Import Permutation.
From Verif Require Import Py Num Dim DimFacts Units.

Set Implicit Arguments.

(** ** Python's hash of numbers (CPython long_hash, float_hash, 64-bit): reduction
    modulo the Mersenne prime 2**61-1, sign kept, -1 replaced by -2.  The value n/d
    of a float is n * d**(P-2) mod P; an int and a float of equal value agree. *)
Definition HP : Z := (2 ^ 61 - 1)%Z.
Fixpoint pow_mod_pos (b : Z) (e : positive) : Z :=
  match e with
  | xH => (b mod HP)%Z
  | xO e' => let h := pow_mod_pos b e' in ((h * h) mod HP)%Z
  | xI e' => let h := pow_mod_pos b e' in ((((h * h) mod HP) * b) mod HP)%Z
  end.
Definition inv_mod (d : positive) : Z := pow_mod_pos (Zpos d) (Z.to_pos (HP - 2)).
Definition hash_frac (q : Q) : Z :=
  let a := (((Z.abs (Qnum q) mod HP) * inv_mod (Qden q)) mod HP)%Z in
  let h := (if Qnum q <? 0 then - a else a)%Z in
  (if h =? -1 then -2 else h)%Z.
Definition hash_num (p : pynum) : Z := hash_frac (this (pval p)).

(** Stable sorting by [format_order] (unitquantity.py:99-101: the tuple of the
    class number and the creation number), as [sorted(..., key=...)]. *)
Definition order_leb (a b : nat * nat) : bool :=
  (fst a <? fst b) || ((fst a =? fst b) && (snd a <=? snd b)).
Section Sort.
  Variable A : Type.
  Variable key : A -> nat * nat.
  Fixpoint insert_by (x : A) (l : list A) : list A :=
    match l with
    | [] => [x]
    | y :: l' => if order_leb (key x) (key y) then x :: l else y :: insert_by x l'
    end.
  Fixpoint sort_by (l : list A) : list A :=
    match l with [] => [] | x :: l' => insert_by x (sort_by l') end.
  Lemma insert_by_perm x l : Permutation (x :: l) (insert_by x l).
  Proof.
    induction l as [|y l IH]; cbn; auto.
    destruct (order_leb (key x) (key y)); auto.
    rewrite perm_swap. now constructor.
  Qed.
  Lemma sort_by_perm l : Permutation l (sort_by l).
  Proof.
    induction l as [|x l IH]; cbn; auto.
    rewrite <- insert_by_perm. now constructor.
  Qed.
End Sort.

Section DimHash.
  (** Oracles for what CPython does not specify: the hash of a unit (of the tuple of
      its type and name), the hash of a 2-tuple from the hashes of its items, the
      hash of the [dimensionless] unit. *)
  Variable unit_hash : uid -> Z.
  Variable tuple_hash : Z -> Z -> Z.
  Variable dimensionless_hash : Z.
  Variable order : uid -> nat * nat.

  (** dimensionality.py:59-67: [val -= 1] for negative exponents, [res ^= hash((key, val))]. *)
  Definition shift_neg (p : pynum) : pynum := if pneg_b p then psub p (PInt 1) else p.
  Definition pair_hash (kv : uid * pynum) : Z :=
    tuple_hash (unit_hash (fst kv)) (hash_num (shift_neg (snd kv))).
  Definition dim_hash (d : dims) : Z :=
    fold_left (fun res kv => Z.lxor res (pair_hash kv))
              (sort_by (fun kv => order (fst kv)) d) dimensionless_hash.

  (** dimensionality.py:197-201. *)
  Definition hash_eqb (d1 d2 : dims) : bool := (dim_hash d1 =? dim_hash d2)%Z.

  Lemma xor_fold_perm (l1 l2 : list Z) : Permutation l1 l2 ->
    forall a, fold_left Z.lxor l1 a = fold_left Z.lxor l2 a.
  Proof.
    induction 1; intros a; cbn; auto.
    - f_equal. rewrite !Z.lxor_assoc. f_equal. apply Z.lxor_comm.
    - now rewrite IHPermutation1.
  Qed.
  Lemma fold_xor_map d a : fold_left (fun res kv => Z.lxor res (pair_hash kv)) d a =
    fold_left Z.lxor (map pair_hash d) a.
  Proof. revert a; induction d; cbn; auto. Qed.

  Lemma shift_neg_val p1 p2 : pval p1 = pval p2 -> pval (shift_neg p1) = pval (shift_neg p2).
  Proof.
    intros H. unfold shift_neg, pneg_b. rewrite H. destruct (_ <? 0)%Z; auto.
    now rewrite !pval_psub, H.
  Qed.
  Lemma pair_hash_val u p1 p2 : pval p1 = pval p2 -> pair_hash (u, p1) = pair_hash (u, p2).
  Proof. intros H. unfold pair_hash, hash_num. cbn. now rewrite (shift_neg_val _ _ H). Qed.

  (** The hash only depends on the set of (unit, exponent value) pairs. *)
  (** Specification-level; not a function of /repo. *)
  Definition vpair (kv : uid * pynum) : uid * Qc := (fst kv, pval (snd kv)).
  (** Specification-level form of dimensionality.py:59-67. *)
  Definition vhash (x : uid * Qc) : Z := pair_hash (fst x, PFlt (snd x)).
  Lemma map_pair_hash d : map pair_hash d = map vhash (map vpair d).
  Proof.
    rewrite map_map. apply map_ext. intros [u p]. unfold vhash, vpair. cbn.
    now apply pair_hash_val.
  Qed.
  Lemma dim_hash_vperm d1 d2 : Permutation (map vpair d1) (map vpair d2) -> dim_hash d1 = dim_hash d2.
  Proof.
    intros HP. unfold dim_hash. rewrite !fold_xor_map.
    apply xor_fold_perm.
    rewrite <- (Permutation_map pair_hash (sort_by_perm _ d1)), <- (Permutation_map pair_hash (sort_by_perm _ d2)).
    rewrite !map_pair_hash. now apply Permutation_map.
  Qed.

  Lemma same_exp_vperm d1 d2 : wf_dims d1 -> wf_dims d2 ->
    (forall u, exp_of d1 u = exp_of d2 u) -> Permutation (map vpair d1) (map vpair d2).
  Proof.
    assert (ND : forall d, wf_dims d -> NoDup (map vpair d)).
    { intros d [H _]. unfold dkeys in H. apply (NoDup_map_inv fst). rewrite map_map. exact H. }
    assert (Sub : forall a b, wf_dims a -> wf_dims b -> (forall u, exp_of a u = exp_of b u) ->
      forall x, In x (map vpair a) -> In x (map vpair b)).
    { intros a b Wa Wb He x Hx. apply in_map_iff in Hx. destruct Hx as ((u & p) & <- & Hin).
      pose proof (exp_of_In a u p (wf_NoDup a Wa) Hin) as H1.
      pose proof (wf_In a u p Wa Hin) as Hnz.
      assert (Hk : In u (dkeys b)). { apply (in_dkeys_exp b u Wb). rewrite <- He, H1. exact Hnz. }
      apply in_map_iff in Hk. destruct Hk as ((u' & p') & Hu & Hin'). cbn in Hu; subst u'.
      apply in_map_iff. exists (u, p'). split; auto.
      unfold vpair; cbn. f_equal. rewrite <- (exp_of_In b u p' (wf_NoDup b Wb) Hin'), <- He. exact H1. }
    intros W1 W2 He. apply NoDup_Permutation; auto.
    intros x; split; apply Sub; auto.
  Qed.

  Lemma hash_eqb_same d1 d2 : wf_dims d1 -> wf_dims d2 ->
    (forall u, exp_of d1 u = exp_of d2 u) -> hash_eqb d1 d2 = true.
  Proof.
    intros W1 W2 He. unfold hash_eqb. apply Z.eqb_eq. apply dim_hash_vperm. now apply same_exp_vperm.
  Qed.
  Lemma dim_eqb_hash d1 d2 : wf_dims d1 -> wf_dims d2 -> dim_eqb d1 d2 = true -> hash_eqb d1 d2 = true.
  Proof.
    intros W1 W2 H. apply hash_eqb_same; auto. exact (proj1 (dim_eqb_exp _ _ W1 W2) H).
  Qed.

  (** ** Collisions *)
  Lemma hash_frac_int z : hash_frac (z # 1) =
    (let a := Z.abs z mod HP in let h := if z <? 0 then - a else a in if h =? -1 then -2 else h)%Z.
  Proof.
    unfold hash_frac. cbn [Qnum Qden]. replace (inv_mod 1) with 1%Z by (vm_compute; reflexivity).
    rewrite Z.mul_1_r, Z.mod_mod by (vm_compute; discriminate). reflexivity.
  Qed.
  Lemma hash_num_int z : hash_num (PInt z) =
    (let a := Z.abs z mod HP in let h := if z <? 0 then - a else a in if h =? -1 then -2 else h)%Z.
  Proof. unfold hash_num. cbn [pval]. rewrite this_Z2Qc. apply hash_frac_int. Qed.

  (** Exponents that differ by the modulus collide, whatever the oracles. *)
  Lemma collision u z : (0 <= z)%Z -> dim_hash [(u, PInt z)] = dim_hash [(u, PInt (z + HP))].
  Proof.
    intros Hz. unfold dim_hash. cbn [sort_by insert_by fold_left]. f_equal.
    unfold pair_hash; cbn [fst snd]. f_equal.
    assert (B : (0 < HP)%Z) by (vm_compute; reflexivity).
    assert (N1 : pneg_b (PInt z) = false).
    { unfold pneg_b; cbn [pval]. rewrite this_Z2Qc. cbn [Qnum]. apply Z.ltb_ge. lia. }
    assert (N2 : pneg_b (PInt (z + HP)) = false).
    { unfold pneg_b; cbn [pval]. rewrite this_Z2Qc. cbn [Qnum]. apply Z.ltb_ge. lia. }
    unfold shift_neg. rewrite N1, N2, !hash_num_int.
    replace (z <? 0)%Z with false by (symmetry; apply Z.ltb_ge; lia).
    replace (z + HP <? 0)%Z with false by (symmetry; apply Z.ltb_ge; lia).
    rewrite !Z.abs_eq by lia.
    rewrite <- Zplus_mod_idemp_r, Z.mod_same, Z.add_0_r by lia. reflexivity.
  Qed.

  (** ** Separation: powers of one unit with integer exponents of ordinary size are
      told apart by any injective tuple hash (the [val -= 1] trick works). *)
  Lemma hash_num_small_inj a b : (Z.abs a < HP - 1)%Z -> (Z.abs b < HP - 1)%Z ->
    hash_num (shift_neg (PInt a)) = hash_num (shift_neg (PInt b)) -> a = b.
  Proof.
    assert (S : forall z, (Z.abs z < HP - 1)%Z ->
       hash_num (shift_neg (PInt z)) = if (z <? 0)%Z then (z - 1)%Z else z).
    { intros z Hz. unfold shift_neg, pneg_b. cbn [pval]. rewrite this_Z2Qc. cbn [Qnum].
      destruct (z <? 0)%Z eqn:Ez.
      - apply Z.ltb_lt in Ez. cbn [psub]. rewrite hash_num_int.
        replace (z - 1 <? 0)%Z with true by (symmetry; apply Z.ltb_lt; lia).
        rewrite Z.mod_small by lia. cbv zeta.
        replace (- Z.abs (z - 1))%Z with (z - 1)%Z by lia.
        replace (z - 1 =? -1)%Z with false by (symmetry; apply Z.eqb_neq; lia). reflexivity.
      - pose proof (proj1 (Z.ltb_ge _ _) Ez). rewrite hash_num_int, Ez.
        rewrite Z.mod_small by lia. cbv zeta. rewrite Z.abs_eq by lia.
        replace (z =? -1)%Z with false by (symmetry; apply Z.eqb_neq; lia). reflexivity. }
    intros Ha Hb. rewrite (S a Ha), (S b Hb).
    destruct (a <? 0)%Z eqn:Ea, (b <? 0)%Z eqn:Eb;
      rewrite ?Z.ltb_lt, ?Z.ltb_ge in *; lia.
  Qed.
  Hypothesis tuple_inj : forall x y x' y', tuple_hash x y = tuple_hash x' y' -> x = x' /\ y = y'.
  Lemma hash_separates u a b : (Z.abs a < HP - 1)%Z -> (Z.abs b < HP - 1)%Z ->
    hash_eqb [(u, PInt a)] [(u, PInt b)] = true -> a = b.
  Proof.
    intros Ha Hb. unfold hash_eqb. rewrite Z.eqb_eq. unfold dim_hash. cbn [sort_by insert_by fold_left].
    intros H. apply (f_equal (Z.lxor dimensionless_hash)) in H.
    rewrite <- !Z.lxor_assoc, Z.lxor_nilpotent, !Z.lxor_0_l in H.
    unfold pair_hash in H. cbn [fst snd] in H. apply tuple_inj in H. destruct H as [_ H].
    now apply hash_num_small_inj.
  Qed.
End DimHash.
