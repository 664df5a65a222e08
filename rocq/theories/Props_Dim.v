(** * Properties C01-C09: dimensionalities.

    [exp_of d u] is the exponent of unit [u] in [d] (0 if absent); a dimensionality is
    [wf_dims] when it lists no unit twice and no zero exponent. *)
From Coq Require Cantor.
From Verif Require Import Py Num Dim DimFacts Arr Units Spec UnitFacts Quant QuantFacts Hash Examples.

(** C01 *)
Theorem C01_mul : forall d1 d2,
  wf_dims d1 -> wf_dims d2 ->
  exists d, py_dim_mul d1 (ADim d2) = Ok d /\ wf_dims d /\
            forall u, exp_of d u = (exp_of d1 u + exp_of d2 u)%Qc.
Proof.
  intros d1 d2 W1 W2. exists (dim_mul d1 d2). split; [reflexivity|]. split; [now apply wf_mul|].
  intros u. apply exp_of_mul; now apply wf_NoDup.
Qed.
Theorem C01_mul_cancel : forall d1 d2 d u,
  wf_dims d1 -> wf_dims d2 -> py_dim_mul d1 (ADim d2) = Ok d ->
  (In u (dkeys d) <-> (exp_of d1 u + exp_of d2 u <> 0)%Qc).
Proof.
  intros d1 d2 d u W1 W2 [= <-]. rewrite in_dkeys_exp by now apply wf_mul.
  rewrite exp_of_mul by now apply wf_NoDup. reflexivity.
Qed.
Theorem C01_mul_type : forall d, py_dim_mul d ANotDim = Err TypeError.
Proof. reflexivity. Qed.
Theorem C01_mul_group : forall d1 d2 d3,
  wf_dims d1 -> wf_dims d2 -> wf_dims d3 ->
  dim_eqb (dim_mul d1 d2) (dim_mul d2 d1) = true /\
  dim_eqb (dim_mul (dim_mul d1 d2) d3) (dim_mul d1 (dim_mul d2 d3)) = true /\
  dim_mul d1 [] = d1 /\ dim_eqb (dim_mul [] d1) d1 = true.
Proof.
  intros d1 d2 d3 W1 W2 W3.
  assert (N1 := wf_NoDup _ W1). assert (N2 := wf_NoDup _ W2). assert (N3 := wf_NoDup _ W3).
  repeat split.
  - apply dim_eqb_exp; auto using wf_mul. intros u. rewrite !exp_of_mul by auto. ring.
  - apply dim_eqb_exp; auto using wf_mul. intros u. rewrite !exp_of_mul by auto using NoDup_mul. ring.
  - apply dim_eqb_exp; auto using wf_mul, wf_nil. intros u.
    rewrite exp_of_mul by (auto; constructor). rewrite exp_of_nil. ring.
Qed.
Example C01_example :
  wf_dims d_ms /\ wf_dims [(u_s, PInt 1)] /\
  py_dim_mul d_ms (ADim [(u_s, PInt 1); (u_kg, PFlt (q_of 1 2))]) = Ok [(u_m, PInt 1); (u_kg, PFlt (q_of 1 2))].
Proof. split; [|split]; try (apply wf_dimsb_true; reflexivity). reflexivity. Qed.

(** C02 *)
Theorem C02_div : forall d1 d2,
  wf_dims d1 -> wf_dims d2 ->
  exists d, py_dim_div d1 (ADim d2) = Ok d /\ wf_dims d /\
            forall u, exp_of d u = (exp_of d1 u - exp_of d2 u)%Qc.
Proof.
  intros d1 d2 W1 W2. exists (dim_div d1 d2). split; [reflexivity|]. split; [now apply wf_div|].
  intros u. apply exp_of_div; now apply wf_NoDup.
Qed.
Theorem C02_div_self : forall d, wf_dims d -> py_dim_div d (ADim d) = Ok [].
Proof.
  intros d W. cbn. f_equal. apply exp_of_all_zero; [now apply wf_div|].
  intros u. rewrite exp_of_div by now apply wf_NoDup. ring.
Qed.
Theorem C02_mul_div : forall d1 d2 d,
  wf_dims d1 -> wf_dims d2 -> py_dim_div (dim_mul d1 d2) (ADim d2) = Ok d -> dim_eqb d d1 = true.
Proof.
  intros d1 d2 d W1 W2 [= <-]. assert (N1 := wf_NoDup _ W1). assert (N2 := wf_NoDup _ W2).
  apply dim_eqb_exp; auto using wf_div, wf_mul. intros u.
  rewrite exp_of_div, exp_of_mul by auto using NoDup_mul. ring.
Qed.
Theorem C02_div_type : forall d, py_dim_div d ANotDim = Err TypeError.
Proof. reflexivity. Qed.
Example C02_example : py_dim_div d_ms (ADim d_sm) = Ok [] /\ py_dim_div d_ms (ADim d_N) = Ok [(u_m, PInt 1); (u_s, PInt (-1)); (u_N, PInt (-1))].
Proof. split; reflexivity. Qed.

(** C03 *)
Theorem C03_pow : forall d p,
  wf_dims d ->
  exists d', py_dim_pow d (AScalar p) = Ok d' /\ wf_dims d' /\
             forall u, exp_of d' u = (exp_of d u * pval p)%Qc.
Proof.
  intros d p W. exists (dim_pow d p). split; [reflexivity|]. split; [now apply wf_pow|].
  intros u. apply exp_of_pow.
Qed.
Theorem C03_pow_laws : forall d d2 p q,
  wf_dims d -> wf_dims d2 ->
  (pval p = 0%Qc -> py_dim_pow d (AScalar p) = Ok []) /\
  (pval p = 1%Qc -> dim_eqb (dim_pow d p) d = true) /\
  dim_eqb (dim_pow (dim_pow d p) q) (dim_pow d (pmul p q)) = true /\
  dim_eqb (dim_pow (dim_mul d d2) p) (dim_mul (dim_pow d p) (dim_pow d2 p)) = true /\
  dim_eqb (dim_mul (dim_pow d p) (dim_pow d q)) (dim_pow d (padd p q)) = true.
Proof.
  intros d d2 p q W W2. assert (N := wf_NoDup _ W). assert (N2 := wf_NoDup _ W2).
  repeat split.
  - intros H. cbn. unfold dim_pow. apply pzero_true in H. now rewrite H.
  - intros H. apply dim_eqb_exp; auto using wf_pow. intros u. rewrite exp_of_pow, H. ring.
  - apply dim_eqb_exp; auto using wf_pow. intros u. rewrite !exp_of_pow, pval_pmul. ring.
  - apply dim_eqb_exp; auto using wf_pow, wf_mul. intros u.
    rewrite exp_of_pow, !exp_of_mul by auto using NoDup_pow. rewrite !exp_of_pow. ring.
  - apply dim_eqb_exp; auto using wf_pow, wf_mul. intros u.
    rewrite exp_of_mul by auto using NoDup_pow. rewrite !exp_of_pow, pval_padd. ring.
Qed.
Theorem C03_pow_type : forall d, py_dim_pow d ANotScalar = Err TypeError.
Proof. reflexivity. Qed.
Example C03_example : py_dim_pow d_ms (AScalar (PFlt (q_of 1 2))) = Ok [(u_m, PFlt (q_of 1 2)); (u_s, PFlt (q_of (-1) 2))].
Proof. reflexivity. Qed.

(** C04: [d op= e] leaves in [d] what [d op e] returns, and fails when it fails,
    without changing [d]. *)
Theorem C04_inplace : forall d,
  wf_dims d ->
  (forall e, match py_dim_mul d e with
             | Ok r => dim_imul d e = (r, Ok tt)
             | Err x => dim_imul d e = (d, Err x) end) /\
  (forall e, match py_dim_div d e with
             | Ok r => dim_idiv d e = (r, Ok tt)
             | Err x => dim_idiv d e = (d, Err x) end) /\
  (forall p, match py_dim_pow d p with
             | Ok r => dim_ipow d p = (r, Ok tt)
             | Err x => dim_ipow d p = (d, Err x) end) /\
  (forall e, match py_dim_add d e with
             | Ok r => dim_iadd d e = (r, Ok tt)
             | Err x => dim_iadd d e = (d, Err x) end).
Proof.
  intros d W. repeat split.
  - intros [e|]; reflexivity.
  - intros [e|]; reflexivity.
  - intros [p|]; [|reflexivity]. cbn [py_dim_pow]. apply dim_ipow_pow. now apply wf_NoDup.
  - intros [e|]; [|reflexivity]. unfold py_dim_add, dim_iadd. cbn [as_dim bind]. destruct (dim_eqb d e); reflexivity.
Qed.
(** [d *= d] on one object also gives [d * d]. *)
Theorem C04_imul_self : forall d,
  wf_dims d -> exists r, dim_imul_self d = (r, Ok tt) /\ wf_dims r /\
    forall u, exp_of r u = (exp_of d u + exp_of d u)%Qc.
Proof.
  intros d W. eexists. split; [now apply dim_imul_self_ok|].
  assert (Hx : forall u, exp_of (map (fun kv => (fst kv, padd (snd kv) (snd kv))) d) u = (exp_of d u + exp_of d u)%Qc)
    by (intros; apply exp_of_imul_self).
  split; [|exact Hx].
  apply wf_intro.
  - unfold dkeys. rewrite map_map. cbn [fst]. now apply wf_NoDup.
  - intros u p Hin. apply in_map_iff in Hin. destruct Hin as ((v & e) & [= <- <-] & Hin). cbn [snd].
    apply pzero_false, padd_self_nz. eapply wf_In; eauto.
Qed.
Example C04_example : dim_ipow d_ms (AScalar (PInt 2)) = ([(u_m, PInt 2); (u_s, PInt (-2))], Ok tt) /\
  dim_imul_self d_ms = ([(u_m, PInt 2); (u_s, PInt (-2))], Ok tt).
Proof. split; reflexivity. Qed.

(** C05: [d /= d] on one object raises RuntimeError for every non-empty [d], leaving
    [d] without its first unit. *)
Theorem C05_idiv_self_refuted : forall u p d,
  wf_dims ((u, p) :: d) ->
  dim_idiv_self ((u, p) :: d) = (d, Err RuntimeError) /\ py_dim_div ((u, p) :: d) (ADim ((u, p) :: d)) = Ok [].
Proof.
  intros u p d W. split; [|now apply C02_div_self].
  apply dim_idiv_self_nonempty.
Qed.
Theorem C05_idiv_self_empty : dim_idiv_self [] = ([], Ok tt).
Proof. reflexivity. Qed.
Example C05_example : dim_idiv_self d_ms = ([(u_s, PInt (-1))], Err RuntimeError).
Proof. reflexivity. Qed.

(** C06 *)
Theorem C06_add_sub : forall d1 d2,
  wf_dims d1 -> wf_dims d2 ->
  ((forall u, exp_of d1 u = exp_of d2 u) ->
     py_dim_add d1 (ADim d2) = Ok d1 /\ py_dim_sub d1 (ADim d2) = Ok d1) /\
  ((exists u, exp_of d1 u <> exp_of d2 u) ->
     py_dim_add d1 (ADim d2) = Err ValueError /\ py_dim_sub d1 (ADim d2) = Err ValueError).
Proof.
  intros d1 d2 W1 W2. unfold py_dim_add, py_dim_sub. cbn [as_dim bind]. split.
  - intros H. rewrite (proj2 (dim_eqb_exp _ _ W1 W2) H). auto.
  - intros [u Hu]. destruct (dim_eqb d1 d2) eqn:E; auto.
    exfalso. apply Hu. exact (proj1 (dim_eqb_exp _ _ W1 W2) E u).
Qed.
Theorem C06_type : forall d, py_dim_add d ANotDim = Err TypeError /\ py_dim_sub d ANotDim = Err TypeError.
Proof. auto. Qed.
Example C06_example : py_dim_add d_ms (ADim d_sm) = Ok d_ms /\ py_dim_sub d_ms (ADim d_kmh) = Err ValueError.
Proof. split; reflexivity. Qed.

(** C07: hash and equality only depend on the map from units to exponent values;
    [unit_hash], [tuple_hash], [dimensionless_hash], [order] are whatever CPython and
    the unit objects provide. *)
Theorem C07_hash_order_independent : forall unit_hash tuple_hash dimensionless_hash order d1 d2,
  wf_dims d1 -> wf_dims d2 -> (forall u, exp_of d1 u = exp_of d2 u) ->
  dim_hash unit_hash tuple_hash dimensionless_hash order d1 = dim_hash unit_hash tuple_hash dimensionless_hash order d2 /\
  hash_eqb unit_hash tuple_hash dimensionless_hash order d1 d2 = true.
Proof.
  intros uh th dh o d1 d2 W1 W2 H. split.
  - apply dim_hash_vperm. now apply same_exp_vperm.
  - now apply hash_eqb_same.
Qed.
(** Powers of one unit with integer exponents below 2**61-2 in absolute value are
    told apart (in particular -1 from -2) by any injective tuple hash. *)
Theorem C07_hash_separates_powers : forall unit_hash tuple_hash dimensionless_hash order,
  (forall x y x' y', tuple_hash x y = tuple_hash x' y' -> x = x' /\ y = y') ->
  forall u a b, (Z.abs a < 2 ^ 61 - 2)%Z -> (Z.abs b < 2 ^ 61 - 2)%Z ->
  (hash_eqb unit_hash tuple_hash dimensionless_hash order [(u, PInt a)] [(u, PInt b)] = true <-> a = b).
Proof.
  intros uh th dh o Hinj u a b Ha Hb. split.
  - apply hash_separates; auto.
  - intros ->. unfold hash_eqb. apply Z.eqb_refl.
Qed.
(** An injective pairing exists. *)
Definition zig (x : Z) : nat := if (x <? 0)%Z then 2 * Z.to_nat (- x) - 1 else 2 * Z.to_nat x.
Lemma zig_inj x y : zig x = zig y -> x = y.
Proof. unfold zig. destruct (Z.ltb_spec x 0), (Z.ltb_spec y 0); lia. Qed.
Definition cantor_hash (x y : Z) : Z := Z.of_nat (Cantor.to_nat (zig x, zig y)).
Example C07_injective_pairing : forall x y x' y', cantor_hash x y = cantor_hash x' y' -> x = x' /\ y = y'.
Proof.
  unfold cantor_hash. intros x y x' y' H. apply Nat2Z.inj in H.
  apply (f_equal Cantor.of_nat) in H. rewrite !Cantor.cancel_of_to in H.
  injection H as H1 H2. split; now apply zig_inj.
Qed.
Definition pair_code (x y : Z) : Z := x * 2 ^ 200 + y.
Example C07_example : hash_eqb (fun u => Z.of_nat (String.length (u_name u))) pair_code 7 (fun _ => (0, 0)) d_ms d_sm = true /\
  hash_eqb (fun u => Z.of_nat (String.length (u_name u))) pair_code 7 (fun _ => (0, 0)) [(u_s, PInt (-1))] [(u_s, PInt (-2))] = false.
Proof. split; vm_compute; reflexivity. Qed.

(** The values CPython gives for hash(0.5), hash(2.5), hash(-0.5), hash(-1) and hash(-1.0). *)
Example C07_python_hash_values :
  hash_num (PFlt (q_of 1 2)) = 1152921504606846976%Z /\ hash_num (PFlt (q_of 5 2)) = 1152921504606846978%Z /\
  hash_num (PFlt (q_of (-1) 2)) = (-1152921504606846976)%Z /\ hash_num (PInt (-1)) = (-2)%Z /\ hash_num (PFlt (q_of (-1) 1)) = (-2)%Z.
Proof. split; [vm_compute; reflexivity|]. split; [vm_compute; reflexivity|]. split; [vm_compute; reflexivity|]. split; vm_compute; reflexivity. Qed.

(** C08: m ** (2 ** 61) == m whatever the hashes of units and tuples are; more
    generally exponents differing by 2**61-1 are never told apart. *)
Theorem C08_eq_separates_refuted : forall unit_hash tuple_hash dimensionless_hash order u,
  hash_eqb unit_hash tuple_hash dimensionless_hash order [(u, PInt (2 ^ 61))] [(u, PInt 1)] = true /\
  exp_of [(u, PInt (2 ^ 61))] u <> exp_of [(u, PInt 1)] u.
Proof.
  intros uh th dh o u. split.
  - unfold hash_eqb. apply Z.eqb_eq. symmetry. change (2 ^ 61)%Z with (1 + HP)%Z. apply collision. lia.
  - rewrite !exp_of_single, uid_eqb_refl. cbn [pval]. intros H. apply Z2Qc_inj in H. discriminate.
Qed.
Theorem C08_collisions : forall unit_hash tuple_hash dimensionless_hash order u z,
  (0 <= z)%Z ->
  hash_eqb unit_hash tuple_hash dimensionless_hash order [(u, PInt z)] [(u, PInt (z + (2 ^ 61 - 1)))] = true.
Proof. intros uh th dh o u z Hz. unfold hash_eqb. apply Z.eqb_eq. now apply collision. Qed.

(** C09 *)
Theorem C09_ordering : forall A (N : Num A) fuel E D d1 d2 s1 s2,
  dim_simplified fuel E D d1 = Ok s1 -> dim_simplified fuel E D d2 = Ok s2 ->
  (py_dim_cmp fuel E D CLt d1 d2 = Ok true <-> (sum_abs s1 < sum_abs s2)%Qc) /\
  (py_dim_cmp fuel E D CLe d1 d2 = Ok true <-> (sum_abs s1 <= sum_abs s2)%Qc) /\
  py_dim_cmp fuel E D CGt d1 d2 = py_dim_cmp fuel E D CLt d2 d1 /\
  py_dim_cmp fuel E D CGe d1 d2 = py_dim_cmp fuel E D CLe d2 d1.
Proof.
  intros A N fuel E D d1 d2 s1 s2 H1 H2. unfold py_dim_cmp, ndims. rewrite H1, H2. cbn [bind qc_cmp].
  assert (L : forall x y, Qcltb x y = true <-> (x < y)%Qc).
  { intros x y. unfold Qcltb, Qclt, Qlt. apply Z.ltb_lt. }
  split; [|split; [|split; reflexivity]].
  - rewrite <- L. split; congruence.
  - split.
    + intros [= H]. apply Qcnot_lt_le. intros X. apply L in X. rewrite X in H. discriminate.
    + intros H. destruct (Qcltb (sum_abs s2) (sum_abs s1)) eqn:X; auto. apply L in X.
      exfalso. eapply Qcle_not_lt; eauto.
Qed.
(** [sum_abs] is the sum of the absolute values of the exponents. *)
Theorem C09_sum_abs : sum_abs [] = 0%Qc /\ forall u e d,
  sum_abs ((u, e) :: d) = ((if pneg_b e then - pval e else pval e) + sum_abs d)%Qc.
Proof.
  split; [reflexivity|]. intros u e d. cbn [sum_abs fold_right]. f_equal. cbn [snd]. unfold pabs.
  destruct (pneg_b e); auto. apply pval_pneg.
Qed.
Theorem C09_total_preorder : forall A (N : Num A) fuel E D d1 d2 d3 b12 b21 b23 b13,
  py_dim_cmp fuel E D CLe d1 d2 = Ok b12 -> py_dim_cmp fuel E D CLe d2 d1 = Ok b21 ->
  py_dim_cmp fuel E D CLe d2 d3 = Ok b23 -> py_dim_cmp fuel E D CLe d1 d3 = Ok b13 ->
  (b12 = true \/ b21 = true) /\ (b12 = true -> b23 = true -> b13 = true) /\
  py_dim_cmp fuel E D CLe d1 d1 = Ok true /\ py_dim_cmp fuel E D CLt d1 d2 = Ok (negb b21).
Proof.
  intros A N fuel E D d1 d2 d3 b12 b21 b23 b13. unfold py_dim_cmp.
  assert (L : forall x y, Qcltb x y = true <-> (x < y)%Qc).
  { intros x y. unfold Qcltb, Qclt, Qlt. apply Z.ltb_lt. }
  destruct (ndims fuel E D d1) as [x|]; [|discriminate].
  destruct (ndims fuel E D d2) as [y|]; [|discriminate].
  destruct (ndims fuel E D d3) as [z|]; [|discriminate].
  cbn [bind qc_cmp]. intros [= <-] [= <-] [= <-] [= <-]. repeat split.
  - destruct (Qcltb y x) eqn:X; auto. destruct (Qcltb x y) eqn:Y; auto. apply L in X. apply L in Y.
    exfalso. apply (Qclt_not_le _ _ X). now apply Qclt_le_weak.
  - intros H1 H2. destruct (Qcltb z x) eqn:X; auto. apply L in X.
    destruct (Qcltb y x) eqn:Y; try discriminate. destruct (Qcltb z y) eqn:Z; try discriminate.
    exfalso. destruct (Qclt_le_dec y x) as [G|G]; [apply L in G; congruence|].
    destruct (Qclt_le_dec z y) as [G'|G']; [apply L in G'; congruence|].
    apply (Qclt_not_le _ _ X). eapply Qcle_trans; eauto.
  - destruct (Qcltb x x) eqn:X; auto. apply L in X. exfalso. apply (Qclt_not_le _ _ X). apply Qcle_refl.
  - now rewrite negb_involutive.
Qed.

Print Assumptions C01_mul.
Print Assumptions C01_mul_cancel.
Print Assumptions C01_mul_type.
Print Assumptions C01_mul_group.
Print Assumptions C02_div.
Print Assumptions C02_div_self.
Print Assumptions C02_mul_div.
Print Assumptions C02_div_type.
Print Assumptions C03_pow.
Print Assumptions C03_pow_laws.
Print Assumptions C03_pow_type.
Print Assumptions C04_inplace.
Print Assumptions C04_imul_self.
Print Assumptions C05_idiv_self_refuted.
Print Assumptions C05_idiv_self_empty.
Print Assumptions C06_add_sub.
Print Assumptions C06_type.
Print Assumptions C07_hash_order_independent.
Print Assumptions C07_hash_separates_powers.
Print Assumptions C08_eq_separates_refuted.
Print Assumptions C08_collisions.
Print Assumptions C09_ordering.
Print Assumptions C09_sum_abs.
Print Assumptions C09_total_preorder.
