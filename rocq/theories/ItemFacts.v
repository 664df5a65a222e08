(** * ItemFacts: lemmas about selections, scattering and nested lists. *)
From Coq Require Import Lia FinFun.
From Verif Require Import Py Num Dim Arr ArrFacts Lanes Units Quant Ufunc Ops Methods.

(** A key that selects distinct positions of the array, as many as the shape of the
    selection says.  (Keys with repeated positions are possible for reading only.) *)
Definition selection_ok (sel : selector) : Prop :=
  forall s t ps, sel s = Ok (t, ps) ->
    length ps = prodn t /\ Forall (fun p => p < prodn s) ps /\ NoDup ps.

(** ** Slices *)
Lemma slice_clamp_bounds (n : Z) (neg : bool) (k : Z) : (0 <= n)%Z ->
  if neg then (-1 <= slice_clamp n neg k <= n - 1)%Z else (0 <= slice_clamp n neg k <= n)%Z.
Proof. intros Hn. unfold slice_clamp. destruct neg; lia. Qed.
Lemma slice_start_bounds n start step :
  if (step <? 0)%Z then (-1 <= slice_start n start step <= Z.of_nat n - 1)%Z else (0 <= slice_start n start step <= Z.of_nat n)%Z.
Proof. unfold slice_start. destruct start as [k|]; [apply slice_clamp_bounds; lia|]. destruct (step <? 0)%Z; lia. Qed.
Lemma slice_stop_bounds n stop step :
  if (step <? 0)%Z then (-1 <= slice_stop n stop step <= Z.of_nat n - 1)%Z else (0 <= slice_stop n stop step <= Z.of_nat n)%Z.
Proof. unfold slice_stop. destruct stop as [k|]; [apply slice_clamp_bounds; lia|]. destruct (step <? 0)%Z; lia. Qed.
(** The i-th index of the range lies before the stop, the next one does not. *)
Lemma slice_count_spec lo hi step i : step <> 0%Z ->
  (i < slice_count lo hi step <->
   if (step <? 0)%Z then (hi < lo + Z.of_nat i * step)%Z else (lo + Z.of_nat i * step < hi)%Z).
Proof.
  intros Hs. unfold slice_count.
  assert (D : forall a b : Z, (0 < b)%Z -> (i < Z.to_nat (Z.max 0 ((a + b - 1) / b)) <-> (Z.of_nat i * b < a)%Z)).
  { intros a b Hb. rewrite <- Nat2Z.inj_lt || idtac.
    assert (X : (Z.of_nat i < (a + b - 1) / b <-> Z.of_nat i * b < a)%Z).
    { pose proof (Z.mul_div_le (a + b - 1) b Hb). pose proof (Z.mul_succ_div_gt (a + b - 1) b Hb). split; intros; nia. }
    lia. }
  destruct (Z.ltb_spec step 0).
  - rewrite (D (lo - hi)%Z (- step)%Z) by lia. split; intros; nia.
  - rewrite (D (hi - lo)%Z step) by lia. split; intros; nia.
Qed.
Lemma slice_range n start stop step i : step <> 0%Z ->
  i < slice_count (slice_start n start step) (slice_stop n stop step) step ->
  (0 <= slice_start n start step + Z.of_nat i * step < Z.of_nat n)%Z.
Proof.
  intros Hs Hi. apply slice_count_spec in Hi; auto. pose proof (slice_start_bounds n start step) as B1. pose proof (slice_stop_bounds n stop step) as B2.
  destruct (Z.ltb_spec step 0); nia.
Qed.
Lemma slice_indices_ok n start stop step : step <> 0%Z ->
  Forall (fun j => j < n) (slice_indices n start stop step) /\ NoDup (slice_indices n start stop step).
Proof.
  intros Hs. unfold slice_indices. pose proof (slice_range n start stop step) as G.
  set (lo := slice_start n start step) in *. set (c := slice_count _ _ _) in *. split.
  - apply Forall_forall. intros j Hj. apply in_map_iff in Hj. destruct Hj as (i & <- & Hi). apply in_seq in Hi.
    specialize (G i Hs ltac:(lia)). lia.
  - assert (K : forall (l : list nat), (forall i, In i l -> i < c) -> NoDup l ->
       NoDup (map (fun i => Z.to_nat (lo + Z.of_nat i * step)) l)).
    { induction l as [|i l IH]; intros Hl ND; cbn [map]; [constructor|]. inversion ND; subst. constructor.
      - intros X. apply in_map_iff in X. destruct X as (j & Ej & Hj). assert (Gi := G i Hs (Hl i (or_introl eq_refl))).
        assert (Gj := G j Hs (Hl j (or_intror Hj))). assert (i = j) by nia. congruence.
      - apply IH; auto. intros j Hj. apply Hl. now right. }
    apply K; [|apply seq_NoDup]. intros i Hi. apply in_seq in Hi. lia.
Qed.
(** The indices of a slice are start, start + step, ... strictly before the stop. *)
Lemma slice_indices_nth n start stop step i : step <> 0%Z ->
  let lo := slice_start n start step in let hi := slice_stop n stop step in
  let z := (lo + Z.of_nat i * step)%Z in
  nth_error (slice_indices n start stop step) i =
  if (if (step <? 0)%Z then (hi <? z)%Z else (z <? hi)%Z) then Some (Z.to_nat z) else None.
Proof.
  intros Hs lo hi z. pose proof (slice_count_spec lo hi step i Hs) as C. unfold slice_indices. fold lo hi. rewrite nth_error_map.
  destruct (Nat.lt_ge_cases i (slice_count lo hi step)) as [Hi|Hi].
  - rewrite (nth_error_nth' _ 0) by (now rewrite seq_length). rewrite seq_nth by auto. cbn [option_map Nat.add]. fold z.
    apply (proj1 C) in Hi. fold z in Hi. destruct (step <? 0)%Z; rewrite (proj2 (Z.ltb_lt _ _)); auto.
  - rewrite (proj2 (nth_error_None (seq 0 _) i)) by (now rewrite seq_length). cbn [option_map].
    destruct (step <? 0)%Z.
    + destruct (Z.ltb_spec hi z); auto. apply C in H. lia.
    + destruct (Z.ltb_spec z hi); auto. apply C in H. lia.
Qed.

(** ** Which element a key takes *)
Inductive picks : list item -> list nat -> list nat -> list nat -> Prop :=
| picks_nil s idx : in_range s idx -> picks [] s idx idx
| picks_new key s idx idx' : picks key s idx idx' -> picks (INew :: key) s (0 :: idx) idx'
| picks_int k key n s j idx idx' :
    (Z.of_nat j = k \/ (k < 0 /\ Z.of_nat j = k + Z.of_nat n))%Z -> j < n ->
    picks key s idx idx' -> picks (IInt k :: key) (n :: s) idx (j :: idx')
| picks_slice start stop step key n s i j idx idx' :
    nth_error (slice_indices n start stop step) i = Some j ->
    picks key s idx idx' -> picks (ISlice start stop step :: key) (n :: s) (i :: idx) (j :: idx').

Lemma norm_index_spec n k j : norm_index n k = Ok j ->
  j < n /\ (Z.of_nat j = k \/ (k < 0 /\ Z.of_nat j = k + Z.of_nat n))%Z.
Proof.
  unfold norm_index. set (z := if (k <? 0)%Z then (k + Z.of_nat n)%Z else k).
  destruct ((0 <=? z) && (z <? Z.of_nat n))%Z eqn:X; [|discriminate]. intros [= <-].
  apply andb_true_iff in X. destruct X as [X1 X2]. apply Z.leb_le in X1. apply Z.ltb_lt in X2.
  split; [lia|]. rewrite Z2Nat.id by auto. unfold z in *. destruct (Z.ltb_spec k 0); [right|left]; lia.
Qed.
Lemma norm_index_complete n k j : j < n -> (Z.of_nat j = k \/ (k < 0 /\ Z.of_nat j = k + Z.of_nat n))%Z -> norm_index n k = Ok j.
Proof.
  intros H1 H2. unfold norm_index. set (z := if (k <? 0)%Z then (k + Z.of_nat n)%Z else k).
  assert (Z : z = Z.of_nat j) by (unfold z; destruct (Z.ltb_spec k 0); lia).
  rewrite Z. assert (X : ((0 <=? Z.of_nat j) && (Z.of_nat j <? Z.of_nat n))%Z = true).
  { apply andb_true_iff. split; [apply Z.leb_le|apply Z.ltb_lt]; lia. }
  now rewrite X, Nat2Z.id.
Qed.
Lemma norm_index_err n k e : norm_index n k = Err e -> e = IndexError.
Proof. unfold norm_index. destruct (_ && _)%bool; [discriminate|]. now intros [= <-]. Qed.

Lemma NoDup_shift j P (ps : list nat) : NoDup ps -> NoDup (map (fun x => j * P + x) ps).
Proof. intros H. apply Injective_map_NoDup; auto. intros x y. lia. Qed.
Lemma NoDup_blocks P (ps : list nat) : NoDup ps -> Forall (fun p => p < P) ps -> forall js, NoDup js ->
  NoDup (flat_map (fun j => map (fun x => j * P + x) ps) js).
Proof.
  intros Hp Fp. rewrite Forall_forall in Fp. induction js as [|j js IH]; intros Hj; cbn; [constructor|]. inversion Hj; subst.
  assert (D : forall l l' : list nat, NoDup l -> NoDup l' -> (forall x, In x l -> ~ In x l') -> NoDup (l ++ l')).
  { clear. induction l as [|x l IH]; intros l' H H' D; cbn; auto. inversion H; subst. constructor.
    - rewrite in_app_iff. intros [X|X]; [contradiction|]. apply (D x); auto. now left.
    - apply IH; auto. intros y Hy. apply D. now right. }
  apply D; [now apply NoDup_shift|now apply IH|]. intros x Hx Hx'. apply in_map_iff in Hx. destruct Hx as (y & <- & Hy).
  apply in_flat_map in Hx'. destruct Hx' as (j' & Hj' & Hx'). apply in_map_iff in Hx'. destruct Hx' as (y' & E & Hy').
  specialize (Fp y Hy) as F1. specialize (Fp y' Hy') as F2. assert (j = j') by nia. congruence.
Qed.
Theorem sel_basic_ok key : selection_ok (sel_basic key).
Proof.
  induction key as [|it key IH]; intros s t ps H.
  - injection H as <- <-. rewrite seq_length. split; auto. split; [|apply seq_NoDup].
    apply Forall_forall. intros p Hp. apply in_seq in Hp. lia.
  - cbn [sel_basic] in H. destruct it as [k|start stop step|].
    + destruct s as [|n s]; [discriminate|]. destruct (norm_index n k) as [j|] eqn:Ej; cbn [bind] in H; [|discriminate].
      destruct (sel_basic key s) as [[t' ps']|] eqn:Es; cbn [bind] in H; [|discriminate]. injection H as <- <-.
      destruct (IH _ _ _ Es) as (L & F & ND). apply norm_index_spec in Ej. destruct Ej as [Hj _]. rewrite map_length.
      split; auto. split; [|now apply NoDup_shift]. apply Forall_forall. intros p Hp. apply in_map_iff in Hp.
      destruct Hp as (x & <- & Hx). rewrite Forall_forall in F. specialize (F x Hx). cbn [prodn]. nia.
    + destruct s as [|n s]; [discriminate|]. destruct (Z.eqb_spec step 0) as [|Hs]; [discriminate|].
      destruct (sel_basic key s) as [[t' ps']|] eqn:Es; cbn [bind] in H; [|discriminate]. injection H as <- <-.
      destruct (IH _ _ _ Es) as (L & F & ND). destruct (slice_indices_ok n start stop step Hs) as [FJ NJ]. split; [|split].
      * rewrite (@flat_map_const_length _ _ _ _ (prodn t')); [reflexivity|]. apply Forall_forall. intros x _. now rewrite map_length.
      * apply Forall_forall. intros p Hp. apply in_flat_map in Hp. destruct Hp as (j & Hj & Hp). apply in_map_iff in Hp.
        destruct Hp as (x & <- & Hx). rewrite Forall_forall in F, FJ. specialize (F x Hx). specialize (FJ j Hj). cbn [prodn]. nia.
      * now apply NoDup_blocks.
    + destruct (sel_basic key s) as [[t' ps']|] eqn:Es; cbn [bind] in H; [|discriminate]. injection H as <- <-.
      destruct (IH _ _ _ Es) as (L & F & ND). split; [cbn; lia|]. auto.
Qed.
Theorem sel_mask_ok m : awf m -> selection_ok (sel_mask m).
Proof.
  intros W s t ps H. unfold sel_mask in H. destruct (list_eq_dec Nat.eq_dec (shp m) s) as [<-|]; [|discriminate].
  injection H as <- <-. split; [cbn; lia|].
  assert (G : forall (l : list bool) i, Forall (fun p => i <= p < i + length l) (mask_positions i l) /\ NoDup (mask_positions i l)).
  { clear. induction l as [|b l IH]; intros i; cbn [mask_positions length]; [split; constructor|]. destruct (IH (S i)) as [F ND].
    rewrite Forall_forall in F. destruct b.
    - split; [constructor; [lia|]; apply Forall_forall; intros p Hp; specialize (F p Hp); lia|].
      constructor; auto. intros X. specialize (F i X). lia.
    - split; auto. apply Forall_forall. intros p Hp. specialize (F p Hp). lia. }
  destruct (G (dat m) 0) as [F ND]. split; auto. unfold awf in W. eapply Forall_impl; [|exact F]. cbn. intros p Hp. lia.
Qed.
(** The positions of a mask: those where it is true, in increasing order. *)
Lemma mask_positions_spec : forall (l : list bool) i,
  (forall p, In p (mask_positions i l) <-> i <= p /\ nth_error l (p - i) = Some true) /\
  (forall k k' p p', k < k' -> nth_error (mask_positions i l) k = Some p -> nth_error (mask_positions i l) k' = Some p' -> p < p').
Proof.
  induction l as [|b l IH]; intros i; cbn [mask_positions].
  - split; [intros p; split; [intros []|intros [_ H]; destruct (p - i); discriminate]|intros [|k] k' p p' _ H; discriminate].
  - destruct (IH (S i)) as [I1 I2].
    assert (ST : forall p, In p (mask_positions (S i) l) <-> S i <= p /\ nth_error (b :: l) (p - i) = Some true).
    { intros p. rewrite I1. split; intros [H1 H2]; (split; [lia|]).
      - replace (p - i) with (S (p - S i)) by lia. exact H2.
      - replace (p - i) with (S (p - S i)) in H2 by lia. exact H2. }
    destruct b.
    + split.
      * intros p. cbn [In]. rewrite ST. split.
        -- intros [<-|[H1 H2]]; [rewrite Nat.sub_diag; split; [lia|reflexivity]|split; [lia|auto]].
        -- intros [H1 H2]. destruct (Nat.eq_dec i p) as [->|]; [now left|right]. split; [lia|auto].
      * intros [|k] [|k'] p p' Hk H H'; cbn in *; try lia.
        -- injection H as ->. apply nth_error_In in H'. apply ST in H'. lia.
        -- apply (I2 k k' p p'); auto. lia.
    + split; [|exact I2]. intros p. rewrite ST. split.
      * intros [H1 H2]. split; [lia|auto].
      * intros [H1 H2]. destruct (Nat.eq_dec i p) as [->|]; [rewrite Nat.sub_diag in H2; discriminate|split; [lia|auto]].
Qed.
(** Positions and indices agree. *)
Lemma sel_basic_picks key : forall s t ps idx, sel_basic key s = Ok (t, ps) -> in_range t idx ->
  exists idx', picks key s idx idx' /\ in_range s idx' /\ nth_error ps (ravel t idx) = Some (ravel s idx').
Proof.
  induction key as [|it key IH]; intros s t ps idx H HR.
  - injection H as <- <-. exists idx. split; [now constructor|]. split; auto. pose proof (ravel_lt HR).
    rewrite (nth_error_nth' _ 0) by (now rewrite seq_length). rewrite seq_nth by auto. reflexivity.
  - cbn [sel_basic] in H. destruct it as [k|start stop step|].
    + destruct s as [|n s]; [discriminate|]. destruct (norm_index n k) as [j|] eqn:Ej; cbn [bind] in H; [|discriminate].
      destruct (sel_basic key s) as [[t' ps']|] eqn:Es; cbn [bind] in H; [|discriminate]. injection H as <- <-.
      destruct (IH _ _ _ idx Es HR) as (idx' & P & R' & Nt). apply norm_index_spec in Ej. destruct Ej as [Hj Mj].
      exists (j :: idx'). split; [now constructor|]. split; [now constructor|]. rewrite nth_error_map, Nt. reflexivity.
    + destruct s as [|n s]; [discriminate|]. destruct (Z.eqb_spec step 0) as [|Hs]; [discriminate|].
      destruct (sel_basic key s) as [[t' ps']|] eqn:Es; cbn [bind] in H; [|discriminate]. injection H as <- <-.
      inversion HR as [|i m idx0 t0 Hi HR']; subst. destruct (IH _ _ _ idx0 Es HR') as (idx' & P & R' & Nt).
      destruct (nth_error (slice_indices n start stop step) i) as [j|] eqn:Ej.
      2:{ apply nth_error_None in Ej. lia. }
      exists (j :: idx'). split; [now constructor|]. destruct (slice_indices_ok n start stop step Hs) as [FJ _].
      rewrite Forall_forall in FJ. split; [constructor; auto; apply FJ; eapply nth_error_In; eauto|].
      destruct (sel_basic_ok key _ _ _ Es) as (L & _ & _). cbn [ravel prodn].
      rewrite (@nth_error_flat_map _ _ _ (prodn t') _ _ _ j); auto.
      * rewrite nth_error_map, Nt. reflexivity.
      * intros y _. now rewrite map_length.
      * now apply ravel_lt.
    + destruct (sel_basic key s) as [[t' ps']|] eqn:Es; cbn [bind] in H; [|discriminate]. injection H as <- <-.
      inversion HR as [|i m idx0 t0 Hi HR']; subst. destruct (IH _ _ _ idx0 Es HR') as (idx' & P & R' & Nt).
      assert (i = 0) by lia. subst i. exists idx'. split; [now constructor|]. split; auto.
Qed.
Lemma picks_in_range key : forall s idx idx' t ps, picks key s idx idx' -> sel_basic key s = Ok (t, ps) -> in_range t idx /\ in_range s idx'.
Proof.
  induction key as [|it key IH]; intros s idx idx' t ps P H; inversion P; subst.
  - injection H as <- <-. auto.
  - cbn [sel_basic] in H. destruct (sel_basic key s) as [[t' ps']|] eqn:Es; cbn [bind] in H; [|discriminate]. injection H as <- <-.
    match goal with P' : picks key _ _ _ |- _ => destruct (IH _ _ _ _ _ P' Es) as [R1 R2] end. split; auto. constructor; auto.
  - cbn [sel_basic] in H. rewrite (norm_index_complete n k j) in H by auto. cbn [bind] in H.
    destruct (sel_basic key s0) as [[t' ps']|] eqn:Es; cbn [bind] in H; [|discriminate]. injection H as <- <-.
    match goal with P' : picks key _ _ _ |- _ => destruct (IH _ _ _ _ _ P' Es) as [R1 R2] end. split; auto. constructor; auto.
  - cbn [sel_basic] in H. destruct (Z.eqb_spec step 0) as [|Hs]; [discriminate|].
    destruct (sel_basic key s0) as [[t' ps']|] eqn:Es; cbn [bind] in H; [|discriminate]. injection H as <- <-.
    match goal with P' : picks key _ _ _ |- _ => destruct (IH _ _ _ _ _ P' Es) as [R1 R2] end. destruct (slice_indices_ok n start stop step Hs) as [FJ _]. rewrite Forall_forall in FJ.
    split; constructor; auto.
    + apply nth_error_Some. congruence.
    + apply FJ. eapply nth_error_In; eauto.
Qed.
Lemma ravel_inj s : forall i j, in_range s i -> in_range s j -> ravel s i = ravel s j -> i = j.
Proof.
  induction s as [|n s IH]; intros i j Hi Hj H; inversion Hi as [|x m i' s' Hx Hi']; inversion Hj as [|y m' j' s'' Hy Hj']; subst; auto.
  cbn [ravel] in H. pose proof (ravel_lt Hi'). pose proof (ravel_lt Hj'). assert (x = y) by nia. subst.
  f_equal. apply IH; auto. lia.
Qed.
Lemma picks_fun_src key : forall s idx a b t ps, sel_basic key s = Ok (t, ps) -> picks key s idx a -> picks key s idx b -> a = b.
Proof.
  induction key as [|it key IH]; intros s idx a b t ps H P Q; inversion P; subst; inversion Q; subst; auto; cbn [sel_basic] in H.
  - destruct (sel_basic key s) as [[t' ps']|] eqn:Es; cbn [bind] in H; [|discriminate]. eauto.
  - rewrite (norm_index_complete n k j) in H by auto. cbn [bind] in H.
    destruct (sel_basic key s0) as [[t' ps']|] eqn:Es; cbn [bind] in H; [|discriminate]. f_equal; [lia|eauto].
  - destruct (Z.eqb_spec step 0) as [|Hs]; [discriminate|].
    destruct (sel_basic key s0) as [[t' ps']|] eqn:Es; cbn [bind] in H; [|discriminate]. f_equal; [congruence|eauto].
Qed.

(** ** Updating positions *)
Lemma update_length {B} : forall (l : list B) p x, length (update l p x) = length l.
Proof. induction l as [|y l IH]; intros [|p] x; cbn; auto. Qed.
Lemma update_same {B} : forall (l : list B) p x, p < length l -> nth_error (update l p x) p = Some x.
Proof. induction l as [|y l IH]; intros [|p] x H; cbn in *; auto; try lia. apply IH. lia. Qed.
Lemma update_other {B} : forall (l : list B) p q x, p <> q -> nth_error (update l p x) q = nth_error l q.
Proof. induction l as [|y l IH]; intros [|p] [|q] x H; cbn; auto; try congruence. Qed.
Lemma scatter_length {B} : forall ps xs (l : list B), length (scatter l ps xs) = length l.
Proof.
  unfold scatter. induction ps as [|p ps IH]; intros [|x xs] l; cbn; auto. rewrite IH. apply update_length.
Qed.
Lemma scatter_other {B} : forall ps xs (l : list B) p, ~ In p ps -> nth_error (scatter l ps xs) p = nth_error l p.
Proof.
  unfold scatter. induction ps as [|q ps IH]; intros [|x xs] l p H; cbn; auto. rewrite IH by (intros X; apply H; now right).
  apply update_other. intros ->. apply H. now left.
Qed.
Lemma scatter_at {B} : forall ps xs (l : list B) k p x, NoDup ps -> Forall (fun p => p < length l) ps ->
  nth_error ps k = Some p -> nth_error xs k = Some x -> nth_error (scatter l ps xs) p = Some x.
Proof.
  unfold scatter. induction ps as [|q ps IH]; intros [|y xs] l [|k] p x ND F Hp Hx; cbn in *; try discriminate.
  - injection Hp as ->. injection Hx as ->. inversion ND; subst. inversion F; subst.
    change (fold_left _ (combine ps xs) _) with (scatter (update l p x) ps xs). rewrite scatter_other by auto. now apply update_same.
  - inversion ND; subst. inversion F; subst. apply (IH xs _ k); auto. apply Forall_forall. intros z Hz. rewrite update_length.
    rewrite Forall_forall in H4. auto.
Qed.
Lemma scatter_map {B C} (f : B -> C) : forall ps xs l, map f (scatter l ps xs) = scatter (map f l) ps (map f xs).
Proof.
  assert (U : forall (l : list B) p x, map f (update l p x) = update (map f l) p (f x)).
  { induction l as [|y l IH]; intros [|p] x; cbn; auto. now rewrite IH. }
  unfold scatter. induction ps as [|p ps IH]; intros [|x xs] l; cbn; auto. rewrite IH, U. reflexivity.
Qed.

(** ** Broadcasting a value to a selection *)
Lemma broadcast_to_amap {A B} (f : A -> B) (a : arr A) s : broadcast_to (amap f a) s = rmap (map f) (broadcast_to a s).
Proof.
  unfold broadcast_to. cbn [amap shp dat]. destruct (bc_shape (shp a) s) as [t|]; auto.
  destruct (list_eq_dec Nat.eq_dec t s); auto. cbn. now rewrite expand_map.
Qed.
Lemma broadcast_to_spec {A} (a : arr A) s xs : awf a -> broadcast_to a s = Ok xs ->
  length xs = prodn s /\
  forall idx, in_range s idx -> nth_error xs (ravel s idx) = aget a (operand_index (shp a) idx) /\
                               exists x, nth_error xs (ravel s idx) = Some x.
Proof.
  intros W H. unfold broadcast_to in H. destruct (bc_shape (shp a) s) as [t|] eqn:Es; [|discriminate].
  destruct (list_eq_dec Nat.eq_dec t s) as [->|]; [|discriminate]. injection H as <-.
  pose proof (bc_shape_length _ _ Es) as HL. assert (HB := Es). unfold bc_shape in HB. rewrite <- HL in HB.
  apply bc_zip_bcable in HB. destruct HB as [B1 _].
  assert (L1 : length (expand (pad (length s) (shp a)) s (dat a)) = prodn s).
  { apply expand_length; auto. rewrite prodn_pad. exact W. }
  split; auto. intros idx HR.
  set (u := Arr s (expand (pad (length s) (shp a)) s (dat a))).
  assert (Wu : awf u) by exact L1. destruct (aget_some u idx Wu HR) as [x Hx].
  assert (G : nth_error (expand (pad (length s) (shp a)) s (dat a)) (ravel s idx) = Some x).
  { rewrite <- Hx. symmetry. apply at_idx_ravel; auto. }
  rewrite G. split; [|eauto].
  assert (M : amap2 (fun (x : A) (_ : unit) => x) a (Arr s (repeat tt (prodn s))) = Ok u).
  { unfold amap2. cbn [shp dat]. rewrite Es. unfold u. do 2 f_equal. rewrite pad_self.
    rewrite (@expand_same _ s) by (apply repeat_length).
    clear - L1. revert L1. generalize (expand (pad (length s) (shp a)) s (dat a)). generalize (prodn s).
    induction n as [|n IH]; intros [|x l] H; cbn in *; try discriminate; auto. injection H as H. now rewrite IH. }
  assert (Wt : awf (Arr s (repeat tt (prodn s)))) by (unfold awf; cbn; apply repeat_length).
  destruct (amap2_get (fun (x : A) (_ : unit) => x) a _ u idx x W Wt M Hx) as (y & z & Y & _ & ->). now rewrite Y.
Qed.
Lemma broadcast_to_err {A} (a : arr A) s e : broadcast_to a s = Err e -> e = ValueError.
Proof.
  unfold broadcast_to. destruct (bc_shape (shp a) s); [|congruence]. destruct (list_eq_dec _ _ _); congruence.
Qed.
Lemma broadcast_to_scalar {A} (x : A) s : broadcast_to (scalar x) s = Ok (repeat x (prodn s)).
Proof.
  unfold broadcast_to. cbn [scalar shp dat]. rewrite bc_shape_scalar. destruct (list_eq_dec Nat.eq_dec s s); [|congruence].
  now rewrite pad_nil, expand_scalar.
Qed.

(** ** put *)
Lemma cycle_length {A} : forall k (rest all : list A), all <> [] -> length (cycle k rest all) = k.
Proof.
  induction k as [|k IH]; intros rest all H; cbn; auto. destruct all as [|x0 all]; [congruence|].
  destruct rest as [|x rest]; cbn; rewrite IH by auto; reflexivity.
Qed.
Lemma nth_error_cycle {A} : forall k (pre rest all : list A), all = pre ++ rest -> all <> [] -> forall i, i < k ->
  nth_error (cycle k rest all) i = nth_error all ((length pre + i) mod length all).
Proof.
  induction k as [|k IH]; intros pre rest all E H i Hi; [lia|]. cbn [cycle].
  destruct all as [|x0 all'] eqn:EA; [congruence|]. rewrite <- EA in *.
  assert (LA : length all <> 0) by (rewrite EA; cbn; lia).
  destruct rest as [|x rest].
  - rewrite app_nil_r in E. destruct i as [|i]; cbn [nth_error].
    + rewrite Nat.add_0_r, <- E, Nat.mod_same by auto. now rewrite EA.
    + rewrite (IH [x0] (tl all) all); [|rewrite EA; reflexivity|auto|lia]. f_equal.
      replace (length pre + S i) with (1 + i + 1 * length all) by (rewrite E; lia). rewrite Nat.mod_add by auto. reflexivity.
  - destruct i as [|i]; cbn [nth_error].
    + rewrite Nat.add_0_r. assert (L : length pre < length all) by (rewrite E, app_length; cbn; lia).
      rewrite Nat.mod_small by auto. rewrite E, nth_error_app2, Nat.sub_diag by lia. reflexivity.
    + rewrite (IH (pre ++ [x]) rest all); [|rewrite <- app_assoc; exact E|auto|lia]. f_equal. rewrite app_length. cbn. f_equal. lia.
Qed.
Lemma norm_indices_spec n : forall ks ps, norm_indices n ks = Ok ps ->
  length ps = length ks /\ Forall (fun p => p < n) ps /\
  forall i k, nth_error ks i = Some k -> exists p, nth_error ps i = Some p /\
     (Z.of_nat p = k \/ (k < 0 /\ Z.of_nat p = k + Z.of_nat n))%Z.
Proof.
  induction ks as [|k ks IH]; intros ps H; cbn in H.
  - injection H as <-. split; auto. split; auto. intros [|i] k; discriminate.
  - destruct (norm_index n k) as [p|] eqn:Ep; cbn [bind] in H; [|discriminate].
    destruct (norm_indices n ks) as [ps'|] eqn:Es; cbn [bind] in H; [|discriminate]. injection H as <-.
    destruct (IH _ eq_refl) as (L & F & N). apply norm_index_spec in Ep. destruct Ep as [E1 E2].
    split; [cbn; lia|]. split; [constructor; auto|]. intros [|i] k' Hk; cbn in *; [injection Hk as <-; eauto|eauto].
Qed.

(** ** Nested lists *)
Fixpoint nested_get {B} (t : nested B) (idx : list nat) {struct idx} : option B :=
  match idx, t with
  | [], Leaf x => Some x
  | i :: idx', Node l => match nth_error l i with Some t' => nested_get t' idx' | None => None end
  | _, _ => None
  end.
(** A list of [n] lists of ... of the given shape. *)
Fixpoint nested_shape {B} (s : list nat) (t : nested B) : Prop :=
  match s, t with
  | [], Leaf _ => True
  | n :: s', Node l => length l = n /\ Forall (nested_shape s') l
  | _, _ => False
  end.
Lemma nd_tolist_spec {B} : forall s (l : list B), length l = prodn s ->
  exists t, nd_tolist s l = Some t /\ nested_shape s t /\ forall idx, nested_get t idx = at_idx s l idx.
Proof.
  induction s as [|n s IH]; intros l H.
  - destruct l as [|x [|? ?]]; try discriminate. exists (Leaf x). split; auto. split; [exact I|]. intros [|i idx]; reflexivity.
  - cbn [nd_tolist prodn] in *.
    assert (F : Forall (fun c : list B => length c = prodn s) (chunks n (prodn s) l)) by (apply chunks_Forall_length; lia).
    assert (G : forall cs, Forall (fun c : list B => length c = prodn s) cs -> exists ts,
       fold_right (fun c acc => match nd_tolist s c, acc with Some x, Some xs => Some (x :: xs) | _, _ => None end) (Some []) cs = Some ts /\
       length ts = length cs /\ Forall (nested_shape s) ts /\
       forall i idx, match nth_error ts i with Some t' => nested_get t' idx | None => None end =
                     match nth_error cs i with Some c => at_idx s c idx | None => None end).
    { induction 1 as [|c cs Hc Fc IHc].
      - exists []. split; auto. split; auto. split; auto. intros [|i] idx; reflexivity.
      - destruct IHc as (ts & E & L & Fs & N). destruct (IH c Hc) as (t & Et & St & Nt). exists (t :: ts). cbn. rewrite Et, E.
        split; auto. split; [congruence|]. split; [constructor; auto|]. intros [|i] idx; cbn; auto. }
    destruct (G _ F) as (ts & E & L & Fs & N). exists (Node ts). rewrite E. split; auto. rewrite chunks_length in L.
    split; [cbn; auto|]. intros [|i idx]; [reflexivity|]. cbn [nested_get at_idx]. rewrite N.
    destruct (Nat.ltb_spec i n) as [Hi|Hi]; auto. rewrite (proj2 (nth_error_None (chunks n (prodn s) l) i)); auto. now rewrite chunks_length.
Qed.
Section Wrap.
  Context {A : Type} (d : dims).
  Fixpoint nested_ind' (P : nested A -> Prop) (HL : forall x, P (Leaf x)) (HN : forall l, Forall P l -> P (Node l)) (t : nested A) : P t :=
    match t with
    | Leaf x => HL x
    | Node l => HN l ((fix go (l : list (nested A)) : Forall P l :=
                         match l with [] => Forall_nil P | t' :: l' => Forall_cons t' (nested_ind' P HL HN t') (go l') end) l)
    end.
  Lemma wrap_leaves_get (t : nested A) : forall idx,
    nested_get (wrap_leaves d t) idx = option_map (fun x => Qty (scalar x) d) (nested_get t idx).
  Proof.
    induction t as [x|l F] using nested_ind'; intros [|i idx]; cbn; auto. rewrite nth_error_map.
    destruct (nth_error l i) as [t'|] eqn:E; cbn; auto. rewrite Forall_forall in F. apply F. eapply nth_error_In; eauto.
  Qed.
  Lemma wrap_leaves_shape (t : nested A) : forall s, nested_shape s t -> nested_shape s (wrap_leaves d t).
  Proof.
    induction t as [x|l F] using nested_ind'; intros [|n s] H; cbn in *; auto. destruct H as [L H]. rewrite map_length. split; auto.
    apply Forall_forall. intros y Hy. apply in_map_iff in Hy. destruct Hy as (z & <- & Hz). rewrite Forall_forall in F, H. auto.
  Qed.
End Wrap.
