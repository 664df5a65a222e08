(** * Properties C71, C72: [memoize] and [quantitizer]. *)
From Coq Require Import Reals Lra Lia.
From Verif Require Import Py Num Dim DimFacts Arr ArrFacts Lanes Units Spec UnitFacts Quant QuantFacts SimpFacts Examples Props_Conv Decor.

Open Scope nat_scope.
Open Scope list_scope.

(** ** C71 *)
Section MemoFacts.
  Context {K V : Type}.
  Variable same : K -> K -> bool.
  Variable hashable : K -> bool.
  Variable f : nat -> K -> res V.

  Lemma cached_some c k i : cached same c k = Some i -> exists k', In (k', i) c /\ same k' k = true.
  Proof.
    induction c as [|[k' j] c IH]; cbn; [discriminate|]. destruct (same k' k) eqn:Es.
    - intros [= ->]. exists k'. auto.
    - intros H. destruct (IH H) as (k'' & H1 & H2). eauto.
  Qed.
  Lemma cached_none c k : cached same c k = None -> forall k' i, In (k', i) c -> same k' k = false.
  Proof.
    clear hashable f. induction c as [|[k' j] c IH]; cbn; [tauto|]. destruct (same k' k) eqn:Es; [discriminate|].
    intros H k2 i [[= -> ->]|X]; eauto.
  Qed.
  Lemma set_nth_same (l : list V) i v j : j <> i -> nth_error (set_nth l i v) j = nth_error l j.
  Proof. revert i j. induction l as [|x l IH]; intros [|i] [|j] H; cbn; auto; try congruence. Qed.
  Lemma set_nth_length (l : list V) i v : length (set_nth l i v) = length l.
  Proof. revert i. induction l as [|x l IH]; intros [|i]; cbn; auto. Qed.
  Lemma nth_error_snoc {X} (l : list X) x n y : nth_error (l ++ [x]) n = Some y ->
    nth_error l n = Some y \/ (n = length l /\ y = x).
  Proof.
    intros H. destruct (Nat.lt_ge_cases n (length l)) as [L|L].
    - left. now rewrite nth_error_app1 in H.
    - right. rewrite nth_error_app2 in H by lia. destruct (n - length l) as [|m] eqn:Em; cbn in H.
      + split; [lia|congruence].
      + destruct m; discriminate.
  Qed.

  Definition minv (s : mstate K V * list nat) : Prop :=
    let '(st, given) := s in
    (forall i, In i given -> i < length (mem st)) /\
    (forall k i, In (k, i) (cache st) ->
       ~ In i given /\ exists n v, nth_error (invoked st) n = Some k /\ f n k = Ok v /\ nth_error (mem st) i = Some v) /\
    (forall n k v, nth_error (invoked st) n = Some k -> f n k = Ok v -> exists i, In (k, i) (cache st)) /\
    (forall n1 n2 k1 k2, n1 < n2 -> nth_error (invoked st) n1 = Some k1 -> nth_error (invoked st) n2 = Some k2 ->
       same k1 k2 = true -> exists e, f n1 k1 = Err e).

  Lemma minv_empty : minv (mempty K V, []).
  Proof.
    clear hashable. split; [|split; [|split]]; cbn; try tauto.
    - intros [|n] k v H; discriminate.
    - intros [|n1] n2 k1 k2 _ H; discriminate.
  Qed.

  Lemma minv_copy st given i v : minv (st, given) -> nth_error (mem st) i = Some v ->
    copy_of st i = (MState (mem st ++ [v]) (cache st) (invoked st), Ok (length (mem st))) /\
    minv (MState (mem st ++ [v]) (cache st) (invoked st), given ++ [length (mem st)]).
  Proof.
    intros (I1 & I2 & I3 & I4) Hi. split; [unfold copy_of; now rewrite Hi|].
    split; [|split; [|split]]; cbn [mem cache invoked]; auto.
    - intros j Hj. rewrite app_length. cbn. apply in_app_iff in Hj. destruct Hj as [Hj|[<-|[]]]; [specialize (I1 j Hj)|]; lia.
    - intros k j Hj. destruct (I2 k j Hj) as (G & n & w & N1 & N2 & N3).
      assert (L : j < length (mem st)) by (apply nth_error_Some; congruence). split.
      + rewrite in_app_iff. intros [X|[X|[]]]; [auto|]. lia.
      + exists n, w. split; auto. split; auto. now rewrite nth_error_app1.
  Qed.
  Lemma minv_invoke_ok st given k v : minv (st, given) -> cached same (cache st) k = None -> f (length (invoked st)) k = Ok v ->
    minv (MState (mem st ++ [v]) (cache st ++ [(k, length (mem st))]) (invoked st ++ [k]), given).
  Proof.
    clear hashable. intros (I1 & I2 & I3 & I4) Hc Hf. split; [|split; [|split]]; cbn [mem cache invoked].
    - intros j Hj. rewrite app_length. specialize (I1 j Hj). lia.
    - intros k' j Hj. apply in_app_iff in Hj. destruct Hj as [Hj|[[= <- <-]|[]]].
      + destruct (I2 k' j Hj) as (G & n & w & N1 & N2 & N3). split; auto. exists n, w.
        rewrite !nth_error_app1 by (apply nth_error_Some; congruence). auto.
      + split; [intros X; specialize (I1 _ X); lia|]. exists (length (invoked st)), v.
        rewrite !nth_error_app2, !Nat.sub_diag by auto. auto.
    - intros n k' w Hn Hw. apply nth_error_snoc in Hn. destruct Hn as [Hn|[-> ->]].
      + destruct (I3 n k' w Hn Hw) as [i Hi]. exists i. apply in_app_iff. auto.
      + exists (length (mem st)). apply in_app_iff. cbn. auto.
    - intros n1 n2 k1 k2 Hlt H1 H2 Hs. apply nth_error_snoc in H1. apply nth_error_snoc in H2.
      destruct H2 as [H2|[-> ->]].
      + assert (n2 < length (invoked st)) by (apply nth_error_Some; congruence).
        destruct H1 as [H1|[-> ->]]; [eauto|lia].
      + destruct H1 as [H1|[-> ->]]; [|lia]. destruct (f n1 k1) as [w|e] eqn:Ew; [|eauto].
        destruct (I3 n1 k1 w H1 Ew) as [i Hi]. rewrite (cached_none _ _ Hc k1 i Hi) in Hs. discriminate.
  Qed.
  Lemma minv_invoke_err st given k e : minv (st, given) -> cached same (cache st) k = None -> f (length (invoked st)) k = Err e ->
    minv (MState (mem st) (cache st) (invoked st ++ [k]), given).
  Proof.
    clear hashable. intros (I1 & I2 & I3 & I4) Hc Hf. split; [|split; [|split]]; cbn [mem cache invoked]; auto.
    - intros k' j Hj. destruct (I2 k' j Hj) as (G & n & w & N1 & N2 & N3). split; auto. exists n, w.
      rewrite !nth_error_app1 by (apply nth_error_Some; congruence). auto.
    - intros n k' w Hn Hw. apply nth_error_snoc in Hn. destruct Hn as [Hn|[-> ->]]; [eauto|congruence].
    - intros n1 n2 k1 k2 Hlt H1 H2 Hs. apply nth_error_snoc in H1. apply nth_error_snoc in H2.
      destruct H2 as [H2|[-> ->]].
      + assert (n2 < length (invoked st)) by (apply nth_error_Some; congruence).
        destruct H1 as [H1|[-> ->]]; [eauto|lia].
      + destruct H1 as [H1|[-> ->]]; [|lia]. destruct (f n1 k1) as [w|e'] eqn:Ew; [|eauto].
        destruct (I3 n1 k1 w H1 Ew) as [i Hi]. rewrite (cached_none _ _ Hc k1 i Hi) in Hs. discriminate.
  Qed.

  Lemma minv_step s o : minv s -> minv (mstep same hashable f s o).
  Proof.
    destruct s as [st given]. intros I. destruct o as [k|n v]; cbn [mstep].
    - unfold memo_call. destruct (hashable k); cbn [negb]; auto.
      destruct (cached same (cache st) k) as [i|] eqn:Ec.
      + destruct (cached_some _ _ _ Ec) as (k' & Hin & _).
        destruct (proj1 (proj2 I) k' i Hin) as (_ & n & v & _ & _ & Hv).
        destruct (minv_copy st given i v I Hv) as [-> Y]. exact Y.
      + destruct (f (length (invoked st)) k) as [v|e] eqn:Ef.
        * pose proof (minv_invoke_ok st given k v I Ec Ef) as I'.
          destruct (minv_copy _ given (length (mem st)) v I') as [-> Y]; [|exact Y].
          cbn [mem]. rewrite nth_error_app2, Nat.sub_diag by auto. reflexivity.
        * exact (minv_invoke_err st given k e I Ec Ef).
    - destruct (nth_error given n) as [i|] eqn:Eg; auto. destruct I as (I1 & I2 & I3 & I4).
      split; [|split; [|split]]; cbn [mem cache invoked]; auto.
      + intros j Hj. rewrite set_nth_length. auto.
      + intros k j Hj. destruct (I2 k j Hj) as (G & m & w & N1 & N2 & N3). split; auto. exists m, w.
        rewrite set_nth_same; auto. intros ->. apply G. exact (nth_error_In _ _ Eg).
  Qed.
  Lemma minv_run l : forall s, minv s -> minv (mrun same hashable f s l).
  Proof. induction l as [|o l IH]; intros s H; cbn [mrun]; auto using minv_step. Qed.
End MemoFacts.

(** Whatever was called before, and however the returned objects were changed, the
    call [k] of a memoized (pure) function returns a new object containing what the
    function returns, or raises what it raises.  [respects]: the function does not
    distinguish equal arguments.  Unhashable arguments are refused. *)
Theorem C71_transparent : forall K V same hashable (g : K -> res V) history st given k,
  (forall k k', same k k' = true -> g k = g k') ->
  mrun same hashable (fun _ => g) (mempty K V, []) history = (st, given) ->
  let '(st', r) := memo_call same hashable (fun _ => g) st k in
  if hashable k then
    match g k with
    | Ok v => exists i, r = Ok i /\ nth_error (mem st') i = Some v /\ ~ In i given
    | Err e => r = Err e
    end
  else r = Err TypeError /\ st' = st.
Proof.
  intros K V same hashable g history st given k HR HS.
  pose proof (minv_run same hashable (fun _ => g) history _ (minv_empty same (fun _ => g))) as I. rewrite HS in I.
  unfold memo_call. destruct (hashable k); cbn [negb]; [|auto].
  assert (Fresh : ~ In (length (mem st)) given) by (intros X; apply I in X; lia).
  destruct (cached same (cache st) k) as [i|] eqn:Ec.
  - destruct (cached_some _ _ _ _ Ec) as (k' & Hin & Hs).
    destruct (proj1 (proj2 I) k' i Hin) as (_ & n & v & _ & Hg & Hv). rewrite <- (HR _ _ Hs), Hg.
    destruct (minv_copy _ _ st given i v I Hv) as [-> _]. exists (length (mem st)). split; auto. split; auto.
    cbn [mem]. rewrite nth_error_app2, Nat.sub_diag by auto. reflexivity.
  - destruct (g k) as [v|e]; [|reflexivity]. unfold copy_of. cbn [mem cache invoked].
    rewrite (nth_error_app2 (mem st) [v]), Nat.sub_diag by auto. cbn [nth_error].
    exists (length (mem st ++ [v])). split; auto. split.
    + cbn [mem]. rewrite nth_error_app2, Nat.sub_diag by auto. reflexivity.
    + intros X. apply I in X. rewrite app_length in X. lia.
Qed.
(** The function is not invoked again for equal arguments, unless it raised: whatever
    it does, of two invocations with equal arguments the first raised. *)
Theorem C71_once : forall K V same hashable (f : nat -> K -> res V) history n1 n2 k1 k2,
  let st := fst (mrun same hashable f (mempty K V, []) history) in
  n1 < n2 -> nth_error (invoked st) n1 = Some k1 -> nth_error (invoked st) n2 = Some k2 ->
  same k1 k2 = true -> exists e, f n1 k1 = Err e.
Proof.
  intros K V same hashable f history n1 n2 k1 k2 st.
  pose proof (minv_run same hashable f history _ (minv_empty same f)) as I. subst st.
  destruct (mrun _ _ _ _ history) as [st given]. destruct I as (_ & _ & _ & I). apply I.
Qed.
(** Even of an impure function: once it has returned for some arguments, calls with
    equal arguments go on giving (copies of) what a successful invocation with equal
    arguments returned, and do not invoke it. *)
Theorem C71_first_result : forall K V same hashable (f : nat -> K -> res V) history st given n k v k',
  mrun same hashable f (mempty K V, []) history = (st, given) ->
  nth_error (invoked st) n = Some k -> f n k = Ok v -> same k k' = true -> hashable k' = true ->
  exists st' i n0 k0 v0, memo_call same hashable f st k' = (st', Ok i) /\ invoked st' = invoked st /\ ~ In i given /\
    nth_error (mem st') i = Some v0 /\ nth_error (invoked st) n0 = Some k0 /\ f n0 k0 = Ok v0 /\ same k0 k' = true.
Proof.
  intros K V same hashable f history st given n k v k' HS Hn Hf Hs Hh.
  pose proof (minv_run same hashable f history _ (minv_empty same f)) as I. rewrite HS in I.
  unfold memo_call. rewrite Hh. cbn [negb].
  destruct (proj1 (proj2 (proj2 I)) n k v Hn Hf) as [i0 Hi0].
  destruct (cached same (cache st) k') as [i|] eqn:Ec.
  2:{ rewrite (cached_none _ _ _ Ec k i0 Hi0) in Hs. discriminate. }
  destruct (cached_some _ _ _ _ Ec) as (k0 & Hin & Hs0).
  destruct (proj1 (proj2 I) k0 i Hin) as (_ & n0 & v0 & N1 & N2 & N3).
  destruct (minv_copy _ _ st given i v0 I N3) as [-> _].
  exists (MState (mem st ++ [v0]) (cache st) (invoked st)), (length (mem st)), n0, k0, v0.
  split; auto. split; auto. split; [intros X; apply I in X; lia|]. split; auto.
  cbn [mem]. rewrite nth_error_app2, Nat.sub_diag by auto. reflexivity.
Qed.
(** The objects returned are the caller's own: no call changes an object that was returned
    before, no two calls return the same object, and a change to one of them changes it and
    no other. *)
Theorem C71_owned : forall K V same hashable (f : nat -> K -> res V) history st given,
  mrun same hashable f (mempty K V, []) history = (st, given) ->
  NoDup given /\
  (forall k i, In i given -> nth_error (mem (fst (memo_call same hashable f st k))) i = nth_error (mem st) i) /\
  (forall n i v, nth_error given n = Some i ->
     let st' := fst (mstep same hashable f (st, given) (MChange K n v)) in
     nth_error (mem st') i = Some v /\ forall n' j, n' <> n -> nth_error given n' = Some j -> nth_error (mem st') j = nth_error (mem st) j).
Proof.
  intros K V same hashable f history st given HS.
  assert (I : minv same f (st, given)).
  { rewrite <- HS. apply minv_run, minv_empty. }
  assert (Keep : forall st k, minv same f (st, given) -> forall i, i < length (mem st) ->
     nth_error (mem (fst (memo_call same hashable f st k))) i = nth_error (mem st) i).
  { clear. intros st k I i L. unfold memo_call. destruct (hashable k); cbn [negb fst]; auto.
    destruct (cached same (cache st) k) as [j|].
    - unfold copy_of. destruct (nth_error (mem st) j); cbn [fst mem]; auto. now rewrite nth_error_app1.
    - destruct (f (length (invoked st)) k) as [v|e]; cbn [fst mem]; auto.
      unfold copy_of. cbn [mem]. rewrite nth_error_app2, Nat.sub_diag by auto. cbn [nth_error fst mem].
      rewrite nth_error_app1 by (rewrite app_length; lia). now rewrite nth_error_app1. }
  assert (ND : NoDup given).
  { assert (G : forall l s, minv same f s -> NoDup (snd s) -> NoDup (snd (mrun same hashable f s l))).
    { clear. induction l as [|o l IH]; intros s I N; cbn [mrun]; auto. apply IH; [now apply minv_step|].
      destruct s as [st given], o as [k|n v]; cbn [mstep].
      - unfold memo_call. destruct (hashable k); cbn [negb snd]; auto.
        assert (F : forall i, length (mem st) <= i -> NoDup (given ++ [i])).
        { intros i L. rewrite <- (rev_involutive given). change [i] with (rev [i]). rewrite <- rev_app_distr. apply NoDup_rev.
          cbn [app]. constructor; [|now apply NoDup_rev]. rewrite <- in_rev. intros X. apply I in X. lia. }
        destruct (cached same (cache st) k) as [j|].
        + unfold copy_of. destruct (nth_error (mem st) j); cbn [snd]; auto.
        + destruct (f (length (invoked st)) k) as [v|e]; cbn [snd]; auto.
          unfold copy_of. cbn [mem]. rewrite nth_error_app2, Nat.sub_diag by auto. cbn [nth_error snd]. apply F.
          rewrite app_length. lia.
      - destruct (nth_error given n); exact N. }
    specialize (G history _ (minv_empty same f) (NoDup_nil _)). now rewrite HS in G. }
  split; [exact ND|]. split.
  - intros k i Hi. apply Keep; [exact I|]. now apply I.
  - intros n i v Hn. cbn [mstep]. rewrite Hn. cbn [fst mem]. split.
    + assert (L : i < length (mem st)) by (apply I; exact (nth_error_In _ _ Hn)). revert L. generalize (mem st) as l. clear.
      intros l. revert i. induction l as [|x l IH]; intros [|i] L; cbn in *; try lia; auto. apply IH. lia.
    + intros n' j Hne Hj. apply set_nth_same. intros ->. apply Hne.
      apply (proj1 (NoDup_nth_error given) ND); [|congruence]. apply nth_error_Some. congruence.
Qed.
(** Arguments that compare equal are not told apart: after a call with [1], the call
    with [1.0] returns what the function returned for [1]. *)
Theorem C71_equal_arguments_refuted : exists (g : pynum -> res nat) st given,
  mrun peqb (fun _ => true) (fun _ => g) (mempty pynum nat, []) [MCall nat (PInt 1)] = (st, given) /\
  g (PInt 1) = Ok 0%nat /\ g (PFlt (q_of 1 1)) = Ok 1%nat /\
  exists st' i, memo_call peqb (fun _ => true) (fun _ => g) st (PFlt (q_of 1 1)) = (st', Ok i) /\
    nth_error (mem st') i = Some 0%nat.
Proof.
  exists (fun k => match k with PInt _ => Ok 0%nat | PFlt _ => Ok 1%nat end).
  do 2 eexists. split; [reflexivity|]. split; [reflexivity|]. split; [reflexivity|]. do 2 eexists. split; vm_compute; reflexivity.
Qed.
Example C71_example :
  let g k := if Nat.eqb k 0 then Err ValueError else Ok (10 * k)%nat in
  let '(st, given) := mrun Nat.eqb (fun _ => true) (fun _ => g) (mempty nat nat, [])
                           [MCall nat 3; MChange nat 0 7; MCall nat 0; MCall nat 3; MCall nat 0]%nat in
  invoked st = [3; 0; 0]%nat /\ given = [1; 2]%nat /\ mem st = [30; 7; 30]%nat.
Proof. vm_compute. auto. Qed.

(** ** C72 *)
Open Scope R_scope.

(** A positional argument as the wrapped function sees it: a quantity is replaced by
    its magnitudes in the default units, anything else is passed on. *)
Definition seen (E : uenv R) (D : defaults) (a a' : pv R) : Prop :=
  match a with
  | PVQ q => exists s, a' = PVA (mag s) /\ same_value E s q /\ shp (mag s) = shp (mag q) /\
               (forall w, In w (dkeys (qdim s)) -> exists c dd, D c = Some dd /\ In w (dkeys dd))
  | _ => a' = a
  end.
(** A result as the caller sees it, given the plain result [r] and the item [h] of the
    handler: with the units of [h], its value is [r] in the default units. *)
Definition given_units (E : uenv R) (fuel : nat) (D : defaults) (h r r' : pv R) : Prop :=
  match h, r with
  | PVQ hq, PVA a => exists q ds, r' = PVQ q /\ dim_simplified fuel E D (qdim hq) = Ok ds /\
        (forall w, exp_of (qdim q) w = exp_of (qdim hq) w) /\ shp (mag q) = shp a /\ same_value E q (Qty a ds)
  | PVQ hq, PVQ p => exists q, r' = PVQ q /\ (forall w, exp_of (qdim q) w = exp_of (qdim hq) w) /\
        shp (mag q) = shp (mag p) /\ same_value E q p
  | PVQ _, PVO _ => False
  | _, _ => r' = r
  end.
Definition pv_ok (x : pv R) : Prop := match x with PVQ q => qty_ok q | PVA a => awf a | PVO _ => True end.

Lemma dim_simplified_ok E D fuel d ds : renv_ok E -> (forall c dd, D c = Some dd -> dims_ok dd) -> dims_ok d ->
  dim_simplified fuel E D d = Ok ds -> dims_ok ds /\ convertible E ds d.
Proof.
  intros HE HD Hd H. destruct d as [|kv d].
  - injection H as <-. split; auto. apply convertible_refl.
  - unfold dim_simplified in H. destruct (simp_dims fuel E D (kv :: d)) as [rq|e] eqn:Es; [|discriminate]. cbn [bind] in H.
    injection H as <-. destruct (simp_dims_good E D HE HD fuel _ rq Hd Es) as (Hp & Hb & Hv).
    split; [apply Hb|]. exists (/ fst rq). intros phi HC. rewrite (Hv phi HC). field. lra.
Qed.
Lemma same_value_shape E (q p : qty R) : renv_ok E -> same_value E q p -> shp (mag q) = shp (mag p).
Proof.
  intros HE H. destruct (consistent_exists E HE) as [phi HC]. specialize (H phi HC).
  apply (f_equal (@shp R)) in H. exact H.
Qed.
Lemma give_units_ok E D fuel h r r' : renv_ok E -> (forall c dd, D c = Some dd -> dims_ok dd) -> pv_ok h -> pv_ok r ->
  give_units fuel E D h r = Ok r' -> given_units E fuel D h r r'.
Proof.
  intros HE HD Hh Hr H. destruct h as [hq|ha|hs]; [|cbn in H; injection H as <-; reflexivity..].
  unfold give_units in H. destruct (dim_simplified fuel E D (qdim hq)) as [ds|e] eqn:Ed; [|discriminate]. cbn [bind] in H.
  destruct (dim_simplified_ok E D fuel (qdim hq) ds HE HD (proj2 Hh) Ed) as [Hds Hc].
  destruct r as [p|a|s]; [| |discriminate]; cbn [q_new] in H.
  - destruct (truthy (UDim ds)) as [b|e]; [|discriminate]. cbn [bind] in H.
    assert (X : exists p', (if b then rescale (fun _ : string => Err Unmodelled) E p (UDim ds) else Ok p) = Ok p' /\ qty_ok p' /\ same_value E p' p).
    { destruct b.
      - unfold rescale in *. cbn [validate_dimensionality bind] in *. destruct (rescale_to E p ds) as [p'|e] eqn:Ep; [|discriminate].
        exists p'. split; auto. split; [exact (rescale_to_qty_ok E p ds p' Hr Hds Ep)|exact (rescale_value E p ds p' HE (proj2 Hr) Hds Ep)].
      - exists p. split; auto. split; auto. intros phi _. reflexivity. }
    destruct X as (p' & Ep & Hp' & Vp). rewrite Ep in H. cbn [bind] in H.
    destruct (rescale_to E p' (qdim hq)) as [q'|e] eqn:Eq; [|discriminate]. injection H as <-.
    pose proof (rescale_value E p' (qdim hq) q' HE (proj2 Hp') (proj2 Hh) Eq) as V.
    assert (V' : same_value E q' p) by (intros phi HC; rewrite (V phi HC); apply Vp, HC).
    cbn. exists q'. split; auto. split; [|split; [exact (same_value_shape E q' p HE V')|exact V']].
    apply dim_eqb_exp; [apply (rescale_to_qty_ok E p' _ q' Hp' (proj2 Hh) Eq)|apply (proj2 Hh)|].
    exact (rescale_to_eqb E p' (qdim hq) q' (proj1 (proj2 Hp')) (proj1 (proj2 Hh)) Eq).
  - cbn [validate_dimensionality bind] in H. set (p' := Qty a ds) in *.
    assert (Hp' : qty_ok p') by (split; auto).
    destruct (rescale_to E p' (qdim hq)) as [q'|e] eqn:Eq; [|discriminate]. injection H as <-.
    pose proof (rescale_value E p' (qdim hq) q' HE (proj2 Hp') (proj2 Hh) Eq) as V.
    cbn. exists q', ds. split; auto. split; auto. split; [|split; [exact (same_value_shape E q' p' HE V)|exact V]].
    apply dim_eqb_exp; [apply (rescale_to_qty_ok E p' _ q' Hp' (proj2 Hh) Eq)|apply (proj2 Hh)|].
    exact (rescale_to_eqb E p' (qdim hq) q' (proj1 (proj2 Hp')) (proj1 (proj2 Hh)) Eq).
Qed.

Lemma strip_args_ok E D fuel args args' : renv_ok E -> (forall c dd, D c = Some dd -> dims_ok dd) -> Forall pv_ok args ->
  strip_args fuel E D args = Ok args' -> Forall2 (seen E D) args args'.
Proof.
  intros HE HD. revert args'. induction args as [|x args IH]; intros args' HO H; cbn [strip_args] in H.
  - injection H as <-. constructor.
  - inversion HO as [|? ? Hx Ho]; subst. destruct (strip_arg fuel E D x) as [y|e] eqn:Ex; [|discriminate]. cbn [bind] in H.
    destruct (strip_args fuel E D args) as [ys|e]; [|discriminate]. cbn [bind] in H. injection H as <-.
    constructor; [|now apply IH]. destruct x as [q|a|s]; cbn in Ex; [|injection Ex as <-; reflexivity..].
    destruct (simplified fuel E D q) as [s|e] eqn:Es; [|discriminate]. cbn [bind] in Ex. injection Ex as <-.
    destruct (C17_simplified_preserves_value E D fuel q s HE HD Hx Es) as (V1 & V2 & V3 & _). exists s. auto.
Qed.
Lemma strip_kwargs_ok (kw kw' : list (string * pv R)) : strip_kwargs kw = Ok kw' ->
  kw' = kw /\ forall k q, ~ In (k, PVQ q) kw.
Proof.
  revert kw'. induction kw as [|[k x] kw IH]; intros kw' H; cbn [strip_kwargs] in H.
  - injection H as <-. split; auto.
  - destruct x as [q|a|s]; [discriminate|..]; (destruct (strip_kwargs kw) as [ys|e]; [|discriminate]); cbn [bind] in H;
      injection H as <-; destruct (IH ys eq_refl) as [-> X]; (split; auto); intros k' q [Y|Y]; try discriminate; now apply X in Y.
Qed.
Lemma strip_kwargs_quantity (kw : list (string * pv R)) k q : In (k, PVQ q) kw -> strip_kwargs kw = Err AttributeError.
Proof.
  induction kw as [|[k' x] kw IH]; [intros []|]. intros [[= -> ->]|H]; [reflexivity|].
  cbn [strip_kwargs]. destruct x; auto; now rewrite IH.
Qed.
Lemma give_all_ok E D fuel hs : renv_ok E -> (forall c dd, D c = Some dd -> dims_ok dd) -> Forall pv_ok hs ->
  forall rs rs', Forall pv_ok rs -> give_all fuel E D hs rs = Ok rs' ->
  length rs' = length rs /\
  forall i r, nth_error rs i = Some r -> exists r', nth_error rs' i = Some r' /\
    match nth_error hs i with Some h => given_units E fuel D h r r' | None => r' = r end.
Proof.
  intros HE HD. induction hs as [|h hs IH]; intros Hh rs rs' Hr H.
  - assert (rs' = rs) as -> by (destruct rs; cbn in H; congruence). split; auto.
    intros i r Hi. exists r. split; auto. now destruct i.
  - destruct rs as [|r rs]; cbn [give_all] in H.
    + injection H as <-. split; auto. intros [|i] r Hi; discriminate.
    + inversion Hh as [|? ? Hh1 Hh2]; subst. inversion Hr as [|? ? Hr1 Hr2]; subst.
      destruct (give_units fuel E D h r) as [x|e] eqn:Eg; [|discriminate]. cbn [bind] in H.
      destruct (give_all fuel E D hs rs) as [xs|e] eqn:Ex; [|discriminate]. cbn [bind] in H. injection H as <-.
      destruct (IH Hh2 rs xs Hr2 Ex) as [L I]. split; [cbn; now rewrite L|].
      intros [|i] r0 Hi; cbn [nth_error] in *.
      * injection Hi as <-. exists x. split; auto. exact (give_units_ok E D fuel h r x HE HD Hh1 Hr1 Eg).
      * apply I. exact Hi.
Qed.
Lemma h_items_ok (h : hres R) hs : (match h with HSeq l => Forall pv_ok l | HQty q => qty_ok q | HNoLen => True end) ->
  h_items h = Ok hs -> Forall pv_ok hs.
Proof.
  destruct h as [l|q|]; cbn; intros H E; [congruence| |discriminate].
  destruct (shp (mag q)) as [|n s] eqn:Es; [discriminate|]. injection E as <-.
  apply Forall_map, Forall_forall. intros i Hi. apply in_seq in Hi. destruct H as [W Hd]. split; [|exact Hd].
  unfold awf in *. rewrite Es in W. cbn [mag shp dat]. cbn [prodn] in W.
  rewrite firstn_length, skipn_length, W. nia.
Qed.

(** The items of the handler's answer: the elements of a sequence; the rows of a
    quantity (its sub-arrays along the first axis), in its units. *)
Definition items_of (h : hres R) (hs : list (pv R)) : Prop :=
  match h with
  | HSeq l => hs = l
  | HQty q => exists n s, shp (mag q) = n :: s /\ length hs = n /\
      forall i, (i < n)%nat -> exists qi, nth_error hs i = Some (PVQ qi) /\ qdim qi = qdim q /\ shp (mag qi) = s /\
        forall idx, in_range s idx -> aget (mag qi) idx = aget (mag q) (i :: idx)
  | HNoLen => False
  end.
Lemma h_items_rows (h : hres R) hs : (match h with HSeq l => Forall pv_ok l | HQty q => qty_ok q | HNoLen => True end) ->
  h_items h = Ok hs -> items_of h hs.
Proof.
  destruct h as [l|q|]; cbn [h_items items_of]; intros H E; [congruence| |discriminate].
  destruct (shp (mag q)) as [|n s] eqn:Es; [discriminate|]. injection E as <-. exists n, s. split; [reflexivity|].
  split; [now rewrite map_length, seq_length|]. intros i Hi.
  eexists. split; [rewrite nth_error_map, (nth_error_nth' (seq 0 n) 0%nat) by (now rewrite seq_length); rewrite seq_nth by exact Hi; reflexivity|].
  cbn [mag qdim shp]. split; [reflexivity|]. split; [reflexivity|]. intros idx _. unfold aget. cbn [shp dat]. rewrite Es. cbn [at_idx].
  rewrite (proj2 (Nat.ltb_lt i n) Hi). cbn [Nat.add].
  destruct H as [W _]. unfold awf in W. rewrite Es in W. cbn [prodn] in W. rewrite nth_error_chunks by lia. reflexivity.
Qed.

(** A call that returns: the wrapped function was called with the magnitudes of the
    quantities in the default units, the keyword arguments (none of which is a
    quantity) as they are; each of its results gets the units of the corresponding
    item of the handler's answer, if there is one. *)
Theorem C72_what_happens : forall E D fuel base handler args kwargs rs,
  renv_ok E -> (forall c dd, D c = Some dd -> dims_ok dd) -> Forall pv_ok args ->
  (forall h, handler args kwargs = Ok h -> match h with HSeq l => Forall pv_ok l | HQty q => qty_ok q | HNoLen => True end) ->
  (forall a l, base a kwargs = Ok (BSeq l) -> Forall pv_ok l) ->
  quantitized fuel E D base handler args kwargs = Ok rs ->
  exists args' plain h hs,
    Forall2 (seen E D) args args' /\ (forall k q, ~ In (k, PVQ q) kwargs) /\
    base args' kwargs = Ok (BSeq plain) /\ handler args kwargs = Ok h /\ items_of h hs /\
    length rs = length plain /\
    forall i r, nth_error plain i = Some r -> exists r', nth_error rs i = Some r' /\
      match nth_error hs i with Some hi => given_units E fuel D hi r r' | None => r' = r end.
Proof.
  intros E D fuel base handler args kwargs rs HE HD Ha Hh Hb H. unfold quantitized in H.
  destruct (handler args kwargs) as [h|e] eqn:E1; [|discriminate]. cbn [bind] in H.
  destruct (strip_args fuel E D args) as [args'|e] eqn:E2; [|discriminate]. cbn [bind] in H.
  destruct (strip_kwargs kwargs) as [kwargs'|e] eqn:E3; [|discriminate]. cbn [bind] in H.
  destruct (strip_kwargs_ok _ _ E3) as [-> NK].
  destruct (base args' kwargs) as [[plain|]|e] eqn:E4; [|discriminate..]. cbn [bind] in H.
  destruct (h_items h) as [hs|e] eqn:E5; [|discriminate]. cbn [bind] in H.
  exists args', plain, h, hs. split; [exact (strip_args_ok E D fuel args args' HE HD Ha E2)|].
  split; auto. split; auto. split; auto. split; [exact (h_items_rows h hs (Hh h eq_refl) E5)|].
  apply (give_all_ok E D fuel hs HE HD (h_items_ok h hs (Hh h eq_refl) E5) plain rs (Hb _ _ E4) H).
Qed.

(** The units in which the arguments are expressed do not matter: equal amounts of
    convertible units give the same results, provided the handler answers the same. *)
Definition same_amount (E : uenv R) (a b : pv R) : Prop :=
  match a, b with
  | PVQ p, PVQ q => convertible E (qdim p) (qdim q) /\ same_value E p q
  | _, _ => a = b
  end.
Theorem C72_units_do_not_matter : forall E D root fuel base handler args args2 kwargs,
  renv_ok E -> std_defaults E D root -> (forall c dd, D c = Some dd -> dims_ok dd) ->
  Forall pv_ok args -> Forall pv_ok args2 -> Forall2 (same_amount E) args args2 ->
  handler args2 kwargs = handler args kwargs ->
  forall rs rs2, quantitized fuel E D base handler args kwargs = Ok rs ->
                 quantitized fuel E D base handler args2 kwargs = Ok rs2 -> rs = rs2.
Proof.
  intros E D root fuel base handler args args2 kwargs HE HS HD Ha Ha2 HA Hh rs rs2 H H2. unfold quantitized in *.
  rewrite Hh in H2. destruct (handler args kwargs) as [h|e]; [|discriminate]. cbn [bind] in *.
  assert (X : forall a1 a2, strip_args fuel E D args = Ok a1 -> strip_args fuel E D args2 = Ok a2 -> a1 = a2).
  { clear H H2 Hh. induction HA as [|x y l l2 Hxy HA IH]; intros a1 a2 E1 E2; cbn [strip_args] in *; [congruence|].
    inversion Ha as [|? ? Hx Ha']; inversion Ha2 as [|? ? Hy Ha2']; subst.
    destruct (strip_arg fuel E D x) as [x'|e] eqn:Ex; [|discriminate]. destruct (strip_arg fuel E D y) as [y'|e] eqn:Ey; [|discriminate].
    cbn [bind] in *. destruct (strip_args fuel E D l) as [l'|e]; [|discriminate]. destruct (strip_args fuel E D l2) as [l2'|e]; [|discriminate].
    cbn [bind] in *. injection E1 as <-. injection E2 as <-. f_equal; [|now apply IH].
    destruct x as [p|a|s], y as [q|b|t]; cbn in Hxy; try discriminate; cbn in Ex, Ey; try congruence.
    destruct Hxy as [C V]. destruct (simplified fuel E D p) as [p'|e] eqn:Ep; [|discriminate].
    destruct (simplified fuel E D q) as [q'|e] eqn:Eq; [|discriminate]. cbn [bind] in *. injection Ex as <-. injection Ey as <-.
    f_equal. exact (proj1 (C18_simplified_canonical E D root fuel fuel p q p' q' HE HS HD Hx Hy C V Ep Eq)). }
  destruct (strip_args fuel E D args) as [a1|e]; [|discriminate]. destruct (strip_args fuel E D args2) as [a2|e]; [|discriminate].
  rewrite (X a1 a2 eq_refl eq_refl) in H. cbn [bind] in *. congruence.
Qed.

(** So if the units of the quantities can be simplified, the call with the arguments in
    other units has the same outcome, whatever it is. *)
Theorem C72_same_outcome : forall E D root fuel base handler args args2 kwargs,
  renv_ok E -> std_defaults E D root -> (forall c dd, D c = Some dd -> dims_ok dd) ->
  Forall pv_ok args -> Forall pv_ok args2 -> Forall2 (same_amount E) args args2 ->
  (forall q, In (PVQ q) args \/ In (PVQ q) args2 -> forall u, In u (dkeys (qdim q)) -> simplifiable E D root u) ->
  handler args2 kwargs = handler args kwargs ->
  quantitized (S (S fuel)) E D base handler args2 kwargs = quantitized (S (S fuel)) E D base handler args kwargs.
Proof.
  intros E D root fuel base handler args args2 kwargs HE HS HD Ha Ha2 HA Hs Hh. unfold quantitized. rewrite Hh.
  destruct (handler args kwargs) as [h|e]; [|reflexivity]. cbn [bind].
  assert (X : strip_args (S (S fuel)) E D args2 = strip_args (S (S fuel)) E D args).
  { clear Hh. induction HA as [|x y l l2 Hxy HA IH]; [reflexivity|]. cbn [strip_args].
    inversion Ha as [|? ? Hx Ha']; inversion Ha2 as [|? ? Hy Ha2']; subst.
    rewrite IH; [|assumption|assumption|intros q [Hq|Hq]; apply Hs; [left|right]; right; exact Hq].
    assert (Y : strip_arg (S (S fuel)) E D y = strip_arg (S (S fuel)) E D x); [|now rewrite Y].
    destruct x as [p|a|s], y as [q|b|t]; cbn in Hxy; try discriminate; try congruence; try contradiction.
    destruct Hxy as [C V]. unfold strip_arg.
    destruct (simplified_fuel E D root HE HS fuel p (proj2 Hx) (Hs p (or_introl (or_introl eq_refl)))) as [p' Ep].
    destruct (simplified_fuel E D root HE HS fuel q (proj2 Hy) (Hs q (or_intror (or_introl eq_refl)))) as [q' Eq].
    rewrite Ep, Eq. cbn [bind]. do 2 f_equal. symmetry.
    exact (proj1 (C18_simplified_canonical E D root _ _ p q p' q' HE HS HD Hx Hy C V Ep Eq)). }
  now rewrite X.
Qed.

(** When it succeeds (for a recursion limit of at least two): the handler and the
    wrapped function return sequences, the quantities among the arguments and the
    handler's items can be simplified, no keyword argument is a quantity, and every
    result that gets units is a plain array or number. *)
Theorem C72_defined : forall E D root fuel base handler args kwargs h hs,
  renv_ok E -> std_defaults E D root -> (forall c dd, D c = Some dd -> dims_ok dd) -> Forall pv_ok args ->
  (forall q, In (PVQ q) args -> forall u, In u (dkeys (qdim q)) -> simplifiable E D root u) ->
  (forall k q, ~ In (k, PVQ q) kwargs) ->
  handler args kwargs = Ok h -> h_items h = Ok hs -> Forall pv_ok hs ->
  (forall q, In (PVQ q) hs -> forall u, In u (dkeys (qdim q)) -> simplifiable E D root u) ->
  (forall a, Forall2 (seen E D) args a -> exists l, base a kwargs = Ok (BSeq l) /\ forall r, In r l -> exists m, r = PVA m) ->
  exists rs, quantitized (S (S fuel)) E D base handler args kwargs = Ok rs.
Proof.
  intros E D root fuel base handler args kwargs h hs HE HS HD Ha Hs Hk Hh Hi Hho Hhs Hb. unfold quantitized. rewrite Hh. cbn [bind].
  assert (X : exists a, strip_args (S (S fuel)) E D args = Ok a).
  { clear Hb Hh. induction args as [|x l IH]; [exists []; reflexivity|]. inversion Ha as [|? ? Hx Hl]; subst. cbn [strip_args].
    assert (Y : exists y, strip_arg (S (S fuel)) E D x = Ok y).
    { destruct x as [q|a|s]; [|eexists; reflexivity..]. unfold strip_arg.
      destruct (simplified_fuel E D root HE HS fuel q (proj2 Hx) (Hs q (or_introl eq_refl))) as [r ->]. eexists; reflexivity. }
    destruct Y as [y ->]. destruct IH as [a ->]; auto. { intros q Hq. apply Hs. right; exact Hq. } eexists; reflexivity. }
  destruct X as [a Ea]. rewrite Ea. cbn [bind].
  assert (K : strip_kwargs kwargs = Ok kwargs).
  { clear - Hk. induction kwargs as [|[k x] l IH]; auto. cbn [strip_kwargs]. destruct x as [q|m|s].
    - exfalso. apply (Hk k q). left; reflexivity.
    - rewrite IH; auto. intros k' q Hin. apply (Hk k' q). right; exact Hin.
    - rewrite IH; auto. intros k' q Hin. apply (Hk k' q). right; exact Hin. }
  rewrite K. cbn [bind]. destruct (Hb a (strip_args_ok E D _ args a HE HD Ha Ea)) as (l & -> & Hl). cbn [bind]. rewrite Hi. cbn [bind].
  clear - HE HS HD Hho Hhs Hl. revert l Hl. induction hs as [|x hs IH]; intros l Hl; [exists l; now destruct l|].
  destruct l as [|r l]; [eexists; reflexivity|]. cbn [give_all].
  inversion Hho as [|? ? Hx Hho']; subst.
  assert (Y : exists y, give_units (S (S fuel)) E D x r = Ok y).
  { destruct x as [q|m|s]; [|eexists; reflexivity..]. destruct (Hl r (or_introl eq_refl)) as [m ->].
    assert (Hds : exists ds, dim_simplified (S (S fuel)) E D (qdim q) = Ok ds).
    { destruct (simplified_fuel E D root HE HS fuel q (proj2 Hx) (Hhs q (or_introl eq_refl))) as [s Es].
      unfold simplified in Es. unfold dim_simplified. destruct (qdim q) as [|kv d] eqn:Eq; [eexists; reflexivity|].
      destruct (simp_dims (S (S fuel)) E D (kv :: d)); [|discriminate]. eexists; reflexivity. }
    destruct Hds as [ds Eds]. unfold give_units. rewrite Eds. cbn [bind q_new validate_dimensionality].
    destruct (dim_simplified_ok E D _ (qdim q) ds HE HD (proj2 Hx) Eds) as [O C].
    destruct (proj2 (rescale_ok_iff E (Qty m ds) (qdim q) HE O (proj2 Hx)) C) as [r' ->]. eexists; reflexivity. }
  destruct Y as [y ->]. cbn [bind]. destruct (IH Hho') with (l := l) as [ys ->].
  - intros p Hp. apply Hhs. right; exact Hp.
  - intros r' Hr'. apply Hl. right; exact Hr'.
  - eexists; reflexivity.
Qed.

(** Quantities cannot be passed by keyword, and without a handler nothing works. *)
Theorem C72_keywords_refuted : forall E D fuel base handler args kwargs k q,
  In (k, PVQ q) kwargs -> forall rs : list (pv R), quantitized fuel E D base handler args kwargs <> Ok rs.
Proof.
  intros E D fuel base handler args kwargs k q Hin rs. unfold quantitized.
  destruct (handler args kwargs) as [h|e]; [|discriminate]. cbn [bind].
  destruct (strip_args fuel E D args); [|discriminate]. cbn [bind].
  rewrite (strip_kwargs_quantity kwargs k q Hin). discriminate.
Qed.
Theorem C72_keywords_error : forall E D fuel base handler args kwargs k q h a,
  In (k, PVQ q) kwargs -> handler args kwargs = Ok h -> strip_args fuel E D args = Ok a ->
  quantitized fuel E D base handler args kwargs = @Err (list (pv R)) AttributeError.
Proof.
  intros E D fuel base handler args kwargs k q h a Hin Hh Ha. unfold quantitized. rewrite Hh, Ha. cbn [bind].
  now rewrite (strip_kwargs_quantity kwargs k q Hin).
Qed.
Theorem C72_default_handler_refuted : forall E D fuel base args kwargs (rs : list (pv R)),
  quantitized fuel E D base (@default_handler R) args kwargs <> Ok rs.
Proof.
  intros E D fuel base args kwargs rs. unfold quantitized, default_handler. cbn [bind].
  destruct (strip_args fuel E D args) as [a|e]; [|discriminate]. cbn [bind].
  destruct (strip_kwargs kwargs) as [kw|e]; [|discriminate]. cbn [bind].
  destruct (base a kw) as [[r|]|e]; discriminate.
Qed.
(** A function that doubles its argument, declared to return km/h. *)
Definition ex_double (args : list (pv Qc)) (kw : list (string * pv Qc)) : res (bres Qc) :=
  match args with
  | PVA a :: _ => Ok (BSeq [PVA (amap (fun x => x + x)%Qc a)])
  | _ => Err TypeError
  end.
Example C72_example :
  quantitized 2 exE exD ex_double (fun _ _ => Ok (HSeq [PVQ (Qty (scalar (zq 1)) d_kmh)]))
              [PVQ (Qty (scalar (zq 36)) d_kmh)] [] = Ok [PVQ (Qty (scalar (zq 72)) d_kmh)] /\
  quantitized 2 exE exD ex_double (fun _ _ => Ok (HSeq [PVQ (Qty (scalar (zq 1)) d_kmh)]))
              [PVQ (Qty (scalar (zq 10)) d_ms)] [] = Ok [PVQ (Qty (scalar (zq 72)) d_kmh)] /\
  quantitized 2 exE exD ex_double (@default_handler Qc) [PVQ (Qty (scalar (zq 10)) d_ms)] [] = Err TypeError.
Proof. split; [|split]; vm_compute; reflexivity. Qed.

Print Assumptions C71_transparent.
Print Assumptions C71_once.
Print Assumptions C71_first_result.
Print Assumptions C71_owned.
Print Assumptions C71_equal_arguments_refuted.
Print Assumptions C72_what_happens.
Print Assumptions C72_units_do_not_matter.
Print Assumptions C72_same_outcome.
Print Assumptions C72_defined.
Print Assumptions C72_keywords_refuted.
Print Assumptions C72_keywords_error.
Print Assumptions C72_default_handler_refuted.
