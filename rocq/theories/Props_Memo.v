(** * Property C130: [memoize] used by several threads. *)
From Coq Require Import Arith Lia.
From Verif Require Import Py Num Dim Arr Units Quant Decor Sched.

Set Implicit Arguments.

Section Threads.
  (** As in Decor.v: keys, Python's equality of keys, hashability, and the function. *)
  Variables K V : Type.
  Variable same : K -> K -> bool.
  Variable hashable : K -> bool.
  Variable f : nat -> K -> res V.
  Notation st := (mstate K V).

  (** [cache[key] = v] of a dict: the entry of an equal key is overwritten. *)
  (** decorators.py:15. *)
  Fixpoint put (c : list (K * nat)) (k : K) (i : nat) : list (K * nat) :=
    match c with
    | [] => [(k, i)]
    | (k', j) :: c' => if same k' k then (k', i) :: c' else (k', j) :: put c' k i
    end.
  (** [cache[key].copy()] once the object is known: another access. *)
  (** decorators.py:16. *)
  Definition copy_c (i : nat) : code st (res nat) :=
    Do (fun s => fst (copy_of s i)) (fun s => Ret _ (snd (copy_of s i))).
  (** [cache[key]]: the dict is read again. *)
  (** decorators.py:16. *)
  Definition read_c (k : K) : code st (res nat) :=
    rd (fun s => match cached same (cache s) k with Some i => copy_c i | None => Ret _ (Err KeyError) end).
  (** decorators.py:15: the assignment. *)
  Definition store_c (k : K) (i : nat) : code st (res nat) :=
    Do (fun s => MState (mem s) (put (cache s) k i) (invoked s)) (fun _ => read_c k).
  (** [f( *args, **kwargs)], here in one step: it makes a new object or raises. *)
  (** decorators.py:15. *)
  Definition invoke_c (k : K) : code st (res nat) :=
    Do (fun s => match f (length (invoked s)) k with
                 | Ok v => MState (mem s ++ [v]) (cache s) (invoked s ++ [k])
                 | Err _ => MState (mem s) (cache s) (invoked s ++ [k])
                 end)
       (fun s => match f (length (invoked s)) k with Ok _ => store_c k (length (mem s)) | Err e => Ret _ (Err e) end).
  (** [if key not in cache]; hashing the key comes first. *)
  (** decorators.py:12-16. *)
  Definition memo_c (k : K) : code st (res nat) :=
    rd (fun s => if negb (hashable k) then Ret _ (Err TypeError)
                 else match cached same (cache s) k with Some _ => read_c k | None => invoke_c k end).

  (** Specification-level: the calls started so far, finished or not. *)
  Definition calls := list (K * code st (res nat)).
  (** Specification-level: calls start at any time, any unfinished call makes its next access,
      and the holder of a returned object changes it. *)
  Inductive mmove : st * calls -> st * calls -> Prop :=
  | mm_start s l k : mmove (s, l) (s, l ++ [(k, memo_c k)])
  | mm_access s l1 l2 k g h : mmove (s, l1 ++ (k, Do g h) :: l2) (g s, l1 ++ (k, h s) :: l2)
  | mm_change s l k i v : In (k, Ret _ (Ok i)) l -> mmove (s, l) (MState (set_nth (mem s) i v) (cache s) (invoked s), l).
  (** Specification-level. *)
  Inductive mreach : st * calls -> Prop :=
  | mr_init : mreach (mempty K V, [])
  | mr_move a b : mreach a -> mmove a b -> mreach b.
  (** Specification-level: the objects that calls have returned. *)
  Definition handed (l : calls) : list nat := flat_map (fun kc => match snd kc with Ret _ (Ok i) => [i] | _ => [] end) l.
End Threads.

Lemma do_inj S0 X (a a' : S0 -> S0) (h h' : S0 -> code S0 X) : Do a h = Do a' h' -> a = a' /\ h = h'.
Proof. intros [= -> ->]. auto. Qed.

Section Facts.
  Variables K V : Type.
  Variable same : K -> K -> bool.
  Variable hashable : K -> bool.
  Variable g : K -> res V.
  Hypothesis same_refl : forall k, same k k = true.
  Hypothesis respects : forall k k', same k k' = true -> g k = g k'.
  Notation st := (mstate K V).
  Notation f := (fun _ : nat => g).

  (** Specification-level, used in proofs: an object with the result of [k] that nobody outside holds. *)
  Definition holds (s : st) (out : list nat) (k : K) (i : nat) : Prop :=
    ~ In i out /\ exists v, g k = Ok v /\ nth_error (mem s) i = Some v.
  (** Specification-level, used in proofs: what is known of an unfinished call (of a finished one, nothing). *)
  Inductive stage (s : st) (out : list nat) (k : K) : code st (res nat) -> Prop :=
  | sg_new : stage s out k (memo_c same hashable f k)
  | sg_invoke : hashable k = true -> stage s out k (invoke_c same f k)
  | sg_store i : hashable k = true -> holds s out k i -> stage s out k (store_c V same k i)
  | sg_read : hashable k = true -> cached same (cache s) k <> None -> stage s out k (read_c V same k)
  | sg_copy i : hashable k = true -> holds s out k i -> stage s out k (copy_c K V i)
  | sg_done r : stage s out k (Ret _ r).
  (** Specification-level, used in proofs. *)
  Definition inv (sl : st * calls K V) : Prop :=
    let '(s, l) := sl in
    let out := handed l in
    NoDup out /\ (forall i, In i out -> i < length (mem s)) /\
    (forall k i, In (k, i) (cache s) -> holds s out k i) /\
    (forall k c, In (k, c) l -> stage s out k c).

  Lemma cached_in c k i : cached same c k = Some i -> exists k', In (k', i) c /\ same k' k = true.
  Proof.
    induction c as [|[k' j] c IH]; cbn; [discriminate|]. destruct (same k' k) eqn:Ek.
    - intros [= ->]. exists k'. auto.
    - intros H. destruct (IH H) as (k2 & I2 & S2). exists k2. auto.
  Qed.
  Lemma put_in c k i k2 j : In (k2, j) (put same c k i) -> In (k2, j) c \/ j = i /\ (k2 = k \/ same k2 k = true).
  Proof.
    induction c as [|[k' j'] c IH]; cbn.
    - intros [[= <- <-]|[]]. auto.
    - destruct (same k' k) eqn:Ek; cbn.
      + intros [[= <- <-]|H]; auto.
      + intros [[= <- <-]|H]; auto. destruct (IH H) as [?|?]; auto.
  Qed.
  Lemma put_cached c k i : cached same (put same c k i) k <> None.
  Proof.
    induction c as [|[k' j'] c IH]; cbn; [rewrite same_refl; discriminate|]. destruct (same k' k) eqn:Ek; cbn; rewrite Ek; [discriminate|exact IH].
  Qed.
  Lemma put_keeps c k i k2 : cached same c k2 <> None -> cached same (put same c k i) k2 <> None.
  Proof.
    induction c as [|[k' j'] c IH]; cbn; [congruence|]. destruct (same k' k) eqn:Ek; cbn; destruct (same k' k2); try discriminate; auto.
  Qed.

  (** What every access does to the rest: memory only grows, no key is forgotten. *)
  Lemma stage_mono s s' out out' k c :
    (forall i v, ~ In i out -> nth_error (mem s) i = Some v -> ~ In i out' /\ nth_error (mem s') i = Some v) ->
    (forall k', cached same (cache s) k' <> None -> cached same (cache s') k' <> None) ->
    stage s out k c -> stage s' out' k c.
  Proof.
    intros Hm Hc H. assert (HH : forall i, holds s out k i -> holds s' out' k i).
    { intros i (A & v & B & C). destruct (Hm i v A C) as [A' C']. split; [exact A'|]. exists v. auto. }
    destruct H; [apply sg_new|now apply sg_invoke|apply sg_store; auto|apply sg_read; auto|apply sg_copy; auto|apply sg_done].
  Qed.
  Lemma handed_app (l1 l2 : calls K V) : handed (l1 ++ l2) = handed l1 ++ handed l2.
  Proof. unfold handed. apply flat_map_app. Qed.
  Lemma handed_mid (l1 l2 : calls K V) (k : K) (c : code st (res nat)) : handed (l1 ++ (k, c) :: l2) = handed l1 ++ match c with Ret _ (Ok i) => [i] | _ => [] end ++ handed l2.
  Proof. rewrite handed_app. reflexivity. Qed.
  Lemma in_mid (l1 l2 : calls K V) (k k2 : K) (c c2 : code st (res nat)) : In (k2, c2) (l1 ++ (k, c) :: l2) -> (k2, c2) = (k, c) \/ forall c' : code st (res nat), In (k2, c2) (l1 ++ (k, c') :: l2).
  Proof. intros H. apply in_app_or in H. destruct H as [H|[H|H]]; [right|left; congruence|right]; intros c'; apply in_or_app; cbn; auto. Qed.

  (** One access that hands out nothing. *)
  Lemma inv_quiet (s s' : st) (l1 l2 : calls K V) (k : K) (c c' : code st (res nat)) : inv (s, l1 ++ (k, c) :: l2) ->
    match c with Ret _ _ => False | _ => True end -> match c' with Ret _ (Ok _) => False | _ => True end ->
    (forall i v, nth_error (mem s) i = Some v -> nth_error (mem s') i = Some v) ->
    (forall k', cached same (cache s) k' <> None -> cached same (cache s') k' <> None) ->
    (forall k' i, In (k', i) (cache s') -> In (k', i) (cache s) \/ holds s' (handed (l1 ++ (k, c) :: l2)) k' i) ->
    stage s' (handed (l1 ++ (k, c) :: l2)) k c' ->
    inv (s', l1 ++ (k, c') :: l2).
  Proof.
    intros (I1 & I2 & I3 & I4) Hc Hc' Hm Hk Hcache Hst.
    assert (EH : handed (l1 ++ (k, c') :: l2) = handed (l1 ++ (k, c) :: l2)).
    { rewrite !handed_mid. f_equal. destruct c as [r|]; [destruct Hc|]. destruct c' as [[i|e]|]; [destruct Hc'|reflexivity|reflexivity]. }
    assert (L : length (mem s) <= length (mem s')).
    { destruct (le_lt_dec (length (mem s)) (length (mem s'))) as [X|X]; [exact X|]. exfalso.
      destruct (nth_error (mem s) (length (mem s'))) as [v|] eqn:E; [|apply nth_error_None in E; lia].
      apply Hm in E. assert (Y : nth_error (mem s') (length (mem s')) <> None) by congruence. apply nth_error_Some in Y. lia. }
    unfold inv. rewrite EH. split; [exact I1|]. split; [intros i Hi; specialize (I2 i Hi); lia|]. split.
    - intros k' i Hi. destruct (Hcache k' i Hi) as [X|X]; [|exact X]. destruct (I3 k' i X) as (A & v & B & C). split; [exact A|]. exists v. auto.
    - intros k2 c2 H2. apply in_mid in H2. destruct H2 as [[= -> ->]|H2]; [exact Hst|]. specialize (I4 k2 c2 (H2 c)).
      revert I4. apply stage_mono; auto.
  Qed.

  Lemma inv_step a b : inv a -> mmove same hashable f a b -> inv b.
  Proof.
    intros I H. destruct H as [s l k|s l1 l2 k a h|s l k i v Hin].
    - destruct I as (I1 & I2 & I3 & I4). assert (EH : handed (l ++ [(k, memo_c same hashable f k)]) = handed l) by (rewrite handed_app; cbn; now rewrite app_nil_r).
      unfold inv. rewrite EH. split; [exact I1|]. split; [exact I2|]. split; [exact I3|].
      intros k2 c2 H2. apply in_app_or in H2. destruct H2 as [H2|[[= <- <-]|[]]]; [auto|apply sg_new].
    - pose proof I as (I1 & I2 & I3 & I4). assert (St : stage s (handed (l1 ++ (k, Do a h) :: l2)) k (Do a h)) by (apply I4, in_or_app; cbn; auto).
      set (out := handed (l1 ++ (k, Do a h) :: l2)) in St. remember (Do a h) as c0 eqn:Ec in St.
      destruct St as [|Hh|i Hh Hi|Hh Hr|i Hh Hi|r].
      + subst out; rewrite <- Ec in *; apply do_inj in Ec; destruct Ec as [<- <-]. cbv beta. apply (@inv_quiet s s l1 l2 k (memo_c same hashable f k)); cbn; auto.
        * destruct (hashable k); cbn [negb]; [|exact Logic.I]. destruct (cached same (cache s) k); exact Logic.I.
        * destruct (hashable k) eqn:Hh; cbn [negb]; [|apply sg_done].
          destruct (cached same (cache s) k) eqn:Ek; [apply sg_read; [exact Hh|congruence]|now apply sg_invoke].
      + subst out; rewrite <- Ec in *; apply do_inj in Ec; destruct Ec as [<- <-]. cbv beta. destruct (g k) as [v|e] eqn:Eg.
        * apply (@inv_quiet s (MState (mem s ++ [v]) (cache s) (invoked s ++ [k])) l1 l2 k (invoke_c same f k)); cbn [mem cache]; auto; try exact I; try exact Logic.I.
          -- intros i w Hw. rewrite nth_error_app1; [exact Hw|]. apply nth_error_Some. congruence.
          -- apply sg_store; [exact Hh|]. split; [intros X; specialize (I2 _ X); lia|]. exists v. split; [exact Eg|]. cbn [mem].
             rewrite nth_error_app2, Nat.sub_diag by auto. reflexivity.
        * apply (@inv_quiet s (MState (mem s) (cache s) (invoked s ++ [k])) l1 l2 k (invoke_c same f k)); cbn [mem cache]; auto; try exact I; try exact Logic.I. apply sg_done.
      + subst out; rewrite <- Ec in *; apply do_inj in Ec; destruct Ec as [<- <-]. cbv beta. apply (@inv_quiet s (MState (mem s) (put same (cache s) k i) (invoked s)) l1 l2 k (store_c V same k i)); cbn [mem cache]; auto; try exact I; try exact Logic.I.
        * intros k'. apply put_keeps.
        * intros k' j Hj. apply put_in in Hj. destruct Hj as [Hj|[-> Hk]]; [auto|]. right. destruct Hi as (A & v & B & C). split; [exact A|]. exists v. split; [|exact C].
          destruct Hk as [->|Hk]; [exact B|]. rewrite (respects Hk). exact B.
        * apply sg_read; [exact Hh|]. cbn [cache]. apply put_cached.
      + subst out; rewrite <- Ec in *; apply do_inj in Ec; destruct Ec as [<- <-]. cbv beta. destruct (cached same (cache s) k) as [i|] eqn:Ek; [|congruence].
        apply (@inv_quiet s s l1 l2 k (read_c V same k)); auto; try exact I; try exact Logic.I. apply sg_copy; [exact Hh|].
        destruct (cached_in _ _ Ek) as (k' & Hin & Hs). destruct (I3 k' i Hin) as (A & v & B & C). split; [exact A|]. exists v. split; [|exact C]. now rewrite <- (respects Hs).
      + subst out; rewrite <- Ec in *; apply do_inj in Ec; destruct Ec as [<- <-]. cbv beta. destruct Hi as (A & v & B & C). unfold copy_of. rewrite C. cbn [fst snd].
        rewrite handed_mid in I1, I2, I3, I4, A. cbn [copy_c app] in I1, I2, I3, I4, A.
        unfold inv. rewrite handed_mid. cbn [app mem cache].
        assert (AD : forall x, In x (handed l1 ++ length (mem s) :: handed l2) <-> x = length (mem s) \/ In x (handed l1 ++ handed l2)).
        { intros x. rewrite !in_app_iff. cbn [In]. intuition congruence. }
        assert (Hm : forall i0 v0, ~ In i0 (handed l1 ++ handed l2) -> nth_error (mem s) i0 = Some v0 ->
                     ~ In i0 (handed l1 ++ length (mem s) :: handed l2) /\ nth_error (mem s ++ [v]) i0 = Some v0).
        { intros i0 v0 N0 E0. assert (L0 : i0 < length (mem s)) by (apply nth_error_Some; congruence). rewrite nth_error_app1 by exact L0. split; [|exact E0].
          rewrite AD. intros [->|X]; [lia|contradiction]. }
        split; [|split; [|split]].
        * apply (proj2 (NoDup_Add (Add_app (length (mem s)) (handed l1) (handed l2)))). split; [exact I1|]. intros X. specialize (I2 _ X). lia.
        * intros x Hx. apply AD in Hx. rewrite app_length. cbn. destruct Hx as [->|Hx]; [lia|]. specialize (I2 _ Hx). lia.
        * intros k' j Hj. destruct (I3 k' j Hj) as (A' & w & B' & C'). destruct (Hm j w A' C') as [A2 C2]. split; [exact A2|]. exists w. auto.
        * intros k2 c2 H2. apply in_mid in H2. destruct H2 as [[= -> ->]|H2]; [apply sg_done|]. specialize (I4 k2 c2 (H2 (copy_c K V i))). revert I4. apply stage_mono; auto.
      + discriminate.
    - destruct I as (I1 & I2 & I3 & I4). assert (Hi : In i (handed l)) by (unfold handed; apply in_flat_map; exists (k, Ret _ (Ok i)); cbn; auto).
      assert (Hm : forall j w, ~ In j (handed l) -> nth_error (mem s) j = Some w -> nth_error (set_nth (mem s) i v) j = Some w).
      { intros j w Nj Ej. rewrite <- Ej. assert (Hne : i <> j) by congruence. clear - Hne. revert i j Hne. induction (mem s) as [|x m IH]; intros [|i] [|j] Hne; cbn; auto; try congruence. }
      unfold inv. cbn [mem cache]. split; [exact I1|]. split; [|split].
      + intros j Hj. specialize (I2 j Hj). replace (length (set_nth (mem s) i v)) with (length (mem s)); [exact I2|].
        clear. revert i. induction (mem s) as [|x m IH]; intros [|i]; cbn; auto.
      + intros k' j Hj. destruct (I3 k' j Hj) as (A & w & B & C). split; [exact A|]. exists w. auto.
      + intros k2 c2 H2. specialize (I4 k2 c2 H2). revert I4. apply stage_mono; auto.
  Qed.
  Lemma inv_reach a : mreach same hashable f a -> inv a.
  Proof.
    induction 1 as [|a b Ha IH Hab]; [|exact (inv_step IH Hab)]. split; [constructor|]. split; [intros i []|]. split; [intros k i []|intros k c []].
  Qed.
End Facts.

(** However many threads call memoized (pure) functions and however their accesses interleave:
    at the access with which a call returns, it returns a new object with what the function
    returns for its arguments, or raises what the function raises. *)
Theorem C130_transparent : forall K V same hashable (g : K -> res V) s l1 l2 k a h r,
  (forall k, same k k = true) -> (forall k k', same k k' = true -> g k = g k') ->
  mreach same hashable (fun _ => g) (s, l1 ++ (k, Do a h) :: l2) -> h s = Ret _ r ->
  if hashable k then
    match g k with
    | Ok v => exists i, r = Ok i /\ nth_error (mem (a s)) i = Some v /\ ~ In i (handed (l1 ++ l2)) /\ forall k' j, In (k', j) (cache (a s)) -> j <> i
    | Err e => r = Err e
    end
  else r = Err TypeError.
Proof.
  intros K V same hashable g s l1 l2 k a h r HR HG HS Hr. pose proof (inv_reach HR HG HS) as (I1 & I2 & I3 & I4).
  assert (St : stage same hashable g s (handed (l1 ++ (k, Do a h) :: l2)) k (Do a h)) by (apply I4, in_or_app; cbn; auto).
  rewrite handed_mid in *. cbn [app] in *. rewrite <- handed_app in *. remember (Do a h) as c0 eqn:Ec in St.
  destruct St as [|Hh|i Hh Hi|Hh Hc|i Hh Hi|r'].
  - try subst out; apply do_inj in Ec; destruct Ec as [<- <-]. cbv beta in Hr. destruct (hashable k); cbn [negb] in Hr; [|congruence]. destruct (cached same (cache s) k); discriminate.
  - try subst out; apply do_inj in Ec; destruct Ec as [<- <-]. cbv beta in Hr. rewrite Hh. destruct (g k) as [v|e]; [discriminate|congruence].
  - try subst out; apply do_inj in Ec; destruct Ec as [<- <-]. discriminate.
  - try subst out; apply do_inj in Ec; destruct Ec as [<- <-]. cbv beta in Hr. destruct (cached same (cache s) k) as [i|]; [discriminate|congruence].
  - try subst out; apply do_inj in Ec; destruct Ec as [<- <-]. cbv beta in Hr. rewrite Hh. destruct Hi as (A & v & B & C). rewrite B. unfold copy_of in *. rewrite C in *. cbn [fst snd mem cache] in *.
    injection Hr as <-. exists (length (mem s)). split; [reflexivity|]. split; [rewrite nth_error_app2, Nat.sub_diag by auto; reflexivity|].
    split; [intros X; specialize (I2 _ X); lia|]. intros k' j Hj ->. destruct (I3 k' _ Hj) as (_ & w & _ & X). assert (Y : nth_error (mem s) (length (mem s)) <> None) by congruence.
    apply nth_error_Some in Y. lia.
  - discriminate.
Qed.
(** No two calls return the same object, and no access of any call changes an object that a
    call has returned. *)
Theorem C130_owned : forall K V same hashable (g : K -> res V) s l,
  (forall k, same k k = true) -> (forall k k', same k k' = true -> g k = g k') ->
  mreach same hashable (fun _ => g) (s, l) ->
  NoDup (handed l) /\
  forall l1 l2 k a h i, l = l1 ++ (k, Do a h) :: l2 -> In i (handed l) -> nth_error (mem (a s)) i = nth_error (mem s) i.
Proof.
  intros K V same hashable g s l HR HG HS. pose proof (inv_reach HR HG HS) as (I1 & I2 & I3 & I4). split; [exact I1|].
  intros l1 l2 k a h i -> Hi. assert (St : stage same hashable g s (handed (l1 ++ (k, Do a h) :: l2)) k (Do a h)) by (apply I4, in_or_app; cbn; auto).
  specialize (I2 i Hi). set (out := handed (l1 ++ (k, Do a h) :: l2)) in St. remember (Do a h) as c0 eqn:Ec in St. destruct St as [|Hh|j Hh Hj|Hh Hc|j Hh Hj|r']; try (try subst out; apply do_inj in Ec; destruct Ec as [<- <-]; reflexivity).
  - try subst out; apply do_inj in Ec; destruct Ec as [<- <-]. cbv beta. destruct (g k); cbn [mem]; [|reflexivity]. now rewrite nth_error_app1.
  - try subst out; apply do_inj in Ec; destruct Ec as [<- <-]. cbv beta. unfold copy_of. destruct (nth_error (mem s) j); cbn [fst mem]; [now rewrite nth_error_app1|reflexivity].
  - discriminate.
Qed.
(** Specification-level: the call returns after at most [n] accesses, whatever other threads
    do in between. *)
Fixpoint within {S X} (n : nat) (c : code S X) : Prop :=
  match n, c with
  | _, Ret _ _ => True
  | 0, Do _ _ => False
  | S n', Do _ h => forall s, within n' (h s)
  end.
(** Every call needs at most five accesses, whatever happens in between. *)
Theorem C130_finishes : forall K V same hashable (f : nat -> K -> res V) k, within 5 (memo_c same hashable f k).
Proof.
  intros K V same hashable f k. intros s. destruct (hashable k); cbn [negb]; [|exact I].
  assert (R : forall n, within (2 + n) (read_c V same k)).
  { intros n s1. destruct (cached same (cache s1) k); [|destruct n; exact I]. intros s2. cbn. destruct n; exact I. }
  destruct (cached same (cache s) k); [exact (R 2)|]. intros s1. destruct (f (length (invoked s1)) k); [|exact I]. intros s2. exact (R 0).
Qed.
(** Without threads the function is invoked once for equal arguments (C71); with two threads
    it can be invoked twice. *)
Theorem C130_once_refuted : exists (g : nat -> res nat) s l,
  mreach Nat.eqb (fun _ => true) (fun _ => g) (s, l) /\ g 0 = Ok 7 /\ invoked s = [0; 0].
Proof.
  pose (g := fun _ : nat => @Ok nat 7). pose (m := mmove Nat.eqb (fun _ : nat => true) (fun _ => g)).
  exists g. do 2 eexists. split; [|split; [reflexivity|]].
  - pose proof (mr_init Nat.eqb (fun _ => true) (fun _ => g)) as H.
    refine (let H1 := mr_move H (mm_start _ _ _ _ _ 0) in _). cbn [app] in H1.
    refine (let H2 := mr_move H1 (mm_start _ _ _ _ _ 0) in _). cbn [app] in H2.
    refine (let H3 := mr_move H2 (mm_access _ _ _ _ [] _ _ _ _) in _).
    refine (let H4 := mr_move H3 (mm_access _ _ _ _ [(0, _)] [] _ _ _) in _).
    refine (let H5 := mr_move H4 (mm_access _ _ _ _ [] _ _ _ _) in _).
    exact (mr_move H5 (mm_access _ _ _ _ [(0, _)] [] _ _ _)).
  - reflexivity.
Qed.
(** Two threads that call for the same key at the same time: both invoke the function, the
    second entry overwrites the first, and they return two objects. *)
Example C130_example : exists s i j,
  mreach Nat.eqb (fun _ => true) (fun _ => (fun _ : nat => @Ok nat 7)) (s, [(0, Ret _ (Ok i)); (0, Ret _ (Ok j))]) /\
  i <> j /\ nth_error (mem s) i = Some 7 /\ nth_error (mem s) j = Some 7.
Proof.
  pose proof (mr_init Nat.eqb (fun _ : nat => true) (fun _ : nat => (fun _ : nat => @Ok nat 7))) as H0.
  refine (let H1 := mr_move H0 (mm_start _ _ _ _ _ 0) in _). cbn [app] in H1.
  refine (let H2 := mr_move H1 (mm_start _ _ _ _ _ 0) in _). cbn [app] in H2. clearbody H2. clear H0 H1.
  refine (let H3 := mr_move H2 (mm_access _ _ _ _ [] _ _ _ _) in _). vm_compute in H3. clearbody H3. clear H2.
  refine (let H4 := mr_move H3 (mm_access _ _ _ _ [(0, _)] [] _ _ _) in _). vm_compute in H4. clearbody H4. clear H3.
  refine (let H5 := mr_move H4 (mm_access _ _ _ _ [] _ _ _ _) in _). vm_compute in H5. clearbody H5. clear H4.
  refine (let H6 := mr_move H5 (mm_access _ _ _ _ [(0, _)] [] _ _ _) in _). vm_compute in H6. clearbody H6. clear H5.
  refine (let H7 := mr_move H6 (mm_access _ _ _ _ [] _ _ _ _) in _). vm_compute in H7. clearbody H7. clear H6.
  refine (let H8 := mr_move H7 (mm_access _ _ _ _ [(0, _)] [] _ _ _) in _). vm_compute in H8. clearbody H8. clear H7.
  refine (let H9 := mr_move H8 (mm_access _ _ _ _ [] _ _ _ _) in _). vm_compute in H9. clearbody H9. clear H8.
  refine (let H10 := mr_move H9 (mm_access _ _ _ _ [(0, _)] [] _ _ _) in _). vm_compute in H10. clearbody H10. clear H9.
  refine (let H11 := mr_move H10 (mm_access _ _ _ _ [] _ _ _ _) in _). vm_compute in H11. clearbody H11. clear H10.
  refine (let H12 := mr_move H11 (mm_access _ _ _ _ [(0, _)] [] _ _ _) in _). vm_compute in H12. clearbody H12. clear H11.
  refine (ex_intro _ _ (ex_intro _ _ (ex_intro _ _ (conj H12 _)))). repeat split; try reflexivity. discriminate.
Qed.

Print Assumptions C130_transparent.
Print Assumptions C130_owned.
Print Assumptions C130_finishes.
Print Assumptions C130_once_refuted.
