(** * Lanes: reductions and scans along an axis, element by element.

    [areduce] and [ascan] (Arr.v) are how the model writes NumPy's reductions; here
    they are related to the elements of the array, so that no theorem about [sum],
    [max], ... depends on reading their definitions. *)
From Coq Require Import Lia.
From Verif Require Import Py Arr ArrFacts.

Set Implicit Arguments.

(** Position of a multi-index in row-major order. *)
Fixpoint ravel (s idx : list nat) : nat :=
  match s, idx with
  | _ :: s', i :: idx' => i * prodn s' + ravel s' idx'
  | _, _ => 0
  end.

Lemma skipn_skipn' {A} : forall j k (l : list A), skipn k (skipn j l) = skipn (j + k) l.
Proof. induction j as [|j IH]; intros k [|x l]; cbn; auto. now rewrite skipn_nil. Qed.
Lemma nth_error_chunks {A} k : forall n (l : list A) i, i < n -> n * k <= length l ->
  nth_error (chunks n k l) i = Some (firstn k (skipn (i * k) l)).
Proof.
  induction n as [|n IH]; intros l i Hi HL; [lia|]. cbn [chunks]. destruct i as [|i]; cbn [nth_error].
  - reflexivity.
  - rewrite IH; [|lia|rewrite skipn_length; lia]. do 2 f_equal. rewrite skipn_skipn'. try (f_equal; lia).
Qed.
Lemma nth_error_skipn {A} : forall k (l : list A) i, nth_error (skipn k l) i = nth_error l (k + i).
Proof. induction k as [|k IH]; intros [|x l] i; cbn; auto. now destruct i. Qed.
Lemma nth_error_firstn {A} : forall k (l : list A) i, i < k -> nth_error (firstn k l) i = nth_error l i.
Proof. induction k as [|k IH]; intros [|x l] [|i] H; cbn; auto; try lia. apply IH. lia. Qed.

Lemma ravel_lt s idx : in_range s idx -> ravel s idx < prodn s.
Proof.
  induction 1 as [|i n idx s Hi HR IH]; cbn; [lia|]. nia.
Qed.
Lemma at_idx_ravel {A} : forall s (l : list A) idx, length l = prodn s -> in_range s idx ->
  at_idx s l idx = nth_error l (ravel s idx).
Proof.
  induction s as [|n s IH]; intros l idx HL HR; inversion HR as [|i n' idx' s' Hi HR']; subst; cbn [at_idx ravel].
  - now destruct l.
  - assert (X : Nat.ltb i n = true) by (now apply Nat.ltb_lt). rewrite X. cbn [prodn] in HL.
    rewrite nth_error_chunks by lia.
    assert (L : length (firstn (prodn s) (skipn (i * prodn s) l)) = prodn s).
    { rewrite firstn_length, skipn_length, HL. nia. }
    rewrite IH by auto. rewrite nth_error_firstn by (now apply ravel_lt). now rewrite nth_error_skipn.
Qed.
Lemma in_range_length s idx : in_range s idx -> length idx = length s.
Proof. induction 1; cbn; auto. Qed.
Lemma ravel_app : forall s t i j, length i = length s -> ravel (s ++ t) (i ++ j) = ravel s i * prodn t + ravel t j.
Proof.
  induction s as [|n s IH]; intros t [|x i] j H; try discriminate; cbn [app ravel].
  - lia.
  - injection H as H. rewrite IH by auto. rewrite prodn_app. ring.
Qed.
Lemma in_range_app s t idx : in_range (s ++ t) idx ->
  in_range s (firstn (length s) idx) /\ in_range t (skipn (length s) idx).
Proof.
  intros H. apply Forall2_app_inv_r in H. destruct H as (i & j & H1 & H2 & ->).
  pose proof (in_range_length H1) as L. rewrite <- L.
  rewrite firstn_app, firstn_all, Nat.sub_diag, app_nil_r.
  rewrite skipn_app, skipn_all, Nat.sub_diag. cbn. auto.
Qed.
Lemma in_range_app_intro s t i j : in_range s i -> in_range t j -> in_range (s ++ t) (i ++ j).
Proof. apply Forall2_app. Qed.

(** Rows and columns. *)
Lemma nth_error_columns {A} k (rows : list (list A)) j c :
  Forall (fun r => length r = k) rows -> nth_error (columns k rows) j = Some c ->
  length c = length rows /\ forall i row, nth_error rows i = Some row -> nth_error c i = nth_error row j.
Proof.
  intros F. revert j c. induction F as [|r rows Hr F IH]; intros j c H.
  - cbn in H. apply nth_error_In, repeat_spec in H. subst. split; auto. intros [|i] row; discriminate.
  - cbn in H. fold (columns k rows) in H.
    assert (Z : forall (r : list A) cs j c, nth_error (zip_cons r cs) j = Some c ->
       exists x c0, nth_error r j = Some x /\ nth_error cs j = Some c0 /\ c = x :: c0).
    { clear. induction r as [|x r IH]; intros [|c0 cs] [|j] c H; cbn in *; try discriminate.
      - injection H as <-. eauto.
      - now apply IH. }
    apply Z in H. destruct H as (x & c0 & H1 & H2 & ->). destruct (IH _ _ H2) as [L N]. split; [cbn; congruence|].
    intros [|i] row Hrow; cbn in *.
    + injection Hrow as <-. now rewrite H1.
    + now apply N.
Qed.
Lemma nth_error_flat_map {A B} (g : A -> list B) k : forall l b j x,
  (forall y, In y l -> length (g y) = k) -> nth_error l b = Some x -> j < k ->
  nth_error (flat_map g l) (b * k + j) = nth_error (g x) j.
Proof.
  induction l as [|y l IH]; intros b j x HL Hb Hj; [destruct b; discriminate|]. cbn [flat_map].
  destruct b as [|b]; cbn in Hb.
  - injection Hb as ->. cbn [Nat.mul Nat.add]. rewrite nth_error_app1; auto. rewrite HL; [auto|now left].
  - rewrite nth_error_app2; rewrite (HL y) by (now left); [|lia].
    replace (S b * k + j - k) with (b * k + j) by lia. apply IH; auto. intros z Hz. apply HL. now right.
Qed.

(** The index with [i] put in at position [ax]. *)
Definition insert_at (ax i : nat) (idx : list nat) : list nat := firstn ax idx ++ i :: skipn ax idx.

(** [lane] is the sequence of elements of [a] along axis [ax] at [idx]. *)
Definition is_lane {A} (a : arr A) (ax : nat) (idx : list nat) (lane : list A) : Prop :=
  nth_error (shp a) ax = Some (length lane) /\
  forall i, i < length lane -> nth_error lane i = aget a (insert_at ax i idx).

Section Block.
  Context {A : Type} (a : arr A) (W : awf a) (pre post : list nat) (n : nat) (Hs : shp a = pre ++ n :: post).

  Lemma block_total : length (dat a) = prodn pre * (n * prodn post).
  Proof. unfold awf in W. rewrite W, Hs, prodn_app. cbn. lia. Qed.
  Lemma block_len b : In b (chunks (prodn pre) (n * prodn post) (dat a)) -> length b = n * prodn post.
  Proof.
    pose proof (@chunks_Forall_length _ (prodn pre) (n * prodn post) (dat a)) as F.
    rewrite block_total in F. specialize (F ltac:(lia)). rewrite Forall_forall in F. auto.
  Qed.
  (** The lane at an outer index. *)
  Lemma block_lane ipre ipost : in_range pre ipre -> in_range post ipost ->
    exists b lane, nth_error (chunks (prodn pre) (n * prodn post) (dat a)) (ravel pre ipre) = Some b /\
      nth_error (block_lanes n (prodn post) b) (ravel post ipost) = Some lane /\ length lane = n /\
      forall i, i < n -> nth_error lane i = aget a (ipre ++ i :: ipost).
  Proof.
    intros H1 H2. pose proof (ravel_lt H1) as P1. pose proof (ravel_lt H2) as P2. pose proof block_total as T.
    rewrite nth_error_chunks by lia. eexists.
    set (b := firstn (n * prodn post) (skipn (ravel pre ipre * (n * prodn post)) (dat a))).
    assert (Lb : length b = n * prodn post).
    { unfold b. rewrite firstn_length, skipn_length, T. nia. }
    assert (FL : Forall (fun r : list A => length r = prodn post) (chunks n (prodn post) b)) by (apply chunks_Forall_length; lia).
    destruct (@block_lanes_len _ n (prodn post) b ltac:(lia)) as [L1 L2].
    destruct (nth_error (block_lanes n (prodn post) b) (ravel post ipost)) as [lane|] eqn:EL.
    2:{ apply nth_error_None in EL. lia. }
    exists lane. split; [reflexivity|]. split; [exact EL|]. unfold block_lanes in EL.
    destruct (nth_error_columns _ FL EL) as [LL N]. rewrite chunks_length in LL. split; [exact LL|].
    intros i Hi. rewrite (N i (firstn (prodn post) (skipn (i * prodn post) b))) by (apply nth_error_chunks; lia).
    rewrite nth_error_firstn by auto. rewrite nth_error_skipn. unfold b. rewrite nth_error_firstn by nia.
    rewrite nth_error_skipn. unfold aget. rewrite at_idx_ravel.
    - rewrite Hs, ravel_app by (now apply in_range_length). f_equal; cbn; try lia.
    - exact W.
    - rewrite Hs. apply in_range_app_intro; auto. constructor; auto.
  Qed.
End Block.
Arguments block_lane {A a} W pre post n Hs ipre ipost.
Arguments block_len {A a} W pre post n Hs b.

Theorem areduce_get {A B} (f : list A -> B) ax a r idx :
  awf a -> areduce f (Some ax) a = Ok r -> in_range (shp r) idx ->
  exists lane, is_lane a ax idx lane /\ aget r idx = Some (f lane).
Proof.
  intros W H HR. cbn [areduce] in H. destruct (split_axis (shp a) ax) as [[[pre n] post]|] eqn:ES; [|discriminate].
  apply split_axis_spec in ES. destruct ES as [Hs Lp]. injection H as <-. cbn [shp] in HR.
  destruct (in_range_app _ _ HR) as [R1 R2]. rewrite Lp in R1, R2.
  destruct (block_lane W _ _ _ Hs _ _ R1 R2) as (b & lane & Hb & Hl & Ll & Hn).
  exists lane. split.
  - split.
    + rewrite Hs, nth_error_app2 by lia. replace (ax - length pre) with 0 by lia. now rewrite Ll.
    + intros i Hi. unfold insert_at. apply Hn. now rewrite <- Ll.
  - unfold aget; cbn [shp dat]. rewrite at_idx_ravel; auto.
    2:{ rewrite (@flat_map_const_length _ _ _ _ (prodn post)).
        - rewrite chunks_length. now rewrite prodn_app.
        - apply Forall_forall. intros b' Hb'. rewrite map_length. apply block_lanes_len. rewrite (block_len W _ _ _ Hs _ Hb'). lia. }
    rewrite <- (firstn_skipn ax idx) at 1. rewrite ravel_app by (rewrite (in_range_length R1); reflexivity).
    rewrite (@nth_error_flat_map _ _ _ (prodn post) _ _ _ b); auto.
    + rewrite nth_error_map, Hl. reflexivity.
    + intros b' Hb'. rewrite map_length. apply block_lanes_len. rewrite (block_len W _ _ _ Hs _ Hb'). lia.
    + now apply ravel_lt.
Qed.
Theorem ascan_get {A B} (f : list A -> list B) ax a r idx :
  awf a -> (forall l, length (f l) = length l) -> ascan f (Some ax) a = Ok r -> in_range (shp r) idx ->
  shp r = shp a /\
  exists lane i, is_lane a ax (firstn ax idx ++ skipn (S ax) idx) lane /\ nth_error idx ax = Some i /\
    aget r idx = nth_error (f lane) i.
Proof.
  intros W Hf H HR. cbn [ascan] in H. destruct (split_axis (shp a) ax) as [[[pre n] post]|] eqn:ES; [|discriminate].
  apply split_axis_spec in ES. destruct ES as [Hs Lp]. injection H as <-. cbn [shp] in *. split; auto.
  rewrite Hs in HR. destruct (in_range_app _ _ HR) as [R1 R2]. rewrite Lp in R1, R2.
  pose proof (in_range_length R1) as LR1.
  inversion R2 as [|i n' ipost post' Hi R3 E1 E2]; subst n' post'.
  destruct (block_lane W _ _ _ Hs _ _ R1 R3) as (b & lane & Hb & Hl & Ll & Hn).
  assert (Sk : skipn (S ax) idx = ipost).
  { replace (S ax) with (ax + 1) by lia. rewrite <- skipn_skipn', <- E1. reflexivity. }
  assert (Fl : length (firstn ax idx) = ax) by (rewrite LR1; exact Lp).
  exists lane, i. split; [|split].
  - split.
    + rewrite Hs, nth_error_app2 by lia. replace (ax - length pre) with 0 by lia. now rewrite Ll.
    + intros j Hj. unfold insert_at. rewrite Sk.
      rewrite firstn_app, firstn_firstn, Nat.min_id, Fl, Nat.sub_diag, app_nil_r.
      rewrite skipn_app, Fl, Nat.sub_diag. rewrite skipn_all2 by lia. cbn [app skipn]. apply Hn. lia.
  - rewrite <- (firstn_skipn ax idx), <- E1. rewrite nth_error_app2 by lia. rewrite Fl, Nat.sub_diag. reflexivity.
  - set (g := fun b0 => concat (columns n (map f (block_lanes n (prodn post) b0)))).
    assert (FL : forall b', In b' (chunks (prodn pre) (n * prodn post) (dat a)) ->
       Forall (fun r : list B => length r = n) (map f (block_lanes n (prodn post) b')) /\
       length (map f (block_lanes n (prodn post) b')) = prodn post).
    { intros b' Hb'. destruct (@block_lanes_len _ n (prodn post) b') as [X1 X2].
      - rewrite (block_len W _ _ _ Hs _ Hb'). lia.
      - rewrite map_length. split; auto. apply Forall_forall. intros y Hy. apply in_map_iff in Hy.
        destruct Hy as (z & <- & Hz). rewrite Hf. rewrite Forall_forall in X2. now apply X2. }
    assert (CL : forall b', In b' (chunks (prodn pre) (n * prodn post) (dat a)) ->
       length (columns n (map f (block_lanes n (prodn post) b'))) = n /\
       Forall (fun c : list B => length c = prodn post) (columns n (map f (block_lanes n (prodn post) b')))).
    { intros b' Hb'. destruct (FL b' Hb') as [X1 X2]. destruct (columns_len X1) as [Y1 Y2]. rewrite X2 in Y2. auto. }
    assert (GC : forall (cs : list (list B)) k, Forall (fun c => length c = k) cs -> length (concat cs) = length cs * k).
    { induction cs as [|c cs IH]; intros k F; cbn; auto. inversion F; subst. rewrite app_length, (IH _ H2). lia. }
    assert (GL : forall b', In b' (chunks (prodn pre) (n * prodn post) (dat a)) -> length (g b') = n * prodn post).
    { intros b' Hb'. unfold g. destruct (CL b' Hb') as [X1 X2]. rewrite (GC _ _ X2). now rewrite X1. }
    unfold aget; cbn [shp dat]. rewrite at_idx_ravel.
    + rewrite Hs. rewrite <- (firstn_skipn ax idx) at 1. rewrite ravel_app by lia. cbn [prodn].
      rewrite (@nth_error_flat_map _ _ g (n * prodn post) _ _ _ b); auto.
      * rewrite <- E1. cbn [ravel]. unfold g.
        pose proof (nth_error_In _ _ Hb) as Ib. destruct (CL b Ib) as [X1 X2]. destruct (FL b Ib) as [Y1 Y2].
        assert (CF : forall (cs : list (list B)) i j c k, Forall (fun c => length c = k) cs -> nth_error cs i = Some c -> j < k ->
             nth_error (concat cs) (i * k + j) = nth_error c j).
        { intros cs i0 j c k F Hc Hj. rewrite <- (flat_map_id cs) || rewrite <- (map_id cs), <- flat_map_concat_map.
          apply (nth_error_flat_map (fun x => x)); auto. rewrite Forall_forall in F. exact F. }
        destruct (nth_error (columns n (map f (block_lanes n (prodn post) b))) i) as [c|] eqn:Ec.
        2:{ apply nth_error_None in Ec. lia. }
        rewrite (CF _ i _ c (prodn post)); auto; [|now apply ravel_lt].
        destruct (nth_error_columns _ Y1 Ec) as [_ N]. apply N. rewrite nth_error_map, Hl. reflexivity.
      * rewrite <- E1. cbn [ravel]. pose proof (ravel_lt R3). nia.
    + rewrite (@flat_map_const_length _ _ _ _ (n * prodn post)); [|apply Forall_forall; auto]. rewrite chunks_length, Hs, prodn_app. cbn. lia.
    + rewrite Hs. exact HR.
Qed.
Theorem areduce_all {A B} (f : list A -> B) a r : areduce f None a = Ok r -> r = scalar (f (dat a)).
Proof. intros [= <-]. reflexivity. Qed.
(** Shapes. *)
Lemma areduce_shape {A B} (f : list A -> B) ax a r : areduce f (Some ax) a = Ok r ->
  exists pre n post, shp a = pre ++ n :: post /\ length pre = ax /\ shp r = pre ++ post.
Proof.
  cbn [areduce]. destruct (split_axis (shp a) ax) as [[[pre n] post]|] eqn:ES; [|discriminate].
  apply split_axis_spec in ES. intros [= <-]. destruct ES. exists pre, n, post. auto.
Qed.
Lemma areduce_ok_iff {A B} (f : list A -> B) ax a : (exists r, areduce f (Some ax) a = Ok r) <-> ax < length (shp a).
Proof.
  cbn [areduce]. unfold split_axis. destruct (skipn ax (shp a)) as [|n post] eqn:ES.
  - split; [intros [r X]; discriminate|]. intros H. assert (X := skipn_length ax (shp a)). rewrite ES in X. cbn in X. lia.
  - split; eauto. intros _. assert (X := skipn_length ax (shp a)). rewrite ES in X. cbn in X. lia.
Qed.
Lemma awf_areduce {A B} (f : list A -> B) ax a r : awf a -> areduce f ax a = Ok r -> awf r.
Proof.
  intros W. destruct ax as [ax|]; [|intros [= <-]; reflexivity]. cbn [areduce].
  destruct (split_axis (shp a) ax) as [[[pre n] post]|] eqn:ES; [|discriminate].
  apply split_axis_spec in ES. destruct ES as [Hs Lp]. intros [= <-]. unfold awf; cbn [shp dat].
  rewrite (@flat_map_const_length _ _ _ _ (prodn post)).
  - rewrite chunks_length. now rewrite prodn_app.
  - apply Forall_forall. intros b' Hb'. rewrite map_length. apply block_lanes_len. rewrite (block_len W _ _ _ Hs _ Hb'). lia.
Qed.
