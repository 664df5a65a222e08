(** * ArrFacts: what broadcasting and reductions mean element by element.

    Specification-level facts about Arr.v, so that a reader of a theorem stated with
    [amap2] or [areduce] can check the meaning without reading their definitions. *)
From Verif Require Import Py Arr.

Lemma firstn_zip_with {A B C} (f : A -> B -> C) : forall k l l',
  firstn k (zip_with f l l') = zip_with f (firstn k l) (firstn k l').
Proof. induction k; intros [|x l] [|y l']; cbn; auto. now rewrite IHk. Qed.
Lemma skipn_zip_with {A B C} (f : A -> B -> C) : forall k l l', length l = length l' ->
  skipn k (zip_with f l l') = zip_with f (skipn k l) (skipn k l').
Proof. induction k; intros [|x l] [|y l'] H; cbn in *; auto; try discriminate. Qed.
Lemma chunks_zip_with {A B C} (f : A -> B -> C) k : forall n l l', length l = length l' ->
  chunks n k (zip_with f l l') = zip_with (zip_with f) (chunks n k l) (chunks n k l').
Proof.
  induction n as [|n IH]; intros l l' H; cbn; auto.
  rewrite firstn_zip_with, skipn_zip_with by assumption. rewrite IH; auto.
  now rewrite !skipn_length, H.
Qed.
Lemma nth_error_zip_with {A B C} (f : A -> B -> C) : forall l l' i,
  nth_error (zip_with f l l') i =
  match nth_error l i, nth_error l' i with Some x, Some y => Some (f x y) | _, _ => None end.
Proof.
  induction l as [|x l IH]; intros [|y l'] [|i]; cbn; auto. now destruct (nth_error l i).
Qed.
Lemma at_idx_zip_with {A B C} (f : A -> B -> C) : forall s l l' idx, length l = length l' ->
  at_idx s (zip_with f l l') idx =
  match at_idx s l idx, at_idx s l' idx with Some x, Some y => Some (f x y) | _, _ => None end.
Proof.
  induction s as [|n s IH]; intros l l' [|i idx] H; cbn [at_idx]; auto.
  - destruct l, l'; cbn; auto.
  - destruct (Nat.ltb i n); auto.
    rewrite chunks_zip_with, nth_error_zip_with by assumption.
    destruct (nth_error (chunks n (prodn s) l) i) as [c|] eqn:E1; auto.
    destruct (nth_error (chunks n (prodn s) l') i) as [c'|] eqn:E2.
    + apply IH. clear -H E1 E2. revert n l l' H c c' E1 E2. induction i as [|i IHi]; intros [|n] l l' H c c' E1 E2; cbn in *; try discriminate.
      * injection E1 as <-. injection E2 as <-. now rewrite !firstn_length, H.
      * eapply (IHi n (skipn (prodn s) l) (skipn (prodn s) l')); eauto. now rewrite !skipn_length, H.
    + now destruct (at_idx s c idx).
Qed.

(** Leading dimensions of length 1 are indexed by 0. *)
Lemma at_idx_pad1 {A} : forall j s (l : list A) idx, length l = prodn s ->
  at_idx (repeat 1 j ++ s) l (repeat 0 j ++ idx) = at_idx s l idx.
Proof.
  induction j as [|j IH]; intros s l idx H; cbn [repeat app at_idx]; auto.
  change (Nat.ltb 0 1) with true. cbn [chunks nth_error].
  rewrite prodn_app, prodn_repeat1, Nat.mul_1_l, firstn_all2 by lia. auto.
Qed.
Lemma bc_index_app : forall j s idx, length idx = j + length s ->
  bc_index (repeat 1 j ++ s) idx = repeat 0 j ++ bc_index s (skipn j idx).
Proof.
  induction j as [|j IH]; intros s idx H; cbn [repeat app skipn]; auto.
  destruct idx as [|i idx]; [discriminate|]. cbn [bc_index Nat.eqb]. rewrite IH; auto.
Qed.
Lemma at_idx_length {A} : forall s (l : list A) idx x, at_idx s l idx = Some x -> length idx = length s.
Proof.
  induction s as [|n s IH]; intros l [|i idx] x; cbn [at_idx]; auto; try discriminate.
  destruct (Nat.ltb i n); [|discriminate]. destruct (nth_error _ i); [|discriminate]. intros H. cbn. f_equal. eauto.
Qed.

(** The operand's index for index [idx] of the result: drop the leading indices the
    operand does not have, index 0 where the operand has length 1. *)
Definition operand_index (s idx : list nat) : list nat := bc_index s (skipn (length idx - length s) idx).

Theorem amap2_get {A B C} (f : A -> B -> C) a b r idx z :
  awf a -> awf b -> amap2 f a b = Ok r -> aget r idx = Some z ->
  exists x y, aget a (operand_index (shp a) idx) = Some x /\
              aget b (operand_index (shp b) idx) = Some y /\ z = f x y.
Proof.
  intros Ha Hb. unfold amap2. destruct (bc_shape (shp a) (shp b)) as [s|] eqn:Es; [|discriminate].
  intros [= <-]. unfold aget. cbn [shp dat]. intros Hz.
  pose proof (bc_shape_length _ _ Es) as HL.
  assert (HB := Es). unfold bc_shape in HB. rewrite <- HL in HB. apply bc_zip_bcable in HB. destruct HB as [B1 B2].
  assert (L1 : length (expand (pad (length s) (shp a)) s (dat a)) = prodn s).
  { apply expand_length; auto. rewrite prodn_pad. exact Ha. }
  assert (L2 : length (expand (pad (length s) (shp b)) s (dat b)) = prodn s).
  { apply expand_length; auto. rewrite prodn_pad. exact Hb. }
  pose proof (at_idx_length _ _ _ _ Hz) as HI.
  rewrite at_idx_zip_with in Hz by congruence.
  destruct (at_idx s (expand (pad (length s) (shp a)) s (dat a)) idx) as [x|] eqn:E1; [|discriminate].
  destruct (at_idx s (expand (pad (length s) (shp b)) s (dat b)) idx) as [y|] eqn:E2; [|discriminate].
  injection Hz as <-. exists x, y.
  assert (G : forall T (t : list nat) (l : list T) v, length l = prodn t -> length t <= length s ->
     bcable (pad (length s) t) s ->
     at_idx s (expand (pad (length s) t) s l) idx = Some v ->
     at_idx t l (operand_index t idx) = Some v).
  { intros T t l v Hl Ht Hb' Hv. pose proof (at_idx_expand l idx Hb') as X.
    rewrite prodn_pad in X. specialize (X Hl). rewrite Hv in X. specialize (X ltac:(discriminate)).
    unfold pad in X. rewrite bc_index_app in X by lia. rewrite at_idx_pad1 in X by assumption.
    unfold operand_index. rewrite HI. symmetry. exact X. }
  split; [|split; auto].
  - apply G; auto. lia.
  - apply G; auto. lia.
Qed.

(** Every index within the result's shape has an element. *)
Definition in_range (s idx : list nat) : Prop := Forall2 (fun i n => i < n) idx s.
Lemma at_idx_some {A} : forall s (l : list A) idx, length l = prodn s -> in_range s idx ->
  exists x, at_idx s l idx = Some x.
Proof.
  induction s as [|n s IH]; intros l idx HL HR; inversion HR as [|i n' idx' s' Hi HR']; subst; cbn [at_idx].
  - destruct l as [|x l]; [discriminate|]. exists x. reflexivity.
  - destruct (Nat.ltb_spec i n); [|lia].
    destruct (nth_error (chunks n (prodn s) l) i) as [c|] eqn:E.
    + apply IH; auto. pose proof (chunks_Forall_length n (prodn s) l) as F.
      cbn in HL. specialize (F ltac:(lia)). rewrite Forall_forall in F. apply F. eapply nth_error_In; eauto.
    + apply nth_error_None in E. rewrite chunks_length in E. lia.
Qed.
Theorem aget_some {A} (a : arr A) idx : awf a -> in_range (shp a) idx -> exists x, aget a idx = Some x.
Proof. intros H1 H2. apply at_idx_some; auto. Qed.
Lemma at_idx_map {A B} (f : A -> B) : forall s l idx, at_idx s (map f l) idx = option_map f (at_idx s l idx).
Proof.
  induction s as [|n s IH]; intros l [|i idx]; cbn [at_idx]; auto.
  - destruct l; auto.
  - destruct (Nat.ltb i n); auto. rewrite chunks_map, nth_error_map. destruct (nth_error _ i); cbn; auto.
Qed.
Theorem amap_get {A B} (f : A -> B) a idx : aget (amap f a) idx = option_map f (aget a idx).
Proof. apply at_idx_map. Qed.
Lemma firstn_app_exact {A} (l l' : list A) k : length l = k -> firstn k (l ++ l') = l.
Proof. intros <-. rewrite firstn_app, firstn_all, Nat.sub_diag. cbn. apply app_nil_r. Qed.
Lemma nth_error_ext' {A} : forall (l l' : list A), (forall i, nth_error l i = nth_error l' i) -> l = l'.
Proof.
  induction l as [|x l IH]; intros [|y l'] H; auto; try (specialize (H 0); discriminate H).
  pose proof (H 0) as H0. injection H0 as ->. f_equal. apply IH. intros i. exact (H (S i)).
Qed.
Lemma list_concat_ext {A} k : forall n (l l' : list A), length l = n * k -> length l' = n * k ->
  (forall i, i < n -> nth_error (chunks n k l) i = nth_error (chunks n k l') i) -> l = l'.
Proof.
  intros n l l' H1 H2 H. rewrite <- (chunks_concat n k l H1), <- (chunks_concat n k l' H2). f_equal.
  apply nth_error_ext'. intros i. destruct (Nat.lt_ge_cases i n); auto.
  rewrite !(proj2 (nth_error_None _ _)); auto; now rewrite chunks_length.
Qed.
(** Arrays of the same shape with the same elements are equal. *)
Theorem arr_ext {A} (a b : arr A) : awf a -> awf b -> shp a = shp b ->
  (forall idx, in_range (shp a) idx -> aget a idx = aget b idx) -> a = b.
Proof.
  destruct a as [s l], b as [s' l']. unfold awf, aget. cbn [shp dat]. intros H1 H2 <- H. f_equal.
  revert l l' H1 H2 H. induction s as [|n s IH]; intros l l' H1 H2 H.
  - destruct l as [|x [|? ?]]; try discriminate. destruct l' as [|y [|? ?]]; try discriminate.
    specialize (H [] ltac:(constructor)). cbn in H. congruence.
  - cbn in H1, H2. apply (list_concat_ext (prodn s) n); auto. intros i Hi.
    pose proof (chunks_Forall_length n (prodn s) l ltac:(lia)) as F1.
    pose proof (chunks_Forall_length n (prodn s) l' ltac:(lia)) as F2.
    rewrite Forall_forall in F1, F2.
    destruct (nth_error (chunks n (prodn s) l) i) as [c|] eqn:E1.
    2:{ apply nth_error_None in E1. rewrite chunks_length in E1. lia. }
    destruct (nth_error (chunks n (prodn s) l') i) as [c'|] eqn:E2.
    2:{ apply nth_error_None in E2. rewrite chunks_length in E2. lia. }
    f_equal. apply IH; [apply F1; eapply nth_error_In; eauto|apply F2; eapply nth_error_In; eauto|].
    intros idx HR. specialize (H (i :: idx)). cbn [at_idx] in H.
    destruct (Nat.ltb_spec i n); [|lia]. rewrite E1, E2 in H. apply H. now constructor.
Qed.
