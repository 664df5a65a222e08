(** * Arr: the part of NumPy's ndarray semantics used by /repo.

    An array is a shape and its elements in row-major order.  This is NumPy, not
    /repo: it is part of the trusted reading of the environment, written so that
    elementwise operations, broadcasting and axis reductions are definable for
    every shape. *)

From Verif Require Import Py.

Set Implicit Arguments.

Record arr (A : Type) : Type := Arr { shp : list nat; dat : list A }.

Fixpoint prodn (s : list nat) : nat := match s with [] => 1 | n :: s' => n * prodn s' end.

Definition awf {A} (a : arr A) : Prop := length (dat a) = prodn (shp a).

(** 0-d array. *)
(** NumPy: a 0-d array. *)
Definition scalar {A} (x : A) : arr A := Arr [] [x].
(** Number of elements ([a.size]). *)
(** NumPy: [a.size]. *)
Definition asize {A} (a : arr A) : nat := length (dat a).

(** Elementwise unary operation. *)
(** NumPy: a unary ufunc. *)
Definition amap {A B} (f : A -> B) (a : arr A) : arr B := Arr (shp a) (map f (dat a)).

(** [n] consecutive chunks of [k] elements. *)
(** Row-major layout of NumPy arrays. *)
Fixpoint chunks {A} (n k : nat) (l : list A) : list (list A) :=
  match n with
  | 0 => []
  | S n' => firstn k l :: chunks n' k (skipn k l)
  end.

(** NumPy broadcasting of one dimension, then of shapes aligned at their last axis. *)
Definition bc_dim (n m : nat) : option nat :=
  if Nat.eqb n m then Some n
  else if Nat.eqb n 1 then Some m
  else if Nat.eqb m 1 then Some n
  else None.
Definition pad (k : nat) (s : list nat) : list nat := repeat 1 (k - length s) ++ s.
Fixpoint bc_zip (s t : list nat) : option (list nat) :=
  match s, t with
  | [], [] => Some []
  | n :: s', m :: t' =>
      match bc_dim n m, bc_zip s' t' with
      | Some k, Some r => Some (k :: r)
      | _, _ => None
      end
  | _, _ => None
  end.
Definition bc_shape (s t : list nat) : option (list nat) :=
  let k := Nat.max (length s) (length t) in bc_zip (pad k s) (pad k t).

(** Data of an array of shape [s] broadcast to shape [t] (same rank): where the
    dimensions differ the source dimension is 1 and is repeated. *)
(** NumPy broadcasting. *)
Fixpoint expand {A} (s t : list nat) (l : list A) : list A :=
  match s, t with
  | n :: s', m :: t' =>
      if Nat.eqb n m then flat_map (expand s' t') (chunks n (prodn s') l)
      else concat (repeat (expand s' t' l) m)
  | _, _ => l
  end.

(** NumPy: a binary ufunc on equal shapes. *)
Fixpoint zip_with {A B C} (f : A -> B -> C) (l : list A) (l' : list B) : list C :=
  match l, l' with
  | x :: l1, y :: l2 => f x y :: zip_with f l1 l2
  | _, _ => []
  end.

(** Elementwise binary operation with broadcasting; NumPy raises ValueError
    ("operands could not be broadcast together") otherwise. *)
Definition amap2 {A B C} (f : A -> B -> C) (a : arr A) (b : arr B) : res (arr C) :=
  match bc_shape (shp a) (shp b) with
  | Some s =>
      let k := length s in
      Ok (Arr s (zip_with f (expand (pad k (shp a)) s (dat a))
                            (expand (pad k (shp b)) s (dat b))))
  | None => Err ValueError
  end.

(** ** Lanes along an axis.

    An array of shape [pre ++ n :: post] is [prodn pre] blocks, each holding [n]
    rows of [prodn post] elements; the lanes of a block are its columns. *)
(** Layout of NumPy arrays. *)
Fixpoint zip_cons {A} (row : list A) (cols : list (list A)) : list (list A) :=
  match row, cols with
  | x :: row', c :: cols' => (x :: c) :: zip_cons row' cols'
  | _, _ => []
  end.
(** Layout of NumPy arrays. *)
Definition columns {A} (k : nat) (rows : list (list A)) : list (list A) :=
  fold_right zip_cons (repeat [] k) rows.

(** Layout of NumPy arrays. *)
Definition block_lanes {A} (n k : nat) (block : list A) : list (list A) :=
  columns k (chunks n k block).

(** Layout of NumPy arrays. *)
Definition split_axis (s : list nat) (axis : nat) : option (list nat * nat * list nat) :=
  match skipn axis s with
  | n :: post => Some (firstn axis s, n, post)
  | [] => None
  end.

(** A reduction [f] along an axis ([None]: all elements).  A bad axis raises
    AxisError, a subclass of ValueError and IndexError. *)
(** NumPy: [a.sum(axis)] and alike (quantity.py:518-760). *)
Definition areduce {A B} (f : list A -> B) (axis : option nat) (a : arr A) : res (arr B) :=
  match axis with
  | None => Ok (scalar (f (dat a)))
  | Some ax =>
      match split_axis (shp a) ax with
      | Some (pre, n, post) =>
          Ok (Arr (pre ++ post)
                  (flat_map (fun b => map f (block_lanes n (prodn post) b))
                            (chunks (prodn pre) (n * prodn post) (dat a))))
      | None => Err ValueError
      end
  end.

(** A lane-to-lane operation of unchanged length (cumsum, cumprod) along an axis;
    [None] flattens. *)
(** NumPy: [a.cumsum(axis)] (quantity.py:762-787). *)
Definition ascan {A B} (f : list A -> list B) (axis : option nat) (a : arr A) : res (arr B) :=
  match axis with
  | None => Ok (Arr [length (dat a)] (f (dat a)))
  | Some ax =>
      match split_axis (shp a) ax with
      | Some (pre, n, post) =>
          Ok (Arr (shp a)
                  (flat_map (fun b => concat (columns n (map f (block_lanes n (prodn post) b))))
                            (chunks (prodn pre) (n * prodn post) (dat a))))
      | None => Err ValueError
      end
  end.

(** Element at a multi-index (specification of what the functions above compute). *)
(** Specification-level. *)
Fixpoint at_idx {A} (s : list nat) (l : list A) (idx : list nat) : option A :=
  match s, idx with
  | [], [] => hd_error l
  | n :: s', i :: idx' =>
      if Nat.ltb i n then
        match nth_error (chunks n (prodn s') l) i with
        | Some c => at_idx s' c idx'
        | None => None
        end
      else None
  | _, _ => None
  end.
(** Specification-level. *)
Definition aget {A} (a : arr A) (idx : list nat) : option A := at_idx (shp a) (dat a) idx.

(** ** Lemmas: naturality *)

Lemma chunks_map {A B} (f : A -> B) n k l : chunks n k (map f l) = map (map f) (chunks n k l).
Proof.
  revert l; induction n as [|n IH]; intros l; cbn; auto.
  rewrite firstn_map, skipn_map, IH. reflexivity.
Qed.
Lemma chunks_length {A} n k (l : list A) : length (chunks n k l) = n.
Proof. revert l; induction n; intros; cbn; auto. Qed.
Lemma chunks_concat {A} n k (l : list A) : length l = n * k -> concat (chunks n k l) = l.
Proof.
  revert l; induction n as [|n IH]; intros l H; cbn.
  - destruct l; auto; discriminate.
  - rewrite IH. + apply firstn_skipn. + rewrite skipn_length. lia.
Qed.
Lemma chunks_Forall_length {A} n k (l : list A) :
  n * k <= length l -> Forall (fun c => length c = k) (chunks n k l).
Proof.
  revert l; induction n as [|n IH]; intros l H; cbn; constructor.
  - rewrite firstn_length. cbn in H. lia.
  - apply IH. rewrite skipn_length. cbn in H. lia.
Qed.

Lemma flat_map_map {A B C} (f : A -> B) (g : B -> list C) l :
  flat_map g (map f l) = flat_map (fun x => g (f x)) l.
Proof. rewrite !flat_map_concat_map, map_map. reflexivity. Qed.
Lemma map_flat_map {A B C} (f : B -> C) (g : A -> list B) l :
  map f (flat_map g l) = flat_map (fun x => map f (g x)) l.
Proof. rewrite !flat_map_concat_map, concat_map, map_map. reflexivity. Qed.
Lemma map_repeat' {A B} (f : A -> B) x n : map f (repeat x n) = repeat (f x) n.
Proof. induction n; cbn; congruence. Qed.

Lemma expand_map {A B} (f : A -> B) : forall s t l, expand s t (map f l) = map f (expand s t l).
Proof.
  induction s as [|n s IH]; intros t l; destruct t as [|m t]; cbn; auto.
  destruct (Nat.eqb n m).
  - rewrite chunks_map, flat_map_map, map_flat_map.
    apply flat_map_ext. intros c. apply IH.
  - rewrite concat_map, map_repeat', IH. reflexivity.
Qed.

Lemma zip_with_map {A B C A' B'} (f : A' -> B' -> C) (g : A -> A') (h : B -> B') l l' :
  zip_with f (map g l) (map h l') = zip_with (fun x y => f (g x) (h y)) l l'.
Proof. revert l'; induction l as [|x l IH]; intros [|y l']; cbn; congruence. Qed.
Lemma map_zip_with {A B C D} (g : C -> D) (f : A -> B -> C) l l' :
  map g (zip_with f l l') = zip_with (fun x y => g (f x y)) l l'.
Proof. revert l'; induction l as [|x l IH]; intros [|y l']; cbn; congruence. Qed.
Lemma zip_with_ext {A B C} (f g : A -> B -> C) l l' :
  (forall x y, In x l -> In y l' -> f x y = g x y) -> zip_with f l l' = zip_with g l l'.
Proof.
  revert l'; induction l as [|x l IH]; intros [|y l'] H; cbn; auto.
  f_equal; [apply H; cbn; auto | apply IH; intros; apply H; cbn; auto].
Qed.
Lemma zip_with_length {A B C} (f : A -> B -> C) l l' :
  length (zip_with f l l') = Nat.min (length l) (length l').
Proof. revert l'; induction l as [|x l IH]; intros [|y l']; cbn; auto. Qed.
Lemma zip_with_swap {A B C} (f : A -> B -> C) l l' :
  zip_with f l l' = zip_with (fun y x => f x y) l' l.
Proof. revert l'; induction l as [|x l IH]; intros [|y l']; cbn; congruence. Qed.

Lemma amap_amap {A B C} (f : A -> B) (g : B -> C) a : amap g (amap f a) = amap (fun x => g (f x)) a.
Proof. unfold amap; cbn. now rewrite map_map. Qed.
Lemma amap_id {A} (a : arr A) : amap (fun x => x) a = a.
Proof. unfold amap. rewrite map_id. destruct a; reflexivity. Qed.
Lemma amap_ext {A B} (f g : A -> B) a : (forall x, In x (dat a) -> f x = g x) -> amap f a = amap g a.
Proof. intros H. unfold amap. f_equal. now apply map_ext_in. Qed.
Lemma amap_shp {A B} (f : A -> B) a : shp (amap f a) = shp a.
Proof. reflexivity. Qed.
Lemma awf_amap {A B} (f : A -> B) a : awf a -> awf (amap f a).
Proof. unfold awf, amap; cbn. now rewrite map_length. Qed.

(** Broadcasting commutes with elementwise maps of the operands and of the result. *)
Lemma amap2_amap {A B C A' B'} (f : A' -> B' -> C) (g : A -> A') (h : B -> B') a b :
  amap2 f (amap g a) (amap h b) = amap2 (fun x y => f (g x) (h y)) a b.
Proof.
  unfold amap2, amap; cbn [shp dat]. destruct (bc_shape (shp a) (shp b)); auto.
  rewrite !expand_map, zip_with_map. reflexivity.
Qed.
Lemma rmap_amap_amap2 {A B C D} (g : C -> D) (f : A -> B -> C) a b :
  rmap (amap g) (amap2 f a b) = amap2 (fun x y => g (f x y)) a b.
Proof.
  unfold amap2. destruct (bc_shape (shp a) (shp b)); auto.
  cbn [rmap]. unfold amap; cbn [shp dat]. rewrite map_zip_with. reflexivity.
Qed.
Lemma amap2_ext {A B C} (f g : A -> B -> C) a b :
  (forall x y, f x y = g x y) -> amap2 f a b = amap2 g a b.
Proof.
  intros H. unfold amap2. destruct (bc_shape (shp a) (shp b)); auto.
  do 2 f_equal. apply zip_with_ext; auto.
Qed.

Lemma In_expand {A} : forall s t (l : list A) x, In x (expand s t l) -> In x l.
Proof.
  induction s as [|n s IH]; intros [|m t] l x; cbn; auto.
  destruct (Nat.eqb n m).
  - rewrite in_flat_map. intros [c [Hc Hx]]. apply IH in Hx.
    clear - Hc Hx. revert l Hc; induction n as [|n IHn]; cbn; [tauto|].
    intros l [<-|H]; [|apply IHn in H].
    + rewrite <- (firstn_skipn (prodn s) l). apply in_or_app; auto.
    + rewrite <- (firstn_skipn (prodn s) l). apply in_or_app; auto.
  - intros H. rewrite in_concat in H. destruct H as [c [Hc Hx]].
    apply repeat_spec in Hc. subst. eauto.
Qed.
Lemma amap2_ext_in {A B C} (f g : A -> B -> C) a b :
  (forall x y, In x (dat a) -> In y (dat b) -> f x y = g x y) -> amap2 f a b = amap2 g a b.
Proof.
  intros H. unfold amap2. destruct (bc_shape (shp a) (shp b)); auto.
  do 2 f_equal. apply zip_with_ext. intros; apply H; eapply In_expand; eauto.
Qed.

Lemma bc_dim_comm n m : bc_dim n m = bc_dim m n.
Proof.
  unfold bc_dim. destruct (Nat.eqb_spec n m), (Nat.eqb_spec m n); try congruence.
  destruct (Nat.eqb_spec n 1), (Nat.eqb_spec m 1); congruence.
Qed.
Lemma bc_zip_comm s t : bc_zip s t = bc_zip t s.
Proof.
  revert t; induction s as [|n s IH]; intros [|m t]; cbn; auto.
  rewrite bc_dim_comm, IH. reflexivity.
Qed.
Lemma bc_shape_comm s t : bc_shape s t = bc_shape t s.
Proof. unfold bc_shape. rewrite Nat.max_comm. apply bc_zip_comm. Qed.
Lemma amap2_swap {A B C} (f : A -> B -> C) a b : amap2 f a b = amap2 (fun y x => f x y) b a.
Proof.
  unfold amap2. rewrite bc_shape_comm. destruct (bc_shape (shp b) (shp a)); auto.
  do 2 f_equal. apply zip_with_swap.
Qed.

(** ** Lemmas: sizes *)

Lemma prodn_app s t : prodn (s ++ t) = prodn s * prodn t.
Proof. induction s; cbn; lia. Qed.
Lemma prodn_repeat1 k : prodn (repeat 1 k) = 1.
Proof. induction k; cbn; lia. Qed.
Lemma prodn_pad k s : prodn (pad k s) = prodn s.
Proof. unfold pad. rewrite prodn_app, prodn_repeat1. lia. Qed.
Lemma pad_length k s : length s <= k -> length (pad k s) = k.
Proof. intros H. unfold pad. rewrite app_length, repeat_length. lia. Qed.

(** [s] can be broadcast to [t]. *)
(** Specification-level. *)
Inductive bcable : list nat -> list nat -> Prop :=
| bcable_nil : bcable [] []
| bcable_eq n s t : bcable s t -> bcable (n :: s) (n :: t)
| bcable_one m s t : bcable s t -> bcable (1 :: s) (m :: t).

Lemma bc_zip_bcable s t r : bc_zip s t = Some r -> bcable s r /\ bcable t r.
Proof.
  revert t r; induction s as [|n s IH]; intros [|m t] r; cbn; try discriminate.
  - intros [= <-]. split; constructor.
  - destruct (bc_dim n m) as [k|] eqn:E; [|discriminate].
    destruct (bc_zip s t) as [r'|] eqn:Er; [|discriminate]. intros [= <-].
    destruct (IH _ _ Er) as [H1 H2]. unfold bc_dim in E.
    destruct (Nat.eqb_spec n m); [injection E as <-; subst; split; constructor; auto|].
    destruct (Nat.eqb_spec n 1); [injection E as <-; subst; split; constructor; auto|].
    destruct (Nat.eqb_spec m 1); [injection E as <-; subst; split; constructor; auto|discriminate].
Qed.
Lemma bc_zip_length s t r : bc_zip s t = Some r -> length r = length s /\ length r = length t.
Proof.
  revert t r; induction s as [|n s IH]; intros [|m t] r; cbn; try discriminate.
  - intros [= <-]; auto.
  - destruct (bc_dim n m) as [k|] eqn:E; [|discriminate].
    destruct (bc_zip s t) as [r'|] eqn:Er; [|discriminate]. intros [= <-].
    destruct (IH _ _ Er). cbn. lia.
Qed.
Lemma bc_shape_length s t r : bc_shape s t = Some r -> length r = Nat.max (length s) (length t).
Proof. unfold bc_shape. intros H. apply bc_zip_length in H. rewrite pad_length in H; lia. Qed.

Lemma flat_map_const_length {A B} (f : A -> list B) (l : list A) k :
  Forall (fun x => length (f x) = k) l -> length (flat_map f l) = length l * k.
Proof.
  induction 1 as [|x l H F IH]; cbn; auto. rewrite app_length, IH, H. reflexivity.
Qed.
Lemma expand_length {A} s t (l : list A) :
  bcable s t -> length l = prodn s -> length (expand s t l) = prodn t.
Proof.
  intros H; revert l; induction H as [|n s t H IH|m s t H IH]; intros l HL.
  - exact HL.
  - cbn [expand]. rewrite Nat.eqb_refl. rewrite flat_map_const_length with (k := prodn t).
    + rewrite chunks_length. reflexivity.
    + pose proof (@chunks_Forall_length _ n (prodn s) l) as F.
      cbn in HL. specialize (F ltac:(lia)). eapply Forall_impl; [|exact F]. auto.
  - cbn [expand]. cbn in HL. rewrite Nat.add_0_r in HL. destruct (Nat.eqb_spec 1 m).
    + subst m. cbn [chunks flat_map]. rewrite firstn_all2 by lia.
      cbn. rewrite app_nil_r, Nat.add_0_r. auto.
    + clear n. cbn [prodn]. induction m as [|m IHm]; cbn; auto. rewrite app_length, IH by auto.
      f_equal. exact IHm.
Qed.

Lemma awf_amap2 {A B C} (f : A -> B -> C) a b r :
  awf a -> awf b -> amap2 f a b = Ok r -> awf r.
Proof.
  unfold awf, amap2. intros Ha Hb. destruct (bc_shape (shp a) (shp b)) as [s|] eqn:E; [|discriminate].
  intros [= <-]. cbn. pose proof (bc_shape_length _ _ E) as L. unfold bc_shape in E.
  rewrite <- L in E. apply bc_zip_bcable in E. destruct E as [E1 E2].
  rewrite zip_with_length, !expand_length; auto; try lia; rewrite prodn_pad; auto.
Qed.

(** Broadcasting a scalar: elementwise application. *)
Lemma pad_nil k : pad k [] = repeat 1 k.
Proof. unfold pad. cbn. now rewrite Nat.sub_0_r, app_nil_r. Qed.
Lemma pad_self s : pad (length s) s = s.
Proof. unfold pad. now rewrite Nat.sub_diag. Qed.
Lemma bc_zip_ones s : bc_zip (repeat 1 (length s)) s = Some s.
Proof.
  induction s as [|n s IH]; auto. cbn [length repeat bc_zip]. rewrite IH. unfold bc_dim.
  destruct (Nat.eqb_spec 1 n); subst; reflexivity.
Qed.
Lemma bc_shape_scalar s : bc_shape [] s = Some s.
Proof. unfold bc_shape. cbn [length Nat.max]. rewrite pad_nil, pad_self. apply bc_zip_ones. Qed.
Lemma expand_same {A} s (l : list A) : length l = prodn s -> expand s s l = l.
Proof.
  revert l; induction s as [|n s IH]; intros l H; cbn; auto. rewrite Nat.eqb_refl.
  rewrite flat_map_concat_map. rewrite <- (@chunks_concat _ n (prodn s) l H) at 2.
  f_equal. rewrite <- map_id. apply map_ext_in. intros c Hc. apply IH.
  pose proof (@chunks_Forall_length _ n (prodn s) l) as F. cbn in H. specialize (F ltac:(lia)).
  rewrite Forall_forall in F. auto.
Qed.
Lemma repeat_app' {A} (x : A) n m : repeat x (n + m) = repeat x n ++ repeat x m.
Proof. induction n; cbn; congruence. Qed.
Lemma expand_scalar {A} s (x : A) : expand (repeat 1 (length s)) s [x] = repeat x (prodn s).
Proof.
  induction s as [|n s IH]; auto. cbn [length repeat expand].
  destruct (Nat.eqb_spec 1 n).
  - subst n. rewrite prodn_repeat1. cbn [chunks firstn flat_map skipn]. rewrite app_nil_r, IH.
    cbn. now rewrite Nat.add_0_r.
  - rewrite IH. cbn [prodn]. clear. induction n as [|n IHn]; cbn; auto.
    now rewrite IHn, repeat_app'.
Qed.
Lemma zip_with_repeat_l {A B C} (f : A -> B -> C) x l n :
  length l = n -> zip_with f (repeat x n) l = map (f x) l.
Proof. intros <-. induction l; cbn; congruence. Qed.
Lemma amap2_scalar_l {A B C} (f : A -> B -> C) x b :
  awf b -> amap2 f (scalar x) b = Ok (amap (f x) b).
Proof.
  intros H. unfold amap2, scalar; cbn [shp dat]. rewrite bc_shape_scalar.
  rewrite pad_nil, expand_scalar, pad_self, expand_same by exact H.
  rewrite zip_with_repeat_l by exact H. reflexivity.
Qed.
Lemma amap2_scalar_r {A B C} (f : A -> B -> C) a y :
  awf a -> amap2 f a (scalar y) = Ok (amap (fun x => f x y) a).
Proof. intros H. rewrite amap2_swap. now rewrite amap2_scalar_l. Qed.
Lemma awf_scalar {A} (x : A) : awf (scalar x).
Proof. reflexivity. Qed.

Lemma bc_shape_same s : bc_shape s s = Some s.
Proof.
  unfold bc_shape. rewrite Nat.max_id, pad_self. induction s as [|n s IH]; cbn; auto.
  rewrite IH. unfold bc_dim. now rewrite Nat.eqb_refl.
Qed.
Lemma amap2_same_shape {A B C} (f : A -> B -> C) a b :
  awf a -> awf b -> shp a = shp b -> amap2 f a b = Ok (Arr (shp a) (zip_with f (dat a) (dat b))).
Proof.
  intros Ha Hb E. unfold amap2. rewrite <- E, bc_shape_same, pad_self.
  rewrite !expand_same; auto. unfold awf in Hb. now rewrite E.
Qed.

(** Whether two arrays broadcast depends on the shapes only. *)
Lemma amap2_is_ok {A B C} (f : A -> B -> C) a b :
  is_ok (amap2 f a b) = match bc_shape (shp a) (shp b) with Some _ => true | None => false end.
Proof. unfold amap2. now destruct (bc_shape (shp a) (shp b)). Qed.
Lemma amap2_err {A B C} (f : A -> B -> C) a b e : amap2 f a b = Err e -> e = ValueError.
Proof. unfold amap2. destruct (bc_shape (shp a) (shp b)); congruence. Qed.
Lemma amap2_shape {A B C} (f : A -> B -> C) a b r :
  amap2 f a b = Ok r -> bc_shape (shp a) (shp b) = Some (shp r).
Proof. unfold amap2. destruct (bc_shape (shp a) (shp b)); [intros [= <-]|]; auto; discriminate. Qed.

(** ** Lemmas: axis reductions *)

Lemma zip_cons_map {A B} (f : A -> B) row cols :
  zip_cons (map f row) (map (map f) cols) = map (map f) (zip_cons row cols).
Proof. revert cols; induction row as [|x row IH]; intros [|c cols]; cbn; congruence. Qed.
Lemma columns_map {A B} (f : A -> B) k rows :
  columns k (map (map f) rows) = map (map f) (columns k rows).
Proof.
  unfold columns. induction rows as [|r rows IH]; cbn.
  - now rewrite map_repeat'.
  - now rewrite IH, zip_cons_map.
Qed.
Lemma block_lanes_map {A B} (f : A -> B) n k b :
  block_lanes n k (map f b) = map (map f) (block_lanes n k b).
Proof. unfold block_lanes. now rewrite chunks_map, columns_map. Qed.

Lemma areduce_amap {A B C} (g : A -> B) (f : list B -> C) ax a :
  areduce f ax (amap g a) = areduce (fun l => f (map g l)) ax a.
Proof.
  unfold areduce. destruct ax as [ax|]; cbn; auto.
  destruct (split_axis (shp a) ax) as [[[pre n] post]|]; auto.
  do 2 f_equal. rewrite chunks_map, flat_map_map. apply flat_map_ext. intros b.
  rewrite block_lanes_map, map_map. reflexivity.
Qed.
Lemma rmap_areduce {A B C} (f : list A -> B) (h : B -> C) ax a :
  rmap (amap h) (areduce f ax a) = areduce (fun l => h (f l)) ax a.
Proof.
  unfold areduce. destruct ax as [ax|]; cbn; auto.
  destruct (split_axis (shp a) ax) as [[[pre n] post]|]; auto.
  cbn. unfold amap; cbn. do 2 f_equal. rewrite map_flat_map. apply flat_map_ext. intros b.
  now rewrite map_map.
Qed.

(** The lanes of a block all have the axis length, if the block has the right size. *)
Lemma columns_len {A} k (rows : list (list A)) :
  Forall (fun r => length r = k) rows ->
  length (columns k rows) = k /\ Forall (fun c => length c = length rows) (columns k rows).
Proof.
  induction 1 as [|r rows Hr F IH]; cbn.
  - rewrite repeat_length. split; auto. apply Forall_forall. intros c Hc.
    apply repeat_spec in Hc. now subst.
  - destruct IH as [IH1 IH2]. fold (columns k rows). clear F.
    set (cs := columns k rows) in *. clearbody cs. revert r Hr; revert IH1; revert k.
    induction IH2 as [|c cs Hc F IH]; intros k HL r Hr.
    + cbn in HL. subst k. destruct r; [|discriminate]. cbn. auto.
    + destruct r as [|x r]; [cbn in *; lia|]. cbn. destruct k; [cbn in HL; lia|].
      cbn in HL, Hr. destruct (IH k ltac:(lia) r ltac:(lia)) as [I1 I2].
      split; [lia|]. constructor; cbn; auto.
Qed.
Lemma block_lanes_len {A} n k (b : list A) : n * k <= length b ->
  length (block_lanes n k b) = k /\ Forall (fun c => length c = n) (block_lanes n k b).
Proof.
  intros H. unfold block_lanes.
  destruct (columns_len (chunks_Forall_length n k b H)) as [H1 H2].
  rewrite chunks_length in H2. auto.
Qed.

Lemma split_axis_spec s ax pre n post :
  split_axis s ax = Some (pre, n, post) -> s = pre ++ n :: post /\ length pre = ax.
Proof.
  unfold split_axis. destruct (skipn ax s) as [|m p] eqn:E; [discriminate|].
  intros [= <- <- <-]. rewrite <- E, firstn_skipn. split; auto.
  rewrite firstn_length. assert (length (skipn ax s) = S (length p)) by (rewrite E; auto).
  rewrite skipn_length in H. lia.
Qed.

(** Every lane passed to the reduction has the length of the axis; hence two
    functions agreeing on such lanes give the same reduction. *)
Lemma areduce_ext_axis {A B} (f g : list A -> B) ax a n :
  awf a ->
  match ax with None => n = length (dat a) | Some i => nth_error (shp a) i = Some n end ->
  (forall l, length l = n -> (forall x, In x l -> In x (dat a)) -> f l = g l) ->
  areduce f ax a = areduce g ax a.
Proof.
  intros W Hn H. destruct ax as [ax|]; cbn.
  - destruct (split_axis (shp a) ax) as [[[pre m] post]|] eqn:E; auto.
    apply split_axis_spec in E. destruct E as [E L].
    assert (m = n).
    { rewrite E in Hn. rewrite nth_error_app2 in Hn by lia. replace (ax - length pre) with 0 in Hn by lia.
      cbn in Hn. congruence. }
    subst m. do 2 f_equal. rewrite !flat_map_concat_map. f_equal. apply map_ext_in. intros b Hb.
    apply map_ext_in. intros c Hc.
    assert (Lb : length b = n * prodn post).
    { pose proof (@chunks_Forall_length _ (prodn pre) (n * prodn post) (dat a)) as F.
      unfold awf in W. rewrite E, prodn_app in W. cbn in W. specialize (F ltac:(lia)).
      rewrite Forall_forall in F. auto. }
    apply H.
    + destruct (@block_lanes_len _ n (prodn post) b ltac:(lia)) as [_ F].
      rewrite Forall_forall in F. auto.
    + intros x Hx.
      assert (In x b).
      { clear - Hc Hx. unfold block_lanes in Hc.
        assert (G : forall rows, (forall r y, In r rows -> In y r -> In y b) ->
                    forall c, In c (columns (prodn post) rows) -> forall y, In y c -> In y b).
        { induction rows as [|r rows IH]; cbn; intros Hr c' Hc' y Hy.
          - apply repeat_spec in Hc'. subst; contradiction.
          - fold (columns (prodn post) rows) in Hc'.
            assert (K : forall (r : list A) cs c, In c (zip_cons r cs) ->
                      exists x c0, c = x :: c0 /\ In x r /\ In c0 cs).
            { clear. induction r as [|x r IHr]; intros [|c0 cs] c; cbn; try tauto.
              intros [<-|Hi].
              - exists x, c0. auto.
              - destruct (IHr _ _ Hi) as (x' & c1 & -> & ? & ?). exists x', c1. auto. }
            destruct (K _ _ _ Hc') as (x' & c0 & -> & Hx' & Hc0).
            destruct Hy as [<-|Hy]; [eapply Hr; eauto; left; auto|].
            eapply IH; eauto. }
        eapply G; eauto. intros r y Hr Hy. clear - Hr Hy.
        revert b Hr; induction n as [|n IHn]; cbn; [tauto|]. intros b [<-|Hr].
        + rewrite <- (firstn_skipn (prodn post) b). apply in_or_app; auto.
        + rewrite <- (firstn_skipn (prodn post) b). apply in_or_app; right. eauto. }
      clear - Hb H0. revert Hb. generalize (dat a). induction (prodn pre) as [|p IHp]; cbn; [tauto|].
      intros l [<-|Hr].
      * rewrite <- (firstn_skipn (n * prodn post) l). apply in_or_app; auto.
      * rewrite <- (firstn_skipn (n * prodn post) l). apply in_or_app; right. eauto.
  - unfold scalar. do 3 f_equal. apply H; auto.
Qed.
Lemma areduce_ext {A B} (f g : list A -> B) ax a :
  (forall l, f l = g l) -> areduce f ax a = areduce g ax a.
Proof.
  intros H. unfold areduce. destruct ax as [ax|]; [|now rewrite H].
  destruct (split_axis (shp a) ax) as [[[pre m] post]|]; auto.
  do 2 f_equal. apply flat_map_ext. intros b. now apply map_ext.
Qed.

Lemma ascan_amap {A B C} (g : A -> B) (f : list B -> list C) ax a :
  ascan f ax (amap g a) = ascan (fun l => f (map g l)) ax a.
Proof.
  unfold ascan. destruct ax as [ax|]; cbn; [|now rewrite map_length].
  destruct (split_axis (shp a) ax) as [[[pre n] post]|]; auto.
  do 2 f_equal. rewrite chunks_map, flat_map_map. apply flat_map_ext. intros b.
  rewrite block_lanes_map, map_map. reflexivity.
Qed.
Lemma rmap_ascan {A B C} (f : list A -> list B) (h : B -> C) ax a :
  (forall l, length (f l) = length l) ->
  rmap (amap h) (ascan f ax a) = ascan (fun l => map h (f l)) ax a.
Proof.
  intros HL. unfold ascan. destruct ax as [ax|]; cbn; auto.
  destruct (split_axis (shp a) ax) as [[[pre n] post]|]; auto.
  cbn. unfold amap; cbn. do 2 f_equal. rewrite map_flat_map. apply flat_map_ext. intros b.
  rewrite concat_map, <- columns_map, map_map. reflexivity.
Qed.
Lemma ascan_ext {A B} (f g : list A -> list B) ax a :
  (forall l, f l = g l) -> ascan f ax a = ascan g ax a.
Proof.
  intros H. unfold ascan. destruct ax as [ax|]; [|now rewrite H].
  destruct (split_axis (shp a) ax) as [[[pre m] post]|]; auto.
  do 2 f_equal. apply flat_map_ext. intros b. do 2 f_equal. now apply map_ext.
Qed.

(** ** Broadcasting means what NumPy documents: the element of the result at a
    multi-index is computed from the operands' elements at that index, with index
    0 along every dimension where the operand has length 1. *)
Fixpoint bc_index (s idx : list nat) : list nat :=
  match s, idx with
  | n :: s', i :: idx' => (if Nat.eqb n 1 then 0 else i) :: bc_index s' idx'
  | _, _ => []
  end.

Lemma nth_error_chunks_expand {A} (f : list A -> list A) k m : forall cs i,
  Forall (fun c => length (f c) = k) cs -> length cs = m ->
  i < m ->
  nth_error (chunks m k (flat_map f cs)) i = option_map f (nth_error cs i).
Proof.
  intros cs; revert m. induction cs as [|c cs IH]; intros m i F L Hi.
  - cbn in L. lia.
  - destruct m as [|m]; [lia|]. inversion F; subst. cbn [flat_map chunks].
    rewrite firstn_app, firstn_all2 by lia.
    rewrite Nat.sub_diag. cbn [firstn]. rewrite app_nil_r.
    destruct i as [|i]; auto. cbn [nth_error].
    rewrite skipn_app, skipn_all2 by lia. rewrite Nat.sub_diag. cbn [skipn app].
    apply IH; cbn in *; auto; lia.
Qed.

Lemma flat_map_repeat_concat {A} (x : list A) m : concat (repeat x m) = flat_map (fun _ => x) (repeat (@nil A) m).
Proof. induction m; cbn; congruence. Qed.

Lemma at_idx_expand {A} s t (l : list A) idx :
  bcable s t -> length l = prodn s ->
  (at_idx t (expand s t l) idx <> None -> at_idx t (expand s t l) idx = at_idx s l (bc_index s idx)).
Proof.
  intros H; revert l idx; induction H as [|n s t H IH|m s t H IH]; intros l idx HL.
  - destruct idx; cbn; auto. congruence.
  - destruct idx as [|i idx]; [cbn; congruence|].
    cbn [expand]. rewrite Nat.eqb_refl. cbn [at_idx bc_index].
    destruct (Nat.ltb_spec i n); [|intros X; exfalso; apply X; reflexivity].
    assert (FC : Forall (fun c => length c = prodn s) (chunks n (prodn s) l)).
    { apply chunks_Forall_length. cbn in HL. lia. }
    rewrite nth_error_chunks_expand with (f := expand s t) (k := prodn t);
      [| |apply chunks_length| assumption].
    2:{ eapply Forall_impl; [|exact FC]. intros c Hc. apply expand_length; auto. }
    set (i' := if Nat.eqb n 1 then 0 else i).
    assert (i' = i) by (unfold i'; destruct (Nat.eqb_spec n 1); lia). rewrite H1.
    destruct (Nat.ltb_spec i n); [|lia].
    destruct (nth_error (chunks n (prodn s) l) i) as [c|] eqn:E; cbn [option_map]; [|intros X; exfalso; apply X; reflexivity].
    apply IH. rewrite Forall_forall in FC. apply FC. eapply nth_error_In; eauto.
  - destruct idx as [|i idx]; [cbn; congruence|].
    cbn [bc_index at_idx]. rewrite Nat.eqb_refl. change (Nat.ltb 0 1) with true. cbn [chunks nth_error].
    cbn in HL. rewrite Nat.add_0_r in HL. rewrite firstn_all2 by lia.
    destruct (Nat.ltb_spec i m); [|intros X; exfalso; apply X; reflexivity].
    cbn [expand]. destruct (Nat.eqb_spec 1 m).
    + subst m. destruct i as [|i]; [|lia].
      cbn [chunks flat_map nth_error]. rewrite app_nil_r.
      rewrite (@firstn_all2 _ (prodn s) l) by lia.
      rewrite firstn_all2 by (rewrite expand_length; auto). apply IH; auto.
    + rewrite flat_map_repeat_concat.
      rewrite nth_error_chunks_expand with (f := fun _ => expand s t l) (k := prodn t);
        [| | apply repeat_length | assumption].
      2:{ apply Forall_forall. intros. apply expand_length; auto. }
      rewrite nth_error_repeat by assumption. cbn [option_map]. apply IH; auto.
Qed.
