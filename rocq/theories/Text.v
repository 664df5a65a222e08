(** * Text: Python strings as lists of bytes, and decimal numbers.

    The language layer used by Markup.v, Lex.v and Registry.v; nothing here is
    specific to /repo.  Simplification: a [str] is represented by its UTF-8 bytes;
    the functions modelled below only look at ASCII characters and at the UTF-8
    encodings of the middle dot and of the superscript digits. *)
From Coq Require Import Ascii NArith Nnat.
From Verif Require Import Py.

Definition text : Type := list ascii.
Definition T (s : string) : text := list_ascii_of_string s.

Definition teqb (a b : text) : bool := if list_eq_dec ascii_dec a b then true else false.
Lemma teqb_eq a b : teqb a b = true <-> a = b.
Proof. unfold teqb. destruct (list_eq_dec ascii_dec a b); split; congruence. Qed.
Lemma teqb_refl a : teqb a a = true.
Proof. now apply teqb_eq. Qed.
Lemma teqb_neq a b : a <> b -> teqb a b = false.
Proof. intros H. destruct (teqb a b) eqn:E; auto. apply teqb_eq in E. contradiction. Qed.

(** ** Character classes *)
(** Language layer (Python str). *)
Definition code (c : ascii) : N := N_of_ascii c.
(** Language layer (Python str). *)
Definition is_digit (c : ascii) : bool := ((48 <=? code c) && (code c <=? 57))%N.
(** Language layer (Python str). *)
Definition is_letter (c : ascii) : bool :=
  (((65 <=? code c) && (code c <=? 90)) || ((97 <=? code c) && (code c <=? 122)))%N.
(** Start and continuation characters of an ASCII identifier. *)
(** Language layer (Python str). *)
Definition is_idstart (c : ascii) : bool := is_letter c || (code c =? 95)%N.
(** Language layer (Python str). *)
Definition is_idchar (c : ascii) : bool := is_idstart c || is_digit c.
(** Language layer (Python str). *)
Definition is_space (c : ascii) : bool := ((code c =? 32) || (code c =? 9))%N.

(** [s.lower()] on ASCII. *)
(** Language layer (Python str). *)
Definition lower_char (c : ascii) : ascii :=
  if ((65 <=? code c) && (code c <=? 90))%N then ascii_of_N (code c + 32) else c.
(** Language layer (Python str). *)
Definition lower (t : text) : text := map lower_char t.

(** The longest prefix of characters satisfying [f], and the rest. *)
(** Language layer (Python str). *)
Fixpoint span (f : ascii -> bool) (t : text) : text * text :=
  match t with
  | [] => ([], [])
  | c :: t' => if f c then (c :: fst (span f t'), snd (span f t')) else ([], t)
  end.

Lemma span_app f t : fst (span f t) ++ snd (span f t) = t.
Proof. induction t as [|c t IH]; cbn; auto. destruct (f c); cbn; congruence. Qed.
Lemma span_forall f t : Forall (fun c => f c = true) (fst (span f t)).
Proof. induction t as [|c t IH]; cbn; auto. destruct (f c) eqn:E; cbn; auto. Qed.
Lemma span_rest f t : match snd (span f t) with [] => True | c :: _ => f c = false end.
Proof. induction t as [|c t IH]; cbn; auto. destruct (f c) eqn:E; cbn; auto. Qed.
(** A prefix of [f] characters followed by something that is not one. *)
(** Language layer (Python str). *)
Definition stops (f : ascii -> bool) (t : text) : Prop :=
  match t with [] => True | c :: _ => f c = false end.
Lemma span_eq f a b : Forall (fun c => f c = true) a -> stops f b -> span f (a ++ b) = (a, b).
Proof.
  intros Ha Hb. induction Ha as [|c a Hc Ha IH]; cbn.
  - destruct b as [|c b]; cbn in *; auto. now rewrite Hb.
  - rewrite Hc, IH. reflexivity.
Qed.

(** ** [s.replace(a, b)] for a one-character [a], and [str.join] *)
(** Language layer (Python str). *)
Definition replace_char (c : ascii) (by_ : text) (t : text) : text :=
  flat_map (fun x => if ascii_dec x c then by_ else [x]) t.
Lemma replace_char_app c by_ a b : replace_char c by_ (a ++ b) = replace_char c by_ a ++ replace_char c by_ b.
Proof. apply flat_map_app. Qed.
Lemma replace_char_none c by_ t : ~ In c t -> replace_char c by_ t = t.
Proof.
  unfold replace_char. induction t as [|x t IH]; cbn; auto.
  intros H. destruct (ascii_dec x c) as [->|]; [exfalso; apply H; auto|].
  cbn. rewrite IH; auto.
Qed.

(** Language layer (Python str). *)
Fixpoint join (sep : text) (l : list text) : text :=
  match l with
  | [] => []
  | [x] => x
  | x :: l' => x ++ sep ++ join sep l'
  end.

(** [s.rstrip(c)] *)
(** Language layer (Python str). *)
Fixpoint rstrip (c : ascii) (t : text) : text :=
  match t with
  | [] => []
  | x :: t' => match rstrip c t' with
               | [] => if ascii_dec x c then [] else [x]
               | r => x :: r
               end
  end.
Lemma rstrip_last c t x : x <> c -> rstrip c (t ++ [x]) = t ++ [x].
Proof.
  intros H. induction t as [|y t IH]; cbn.
  - destruct (ascii_dec x c); congruence.
  - rewrite IH. destruct (t ++ [x]) eqn:E; auto. destruct t; discriminate.
Qed.
Lemma rstrip_snoc c t : rstrip c (t ++ [c]) = rstrip c t.
Proof.
  induction t as [|y t IH]; cbn.
  - destruct (ascii_dec c c); congruence.
  - rewrite IH. reflexivity.
Qed.

(** ** Decimal numbers *)
(** Language layer (Python str). *)
Definition digit_char (d : N) : ascii := ascii_of_N (48 + d).
(** Language layer (Python str). *)
Definition digit_val (c : ascii) : N := (code c - 48)%N.

(** The decimal digits of [n], most significant first ("0" for zero). *)
(** Language layer (Python str). *)
Fixpoint digits_fuel (fuel : nat) (n : N) : text :=
  match fuel with
  | 0 => []
  | S f => if (n <? 10)%N then [digit_char n]
           else digits_fuel f (n / 10)%N ++ [digit_char (n mod 10)%N]
  end.
(** Language layer (Python str). *)
Definition digits (n : N) : text := digits_fuel (S (N.size_nat n)) n.
(** The number that a string of digits denotes. *)
(** Language layer (Python str). *)
Definition digits_val (t : text) : N := fold_left (fun a c => (10 * a + digit_val c)%N) t 0%N.

Lemma digits_val_snoc t c : digits_val (t ++ [c]) = (10 * digits_val t + digit_val c)%N.
Proof. unfold digits_val. rewrite fold_left_app. reflexivity. Qed.

Lemma digit_cases d : (d < 10)%N -> d = 0%N \/ d = 1%N \/ d = 2%N \/ d = 3%N \/ d = 4%N \/
  d = 5%N \/ d = 6%N \/ d = 7%N \/ d = 8%N \/ d = 9%N.
Proof. lia. Qed.
Lemma digit_char_val d : (d < 10)%N -> digit_val (digit_char d) = d.
Proof.
  intros H. apply digit_cases in H.
  repeat (destruct H as [->|H]; [reflexivity|]). subst; reflexivity.
Qed.
Lemma digit_char_digit d : (d < 10)%N -> is_digit (digit_char d) = true.
Proof.
  intros H. apply digit_cases in H.
  repeat (destruct H as [->|H]; [reflexivity|]). subst; reflexivity.
Qed.
Lemma digit_char_0 d : (d < 10)%N -> digit_char d = "0"%char -> d = 0%N.
Proof.
  intros H E. apply digit_char_val in H. rewrite E in H. rewrite <- H. reflexivity.
Qed.

Lemma digits_fuel_spec fuel : forall n, (n < 2 ^ N.of_nat fuel)%N ->
  digits_fuel (S fuel) n <> [] /\
  Forall (fun c => is_digit c = true) (digits_fuel (S fuel) n) /\
  digits_val (digits_fuel (S fuel) n) = n.
Proof.
  induction fuel as [|f IH]; intros n Hn.
  - assert (n = 0%N) by (cbn in Hn; lia). subst. cbn. split; [discriminate|].
    split; [repeat constructor|reflexivity].
  - remember (S f) as g eqn:Eg. cbn [digits_fuel]. destruct (N.ltb_spec n 10) as [Hl|Hl].
    + split; [discriminate|]. split.
      * constructor; auto using digit_char_digit.
      * unfold digits_val. cbn [fold_left]. rewrite digit_char_val by lia. lia.
    + assert (Hm : (n mod 10 < 10)%N) by (apply N.mod_lt; lia).
      assert (Hd : (n / 10 < 2 ^ N.of_nat f)%N).
      { rewrite Eg in Hn. rewrite Nat2N.inj_succ, N.pow_succ_r' in Hn.
        apply N.div_lt_upper_bound; lia. }
      destruct (IH _ Hd) as (I1 & I2 & I3).
      split; [|split].
      * intros E. apply app_eq_nil in E. destruct E; discriminate.
      * apply Forall_app. split; auto. constructor; auto using digit_char_digit.
      * rewrite digits_val_snoc, I3, digit_char_val by auto.
        rewrite (N.div_mod n 10) at 3 by lia. reflexivity.
Qed.
Lemma size_bound n : (n < 2 ^ N.of_nat (N.size_nat n))%N.
Proof.
  destruct n as [|p]; cbn [N.size_nat]; [reflexivity|].
  induction p as [p IH|p IH|]; cbn [Pos.size_nat].
  - rewrite Nat2N.inj_succ, N.pow_succ_r'. lia.
  - rewrite Nat2N.inj_succ, N.pow_succ_r'. lia.
  - reflexivity.
Qed.
Lemma digits_spec n :
  digits n <> [] /\ Forall (fun c => is_digit c = true) (digits n) /\ digits_val (digits n) = n.
Proof. apply digits_fuel_spec, size_bound. Qed.
Lemma digits_nonempty n : digits n <> [].
Proof. apply digits_spec. Qed.
Lemma digits_digit n : Forall (fun c => is_digit c = true) (digits n).
Proof. apply digits_spec. Qed.
Lemma digits_value n : digits_val (digits n) = n.
Proof. apply digits_spec. Qed.

(** No leading zero except for zero itself. *)
Lemma digits_fuel_lead fuel : forall n, (n < 2 ^ N.of_nat fuel)%N -> (0 < n)%N ->
  exists c t, digits_fuel (S fuel) n = c :: t /\ c <> "0"%char.
Proof.
  induction fuel as [|f IH]; intros n Hn Hp.
  - exfalso. cbn in Hn. lia.
  - remember (S f) as g eqn:Eg. cbn [digits_fuel]. destruct (N.ltb_spec n 10) as [Hl|Hl].
    + exists (digit_char n), []. split; auto. intros E. apply digit_char_0 in E; lia.
    + assert (Hd : (n / 10 < 2 ^ N.of_nat f)%N).
      { rewrite Eg in Hn. rewrite Nat2N.inj_succ, N.pow_succ_r' in Hn.
        apply N.div_lt_upper_bound; lia. }
      assert (Hq : (0 < n / 10)%N) by (apply N.div_str_pos; lia).
      destruct (IH _ Hd Hq) as (c & t & E & Hc). rewrite E.
      exists c, (t ++ [digit_char (n mod 10)]). auto.
Qed.
Lemma digits_lead n : (0 < n)%N -> exists c t, digits n = c :: t /\ c <> "0"%char.
Proof. intros H. apply digits_fuel_lead; auto using size_bound. Qed.

(** The last digit. *)
Lemma digits_last n : exists t, digits n = t ++ [digit_char (n mod 10)].
Proof.
  unfold digits. cbn [digits_fuel]. destruct (N.ltb_spec n 10) as [Hl|Hl].
  - exists []. cbn. rewrite N.mod_small; auto.
  - eexists. reflexivity.
Qed.
Lemma rstrip0_digits n : (n mod 10 <> 0)%N -> rstrip "0" (digits n) = digits n.
Proof.
  intros H. destruct (digits_last n) as [t E]. rewrite E. apply rstrip_last.
  intros X. apply digit_char_0 in X; auto. apply N.mod_lt; lia.
Qed.
Lemma digits_inj a b : digits a = digits b -> a = b.
Proof. intros H. rewrite <- (digits_value a), H. apply digits_value. Qed.

(** ** Reading a decimal fraction [ip.fp] *)
(** Language layer (Python str). *)
Definition ten_pow (k : nat) : Q := inject_Z (10 ^ Z.of_nat k)%Z.
(** Language layer (Python str). *)
Definition dec_val (ip fp : text) : Qc :=
  Q2Qc (inject_Z (Z.of_N (digits_val (ip ++ fp))) / ten_pow (length fp)).
