(** * LabelFacts: reading labels that are put together from labels. *)
From Coq Require Import Ascii NArith Lia.
From Verif Require Import Py Text Lex LexFacts SpecGrammar GrammarFacts.

Open Scope char_scope.
Open Scope list_scope.

Section Lexing.
  Variable fread : text -> Qc.

  (** A text that ends whatever token comes before it. *)
  Definition safe (t : text) : Prop := match t with [] => True | c :: _ => c = ")" \/ c = " " end.

  Lemma span_safe p a rest : safe rest -> p ")" = false -> p " " = false ->
    span p (a ++ rest) = (fst (span p a), snd (span p a) ++ rest).
  Proof.
    intros Hs H1 H2. induction a as [|c a IH]; cbn [app span fst snd].
    - destruct rest as [|c rest]; auto. cbn [span]. destruct Hs as [-> | ->]; [now rewrite H1|now rewrite H2].
    - destruct (p c); [|reflexivity]. rewrite IH. reflexivity.
  Qed.
  Lemma lex_num_app t k r rest : safe rest -> lex_num fread t = Ok (k, r) -> lex_num fread (t ++ rest) = Ok (k, r ++ rest).
  Proof.
    intros Hs H. unfold lex_num in *. rewrite (span_safe is_digit t rest Hs eq_refl eq_refl). cbn [fst snd].
    destruct (snd (span is_digit t)) as [|c rest1] eqn:E1.
    - (* the number ends the text *)
      assert (G : forall X : res (token * text), X = Ok (k, r) ->
        (forall c rest', rest = c :: rest' -> (is_idstart c || (128 <=? code c)%N)%bool = false) -> True) by auto. clear G.
      assert (HX : match fst (span is_digit t) with
               | "0" :: _ :: _ => if (digits_val (fst (span is_digit t)) =? 0)%N then Ok (TNum (PInt 0), rest) else Err SyntaxError
               | _ => Ok (TNum (PInt (Z.of_N (digits_val (fst (span is_digit t))))), rest) end = Ok (k, r ++ rest)).
      { revert H. generalize (fst (span is_digit t)). intros ip.
        assert (D : forall (b : bool) X Y, (if b then Ok (X, []) else Err Y) = Ok (k, r) -> (if b then Ok (X, rest) else Err Y) = Ok (k, r ++ rest)).
        { intros [] X Y Z; [|discriminate]. injection Z as <- <-. reflexivity. }
        assert (D' : forall X, Ok (X, []) = Ok (k, r) -> Ok (X, rest) = Ok (k, r ++ rest)) by (intros X Z; injection Z as <- <-; reflexivity).
        destruct ip as [|c1 ip]; [apply D'|]. destruct ip as [|c2 ip]; [destruct c1 as [[] [] [] [] [] [] [] []]; apply D'|].
        destruct c1 as [[] [] [] [] [] [] [] []]; first [apply D' | apply D]. }
      cbn [app]. destruct rest as [|c rest]; [exact HX|]. cbn [safe] in Hs. destruct Hs as [-> | ->]; exact HX.
    - cbn [app].
      assert (G : forall X, (if (is_idstart c || (128 <=? code c)%N)%bool then Err Unmodelled else X (c :: rest1)) = Ok (k, r) ->
          (forall l, X l = Ok (k, r) -> X (l ++ rest) = Ok (k, r ++ rest)) ->
          (if (is_idstart c || (128 <=? code c)%N)%bool then Err Unmodelled else X (c :: rest1 ++ rest)) = Ok (k, r ++ rest)).
      { intros X HX HY. destruct (_ || _)%bool; [discriminate|]. exact (HY (c :: rest1) HX). }
      assert (NUM : forall l : text, match fst (span is_digit t) with
               | "0" :: _ :: _ => if (digits_val (fst (span is_digit t)) =? 0)%N then Ok (TNum (PInt 0), l) else Err SyntaxError
               | _ => Ok (TNum (PInt (Z.of_N (digits_val (fst (span is_digit t))))), l) end = Ok (k, r) ->
             match fst (span is_digit t) with
               | "0" :: _ :: _ => if (digits_val (fst (span is_digit t)) =? 0)%N then Ok (TNum (PInt 0), l ++ rest) else Err SyntaxError
               | _ => Ok (TNum (PInt (Z.of_N (digits_val (fst (span is_digit t))))), l ++ rest) end = Ok (k, r ++ rest)).
      { intros l. generalize (fst (span is_digit t)). intros ip.
        assert (D : forall (b : bool) X Y, (if b then Ok (X, l) else Err Y) = Ok (k, r) -> (if b then Ok (X, l ++ rest) else Err Y) = Ok (k, r ++ rest)).
        { intros [] X Y Z; [|discriminate]. injection Z as <- <-. reflexivity. }
        assert (D' : forall X, Ok (X, l) = Ok (k, r) -> Ok (X, l ++ rest) = Ok (k, r ++ rest)) by (intros X Z; injection Z as <- <-; reflexivity).
        destruct ip as [|c1 ip]; [apply D'|]. destruct ip as [|c2 ip]; [destruct c1 as [[] [] [] [] [] [] [] []]; apply D'|].
        destruct c1 as [[] [] [] [] [] [] [] []]; first [apply D' | apply D]. }
      assert (DOT : forall tok : text -> token, match snd (span is_digit rest1) with
               | c0 :: _ => if (is_idstart c0 || (128 <=? code c0)%N)%bool then Err Unmodelled else Ok (tok (fst (span is_digit rest1)), snd (span is_digit rest1))
               | [] => Ok (tok (fst (span is_digit rest1)), snd (span is_digit rest1)) end = Ok (k, r) ->
             match snd (span is_digit (rest1 ++ rest)) with
               | c0 :: _ => if (is_idstart c0 || (128 <=? code c0)%N)%bool then Err Unmodelled else Ok (tok (fst (span is_digit (rest1 ++ rest))), snd (span is_digit (rest1 ++ rest)))
               | [] => Ok (tok (fst (span is_digit (rest1 ++ rest))), snd (span is_digit (rest1 ++ rest))) end = Ok (k, r ++ rest)).
      { intros tok. rewrite (span_safe is_digit rest1 rest Hs eq_refl eq_refl). cbn [fst snd].
        destruct (snd (span is_digit rest1)) as [|c0 r2]; cbn [app].
        - intros Z. injection Z as <- <-. destruct rest as [|c1 rest]; [reflexivity|]. cbn [safe] in Hs. destruct Hs as [-> | ->]; reflexivity.
        - destruct (is_idstart c0 || (128 <=? code c0)%N)%bool; [discriminate|]. intros Hz. injection Hz as <- <-. reflexivity. }
      destruct (ascii_dec c ".") as [->|Hc]; [exact (DOT (fun fp => TNum (PFlt (fread (fst (span is_digit t) ++ "." :: fp)))) H)|].
      pose proof (G (fun l => match fst (span is_digit t) with
               | "0" :: _ :: _ => if (digits_val (fst (span is_digit t)) =? 0)%N then Ok (TNum (PInt 0), l) else Err SyntaxError
               | _ => Ok (TNum (PInt (Z.of_N (digits_val (fst (span is_digit t))))), l) end)) as G'.
      cbv beta in G'. clear G DOT. destruct c as [[] [] [] [] [] [] [] []]; try (exfalso; apply Hc; reflexivity); exact (G' H NUM).
  Qed.
  Lemma lex1_app t k r rest : safe rest -> lex1 fread t = Ok (Some k, r) -> lex1 fread (t ++ rest) = Ok (Some k, r ++ rest).
  Proof.
    intros Hs H. destruct t as [|c t]; [discriminate|]. change ((c :: t) ++ rest) with (c :: (t ++ rest)). unfold lex1 in *.
    destruct (is_digit c) eqn:Ed.
    - destruct (lex_num fread (c :: t)) as [[k' r']|] eqn:E; cbn [bind] in H; [|discriminate]. injection H as <- <-.
      change (c :: t ++ rest) with ((c :: t) ++ rest). rewrite (lex_num_app _ _ _ rest Hs E). reflexivity.
    - destruct (is_idstart c) eqn:Ei.
      + change (c :: t ++ rest) with ((c :: t) ++ rest). rewrite (span_safe is_idchar (c :: t) rest Hs eq_refl eq_refl). cbn [fst snd].
        destruct (snd (span is_idchar (c :: t))) as [|c' r'] eqn:E; cbn [app].
        * injection H as <- <-. destruct rest as [|c1 rest]; [reflexivity|]. cbn [safe] in Hs. destruct Hs as [-> | ->]; reflexivity.
        * destruct (128 <=? code c')%N; [discriminate|]. injection H as <- <-. reflexivity.
      + assert (ST : forall (A B : token) (ch : ascii), ch = "*" \/ ch = "/" ->
          forall X : text -> res (option token * text),
          (forall l, X l = match l with c1 :: l' => if Ascii.eqb c1 ch then Ok (Some A, l') else Ok (Some B, l) | [] => Ok (Some B, l) end) ->
          X t = Ok (Some k, r) -> X (t ++ rest) = Ok (Some k, r ++ rest)).
        { intros A B ch Hch X HX. rewrite !HX. destruct t as [|c1 t]; cbn [app].
          - intros Z. injection Z as <- <-. destruct rest as [|c1 rest]; [reflexivity|]. cbn [safe] in Hs.
            destruct Hs as [-> | ->], Hch as [-> | ->]; reflexivity.
          - destruct (Ascii.eqb c1 ch); intros Z; injection Z as <- <-; reflexivity. }
        destruct c as [[] [] [] [] [] [] [] []]; try discriminate H;
          try (injection H as <- <-; reflexivity).
        * refine (ST (TOp ODSlash) (TOp OSlash) "/" (or_intror eq_refl) (fun l => match l with "/" :: t'' => Ok (Some (TOp ODSlash), t'') | _ => Ok (Some (TOp OSlash), l) end) _ H). intros [|c1 l]; [reflexivity|].
          destruct c1 as [[] [] [] [] [] [] [] []]; reflexivity.
        * refine (ST (TOp ODStar) (TOp OStar) "*" (or_introl eq_refl) (fun l => match l with "*" :: t'' => Ok (Some (TOp ODStar), t'') | _ => Ok (Some (TOp OStar), l) end) _ H). intros [|c1 l]; [reflexivity|].
          destruct c1 as [[] [] [] [] [] [] [] []]; reflexivity.
  Qed.

  (** ** Lexing consumes the text, so that the fuel of [lex] suffices *)
  Lemma span_len p t : length (fst (span p t)) + length (snd (span p t)) = length t.
  Proof. rewrite <- app_length, span_app. reflexivity. Qed.
  Lemma lex_num_shrinks t k r c t' : t = c :: t' -> is_digit c = true -> lex_num fread t = Ok (k, r) -> length r < length t.
  Proof.
    intros -> Hd H. unfold lex_num in H.
    assert (L : length (snd (span is_digit (c :: t'))) < length (c :: t')).
    { cbn [span]. rewrite Hd. cbn [snd length]. pose proof (span_len is_digit t'). lia. }
    remember (fst (span is_digit (c :: t'))) as ip. remember (snd (span is_digit (c :: t'))) as rest.
    assert (N : forall l : text, match ip with
               | "0" :: _ :: _ => if (digits_val ip =? 0)%N then Ok (TNum (PInt 0), l) else Err SyntaxError
               | _ => Ok (TNum (PInt (Z.of_N (digits_val ip))), l) end = Ok (k, r) -> r = l).
    { clear. intros l. assert (D : forall (b : bool) X Y, (if b then Ok (X, l) else Err Y) = Ok (k, r) -> r = l) by (intros [] ? ? Hq; [now injection Hq|discriminate]).
      assert (D' : forall X, Ok (X, l) = Ok (k, r) -> r = l) by (intros ? Hq; now injection Hq).
      destruct ip as [|c1 ip]; [apply D'|]. destruct ip as [|c2 ip]; [destruct c1 as [[] [] [] [] [] [] [] []]; apply D'|].
      destruct c1 as [[] [] [] [] [] [] [] []]; first [apply D' | apply D]. }
    destruct rest as [|c0 rest1]; [apply N in H; subst r; exact L|].
    assert (F : (if (is_idstart c0 || (128 <=? code c0)%N)%bool then Err Unmodelled else match ip with
               | "0" :: _ :: _ => if (digits_val ip =? 0)%N then Ok (TNum (PInt 0), c0 :: rest1) else Err SyntaxError
               | _ => Ok (TNum (PInt (Z.of_N (digits_val ip))), c0 :: rest1) end) = Ok (k, r) -> r = c0 :: rest1).
    { destruct (_ || _)%bool; [discriminate|]. apply N. }
    destruct (ascii_dec c0 ".") as [->|Hc].
    - pose proof (span_len is_digit rest1). cbn [length] in L.
      assert (G : r = snd (span is_digit rest1)).
      { destruct (snd (span is_digit rest1)) as [|c1 r2]; [now injection H|]. destruct (is_idstart c1 || (128 <=? code c1)%N)%bool; [discriminate|now injection H]. }
      subst r. cbn [length]. lia.
    - assert (R : r = c0 :: rest1).
      { apply F. destruct c0 as [[] [] [] [] [] [] [] []]; try (exfalso; apply Hc; reflexivity); exact H. }
      subst r. exact L.
  Qed.
  Lemma lex1_shrinks t k r : lex1 fread t = Ok (Some k, r) -> length r < length t.
  Proof.
    intros H. destruct t as [|c t]; [discriminate|]. unfold lex1 in H. destruct (is_digit c) eqn:Ed.
    - destruct (lex_num fread (c :: t)) as [[k' r']|] eqn:E; cbn [bind] in H; [|discriminate]. injection H as <- <-.
      exact (lex_num_shrinks _ _ _ c t eq_refl Ed E).
    - destruct (is_idstart c) eqn:Ei.
      + assert (L : length (snd (span is_idchar (c :: t))) < length (c :: t)).
        { cbn [span]. rewrite (idstart_idchar c Ei). cbn [snd length]. pose proof (span_len is_idchar t). lia. }
        destruct (snd (span is_idchar (c :: t))) as [|c' r']; [injection H as <- <-; exact L|].
        destruct (128 <=? code c')%N; [discriminate|]. injection H as <- <-. exact L.
      + assert (D : forall X, Ok (Some X, t) = Ok (Some k, r) -> length r < S (length t)) by (intros X Hx; injection Hx as _ <-; lia).
        assert (D2 : forall X c1 t1, t = c1 :: t1 -> Ok (Some X, t1) = Ok (Some k, r) -> length r < S (length t)) by (intros X c1 t1 -> Hx; injection Hx as _ <-; cbn [length]; lia).
        cbn [length]. destruct c as [[] [] [] [] [] [] [] []]; try discriminate H; try exact (D _ H).
        * destruct t as [|c1 t1]; [exact (D _ H)|]. destruct c1 as [[] [] [] [] [] [] [] []]; first [exact (D _ H) | exact (D2 _ _ _ eq_refl H)].
        * destruct t as [|c1 t1]; [exact (D _ H)|]. destruct c1 as [[] [] [] [] [] [] [] []]; first [exact (D _ H) | exact (D2 _ _ _ eq_refl H)].
  Qed.
  Lemma skip_spaces_len t : length (skip_spaces t) <= length t.
  Proof. induction t as [|c t IH]; cbn; auto. destruct (is_space c); cbn; lia. Qed.
  Lemma lex_fuel_enough f : forall t k, length t < f -> lex_fuel fread (k + f) t = lex_fuel fread f t.
  Proof.
    induction f as [|f IH]; intros t k H; [lia|]. rewrite Nat.add_succ_r. cbn [lex_fuel].
    destruct (lex1 fread (skip_spaces t)) as [[o r]|] eqn:E; auto. cbn [bind]. destruct o as [kk|]; auto.
    apply lex1_shrinks in E. pose proof (skip_spaces_len t). rewrite IH by lia. reflexivity.
  Qed.

  (** ** Putting texts together *)
  Definition lexed (t : text) (ks : list token) : Prop := exists f, lex_fuel fread f t = Ok ks.
  Lemma lexed_nil : lexed [] [].
  Proof. exists 1. reflexivity. Qed.
  Lemma skip_spaces_safe t rest : skip_spaces t = [] -> skip_spaces (t ++ rest) = skip_spaces rest.
  Proof. induction t as [|c t IH]; cbn; auto. destruct (is_space c); [auto|discriminate]. Qed.
  Lemma skip_spaces_app t rest : skip_spaces t <> [] -> skip_spaces (t ++ rest) = skip_spaces t ++ rest.
  Proof. induction t as [|c t IH]; cbn; [congruence|]. destruct (is_space c); auto. Qed.
  Lemma lexed_app f : forall t ks rest kr, safe rest -> lex_fuel fread f t = Ok ks -> lexed rest kr -> lexed (t ++ rest) (ks ++ kr).
  Proof.
    induction f as [|f IH]; intros t ks rest kr Hs H Hr; [discriminate|]. cbn [lex_fuel] in H.
    destruct (lex1 fread (skip_spaces t)) as [[o r]|] eqn:E; cbn [bind] in H; [|discriminate].
    destruct o as [k|].
    - destruct (lex_fuel fread f r) as [ks'|] eqn:E'; cbn [bind] in H; [|discriminate]. injection H as <-.
      destruct (IH r ks' rest kr Hs E' Hr) as [f2 H2]. exists (S f2). cbn [lex_fuel].
      rewrite skip_spaces_app by (intros X; rewrite X in E; discriminate).
      rewrite (lex1_app _ _ _ rest Hs E). cbn [bind]. rewrite H2. reflexivity.
    - injection H as <-. assert (X : skip_spaces t = []).
      { destruct (skip_spaces t) as [|c t']; auto. exfalso. revert E. clear. unfold lex1.
        destruct (is_digit c); [destruct (lex_num fread (c :: t')) as [[? ?]|]; discriminate|].
        destruct (is_idstart c).
        - destruct (snd (span is_idchar (c :: t'))) as [|c' ?]; [discriminate|]. destruct (128 <=? code c')%N; discriminate.
        - destruct c as [[] [] [] [] [] [] [] []]; try discriminate.
          + destruct t' as [|c1 t1]; [discriminate|]. destruct c1 as [[] [] [] [] [] [] [] []]; discriminate.
          + destruct t' as [|c1 t1]; [discriminate|]. destruct c1 as [[] [] [] [] [] [] [] []]; discriminate. }
      destruct Hr as [f2 Hr]. exists f2. rewrite app_nil_l. destruct f2 as [|f2]; [discriminate|]. cbn [lex_fuel] in *.
      rewrite skip_spaces_safe by exact X. exact Hr.
  Qed.
  Lemma lexed_op c k t ks : lex1 fread (c :: t) = Ok (Some k, t) -> is_space c = false -> lexed t ks -> lexed (c :: t) (k :: ks).
  Proof. intros H Hc [f Hf]. exists (S f). cbn [lex_fuel skip_spaces]. rewrite Hc, H. cbn [bind]. rewrite Hf. reflexivity. Qed.
  Lemma lexed_lex t ks : lexed t ks -> match t with [] => True | c :: _ => is_space c = false end -> lex fread t = Ok ks.
  Proof.
    intros [f H] Hc. unfold lex. destruct t as [|c t].
    - destruct f; [discriminate|]. exact H.
    - rewrite Hc. rewrite <- (lex_fuel_enough (S (length (c :: t))) (c :: t) f) by (cbn; lia).
      rewrite Nat.add_comm. apply (lex_fuel_le fread f); [lia|exact H].
  Qed.
  Lemma lex_lexed t ks : lex fread t = Ok ks -> lexed t ks.
  Proof.
    unfold lex. destruct t as [|c t]; [intros Hx; injection Hx as <-; apply lexed_nil|]. destruct (is_space c); [discriminate|].
    intros H. eexists. exact H.
  Qed.
End Lexing.


(** ** Preprocessing of a composed label *)
Definition pre (l : text) : text := replace_char "%" (T "percent") (dot_mul (replace_dot (replace_char "^" (T "**") l))).
Lemma replace_dot_cons c t : c <> "194" -> replace_dot (c :: t) = c :: replace_dot t.
Proof. intros H. destruct c as [[] [] [] [] [] [] [] []]; auto. exfalso; now apply H. Qed.
Lemma replace_dot_one t : match t with c :: _ => c <> "183" | [] => True end -> replace_dot ("194" :: t) = "194" :: replace_dot t.
Proof. intros H. destruct t as [|[[] [] [] [] [] [] [] []] t]; auto. exfalso; now apply H. Qed.
Definition border (c : ascii) : Prop := c = "(" \/ c = ")".
Lemma replace_dot_border c y : border c -> forall n x, length x < n -> replace_dot (x ++ c :: y) = replace_dot x ++ c :: replace_dot y.
Proof.
  intros Hc. assert (C1 : c <> "194") by (destruct Hc as [-> | ->]; discriminate). assert (C2 : c <> "183") by (destruct Hc as [-> | ->]; discriminate).
  induction n as [|n IH]; intros x Hx; [lia|]. destruct x as [|a x]; cbn [app].
  - now apply replace_dot_cons.
  - cbn [length] in Hx. destruct (ascii_dec a "194") as [->|Ha].
    + destruct x as [|b x]; cbn [app].
      * rewrite !replace_dot_one by auto. rewrite replace_dot_cons by auto. reflexivity.
      * cbn [length] in Hx. destruct (ascii_dec b "183") as [->|Hb].
        -- change (replace_dot ("194" :: "183" :: x ++ c :: y)) with ("*" :: replace_dot (x ++ c :: y)).
           change (replace_dot ("194" :: "183" :: x)) with ("*" :: replace_dot x). rewrite IH by lia. reflexivity.
        -- rewrite !replace_dot_one by auto. change (b :: x ++ c :: y) with ((b :: x) ++ c :: y). rewrite IH by (cbn [length]; lia). reflexivity.
    + rewrite !replace_dot_cons by auto. rewrite IH by lia. reflexivity.
Qed.
Lemma dot_mul_plain a r : match r with d :: b :: _ => d <> "." \/ (is_letter a && is_letter b)%bool = false | _ => True end ->
  dot_mul (a :: r) = a :: dot_mul r.
Proof.
  intros H. cbn [dot_mul]. destruct r as [|d [|b r]]; auto; [destruct d as [[] [] [] [] [] [] [] []]; reflexivity|].
  destruct H as [H|H].
  - destruct d as [[] [] [] [] [] [] [] []]; try reflexivity. exfalso; now apply H.
  - rewrite H. destruct d as [[] [] [] [] [] [] [] []]; reflexivity.
Qed.
Lemma dot_mul_match a b t : is_letter a = true -> is_letter b = true -> dot_mul (a :: "." :: b :: t) = a :: "*" :: b :: dot_mul t.
Proof. intros Ha Hb. cbn [dot_mul]. now rewrite Ha, Hb. Qed.
Lemma dot_mul_border c y : border c -> forall n x, length x < n -> dot_mul (x ++ c :: y) = dot_mul x ++ c :: dot_mul y.
Proof.
  intros Hc. assert (C1 : c <> ".") by (destruct Hc as [-> | ->]; discriminate). assert (C2 : is_letter c = false) by (destruct Hc as [-> | ->]; reflexivity).
  induction n as [|n IH]; intros x Hx; [lia|]. destruct x as [|a x]; cbn [app].
  - apply dot_mul_plain. destruct y as [|d [|b y]]; auto. right. now rewrite C2.
  - cbn [length] in Hx. destruct x as [|d x]; cbn [app].
    + rewrite (dot_mul_plain a (c :: y)) by (destruct y; auto). rewrite (dot_mul_plain a []) by exact I.
      change (c :: y) with ([] ++ c :: y). rewrite IH by (cbn; lia). reflexivity.
    + destruct x as [|b x]; cbn [app].
      * rewrite !dot_mul_plain with (a := a); auto; [|right; rewrite C2; apply andb_false_r].
        change (d :: c :: y) with ([d] ++ c :: y). rewrite IH by (cbn [length] in *; lia). reflexivity.
      * cbn [length] in Hx. destruct (ascii_dec d ".") as [->|Hd].
        -- destruct (is_letter a && is_letter b)%bool eqn:L.
           ++ apply andb_true_iff in L. destruct L as [La Lb]. rewrite !dot_mul_match by assumption. rewrite IH by lia. reflexivity.
           ++ rewrite !dot_mul_plain with (a := a) by (right; exact L).
              change ("." :: b :: x ++ c :: y) with (("." :: b :: x) ++ c :: y). rewrite IH by (cbn [length]; lia). reflexivity.
        -- rewrite !dot_mul_plain with (a := a) by (left; exact Hd).
           change (d :: b :: x ++ c :: y) with ((d :: b :: x) ++ c :: y). rewrite IH by (cbn [length]; lia). reflexivity.
Qed.
Lemma replace_char_other x by_ c t : c <> x -> replace_char x by_ (c :: t) = c :: replace_char x by_ t.
Proof. intros H. unfold replace_char. cbn [flat_map]. destruct (ascii_dec c x); [contradiction|reflexivity]. Qed.
Lemma pre_border c x y : border c -> pre (x ++ c :: y) = pre x ++ c :: pre y.
Proof.
  intros Hc. unfold pre. rewrite replace_char_app, replace_char_other by (destruct Hc as [-> | ->]; discriminate).
  rewrite (replace_dot_border c _ Hc _ _ (Nat.lt_succ_diag_r _)), (dot_mul_border c _ Hc _ _ (Nat.lt_succ_diag_r _)).
  rewrite replace_char_app, replace_char_other by (destruct Hc as [-> | ->]; discriminate). reflexivity.
Qed.
Lemma replace_char_len x by_ t : by_ <> [] -> length t <= length (replace_char x by_ t).
Proof.
  intros H. induction t as [|c t IH]; [cbn; lia|]. unfold replace_char in *. cbn [flat_map]. rewrite app_length. cbn [length].
  destruct (ascii_dec c x); [destruct by_; [congruence|cbn [length]; lia]|cbn [length]; lia].
Qed.
Lemma replace_char_id x by_ t : replace_char x by_ t = t \/ exists a b, replace_char x by_ t = a ++ by_ ++ b.
Proof.
  induction t as [|c t IH]; [now left|]. unfold replace_char in *. cbn [flat_map]. destruct (ascii_dec c x) as [->|H].
  - right. exists [], (flat_map (fun y => if ascii_dec y x then by_ else [y]) t). reflexivity.
  - destruct IH as [->|(a & b & ->)]; [now left|]. right. exists (c :: a), b. reflexivity.
Qed.
Lemma replace_dot_id n : forall t, length t < n -> replace_dot t = t \/ In "*" (replace_dot t).
Proof.
  induction n as [|n IH]; intros t H; [lia|]. destruct t as [|c t]; [now left|]. cbn [length] in H.
  assert (C : replace_dot (c :: t) = c :: replace_dot t -> replace_dot (c :: t) = c :: t \/ In "*" (replace_dot (c :: t))).
  { intros ->. destruct (IH t ltac:(lia)) as [->|X]; [now left|right; now right]. }
  destruct (ascii_dec c "194") as [->|Hc]; [|apply C; now apply replace_dot_cons].
  destruct t as [|d t]; [apply C; reflexivity|]. destruct (ascii_dec d "183") as [->|Hd]; [|apply C; now apply replace_dot_one].
  right. now left.
Qed.
Lemma dot_mul_id n : forall t, length t < n -> dot_mul t = t \/ In "*" (dot_mul t).
Proof.
  induction n as [|n IH]; intros t H; [lia|]. destruct t as [|a t]; [now left|]. cbn [length] in H.
  assert (C : dot_mul (a :: t) = a :: dot_mul t -> dot_mul (a :: t) = a :: t \/ In "*" (dot_mul (a :: t))).
  { intros ->. destruct (IH t ltac:(lia)) as [->|X]; [now left|right; now right]. }
  destruct t as [|d [|b t]]; try (apply C; apply dot_mul_plain; exact I).
  destruct (ascii_dec d ".") as [->|Hd]; [|apply C; apply dot_mul_plain; now left].
  destruct (is_letter a && is_letter b)%bool eqn:L; [|apply C; apply dot_mul_plain; now right].
  apply andb_true_iff in L. rewrite dot_mul_match by apply L. right. right. now left.
Qed.
Lemma lower_in t : lower t = T "in" -> exists c d, t = [c; d] /\ ~ In "*" t.
Proof.
  intros H. destruct t as [|c [|d [|e t]]]; try discriminate H. exists c, d. split; auto.
  change [lower_char c; lower_char d] with (lower [c; d]) in H. cbn in H. injection H as H1 H2.
  intros [-> | [-> | []]]; discriminate.
Qed.
Lemma pre_in a : lower (pre a) = T "in" -> lower a = T "in".
Proof.
  intros H. destruct (lower_in _ H) as (c & d & E & Hs). unfold pre in *.
  set (t3 := dot_mul (replace_dot (replace_char "^" (T "**") a))) in *.
  assert (E3 : t3 = [c; d]).
  { destruct (replace_char_id "%" (T "percent") t3) as [X|(x & y & X)]; [congruence|]. rewrite E in X. apply (f_equal (@length ascii)) in X.
    rewrite !app_length in X. cbn in X. lia. }
  assert (N3 : ~ In "*" t3) by (rewrite E3, <- E; exact Hs).
  destruct (dot_mul_id _ (replace_dot (replace_char "^" (T "**") a)) (Nat.lt_succ_diag_r _)) as [X|X]; [|exfalso; now apply N3].
  fold t3 in X. rewrite X in N3. destruct (replace_dot_id _ (replace_char "^" (T "**") a) (Nat.lt_succ_diag_r _)) as [Y|Y]; [|contradiction].
  rewrite Y in N3. destruct (replace_char_id "^" (T "**") a) as [Z1|(x & y & Z1)].
  - rewrite E in H. rewrite <- E3, X, Y, Z1 in H. exact H.
  - exfalso. apply N3. rewrite Z1. apply in_app_iff. right. now left.
Qed.
Lemma pre_nil a : pre a = [] -> a = [].
Proof.
  unfold pre. intros H. destruct a as [|c a]; auto. exfalso.
  assert (R : forall x by_ t, by_ <> [] -> t <> [] -> replace_char x by_ t <> []).
  { intros x by_ t Hb Ht X. pose proof (replace_char_len x by_ t Hb). rewrite X in H0. destruct t; [congruence|cbn in H0; lia]. }
  revert H. apply R; [discriminate|].
  assert (D : forall t, t <> [] -> dot_mul t <> []) by (intros [|x [|y [|z t]]] Ht; [congruence| | |]; cbn [dot_mul]; repeat (destruct y as [[] [] [] [] [] [] [] []] || fail); try discriminate; destruct (_ && _)%bool; discriminate).
  assert (D' : forall t, t <> [] -> replace_dot t <> []).
  { intros [|x t] Ht; [congruence|]. destruct (ascii_dec x "194") as [->|Hx]; [|rewrite replace_dot_cons by auto; discriminate].
    destruct t as [|y t]; [discriminate|]. destruct (ascii_dec y "183") as [->|Hy]; [discriminate|rewrite replace_dot_one by auto; discriminate]. }
  apply D, D', R; discriminate.
Qed.
Lemma preprocess_pre a : a <> [] -> lower a <> T "in" -> preprocess a = pre a.
Proof.
  intros H1 H2. unfold preprocess, pre. set (t := dot_mul _). 
  assert (Ht : t <> []). { intros X. apply H1, pre_nil. unfold pre. fold t. rewrite X. reflexivity. }
  destruct t as [|c t'] eqn:Et; [congruence|]. rewrite <- Et in *.
  destruct (teqb (lower (replace_char "%" (T "percent") t)) (T "in")) eqn:E; auto.
  exfalso. apply H2, pre_in. unfold pre. change (dot_mul (replace_dot (replace_char "^" (T "**") a))) with t.
  apply teqb_eq. rewrite Et in *. exact E.
Qed.
