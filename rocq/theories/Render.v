(** * Render: the renderings of a dimensionality, factor by factor. *)
From Coq Require Import Ascii NArith Permutation.
From Verif Require Import Py Num Dim DimFacts Arr Units Hash Text Lex LexFacts Markup PrintFacts RoundTrip.

Open Scope char_scope.
Open Scope list_scope.

(** ** Specification *)

(** A factor: a symbol and a positive whole exponent (not written if it is 1). *)
Definition render_fac (pw : text -> text) (f : text * N) : text :=
  fst f ++ (if (snd f =? 1)%N then [] else pw (digits (snd f))).
Definition render_prod (mul : text) (pw : text -> text) (l : list (text * N)) : text :=
  join mul (map (render_fac pw) l).
(** More than one factor below the line: parentheses. *)
Definition render_den (mul : text) (pw : text -> text) (l : list (text * N)) : text :=
  match l with
  | _ :: _ :: _ => T "(" ++ render_prod mul pw l ++ T ")"
  | _ => render_prod mul pw l
  end.
Definition render (mul : text) (pw : text -> text) (frac : text -> text -> text) (num den : list (text * N)) : text :=
  match num, den with
  | [], [] => T "dimensionless"
  | _, [] => render_prod mul pw num
  | [], _ => frac (T "1") (render_den mul pw den)
  | _, _ => frac (render_prod mul pw num) (render_den mul pw den)
  end.

(** A symbol without [*] and [/] that does not begin with a parenthesis. *)
Definition plain_symbol (s : text) : Prop :=
  ~ In "*" s /\ ~ In "/" s /\ match s with [] => False | c :: _ => c <> "(" end.

(** ** Pieces *)
Inductive piece : Type := PT (t : text) | PM | PS | PP (n : N).
Definition put (mul : text) (pw : text -> text) (p : piece) : text :=
  match p with
  | PT t => t
  | PM => mul
  | PS => T "/"
  | PP n => pw (digits n)
  end.
Definition puts (mul : text) (pw : text -> text) (l : list piece) : text := flat_map (put mul pw) l.
Definition pstar (e : text) : text := T "**" ++ e.

Fixpoint pok (l : list piece) : Prop :=
  match l with
  | [] => True
  | PT t :: l' => ~ In "*" t /\ pok l'
  | PM :: l' => match l' with PT (_ :: _) :: _ => True | _ => False end /\ pok l'
  | PS :: l' => pok l'
  | PP n :: l' => match l' with
                  | [] => True
                  | PM :: _ | PS :: _ => True
                  | PT (c :: _) :: _ => is_digit c = false /\ c <> "."
                  | _ => False
                  end /\ pok l'
  end.

Lemma puts_app mul pw a b : puts mul pw (a ++ b) = puts mul pw a ++ puts mul pw b.
Proof. apply flat_map_app. Qed.
Lemma pok_app a b : pok a -> pok b ->
  match b with [] => True | PM :: _ | PS :: _ => True | PT (c :: _) :: _ => is_digit c = false /\ c <> "." | _ => False end ->
  match last a PS with PM => match b with PT (_ :: _) :: _ => True | _ => False end | _ => True end ->
  pok (a ++ b).
Proof.
  induction a as [|p a IH]; intros Ha Hb Hs Hl; auto.
  assert (Hl' : a = [] \/ last (p :: a) PS = last a PS) by (destruct a; [left|right]; auto).
  destruct p; cbn [pok app] in *.
  - split; [tauto|]. apply IH; try tauto. destruct Hl' as [-> |X]; [exact I|now rewrite <- X].
  - destruct Ha as [H1 H2]. split.
    + destruct a as [|q a]; [destruct H1|]. cbn. exact H1.
    + apply IH; auto. destruct Hl' as [-> |X]; [exact I|now rewrite <- X].
  - apply IH; auto. destruct Hl' as [-> |X]; [exact I|now rewrite <- X].
  - destruct Ha as [H1 H2]. split.
    + destruct a as [|q a]; cbn; auto.
    + apply IH; auto. destruct Hl' as [-> |X]; [exact I|now rewrite <- X].
Qed.

(** ** Scanning *)
Section Scan.
  Variable m : text -> option (text * text).
  Hypothesis m_none : forall t, match t with "*" :: "*" :: _ => False | _ => True end -> m t = None.
  Hypothesis m_some : forall ds rest, ds <> [] -> Forall (fun c => is_digit c = true) ds ->
    match rest with [] => True | c :: _ => is_digit c = false /\ c <> "." end ->
    m ("*" :: "*" :: ds ++ rest) = Some (ds, rest).
  Variable f : text -> text.

  Lemma m_nostar c t : c <> "*" -> m (c :: t) = None.
  Proof. intros H. apply m_none. destruct c as [[] [] [] [] [] [] [] []]; auto; congruence. Qed.
  Lemma m_single t : match t with "*" :: _ => False | _ => True end -> m ("*" :: t) = None.
  Proof. intros H. apply m_none. destruct t as [|[[] [] [] [] [] [] [] []] t]; auto. Qed.

  Lemma scan_text t : ~ In "*" t -> forall k r, scan (length t + k) m f (t ++ r) = t ++ scan k m f r.
  Proof.
    induction t as [|c t IH]; intros H k r; auto. cbn [length plus app scan].
    rewrite m_nostar by (intros ->; apply H; cbn; auto). f_equal. apply IH. intros X; apply H; cbn; auto.
  Qed.
  Lemma scan_pieces l : forall k, pok l -> length (puts (T "*") pstar l) < k ->
    scan k m f (puts (T "*") pstar l) = puts (T "*") f l.
  Proof.
    induction l as [|p l IH]; intros k H Hk.
    - destruct k; reflexivity.
    - destruct p as [t| | |n]; cbn [pok] in H.
      + destruct H as [H1 H2]. change (puts (T "*") pstar (PT t :: l)) with (t ++ puts (T "*") pstar l) in *.
        rewrite app_length in Hk. replace k with (length t + (k - length t)) by lia.
        rewrite scan_text by auto. change (puts (T "*") f (PT t :: l)) with (t ++ puts (T "*") f l).
        f_equal. apply IH; auto. lia.
      + destruct H as [H1 H2]. change (puts (T "*") pstar (PM :: l)) with ("*" :: puts (T "*") pstar l) in *.
        destruct k as [|k]; [cbn [length] in Hk; lia|]. cbn [scan]. rewrite m_single.
        * change (puts (T "*") f (PM :: l)) with ("*" :: puts (T "*") f l). f_equal. apply IH; auto. cbn [length] in Hk. lia.
        * destruct l as [|[[|c t]| | |] l]; try destruct H1. cbn in H2 |- *.
          destruct c as [[] [] [] [] [] [] [] []]; auto. apply (proj1 H2). cbn; auto.
      + change (puts (T "*") pstar (PS :: l)) with ("/" :: puts (T "*") pstar l) in *.
        destruct k as [|k]; [cbn [length] in Hk; lia|]. cbn [scan]. rewrite m_nostar by discriminate.
        change (puts (T "*") f (PS :: l)) with ("/" :: puts (T "*") f l). f_equal. apply IH; auto. cbn [length] in Hk. lia.
      + destruct H as [H1 H2]. change (puts (T "*") pstar (PP n :: l)) with ("*" :: "*" :: digits n ++ puts (T "*") pstar l) in *.
        destruct k as [|k]; [cbn [length] in Hk; lia|]. cbn [scan]. rewrite m_some.
        * change (puts (T "*") f (PP n :: l)) with (f (digits n) ++ puts (T "*") f l). f_equal.
          apply IH; auto. cbn [length] in Hk. rewrite app_length in Hk. lia.
        * apply digits_nonempty.
        * apply digits_digit.
        * destruct l as [|[[|c t]| | |] l]; try destruct H1; cbn; auto; split; auto; discriminate.
  Qed.
End Scan.

Lemma star_pair t : {t' | t = "*" :: "*" :: t'} + {match t with "*" :: "*" :: _ => False | _ => True end}.
Proof.
  destruct t as [|c [|c' t]]; [right; exact I|right; destruct c as [[] [] [] [] [] [] [] []]; exact I|].
  destruct (ascii_dec c "*") as [->|H].
  - destruct (ascii_dec c' "*") as [->|H'].
    + left. eauto.
    + right. destruct c' as [[] [] [] [] [] [] [] []]; auto; congruence.
  - right. destruct c as [[] [] [] [] [] [] [] []]; auto; congruence.
Qed.
Lemma match_pow_none t : match t with "*" :: "*" :: _ => False | _ => True end -> match_pow t = None.
Proof.
  intros H. destruct t as [|[[] [] [] [] [] [] [] []] t]; auto.
  destruct t as [|[[] [] [] [] [] [] [] []] t]; auto. destruct H.
Qed.
Lemma match_pow'_none t : match t with "*" :: "*" :: _ => False | _ => True end -> match_pow' t = None.
Proof.
  intros H. destruct t as [|[[] [] [] [] [] [] [] []] t]; auto.
  destruct t as [|[[] [] [] [] [] [] [] []] t]; auto. destruct H.
Qed.
Lemma match_pow_some ds rest : ds <> [] -> Forall (fun c => is_digit c = true) ds ->
  match rest with [] => True | c :: _ => is_digit c = false /\ c <> "." end ->
  match_pow ("*" :: "*" :: ds ++ rest) = Some (ds, rest).
Proof.
  intros Hn Hd Hr. unfold match_pow. rewrite span_eq; auto.
  2:{ destruct rest; cbn; tauto. }
  cbn [fst snd]. destruct ds; [congruence|]. destruct rest as [|c rest]; auto.
  destruct Hr as [_ Hr]. destruct c as [[] [] [] [] [] [] [] []]; auto; congruence.
Qed.
Lemma match_pow'_some ds rest : ds <> [] -> Forall (fun c => is_digit c = true) ds ->
  match rest with [] => True | c :: _ => is_digit c = false /\ c <> "." end ->
  match_pow' ("*" :: "*" :: ds ++ rest) = Some (ds, rest).
Proof.
  intros Hn Hd Hr. unfold match_pow'. rewrite span_eq; auto.
  2:{ destruct rest; cbn; tauto. }
  cbn [fst snd]. destruct ds; [congruence|]. reflexivity.
Qed.

(** Replacing the multiplication signs. *)
Lemma replace_star mul f l : (forall n, ~ In "*" (f (digits n))) -> pok l ->
  replace_char "*" mul (puts (T "*") f l) = puts mul f l.
Proof.
  intros Hf. induction l as [|p l IH]; intros H; auto.
  change (puts (T "*") f (p :: l)) with (put (T "*") f p ++ puts (T "*") f l).
  change (puts mul f (p :: l)) with (put mul f p ++ puts mul f l).
  rewrite replace_char_app. destruct p; cbn [pok] in H; cbn [put].
  - rewrite replace_char_none by tauto. f_equal. tauto.
  - rewrite IH by tauto. change (replace_char "*" mul (T "*")) with (mul ++ []). now rewrite app_nil_r.
  - rewrite IH by tauto. reflexivity.
  - rewrite replace_char_none by auto. f_equal. tauto.
Qed.
Lemma replace_pow_text t r : ~ In "*" t -> replace_pow (t ++ r) = t ++ replace_pow r.
Proof.
  induction t as [|c t IH]; intros H; auto. cbn [app].
  assert (Hc : c <> "*") by (intros ->; apply H; cbn; auto).
  assert (X : replace_pow (c :: t ++ r) = c :: replace_pow (t ++ r)).
  { destruct c as [[] [] [] [] [] [] [] []]; auto; congruence. }
  rewrite X. f_equal. apply IH. intros Y. apply H; cbn; auto.
Qed.
Lemma replace_pow_pieces f l : (forall n, ~ In "*" (f (digits n))) -> pok l ->
  replace_pow (puts (T "*") f l) = puts (T "*") f l.
Proof.
  intros Hf. induction l as [|p l IH]; intros H; auto.
  change (puts (T "*") f (p :: l)) with (put (T "*") f p ++ puts (T "*") f l).
  destruct p; cbn [pok] in H; cbn [put].
  - rewrite replace_pow_text by tauto. f_equal. tauto.
  - destruct l as [|[[|c t]| | |] l]; try tauto. destruct H as [_ H].
    assert (Hc : c <> "*") by (intros ->; apply H; cbn; auto).
    assert (X : replace_pow (T "*" ++ puts (T "*") f (PT (c :: t) :: l)) = "*" :: replace_pow (puts (T "*") f (PT (c :: t) :: l))).
    { cbn. destruct c as [[] [] [] [] [] [] [] []]; auto; congruence. }
    rewrite X, IH by auto. reflexivity.
  - rewrite replace_pow_text by (cbn; intuition discriminate). f_equal. tauto.
  - rewrite replace_pow_text by auto. f_equal. tauto.
Qed.

Lemma sup_digits_nostar n : ~ In "*" (sup_digits (digits n)).
Proof.
  intros H. unfold sup_digits in H. apply in_flat_map in H. destruct H as (c & _ & H).
  unfold sup_digit in H. destruct (N.to_nat (digit_val c)) as [|k]; [cbn in H; intuition discriminate|].
  do 10 (destruct k as [|k]; [cbn in H; intuition discriminate|]).
  cbn in H. destruct k; destruct H.
Qed.
Lemma digits_nostar n : ~ In "*" (digits n).
Proof.
  intros H. pose proof (digits_digit n) as F. rewrite Forall_forall in F. specialize (F _ H). discriminate.
Qed.
Lemma digits_noslash n : ~ In "/" (digits n).
Proof.
  intros H. pose proof (digits_digit n) as F. rewrite Forall_forall in F. specialize (F _ H). discriminate.
Qed.

(** ** The pieces of a product *)
Definition fac_pieces (f : text * N) : list piece :=
  PT (fst f) :: (if (snd f =? 1)%N then [] else [PP (snd f)]).
Fixpoint prod_pieces (l : list (text * N)) : list piece :=
  match l with
  | [] => []
  | f :: l' => fac_pieces f ++ match l' with [] => [] | _ => PM :: prod_pieces l' end
  end.
Definition den_pieces (l : list (text * N)) : list piece :=
  match l with
  | _ :: _ :: _ => PT (T "(") :: prod_pieces l ++ [PT (T ")")]
  | _ => prod_pieces l
  end.
Lemma put_fac mul pw f : puts mul pw (fac_pieces f) = render_fac pw f.
Proof.
  unfold render_fac, fac_pieces, puts. cbn [flat_map put]. f_equal.
  destruct (snd f =? 1)%N; auto. cbn. now rewrite app_nil_r.
Qed.
Lemma put_prod mul pw l : puts mul pw (prod_pieces l) = render_prod mul pw l.
Proof.
  induction l as [|f l IH]; auto. cbn [prod_pieces]. rewrite puts_app, put_fac.
  destruct l as [|f' l]; [apply app_nil_r|].
  change (puts mul pw (PM :: prod_pieces (f' :: l))) with (mul ++ puts mul pw (prod_pieces (f' :: l))).
  rewrite IH. reflexivity.
Qed.
Lemma put_den mul pw l : puts mul pw (den_pieces l) = render_den mul pw l.
Proof.
  destruct l as [|f [|f' l]]; try apply put_prod.
  change (den_pieces (f :: f' :: l)) with ([PT (T "(")] ++ prod_pieces (f :: f' :: l) ++ [PT (T ")")]).
  rewrite !puts_app, put_prod. reflexivity.
Qed.

Definition facs_plain (l : list (text * N)) : Prop := Forall (fun f => plain_symbol (fst f)) l.
Lemma pok_prod l b : facs_plain l -> pok b ->
  match b with [] => True | PS :: _ => True | PT (c :: _) :: _ => is_digit c = false /\ c <> "." | _ => False end ->
  pok (prod_pieces l ++ b).
Proof.
  intros F Hb Hs. induction F as [|f l Hf F IH]; auto.
  cbn [prod_pieces]. rewrite <- app_assoc. unfold fac_pieces.
  destruct Hf as (H1 & H2 & H3).
  assert (G : pok (match l with [] => [] | _ :: _ => PM :: prod_pieces l end ++ b) /\
              match match l with [] => [] | _ :: _ => PM :: prod_pieces l end ++ b with
              | [] => True | PM :: _ | PS :: _ => True
              | PT (c :: _) :: _ => is_digit c = false /\ c <> "." | _ => False end).
  { destruct l as [|f' l]; [split; [exact Hb|]|].
    - cbn [app]. destruct b as [|[[|? ?]| | |] b]; auto.
    - split; [|exact I]. cbn [app pok]. split; [|exact IH].
      inversion F as [|? ? Hf' _]; subst. destruct Hf' as (_ & _ & H3'). cbn [prod_pieces fac_pieces app].
      destruct (fst f'); [destruct H3'|exact I]. }
  destruct G as [G1 G2]. cbn [app pok]. destruct (snd f =? 1)%N; cbn [app pok]; auto.
Qed.
Lemma pok_den l : facs_plain l -> pok (den_pieces l).
Proof.
  intros F. unfold den_pieces. destruct l as [|f [|f' l]]; auto.
  - exact I.
  - rewrite <- (app_nil_r (prod_pieces [f])). apply pok_prod; auto; exact I.
  - cbn [pok]. split; [cbn; intuition discriminate|]. apply pok_prod; auto; cbn; intuition discriminate.
Qed.
Lemma pok_den' l b : facs_plain l -> pok b ->
  match b with [] => True | PT (c :: _) :: _ => is_digit c = false /\ c <> "." | _ => False end ->
  pok (den_pieces l ++ b).
Proof.
  intros F Hb Hs. 
  assert (Hs' : match b with [] => True | PS :: _ => True | PT (c :: _) :: _ => is_digit c = false /\ c <> "." | _ => False end)
    by (destruct b as [|[[|? ?]| | |] b]; auto).
  unfold den_pieces. destruct l as [|f [|f' l]]; auto.
  - apply pok_prod; auto.
  - cbn [app pok]. split; [cbn; intuition discriminate|]. rewrite <- app_assoc. apply pok_prod; auto.
    + cbn [app pok]. split; [cbn; intuition discriminate|auto].
    + cbn. split; [reflexivity|discriminate].
Qed.

(** The pieces of the whole text. *)
Definition all_pieces (num den : list (text * N)) : list piece :=
  match num, den with
  | [], [] => [PT (T "dimensionless")]
  | _, [] => prod_pieces num
  | [], _ => PT (T "1") :: PS :: den_pieces den
  | _, _ => prod_pieces num ++ PS :: den_pieces den
  end.
Lemma pok_all num den : facs_plain num -> facs_plain den -> pok (all_pieces num den).
Proof.
  intros Hn Hd. unfold all_pieces. destruct num as [|f num], den as [|g den].
  - cbn. intuition discriminate.
  - cbn [pok]. split; [cbn; intuition discriminate|now apply pok_den].
  - rewrite <- (app_nil_r (prod_pieces _)). apply pok_prod; auto; exact I.
  - apply pok_prod; auto. cbn [pok]. now apply pok_den.
Qed.
Lemma put_all mul pw num den : puts mul pw (all_pieces num den) = render mul pw (fun a b => a ++ T "/" ++ b) num den.
Proof.
  unfold all_pieces, render. destruct num as [|f num], den as [|g den].
  - reflexivity.
  - change (puts mul pw (PT (T "1") :: PS :: den_pieces (g :: den))) with (T "1" ++ T "/" ++ puts mul pw (den_pieces (g :: den))).
    now rewrite put_den.
  - apply put_prod.
  - rewrite puts_app, put_prod.
    change (puts mul pw (PS :: den_pieces (g :: den))) with (T "/" ++ puts mul pw (den_pieces (g :: den))).
    now rewrite put_den.
Qed.

(** ** The fraction of the LaTeX rendering *)
Lemma split_last_none t : ~ In "/" t -> split_last t = None.
Proof.
  induction t as [|c t IH]; intros H; auto. cbn [split_last].
  rewrite IH by (intros X; apply H; cbn; auto).
  assert (Hc : c <> "/") by (intros ->; apply H; cbn; auto).
  destruct c as [[] [] [] [] [] [] [] []]; auto; congruence.
Qed.
Lemma split_last_at a b : b <> [] -> ~ In "/" b -> split_last (a ++ "/" :: b) = Some (a, b).
Proof.
  intros Hb Hn. induction a as [|c a IH].
  - cbn [app split_last]. rewrite split_last_none by auto. destruct b; [congruence|reflexivity].
  - cbn [app split_last]. now rewrite IH.
Qed.
Lemma to_frac_none t : ~ In "/" t -> to_frac t = t.
Proof.
  intros H. destruct t as [|c t]; auto. unfold to_frac. rewrite split_last_none; auto.
  intros X. apply H; cbn; auto.
Qed.
Lemma to_frac_at a b : a <> [] -> b <> [] -> ~ In "/" b ->
  to_frac (a ++ "/" :: b) = T "\frac{" ++ a ++ T "}{" ++ b ++ T "}".
Proof.
  intros Ha Hb Hn. destruct a as [|c a]; [congruence|]. unfold to_frac. cbn [app].
  rewrite split_last_at by auto. reflexivity.
Qed.

Lemma in_join_not c sep l : ~ In c sep -> Forall (fun t => ~ In c t) l -> ~ In c (join sep l).
Proof.
  intros Hs F. induction F as [|t l Ht F IH]; cbn; auto. destruct l as [|t' l]; auto.
  intros X. apply in_app_or in X. destruct X as [X|X]; auto. apply in_app_or in X. destruct X; auto.
Qed.
Lemma fac_noslash f : plain_symbol (fst f) -> ~ In "/" (render_fac pstar f).
Proof.
  intros (_ & H & _) X. unfold render_fac in X. apply in_app_or in X. destruct X as [X|X]; auto.
  destruct (snd f =? 1)%N; [destruct X|]. unfold pstar in X. apply in_app_or in X. destruct X as [X|X].
  - cbn in X. intuition discriminate.
  - exact (digits_noslash _ X).
Qed.
Lemma prod_noslash l : facs_plain l -> ~ In "/" (render_prod (T "*") pstar l).
Proof.
  intros F. apply in_join_not; [cbn; intuition discriminate|].
  induction F; cbn; constructor; auto using fac_noslash.
Qed.
Lemma den_noslash l : facs_plain l -> ~ In "/" (render_den (T "*") pstar l).
Proof.
  intros F. unfold render_den. destruct l as [|f [|f' l]]; try (apply prod_noslash; auto).
  intros X. apply in_app_or in X. destruct X as [X|X]; [cbn in X; intuition discriminate|].
  apply in_app_or in X. destruct X as [X|X]; [exact (prod_noslash _ F X)|cbn in X; intuition discriminate].
Qed.
Lemma prod_head mul f l : plain_symbol (fst f) -> exists c t, render_prod mul pstar (f :: l) = c :: t /\ c <> "(".
Proof.
  intros (_ & _ & H). unfold render_prod. cbn [map]. unfold render_fac at 1.
  destruct (fst f) as [|c s]; [destruct H|]. destruct l; cbn; eauto.
Qed.
Lemma den_nonempty f l : plain_symbol (fst f) -> render_den (T "*") pstar (f :: l) <> [].
Proof.
  intros H. destruct l as [|f' l]; [|discriminate].
  destruct (prod_head (T "*") f [] H) as (c & t & E & _). cbn [render_den]. rewrite E. discriminate.
Qed.

Definition frac_slash (a b : text) : text := a ++ T "/" ++ b.
Definition frac_latex (a b : text) : text := T "\frac{" ++ a ++ T "}{" ++ b ++ T "}".
Lemma plain_not_compound num den : facs_plain num -> facs_plain den ->
  compound (render (T "*") pstar frac_slash num den) = false.
Proof.
  intros Hn Hd.
  assert (G : exists c t, render (T "*") pstar frac_slash num den = c :: t /\ c <> "(").
  { destruct num as [|f num], den as [|g den].
    - exists "d". eexists. split; [reflexivity|discriminate].
    - exists "1". eexists. split; [reflexivity|discriminate].
    - inversion Hn; subst. now apply prod_head.
    - inversion Hn; subst. destruct (prod_head (T "*") f num) as (c & t & E & Hc); auto.
      exists c. eexists. split; [|exact Hc]. cbn [render]. unfold frac_slash. rewrite E. reflexivity. }
  destruct G as (c & t & -> & Hc). unfold compound.
  destruct c as [[] [] [] [] [] [] [] []]; auto; congruence.
Qed.

(** The pieces of the text after the fraction has been made. *)
Definition frac_pieces (num den : list (text * N)) : list piece :=
  match num, den with
  | _, [] => all_pieces num den
  | [], _ => PT (T "\frac{1}{") :: den_pieces den ++ [PT (T "}")]
  | _, _ => PT (T "\frac{") :: prod_pieces num ++ PT (T "}{") :: den_pieces den ++ [PT (T "}")]
  end.
Lemma pok_frac num den : facs_plain num -> facs_plain den -> pok (frac_pieces num den).
Proof.
  intros Hn Hd. 
  assert (D : pok (den_pieces den ++ [PT (T "}")])).
  { apply pok_den'; auto; cbn; intuition discriminate. }
  unfold frac_pieces. destruct num as [|f num], den as [|g den].
  - now apply pok_all.
  - cbn [pok]. split; [cbn; intuition discriminate|exact D].
  - now apply pok_all.
  - cbn [pok]. split; [cbn; intuition discriminate|]. apply pok_prod; auto.
    + cbn [pok]. split; [cbn; intuition discriminate|exact D].
    + cbn. split; [reflexivity|discriminate].
Qed.
Lemma put_frac mul pw num den : puts mul pw (frac_pieces num den) = render mul pw frac_latex num den.
Proof.
  assert (D : forall g den, puts mul pw (den_pieces (g :: den) ++ [PT (T "}")]) = render_den mul pw (g :: den) ++ T "}").
  { intros g l. rewrite puts_app, put_den. reflexivity. }
  unfold frac_pieces, render. destruct num as [|f num], den as [|g den].
  - reflexivity.
  - change (puts mul pw (PT (T "\frac{1}{") :: den_pieces (g :: den) ++ [PT (T "}")]))
      with (T "\frac{1}{" ++ puts mul pw (den_pieces (g :: den) ++ [PT (T "}")])).
    rewrite D. reflexivity.
  - cbn [all_pieces]. apply put_prod.
  - change (puts mul pw (PT (T "\frac{") :: prod_pieces (f :: num) ++ PT (T "}{") :: den_pieces (g :: den) ++ [PT (T "}")]))
      with (T "\frac{" ++ puts mul pw (prod_pieces (f :: num) ++ PT (T "}{") :: den_pieces (g :: den) ++ [PT (T "}")])).
    rewrite puts_app, put_prod.
    change (puts mul pw (PT (T "}{") :: den_pieces (g :: den) ++ [PT (T "}")]))
      with (T "}{" ++ puts mul pw (den_pieces (g :: den) ++ [PT (T "}")])).
    rewrite D. reflexivity.
Qed.
Lemma frac_text num den : facs_plain num -> facs_plain den ->
  to_frac (render (T "*") pstar frac_slash num den) = render (T "*") pstar frac_latex num den.
Proof.
  intros Hn Hd. unfold render. destruct num as [|f num], den as [|g den].
  - reflexivity.
  - unfold frac_slash. change (T "/" ++ render_den (T "*") pstar (g :: den)) with ("/" :: render_den (T "*") pstar (g :: den)).
    apply to_frac_at; [discriminate|apply den_nonempty; now inversion Hd|now apply den_noslash].
  - apply to_frac_none. now apply prod_noslash.
  - unfold frac_slash. change (T "/" ++ render_den (T "*") pstar (g :: den)) with ("/" :: render_den (T "*") pstar (g :: den)).
    apply to_frac_at; [|apply den_nonempty; now inversion Hd|now apply den_noslash].
    inversion Hn; subst. destruct (prod_head (T "*") f num) as (c & t & E & Hc); auto. rewrite E. discriminate.
Qed.

(** ** The library's renderings *)
Section Lib.
  Context {A : Type}.
  Variable E : uenv A.
  Variable frepr : Qc -> text.

  (** The factors with whole exponents of a list of items. *)
  Definition facs (uc : bool) (l : dims) : list (text * N) :=
    map (fun kv => (shown E uc (fst kv), match snd kv with PInt z => Z.abs_N z | PFlt _ => 0%N end)) l.

  (** All symbols are plain and all exponents are ints that are no multiples of ten. *)
  Definition renderable (uc : bool) (d : dims) : Prop :=
    wf_dims d /\ forall u e, In (u, e) d -> plain_symbol (shown E uc u) /\ exists z, e = PInt z /\ (z mod 10 <> 0)%Z.

  Lemma factor_render uc u z : (0 < z)%Z -> (z mod 10 <> 0)%Z ->
    factor_text E frepr uc u (PInt z) = render_fac pstar (shown E uc u, Z.abs_N z).
  Proof.
    intros Hz Hm. pose proof (fac_text_eq E (fun _ => 0%Qc) frepr uc (u, PInt z)) as X.
    unfold fac_text in X. cbn [fst snd] in X. rewrite X; cbn; auto.
    2:{ change 0%Qc with (Z2Qc 0). apply Z2Qc_lt || (unfold Qclt; rewrite !this_Z2Qc; unfold Qlt; cbn; lia). }
    unfold render_fac. cbn [fst snd]. f_equal.
    assert (Hz' : Z.to_N z = Z.abs_N z) by (destruct z; auto; lia).
    assert (Eb : peqb (PInt z) (PInt 1) = (Z.abs_N z =? 1)%N).
    { apply eq_true_iff_eq. rewrite peqb_true, N.eqb_eq. cbn [pval]. split.
      - intros H. apply Z2Qc_inj in H. subst. reflexivity.
      - intros H. f_equal. destruct z; cbn in H; try lia. }
    rewrite Eb. destruct (Z.abs_N z =? 1)%N; auto. now rewrite Hz'.
  Qed.
  Lemma in_sorted d kv : In kv (sorted_items E d) <-> In kv d.
  Proof.
    split; intros H.
    - eapply Permutation_in; [apply Permutation_sym, (sorted_perm E)|exact H].
    - eapply Permutation_in; [apply (sorted_perm E)|exact H].
  Qed.
  Lemma Z2Qc_pos z : (0 < Z2Qc z)%Qc <-> (0 < z)%Z.
  Proof. unfold Qclt. rewrite this_Z2Qc. unfold Qlt. cbn. lia. Qed.
  Lemma Z2Qc_neg z : (Z2Qc z < 0)%Qc <-> (z < 0)%Z.
  Proof. unfold Qclt. rewrite this_Z2Qc. unfold Qlt. cbn. lia. Qed.

  Lemma num_render uc d : renderable uc d ->
    map (fun kv => factor_text E frepr uc (fst kv) (snd kv)) (num_items E d) =
    map (render_fac pstar) (facs uc (num_items E d)).
  Proof.
    intros [_ H]. unfold facs. rewrite map_map. apply map_ext_in. intros [u e] Hin. cbn [fst snd].
    unfold num_items in Hin. apply filter_In in Hin. destruct Hin as [Hin Hp]. apply (proj1 (in_sorted d _)) in Hin.
    destruct (H u e Hin) as (_ & z & -> & Hz). apply factor_render; auto.
    cbn [snd] in Hp. unfold ppos in Hp. apply andb_true_iff in Hp. destruct Hp as [Hp1 Hp2].
    apply negb_true_iff in Hp1. apply pneg_b_false in Hp1. apply negb_true_iff in Hp2. apply pzero_false in Hp2.
    cbn [pval] in *. apply Z2Qc_pos. apply Qcle_lt_or_eq in Hp1. destruct Hp1 as [|X]; auto. congruence.
  Qed.
  Lemma den_render uc d : renderable uc d ->
    map (fun kv => factor_text E frepr uc (fst kv) (pneg (snd kv))) (den_items E d) =
    map (render_fac pstar) (facs uc (den_items E d)).
  Proof.
    intros [_ H]. unfold facs. rewrite map_map. apply map_ext_in. intros [u e] Hin. cbn [fst snd].
    unfold den_items in Hin. apply filter_In in Hin. destruct Hin as [Hin Hp]. apply (proj1 (in_sorted d _)) in Hin.
    destruct (H u e Hin) as (_ & z & -> & Hz). cbn [snd] in Hp. apply pneg_b_true in Hp. cbn [pval] in Hp. apply (proj1 (Z2Qc_neg z)) in Hp.
    assert (Ep : pneg (PInt z) = PInt (- z)%Z) by reflexivity. rewrite Ep. rewrite factor_render; [|lia|].
    - unfold render_fac. cbn [fst snd]. now rewrite Zabs2N.inj_opp.
    - intros X. apply Hz. apply Z.mod_divide in X; [|lia]. apply Z.mod_divide; [lia|].
      destruct X as [k X]. exists (-k)%Z. lia.
  Qed.
  Lemma facs_num_plain uc d : renderable uc d -> facs_plain (facs uc (num_items E d)).
  Proof.
    intros [_ H]. unfold facs_plain, facs. apply Forall_map. apply Forall_forall. intros [u e] Hin. cbn.
    apply filter_In in Hin. destruct Hin as [Hin _]. apply (proj1 (in_sorted d _)) in Hin. now apply (H u e).
  Qed.
  Lemma facs_den_plain uc d : renderable uc d -> facs_plain (facs uc (den_items E d)).
  Proof.
    intros [_ H]. unfold facs_plain, facs. apply Forall_map. apply Forall_forall. intros [u e] Hin. cbn.
    apply filter_In in Hin. destruct Hin as [Hin _]. apply (proj1 (in_sorted d _)) in Hin. now apply (H u e).
  Qed.

  Lemma format_render uc d : renderable uc d ->
    format_units E frepr uc d = render (T "*") pstar frac_slash (facs uc (num_items E d)) (facs uc (den_items E d)).
  Proof.
    intros H. unfold format_units. rewrite num_render, den_render by auto.
    pose proof (facs_num_plain uc d H) as Fn. revert Fn.
    generalize (facs uc (num_items E d)) (facs uc (den_items E d)). intros num den Fn. unfold layout, render, frac_slash.
    destruct den as [|g [|g' den]].
    - cbn [map]. destruct num as [|f num]; [reflexivity|]. inversion Fn; subst.
      destruct (prod_head (T "*") f num) as (c & t & Ec & _); auto.
      fold (render_prod (T "*") pstar (f :: num)). change (join (T "*") (map (render_fac pstar) (f :: num))) with (render_prod (T "*") pstar (f :: num)).
      rewrite Ec. reflexivity.
    - destruct num as [|f num]; [reflexivity|]. inversion Fn; subst.
      destruct (prod_head (T "*") f num) as (c & t & Ec & _); auto.
      change (join (T "*") (map (render_fac pstar) (f :: num))) with (render_prod (T "*") pstar (f :: num)).
      rewrite Ec. reflexivity.
    - destruct num as [|f num]; [reflexivity|]. inversion Fn; subst.
      destruct (prod_head (T "*") f num) as (c & t & Ec & _); auto.
      change (join (T "*") (map (render_fac pstar) (f :: num))) with (render_prod (T "*") pstar (f :: num)).
      rewrite Ec. reflexivity.
  Qed.
  Lemma unicode_render uc d : renderable uc d ->
    format_units_unicode E frepr uc d =
    render (T "·") sup_digits frac_slash (facs uc (num_items E d)) (facs uc (den_items E d)).
  Proof.
    intros H. unfold format_units_unicode, superscript. rewrite (format_render uc d H).
    pose proof (facs_num_plain uc d H) as Fn. pose proof (facs_den_plain uc d H) as Fd.
    unfold frac_slash. rewrite <- !put_all. pose proof (pok_all _ _ Fn Fd) as P.
    rewrite (scan_pieces match_pow match_pow_none match_pow_some) by (auto; lia).
    rewrite replace_pow_pieces by (auto using sup_digits_nostar).
    now apply replace_star; auto using sup_digits_nostar.
  Qed.
  Definition sup_latex (e : text) : text := T "^{" ++ e ++ T "}".
  Definition sup_html (e : text) : text := T "<sup>" ++ e ++ T "</sup>".
  Lemma wrapped_nostar a b n : ~ In "*" a -> ~ In "*" b -> ~ In "*" (a ++ digits n ++ b).
  Proof.
    intros Ha Hb X. apply in_app_or in X. destruct X as [X|X]; auto. apply in_app_or in X.
    destruct X as [X|X]; auto. exact (digits_nostar n X).
  Qed.
  Lemma latex_render uc font mult paren d : renderable uc d ->
    format_units_latex E frepr uc font mult paren d =
    let body := render (T "{" ++ mult ++ T "}") sup_latex frac_latex (facs uc (num_items E d)) (facs uc (den_items E d)) in
    T "$\" ++ font ++ T "{" ++ (if paren then T "\left(" ++ body ++ T "\right)" else body) ++ T "}$".
  Proof.
    intros H. unfold format_units_latex. rewrite (format_render uc d H).
    pose proof (facs_num_plain uc d H) as Fn. pose proof (facs_den_plain uc d H) as Fd.
    rewrite plain_not_compound by auto. rewrite frac_text by auto. cbn [negb]. rewrite andb_true_r.
    rewrite <- !put_frac. pose proof (pok_frac _ _ Fn Fd) as P.
    rewrite (scan_pieces match_pow' match_pow'_none match_pow'_some) by (auto; lia).
    rewrite (replace_star (T "{" ++ mult ++ T "}") (fun e => T "^{" ++ e ++ T "}")); auto.
    intros n. apply wrapped_nostar; cbn; intuition discriminate.
  Qed.
  Lemma html_render uc font mult paren d : renderable uc d ->
    format_units_html E frepr uc font mult paren d =
    let body := render mult sup_html frac_slash (facs uc (num_items E d)) (facs uc (den_items E d)) in
    fst font ++ (if paren then T "(" ++ body ++ T ")" else body) ++ snd font.
  Proof.
    intros H. unfold format_units_html. rewrite (format_render uc d H).
    pose proof (facs_num_plain uc d H) as Fn. pose proof (facs_den_plain uc d H) as Fd.
    rewrite plain_not_compound by auto. cbn [negb]. rewrite andb_true_r.
    unfold frac_slash. rewrite <- !put_all. pose proof (pok_all _ _ Fn Fd) as P.
    rewrite (scan_pieces match_pow' match_pow'_none match_pow'_some) by (auto; lia).
    rewrite (replace_star mult (fun e => T "<sup>" ++ e ++ T "</sup>")); auto.
    intros n. apply wrapped_nostar; cbn; intuition discriminate.
  Qed.
End Lib.
