(** * PrintFacts: the text of a dimensionality and how it reads back. *)
From Coq Require Import Ascii NArith Permutation.
From Verif Require Import Py Num Dim DimFacts Arr Units Hash Text Lex LexFacts Markup.

Open Scope char_scope.
Open Scope list_scope.

(** ** Specification: which exponents and symbols print readably *)
Definition integral (q : Qc) : Prop := exists z, q = Z2Qc z.

(** The text [s] of a float [q] is in fixed notation: [2.0], [0.5], ...; [fread] is
    the value of a float literal. *)
Definition fixed_repr (fread : text -> Qc) (q : Qc) (s : text) : Prop :=
  exists n fp, s = digits n ++ "." :: fp /\ fp <> [] /\ Forall (fun c => is_digit c = true) fp /\
    ((fp = ["0"] /\ q = Z2Qc (Z.of_N n)) \/
     (last fp "0" <> "0" /\ fread s = q /\ ~ integral q)).

(** An exponent that survives the stripping of zeros in markup.py:64, 69: an int that
    is not a multiple of ten, or a float in fixed notation. *)
Definition exp_printable (fread : text -> Qc) (frepr : Qc -> text) (e : pynum) : Prop :=
  match e with
  | PInt z => (z mod 10 <> 0)%Z
  | PFlt q => fixed_repr fread q (frepr q)
  end.

(** ** Exponents *)
Definition read_exp (e : pynum) : pynum :=
  match e with
  | PInt z => PInt z
  | PFlt q => if Pos.eqb (Qden (this q)) 1 then PInt (Qnum (this q)) else PFlt q
  end.
Lemma den1_integral q : Pos.eqb (Qden (this q)) 1 = true <-> integral q.
Proof.
  rewrite Pos.eqb_eq. split.
  - intros H. exists (Qnum (this q)). apply Qc_is_canon. rewrite this_Z2Qc.
    destruct q as [[a b] c]; cbn in *. subst. reflexivity.
  - intros [z ->]. rewrite this_Z2Qc. reflexivity.
Qed.
Lemma pval_read_exp e : pval (read_exp e) = pval e.
Proof.
  destruct e as [z|q]; cbn [read_exp]; [reflexivity|].
  destruct (Pos.eqb (Qden (this q)) 1) eqn:E; [|reflexivity].
  apply den1_integral in E. destruct E as [z ->]. rewrite this_Z2Qc. reflexivity.
Qed.
Lemma read_exp_pval e e' : pval e = pval e' -> pval (read_exp e) = pval (read_exp e').
Proof. now rewrite !pval_read_exp. Qed.

Lemma snoc_of {X} (l : list X) d : l <> [] -> exists l', l = l' ++ [last l d].
Proof. intros H. exists (removelast l). now apply app_removelast_last. Qed.

Lemma digit_not_dot c : is_digit c = true -> c <> ".".
Proof. intros H ->. discriminate. Qed.

(** The stripped text of a positive printable exponent. *)
Definition exp_text (frepr : Qc -> text) (e : pynum) : text :=
  match e with
  | PInt z => digits (Z.to_N z)
  | PFlt q => if Pos.eqb (Qden (this q)) 1 then digits (Z.to_N (Qnum (this q))) else frepr q
  end.

Lemma strip_digits p n : (n mod 10 <> 0)%N -> rstrip "." (rstrip "0" (p ++ digits n)) = p ++ digits n.
Proof.
  intros H. destruct (digits_last n) as [t E]. rewrite E, app_assoc.
  assert (Hm : (n mod 10 < 10)%N) by (apply N.mod_lt; lia).
  rewrite (rstrip_last "0"); [|intros X; apply digit_char_0 in X; auto].
  rewrite rstrip_last; auto. apply digit_not_dot, digit_char_digit; auto.
Qed.
Lemma strip_dot_digits p n : rstrip "." (p ++ digits n ++ ["."]) = p ++ digits n.
Proof.
  rewrite app_assoc, rstrip_snoc.
  destruct (digits_last n) as [t E]. rewrite E, app_assoc. apply rstrip_last.
  apply digit_not_dot, digit_char_digit. apply N.mod_lt; lia.
Qed.

Section Exps.
  Variable fread : text -> Qc.
  Variable frepr : Qc -> text.

  Lemma exp_text_strip p e : exp_printable fread frepr e -> (0 < pval e)%Qc ->
    rstrip "." (rstrip "0" (p ++ num_text frepr e)) = p ++ exp_text frepr e.
  Proof.
    intros H Hp. destruct e as [z|q]; cbn [num_text exp_text exp_printable] in *.
    - assert (Hz : (0 < z)%Z).
      { cbn in Hp. unfold Qclt in Hp. rewrite this_Z2Qc in Hp. unfold Qlt in Hp. cbn in Hp. lia. }
      destruct (Z.ltb_spec z 0); [lia|]. cbn [app].
      replace (Z.abs_N z) with (Z.to_N z) by lia.
      apply strip_digits. intros Hmod. apply H. apply (f_equal Z.of_N) in Hmod.
      rewrite N2Z.inj_mod, Z2N.id in Hmod by lia. exact Hmod.
    - destruct H as (n & fp & E & Hn & Hf & [[-> Hq]|(Hl & Hr & Hi)]).
      + assert (Eb : Pos.eqb (Qden (this q)) 1 = true) by (apply den1_integral; eexists; eauto).
        rewrite Eb, E, Hq, this_Z2Qc. cbn [Qnum]. rewrite N2Z.id.
        replace (p ++ digits n ++ ["."; "0"]) with ((p ++ digits n ++ ["."]) ++ ["0"])
          by now rewrite <- !app_assoc.
        rewrite rstrip_snoc.
        rewrite (app_assoc p), (rstrip_last "0") by discriminate.
        rewrite <- app_assoc. apply strip_dot_digits.
      + assert (Eb : Pos.eqb (Qden (this q)) 1 = false).
        { destruct (Pos.eqb (Qden (this q)) 1) eqn:Eb; auto. apply den1_integral in Eb. contradiction. }
        rewrite Eb, E. destruct (snoc_of fp "0" Hn) as [t Et]. rewrite Et at 1.
        change ("." :: t ++ [last fp "0"]) with (("." :: t) ++ [last fp "0"]).
        rewrite !app_assoc, (rstrip_last "0") by auto.
        rewrite rstrip_last.
        * rewrite <- !app_assoc. cbn [app]. now rewrite <- Et.
        * apply digit_not_dot. rewrite Forall_forall in Hf. apply Hf. rewrite Et at 2. apply in_or_app; right; left; reflexivity.
  Qed.

  Lemma exp_text_lexes e : exp_printable fread frepr e -> (0 < pval e)%Qc ->
    lexes fread (exp_text frepr e) [TNum (read_exp e)].
  Proof.
    intros H Hp. destruct e as [z|q]; cbn [exp_text read_exp exp_printable] in *.
    - assert (Hz : (0 < z)%Z).
      { cbn in Hp. unfold Qclt in Hp. rewrite this_Z2Qc in Hp. unfold Qlt in Hp. cbn in Hp. lia. }
      rewrite <- (Z2N.id z) at 2 by lia. apply lexes_int. lia.
    - destruct H as (n & fp & E & Hn & Hf & [[-> Hq]|(Hl & Hr & Hi)]).
      + assert (Eb : Pos.eqb (Qden (this q)) 1 = true) by (apply den1_integral; eexists; eauto).
        rewrite Eb, Hq, this_Z2Qc. cbn [Qnum]. rewrite N2Z.id. apply lexes_int.
        cbn in Hp. rewrite Hq in Hp. unfold Qclt in Hp. rewrite this_Z2Qc in Hp. unfold Qlt in Hp. cbn in Hp. lia.
      + assert (Eb : Pos.eqb (Qden (this q)) 1 = false).
        { destruct (Pos.eqb (Qden (this q)) 1) eqn:Eb; auto. apply den1_integral in Eb. contradiction. }
        rewrite Eb. rewrite <- Hr at 2. rewrite E. apply lexes_flt; auto using digits_nonempty, digits_digit.
  Qed.

  (** Equal exponents print alike. *)
  Lemma exp_text_ext e e' : exp_printable fread frepr e -> exp_printable fread frepr e' ->
    pval e = pval e' -> exp_text frepr e = exp_text frepr e'.
  Proof.
    destruct e as [z|q], e' as [z'|q']; cbn [pval exp_text]; intros _ _ H.
    - apply Z2Qc_inj in H. now subst.
    - subst q'. rewrite this_Z2Qc. reflexivity.
    - subst q. rewrite this_Z2Qc. reflexivity.
    - subst q'. reflexivity.
  Qed.
End Exps.

(** ** The printed text as numerator and denominator factors *)
Section Print.
  Context {A : Type}.
  Variable E : uenv A.
  Variable fread : text -> Qc.
  Variable frepr : Qc -> text.

  Definition fac_of (uc : bool) (kv : uid * pynum) : fac :=
    (shown E uc (fst kv), if peqb (snd kv) (PInt 1) then None else Some (read_exp (snd kv))).
  Definition fac_text (uc : bool) (kv : uid * pynum) : text := factor_text E frepr uc (fst kv) (snd kv).

  (** All symbols are identifiers and all (positive) exponents printable. *)
  Definition items_ok (uc : bool) (l : dims) : Prop :=
    forall kv, In kv l -> identifier (shown E uc (fst kv)) /\
      exp_printable fread frepr (snd kv) /\ (0 < pval (snd kv))%Qc.

  Lemma fac_text_eq uc kv : exp_printable fread frepr (snd kv) -> (0 < pval (snd kv))%Qc ->
    fac_text uc kv = shown E uc (fst kv) ++
      (if peqb (snd kv) (PInt 1) then [] else T "**" ++ exp_text frepr (snd kv)).
  Proof.
    intros He Hp. unfold fac_text, factor_text.
    destruct (peqb (snd kv) (PInt 1)); [now rewrite app_nil_r|].
    f_equal. apply (exp_text_strip fread); auto.
  Qed.
  Lemma fac_lexes uc kv : identifier (shown E uc (fst kv)) ->
    exp_printable fread frepr (snd kv) -> (0 < pval (snd kv))%Qc ->
    lexes fread (fac_text uc kv) (ftoks (fac_of uc kv)).
  Proof.
    intros Hi He Hp. rewrite fac_text_eq by auto. unfold fac_of.
    destruct (peqb (snd kv) (PInt 1)).
    - rewrite app_nil_r. cbn [ftoks]. now apply lexes_name.
    - cbn [ftoks].
      change [TName (shown E uc (fst kv)); TOp ODStar; TNum (read_exp (snd kv))]
        with ([TName (shown E uc (fst kv))] ++ [TOp ODStar; TNum (read_exp (snd kv))]).
      apply lexes_app; [now apply lexes_name| |cbn; auto].
      change (T "**" ++ exp_text frepr (snd kv)) with ("*" :: "*" :: exp_text frepr (snd kv)).
      apply lexes_dstar. now apply exp_text_lexes.
  Qed.
  Lemma fac_start uc kv : identifier (shown E uc (fst kv)) -> exp_printable fread frepr (snd kv) -> 
    (0 < pval (snd kv))%Qc -> exists c t, fac_text uc kv = c :: t /\ is_idstart c = true.
  Proof.
    intros Hi He Hp. rewrite fac_text_eq by auto.
    destruct (shown E uc (fst kv)) as [|c t]; destruct Hi as [Hi _]; [destruct Hi|].
    exists c. eexists. split; [reflexivity|]. apply Hi.
  Qed.
  Lemma join_lexes uc l : forall kv, items_ok uc (kv :: l) ->
    lexes fread (join (T "*") (map (fac_text uc) (kv :: l))) (ftoks (fac_of uc kv) ++ tail_toks (map (fac_of uc) l)).
  Proof.
    induction l as [|kv' l IH]; intros kv H.
    - cbn. rewrite app_nil_r. destruct (H kv) as (H1 & H2 & H3); [cbn; auto|]. now apply fac_lexes.
    - cbn [map tail_toks flat_map]. cbn [join].
      destruct (H kv) as (H1 & H2 & H3); [cbn; auto|].
      apply lexes_app; [now apply fac_lexes| |cbn; auto].
      change (T "*" ++ ?x) with ("*" :: x). cbn [app]. apply lexes_star.
      + apply IH. intros x Hx. apply H. cbn; auto.
      + destruct (H kv') as (H1' & H2' & H3'); [cbn; auto|].
        destruct (fac_start uc kv' H1' H2' H3') as (c & t & Ec & Hc).
        cbn [map join]. destruct (map (fac_text uc) l); rewrite Ec; cbn [app]; intros ->; discriminate.
  Qed.
  Lemma join_start uc l kv : items_ok uc (kv :: l) ->
    exists c t, join (T "*") (map (fac_text uc) (kv :: l)) = c :: t /\ is_idstart c = true.
  Proof.
    intros H. destruct (H kv) as (H1 & H2 & H3); [cbn; auto|].
    destruct (fac_start uc kv H1 H2 H3) as (c & t & Ec & Hc).
    cbn [map join]. destruct (map (fac_text uc) l); rewrite Ec; cbn [app]; eauto.
  Qed.

  (** Numerator items, and denominator items with their exponents negated. *)
  Definition num_of (d : dims) : dims := num_items E d.
  Definition den_of (d : dims) : dims := map (fun kv => (fst kv, pneg (snd kv))) (den_items E d).

  Lemma format_units_eq uc d :
    format_units E frepr uc d = layout (map (fac_text uc) (num_of d)) (map (fac_text uc) (den_of d)).
  Proof. unfold format_units, den_of, fac_text. rewrite map_map. reflexivity. Qed.

  Definition or_one (t : text) : text := match t with [] => T "1" | _ => t end.
  (** A non-empty printed product reads as the tokens of its factors. *)
  Lemma layout_lexes uc num den : items_ok uc num -> items_ok uc den -> num <> [] \/ den <> [] ->
    lexes fread (layout (map (fac_text uc) num) (map (fac_text uc) den))
          (num_toks (map (fac_of uc) num) ++ den_toks (map (fac_of uc) den)) /\
    exists c t, layout (map (fac_text uc) num) (map (fac_text uc) den) = c :: t /\ is_idchar c = true.
  Proof.
    intros Hn Hd Hne.
    assert (N1 : num <> [] -> exists c t, join (T "*") (map (fac_text uc) num) = c :: t /\ is_idstart c = true).
    { intros Hx. destruct num as [|kv l]; [congruence|]. now apply join_start. }
    (* the numerator *)
    assert (Lnum : lexes fread (or_one (join (T "*") (map (fac_text uc) num)))
                         (num_toks (map (fac_of uc) num)) /\
                   exists c t, (or_one (join (T "*") (map (fac_text uc) num))) = c :: t
                               /\ is_idchar c = true).
    { destruct num as [|kv l].
      - cbn. split; [exact (lexes_int fread 1 eq_refl)|]. exists "1", []. auto.
      - destruct (N1 ltac:(discriminate)) as (c & t & Ec & Hc).
        pose proof (join_lexes uc l kv Hn) as L. rewrite Ec in *. split; [exact L|].
        exists c, t. split; auto using idstart_idchar. }
    destruct Lnum as [Ln (c0 & t0 & Ec0 & Hc0)].
    (* the denominator *)
    destruct den as [|kv l].
    - destruct Hne as [Hne|Hne]; [|congruence]. destruct (N1 Hne) as (c & t & Ec & Hc).
      cbn [map den_toks]. rewrite app_nil_r. unfold layout. rewrite Ec in *. split; [exact Ln|].
      exists c, t. auto using idstart_idchar.
    - assert (Eq : layout (map (fac_text uc) num) (map (fac_text uc) (kv :: l)) =
                   (or_one (join (T "*") (map (fac_text uc) num))) ++
                   "/" :: match map (fac_text uc) (kv :: l) with
                          | _ :: _ :: _ => "(" :: join (T "*") (map (fac_text uc) (kv :: l)) ++ [")"]
                          | _ => join (T "*") (map (fac_text uc) (kv :: l))
                          end).
      { unfold layout. cbn [map].
        destruct (join (T "*") (map (fac_text uc) num)) as [|c1 t1]; cbn [app];
          destruct (map (fac_text uc) l); reflexivity. }
      rewrite Eq. clear Eq.
      split; [|rewrite Ec0; cbn [app]; eauto].
      apply lexes_app; [exact Ln| |cbn; auto].
      destruct (join_start uc l kv Hd) as (c & t & Ec & Hc).
      pose proof (join_lexes uc l kv Hd) as L.
      destruct l as [|kv' l].
      + cbn [map den_toks] in *. apply lexes_slash.
        * cbn [tail_toks flat_map] in L. rewrite app_nil_r in L. exact L.
        * cbn [map] in Ec. rewrite Ec. intros ->. discriminate.
      + cbn [map den_toks]. apply lexes_slash; [|discriminate].
        apply lexes_lp. rewrite app_assoc.
        cbn [map] in L. apply lexes_app; [exact L|apply lexes_rp|cbn; auto].
  Qed.

  (** ** The preprocessing leaves the text unchanged *)
  Definition plain_char (c : ascii) : bool :=
    is_idchar c || existsb (Ascii.eqb c) ["*"; "/"; "("; ")"; "."].
  (** No letter before a dot. *)
  Fixpoint dot_safe (t : text) : Prop :=
    match t with
    | [] => True
    | c :: t' => (match t' with "." :: _ => is_letter c = false | _ => True end) /\ dot_safe t'
    end.
  Lemma dot_mul_safe t : dot_safe t -> dot_mul t = t.
  Proof.
    induction t as [|a t IH]; intros H; [reflexivity|]. destruct H as [H1 H2]. specialize (IH H2).
    cbn [dot_mul]. destruct t as [|c t]; [now rewrite IH|].
    destruct (ascii_dec c ".") as [->|Hc].
    - rewrite H1. cbn [andb]. destruct t as [|b t]; now rewrite IH.
    - destruct c as [[] [] [] [] [] [] [] []]; try (now rewrite IH); congruence.
  Qed.
  Lemma dot_safe_app a b : dot_safe a -> dot_safe b -> match b with "." :: _ => False | _ => True end ->
    dot_safe (a ++ b).
  Proof.
    intros Ha Hb Hd. induction a as [|c a IH]; cbn; auto. destruct Ha as [H1 H2]. split; [|auto].
    destruct a as [|c' a]; cbn.
    - destruct b as [|x b]; auto. destruct (ascii_dec x ".") as [->|Hx]; [contradiction|].
      destruct x as [[] [] [] [] [] [] [] []]; auto; congruence.
    - exact H1.
  Qed.
  Lemma dot_safe_nodot t : ~ In "." t -> dot_safe t.
  Proof.
    induction t as [|c t IH]; cbn; auto. intros H. split; [|apply IH; tauto].
    destruct t as [|x t]; auto. destruct (ascii_dec x ".") as [->|Hx]; [exfalso; apply H; cbn; auto|].
    destruct x as [[] [] [] [] [] [] [] []]; auto; congruence.
  Qed.
  Lemma replace_dot_plain t : Forall (fun c => plain_char c = true) t -> replace_dot t = t.
  Proof.
    induction 1 as [|c t Hc Ht IH]; [reflexivity|].
    cbn [replace_dot]. rewrite IH.
    destruct (ascii_dec c "194") as [->|Hn]; [discriminate|].
    destruct c as [[] [] [] [] [] [] [] []]; try reflexivity; congruence.
  Qed.
  Definition clean (t : text) : Prop := Forall (fun c => plain_char c = true) t /\ dot_safe t.
  Lemma preprocess_clean t : t <> [] -> clean t -> lower t <> T "in" -> preprocess t = t.
  Proof.
    intros Hn [Hc Hd] Hl. unfold preprocess.
    assert (Hnot : forall c, plain_char c = false -> ~ In c t).
    { intros c Hp Hin. rewrite Forall_forall in Hc. rewrite (Hc c Hin) in Hp. discriminate. }
    rewrite (replace_char_none "^"); [|now apply Hnot].
    rewrite replace_dot_plain by auto. rewrite dot_mul_safe by auto.
    destruct t as [|c t]; [congruence|].
    rewrite replace_char_none; [|now apply Hnot].
    rewrite teqb_neq by auto. reflexivity.
  Qed.

  Lemma clean_app a b : clean a -> clean b -> match b with "." :: _ => False | _ => True end -> clean (a ++ b).
  Proof. intros [A1 A2] [B1 B2] H. split; [apply Forall_app; auto|now apply dot_safe_app]. Qed.
  Lemma clean_idchars t : Forall (fun c => is_idchar c = true) t -> clean t.
  Proof.
    intros H. split.
    - eapply Forall_impl; [|exact H]. intros c Hc. unfold plain_char. now rewrite Hc.
    - apply dot_safe_nodot. intros Hin. rewrite Forall_forall in H. apply H in Hin. discriminate.
  Qed.
  Lemma digits_idchars t : Forall (fun c => is_digit c = true) t -> Forall (fun c => is_idchar c = true) t.
  Proof. apply Forall_impl. auto using digit_idchar. Qed.
  Lemma clean_exp e : exp_printable fread frepr e -> (0 < pval e)%Qc -> clean (exp_text frepr e).
  Proof.
    intros H Hp. destruct e as [z|q]; cbn [exp_text exp_printable] in *.
    - apply clean_idchars, digits_idchars, digits_digit.
    - destruct (Pos.eqb (Qden (this q)) 1) eqn:Eb.
      + apply clean_idchars, digits_idchars, digits_digit.
      + destruct H as (n & fp & Eq & Hn & Hf & [[-> Hq]|(Hl & Hr & Hi)]).
        { exfalso. assert (integral q) by (eexists; eauto). apply den1_integral in H. congruence. }
        rewrite Eq. destruct (digits_last n) as [t Et].
        split.
        * apply Forall_app. split; [apply clean_idchars, digits_idchars, digits_digit|].
          constructor; [reflexivity|]. apply clean_idchars, digits_idchars; auto.
        * assert (Hfp : dot_safe fp) by (apply clean_idchars, digits_idchars; auto).
          assert (Hdg : Forall (fun c => is_digit c = true) (digits n)) by apply digits_digit.
          clear -Hdg Hfp Hf. induction (digits n) as [|c l IH]; cbn.
          { split; auto. destruct fp as [|x fp]; auto. inversion Hf; subst.
            destruct (ascii_dec x ".") as [->|Hx]; [discriminate|].
            destruct x as [[] [] [] [] [] [] [] []]; auto. }
          inversion Hdg; subst. split; [|auto].
          destruct (l ++ "." :: fp) as [|y w]; auto.
          destruct (ascii_dec y ".") as [->|Hx]; [now apply digit_not_letter|].
          destruct y as [[] [] [] [] [] [] [] []]; auto; congruence.
  Qed.
  Lemma clean_fac uc kv : identifier (shown E uc (fst kv)) -> exp_printable fread frepr (snd kv) ->
    (0 < pval (snd kv))%Qc -> clean (fac_text uc kv).
  Proof.
    intros Hi He Hp. rewrite fac_text_eq by auto.
    destruct (peqb (snd kv) (PInt 1)).
    - rewrite app_nil_r. apply clean_idchars, identifier_chars; auto.
    - apply clean_app; [apply clean_idchars, identifier_chars; auto| |exact I].
      apply clean_app; [split; [repeat constructor|cbn; auto]|now apply clean_exp|].
      destruct (snd kv) as [z|q]; cbn [exp_text].
      + pose proof (digits_digit (Z.to_N z)). destruct (digits (Z.to_N z)) as [|c t]; auto.
        destruct (ascii_dec c ".") as [->|Hx]; [inversion H; discriminate|].
        destruct c as [[] [] [] [] [] [] [] []]; auto.
      + cbn in He. destruct (Pos.eqb (Qden (this q)) 1).
        * pose proof (digits_digit (Z.to_N (Qnum (this q)))). destruct (digits (Z.to_N (Qnum (this q)))) as [|c t]; auto.
          destruct (ascii_dec c ".") as [->|Hx]; [inversion H; discriminate|].
          destruct c as [[] [] [] [] [] [] [] []]; auto.
        * destruct He as (n & fp & Eq & _). rewrite Eq.
          pose proof (digits_digit n). pose proof (digits_nonempty n). destruct (digits n) as [|c t]; [congruence|]. cbn [app].
          destruct (ascii_dec c ".") as [->|Hx]; [inversion H; discriminate|].
          destruct c as [[] [] [] [] [] [] [] []]; auto.
  Qed.
  Lemma idstart_nodot c (t : text) : is_idstart c = true -> match c :: t with "." :: _ => False | _ => True end.
  Proof.
    intros H. destruct (ascii_dec c ".") as [->|Hx]; [discriminate|].
    destruct c as [[] [] [] [] [] [] [] []]; auto.
  Qed.
  Lemma clean_join uc l : forall kv, items_ok uc (kv :: l) -> clean (join (T "*") (map (fac_text uc) (kv :: l))).
  Proof.
    induction l as [|kv' l IH]; intros kv H.
    - cbn. destruct (H kv) as (H1 & H2 & H3); [cbn; auto|]. now apply clean_fac.
    - cbn [map]. cbn [join]. destruct (H kv) as (H1 & H2 & H3); [cbn; auto|].
      assert (H' : items_ok uc (kv' :: l)) by (intros x Hx; apply H; cbn; auto).
      apply clean_app; [now apply clean_fac| |exact I].
      apply clean_app; [split; [repeat constructor|cbn; auto]|apply IH; auto|].
      destruct (join_start uc l kv' H') as (c & t & Ec & Hc).
      cbn [map] in Ec. cbn [join] in Ec. rewrite Ec. now apply idstart_nodot.
  Qed.
  Lemma clean_layout uc num den : items_ok uc num -> items_ok uc den ->
    clean (layout (map (fac_text uc) num) (map (fac_text uc) den)).
  Proof.
    intros Hn Hd.
    assert (C1 : clean (join (T "*") (map (fac_text uc) num))).
    { destruct num as [|kv l]; [split; cbn; auto|now apply clean_join]. }
    assert (C2 : clean (join (T "*") (map (fac_text uc) den))).
    { destruct den as [|kv l]; [split; cbn; auto|now apply clean_join]. }
    assert (S2 : match join (T "*") (map (fac_text uc) den) with "." :: _ => False | _ => True end).
    { destruct den as [|kv l]; [exact I|]. destruct (join_start uc l kv Hd) as (c & t & Ec & Hc).
      rewrite Ec. now apply idstart_nodot. }
    assert (Csl : clean (T "/")) by (split; [repeat constructor|cbn; auto]).
    assert (Clp : clean (T "(")) by (split; [repeat constructor|cbn; auto]).
    assert (Crp : clean (T ")")) by (split; [repeat constructor|cbn; auto]).
    assert (Cden : clean (match map (fac_text uc) den with
                          | _ :: _ :: _ => T "(" ++ join (T "*") (map (fac_text uc) den) ++ T ")"
                          | _ => join (T "*") (map (fac_text uc) den)
                          end) /\
                   match (match map (fac_text uc) den with
                          | _ :: _ :: _ => T "(" ++ join (T "*") (map (fac_text uc) den) ++ T ")"
                          | _ => join (T "*") (map (fac_text uc) den)
                          end) with "." :: _ => False | _ => True end).
    { destruct (map (fac_text uc) den) as [|x [|y l]]; split; auto; try exact I.
      apply clean_app; auto. apply clean_app; auto. exact I. 
      destruct (join (T "*") (x :: y :: l)); auto. }
    destruct Cden as [Cden Sden].
    assert (Cres : clean (match map (fac_text uc) den with
      | [] => join (T "*") (map (fac_text uc) num)
      | _ => (match join (T "*") (map (fac_text uc) num) with [] => T "1" | _ => join (T "*") (map (fac_text uc) num) end) ++ T "/" ++
             match map (fac_text uc) den with
             | _ :: _ :: _ => T "(" ++ join (T "*") (map (fac_text uc) den) ++ T ")"
             | _ => join (T "*") (map (fac_text uc) den)
             end
      end)).
    { destruct (map (fac_text uc) den) as [|x l] eqn:Ed; auto.
      apply clean_app; [|apply clean_app; auto|exact I].
      destruct (join (T "*") (map (fac_text uc) num)); auto. split; [repeat constructor|cbn; auto]. }
    unfold layout. 
    destruct (match map (fac_text uc) den with
      | [] => join (T "*") (map (fac_text uc) num)
      | _ => (match join (T "*") (map (fac_text uc) num) with [] => T "1" | _ => join (T "*") (map (fac_text uc) num) end) ++ T "/" ++
             match map (fac_text uc) den with
             | _ :: _ :: _ => T "(" ++ join (T "*") (map (fac_text uc) den) ++ T ")"
             | _ => join (T "*") (map (fac_text uc) den)
             end
      end) eqn:Er; auto.
    split; [repeat constructor|cbn; tauto].
  Qed.
End Print.
