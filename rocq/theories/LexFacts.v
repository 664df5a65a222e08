(** * LexFacts: reading back printed products of units. *)
From Coq Require Import Ascii NArith.
From Verif Require Import Py Text Lex.

Open Scope char_scope.
Open Scope list_scope.

(** An ASCII identifier that is not a Python keyword. *)
Definition identifier (s : text) : Prop :=
  match s with
  | [] => False
  | c :: s' => is_idstart c = true /\ Forall (fun x => is_idchar x = true) s'
  end /\ is_keyword s = false.

(** ** Character facts *)
Lemma idstart_not_digit c : is_idstart c = true -> is_digit c = false.
Proof. destruct c as [[] [] [] [] [] [] [] []]; vm_compute; congruence. Qed.
Lemma idstart_idchar c : is_idstart c = true -> is_idchar c = true.
Proof. unfold is_idchar. intros ->. reflexivity. Qed.
Lemma digit_idchar c : is_digit c = true -> is_idchar c = true.
Proof. unfold is_idchar. intros ->. apply orb_true_r. Qed.
Lemma digit_not_idstart c : is_digit c = true -> is_idstart c = false.
Proof. destruct c as [[] [] [] [] [] [] [] []]; vm_compute; congruence. Qed.
Lemma digit_not_letter c : is_digit c = true -> is_letter c = false.
Proof. destruct c as [[] [] [] [] [] [] [] []]; vm_compute; congruence. Qed.
Lemma idchar_low c : is_idchar c = true -> (128 <=? code c)%N = false.
Proof. destruct c as [[] [] [] [] [] [] [] []]; vm_compute; congruence. Qed.
Lemma idchar_not_space c : is_idchar c = true -> is_space c = false.
Proof. destruct c as [[] [] [] [] [] [] [] []]; vm_compute; congruence. Qed.
Lemma idchar_not c : is_idchar c = true ->
  c <> "*" /\ c <> "/" /\ c <> "(" /\ c <> ")" /\ c <> "." /\ c <> "^" /\ c <> "%" /\ c <> "194".
Proof. intros H. repeat split; intros ->; discriminate. Qed.

Lemma identifier_chars s : identifier s -> Forall (fun x => is_idchar x = true) s.
Proof. destruct s as [|c s]; intros [H _]; [destruct H|]. destruct H. constructor; auto using idstart_idchar. Qed.
Lemma identifier_nonempty s : identifier s -> s <> [].
Proof. destruct s; intros [H _]; [destruct H|discriminate]. Qed.

(** ** Lexing *)
Section Lexing.
  Variable fread : text -> Qc.

  (** What may follow a name or a number in a printed product. *)
  Definition delim (t : text) : Prop :=
    match t with [] => True | c :: _ => c = "*" \/ c = "/" \/ c = ")" end.

  (** [t] reads as the tokens [ks], whatever delimiter follows. *)
  Definition lexes (t : text) (ks : list token) : Prop :=
    length ks <= length t /\
    forall rest r f, delim rest -> lex_fuel fread f rest = Ok r ->
      lex_fuel fread (length ks + f) (t ++ rest) = Ok (ks ++ r).

  Lemma delim_stops t : delim t -> stops is_idchar t /\ stops is_digit t.
  Proof. destruct t as [|c t]; cbn; auto. intros [-> | [-> | ->]]; auto. Qed.

  Lemma lexes_app a b ka kb : lexes a ka -> lexes b kb -> delim b -> lexes (a ++ b) (ka ++ kb).
  Proof.
    intros [La Ha] [Lb Hb] Hd. split.
    - rewrite !app_length. lia.
    - intros rest r f Hr H. rewrite app_length, <- Nat.add_assoc, <- !app_assoc.
      apply Ha; [|apply Hb; auto].
      destruct b as [|c b]; [|exact Hd]. destruct kb; [cbn; auto|cbn in Lb; lia].
  Qed.

  Lemma lexes_name s : identifier s -> lexes s [TName s].
  Proof.
    intros Hs. pose proof (identifier_chars s Hs) as Hc. pose proof (identifier_nonempty s Hs) as Hn.
    split; [destruct s; [congruence|cbn; lia]|].
    intros rest r f Hr H. cbn [length Nat.add].
    destruct (delim_stops rest Hr) as [Hst _].
    cbn [lex_fuel].
    assert (Hsk : skip_spaces (s ++ rest) = s ++ rest).
    { destruct s as [|c s]; [congruence|]. cbn. inversion Hc; subst. now rewrite idchar_not_space. }
    rewrite Hsk.
    assert (E1 : lex1 fread (s ++ rest) = Ok (Some (TName s), rest)).
    { destruct s as [|c s']; [congruence|]. destruct Hs as [[Hi _] Hk].
      unfold lex1. cbn [app]. rewrite (idstart_not_digit _ Hi), Hi.
      change (c :: s' ++ rest) with ((c :: s') ++ rest). rewrite (span_eq _ _ _ Hc Hst). cbn [fst snd].
      rewrite Hk. destruct rest as [|x rest]; auto.
      destruct Hr as [-> | [-> | ->]]; reflexivity. }
    rewrite E1. cbn [bind]. rewrite H. reflexivity.
  Qed.

  Lemma digits_nospace t rest : t <> [] -> Forall (fun c => is_digit c = true) t ->
    skip_spaces (t ++ rest) = t ++ rest.
  Proof.
    intros Hn H. destruct t as [|c t]; [congruence|]. cbn. inversion H; subst.
    now rewrite idchar_not_space by auto using digit_idchar.
  Qed.

  Lemma lexes_int n : (0 < n)%N -> lexes (digits n) [TNum (PInt (Z.of_N n))].
  Proof.
    intros Hn. split.
    { pose proof (digits_nonempty n). destruct (digits n); [congruence|cbn; lia]. }
    intros rest r f Hr H. cbn [length Nat.add lex_fuel].
    rewrite digits_nospace by auto using digits_nonempty, digits_digit.
    destruct (delim_stops rest Hr) as [_ Hst].
    destruct (digits_lead n Hn) as (c & t & E & Hc).
    assert (E1 : lex1 fread (digits n ++ rest) = Ok (Some (TNum (PInt (Z.of_N n))), rest)).
    { pose proof (digits_digit n) as Hd. rewrite E in Hd.
      unfold lex1. rewrite E. cbn [app]. inversion Hd as [|? ? Hcd Hds]; subst.
      rewrite Hcd. change (c :: t ++ rest) with ((c :: t) ++ rest).
      unfold lex_num. rewrite (span_eq _ _ _ Hd Hst). cbn [fst snd].
      assert (Hv : match c :: t with
                   | "0" :: _ :: _ => if (digits_val (c :: t) =? 0)%N then Ok (TNum (PInt 0), rest)
                                      else Err SyntaxError
                   | _ => Ok (TNum (PInt (Z.of_N (digits_val (c :: t)))), rest)
                   end = Ok (TNum (PInt (Z.of_N n)), rest)).
      { assert (Hdv : digits_val (c :: t) = n) by (rewrite <- E; apply digits_value). rewrite Hdv.
        destruct c as [[] [] [] [] [] [] [] []]; try reflexivity. congruence. }
      destruct rest as [|x rest]; [rewrite Hv; reflexivity|].
      destruct Hr as [-> | [-> | ->]]; cbn -[digits_val]; (rewrite Hv || (cbn [is_idstart] in *; rewrite Hv)); reflexivity. }
    rewrite E1. cbn [bind]. rewrite H. reflexivity.
  Qed.

  Lemma lexes_flt ip fp : ip <> [] -> Forall (fun c => is_digit c = true) ip ->
    Forall (fun c => is_digit c = true) fp ->
    lexes (ip ++ "." :: fp) [TNum (PFlt (fread (ip ++ "." :: fp)))].
  Proof.
    intros Hn Hi Hf. split.
    { rewrite app_length. cbn. lia. }
    intros rest r f Hr H. cbn [length Nat.add lex_fuel].
    rewrite <- app_assoc, digits_nospace by auto. cbn [app].
    destruct (delim_stops rest Hr) as [_ Hst].
    assert (E1 : lex1 fread (ip ++ "." :: fp ++ rest) =
                 Ok (Some (TNum (PFlt (fread (ip ++ "." :: fp)))), rest)).
    { destruct ip as [|c t] eqn:Ei; [congruence|].
      assert (Hcd : is_digit c = true) by (inversion Hi; auto).
      rewrite <- Ei in *. unfold lex1. rewrite Ei. cbn [app]. rewrite Hcd.
      change (c :: t ++ "." :: fp ++ rest) with ((c :: t) ++ "." :: fp ++ rest).
      change (c :: t ++ "." :: fp) with ((c :: t) ++ "." :: fp). rewrite <- Ei.
      unfold lex_num. rewrite (span_eq is_digit ip ("." :: fp ++ rest) Hi) by reflexivity. cbn [fst snd].
      rewrite (span_eq is_digit fp rest Hf Hst). cbn [fst snd].
      destruct rest as [|x rest]; auto.
      destruct Hr as [-> | [-> | ->]]; reflexivity. }
    rewrite E1. cbn [bind]. rewrite H. reflexivity.
  Qed.

  (** Operators. *)
  Lemma lexes_star a ka : lexes a ka -> match a with [] => False | c :: _ => c <> "*" end ->
    lexes ("*" :: a) (TOp OStar :: ka).
  Proof.
    intros [La Ha] Hc. split; [cbn; lia|]. intros rest r f Hr H.
    cbn [length Nat.add lex_fuel app]. change (skip_spaces ("*" :: a ++ rest)) with ("*" :: a ++ rest).
    assert (E1 : lex1 fread ("*" :: a ++ rest) = Ok (Some (TOp OStar), a ++ rest)).
    { unfold lex1. cbn. destruct a as [|c a]; [contradiction|]. cbn [app].
      destruct c as [[] [] [] [] [] [] [] []]; try reflexivity. congruence. }
    rewrite E1. cbn [bind]. rewrite (Ha rest r f Hr H). reflexivity.
  Qed.
  Lemma lexes_slash a ka : lexes a ka -> match a with [] => False | c :: _ => c <> "/" end ->
    lexes ("/" :: a) (TOp OSlash :: ka).
  Proof.
    intros [La Ha] Hc. split; [cbn; lia|]. intros rest r f Hr H.
    cbn [length Nat.add lex_fuel app]. change (skip_spaces ("/" :: a ++ rest)) with ("/" :: a ++ rest).
    assert (E1 : lex1 fread ("/" :: a ++ rest) = Ok (Some (TOp OSlash), a ++ rest)).
    { unfold lex1. cbn. destruct a as [|c a]; [contradiction|]. cbn [app].
      destruct c as [[] [] [] [] [] [] [] []]; try reflexivity. congruence. }
    rewrite E1. cbn [bind]. rewrite (Ha rest r f Hr H). reflexivity.
  Qed.
  Lemma lexes_dstar a ka : lexes a ka -> lexes ("*" :: "*" :: a) (TOp ODStar :: ka).
  Proof.
    intros [La Ha]. split; [cbn; lia|]. intros rest r f Hr H.
    cbn [length Nat.add lex_fuel app]. cbn [skip_spaces].
    change (is_space "*") with false. cbn iota.
    change (lex1 fread ("*" :: "*" :: a ++ rest)) with (Ok (Some (TOp ODStar), a ++ rest)).
    cbn [bind]. rewrite (Ha rest r f Hr H). reflexivity.
  Qed.
  Lemma lexes_lp a ka : lexes a ka -> lexes ("(" :: a) (TOp OLP :: ka).
  Proof.
    intros [La Ha]. split; [cbn; lia|]. intros rest r f Hr H.
    cbn [length Nat.add lex_fuel app]. cbn [skip_spaces].
    change (is_space "(") with false. cbn iota.
    change (lex1 fread ("(" :: a ++ rest)) with (Ok (Some (TOp OLP), a ++ rest)).
    cbn [bind]. rewrite (Ha rest r f Hr H). reflexivity.
  Qed.
  Lemma lexes_rp : lexes [")"] [TOp ORP].
  Proof.
    split; [cbn; lia|]. intros rest r f Hr H.
    cbn [length Nat.add lex_fuel app]. cbn [skip_spaces].
    change (is_space ")") with false. cbn iota.
    change (lex1 fread (")" :: rest)) with (Ok (Some (TOp ORP), rest)).
    cbn [bind]. rewrite H. reflexivity.
  Qed.

  Lemma lex_fuel_mono f : forall t r, lex_fuel fread f t = Ok r -> lex_fuel fread (S f) t = Ok r.
  Proof.
    induction f as [|f IH]; intros t r H; [discriminate|].
    cbn [lex_fuel] in H. remember (S f) as g. cbn [lex_fuel].
    destruct (lex1 fread (skip_spaces t)) as [[[k|] rest]|e]; cbn [bind] in *; auto. subst g.
    destruct (lex_fuel fread f rest) as [ks|e] eqn:E; cbn [bind] in *; [|discriminate].
    now rewrite (IH _ _ E).
  Qed.
  Lemma lex_fuel_le f f' t r : f <= f' -> lex_fuel fread f t = Ok r -> lex_fuel fread f' t = Ok r.
  Proof. intros Hle H. induction Hle; auto using lex_fuel_mono. Qed.

  Lemma lexes_lex t ks : lexes t ks -> match t with [] => False | c :: _ => is_space c = false end ->
    lex fread t = Ok ks.
  Proof.
    intros [Hl H] Hs. unfold lex. destruct t as [|c t]; [contradiction|]. rewrite Hs.
    specialize (H [] [] 1 I eq_refl). rewrite !app_nil_r in H.
    apply (lex_fuel_le (length ks + 1)); auto. cbn in *. lia.
  Qed.
End Lexing.

(** ** Parsing of products *)

(** A factor: a name, possibly with an exponent. *)
Definition fac : Type := (text * option pynum)%type.
Definition ftoks (x : fac) : list token :=
  match x with
  | (s, None) => [TName s]
  | (s, Some p) => [TName s; TOp ODStar; TNum p]
  end.
Definition fexpr (x : fac) : expr :=
  match x with
  | (s, None) => EName s
  | (s, Some p) => EBin BPow (EName s) (ENum p)
  end.
Definition tail_toks (l : list fac) : list token := flat_map (fun x => TOp OStar :: ftoks x) l.
Definition prod_expr (e : expr) (l : list fac) : expr :=
  fold_left (fun a x => EBin BMul a (fexpr x)) l e.

(** Tokens after which a factor is complete. *)
Definition fstop (ts : list token) : Prop :=
  match ts with TOp ODStar :: _ | TOp OLP :: _ => False | _ => True end.

Lemma parse_factor f x ts : fstop ts -> parse_fuel (4 + f) GFactor (ftoks x ++ ts) = Ok (fexpr x, ts).
Proof.
  intros H. destruct x as [s [p|]]; cbn [ftoks app Nat.add parse_fuel bind fexpr].
  - destruct ts as [|[w|w|n|[]] ts]; try contradiction; reflexivity.
  - destruct ts as [|[w|w|n|[]] ts]; try contradiction; reflexivity.
Qed.
Lemma fstop_tail l ts : fstop ts -> fstop (tail_toks l ++ ts).
Proof. destruct l; cbn; auto. Qed.

Lemma parse_tail l : forall e f ts, fstop ts ->
  parse_fuel (length l + (4 + f)) (GTermTail e) (tail_toks l ++ ts) =
  parse_fuel (4 + f) (GTermTail (prod_expr e l)) ts.
Proof.
  induction l as [|x l IH]; intros e f ts H; [reflexivity|].
  cbn [length tail_toks flat_map app Nat.add]. rewrite <- app_assoc.
  change (S (length l + S (S (S (S f))))) with (S (length l + (4 + f))).
  cbn [parse_fuel].
  replace (length l + (4 + f)) with (4 + (length l + f)) at 1 by lia.
  fold (tail_toks l).
  rewrite parse_factor by (now apply fstop_tail). cbn [bind].
  rewrite IH by auto. reflexivity.
Qed.

Lemma pf_sum f ts : parse_fuel (S f) GSum ts =
  ('(e, ts1) <- parse_fuel f GTerm ts ;; parse_fuel f (GSumTail e) ts1).
Proof. reflexivity. Qed.
Lemma pf_term f ts : parse_fuel (S f) GTerm ts =
  ('(e, ts1) <- parse_fuel f GFactor ts ;; parse_fuel f (GTermTail e) ts1).
Proof. reflexivity. Qed.
Lemma pf_slash f e ts : parse_fuel (S f) (GTermTail e) (TOp OSlash :: ts) =
  ('(e2, ts2) <- parse_fuel f GFactor ts ;; parse_fuel f (GTermTail (EBin BDiv e e2)) ts2).
Proof. reflexivity. Qed.
Lemma pf_paren f ts : match ts with TOp ORP :: _ => False | _ => True end ->
  parse_fuel (S (S f)) GFactor (TOp OLP :: ts) =
  ('(e, ts1) <- ('(e, ts2) <- parse_fuel f GSum ts ;;
                 match ts2 with
                 | TOp ORP :: ts3 => Ok (e, ts3)
                 | TKw _ :: _ => Err Unmodelled
                 | _ => Err SyntaxError
                 end) ;;
   match ts1 with
   | TOp ODStar :: ts2 => '(e2, ts3) <- parse_fuel f GFactor ts2 ;; Ok (EBin BPow e e2, ts3)
   | TOp OLP :: _ => Err Unmodelled
   | _ => Ok (e, ts1)
   end).
Proof. intros H. cbn [parse_fuel]. destruct ts as [|[w|w|n|[]] ts]; try contradiction; reflexivity. Qed.
(** A parenthesised product. *)
Lemma parse_paren f x l ts : fstop ts ->
  parse_fuel (length l + 10 + f) GFactor (TOp OLP :: ftoks x ++ tail_toks l ++ TOp ORP :: ts) =
  Ok (prod_expr (fexpr x) l, ts).
Proof.
  intros H. replace (length l + 10 + f) with (S (S (S (S (S (length l + 5 + f)))))) by lia.
  rewrite pf_paren by (destruct x as [s [p|]]; exact I).
  assert (Hg : parse_fuel (S (S (S (length l + 5 + f)))) GSum (ftoks x ++ tail_toks l ++ TOp ORP :: ts) =
               Ok (prod_expr (fexpr x) l, TOp ORP :: ts)).
  { rewrite pf_sum, pf_term.
    replace (S (length l + 5 + f)) with (4 + (length l + 2 + f)) by lia.
    rewrite parse_factor by (now apply fstop_tail). cbn [bind].
    replace (4 + (length l + 2 + f)) with (length l + (4 + (2 + f))) by lia.
    rewrite parse_tail by exact I. reflexivity. }
  rewrite Hg. cbn [bind].
  destruct ts as [|[w|w|n|[]] ts]; try contradiction; reflexivity.
Qed.

(** The whole: [n1*n2.../d1], [.../(d1*d2...)]; [den = []]: no denominator. *)
Definition den_toks (den : list fac) : list token :=
  match den with
  | [] => []
  | [x] => TOp OSlash :: ftoks x
  | x :: l => TOp OSlash :: TOp OLP :: ftoks x ++ tail_toks l ++ [TOp ORP]
  end.
Definition den_expr (e : expr) (den : list fac) : expr :=
  match den with
  | [] => e
  | x :: l => EBin BDiv e (prod_expr (fexpr x) l)
  end.
(** The numerator is a product, or the number one. *)
Definition num_toks (num : list fac) : list token :=
  match num with [] => [TNum (PInt 1)] | x :: l => ftoks x ++ tail_toks l end.
Definition num_expr (num : list fac) : expr :=
  match num with [] => ENum (PInt 1) | x :: l => prod_expr (fexpr x) l end.

Lemma ftoks_len x : 1 <= length (ftoks x).
Proof. destruct x as [s [p|]]; cbn; lia. Qed.
Lemma tail_len l : 2 * length l <= length (tail_toks l).
Proof.
  unfold tail_toks. induction l as [|x l IH]; cbn [flat_map length app]; [lia|]. rewrite app_length.
  pose proof (ftoks_len x). lia.
Qed.

Lemma parse_den f e den :
  parse_fuel (length den + 12 + f) (GTermTail e) (den_toks den) = Ok (den_expr e den, []).
Proof.
  replace (length den + 12 + f) with (S (length den + 11 + f)) by lia.
  destruct den as [|x l]; [reflexivity|].
  destruct l as [|y l].
  - cbn [den_toks length]. rewrite pf_slash.
    replace (1 + 11 + f) with (4 + (8 + f)) by lia.
    pose proof (parse_factor (8 + f) x [] I) as P. rewrite app_nil_r in P. rewrite P. cbn [bind].
    reflexivity.
  - cbn [den_toks]. rewrite pf_slash.
    replace (length (x :: y :: l) + 11 + f) with (length (y :: l) + 10 + (2 + f)) by (cbn [length]; lia).
    rewrite (parse_paren (2 + f) x (y :: l) []) by exact I. cbn [bind].
    replace (length (y :: l) + 10 + (2 + f)) with (S (length (y :: l) + 11 + f)) by lia.
    reflexivity.
Qed.

Lemma parse_product num den :
  parse_tokens (num_toks num ++ den_toks den) = Ok (den_expr (num_expr num) den).
Proof.
  unfold parse_tokens. set (ts := num_toks num ++ den_toks den).
  assert (Hst : fstop (den_toks den)) by (destruct den as [|? [|? ?]]; exact I).
  assert (Hd : length den <= length (den_toks den)).
  { destruct den as [|x [|y l]]; cbn [den_toks length]; [lia|pose proof (ftoks_len x); lia|].
    rewrite !app_length. pose proof (tail_len (y :: l)). pose proof (ftoks_len x). cbn [length] in *. lia. }
  assert (P : parse_fuel (8 * length ts + 8) GSum ts = Ok (den_expr (num_expr num) den, [])).
  { assert (Ht : forall fu, length num + length den + 20 <= fu ->
       parse_fuel fu GTerm ts = Ok (den_expr (num_expr num) den, [])).
    { intros fu Hf. destruct num as [|x l].
      - cbn [length] in Hf. replace fu with (S (length den + 12 + (fu - length den - 13))) by lia.
        rewrite pf_term. unfold ts. cbn [num_toks app num_expr].
        remember (length den + 12 + (fu - length den - 13)) as g.
        assert (Hg : 12 <= g) by lia.
        assert (E : parse_fuel g GFactor (TNum (PInt 1) :: den_toks den) = Ok (ENum (PInt 1), den_toks den)).
        { destruct g as [|[|g]]; try lia. cbn [parse_fuel bind].
          destruct den as [|? [|? ?]]; reflexivity. }
        rewrite E. cbn [bind]. rewrite Heqg. apply parse_den.
      - cbn [length] in Hf. set (m := fu - length l - length den - 13).
        replace fu with (S (length l + (length den + 12 + m))) by (subst m; lia).
        rewrite pf_term. unfold ts. cbn [num_toks num_expr]. rewrite <- app_assoc.
        replace (length l + (length den + 12 + m)) with (4 + (length l + length den + 8 + m)) at 1 by lia.
        rewrite parse_factor by (now apply fstop_tail). cbn [bind].
        replace (length l + (length den + 12 + m)) with (length l + (4 + (length den + 8 + m))) by lia.
        rewrite parse_tail by auto.
        replace (4 + (length den + 8 + m)) with (length den + 12 + m) by lia.
        apply parse_den. }
    assert (Hlen : length num + length den <= length ts).
    { unfold ts. rewrite app_length.
      assert (length num <= length (num_toks num)); [|lia].
      destruct num as [|x l]; cbn [num_toks length]; [lia|]. rewrite app_length.
      pose proof (tail_len l). pose proof (ftoks_len x). lia. }
    assert (Hpos : 2 <= length ts + (if Nat.leb (length ts) 1 then 1 else 0)).
    { assert (1 <= length ts). { unfold ts. rewrite app_length. destruct num as [|x l]; cbn [num_toks]; [cbn; lia|].
        rewrite app_length. pose proof (ftoks_len x). lia. }
      destruct (Nat.leb_spec (length ts) 1); lia. }
    replace (8 * length ts + 8) with (S (8 * length ts + 7)) by lia.
    rewrite pf_sum.
    destruct (Nat.le_gt_cases (length num + length den + 20) (8 * length ts + 7)) as [Hle|Hgt].
    - rewrite Ht by auto. cbn [bind].
      replace (8 * length ts + 7) with (S (8 * length ts + 6)) by lia. reflexivity.
    - assert (Hs : length ts = 1).
      { destruct (Nat.leb_spec (length ts) 1); lia. }
      (* a single token: the name alone, or the number one *)
      assert (den = []).
      { destruct den as [|x [|y l]]; auto; exfalso; unfold ts in Hs; rewrite app_length in Hs;
          cbn [den_toks length] in Hs; [pose proof (ftoks_len x)|rewrite !app_length in Hs; cbn in Hs];
          destruct num as [|x0 l0]; cbn [num_toks] in Hs; try (cbn in Hs; lia);
          rewrite app_length in Hs; pose proof (ftoks_len x0); lia. }
      subst den. unfold ts in *. cbn [den_toks] in *. rewrite app_nil_r in *.
      destruct num as [|[s [p|]] [|y l]]; try (cbn in Hs; lia); reflexivity. }
  rewrite P. reflexivity.
Qed.
