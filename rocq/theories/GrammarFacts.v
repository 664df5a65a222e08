(** * GrammarFacts: the parser of Lex.v accepts exactly the grammar of SpecGrammar.v. *)
From Coq Require Import Ascii NArith Lia.
From Verif Require Import Py Text Lex SpecGrammar.

(** ** More fuel never changes a result *)
Lemma parse_mono f : forall g ts r, parse_fuel f g ts = Ok r -> parse_fuel (S f) g ts = Ok r.
Proof.
  induction f as [|f IH]; intros g ts r H; [discriminate|].
  assert (B : forall g ts (k : expr * list token -> res (expr * list token)) r,
     bind (parse_fuel f g ts) k = Ok r -> exists x, parse_fuel f g ts = Ok x /\ parse_fuel (S f) g ts = Ok x /\ k x = Ok r).
  { intros g' ts' k r' Hb. destruct (parse_fuel f g' ts') as [x|e] eqn:E; cbn [bind] in Hb; [|discriminate]. exists x. auto. }
  assert (Hd : forall n, parse_fuel (S n) g ts = parse_fuel (S n) g ts) by reflexivity. clear Hd.
  destruct g as [|e| |e| |]; remember (S f) as n eqn:En; cbn [parse_fuel]; rewrite En in H; cbn [parse_fuel] in H.
  - apply B in H. destruct H as ([e ts1] & E1 & E2 & H). try rewrite <- En in E2. rewrite E2. cbn [bind]. apply IH. exact H.
  - destruct ts as [|[s|s|p|[]] ts1]; try exact H;
      (apply B in H; destruct H as ([e2 ts2] & E1 & E2 & H); try rewrite <- En in E2; rewrite E2; cbn [bind]; apply IH; exact H).
  - apply B in H. destruct H as ([e ts1] & E1 & E2 & H). try rewrite <- En in E2. rewrite E2. cbn [bind]. apply IH. exact H.
  - destruct ts as [|[s|s|p|[]] ts1]; try exact H;
      (apply B in H; destruct H as ([e2 ts2] & E1 & E2 & H); try rewrite <- En in E2; rewrite E2; cbn [bind]; apply IH; exact H).
  - assert (G : forall ts', parse_fuel f GPower ts' = Ok r -> parse_fuel n GPower ts' = Ok r) by (intros; now apply IH).
    destruct ts as [|[s|s|p|[]] ts1]; try (apply G; exact H);
      (apply B in H; destruct H as ([e2 ts2] & E1 & E2 & H); try rewrite <- En in E2; rewrite E2; exact H).
  - assert (K : forall e ts1, (match ts1 with
          | TOp ODStar :: ts2 => '(e2, ts3) <- parse_fuel f GFactor ts2 ;; Ok (EBin BPow e e2, ts3)
          | TOp OLP :: _ => Err Unmodelled
          | _ => Ok (e, ts1) end) = Ok r ->
        (match ts1 with
          | TOp ODStar :: ts2 => '(e2, ts3) <- parse_fuel n GFactor ts2 ;; Ok (EBin BPow e e2, ts3)
          | TOp OLP :: _ => Err Unmodelled
          | _ => Ok (e, ts1) end) = Ok r).
    { intros e ts1. destruct ts1 as [|[s|s|p|[]] ts2]; auto. intros X. apply B in X. destruct X as ([e2 ts3] & E1 & E2 & X).
      try rewrite <- En in E2. rewrite E2. exact X. }
    destruct ts as [|[s|s|p|o] ts1]; try discriminate H; cbn [bind] in H |- *; try (apply K; exact H).
    + destruct (teqb s (T "None")); cbn [bind] in H |- *; [apply K; exact H|].
      destruct (teqb s (T "True")); cbn [bind] in H |- *; [apply K; exact H|].
      destruct (teqb s (T "False")); cbn [bind] in H |- *; [apply K; exact H|].
      destruct (_ || _)%bool in H; discriminate H.
    + destruct o; try discriminate H.
      assert (P : forall ts1, bind (bind (parse_fuel f GSum ts1) (fun '(e, ts2) => match ts2 with TOp ORP :: ts3 => Ok (e, ts3) | TKw _ :: _ => Err Unmodelled | _ => Err SyntaxError end))
         (fun '(e, ts1) => match ts1 with
          | TOp ODStar :: ts2 => '(e2, ts3) <- parse_fuel f GFactor ts2 ;; Ok (EBin BPow e e2, ts3)
          | TOp OLP :: _ => Err Unmodelled
          | _ => Ok (e, ts1) end) = Ok r ->
         bind (bind (parse_fuel n GSum ts1) (fun '(e, ts2) => match ts2 with TOp ORP :: ts3 => Ok (e, ts3) | TKw _ :: _ => Err Unmodelled | _ => Err SyntaxError end))
         (fun '(e, ts1) => match ts1 with
          | TOp ODStar :: ts2 => '(e2, ts3) <- parse_fuel n GFactor ts2 ;; Ok (EBin BPow e e2, ts3)
          | TOp OLP :: _ => Err Unmodelled
          | _ => Ok (e, ts1) end) = Ok r).
      { clear H. intros ts' H. destruct (parse_fuel f GSum ts') as [[e ts2]|] eqn:E1; cbn [bind] in H; [|discriminate].
        apply IH in E1. rewrite E1. cbn [bind].
        destruct ts2 as [|[s|s|p|[]] ts3]; cbn [bind] in H |- *; try discriminate H. apply K. exact H. }
      destruct ts1 as [|[s|s|p|[]] ts2]; try discriminate H; apply P; exact H.
Qed.
Lemma parse_le f f' g ts r : f <= f' -> parse_fuel f g ts = Ok r -> parse_fuel f' g ts = Ok r.
Proof. induction 1; auto. intros. apply parse_mono. auto. Qed.

(** ** Soundness *)
(** What the parser's goals promise. *)
Definition delivers (g : goal) (e : expr) (used : list token) : Prop :=
  match g with
  | GSum => derives LSum e used
  | GSumTail e0 => forall pre, derives LSum e0 pre -> derives LSum e (pre ++ used)
  | GTerm => derives LTerm e used
  | GTermTail e0 => forall pre, derives LTerm e0 pre -> derives LTerm e (pre ++ used)
  | GFactor => derives LFactor e used
  | GPower => derives LPower e used
  end.
Lemma teqb_true s t : teqb s t = true -> s = t.
Proof. apply teqb_eq. Qed.
Lemma parse_sound f : forall g ts e rest, parse_fuel f g ts = Ok (e, rest) ->
  exists used, ts = used ++ rest /\ delivers g e used.
Proof.
  induction f as [|f IH]; intros g ts e rest H; [discriminate|]. cbn [parse_fuel] in H.
  assert (ST : forall e0 (P : expr -> expr) k ts1 o, sum_op k o -> P = EBin o e0 ->
    ('(e2, ts2) <- parse_fuel f GTerm ts1 ;; parse_fuel f (GSumTail (P e2)) ts2) = Ok (e, rest) ->
    exists used, TOp k :: ts1 = used ++ rest /\ delivers (GSumTail e0) e used).
  { intros e0 P k ts1 o Ho -> X. destruct (parse_fuel f GTerm ts1) as [[e2 ts2]|] eqn:E1; cbn [bind] in X; [|discriminate].
    apply IH in E1. destruct E1 as (u1 & -> & D1). apply IH in X. destruct X as (u2 & -> & D2).
    exists (TOp k :: u1 ++ u2). split; [cbn [app]; now rewrite <- app_assoc|]. intros pre Hp. cbn [delivers] in *.
    replace (pre ++ TOp k :: u1 ++ u2) with ((pre ++ TOp k :: u1) ++ u2) by (rewrite <- app_assoc; reflexivity).
    apply D2. now apply d_add. }
  assert (TT : forall e0 (P : expr -> expr) k ts1 o, term_op k o -> P = EBin o e0 ->
    ('(e2, ts2) <- parse_fuel f GFactor ts1 ;; parse_fuel f (GTermTail (P e2)) ts2) = Ok (e, rest) ->
    exists used, TOp k :: ts1 = used ++ rest /\ delivers (GTermTail e0) e used).
  { intros e0 P k ts1 o Ho -> X. destruct (parse_fuel f GFactor ts1) as [[e2 ts2]|] eqn:E1; cbn [bind] in X; [|discriminate].
    apply IH in E1. destruct E1 as (u1 & -> & D1). apply IH in X. destruct X as (u2 & -> & D2).
    exists (TOp k :: u1 ++ u2). split; [cbn [app]; now rewrite <- app_assoc|]. intros pre Hp. cbn [delivers] in *.
    replace (pre ++ TOp k :: u1 ++ u2) with ((pre ++ TOp k :: u1) ++ u2) by (rewrite <- app_assoc; reflexivity).
    apply D2. now apply d_mul. }
  assert (NIL : forall (e0 : expr) (lv : level) tsx, Ok (e0, tsx) = Ok (e, rest) ->
    exists used, tsx = used ++ rest /\ (forall pre, derives lv e0 pre -> derives lv e (pre ++ used))).
  { intros e0 lv tsx X. injection X as <- <-. exists []. split; auto. intros pre Hp. now rewrite app_nil_r. }
  destruct g as [|e0| |e0| |].
  - destruct (parse_fuel f GTerm ts) as [[e1 ts1]|] eqn:E1; cbn [bind] in H; [|discriminate].
    apply IH in E1. destruct E1 as (u1 & -> & D1). apply IH in H. destruct H as (u2 & -> & D2).
    exists (u1 ++ u2). split; [cbn [app]; now rewrite <- app_assoc|]. cbn [delivers] in *. apply D2. now apply d_sum.
  - destruct ts as [|[s|s|p|[]] ts1]; try exact (NIL _ LSum _ H); eapply ST; try exact H; try reflexivity; constructor.
  - destruct (parse_fuel f GFactor ts) as [[e1 ts1]|] eqn:E1; cbn [bind] in H; [|discriminate].
    apply IH in E1. destruct E1 as (u1 & -> & D1). apply IH in H. destruct H as (u2 & -> & D2).
    exists (u1 ++ u2). split; [cbn [app]; now rewrite <- app_assoc|]. cbn [delivers] in *. apply D2. now apply d_term.
  - destruct ts as [|[s|s|p|[]] ts1]; try exact (NIL _ LTerm _ H); eapply TT; try exact H; try reflexivity; constructor.
  - assert (SG : forall k o ts1, sign_op k o -> ('(e, ts2) <- parse_fuel f GFactor ts1 ;; Ok (EUn o e, ts2)) = Ok (e, rest) ->
      exists used, TOp k :: ts1 = used ++ rest /\ delivers GFactor e used).
    { intros k o ts1 Ho X. destruct (parse_fuel f GFactor ts1) as [[e1 ts2]|] eqn:E1; cbn [bind] in X; [|discriminate].
      injection X as <- <-. apply IH in E1. destruct E1 as (u1 & -> & D1). exists (TOp k :: u1). split; auto. now apply d_sign. }
    assert (PW : forall ts1, parse_fuel f GPower ts1 = Ok (e, rest) -> exists used, ts1 = used ++ rest /\ delivers GFactor e used).
    { intros ts1 X. apply IH in X. destruct X as (u & -> & D). exists u. split; auto. now apply d_factor. }
    destruct ts as [|[s|s|p|[]] ts1]; try (apply PW; exact H); eapply SG; try exact H; constructor.
  - assert (K : forall a l ts1, derives LAtom a l -> (match ts1 with
          | TOp ODStar :: ts2 => '(e2, ts3) <- parse_fuel f GFactor ts2 ;; Ok (EBin BPow a e2, ts3)
          | TOp OLP :: _ => Err Unmodelled
          | _ => Ok (a, ts1) end) = Ok (e, rest) -> exists used, l ++ ts1 = used ++ rest /\ delivers GPower e used).
    { intros a l ts1 Ha X.
      assert (Z : Ok (a, ts1) = Ok (e, rest) -> exists used, l ++ ts1 = used ++ rest /\ delivers GPower e used).
      { intros Y. injection Y as <- <-. exists l. split; auto. now apply d_power. }
      destruct ts1 as [|[s|s|p|[]] ts2]; try (exact (Z X)); [|discriminate X].
      destruct (parse_fuel f GFactor ts2) as [[e2 ts3]|] eqn:E1; cbn [bind] in X; [|discriminate]. injection X as <- <-.
      apply IH in E1. destruct E1 as (u1 & -> & D1). exists (l ++ TOp ODStar :: u1). split; [cbn [app]; now rewrite <- app_assoc|]. now apply d_pow. }
    destruct ts as [|[s|s|p|o] ts1]; try discriminate H; cbn [bind] in H.
    + exact (K _ [TName s] _ (d_name s) H).
    + destruct (teqb s (T "None")) eqn:Q1; cbn [bind] in H; [apply teqb_true in Q1; subst s; exact (K _ [TKw _] _ (d_const _ _ cw_none) H)|].
      destruct (teqb s (T "True")) eqn:Q2; cbn [bind] in H; [apply teqb_true in Q2; subst s; exact (K _ [TKw _] _ (d_const _ _ cw_true) H)|].
      destruct (teqb s (T "False")) eqn:Q3; cbn [bind] in H; [apply teqb_true in Q3; subst s; exact (K _ [TKw _] _ (d_const _ _ cw_false) H)|].
      destruct (_ || _)%bool in H; discriminate H.
    + exact (K _ [TNum p] _ (d_num p) H).
    + destruct o; try discriminate H.
      assert (P : forall tsx, bind (bind (parse_fuel f GSum tsx) (fun '(e, ts2) => match ts2 with TOp ORP :: ts3 => Ok (e, ts3) | TKw _ :: _ => Err Unmodelled | _ => Err SyntaxError end))
         (fun '(e, ts1) => match ts1 with
          | TOp ODStar :: ts2 => '(e2, ts3) <- parse_fuel f GFactor ts2 ;; Ok (EBin BPow e e2, ts3)
          | TOp OLP :: _ => Err Unmodelled
          | _ => Ok (e, ts1) end) = Ok (e, rest) -> exists used, TOp OLP :: tsx = used ++ rest /\ delivers GPower e used).
      { clear H. intros tsx X. destruct (parse_fuel f GSum tsx) as [[e1 ts2]|] eqn:E1; cbn [bind] in X; [|discriminate].
        apply IH in E1. destruct E1 as (u1 & -> & D1). destruct ts2 as [|[s|s|p|[]] ts3]; cbn [bind] in X; try discriminate X.
        destruct (K e1 (TOp OLP :: u1 ++ [TOp ORP]) ts3 (d_paren _ _ D1) X) as (used & E & D). exists used. split; auto.
        rewrite <- E. cbn. now rewrite <- app_assoc. }
      destruct ts1 as [|[s|s|p|[]] ts2]; try discriminate H; apply P; exact H.
Qed.

(** ** Completeness *)
Definition runs (g : goal) (ts : list token) (r : expr * list token) : Prop := exists f, parse_fuel f g ts = Ok r.
(** What may follow a power, and a term. *)
Definition okp (ts : list token) : Prop := match ts with TOp ODStar :: _ | TOp OLP :: _ => False | _ => True end.
Definition okt (ts : list token) : Prop :=
  match ts with
  | TOp ODStar :: _ | TOp OLP :: _ | TOp OStar :: _ | TOp OSlash :: _ | TOp ODSlash :: _ | TOp OPercent :: _ => False
  | _ => True
  end.
Definition pow_tail (e : expr) (rest : list token) (r : expr * list token) : Prop :=
  match rest with
  | TOp ODStar :: ts2 => exists b ts3, runs GFactor ts2 (b, ts3) /\ r = (EBin BPow e b, ts3)
  | TOp OLP :: _ => False
  | _ => r = (e, rest)
  end.
(** Derivations begin with one of these. *)
Definition starts (l : list token) : Prop :=
  match l with
  | TName _ :: _ | TNum _ :: _ | TKw _ :: _ | TOp OLP :: _ | TOp OPlus :: _ | TOp OMinus :: _ | TOp OTilde :: _ => True
  | _ => False
  end.
Definition starts_atom (l : list token) : Prop :=
  match l with TName _ :: _ | TNum _ :: _ | TKw _ :: _ | TOp OLP :: _ => True | _ => False end.
Lemma starts_app l r : starts l -> starts (l ++ r).
Proof. destruct l; cbn; auto. intros []. Qed.
Lemma starts_atom_app l r : starts_atom l -> starts_atom (l ++ r).
Proof. destruct l; cbn; auto. intros []. Qed.
Lemma starts_atom_starts l : starts_atom l -> starts l.
Proof. destruct l as [|[s|s|p|[]] l]; cbn; auto. Qed.
Lemma derives_starts lv e l : derives lv e l -> starts l /\ (lv = LAtom \/ lv = LPower -> starts_atom l).
Proof.
  induction 1 as [s|p|s c H|e l H [I1 _]|e l H [I1 I2]|a b l r H1 [I1 I2] H2 _|e l H [I1 I2]|k o e l Ho H _|e l H [I1 I2]|k o a b l r Ho H1 [I1 _] H2 _|e l H [I1 I2]|k o a b l r Ho H1 [I1 _] H2 _].
  1-4: split; cbn; auto.
  1: split; auto.
  1: split; [now apply starts_app|intros _; apply starts_atom_app; auto].
  1: split; auto; intros [X|X]; discriminate.
  1: split; [destruct Ho; exact I|intros [X|X]; discriminate].
  all: split; [try apply starts_app; auto|intros [X|X]; discriminate].
Qed.

(** One step of the parser, as rules for [runs]. *)
Lemma runs_sum ts e ts1 r : runs GTerm ts (e, ts1) -> runs (GSumTail e) ts1 r -> runs GSum ts r.
Proof.
  intros [f1 H1] [f2 H2]. exists (S (f1 + f2)). cbn [parse_fuel].
  rewrite (parse_le f1 (f1 + f2) _ _ _ ltac:(lia) H1). cbn [bind]. apply (parse_le f2); [lia|exact H2].
Qed.
Lemma runs_term ts e ts1 r : runs GFactor ts (e, ts1) -> runs (GTermTail e) ts1 r -> runs GTerm ts r.
Proof.
  intros [f1 H1] [f2 H2]. exists (S (f1 + f2)). cbn [parse_fuel].
  rewrite (parse_le f1 (f1 + f2) _ _ _ ltac:(lia) H1). cbn [bind]. apply (parse_le f2); [lia|exact H2].
Qed.
Lemma runs_sumtail k o e ts e2 ts2 r : sum_op k o -> runs GTerm ts (e2, ts2) -> runs (GSumTail (EBin o e e2)) ts2 r ->
  runs (GSumTail e) (TOp k :: ts) r.
Proof.
  intros Ho [f1 H1] [f2 H2]. exists (S (f1 + f2)).
  destruct Ho; cbn [parse_fuel]; rewrite (parse_le f1 (f1 + f2) _ _ _ ltac:(lia) H1); cbn [bind]; (apply (parse_le f2); [lia|exact H2]).
Qed.
Lemma runs_termtail k o e ts e2 ts2 r : term_op k o -> runs GFactor ts (e2, ts2) -> runs (GTermTail (EBin o e e2)) ts2 r ->
  runs (GTermTail e) (TOp k :: ts) r.
Proof.
  intros Ho [f1 H1] [f2 H2]. exists (S (f1 + f2)).
  destruct Ho; cbn [parse_fuel]; rewrite (parse_le f1 (f1 + f2) _ _ _ ltac:(lia) H1); cbn [bind]; (apply (parse_le f2); [lia|exact H2]).
Qed.
Lemma runs_sumtail_end e ts : match ts with TOp OPlus :: _ | TOp OMinus :: _ => False | _ => True end -> runs (GSumTail e) ts (e, ts).
Proof. intros H. exists 1. destruct ts as [|[s|s|p|[]] ts]; try destruct H; reflexivity. Qed.
Lemma runs_termtail_end e ts : okt ts -> runs (GTermTail e) ts (e, ts).
Proof. intros H. exists 1. destruct ts as [|[s|s|p|[]] ts]; try destruct H; reflexivity. Qed.
Lemma runs_sign k o ts e ts2 : sign_op k o -> runs GFactor ts (e, ts2) -> runs GFactor (TOp k :: ts) (EUn o e, ts2).
Proof. intros Ho [f H]. exists (S f). destruct Ho; cbn [parse_fuel]; rewrite H; reflexivity. Qed.
Lemma runs_factor ts r : starts_atom ts -> runs GPower ts r -> runs GFactor ts r.
Proof. intros Hs [f H]. exists (S f). destruct ts as [|[s|s|p|[]] ts]; try destruct Hs; cbn [parse_fuel]; exact H. Qed.

Definition complete (lv : level) (e : expr) (l : list token) : Prop :=
  match lv with
  | LAtom => forall rest r, pow_tail e rest r -> runs GPower (l ++ rest) r
  | LPower => forall rest, okp rest -> runs GPower (l ++ rest) (e, rest)
  | LFactor => forall rest, okp rest -> runs GFactor (l ++ rest) (e, rest)
  | LTerm => forall rest r, okp rest -> runs (GTermTail e) rest r -> runs GTerm (l ++ rest) r
  | LSum => forall rest r, okt rest -> runs (GSumTail e) rest r -> runs GSum (l ++ rest) r
  end.
Lemma pow_tail_fuel e rest r : pow_tail e rest r -> exists f, forall f', f <= f' ->
  match rest with
  | TOp ODStar :: ts2 => '(e2, ts3) <- parse_fuel f' GFactor ts2 ;; Ok (EBin BPow e e2, ts3)
  | TOp OLP :: _ => Err Unmodelled
  | _ => Ok (e, rest)
  end = Ok r.
Proof.
  intros H. destruct rest as [|[s|s|p|[]] rest]; cbn [pow_tail] in H; try (exists 0; intros; now rewrite H); [|destruct H].
  destruct H as (b & ts3 & [f Hf] & ->). exists f. intros f' Hle. rewrite (parse_le f f' _ _ _ Hle Hf). reflexivity.
Qed.
Lemma okp_okt ts : okt ts -> okp ts.
Proof. destruct ts as [|[s|s|p|[]] ts]; cbn; auto. Qed.
Lemma okp_pow_tail e rest : okp rest -> pow_tail e rest (e, rest).
Proof. destruct rest as [|[s|s|p|[]] rest]; cbn; auto; intros []. Qed.
Lemma parse_complete lv e l : derives lv e l -> complete lv e l.
Proof.
  induction 1 as [s|p|s c H|e l H IH|e l H IH|a b l r H1 IH1 H2 IH2|e l H IH|k o e l Ho H IH|e l H IH|k o a b l r Ho H1 IH1 H2 IH2|e l H IH|k o a b l r Ho H1 IH1 H2 IH2]; cbn [complete] in *.
  - intros rest r P. apply pow_tail_fuel in P. destruct P as [f P]. exists (S f). cbn [parse_fuel app bind]. apply P. auto.
  - intros rest r P. apply pow_tail_fuel in P. destruct P as [f P]. exists (S f). cbn [parse_fuel app bind]. apply P. auto.
  - intros rest r P. apply pow_tail_fuel in P. destruct P as [f P]. exists (S f). destruct H; cbn [parse_fuel app bind]; apply (P f); auto.
  - intros rest r P. apply pow_tail_fuel in P. destruct P as [f1 P].
    assert (RS : runs GSum (l ++ TOp ORP :: rest) (e, TOp ORP :: rest)).
    { apply IH; [exact I|]. now apply runs_sumtail_end. }
    destruct RS as [f2 RS]. exists (S (f1 + f2)). cbn [app]. rewrite <- app_assoc. cbn [app].
    assert (St := proj1 (derives_starts _ _ _ H)).
    assert (X : parse_fuel (f1 + f2) GSum (l ++ TOp ORP :: rest) = Ok (e, TOp ORP :: rest)) by (apply (parse_le f2); [lia|exact RS]).
    assert (Y := P (f1 + f2) ltac:(lia)).
    destruct l as [|[s|s|p|[]] l]; try destruct St; cbn [app parse_fuel] in X |- *; rewrite X; cbn [bind]; exact Y.
  - intros rest Ho. apply IH. now apply okp_pow_tail.
  - intros rest Ho. rewrite <- app_assoc. apply IH1. cbn [app pow_tail]. exists b, rest. split; auto.
  - intros rest Ho. apply runs_factor; auto. apply starts_atom_app. apply (derives_starts _ _ _ H). auto.
  - intros rest Hr. cbn [app]. apply runs_sign; auto.
  - intros rest r Hr Ht. apply (runs_term _ e rest); auto.
  - intros rest R Hr Ht. rewrite <- app_assoc. cbn [app]. apply IH1; [destruct Ho; exact I|]. apply (runs_termtail k o a _ b rest); auto.
  - intros rest r Hr Ht. apply (runs_sum _ e rest); auto. apply IH; [now apply okp_okt|]. now apply runs_termtail_end.
  - intros rest R Hr Ht. rewrite <- app_assoc. cbn [app]. apply IH1; [destruct Ho; exact I|].
    apply (runs_sumtail k o a _ b rest); auto. apply IH2; [now apply okp_okt|]. now apply runs_termtail_end.
Qed.

(** ** The fuel of [parse_tokens] suffices *)
Definition rank (g : goal) : nat :=
  match g with GSum => 4 | GTerm => 3 | GFactor => 2 | GPower => 1 | GSumTail _ | GTermTail _ => 1 end.
Lemma delivers_len g e used : delivers g e used -> match g with GSumTail _ | GTermTail _ => True | _ => 1 <= length used end.
Proof.
  destruct g; cbn [delivers]; auto; intros H; apply derives_starts in H; destruct H as [H _]; destruct used; cbn in *; try lia; destruct H.
Qed.
Lemma parse_shrinks f g ts e rest : parse_fuel f g ts = Ok (e, rest) ->
  match g with GSumTail _ | GTermTail _ => length rest <= length ts | _ => length rest < length ts end.
Proof.
  intros H. apply parse_sound in H. destruct H as (u & -> & D). apply delivers_len in D. rewrite app_length. destruct g; lia.
Qed.
Lemma parse_fuel_enough f : forall g ts k, 8 * length ts + rank g <= f -> parse_fuel (k + f) g ts = parse_fuel f g ts.
Proof.
  induction f as [|f IH]; intros g ts k Hf.
  { destruct g; cbn [rank] in Hf; lia. }
  rewrite Nat.add_succ_r. 
  assert (I1 : forall g ts, 8 * length ts + rank g <= f -> parse_fuel (k + f) g ts = parse_fuel f g ts) by (intros; now apply IH).
  assert (BT : forall g' ts' g2 (P : expr -> goal), match g' with GSumTail _ | GTermTail _ => False | _ => True end -> 8 * length ts' + rank g' <= f -> 
     (forall e, rank (P e) <= 4) -> 8 * length ts' <= f + 4 ->
     ('(e, ts1) <- parse_fuel (k + f) g' ts' ;; parse_fuel (k + f) (P e) ts1) = ('(e, ts1) <- parse_fuel f g' ts' ;; parse_fuel f (P e) ts1) /\ g2 = g2 :> nat).
  { intros g' ts' g2 P Hg H1 H2 H3. split; auto. rewrite I1 by exact H1. destruct (parse_fuel f g' ts') as [[e1 ts1]|] eqn:E; auto. cbn [bind].
    apply I1. apply parse_shrinks in E. specialize (H2 e1). destruct g'; try destruct Hg; lia. }
  destruct g as [|e| |e| |]; cbn [parse_fuel rank] in *.
  - apply (BT GTerm ts 0 GSumTail I); cbn [rank]; intros; lia.
  - destruct ts as [|[s|s|p|[]] ts1]; auto; cbn [length] in Hf;
      (apply (BT GTerm ts1 0 (fun e2 => GSumTail (EBin _ e e2)) I); cbn [rank]; intros; lia).
  - apply (BT GFactor ts 0 GTermTail I); cbn [rank]; intros; lia.
  - destruct ts as [|[s|s|p|[]] ts1]; auto; cbn [length] in Hf;
      (apply (BT GFactor ts1 0 (fun e2 => GTermTail (EBin _ e e2)) I); cbn [rank]; intros; lia).
  - destruct ts as [|[s|s|p|[]] ts1]; try (apply I1; cbn [rank length] in *; lia);
      (rewrite I1 by (cbn [rank length] in *; lia); reflexivity).
  - assert (K : forall e ts1, 8 * length ts1 <= f + 1 -> (match ts1 with
          | TOp ODStar :: ts2 => '(e2, ts3) <- parse_fuel (k + f) GFactor ts2 ;; Ok (EBin BPow e e2, ts3)
          | TOp OLP :: _ => Err Unmodelled
          | _ => Ok (e, ts1) end) =
        (match ts1 with
          | TOp ODStar :: ts2 => '(e2, ts3) <- parse_fuel f GFactor ts2 ;; Ok (EBin BPow e e2, ts3)
          | TOp OLP :: _ => Err Unmodelled
          | _ => Ok (e, ts1) end)).
    { intros e ts1 H. destruct ts1 as [|[s|s|p|[]] ts2]; auto. rewrite I1; [reflexivity|]. cbn [length rank] in *. lia. }
    destruct ts as [|[s|s|p|o] ts1]; auto; cbn [bind length] in *.
    + apply K. lia.
    + destruct (teqb s (T "None")); cbn [bind]; [apply K; lia|]. destruct (teqb s (T "True")); cbn [bind]; [apply K; lia|].
      destruct (teqb s (T "False")); cbn [bind]; [apply K; lia|]. destruct (_ || _)%bool; reflexivity.
    + apply K. lia.
    + destruct o; auto.
      assert (P : forall tsx, length tsx <= length ts1 -> bind (bind (parse_fuel (k + f) GSum tsx) (fun '(e, ts2) => match ts2 with TOp ORP :: ts3 => Ok (e, ts3) | TKw _ :: _ => Err Unmodelled | _ => Err SyntaxError end))
         (fun '(e, ts1) => match ts1 with
          | TOp ODStar :: ts2 => '(e2, ts3) <- parse_fuel (k + f) GFactor ts2 ;; Ok (EBin BPow e e2, ts3)
          | TOp OLP :: _ => Err Unmodelled
          | _ => Ok (e, ts1) end) =
         bind (bind (parse_fuel f GSum tsx) (fun '(e, ts2) => match ts2 with TOp ORP :: ts3 => Ok (e, ts3) | TKw _ :: _ => Err Unmodelled | _ => Err SyntaxError end))
         (fun '(e, ts1) => match ts1 with
          | TOp ODStar :: ts2 => '(e2, ts3) <- parse_fuel f GFactor ts2 ;; Ok (EBin BPow e e2, ts3)
          | TOp OLP :: _ => Err Unmodelled
          | _ => Ok (e, ts1) end)).
      { intros tsx Hl. rewrite I1 by (cbn [rank]; lia). destruct (parse_fuel f GSum tsx) as [[e ts2]|] eqn:E; auto. cbn [bind].
        apply parse_shrinks in E. destruct ts2 as [|[s|s|p|[]] ts3]; auto. cbn [bind]. apply K. cbn [length] in E. lia. }
      destruct ts1 as [|[s|s|p|[]] ts2]; auto; apply P; auto.
Qed.

Theorem parse_iff ts e : parse_tokens ts = Ok e <-> derives LSum e ts.
Proof.
  unfold parse_tokens. split.
  - destruct (parse_fuel (8 * length ts + 8) GSum ts) as [[e' rest]|] eqn:E; cbn [bind]; [|discriminate].
    apply parse_sound in E. destruct E as (u & -> & D). destruct rest as [|[s|s|p|o] rest]; try discriminate.
    intros [= <-]. now rewrite app_nil_r.
  - intros D. destruct (parse_complete _ _ _ D [] (e, []) I (runs_sumtail_end e [] I)) as [f H]. rewrite app_nil_r in H.
    assert (X : parse_fuel (8 * length ts + 8) GSum ts = Ok (e, [])).
    { rewrite <- (parse_fuel_enough _ GSum ts f) by (cbn [rank]; lia). apply (parse_le f); [lia|exact H]. }
    rewrite X. reflexivity.
Qed.
