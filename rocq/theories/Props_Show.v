(** * Properties C107-C108: printed quantities and units. *)
From Coq Require Import Reals Lra Lia Ascii NArith.
From Verif Require Import Py Num Dim DimFacts Arr Units Spec UnitFacts Quant QuantFacts SpecApi ConvFacts Ops Examples Props_Ops Uncert SpecUncert
  Text Markup Lex Registry RegFacts LexFacts PrintFacts RoundTrip PrintEq Render Props_Registry Show.

Open Scope char_scope.
Open Scope list_scope.

(** ** The characters of a printed dimensionality *)
Definition wordy (c : ascii) : bool :=
  is_idchar c || existsb (Ascii.eqb c) ["*"; "/"; "("; ")"; "."].
Definition wtext (t : text) : Prop := Forall (fun c => wordy c = true) t.
Lemma wtext_app a b : wtext a -> wtext b -> wtext (a ++ b).
Proof. intros Ha Hb. apply Forall_app. split; assumption. Qed.
Lemma wtext_digits t : Forall (fun c => is_digit c = true) t -> wtext t.
Proof.
  intros H. apply Forall_forall. intros c Hc. rewrite Forall_forall in H. unfold wordy, is_idchar. rewrite (H c Hc).
  rewrite orb_true_r. reflexivity.
Qed.
Lemma wtext_ident s : identifier s -> wtext s.
Proof.
  intros [H _]. destruct s as [|c s]; [destruct H|]. destruct H as [Hc Hs]. constructor.
  - unfold wordy, is_idchar. rewrite Hc. reflexivity.
  - apply Forall_forall. intros x Hx. rewrite Forall_forall in Hs. unfold wordy. rewrite (Hs x Hx). reflexivity.
Qed.
Lemma wtext_exp fread frepr e : exp_printable fread frepr e -> (0 < pval e)%Qc -> wtext (exp_text frepr e).
Proof.
  intros H _. destruct e as [z|q]; cbn [exp_text].
  - apply wtext_digits, digits_digit.
  - destruct (Pos.eqb (Qden (this q)) 1); [apply wtext_digits, digits_digit|].
    destruct H as (n & fp & -> & _ & Hf & _). apply wtext_app; [apply wtext_digits, digits_digit|].
    constructor; [reflexivity|now apply wtext_digits].
Qed.
Lemma wtext_join l : Forall wtext l -> wtext (join (T "*") l).
Proof.
  induction 1 as [|x l Hx Hl IH]; [constructor|]. destruct l as [|y l]; [exact Hx|].
  change (join (T "*") (x :: y :: l)) with (x ++ T "*" ++ join (T "*") (y :: l)).
  apply wtext_app; [exact Hx|]. apply wtext_app; [|exact IH]. repeat constructor.
Qed.
Lemma wtext_layout num den : Forall wtext num -> Forall wtext den -> wtext (layout num den).
Proof.
  intros Hn Hd. pose proof (wtext_join num Hn) as Jn. pose proof (wtext_join den Hd) as Jd. unfold layout.
  assert (W1 : wtext (T "1")) by (repeat constructor).
  assert (Wd : wtext (T "dimensionless")) by (repeat constructor).
  assert (G : forall r, wtext r -> wtext (match r with [] => T "dimensionless" | _ => r end)) by (intros [|c r] H; assumption).
  assert (G1 : wtext (match join (T "*") num with [] => T "1" | _ => join (T "*") num end)) by (destruct (join (T "*") num); assumption).
  apply G. destruct den as [|x den]; [exact Jn|]. apply wtext_app; [exact G1|]. apply wtext_app; [repeat constructor|].
  destruct den as [|y den]; [exact Jd|]. apply wtext_app; [repeat constructor|]. apply wtext_app; [exact Jd|]. repeat constructor.
Qed.
Lemma wtext_units A (N : Num A) fread frepr (st : rstate A) d : printable fread frepr st d -> wtext (format_units (objs st) frepr false d).
Proof.
  intros HP. rewrite format_units_eq.
  assert (G : forall l, items_ok (objs st) fread frepr false l -> Forall wtext (map (fac_text (objs st) frepr false) l)).
  { intros l Hl. apply Forall_forall. intros t Ht. apply in_map_iff in Ht. destruct Ht as (kv & <- & Hkv).
    destruct (Hl kv Hkv) as (H1 & H2 & H3). rewrite (fac_text_eq (objs st) fread frepr false kv) by assumption.
    apply wtext_app; [now apply wtext_ident|]. destruct (peqb (snd kv) (PInt 1)); [constructor|].
    apply wtext_app; [repeat constructor|]. now apply (wtext_exp fread). }
  apply wtext_layout; apply G; [now apply printable_num|now apply printable_den].
Qed.
Lemma wtext_not_in c t : wordy c = false -> wtext t -> ~ In c t.
Proof. intros Hc Ht Hin. unfold wtext in Ht. rewrite Forall_forall in Ht. rewrite (Ht c Hin) in Hc. discriminate. Qed.

(** A text with two marks: the part after the last mark. *)
Lemma split_at_last (c : ascii) a b t t' : ~ In c t -> ~ In c t' -> a ++ c :: t = b ++ c :: t' -> a = b /\ t = t'.
Proof.
  intros Ht Ht'. revert b. induction a as [|x a IH]; intros [|y b] H; cbn [app] in H.
  - split; [reflexivity|congruence].
  - exfalso. assert (t = b ++ c :: t') as -> by congruence. apply Ht. apply in_or_app. right. now left.
  - exfalso. assert (t' = a ++ c :: t) as -> by congruence. apply Ht'. apply in_or_app. right. now left.
  - destruct (IH b) as [-> ->]; [congruence|]. split; [congruence|reflexivity].
Qed.

(** ** C107 *)
(** In a process whose units were created by some history, two quantities print the same
    with [str] iff NumPy prints their magnitudes the same and their units are equal. *)
Theorem C107_str : forall A (N : Num A) fread frepr mstr parse history (q1 q2 : qty A) v name,
  let st := rrun parse (@rempty A) history in
  unit_arith A -> printable fread frepr st (qdim q1) -> printable fread frepr st (qdim q2) ->
  (forall u, In u (dkeys (qdim q1)) -> In u (dkeys (objs st))) ->
  ctx_get st (T "dimensionless") = Some v -> val_q st v = Some (unit_q (UId CDimless name)) ->
  (q_str (objs st) frepr mstr false q1 = q_str (objs st) frepr mstr false q2 <->
   mstr (mag q1) = mstr (mag q2) /\ dim_eqb (qdim q1) (qdim q2) = true).
Proof.
  intros A N fread frepr mstr parse history q1 q2 v name st UA P1 P2 K Hv Hq.
  rewrite <- (C63_same_text_iff_equal A N fread frepr parse history (qdim q1) (qdim q2) v name UA P1 P2 K Hv Hq).
  fold st. unfold q_str. pose proof (wtext_units A N fread frepr st _ P1) as W1. pose proof (wtext_units A N fread frepr st _ P2) as W2.
  split.
  - intros H. apply (split_at_last " ") in H; [exact H|now apply wtext_not_in..].
  - intros [H1 H2]. rewrite H1, H2. reflexivity.
Qed.
(** The same for [repr], if NumPy's [repr] of an array is never a proper prefix of another
    (it is "array(" ... ")"). *)
Definition prefix_free {A} (mrepr : arr A -> text) : Prop :=
  forall a b s t, mrepr a ++ s = mrepr b ++ t -> mrepr a = mrepr b.
Theorem C107_repr : forall A (N : Num A) fread frepr mrepr parse history (q1 q2 : qty A) v name,
  let st := rrun parse (@rempty A) history in
  unit_arith A -> prefix_free mrepr -> printable fread frepr st (qdim q1) -> printable fread frepr st (qdim q2) ->
  (forall u, In u (dkeys (qdim q1)) -> In u (dkeys (objs st))) ->
  ctx_get st (T "dimensionless") = Some v -> val_q st v = Some (unit_q (UId CDimless name)) ->
  (q_repr (objs st) frepr mrepr false q1 = q_repr (objs st) frepr mrepr false q2 <->
   mrepr (mag q1) = mrepr (mag q2) /\ dim_eqb (qdim q1) (qdim q2) = true).
Proof.
  intros A N fread frepr mrepr parse history q1 q2 v name st UA PF P1 P2 K Hv Hq.
  rewrite <- (C63_same_text_iff_equal A N fread frepr parse history (qdim q1) (qdim q2) v name UA P1 P2 K Hv Hq).
  fold st. unfold q_repr. split.
  - intros H. pose proof (PF _ _ _ _ H) as X. split; [exact X|]. rewrite X in H. apply app_inv_head in H. apply app_inv_head in H. exact H.
  - intros [H1 H2]. rewrite H1, H2. reflexivity.
Qed.
(** What follows the last blank of [str(q)] and of [repr(q)] is a unit label that the
    registry reads as the units of [q]: [Quantity(q.magnitude, label)] is [q] again, up to
    the order in which the units are stored.  [repr(q)] is a product. *)
Theorem C107_units_read_back : forall A (N : Num A) fread frepr mstr mrepr (st : rstate A) (E : uenv A) (q : qty A) v name,
  unit_arith A -> printable fread frepr st (qdim q) ->
  ctx_get st (T "dimensionless") = Some v -> val_q st v = Some (unit_q (UId CDimless name)) ->
  exists label q', ~ In " " (T label) /\ q_str (objs st) frepr mstr false q = mstr (mag q) ++ T " " ++ T label /\
    q_repr (objs st) frepr mrepr false q = mrepr (mag q) ++ T " * " ++ T label /\
    q_new (reg_lookup (parse_arith fread) st) E (OArr (mag q)) (UStr label) = Ok q' /\
    mag q' = mag q /\ dim_eqb (qdim q') (qdim q) = true.
Proof.
  intros A N fread frepr mstr mrepr st E q v name UA P Hv Hq.
  set (t := format_units (objs st) frepr false (qdim q)).
  assert (TL : T (string_of_list_ascii t) = t) by (apply list_ascii_of_string_of_list_ascii).
  exists (string_of_list_ascii t).
  assert (X : exists w d', get_item (parse_arith fread) st t = Ok w /\ val_q st w = Some (Qty (scalar n1) d') /\ dim_eqb d' (qdim q) = true).
  { destruct (qdim q) as [|kv d] eqn:Ed.
    - destruct (C62_dimensionless A N fread frepr st v name Hv Hq) as [X1 X2]. exists v, []. split; [exact X1|]. split; [exact X2|reflexivity].
    - destruct (C62_text_means_the_product A N fread frepr st (kv :: d) UA P ltac:(discriminate)) as (w & d' & X1 & X2 & X3).
      exists w, d'. split; [exact X1|]. split; [exact X2|exact X3]. }
  destruct X as (w & d' & X1 & X2 & X3). exists (Qty (mag q) d').
  split; [rewrite TL; apply wtext_not_in; [reflexivity|exact (wtext_units A N fread frepr st _ P)]|].
  split; [rewrite TL; reflexivity|]. split; [rewrite TL; reflexivity|]. split; [|split; [reflexivity|exact X3]].
  unfold q_new, validate_dimensionality, reg_lookup. rewrite TL, X1. cbn [bind]. rewrite X2. reflexivity.
Qed.
(** [format(q, spec)]: two single numbers give the same text iff the formatted magnitudes
    and the units are the same; arrays are printed as by [str], with a specification they
    are refused. *)
Theorem C107_format : forall A (N : Num A) fread frepr mstr mfmt parse history (q1 q2 : qty A) v name spec t1 t2,
  let st := rrun parse (@rempty A) history in
  unit_arith A -> printable fread frepr st (qdim q1) -> printable fread frepr st (qdim q2) ->
  (forall u, In u (dkeys (qdim q1)) -> In u (dkeys (objs st))) ->
  ctx_get st (T "dimensionless") = Some v -> val_q st v = Some (unit_q (UId CDimless name)) ->
  shp (mag q1) = [] -> shp (mag q2) = [] ->
  q_format (objs st) frepr mstr mfmt false spec q1 = Ok t1 -> q_format (objs st) frepr mstr mfmt false spec q2 = Ok t2 ->
  (t1 = t2 <-> mfmt spec (mag q1) = mfmt spec (mag q2) /\ dim_eqb (qdim q1) (qdim q2) = true).
Proof.
  intros A N fread frepr mstr mfmt parse history q1 q2 v name spec t1 t2 st UA P1 P2 K Hv Hq S1 S2.
  rewrite <- (C63_same_text_iff_equal A N fread frepr parse history (qdim q1) (qdim q2) v name UA P1 P2 K Hv Hq).
  fold st. unfold q_format. rewrite S1, S2.
  destruct (mfmt spec (mag q1)) as [s1|] eqn:F1; cbn [bind]; [|discriminate].
  destruct (mfmt spec (mag q2)) as [s2|] eqn:F2; cbn [bind]; [|discriminate]. unfold dim_str.
  pose proof (wtext_units A N fread frepr st _ P1) as W1. pose proof (wtext_units A N fread frepr st _ P2) as W2.
  intros H1 H2. apply Ok_inj in H1. apply Ok_inj in H2. subst t1 t2. split.
  - intros H. apply (split_at_last " ") in H; [|now apply wtext_not_in..]. destruct H as [-> H]. split; [reflexivity|exact H].
  - intros [X1 X2]. apply Ok_inj in X1. rewrite X1, X2. reflexivity.
Qed.
Theorem C107_format_arrays : forall A (E : uenv A) frepr mstr mfmt uc spec (q : qty A), shp (mag q) <> [] ->
  q_format E frepr mstr mfmt uc spec q = if teqb spec [] then Ok (q_str E frepr mstr uc q) else Err TypeError.
Proof.
  intros A E frepr mstr mfmt uc spec q H. unfold q_format. destruct (shp (mag q)); [contradiction|].
  destruct spec as [|c spec]; [reflexivity|]. rewrite teqb_neq by discriminate. reflexivity.
Qed.
(** Uncertain quantities: the text of [repr] determines the texts of both magnitudes and
    the units, and so does the text of [str] if NumPy's texts contain no slash. *)
Theorem C107_uncertain_repr : forall A (N : Num A) fread frepr mrepr parse history (x1 x2 : uqty A) v name,
  let st := rrun parse (@rempty A) history in
  unit_arith A -> prefix_free mrepr -> printable fread frepr st (qdim (uv x1)) -> printable fread frepr st (qdim (uv x2)) ->
  (forall u, In u (dkeys (qdim (uv x1))) -> In u (dkeys (objs st))) ->
  ctx_get st (T "dimensionless") = Some v -> val_q st v = Some (unit_q (UId CDimless name)) ->
  (u_repr (objs st) frepr mrepr false x1 = u_repr (objs st) frepr mrepr false x2 <->
   mrepr (mag (uv x1)) = mrepr (mag (uv x2)) /\ mrepr (mag (uu x1)) = mrepr (mag (uu x2)) /\ dim_eqb (qdim (uv x1)) (qdim (uv x2)) = true).
Proof.
  intros A N fread frepr mrepr parse history x1 x2 v name st UA PF P1 P2 K Hv Hq.
  rewrite <- (C63_same_text_iff_equal A N fread frepr parse history (qdim (uv x1)) (qdim (uv x2)) v name UA P1 P2 K Hv Hq).
  fold st. unfold u_repr.
  pose proof (wtext_units A N fread frepr st _ P1) as W1. pose proof (wtext_units A N fread frepr st _ P2) as W2.
  set (t1 := format_units (objs st) frepr false (qdim (uv x1))) in *. set (t2 := format_units (objs st) frepr false (qdim (uv x2))) in *.
  split.
  - intros H. apply app_inv_head in H. pose proof (PF _ _ _ _ H) as X. rewrite X in H. apply app_inv_head in H. apply app_inv_head in H.
    assert (S : forall a b s t, wtext a -> wtext b -> a ++ T ", " ++ s = b ++ T ", " ++ t -> a = b /\ s = t).
    { assert (NC : wordy "," = false) by reflexivity. revert NC. clear. intros NC. induction a as [|c a IH]; intros [|d b] s t Ha Hb H.
      - cbn [app] in H. split; [reflexivity|]. apply app_inv_head in H. exact H.
      - exfalso. apply (wtext_not_in "," _ NC Hb). cbn [app T list_ascii_of_string] in H. injection H as <- _. now left.
      - exfalso. apply (wtext_not_in "," _ NC Ha). cbn [app T list_ascii_of_string] in H. injection H as -> _. now left.
      - inversion Ha; inversion Hb; subst. cbn [app] in H. injection H as -> H. destruct (IH b s t) as [-> ->]; [assumption..|]. split; reflexivity. }
    destruct (S _ _ _ _ W1 W2 H) as [X2 H'].
    apply PF in H'. split; [exact X|]. split; [exact H'|exact X2].
  - intros (H1 & H2 & H3). rewrite H1, H2, H3. reflexivity.
Qed.
Theorem C107_uncertain_str : forall A (N : Num A) fread frepr mstr parse history (x1 x2 : uqty A) v name,
  let st := rrun parse (@rempty A) history in
  unit_arith A -> (forall a, ~ In "/" (mstr a)) ->
  uq_ok x1 -> uq_ok x2 ->
  (forall x, x = x1 \/ x = x2 -> printable fread frepr st (qdim (uv x)) /\ printable fread frepr st (qdim (uu x))) ->
  (forall x u, x = x1 \/ x = x2 -> In u (dkeys (qdim (uv x))) \/ In u (dkeys (qdim (uu x))) -> In u (dkeys (objs st))) ->
  ctx_get st (T "dimensionless") = Some v -> val_q st v = Some (unit_q (UId CDimless name)) ->
  (u_str (objs st) frepr mstr false x1 = u_str (objs st) frepr mstr false x2 <->
   mstr (mag (uv x1)) = mstr (mag (uv x2)) /\ mstr (mag (uu x1)) = mstr (mag (uu x2)) /\ dim_eqb (qdim (uv x1)) (qdim (uv x2)) = true).
Proof.
  intros A N fread frepr mstr parse history x1 x2 v name st UA NS O1 O2 P K Hv Hq.
  destruct (P x1 (or_introl eq_refl)) as [P1 P1']. destruct (P x2 (or_intror eq_refl)) as [P2 P2'].
  assert (I : forall d1 d2, printable fread frepr st d1 -> printable fread frepr st d2 -> (forall u, In u (dkeys d1) -> In u (dkeys (objs st))) ->
            (format_units (objs st) frepr false d1 = format_units (objs st) frepr false d2 <-> dim_eqb d1 d2 = true)).
  { intros d1 d2 Q1 Q2 K1. exact (C63_same_text_iff_equal A N fread frepr parse history d1 d2 v name UA Q1 Q2 K1 Hv Hq). }
  rewrite <- (I _ _ P1 P2) by (intros u Hu; apply (K x1 u (or_introl eq_refl)); now left).
  pose proof (wtext_units A N fread frepr st _ P1) as W1. pose proof (wtext_units A N fread frepr st _ P2) as W2.
  pose proof (wtext_units A N fread frepr st _ P1') as W1'. pose proof (wtext_units A N fread frepr st _ P2') as W2'.
  assert (SU : forall x, x = x1 \/ x = x2 -> format_units (objs st) frepr false (qdim (uu x)) = format_units (objs st) frepr false (qdim (uv x))).
  { intros x Hx. destruct (P x Hx) as [Pv Pu]. apply (I _ _ Pu Pv); [intros u Hu; apply (K x u Hx); now right|].
    assert (O : uq_ok x) by (destruct Hx as [->| ->]; assumption). destruct O as (_ & _ & _ & He).
    apply dim_eqb_exp; [apply Pu|apply Pv|exact He]. }
  unfold u_str, q_str. cbv beta iota zeta.
  rewrite (SU x1 (or_introl eq_refl)), (SU x2 (or_intror eq_refl)). 
  set (t1 := format_units (objs st) frepr false (qdim (uv x1))) in *. set (t2 := format_units (objs st) frepr false (qdim (uv x2))) in *.
  split.
  - intros H.
    assert (L : forall a t m u, a ++ T " " ++ t ++ "010" :: T "+/-" ++ (m ++ T " " ++ u) ++ T " (1 sigma)" =
              ((a ++ " " :: t ++ "010" :: T "+/-" ++ m) ++ " " :: u) ++ T " (1 sigma)").
    { intros. cbn [T list_ascii_of_string app]. rewrite <- !app_assoc. cbn [app]. rewrite <- !app_assoc. reflexivity. }
    rewrite !L in H. apply app_inv_tail in H. apply (split_at_last " ") in H; [|now apply wtext_not_in..]. destruct H as [H Ht].
    assert (L2 : forall a t m, a ++ " " :: t ++ "010" :: T "+/-" ++ m = (a ++ " " :: t ++ ["010"; "+"]) ++ "/" :: "-" :: m).
    { intros. cbn [T list_ascii_of_string app]. rewrite <- !app_assoc. cbn [app]. rewrite <- !app_assoc. reflexivity. }
    rewrite !L2 in H. apply (split_at_last "/") in H.
    2,3: intros [X|X]; [discriminate|exact (NS _ X)].
    destruct H as [H Hm]. assert (Hm' : mstr (mag (uu x1)) = mstr (mag (uu x2))) by congruence.
    rewrite Ht in H.
    apply app_inv_tail in H. split; [exact H|]. split; [exact Hm'|exact Ht].
  - intros (H1 & H2 & H3). rewrite H1, H2, H3. reflexivity.
Qed.

(** With Unicode output on, the units are written with a dot and superscripts (C64). *)
Theorem C107_unicode : forall A (E : uenv A) frepr mstr (q : qty A), renderable E true (qdim q) ->
  q_str E frepr mstr true q = mstr (mag q) ++ T " " ++
    render (T "·") (flat_map (fun c => nth (N.to_nat (digit_val c)) (map T ["⁰"; "¹"; "²"; "³"; "⁴"; "⁵"; "⁶"; "⁷"; "⁸"; "⁹"]%string) []))
           (fun a b => a ++ T "/" ++ b) (facs E true (num_items E (qdim q))) (facs E true (den_items E (qdim q))).
Proof. intros A E frepr mstr q H. unfold q_str. rewrite (C64_unicode A E frepr true (qdim q) H). reflexivity. Qed.
(** Python's [t.replace(p, b)]: every occurrence, from left to right. *)
Inductive replaced (p b : text) : text -> text -> Prop :=
| rep_end : replaced p b [] []
| rep_hit t t' : replaced p b t t' -> replaced p b (p ++ t) (b ++ t')
| rep_miss c t t' : (forall s, c :: t <> p ++ s) -> replaced p b t t' -> replaced p b (c :: t) (c :: t').
Lemma strip_prefix_spec p : forall t, match strip_prefix p t with Some s => t = p ++ s | None => forall s, t <> p ++ s end.
Proof.
  induction p as [|c p IH]; intros t; [reflexivity|]. destruct t as [|d t]; cbn [strip_prefix]; [discriminate|].
  destruct (Ascii.eqb_spec c d) as [<-|Hn].
  - specialize (IH t). destruct (strip_prefix p t) as [s|]; [cbn; congruence|]. intros s H. apply (IH s). cbn in H. congruence.
  - intros s H. cbn in H. congruence.
Qed.
Lemma replace_sub_spec p b : p <> [] -> forall k t, (length t < k)%nat -> replaced p b t (replace_sub k p b t).
Proof.
  intros Hp. induction k as [|k IH]; intros t Hk; [lia|]. destruct t as [|c t]; cbn [replace_sub]; [constructor|].
  pose proof (strip_prefix_spec p (c :: t)) as X. destruct (strip_prefix p (c :: t)) as [s|].
  - rewrite X. constructor. apply IH. apply (f_equal (@length ascii)) in X. rewrite app_length in X.
    assert (0 < length p)%nat by (destruct p; [contradiction|cbn; lia]). cbn [length] in *. lia.
  - constructor; [exact X|]. apply IH. cbn [length] in Hk. lia.
Qed.
Lemma replaced_unique p b t t1 t2 : p <> [] -> replaced p b t t1 -> replaced p b t t2 -> t1 = t2.
Proof.
  intros Hp H. revert t2. induction H as [|t t' H IH|c t t' Hm H IH]; intros t2 K.
  - inversion K as [|u u' K1 E1|]; subst; [reflexivity|]. destruct p; [contradiction|discriminate].
  - inversion K as [E1|u u' K1 E1|c u u' Hm K1 E1]; subst.
    + destruct p; [contradiction|discriminate].
    + apply app_inv_head in E1. subst u. now rewrite (IH u').
    + exfalso. exact (Hm _ E1).
  - inversion K as [E1|u u' K1 E1|c' u u' Hm' K1 E1]; subst.
    + exfalso. apply (Hm u). now rewrite E1.
    + now rewrite (IH u').
Qed.
(** With Unicode output on, [str] of an uncertain quantity is its text with every "+/-" and
    then every " sigma" replaced, wherever they occur. *)
Theorem C107_unicode_uncertain : forall A (E : uenv A) frepr mstr (x : uqty A) t,
  (u_str E frepr mstr true x = t <->
   exists mid, replaced (T "+/-") (T "±")
     (mstr (mag (uv x)) ++ T " " ++ format_units_unicode E frepr true (qdim (uv x)) ++ "010" :: T "+/-" ++
      mstr (mag (uu x)) ++ T " " ++ format_units_unicode E frepr true (qdim (uu x)) ++ T " (1 sigma)") mid /\
     replaced (T " sigma") (T "σ") mid t).
Proof.
  intros A E frepr mstr x t. unfold u_str, q_str. cbv zeta beta iota. rewrite <- !app_assoc.
  set (t0 := mstr (mag (uv x)) ++ _). set (t1 := replace_sub (S (length t0)) (T "+/-") (T "±") t0).
  assert (R1 : replaced (T "+/-") (T "±") t0 t1) by (apply replace_sub_spec; [discriminate|lia]).
  assert (R2 : replaced (T " sigma") (T "σ") t1 (replace_sub (S (length t1)) (T " sigma") (T "σ") t1)) by (apply replace_sub_spec; [discriminate|lia]).
  split.
  - intros <-. exists t1. split; assumption.
  - intros (mid & H1 & H2). assert (mid = t1) as -> by (apply (replaced_unique (T "+/-") (T "±") t0); [discriminate|assumption..]).
    apply (replaced_unique (T " sigma") (T "σ") t1); [discriminate|assumption..].
Qed.
(** So a unit whose name contains " sigma" is misspelt. *)
Theorem C107_sigma_refuted : exists (st : rstate Qc) u, st = rrun (parse_arith dec_read) rempty [RNew CLength "a sigma" None None None []] /\
  In u (dkeys (objs st)) /\ u_name u = "a sigma"%string /\
  u_str (objs st) dec_repr (fun _ => T "1") true (UQ (Qty (scalar (zq 1)) (unit_dims u)) (Qty (scalar (zq 1)) (unit_dims u))) =
    T "1 aσ" ++ "010" :: T "±1 aσ (1σ)".
Proof.
  exists (rrun (parse_arith dec_read) rempty [RNew CLength "a sigma" None None None []]), (UId CLength "a sigma").
  split; [reflexivity|]. split; [vm_compute; now left|]. split; [reflexivity|]. vm_compute. reflexivity.
Qed.

(** ** C108 *)
Lemma ident_not_in c s : is_idchar c = false -> identifier s -> ~ In c s.
Proof.
  intros Hc [H _] Hin. destruct s as [|x s]; [destruct H|]. destruct H as [Hx Hs]. rewrite Forall_forall in Hs.
  destruct Hin as [->|Hin].
  - unfold is_idchar in Hc. rewrite Hx in Hc. discriminate.
  - rewrite (Hs c Hin) in Hc. discriminate.
Qed.
(** [str] of a unit tells its name: two units (with identifiers as names) that print the
    same have the same name, whatever their symbols. *)
Theorem C108_str_tells_the_name : forall A (E : uenv A) uc u1 u2,
  u_cls u1 <> CCompound -> u_cls u2 <> CCompound -> identifier (T (u_name u1)) -> identifier (T (u_name u2)) ->
  unit_str E uc u1 = unit_str E uc u2 -> u_name u1 = u_name u2.
Proof.
  intros A E uc u1 u2 C1 C2 I1 I2. unfold unit_str.
  assert (N1 : unit_name uc u1 = T (u_name u1)) by (unfold unit_name; destruct (u_cls u1); try reflexivity; contradiction).
  assert (N2 : unit_name uc u2 = T (u_name u2)) by (unfold unit_name; destruct (u_cls u2); try reflexivity; contradiction).
  rewrite N1, N2.
  assert (TI : forall a b, T a = T b -> a = b).
  { intros a b H. unfold T in H. rewrite <- (string_of_list_ascii_of_string a), <- (string_of_list_ascii_of_string b). now rewrite H. }
  assert (P1 : ~ In "(" (T (u_name u1) ++ T ")")).
  { intros H. apply in_app_or in H. destruct H as [H|[H|[]]]; [|discriminate]. revert H. now apply ident_not_in. }
  assert (P2 : ~ In "(" (T (u_name u2) ++ T ")")).
  { intros H. apply in_app_or in H. destruct H as [H|[H|[]]]; [|discriminate]. revert H. now apply ident_not_in. }
  assert (Mixed : forall s n m, identifier m -> T "1 " ++ s ++ T " (" ++ n ++ T ")" <> T "1 " ++ m).
  { intros s n m Im H. apply app_inv_head in H. apply (ident_not_in "(" m eq_refl Im). rewrite <- H.
    apply in_or_app. right. cbn. right. now left. }
  assert (L : forall s n, T "1 " ++ s ++ T " (" ++ n ++ T ")" = (T "1 " ++ s ++ [" "]) ++ "(" :: n ++ T ")").
  { intros s n. rewrite <- !app_assoc. reflexivity. }
  destruct (teqb _ (T (u_name u1))), (teqb _ (T (u_name u2))); intros H.
  - apply app_inv_head in H. now apply TI.
  - symmetry in H. exfalso. exact (Mixed _ _ _ I1 H).
  - exfalso. exact (Mixed _ _ _ I2 H).
  - rewrite !L in H. apply (split_at_last "(") in H; [|exact P1|exact P2]. destruct H as [_ H]. apply app_inv_tail in H. now apply TI.
Qed.
(** A unit created with a symbol prints as "1 symbol (name)", and both are labels of the
    registry for that unit, whatever is registered later. *)
Theorem C108_created : forall A (N : Num A) fread parse (st : rstate A) c name df sym usym aliases history v,
  In c [CQuantity; CMass; CLength; CTime; CCurrent; CLumInt; CSubstance; CTemperature; CInformation; CCurrency] ->
  sym <> ""%string -> ~ In (UId c name) (dkeys (objs st)) -> name <> sym -> usym <> Some name ->
  ctx_get st (T sym) = None -> ctx_get st (T name) = None ->
  identifier (T name) -> identifier (T sym) -> lower (T name) <> T "in" -> lower (T sym) <> T "in" ->
  snd (create_unit st c name df (Some sym) usym aliases) = Ok v ->
  let st' := rrun parse (fst (create_unit st c name df (Some sym) usym aliases)) history in
  unit_str (objs st') false (UId c name) = T "1 " ++ T sym ++ T " (" ++ T name ++ T ")" /\
  reg_lookup (parse_arith fread) st' sym = Ok (unit_q (UId c name)) /\
  reg_lookup (parse_arith fread) st' name = Ok (unit_q (UId c name)).
Proof.
  intros A N fread parse st c name df sym usym al l v Hc Hs Hk Hne Hu Hf Hfn In_ Is Ln Ls Hok st'.
  assert (TI : forall a b, T a = T b -> a = b).
  { intros a b H. unfold T in H. rewrite <- (string_of_list_ascii_of_string a), <- (string_of_list_ascii_of_string b). now rewrite H. }
  assert (Tne : T name <> T sym) by (intros X; apply Hne; now apply TI).
  destruct (C62_created_units A N parse st c name df sym usym al l v Hc Hs Hk Tne Hf Hok) as (S1 & S2 & S3). fold st' in S1, S2, S3.
  destruct (C58_created A N st c name df (Some sym) usym al v Hok) as (Ev & (r & Hr & R1 & R2) & _ & Mine & _).
  assert (Hn : ctx_get st' (T name) = Some v).
  { apply rrun_keeps. apply Mine; [exact Hfn|]. destruct c; cbn in Hc; try (now left); exfalso; repeat (destruct Hc as [Hc|Hc]; [discriminate|]); destruct Hc. }
  split; [|split].
  - assert (L : ulookup (objs st') (UId c name) = Some r).
    { destruct (create_unit_objs st c name df (Some sym) usym al) as [order Eo].
      destruct (rrun_objs parse l (fst (create_unit st c name df (Some sym) usym al))) as [X EX]. fold st' in EX.
      rewrite Eo in Hr. rewrite nth_error_app2, Nat.sub_diag in Hr by apply le_n. cbn [nth_error] in Hr.
      rewrite EX, Eo. rewrite lookup_first by assumption. congruence. }
    unfold unit_str, unit_usymbol, unit_symbol. rewrite L, R1, R2.
    assert (Nm : unit_name false (UId c name) = T name).
    { unfold unit_name. cbn [u_cls u_name]. destruct c; try reflexivity. cbn in Hc. repeat (destruct Hc as [Hc|Hc]; [discriminate|]). destruct Hc. }
    rewrite Nm. destruct sym as [|a sy]; [congruence|].
    assert (Ne : forall t, t <> T name -> teqb t (T name) = false) by (intros t Ht; now apply teqb_neq).
    destruct usym as [[|b us]|]; (rewrite Ne; [reflexivity|]).
    + intros X. now apply Tne.
    + intros X. apply Hu. f_equal. now apply TI.
    + intros X. now apply Tne.
  - unfold reg_lookup. rewrite (ident_get fread (fun _ => []) st' (T sym) v); [|assumption..]. cbn [bind]. rewrite S3. reflexivity.
  - unfold reg_lookup. rewrite (ident_get fread (fun _ => []) st' (T name) v); [|assumption..]. cbn [bind]. rewrite S3. reflexivity.
Qed.
(** [repr] of a unit identifies its class and name, if Python's [repr] of a string is never
    a prefix of that of another string. *)
Theorem C108_repr_identifies : forall A (N : Num A) (E : uenv A) frepr mstr srepr u1 u2,
  (forall a b s t, srepr a ++ s = srepr b ++ t -> a = b) ->
  unit_repr E frepr mstr srepr false u1 = unit_repr E frepr mstr srepr false u2 -> u1 = u2.
Proof.
  intros A N E frepr mstr srepr [c1 n1'] [c2 n2'] SP. unfold unit_repr. cbn [u_cls].
  set (rest1 := match ulookup E (UId c1 n1') with Some _ => _ | None => _ end).
  set (rest2 := match ulookup E (UId c2 n2') with Some _ => _ | None => _ end).
  clearbody rest1 rest2. intros H.
  assert (G : forall a b (s t : text), ~ In "(" a -> ~ In "(" b -> a ++ "(" :: s = b ++ "(" :: t -> a = b /\ s = t).
  { induction a as [|x a IH]; intros [|y b] s t Ha Hb X; cbn [app] in X.
    - split; [reflexivity|congruence].
    - exfalso. apply Hb. left. congruence.
    - exfalso. apply Ha. left. congruence.
    - destruct (IH b s t) as [-> ->]; [intros Y; apply Ha; now right|intros Y; apply Hb; now right|congruence|]. split; [congruence|reflexivity]. }
  assert (NP : forall c, ~ In "(" (class_name c)) by (intros c; destruct c; cbn; intuition discriminate).
  apply (G (class_name c1) (class_name c2)) in H; [|apply NP..]. destruct H as [Hc H].
  assert (c1 = c2) as <- by (destruct c1, c2; try reflexivity; vm_compute in Hc; discriminate Hc).
  apply SP in H. f_equal.
  assert (TI : forall a b, T a = T b -> a = b).
  { intros a b Q. unfold T in Q. rewrite <- (string_of_list_ascii_of_string a), <- (string_of_list_ascii_of_string b). now rewrite Q. }
  unfold unit_name in H. cbn [u_cls u_name] in H. destruct c1; try (now apply TI). apply app_inv_head in H. apply app_inv_tail in H. now apply TI.
Qed.
(** [repr] of a created unit shows its class, name, definition (factor and units) and
    symbol, whatever is registered later. *)
Theorem C108_repr_created : forall A (N : Num A) frepr mstr srepr parse (st : rstate A) c name df sym usym aliases history v,
  In c [CQuantity; CMass; CLength; CTime; CCurrent; CLumInt; CSubstance; CTemperature; CInformation; CCurrency] ->
  sym <> ""%string -> ~ In (UId c name) (dkeys (objs st)) ->
  (forall a d, df = Some (DQty a d) -> neqb a n0 = false) ->
  snd (create_unit st c name df (Some sym) usym aliases) = Ok v ->
  let E := objs (rrun parse (fst (create_unit st c name df (Some sym) usym aliases)) history) in
  unit_repr E frepr mstr srepr false (UId c name) =
    class_name c ++ T "(" ++ srepr (T name) ++
    match df with
    | Some (DQty a d) => T ", " ++ mstr (scalar a) ++ T " * " ++ format_units E frepr false d
    | Some (DUnit w) => T ", " ++ mstr (scalar n1) ++ T " * " ++ format_units E frepr false (unit_dims w)
    | None => []
    end ++ T ", " ++ srepr (T sym) ++ T ")".
Proof.
  intros A N frepr mstr srepr parse st c name df sym usym al l v Hc Hs Hk Hz Hok E.
  destruct (create_unit_objs st c name df (Some sym) usym al) as [order Eo].
  destruct (rrun_objs parse l (fst (create_unit st c name df (Some sym) usym al))) as [X EX]. fold E in EX.
  assert (L : ulookup E (UId c name) = Some (new_unit (objs st) order df (Some sym) usym al)).
  { rewrite EX, Eo. now rewrite lookup_first. }
  assert (Nm : unit_name false (UId c name) = T name).
  { unfold unit_name. cbn [u_cls u_name]. destruct c; try reflexivity. cbn in Hc. repeat (destruct Hc as [Hc|Hc]; [discriminate|]). destruct Hc. }
  unfold unit_repr. rewrite L, Nm. unfold new_unit. cbn [u_cls ur_def ur_symbol]. destruct sym as [|a sy]; [congruence|].
  destruct df as [[a0 d0|w]|]; [rewrite (Hz a0 d0 eq_refl)| |]; rewrite ?app_nil_r, <- ?app_assoc; reflexivity.
Qed.
(** A unit with only a Unicode symbol prints its name twice when Unicode is off. *)
Theorem C108_name_twice_refuted : exists (st : rstate Qc) u,
  st = rrun (parse_arith dec_read) rempty [RNew CLength "foo" None None (Some "φ"%string) []] /\
  In u (dkeys (objs st)) /\ unit_str (objs st) false u = T "1 foo (foo)" /\ unit_str (objs st) true u = T "1 φ (foo)".
Proof.
  exists (rrun (parse_arith dec_read) rempty [RNew CLength "foo" None None (Some "φ"%string) []]), (UId CLength "foo").
  split; [reflexivity|]. split; [vm_compute; now left|]. split; vm_compute; reflexivity.
Qed.

(** ** Examples *)
(** A printer of small whole numbers that satisfies the hypotheses. *)
Definition ex_mrepr (a : arr Qc) : text := T "array(" ++ flat_map (fun x => digits (Z.to_N (Qnum (this x))) ++ T ",") (dat a) ++ T ")".
Definition ex_mstr (a : arr Qc) : text := T "[" ++ flat_map (fun x => digits (Z.to_N (Qnum (this x))) ++ T " ") (dat a) ++ T "]".
Example C107_example :
  let st := ex_st Qc in
  q_str (objs st) dec_repr ex_mstr false (Qty (Arr [2%nat] [zq 1; zq 20]) [(u_m, PInt 1); (u_s, PInt (-2))]) = T "[1 20 ] m/s**2" /\
  q_str (objs st) dec_repr ex_mstr true (Qty (Arr [2%nat] [zq 1; zq 20]) [(u_m, PInt 1); (u_s, PInt (-2))]) = T "[1 20 ] m/s²" /\
  q_repr (objs st) dec_repr ex_mrepr false (Qty (Arr [2%nat] [zq 1; zq 20]) [(u_m, PInt 1); (u_s, PInt (-2))]) = T "array(1,20,) * m/s**2" /\
  u_str (objs st) dec_repr ex_mstr true (UQ (Qty (scalar (zq 1)) d_m) (Qty (scalar (zq 2)) d_m)) =
    T "[1 ] m" ++ "010"%char :: T "±[2 ] m (1σ)" /\
  u_repr (objs st) dec_repr ex_mrepr false (UQ (Qty (scalar (zq 1)) d_m) (Qty (scalar (zq 2)) d_m)) = T "UncertainQuantity(array(1,), m, array(2,))".
Proof. cbn zeta. do 4 (split; [vm_compute; reflexivity|]). vm_compute. reflexivity. Qed.
Lemma ex_no_slash a : ~ In "/" (ex_mstr a).
Proof.
  unfold ex_mstr. intros H. apply in_app_or in H. destruct H as [H|H]; [cbn in H; intuition discriminate|].
  apply in_app_or in H. destruct H as [H|H]; [|cbn in H; intuition discriminate].
  apply in_flat_map in H. destruct H as (x & _ & H). apply in_app_or in H. destruct H as [H|H]; [|cbn in H; intuition discriminate].
  pose proof (digits_digit (Z.to_N (Qnum (this x)))) as D. rewrite Forall_forall in D. specialize (D _ H). discriminate.
Qed.
Lemma ex_prefix_free : prefix_free ex_mrepr.
Proof.
  assert (NP : forall l : list Qc, ~ In ")" (flat_map (fun x => digits (Z.to_N (Qnum (this x))) ++ T ",") l)).
  { intros l H. apply in_flat_map in H. destruct H as (x & _ & H). apply in_app_or in H. destruct H as [H|H]; [|cbn in H; intuition discriminate].
    pose proof (digits_digit (Z.to_N (Qnum (this x)))) as D. rewrite Forall_forall in D. specialize (D _ H). discriminate. }
  intros a b s t H. unfold ex_mrepr in *. rewrite <- !app_assoc in H. apply app_inv_head in H.
  assert (G : forall u w (s t : text), ~ In ")" u -> ~ In ")" w -> u ++ T ")" ++ s = w ++ T ")" ++ t -> u = w).
  { induction u as [|x u IH]; intros [|y w] s' t' Hu Hw X; cbn [app T list_ascii_of_string] in X; [reflexivity| | |].
    - exfalso. apply Hw. left. congruence.
    - exfalso. apply Hu. left. congruence.
    - assert (X1 : x = y) by congruence. assert (X2 : u ++ T ")" ++ s' = w ++ T ")" ++ t') by (cbn [app T list_ascii_of_string]; congruence).
      rewrite X1, (IH w s' t'); [reflexivity|intros Y; apply Hu; now right|intros Y; apply Hw; now right|exact X2]. }
  apply (G _ _ s t) in H; [|apply NP..]. now rewrite H.
Qed.
(** The dimensionality [ex_d] of the registry [ex_base] meets the hypotheses of C107. *)
Example C107_hypotheses : unit_arith R /\ printable dec_read dec_repr ex_base ex_d /\
  (forall u, In u (dkeys ex_d) -> In u (dkeys (objs ex_base))) /\
  (exists v, ctx_get ex_base (T "dimensionless") = Some v /\ val_q ex_base v = Some (unit_q (UId CDimless "dimensionless"))).
Proof.
  split; [exact unit_arith_R|]. split; [exact ex_d_printable|]. split.
  - rewrite ex_base_keys. intros u [<-|[<-|[<-|[]]]]; cbn; auto 10.
  - eexists. split; [rewrite ex_base_get; reflexivity|]. reflexivity.
Qed.
(** A quoting of strings that satisfies the hypothesis of [C108_repr_identifies]. *)
Definition ex_srepr (s : text) : text := flat_map (fun c => ["\"; c]) s ++ ["'"].
Example C108_srepr : forall a b s t, ex_srepr a ++ s = ex_srepr b ++ t -> a = b.
Proof.
  unfold ex_srepr. induction a as [|x a IH]; intros [|y b] s t H; cbn [flat_map app] in H; [reflexivity|discriminate H|discriminate H|].
  assert (X : x = y) by congruence. assert (Y : (flat_map (fun c => ["\"; c]) a ++ ["'"]) ++ s = (flat_map (fun c => ["\"; c]) b ++ ["'"]) ++ t) by congruence.
  rewrite X, (IH b s t Y). reflexivity.
Qed.
Example C108_example :
  let st := ex_st Qc in
  unit_str (objs st) false u_m = T "1 m (meter)" /\
  unit_repr (objs st) dec_repr ex_mstr (fun s => T "'" ++ s ++ T "'") false u_mps = T "CompoundUnit('(m/s)', [1 ] * m/s)" /\
  unit_repr (objs st) dec_repr ex_mstr (fun s => T "'" ++ s ++ T "'") false u_kg = T "UnitMass('kilogram', 'kg')".
Proof. cbn zeta. split; [vm_compute; reflexivity|]. split; vm_compute; reflexivity. Qed.

Print Assumptions C107_str.
Print Assumptions C107_repr.
Print Assumptions C107_units_read_back.
Print Assumptions C107_format.
Print Assumptions C107_format_arrays.
Print Assumptions C107_uncertain_repr.
Print Assumptions C107_uncertain_str.
Print Assumptions C107_unicode.
Print Assumptions C107_unicode_uncertain.
Print Assumptions C107_sigma_refuted.
Print Assumptions C108_str_tells_the_name.
Print Assumptions C108_created.
Print Assumptions C108_repr_identifies.
Print Assumptions C108_repr_created.
Print Assumptions C108_name_twice_refuted.
