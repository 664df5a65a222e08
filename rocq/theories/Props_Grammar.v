(** * Properties C110, C111: arithmetic in unit labels. *)
From Coq Require Import Ascii NArith Reals Lia.
From Verif Require Import Py Num Dim DimFacts Arr ArrFacts Units Spec Quant Ufunc Ops OpsFacts Text Lex LexFacts SpecGrammar GrammarFacts
  LabelFacts Registry RegFacts Examples Props_Ops Props_Registry.

Open Scope char_scope.
Open Scope list_scope.

(** ** C110 *)
(** The parser accepts exactly the derivations of Python's grammar and returns their tree. *)
Theorem C110_grammar : forall fread label tree,
  parse_arith fread label = Ok tree <-> exists ts, lex fread label = Ok ts /\ derives LSum tree ts.
Proof.
  intros fread label tree. unfold parse_arith. split.
  - destruct (lex fread label) as [ts|]; cbn [bind]; [|discriminate]. intros H. exists ts. split; auto. now apply parse_iff.
  - intros (ts & -> & D). cbn [bind]. now apply parse_iff.
Qed.
(** The tree is unique: the grammar is unambiguous. *)
Theorem C110_unambiguous : forall ts e e', derives LSum e ts -> derives LSum e' ts -> e = e'.
Proof. intros ts e e' H H'. apply parse_iff in H. apply parse_iff in H'. congruence. Qed.
(** What the registry answers is the value of the tree, computed operator by operator. *)
Theorem C110_meaning : forall A (N : Num A) fread (st : rstate A) label ts tree v,
  lex fread (preprocess label) = Ok ts -> derives LSum tree ts -> eval st tree = Ok v ->
  get_item (parse_arith fread) st label = Ok v.
Proof.
  intros A N fread st label ts tree v Hl Hd He. unfold get_item, inner_get.
  rewrite (proj2 (C110_grammar fread (preprocess label) tree) (ex_intro _ ts (conj Hl Hd))). cbn [bind].
  assert (V : valid tree = true).
  { unfold valid. cbn [forallb whitelisted]. cbn [andb]. clear - Hd. induction Hd; cbn [walk forallb] in *; auto.
    - rewrite ?forallb_app, ?IHHd1, ?IHHd2. reflexivity.
    - rewrite ?forallb_app, ?IHHd1, ?IHHd2. reflexivity.
    - rewrite ?forallb_app, ?IHHd1, ?IHHd2. reflexivity. }
  rewrite V, He. reflexivity.
Qed.
(** The familiar consequences, for names [a], [b], [c]: quotients group to the left, powers
    to the right and bind tighter than signs on their left, products bind tighter than sums. *)
Theorem C110_precedence : forall a b c : expr, forall la lb lc,
  derives LAtom a la -> derives LAtom b lb -> derives LAtom c lc ->
  derives LSum (EBin BMul (EBin BDiv a b) c) (la ++ TOp OSlash :: lb ++ TOp OStar :: lc) /\
  derives LSum (EBin BPow a (EBin BPow b c)) (la ++ TOp ODStar :: lb ++ TOp ODStar :: lc) /\
  derives LSum (EBin BDiv a (EBin BPow b c)) (la ++ TOp OSlash :: lb ++ TOp ODStar :: lc) /\
  derives LSum (EUn UNeg (EBin BPow a b)) (TOp OMinus :: la ++ TOp ODStar :: lb) /\
  derives LSum (EBin BPow a (EUn UNeg b)) (la ++ TOp ODStar :: TOp OMinus :: lb) /\
  derives LSum (EBin BAdd a (EBin BMul b c)) (la ++ TOp OPlus :: lb ++ TOp OStar :: lc) /\
  derives LSum (EBin BSub (EBin BSub a b) c) (la ++ TOp OMinus :: lb ++ TOp OMinus :: lc).
Proof.
  intros a b c la lb lc Ha Hb Hc.
  assert (F : forall e l, derives LAtom e l -> derives LFactor e l) by (intros; now apply d_factor, d_power).
  assert (Tm : forall e l, derives LAtom e l -> derives LTerm e l) by (intros; now apply d_term, F).
  split; [|split; [|split; [|split; [|split; [|split]]]]].
  - change (la ++ TOp OSlash :: lb ++ TOp OStar :: lc) with (la ++ (TOp OSlash :: lb) ++ TOp OStar :: lc). rewrite app_assoc.
    apply d_sum, d_mul; [constructor| |auto]. apply d_mul; [constructor|auto|auto].
  - apply d_sum, d_term, d_factor, d_pow; auto. apply d_factor, d_pow; auto.
  - apply d_sum, d_mul; [constructor|auto|]. apply d_factor, d_pow; auto.
  - apply d_sum, d_term, d_sign; [constructor|]. apply d_factor, d_pow; auto.
  - apply d_sum, d_term, d_factor, d_pow; auto. apply d_sign; [constructor|auto].
  - apply d_add; [constructor|apply d_sum; auto|]. apply d_mul; [constructor|auto|auto].
  - change (la ++ TOp OMinus :: lb ++ TOp OMinus :: lc) with (la ++ (TOp OMinus :: lb) ++ TOp OMinus :: lc). rewrite app_assoc.
    apply d_add; [constructor| |auto]. apply d_add; [constructor|apply d_sum; auto|auto].
Qed.
Example C110_example :
  let get l := get_item (parse_arith dec_read) (ex_st Qc) (T l) in
  parse_arith dec_read (T "kg/m/s**2*m") =
    Ok (EBin BMul (EBin BDiv (EBin BDiv (EName (T "kg")) (EName (T "m"))) (EBin BPow (EName (T "s")) (ENum (PInt 2)))) (EName (T "m"))) /\
  parse_arith dec_read (T "2**-3**2") = Ok (EBin BPow (ENum (PInt 2)) (EUn UNeg (EBin BPow (ENum (PInt 3)) (ENum (PInt 2))))) /\
  (exists e, parse_arith dec_read (T "m s") = Err e) /\
  get "kg/m/s**2*m"%string = Ok (VQty (Qty (scalar 1%Qc) [(u_kg, PInt 1); (u_s, PInt (-2))])).
Proof.
  split; [vm_compute; reflexivity|]. split; [vm_compute; reflexivity|]. split; [eexists; vm_compute; reflexivity|]. vm_compute. reflexivity.
Qed.

(** ** C111 *)
(** Operators as they may be written in a label. *)
Inductive label_op : text -> binop -> Prop :=
| lo_mul : label_op (T "*") BMul
| lo_dot : label_op (T "·") BMul
| lo_div : label_op (T "/") BDiv
| lo_fdiv : label_op (T "//") BFloorDiv
| lo_pow : label_op (T "**") BPow
| lo_caret : label_op (T "^") BPow
| lo_add : label_op (T "+") BAdd
| lo_sub : label_op (T "-") BSub.
Definition paren (a : text) : text := "(" :: a ++ [")"].
(** A label that may be put in parentheses: not the empty label, and not 'in' (in any case),
    which means inch only when it is the whole label. *)
Definition inner_label (a : text) : Prop := a <> [] /\ lower a <> T "in".

Lemma get_item_ok {A} {N : Num A} parse (st : rstate A) label v : get_item parse st label = Ok v ->
  exists tree, parse (preprocess label) = Ok tree /\ valid tree = true /\ eval st tree = Ok v.
Proof.
  unfold get_item, inner_get. destruct (parse (preprocess label)) as [tree|]; cbn [bind]; [|discriminate].
  destruct (valid tree) eqn:V; [|discriminate]. intros H. exists tree. split; auto. split; auto.
  destruct (eval st tree) as [w|[]]; cbn in H; congruence.
Qed.
Lemma parse_arith_ok fread t tree : parse_arith fread t = Ok tree -> exists ts, lexed fread t ts /\ derives LSum tree ts.
Proof.
  intros H. apply C110_grammar in H. destruct H as (ts & H & D). exists ts. split; auto. now apply lex_lexed.
Qed.
Lemma lexed_paren fread a ka rest kr : lexed fread a ka -> lexed fread rest kr ->
  lexed fread ("(" :: a ++ ")" :: rest) (TOp OLP :: ka ++ TOp ORP :: kr).
Proof.
  intros [f Ha] Hr. apply lexed_op; [reflexivity|reflexivity|]. apply (lexed_app fread f); [now left|exact Ha|].
  apply lexed_op; [reflexivity|reflexivity|exact Hr].
Qed.
Lemma parse_composed fread a b op o ea eb : label_op op o -> inner_label a -> inner_label b ->
  parse_arith fread (preprocess a) = Ok ea -> parse_arith fread (preprocess b) = Ok eb ->
  parse_arith fread (preprocess (paren a ++ op ++ paren b)) = Ok (EBin o ea eb).
Proof.
  intros Ho [Na Ia] [Nb Ib] Ha Hb. rewrite preprocess_pre in Ha by assumption. rewrite preprocess_pre in Hb by assumption.
  assert (Ep : pre (paren a ++ op ++ paren b) = "(" :: pre a ++ ")" :: pre op ++ "(" :: pre b ++ [")"]).
  { unfold paren. cbn [app]. rewrite <- app_assoc. cbn [app].
    change ("(" :: a ++ ")" :: op ++ "(" :: b ++ [")"]) with ([] ++ "(" :: a ++ ")" :: op ++ "(" :: b ++ [")"]).
    rewrite (pre_border "(") by (now left). rewrite (pre_border ")") by (now right). rewrite (pre_border "(") by (now left).
    rewrite (pre_border ")") by (now right). reflexivity. }
  assert (NN : paren a ++ op ++ paren b <> []) by discriminate.
  assert (NI : lower (paren a ++ op ++ paren b) <> T "in") by (unfold paren; cbn; discriminate).
  rewrite (preprocess_pre _ NN NI), Ep.
  apply parse_arith_ok in Ha. destruct Ha as (ka & La & Da). apply parse_arith_ok in Hb. destruct Hb as (kb & Lb & Db).
  assert (Lp : lexed fread ("(" :: pre b ++ [")"]) (TOp OLP :: kb ++ [TOp ORP])) by (apply lexed_paren; [exact Lb|apply lexed_nil]).
  assert (Pa := d_paren _ _ Da). assert (Pb := d_paren _ _ Db).
  assert (Fb : derives LFactor eb (TOp OLP :: kb ++ [TOp ORP])) by (now apply d_factor, d_power).
  assert (Fa : derives LTerm ea (TOp OLP :: ka ++ [TOp ORP])) by (now apply d_term, d_factor, d_power).
  assert (K : exists k, lexed fread (pre op ++ "(" :: pre b ++ [")"]) (TOp k :: TOp OLP :: kb ++ [TOp ORP]) /\
              derives LSum (EBin o ea eb) ((TOp OLP :: ka ++ [TOp ORP]) ++ TOp k :: TOp OLP :: kb ++ [TOp ORP])).
  { destruct Ho.
    - exists OStar. split; [apply lexed_op; [reflexivity|reflexivity|exact Lp]|]. apply d_sum, d_mul; [constructor|exact Fa|exact Fb].
    - exists OStar. split; [apply lexed_op; [reflexivity|reflexivity|exact Lp]|]. apply d_sum, d_mul; [constructor|exact Fa|exact Fb].
    - exists OSlash. split; [apply lexed_op; [reflexivity|reflexivity|exact Lp]|]. apply d_sum, d_mul; [constructor|exact Fa|exact Fb].
    - exists ODSlash. split; [|apply d_sum, d_mul; [constructor|exact Fa|exact Fb]].
      destruct Lp as [f Lp]. exists (S f). change (pre (T "//") ++ "(" :: pre b ++ [")"]) with ("/" :: "/" :: "(" :: pre b ++ [")"]).
      cbn [lex_fuel skip_spaces is_space code]. change (is_space "/") with false. cbn iota.
      change (lex1 fread ("/" :: "/" :: "(" :: pre b ++ [")"])) with (Ok (Some (TOp ODSlash), "(" :: pre b ++ [")"]) : res (option token * text)).
      cbn [bind]. rewrite Lp. reflexivity.
    - exists ODStar. split; [|apply d_sum, d_term, d_factor, d_pow; [exact Pa|exact Fb]].
      destruct Lp as [f Lp]. exists (S f). change (pre (T "**") ++ "(" :: pre b ++ [")"]) with ("*" :: "*" :: "(" :: pre b ++ [")"]).
      cbn [lex_fuel skip_spaces]. change (is_space "*") with false. cbn iota.
      change (lex1 fread ("*" :: "*" :: "(" :: pre b ++ [")"])) with (Ok (Some (TOp ODStar), "(" :: pre b ++ [")"]) : res (option token * text)).
      cbn [bind]. rewrite Lp. reflexivity.
    - exists ODStar. split; [|apply d_sum, d_term, d_factor, d_pow; [exact Pa|exact Fb]].
      destruct Lp as [f Lp]. exists (S f). change (pre (T "^") ++ "(" :: pre b ++ [")"]) with ("*" :: "*" :: "(" :: pre b ++ [")"]).
      cbn [lex_fuel skip_spaces]. change (is_space "*") with false. cbn iota.
      change (lex1 fread ("*" :: "*" :: "(" :: pre b ++ [")"])) with (Ok (Some (TOp ODStar), "(" :: pre b ++ [")"]) : res (option token * text)).
      cbn [bind]. rewrite Lp. reflexivity.
    - exists OPlus. split; [apply lexed_op; [reflexivity|reflexivity|exact Lp]|]. apply d_add; [constructor|apply d_sum; exact Fa|apply d_term; exact Fb].
    - exists OMinus. split; [apply lexed_op; [reflexivity|reflexivity|exact Lp]|]. apply d_add; [constructor|apply d_sum; exact Fa|apply d_term; exact Fb]. }
  destruct K as (k & Lk & Dk). apply C110_grammar. eexists. split; [|exact Dk].
  apply lexed_lex; [|reflexivity]. cbn [app]. rewrite <- app_assoc. apply lexed_paren; assumption.
Qed.

(** A label composed of two labels means the operation on their meanings. *)
Theorem C111_composition : forall A (N : Num A) fread (st : rstate A) a b op o va vb,
  label_op op o -> inner_label a -> inner_label b ->
  get_item (parse_arith fread) st a = Ok va -> get_item (parse_arith fread) st b = Ok vb ->
  let get := get_item (parse_arith fread) st (paren a ++ op ++ paren b) in
  (forall v, v_bin st o va vb = Ok v -> get = Ok v) /\
  (forall e, v_bin st o va vb = Err e -> get = Err e \/ (e = NameError /\ get = Err LookupError)).
Proof.
  intros A N fread st a b op o va vb Ho Ia Ib Ha Hb get.
  apply get_item_ok in Ha. destruct Ha as (ea & Pa & Va & Ea). apply get_item_ok in Hb. destruct Hb as (eb & Pb & Vb & Eb).
  assert (G : get = catch (v_bin st o va vb) NameError (Err LookupError)).
  { unfold get, get_item, inner_get. rewrite (parse_composed fread a b op o ea eb Ho Ia Ib Pa Pb). cbn [bind].
    assert (V : valid (EBin o ea eb) = true).
    { unfold valid in *. cbn [forallb whitelisted andb] in *. cbn [walk forallb whitelisted andb]. now rewrite forallb_app, Va, Vb. }
    rewrite V. cbn [eval]. rewrite Ea, Eb. reflexivity. }
  rewrite G. split; intros x ->; cbn; auto. destruct x; cbn; auto.
Qed.
(** Parentheses and signs. *)
Theorem C111_parentheses : forall A (N : Num A) fread (st : rstate A) a va,
  inner_label a -> get_item (parse_arith fread) st a = Ok va ->
  get_item (parse_arith fread) st (paren a) = Ok va /\
  forall v, v_un st UNeg va = Ok v -> get_item (parse_arith fread) st ("-" :: paren a) = Ok v.
Proof.
  intros A N fread st a va [Na Ia] Ha. apply get_item_ok in Ha. destruct Ha as (ea & Pa & Va & Ea).
  rewrite preprocess_pre in Pa by assumption. apply parse_arith_ok in Pa. destruct Pa as (ka & La & Da).
  assert (Ep : pre (paren a) = "(" :: pre a ++ [")"]).
  { unfold paren. change ("(" :: a ++ [")"]) with ([] ++ "(" :: a ++ [")"]). rewrite (pre_border "(") by (now left). now rewrite (pre_border ")") by (now right). }
  assert (En : pre ("-" :: paren a) = "-" :: "(" :: pre a ++ [")"]).
  { unfold paren. change ("-" :: "(" :: a ++ [")"]) with (["-"] ++ "(" :: a ++ [")"]). rewrite (pre_border "(") by (now left). now rewrite (pre_border ")") by (now right). }
  assert (Lp : lexed fread ("(" :: pre a ++ [")"]) (TOp OLP :: ka ++ [TOp ORP])) by (apply lexed_paren; [exact La|apply lexed_nil]).
  assert (Fp : derives LFactor ea (TOp OLP :: ka ++ [TOp ORP])) by (now apply d_factor, d_power, d_paren).
  split.
  - apply (C110_meaning A N fread st (paren a) (TOp OLP :: ka ++ [TOp ORP]) ea); [|now apply d_sum, d_term|exact Ea].
    rewrite preprocess_pre by (unfold paren; discriminate). rewrite Ep. apply lexed_lex; [exact Lp|reflexivity].
  - intros v Hv. apply (C110_meaning A N fread st ("-" :: paren a) (TOp OMinus :: TOp OLP :: ka ++ [TOp ORP]) (EUn UNeg ea)).
    + rewrite preprocess_pre by (unfold paren; discriminate). rewrite En. apply lexed_lex; [|reflexivity]. apply lexed_op; [reflexivity|reflexivity|exact Lp].
    + apply d_sum, d_term, d_sign; [constructor|exact Fp].
    + cbn [eval]. rewrite Ea. exact Hv.
Qed.

(** In terms of physical meaning: products, quotients and powers of labels are products,
    quotients and powers of units and values. *)
Theorem C111_products : forall fread (st : rstate R) a b va vb x y da db,
  inner_label a -> inner_label b -> dims_ok da -> dims_ok db ->
  get_item (parse_arith fread) st a = Ok va -> val_q st va = Some (Qty (scalar x) da) ->
  get_item (parse_arith fread) st b = Ok vb -> val_q st vb = Some (Qty (scalar y) db) ->
  (exists v d, get_item (parse_arith fread) st (paren a ++ T "*" ++ paren b) = Ok v /\
     val_q st v = Some (Qty (scalar (x * y)%R) d) /\ forall u, exp_of d u = (exp_of da u + exp_of db u)%Qc) /\
  (exists v d, get_item (parse_arith fread) st (paren a ++ T "/" ++ paren b) = Ok v /\
     val_q st v = Some (Qty (scalar (x / y)%R) d) /\ forall u, exp_of d u = (exp_of da u - exp_of db u)%Qc).
Proof.
  intros fread st a b va vb x y da db Ia Ib Da Db Ga Qa Gb Qb.
  assert (VO : val_operand st va = Some (OQ (Qty (scalar x) da)) /\ val_operand st vb = Some (OQ (Qty (scalar y) db))).
  { unfold val_operand. rewrite Qa, Qb. destruct va; try discriminate Qa; destruct vb; try discriminate Qb; auto. }
  destruct VO as [Oa Ob].
  assert (VB : forall o q, q_bin (objs st) o (OQ (Qty (scalar x) da)) (OQ (Qty (scalar y) db)) = Ok q -> o <> BPow -> v_bin st o va vb = Ok (VQty q)).
  { intros o q Hq Ho. unfold v_bin. rewrite Oa, Ob, Hq. destruct va; try discriminate Qa; destruct vb; try discriminate Qb; destruct o; try reflexivity; congruence. }
  split.
  - exists (VQty (Qty (scalar (x * y)%R) (dim_mul da db))), (dim_mul da db). split; [|split; [reflexivity|]].
    + apply (C111_composition R NumR fread st a b (T "*") BMul va vb lo_mul Ia Ib Ga Gb). apply VB; [reflexivity|discriminate].
    + intros u. apply exp_of_mul; [apply Da|apply Db].
  - exists (VQty (Qty (scalar (x / y)%R) (dim_div da db))), (dim_div da db). split; [|split; [reflexivity|]].
    + apply (C111_composition R NumR fread st a b (T "/") BDiv va vb lo_div Ia Ib Ga Gb). apply VB; [reflexivity|discriminate].
    + intros u. apply exp_of_div; [apply Da|apply Db].
Qed.
Theorem C111_powers : forall fread (st : rstate R) a b va x da p op,
  In op [T "**"; T "^"] ->
  inner_label a -> inner_label b ->
  get_item (parse_arith fread) st a = Ok va -> val_q st va = Some (Qty (scalar x) da) ->
  get_item (parse_arith fread) st b = Ok (VNum p) ->
  exists v d, get_item (parse_arith fread) st (paren a ++ op ++ paren b) = Ok v /\
     val_q st v = Some (Qty (scalar (npow x p)) d) /\ forall u, exp_of d u = (exp_of da u * pval p)%Qc.
Proof.
  intros fread st a b va x da p op Hop Ia Ib Ga Qa Gb.
  assert (VB : exists d, v_bin st BPow va (VNum p) = Ok (VQty (Qty (scalar (npow x p)) d)) /\ forall u, exp_of d u = (exp_of da u * pval p)%Qc).
  { exists (dim_pow da p). split; [|intros u; apply exp_of_pow].
    unfold v_bin, q_power. cbn [val_q]. rewrite Qa. destruct va; try discriminate Qa; reflexivity. }
  destruct VB as (d & VB & X). exists (VQty (Qty (scalar (npow x p)) d)), d. split; [|split; [reflexivity|exact X]].
  destruct Hop as [<- | [<- | []]].
  - apply (C111_composition R NumR fread st a b (T "**") BPow va (VNum p) lo_pow Ia Ib Ga Gb). exact VB.
  - apply (C111_composition R NumR fread st a b (T "^") BPow va (VNum p) lo_caret Ia Ib Ga Gb). exact VB.
Qed.
Example C111_example :
  let get l := get_item (parse_arith dec_read) (ex_st Qc) (T l) in
  get "kg/s"%string = Ok (VQty (Qty (scalar 1%Qc) [(u_kg, PInt 1); (u_s, PInt (-1))])) /\
  get "3*m.s"%string = Ok (VQty (Qty (scalar (zq 3)) [(u_m, PInt 1); (u_s, PInt 1)])) /\
  get "(kg/s)·(3*m.s)"%string = Ok (VQty (Qty (scalar (zq 3)) [(u_kg, PInt 1); (u_m, PInt 1)])) /\
  get "(3*m.s)^(2)"%string = Ok (VQty (Qty (scalar (zq 9)) [(u_m, PInt 2); (u_s, PInt 2)])) /\
  get "in"%string <> Err SyntaxError /\ get "(in)"%string = Err SyntaxError /\
  inner_label (T "kg/s") /\ inner_label (T "3*m.s").
Proof.
  split; [vm_compute; reflexivity|]. split; [vm_compute; reflexivity|]. split; [vm_compute; reflexivity|]. split; [vm_compute; reflexivity|].
  split; [vm_compute; discriminate|]. split; [vm_compute; reflexivity|]. split; split; discriminate.
Qed.

(** Numbers in labels are computed with exactly. *)
Lemma Z2Qc_pow x n : Z2Qc (x ^ Z.of_nat n) = Qcpower (Z2Qc x) n.
Proof.
  induction n as [|n IH]; [reflexivity|]. cbn [Qcpower]. rewrite Nat2Z.inj_succ, Z.pow_succ_r by lia.
  rewrite <- IH. exact (pval_pmul (PInt x) (PInt (x ^ Z.of_nat n))).
Qed.
Theorem C111_numbers : forall A (N : Num A) fread (st : rstate A) a b x y,
  inner_label a -> inner_label b ->
  get_item (parse_arith fread) st a = Ok (VNum x) -> get_item (parse_arith fread) st b = Ok (VNum y) ->
  let is label q := exists z, get_item (parse_arith fread) st label = Ok (VNum z) /\ pval z = q in
  is (paren a ++ T "+" ++ paren b) (pval x + pval y)%Qc /\
  is (paren a ++ T "-" ++ paren b) (pval x - pval y)%Qc /\
  is (paren a ++ T "*" ++ paren b) (pval x * pval y)%Qc /\
  is ("-" :: paren a) (- pval x)%Qc /\
  (pval y <> 0%Qc -> is (paren a ++ T "/" ++ paren b) (pval x / pval y)%Qc) /\
  (pval y = 0%Qc -> get_item (parse_arith fread) st (paren a ++ T "/" ++ paren b) = Err ZeroDivisionError) /\
  (forall n op, In op [T "**"; T "^"] -> y = PInt (Z.of_nat n) -> is (paren a ++ op ++ paren b) (Qcpower (pval x) n)) /\
  (forall n op, In op [T "**"; T "^"] -> y = PInt (- Z.of_nat n) -> pval x <> 0%Qc ->
     is (paren a ++ op ++ paren b) (/ Qcpower (pval x) n)%Qc).
Proof.
  intros A N fread st a b x y Ia Ib Ga Gb is.
  assert (B : forall op o z, label_op op o -> num_bin o x y = Ok z -> is (paren a ++ op ++ paren b) (pval z)).
  { intros op o z Ho Hz. exists z. split; [|reflexivity].
    apply (C111_composition A N fread st a b op o (VNum x) (VNum y) Ho Ia Ib Ga Gb). unfold v_bin. cbn. now rewrite Hz. }
  assert (P : forall op, In op [T "**"; T "^"] -> label_op op BPow) by (intros op [<- | [<- | []]]; constructor).
  assert (Pz := pzero_true).
  split; [rewrite <- pval_padd; now apply (B _ BAdd); [constructor|]|].
  split; [rewrite <- pval_psub; now apply (B _ BSub); [constructor|]|].
  split; [rewrite <- pval_pmul; now apply (B _ BMul); [constructor|]|].
  split; [exists (pneg x); split; [now apply (C111_parentheses A N fread st a (VNum x) Ia Ga)|apply pval_pneg]|].
  split; [intros Hy|split; [intros Hy|split]].
  - apply (B _ BDiv (PFlt (pval x / pval y)%Qc)); [constructor|]. cbn. destruct (pzero y) eqn:E; [|reflexivity].
    apply Pz in E. contradiction.
  - destruct (C111_composition A N fread st a b _ _ (VNum x) (VNum y) lo_div Ia Ib Ga Gb) as [_ H].
    destruct (H ZeroDivisionError) as [|[? _]]; [|assumption|discriminate]. cbn. apply Pz in Hy. now rewrite Hy.
  - intros n op Hop ->. apply P in Hop. destruct x as [x|x].
    + change (pval (PInt x)) with (Z2Qc x). rewrite <- Z2Qc_pow. apply (B op BPow (PInt (x ^ Z.of_nat n)) Hop).
      cbn. destruct (0 <=? Z.of_nat n)%Z eqn:E; [reflexivity|]. apply Z.leb_gt in E. lia.
    + change (pval (PFlt x)) with x. assert (E : Qcpowz x (Z.of_nat n) = Qcpower x n).
      { destruct n; [reflexivity|]. cbn [Z.of_nat Qcpowz]. now rewrite SuccNat2Pos.id_succ. }
      rewrite <- E. apply (B op BPow (PFlt (Qcpowz x (Z.of_nat n))) Hop). unfold num_bin.
      destruct (Z.of_nat n <? 0)%Z eqn:F; [apply Z.ltb_lt in F; lia|]. now rewrite Bool.andb_false_r.
  - intros n op Hop -> Hx. apply P in Hop.
    assert (Ex : pzero x = false) by (destruct (pzero x) eqn:E; [apply Pz in E; contradiction|reflexivity]).
    assert (E : forall q, Qcpowz q (- Z.of_nat n) = (/ Qcpower q n)%Qc).
    { intros q. destruct n; [reflexivity|]. cbn [Z.of_nat Z.opp Qcpowz]. now rewrite SuccNat2Pos.id_succ. }
    destruct n as [|n].
    + destruct x as [x|x]; [apply (B op BPow (PInt 1) Hop); reflexivity|].
      apply (B op BPow (PFlt 1%Qc) Hop). unfold num_bin. rewrite Ex. reflexivity.
    + rewrite <- E. destruct x as [x|x].
      * change (pval (PInt x)) with (Z2Qc x). apply (B op BPow (PFlt (Qcpowz (Z2Qc x) (- Z.of_nat (S n)))) Hop).
        unfold num_bin. rewrite Ex. destruct (0 <=? - Z.of_nat (S n))%Z eqn:F; [apply Z.leb_le in F; lia|]. reflexivity.
      * change (pval (PFlt x)) with x. apply (B op BPow (PFlt (Qcpowz x (- Z.of_nat (S n)))) Hop).
        unfold num_bin. rewrite Ex. reflexivity.
Qed.
Example C111_numbers_example :
  let get l := get_item (parse_arith dec_read) (ex_st Qc) (T l) in
  get "3-5"%string = Ok (VNum (PInt (-2))) /\ get "2*2"%string = Ok (VNum (PInt 4)) /\
  get "(3-5)^(2*2)"%string = Ok (VNum (PInt 16)) /\ get "(3-5)-(2*2)"%string = Ok (VNum (PInt (-6))) /\
  inner_label (T "3-5") /\ inner_label (T "2*2").
Proof.
  split; [vm_compute; reflexivity|]. split; [vm_compute; reflexivity|]. split; [vm_compute; reflexivity|]. split; [vm_compute; reflexivity|].
  split; split; discriminate.
Qed.

Print Assumptions C110_grammar.
Print Assumptions C110_unambiguous.
Print Assumptions C110_meaning.
Print Assumptions C110_precedence.
Print Assumptions C111_composition.
Print Assumptions C111_parentheses.
Print Assumptions C111_products.
Print Assumptions C111_powers.
Print Assumptions C111_numbers.
