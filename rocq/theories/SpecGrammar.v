(** * SpecGrammar: the arithmetic part of Python's expression grammar.

    From the Python language reference ("Full Grammar specification", rules [sum], [term],
    [factor], [power], [atom]), written as a relation between token lists and trees.  It does
    not mention the parser of Lex.v. *)
From Verif Require Import Py Text Lex.

(** Language reference: grammar levels, registry.py:32. *)
Inductive level : Type := LSum | LTerm | LFactor | LPower | LAtom.

(** Language reference: registry.py:32. *)
Inductive sum_op : optok -> binop -> Prop :=
| so_add : sum_op OPlus BAdd
| so_sub : sum_op OMinus BSub.
Inductive term_op : optok -> binop -> Prop :=
| to_mul : term_op OStar BMul
| to_div : term_op OSlash BDiv
| to_fdiv : term_op ODSlash BFloorDiv
| to_mod : term_op OPercent BMod.
Inductive sign_op : optok -> unop -> Prop :=
| si_pos : sign_op OPlus UPos
| si_neg : sign_op OMinus UNeg
| si_inv : sign_op OTilde UInv.
Inductive const_word : text -> pyconst -> Prop :=
| cw_none : const_word (T "None") KNone
| cw_true : const_word (T "True") KTrue
| cw_false : const_word (T "False") KFalse.

(** [derives l e ts]: the tokens [ts] are an expression of level [l] with the tree [e].
    Language reference: registry.py:32. *)
Inductive derives : level -> expr -> list token -> Prop :=
(* atom: NAME | NUMBER | None | True | False | '(' sum ')' *)
| d_name s : derives LAtom (EName s) [TName s]
| d_num p : derives LAtom (ENum p) [TNum p]
| d_const s c : const_word s c -> derives LAtom (EConst c) [TKw s]
| d_paren e l : derives LSum e l -> derives LAtom e (TOp OLP :: l ++ [TOp ORP])
(* power: atom '**' factor | atom *)
| d_power e l : derives LAtom e l -> derives LPower e l
| d_pow a b l r : derives LAtom a l -> derives LFactor b r -> derives LPower (EBin BPow a b) (l ++ TOp ODStar :: r)
(* factor: ('+' | '-' | '~') factor | power *)
| d_factor e l : derives LPower e l -> derives LFactor e l
| d_sign k o e l : sign_op k o -> derives LFactor e l -> derives LFactor (EUn o e) (TOp k :: l)
(* term: term ('*' | '/' | '//' | '%') factor | factor *)
| d_term e l : derives LFactor e l -> derives LTerm e l
| d_mul k o a b l r : term_op k o -> derives LTerm a l -> derives LFactor b r ->
    derives LTerm (EBin o a b) (l ++ TOp k :: r)
(* sum: sum ('+' | '-') term | term *)
| d_sum e l : derives LTerm e l -> derives LSum e l
| d_add k o a b l r : sum_op k o -> derives LSum a l -> derives LTerm b r ->
    derives LSum (EBin o a b) (l ++ TOp k :: r).
