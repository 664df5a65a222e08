(** * Lex: from a unit label to a Python expression.

    Models the preprocessing of /repo/quantities/registry.py:62, 74-80 and, for the
    arithmetic fragment of the language, what [ast.parse(string, mode="eval")]
    (registry.py:32) returns.  The grammar is CPython's (sum > term > factor > power
    > atom).  Whatever is outside the fragment (calls, attributes, subscripts,
    comparisons, boolean operators, bit operators, strings, exponent notation, hex
    literals, non-ASCII identifiers ...) gives [Err Unmodelled]; Registry.v treats
    the trees of those constructs for an arbitrary parser. *)
From Coq Require Import Ascii NArith.
From Verif Require Import Py Text.

Open Scope char_scope.
Open Scope list_scope.

(** ** Preprocessing of the label *)

(** registry.py:75 [label.replace('^', '**').replace('·', '*')]; the middle dot is
    C2 B7 in UTF-8. *)
Fixpoint replace_dot (t : text) : text :=
  match t with
  | "194" :: "183" :: t' => "*" :: replace_dot t'
  | c :: t' => c :: replace_dot t'
  | [] => []
  end.
(** registry.py:62, 74-75: [letter.letter] becomes [letter*letter], left to right,
    matches do not overlap. *)
Fixpoint dot_mul (t : text) : text :=
  match t with
  | a :: r =>
      match r with
      | "." :: b :: t' => if is_letter a && is_letter b then a :: "*" :: b :: dot_mul t' else a :: dot_mul r
      | _ => a :: dot_mul r
      end
  | [] => []
  end.
(** registry.py:71-82: the label handed to the inner registry. *)
Definition preprocess (label : text) : text :=
  let l := dot_mul (replace_dot (replace_char "^" (T "**") label)) in
  let l := match l with [] => T "dimensionless" | _ => l end in
  let l := replace_char "%" (T "percent") l in
  if teqb (lower l) (T "in") then T "inch" else l.

(** ** Tokens *)
(** Language layer: CPython's tokenizer and grammar (registry.py:32). *)
Inductive optok : Type := OPlus | OMinus | OStar | ODStar | OSlash | ODSlash | OPercent | OTilde | OLP | ORP.
(** Language layer: CPython's tokenizer and grammar (registry.py:32). *)
Inductive token : Type :=
| TName (s : text)
| TKw (s : text)
| TNum (p : pynum)
| TOp (o : optok).

(** Language layer: CPython's tokenizer and grammar (registry.py:32). *)
Definition keywords : list text :=
  map T ["False"; "None"; "True"; "and"; "as"; "assert"; "async"; "await"; "break";
         "class"; "continue"; "def"; "del"; "elif"; "else"; "except"; "finally"; "for";
         "from"; "global"; "if"; "import"; "in"; "is"; "lambda"; "nonlocal"; "not"; "or";
         "pass"; "raise"; "return"; "try"; "while"; "with"; "yield"]%string.
(** Language layer: CPython's tokenizer and grammar (registry.py:32). *)
Definition is_keyword (t : text) : bool := existsb (teqb t) keywords.

Section Lex.
  (** The value of a float literal. *)
  Variable fread : text -> Qc.

  (** A number at the beginning of [t] (which starts with a digit): an int or a
      float in fixed notation. *)
  (** Language layer: CPython's tokenizer and grammar (registry.py:32). *)
  Definition lex_num (t : text) : res (token * text) :=
    let ip := fst (span is_digit t) in
    let rest := snd (span is_digit t) in
    match rest with
    | "." :: rest1 =>
        let fp := fst (span is_digit rest1) in
        let rest2 := snd (span is_digit rest1) in
        match rest2 with
        | c :: _ => if is_idstart c || (128 <=? code c)%N then Err Unmodelled
                    else Ok (TNum (PFlt (fread (ip ++ "." :: fp))), rest2)
        | [] => Ok (TNum (PFlt (fread (ip ++ "." :: fp))), rest2)
        end
    | c :: _ => if is_idstart c || (128 <=? code c)%N then Err Unmodelled
                else match ip with
                     | "0" :: _ :: _ => if (digits_val ip =? 0)%N then Ok (TNum (PInt 0), rest)
                                        else Err SyntaxError
                     | _ => Ok (TNum (PInt (Z.of_N (digits_val ip))), rest)
                     end
    | [] => match ip with
            | "0" :: _ :: _ => if (digits_val ip =? 0)%N then Ok (TNum (PInt 0), rest)
                               else Err SyntaxError
            | _ => Ok (TNum (PInt (Z.of_N (digits_val ip))), rest)
            end
    end.

  (** The first token of [t] and the rest; [None] at the end. *)
  (** Language layer: CPython's tokenizer and grammar (registry.py:32). *)
  Definition lex1 (t : text) : res (option token * text) :=
    match t with
    | [] => Ok (None, [])
    | c :: t' =>
        if is_digit c then '(k, r) <- lex_num t ;; Ok (Some k, r)
        else if is_idstart c then
          let w := fst (span is_idchar t) in
          let r := snd (span is_idchar t) in
          match r with
          | c' :: _ => if (128 <=? code c')%N then Err Unmodelled
                       else Ok (Some (if is_keyword w then TKw w else TName w), r)
          | [] => Ok (Some (if is_keyword w then TKw w else TName w), r)
          end
        else match c with
             | "+" => Ok (Some (TOp OPlus), t')
             | "-" => Ok (Some (TOp OMinus), t')
             | "~" => Ok (Some (TOp OTilde), t')
             | "(" => Ok (Some (TOp OLP), t')
             | ")" => Ok (Some (TOp ORP), t')
             | "%" => Ok (Some (TOp OPercent), t')
             | "*" => match t' with
                      | "*" :: t'' => Ok (Some (TOp ODStar), t'')
                      | _ => Ok (Some (TOp OStar), t')
                      end
             | "/" => match t' with
                      | "/" :: t'' => Ok (Some (TOp ODSlash), t'')
                      | _ => Ok (Some (TOp OSlash), t')
                      end
             | _ => Err Unmodelled
             end
    end.

  (** Language layer: CPython's tokenizer and grammar (registry.py:32). *)
  Fixpoint skip_spaces (t : text) : text :=
    match t with
    | c :: t' => if is_space c then skip_spaces t' else t
    | [] => []
    end.

  (** Language layer: CPython's tokenizer and grammar (registry.py:32). *)
  Fixpoint lex_fuel (fuel : nat) (t : text) : res (list token) :=
    match fuel with
    | 0 => Err Unmodelled
    | S f => '(k, r) <- lex1 (skip_spaces t) ;;
             match k with
             | None => Ok []
             | Some k => ks <- lex_fuel f r ;; Ok (k :: ks)
             end
    end.
  (** The tokens of a label.  A label that starts with a blank is an unexpected
      indent (SyntaxError). *)
  (** Language layer: CPython's tokenizer and grammar (registry.py:32). *)
  Definition lex (t : text) : res (list token) :=
    match t with
    | c :: _ => if is_space c then Err SyntaxError else lex_fuel (S (length t)) t
    | [] => Ok []
    end.
End Lex.

(** ** Expressions *)
(** Language layer: CPython's tokenizer and grammar (registry.py:32). *)
Inductive binop : Type :=
| BAdd | BSub | BMul | BDiv | BFloorDiv | BMod | BPow
| BMatMul | BLShift | BRShift | BBitOr | BBitXor | BBitAnd.
(** Language layer: CPython's tokenizer and grammar (registry.py:32). *)
Inductive unop : Type := UPos | UNeg | UInv | UNot.
(** Constants other than numbers: strings, bytes, None, True, False, ... and complex. *)
(** Language layer: CPython's tokenizer and grammar (registry.py:32). *)
Inductive pyconst : Type := KNone | KTrue | KFalse | KEllipsis | KStr (s : text) | KOther.
(** The node classes of Python expressions that registry.py:14-23 does not list. *)
Inductive node_kind : Type :=
| NCall | NAttribute | NSubscript | NCompare | NBoolOp | NIfExp | NLambda | NTuple | NList
| NSet | NDict | NListComp | NSetComp | NDictComp | NGeneratorExp | NAwait | NYield
| NYieldFrom | NFormattedValue | NJoinedStr | NStarred | NNamedExpr | NSlice.
Inductive expr : Type :=
| EName (s : text)
| ENum (p : pynum)
| EConst (c : pyconst)
| EBin (o : binop) (a b : expr)
| EUn (o : unop) (a : expr)
| ENode (k : node_kind) (l : list expr).

(** ** The parser *)
(** Language layer: CPython's tokenizer and grammar (registry.py:32). *)
Inductive goal : Type :=
| GSum | GSumTail (e : expr) | GTerm | GTermTail (e : expr) | GFactor | GPower.

(** Language layer: CPython's tokenizer and grammar (registry.py:32). *)
Fixpoint parse_fuel (fuel : nat) (g : goal) (ts : list token) : res (expr * list token) :=
  match fuel with
  | 0 => Err Unmodelled
  | S f =>
      match g with
      | GSum => '(e, ts1) <- parse_fuel f GTerm ts ;; parse_fuel f (GSumTail e) ts1
      | GSumTail e =>
          match ts with
          | TOp OPlus :: ts1 =>
              '(e2, ts2) <- parse_fuel f GTerm ts1 ;; parse_fuel f (GSumTail (EBin BAdd e e2)) ts2
          | TOp OMinus :: ts1 =>
              '(e2, ts2) <- parse_fuel f GTerm ts1 ;; parse_fuel f (GSumTail (EBin BSub e e2)) ts2
          | _ => Ok (e, ts)
          end
      | GTerm => '(e, ts1) <- parse_fuel f GFactor ts ;; parse_fuel f (GTermTail e) ts1
      | GTermTail e =>
          match ts with
          | TOp OStar :: ts1 =>
              '(e2, ts2) <- parse_fuel f GFactor ts1 ;; parse_fuel f (GTermTail (EBin BMul e e2)) ts2
          | TOp OSlash :: ts1 =>
              '(e2, ts2) <- parse_fuel f GFactor ts1 ;; parse_fuel f (GTermTail (EBin BDiv e e2)) ts2
          | TOp ODSlash :: ts1 =>
              '(e2, ts2) <- parse_fuel f GFactor ts1 ;; parse_fuel f (GTermTail (EBin BFloorDiv e e2)) ts2
          | TOp OPercent :: ts1 =>
              '(e2, ts2) <- parse_fuel f GFactor ts1 ;; parse_fuel f (GTermTail (EBin BMod e e2)) ts2
          | _ => Ok (e, ts)
          end
      | GFactor =>
          match ts with
          | TOp OPlus :: ts1 => '(e, ts2) <- parse_fuel f GFactor ts1 ;; Ok (EUn UPos e, ts2)
          | TOp OMinus :: ts1 => '(e, ts2) <- parse_fuel f GFactor ts1 ;; Ok (EUn UNeg e, ts2)
          | TOp OTilde :: ts1 => '(e, ts2) <- parse_fuel f GFactor ts1 ;; Ok (EUn UInv e, ts2)
          | _ => parse_fuel f GPower ts
          end
      | GPower =>
          '(e, ts1) <- match ts with
                       | TName s :: ts1 => Ok (EName s, ts1)
                       | TNum p :: ts1 => Ok (ENum p, ts1)
                       | TOp OLP :: TOp ORP :: _ => Err Unmodelled
                       | TOp OLP :: ts1 =>
                           '(e, ts2) <- parse_fuel f GSum ts1 ;;
                           match ts2 with
                           | TOp ORP :: ts3 => Ok (e, ts3)
                           | TKw _ :: _ => Err Unmodelled
                           | _ => Err SyntaxError
                           end
                       | TKw s :: ts1 =>
                           if teqb s (T "None") then Ok (EConst KNone, ts1)
                           else if teqb s (T "True") then Ok (EConst KTrue, ts1)
                           else if teqb s (T "False") then Ok (EConst KFalse, ts1)
                           else if teqb s (T "not") || teqb s (T "lambda") || teqb s (T "await")
                                   || teqb s (T "yield") then Err Unmodelled
                           else Err SyntaxError
                       | _ => Err SyntaxError
                       end ;;
          match ts1 with
          | TOp ODStar :: ts2 =>
              '(e2, ts3) <- parse_fuel f GFactor ts2 ;; Ok (EBin BPow e e2, ts3)
          | TOp OLP :: _ => Err Unmodelled
          | _ => Ok (e, ts1)
          end
      end
  end.

(** registry.py:32 [ast.parse(string, mode="eval")] on the arithmetic fragment. *)
Definition parse_tokens (ts : list token) : res expr :=
  '(e, rest) <- parse_fuel (8 * length ts + 8) GSum ts ;;
  match rest with
  | [] => Ok e
  | TKw _ :: _ => Err Unmodelled
  | _ => Err SyntaxError
  end.
Definition parse_arith (fread : text -> Qc) (t : text) : res expr :=
  ts <- lex fread t ;; parse_tokens ts.
