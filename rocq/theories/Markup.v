(** * Markup: printing of dimensionalities.

    Models /repo/quantities/markup.py:30-161, the properties
    [string]/[unicode]/[latex]/[html]/[__str__] of
    /repo/quantities/dimensionality.py:43-57, 191-195 and the names and symbols of
    units, /repo/quantities/unitquantity.py:103-130, 386-391.

    [config.use_unicode] (markup.py:10-28) is the argument [uc]. *)
From Coq Require Import Ascii NArith.
From Verif Require Import Py Num Dim Arr Units Hash Text.

Open Scope char_scope.
Open Scope list_scope.

(** ** Superscripts, markup.py:30-42 *)

(** markup.py:30, as UTF-8. *)
Definition superscripts : list text :=
  map T ["⁰"; "¹"; "²"; "³"; "⁴"; "⁵"; "⁶"; "⁷"; "⁸"; "⁹"]%string.
(** [superscripts[int(i)]] for a digit character. *)
(** markup.py:30, 39. *)
Definition sup_digit (c : ascii) : text := nth (N.to_nat (digit_val c)) superscripts [].
(** markup.py:30, 39. *)
Definition sup_digits (e : text) : text := flat_map sup_digit e.

(** The regular expression of markup.py:33, matched at the beginning of [t]: two
    stars, digits, not followed by a dot.  The digits are taken greedily; before a
    dot the matcher gives one digit back, if more than one was taken.  Result: the
    digits and the rest. *)
Definition match_pow (t : text) : option (text * text) :=
  match t with
  | "*" :: "*" :: t' =>
      let ds := fst (span is_digit t') in
      let rest := snd (span is_digit t') in
      match ds with
      | [] => None
      | _ => match rest with
             | "." :: _ => match removelast ds with
                           | [] => None
                           | ds' => Some (ds', last ds "0" :: rest)
                           end
             | _ => Some (ds, rest)
             end
      end
  | _ => None
  end.

(** The regular expression of markup.py:122, 155: two stars and digits. *)
Definition match_pow' (t : text) : option (text * text) :=
  match t with
  | "*" :: "*" :: t' =>
      match fst (span is_digit t') with
      | [] => None
      | ds => Some (ds, snd (span is_digit t'))
      end
  | _ => None
  end.

(** Scan a text from left to right, replacing each match [m t = Some (e, rest)] by
    [f e] (re.split and re.sub; a match is never empty). *)
(** Language layer: [re.sub], [re.split] (markup.py:33-42, 122, 155). *)
Fixpoint scan (fuel : nat) (m : text -> option (text * text)) (f : text -> text) (t : text) : text :=
  match fuel with
  | 0 => t
  | S k => match t with
           | [] => []
           | c :: t' => match m t with
                        | Some (e, rest) => f e ++ scan k m f rest
                        | None => c :: scan k m f t'
                        end
           end
  end.

(** markup.py:32-42: the pieces of re.split are joined again with the captured
    digits turned into superscripts. *)
Definition superscript (val : text) : text := scan (S (length val)) match_pow sup_digits val.

(** [s.replace('**', '^')] *)
(** markup.py:82. *)
Fixpoint replace_pow (t : text) : text :=
  match t with
  | "*" :: "*" :: t' => "^" :: replace_pow t'
  | c :: t' => c :: replace_pow t'
  | [] => []
  end.

Section Markup.
  Context {A : Type}.
  Variable E : uenv A.
  (** [repr] of a float. *)
  Variable frepr : Qc -> text.

  (** unitquantity.py:103-105 [name]; 386-391 for compound units. *)
  Definition unit_name (uc : bool) (u : uid) : text :=
    match u_cls u with
    | CCompound => T "(" ++ (if uc then superscript (T (u_name u)) else T (u_name u)) ++ T ")"
    | _ => T (u_name u)
    end.
  (** unitquantity.py:118-123 [symbol]. *)
  Definition unit_symbol (uc : bool) (u : uid) : text :=
    match ulookup E u with
    | Some r => match ur_symbol r with
                | Some (String _ _ as s) => T s
                | _ => unit_name uc u
                end
    | None => unit_name uc u
    end.
  (** unitquantity.py:125-130 [u_symbol]. *)
  Definition unit_usymbol (uc : bool) (u : uid) : text :=
    match ulookup E u with
    | Some r => match ur_usymbol r with
                | Some (String _ _ as s) => T s
                | _ => unit_symbol uc u
                end
    | None => unit_symbol uc u
    end.
  (** unitquantity.py:99-101 [format_order]. *)
  Definition unit_order (u : uid) : nat * nat :=
    match ulookup E u with Some r => ur_order r | None => (0, 0)%nat end.

  (** markup.py:58-61. *)
  Definition shown (uc : bool) (u : uid) : text :=
    if uc then unit_usymbol uc u else unit_symbol uc u.

  (** ['%s' % d] *)
  (** markup.py:64, 69. *)
  Definition num_text (p : pynum) : text :=
    match p with
    | PInt z => (if (z <? 0)%Z then T "-" else []) ++ digits (Z.abs_N z)
    | PFlt q => frepr q
    end.
  (** markup.py:63-64, 68-69. *)
  Definition factor_text (uc : bool) (u : uid) (d : pynum) : text :=
    if peqb d (PInt 1) then shown uc u
    else shown uc u ++ rstrip "." (rstrip "0" (T "**" ++ num_text d)).

  Definition ppos (p : pynum) : bool := negb (pneg_b p) && negb (pzero p).

  (** markup.py:50-55: the items of the dict sorted by [format_order]. *)
  Definition sorted_items (d : dims) : dims := sort_by (fun kv => unit_order (fst kv)) d.
  (** markup.py:56-70: numerator and denominator. *)
  Definition num_items (d : dims) : dims := filter (fun kv => ppos (snd kv)) (sorted_items d).
  Definition den_items (d : dims) : dims := filter (fun kv => pneg_b (snd kv)) (sorted_items d).

  (** markup.py:71-77. *)
  Definition layout (num den : list text) : text :=
    let res := join (T "*") num in
    let res := match den with
               | [] => res
               | _ => (match res with [] => T "1" | _ => res end) ++ T "/" ++
                      match den with
                      | _ :: _ :: _ => T "(" ++ join (T "*") den ++ T ")"
                      | _ => join (T "*") den
                      end
               end in
    match res with [] => T "dimensionless" | _ => res end.

  (** markup.py:44-77 [format_units]. *)
  Definition format_units (uc : bool) (d : dims) : text :=
    layout (map (fun kv => factor_text uc (fst kv) (snd kv)) (num_items d))
           (map (fun kv => factor_text uc (fst kv) (pneg (snd kv))) (den_items d)).

  (** markup.py:79-84 [format_units_unicode]. *)
  Definition format_units_unicode (uc : bool) (d : dims) : text :=
    replace_char "*" (T "·") (replace_pow (superscript (format_units uc d))).

  (** markup.py:113, 148: [res.startswith('(') and res.endswith(')')]. *)
  Definition compound (res : text) : bool :=
    match res with
    | "(" :: _ => match last res "0" with ")" => true | _ => false end
    | _ => false
    end.
  (** markup.py:120: a fraction at the last slash that has something on both sides.
      Simplification: no newline in [res]. *)
  Fixpoint split_last (t : text) : option (text * text) :=
    match t with
    | [] => None
    | c :: t' => match split_last t' with
                 | Some (a, b) => Some (c :: a, b)
                 | None => match c, t' with
                           | "/", _ :: _ => Some ([], t')
                           | _, _ => None
                           end
                 end
    end.
  Definition to_frac (t : text) : text :=
    match t with
    | [] => t
    | c :: t' => match split_last t' with
                 | Some (a, b) => T "\frac{" ++ c :: a ++ T "}{" ++ b ++ T "}"
                 | None => t
                 end
    end.

  (** markup.py:87-128 [format_units_latex]; [mult] is the text that the template
      [mult] expands to (the default is [\cdot]). *)
  Definition format_units_latex (uc : bool) (font mult : text) (paren : bool) (d : dims) : text :=
    let res0 := format_units uc d in
    let cpd := compound res0 in
    let res := if cpd then res0 else to_frac res0 in
    let res := scan (S (length res)) match_pow' (fun e => T "^{" ++ e ++ T "}") res in
    let res := replace_char "*" (T "{" ++ mult ++ T "}") res in
    let res := if paren && negb cpd then T "\left(" ++ res ++ T "\right)" else res in
    T "$\" ++ font ++ T "{" ++ res ++ T "}$".

  (** markup.py:131-161 [format_units_html]; [font] is split at its [%s]. *)
  Definition format_units_html (uc : bool) (font : text * text) (mult : text) (paren : bool)
             (d : dims) : text :=
    let res0 := format_units uc d in
    let res := scan (S (length res0)) match_pow' (fun e => T "<sup>" ++ e ++ T "</sup>") res0 in
    let res := replace_char "*" mult res in
    let res := if paren && negb (compound res0) then T "(" ++ res ++ T ")" else res in
    fst font ++ res ++ snd font.

  (** dimensionality.py:43-57 [string], [unicode], [latex], [html], 191-195 [__str__]. *)
  Definition dim_str (uc : bool) (d : dims) : text :=
    if uc then format_units_unicode uc d else format_units uc d.
  Definition dim_latex (uc : bool) (d : dims) : text :=
    format_units_latex uc (T "mathrm") (T "\cdot") false d.
  Definition dim_html (uc : bool) (d : dims) : text :=
    format_units_html uc ([], []) (T "&sdot;") false d.
End Markup.
