(** * Show: the printed form of quantities, units and uncertain quantities.

    Models /repo/quantities/quantity.py:412-434 ([__repr__], [__str__], [__format__]),
    unitquantity.py:139-166 and uncertainquantity.py:176-198.  The text NumPy prints for
    an array ([mrepr], [mstr]), for a formatted number ([mfmt]) and Python's [repr] of a
    string ([srepr]) are parameters.  [uc] is [markup.config.use_unicode]. *)
From Coq Require Import Ascii NArith.
From Verif Require Import Py Num Dim Arr Units Quant Uncert Text Markup.

Open Scope char_scope.
Open Scope list_scope.

(** [t] without the prefix [p], if it starts with it. *)
(** Language layer: [str.replace] (uncertainquantity.py:197). *)
Fixpoint strip_prefix (p t : text) : option text :=
  match p, t with
  | [], _ => Some t
  | c :: p', d :: t' => if Ascii.eqb c d then strip_prefix p' t' else None
  | _, [] => None
  end.
(** [t.replace(p, by_)] for a non-empty [p]. *)
(** Language layer: [str.replace] (uncertainquantity.py:197). *)
Fixpoint replace_sub (fuel : nat) (p by_ t : text) : text :=
  match fuel with
  | 0 => t
  | S k => match t with
           | [] => []
           | c :: t' => match strip_prefix p t with
                        | Some rest => by_ ++ replace_sub k p by_ rest
                        | None => c :: replace_sub k p by_ t'
                        end
           end
  end.

Section Show.
  Context {A : Type}.
  Variable E : uenv A.
  Variable frepr : Qc -> text.
  Variable mrepr mstr : arr A -> text.
  Variable mfmt : text -> arr A -> res text.
  Variable srepr : text -> text.

  (** quantity.py:412-416. *)
  Definition q_repr (uc : bool) (q : qty A) : text :=
    mrepr (mag q) ++ T " * " ++ format_units E frepr uc (qdim q).
  (** quantity.py:418-424. *)
  Definition q_str (uc : bool) (q : qty A) : text :=
    mstr (mag q) ++ T " " ++
    (if uc then format_units_unicode E frepr uc (qdim q) else format_units E frepr uc (qdim q)).
  (** quantity.py:430-434.  [ndarray.__format__] formats the element of a 0-d array, and is
      [object.__format__] otherwise: [str(self)], TypeError for a format specification. *)
  Definition q_format (uc : bool) (spec : text) (q : qty A) : res text :=
    match shp (mag q) with
    | [] => s <- mfmt spec (mag q) ;; Ok (s ++ T " " ++ dim_str E frepr uc (qdim q))
    | _ => match spec with [] => Ok (q_str uc q) | _ => Err TypeError end
    end.

  (** uncertainquantity.py:176-183. *)
  Definition u_repr (uc : bool) (x : uqty A) : text :=
    T "UncertainQuantity(" ++ mrepr (mag (uv x)) ++ T ", " ++ format_units E frepr uc (qdim (uv x)) ++
    T ", " ++ mrepr (mag (uu x)) ++ T ")".
  (** uncertainquantity.py:185-198. *)
  Definition u_str (uc : bool) (x : uqty A) : text :=
    let dims := if uc then format_units_unicode E frepr uc (qdim (uv x)) else format_units E frepr uc (qdim (uv x)) in
    let s := mstr (mag (uv x)) ++ T " " ++ dims ++ "010" :: T "+/-" ++ q_str uc (uu x) ++ T " (1 sigma)" in
    if uc then
      let s := replace_sub (S (length s)) (T "+/-") (T "±") s in
      replace_sub (S (length s)) (T " sigma") (T "σ") s
    else s.

  (** unitquantity.py:156-166. *)
  Definition unit_str (uc : bool) (u : uid) : text :=
    if teqb (unit_usymbol E uc u) (unit_name uc u) then T "1 " ++ unit_name uc u
    else T "1 " ++ (if uc then unit_usymbol E uc u else unit_symbol E uc u) ++ T " (" ++ unit_name uc u ++ T ")".

  (** unitquantity.py:20, 288-446: the names of the classes. *)
  Definition class_name (c : ucls) : text :=
    T match c with
      | CQuantity => "UnitQuantity" | CMass => "UnitMass" | CLength => "UnitLength" | CTime => "UnitTime"
      | CCurrent => "UnitCurrent" | CLumInt => "UnitLuminousIntensity" | CSubstance => "UnitSubstance"
      | CTemperature => "UnitTemperature" | CInformation => "UnitInformation" | CCurrency => "UnitCurrency"
      | CCompound => "CompoundUnit" | CDimless => "Dimensionless" | CConstant => "UnitConstant"
      end%string.
  (** unitquantity.py:139-154 ([if ref]: a definition with a non-zero magnitude); [one] is
      the magnitude of a unit. *)
  Definition unit_repr {N : Num A} (uc : bool) (u : uid) : text :=
    let show o := match o with Some (String _ _ as s) => T ", " ++ srepr (T s) | _ => [] end in
    class_name (u_cls u) ++ T "(" ++ srepr (unit_name uc u) ++
    match ulookup E u with
    | Some r =>
        match ur_def r with
        | Some (DQty a d) => if neqb a n0 then [] else T ", " ++ mstr (scalar a) ++ T " * " ++ format_units E frepr uc d
        | Some (DUnit w) => T ", " ++ mstr (scalar n1) ++ T " * " ++ format_units E frepr uc (unit_dims w)
        | None => []
        end ++
        show (ur_symbol r) ++ (if uc then show (ur_usymbol r) else [])
    | None => []
    end ++ T ")".
End Show.
