(** * Table: the units that the library defines.

    Generated by tools/table.py, which parses /repo/quantities/units/*.py; one entry per
    constructor call, in the order in which importing the package executes them.
    A Python variable in a definition is written as the name of the unit that it is
    bound to.  Float literals are exact decimals and [math.pi] is the exact value of the
    double: Simplification, the model computes definitions exactly. *)
From Verif Require Import Py Num Dim Units Text Lex.

(** A constructor call: [cls(name, definition, symbol, u_symbol, aliases)], or
    [CompoundUnit(name)]. *)
Inductive tentry : Type :=
| TNew (c : ucls) (name : string) (df : option expr) (sym usym : option string) (aliases : list string)
| TComp (name : string).

Definition nm (s : string) : expr := EName (T s).
Definition it (z : Z) : expr := ENum (PInt z).
Definition fl (n : Z) (d : positive) : expr := ENum (PFlt (Q2Qc (n # d))).
Definition mu : expr -> expr -> expr := EBin BMul.
Definition dv : expr -> expr -> expr := EBin BDiv.
Definition pw : expr -> expr -> expr := EBin BPow.
Definition ng : expr -> expr := EUn UNeg.

Open Scope string_scope.
Open Scope list_scope.

(** /repo/quantities/units/time.py:7-198 *)
Definition t_time : list tentry := [
  TNew CTime "second" None
    (Some "s") None ["sec"; "seconds"];
  TNew CTime "kilosecond" (Some (mu (nm "second") (it 1000)))
    (Some "ks") None ["kiloseconds"];
  TNew CTime "megasecond" (Some (mu (nm "kilosecond") (it 1000)))
    (Some "Ms") None ["megaseconds"];
  TNew CTime "millisecond" (Some (dv (nm "second") (it 1000)))
    (Some "ms") None ["milliseconds"];
  TNew CTime "microsecond" (Some (dv (nm "millisecond") (it 1000)))
    (Some "us") (Some "µs") ["microseconds"];
  TNew CTime "nanosecond" (Some (dv (nm "microsecond") (it 1000)))
    (Some "ns") None ["nanoseconds"];
  TNew CTime "picosecond" (Some (dv (nm "nanosecond") (it 1000)))
    (Some "ps") None ["picoseconds"];
  TNew CTime "femtosecond" (Some (dv (nm "picosecond") (it 1000)))
    (Some "fs") None ["femtoseconds"];
  TNew CTime "attosecond" (Some (dv (nm "femtosecond") (it 1000)))
    (Some "as") None ["attoseconds"];
  TNew CTime "minute" (Some (mu (it 60) (nm "second")))
    (Some "min") None ["minutes"];
  TNew CTime "hour" (Some (mu (it 60) (nm "minute")))
    (Some "h") None ["hr"; "hours"];
  TNew CTime "day" (Some (mu (it 24) (nm "hour")))
    (Some "d") None ["days"];
  TNew CTime "week" (Some (mu (it 7) (nm "day")))
    None None ["weeks"];
  TNew CTime "fortnight" (Some (mu (it 2) (nm "week")))
    None None ["fortnights"];
  TNew CTime "year" (Some (mu (fl 315569259747 10000) (nm "second")))
    (Some "yr") None ["a"; "years"; "tropical_year"; "tropical_years"];
  TNew CTime "month" (Some (dv (nm "year") (it 12)))
    None None ["months"];
  TNew CTime "shake" (Some (mu (fl 1 100000000) (nm "second")))
    None None ["shakes"];
  TNew CTime "sidereal_day" (Some (dv (nm "day") (fl 25068447733769881 25000000000000000)))
    None None ["sidereal_days"];
  TNew CTime "sidereal_hour" (Some (dv (nm "sidereal_day") (it 24)))
    None None ["sidereal_hours"];
  TNew CTime "sidereal_minute" (Some (dv (nm "sidereal_hour") (it 60)))
    None None ["sidereal_minutes"];
  TNew CTime "sidereal_second" (Some (dv (nm "sidereal_minute") (it 60)))
    None None ["sidereal_seconds"];
  TNew CTime "sidereal_year" (Some (mu (fl 18312818021 50000000) (nm "sidereal_day")))
    None None ["sidereal_years"];
  TNew CTime "sidereal_month" (Some (mu (fl 27321661 1000000) (nm "day")))
    None None ["sidereal_months"];
  TNew CTime "tropical_month" (Some (mu (fl 13660791 500000) (nm "day")))
    None None ["tropical_months"];
  TNew CTime "synodic_month" (Some (mu (fl 29530589 1000000) (nm "day")))
    None None ["synodic_months"; "lunar_month"; "lunar_months"];
  TNew CTime "common_year" (Some (mu (it 365) (nm "day")))
    None None ["common_years"];
  TNew CTime "leap_year" (Some (mu (it 366) (nm "day")))
    None None ["leap_years"];
  TNew CTime "Julian_year" (Some (mu (fl 1461 4) (nm "day")))
    None None ["Julian_years"];
  TNew CTime "Gregorian_year" (Some (mu (fl 146097 400) (nm "day")))
    None None ["Gregorian_years"];
  TNew CTime "millenium" (Some (mu (it 1000) (nm "year")))
    None None ["millenia"];
  TNew CTime "eon" (Some (mu (fl 1000000000 1) (nm "year")))
    None None ["eons"];
  TNew CQuantity "work_year" (Some (mu (it 2056) (nm "hour")))
    None None ["work_years"];
  TNew CQuantity "work_month" (Some (dv (nm "work_year") (it 12)))
    None None ["work_months"]
]%Z.

(** /repo/quantities/units/length.py:6-191 *)
Definition t_length : list tentry := [
  TNew CLength "meter" None
    (Some "m") None ["meters"; "metre"; "metres"];
  TNew CLength "kilometer" (Some (mu (it 1000) (nm "meter")))
    (Some "km") None ["kilometers"; "kilometre"; "kilometres"];
  TNew CLength "decimeter" (Some (dv (nm "meter") (it 10)))
    (Some "dm") None ["decimeters"; "decimetre"; "decimetres"];
  TNew CLength "centimeter" (Some (dv (nm "meter") (it 100)))
    (Some "cm") None ["centimeters"; "centimetre"; "centimetres"];
  TNew CLength "millimeter" (Some (dv (nm "meter") (it 1000)))
    (Some "mm") None ["millimeters"; "millimetre"; "millimetres"];
  TNew CLength "micrometer" (Some (dv (nm "millimeter") (it 1000)))
    (Some "um") (Some "µm") ["micron"; "microns"; "micrometers"; "micrometre"; "micrometres"];
  TNew CLength "nanometer" (Some (dv (nm "micrometer") (it 1000)))
    (Some "nm") None ["nanometers"; "nanometre"; "nanometres"];
  TNew CLength "picometer" (Some (dv (nm "nanometer") (it 1000)))
    (Some "pm") None ["picometers"; "picometre"; "picometres"];
  TNew CLength "angstrom" (Some (dv (nm "nanometer") (it 10)))
    None (Some "Å") ["angstroms"];
  TNew CLength "femtometer" (Some (dv (nm "picometer") (it 1000)))
    (Some "fm") None ["femtometers"; "femtometre"; "femtometres"; "fermi"; "fermis"];
  TNew CLength "inch" (Some (mu (fl 127 50) (nm "centimeter")))
    (Some "in") None ["inches"; "international_inch"; "international_inches"];
  TNew CLength "foot" (Some (mu (it 12) (nm "inch")))
    (Some "ft") None ["feet"; "international_footinternational_feet"];
  TNew CLength "mile" (Some (mu (it 5280) (nm "foot")))
    (Some "mi") None ["miles"; "international_mile"; "international_miles"];
  TNew CLength "yard" (Some (mu (it 3) (nm "foot")))
    (Some "yd") None ["yards"; "international_yard"; "international_yards"];
  TNew CLength "mil" (Some (dv (nm "inch") (it 1000)))
    None None ["mils"; "thou"; "thous"];
  TNew CLength "parsec" (Some (mu (fl 30856802500000000 1) (nm "meter")))
    (Some "pc") None ["parsecs"];
  TNew CLength "light_year" (Some (mu (fl 47303652362904 5) (nm "kilometer")))
    (Some "ly") None ["light_years"];
  TNew CLength "astronomical_unit" (Some (mu (it 149597870691) (nm "meter")))
    (Some "au") None ["astronomical_units"];
  TNew CLength "nautical_mile" (Some (mu (fl 1852 1) (nm "meter")))
    (Some "nmi") None ["nmile"; "nmiles"; "nautical_miles"];
  TNew CLength "printers_point" (Some (dv (mu (it 127) (nm "millimeter")) (it 360)))
    (Some "point") None ["printers_points"; "points"];
  TNew CLength "pica" (Some (mu (it 12) (nm "printers_point")))
    None None ["picas"; "printers_pica"; "printers_picas"];
  TNew CLength "US_survey_foot" (Some (dv (mu (it 1200) (nm "meter")) (it 3937)))
    None None ["US_survey_feet"];
  TNew CLength "US_survey_yard" (Some (mu (it 3) (nm "US_survey_foot")))
    None None ["US_survey_yards"];
  TNew CLength "US_survey_mile" (Some (mu (it 5280) (nm "US_survey_foot")))
    None None ["US_survey_miles"; "US_statute_mile"; "US_statute_miles"];
  TNew CLength "rod" (Some (mu (fl 33 2) (nm "US_survey_foot")))
    None None ["rods"; "pole"; "poles"; "perch"; "perches"];
  TNew CLength "furlong" (Some (mu (it 660) (nm "US_survey_foot")))
    None None ["furlongs"];
  TNew CLength "fathom" (Some (mu (it 6) (nm "US_survey_foot")))
    None None ["fathoms"];
  TNew CLength "chain" (Some (mu (it 66) (nm "US_survey_foot")))
    None None ["chains"];
  TNew CLength "barleycorn" (Some (dv (nm "inch") (it 3)))
    None None ["barleycorns"];
  TNew CLength "arpentlin" (Some (mu (fl 38367 200) (nm "foot")))
    None None [];
  TNew CQuantity "kayser" (Some (dv (it 1) (nm "centimeter")))
    None None ["kaysers"; "wavenumber"; "wavenumbers"]
]%Z.

(** /repo/quantities/units/acceleration.py:8-8 *)
Definition t_acceleration : list tentry := [
  TNew CQuantity "standard_gravity" (Some (dv (mu (fl 196133 20000) (nm "meter")) (pw (nm "second") (it 2))))
    (Some "g_0") (Some "g₀") []
]%Z.

(** /repo/quantities/units/angle.py:8-98 *)
Definition t_angle : list tentry := [
  TNew CQuantity "radian" (Some (mu (it 1) (nm "dimensionless")))
    (Some "rad") None ["radians"];
  TNew CQuantity "milliradian" (Some (dv (nm "radian") (it 1000)))
    (Some "mrad") None ["milliradians"];
  TNew CQuantity "microradian" (Some (dv (nm "milliradian") (it 1000)))
    (Some "urad") (Some "µrad") ["microradians"];
  TNew CQuantity "turn" (Some (mu (mu (it 2) (fl 884279719003555 281474976710656)) (nm "radian")))
    None None ["turns"; "revolutions"; "circles"; "cycles"];
  TNew CQuantity "arcdegree" (Some (mu (dv (fl 884279719003555 281474976710656) (it 180)) (nm "radian")))
    (Some "deg") (Some "°") ["degree"; "degrees"; "arc_degree"; "arc_degrees"; "angular_degree"; "angular_degrees"; "arcdegrees"; "arcdeg"];
  TNew CQuantity "arcminute" (Some (dv (nm "arcdegree") (it 60)))
    (Some "arcmin") (Some "′") ["arcmins"; "arcminutes"; "arc_minute"; "arc_minutes"; "angular_minute"; "angular_minutes"];
  TNew CQuantity "arcsecond" (Some (dv (nm "arcminute") (it 60)))
    (Some "arcsec") (Some "″") ["arcsecs"; "arcseconds"; "arc_second"; "arc_seconds"; "angular_second"; "angular_seconds"];
  TNew CQuantity "grad" (Some (mu (fl 9 10) (nm "arcdegree")))
    None None ["grads"; "grade"; "grades"; "gron"; "grons"; "gradian"; "gradians"];
  TNew CQuantity "degrees_north" (Some (nm "arcdegree"))
    (Some "degN") (Some "°N") ["degrees_N"];
  TNew CQuantity "degrees_east" (Some (nm "arcdegree"))
    (Some "degE") (Some "°E") ["degrees_E"];
  TNew CQuantity "degrees_west" (Some (nm "arcdegree"))
    (Some "degW") (Some "°W") ["degrees_W"];
  TNew CQuantity "degrees_true" (Some (nm "arcdegree"))
    (Some "degT") (Some "°T") ["degrees_T"];
  TNew CQuantity "steradian" (Some (pw (nm "radian") (it 2)))
    (Some "sr") None ["steradians"]
]%Z.

(** /repo/quantities/units/area.py:7-47 *)
Definition t_area : list tentry := [
  TNew CQuantity "are" (Some (mu (it 100) (pw (nm "meter") (it 2))))
    None None ["ares"];
  TNew CQuantity "barn" (Some (mu (fl 1 10000000000000000000000000000) (pw (nm "meter") (it 2))))
    (Some "b") None ["barnes"];
  TNew CQuantity "circular_mil" (Some (mu (fl 202683 400000000000000) (pw (nm "meter") (it 2))))
    (Some "cmil") None ["circular_mils"];
  TNew CQuantity "darcy" (Some (mu (fl 9869233 10000000000000000000) (pw (nm "meter") (it 2))))
    (Some "D") None [];
  TNew CQuantity "millidarcy" (Some (dv (nm "darcy") (it 1000)))
    (Some "mD") None [];
  TNew CQuantity "hectare" (Some (mu (it 10000) (pw (nm "meter") (it 2))))
    (Some "ha") None ["hectares"];
  TNew CQuantity "acre" (Some (mu (fl 316160658 78125) (pw (nm "meter") (it 2))))
    None None ["acres"; "international_acre"; "international_acres"];
  TNew CQuantity "US_survey_acre" (Some (mu (it 160) (pw (nm "rod") (it 2))))
    None None ["US_survey_acres"]
]%Z.

(** /repo/quantities/units/compound.py:6-6 *)
Definition t_compound : list tentry := [
  TComp "pc/cm**3"
]%Z.

(** /repo/quantities/units/substance.py:6-15 *)
Definition t_substance : list tentry := [
  TNew CSubstance "mole" None
    (Some "mol") None [];
  TNew CSubstance "millimole" (Some (dv (nm "mole") (it 1000)))
    (Some "mmol") None [];
  TNew CSubstance "micromole" (Some (dv (nm "millimole") (it 1000)))
    (Some "umol") (Some "µmol") []
]%Z.

(** /repo/quantities/units/volume.py:8-201 *)
Definition t_volume : list tentry := [
  TNew CQuantity "liter" (Some (mu (fl 1 1000) (pw (nm "meter") (it 3))))
    (Some "L") None ["l"; "liters"; "litre"; "litres"];
  TNew CQuantity "milliliter" (Some (dv (nm "liter") (it 1000)))
    (Some "mL") None ["ml"; "milliliters"; "millilitre"; "millilitres"];
  TNew CQuantity "kiloliter" (Some (mu (nm "liter") (it 1000)))
    (Some "kL") None ["kl"; "kiloliters"; "kilolitre"; "kilolitres"];
  TNew CQuantity "megaliter" (Some (mu (nm "kiloliter") (it 1000)))
    (Some "ML") None ["Ml"; "megaliters"; "megalitre"; "megalitres"];
  TNew CQuantity "gigaliter" (Some (mu (nm "megaliter") (it 1000)))
    (Some "GL") None ["Gl"; "gigaliters"; "gigalitre"; "gigalitres"];
  TNew CQuantity "cubic_centimeter" (Some (pw (nm "centimeter") (it 3)))
    (Some "cc") None ["cubic_centimeters"];
  TNew CQuantity "stere" (Some (pw (nm "meter") (it 3)))
    None None ["steres"];
  TNew CQuantity "gross_register_ton" (Some (mu (it 100) (pw (nm "foot") (it 3))))
    (Some "GRT") None ["gross_register_tons"; "register_ton"; "register_tons"];
  TNew CQuantity "acre_foot" (Some (mu (nm "acre") (nm "foot")))
    None None ["acre_feet"];
  TNew CQuantity "board_foot" (Some (mu (pw (nm "foot") (it 2)) (nm "inch")))
    (Some "FBM") None ["board_feet"];
  TNew CQuantity "US_bushel" (Some (mu (fl 107521 50) (pw (nm "inch") (it 3))))
    (Some "bu") None [];
  TNew CQuantity "US_dry_gallon" (Some (dv (nm "US_bushel") (it 8)))
    None None [];
  TNew CQuantity "US_liquid_gallon" (Some (mu (it 231) (pw (nm "inch") (it 3))))
    None None ["gallon"; "gallons"; "liquid_gallon"; "liquid_gallons"; "US_liquid_gallons"];
  TNew CQuantity "US_dry_quart" (Some (dv (nm "US_dry_gallon") (it 4)))
    None None ["dry_quart"; "dry_quarts"; "US_dry_quarts"];
  TNew CQuantity "US_dry_pint" (Some (dv (nm "US_dry_quart") (it 2)))
    None None ["dry_pint"; "dry_pints"; "US_dry_pints"];
  TNew CQuantity "US_liquid_quart" (Some (dv (nm "US_liquid_gallon") (it 4)))
    (Some "quart") None ["quarts"; "liquid_quart"; "liquid_quarts"; "US_liquid_quarts"];
  TNew CQuantity "US_liquid_pint" (Some (dv (nm "US_liquid_quart") (it 2)))
    (Some "pt") None ["pint"; "pints"; "liquid_pint"; "liquid_pints"; "US_liquid_pints"];
  TNew CQuantity "cup" (Some (dv (nm "US_liquid_pint") (it 2)))
    None None ["cups"; "US_liquid_cup"; "US_liquid_cups"];
  TNew CQuantity "US_liquid_gill" (Some (dv (nm "cup") (it 2)))
    (Some "gill") None ["gills"; "US_liquid_gills"];
  TNew CQuantity "US_fluid_ounce" (Some (dv (nm "US_liquid_gill") (it 4)))
    (Some "fl_oz") None ["fluid_ounce"; "fluid_ounces"; "US_fluid_ounces"; "US_liquid_ounce"; "US_liquid_ounces"];
  TNew CQuantity "Imperial_bushel" (Some (mu (fl 454609 12500) (nm "liter")))
    None None [];
  TNew CQuantity "UK_liquid_gallon" (Some (mu (fl 454609 100000) (nm "liter")))
    None None ["UK_liquid_gallons"; "Canadian_liquid_gallon"; "Canadian_liquid_gallons"];
  TNew CQuantity "UK_liquid_quart" (Some (dv (nm "UK_liquid_gallon") (it 4)))
    None None ["UK_liquid_quarts"];
  TNew CQuantity "UK_liquid_pint" (Some (dv (nm "UK_liquid_quart") (it 2)))
    None None ["UK_liquid_pints"];
  TNew CQuantity "UK_liquid_cup" (Some (dv (nm "UK_liquid_pint") (it 2)))
    None None ["UK_liquid_cups"];
  TNew CQuantity "UK_liquid_gill" (Some (dv (nm "UK_liquid_cup") (it 2)))
    None None ["UK_liquid_gills"];
  TNew CQuantity "UK_fluid_ounce" (Some (dv (nm "UK_liquid_gill") (it 5)))
    None None ["UK_fluid_ounces"; "UK_liquid_ounce"; "UK_liquid_ounces"];
  TNew CQuantity "barrel" (Some (mu (it 42) (nm "US_liquid_gallon")))
    (Some "bbl") None [];
  TNew CQuantity "tablespoon" (Some (dv (nm "US_fluid_ounce") (it 2)))
    (Some "tbsp") None ["Tbsp"; "Tblsp"; "Tbl"; "tblsp"; "tbs"; "tablespoons"];
  TNew CQuantity "teaspoon" (Some (dv (nm "tablespoon") (it 3)))
    (Some "tsp") None ["teaspoons"];
  TNew CQuantity "peck" (Some (dv (nm "US_bushel") (it 4)))
    (Some "pk") None ["pecks"];
  TNew CQuantity "fluid_dram" (Some (dv (nm "US_fluid_ounce") (it 8)))
    (Some "fldr") None ["fluid_drams"; "fluidram"; "fluidrams"];
  TNew CQuantity "firkin" (Some (dv (nm "barrel") (it 4)))
    None None []
]%Z.

(** /repo/quantities/units/concentration.py:8-21 *)
Definition t_concentration : list tentry := [
  TNew CQuantity "molar" (Some (dv (nm "mole") (nm "liter")))
    (Some "M") None ["Molar"];
  TNew CQuantity "millimolar" (Some (dv (nm "molar") (it 1000)))
    (Some "mM") None [];
  TNew CQuantity "micromolar" (Some (dv (nm "millimolar") (it 1000)))
    (Some "uM") (Some "µM") []
]%Z.

(** /repo/quantities/units/dimensionless.py:6-19 *)
Definition t_dimensionless : list tentry := [
  TNew CQuantity "percent" (Some (mu (fl 1 100) (nm "dimensionless")))
    (Some "%") None [];
  TNew CQuantity "count" (Some (mu (it 1) (nm "dimensionless")))
    (Some "ct") None ["cts"; "counts"];
  TNew CQuantity "least_significant_bit" (Some (mu (it 1) (nm "dimensionless")))
    (Some "lsb") None ["lsbs"]
]%Z.

(** /repo/quantities/units/mass.py:7-161 *)
Definition t_mass : list tentry := [
  TNew CMass "kilogram" None
    (Some "kg") None ["kilograms"];
  TNew CMass "gram" (Some (dv (nm "kilogram") (it 1000)))
    (Some "g") None ["grams"];
  TNew CMass "milligram" (Some (dv (nm "gram") (it 1000)))
    (Some "mg") None ["milligrams"];
  TNew CMass "ounce" (Some (mu (fl 45359237 1600000) (nm "gram")))
    (Some "oz") None ["ounces"; "avoirdupois_ounce"; "avoirdupois_ounces"];
  TNew CMass "pound" (Some (mu (fl 45359237 100000000) (nm "kilogram")))
    (Some "lb") None ["pounds"; "avoirdupois_pound"; "avoirdupois_pounds"];
  TNew CMass "stone" (Some (mu (it 14) (nm "pound")))
    (Some "st") None [];
  TNew CMass "carat" (Some (mu (it 200) (nm "milligram")))
    None None ["carats"];
  TNew CMass "grain" (Some (mu (fl 6479891 100000) (nm "milligram")))
    (Some "gr") None ["grains"];
  TNew CMass "long_hundredweight" (Some (mu (it 112) (nm "pound")))
    None None ["long_hundredweights"];
  TNew CMass "short_hundredweight" (Some (mu (it 100) (nm "pound")))
    None None ["short_hundredweights"];
  TNew CMass "tonne" (Some (mu (it 1000) (nm "kilogram")))
    (Some "t") None ["tonnes"];
  TNew CMass "pennyweight" (Some (mu (it 24) (nm "grain")))
    (Some "dwt") None ["pennyweights"];
  TNew CMass "slug" (Some (mu (fl 145939 10000) (nm "kilogram")))
    None None ["slugs"];
  TNew CMass "troy_ounce" (Some (mu (it 480) (nm "grain")))
    (Some "toz") (Some "℥") ["apounce"; "apounces"; "apothecary_ounce"; "apothecary_ounces"; "troy_ounces"];
  TNew CMass "troy_pound" (Some (mu (it 12) (nm "troy_ounce")))
    (Some "tlb") (Some "℔") ["troy_pounds"; "appound"; "appounds"; "apothecary_pound"; "apothecary_pounds"];
  TNew CMass "atomic_mass_unit" (Some (mu (fl 830269391 500000000000000000000000000000000000) (nm "kilogram")))
    (Some "u") None ["amu"; "Da"; "dalton"];
  TNew CMass "scruple" (Some (mu (it 20) (nm "grain")))
    None (Some "℈") ["scruples"];
  TNew CMass "dram" (Some (dv (nm "ounce") (it 16)))
    (Some "dr") None ["drams"];
  TNew CMass "drachm" (Some (mu (it 60) (nm "grain")))
    None (Some "  ") ["drachms"; "apdram"; "apdrams"];
  TNew CMass "bag" (Some (mu (it 94) (nm "pound")))
    None None ["bags"];
  TNew CMass "short_ton" (Some (mu (it 2000) (nm "pound")))
    None None ["short_tons"];
  TNew CMass "long_ton" (Some (mu (it 2240) (nm "pound")))
    None None ["long_tons"];
  TNew CQuantity "denier" (Some (dv (nm "gram") (mu (it 9000) (nm "meter"))))
    None None ["deniers"];
  TNew CQuantity "tex" (Some (dv (nm "gram") (mu (it 1000) (nm "meter"))))
    None None ["texs"];
  TNew CQuantity "dtex" (Some (dv (nm "gram") (mu (it 10000) (nm "meter"))))
    None None ["dtexs"]
]%Z.

(** /repo/quantities/units/force.py:11-69 *)
Definition t_force : list tentry := [
  TNew CQuantity "newton" (Some (dv (mu (nm "kilogram") (nm "meter")) (pw (nm "second") (it 2))))
    (Some "N") None ["newtons"];
  TNew CQuantity "kilonewton" (Some (mu (it 1000) (nm "newton")))
    (Some "kN") None ["kilonewtons"];
  TNew CQuantity "dyne" (Some (dv (mu (nm "gram") (nm "centimeter")) (pw (nm "second") (it 2))))
    (Some "dyn") None ["dynes"];
  TNew CQuantity "pond" (Some (mu (nm "standard_gravity") (nm "kilogram")))
    (Some "p") None ["ponds"];
  TNew CQuantity "kilogram_force" (Some (mu (nm "kilogram") (nm "standard_gravity")))
    (Some "kgf") None ["force_kilogram"];
  TNew CQuantity "ounce_force" (Some (mu (nm "ounce") (nm "standard_gravity")))
    (Some "ozf") None ["force_ounce"];
  TNew CQuantity "pound_force" (Some (mu (nm "pound") (nm "standard_gravity")))
    (Some "lbf") None ["force_pound"];
  TNew CQuantity "poundal" (Some (dv (mu (nm "pound") (nm "foot")) (pw (nm "second") (it 2))))
    (Some "pdl") None ["poundals"];
  TNew CQuantity "gram_force" (Some (mu (nm "gram") (nm "standard_gravity")))
    (Some "gf") None ["force_gram"];
  TNew CQuantity "ton_force" (Some (mu (it 2000) (nm "pound_force")))
    None None ["force_ton"];
  TNew CQuantity "kip" (Some (mu (it 1000) (nm "pound_force")))
    None None []
]%Z.

(** /repo/quantities/units/energy.py:9-97 *)
Definition t_energy : list tentry := [
  TNew CQuantity "joule" (Some (mu (nm "newton") (nm "meter")))
    (Some "J") None ["joules"];
  TNew CQuantity "erg" (Some (mu (nm "dyne") (nm "centimeter")))
    None None [];
  TNew CQuantity "British_thermal_unit" (Some (mu (nm "joule") (fl 52752792631 50000000)))
    (Some "BTU") None [];
  TNew CQuantity "electron_volt" (Some (mu (nm "joule") (fl 160217653 1000000000000000000000000000)))
    (Some "eV") None ["electron_volts"];
  TNew CQuantity "meV" (Some (dv (nm "electron_volt") (it 1000)))
    None None [];
  TNew CQuantity "keV" (Some (mu (it 1000) (nm "electron_volt")))
    None None [];
  TNew CQuantity "MeV" (Some (mu (it 1000) (nm "keV")))
    None None [];
  TNew CQuantity "GeV" (Some (mu (it 1000) (nm "MeV")))
    None None [];
  TNew CQuantity "EC_therm" (Some (mu (it 100000) (nm "British_thermal_unit")))
    (Some "thm") None [];
  TNew CQuantity "thermochemical_calorie" (Some (mu (fl 523 125) (nm "joule")))
    (Some "cal") None ["calorie"; "calories"; "thermochemical_calories"];
  TNew CQuantity "international_steam_table_calorie" (Some (mu (nm "joule") (fl 10467 2500)))
    (Some "cal_IT") None ["international_steam_table_calories"];
  TNew CQuantity "ton_TNT" (Some (mu (fl 4184000000 1) (nm "joule")))
    (Some "tTNT") None [];
  TNew CQuantity "US_therm" (Some (mu (fl 105480400 1) (nm "joule")))
    None None ["US_therms"];
  TNew CQuantity "watt_hour" (Some (mu (dv (nm "joule") (nm "second")) (nm "hour")))
    (Some "Wh") None ["watthour"; "watthours"; "watt_hours"];
  TNew CQuantity "kilowatt_hour" (Some (mu (it 1000) (nm "watt_hour")))
    (Some "kWh") None ["kilowatthour"; "kilowatthours"; "kilowatt_hours"];
  TNew CQuantity "megawatt_hour" (Some (mu (it 1000) (nm "kilowatt_hour")))
    (Some "MWh") None ["megawatthour"; "megawatthours"; "megawatt_hours"];
  TNew CQuantity "gigawatt_hour" (Some (mu (it 1000) (nm "megawatt_hour")))
    (Some "GWh") None ["gigawatthour"; "gigawatthours"; "gigawatt_hours"];
  TNew CQuantity "hartree" (Some (mu (fl 217987197 50000000000000000000000000) (nm "joule")))
    (Some "E_h") None ["hartrees"; "hartree_energy"; "Hartree_energy"]
]%Z.

(** /repo/quantities/units/velocity.py:9-15 *)
Definition t_velocity : list tentry := [
  TNew CQuantity "speed_of_light" (Some (dv (mu (it 299792458) (nm "meter")) (nm "second")))
    (Some "c") None [];
  TNew CQuantity "nautical_miles_per_hour" (Some (dv (nm "nautical_mile") (nm "hour")))
    (Some "kt") None ["knot"; "knots"; "knot_international"; "international_knot"]
]%Z.

(** /repo/quantities/units/electromagnetism.py:13-325 *)
Definition t_electromagnetism : list tentry := [
  TNew CCurrent "ampere" None
    (Some "A") None ["amp"; "amps"; "amperes"];
  TNew CCurrent "milliampere" (Some (dv (nm "ampere") (it 1000)))
    (Some "mA") None ["milliamp"; "milliamps"; "milliamperes"];
  TNew CCurrent "microampere" (Some (dv (nm "milliampere") (it 1000)))
    (Some "uA") (Some "µA") ["microamp"; "microamps"; "microamperes"];
  TNew CCurrent "nanoampere" (Some (dv (nm "microampere") (it 1000)))
    (Some "nA") None ["nanoamp"; "nanoamps"; "nanoamperes"];
  TNew CCurrent "picoampere" (Some (dv (nm "nanoampere") (it 1000)))
    (Some "pA") None ["picoamp"; "picoamps"; "picoamperes"];
  TNew CCurrent "abampere" (Some (mu (it 10) (nm "ampere")))
    (Some "aA") None ["abamperes"; "biot"; "biots"];
  TNew CQuantity "statcoulomb" (Some (mu (mu (it 1) (pw (nm "erg") (fl 1 2))) (pw (nm "centimeter") (fl 1 2))))
    (Some "esu") None ["statcoulombs"; "statC"; "franklin"; "franklins"; "Fr"];
  TNew CCurrent "statampere" (Some (dv (nm "statcoulomb") (nm "second")))
    (Some "(esu/s)") None ["statamperes"];
  TNew CQuantity "ampere_turn" (Some (mu (it 1) (nm "ampere")))
    None None [];
  TNew CQuantity "gilbert" (Some (mu (dv (it 10) (mu (it 4) (fl 884279719003555 281474976710656))) (nm "ampere_turn")))
    (Some "Gi") None [];
  TNew CQuantity "coulomb" (Some (mu (nm "ampere") (nm "second")))
    (Some "C") None [];
  TNew CQuantity "millicoulomb" (Some (mu (fl 1 1000) (nm "coulomb")))
    (Some "mC") None [];
  TNew CQuantity "microcoulomb" (Some (mu (fl 1 1000000) (nm "coulomb")))
    (Some "uC") (Some "μC") [];
  TNew CQuantity "volt" (Some (dv (nm "joule") (nm "coulomb")))
    (Some "V") None ["volts"];
  TNew CQuantity "kilovolt" (Some (mu (it 1000) (nm "volt")))
    (Some "kV") None ["kilovolts"];
  TNew CQuantity "millivolt" (Some (dv (nm "volt") (it 1000)))
    (Some "mV") None ["millivolts"];
  TNew CQuantity "microvolt" (Some (dv (nm "volt") (fl 1000000 1)))
    (Some "uV") (Some "μV") ["microvolts"];
  TNew CQuantity "farad" (Some (dv (nm "coulomb") (nm "volt")))
    (Some "F") None ["farads"];
  TNew CQuantity "millifarad" (Some (dv (nm "farad") (it 1000)))
    (Some "mF") None [];
  TNew CQuantity "microfarad" (Some (dv (nm "millifarad") (it 1000)))
    (Some "uF") (Some "μF") [];
  TNew CQuantity "nanofarad" (Some (dv (nm "microfarad") (it 1000)))
    (Some "nF") None [];
  TNew CQuantity "picofarad" (Some (dv (nm "nanofarad") (it 1000)))
    (Some "pF") None [];
  TNew CQuantity "femtofarad" (Some (dv (nm "picofarad") (it 1000)))
    (Some "fF") None [];
  TNew CQuantity "ohm" (Some (dv (nm "volt") (nm "ampere")))
    None (Some "Ω") ["ohms"; "Ohm"];
  TNew CQuantity "kiloohm" (Some (mu (nm "ohm") (it 1000)))
    None (Some "kΩ") ["kOhm"; "kohm"; "kiloohms"];
  TNew CQuantity "megaohm" (Some (mu (nm "kiloohm") (it 1000)))
    None (Some "MΩ") ["MOhm"; "Mohm"; "megaohms"];
  TNew CQuantity "siemens" (Some (dv (nm "ampere") (nm "volt")))
    (Some "S") None [];
  TNew CQuantity "millisiemens" (Some (dv (nm "siemens") (it 1000)))
    (Some "mS") None [];
  TNew CQuantity "microsiemens" (Some (dv (nm "millisiemens") (it 1000)))
    (Some "uS") (Some "μS") [];
  TNew CQuantity "nanosiemens" (Some (dv (nm "microsiemens") (it 1000)))
    (Some "nS") None [];
  TNew CQuantity "picosiemens" (Some (dv (nm "nanosiemens") (it 1000)))
    (Some "pS") None [];
  TNew CQuantity "weber" (Some (mu (nm "volt") (nm "second")))
    (Some "Wb") None ["webers"];
  TNew CQuantity "tesla" (Some (dv (nm "weber") (pw (nm "meter") (it 2))))
    (Some "T") None ["teslas"];
  TNew CQuantity "henry" (Some (dv (nm "weber") (nm "ampere")))
    (Some "H") None [];
  TNew CQuantity "abfarad" (Some (mu (fl 1000000000 1) (nm "farad")))
    None None ["abfarads"];
  TNew CQuantity "abhenry" (Some (mu (fl 1 1000000000) (nm "henry")))
    None None [];
  TNew CQuantity "abmho" (Some (mu (fl 1000000000 1) (nm "siemens")))
    None None [];
  TNew CQuantity "abohm" (Some (mu (fl 1 1000000000) (nm "ohm")))
    None None [];
  TNew CQuantity "abvolt" (Some (mu (fl 1 100000000) (nm "volt")))
    None None ["abvolts"];
  TNew CQuantity "elementary_charge" (Some (mu (fl 1602176487 10000000000000000000000000000) (nm "coulomb")))
    (Some "e") None [];
  TNew CQuantity "chemical_faraday" (Some (mu (fl 964957 10) (nm "coulomb")))
    None None [];
  TNew CQuantity "physical_faraday" (Some (mu (fl 965219 10) (nm "coulomb")))
    None None [];
  TNew CQuantity "faraday" (Some (mu (fl 964853399 10000) (nm "coulomb")))
    None None ["faradays"];
  TNew CQuantity "gamma" (Some (mu (fl 1 1000000000) (nm "tesla")))
    None None [];
  TNew CQuantity "gauss" (Some (mu (fl 1 10000) (nm "tesla")))
    (Some "G") None [];
  TNew CQuantity "maxwell" (Some (mu (fl 1 100000000) (nm "weber")))
    (Some "Mx") None ["maxwells"];
  TNew CQuantity "oersted" (Some (dv (mu (dv (it 1000) (mu (it 4) (fl 884279719003555 281474976710656))) (nm "ampere")) (nm "meter")))
    (Some "Oe") None ["aliases"];
  TNew CQuantity "statfarad" (Some (mu (fl 22253 20000000000000000) (nm "farad")))
    (Some "stF") None ["statfarads"; "statF"];
  TNew CQuantity "stathenry" (Some (mu (fl 898755400000 1) (nm "henry")))
    (Some "stH") None ["statH"];
  TNew CQuantity "statmho" (Some (mu (fl 22253 20000000000000000) (nm "siemens")))
    (Some "stS") None [];
  TNew CQuantity "statohm" (Some (mu (fl 898755400000 1) (nm "ohm")))
    None (Some "stΩ") ["statohms"];
  TNew CQuantity "statvolt" (Some (mu (fl 119917 400) (nm "volt")))
    (Some "stV") None ["statvolts"; "statV"];
  TNew CQuantity "unit_pole" (Some (mu (fl 1256637 10000000000000) (nm "weber")))
    None None [];
  TNew CQuantity "magnetic_constant" (Some (dv (mu (mu (mu (it 4) (fl 884279719003555 281474976710656)) (pw (it 10) (ng (it 7)))) (nm "newton")) (pw (nm "ampere") (it 2))))
    (Some "mu_0") (Some "μ₀") ["vacuum_permeability"];
  TNew CQuantity "electric_constant" (Some (dv (it 1) (mu (nm "magnetic_constant") (pw (nm "speed_of_light") (it 2)))))
    (Some "epsilon_0") (Some "ε₀") ["vacuum_permittivity"];
  TNew CQuantity "characteristic_impedance_of_vacuum" (Some (mu (nm "magnetic_constant") (nm "speed_of_light")))
    (Some "Z_0") (Some "Z₀") ["impedence_of_free_space"];
  TNew CLumInt "candela" None
    (Some "cd") None ["candle"; "candles"; "candelas"]
]%Z.

(** /repo/quantities/units/frequency.py:10-35 *)
Definition t_frequency : list tentry := [
  TNew CQuantity "hertz" (Some (pw (nm "second") (ng (it 1))))
    (Some "Hz") None [];
  TNew CQuantity "kilohertz" (Some (mu (nm "hertz") (it 1000)))
    (Some "kHz") None [];
  TNew CQuantity "megahertz" (Some (mu (nm "kilohertz") (it 1000)))
    (Some "MHz") None [];
  TNew CQuantity "gigahertz" (Some (mu (nm "megahertz") (it 1000)))
    (Some "GHz") None [];
  TNew CQuantity "revolutions_per_minute" (Some (dv (nm "turn") (nm "minute")))
    (Some "rpm") None [];
  TNew CQuantity "counts_per_second" (Some (dv (nm "count") (nm "second")))
    None None []
]%Z.

(** /repo/quantities/units/temperature.py:7-59 *)
Definition t_temperature : list tentry := [
  TNew CTemperature "Kelvin" None
    (Some "K") None ["degK"; "kelvin"];
  TNew CTemperature "yottakelvin" (Some (mu (nm "Kelvin") (fl 1000000000000000000000000 1)))
    (Some "YK") None [];
  TNew CTemperature "zettakelvin" (Some (mu (nm "Kelvin") (fl 1000000000000000000000 1)))
    (Some "ZK") None [];
  TNew CTemperature "exakelvin" (Some (mu (nm "Kelvin") (fl 1000000000000000000 1)))
    (Some "EK") None [];
  TNew CTemperature "petakelvin" (Some (mu (nm "Kelvin") (fl 1000000000000000 1)))
    (Some "PK") None [];
  TNew CTemperature "terakelvin" (Some (mu (nm "Kelvin") (fl 1000000000000 1)))
    (Some "TK") None [];
  TNew CTemperature "gigakelvin" (Some (mu (nm "Kelvin") (fl 1000000000 1)))
    (Some "GK") None [];
  TNew CTemperature "megakelvin" (Some (mu (nm "Kelvin") (fl 1000000 1)))
    (Some "MK") None [];
  TNew CTemperature "kilokelvin" (Some (mu (nm "Kelvin") (fl 1000 1)))
    (Some "kK") None [];
  TNew CTemperature "hectokelvin" (Some (mu (nm "Kelvin") (fl 100 1)))
    (Some "hK") None [];
  TNew CTemperature "dekakelvin" (Some (mu (nm "Kelvin") (fl 10 1)))
    (Some "daK") None [];
  TNew CTemperature "decikelvin" (Some (mu (nm "Kelvin") (fl 1 10)))
    (Some "dK") None [];
  TNew CTemperature "centikelvin" (Some (mu (nm "Kelvin") (fl 1 100)))
    (Some "cK") None [];
  TNew CTemperature "millikelvin" (Some (mu (nm "Kelvin") (fl 1 1000)))
    (Some "mK") None [];
  TNew CTemperature "microkelvin" (Some (mu (nm "Kelvin") (fl 1 1000000)))
    (Some "uK") None [];
  TNew CTemperature "nanokelvin" (Some (mu (nm "Kelvin") (fl 1 1000000000)))
    (Some "nK") None [];
  TNew CTemperature "picokelvin" (Some (mu (nm "Kelvin") (fl 1 1000000000000)))
    (Some "pK") None [];
  TNew CTemperature "femtokelvin" (Some (mu (nm "Kelvin") (fl 1 1000000000000000)))
    (Some "fK") None [];
  TNew CTemperature "attokelvin" (Some (mu (nm "Kelvin") (fl 1 1000000000000000000)))
    (Some "aK") None [];
  TNew CTemperature "zeptokelvin" (Some (mu (nm "Kelvin") (fl 1 1000000000000000000000)))
    (Some "zK") None [];
  TNew CTemperature "yoctokelvin" (Some (mu (nm "Kelvin") (fl 1 1000000000000000000000000)))
    (Some "yK") None [];
  TNew CTemperature "Rankine" (Some (dv (nm "Kelvin") (fl 9 5)))
    (Some "degR") (Some "°R") ["rankine"];
  TNew CTemperature "Celsius" (Some (nm "Kelvin"))
    (Some "degC") (Some "°C") ["celsius"];
  TNew CTemperature "Fahrenheit" (Some (nm "Rankine"))
    (Some "degF") (Some "°F") ["fahrenheit"]
]%Z.

(** /repo/quantities/units/power.py:12-61 *)
Definition t_power : list tentry := [
  TNew CQuantity "watt" (Some (dv (nm "joule") (nm "second")))
    (Some "W") None ["watts"; "volt_ampere"; "volt_amperes"; "VA"];
  TNew CQuantity "milliwatt" (Some (dv (nm "watt") (it 1000)))
    (Some "mW") None ["milliwatts"];
  TNew CQuantity "kilowatt" (Some (mu (it 1000) (nm "watt")))
    (Some "kW") None ["kilowatts"];
  TNew CQuantity "megawatt" (Some (mu (it 1000) (nm "kilowatt")))
    (Some "MW") None ["megawatts"];
  TNew CQuantity "horsepower" (Some (dv (mu (mu (it 33000) (nm "foot")) (nm "pound_force")) (nm "minute")))
    (Some "hp") None ["UK_horsepower"; "British_horsepower"];
  TNew CQuantity "boiler_horsepower" (Some (dv (mu (it 33475) (nm "British_thermal_unit")) (nm "hour")))
    None None [];
  TNew CQuantity "metric_horsepower" (Some (mu (fl 588399 800000) (nm "kilowatt")))
    None None [];
  TNew CQuantity "electric_horsepower" (Some (mu (it 746) (nm "watt")))
    None None [];
  TNew CQuantity "water_horsepower" (Some (mu (fl 746043 1000) (nm "watt")))
    None None [];
  TNew CQuantity "refrigeration_ton" (Some (dv (mu (it 12000) (nm "British_thermal_unit")) (nm "hour")))
    None None ["ton_of_refrigeration"]
]%Z.

(** /repo/quantities/units/heat.py:12-24 *)
Definition t_heat : list tentry := [
  TNew CQuantity "RSI" (Some (dv (mu (nm "Kelvin") (pw (nm "meter") (it 2))) (nm "watt")))
    None None [];
  TNew CQuantity "clo" (Some (mu (fl 31 200) (nm "RSI")))
    None None ["clos"];
  TNew CQuantity "R_value" (Some (dv (mu (mu (pw (nm "foot") (it 2)) (nm "Fahrenheit")) (nm "hour")) (nm "British_thermal_unit")))
    None None []
]%Z.

(** /repo/quantities/units/information.py:7-114 *)
Definition t_information : list tentry := [
  TNew CInformation "bit" None
    None None ["bits"];
  TNew CInformation "byte" (Some (mu (it 8) (nm "bit")))
    (Some "B") None ["bytes"; "o"; "octet"; "octets"];
  TNew CInformation "kilobyte" (Some (mu (it 1000) (nm "byte")))
    (Some "kB") None ["kilobytes"; "kilooctet"; "kilooctets"];
  TNew CInformation "megabyte" (Some (mu (it 1000) (nm "kilobyte")))
    (Some "MB") None ["megabytes"; "megaoctet"; "megaoctets"];
  TNew CInformation "gigabyte" (Some (mu (it 1000) (nm "megabyte")))
    (Some "GB") None ["gigabytes"; "gigaoctet"; "gigaoctets"];
  TNew CInformation "terabyte" (Some (mu (it 1000) (nm "gigabyte")))
    (Some "TB") None ["terabytes"; "teraoctet"; "teraoctets"];
  TNew CInformation "petabyte" (Some (mu (it 1000) (nm "terabyte")))
    (Some "PB") None ["petabytes"; "petaoctet"; "petaoctets"];
  TNew CInformation "exabyte" (Some (mu (it 1000) (nm "petabyte")))
    (Some "EB") None ["exabytes"; "exaoctet"; "exaoctets"];
  TNew CInformation "zettabyte" (Some (mu (it 1000) (nm "exabyte")))
    (Some "ZB") None ["zettabytes"; "zettaoctet"; "zettaoctets"];
  TNew CInformation "yottabyte" (Some (mu (it 1000) (nm "zettabyte")))
    (Some "YB") None ["yottabytes"; "yottaoctet"; "yottaoctets"];
  TNew CQuantity "baud" (Some (dv (nm "bit") (nm "second")))
    (Some "Bd") None [];
  TNew CInformation "kibibyte" (Some (mu (it 1024) (nm "byte")))
    (Some "KiB") None ["kibibytes"; "kibioctet"; "kibioctets"];
  TNew CInformation "mebibyte" (Some (mu (it 1024) (nm "kibibyte")))
    (Some "MiB") None ["mebibytes"; "mebioctet"; "mebioctets"];
  TNew CInformation "gibibyte" (Some (mu (it 1024) (nm "mebibyte")))
    (Some "GiB") None ["gibibytes"; "gibioctet"; "gibioctets"];
  TNew CInformation "tebibyte" (Some (mu (it 1024) (nm "gibibyte")))
    (Some "TiB") None ["tebibytes"; "tebioctet"; "tebioctets"];
  TNew CInformation "pebibyte" (Some (mu (it 1024) (nm "tebibyte")))
    (Some "PiB") None ["pebibytes"; "pebioctet"; "pebioctets"];
  TNew CInformation "exbibyte" (Some (mu (it 1024) (nm "pebibyte")))
    (Some "EiB") None ["exbibytes"; "exbioctet"; "exbioctets"];
  TNew CInformation "zebibyte" (Some (mu (it 1024) (nm "exbibyte")))
    (Some "ZiB") None ["zebibytes"; "zebioctet"; "zebioctets"];
  TNew CInformation "yobibyte" (Some (mu (it 1024) (nm "zebibyte")))
    (Some "YiB") None ["yobibytes"; "yobioctet"; "yobioctets"]
]%Z.

(** /repo/quantities/units/pressure.py:11-158 *)
Definition t_pressure : list tentry := [
  TNew CQuantity "conventional_mercury" (Some (dv (mu (mu (nm "standard_gravity") (fl 135951 10000)) (nm "gram")) (pw (nm "centimeter") (it 3))))
    None None [];
  TNew CQuantity "mercury_60F" (Some (dv (mu (mu (nm "standard_gravity") (fl 67784 5)) (nm "kilogram")) (pw (nm "meter") (it 3))))
    None None [];
  TNew CQuantity "H2O" (Some (dv (mu (mu (nm "standard_gravity") (it 1000)) (nm "kilogram")) (pw (nm "meter") (it 3))))
    None None [];
  TNew CQuantity "water_4C" (Some (dv (mu (mu (nm "standard_gravity") (fl 249993 250)) (nm "kilogram")) (pw (nm "meter") (it 3))))
    None None [];
  TNew CQuantity "water_60F" (Some (dv (mu (mu (nm "standard_gravity") (fl 999001 1000)) (nm "kilogram")) (pw (nm "meter") (it 3))))
    None None [];
  TNew CQuantity "pascal" (Some (dv (nm "newton") (pw (nm "meter") (it 2))))
    (Some "Pa") None ["pascals"];
  TNew CQuantity "hectopascal" (Some (mu (it 100) (nm "pascal")))
    (Some "hPa") None [];
  TNew CQuantity "kilopascal" (Some (mu (it 1000) (nm "pascal")))
    (Some "kPa") None ["kilopascals"];
  TNew CQuantity "megapascal" (Some (mu (it 1000) (nm "kilopascal")))
    (Some "MPa") None ["megapascals"];
  TNew CQuantity "gigapascal" (Some (mu (it 1000) (nm "megapascal")))
    (Some "GPa") None ["gigapascals"];
  TNew CQuantity "bar" (Some (mu (it 100000) (nm "pascal")))
    None None ["bars"];
  TNew CQuantity "millibar" (Some (mu (fl 1 1000) (nm "bar")))
    (Some "mbar") None ["millibars"];
  TNew CQuantity "kilobar" (Some (mu (it 1000) (nm "bar")))
    (Some "kbar") None ["kilobars"];
  TNew CQuantity "megabar" (Some (mu (it 1000) (nm "kilobar")))
    (Some "Mbar") None ["megabars"];
  TNew CQuantity "gigabar" (Some (mu (it 1000) (nm "megabar")))
    (Some "Gbar") None ["gigabars"];
  TNew CQuantity "standard_atmosphere" (Some (mu (it 101325) (nm "pascal")))
    (Some "atm") None ["atmosphere"; "atmospheres"; "standard_atmospheres"];
  TNew CQuantity "technical_atmosphere" (Some (dv (mu (nm "kilogram") (nm "standard_gravity")) (pw (nm "centimeter") (it 2))))
    (Some "at") None ["technical_atmospheres"];
  TNew CQuantity "torr" (Some (dv (nm "standard_atmosphere") (it 760)))
    None None [];
  TNew CQuantity "pound_force_per_square_inch" (Some (dv (mu (nm "pound") (nm "standard_gravity")) (pw (nm "inch") (it 2))))
    (Some "psi") None [];
  TNew CQuantity "kip_per_square_inch" (Some (dv (nm "kip") (pw (nm "inch") (it 2))))
    (Some "ksi") None [];
  TNew CQuantity "barye" (Some (dv (mu (fl 1 10) (nm "newton")) (pw (nm "meter") (it 2))))
    (Some "Ba") None ["barie"; "baries"; "baryes"; "barad"; "barads"; "barrie"; "baryd"; "baryed"];
  TNew CQuantity "millimeter_Hg" (Some (mu (nm "millimeter") (nm "conventional_mercury")))
    (Some "mmHg") None ["mm_Hg"; "millimeter_Hg_0C"];
  TNew CQuantity "cmHg" (Some (mu (nm "centimeter") (nm "conventional_mercury")))
    None None ["cm_Hg"; "centimeter_Hg"];
  TNew CQuantity "inHg" (Some (mu (nm "inch") (nm "conventional_mercury")))
    None None ["in_Hg"; "inch_Hg"; "inch_Hg_32F"];
  TNew CQuantity "inch_Hg_60F" (Some (mu (nm "inch") (nm "mercury_60F")))
    None None [];
  TNew CQuantity "inch_H2O_39F" (Some (mu (nm "inch") (nm "water_4C")))
    None None [];
  TNew CQuantity "inch_H2O_60F" (Some (mu (nm "inch") (nm "water_60F")))
    None None [];
  TNew CQuantity "footH2O" (Some (mu (nm "foot") (nm "H2O")))
    None None [];
  TNew CQuantity "cmH2O" (Some (mu (nm "centimeter") (nm "H2O")))
    None None [];
  TNew CQuantity "foot_H2O" (Some (mu (nm "foot") (nm "H2O")))
    None None ["ftH2O"]
]%Z.

(** /repo/quantities/units/radiation.py:11-49 *)
Definition t_radiation : list tentry := [
  TNew CQuantity "becquerel" (Some (dv (it 1) (nm "second")))
    (Some "Bq") None ["becquerels"];
  TNew CQuantity "curie" (Some (mu (fl 37000000000 1) (nm "becquerel")))
    (Some "Ci") None ["curies"];
  TNew CQuantity "rutherford" (Some (mu (fl 1000000 1) (nm "becquerel")))
    (Some "Rd") None ["rutherfords"];
  TNew CQuantity "gray" (Some (dv (nm "joule") (nm "kilogram")))
    (Some "Gy") None ["grays"; "Sv"; "sievert"; "sieverts"];
  TNew CQuantity "rem" (Some (mu (fl 1 100) (nm "gray")))
    None None ["rems"];
  TNew CQuantity "rads" (Some (mu (fl 1 100) (nm "gray")))
    None None [];
  TNew CQuantity "roentgen" (Some (dv (mu (fl 129 500000) (nm "coulomb")) (nm "kilogram")))
    (Some "R") None ["roentgens"]
]%Z.

(** /repo/quantities/units/viscosity.py:10-25 *)
Definition t_viscosity : list tentry := [
  TNew CQuantity "poise" (Some (mu (mu (fl 1 10) (nm "pascal")) (nm "second")))
    (Some "P") None [];
  TNew CQuantity "centipoise" (Some (dv (nm "poise") (it 100)))
    (Some "cP") None [];
  TNew CQuantity "stokes" (Some (dv (mu (fl 1 10000) (pw (nm "meter") (it 2))) (nm "second")))
    (Some "St") None [];
  TNew CQuantity "rhe" (Some (dv (it 10) (mu (nm "pascal") (nm "second"))))
    None None []
]%Z.

(** /repo/quantities/unitquantity.py:456 [dimensionless], then the modules of
    /repo/quantities/units in the order of their import (units/__init__.py:5-166). *)
Definition library : list tentry :=
  [TNew CDimless "dimensionless" None None None []]
  ++ t_time
  ++ t_length
  ++ t_acceleration
  ++ t_angle
  ++ t_area
  ++ t_compound
  ++ t_substance
  ++ t_volume
  ++ t_concentration
  ++ t_dimensionless
  ++ t_mass
  ++ t_force
  ++ t_energy
  ++ t_velocity
  ++ t_electromagnetism
  ++ t_frequency
  ++ t_temperature
  ++ t_power
  ++ t_heat
  ++ t_information
  ++ t_pressure
  ++ t_radiation
  ++ t_viscosity.
