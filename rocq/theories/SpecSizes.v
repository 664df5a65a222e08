(** * SpecSizes: what some of the units in Table.v are by international definition.

    Each line says: one [name] is [n/d] of the product on the right.  The numbers are
    the exact definitions (SI brochure, the 1959 yard and pound agreement, IEC 80000-13,
    ISO 80000), written down independently of /repo. *)
From Verif Require Import Py Num Dim Units.

Record size : Type := Size { sz_unit : uid; sz_factor : Q; sz_of : dims }.

Definition per (d : dims) (u : uid) (n : Z) : dims := dim_mul d [(u, PInt n)].
Definition one_of (u : uid) : dims := [(u, PInt 1)].
Definition uL := UId CLength. Definition uT := UId CTime. Definition uM := UId CMass.
Definition uI := UId CCurrent. Definition uK := UId CTemperature. Definition uN := UId CSubstance.
Definition uB := UId CInformation. Definition uQ := UId CQuantity.

Open Scope string_scope.
Open Scope Q_scope.
Open Scope list_scope.

Definition lengths : list size := [
  Size (uL "kilometer") 1000 (one_of (uL "meter"));
  Size (uL "decimeter") (1 # 10) (one_of (uL "meter"));
  Size (uL "centimeter") (1 # 100) (one_of (uL "meter"));
  Size (uL "millimeter") (1 # 1000) (one_of (uL "meter"));
  Size (uL "micrometer") (1 # 1000000) (one_of (uL "meter"));
  Size (uL "nanometer") (1 # 1000000000) (one_of (uL "meter"));
  Size (uL "angstrom") (1 # 10) (one_of (uL "nanometer"));
  Size (uL "inch") (254 # 10000) (one_of (uL "meter"));
  Size (uL "foot") 12 (one_of (uL "inch"));
  Size (uL "yard") 3 (one_of (uL "foot"));
  Size (uL "yard") (9144 # 10000) (one_of (uL "meter"));
  Size (uL "mile") 1760 (one_of (uL "yard"));
  Size (uL "mile") (1609344 # 1000) (one_of (uL "meter"));
  Size (uL "mil") (1 # 1000) (one_of (uL "inch"));
  Size (uL "nautical_mile") 1852 (one_of (uL "meter"));
  Size (uL "US_survey_foot") (1200 # 3937) (one_of (uL "meter"));
  Size (uL "rod") (33 # 2) (one_of (uL "US_survey_foot"));
  Size (uL "chain") 4 (one_of (uL "rod"));
  Size (uL "furlong") 10 (one_of (uL "chain"));
  Size (uL "fathom") 6 (one_of (uL "US_survey_foot"));
  Size (uL "US_survey_mile") 8 (one_of (uL "furlong"));
  Size (uL "pica") 12 (one_of (uL "printers_point"))
].
Definition times : list size := [
  Size (uT "millisecond") (1 # 1000) (one_of (uT "second"));
  Size (uT "microsecond") (1 # 1000000) (one_of (uT "second"));
  Size (uT "nanosecond") (1 # 1000000000) (one_of (uT "second"));
  Size (uT "minute") 60 (one_of (uT "second"));
  Size (uT "hour") 3600 (one_of (uT "second"));
  Size (uT "day") 24 (one_of (uT "hour"));
  Size (uT "week") 7 (one_of (uT "day"));
  Size (uT "fortnight") 14 (one_of (uT "day"));
  Size (uT "common_year") 365 (one_of (uT "day"));
  Size (uT "leap_year") 366 (one_of (uT "day"));
  Size (uT "Julian_year") (36525 # 100) (one_of (uT "day"));
  Size (uT "Gregorian_year") (3652425 # 10000) (one_of (uT "day"))
].
Definition masses : list size := [
  Size (uM "gram") (1 # 1000) (one_of (uM "kilogram"));
  Size (uM "milligram") (1 # 1000000) (one_of (uM "kilogram"));
  Size (uM "tonne") 1000 (one_of (uM "kilogram"));
  Size (uM "pound") (45359237 # 100000000) (one_of (uM "kilogram"));
  Size (uM "ounce") (1 # 16) (one_of (uM "pound"));
  Size (uM "dram") (1 # 16) (one_of (uM "ounce"));
  Size (uM "grain") (1 # 7000) (one_of (uM "pound"));
  Size (uM "stone") 14 (one_of (uM "pound"));
  Size (uM "short_hundredweight") 100 (one_of (uM "pound"));
  Size (uM "long_hundredweight") 112 (one_of (uM "pound"));
  Size (uM "short_ton") 2000 (one_of (uM "pound"));
  Size (uM "long_ton") 2240 (one_of (uM "pound"));
  Size (uM "carat") (1 # 5) (one_of (uM "gram"));
  Size (uM "troy_ounce") 480 (one_of (uM "grain"));
  Size (uM "troy_pound") 12 (one_of (uM "troy_ounce"));
  Size (uM "pennyweight") (1 # 20) (one_of (uM "troy_ounce"));
  Size (uM "scruple") 20 (one_of (uM "grain"));
  Size (uM "drachm") 3 (one_of (uM "scruple"))
].
Definition volumes : list size := [
  Size (uQ "liter") 1 [(uL "decimeter", PInt 3)];
  Size (uQ "milliliter") 1 [(uL "centimeter", PInt 3)];
  Size (uQ "hectare") 10000 [(uL "meter", PInt 2)];
  Size (uQ "acre") 4840 [(uL "yard", PInt 2)];
  Size (uQ "barn") (1 # 10 ^ 28) [(uL "meter", PInt 2)];
  Size (uQ "US_liquid_gallon") 231 [(uL "inch", PInt 3)];
  Size (uQ "US_liquid_quart") (1 # 4) (one_of (uQ "US_liquid_gallon"));
  Size (uQ "US_liquid_pint") (1 # 2) (one_of (uQ "US_liquid_quart"));
  Size (uQ "cup") (1 # 2) (one_of (uQ "US_liquid_pint"));
  Size (uQ "US_fluid_ounce") (1 # 8) (one_of (uQ "cup"));
  Size (uQ "tablespoon") (1 # 2) (one_of (uQ "US_fluid_ounce"));
  Size (uQ "teaspoon") (1 # 3) (one_of (uQ "tablespoon"));
  Size (uQ "barrel") 42 (one_of (uQ "US_liquid_gallon"));
  Size (uQ "UK_liquid_gallon") (454609 # 100000) (one_of (uQ "liter"));
  Size (uQ "UK_liquid_pint") (1 # 8) (one_of (uQ "UK_liquid_gallon"));
  Size (uQ "UK_fluid_ounce") (1 # 20) (one_of (uQ "UK_liquid_pint"));
  Size (uQ "board_foot") 144 [(uL "inch", PInt 3)]
].
Definition mechanics : list size := [
  Size (uQ "newton") 1 [(uM "kilogram", PInt 1); (uL "meter", PInt 1); (uT "second", PInt (-2))];
  Size (uQ "joule") 1 [(uQ "newton", PInt 1); (uL "meter", PInt 1)];
  Size (uQ "watt") 1 [(uQ "joule", PInt 1); (uT "second", PInt (-1))];
  Size (uQ "pascal") 1 [(uQ "newton", PInt 1); (uL "meter", PInt (-2))];
  Size (uQ "hertz") 1 [(uT "second", PInt (-1))];
  Size (uQ "standard_gravity") (980665 # 100000) [(uL "meter", PInt 1); (uT "second", PInt (-2))];
  Size (uQ "kilogram_force") 1 [(uM "kilogram", PInt 1); (uQ "standard_gravity", PInt 1)];
  Size (uQ "pound_force") 1 [(uM "pound", PInt 1); (uQ "standard_gravity", PInt 1)];
  Size (uQ "dyne") 1 [(uM "gram", PInt 1); (uL "centimeter", PInt 1); (uT "second", PInt (-2))];
  Size (uQ "poundal") 1 [(uM "pound", PInt 1); (uL "foot", PInt 1); (uT "second", PInt (-2))];
  Size (uQ "kip") 1000 (one_of (uQ "pound_force"));
  Size (uQ "erg") 1 [(uQ "dyne", PInt 1); (uL "centimeter", PInt 1)];
  Size (uQ "kilowatt_hour") 3600000 (one_of (uQ "joule"));
  Size (uQ "thermochemical_calorie") (4184 # 1000) (one_of (uQ "joule"));
  Size (uQ "international_steam_table_calorie") (41868 # 10000) (one_of (uQ "joule"));
  Size (uQ "ton_TNT") 1000000000 (one_of (uQ "thermochemical_calorie"));
  Size (uQ "horsepower") 550 [(uL "foot", PInt 1); (uQ "pound_force", PInt 1); (uT "second", PInt (-1))];
  Size (uQ "metric_horsepower") 75 [(uL "meter", PInt 1); (uQ "kilogram_force", PInt 1); (uT "second", PInt (-1))];
  Size (uQ "bar") 100000 (one_of (uQ "pascal"));
  Size (uQ "millibar") 1 (one_of (uQ "hectopascal"));
  Size (uQ "standard_atmosphere") 101325 (one_of (uQ "pascal"));
  Size (uQ "technical_atmosphere") 1 [(uQ "kilogram_force", PInt 1); (uL "centimeter", PInt (-2))];
  Size (uQ "torr") (1 # 760) (one_of (uQ "standard_atmosphere"));
  Size (uQ "pound_force_per_square_inch") 1 [(uQ "pound_force", PInt 1); (uL "inch", PInt (-2))];
  Size (uQ "barye") 1 [(uQ "dyne", PInt 1); (uL "centimeter", PInt (-2))];
  Size (uQ "poise") 1 [(uQ "barye", PInt 1); (uT "second", PInt 1)];
  Size (uQ "stokes") 1 [(uL "centimeter", PInt 2); (uT "second", PInt (-1))];
  Size (uQ "rhe") 1 [(uQ "poise", PInt (-1))];
  Size (uQ "speed_of_light") 299792458 [(uL "meter", PInt 1); (uT "second", PInt (-1))];
  Size (uL "light_year") 1 [(uQ "speed_of_light", PInt 1); (uT "Julian_year", PInt 1)];
  Size (uQ "nautical_miles_per_hour") 1 [(uL "nautical_mile", PInt 1); (uT "hour", PInt (-1))];
  Size (uQ "kayser") 1 [(uL "centimeter", PInt (-1))];
  Size (uQ "tex") 1 [(uM "gram", PInt 1); (uL "kilometer", PInt (-1))];
  Size (uQ "denier") (1 # 9) (one_of (uQ "tex"));
  Size (uQ "molar") 1 [(uN "mole", PInt 1); (uQ "liter", PInt (-1))];
  Size (uQ "becquerel") 1 [(uT "second", PInt (-1))];
  Size (uQ "curie") (37 * 10 ^ 9) (one_of (uQ "becquerel"));
  Size (uQ "gray") 1 [(uQ "joule", PInt 1); (uM "kilogram", PInt (-1))];
  Size (uQ "rem") (1 # 100) (one_of (uQ "gray"));
  Size (uQ "roentgen") (258 # 1000000) [(uQ "coulomb", PInt 1); (uM "kilogram", PInt (-1))]
].
Definition electricity : list size := [
  Size (uQ "coulomb") 1 [(uI "ampere", PInt 1); (uT "second", PInt 1)];
  Size (uQ "volt") 1 [(uQ "watt", PInt 1); (uI "ampere", PInt (-1))];
  Size (uQ "ohm") 1 [(uQ "volt", PInt 1); (uI "ampere", PInt (-1))];
  Size (uQ "siemens") 1 [(uQ "ohm", PInt (-1))];
  Size (uQ "farad") 1 [(uQ "coulomb", PInt 1); (uQ "volt", PInt (-1))];
  Size (uQ "weber") 1 [(uQ "volt", PInt 1); (uT "second", PInt 1)];
  Size (uQ "tesla") 1 [(uQ "weber", PInt 1); (uL "meter", PInt (-2))];
  Size (uQ "henry") 1 [(uQ "weber", PInt 1); (uI "ampere", PInt (-1))];
  Size (uI "abampere") 10 (one_of (uI "ampere"));
  Size (uQ "abohm") 1 [(uQ "abvolt", PInt 1); (uI "abampere", PInt (-1))];
  Size (uQ "abvolt") (1 # 10 ^ 8) (one_of (uQ "volt"));
  Size (uQ "abfarad") (10 ^ 9) (one_of (uQ "farad"));
  Size (uQ "abhenry") (1 # 10 ^ 9) (one_of (uQ "henry"));
  Size (uQ "abmho") 1 [(uQ "abohm", PInt (-1))];
  Size (uQ "gauss") (1 # 10000) (one_of (uQ "tesla"));
  Size (uQ "gamma") (1 # 10 ^ 9) (one_of (uQ "tesla"));
  Size (uQ "maxwell") 1 [(uQ "gauss", PInt 1); (uL "centimeter", PInt 2)]
].
Definition temperatures : list size := [
  Size (uK "Rankine") (5 # 9) (one_of (uK "Kelvin"));
  Size (uK "Fahrenheit") (5 # 9) (one_of (uK "Kelvin"));
  Size (uK "Celsius") 1 (one_of (uK "Kelvin"));
  Size (uK "yottakelvin") (10 ^ 24) (one_of (uK "Kelvin"));
  Size (uK "zettakelvin") (10 ^ 21) (one_of (uK "Kelvin"));
  Size (uK "exakelvin") (10 ^ 18) (one_of (uK "Kelvin"));
  Size (uK "petakelvin") (10 ^ 15) (one_of (uK "Kelvin"));
  Size (uK "terakelvin") (10 ^ 12) (one_of (uK "Kelvin"));
  Size (uK "gigakelvin") (10 ^ 9) (one_of (uK "Kelvin"));
  Size (uK "megakelvin") (10 ^ 6) (one_of (uK "Kelvin"));
  Size (uK "kilokelvin") (10 ^ 3) (one_of (uK "Kelvin"));
  Size (uK "hectokelvin") 100 (one_of (uK "Kelvin"));
  Size (uK "dekakelvin") 10 (one_of (uK "Kelvin"));
  Size (uK "decikelvin") (1 # 10) (one_of (uK "Kelvin"));
  Size (uK "centikelvin") (1 # 100) (one_of (uK "Kelvin"));
  Size (uK "millikelvin") (1 # 10 ^ 3) (one_of (uK "Kelvin"));
  Size (uK "microkelvin") (1 # 10 ^ 6) (one_of (uK "Kelvin"));
  Size (uK "nanokelvin") (1 # 10 ^ 9) (one_of (uK "Kelvin"));
  Size (uK "picokelvin") (1 # 10 ^ 12) (one_of (uK "Kelvin"));
  Size (uK "femtokelvin") (1 # 10 ^ 15) (one_of (uK "Kelvin"));
  Size (uK "attokelvin") (1 # 10 ^ 18) (one_of (uK "Kelvin"));
  Size (uK "zeptokelvin") (1 # 10 ^ 21) (one_of (uK "Kelvin"));
  Size (uK "yoctokelvin") (1 # 10 ^ 24) (one_of (uK "Kelvin"))
].
Definition data : list size := [
  Size (uB "byte") 8 (one_of (uB "bit"));
  Size (uB "kilobyte") (10 ^ 3) (one_of (uB "byte"));
  Size (uB "megabyte") (10 ^ 6) (one_of (uB "byte"));
  Size (uB "gigabyte") (10 ^ 9) (one_of (uB "byte"));
  Size (uB "terabyte") (10 ^ 12) (one_of (uB "byte"));
  Size (uB "petabyte") (10 ^ 15) (one_of (uB "byte"));
  Size (uB "exabyte") (10 ^ 18) (one_of (uB "byte"));
  Size (uB "zettabyte") (10 ^ 21) (one_of (uB "byte"));
  Size (uB "yottabyte") (10 ^ 24) (one_of (uB "byte"));
  Size (uB "kibibyte") (2 ^ 10) (one_of (uB "byte"));
  Size (uB "mebibyte") (2 ^ 20) (one_of (uB "byte"));
  Size (uB "gibibyte") (2 ^ 30) (one_of (uB "byte"));
  Size (uB "tebibyte") (2 ^ 40) (one_of (uB "byte"));
  Size (uB "pebibyte") (2 ^ 50) (one_of (uB "byte"));
  Size (uB "exbibyte") (2 ^ 60) (one_of (uB "byte"));
  Size (uB "zebibyte") (2 ^ 70) (one_of (uB "byte"));
  Size (uB "yobibyte") (2 ^ 80) (one_of (uB "byte"))
].
Definition pure : list size := [
  Size (uQ "radian") 1 [];
  Size (uQ "steradian") 1 [];
  Size (uQ "percent") (1 # 100) [];
  Size (uQ "milliradian") (1 # 1000) (one_of (uQ "radian"));
  Size (uQ "arcdegree") (1 # 360) (one_of (uQ "turn"));
  Size (uQ "arcminute") (1 # 60) (one_of (uQ "arcdegree"));
  Size (uQ "arcsecond") (1 # 60) (one_of (uQ "arcminute"));
  Size (uQ "grad") (1 # 400) (one_of (uQ "turn"));
  Size (uQ "revolutions_per_minute") 1 [(uQ "turn", PInt 1); (uT "minute", PInt (-1))]
].
(** More units of length, time, volume, mass, force, electricity, heat, pressure. *)
Definition more_sizes : list size := [
  Size (uT "shake") (10 # 1000000000) (one_of (uT "second"));
  Size (uT "millenium") 1000 (one_of (uT "year"));
  Size (uT "eon") (10 ^ 9) (one_of (uT "year"));
  Size (uT "month") (1 # 12) (one_of (uT "year"));
  Size (uT "sidereal_hour") (1 # 24) (one_of (uT "sidereal_day"));
  Size (uT "sidereal_minute") (1 # 60) (one_of (uT "sidereal_hour"));
  Size (uT "sidereal_second") (1 # 60) (one_of (uT "sidereal_minute"));
  Size (uL "US_survey_yard") 3 (one_of (uL "US_survey_foot"));
  Size (uL "barleycorn") (1 # 3) (one_of (uL "inch"));
  Size (uQ "degrees_north") 1 (one_of (uQ "arcdegree"));
  Size (uQ "degrees_east") 1 (one_of (uQ "arcdegree"));
  Size (uQ "degrees_west") 1 (one_of (uQ "arcdegree"));
  Size (uQ "degrees_true") 1 (one_of (uQ "arcdegree"));
  Size (uQ "are") 100 [(uL "meter", PInt 2)];
  Size (uQ "US_survey_acre") 43560 [(uL "US_survey_foot", PInt 2)];
  Size (uQ "cubic_centimeter") 1 [(uL "centimeter", PInt 3)];
  Size (uQ "stere") 1 [(uL "meter", PInt 3)];
  Size (uQ "gross_register_ton") 100 [(uL "foot", PInt 3)];
  Size (uQ "US_bushel") (215042 # 100) [(uL "inch", PInt 3)];
  Size (uQ "US_dry_gallon") (1 # 8) (one_of (uQ "US_bushel"));
  Size (uQ "US_dry_quart") (1 # 4) (one_of (uQ "US_dry_gallon"));
  Size (uQ "US_dry_pint") (1 # 2) (one_of (uQ "US_dry_quart"));
  Size (uQ "peck") (1 # 4) (one_of (uQ "US_bushel"));
  Size (uQ "Imperial_bushel") 8 (one_of (uQ "UK_liquid_gallon"));
  Size (uQ "UK_liquid_quart") (1 # 4) (one_of (uQ "UK_liquid_gallon"));
  Size (uQ "fluid_dram") (1 # 8) (one_of (uQ "US_fluid_ounce"));
  Size (uQ "count") 1 [];
  Size (uM "bag") 94 (one_of (uM "pound"));
  Size (uQ "dtex") (1 # 10000) [(uM "gram", PInt 1); (uL "meter", PInt (-1))];
  Size (uQ "ounce_force") (1 # 16) (one_of (uQ "pound_force"));
  Size (uQ "ton_force") 2000 (one_of (uQ "pound_force"));
  Size (uQ "meV") (1 # 1000) (one_of (uQ "electron_volt"));
  Size (uQ "keV") (10 ^ 3) (one_of (uQ "electron_volt"));
  Size (uQ "MeV") (10 ^ 6) (one_of (uQ "electron_volt"));
  Size (uQ "GeV") (10 ^ 9) (one_of (uQ "electron_volt"));
  Size (uQ "EC_therm") 100000 (one_of (uQ "British_thermal_unit"));
  Size (uQ "watt_hour") 3600 (one_of (uQ "joule"));
  Size (uQ "ampere_turn") 1 (one_of (uI "ampere"));
  Size (uQ "counts_per_second") 1 [(uT "second", PInt (-1))];
  Size (uQ "electric_horsepower") 746 (one_of (uQ "watt"));
  Size (uQ "refrigeration_ton") 12000 [(uQ "British_thermal_unit", PInt 1); (uT "hour", PInt (-1))];
  Size (uQ "RSI") 1 [(uK "Kelvin", PInt 1); (uL "meter", PInt 2); (uQ "watt", PInt (-1))];
  Size (uQ "clo") (155 # 1000) (one_of (uQ "RSI"));
  Size (uQ "R_value") 1 [(uL "foot", PInt 2); (uK "Fahrenheit", PInt 1); (uT "hour", PInt 1); (uQ "British_thermal_unit", PInt (-1))];
  Size (uQ "baud") 1 [(uB "bit", PInt 1); (uT "second", PInt (-1))];
  Size (uQ "kip_per_square_inch") 1000 (one_of (uQ "pound_force_per_square_inch"));
  Size (uQ "cmHg") 10 (one_of (uQ "millimeter_Hg"));
  Size (uQ "inHg") (254 # 10) (one_of (uQ "millimeter_Hg"));
  Size (uQ "millimeter_Hg") (133322387415 # 10 ^ 9) (one_of (uQ "pascal"));
  Size (uQ "cmH2O") (980665 # 10 ^ 4) (one_of (uQ "pascal"));
  Size (uQ "footH2O") (3048 # 100) (one_of (uQ "cmH2O"));
  Size (uQ "foot_H2O") 1 (one_of (uQ "footH2O"));
  Size (uQ "rutherford") (10 ^ 6) (one_of (uQ "becquerel"));
  Size (uQ "rads") (1 # 100) (one_of (uQ "gray"));
  Size (uQ "elementary_charge") (1602176487 # 10 ^ 28) (one_of (uQ "coulomb"))
].
Definition standard_sizes : list size :=
  lengths ++ times ++ masses ++ volumes ++ mechanics ++ electricity ++ temperatures ++ data ++ pure ++ more_sizes.

(** The decimal prefixes (SI brochure) and the binary prefixes (IEC 80000-13). *)
Definition prefixes : list (string * Q) := [
  ("yotta", 10 ^ 24); ("zetta", 10 ^ 21); ("exa", 10 ^ 18); ("peta", 10 ^ 15); ("tera", 10 ^ 12);
  ("giga", 10 ^ 9); ("mega", 10 ^ 6); ("kilo", 10 ^ 3); ("hecto", 10 ^ 2); ("deka", 10); ("deca", 10);
  ("deci", 1 # 10); ("centi", 1 # 10 ^ 2); ("milli", 1 # 10 ^ 3); ("micro", 1 # 10 ^ 6); ("nano", 1 # 10 ^ 9);
  ("pico", 1 # 10 ^ 12); ("femto", 1 # 10 ^ 15); ("atto", 1 # 10 ^ 18); ("zepto", 1 # 10 ^ 21); ("yocto", 1 # 10 ^ 24);
  ("kibi", 2 ^ 10); ("mebi", 2 ^ 20); ("gibi", 2 ^ 30); ("tebi", 2 ^ 40); ("pebi", 2 ^ 50); ("exbi", 2 ^ 60);
  ("zebi", 2 ^ 70); ("yobi", 2 ^ 80) ].
