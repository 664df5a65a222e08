(** * SpecConstants: some physical constants (CODATA 2006), written down independently of
    /repo.

    Each line says: the constant with this name is the number times the product of units
    on the right. *)
From Verif Require Import Py Num Dim Units SpecSizes.

Record constant : Type := Const { ks_name : string; ks_value : Q; ks_of : dims }.

Open Scope string_scope.
Open Scope Q_scope.
Open Scope list_scope.

Definition joule := uQ "joule". Definition kilogram := uM "kilogram". Definition meter := uL "meter".
Definition second := uT "second". Definition kelvin := uK "Kelvin". Definition mole := uN "mole".
Definition tesla := uQ "tesla". Definition coulomb := uQ "coulomb".

Definition known_constants : list constant := [
  Const "Newtonian_constant_of_gravitation" (667428 # 10 ^ 16) [(meter, PInt 3); (kilogram, PInt (-1)); (second, PInt (-2))];
  Const "Planck_constant" (662606896 # 10 ^ 42) [(joule, PInt 1); (second, PInt 1)];
  Const "natural_unit_of_velocity" 299792458 [(meter, PInt 1); (second, PInt (-1))];
  Const "elementary_charge" (1602176487 # 10 ^ 28) [(coulomb, PInt 1)];
  Const "electron_mass" (910938215 # 10 ^ 39) [(kilogram, PInt 1)];
  Const "proton_mass" (1672621637 # 10 ^ 36) [(kilogram, PInt 1)];
  Const "neutron_mass" (1674927211 # 10 ^ 36) [(kilogram, PInt 1)];
  Const "atomic_mass_constant" (1660538782 # 10 ^ 36) [(kilogram, PInt 1)];
  Const "electron_volt" (1602176487 # 10 ^ 28) [(joule, PInt 1)];
  Const "Avogadro_constant" (602214179 * 10 ^ 15) [(mole, PInt (-1))];
  Const "Boltzmann_constant" (13806504 # 10 ^ 30) [(joule, PInt 1); (kelvin, PInt (-1))];
  Const "molar_gas_constant" (8314472 # 10 ^ 6) [(joule, PInt 1); (mole, PInt (-1)); (kelvin, PInt (-1))];
  Const "Faraday_constant" (964853399 # 10 ^ 4) [(coulomb, PInt 1); (mole, PInt (-1))];
  Const "Stefan_Boltzmann_constant" (567040 # 10 ^ 13) [(uQ "watt", PInt 1); (meter, PInt (-2)); (kelvin, PInt (-4))];
  Const "Bohr_radius" (52917720859 # 10 ^ 21) [(meter, PInt 1)];
  Const "Bohr_magneton" (927400915 # 10 ^ 32) [(joule, PInt 1); (tesla, PInt (-1))];
  Const "Rydberg_constant" (10973731568527 # 10 ^ 6) [(meter, PInt (-1))];
  Const "fine_structure_constant" (72973525376 # 10 ^ 13) [];
  Const "electron_g_factor" (- (20023193043622 # 10 ^ 13)) [];
  Const "neutron_magnetic_moment" (- (96623641 # 10 ^ 34)) [(joule, PInt 1); (tesla, PInt (-1))];
  Const "astronomical_unit" 149597870700 [(meter, PInt 1)];
  Const "magnetic_flux_quantum" (2067833667 # 10 ^ 24) [(uQ "weber", PInt 1)];
  Const "von_Klitzing_constant" (25812807557 # 10 ^ 6) [(uQ "ohm", PInt 1)];
  Const "Loschmidt_constant" (26867774 * 10 ^ 18) [(meter, PInt (-3))];
  Const "Thomson_cross_section" (6652458558 # 10 ^ 38) [(meter, PInt 2)]
].
