(** * Constants: the physical constants that the library defines.

    Generated by tools/constants.py, which parses /repo/quantities/constants/*.py; one
    entry per constructor call, in the order in which importing the package executes
    them (constants/__init__.py:1-19).  Values and unit labels are looked up in
    constants/_codata.py (_utils.py:6-13 [_cd]).  Simplification: float literals are exact
    decimals; [math.pi] and the golden ratio are the exact values of the doubles; the
    uncertainty of the astronomical unit, which conversions ignore
    (quantity.py:138-144), is left out. *)
From Coq Require Import QArith Qcanon.
From Verif Require Import Py.

(** [UnitConstant(name, Quantity(value, label), symbol, u_symbol, aliases)]
    (unitquantity.py:440-453), or [UnitConstant(name, value, ...)] without label. *)
Record kentry : Type := KConst {
  k_name : string; k_value : Qc; k_label : option string;
  k_sym : option string; k_usym : option string; k_aliases : list string }.

Open Scope string_scope.
Open Scope list_scope.
Open Scope Z_scope.

(** /repo/quantities/constants/alpha.py:8-45 *)
Definition k_alpha : list kentry := [
  KConst "alpha_particle_mass" (Q2Qc (33223281 # 5000000000000000000000000000000000)) (Some "kg") (Some "m_alpha") (Some "m_α") [];
  KConst "alpha_particle_mass_energy_equivalent" (Q2Qc (597191917 # 1000000000000000000)) (Some "J") (Some "(m_alpha*c**2)") (Some "(m_α·c²)") [];
  KConst "alpha_particle_mass_energy_equivalent_in_MeV" (Q2Qc (3727379109 # 1000000)) (Some "MeV") None None [];
  KConst "alpha_particle_mass_in_u" (Q2Qc (4001506179127 # 1000000000000)) (Some "u") None None [];
  KConst "alpha_particle_molar_mass" (Q2Qc (4001506179127 # 1000000000000000)) (Some "kg*mol**-1") (Some "M_alpha") (Some "M_α") [];
  KConst "alpha_particle_electron_mass_ratio" (Q2Qc (14588599073 # 2000000)) (Some "") (Some "(m_alpha/m_e)") (Some "(m_α/mₑ)") [];
  KConst "alpha_particle_proton_mass_ratio" (Q2Qc (397259968951 # 100000000000)) (Some "") (Some "(m_alpha/m_p)") (Some "(m_α/m_p)") []
].

(** /repo/quantities/constants/astronomy.py:9-19 *)
Definition k_astronomy : list kentry := [
  KConst "astronomical_unit" (Q2Qc (149597870700 # 1)) (Some "m") (Some "au") None [];
  KConst "Newtonian_constant_of_gravitation" (Q2Qc (166857 # 2500000000000000)) (Some "m**3*kg**-1*s**-2") (Some "G") None []
].

(** /repo/quantities/constants/atomicunits.py:8-284 *)
Definition k_atomicunits : list kentry := [
  KConst "atomic_mass_constant" (Q2Qc (830269391 # 500000000000000000000000000000000000)) (Some "kg") (Some "m_u") (Some "mᵤ") [];
  KConst "atomic_unit_of_1st_hyperpolarizability" (Q2Qc (3206361533 # 100000000000000000000000000000000000000000000000000000000000000)) (Some "C**3*m**3*J**-2") (Some "(e**3*a_0**3/E_h**2)") (Some "(e³·a₀³/E_h²)") [];
  KConst "atomic_unit_of_2nd_hyperpolarizability" (Q2Qc (124707619 # 2000000000000000000000000000000000000000000000000000000000000000000000000)) (Some "C**4*m**4*J**-3") (Some "(e**4*a_0**4/E_h**3)") (Some "(e⁴·a₀⁴/E_h³)") [];
  KConst "atomic_unit_of_action" (Q2Qc (263642907 # 2500000000000000000000000000000000000000000)) (Some "J*s") (Some "hbar") (Some "ħ") [];
  KConst "atomic_unit_of_charge" (Q2Qc (1602176487 # 10000000000000000000000000000)) (Some "C") (Some "e") None [];
  KConst "atomic_unit_of_charge_density" (Q2Qc (1081202300000 # 1)) (Some "C*m**-3") (Some "(e/a_0**3)") (Some "(e/a₀³)") [];
  KConst "atomic_unit_of_current" (Q2Qc (662361763 # 100000000000)) (Some "A") (Some "(e*E_h/hbar)") (Some "(e·E_h/ħ)") [];
  KConst "atomic_unit_of_electric_dipole_moment" (Q2Qc (847835281 # 100000000000000000000000000000000000000)) (Some "C*m") (Some "(e*a_0)") (Some "(e·a₀)") [];
  KConst "atomic_unit_of_electric_field" (Q2Qc (514220632000 # 1)) (Some "V*m**-1") (Some "(E_h/(e*a_0))") (Some "(E_h/(e·a₀))") [];
  KConst "atomic_unit_of_electric_field_gradient" (Q2Qc (9717361660000000000000 # 1)) (Some "V*m**-2") (Some "(E_h/(e*a_0**2))") (Some "(E_h/(e·a₀²))") [];
  KConst "atomic_unit_of_electric_polarizability" (Q2Qc (2060971567 # 125000000000000000000000000000000000000000000000000)) (Some "C**2*m**2*J**-1") (Some "(e**2*a_0**2/E_h)") (Some "(e²·a₀²/E_h)") [];
  KConst "atomic_unit_of_electric_potential" (Q2Qc (1360569193 # 50000000)) (Some "V") (Some "(E_h/e)") None [];
  KConst "atomic_unit_of_electric_quadrupole_moment" (Q2Qc (448655107 # 1000000000000000000000000000000000000000000000000)) (Some "C*m**2") (Some "(e*a_0**2)") (Some "(e·a₀²)") [];
  KConst "atomic_unit_of_energy" (Q2Qc (217987197 # 50000000000000000000000000)) (Some "J") None None [];
  KConst "atomic_unit_of_force" (Q2Qc (411936103 # 5000000000000000)) (Some "N") (Some "(E_h/a_0)") (Some "(E_h/a₀)") [];
  KConst "atomic_unit_of_length" (Q2Qc (52917720859 # 1000000000000000000000)) (Some "m") (Some "a_0") (Some "a₀") [];
  KConst "Bohr_radius" (Q2Qc (52917720859 # 1000000000000000000000)) (Some "m") (Some "a_0") (Some "a₀") [];
  KConst "atomic_unit_of_magnetic_dipole_moment" (Q2Qc (185480183 # 10000000000000000000000000000000)) (Some "J*T**-1") (Some "(hbar*e/m_e)") (Some "(ħ·e/mₑ)") [];
  KConst "atomic_unit_of_magnetic_flux_density" (Q2Qc (1175258691 # 5000)) (Some "T") (Some "(hbar*e/a_0**2)") (Some "(ħ·e/a₀²)") [];
  KConst "atomic_unit_of_magnetizability" (Q2Qc (7891036433 # 100000000000000000000000000000000000000)) (Some "J*T**-2") (Some "(e**2a_0**2/m_e)") (Some "(e²·a₀²/mₑ)") [];
  KConst "atomic_unit_of_mass" (Q2Qc (182187643 # 200000000000000000000000000000000000000)) (Some "kg") (Some "m_e") (Some "mₑ") [];
  KConst "atomic_unit_of_momentum" (Q2Qc (398570313 # 200000000000000000000000000000000)) (Some "kg*m*s**-1") (Some "(hbar/a_0)") (Some "(ħ/a₀)") [];
  KConst "atomic_unit_of_permittivity" (Q2Qc (139081257 # 1250000000000000000)) (Some "F*m**-1") (Some "(e**2/(a_0*E_h))") (Some "(e²/(a₀·E_h))") [];
  KConst "atomic_unit_of_time" (Q2Qc (483776865301 # 20000000000000000000000000000)) (Some "s") (Some "(hbar/E_h)") (Some "(ħ/E_h)") [];
  KConst "atomic_unit_of_velocity" (Q2Qc (21876912541 # 10000)) (Some "m*s**-1") (Some "(a_0*E_h/hbar)") (Some "(a₀·E_h/ħ)") [];
  KConst "Hartree_energy" (Q2Qc (217987197 # 50000000000000000000000000)) (Some "J") (Some "E_h") None [];
  KConst "unified_atomic_mass_unit" (Q2Qc (830269391 # 500000000000000000000000000000000000)) (Some "kg") (Some "u") None [];
  KConst "molar_mass_of_carbon_12" (Q2Qc (3 # 250)) (Some "kg*mol**-1") (Some "M_C12") (Some "M_¹²C") [];
  KConst "atomic_mass_constant_energy_equivalent" (Q2Qc (149241783 # 1000000000000000000)) (Some "J") (Some "(m_u*c**2)") (Some "(mᵤ·c²)") [];
  KConst "atomic_mass_constant_energy_equivalent_in_MeV" (Q2Qc (232873507 # 250000)) (Some "MeV") None None [];
  KConst "Hartree_energy_in_eV" (Q2Qc (1360569193 # 50000000)) (Some "eV") None None [];
  KConst "atomic_mass_unit_electron_volt_relationship" (Q2Qc (931494028 # 1)) (Some "eV") None None [];
  KConst "atomic_mass_unit_hartree_relationship" (Q2Qc (34231777149 # 1000)) (Some "E_h") None None [];
  KConst "atomic_mass_unit_hertz_relationship" (Q2Qc (225234273690000000000000 # 1)) (Some "Hz") None None [];
  KConst "atomic_mass_unit_inverse_meter_relationship" (Q2Qc (751300667100000 # 1)) (Some "m**-1") None None [];
  KConst "atomic_mass_unit_joule_relationship" (Q2Qc (149241783 # 1000000000000000000)) (Some "J") (Some "(u*c**2)") (Some "(u·c²)") [];
  KConst "atomic_mass_unit_kelvin_relationship" (Q2Qc (10809527000000 # 1)) (Some "K") None None [];
  KConst "atomic_mass_unit_kilogram_relationship" (Q2Qc (830269391 # 500000000000000000000000000000000000)) (Some "kg") None None [];
  KConst "hartree_atomic_mass_unit_relationship" (Q2Qc (14606311493 # 500000000000000000)) (Some "u") None None [];
  KConst "hartree_electron_volt_relationship" (Q2Qc (1360569193 # 50000000)) (Some "eV") None None [];
  KConst "hartree_hertz_relationship" (Q2Qc (6579683920722000 # 1)) (Some "Hz") None None [];
  KConst "hartree_inverse_meter_relationship" (Q2Qc (438949262741 # 20000)) (Some "m**-1") None None [];
  KConst "hartree_joule_relationship" (Q2Qc (217987197 # 50000000000000000000000000)) (Some "J") None None [];
  KConst "hartree_kelvin_relationship" (Q2Qc (6315493 # 20)) (Some "K") None None [];
  KConst "hartree_kilogram_relationship" (Q2Qc (242543467 # 5000000000000000000000000000000000000000000)) (Some "kg") None None [];
  KConst "hertz_atomic_mass_unit_relationship" (Q2Qc (22199108147 # 5000000000000000000000000000000000)) (Some "u") None None [];
  KConst "hertz_hartree_relationship" (Q2Qc (759914923003 # 5000000000000000000000000000)) (Some "E_h") None None [];
  KConst "inverse_meter_atomic_mass_unit_relationship" (Q2Qc (6655125197 # 5000000000000000000000000)) (Some "u") None None [];
  KConst "inverse_meter_hartree_relationship" (Q2Qc (113908381319 # 2500000000000000000)) (Some "E_h") None None [];
  KConst "joule_atomic_mass_unit_relationship" (Q2Qc (6700536410 # 1)) (Some "u") None None [];
  KConst "joule_hartree_relationship" (Q2Qc (229371269000000000 # 1)) (Some "E_h") None None [];
  KConst "kelvin_atomic_mass_unit_relationship" (Q2Qc (4625549 # 50000000000000000000)) (Some "u") None None [];
  KConst "kelvin_hartree_relationship" (Q2Qc (31668153 # 10000000000000)) (Some "E_h") None None [];
  KConst "kilogram_atomic_mass_unit_relationship" (Q2Qc (602214179000000000000000000 # 1)) (Some "u") None None [];
  KConst "kilogram_hartree_relationship" (Q2Qc (20614861600000000000000000000000000 # 1)) (Some "E_h") None None []
].

(** /repo/quantities/constants/deuteron.py:8-88 *)
Definition k_deuteron : list kentry := [
  KConst "deuteron_rms_charge_radius" (Q2Qc (10701 # 5000000000000000000)) (Some "m") (Some "R_d") None [];
  KConst "deuteron_mass" (Q2Qc (4179479 # 1250000000000000000000000000000000)) (Some "kg") (Some "m_d") None [];
  KConst "deuteron_g_factor" (Q2Qc (2143595577 # 2500000000)) (Some "") (Some "g_d") None [];
  KConst "deuteron_magnetic_moment" (Q2Qc (86614693 # 20000000000000000000000000000000000)) (Some "J*T**-1") (Some "mu_d") (Some "μ_d") [];
  KConst "deuteron_mass_energy_equivalent" (Q2Qc (9390821 # 31250000000000000)) (Some "J") (Some "(m_d*c**2)") (Some "(m_d·c²)") [];
  KConst "deuteron_mass_energy_equivalent_in_MeV" (Q2Qc (1875612793 # 1000000)) (Some "MeV") None None [];
  KConst "deuteron_mass_in_u" (Q2Qc (503388303181 # 250000000000)) (Some "u") None None [];
  KConst "deuteron_molar_mass" (Q2Qc (503388303181 # 250000000000000)) (Some "kg*mol**-1") (Some "M_d") None [];
  KConst "deuteron_electron_mass_ratio" (Q2Qc (18352414827 # 5000000)) (Some "") (Some "(m_d/m_e)") (Some "(m_d/mₑ)") [];
  KConst "deuteron_proton_mass_ratio" (Q2Qc (49975187527 # 25000000000)) (Some "") (Some "(m_d/m_n)") None [];
  KConst "deuteron_electron_magnetic_moment_ratio" (Q2Qc (-4664345537 # 10000000000000)) (Some "") (Some "(mu_d/mu_e)") (Some "(μ_d/μₑ)") [];
  KConst "deuteron_magnetic_moment_to_Bohr_magneton_ratio" (Q2Qc (1167438639 # 2500000000000)) (Some "") (Some "(mu_d/mu_B)") (Some "(μ_d/μ_B)") [];
  KConst "deuteron_magnetic_moment_to_nuclear_magneton_ratio" (Q2Qc (2143595577 # 2500000000)) (Some "") (Some "(mu_d/mu_N)") (Some "(μ_d/μ_N)") [];
  KConst "deuteron_neutron_magnetic_moment_ratio" (Q2Qc (-11205163 # 25000000)) (Some "") (Some "(mu_d/mu_n)") (Some "(μ_d/μ_n)") [];
  KConst "deuteron_proton_magnetic_moment_ratio" (Q2Qc (307012207 # 1000000000)) (Some "") (Some "(mu_d/mu_p)") (Some "(μ_d/μ_p)") []
].

(** /repo/quantities/constants/electromagnetism.py:8-25 *)
Definition k_electromagnetism : list kentry := [
  KConst "characteristic_impedance_of_vacuum" (Q2Qc (376730313461 # 1000000000)) (Some "ohm") (Some "Z_0") (Some "Z₀") [];
  KConst "electric_constant" (Q2Qc (8854187817 # 1000000000000000000000)) (Some "F*m**-1") (Some "epsilon_0") (Some "ε₀") [];
  KConst "magnetic_constant" (Q2Qc (6283185307 # 5000000000000000)) (Some "N*A**-2") (Some "mu_0") (Some "μ₀") []
].

(** /repo/quantities/constants/electron.py:8-271 *)
Definition k_electron : list kentry := [
  KConst "elementary_charge" (Q2Qc (1602176487 # 10000000000000000000000000000)) (Some "C") (Some "e") None [];
  KConst "elementary_charge_over_h" (Q2Qc (241798945400000 # 1)) (Some "A*J**-1") (Some "e/h") None [];
  KConst "Faraday_constant" (Q2Qc (964853399 # 10000)) (Some "C*mol**-1") (Some "F") None [];
  KConst "classical_electron_radius" (Q2Qc (14089701447 # 5000000000000000000000000)) (Some "m") (Some "r_e") (Some "rₑ") [];
  KConst "electron_mass" (Q2Qc (182187643 # 200000000000000000000000000000000000000)) (Some "kg") (Some "m_e") (Some "mₑ") [];
  KConst "Compton_wavelength" (Q2Qc (970524087 # 400000000000000000000)) (Some "m") (Some "lambda_C") (Some "λ_C") [];
  KConst "Compton_wavelength_over_2_pi" (Q2Qc (38615926459 # 100000000000000000000000)) (Some "m") (Some "lambdabar_C") (Some "ƛ_C") [];
  KConst "electron_charge_to_mass_quotient" (Q2Qc (-175882015000 # 1)) (Some "C*kg**-1") (Some "(-e/m_e)") (Some "(-e/mₑ)") [];
  KConst "electron_g_factor" (Q2Qc (-10011596521811 # 5000000000000)) (Some "") (Some "g_e") (Some "gₑ") [];
  KConst "electron_gyromagnetic_ratio" (Q2Qc (176085977000 # 1)) (Some "s**-1*T**-1") (Some "gamma_e") (Some "γₑ") [];
  KConst "electron_gyromagnetic_ratio_over_2_pi" (Q2Qc (700623841 # 25000)) (Some "MHz*T**-1") (Some "gamma_e/(2*pi)") (Some "γₑ/(2·π)") [];
  KConst "electron_magnetic_moment" (Q2Qc (-928476377 # 100000000000000000000000000000000)) (Some "J*T**-1") (Some "mu_e") (Some "μₑ") [];
  KConst "electron_magnetic_moment_anomaly" (Q2Qc (115965218111 # 100000000000000)) (Some "") (Some "a_e") (Some "aₑ") [];
  KConst "electron_volt" (Q2Qc (1602176487 # 10000000000000000000000000000)) (Some "J") (Some "eV") None [];
  KConst "Thomson_cross_section" (Q2Qc (3326229279 # 50000000000000000000000000000000000000)) (Some "m**2") (Some "sigma_e") (Some "σₑ") [];
  KConst "Bohr_magneton" (Q2Qc (185480183 # 20000000000000000000000000000000)) (Some "J*T**-1") (Some "mu_B") (Some "μ_B") [];
  KConst "Bohr_magneton_in_Hz_per_T" (Q2Qc (13996246040 # 1)) (Some "Hz*T**-1") None None [];
  KConst "Bohr_magneton_in_inverse_meters_per_tesla" (Q2Qc (93372903 # 2000000)) (Some "m**-1*T**-1") None None [];
  KConst "Bohr_magneton_in_K_per_T" (Q2Qc (6717131 # 10000000)) (Some "K*T**-1") None None [];
  KConst "electron_mass_energy_equivalent" (Q2Qc (409355219 # 5000000000000000000000)) (Some "J") (Some "(m_e*c**2)") (Some "(mₑ·c²)") [];
  KConst "electron_mass_energy_equivalent_in_MeV" (Q2Qc (51099891 # 100000000)) (Some "MeV") None None [];
  KConst "electron_mass_in_u" (Q2Qc (54857990943 # 100000000000000)) (Some "u") None None [];
  KConst "electron_molar_mass" (Q2Qc (54857990943 # 100000000000000000)) (Some "kg*mol**-1") (Some "M_e") (Some "Mₑ") [];
  KConst "electron_deuteron_mass_ratio" (Q2Qc (27244371093 # 100000000000000)) (Some "") (Some "(m_e/m_d)") (Some "(mₑ/m_d)") [];
  KConst "electron_muon_mass_ratio" (Q2Qc (483633171 # 100000000000)) (Some "") (Some "(m_e/m_mu)") (Some "(mₑ/m_μ)") [];
  KConst "electron_neutron_mass_ratio" (Q2Qc (54386734459 # 100000000000000)) (Some "") (Some "(m_e/m_n)") (Some "(mₑ/m_n)") [];
  KConst "electron_proton_mass_ratio" (Q2Qc (54461702177 # 100000000000000)) (Some "") (Some "(m_e/m_p)") (Some "(mₑ/m_p)") [];
  KConst "electron_tau_mass_ratio" (Q2Qc (71891 # 250000000)) (Some "") (Some "(m_e/m_tau)") (Some "(mₑ/m_τ)") [];
  KConst "electron_to_alpha_particle_mass_ratio" (Q2Qc (13709335557 # 100000000000000)) (Some "") (Some "(m_e/m_alpha)") (Some "(mₑ/m_α)") [];
  KConst "electron_deuteron_magnetic_moment_ratio" (Q2Qc (-1071961749 # 500000)) (Some "") (Some "(mu_e/mu_d)") (Some "(μₑ/μ_d)") [];
  KConst "electron_magnetic_moment_to_Bohr_magneton_ratio" (Q2Qc (-100115965218111 # 100000000000000)) (Some "") (Some "(mu_e/mu_B)") (Some "(μₑ/μ_B)") [];
  KConst "electron_magnetic_moment_to_nuclear_magneton_ratio" (Q2Qc (-45957049273 # 25000000)) (Some "") (Some "(mu_e/mu_N)") (Some "(μₑ/μ_N)") [];
  KConst "electron_muon_magnetic_moment_ratio" (Q2Qc (2067669877 # 10000000)) (Some "") (Some "(mu_e/mu_mu)") (Some "(μₑ/μ_μ)") [];
  KConst "electron_neutron_magnetic_moment_ratio" (Q2Qc (1921841 # 2000)) (Some "") (Some "(mu_e/mu_n)") (Some "(μₑ/μ_n)") [];
  KConst "electron_proton_magnetic_moment_ratio" (Q2Qc (-205690839 # 312500)) (Some "") (Some "(mu_e/mu_p)") (Some "(μₑ/μ_p)") [];
  KConst "electron_to_shielded_helion_magnetic_moment_ratio" (Q2Qc (864058257 # 1000000)) (Some "") (Some "(mu_e/muprime_h)") (Some "(μₑ/μ′_h)") [];
  KConst "electron_to_shielded_proton_magnetic_moment_ratio" (Q2Qc (-6582275971 # 10000000)) (Some "") (Some "(mu_e/muprime_p)") (Some "(μₑ/μ′_p)") [];
  KConst "electron_volt_atomic_mass_unit_relationship" (Q2Qc (268386047 # 250000000000000000)) (Some "u") None None [];
  KConst "electron_volt_hartree_relationship" (Q2Qc (183746627 # 5000000000)) (Some "E_h") None None [];
  KConst "electron_volt_hertz_relationship" (Q2Qc (241798945400000 # 1)) (Some "Hz") None None [];
  KConst "electron_volt_inverse_meter_relationship" (Q2Qc (161310893 # 200)) (Some "m**-1") None None [];
  KConst "electron_volt_joule_relationship" (Q2Qc (1602176487 # 10000000000000000000000000000)) (Some "J") None None [];
  KConst "electron_volt_kelvin_relationship" (Q2Qc (2320901 # 200)) (Some "K") None None [];
  KConst "electron_volt_kilogram_relationship" (Q2Qc (891330879 # 500000000000000000000000000000000000000000000)) (Some "kg") None None [];
  KConst "hertz_electron_volt_relationship" (Q2Qc (413566733 # 100000000000000000000000)) (Some "eV") None None [];
  KConst "inverse_meter_electron_volt_relationship" (Q2Qc (1983747 # 1600000000000)) (Some "eV") None None [];
  KConst "joule_electron_volt_relationship" (Q2Qc (6241509650000000000 # 1)) (Some "eV") None None [];
  KConst "kelvin_electron_volt_relationship" (Q2Qc (8617343 # 100000000000)) (Some "eV") None None [];
  KConst "kilogram_electron_volt_relationship" (Q2Qc (560958912000000000000000000000000000 # 1)) (Some "eV") None None []
].

(** /repo/quantities/constants/helion.py:9-86 *)
Definition k_helion : list kentry := [
  KConst "helion_mass" (Q2Qc (62580149 # 12500000000000000000000000000000000)) (Some "kg") (Some "m_h") None [];
  KConst "shielded_helion_gyromagnetic_ratio" (Q2Qc (203789473 # 1)) (Some "s**-1*T**-1") (Some "gammaprime_h") (Some "γ′_h") [];
  KConst "shielded_helion_gyromagnetic_ratio_over_2_pi" (Q2Qc (1621705099 # 50000000)) (Some "MHz*T**-1") (Some "(gammaprime_h/(2*pi))") (Some "(γ′_h/(2·π))") [];
  KConst "shielded_helion_magnetic_moment" (Q2Qc (-537276491 # 50000000000000000000000000000000000)) (Some "J*T**-1") (Some "muprime_h") (Some "μ′_h") [];
  KConst "helion_mass_energy_equivalent" (Q2Qc (56244233 # 125000000000000000)) (Some "J") (Some "(m_h*c**2)") (Some "(m_h·c²)") [];
  KConst "helion_mass_energy_equivalent_in_MeV" (Q2Qc (2808391383 # 1000000)) (Some "MeV") None None [];
  KConst "helion_mass_in_u" (Q2Qc (30149322473 # 10000000000)) (Some "u") None None [];
  KConst "helion_molar_mass" (Q2Qc (30149322473 # 10000000000000)) (Some "kg*mol**-1") (Some "M_h") None [];
  KConst "helion_electron_mass_ratio" (Q2Qc (10991770553 # 2000000)) (Some "") (Some "(m_h/m_e)") (Some "(m_h/mₑ)") [];
  KConst "helion_proton_mass_ratio" (Q2Qc (29931526713 # 10000000000)) (Some "") (Some "(m_h/m_p)") None [];
  KConst "shielded_helion_to_proton_magnetic_moment_ratio" (Q2Qc (-380883279 # 500000000)) (Some "") (Some "(muprime_h/mu_p)") (Some "(μ′_h/μ_p)") [];
  KConst "shielded_helion_magnetic_moment_to_Bohr_magneton_ratio" (Q2Qc (-1158671471 # 1000000000000)) (Some "") (Some "(muprime_h/mu_B)") (Some "(μ′_h/μ_B)") [];
  KConst "shielded_helion_magnetic_moment_to_nuclear_magneton_ratio" (Q2Qc (-1063748859 # 500000000)) (Some "") (Some "(muprime_h/mu_N)") (Some "(μ′_h/μ_N)") [];
  KConst "shielded_helion_to_shielded_proton_magnetic_moment_ratio" (Q2Qc (-7617861313 # 10000000000)) (Some "") (Some "(muprime_h/muprime_p)") (Some "(μ′_h/μ′_p)") []
].

(** /repo/quantities/constants/mathematical.py:6-16 *)
Definition k_mathematical : list kentry := [
  KConst "pi" (Q2Qc (884279719003555 # 281474976710656)) None None (Some "π") [];
  KConst "golden_ratio" (Q2Qc (910872158600853 # 562949953421312)) None None (Some "ϕ") ["golden"]
].

(** /repo/quantities/constants/muon.py:8-107 *)
Definition k_muon : list kentry := [
  KConst "muon_mass" (Q2Qc (18835313 # 100000000000000000000000000000000000)) (Some "kg") (Some "m_mu") (Some "m_μ") [];
  KConst "muon_Compton_wavelength" (Q2Qc (146680513 # 12500000000000000000000)) (Some "m") (Some "lambdabar_C_mu") (Some "λ_C_μ") [];
  KConst "muon_Compton_wavelength_over_2_pi" (Q2Qc (373518859 # 200000000000000000000000)) (Some "m") (Some "lambdabar_Cmu") (Some "ƛ_C_μ") [];
  KConst "muon_g_factor" (Q2Qc (-10011659207 # 5000000000)) (Some "") (Some "g_mu") (Some "g_μ") [];
  KConst "muon_magnetic_moment" (Q2Qc (-224522393 # 5000000000000000000000000000000000)) (Some "J*T**-1") (Some "mu_mu") (Some "μ_μ") [];
  KConst "muon_magnetic_moment_anomaly" (Q2Qc (116592069 # 100000000000)) (Some "") (Some "a_mu") (Some "a_μ") [];
  KConst "muon_mass_energy_equivalent" (Q2Qc (169283351 # 10000000000000000000)) (Some "J") (Some "(m_mu*c**2)") (Some "(m_μ·c²)") [];
  KConst "muon_mass_energy_equivalent_in_MeV" (Q2Qc (264145917 # 2500000)) (Some "MeV") None None [];
  KConst "muon_mass_in_u" (Q2Qc (141786157 # 1250000000)) (Some "u") None None [];
  KConst "muon_molar_mass" (Q2Qc (141786157 # 1250000000000)) (Some "kg*mol**-1") (Some "M_mu") (Some "M_μ") [];
  KConst "muon_electron_mass_ratio" (Q2Qc (2067682823 # 10000000)) (Some "") (Some "(m_mu/m_e)") (Some "(m_μ/mₑ)") [];
  KConst "muon_neutron_mass_ratio" (Q2Qc (1124545167 # 10000000000)) (Some "") (Some "(m_mu/m_n)") (Some "(m_μ/m_n)") [];
  KConst "muon_proton_mass_ratio" (Q2Qc (1126095261 # 10000000000)) (Some "") (Some "(m_mu/m_p)") (Some "(m_μ/m_p)") [];
  KConst "muon_tau_mass_ratio" (Q2Qc (18581 # 312500)) (Some "") (Some "(m_mu/m_tau)") (Some "(m_μ/m_τ)") [];
  KConst "muon_magnetic_moment_to_Bohr_magneton_ratio" (Q2Qc (-484197049 # 100000000000)) (Some "") (Some "(mu_mu/mu_B)") (Some "(μ_μ/μ_B)") [];
  KConst "muon_magnetic_moment_to_nuclear_magneton_ratio" (Q2Qc (-177811941 # 20000000)) (Some "") (Some "(mu_mu/mu_N)") (Some "(μ_μ/μ_N)") [];
  KConst "muon_proton_magnetic_moment_ratio" (Q2Qc (-3183345137 # 1000000000)) (Some "") (Some "(mu_mu/mu_p)") (Some "(μ_μ/μ_p)") []
].

(** /repo/quantities/constants/naturalunits.py:8-61 *)
Definition k_naturalunits : list kentry := [
  KConst "natural_unit_of_action" (Q2Qc (263642907 # 2500000000000000000000000000000000000000000)) (Some "J*s") (Some "hbar") (Some "ħ") [];
  KConst "natural_unit_of_energy" (Q2Qc (409355219 # 5000000000000000000000)) (Some "J") (Some "(m_e*c**2)") (Some "(mₑ·c²)") [];
  KConst "natural_unit_of_length" (Q2Qc (38615926459 # 100000000000000000000000)) (Some "m") (Some "lambdabar_C") (Some "ƛ_C") [];
  KConst "natural_unit_of_mass" (Q2Qc (182187643 # 200000000000000000000000000000000000000)) (Some "kg") (Some "m_e") (Some "mₑ") [];
  KConst "natural_unit_of_momentum" (Q2Qc (136546203 # 500000000000000000000000000000)) (Some "kg*m*s**-1") (Some "(m_e*c)") (Some "(mₑ·c)") [];
  KConst "natural_unit_of_time" (Q2Qc (1288088657 # 1000000000000000000000000000000)) (Some "s") (Some "(hbar/(m_e*c**2))") (Some "(ħ/(mₑ·c²))") [];
  KConst "natural_unit_of_velocity" (Q2Qc (299792458 # 1)) (Some "m*s**-1") (Some "c") None [];
  KConst "natural_unit_of_action_in_eV_s" (Q2Qc (658211899 # 1000000000000000000000000)) (Some "eV*s") None None [];
  KConst "natural_unit_of_energy_in_MeV" (Q2Qc (51099891 # 100000000)) (Some "MeV") None None [];
  KConst "natural_unit_of_momentum_in_MeV_per_c" (Q2Qc (51099891 # 100000000)) (Some "MeV/c") None None []
].

(** /repo/quantities/constants/neutron.py:8-123 *)
Definition k_neutron : list kentry := [
  KConst "neutron_mass" (Q2Qc (1674927211 # 1000000000000000000000000000000000000)) (Some "kg") (Some "m_n") None [];
  KConst "neutron_Compton_wavelength" (Q2Qc (13195908951 # 10000000000000000000000000)) (Some "m") (Some "lambda_C_n") (Some "λ_C_n") [];
  KConst "neutron_Compton_wavelength_over_2_pi" (Q2Qc (10500970691 # 50000000000000000000000000)) (Some "m") (Some "lambdabar_C_n") (Some "ƛ_C_n") [];
  KConst "neutron_g_factor" (Q2Qc (-76521709 # 20000000)) (Some "") (Some "g_n") None [];
  KConst "neutron_gyromagnetic_ratio" (Q2Qc (183247185 # 1)) (Some "s**-1*T**-1") (Some "gamma_n") (Some "γ_n") [];
  KConst "neutron_gyromagnetic_ratio_over_2_pi" (Q2Qc (145823477 # 5000000)) (Some "MHz*T**-1") (Some "(gamma_n/(2*pi))") (Some "(γ_n/(2·π))") [];
  KConst "neutron_magnetic_moment" (Q2Qc (-96623641 # 10000000000000000000000000000000000)) (Some "J*T**-1") (Some "mu_n") (Some "μ_n") [];
  KConst "neutron_mass_energy_equivalent" (Q2Qc (301069901 # 2000000000000000000)) (Some "J") (Some "(m_n*c**2)") (Some "(m_n·c²)") [];
  KConst "neutron_mass_energy_equivalent_in_MeV" (Q2Qc (469782673 # 500000)) (Some "MeV") None None [];
  KConst "neutron_mass_in_u" (Q2Qc (100866491597 # 100000000000)) (Some "u") None None [];
  KConst "neutron_molar_mass" (Q2Qc (100866491597 # 100000000000000)) (Some "kg*mol**-1") (Some "M_n") None [];
  KConst "neutron_electron_mass_ratio" (Q2Qc (3677367321 # 2000000)) (Some "") (Some "(m_n/m_e)") (Some "(m_n/mₑ)") [];
  KConst "neutron_muon_mass_ratio" (Q2Qc (889248409 # 100000000)) (Some "") (Some "(m_n/m_mu)") (Some "(m_n/m_μ)") [];
  KConst "neutron_proton_mass_ratio" (Q2Qc (50068920959 # 50000000000)) (Some "") (Some "(m_n/m_p)") (Some "(m_n/m_p)") [];
  KConst "neutron_tau_mass_ratio" (Q2Qc (26437 # 50000)) (Some "") (Some "(m_n/m_tau)") (Some "(m_n/m_τ)") [];
  KConst "neutron_electron_magnetic_moment_ratio" (Q2Qc (52033441 # 50000000000)) (Some "") (Some "(mu_n/mu_e)") (Some "(μ_n/μₑ)") [];
  KConst "neutron_magnetic_moment_to_Bohr_magneton_ratio" (Q2Qc (-104187563 # 100000000000)) (Some "") (Some "(mu_n/mu_B)") (Some "(μ_n/μ_B)") [];
  KConst "neutron_magnetic_moment_to_nuclear_magneton_ratio" (Q2Qc (-191304273 # 100000000)) (Some "") (Some "(mu_n/mu_N)") (Some "(μ_n/μ_N)") [];
  KConst "neutron_proton_magnetic_moment_ratio" (Q2Qc (-34248967 # 50000000)) (Some "") (Some "(mu_n/mu_p)") (Some "(μ_n/μ_p)") [];
  KConst "neutron_to_shielded_proton_magnetic_moment_ratio" (Q2Qc (-34249847 # 50000000)) (Some "") (Some "(mu_n/muprime_p)") (Some "(μ_n/μ′_p)") []
].

(** /repo/quantities/constants/proton.py:8-179 *)
Definition k_proton : list kentry := [
  KConst "proton_mass" (Q2Qc (1672621637 # 1000000000000000000000000000000000000)) (Some "kg") (Some "m_p") None [];
  KConst "proton_Compton_wavelength" (Q2Qc (6607049223 # 5000000000000000000000000)) (Some "m") (Some "lambda_C_p") (Some "λ_C_p") [];
  KConst "proton_Compton_wavelength_over_2_pi" (Q2Qc (21030890861 # 100000000000000000000000000)) (Some "m") (Some "lambdabar_C_p") (Some "ƛ_C_p") [];
  KConst "proton_rms_charge_radius" (Q2Qc (137 # 156250000000000000)) (Some "m") (Some "R_p") None [];
  KConst "proton_charge_to_mass_quotient" (Q2Qc (478941696 # 5)) (Some "C*kg**-1") (Some "(e/m_p)") None [];
  KConst "proton_g_factor" (Q2Qc (5585694713 # 1000000000)) (Some "") (Some "g_p") None [];
  KConst "proton_gyromagnetic_ratio" (Q2Qc (2675222099 # 10)) (Some "s**-1*T**-1") (Some "gamma_p") (Some "γ_p") [];
  KConst "proton_gyromagnetic_ratio_over_2_pi" (Q2Qc (425774821 # 10000000)) (Some "MHz*T**-1") (Some "(gamma_p/(2*pi))") (Some "(γ_p/(2·π))") [];
  KConst "proton_magnetic_moment" (Q2Qc (705303331 # 50000000000000000000000000000000000)) (Some "J*T**-1") (Some "mu_p") (Some "μ_p") [];
  KConst "proton_magnetic_shielding_correction" (Q2Qc (12847 # 500000000)) (Some "") (Some "sigmaprime_p") (Some "σ′_p") [];
  KConst "shielded_proton_gyromagnetic_ratio" (Q2Qc (1337576681 # 5)) (Some "s**-1*T**-1") (Some "gammaprime_p") (Some "γ′_p") [];
  KConst "shielded_proton_gyromagnetic_ratio_over_2_pi" (Q2Qc (425763881 # 10000000)) (Some "MHz*T**-1") (Some "(gammaprime_p/(2*pi))") (Some "(γ′_p/(2·π))") [];
  KConst "shielded_proton_magnetic_moment" (Q2Qc (1410570419 # 100000000000000000000000000000000000)) (Some "J*T**-1") (Some "muprime_p") (Some "μ′_p") [];
  KConst "nuclear_magneton" (Q2Qc (126269581 # 25000000000000000000000000000000000)) (Some "J*T**-1") (Some "mu_N") (Some "μ_N") [];
  KConst "nuclear_magneton_in_eV_per_T" (Q2Qc (15762256163 # 500000000000000000)) (Some "eV*T**-1") None None [];
  KConst "nuclear_magneton_in_inverse_meters_per_tesla" (Q2Qc (19864247 # 781250000)) (Some "m**-1*T**-1") None None [];
  KConst "nuclear_magneton_in_K_per_T" (Q2Qc (36582637 # 100000000000)) (Some "K*T**-1") None None [];
  KConst "nuclear_magneton_in_MHz_per_T" (Q2Qc (95282423 # 12500000)) (Some "MHz*T**-1") None None [];
  KConst "proton_mass_energy_equivalent" (Q2Qc (1503277359 # 10000000000000000000)) (Some "J") (Some "(m_p*c**2)") (Some "(m_p·c²)") [];
  KConst "proton_mass_energy_equivalent_in_MeV" (Q2Qc (938272013 # 1000000)) (Some "MeV") None None [];
  KConst "proton_mass_in_u" (Q2Qc (100727646677 # 100000000000)) (Some "u") None None [];
  KConst "proton_molar_mass" (Q2Qc (100727646677 # 100000000000000)) (Some "kg*mol**-1") (Some "M_p") None [];
  KConst "proton_electron_mass_ratio" (Q2Qc (183615267247 # 100000000)) (Some "") (Some "(m_p/m_e)") (Some "(m_p/mₑ)") [];
  KConst "proton_muon_mass_ratio" (Q2Qc (888024339 # 100000000)) (Some "") (Some "(m_p/m_mu)") (Some "(m_p/m_μ)") [];
  KConst "proton_neutron_mass_ratio" (Q2Qc (6241396739 # 6250000000)) (Some "") (Some "(m_p/m_n)") None [];
  KConst "proton_tau_mass_ratio" (Q2Qc (132003 # 250000)) (Some "") (Some "(m_p/m_tau)") (Some "(m_p/m_τ)") [];
  KConst "proton_magnetic_moment_to_Bohr_magneton_ratio" (Q2Qc (1521032209 # 1000000000000)) (Some "") (Some "(mu_p/mu_B)") (Some "(μ_p/μ_B)") [];
  KConst "proton_magnetic_moment_to_nuclear_magneton_ratio" (Q2Qc (698211839 # 250000000)) (Some "") (Some "(mu_p/mu_N)") (Some "(μ_p/μ_N)") [];
  KConst "proton_neutron_magnetic_moment_ratio" (Q2Qc (-72994903 # 50000000)) (Some "") (Some "(mu_p/mu_n)") (Some "(μ_p/μ_n)") [];
  KConst "shielded_proton_magnetic_moment_to_Bohr_magneton_ratio" (Q2Qc (190124141 # 125000000000)) (Some "") (Some "(muprime_p/mu_B)") (Some "(μ′_p/μ_B)") [];
  KConst "shielded_proton_magnetic_moment_to_nuclear_magneton_ratio" (Q2Qc (1396387799 # 500000000)) (Some "") (Some "(muprime_p/mu_N)") (Some "(μ′_p/μ_N)") []
].

(** /repo/quantities/constants/quantum.py:8-205 *)
Definition k_quantum : list kentry := [
  KConst "molar_Planck_constant" (Q2Qc (39903126821 # 100000000000000000000)) (Some "J*s*mol**-1") (Some "(N_A*h)") (Some "(N_A·h)") [];
  KConst "molar_Planck_constant_times_c" (Q2Qc (1495332059 # 12500000000)) (Some "J*m*mol**-1") (Some "(N_A*h*c)") (Some "(N_A·h·c)") [];
  KConst "Planck_constant" (Q2Qc (41412931 # 62500000000000000000000000000000000000000)) (Some "J*s") (Some "h") None [];
  KConst "Planck_constant_over_2_pi" (Q2Qc (263642907 # 2500000000000000000000000000000000000000000)) (Some "J*s") (Some "(h/(2*pi))") (Some "ħ") [];
  KConst "quantum_of_circulation" (Q2Qc (36369475199 # 100000000000000)) (Some "m**2*s**-1") (Some "(h/(2*m_e))") (Some "(h/(2·mₑ))") [];
  KConst "quantum_of_circulation_times_2" (Q2Qc (11365461 # 15625000000)) (Some "m**2*s**-1") (Some "(h/m_e)") (Some "(h/mₑ)") [];
  KConst "Planck_length" (Q2Qc (404063 # 25000000000000000000000000000000000000000)) (Some "m") (Some "l_P") None [];
  KConst "Planck_mass" (Q2Qc (54411 # 2500000000000)) (Some "kg") (Some "m_P") None [];
  KConst "Planck_temperature" (Q2Qc (141678500000000000000000000000000 # 1)) (Some "K") (Some "T_P") None [];
  KConst "Planck_time" (Q2Qc (134781 # 2500000000000000000000000000000000000000000000000)) (Some "s") (Some "t_P") None [];
  KConst "Rydberg_constant" (Q2Qc (10973731568527 # 1000000)) (Some "m**-1") (Some "R_infinity") (Some "R_∞") [];
  KConst "Rydberg_constant_times_c_in_Hz" (Q2Qc (3289841960361000 # 1)) (Some "Hz") None None [];
  KConst "Rydberg_constant_times_hc_in_eV" (Q2Qc (1360569193 # 100000000)) (Some "eV") None None [];
  KConst "Rydberg_constant_times_hc_in_J" (Q2Qc (217987197 # 100000000000000000000000000)) (Some "J") (Some "(R_infinity*h*c)") (Some "(R_∞·h·c)") [];
  KConst "conductance_quantum" (Q2Qc (19370229251 # 250000000000000)) (Some "S") (Some "G_0") (Some "G₀") [];
  KConst "conventional_value_of_Josephson_constant" (Q2Qc (483597900000000 # 1)) (Some "Hz*V**-1") None None [];
  KConst "conventional_value_of_von_Klitzing_constant" (Q2Qc (25812807 # 1000)) (Some "ohm") None None [];
  KConst "Fermi_coupling_constant" (Q2Qc (116637 # 10000000000)) (Some "GeV**-2") (Some "(G_F/(hbar*c)**3)") (Some "(G_F/(ħ·c)³)") [];
  KConst "fine_structure_constant" (Q2Qc (570105667 # 78125000000)) (Some "") (Some "alpha") (Some "α") [];
  KConst "inverse_fine_structure_constant" (Q2Qc (137035999679 # 1000000000)) (Some "") (Some "alpha**-1") (Some "α⁻¹") [];
  KConst "first_radiation_constant" (Q2Qc (187088559 # 500000000000000000000000)) (Some "W*m**2") (Some "c_1") (Some "c₁") [];
  KConst "first_radiation_constant_for_spectral_radiance" (Q2Qc (1191042759 # 10000000000000000000000000)) (Some "W*m**2*sr**-1") (Some "c_1L") (Some "c₁_L") [];
  KConst "inverse_of_conductance_quantum" (Q2Qc (129064037787 # 10000000)) (Some "ohm") (Some "G_0**-1") (Some "G₀⁻¹") [];
  KConst "Josephson_constant" (Q2Qc (483597891000000 # 1)) (Some "Hz*V**-1") (Some "K_J") None [];
  KConst "magnetic_flux_quantum" (Q2Qc (2067833667 # 1000000000000000000000000)) (Some "Wb") (Some "Phi_0") (Some "Φ₀") [];
  KConst "Newtonian_constant_of_gravitation_over_h_bar_c" (Q2Qc (670881 # 100000000000000000000000000000000000000000000)) (Some "(GeV/c**2)**-2") (Some "(G/(hbar*c))") (Some "(G/(ħ·c))") [];
  KConst "Sackur_Tetrode_constant_ST_100kPa" (Q2Qc (-11517047 # 10000000)) (Some "") None None [];
  KConst "Sackur_Tetrode_constant_STP" (Q2Qc (-11648677 # 10000000)) (Some "") None None [];
  KConst "second_radiation_constant" (Q2Qc (1798469 # 125000000)) (Some "m*K") (Some "c_2") (Some "c₂") [];
  KConst "Stefan_Boltzmann_constant" (Q2Qc (443 # 7812500000)) (Some "W*m**-2*K**-4") (Some "sigma") (Some "σ") [];
  KConst "von_Klitzing_constant" (Q2Qc (25812807557 # 1000000)) (Some "ohm") (Some "R_K") None [];
  KConst "Wien_frequency_displacement_law_constant" (Q2Qc (58789330000 # 1)) (Some "Hz*K**-1") (Some "bprime") (Some "b′") [];
  KConst "Wien_wavelength_displacement_law_constant" (Q2Qc (5795537 # 2000000000)) (Some "m*K") (Some "b") None [];
  KConst "Planck_constant_in_eV_s" (Q2Qc (413566733 # 100000000000000000000000)) (Some "eV*s") None None [];
  KConst "Planck_constant_over_2_pi_in_eV_s" (Q2Qc (658211899 # 1000000000000000000000000)) (Some "eV*s") None None [];
  KConst "Planck_constant_over_2_pi_times_c_in_MeV_fm" (Q2Qc (1973269631 # 10000000)) (Some "MeV*fm") None None [];
  KConst "Planck_mass_energy_equivalent_in_GeV" (Q2Qc (12208920000000000000 # 1)) (Some "GeV") None None []
].

(** /repo/quantities/constants/relationships.py:8-87 *)
Definition k_relationships : list kentry := [
  KConst "hertz_inverse_meter_relationship" (Q2Qc (3335640951 # 1000000000000000000)) (Some "m**-1") None None [];
  KConst "hertz_joule_relationship" (Q2Qc (41412931 # 62500000000000000000000000000000000000000)) (Some "J") None None [];
  KConst "hertz_kelvin_relationship" (Q2Qc (23996187 # 500000000000000000)) (Some "K") None None [];
  KConst "hertz_kilogram_relationship" (Q2Qc (460781 # 62500000000000000000000000000000000000000000000000000000)) (Some "kg") None None [];
  KConst "inverse_meter_hertz_relationship" (Q2Qc (299792458 # 1)) (Some "Hz") None None [];
  KConst "inverse_meter_joule_relationship" (Q2Qc (1986445501 # 10000000000000000000000000000000000)) (Some "J") None None [];
  KConst "inverse_meter_kelvin_relationship" (Q2Qc (1798469 # 125000000)) (Some "K") None None [];
  KConst "inverse_meter_kilogram_relationship" (Q2Qc (22102187 # 10000000000000000000000000000000000000000000000000)) (Some "kg") None None [];
  KConst "joule_hertz_relationship" (Q2Qc (1509190450000000000000000000000000 # 1)) (Some "Hz") None None [];
  KConst "joule_inverse_meter_relationship" (Q2Qc (5034117470000000000000000 # 1)) (Some "m**-1") None None [];
  KConst "joule_kelvin_relationship" (Q2Qc (72429630000000000000000 # 1)) (Some "K") None None [];
  KConst "joule_kilogram_relationship" (Q2Qc (139081257 # 12500000000000000000000000)) (Some "kg") None None [];
  KConst "kelvin_hertz_relationship" (Q2Qc (20836644000 # 1)) (Some "Hz") None None [];
  KConst "kelvin_inverse_meter_relationship" (Q2Qc (1737589 # 25000)) (Some "m**-1") None None [];
  KConst "kelvin_joule_relationship" (Q2Qc (1725813 # 125000000000000000000000000000)) (Some "J") None None [];
  KConst "kelvin_kilogram_relationship" (Q2Qc (15361807 # 100000000000000000000000000000000000000000000000)) (Some "kg") None None [];
  KConst "kilogram_hertz_relationship" (Q2Qc (135639273300000000000000000000000000000000000000000 # 1)) (Some "Hz") None None [];
  KConst "kilogram_inverse_meter_relationship" (Q2Qc (452443915000000000000000000000000000000000 # 1)) (Some "m**-1") None None [];
  KConst "kilogram_joule_relationship" (Q2Qc (89875517870000000 # 1)) (Some "J") None None [];
  KConst "kilogram_kelvin_relationship" (Q2Qc (6509651000000000000000000000000000000000 # 1)) (Some "K") None None []
].

(** /repo/quantities/constants/statisticalmechanics.py:8-60 *)
Definition k_statisticalmechanics : list kentry := [
  KConst "Avogadro_constant" (Q2Qc (602214179000000000000000 # 1)) (Some "mol**-1") (Some "N_A") None [];
  KConst "Loschmidt_constant" (Q2Qc (26867774000000000000000000 # 1)) (Some "m**-3") (Some "n_0") (Some "n₀") [];
  KConst "molar_gas_constant" (Q2Qc (1039309 # 125000)) (Some "J*mol**-1*K**-1") (Some "R") None [];
  KConst "Boltzmann_constant" (Q2Qc (1725813 # 125000000000000000000000000000)) (Some "J*K**-1") (Some "k") None [];
  KConst "Boltzmann_constant_in_eV_per_K" (Q2Qc (8617343 # 100000000000)) (Some "eV*K**-1") None None [];
  KConst "Boltzmann_constant_in_Hz_per_K" (Q2Qc (20836644000 # 1)) (Some "Hz*K**-1") None None [];
  KConst "Boltzmann_constant_in_inverse_meters_per_kelvin" (Q2Qc (1737589 # 25000)) (Some "m**-1*K**-1") None None [];
  KConst "molar_mass_constant" (Q2Qc (1 # 1000)) (Some "kg*mol**-1") (Some "M_u") (Some "Mᵤ") [];
  KConst "molar_volume_of_ideal_gas_ST_100kPa" (Q2Qc (22710981 # 1000000000)) (Some "m**3*mol**-1") None None [];
  KConst "molar_volume_of_ideal_gas_STP" (Q2Qc (5603499 # 250000000)) (Some "m**3*mol**-1") None None [];
  KConst "molar_volume_of_silicon" (Q2Qc (120588349 # 10000000000000)) (Some "m**3*mol**-1") None None []
].

(** /repo/quantities/constants/tau.py:8-70 *)
Definition k_tau : list kentry := [
  KConst "tau_mass" (Q2Qc (316777 # 100000000000000000000000000000000)) (Some "kg") (Some "m_tau") (Some "m_τ") [];
  KConst "tau_Compton_wavelength" (Q2Qc (17443 # 25000000000000000000)) (Some "m") (Some "lambda_C_tau") (Some "λ_C_τ") [];
  KConst "tau_Compton_wavelength_over_2_pi" (Q2Qc (55523 # 500000000000000000000)) (Some "m") (Some "lambda_C_tau") (Some "ƛ_C_τ") [];
  KConst "tau_mass_energy_equivalent" (Q2Qc (56941 # 200000000000000)) (Some "J") (Some "(m_tau*c**2)") (Some "(m_τ·c²)") [];
  KConst "tau_mass_energy_equivalent_in_MeV" (Q2Qc (177699 # 100)) (Some "MeV") None None [];
  KConst "tau_mass_in_u" (Q2Qc (11923 # 6250)) (Some "u") None None [];
  KConst "tau_molar_mass" (Q2Qc (11923 # 6250000)) (Some "kg*mol**-1") (Some "M_tau") (Some "M_τ") [];
  KConst "tau_electron_mass_ratio" (Q2Qc (86937 # 25)) (Some "") (Some "(m_tau/m_e)") (Some "(m_τ/mₑ)") [];
  KConst "tau_muon_mass_ratio" (Q2Qc (168183 # 10000)) (Some "") (Some "(m_tau/m_mu)") (Some "(m_τ/m_μ)") [];
  KConst "tau_neutron_mass_ratio" (Q2Qc (189129 # 100000)) (Some "") (Some "(m_tau/m_n)") (Some "(m_τ/m_n)") [];
  KConst "tau_proton_mass_ratio" (Q2Qc (18939 # 10000)) (Some "") (Some "(m_tau/m_p)") (Some "(m_τ/m_p)") []
].

(** /repo/quantities/constants/triton.py:8-86 *)
Definition k_triton : list kentry := [
  KConst "triton_mass" (Q2Qc (125183897 # 25000000000000000000000000000000000)) (Some "kg") (Some "m_t") None [];
  KConst "triton_g_factor" (Q2Qc (186185153 # 31250000)) (Some "") (Some "g_t") None [];
  KConst "triton_magnetic_moment" (Q2Qc (1504609361 # 100000000000000000000000000000000000)) (Some "J*T**-1") (Some "mu_t") (Some "μ_t") [];
  KConst "triton_mass_energy_equivalent" (Q2Qc (450038703 # 1000000000000000000)) (Some "J") (Some "(m_t*c**2)") (Some "(m_t·c²)") [];
  KConst "triton_mass_energy_equivalent_in_MeV" (Q2Qc (1404460453 # 500000)) (Some "MeV") None None [];
  KConst "triton_mass_in_u" (Q2Qc (15077503567 # 5000000000)) (Some "u") None None [];
  KConst "triton_molar_mass" (Q2Qc (15077503567 # 5000000000000)) (Some "kg*mol**-1") (Some "M_t") None [];
  KConst "triton_electron_mass_ratio" (Q2Qc (54969215269 # 10000000)) (Some "") (Some "(m_t/m_e)") (Some "(m_t/mₑ)") [];
  KConst "triton_proton_mass_ratio" (Q2Qc (29937170309 # 10000000000)) (Some "") (Some "(m_t/m_p)") (Some "(m_t/m_p)") [];
  KConst "triton_electron_magnetic_moment_ratio" (Q2Qc (-1620514423 # 1000000000000)) (Some "") (Some "(mu_t/mu_e)") (Some "(μ_t/μₑ)") [];
  KConst "triton_magnetic_moment_to_Bohr_magneton_ratio" (Q2Qc (1622393657 # 1000000000000)) (Some "") (Some "(mu_t/mu_B)") (Some "(μ_t/μ_B)") [];
  KConst "triton_magnetic_moment_to_nuclear_magneton_ratio" (Q2Qc (186185153 # 62500000)) (Some "") (Some "(mu_t/mu_N)") (Some "(μ_t/μ_N)") [];
  KConst "triton_neutron_magnetic_moment_ratio" (Q2Qc (-155718553 # 100000000)) (Some "") (Some "(mu_t/mu_n)") (Some "(μ_t/μ_n)") [];
  KConst "triton_proton_magnetic_moment_ratio" (Q2Qc (266659977 # 250000000)) (Some "") (Some "(mu_t/mu_p)") (Some "(μ_t/μ_p)") []
].

(** /repo/quantities/constants/weak.py:8-11 *)
Definition k_weak : list kentry := [
  KConst "weak_mixing_angle" (Q2Qc (4451 # 20000)) (Some "") None None []
].

(** /repo/quantities/constants/xray.py:8-35 *)
Definition k_xray : list kentry := [
  KConst "Angstrom_star" (Q2Qc (50000749 # 500000000000000000)) (Some "m") (Some "A*") (Some "Å*") [];
  KConst "silicon_220_lattice_spacing" (Q2Qc (960077881 # 5000000000000000000)) (Some "m") (Some "d_220") (Some "d₂₂₀") [];
  KConst "Cu_x_unit" (Q2Qc (100207699 # 1000000000000000000000)) (Some "m") (Some "CuKalpha_1") (Some "CuKα₁") [];
  KConst "lattice_parameter_of_silicon" (Q2Qc (33943879 # 62500000000000000)) (Some "m") None None [];
  KConst "Mo_x_unit" (Q2Qc (20041991 # 200000000000000000000)) (Some "m") (Some "MoKalpha_1") (Some "MoKα₁") []
].

(** /repo/quantities/constants/__init__.py:1-19 *)
Definition constants : list kentry :=
  k_alpha ++ k_astronomy ++ k_atomicunits ++ k_deuteron ++ k_electromagnetism ++ k_electron ++ k_helion ++ k_mathematical ++ k_muon ++ k_naturalunits ++ k_neutron ++ k_proton ++ k_quantum ++ k_relationships ++ k_statisticalmechanics ++ k_tau ++ k_triton ++ k_weak ++ k_xray.
