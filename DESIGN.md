# A Rocq (Coq 8.16.1) model of python-quantities

Generated by tools/design.py from tools/design_head.md, properties.jsonl,
MANIFEST.json and tools/assumptions.json.

## 1. Approach

The model is a set of small total Gallina functions mirroring /repo function by
function, with exceptions as values (`res A = Ok a | Err exn`).  Every definition
cites file:lines of /repo and names its simplifications.  Nothing in /repo is
executed.  The model's only parameters are explicit arguments: the arithmetic of
magnitudes (`Num A`), the hash functions, the texts of floats (`frepr`, `fread`),
the meaning of unit labels where a theorem does not need the parser (`lookup`), and
the `pow` of the C library (`pw`).

### Files (each uses only the ones above it)

| files | contents |
|---|---|
| `Py` | exceptions, Python numbers as exponents (`pynum`: int or float), insertion-ordered dicts |
| `Num` | `Class Num A`: the arithmetic of magnitudes; instances: reals `NumR`, rationals `Qc` (executable examples) |
| `Dim`, `DimFacts`, `Hash` | `Dimensionality`: dict unit -> exponent, operators, in-place forms, hash and equality |
| `Arr`, `ArrFacts`, `Lanes` | NumPy arrays: shape + flat data, broadcasting, axis reductions (trusted reading of NumPy), and what they mean element by element |
| `Units`, `UnitFacts` | unit records, environments, `_reference`, unit creation |
| `Spec`, `SpecApi`, `SpecUncert`, `SpecPickle`, `SpecSizes`, `SpecFloat` | the specifications used by the statements of theorems, free of the code's algorithms |
| `Quant`, `QuantFacts`, `SimpFacts`, `ConvFacts` | conversion factors, rescale, simplified, constructor |
| `Defaults`, `DefaultsFacts`, `Dtype`, `Preferred` | default units, dtypes in rescale, preferred units |
| `Ufunc`, `Ops`, `OpsFacts` | the ufunc unit table, operators, comparisons |
| `Methods`, `MethodsFacts`, `ItemFacts` | ndarray methods, item access |
| `Program` | a language of programs over these calls (not in /repo), for C115, C116 and C122 |
| `Sched`, `SchedFacts` | the calls as sequences of atomic accesses to shared state; threads, schedules, interrupts |
| `Methods2`, `Nan`, `UncertNan` | round, argsort, trace, squeeze; magnitudes with NaN, the nan-methods of quantities and of uncertain quantities |
| `Complex` | complex magnitudes: `real`, `imag`, their setters, `rescale` |
| `Umath`, `UmathFacts` | umath.py |
| `Heap`, `HeapFacts`, `HeapDims` | mutable objects: shared buffers, views, units setter, in-place operators |
| `Text`, `Lex`, `Markup`, `Registry`, `RegFacts`, `LexFacts`, `PrintFacts`, `RoundTrip`, `PrintEq`, `Render`, `RegEq`, `Show`, `SpecGrammar`, `GrammarFacts`, `LabelFacts` | labels, parser, whitelist, evaluation, registration, printing |
| `Uncert`, `UncertFacts` | UncertainQuantity |
| `Decor` | `memoize`, `quantitizer` |
| `Pickle`, `PickleFacts`, `HistFacts` | pickling and copying |
| `Table` (generated), `Import`, `TableFacts` | the built-in units and a verified checker for unit tables |
| `Constants` (generated), `Kimport`, `KFacts`, `SpecConstants` | the physical constants, their creation, and CODATA values for comparison |
| `Float`, `FloatFacts`, `LibFloat` | the model in IEEE double arithmetic (Flocq, exponents unlimited) and its rounding errors |
| `Double`, `SpecDouble`, `DoubleFacts`, `LibDouble` | the same with overflow and subnormal numbers |
| `Examples` | a small concrete unit system, used beside theorems to show that hypotheses are met |
| `Props_*` | the property theorems `Cnn_...`, examples, `Print Assumptions` |

### Three levels of theorems

* **Unit/control level**: which units a result has, which exception is raised,
  which object changes.  Stated for *every* `Num A`, hence also for IEEE floats.
* **Value level**: physical values.  Stated at the reals, `NumR`.
* **Double level** (C90-C96, C126): the same functions at `NumF`, where every operation
  rounds, compared with the run at `NumR`; (C123-C127) at `NumD`, where results can also
  overflow or lose bits below 2^-1022.

### The specification (`Spec.v`)

An *interpretation* `phi : unit -> R` gives each unit a size (the exponential of a
real, hence positive).  It is *consistent* with an environment if every unit defined
as `a * u1**e1 * ...` satisfies `phi u = a * phi u1 ^ e1 * ...` and dimensionless units
have size 1.  The physical value of a quantity is magnitude times the product of its
units' sizes.  "Same physical value" = equal under every consistent interpretation;
"convertible" = the ratio of sizes is the same under every consistent interpretation.

### Properties that the code violates

Where the code violates the property one would expect, the property in
properties.jsonl states what holds, a theorem with suffix `_refuted` gives the violating
input (for the API behaviour a user would expect), and the others characterise exactly
when it does hold.

## 2. Trusted base

* Coq's kernel (with `vm_compute`), and these axioms of the standard library, as listed
  per theorem in section 6: `ClassicalDedekindReals.sig_forall_dec`,
  `ClassicalDedekindReals.sig_not_dec`,
  `FunctionalExtensionality.functional_extensionality_dep`, `Classical_Prop.classic`.
  No axiom of ours; Flocq (used in the Float files) brings none of its own.
* The reading of the source: the tie between model and /repo is the citation in each
  comment.  Nothing has been run.
* For `Table.v` and `Constants.v`: tools/table.py and tools/constants.py, Python scripts
  that read /repo/quantities/units and constants/ as text (with Python's `ast`) and
  write one line per constructor call.
* NumPy/CPython behaviour the model assumes, stated where it is used: dict order,
  hash of numbers, broadcasting, axis reductions, view/base rules, the ufunc wrapping
  protocol, `in`-place casting rules, `copy`/`pickle` protocols.

## 3. Hypotheses that recur, and where they are met

* `renv_ok E`: the environment was built by unit creation with positive factors
  (`C15`, `C73_import` show that every reachable environment is).
* `qty_ok q`, `dims_ok d`: as many numbers as the shape says; no unit twice, no zero
  exponent (preserved by every operation: C01-C03, C81, C67).
* `std_defaults`: each base class has a base unit without definition, and its default
  unit (if any) is convertible to it (`C73_std_defaults` for the library's own defaults,
  `C20_defaults_convertible` after any changes).
* `faithful pw` (C90-C96): `pow` of a positive number is within one machine epsilon
  of the true power (`ex_pw_faithful`: the correctly rounded one is); `faithfulD pw` (C123-C127):
  so it is, and finite, where the true power is between 2^-1020 and 2^1020 (`ex_pwD_faithful`).

## 4. What is modelled and what is not

Modelled: quantity.py, dimensionality.py, unitquantity.py, registry.py, markup.py,
umath.py, uncertainquantity.py, decorators.py (memoize, quantitizer), units/*.py (as a
table), in the sense of the definitions' comments.

Not modelled:

* Threads are modelled for the registry, unit creation, default units, `simplified` and the
  `units` setter only (C117-C121), with one access to a dictionary or attribute, or one
  NumPy call, as the atomic step; elsewhere calls run one after the other.
* NaN outside `Nan.v` and `UncertNan.v` (where NaN is an input; arithmetic on numbers never makes one),
  infinities and signed zeros (overflow and underflow only in C123-C127, where everything that
  is not finite is one value); arithmetic between complex numbers.  Value theorems with division or negative powers
  require nonzero divisors.
* Exponents that are Python floats are exact rationals.
* `with_doc`, docstrings, warnings, the text NumPy prints for magnitudes (a parameter of `Show.v`), `i18n`,
  version machinery.  Of constants/: the uncertainty of the astronomical unit; fractional
  powers of constants of negative value.
* The `out` argument of methods, except for the units it receives (Heap.v); `dtype`
  arguments.
* Python syntax beyond arithmetic expressions is represented by the node kind that the
  registry's whitelist refuses.

## 5. Properties

Each entry: the property, what is modelled, how it is proved, the theorems.

**C01 Products of dimensionalities add exponents and never store a zero exponent.** d1 * d2 raises every unit to the sum of its exponents in d1 and d2; if d1 and d2 hold no unit twice and no zero exponent, neither does the result (a unit that cancels disappears). Multiplying by a non-Dimensionality raises TypeError.

* Modelled: `Dim.v`: the loops of `__mul__`, `__truediv__`, `__pow__` over an insertion-ordered dict of exponents (Python ints or floats).
* Proof: induction over the right operand; the map of exponents (`exp_of`) and the invariant `wf_dims` (no unit twice, no zero exponent) after each step.
* Proved: `C01_mul`, `C01_mul_cancel`, `C01_mul_type`, `C01_mul_group`.

**C02 Quotients of dimensionalities subtract exponents and never store a zero exponent.** d1 / d2 raises every unit to the difference of its exponents; no duplicate unit and no zero exponent appears; d / d is empty; (d1 * d2) / d2 equals d1.

* Modelled: `Dim.v`: the loops of `__mul__`, `__truediv__`, `__pow__` over an insertion-ordered dict of exponents (Python ints or floats).
* Proof: induction over the right operand; the map of exponents (`exp_of`) and the invariant `wf_dims` (no unit twice, no zero exponent) after each step.
* Proved: `C02_div`, `C02_div_self`, `C02_mul_div`, `C02_div_type`.

**C03 Powers of dimensionalities multiply exponents.** d ** p multiplies every exponent by p, d ** 0 is empty, d ** 1 is d, (d ** p) ** q equals d ** (p*q), (d1*d2) ** p equals d1**p * d2**p, and no zero exponent is introduced.

* Modelled: `Dim.v`: the loops of `__mul__`, `__truediv__`, `__pow__` over an insertion-ordered dict of exponents (Python ints or floats).
* Proof: induction over the right operand; the map of exponents (`exp_of`) and the invariant `wf_dims` (no unit twice, no zero exponent) after each step.
* Proved: `C03_pow`, `C03_pow_laws`, `C03_pow_type`.

**C04 In-place dimensionality operators agree with the pure ones.** d *= e, d /= e, d **= p leave in d exactly what d * e, d / e, d ** p return, when d and e are different objects.

* Modelled: `Dim.v`: `__imul__` &c. as loops on the receiver, with the dict they iterate passed separately or identical.
* Proof: the loops are the same folds; `d *= d` separately, by induction.
* Proved: `C04_inplace`, `C04_imul_self`.

**C05 Dividing a dimensionality by itself in place.** d /= d does not behave like d / d (which is empty): for every non-empty d it raises RuntimeError, because the loop pops entries of the dictionary it iterates, and leaves d without its first unit. For an empty d it does nothing.

* Modelled: `Dim.v`: the loop with the size check CPython makes when a dict changes during iteration.
* Proof: computation for a non-empty dict of unknown contents.
* Proved: `C05_idiv_self_refuted`, `C05_idiv_self_empty`.

**C06 Addition and subtraction of dimensionalities accept exactly equal units.** d1 + d2 and d1 - d2 return d1 when both denote the same unit-to-exponent map (in any order) and raise ValueError otherwise.

* Modelled: `Dim.v`: `__add__`, `__sub__` with the comparison of dicts.
* Proof: `dim_eqb` decides equality of exponent maps.
* Proved: `C06_add_sub`, `C06_type`.

**C07 Dimensionality hash and equality do not depend on insertion order.** Two dimensionalities denoting the same unit-to-exponent map (whatever the order of insertion, and whether an exponent is 2 or 2.0) have the same hash and compare equal; for a collision-free hash of (unit, exponent) pairs the exponent -1 and -2 are told apart.

* Modelled: `Hash.v`: `hash` of the unordered set of (unit, exponent) pairs over arbitrary hash functions of tuples and of unit pairs; CPython hash of ints and of rationals (mod 2**61-1).
* Proof: xor is insensitive to permutation; the collision from the modulus.
* Proved: `C07_hash_order_independent`, `C07_hash_separates_powers`.

**C08 Dimensionality equality separates different units.** d1 == d2 does not imply that d1 and d2 denote the same map: equality compares hashes, and Python's numeric hash is taken modulo 2**61-1, so m**z == m**(z + 2**61 - 1) for every z >= 0 (e.g. m**(2**61) == m), whatever the hash functions of tuples and units are.

* Modelled: `Hash.v`: `hash` of the unordered set of (unit, exponent) pairs over arbitrary hash functions of tuples and of unit pairs; CPython hash of ints and of rationals (mod 2**61-1).
* Proof: xor is insensitive to permutation; the collision from the modulus.
* Proved: `C08_eq_separates_refuted`, `C08_collisions`.

**C09 Ordering of dimensionalities counts absolute exponents of the simplified units.** d1 < d2 (<=, >, >=) compares the sums of absolute exponents of the simplified dimensionalities; the relation is a total preorder.

* Modelled: `Quant.v` `dim_simplified`, `Dim.v` sums of absolute exponents.
* Proof: order on rationals.
* Proved: `C09_ordering`, `C09_sum_abs`, `C09_total_preorder`.

**C10 rescale preserves the physical value.** If q.rescale(u) returns r, then r has exactly the units u (or q's own dimensionality when they are equal) and, for every consistent assignment of positive real sizes to units, magnitude(r) times the size of u equals magnitude(q) times the size of q's units, element by element.

* Modelled: `Quant.v`: `get_conversion_factor`, `rescale`; `Units.v`: `_reference`, all unit environments built by creation.
* Proof: interpretations (`Spec.v`): references denote the same size (induction over creation); two products of irreducible units of equal size under all interpretations have the same exponents (an interpretation is built that separates them).
* Proved: `C10_rescale_preserves_value`, `C10_rescale_units`.

**C11 rescale succeeds exactly when a conversion factor exists.** q.rescale(u) returns a value if and only if there is one constant c such that size(q.units) = c * size(u) under every consistent assignment of unit sizes; otherwise it raises ValueError.

* Modelled: `Quant.v`: `get_conversion_factor`, `rescale`; `Units.v`: `_reference`, all unit environments built by creation.
* Proof: interpretations (`Spec.v`): references denote the same size (induction over creation); two products of irreducible units of equal size under all interpretations have the same exponents (an interpretation is built that separates them).
* Proved: `C11_rescale_iff_convertible`, `C11_rescale_bad_units`.

**C12 Conversions round-trip and do not depend on the path.** q.rescale(a).rescale(b) has the same magnitudes and units as q.rescale(b) (exact real arithmetic), so q.rescale(a).rescale(q.units) gives back q, whenever the first rescale succeeds.

* Modelled: `Quant.v`: `get_conversion_factor`, `rescale`; `Units.v`: `_reference`, all unit environments built by creation.
* Proof: interpretations (`Spec.v`): references denote the same size (induction over creation); two products of irreducible units of equal size under all interpretations have the same exponents (an interpretation is built that separates them).
* Proved: `C12_path_independent`, `C12_path_same_outcome`, `C12_roundtrip`.

**C13 Conversion factors form a group.** The factor between a unit and itself is 1, factor(a,b)*factor(b,c) = factor(a,c), factor(a,b)*factor(b,a) = 1, factor(a*c,b*d) = factor(a,b)*factor(c,d) and factor(a**n,b**n) = factor(a,b)**n.

* Modelled: `Quant.v`: `get_conversion_factor`, `rescale`; `Units.v`: `_reference`, all unit environments built by creation.
* Proof: interpretations (`Spec.v`): references denote the same size (induction over creation); two products of irreducible units of equal size under all interpretations have the same exponents (an interpretation is built that separates them).
* Proved: `C13_factor_unique`, `C13_factor_group`, `C13_factor_products`.

**C14 rescale to the same units is exact in any arithmetic.** If q already has the target units (same map of units to exponents, in any order), rescale returns the very same magnitudes and never fails, whatever the number type (integers, IEEE floats, NaN, infinities).

* Modelled: `Quant.v` `rescale`, the early return.
* Proof: for any `Num A`: no arithmetic is executed.
* Proved: `C14_same_units_exact`.

**C15 Unit references always reduce to irreducible units.** After any sequence of unit definitions, the reference used for conversion of any unit is a positive factor times a product of powers of units that have no definition, and it equals the unit's definition fully expanded.

* Modelled: `Units.v` `add_unit`, `unit_ref`.
* Proof: invariant `env_ok` over histories; lookups are stable under extension.
* Proved: `C15_references_reduced`, `C15_references_correct`, `C15_consistent_exists_unique`, `C15_reference_of_quantity`.

**C16 Defining new units never changes existing conversions.** Creating any further unit leaves the outcome of every conversion between previously existing units unchanged.

* Modelled: `Units.v` `add_unit`, `unit_ref`.
* Proof: invariant `env_ok` over histories; lookups are stable under extension.
* Proved: `C16_new_units_harmless`, `C16_new_units_harmless_simplified`.

**C17 simplified preserves the value and uses only default units.** If q.simplified returns r, then r denotes the same physical value as q and its dimensionality mentions only the current default units of the base-unit classes.

* Modelled: `Quant.v` `simplified` with fuel (its recursion may not terminate), `Units.v`.
* Proof: induction over fuel and over the list of units; canonicity from uniqueness of reduced forms; non-termination: no fuel suffices.
* Proved: `C17_simplified_preserves_value`.

**C18 simplified is idempotent and canonical.** q.simplified.simplified equals q.simplified, and two quantities that denote the same physical value simplify to the same units and magnitudes.

* Modelled: `Quant.v` `simplified` with fuel (its recursion may not terminate), `Units.v`.
* Proof: induction over fuel and over the list of units; canonicity from uniqueness of reduced forms; non-termination: no fuel suffices.
* Proved: `C18_simplified_canonical`, `C18_simplified_idempotent`.

**C19 On which units simplified terminates.** q.simplified returns a value exactly when every unit of q can be expressed by base units (a base-class unit by its own base unit). Otherwise the first unit that cannot be expressed decides the exception: a base-class unit that cannot be converted to its base unit (as the built-in statampere) is a ValueError, one whose class has no default a bare Exception, and a UnitQuantity without definition makes it recurse for ever (RecursionError).

* Modelled: `Quant.v` `simplified` with fuel (its recursion may not terminate), `Units.v`.
* Proof: induction over fuel and over the list of units; canonicity from uniqueness of reduced forms; non-termination: no fuel suffices.
* Proved: `C19_simplified_terminates_iff`, `C19_simplified_terminates_refuted`, `C19_which_exception`.

**C20 set_default_units only accepts convertible defaults and keeps simplified correct.** After any sequence of successful set_default_unit calls each class default is convertible to the first default of its class, and simplified still preserves physical values; a call that raises leaves that class's default unchanged.

* Modelled: `Defaults.v`: `set_default_unit`, `set_default_units` and the state of defaults.
* Proof: invariant over histories of creations and default changes.
* Proved: `C20_defaults_convertible`, `C20_simplified_after_changes`, `C20_set_default_atomic`, `C20_set_default_others_unchanged`, `C20_set_default_iff`, `C20_set_default_units_reach`, `C20_what_is_set`, `C20_set_default_units_atomic_refuted`, `C20_first_unit`.

**C21 Errors of set_default_units.** Setting a default unit of the wrong kind changes nothing and raises, not the TypeError that other bad arguments get, but AssertionError: get_conversion_factor signals incompatibility with AssertionError, which is not caught.

* Modelled: `Defaults.v`: `set_default_unit`, `set_default_units` and the state of defaults.
* Proof: invariant over histories of creations and default changes.
* Proved: `C21_set_default_type_error_refuted`, `C21_set_default_type_error_cases`.

**C22 dimensionless_magnitude.** q.dimensionless_magnitude returns the true numeric value of q when q's units are a pure number under every consistent assignment, and raises ValueError otherwise.

* Modelled: `Quant.v` `dimensionless_magnitude`.
* Proof: from C18.
* Proved: `C22_dimensionless_magnitude`.

**C23 rescale_preferred picks the first preferred unit of the same kind.** q.rescale_preferred() returns q expressed in the first entry of PREFERRED that q can be converted to (ValueError if that entry's magnitude is not one) and raises Exception when there is none; q.rescale() does the same with every failure a bare Exception. (For units whose simplified form prints faithfully: entries are compared as text, so with an exponent such as 20 a wrong entry can be picked and the call fail.)

* Modelled: `Preferred.v`: the loop over `PREFERRED`, comparison of printed texts (`Markup.v`).
* Proof: loop induction; text comparison is equality by C63; counterexample with exponent 10.
* Proved: `C23_first_convertible`, `C23_rescale_without_argument`, `C23_text_comparison_refuted`.

**C24 Integer data is not truncated by conversion.** rescale of an integer array to different units returns the exact converted values in a floating type; it never rounds to integers.

* Modelled: `Dtype.v`: two dtypes (int, float) with casting.
* Proof: case analysis, exact rational data.
* Proved: `C24_integers_not_truncated`, `C24_explicit_int_dtype`.

**C25 Addition and subtraction respect physical values and the left operand's units.** q1 + q2 (q1 - q2), with broadcasting, has q1's units and denotes the sum (difference) of the physical values.

* Modelled: `Ops.v`: operators with the decorators `check_uniform`, `protected_*`, ufunc dispatch, broadcasting (`Arr.v`).
* Proof: physical value is a homomorphism; naturality of broadcasting.
* Proved: `C25_add`, `C25_sub`, `C25_add_elements`, `C25_neg_abs`, `C25_pos_refused`.

**C26 Adding incompatible units always raises.** q1 + q2, q1 - q2 and q1 % q2 raise ValueError exactly when the units are not convertible (or the shapes do not broadcast); they never return a number.

* Modelled: `Ops.v`: operators with the decorators `check_uniform`, `protected_*`, ufunc dispatch, broadcasting (`Arr.v`).
* Proof: physical value is a homomorphism; naturality of broadcasting.
* Proved: `C26_add_sub_mod_iff`.

**C27 Plain numbers act as dimensionless in sums.** q + x and x + q, x a plain number or array, succeed exactly when q's units are convertible to a pure number, and then denote the physical sum; no unit is silently attached to x.

* Modelled: `Ops.v`: operators with the decorators `check_uniform`, `protected_*`, ufunc dispatch, broadcasting (`Arr.v`).
* Proof: physical value is a homomorphism; naturality of broadcasting.
* Proved: `C27_plain_sums`, `C27_plain_sums_iff`.

**C28 Products and quotients multiply physical values.** q1*q2, q1/q2, x*q, q*x, x/q, q/x never fail for broadcastable shapes, combine the units by adding or subtracting exponents and denote the product (for non-zero divisors the quotient) of the physical values, without conversions.

* Modelled: `Ops.v`: operators with the decorators `check_uniform`, `protected_*`, ufunc dispatch, broadcasting (`Arr.v`).
* Proof: physical value is a homomorphism; naturality of broadcasting.
* Proved: `C28_products`, `C28_quotients`, `C28_never_fail`, `C28_no_conversion`.

**C29 Powers.** q ** p is accepted exactly when p is a plain or dimensionless uniform value, has units**p, and denotes the physical value raised to p wherever the real power is defined. plain ** q is accepted exactly when q is dimensionless and uniform. Everything else is a ValueError.

* Modelled: `Ops.v`: operators with the decorators `check_uniform`, `protected_*`, ufunc dispatch, broadcasting (`Arr.v`).
* Proof: physical value is a homomorphism; naturality of broadcasting.
* Proved: `C29_pow_units`, `C29_pow_value`, `C29_rpow`.

**C30 Remainders respect physical values.** q1 % q2 has q1's units and denotes the remainder of the physical values, for every consistent choice of unit sizes.

* Modelled: `Ops.v`: operators with the decorators `check_uniform`, `protected_*`, ufunc dispatch, broadcasting (`Arr.v`).
* Proof: physical value is a homomorphism; naturality of broadcasting.
* Proved: `C30_remainder`, `C30_remainder_meaning`, `C30_plain_left`.

**C31 Floor division depends on the units used.** q1 // q2 floors the quotient of the raw magnitudes and divides the units; for operands of the same units this is the floor of the quotient of the physical values, but converting one operand to other units can change the physical result (5 m // 200 cm gives 0 m/cm while 5 m // 2 m gives 2).

* Modelled: `Ops.v`: operators with the decorators `check_uniform`, `protected_*`, ufunc dispatch, broadcasting (`Arr.v`).
* Proof: physical value is a homomorphism; naturality of broadcasting.
* Proved: `C31_floor_div_units`, `C31_floor_div_same_units`, `C31_floor_div_refuted`.

**C32 Arithmetic results do not depend on the units chosen for the inputs.** Replacing any operand of +, -, %, *, /, ** by an equal quantity in other units yields an equal physical result, and replacing operands of <, <=, >, >=, ==, != yields the same booleans or the same exception.

* Modelled: `Ops.v`: operators with the decorators `check_uniform`, `protected_*`, ufunc dispatch, broadcasting (`Arr.v`).
* Proof: physical value is a homomorphism; naturality of broadcasting.
* Proved: `C32_sums`, `C32_products`, `C32_powers`, `C32_comparisons`.

**C33 Comparisons compare physical values.** q1 < q2 (<=, >, >=) compares physical values whatever the units, and raises ValueError exactly when units are not convertible.

* Modelled: `Ops.v`: the comparison operators.
* Proof: as above; order is invariant under positive factors.
* Proved: `C33_order`, `C33_order_iff`.

**C34 Equality compares physical values and never raises for incompatible units.** q1 == q2 is true exactly at positions where the physical values agree; for inconvertible units it is all False (and != all True); == and != are complementary; == is symmetric and transitive between quantities.

* Modelled: `Ops.v`: the comparison operators.
* Proof: as above; order is invariant under positive factors.
* Proved: `C34_eq_elements`, `C34_incompatible`, `C34_never_raises`, `C34_complementary`, `C34_eq_iff`, `C34_equivalence`.

**C35 Comparisons with plain numbers ignore units.** Comparing a quantity with a plain number compares the raw magnitude whatever the units, so a quantity with units can equal a number and == is not transitive: 5*m == 5 and 5*s == 5 but 5*m != 5*s.

* Modelled: `Ops.v`: the comparison operators.
* Proof: as above; order is invariant under positive factors.
* Proved: `C35_plain_ignores_units`, `C35_plain_comparison_refuted`.

**C36 The constructor attaches units without changing numbers.** Quantity(data, units) for plain data has exactly data as magnitudes and the given units; Quantity(q, units) equals q.rescale(units), except that empty units ('' or an empty dimensionality) leave q as it is.

* Modelled: `Quant.v` `q_new`, `validate_unit_quantity`.
* Proof: case analysis.
* Proved: `C36_plain_data`, `C36_quantity_data`, `C36_empty_dimensionality_refuted`.

**C37 Numeric factors in unit strings are dropped.** Quantity(x, s) keeps only the dimensionality of the unit expression s: it denotes x times the value of s exactly when x is zero or the numeric value of s is one; Quantity(1, '3*m') is 1 m.

* Modelled: `Quant.v` `q_new`, `validate_unit_quantity`.
* Proof: case analysis.
* Proved: `C37_factor_dropped`, `C37_unit_strings_refuted`.

**C38 NumPy ufuncs on quantities assign the right units.** For fabs, absolute, conjugate, negative, square, reciprocal, sqrt, radians, degrees, multiply, true_divide, add, subtract, mod, fmod, remainder, hypot, maximum, minimum and arctan2 the returned units are those of the mathematical operation: the physical value of ufunc(q), computed from magnitudes and returned units, is the function of the physical values of the inputs, so it does not depend on the units in which they are expressed. For floor, ceil, rint and floor_divide it does: they round the magnitudes as given, to a whole number of units (rint to the nearest, halves to the even one). np.mod has the sign of the divisor and np.fmod that of the dividend; both differ from it by a multiple of the divisor and are smaller than it. np.arctan2(y, x) is the angle of the point (x, y).

* Modelled: `Ufunc.v`: the table `p_dict` of dimensionality.py, `__array_prepare__`/`__array_wrap__`.
* Proof: case analysis over the table.
* Proved: `C38_unary`, `C38_unary_unit_independent`, `C38_uniform`, `C38_uniform_plain`, `C38_arctan2`, `C38_radians_degrees`, `C38_rounding_refuted`, `C38_products`, `C38_products_defined`, `C38_rounding_values`, `C38_remainders`, `C38_angle`.

**C39 Uniform ufuncs reject mixed units.** np.add, subtract, mod, fmod, remainder, hypot, maximum, minimum and comparison ufuncs applied to two quantities raise ValueError unless units are identical; against plain numbers they accept only zeros or dimensionless quantities, and otherwise raise AttributeError.

* Modelled: `Ufunc.v`: the table `p_dict` of dimensionality.py, `__array_prepare__`/`__array_wrap__`.
* Proof: case analysis over the table.
* Proved: `C39_two_quantities`, `C39_plain_operand`.

**C40 Transcendental ufuncs only accept pure numbers or radians.** log/exp family and inverse trigonometric ufuncs raise ValueError for any quantity with units; trigonometric ufuncs raise ValueError unless one unit of the argument equals one radian.

* Modelled: `Ufunc.v`: the table `p_dict` of dimensionality.py, `__array_prepare__`/`__array_wrap__`.
* Proof: case analysis over the table.
* Proved: `C40_log_exp`, `C40_arctrig`, `C40_trig`.

**C41 Binary logarithmic ufuncs check only their first argument.** np.logaddexp(q1, q2) and np.logaddexp2 raise ValueError when the first argument has units; the second argument is never checked, and its raw magnitudes are used whatever its units.

* Modelled: `Ufunc.v`: the table `p_dict` of dimensionality.py, `__array_prepare__`/`__array_wrap__`.
* Proof: case analysis over the table.
* Proved: `C41_first_checked`, `C41_second_unchecked_refuted`.

**C42 umath trigonometric functions convert units.** pq.sin/cos/tan(q) equal the function of the angle in radians whatever angular unit q uses, are dimensionless, and raise ValueError exactly if q is not convertible to radians; arcsin/arccos/arctan return radians.

* Modelled: `Umath.v`: umath.py over the ufunc layer, slices, `trapz`, `gradient`, `cross`, `unwrap`.
* Proof: induction over lists/lanes, element formulas.
* Proved: `C42_defined`, `C42_value`, `C42_unit_independent`.

**C43 umath.arctan2 and units.** umath.arctan2(x1, x2) accepts exactly the pairs with the same simplified units; for equal units the result is the angle of the physical values, but convertible different units, as m and cm, are accepted without rescaling and give another angle.

* Modelled: `Umath.v`: umath.py over the ufunc layer, slices, `trapz`, `gradient`, `cross`, `unwrap`.
* Proof: induction over lists/lanes, element formulas.
* Proved: `C43_accepts_iff`, `C43_identical_units`, `C43_refuted`, `C43_hypot`.

**C44 Reductions keep units and commute with conversion.** sum, mean, max, min, ptp, cumsum and std keep q's units; reducing then rescaling equals rescaling then reducing, along any axis.

* Modelled: `Methods.v`: the ndarray methods of quantity.py, item access with any index selector, `Lanes.v` for axis reductions.
* Proof: each reduction commutes with multiplication by a positive number; induction over lanes.
* Proved: `C44_reductions`, `C44_shape`, `C44_defined`, `C44_defined_nonempty`, `C44_unit_independent`, `C44_rescale`, `C44_cumsum`, `C44_cumsum_defined`.

**C45 prod and var raise units to the right power.** q.prod() has units ** (number of factors) (per-axis length with axis) and denotes the product of physical values; q.var() has units**2 and denotes the variance of physical values; cumprod is refused unless dimensionless.

* Modelled: `Methods.v`: the ndarray methods of quantity.py, item access with any index selector, `Lanes.v` for axis reductions.
* Proof: each reduction commutes with multiplication by a positive number; induction over lanes.
* Proved: `C45_prod`, `C45_prod_defined`, `C45_var`, `C45_cumprod`.

**C46 clip limits physical values.** q.clip(min, max) returns q's units and each element limited to [min, max] compared physically; raises ValueError if a bound is inconvertible or plain for a dimensional q (AttributeError if it is plain for a dimensionless q).

* Modelled: `Methods.v`: the ndarray methods of quantity.py, item access with any index selector, `Lanes.v` for axis reductions.
* Proof: each reduction commutes with multiplication by a positive number; induction over lanes.
* Proved: `C46_clip`, `C46_clip_scalar`, `C46_clip_defined`, `C46_clip_plain_refused`.

**C47 Indexing and item assignment respect units.** q[k] has q's units and the selected magnitudes; q[k] = v stores v's physical value expressed in q's units, changes nothing else, raises ValueError (and changes nothing) if v is inconvertible.

* Modelled: `Methods.v`: the ndarray methods of quantity.py, item access with any index selector, `Lanes.v` for axis reductions.
* Proof: each reduction commutes with multiplication by a positive number; induction over lanes.
* Proved: `C47_getitem_basic`, `C47_getitem`, `C47_setitem`, `C47_setitem_basic`, `C47_mask`, `C47_read_back`, `C47_setitem_defined`, `C47_put`.

**C48 tolist preserves elements and units.** q.tolist() is the nested list of the elements of q, each a scalar quantity with q's units.

* Modelled: `Methods.v`: the ndarray methods of quantity.py, item access with any index selector, `Lanes.v` for axis reductions.
* Proof: each reduction commutes with multiplication by a positive number; induction over lanes.
* Proved: `C48_tolist`.

**C49 searchsorted demands identical units.** q.searchsorted(v) raises ValueError unless v has identical units, and then returns, for a sorted q, an insertion point that keeps physical values sorted.

* Modelled: `Methods.v`: the ndarray methods of quantity.py, item access with any index selector, `Lanes.v` for axis reductions.
* Proof: each reduction commutes with multiplication by a positive number; induction over lanes.
* Proved: `C49_searchsorted`, `C49_searchsorted_defined`.

**C50 trapz integrates with units.** umath.trapz(y, x) has units y.units*x.units and denotes the trapezoidal sum of physical values; likewise with dx.

* Modelled: `Umath.v`: umath.py over the ufunc layer, slices, `trapz`, `gradient`, `cross`, `unwrap`.
* Proof: induction over lists/lanes, element formulas.
* Proved: `C50_trapz_points`, `C50_trapz_spacing`, `C50_trapz_same_shape`.

**C51 Views cannot change units under their base.** Every operation that would change the units of a quantity that is a view of another quantity through the units setter, *=, /= or **= raises ValueError and changes nothing; in every history, a view of a quantity keeps its units unless it is the target of fill, of an out parameter or of //=, which do replace them.

* Modelled: `Heap.v`: buffers, windows, bases, the write flag; the operations on objects as state transitions (NumPy 1 and 2).
* Proof: invariants over arbitrary sequences of operations; frame lemmas.
* Proved: `C51_views`, `C51_views_protected`, `C51_history`, `C51_fill_refuted`.

**C52 Setting units in place preserves the value, atomically.** q.units = u rescales the shared buffer so that q's physical value is unchanged and q has units u; if it raises (incompatible units, read-only, view), no object changes.

* Modelled: `Heap.v`: buffers, windows, bases, the write flag; the operations on objects as state transitions (NumPy 1 and 2).
* Proof: invariants over arbitrary sequences of operations; frame lemmas.
* Proved: `C52_set_units`, `C52_when`, `C52_errors`.

**C53 Changing units in place and other objects.** q.units = u leaves every object that shares no element with q as it was. Objects that share elements with q keep their units while the shared numbers are multiplied by the conversion factor: any quantity sharing a non-zero number with q then denotes another value (unless the factor is one).

* Modelled: `Heap.v`: buffers, windows, bases, the write flag; the operations on objects as state transitions (NumPy 1 and 2).
* Proof: invariants over arbitrary sequences of operations; frame lemmas.
* Proved: `C53_others`, `C53_corrupts_refuted`.

**C54 Units are immutable.** No sequence of public operations changes the magnitude or the dimensionality of a unit object; in-place operators raise TypeError, the units setter AttributeError, item assignment and fill ValueError.

* Modelled: `Heap.v`: buffers, windows, bases, the write flag; the operations on objects as state transitions (NumPy 1 and 2).
* Proof: invariants over arbitrary sequences of operations; frame lemmas.
* Proved: `C54_units_immutable`, `C54_refusals`.

**C55 Effects are confined to the target of in-place operations.** Arithmetic, rescale, reductions, item access, copies and constructors leave every existing object unchanged, and results of computations share no memory with existing objects. An in-place operation changes only its target and objects sharing elements with it, and so an object no in-place operation of a history writes to, directly or through shared memory, is unchanged after the whole history.

* Modelled: `Heap.v`: buffers, windows, bases, the write flag; the operations on objects as state transitions (NumPy 1 and 2).
* Proof: invariants over arbitrary sequences of operations; frame lemmas.
* Proved: `C55_effects_confined`, `C55_pure`, `C55_results_fresh`, `C55_history`.

**C56 copy yields an independent object, deepcopy does not.** q.copy() has the value of q and memory of its own: no in-place operation on one changes the other, and no history whose in-place operations all write to the copy or views of it changes an older object, and none whose in-place operations all write elsewhere changes the copy. copy.deepcopy(q) shares its memory with q (__deepcopy__ relies on the constructor copying, which it does not): after any history both hold the same numbers.

* Modelled: `Heap.v`: buffers, windows, bases, the write flag; the operations on objects as state transitions (NumPy 1 and 2).
* Proof: invariants over arbitrary sequences of operations; frame lemmas.
* Proved: `C56_deepcopy_shares_refuted`, `C56_copy_independent`, `C56_copy_history`.

**C57 In-place arithmetic stores the result of the operator.** When they succeed, q += x, q -= x, q %= x leave in q what q + x, q - x, q % x return, in q's units. q *= x, q /= x, q //= x store the magnitudes of q * x, ...; before NumPy 2 they also store its units, since NumPy 2 they keep the units of q, so that q denotes a wrong value unless x has size one.

* Modelled: `Heap.v`: buffers, windows, bases, the write flag; the operations on objects as state transitions (NumPy 1 and 2).
* Proof: invariants over arbitrary sequences of operations; frame lemmas.
* Proved: `C57_inplace`, `C57_numpy2_refuted`.

**C58 A registered name is never rebound.** After any sequence of registrations, a name still refers to the first object registered under it; registering a different value raises KeyError.

* Modelled: `Lex.v`, `Registry.v`: label preprocessing, tokenizer, expression parser, whitelist, evaluation, `__setitem__`; `Markup.v`: printing with regex substitutions; `Text.v`.
* Proof: induction over registration histories, expressions and strings; round trip printing/parsing; `frepr`/`fread` (text of floats) are parameters with the hypothesis that they are inverse.
* Proved: `C58_names_keep_their_value`, `C58_lookup`, `C58_register`, `C58_created`.

**C59 Re-registering a name with a different definition is refused.** Creating a unit whose class and name are new raises KeyError if and only if one of its names, symbols or aliases is taken by a unit of a different size; otherwise it succeeds. When class and name are those of the registered unit the creation is accepted whatever its definition, and the name goes on meaning the first unit: UnitLength('foo', 2*m) followed by UnitLength('foo', 3*m) yields two objects that disagree. A name that holds a text constant accepts the same text again and refuses every other text with KeyError. A name that holds an array quantity of more than one element refuses every array of that shape with ValueError.

* Modelled: `Lex.v`, `Registry.v`: label preprocessing, tokenizer, expression parser, whitelist, evaluation, `__setitem__`; `Markup.v`: printing with regex substitutions; `Text.v`.
* Proof: induction over registration histories, expressions and strings; round trip printing/parsing; `frepr`/`fread` (text of floats) are parameters with the hypothesis that they are inverse.
* Proved: `C59_clashes_refused`, `C59_same_name_accepted`, `C59_constants`, `C59_redefinition_refuted`, `C59_arrays_are_ambiguous`.

**C60 What a failed unit creation leaves registered.** A creation that raises leaves bound exactly the names that precede the clashing one in the order name, symbol, aliases (to the new unit) and changes nothing else; so if the name itself clashes nothing is registered, but creation is not atomic: a clash of the symbol or an alias leaves the name registered.

* Modelled: `Lex.v`, `Registry.v`: label preprocessing, tokenizer, expression parser, whitelist, evaluation, `__setitem__`; `Markup.v`: printing with regex substitutions; `Text.v`.
* Proof: induction over registration histories, expressions and strings; round trip printing/parsing; `frepr`/`fread` (text of floats) are parameters with the hypothesis that they are inverse.
* Proved: `C60_failed_creation`, `C60_name_clash`, `C60_atomic_refuted`.

**C61 Only arithmetic expressions over registered units are evaluated.** unit_registry[s] returns a value only if s parses to an expression made of names, constants, unary and binary operators whose names are registered; calls, attributes, subscripts, comparisons etc. raise LookupError, an unknown name raises LookupError (the one exception is '__builtins__', which evaluates), a Python keyword raises SyntaxError (True, False and None are constants; 'in' is read as inch). The answer depends on the registered meaning of the names occurring in s only.

* Modelled: `Lex.v`, `Registry.v`: label preprocessing, tokenizer, expression parser, whitelist, evaluation, `__setitem__`; `Markup.v`: printing with regex substitutions; `Text.v`.
* Proof: induction over registration histories, expressions and strings; round trip printing/parsing; `frepr`/`fread` (text of floats) are parameters with the hypothesis that they are inverse.
* Proved: `C61_only_arithmetic`, `C61_everything_else_refused`, `C61_unknown_names`, `C61_unknown_names_inside`, `C61_only_its_names`, `C61_exponents_without_units`, `C61_reserved_words`, `C61_builtins_refuted`.

**C62 Unit labels mean the product they spell.** Evaluating the printed text of a product of registered units gives back the same units with value one: unit_registry[d.string].dimensionality == d, for integer exponents not ending in zero and float exponents, over identifier symbols; and the name, symbol and aliases of a successfully created unit evaluate to that unit (when they were free) whatever is registered later.

* Modelled: `Lex.v`, `Registry.v`: label preprocessing, tokenizer, expression parser, whitelist, evaluation, `__setitem__`; `Markup.v`: printing with regex substitutions; `Text.v`.
* Proof: induction over registration histories, expressions and strings; round trip printing/parsing; `frepr`/`fread` (text of floats) are parameters with the hypothesis that they are inverse.
* Proved: `C62_text_means_the_product`, `C62_compound_unit`, `C62_dimensionless`, `C62_created_units`.

**C63 Printing is independent of insertion order and injective.** For dimensionalities with printable symbols and exponents (integers not ending in zero, floats), over units created by any history, d1.string == d2.string iff d1 == d2, so printing does not depend on insertion order. Outside: trailing zeros of integer exponents are stripped (m**10 prints as m**1), so different units can print the same; and equal dimensionalities with an int and a float exponent of the same value print differently.

* Modelled: `Lex.v`, `Registry.v`: label preprocessing, tokenizer, expression parser, whitelist, evaluation, `__setitem__`; `Markup.v`: printing with regex substitutions; `Text.v`.
* Proof: induction over registration histories, expressions and strings; round trip printing/parsing; `frepr`/`fread` (text of floats) are parameters with the hypothesis that they are inverse.
* Proved: `C63_same_text_iff_equal`, `C63_injective_refuted`, `C63_equal_print_same_refuted`.

**C64 Unicode, LaTeX and HTML renderings keep the exponents.** For identifier symbols and integer exponents not ending in zero the plain, Unicode, LaTeX and HTML texts are the product of the positive powers over the product of the negative ones, each factor once with its exponent rendered digit by digit as a superscript of the format. It is false for non-integer exponents in LaTeX/HTML ('**0.5' becomes '^{0}.5') and for compound symbols.

* Modelled: `Lex.v`, `Registry.v`: label preprocessing, tokenizer, expression parser, whitelist, evaluation, `__setitem__`; `Markup.v`: printing with regex substitutions; `Text.v`.
* Proof: induction over registration histories, expressions and strings; round trip printing/parsing; `frepr`/`fread` (text of floats) are parameters with the hypothesis that they are inverse.
* Proved: `C64_plain`, `C64_unicode`, `C64_latex`, `C64_html`, `C64_attributes`, `C64_sides`, `C64_symbols`, `C64_compound_alone`, `C64_unicode_decimals`, `C64_fractions_refuted`, `C64_compound_refuted`.

**C65 Uncertainties propagate in quadrature.** For sums and differences of uncertain quantities the uncertainty is sqrt(u1^2+u2^2) in the left operand's units; for products and quotients the relative uncertainties add in quadrature (times the value); an exact factor, divisor or dividend scales the uncertainty by its absolute value; x**n has uncertainty n*x**n*(u/x); -x keeps |u|; rescale and simplified leave value and uncertainty physically unchanged. Sums need convertible units and broadcastable shapes, everything else raises ValueError.

* Modelled: `Uncert.v`: value and uncertainty as two quantities; operators of uncertainquantity.py.
* Proof: each operation described on pairs (value, uncertainty); invariant over an inductive closure of all operations.
* Proved: `C65_add`, `C65_sub`, `C65_add_defined`, `C65_mul`, `C65_div`, `C65_mul_defined`, `C65_scale`, `C65_unscale`, `C65_inverse`, `C65_scale_defined`, `C65_neg`, `C65_pow`, `C65_pow_defined`, `C65_sqrt`, `C65_rescale`, `C65_rescale_defined`, `C65_simplified`.

**C66 The sign of uncertainties.** Sums, differences, exact factors and divisors never have a negative uncertainty, and conversions, indexing, sum and mean keep uncertainties non-negative. Products and quotients of uncertain quantities have uncertainties with the sign of the value, and powers (of positive values) with the sign of the exponent - so (-3 +/- 3) m * 4 m has uncertainty -12.

* Modelled: `Uncert.v`: value and uncertainty as two quantities; operators of uncertainquantity.py.
* Proof: each operation described on pairs (value, uncertainty); invariant over an inductive closure of all operations.
* Proved: `C66_sums`, `C66_factors`, `C66_kept`, `C66_products`, `C66_refuted`, `C66_powers`.

**C67 Value and uncertainty have the same shape and units.** Whatever sequence of constructor calls, arithmetic, powers, indexing, reductions, conversions and assignments to .uncertainty produced an uncertain quantity, its uncertainty has the shape and the units of the value. (Not so for reshaped views, which keep the uncertainty in the old shape.)

* Modelled: `Uncert.v`: value and uncertainty as two quantities; operators of uncertainquantity.py.
* Proof: each operation described on pairs (value, uncertainty); invariant over an inductive closure of all operations.
* Proved: `C67_shape_and_units`, `C67_refuted`.

**C68 Mixing quantities with and without uncertainty.** q - uq is the difference with the uncertainty of uq, as if q were exact. uq + q, q + uq and uq - q never work: they raise AttributeError where the units and shapes fit and ValueError where they do not.

* Modelled: `Uncert.v`: value and uncertainty as two quantities; operators of uncertainquantity.py.
* Proof: each operation described on pairs (value, uncertainty); invariant over an inductive closure of all operations.
* Proved: `C68_refuted`, `C68_reflected_sub`, `C68_reflected_sub_defined`.

**C69 sum and mean of uncertain quantities.** Along any axis (or all), sum is the sum of the values with uncertainty sqrt(sum u_i^2) and mean the same divided by n; they fail exactly for axes that do not exist, and mean for lanes without elements (ZeroDivisionError).

* Modelled: `Uncert.v`: value and uncertainty as two quantities; operators of uncertainquantity.py.
* Proof: each operation described on pairs (value, uncertainty); invariant over an inductive closure of all operations.
* Proved: `C69_sum`, `C69_mean`, `C69_defined`.

**C70 Pickling round-trips.** A quantity (or uncertain quantity) pickled in one process and unpickled in another whose unit definitions do not contradict it, and in which the names of its units are free or mean units of the same size, comes back with the same shape, magnitudes, units (and uncertainty) and converts as before; a unit comes back with the same class, name, definition, symbols, aliases and printing order. Existing names, units and defaults of the reading process are unchanged; only names of the pickled units are added. Within one process, whatever units were created and named in it, nothing in the registry changes. A half-made unit cannot be read back; a unit of the same class and name with another definition is accepted silently; a compound unit means whatever its text means to the reading process.

* Modelled: `Pickle.v`: `__reduce__`/`__setstate__`/`copy`/`deepcopy`, a pickle as the tree of constructor calls it makes, read in any other process state.
* Proof: induction over the tree; histories.
* Proved: `C70_quantity`, `C70_uncertain`, `C70_unit`, `C70_same_process`, `C70_half_made_refuted`, `C70_other_definition_refuted`, `C70_name_taken`, `C70_compound_refuted`.

**C71 memoize is transparent.** Whatever calls were made before and however their returned objects were changed, calling a memoized pure function returns a new object with the contents the function returns, or raises what it raises; of two invocations of the wrapped function with equal arguments the first raised (a successful invocation is never repeated), even for impure functions. The returned objects are the caller's own: no two calls return the same object, later calls do not change it, and changing it changes no other. Unhashable arguments raise TypeError. The function must not tell equal arguments apart: after a call with 1, a call with 1.0 returns the result for 1.

* Modelled: `Decor.v`: `memoize` with a store of mutable objects, `quantitizer`.
* Proof: invariant over call histories; case analysis.
* Proved: `C71_transparent`, `C71_once`, `C71_first_result`, `C71_owned`, `C71_equal_arguments_refuted`.

**C72 quantitizer converts arguments and results.** If a call of a wrapped function returns, the function was called with the magnitudes of the positional quantities in the default units, other arguments unchanged, and each result with a corresponding quantity in the handler's answer has that quantity's units and the physical value of the plain result in the default units. The units in which the arguments are expressed do not affect the result, nor (if they can be simplified) the exception. Quantity keyword arguments always raise AttributeError, and with the default handler every call fails with TypeError.

* Modelled: `Decor.v`: `memoize` with a store of mutable objects, `quantitizer`.
* Proof: invariant over call histories; case analysis.
* Proved: `C72_what_happens`, `C72_units_do_not_matter`, `C72_same_outcome`, `C72_defined`, `C72_keywords_refuted`, `C72_keywords_error`, `C72_default_handler_refuted`.

**C73 The built-in unit table is consistent.** Importing the package creates every unit of its tables, each from units created before and with a positive factor; no two units share a name, symbol or alias; every name, symbol and alias looks up its unit (exceptions: 'as' and '(esu/s)'); printed labels of their products read back (exceptions: six units printed by odd symbols); the default units are the SI base units (and the bit) and every quantity in these units can be simplified (exception: the statampere, a unit of current not defined by amperes). The alias 'international_foot' is missing and the oersted has the alias 'aliases'.

* Modelled: `Table.v` (generated from /repo/quantities/units by tools/table.py), `Import.v`.
* Proof: a verified checker (`TableFacts.v`) that abstracts real factors by rationals, run by `vm_compute`.
* Proved: `C73_import`, `C73_exception_ends_import`, `C73_names`, `C73_unambiguous`, `C73_nothing_else`, `C73_symbols_refuted`, `C73_labels_read_back`, `C73_defaults`, `C73_std_defaults`, `C73_defaults_wf`, `C73_simplifiable`, `C73_simplified_total`, `C73_statampere_refuted`.

**C74 Positions of extrema and non-zero elements do not depend on units.** argmax/argmin return, for every lane along the axis, the first position of the largest/smallest physical value; nonzero returns exactly the positions whose physical value is not zero. The answer, or the exception, is the same whatever unit the data is expressed in.

* Modelled: `Methods.v`: the ndarray methods of quantity.py, item access with any index selector, `Lanes.v` for axis reductions.
* Proof: each reduction commutes with multiplication by a positive number; induction over lanes.
* Proved: `C74_argmax`, `C74_argmin`, `C74_nonzero`, `C74_unit_independent`.

**C75 nanmax and nanmin ignore their axis argument.** q.nanmax(axis) and q.nanmin(axis) equal the overall q.max() and q.min() for every axis (data without NaN); hence the documented reduction along an axis does not happen.

* Modelled: `Methods.v`: the ndarray methods of quantity.py, item access with any index selector, `Lanes.v` for axis reductions.
* Proof: each reduction commutes with multiplication by a positive number; induction over lanes.
* Proved: `C75_nanmax_ignores_axis`, `C75_nanmax_refuted`.

**C76 diff subtracts neighbouring physical values.** np.diff / umath.diff of a quantity along an axis keeps the units and gives, at every index, the physical value of the next element minus that of the element itself; an axis out of range raises ValueError.

* Modelled: `Umath.v`: umath.py over the ufunc layer, slices, `trapz`, `gradient`, `cross`, `unwrap`.
* Proof: induction over lists/lanes, element formulas.
* Proved: `C76_diff`, `C76_diff_bad_axis`.

**C77 ediff1d keeps units; its padding arguments.** umath.ediff1d(q) keeps the units and gives the differences of neighbouring physical values in row-major order. Padding arguments to_end/to_begin do not denote their physical value: their raw numbers are inserted whatever their units.

* Modelled: `Umath.v`: umath.py over the ufunc layer, slices, `trapz`, `gradient`, `cross`, `unwrap`.
* Proof: induction over lists/lanes, element formulas.
* Proved: `C77_ediff1d`, `C77_padding`, `C77_padding_units_ignored`, `C77_padding_refuted`.

**C78 gradient differentiates with units.** One-dimensional umath.gradient(f, h) has units f.units/h.units; with a scalar spacing the values are one-sided differences at the ends and central differences inside, of physical values; with coordinates it is exact on linear functions. Without a spacing it returns an empty tuple, with a plain spacing it raises AttributeError.

* Modelled: `Umath.v`: umath.py over the ufunc layer, slices, `trapz`, `gradient`, `cross`, `unwrap`.
* Proof: induction over lists/lanes, element formulas.
* Proved: `C78_gradient_uniform`, `C78_gradient_linear_exact`, `C78_gradient_refuted`.

**C79 cross multiplies units.** umath.cross of two arrays of 3-vectors has the product of the units and the usual components of the physical vectors.

* Modelled: `Umath.v`: umath.py over the ufunc layer, slices, `trapz`, `gradient`, `cross`, `unwrap`.
* Proof: induction over lists/lanes, element formulas.
* Proved: `C79_cross`.

**C80 unwrap works on raw magnitudes.** umath.unwrap(p, discont) keeps units and shape; along the axis it changes the raw magnitudes by multiples of 2*pi, keeping jumps smaller than discont and reducing the others to at most pi. It is therefore not independent of the units of p, and with a plain discont (the default) the result carries no units.

* Modelled: `Umath.v`: umath.py over the ufunc layer, slices, `trapz`, `gradient`, `cross`, `unwrap`.
* Proof: induction over lists/lanes, element formulas.
* Proved: `C80_unwrap`, `C80_default_loses_units`, `C80_unwrap_refuted`.

**C81 A failing operation changes nothing.** If an in-place operation, a constructor or any other modelled operation raises, every array and every quantity is exactly as before; and every state a program can reach is well-formed (shapes match, views lie within their memory, units hold the number one and cannot be written to).

* Modelled: `Heap.v`: buffers, windows, bases, the write flag; the operations on objects as state transitions (NumPy 1 and 2).
* Proof: invariants over arbitrary sequences of operations; frame lemmas.
* Proved: `C81_errors_change_nothing`, `C81_reachable`.

**C82 What shares memory.** Quantity(a, units) of a plain array a and q.magnitude are windows on the memory of a and q: after any history, both hold the same numbers.

* Modelled: `Heap.v`: buffers, windows, bases, the write flag; the operations on objects as state transitions (NumPy 1 and 2).
* Proof: invariants over arbitrary sequences of operations; frame lemmas.
* Proved: `C82_views_share`.

**C83 Integer arrays.** Item assignment into an integer quantity stores the converted value truncated toward zero, and leaves the other elements. The elements selected from an integer quantity are again an integer quantity, with the same units. In-place division, in-place operators with float operands, in-place addition, subtraction and remainder with operands in other units, and changing the units of an integer quantity in place raise and change nothing.

* Modelled: `Heap.v`: buffers, windows, bases, the write flag; the operations on objects as state transitions (NumPy 1 and 2).
* Proof: invariants over arbitrary sequences of operations; frame lemmas.
* Proved: `C83_setitem`, `C83_items_keep_the_type`, `C83_no_float_into_int`, `C83_truncates`.

**C84 Quantity(q, units) is a protected copy.** Quantity(q, units) of a quantity q holds what q.rescale(units) returns in memory of its own; but it is a view of a quantity no variable refers to, so changing its units in place always raises ValueError.

* Modelled: `Heap.v`: buffers, windows, bases, the write flag; the operations on objects as state transitions (NumPy 1 and 2).
* Proof: invariants over arbitrary sequences of operations; frame lemmas.
* Proved: `C84_quantity_of_quantity`.

**C85 Alternative spellings of unit labels.** In a unit label '^' means '**', a middle dot means '*', and the empty label means dimensionless: replacing every occurrence of one spelling by the other never changes what the registry answers (value or exception).

* Modelled: `Lex.v`, `Registry.v`: label preprocessing, tokenizer, expression parser, whitelist, evaluation, `__setitem__`; `Markup.v`: printing with regex substitutions; `Text.v`.
* Proof: induction over registration histories, expressions and strings; round trip printing/parsing; `frepr`/`fread` (text of floats) are parameters with the hypothesis that they are inverse.
* Proved: `C85_caret`, `C85_middle_dot`, `C85_empty`.

**C86 max, min, argmax and argmin of uncertain quantities ignore the axis.** max and min of an uncertain quantity return the first measurement with the largest (smallest) value of the whole array, with its own uncertainty, and argmax and argmin its position in the flattened array, whatever axis is given; they raise ValueError exactly for empty arrays.

* Modelled: `Uncert.v`: value and uncertainty as two quantities; operators of uncertainquantity.py.
* Proof: each operation described on pairs (value, uncertainty); invariant over an inductive closure of all operations.
* Proved: `C86_max_min`, `C86_argmax`, `C86_defined`, `C86_axis_refuted`.

**C87 Where uncertainties get lost.** A unit as left operand of *, /, + or - and every NumPy function return the value with zero uncertainty in no units (so unit*x and x*unit differ); x += y adds the values and keeps the uncertainty of x; assigning units raises AttributeError, as does UncertainQuantity(x) without an uncertainty.

* Modelled: `Uncert.v`: value and uncertainty as two quantities; operators of uncertainquantity.py.
* Proof: each operation described on pairs (value, uncertainty); invariant over an inductive closure of all operations.
* Proved: `C87_unit_on_the_left`, `C87_ufunc`, `C87_not_commutative`, `C87_in_place`, `C87_rejected`.

**C88 Copies of units and quantities.** After any history of unit creation u.copy() returns a new unit of the same class, name, definition, symbols and aliases and changes the meaning of no name (dimensionless.copy() raises TypeError). copy.deepcopy of a quantity has the same magnitudes and units; of a unit it is a plain quantity 1 u; of an uncertain quantity it is a plain quantity without the uncertainty.

* Modelled: `Pickle.v`: `__reduce__`/`__setstate__`/`copy`/`deepcopy`, a pickle as the tree of constructor calls it makes, read in any other process state.
* Proof: induction over the tree; histories.
* Proved: `C88_copy_unit`, `C88_copy_dimensionless_refuted`, `C88_deepcopy`, `C88_deepcopy_unit`, `C88_deepcopy_uncertain_refuted`.

**C89 Built-in units have their standard sizes.** Some 220 built-in units have exactly the size of their international definition in terms of other units (inch 0.0254 m, pound 0.45359237 kg, psi, calorie, degree Rankine, gibibyte ...), and rescaling any quantity in them multiplies by that number. The pond is a thousand gram-forces instead of one.

* Modelled: `Table.v` (generated from /repo/quantities/units by tools/table.py), `Import.v`.
* Proof: a verified checker (`TableFacts.v`) that abstracts real factors by rationals, run by `vm_compute`.
* Proved: `C89_standard_sizes`, `C89_rescale`, `C89_pond_refuted`.

**C90 Rescaling in double arithmetic is accurate.** Carried out in IEEE double arithmetic (unlimited exponent range, pow within one machine epsilon), rescale succeeds and fails exactly as in exact arithmetic, gives the same units and shape, and each element has a relative error of at most as many machine epsilons as there are roundings in the definitions of the units involved; defining a unit adds the roundings of its definition and one.

* Modelled: `Float.v`: the same model run in double arithmetic (`NumF`): every operation rounds to the nearest 53-bit number (Flocq), `pow` is any function within one epsilon.
* Proof: relative errors as logarithms; count of roundings along the definitions; monotonicity of rounding.
* Proved: `C90_accuracy`, `C90_definitions`.

**C91 Converting back and forth in double arithmetic.** Rescaling a quantity of doubles to other units and back changes no element by more than four machine epsilons, however the units are defined, and gives back the units and the shape.

* Modelled: `Float.v`: the same model run in double arithmetic (`NumF`): every operation rounds to the nearest 53-bit number (Flocq), `pow` is any function within one epsilon.
* Proof: relative errors as logarithms; count of roundings along the definitions; monotonicity of rounding.
* Proved: `C91_round_trip`.

**C92 Rounding keeps order, sign and zero.** Rescaling in double arithmetic never reverses the order of two elements, keeps equal elements equal, and keeps zero and the sign of each element.

* Modelled: `Float.v`: the same model run in double arithmetic (`NumF`): every operation rounds to the nearest 53-bit number (Flocq), `pow` is any function within one epsilon.
* Proof: relative errors as logarithms; count of roundings along the definitions; monotonicity of rounding.
* Proved: `C92_order`.

**C93 The built-in units in double arithmetic.** The import succeeds in double arithmetic and gives the same units under the same names with the same default units; converting any array of doubles between any two built-in units has a relative error of at most 1e-13, and is refused exactly when it should be.

* Modelled: the same, over the generated table.
* Proof: the checker of `LibFloat.v` counts roundings and is run by `vm_compute`.
* Proved: `C93_import`, `C93_units`.

**C94 Operators in double arithmetic.** q + o and q - o of quantities of doubles in different units succeed and fail as in exact arithmetic, with the same units and shape; each element a + b (b converted) is off by at most the roundings of the conversion plus one times |a| + |b|. Products and quotients make one rounding per element.

* Modelled: `Float.v`: the same model run in double arithmetic (`NumF`): every operation rounds to the nearest 53-bit number (Flocq), `pow` is any function within one epsilon.
* Proof: relative errors as logarithms; count of roundings along the definitions; monotonicity of rounding.
* Proved: `C94_addition`, `C94_products`, `C94_signs`.

**C95 Comparisons in double arithmetic.** Comparing quantities of doubles in different units gives the exact answer for every pair of elements that do not agree up to the roundings of the conversion; in the same units it is always exact.

* Modelled: `Float.v`: the same model run in double arithmetic (`NumF`): every operation rounds to the nearest 53-bit number (Flocq), `pow` is any function within one epsilon.
* Proof: relative errors as logarithms; count of roundings along the definitions; monotonicity of rounding.
* Proved: `C95_comparisons`.

**C96 simplified in double arithmetic.** simplified of a quantity of doubles succeeds and fails exactly as in exact arithmetic, with the same units, and is exact up to the number of roundings in the definitions; for numbers in a built-in unit the relative error is at most 1e-13.

* Modelled: `Float.v`: the same model run in double arithmetic (`NumF`): every operation rounds to the nearest 53-bit number (Flocq), `pow` is any function within one epsilon.
* Proof: relative errors as logarithms; count of roundings along the definitions; monotonicity of rounding.
* Proved: `C96_simplified`, `C96_library`.

**C97 Rounding.** q.round(decimals) keeps units and shape and replaces each element by the nearest multiple of 10**-decimals in the current units, of two equally near ones by the even multiple; rounding twice changes nothing, and the builtin round(q, d) is q.round(d), round(q) is q.round(0). Rounding therefore depends on the units: 1.7 m and 170 cm round to different lengths.

* Modelled: `Methods2.v`: `round`, `__round__`, `argsort`, `trace`, `squeeze` of quantity.py over a trusted reading of the NumPy functions (`argsort` for any sorting algorithm).
* Proof: nearest multiples by integer parts; permutations; induction over lanes.
* Proved: `C97_round`, `C97_round_unique`, `C97_idempotent`, `C97_builtin_round`, `C97_unit_independent_refuted`.

**C98 argsort.** q.argsort(axis) returns plain indices: along the axis (of the flattened array if axis is None) they are a permutation of the positions that puts the physical values in nondecreasing order; it raises ValueError exactly for an axis out of range. If no value occurs twice the indices do not depend on the units q is expressed in.

* Modelled: `Methods2.v`: `round`, `__round__`, `argsort`, `trace`, `squeeze` of quantity.py over a trusted reading of the NumPy functions (`argsort` for any sorting algorithm).
* Proof: nearest multiples by integer parts; permutations; induction over lanes.
* Proved: `C98_argsort`, `C98_defined`, `C98_unit_independent`.

**C99 trace and squeeze.** q.trace(offset, axis1, axis2) is the sum of the elements on that diagonal, in the units of q, defined exactly if the axes are valid and different (ValueError otherwise). q.squeeze(axis) keeps units and elements and removes axes of length one.

* Modelled: `Methods2.v`: `round`, `__round__`, `argsort`, `trace`, `squeeze` of quantity.py over a trusted reading of the NumPy functions (`argsort` for any sorting algorithm).
* Proof: nearest multiples by integer parts; permutations; induction over lanes.
* Proved: `C99_trace`, `C99_trace_defined`, `C99_squeeze`, `C99_squeeze_axis`.

**C100 NaN-aware sums, means and deviations.** q.nansum(axis), q.nanmean(axis) and q.nanstd(axis, ddof) are the sum, mean and standard deviation of the elements that are not NaN, in the units of q; the sum of none is 0, the mean of none is NaN, and so is the standard deviation of at most ddof elements. They raise ValueError exactly for an axis out of range. Without NaN, nansum is sum.

* Modelled: `Nan.v`: magnitudes are `option R` (`None` is NaN, which propagates through arithmetic and falsifies comparisons); the nan-methods; the unchanged model of conversion, operators and comparisons run at these magnitudes.
* Proof: the model at `option R` is shown to be the model at `R` elementwise (`lift_*`), then as C10-C31.
* Proved: `C100_somes`, `C100_nan_reductions`, `C100_defined`, `C100_without_nan`, `C100_without_nan_sum`.

**C101 NaN-aware extrema ignore the axis.** q.nanmax(axis) and q.nanmin(axis) return the largest and smallest of all elements of the whole array that are not NaN, in the units of q (NaN if all are, ValueError for an empty array); q.nanargmax and q.nanargmin its first position in the flattened array (ValueError if there is none). The axis has no effect at all.

* Modelled: `Nan.v`: magnitudes are `option R` (`None` is NaN, which propagates through arithmetic and falsifies comparisons); the nan-methods; the unchanged model of conversion, operators and comparisons run at these magnitudes.
* Proof: the model at `option R` is shown to be the model at `R` elementwise (`lift_*`), then as C10-C31.
* Proved: `C101_nanmax`, `C101_nanargmax`, `C101_axis_ignored`, `C101_axis_refuted`.

**C102 NaN and unit conversion.** NaN elements stay where they are: rescale succeeds and fails as without NaN, the result has NaN at exactly the same indices and the same physical value elsewhere; simplified likewise; + and - are defined as without NaN and give NaN exactly where an operand has one; every comparison with NaN is False except !=, in any units, so a quantity with a NaN element is not equal to itself there.

* Modelled: `Nan.v`: magnitudes are `option R` (`None` is NaN, which propagates through arithmetic and falsifies comparisons); the nan-methods; the unchanged model of conversion, operators and comparisons run at these magnitudes.
* Proof: the model at `option R` is shown to be the model at `R` elementwise (`lift_*`), then as C10-C31.
* Proved: `C102_rescale`, `C102_simplified`, `C102_simplified_defined`, `C102_add_sub`, `C102_add_sub_defined`, `C102_comparisons`, `C102_nan_not_equal`.

**C103 Prefixed units.** Every built-in unit whose name is a decimal or binary prefix followed by the name of another built-in unit (megasecond, femtofarad, kilowatt_hour, gibibyte ...) is that multiple of the other unit, and rescaling any quantity multiplies by exactly that power.

* Modelled: `Table.v` (generated from /repo/quantities/units by tools/table.py), `Import.v`.
* Proof: a verified checker (`TableFacts.v`) that abstracts real factors by rationals, run by `vm_compute`.
* Proved: `C103_prefixes`.

**C104 Physical constants.** Importing the package creates all constants of quantities.constants after the units; each constant, positive or negative, is exactly the number times the units that the package gives for it, so that rescaling any quantity in that constant to those units multiplies by that number (for the constants of a separate list, the CODATA 2006 value). No name is registered, no default unit and no conversion between units changes, and conversions among units and positive constants preserve physical values. A label that prints a constant does not read back as it: 'h' is the hour, 'au' the unit and not the constant.

* Modelled: `Constants.v` (generated from /repo/quantities/constants by tools/constants.py), `Kimport.v`, on top of the library state of `Import.v`.
* Proof: the labels are evaluated in the checker state of `TableFacts.v` by `vm_compute` (`KFacts.v`); the rest by general lemmas about a unit defined by a number and a label; values are compared with the list `SpecConstants.v`.
* Proved: `C104_import`, `C104_frame`, `C104_value`, `C104_pure_numbers`, `C104_known`, `C104_positive`, `C104_conversions`, `C104_no_names`, `C104_printed`, `C104_labels_refuted`, `C104_exception_ends_import`.

**C105 NaN-aware sums and means of uncertain quantities.** For an uncertain quantity in which values and uncertainties may be NaN, nansum(axis) is the sum of the values that are numbers, with the root of the sum of the squares of the uncertainties that are numbers; nanmean(axis) is their mean with that root divided by the number of values that are numbers, for each lane that has one. Both keep the units, raise ValueError exactly for an axis that does not exist, and nansum is sum on data without NaN. An element whose value is NaN but whose uncertainty is a number still contributes to the uncertainty.

* Modelled: `UncertNan.v`: the nan-methods of uncertainquantity.py over `Nan.v` and `Uncert.v`, value and uncertainty NaN independently.
* Proof: lanes of the two arrays as for C69 and C100, elementwise.
* Proved: `C105_nansum`, `C105_nanmean`, `C105_defined`, `C105_without_nan`, `C105_counts_nan_values_refuted`.

**C106 NaN-aware extrema of uncertain quantities.** x.nanmax(axis) and x.nanmin(axis) of an uncertain quantity return the first element whose value is the largest (smallest) of all values that are numbers, together with its own uncertainty; nanargmax and nanargmin its position in the flattened array; all raise ValueError if no value is a number. The axis has no influence.

* Modelled: `UncertNan.v`: the nan-methods of uncertainquantity.py over `Nan.v` and `Uncert.v`, value and uncertainty NaN independently.
* Proof: lanes of the two arrays as for C69 and C100, elementwise.
* Proved: `C106_nanmax_nanmin`, `C106_axis_ignored`, `C106_axis_refuted`.

**C107 Printed quantities show value and units.** str(q), repr(q) and format(q, spec) consist of NumPy's text of the magnitude and the units; over units created by any history and with printable symbols and exponents, two quantities print the same iff NumPy prints their magnitudes the same and their units are equal. The label after the last blank of str(q) and of repr(q), which is a product, denotes exactly q's units: Quantity(q.magnitude, label) is q again. With Unicode output the units are written with a raised dot and superscripts, and in the text of an uncertain quantity every '+/-' and every ' sigma' is replaced, also inside the name of a unit. For uncertain quantities str and repr also determine the text of the uncertainty. Formatting an array with a non-empty specification raises TypeError.

* Modelled: `Show.v`: `__str__`, `__repr__`, `__format__` over `Markup.v`; the text NumPy prints for an array is a parameter.
* Proof: the characters of a printed dimensionality exclude blanks, commas and newlines, so the text splits uniquely; then C62 and C63.
* Proved: `C107_str`, `C107_repr`, `C107_units_read_back`, `C107_format`, `C107_format_arrays`, `C107_uncertain_repr`, `C107_uncertain_str`, `C107_unicode`, `C107_unicode_uncertain`, `C107_sigma_refuted`.

**C108 Printed units name the unit.** str(unit) tells the unit's name: units (other than compound ones) with the same text have the same name; a unit created with a symbol prints as '1 symbol (name)' and both texts remain labels for that unit whatever is created later; repr(unit) identifies class and name, and shows the definition and the symbol. A unit with only a u_symbol prints its name twice ('1 foo (foo)') when Unicode output is off.

* Modelled: `Show.v`: `__str__`, `__repr__`, `__format__` over `Markup.v`; the text NumPy prints for an array is a parameter.
* Proof: the characters of a printed dimensionality exclude blanks, commas and newlines, so the text splits uniquely; then C62 and C63.
* Proved: `C108_str_tells_the_name`, `C108_created`, `C108_repr_identifies`, `C108_repr_created`, `C108_name_twice_refuted`.

**C109 Parts of complex quantities.** For a quantity of complex dtype, q.real and q.imag have q's units and shape and the real and imaginary parts of q's physical value; rescale converts both parts and is defined as for a real quantity. Assigning to q.real or q.imag replaces exactly that part by the physical value of what is assigned (plain data count in q's units; values are broadcast) and leaves the units and the other part alone; it raises ValueError, changing nothing, if the units cannot be converted or the shapes do not broadcast, and never otherwise. If q is dimensionless the units of an assigned quantity are silently dropped. For a real dtype, assigning to q.imag always raises.

* Modelled: `Complex.v`: magnitudes are pairs; `real`, `imag`, their setters, `rescale`.
* Proof: pointwise from `rescale_value` and the broadcasting lemmas of `ItemFacts.v`.
* Proved: `C109_parts`, `C109_rescale`, `C109_set_real`, `C109_set_imag`, `C109_set_defined`, `C109_set_iff`, `C109_dimensionless_refuted`, `C109_real_dtype`, `C109_real_dtype_imag`.

**C110 Arithmetic in labels has Python's precedence.** A label built from names, numbers, parentheses and the operators + - * / // ** is read exactly by Python's expression grammar: unit_registry answers with the value of the unique tree that the grammar derives ('a/b*c' is (a/b)*c, 'a**b**c' is a**(b**c), '-a**b' is -(a**b)), and a label that the grammar does not derive is refused.

* Modelled: `Lex.v` (tokens, recursive-descent parser) against `SpecGrammar.v`, an inductive relation transcribing the rules of the language reference.
* Proof: soundness and completeness of the parser for the relation by induction on fuel and on derivations; the fuel given always suffices (`parse_fuel_enough`, `lex_fuel_enough`).
* Proved: `C110_grammar`, `C110_unambiguous`, `C110_meaning`, `C110_precedence`.

**C111 Labels compose.** If labels a and b (neither empty nor 'in') mean the values A and B then '(a)*(b)', '(a)·(b)', '(a)/(b)', '(a)//(b)', '(a)+(b)', '(a)-(b)' mean the result of that operation on A and B, '(a)' means A, '-(a)' means -A; '(a)**(b)' and '(a)^(b)' with a number for b mean the power. In particular the units of the product, quotient and power are those of A and B added, subtracted, multiplied. If A and B are numbers the label means their sum, difference, product, quotient (ZeroDivisionError for B = 0) or integral power, exactly. ('in' means inch only when it is the whole label: '(in)' is a SyntaxError.)

* Modelled: `Registry.v` get_item over `Lex.v`.
* Proof: tokens of a text followed by a closing parenthesis are its own tokens; preprocessing works on the pieces separately; then C110.
* Proved: `C111_composition`, `C111_parentheses`, `C111_products`, `C111_powers`, `C111_numbers`.

**C112 Labels give well-formed units that exist.** Whatever the text of a label, if unit_registry[label] gives a unit or quantity, it is a scalar, no unit occurs twice in it or with exponent zero, the dimensionless unit never does, and every unit in it is a registered unit. This holds after any history of unit creations, and stays true when the value of a label is stored under a new name. So units given as a string to rescale, the Quantity constructor or the units setter are well formed or refused. They are refused with the error of the lookup, or with AttributeError if the label means a number or another object without units.

* Modelled: `Registry.v`.
* Proof: induction on the expression; each operator of `Ops.v` maps well-formed scalars in known units to such.
* Proved: `C112_label_values`, `C112_units_only`, `C112_histories`, `C112_naming`, `C112_unit_strings`, `C112_refused_strings`.

**C113 Default units of the shipped library.** After importing the library and any sequence of set_default_units calls with any arguments, successful or not, every base-unit class has a default exactly if it had one at import, the default is convertible to the SI base unit of the class, and simplified succeeds for every quantity in library units (except the statampere), preserving its value and using only the current default units. set_default_units('SI') and set_default_units('cgs') always succeed; 'SI' makes the seven SI base units the defaults, 'cgs' cm, g, s, cd, mol, K but leaves the default current unchanged; information keeps its default in both; any other system name is a ValueError that changes nothing.

* Modelled: `Defaults.v` with the registry of `Import.v`.
* Proof: an invariant of set_default_unit (the default stays convertible to the base unit), induction on the calls; the names used by the systems are looked up in the generated table by `vm_compute`.
* Proved: `C113_defaults_convertible`, `C113_simplified`, `C113_systems`.

**C114 Temperatures are converted as intervals.** Conversion multiplies magnitudes by one positive factor, so zeros stay zero. Hence x degC converts to x K and x degF to 5/9 x K: no temperature in degC or degF is converted to the kelvins that the Celsius and Fahrenheit scales say.

* Modelled: `Quant.v` rescale, `Table.v`.
* Proof: the conversion factor is the ratio of two positive sizes; then C89 for the temperature units.
* Proved: `C114_temperatures_refuted`, `C114_no_offsets`.

**C115 Programs do not depend on the units of their inputs.** Take any program made of the operators, comparisons, methods, item access and assignment, ufuncs, rescale and simplified, with local variables, conditionals and loops. Run it on two lists of inputs that hold equal values, the quantities possibly in other units. It ends with an exception for one iff it ends with the same exception for the other, terminates for one iff for the other, takes the same branches, returns the same booleans, indices and plain arrays, and quantities that are equal in other units. This holds for every environment of units and for the units of the shipped library under any default units.

* Modelled: `Program.v`: a language whose steps are the calls modelled in Ops.v, Methods.v, Methods2.v, Ufunc.v, Quant.v, with a big-step semantics including exceptions and loops.
* Proof: each call commutes with changes of units (a logical relation on values); induction on the run; `Props_Library.v` instantiates the result with the shipped library.
* Proved: `C115_library`, `C115_one_result`, `C115_units_of_inputs`.

**C116 Programs compute what the unitless program computes.** If a program (as above, without == and != between quantities) succeeds on quantities then the same program without its rescale and simplified calls succeeds on the dimensionless values of the inputs in any coherent system of units, takes the same branches, and returns the same booleans, indices and plain arrays and the values of the quantities in that system. With == it does not: for quantities of different kinds == answers False instead of raising.

* Modelled: `Program.v`: a language whose steps are the calls modelled in Ops.v, Methods.v, Methods2.v, Ufunc.v, Quant.v, with a big-step semantics including exceptions and loops.
* Proof: each call commutes with changes of units (a logical relation on values); induction on the run; `Props_Library.v` instantiates the result with the shipped library.
* Proved: `C116_library`, `C116_units_erased`, `C116_equality_refuted`.

**C117 Names under threads.** Any number of threads register names, create units and compound units, look labels up, set default units and simplify, in any order of their steps, and calls may be interrupted at any step. Names that are registered when the threads start keep their values and the unit objects theirs; every other name, at any time, has the value that one of the calls gives it; a lookup of a name known at the start, or of a product, quotient or power of such names, returns what it meant at the start. A call during which no other thread makes a step does what it does without threads. Not guaranteed: two threads can register a new name for different values, both successfully, and the name then changes its meaning; two units created at the same time can get the same place in the printing order, so that equal products of them print differently.

* Modelled: `Sched.v`: each call as a sequence of atomic accesses to the registry dictionary, the class attributes and the list of units; threads that make calls depending on earlier results; steps in any order, interrupts anywhere.
* Proof: rely/guarantee: an invariant of the shared state that every access of every call keeps; `solo` of each call equals the sequential model; the races by explicit schedules.
* Proved: `C117_undisturbed`, `C117_names_kept`, `C117_lookup`, `C117_lookup_name`, `C117_names_refuted`, `C117_order_refuted`.

**C118 simplified under threads.** Whatever other threads do while simplified runs (create units, set default units, register names), the quantity it returns has the value and the shape of its argument, and every unit in it belongs to a unit that was a default unit at some moment between the call and the return. If no unit is created meanwhile and all units of the argument have default units when the threads start, simplified does not raise.

* Modelled: the same; `simplified` reads the default unit once per unit.
* Proof: the invariant carries well-formed, convertible defaults; the loop of `simplified` has the value of the units done so far.
* Proved: `C118_simplified`, `C118_succeeds`.

**C119 Default units under threads.** If a class has a default unit when the threads start, then at every moment of every schedule it has one, convertible to the one at the start. If it has none, two threads that create its first units can both set the default: then the default unit that one of them has set is replaced by a unit that cannot be converted to it.

* Modelled: the same.
* Proof: the same invariant; the race by an explicit schedule.
* Proved: `C119_defaults`, `C119_refuted`.

**C120 Interrupted creations and settings.** If the creation of a unit is interrupted at any step, the names it has registered so far are an initial part of its names, other names and existing default units are unchanged, and at most its own class has got a default unit (this one). If its names were all free, the same creation can be repeated: it succeeds, and every name denotes a unit with this class, name, symbol and definition. If set_default_units is interrupted, some of its settings, from the first one on, have been made and nothing else has changed; if the call would have succeeded, it can be repeated, and then leaves the same default units as without the interruption.

* Modelled: the same: the state after n accesses of a call.
* Proof: a call that is cut off is cut inside one of its parts; settings commute with convertible defaults.
* Proved: `C120_creation`, `C120_creation_again`, `C120_defaults`, `C120_defaults_again`.

**C121 Setting units, interrupted or by two threads.** Setting the units attribute does what rescale does, in place, or raises and changes nothing. Interrupted at any step it leaves the value of the quantity unchanged (in the old or in the new units), with one exception: between the multiplication of the magnitudes and the assignment of the new units the quantity has the new magnitudes with the old units, so another value, unless the conversion factor is 1 or all magnitudes are 0. Two threads that set the units of one quantity to the same units can both succeed and convert it twice.

* Modelled: `Sched.v`: the setter as four accesses to the quantity.
* Proof: cases on the point of interruption; explicit schedule for two threads.
* Proved: `C121_undisturbed`, `C121_interrupted`, `C121_refuted`.

**C122 Units and shapes do not depend on the data.** Whether a call succeeds, which exception it raises, and the kind, units and shape of its result depend on the kinds, units and shapes of its arguments and not on the magnitudes (exponents, indices and axes count as part of the call; for all operators, comparisons, methods, item access and assignment, ufuncs, rescale and simplified, except selection with a mask and nonzero, whose shapes depend on the data). So one run of a program without branches predicts units, shape or exception of the result for all data of the same units and shapes; and a check of each call of a program on one sample, with the branches of a conditional agreeing and the body of a loop preserving units and shape, predicts them for all data and all paths.

* Modelled: `Program.v`: the programs of C115; the check tries each call once on ones.
* Proof: two-run simulation on values of equal kind, units and shape, for every call and, by induction, every program.
* Proved: `C122_checked`, `C122_one_run`.

**C123 Conversions stay within the range of doubles.** With overflow and subnormal numbers taken into account (IEEE double precision with its range of exponents), import quantities succeeds with the same units, names and default units, every built-in unit has a finite normal size, and converting any array of zeros and numbers of magnitude 2**-500 to 2**500 between any two built-in units is refused exactly when it should be and gives finite numbers with a relative error of at most 1e-13. For other units it holds with an error bound when a count of the roundings and binary exponents of their definitions is at most 480.

* Modelled: `Double.v`: the same model in double precision with its range of exponents (`NumD`, Flocq `FLT`): a number beyond 2^1024 is not a number of the model, subnormal numbers lose bits.
* Proof: one count bounds roundings and binary exponents, so no intermediate result leaves the normal range; the checker of `LibDouble.v` computes the count for the table.
* Proved: `C123_accuracy`, `C123_import`, `C123_units`.

**C124 simplified stays within the range of doubles.** With overflow and subnormal numbers taken into account, simplified of any array of zeros and numbers of magnitude 2**-500 to 2**500 in a built-in unit succeeds and fails as in exact arithmetic, with the same units and shape, and gives finite numbers with a relative error of at most 1e-13; the same, with an error bound, for units defined by the user with a bounded count of roundings and binary exponents.

* Modelled: `Double.v`: the same model in double precision with its range of exponents (`NumD`, Flocq `FLT`): a number beyond 2^1024 is not a number of the model, subnormal numbers lose bits.
* Proof: one count bounds roundings and binary exponents, so no intermediate result leaves the normal range; the checker of `LibDouble.v` computes the count for the table.
* Proved: `C124_simplified`, `C124_library`.

**C125 Operators and round trips stay within the range of doubles.** With overflow and subnormal numbers taken into account and zeros and numbers of magnitude 2**-500 to 2**500 in any two built-in units: q + o and q - o are refused exactly when they should be, never overflow, and each element a + b is off by at most 1e-13 * (|a| + |b|); comparisons are exact except between numbers that agree up to 1e-13; rescaling to the other unit and back changes no element by more than four machine epsilons. Products, and quotients by numbers other than zero, make one rounding per element in any units. For user-defined units the same holds with a bound when a count of the roundings and exponents of their definitions is at most 480.

* Modelled: `Double.v`: the same model in double precision with its range of exponents (`NumD`, Flocq `FLT`): a number beyond 2^1024 is not a number of the model, subnormal numbers lose bits.
* Proof: one count bounds roundings and binary exponents, so no intermediate result leaves the normal range; the checker of `LibDouble.v` computes the count for the table.
* Proved: `C125_addition`, `C125_products`, `C125_comparisons`, `C125_library`, `C125_round_trip`, `C125_round_trip_library`.

**C126 Conversions preserve order exactly.** In double arithmetic, where conversions round, converting an array between convertible units never reverses the order of two elements, keeps zeros zero, never changes a sign, and commutes with negation exactly; the greatest (least) elements of the converted array, along any axis, are exactly the converted greatest (least) elements. With the range of exponents: of two finite elements the one of smaller magnitude is finite after conversion if the other is. It holds for any numbers, and for all pairs of built-in units.

* Modelled: `NumF` and `NumD`, conversions of Quant.v and the reductions of Methods.v.
* Proof: rounding is monotone, so the function a conversion applies to each element respects order, zero and negation; a fold of max or min commutes with it.
* Proved: `C126_order`, `C126_extremes`, `C126_range`, `C126_units`, `C126_extremes_units`.

**C127 When conversions overflow or underflow.** With IEEE double precision and its range of exponents, converting an array of any finite doubles between any two built-in units succeeds and fails as in exact arithmetic, and each element is decided by its exact result y: if |y| <= 2**1019 the double is finite and off by at most 1e-13 * |y| plus 2**-1074 (the smallest subnormal number); if |y| >= 2**1025 it is not finite (2**1020 km are not a double in metres). The same holds of all units whose definitions are of moderate size, with the bound counted from the definitions. Negation and absolute value are exact.

* Modelled: `NumD`, conversions of Quant.v.
* Proof: the factor of a conversion is at most k roundings from the exact one (C123); rounding errors are relative or at most the smallest subnormal; beyond 2^1024 rounding gives no number.
* Proved: `C127_range`, `C127_units`, `C127_signs`.

**C128 Threads that use the shipped units.** After import quantities let any threads look labels up, register names, create units, set default units and call simplified, in any interleaving. At every moment every name of the library means its unit, every built-in unit is defined as before, and the default unit of each base dimension is convertible to the one of the import. A label made of library names by products, quotients and powers is looked up with the same result as right after the import. simplified of a quantity in built-in units returns a quantity of the same value, in units that were default units at some moment during the call, and it succeeds (except for statampere and dimensionless units) if no unit is created meanwhile.

* Modelled: `Sched.v` started in the state after the import of `Table.v`.
* Proof: C117-C119 at the shipped library: its history is one of C70, its units are simplifiable (C73).
* Proved: `C128_library_kept`, `C128_labels`, `C128_simplified`.

**C129 Calculations with uncertainties do not depend on units.** Take any program over uncertain quantities and exact factors made of +, -, *, /, ** and sqrt, sum, mean, max and min that divides by no zero. If it computes a result, then the same program on the same measurements given in other units computes a result with the same values and the same uncertainties, in convertible units.

* Modelled: `Uncert.v`: programs as trees of method calls.
* Proof: induction over the program; each operation is a function of the measurements (C65, C68, C69, C86), so equal measurements give equal results; units of results stay convertible.
* Proved: `C129_unit_independent`.

**C130 Memoized functions under threads.** Let any number of threads call functions memoized with memoize, in any interleaving of their accesses to the cache, and let the holders of returned objects change them at any time. If the function returns equal results for equal arguments, every call returns a new object, owned by no other caller and not in the cache, with the result of the function for its arguments, or raises what the function raises (TypeError for unhashable arguments). No later access changes a returned object, and every call ends after at most five accesses of its own. That the function is invoked only once for equal arguments holds only without such races.

* Modelled: `Decor.v` with the calls cut into atomic accesses as in `Sched.v`.
* Proof: an invariant of all reachable states: cached objects hold the result of their key and are nobody else's; each unfinished call is at a known access; induction over the moves.
* Proved: `C130_transparent`, `C130_owned`, `C130_finishes`, `C130_once_refuted`.


## 6. What `Print Assumptions` lists for each theorem

Every property theorem has a `Print Assumptions` command at the end of its `Props_*.v` file; the lists below were collected from the compiled theorems by tools/assumptions.py.

**Closed under the global context** (no axioms) (189 theorems): `C01_mul`, `C01_mul_cancel`, `C01_mul_group`, `C01_mul_type`, `C02_div`, `C02_div_self`, `C02_div_type`, `C02_mul_div`, `C03_pow`, `C03_pow_laws`, `C03_pow_type`, `C04_imul_self`, `C04_inplace`, `C05_idiv_self_empty`, `C05_idiv_self_refuted`, `C06_add_sub`, `C06_type`, `C07_hash_order_independent`, `C07_hash_separates_powers`, `C08_collisions`, `C08_eq_separates_refuted`, `C09_ordering`, `C09_sum_abs`, `C09_total_preorder`, `C100_somes`, `C101_axis_ignored`, `C101_axis_refuted`, `C104_exception_ends_import`, `C107_format`, `C107_format_arrays`, `C107_repr`, `C107_sigma_refuted`, `C107_str`, `C107_uncertain_repr`, `C107_uncertain_str`, `C107_unicode`, `C107_unicode_uncertain`, `C107_units_read_back`, `C108_created`, `C108_name_twice_refuted`, `C108_repr_created`, `C108_repr_identifies`, `C108_str_tells_the_name`, `C109_dimensionless_refuted`, `C109_real_dtype_imag`, `C110_grammar`, `C110_meaning`, `C110_precedence`, `C110_unambiguous`, `C111_composition`, `C111_numbers`, `C111_parentheses`, `C112_label_values`, `C112_naming`, `C112_unit_strings`, `C112_refused_strings`, `C112_units_only`, `C117_lookup`, `C117_lookup_name`, `C117_names_kept`, `C117_names_refuted`, `C117_order_refuted`, `C117_undisturbed`, `C119_refuted`, `C11_rescale_bad_units`, `C120_creation`, `C120_defaults`, `C121_refuted`, `C130_finishes`, `C130_once_refuted`, `C130_owned`, `C130_transparent`, `C14_same_units_exact`, `C15_references_reduced`, `C16_new_units_harmless`, `C16_new_units_harmless_simplified`, `C19_simplified_terminates_refuted`, `C20_first_unit`, `C20_set_default_atomic`, `C20_set_default_others_unchanged`, `C20_what_is_set`, `C21_set_default_type_error_cases`, `C23_rescale_without_argument`, `C23_text_comparison_refuted`, `C24_explicit_int_dtype`, `C25_pos_refused`, `C28_never_fail`, `C28_no_conversion`, `C29_pow_units`, `C29_rpow`, `C30_plain_left`, `C34_complementary`, `C35_plain_ignores_units`, `C36_empty_dimensionality_refuted`, `C36_plain_data`, `C36_quantity_data`, `C37_factor_dropped`, `C38_products_defined`, `C39_plain_operand`, `C39_two_quantities`, `C40_arctrig`, `C40_log_exp`, `C41_first_checked`, `C46_clip_plain_refused`, `C47_getitem`, `C47_mask`, `C48_tolist`, `C51_fill_refuted`, `C51_history`, `C51_views`, `C51_views_protected`, `C54_refusals`, `C54_units_immutable`, `C55_effects_confined`, `C55_history`, `C55_pure`, `C55_results_fresh`, `C56_copy_history`, `C56_copy_independent`, `C56_deepcopy_shares_refuted`, `C57_inplace`, `C58_created`, `C58_lookup`, `C58_names_keep_their_value`, `C58_register`, `C59_arrays_are_ambiguous`, `C59_constants`, `C59_redefinition_refuted`, `C60_atomic_refuted`, `C60_failed_creation`, `C60_name_clash`, `C61_builtins_refuted`, `C61_everything_else_refused`, `C61_exponents_without_units`, `C61_only_arithmetic`, `C61_only_its_names`, `C61_reserved_words`, `C61_unknown_names`, `C61_unknown_names_inside`, `C62_created_units`, `C62_dimensionless`, `C62_text_means_the_product`, `C63_equal_print_same_refuted`, `C63_injective_refuted`, `C63_same_text_iff_equal`, `C64_attributes`, `C64_compound_alone`, `C64_compound_refuted`, `C64_fractions_refuted`, `C64_html`, `C64_latex`, `C64_plain`, `C64_sides`, `C64_symbols`, `C64_unicode`, `C64_unicode_decimals`, `C70_compound_refuted`, `C70_half_made_refuted`, `C70_name_taken`, `C70_other_definition_refuted`, `C71_equal_arguments_refuted`, `C71_first_result`, `C71_once`, `C71_owned`, `C71_transparent`, `C73_exception_ends_import`, `C75_nanmax_refuted`, `C76_diff_bad_axis`, `C77_padding`, `C77_padding_units_ignored`, `C78_gradient_refuted`, `C81_errors_change_nothing`, `C81_reachable`, `C82_views_share`, `C83_items_keep_the_type`, `C83_no_float_into_int`, `C83_setitem`, `C84_quantity_of_quantity`, `C85_caret`, `C85_empty`, `C85_middle_dot`, `C88_copy_dimensionless_refuted`, `C88_deepcopy`, `C88_deepcopy_uncertain_refuted`, `C88_deepcopy_unit`, `C97_builtin_round`, `C98_defined`, `C99_squeeze`, `C99_squeeze_axis`.

**classic, functional_extensionality_dep, sig_forall_dec, sig_not_dec** (294 theorems): `C100_defined`, `C100_nan_reductions`, `C100_without_nan`, `C100_without_nan_sum`, `C101_nanargmax`, `C101_nanmax`, `C102_add_sub`, `C102_add_sub_defined`, `C102_comparisons`, `C102_nan_not_equal`, `C102_rescale`, `C102_simplified`, `C102_simplified_defined`, `C103_prefixes`, `C104_conversions`, `C104_frame`, `C104_import`, `C104_known`, `C104_labels_refuted`, `C104_no_names`, `C104_positive`, `C104_printed`, `C104_pure_numbers`, `C104_value`, `C105_counts_nan_values_refuted`, `C105_defined`, `C105_nanmean`, `C105_nansum`, `C105_without_nan`, `C106_axis_ignored`, `C106_axis_refuted`, `C106_nanmax_nanmin`, `C109_parts`, `C109_real_dtype`, `C109_rescale`, `C109_set_defined`, `C109_set_iff`, `C109_set_imag`, `C109_set_real`, `C10_rescale_preserves_value`, `C10_rescale_units`, `C111_powers`, `C111_products`, `C112_histories`, `C113_defaults_convertible`, `C113_simplified`, `C113_systems`, `C114_no_offsets`, `C114_temperatures_refuted`, `C115_library`, `C115_one_result`, `C115_units_of_inputs`, `C116_equality_refuted`, `C116_library`, `C116_units_erased`, `C118_simplified`, `C118_succeeds`, `C119_defaults`, `C11_rescale_iff_convertible`, `C120_creation_again`, `C120_defaults_again`, `C121_interrupted`, `C121_undisturbed`, `C122_checked`, `C122_one_run`, `C123_accuracy`, `C123_import`, `C123_units`, `C124_library`, `C124_simplified`, `C125_addition`, `C125_comparisons`, `C125_library`, `C125_products`, `C125_round_trip`, `C125_round_trip_library`, `C126_extremes`, `C126_extremes_units`, `C126_order`, `C126_range`, `C126_units`, `C127_range`, `C127_signs`, `C127_units`, `C128_labels`, `C128_library_kept`, `C128_simplified`, `C129_unit_independent`, `C12_path_independent`, `C12_path_same_outcome`, `C12_roundtrip`, `C13_factor_group`, `C13_factor_products`, `C13_factor_unique`, `C15_consistent_exists_unique`, `C15_reference_of_quantity`, `C15_references_correct`, `C17_simplified_preserves_value`, `C18_simplified_canonical`, `C18_simplified_idempotent`, `C19_simplified_terminates_iff`, `C19_which_exception`, `C20_defaults_convertible`, `C20_set_default_iff`, `C20_set_default_units_atomic_refuted`, `C20_set_default_units_reach`, `C20_simplified_after_changes`, `C21_set_default_type_error_refuted`, `C22_dimensionless_magnitude`, `C23_first_convertible`, `C24_integers_not_truncated`, `C25_add`, `C25_add_elements`, `C25_neg_abs`, `C25_sub`, `C26_add_sub_mod_iff`, `C27_plain_sums`, `C27_plain_sums_iff`, `C28_products`, `C28_quotients`, `C29_pow_value`, `C30_remainder`, `C30_remainder_meaning`, `C31_floor_div_refuted`, `C31_floor_div_same_units`, `C31_floor_div_units`, `C32_comparisons`, `C32_powers`, `C32_products`, `C32_sums`, `C33_order`, `C33_order_iff`, `C34_eq_elements`, `C34_eq_iff`, `C34_equivalence`, `C34_incompatible`, `C34_never_raises`, `C35_plain_comparison_refuted`, `C37_unit_strings_refuted`, `C38_angle`, `C38_arctan2`, `C38_products`, `C38_radians_degrees`, `C38_remainders`, `C38_rounding_refuted`, `C38_rounding_values`, `C38_unary`, `C38_unary_unit_independent`, `C38_uniform`, `C38_uniform_plain`, `C40_trig`, `C41_second_unchecked_refuted`, `C42_defined`, `C42_unit_independent`, `C42_value`, `C43_accepts_iff`, `C43_hypot`, `C43_identical_units`, `C43_refuted`, `C44_cumsum`, `C44_cumsum_defined`, `C44_defined`, `C44_defined_nonempty`, `C44_reductions`, `C44_rescale`, `C44_shape`, `C44_unit_independent`, `C45_cumprod`, `C45_prod`, `C45_prod_defined`, `C45_var`, `C46_clip`, `C46_clip_defined`, `C46_clip_scalar`, `C47_getitem_basic`, `C47_put`, `C47_read_back`, `C47_setitem`, `C47_setitem_basic`, `C47_setitem_defined`, `C49_searchsorted`, `C49_searchsorted_defined`, `C50_trapz_points`, `C50_trapz_same_shape`, `C50_trapz_spacing`, `C52_errors`, `C52_set_units`, `C52_when`, `C53_corrupts_refuted`, `C53_others`, `C57_numpy2_refuted`, `C59_clashes_refused`, `C59_same_name_accepted`, `C62_compound_unit`, `C65_add`, `C65_add_defined`, `C65_div`, `C65_inverse`, `C65_mul`, `C65_mul_defined`, `C65_neg`, `C65_pow`, `C65_pow_defined`, `C65_rescale`, `C65_rescale_defined`, `C65_scale`, `C65_scale_defined`, `C65_simplified`, `C65_sqrt`, `C65_sub`, `C65_unscale`, `C66_factors`, `C66_kept`, `C66_powers`, `C66_products`, `C66_refuted`, `C66_sums`, `C67_shape_and_units`, `C68_reflected_sub`, `C68_reflected_sub_defined`, `C68_refuted`, `C69_defined`, `C69_mean`, `C69_sum`, `C70_quantity`, `C70_same_process`, `C70_uncertain`, `C70_unit`, `C72_default_handler_refuted`, `C72_defined`, `C72_keywords_error`, `C72_keywords_refuted`, `C72_same_outcome`, `C72_units_do_not_matter`, `C72_what_happens`, `C73_defaults`, `C73_defaults_wf`, `C73_import`, `C73_labels_read_back`, `C73_names`, `C73_nothing_else`, `C73_simplifiable`, `C73_simplified_total`, `C73_statampere_refuted`, `C73_std_defaults`, `C73_symbols_refuted`, `C73_unambiguous`, `C74_argmax`, `C74_argmin`, `C74_nonzero`, `C74_unit_independent`, `C75_nanmax_ignores_axis`, `C76_diff`, `C77_ediff1d`, `C77_padding_refuted`, `C78_gradient_linear_exact`, `C78_gradient_uniform`, `C79_cross`, `C80_default_loses_units`, `C80_unwrap`, `C80_unwrap_refuted`, `C83_truncates`, `C86_argmax`, `C86_axis_refuted`, `C86_defined`, `C86_max_min`, `C87_in_place`, `C87_not_commutative`, `C87_rejected`, `C87_ufunc`, `C87_unit_on_the_left`, `C88_copy_unit`, `C89_pond_refuted`, `C89_rescale`, `C89_standard_sizes`, `C90_accuracy`, `C90_definitions`, `C91_round_trip`, `C92_order`, `C93_import`, `C93_units`, `C94_addition`, `C94_products`, `C94_signs`, `C95_comparisons`, `C96_library`, `C96_simplified`, `C97_idempotent`, `C97_round`, `C97_unit_independent_refuted`, `C98_argsort`, `C98_unit_independent`, `C99_trace`, `C99_trace_defined`.

**functional_extensionality_dep, sig_forall_dec** (1 theorems): `C97_round_unique`.

**sig_forall_dec** (1 theorems): `C67_refuted`.
