{"id": "C01", "title": "Products of dimensionalities add exponents and never store a zero exponent", "statement": "d1 * d2 raises every unit to the sum of its exponents in d1 and d2; if d1 and d2 hold no unit twice and no zero exponent, neither does the result (a unit that cancels disappears). Multiplying by a non-Dimensionality raises TypeError.", "quantifier": "every pair of dimensionalities over any units, of any size, with any int or float exponents, in any insertion order", "why_tests_cant": "the number of units, exponents and insertion orders is unbounded; cancellation depends on the combination", "anchors": ["quantities/dimensionality.py:Dimensionality.__mul__"]}
{"id": "C02", "title": "Quotients of dimensionalities subtract exponents and never store a zero exponent", "statement": "d1 / d2 raises every unit to the difference of its exponents; no duplicate unit and no zero exponent appears; d / d is empty; (d1 * d2) / d2 equals d1.", "quantifier": "every pair of dimensionalities", "why_tests_cant": "unbounded number of units, exponents and orders", "anchors": ["quantities/dimensionality.py:Dimensionality.__truediv__"]}
{"id": "C03", "title": "Powers of dimensionalities multiply exponents", "statement": "d ** p multiplies every exponent by p, d ** 0 is empty, d ** 1 is d, (d ** p) ** q equals d ** (p*q), (d1*d2) ** p equals d1**p * d2**p, and no zero exponent is introduced.", "quantifier": "every dimensionality, every int or float p, q", "why_tests_cant": "unbounded domain of exponents: the claim ranges over every dimensionality, every int or float p, q", "anchors": ["quantities/dimensionality.py:Dimensionality.__pow__"]}
{"id": "C04", "title": "In-place dimensionality operators agree with the pure ones", "statement": "d *= e, d /= e, d **= p leave in d exactly what d * e, d / e, d ** p return, when d and e are different objects.", "quantifier": "every pair of distinct dimensionality objects, every exponent", "why_tests_cant": "all dictionaries and orders: the claim ranges over every pair of distinct dimensionality objects, every exponent", "anchors": ["quantities/dimensionality.py:Dimensionality.__imul__", "quantities/dimensionality.py:Dimensionality.__itruediv__", "quantities/dimensionality.py:Dimensionality.__ipow__"]}
{"id": "C05", "title": "Dividing a dimensionality by itself in place", "statement": "d /= d does not behave like d / d (which is empty): for every non-empty d it raises RuntimeError, because the loop pops entries of the dictionary it iterates, and leaves d without its first unit. For an empty d it does nothing.", "quantifier": "every dimensionality object aliased with itself", "why_tests_cant": "must be settled for every dictionary; the failing alias case is not covered by any test", "anchors": ["quantities/dimensionality.py:Dimensionality.__itruediv__"]}
{"id": "C06", "title": "Addition and subtraction of dimensionalities accept exactly equal units", "statement": "d1 + d2 and d1 - d2 return d1 when both denote the same unit-to-exponent map (in any order) and raise ValueError otherwise.", "quantifier": "every pair of dimensionalities", "why_tests_cant": "decision over an infinite domain: the claim ranges over every pair of dimensionalities", "anchors": ["quantities/dimensionality.py:Dimensionality.__add__", "quantities/dimensionality.py:Dimensionality.__sub__", "quantities/dimensionality.py:Dimensionality.__iadd__", "quantities/dimensionality.py:Dimensionality.__isub__"]}
{"id": "C07", "title": "Dimensionality hash and equality do not depend on insertion order", "statement": "Two dimensionalities denoting the same unit-to-exponent map (whatever the order of insertion, and whether an exponent is 2 or 2.0) have the same hash and compare equal; for a collision-free hash of (unit, exponent) pairs the exponent -1 and -2 are told apart.", "quantifier": "every pair of dimensionalities, every hash function for tuples", "why_tests_cant": "all permutations of all dictionaries: the claim ranges over every pair of dimensionalities, every hash function for tuples", "anchors": ["quantities/dimensionality.py:Dimensionality.__hash__", "quantities/dimensionality.py:Dimensionality.__eq__"]}
{"id": "C08", "title": "Dimensionality equality separates different units", "statement": "d1 == d2 does not imply that d1 and d2 denote the same map: equality compares hashes, and Python's numeric hash is taken modulo 2**61-1, so m**z == m**(z + 2**61 - 1) for every z >= 0 (e.g. m**(2**61) == m), whatever the hash functions of tuples and units are.", "quantifier": "every pair of dimensionalities", "why_tests_cant": "an absence of collisions cannot be sampled", "anchors": ["quantities/dimensionality.py:Dimensionality.__eq__", "quantities/dimensionality.py:Dimensionality.__hash__"]}
{"id": "C09", "title": "Ordering of dimensionalities counts absolute exponents of the simplified units", "statement": "d1 < d2 (<=, >, >=) compares the sums of absolute exponents of the simplified dimensionalities; the relation is a total preorder.", "quantifier": "every pair of dimensionalities whose units simplify", "why_tests_cant": "infinite domain; transitivity is a three-input law", "anchors": ["quantities/dimensionality.py:Dimensionality.ndims", "quantities/dimensionality.py:Dimensionality.__lt__"]}
{"id": "C10", "title": "rescale preserves the physical value", "statement": "If q.rescale(u) returns r, then r has exactly the units u (or q's own dimensionality when they are equal) and, for every consistent assignment of positive real sizes to units, magnitude(r) times the size of u equals magnitude(q) times the size of q's units, element by element.", "quantifier": "every quantity of every shape, every target, every unit system built by any history of unit definitions with positive factors", "why_tests_cant": "unbounded chains of definitions, products and powers; tests sample a handful of units", "anchors": ["quantities/quantity.py:Quantity.rescale", "quantities/quantity.py:get_conversion_factor", "quantities/quantity.py:Quantity._reference", "quantities/unitquantity.py:UnitQuantity._reference"]}
{"id": "C11", "title": "rescale succeeds exactly when a conversion factor exists", "statement": "q.rescale(u) returns a value if and only if there is one constant c such that size(q.units) = c * size(u) under every consistent assignment of unit sizes; otherwise it raises ValueError.", "quantifier": "every pair of units expressions over every unit system", "why_tests_cant": "both directions quantify over all unit systems and all assignments", "anchors": ["quantities/quantity.py:Quantity.rescale", "quantities/quantity.py:get_conversion_factor"]}
{"id": "C12", "title": "Conversions round-trip and do not depend on the path", "statement": "q.rescale(a).rescale(b) has the same magnitudes and units as q.rescale(b) (exact real arithmetic), so q.rescale(a).rescale(q.units) gives back q, whenever the first rescale succeeds.", "quantifier": "every quantity and units a, b", "why_tests_cant": "three unbounded inputs: the claim ranges over every quantity and units a, b", "anchors": ["quantities/quantity.py:Quantity.rescale"]}
{"id": "C13", "title": "Conversion factors form a group", "statement": "The factor between a unit and itself is 1, factor(a,b)*factor(b,c) = factor(a,c), factor(a,b)*factor(b,a) = 1, factor(a*c,b*d) = factor(a,b)*factor(c,d) and factor(a**n,b**n) = factor(a,b)**n.", "quantifier": "every compatible units expressions", "why_tests_cant": "algebraic laws over an infinite domain: the claim ranges over every compatible units expressions", "anchors": ["quantities/quantity.py:get_conversion_factor"]}
{"id": "C14", "title": "rescale to the same units is exact in any arithmetic", "statement": "If q already has the target units (same map of units to exponents, in any order), rescale returns the very same magnitudes and never fails, whatever the number type (integers, IEEE floats, NaN, infinities).", "quantifier": "every quantity, every arithmetic", "why_tests_cant": "floats cannot be enumerated: the claim ranges over every quantity, every arithmetic", "anchors": ["quantities/quantity.py:Quantity.rescale"]}
{"id": "C15", "title": "Unit references always reduce to irreducible units", "statement": "After any sequence of unit definitions, the reference used for conversion of any unit is a positive factor times a product of powers of units that have no definition, and it equals the unit's definition fully expanded.", "quantifier": "every history of unit creations", "why_tests_cant": "induction over histories: the claim ranges over every history of unit creations", "anchors": ["quantities/unitquantity.py:UnitQuantity.__new__", "quantities/unitquantity.py:UnitQuantity._reference", "quantities/quantity.py:Quantity._reference"]}
{"id": "C16", "title": "Defining new units never changes existing conversions", "statement": "Creating any further unit leaves the outcome of every conversion between previously existing units unchanged.", "quantifier": "every history, every later creation, every pair of old units", "why_tests_cant": "frame property over histories: the claim ranges over every history, every later creation, every pair of old units", "anchors": ["quantities/unitquantity.py:UnitQuantity.__new__", "quantities/quantity.py:get_conversion_factor"]}
{"id": "C17", "title": "simplified preserves the value and uses only default units", "statement": "If q.simplified returns r, then r denotes the same physical value as q and its dimensionality mentions only the current default units of the base-unit classes.", "quantifier": "every quantity, unit system and choice of default units", "why_tests_cant": "unbounded unit expressions and histories of defaults", "anchors": ["quantities/quantity.py:Quantity.simplified", "quantities/unitquantity.py:UnitQuantity.simplified", "quantities/unitquantity.py:IrreducibleUnit.simplified"]}
{"id": "C18", "title": "simplified is idempotent and canonical", "statement": "q.simplified.simplified equals q.simplified, and two quantities that denote the same physical value simplify to the same units and magnitudes.", "quantifier": "every quantity and pair of quantities", "why_tests_cant": "the claim ranges over every quantity and pair of quantities, an infinite domain of which tests sample points", "anchors": ["quantities/quantity.py:Quantity.simplified"]}
{"id": "C19", "title": "On which units simplified terminates", "statement": "q.simplified returns a value exactly when every unit of q can be expressed by base units (a base-class unit by its own base unit). Otherwise the first unit that cannot be expressed decides the exception: a base-class unit that cannot be converted to its base unit (as the built-in statampere) is a ValueError, one whose class has no default a bare Exception, and a UnitQuantity without definition makes it recurse for ever (RecursionError).", "quantifier": "every unit", "why_tests_cant": "termination; no test reaches the failing units", "anchors": ["quantities/unitquantity.py:UnitQuantity.simplified", "quantities/unitquantity.py:IrreducibleUnit.simplified", "quantities/units/electromagnetism.py:statampere"]}
{"id": "C20", "title": "set_default_units only accepts convertible defaults and keeps simplified correct", "statement": "After any sequence of successful set_default_unit calls each class default is convertible to the first default of its class, and simplified still preserves physical values; a call that raises leaves that class's default unchanged.", "quantifier": "every sequence of default changes", "why_tests_cant": "it must hold after every history (every sequence of default changes); tests run a few", "anchors": ["quantities/unitquantity.py:IrreducibleUnit.set_default_unit", "quantities/unitquantity.py:set_default_units"]}
{"id": "C21", "title": "Errors of set_default_units", "statement": "Setting a default unit of the wrong kind changes nothing and raises, not the TypeError that other bad arguments get, but AssertionError: get_conversion_factor signals incompatibility with AssertionError, which is not caught.", "quantifier": "every pair of incompatible units", "why_tests_cant": "decision rule over all units: the claim ranges over every pair of incompatible units", "anchors": ["quantities/unitquantity.py:IrreducibleUnit.set_default_unit"]}
{"id": "C22", "title": "dimensionless_magnitude", "statement": "q.dimensionless_magnitude returns the true numeric value of q when q's units are a pure number under every consistent assignment, and raises ValueError otherwise.", "quantifier": "every quantity", "why_tests_cant": "the claim ranges over every quantity, an infinite domain of which tests sample points", "anchors": ["quantities/quantity.py:Quantity.dimensionless_magnitude"]}
{"id": "C23", "title": "rescale_preferred picks the first preferred unit of the same kind", "statement": "q.rescale_preferred() returns q expressed in the first entry of PREFERRED that q can be converted to (ValueError if that entry's magnitude is not one) and raises Exception when there is none; q.rescale() does the same with every failure a bare Exception. (For units whose simplified form prints faithfully: entries are compared as text, so with an exponent such as 20 a wrong entry can be picked and the call fail.)", "quantifier": "every list of preferred units and quantity", "why_tests_cant": "all lists: the claim ranges over every list of preferred units and quantity", "anchors": ["quantities/quantity.py:Quantity.rescale_preferred"]}
{"id": "C24", "title": "Integer data is not truncated by conversion", "statement": "rescale of an integer array to different units returns the exact converted values in a floating type; it never rounds to integers.", "quantifier": "every integer array and factor", "why_tests_cant": "all integers: the claim ranges over every integer array and factor", "anchors": ["quantities/quantity.py:Quantity.rescale"]}
{"id": "C25", "title": "Addition and subtraction respect physical values and the left operand's units", "statement": "q1 + q2 (q1 - q2), with broadcasting, has q1's units and denotes the sum (difference) of the physical values.", "quantifier": "every pair of quantities of any shapes and units", "why_tests_cant": "all shapes, units and values: the claim ranges over every pair of quantities of any shapes and units", "anchors": ["quantities/quantity.py:scale_other_units", "quantities/quantity.py:Quantity.__add__", "quantities/quantity.py:Quantity.__sub__", "quantities/dimensionality.py:_d_check_uniform"]}
{"id": "C26", "title": "Adding incompatible units always raises", "statement": "q1 + q2, q1 - q2 and q1 % q2 raise ValueError exactly when the units are not convertible (or the shapes do not broadcast); they never return a number.", "quantifier": "every pair of quantities", "why_tests_cant": "both directions over an infinite domain: the claim ranges over every pair of quantities", "anchors": ["quantities/quantity.py:scale_other_units"]}
{"id": "C27", "title": "Plain numbers act as dimensionless in sums", "statement": "q + x and x + q, x a plain number or array, succeed exactly when q's units are convertible to a pure number, and then denote the physical sum; no unit is silently attached to x.", "quantifier": "every quantity and plain array", "why_tests_cant": "the claim ranges over every quantity and plain array, an infinite domain of which tests sample points", "anchors": ["quantities/quantity.py:scale_other_units", "quantities/quantity.py:Quantity.__radd__", "quantities/quantity.py:Quantity.__rsub__"]}
{"id": "C28", "title": "Products and quotients multiply physical values", "statement": "q1*q2, q1/q2, x*q, q*x, x/q, q/x never fail for broadcastable shapes, combine the units by adding or subtracting exponents and denote the product (for non-zero divisors the quotient) of the physical values, without conversions.", "quantifier": "all quantities, plain operands and shapes", "why_tests_cant": "the claim ranges over all quantities, plain operands and shapes, an infinite domain of which tests sample points", "anchors": ["quantities/dimensionality.py:_d_multiply", "quantities/dimensionality.py:_d_divide", "quantities/quantity.py:Quantity.__rmul__", "quantities/quantity.py:Quantity.__rtruediv__"]}
{"id": "C29", "title": "Powers", "statement": "q ** p is accepted exactly when p is a plain or dimensionless uniform value, has units**p, and denotes the physical value raised to p wherever the real power is defined. plain ** q is accepted exactly when q is dimensionless and uniform. Everything else is a ValueError.", "quantifier": "all quantities and exponents", "why_tests_cant": "the claim ranges over all quantities and exponents, an infinite domain of which tests sample points", "anchors": ["quantities/quantity.py:check_uniform", "quantities/quantity.py:Quantity.__pow__", "quantities/dimensionality.py:_d_power"]}
{"id": "C30", "title": "Remainders respect physical values", "statement": "q1 % q2 has q1's units and denotes the remainder of the physical values, for every consistent choice of unit sizes.", "quantifier": "all quantities", "why_tests_cant": "the claim ranges over all quantities, an infinite domain of which tests sample points", "anchors": ["quantities/quantity.py:Quantity.__mod__"]}
{"id": "C31", "title": "Floor division depends on the units used", "statement": "q1 // q2 floors the quotient of the raw magnitudes and divides the units; for operands of the same units this is the floor of the quotient of the physical values, but converting one operand to other units can change the physical result (5 m // 200 cm gives 0 m/cm while 5 m // 2 m gives 2).", "quantifier": "all quantities", "why_tests_cant": "a law about pairs of equivalent inputs: the claim ranges over all quantities", "anchors": ["quantities/dimensionality.py:_d_divide"]}
{"id": "C32", "title": "Arithmetic results do not depend on the units chosen for the inputs", "statement": "Replacing any operand of +, -, %, *, /, ** by an equal quantity in other units yields an equal physical result, and replacing operands of <, <=, >, >=, ==, != yields the same booleans or the same exception.", "quantifier": "all quantities and rescalings of them", "why_tests_cant": "it relates two executions, for all quantities and rescalings of them", "anchors": ["quantities/quantity.py:Quantity.__add__", "quantities/quantity.py:Quantity.__lt__"]}
{"id": "C33", "title": "Comparisons compare physical values", "statement": "q1 < q2 (<=, >, >=) compares physical values whatever the units, and raises ValueError exactly when units are not convertible.", "quantifier": "all pairs of quantities", "why_tests_cant": "the claim ranges over all pairs of quantities, an infinite domain of which tests sample points", "anchors": ["quantities/quantity.py:wrap_comparison", "quantities/quantity.py:Quantity.__lt__"]}
{"id": "C34", "title": "Equality compares physical values and never raises for incompatible units", "statement": "q1 == q2 is true exactly at positions where the physical values agree; for inconvertible units it is all False (and != all True); == and != are complementary; == is symmetric and transitive between quantities.", "quantifier": "all quantities", "why_tests_cant": "the claim ranges over all quantities, an infinite domain of which tests sample points", "anchors": ["quantities/quantity.py:Quantity.__eq__", "quantities/quantity.py:Quantity.__ne__"]}
{"id": "C35", "title": "Comparisons with plain numbers ignore units", "statement": "Comparing a quantity with a plain number compares the raw magnitude whatever the units, so a quantity with units can equal a number and == is not transitive: 5*m == 5 and 5*s == 5 but 5*m != 5*s.", "quantifier": "all quantities and numbers", "why_tests_cant": "it is a rule for all quantities and numbers; a test shows single instances", "anchors": ["quantities/quantity.py:wrap_comparison", "quantities/quantity.py:Quantity.__eq__"]}
{"id": "C36", "title": "The constructor attaches units without changing numbers", "statement": "Quantity(data, units) for plain data has exactly data as magnitudes and the given units; Quantity(q, units) equals q.rescale(units), except that empty units ('' or an empty dimensionality) leave q as it is.", "quantifier": "all data and unit arguments", "why_tests_cant": "the claim ranges over all data and unit arguments, an infinite domain of which tests sample points", "anchors": ["quantities/quantity.py:Quantity.__new__", "quantities/quantity.py:validate_dimensionality"]}
{"id": "C37", "title": "Numeric factors in unit strings are dropped", "statement": "Quantity(x, s) keeps only the dimensionality of the unit expression s: it denotes x times the value of s exactly when x is zero or the numeric value of s is one; Quantity(1, '3*m') is 1 m.", "quantifier": "all unit strings", "why_tests_cant": "it ranges over all strings (all unit strings)", "anchors": ["quantities/quantity.py:validate_dimensionality"]}
{"id": "C38", "title": "NumPy ufuncs on quantities assign the right units", "statement": "For fabs, absolute, conjugate, negative, square, reciprocal, sqrt, radians, degrees, multiply, true_divide, add, subtract, mod, fmod, remainder, hypot, maximum, minimum and arctan2 the returned units are those of the mathematical operation: the physical value of ufunc(q), computed from magnitudes and returned units, is the function of the physical values of the inputs, so it does not depend on the units in which they are expressed. For floor, ceil, rint and floor_divide it does: they round the magnitudes as given, to a whole number of units (rint to the nearest, halves to the even one). np.mod has the sign of the divisor and np.fmod that of the dividend; both differ from it by a multiple of the divisor and are smaller than it. np.arctan2(y, x) is the angle of the point (x, y).", "quantifier": "all quantities and supported ufuncs", "why_tests_cant": "the claim ranges over all quantities and supported ufuncs, an infinite domain of which tests sample points", "anchors": ["quantities/dimensionality.py:p_dict"]}
{"id": "C39", "title": "Uniform ufuncs reject mixed units", "statement": "np.add, subtract, mod, fmod, remainder, hypot, maximum, minimum and comparison ufuncs applied to two quantities raise ValueError unless units are identical; against plain numbers they accept only zeros or dimensionless quantities, and otherwise raise AttributeError.", "quantifier": "all operands", "why_tests_cant": "the claim ranges over all operands, an infinite domain of which tests sample points", "anchors": ["quantities/dimensionality.py:_d_check_uniform"]}
{"id": "C40", "title": "Transcendental ufuncs only accept pure numbers or radians", "statement": "log/exp family and inverse trigonometric ufuncs raise ValueError for any quantity with units; trigonometric ufuncs raise ValueError unless one unit of the argument equals one radian.", "quantifier": "all quantities", "why_tests_cant": "the claim ranges over all quantities, an infinite domain of which tests sample points", "anchors": ["quantities/dimensionality.py:_d_dimensionless", "quantities/dimensionality.py:_d_trig", "quantities/dimensionality.py:_d_arctrig"]}
{"id": "C41", "title": "Binary logarithmic ufuncs check only their first argument", "statement": "np.logaddexp(q1, q2) and np.logaddexp2 raise ValueError when the first argument has units; the second argument is never checked, and its raw magnitudes are used whatever its units.", "quantifier": "all operand pairs", "why_tests_cant": "it is a rule for all operand pairs; a test shows single instances", "anchors": ["quantities/dimensionality.py:_d_dimensionless"]}
{"id": "C42", "title": "umath trigonometric functions convert units", "statement": "pq.sin/cos/tan(q) equal the function of the angle in radians whatever angular unit q uses, are dimensionless, and raise ValueError exactly if q is not convertible to radians; arcsin/arccos/arctan return radians.", "quantifier": "all quantities", "why_tests_cant": "the claim ranges over all quantities, an infinite domain of which tests sample points", "anchors": ["quantities/umath.py:sin", "quantities/umath.py:arcsin"]}
{"id": "C43", "title": "umath.arctan2 and units", "statement": "umath.arctan2(x1, x2) accepts exactly the pairs with the same simplified units; for equal units the result is the angle of the physical values, but convertible different units, as m and cm, are accepted without rescaling and give another angle.", "quantifier": "all pairs", "why_tests_cant": "it relates two executions, for all pairs", "anchors": ["quantities/umath.py:arctan2"]}
{"id": "C44", "title": "Reductions keep units and commute with conversion", "statement": "sum, mean, max, min, ptp, cumsum and std keep q's units; reducing then rescaling equals rescaling then reducing, along any axis.", "quantifier": "all arrays, shapes and axes, all convertible units (positive factors)", "why_tests_cant": "the claim ranges over all arrays, shapes and axes, all convertible units (positive factors), an infinite domain of which tests sample points", "anchors": ["quantities/quantity.py:Quantity.sum", "quantities/quantity.py:Quantity.mean", "quantities/quantity.py:Quantity.max", "quantities/quantity.py:Quantity.min", "quantities/quantity.py:Quantity.ptp", "quantities/quantity.py:Quantity.cumsum", "quantities/quantity.py:Quantity.std"]}
{"id": "C45", "title": "prod and var raise units to the right power", "statement": "q.prod() has units ** (number of factors) (per-axis length with axis) and denotes the product of physical values; q.var() has units**2 and denotes the variance of physical values; cumprod is refused unless dimensionless.", "quantifier": "all arrays and axes", "why_tests_cant": "the claim ranges over all arrays and axes, an infinite domain of which tests sample points", "anchors": ["quantities/quantity.py:Quantity.prod", "quantities/quantity.py:Quantity.var", "quantities/quantity.py:Quantity.cumprod"]}
{"id": "C46", "title": "clip limits physical values", "statement": "q.clip(min, max) returns q's units and each element limited to [min, max] compared physically; raises ValueError if a bound is inconvertible or plain for a dimensional q (AttributeError if it is plain for a dimensionless q).", "quantifier": "all arrays and bounds", "why_tests_cant": "the claim ranges over all arrays and bounds, an infinite domain of which tests sample points", "anchors": ["quantities/quantity.py:Quantity.clip"]}
{"id": "C47", "title": "Indexing and item assignment respect units", "statement": "q[k] has q's units and the selected magnitudes; q[k] = v stores v's physical value expressed in q's units, changes nothing else, raises ValueError (and changes nothing) if v is inconvertible.", "quantifier": "all arrays, indices, values", "why_tests_cant": "the claim ranges over all arrays, indices, values, an infinite domain of which tests sample points", "anchors": ["quantities/quantity.py:Quantity.__getitem__", "quantities/quantity.py:Quantity.__setitem__", "quantities/quantity.py:Quantity.put"]}
{"id": "C48", "title": "tolist preserves elements and units", "statement": "q.tolist() is the nested list of the elements of q, each a scalar quantity with q's units.", "quantifier": "all shapes", "why_tests_cant": "all nestings: the claim ranges over all shapes", "anchors": ["quantities/quantity.py:Quantity.tolist", "quantities/quantity.py:Quantity._tolist"]}
{"id": "C49", "title": "searchsorted demands identical units", "statement": "q.searchsorted(v) raises ValueError unless v has identical units, and then returns, for a sorted q, an insertion point that keeps physical values sorted.", "quantifier": "all sorted arrays", "why_tests_cant": "the claim ranges over all sorted arrays, an infinite domain of which tests sample points", "anchors": ["quantities/quantity.py:Quantity.searchsorted"]}
{"id": "C50", "title": "trapz integrates with units", "statement": "umath.trapz(y, x) has units y.units*x.units and denotes the trapezoidal sum of physical values; likewise with dx.", "quantifier": "all sample arrays", "why_tests_cant": "the claim ranges over all sample arrays, an infinite domain of which tests sample points", "anchors": ["quantities/umath.py:trapz", "quantities/umath.py:_trapz"]}
{"id": "C51", "title": "Views cannot change units under their base", "statement": "Every operation that would change the units of a quantity that is a view of another quantity through the units setter, *=, /= or **= raises ValueError and changes nothing; in every history, a view of a quantity keeps its units unless it is the target of fill, of an out parameter or of //=, which do replace them.", "quantifier": "every heap of quantities, every view chain, every operation sequence", "why_tests_cant": "histories and aliasing: the claim ranges over every heap of quantities, every view chain, every operation sequence", "anchors": ["quantities/quantity.py:protected_multiplication", "quantities/quantity.py:protected_power", "quantities/quantity.py:Quantity.units"]}
{"id": "C52", "title": "Setting units in place preserves the value, atomically", "statement": "q.units = u rescales the shared buffer so that q's physical value is unchanged and q has units u; if it raises (incompatible units, read-only, view), no object changes.", "quantifier": "every heap and target", "why_tests_cant": "aliasing histories: the claim ranges over every heap and target", "anchors": ["quantities/quantity.py:Quantity.units"]}
{"id": "C53", "title": "Changing units in place and other objects", "statement": "q.units = u leaves every object that shares no element with q as it was. Objects that share elements with q keep their units while the shared numbers are multiplied by the conversion factor: any quantity sharing a non-zero number with q then denotes another value (unless the factor is one).", "quantifier": "every heap", "why_tests_cant": "it depends on which objects share memory, for every heap; tests fix one arrangement", "anchors": ["quantities/quantity.py:Quantity.units"]}
{"id": "C54", "title": "Units are immutable", "statement": "No sequence of public operations changes the magnitude or the dimensionality of a unit object; in-place operators raise TypeError, the units setter AttributeError, item assignment and fill ValueError.", "quantifier": "every operation sequence", "why_tests_cant": "it must hold after every history (every operation sequence); tests run a few", "anchors": ["quantities/unitquantity.py:UnitQuantity.__iadd__", "quantities/unitquantity.py:UnitQuantity.units", "quantities/unitquantity.py:UnitQuantity.__new__"]}
{"id": "C55", "title": "Effects are confined to the target of in-place operations", "statement": "Arithmetic, rescale, reductions, item access, copies and constructors leave every existing object unchanged, and results of computations share no memory with existing objects. An in-place operation changes only its target and objects sharing elements with it, and so an object no in-place operation of a history writes to, directly or through shared memory, is unchanged after the whole history.", "quantifier": "every heap", "why_tests_cant": "it depends on which objects share memory, for every heap; tests fix one arrangement", "anchors": ["quantities/quantity.py:Quantity.rescale", "quantities/quantity.py:Quantity.__add__"]}
{"id": "C56", "title": "copy yields an independent object, deepcopy does not", "statement": "q.copy() has the value of q and memory of its own: no in-place operation on one changes the other, and no history whose in-place operations all write to the copy or views of it changes an older object, and none whose in-place operations all write elsewhere changes the copy. copy.deepcopy(q) shares its memory with q (__deepcopy__ relies on the constructor copying, which it does not): after any history both hold the same numbers.", "quantifier": "every quantity and later mutation", "why_tests_cant": "it depends on which objects share memory, for every quantity and later mutation; tests fix one arrangement", "anchors": ["quantities/quantity.py:Quantity.__deepcopy__", "quantities/quantity.py:Quantity.__new__"]}
{"id": "C57", "title": "In-place arithmetic stores the result of the operator", "statement": "When they succeed, q += x, q -= x, q %= x leave in q what q + x, q - x, q % x return, in q's units. q *= x, q /= x, q //= x store the magnitudes of q * x, ...; before NumPy 2 they also store its units, since NumPy 2 they keep the units of q, so that q denotes a wrong value unless x has size one.", "quantifier": "all quantities", "why_tests_cant": "aliasing and runtime version: the claim ranges over all quantities", "anchors": ["quantities/quantity.py:Quantity.__imul__", "quantities/quantity.py:Quantity.__array_wrap__", "quantities/quantity.py:Quantity.__array_prepare__"]}
{"id": "C58", "title": "A registered name is never rebound", "statement": "After any sequence of registrations, a name still refers to the first object registered under it; registering a different value raises KeyError.", "quantifier": "every sequence of registrations", "why_tests_cant": "it must hold after every history (every sequence of registrations); tests run a few", "anchors": ["quantities/registry.py:UnitRegistry"]}
{"id": "C59", "title": "Re-registering a name with a different definition is refused", "statement": "Creating a unit whose class and name are new raises KeyError if and only if one of its names, symbols or aliases is taken by a unit of a different size; otherwise it succeeds. When class and name are those of the registered unit the creation is accepted whatever its definition, and the name goes on meaning the first unit: UnitLength('foo', 2*m) followed by UnitLength('foo', 3*m) yields two objects that disagree. A name that holds a text constant accepts the same text again and refuses every other text with KeyError. A name that holds an array quantity of more than one element refuses every array of that shape with ValueError.", "quantifier": "all redefinitions", "why_tests_cant": "it is a rule for all redefinitions; a test shows single instances", "anchors": ["quantities/registry.py:UnitRegistry", "quantities/unitquantity.py:UnitQuantity.__init__"]}
{"id": "C60", "title": "What a failed unit creation leaves registered", "statement": "A creation that raises leaves bound exactly the names that precede the clashing one in the order name, symbol, aliases (to the new unit) and changes nothing else; so if the name itself clashes nothing is registered, but creation is not atomic: a clash of the symbol or an alias leaves the name registered.", "quantifier": "all creations", "why_tests_cant": "atomicity: the claim ranges over all creations", "anchors": ["quantities/unitquantity.py:UnitQuantity.__init__"]}
{"id": "C61", "title": "Only arithmetic expressions over registered units are evaluated", "statement": "unit_registry[s] returns a value only if s parses to an expression made of names, constants, unary and binary operators whose names are registered; calls, attributes, subscripts, comparisons etc. raise LookupError, an unknown name raises LookupError (the one exception is '__builtins__', which evaluates), a Python keyword raises SyntaxError (True, False and None are constants; 'in' is read as inch). The answer depends on the registered meaning of the names occurring in s only.", "quantifier": "every string", "why_tests_cant": "all strings; security-relevant whitelist", "anchors": ["quantities/registry.py:UnitRegistry"]}
{"id": "C62", "title": "Unit labels mean the product they spell", "statement": "Evaluating the printed text of a product of registered units gives back the same units with value one: unit_registry[d.string].dimensionality == d, for integer exponents not ending in zero and float exponents, over identifier symbols; and the name, symbol and aliases of a successfully created unit evaluate to that unit (when they were free) whatever is registered later.", "quantifier": "every dimensionality", "why_tests_cant": "the claim ranges over every dimensionality, an infinite domain of which tests sample points", "anchors": ["quantities/markup.py:format_units", "quantities/registry.py:UnitRegistry"]}
{"id": "C63", "title": "Printing is independent of insertion order and injective", "statement": "For dimensionalities with printable symbols and exponents (integers not ending in zero, floats), over units created by any history, d1.string == d2.string iff d1 == d2, so printing does not depend on insertion order. Outside: trailing zeros of integer exponents are stripped (m**10 prints as m**1), so different units can print the same; and equal dimensionalities with an int and a float exponent of the same value print differently.", "quantifier": "every pair of dimensionalities", "why_tests_cant": "the claim ranges over every pair of dimensionalities, an infinite domain of which tests sample points", "anchors": ["quantities/markup.py:format_units"]}
{"id": "C64", "title": "Unicode, LaTeX and HTML renderings keep the exponents", "statement": "For identifier symbols and integer exponents not ending in zero the plain, Unicode, LaTeX and HTML texts are the product of the positive powers over the product of the negative ones, each factor once with its exponent rendered digit by digit as a superscript of the format. It is false for non-integer exponents in LaTeX/HTML ('**0.5' becomes '^{0}.5') and for compound symbols.", "quantifier": "every dimensionality", "why_tests_cant": "it ranges over all strings (every dimensionality)", "anchors": ["quantities/markup.py:superscript", "quantities/markup.py:format_units_unicode", "quantities/markup.py:format_units_latex", "quantities/markup.py:format_units_html"]}
{"id": "C65", "title": "Uncertainties propagate in quadrature", "statement": "For sums and differences of uncertain quantities the uncertainty is sqrt(u1^2+u2^2) in the left operand's units; for products and quotients the relative uncertainties add in quadrature (times the value); an exact factor, divisor or dividend scales the uncertainty by its absolute value; x**n has uncertainty n*x**n*(u/x); -x keeps |u|; rescale and simplified leave value and uncertainty physically unchanged. Sums need convertible units and broadcastable shapes, everything else raises ValueError.", "quantifier": "all uncertain quantities over all units and shapes", "why_tests_cant": "the claim ranges over all uncertain quantities over all units and shapes, an infinite domain of which tests sample points", "anchors": ["quantities/uncertainquantity.py:UncertainQuantity.__add__", "quantities/uncertainquantity.py:UncertainQuantity.__mul__", "quantities/uncertainquantity.py:UncertainQuantity.__truediv__", "quantities/uncertainquantity.py:UncertainQuantity.__pow__", "quantities/uncertainquantity.py:UncertainQuantity.rescale"]}
{"id": "C66", "title": "The sign of uncertainties", "statement": "Sums, differences, exact factors and divisors never have a negative uncertainty, and conversions, indexing, sum and mean keep uncertainties non-negative. Products and quotients of uncertain quantities have uncertainties with the sign of the value, and powers (of positive values) with the sign of the exponent - so (-3 +/- 3) m * 4 m has uncertainty -12.", "quantifier": "all uncertain quantities", "why_tests_cant": "the claim ranges over all uncertain quantities, an infinite domain of which tests sample points", "anchors": ["quantities/uncertainquantity.py:UncertainQuantity.__mul__", "quantities/uncertainquantity.py:UncertainQuantity.__pow__"]}
{"id": "C67", "title": "Value and uncertainty have the same shape and units", "statement": "Whatever sequence of constructor calls, arithmetic, powers, indexing, reductions, conversions and assignments to .uncertainty produced an uncertain quantity, its uncertainty has the shape and the units of the value. (Not so for reshaped views, which keep the uncertainty in the old shape.)", "quantifier": "every sequence of operations", "why_tests_cant": "invariant over histories: the claim ranges over every sequence of operations", "anchors": ["quantities/uncertainquantity.py:UncertainQuantity.uncertainty", "quantities/uncertainquantity.py:UncertainQuantity.__new__"]}
{"id": "C68", "title": "Mixing quantities with and without uncertainty", "statement": "q - uq is the difference with the uncertainty of uq, as if q were exact. uq + q, q + uq and uq - q never work: they raise AttributeError where the units and shapes fit and ValueError where they do not.", "quantifier": "all mixed operands", "why_tests_cant": "it is a rule for all mixed operands; a test shows single instances", "anchors": ["quantities/uncertainquantity.py:UncertainQuantity.__add__", "quantities/uncertainquantity.py:UncertainQuantity.__rsub__"]}
{"id": "C69", "title": "sum and mean of uncertain quantities", "statement": "Along any axis (or all), sum is the sum of the values with uncertainty sqrt(sum u_i^2) and mean the same divided by n; they fail exactly for axes that do not exist, and mean for lanes without elements (ZeroDivisionError).", "quantifier": "all arrays and axes", "why_tests_cant": "the claim ranges over all arrays and axes, an infinite domain of which tests sample points", "anchors": ["quantities/uncertainquantity.py:UncertainQuantity.sum", "quantities/uncertainquantity.py:UncertainQuantity.mean"]}
{"id": "C70", "title": "Pickling round-trips", "statement": "A quantity (or uncertain quantity) pickled in one process and unpickled in another whose unit definitions do not contradict it, and in which the names of its units are free or mean units of the same size, comes back with the same shape, magnitudes, units (and uncertainty) and converts as before; a unit comes back with the same class, name, definition, symbols, aliases and printing order. Existing names, units and defaults of the reading process are unchanged; only names of the pickled units are added. Within one process, whatever units were created and named in it, nothing in the registry changes. A half-made unit cannot be read back; a unit of the same class and name with another definition is accepted silently; a compound unit means whatever its text means to the reading process.", "quantifier": "all quantities, units, pairs of processes and histories of unit creation", "why_tests_cant": "infinite domain, histories: the claim ranges over all quantities, units, pairs of processes and histories of unit creation", "anchors": ["quantities/quantity.py:Quantity.__reduce__", "quantities/quantity.py:Quantity.__setstate__", "quantities/unitquantity.py:UnitQuantity.__reduce__", "quantities/unitquantity.py:CompoundUnit.__reduce__", "quantities/unitquantity.py:Dimensionless.__reduce__", "quantities/uncertainquantity.py:UncertainQuantity.__reduce__"]}
{"id": "C71", "title": "memoize is transparent", "statement": "Whatever calls were made before and however their returned objects were changed, calling a memoized pure function returns a new object with the contents the function returns, or raises what it raises; of two invocations of the wrapped function with equal arguments the first raised (a successful invocation is never repeated), even for impure functions. The returned objects are the caller's own: no two calls return the same object, later calls do not change it, and changing it changes no other. Unhashable arguments raise TypeError. The function must not tell equal arguments apart: after a call with 1, a call with 1.0 returns the result for 1.", "quantifier": "every call sequence interleaved with mutations of the returned objects", "why_tests_cant": "it must hold after every history (every call sequence interleaved with mutations of the returned objects); tests run a few", "anchors": ["quantities/decorators.py:memoize"]}
{"id": "C72", "title": "quantitizer converts arguments and results", "statement": "If a call of a wrapped function returns, the function was called with the magnitudes of the positional quantities in the default units, other arguments unchanged, and each result with a corresponding quantity in the handler's answer has that quantity's units and the physical value of the plain result in the default units. The units in which the arguments are expressed do not affect the result, nor (if they can be simplified) the exception. Quantity keyword arguments always raise AttributeError, and with the default handler every call fails with TypeError.", "quantifier": "all functions, handlers and arguments", "why_tests_cant": "higher order: the claim ranges over all functions, handlers and arguments", "anchors": ["quantities/decorators.py:quantitizer"]}
{"id": "C73", "title": "The built-in unit table is consistent", "statement": "Importing the package creates every unit of its tables, each from units created before and with a positive factor; no two units share a name, symbol or alias; every name, symbol and alias looks up its unit (exceptions: 'as' and '(esu/s)'); printed labels of their products read back (exceptions: six units printed by odd symbols); the default units are the SI base units (and the bit) and every quantity in these units can be simplified (exception: the statampere, a unit of current not defined by amperes). The alias 'international_foot' is missing and the oersted has the alias 'aliases'.", "quantifier": "all built-in units, names and products of units", "why_tests_cant": "hundreds of units and aliases, all products; tests check a few", "anchors": ["quantities/units/"]}
{"id": "C74", "title": "Positions of extrema and non-zero elements do not depend on units", "statement": "argmax/argmin return, for every lane along the axis, the first position of the largest/smallest physical value; nonzero returns exactly the positions whose physical value is not zero. The answer, or the exception, is the same whatever unit the data is expressed in.", "quantifier": "all arrays, axes, units", "why_tests_cant": "the claim ranges over all arrays, axes, units, an infinite domain of which tests sample points", "anchors": ["quantities/quantity.py:Quantity.argmax", "quantities/quantity.py:Quantity.argmin", "quantities/quantity.py:Quantity.nonzero"]}
{"id": "C75", "title": "nanmax and nanmin ignore their axis argument", "statement": "q.nanmax(axis) and q.nanmin(axis) equal the overall q.max() and q.min() for every axis (data without NaN); hence the documented reduction along an axis does not happen.", "quantifier": "all arrays and axes", "why_tests_cant": "must hold for every axis value: the claim ranges over all arrays and axes", "anchors": ["quantities/quantity.py:Quantity.nanmax", "quantities/quantity.py:Quantity.nanmin"]}
{"id": "C76", "title": "diff subtracts neighbouring physical values", "statement": "np.diff / umath.diff of a quantity along an axis keeps the units and gives, at every index, the physical value of the next element minus that of the element itself; an axis out of range raises ValueError.", "quantifier": "all arrays and axes", "why_tests_cant": "the claim ranges over all arrays and axes, an infinite domain of which tests sample points", "anchors": ["quantities/umath.py:diff"]}
{"id": "C77", "title": "ediff1d keeps units; its padding arguments", "statement": "umath.ediff1d(q) keeps the units and gives the differences of neighbouring physical values in row-major order. Padding arguments to_end/to_begin do not denote their physical value: their raw numbers are inserted whatever their units.", "quantifier": "all quantities and paddings", "why_tests_cant": "it relates executions with the same data in different units, for all quantities and paddings", "anchors": ["quantities/umath.py:ediff1d"]}
{"id": "C78", "title": "gradient differentiates with units", "statement": "One-dimensional umath.gradient(f, h) has units f.units/h.units; with a scalar spacing the values are one-sided differences at the ends and central differences inside, of physical values; with coordinates it is exact on linear functions. Without a spacing it returns an empty tuple, with a plain spacing it raises AttributeError.", "quantifier": "all sample arrays", "why_tests_cant": "the claim ranges over all sample arrays, an infinite domain of which tests sample points", "anchors": ["quantities/umath.py:gradient"]}
{"id": "C79", "title": "cross multiplies units", "statement": "umath.cross of two arrays of 3-vectors has the product of the units and the usual components of the physical vectors.", "quantifier": "all arrays of 3-vectors", "why_tests_cant": "the claim ranges over all arrays of 3-vectors, an infinite domain of which tests sample points", "anchors": ["quantities/umath.py:cross"]}
{"id": "C80", "title": "unwrap works on raw magnitudes", "statement": "umath.unwrap(p, discont) keeps units and shape; along the axis it changes the raw magnitudes by multiples of 2*pi, keeping jumps smaller than discont and reducing the others to at most pi. It is therefore not independent of the units of p, and with a plain discont (the default) the result carries no units.", "quantifier": "all arrays, discontinuities and axes", "why_tests_cant": "it relates executions with the same data in different units, for all arrays, discontinuities and axes", "anchors": ["quantities/umath.py:unwrap"]}
{"id": "C81", "title": "A failing operation changes nothing", "statement": "If an in-place operation, a constructor or any other modelled operation raises, every array and every quantity is exactly as before; and every state a program can reach is well-formed (shapes match, views lie within their memory, units hold the number one and cannot be written to).", "quantifier": "every operation in every reachable state", "why_tests_cant": "atomicity in all states: the claim ranges over every operation in every reachable state", "anchors": ["quantities/quantity.py:Quantity.units", "quantities/quantity.py:Quantity.__imul__", "quantities/quantity.py:Quantity.__setitem__", "quantities/quantity.py:Quantity.fill"]}
{"id": "C82", "title": "What shares memory", "statement": "Quantity(a, units) of a plain array a and q.magnitude are windows on the memory of a and q: after any history, both hold the same numbers.", "quantifier": "all arrays and later operations", "why_tests_cant": "aliasing over histories: the claim ranges over all arrays and later operations", "anchors": ["quantities/quantity.py:Quantity.__new__", "quantities/quantity.py:Quantity.magnitude"]}
{"id": "C83", "title": "Integer arrays", "statement": "Item assignment into an integer quantity stores the converted value truncated toward zero, and leaves the other elements. The elements selected from an integer quantity are again an integer quantity, with the same units. In-place division, in-place operators with float operands, in-place addition, subtraction and remainder with operands in other units, and changing the units of an integer quantity in place raise and change nothing.", "quantifier": "all integer quantities", "why_tests_cant": "all states: the claim ranges over all integer quantities", "anchors": ["quantities/quantity.py:Quantity.__setitem__", "quantities/quantity.py:Quantity.units", "quantities/quantity.py:Quantity.__iadd__"]}
{"id": "C84", "title": "Quantity(q, units) is a protected copy", "statement": "Quantity(q, units) of a quantity q holds what q.rescale(units) returns in memory of its own; but it is a view of a quantity no variable refers to, so changing its units in place always raises ValueError.", "quantifier": "all quantities and units", "why_tests_cant": "it depends on which objects share memory, for all quantities and units; tests fix one arrangement", "anchors": ["quantities/quantity.py:Quantity.__new__", "quantities/quantity.py:Quantity.units"]}
{"id": "C85", "title": "Alternative spellings of unit labels", "statement": "In a unit label '^' means '**', a middle dot means '*', and the empty label means dimensionless: replacing every occurrence of one spelling by the other never changes what the registry answers (value or exception).", "quantifier": "every string", "why_tests_cant": "it ranges over all strings (every string)", "anchors": ["quantities/registry.py:UnitRegistry.__getitem__"]}
{"id": "C86", "title": "max, min, argmax and argmin of uncertain quantities ignore the axis", "statement": "max and min of an uncertain quantity return the first measurement with the largest (smallest) value of the whole array, with its own uncertainty, and argmax and argmin its position in the flattened array, whatever axis is given; they raise ValueError exactly for empty arrays.", "quantifier": "all arrays and axes", "why_tests_cant": "the claim ranges over all arrays and axes, an infinite domain of which tests sample points", "anchors": ["quantities/uncertainquantity.py:UncertainQuantity.max", "quantities/uncertainquantity.py:UncertainQuantity.argmax"]}
{"id": "C87", "title": "Where uncertainties get lost", "statement": "A unit as left operand of *, /, + or - and every NumPy function return the value with zero uncertainty in no units (so unit*x and x*unit differ); x += y adds the values and keeps the uncertainty of x; assigning units raises AttributeError, as does UncertainQuantity(x) without an uncertainty.", "quantifier": "all uncertain quantities", "why_tests_cant": "it is a rule for all uncertain quantities; a test shows single instances", "anchors": ["quantities/unitquantity.py:UnitQuantity.__mul__", "quantities/uncertainquantity.py:UncertainQuantity.__array_finalize__", "quantities/uncertainquantity.py:UncertainQuantity.units"]}
{"id": "C88", "title": "Copies of units and quantities", "statement": "After any history of unit creation u.copy() returns a new unit of the same class, name, definition, symbols and aliases and changes the meaning of no name (dimensionless.copy() raises TypeError). copy.deepcopy of a quantity has the same magnitudes and units; of a unit it is a plain quantity 1 u; of an uncertain quantity it is a plain quantity without the uncertainty.", "quantifier": "all histories, units and quantities", "why_tests_cant": "it must hold after every history (all histories, units and quantities); tests run a few", "anchors": ["quantities/unitquantity.py:UnitQuantity.copy", "quantities/unitquantity.py:CompoundUnit.copy", "quantities/quantity.py:Quantity.__deepcopy__"]}
{"id": "C89", "title": "Built-in units have their standard sizes", "statement": "Some 220 built-in units have exactly the size of their international definition in terms of other units (inch 0.0254 m, pound 0.45359237 kg, psi, calorie, degree Rankine, gibibyte ...), and rescaling any quantity in them multiplies by that number. The pond is a thousand gram-forces instead of one.", "quantifier": "all listed units and all quantities in them", "why_tests_cant": "a table of numbers, all magnitudes: the claim ranges over all listed units and all quantities in them", "anchors": ["quantities/units/"]}
{"id": "C90", "title": "Rescaling in double arithmetic is accurate", "statement": "Carried out in IEEE double arithmetic (unlimited exponent range, pow within one machine epsilon), rescale succeeds and fails exactly as in exact arithmetic, gives the same units and shape, and each element has a relative error of at most as many machine epsilons as there are roundings in the definitions of the units involved; defining a unit adds the roundings of its definition and one.", "quantifier": "all quantities, units and chains of unit definitions", "why_tests_cant": "it ranges over all quantities, units and chains of unit definitions and all double values, whose rounding errors combine differently each time", "anchors": ["quantities/quantity.py:Quantity.rescale", "quantities/quantity.py:get_conversion_factor", "quantities/unitquantity.py:UnitQuantity.__new__"]}
{"id": "C91", "title": "Converting back and forth in double arithmetic", "statement": "Rescaling a quantity of doubles to other units and back changes no element by more than four machine epsilons, however the units are defined, and gives back the units and the shape.", "quantifier": "all quantities of doubles and units", "why_tests_cant": "it ranges over all quantities of doubles and units and all double values, whose rounding errors combine differently each time", "anchors": ["quantities/quantity.py:Quantity.rescale"]}
{"id": "C92", "title": "Rounding keeps order, sign and zero", "statement": "Rescaling in double arithmetic never reverses the order of two elements, keeps equal elements equal, and keeps zero and the sign of each element.", "quantifier": "all quantities of doubles and units", "why_tests_cant": "all pairs of double values: the claim ranges over all quantities of doubles and units", "anchors": ["quantities/quantity.py:Quantity.rescale"]}
{"id": "C93", "title": "The built-in units in double arithmetic", "statement": "The import succeeds in double arithmetic and gives the same units under the same names with the same default units; converting any array of doubles between any two built-in units has a relative error of at most 1e-13, and is refused exactly when it should be.", "quantifier": "all pairs of built-in units and all arrays", "why_tests_cant": "120000 pairs of units times all doubles: the claim ranges over all pairs of built-in units and all arrays", "anchors": ["quantities/units/", "quantities/quantity.py:Quantity.rescale"]}
{"id": "C94", "title": "Operators in double arithmetic", "statement": "q + o and q - o of quantities of doubles in different units succeed and fail as in exact arithmetic, with the same units and shape; each element a + b (b converted) is off by at most the roundings of the conversion plus one times |a| + |b|. Products and quotients make one rounding per element.", "quantifier": "all operands", "why_tests_cant": "it ranges over all operands and all double values, whose rounding errors combine differently each time", "anchors": ["quantities/quantity.py:Quantity.__add__", "quantities/quantity.py:Quantity.__sub__", "quantities/quantity.py:Quantity.__mul__", "quantities/quantity.py:scale_other_units"]}
{"id": "C95", "title": "Comparisons in double arithmetic", "statement": "Comparing quantities of doubles in different units gives the exact answer for every pair of elements that do not agree up to the roundings of the conversion; in the same units it is always exact.", "quantifier": "all operands and comparison operators", "why_tests_cant": "it ranges over all operands and comparison operators and all double values, whose rounding errors combine differently each time", "anchors": ["quantities/quantity.py:wrap_comparison", "quantities/quantity.py:Quantity.__eq__", "quantities/quantity.py:Quantity.__lt__"]}
{"id": "C96", "title": "simplified in double arithmetic", "statement": "simplified of a quantity of doubles succeeds and fails exactly as in exact arithmetic, with the same units, and is exact up to the number of roundings in the definitions; for numbers in a built-in unit the relative error is at most 1e-13.", "quantifier": "all quantities, definitions and default units", "why_tests_cant": "it ranges over all quantities, definitions and default units and all double values, whose rounding errors combine differently each time", "anchors": ["quantities/quantity.py:Quantity.simplified", "quantities/unitquantity.py:UnitQuantity.simplified"]}
{"id": "C97", "title": "Rounding", "statement": "q.round(decimals) keeps units and shape and replaces each element by the nearest multiple of 10**-decimals in the current units, of two equally near ones by the even multiple; rounding twice changes nothing, and the builtin round(q, d) is q.round(d), round(q) is q.round(0). Rounding therefore depends on the units: 1.7 m and 170 cm round to different lengths.", "quantifier": "all quantities and all numbers of decimals", "why_tests_cant": "the claim ranges over all quantities and all numbers of decimals, an infinite domain of which tests sample points", "anchors": ["quantities/quantity.py:Quantity.round", "quantities/quantity.py:Quantity.__round__"]}
{"id": "C98", "title": "argsort", "statement": "q.argsort(axis) returns plain indices: along the axis (of the flattened array if axis is None) they are a permutation of the positions that puts the physical values in nondecreasing order; it raises ValueError exactly for an axis out of range. If no value occurs twice the indices do not depend on the units q is expressed in.", "quantifier": "all quantities, axes and sorting algorithms", "why_tests_cant": "the claim ranges over all quantities, axes and sorting algorithms, an infinite domain of which tests sample points", "anchors": ["quantities/quantity.py:Quantity.argsort"]}
{"id": "C99", "title": "trace and squeeze", "statement": "q.trace(offset, axis1, axis2) is the sum of the elements on that diagonal, in the units of q, defined exactly if the axes are valid and different (ValueError otherwise). q.squeeze(axis) keeps units and elements and removes axes of length one.", "quantifier": "all quantities, offsets and axes", "why_tests_cant": "the claim ranges over all quantities, offsets and axes, an infinite domain of which tests sample points", "anchors": ["quantities/quantity.py:Quantity.trace", "quantities/quantity.py:Quantity.squeeze"]}
{"id": "C100", "title": "NaN-aware sums, means and deviations", "statement": "q.nansum(axis), q.nanmean(axis) and q.nanstd(axis, ddof) are the sum, mean and standard deviation of the elements that are not NaN, in the units of q; the sum of none is 0, the mean of none is NaN, and so is the standard deviation of at most ddof elements. They raise ValueError exactly for an axis out of range. Without NaN, nansum is sum.", "quantifier": "all quantities with any pattern of NaN elements, and axes", "why_tests_cant": "the claim ranges over all quantities with any pattern of NaN elements, and axes, an infinite domain of which tests sample points", "anchors": ["quantities/quantity.py:Quantity.nansum", "quantities/quantity.py:Quantity.nanmean", "quantities/quantity.py:Quantity.nanstd", "quantities/umath.py:nansum"]}
{"id": "C101", "title": "NaN-aware extrema ignore the axis", "statement": "q.nanmax(axis) and q.nanmin(axis) return the largest and smallest of all elements of the whole array that are not NaN, in the units of q (NaN if all are, ValueError for an empty array); q.nanargmax and q.nanargmin its first position in the flattened array (ValueError if there is none). The axis has no effect at all.", "quantifier": "all quantities with any pattern of NaN elements, and axes", "why_tests_cant": "the claim ranges over all quantities with any pattern of NaN elements, and axes, an infinite domain of which tests sample points", "anchors": ["quantities/quantity.py:Quantity.nanmax", "quantities/quantity.py:Quantity.nanargmax", "quantities/quantity.py:Quantity.nanmin", "quantities/quantity.py:Quantity.nanargmin"]}
{"id": "C102", "title": "NaN and unit conversion", "statement": "NaN elements stay where they are: rescale succeeds and fails as without NaN, the result has NaN at exactly the same indices and the same physical value elsewhere; simplified likewise; + and - are defined as without NaN and give NaN exactly where an operand has one; every comparison with NaN is False except !=, in any units, so a quantity with a NaN element is not equal to itself there.", "quantifier": "all quantities with any pattern of NaN elements, and units", "why_tests_cant": "the claim ranges over all quantities with any pattern of NaN elements, and units, an infinite domain of which tests sample points", "anchors": ["quantities/quantity.py:Quantity.rescale", "quantities/quantity.py:Quantity.simplified", "quantities/quantity.py:Quantity.__add__", "quantities/quantity.py:Quantity.__eq__"]}
{"id": "C103", "title": "Prefixed units", "statement": "Every built-in unit whose name is a decimal or binary prefix followed by the name of another built-in unit (megasecond, femtofarad, kilowatt_hour, gibibyte ...) is that multiple of the other unit, and rescaling any quantity multiplies by exactly that power.", "quantifier": "all pairs of built-in units with such names and all quantities", "why_tests_cant": "a table of units times all magnitudes: the claim ranges over all pairs of built-in units with such names and all quantities", "anchors": ["quantities/units/", "quantities/quantity.py:Quantity.rescale"]}
{"id": "C104", "title": "Physical constants", "statement": "Importing the package creates all constants of quantities.constants after the units; each constant, positive or negative, is exactly the number times the units that the package gives for it, so that rescaling any quantity in that constant to those units multiplies by that number (for the constants of a separate list, the CODATA 2006 value). No name is registered, no default unit and no conversion between units changes, and conversions among units and positive constants preserve physical values. A label that prints a constant does not read back as it: 'h' is the hour, 'au' the unit and not the constant.", "quantifier": "all constants of the package and all quantities", "why_tests_cant": "a table of constants times all magnitudes", "anchors": ["quantities/constants/", "quantities/constants/_utils.py:_cd", "quantities/unitquantity.py:UnitConstant", "quantities/quantity.py:Quantity.rescale"]}
{"id": "C105", "title": "NaN-aware sums and means of uncertain quantities", "statement": "For an uncertain quantity in which values and uncertainties may be NaN, nansum(axis) is the sum of the values that are numbers, with the root of the sum of the squares of the uncertainties that are numbers; nanmean(axis) is their mean with that root divided by the number of values that are numbers, for each lane that has one. Both keep the units, raise ValueError exactly for an axis that does not exist, and nansum is sum on data without NaN. An element whose value is NaN but whose uncertainty is a number still contributes to the uncertainty.", "quantifier": "all uncertain quantities with any pattern of NaN elements, and axes", "why_tests_cant": "the claim ranges over all uncertain quantities with any pattern of NaN elements, and axes, an infinite domain of which tests sample points", "anchors": ["quantities/uncertainquantity.py:UncertainQuantity.nansum", "quantities/uncertainquantity.py:UncertainQuantity.nanmean"]}
{"id": "C106", "title": "NaN-aware extrema of uncertain quantities", "statement": "x.nanmax(axis) and x.nanmin(axis) of an uncertain quantity return the first element whose value is the largest (smallest) of all values that are numbers, together with its own uncertainty; nanargmax and nanargmin its position in the flattened array; all raise ValueError if no value is a number. The axis has no influence.", "quantifier": "all uncertain quantities with any pattern of NaN elements, and axes", "why_tests_cant": "the claim ranges over all uncertain quantities with any pattern of NaN elements, and axes, an infinite domain of which tests sample points", "anchors": ["quantities/uncertainquantity.py:UncertainQuantity.nanmax", "quantities/uncertainquantity.py:UncertainQuantity.nanmin", "quantities/uncertainquantity.py:UncertainQuantity.nanargmax", "quantities/uncertainquantity.py:UncertainQuantity.nanargmin"]}
{"id": "C107", "title": "Printed quantities show value and units", "statement": "str(q), repr(q) and format(q, spec) consist of NumPy's text of the magnitude and the units; over units created by any history and with printable symbols and exponents, two quantities print the same iff NumPy prints their magnitudes the same and their units are equal. The label after the last blank of str(q) and of repr(q), which is a product, denotes exactly q's units: Quantity(q.magnitude, label) is q again. With Unicode output the units are written with a raised dot and superscripts, and in the text of an uncertain quantity every '+/-' and every ' sigma' is replaced, also inside the name of a unit. For uncertain quantities str and repr also determine the text of the uncertainty. Formatting an array with a non-empty specification raises TypeError.", "quantifier": "all quantities and uncertain quantities over units from all registration histories, all magnitudes", "why_tests_cant": "it must hold after every history (all quantities and uncertain quantities over units from all registration histories, all magnitudes); tests run a few", "anchors": ["quantities/quantity.py:Quantity.__str__", "quantities/quantity.py:Quantity.__repr__", "quantities/quantity.py:Quantity.__format__", "quantities/uncertainquantity.py:UncertainQuantity.__str__", "quantities/uncertainquantity.py:UncertainQuantity.__repr__"]}
{"id": "C108", "title": "Printed units name the unit", "statement": "str(unit) tells the unit's name: units (other than compound ones) with the same text have the same name; a unit created with a symbol prints as '1 symbol (name)' and both texts remain labels for that unit whatever is created later; repr(unit) identifies class and name, and shows the definition and the symbol. A unit with only a u_symbol prints its name twice ('1 foo (foo)') when Unicode output is off.", "quantifier": "all units of all registration histories", "why_tests_cant": "it must hold after every history (all units of all registration histories); tests run a few", "anchors": ["quantities/unitquantity.py:UnitQuantity.__str__", "quantities/unitquantity.py:UnitQuantity.__repr__"]}
{"id": "C109", "title": "Parts of complex quantities", "statement": "For a quantity of complex dtype, q.real and q.imag have q's units and shape and the real and imaginary parts of q's physical value; rescale converts both parts and is defined as for a real quantity. Assigning to q.real or q.imag replaces exactly that part by the physical value of what is assigned (plain data count in q's units; values are broadcast) and leaves the units and the other part alone; it raises ValueError, changing nothing, if the units cannot be converted or the shapes do not broadcast, and never otherwise. If q is dimensionless the units of an assigned quantity are silently dropped. For a real dtype, assigning to q.imag always raises.", "quantifier": "all complex quantities, assigned values, units and consistent unit sizes", "why_tests_cant": "the claim ranges over all complex quantities, assigned values, units and consistent unit sizes, an infinite domain of which tests sample points", "anchors": ["quantities/quantity.py:Quantity.real", "quantities/quantity.py:Quantity.imag", "quantities/quantity.py:Quantity.rescale"]}
{"id": "C110", "title": "Arithmetic in labels has Python's precedence", "statement": "A label built from names, numbers, parentheses and the operators + - * / // ** is read exactly by Python's expression grammar: unit_registry answers with the value of the unique tree that the grammar derives ('a/b*c' is (a/b)*c, 'a**b**c' is a**(b**c), '-a**b' is -(a**b)), and a label that the grammar does not derive is refused.", "quantifier": "all label texts and all registry states", "why_tests_cant": "it ranges over all strings (all label texts and all registry states)", "anchors": ["quantities/registry.py:UnitRegistry.__getitem__"]}
{"id": "C111", "title": "Labels compose", "statement": "If labels a and b (neither empty nor 'in') mean the values A and B then '(a)*(b)', '(a)·(b)', '(a)/(b)', '(a)//(b)', '(a)+(b)', '(a)-(b)' mean the result of that operation on A and B, '(a)' means A, '-(a)' means -A; '(a)**(b)' and '(a)^(b)' with a number for b mean the power. In particular the units of the product, quotient and power are those of A and B added, subtracted, multiplied. If A and B are numbers the label means their sum, difference, product, quotient (ZeroDivisionError for B = 0) or integral power, exactly. ('in' means inch only when it is the whole label: '(in)' is a SyntaxError.)", "quantifier": "all pairs of labels and all registry states", "why_tests_cant": "it ranges over all strings (all pairs of labels and all registry states)", "anchors": ["quantities/registry.py:UnitRegistry.__getitem__"]}
{"id": "C112", "title": "Labels give well-formed units that exist", "statement": "Whatever the text of a label, if unit_registry[label] gives a unit or quantity, it is a scalar, no unit occurs twice in it or with exponent zero, the dimensionless unit never does, and every unit in it is a registered unit. This holds after any history of unit creations, and stays true when the value of a label is stored under a new name. So units given as a string to rescale, the Quantity constructor or the units setter are well formed or refused. They are refused with the error of the lookup, or with AttributeError if the label means a number or another object without units.", "quantifier": "all strings and all registry states", "why_tests_cant": "it ranges over all strings (all strings and all registry states)", "anchors": ["quantities/registry.py:UnitRegistry.__getitem__", "quantities/registry.py:UnitRegistry.__setitem__", "quantities/quantity.py:validate_dimensionality"]}
{"id": "C113", "title": "Default units of the shipped library", "statement": "After importing the library and any sequence of set_default_units calls with any arguments, successful or not, every base-unit class has a default exactly if it had one at import, the default is convertible to the SI base unit of the class, and simplified succeeds for every quantity in library units (except the statampere), preserving its value and using only the current default units. set_default_units('SI') and set_default_units('cgs') always succeed; 'SI' makes the seven SI base units the defaults, 'cgs' cm, g, s, cd, mol, K but leaves the default current unchanged; information keeps its default in both; any other system name is a ValueError that changes nothing.", "quantifier": "all sequences of calls, all arguments and all quantities in library units", "why_tests_cant": "it must hold after every history (all sequences of calls, all arguments and all quantities in library units); tests run a few", "anchors": ["quantities/unitquantity.py:set_default_units", "quantities/unitquantity.py:IrreducibleUnit.set_default_unit", "quantities/units"]}
{"id": "C114", "title": "Temperatures are converted as intervals", "statement": "Conversion multiplies magnitudes by one positive factor, so zeros stay zero. Hence x degC converts to x K and x degF to 5/9 x K: no temperature in degC or degF is converted to the kelvins that the Celsius and Fahrenheit scales say.", "quantifier": "all magnitudes, units and definitions of units", "why_tests_cant": "the claim ranges over all magnitudes, units and definitions of units, an infinite domain of which tests sample points", "anchors": ["quantities/quantity.py:Quantity.rescale", "quantities/units/temperature.py"]}
{"id": "C115", "title": "Programs do not depend on the units of their inputs", "statement": "Take any program made of the operators, comparisons, methods, item access and assignment, ufuncs, rescale and simplified, with local variables, conditionals and loops. Run it on two lists of inputs that hold equal values, the quantities possibly in other units. It ends with an exception for one iff it ends with the same exception for the other, terminates for one iff for the other, takes the same branches, returns the same booleans, indices and plain arrays, and quantities that are equal in other units. This holds for every environment of units and for the units of the shipped library under any default units.", "quantifier": "all programs, all inputs, all units", "why_tests_cant": "it relates executions with the same data in different units, for all programs, all inputs, all units", "anchors": ["quantities/quantity.py:Quantity", "quantities/quantity.py:Quantity.rescale", "quantities/quantity.py:Quantity.simplified"]}
{"id": "C116", "title": "Programs compute what the unitless program computes", "statement": "If a program (as above, without == and != between quantities) succeeds on quantities then the same program without its rescale and simplified calls succeeds on the dimensionless values of the inputs in any coherent system of units, takes the same branches, and returns the same booleans, indices and plain arrays and the values of the quantities in that system. With == it does not: for quantities of different kinds == answers False instead of raising.", "quantifier": "all programs, all inputs, all units and all coherent systems of units", "why_tests_cant": "it relates executions with the same data in different units, for all programs, all inputs, all units and all coherent systems of units", "anchors": ["quantities/quantity.py:Quantity", "quantities/quantity.py:Quantity.rescale", "quantities/quantity.py:Quantity.simplified"]}
{"id": "C117", "title": "Names under threads", "statement": "Any number of threads register names, create units and compound units, look labels up, set default units and simplify, in any order of their steps, and calls may be interrupted at any step. Names that are registered when the threads start keep their values and the unit objects theirs; every other name, at any time, has the value that one of the calls gives it; a lookup of a name known at the start, or of a product, quotient or power of such names, returns what it meant at the start. A call during which no other thread makes a step does what it does without threads. Not guaranteed: two threads can register a new name for different values, both successfully, and the name then changes its meaning; two units created at the same time can get the same place in the printing order, so that equal products of them print differently.", "quantifier": "all programs of threads, all schedules and interrupts, all registry states", "why_tests_cant": "it ranges over all programs of threads, all schedules and interrupts, all registry states; a test runs a few of the schedules, and not the ones it chooses", "anchors": ["quantities/registry.py:UnitRegistry.__setitem__", "quantities/registry.py:UnitRegistry.__getitem__", "quantities/unitquantity.py:UnitQuantity.__new__", "quantities/unitquantity.py:UnitQuantity.__init__"]}
{"id": "C118", "title": "simplified under threads", "statement": "Whatever other threads do while simplified runs (create units, set default units, register names), the quantity it returns has the value and the shape of its argument, and every unit in it belongs to a unit that was a default unit at some moment between the call and the return. If no unit is created meanwhile and all units of the argument have default units when the threads start, simplified does not raise.", "quantifier": "all programs of threads with proper arguments, all schedules and interrupts, all quantities", "why_tests_cant": "it ranges over all programs of threads with proper arguments, all schedules and interrupts, all quantities; a test runs a few of the schedules, and not the ones it chooses", "anchors": ["quantities/quantity.py:Quantity.simplified", "quantities/unitquantity.py:IrreducibleUnit.simplified", "quantities/unitquantity.py:IrreducibleUnit.set_default_unit"]}
{"id": "C119", "title": "Default units under threads", "statement": "If a class has a default unit when the threads start, then at every moment of every schedule it has one, convertible to the one at the start. If it has none, two threads that create its first units can both set the default: then the default unit that one of them has set is replaced by a unit that cannot be converted to it.", "quantifier": "all programs of threads with proper arguments, all schedules and interrupts, all classes", "why_tests_cant": "it ranges over all programs of threads with proper arguments, all schedules and interrupts, all classes; a test runs a few of the schedules, and not the ones it chooses", "anchors": ["quantities/unitquantity.py:IrreducibleUnit.set_default_unit", "quantities/unitquantity.py:IrreducibleUnit.__init__", "quantities/unitquantity.py:set_default_units"]}
{"id": "C120", "title": "Interrupted creations and settings", "statement": "If the creation of a unit is interrupted at any step, the names it has registered so far are an initial part of its names, other names and existing default units are unchanged, and at most its own class has got a default unit (this one). If its names were all free, the same creation can be repeated: it succeeds, and every name denotes a unit with this class, name, symbol and definition. If set_default_units is interrupted, some of its settings, from the first one on, have been made and nothing else has changed; if the call would have succeeded, it can be repeated, and then leaves the same default units as without the interruption.", "quantifier": "all interruption points, all registry states and all arguments", "why_tests_cant": "it ranges over all interruption points, all registry states and all arguments; a test cannot choose the point of interruption", "anchors": ["quantities/unitquantity.py:UnitQuantity.__init__", "quantities/unitquantity.py:IrreducibleUnit.__init__", "quantities/unitquantity.py:set_default_units"]}
{"id": "C121", "title": "Setting units, interrupted or by two threads", "statement": "Setting the units attribute does what rescale does, in place, or raises and changes nothing. Interrupted at any step it leaves the value of the quantity unchanged (in the old or in the new units), with one exception: between the multiplication of the magnitudes and the assignment of the new units the quantity has the new magnitudes with the old units, so another value, unless the conversion factor is 1 or all magnitudes are 0. Two threads that set the units of one quantity to the same units can both succeed and convert it twice.", "quantifier": "all interruption points, all quantities and units", "why_tests_cant": "it ranges over all interruption points, all quantities and units; a test cannot choose the point of interruption", "anchors": ["quantities/quantity.py:Quantity.units"]}
{"id": "C122", "title": "Units and shapes do not depend on the data", "statement": "Whether a call succeeds, which exception it raises, and the kind, units and shape of its result depend on the kinds, units and shapes of its arguments and not on the magnitudes (exponents, indices and axes count as part of the call; for all operators, comparisons, methods, item access and assignment, ufuncs, rescale and simplified, except selection with a mask and nonzero, whose shapes depend on the data). So one run of a program without branches predicts units, shape or exception of the result for all data of the same units and shapes; and a check of each call of a program on one sample, with the branches of a conditional agreeing and the body of a loop preserving units and shape, predicts them for all data and all paths.", "quantifier": "all programs, all data, all units and all shapes", "why_tests_cant": "it relates two executions, for all programs, all data, all units and all shapes", "anchors": ["quantities/quantity.py:Quantity", "quantities/dimensionality.py:p_dict"]}
{"id": "C123", "title": "Conversions stay within the range of doubles", "statement": "With overflow and subnormal numbers taken into account (IEEE double precision with its range of exponents), import quantities succeeds with the same units, names and default units, every built-in unit has a finite normal size, and converting any array of zeros and numbers of magnitude 2**-500 to 2**500 between any two built-in units is refused exactly when it should be and gives finite numbers with a relative error of at most 1e-13. For other units it holds with an error bound when a count of the roundings and binary exponents of their definitions is at most 480.", "quantifier": "all pairs of built-in units, all chains of unit definitions and all arrays of such numbers", "why_tests_cant": "it ranges over all pairs of built-in units, all chains of unit definitions and all arrays of such numbers and all double values, whose rounding errors combine differently each time", "anchors": ["quantities/units/", "quantities/quantity.py:Quantity.rescale", "quantities/quantity.py:get_conversion_factor", "quantities/unitquantity.py:UnitQuantity.__new__"]}
{"id": "C124", "title": "simplified stays within the range of doubles", "statement": "With overflow and subnormal numbers taken into account, simplified of any array of zeros and numbers of magnitude 2**-500 to 2**500 in a built-in unit succeeds and fails as in exact arithmetic, with the same units and shape, and gives finite numbers with a relative error of at most 1e-13; the same, with an error bound, for units defined by the user with a bounded count of roundings and binary exponents.", "quantifier": "all built-in units, all bounded unit definitions and all arrays of such numbers", "why_tests_cant": "it ranges over all built-in units, all bounded unit definitions and all arrays of such numbers and all double values, whose rounding errors combine differently each time", "anchors": ["quantities/quantity.py:Quantity.simplified", "quantities/unitquantity.py:UnitQuantity.simplified", "quantities/unitquantity.py:IrreducibleUnit.simplified"]}
{"id": "C125", "title": "Operators and round trips stay within the range of doubles", "statement": "With overflow and subnormal numbers taken into account and zeros and numbers of magnitude 2**-500 to 2**500 in any two built-in units: q + o and q - o are refused exactly when they should be, never overflow, and each element a + b is off by at most 1e-13 * (|a| + |b|); comparisons are exact except between numbers that agree up to 1e-13; rescaling to the other unit and back changes no element by more than four machine epsilons. Products, and quotients by numbers other than zero, make one rounding per element in any units. For user-defined units the same holds with a bound when a count of the roundings and exponents of their definitions is at most 480.", "quantifier": "all pairs of built-in units, all chains of unit definitions and all arrays of such numbers", "why_tests_cant": "it ranges over all pairs of built-in units, all chains of unit definitions and all arrays of such numbers and all double values, whose rounding errors combine differently each time", "anchors": ["quantities/quantity.py:Quantity.__add__", "quantities/quantity.py:Quantity.__sub__", "quantities/quantity.py:Quantity.__mul__", "quantities/quantity.py:Quantity.__eq__", "quantities/quantity.py:Quantity.rescale", "quantities/quantity.py:scale_other_units"]}
{"id": "C126", "title": "Conversions preserve order exactly", "statement": "In double arithmetic, where conversions round, converting an array between convertible units never reverses the order of two elements, keeps zeros zero, never changes a sign, and commutes with negation exactly; the greatest (least) elements of the converted array, along any axis, are exactly the converted greatest (least) elements. With the range of exponents: of two finite elements the one of smaller magnitude is finite after conversion if the other is. It holds for any numbers, and for all pairs of built-in units.", "quantifier": "all pairs of built-in units, all bounded unit definitions and all arrays of doubles", "why_tests_cant": "it ranges over all pairs of built-in units, all bounded unit definitions and all arrays of doubles and all double values, whose rounding errors combine differently each time", "anchors": ["quantities/quantity.py:Quantity.rescale", "quantities/quantity.py:Quantity.max", "quantities/quantity.py:Quantity.min", "quantities/quantity.py:get_conversion_factor"]}
{"id": "C127", "title": "When conversions overflow or underflow", "statement": "With IEEE double precision and its range of exponents, converting an array of any finite doubles between any two built-in units succeeds and fails as in exact arithmetic, and each element is decided by its exact result y: if |y| <= 2**1019 the double is finite and off by at most 1e-13 * |y| plus 2**-1074 (the smallest subnormal number); if |y| >= 2**1025 it is not finite (2**1020 km are not a double in metres). The same holds of all units whose definitions are of moderate size, with the bound counted from the definitions. Negation and absolute value are exact.", "quantifier": "all pairs of built-in units, all bounded unit definitions and all arrays of finite doubles", "why_tests_cant": "it ranges over all pairs of built-in units, all bounded unit definitions and all arrays of finite doubles and all double values, whose rounding errors combine differently each time", "anchors": ["quantities/quantity.py:Quantity.rescale", "quantities/quantity.py:get_conversion_factor", "quantities/dimensionality.py:p_dict"]}
{"id": "C128", "title": "Threads that use the shipped units", "statement": "After import quantities let any threads look labels up, register names, create units, set default units and call simplified, in any interleaving. At every moment every name of the library means its unit, every built-in unit is defined as before, and the default unit of each base dimension is convertible to the one of the import. A label made of library names by products, quotients and powers is looked up with the same result as right after the import. simplified of a quantity in built-in units returns a quantity of the same value, in units that were default units at some moment during the call, and it succeeds (except for statampere and dimensionless units) if no unit is created meanwhile.", "quantifier": "all numbers of threads, all programs and all schedules, started after the import", "why_tests_cant": "it ranges over all numbers of threads, all programs and all schedules, started after the import; a test runs a few of the schedules, and not the ones it chooses", "anchors": ["quantities/registry.py:UnitRegistry", "quantities/unitquantity.py:set_default_units", "quantities/quantity.py:Quantity.simplified", "quantities/units/"]}
{"id": "C129", "title": "Calculations with uncertainties do not depend on units", "statement": "Take any program over uncertain quantities and exact factors made of +, -, *, /, ** and sqrt, sum, mean, max and min that divides by no zero. If it computes a result, then the same program on the same measurements given in other units computes a result with the same values and the same uncertainties, in convertible units.", "quantifier": "all programs, all collections of units, all measurements and factors and all ways to express them in other units", "why_tests_cant": "it relates two executions, for all programs, all collections of units, all measurements and factors and all ways to express them in other units", "anchors": ["quantities/uncertainquantity.py:UncertainQuantity", "quantities/uncertainquantity.py:UncertainQuantity.__add__", "quantities/uncertainquantity.py:UncertainQuantity.__pow__", "quantities/uncertainquantity.py:UncertainQuantity.mean"]}
{"id": "C130", "title": "Memoized functions under threads", "statement": "Let any number of threads call functions memoized with memoize, in any interleaving of their accesses to the cache, and let the holders of returned objects change them at any time. If the function returns equal results for equal arguments, every call returns a new object, owned by no other caller and not in the cache, with the result of the function for its arguments, or raises what the function raises (TypeError for unhashable arguments). No later access changes a returned object, and every call ends after at most five accesses of its own. That the function is invoked only once for equal arguments holds only without such races.", "quantifier": "all numbers of threads and calls, all schedules and all changes of returned objects", "why_tests_cant": "it ranges over all numbers of threads and calls, all schedules and all changes of returned objects; a test runs a few of the schedules, and not the ones it chooses", "anchors": ["quantities/decorators.py:memoize"]}
