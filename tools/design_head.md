# A Rocq (Coq 8.16.1) model of python-quantities

Generated by tools/design.py from tools/design_head.md, properties.jsonl,
MANIFEST.json and tools/assumptions.json.

## 1. Approach

The model is a set of small total Gallina functions mirroring /repo function by
function, with exceptions as values (`res A = Ok a | Err exn`).  Every definition
cites file:lines of /repo and names its simplifications.  Nothing in /repo is
executed.  The model's only parameters are explicit arguments: the arithmetic of
magnitudes (`Num A`), the hash functions, the texts of floats (`frepr`, `fread`),
the meaning of unit labels where a theorem does not need the parser (`lookup`), and
the `pow` of the C library (`pw`).

### Files (each uses only the ones above it)

| files | contents |
|---|---|
| `Py` | exceptions, Python numbers as exponents (`pynum`: int or float), insertion-ordered dicts |
| `Num` | `Class Num A`: the arithmetic of magnitudes; instances: reals `NumR`, rationals `Qc` (executable examples) |
| `Dim`, `DimFacts`, `Hash` | `Dimensionality`: dict unit -> exponent, operators, in-place forms, hash and equality |
| `Arr`, `ArrFacts`, `Lanes` | NumPy arrays: shape + flat data, broadcasting, axis reductions (trusted reading of NumPy), and what they mean element by element |
| `Units`, `UnitFacts` | unit records, environments, `_reference`, unit creation |
| `Spec`, `SpecApi`, `SpecUncert`, `SpecPickle`, `SpecSizes`, `SpecFloat` | the specifications used by the statements of theorems, free of the code's algorithms |
| `Quant`, `QuantFacts`, `SimpFacts`, `ConvFacts` | conversion factors, rescale, simplified, constructor |
| `Defaults`, `DefaultsFacts`, `Dtype`, `Preferred` | default units, dtypes in rescale, preferred units |
| `Ufunc`, `Ops`, `OpsFacts` | the ufunc unit table, operators, comparisons |
| `Methods`, `MethodsFacts`, `ItemFacts` | ndarray methods, item access |
| `Program` | a language of programs over these calls (not in /repo), for C115, C116 and C122 |
| `Sched`, `SchedFacts` | the calls as sequences of atomic accesses to shared state; threads, schedules, interrupts |
| `Methods2`, `Nan`, `UncertNan` | round, argsort, trace, squeeze; magnitudes with NaN, the nan-methods of quantities and of uncertain quantities |
| `Complex` | complex magnitudes: `real`, `imag`, their setters, `rescale` |
| `Umath`, `UmathFacts` | umath.py |
| `Heap`, `HeapFacts`, `HeapDims` | mutable objects: shared buffers, views, units setter, in-place operators |
| `Text`, `Lex`, `Markup`, `Registry`, `RegFacts`, `LexFacts`, `PrintFacts`, `RoundTrip`, `PrintEq`, `Render`, `RegEq`, `Show`, `SpecGrammar`, `GrammarFacts`, `LabelFacts` | labels, parser, whitelist, evaluation, registration, printing |
| `Uncert`, `UncertFacts` | UncertainQuantity |
| `Decor` | `memoize`, `quantitizer` |
| `Pickle`, `PickleFacts`, `HistFacts` | pickling and copying |
| `Table` (generated), `Import`, `TableFacts` | the built-in units and a verified checker for unit tables |
| `Constants` (generated), `Kimport`, `KFacts`, `SpecConstants` | the physical constants, their creation, and CODATA values for comparison |
| `Float`, `FloatFacts`, `LibFloat` | the model in IEEE double arithmetic (Flocq, exponents unlimited) and its rounding errors |
| `Double`, `SpecDouble`, `DoubleFacts`, `LibDouble` | the same with overflow and subnormal numbers |
| `Examples` | a small concrete unit system, used beside theorems to show that hypotheses are met |
| `Props_*` | the property theorems `Cnn_...`, examples, `Print Assumptions` |

### Three levels of theorems

* **Unit/control level**: which units a result has, which exception is raised,
  which object changes.  Stated for *every* `Num A`, hence also for IEEE floats.
* **Value level**: physical values.  Stated at the reals, `NumR`.
* **Double level** (C90-C96, C126): the same functions at `NumF`, where every operation
  rounds, compared with the run at `NumR`; (C123-C127) at `NumD`, where results can also
  overflow or lose bits below 2^-1022.

### The specification (`Spec.v`)

An *interpretation* `phi : unit -> R` gives each unit a size (the exponential of a
real, hence positive).  It is *consistent* with an environment if every unit defined
as `a * u1**e1 * ...` satisfies `phi u = a * phi u1 ^ e1 * ...` and dimensionless units
have size 1.  The physical value of a quantity is magnitude times the product of its
units' sizes.  "Same physical value" = equal under every consistent interpretation;
"convertible" = the ratio of sizes is the same under every consistent interpretation.

### Properties that the code violates

Where the code violates the property one would expect, the property in
properties.jsonl states what holds, a theorem with suffix `_refuted` gives the violating
input (for the API behaviour a user would expect), and the others characterise exactly
when it does hold.

## 2. Trusted base

* Coq's kernel (with `vm_compute`), and these axioms of the standard library, as listed
  per theorem in section 6: `ClassicalDedekindReals.sig_forall_dec`,
  `ClassicalDedekindReals.sig_not_dec`,
  `FunctionalExtensionality.functional_extensionality_dep`, `Classical_Prop.classic`.
  No axiom of ours; Flocq (used in the Float files) brings none of its own.
* The reading of the source: the tie between model and /repo is the citation in each
  comment.  Nothing has been run.
* For `Table.v` and `Constants.v`: tools/table.py and tools/constants.py, Python scripts
  that read /repo/quantities/units and constants/ as text (with Python's `ast`) and
  write one line per constructor call.
* NumPy/CPython behaviour the model assumes, stated where it is used: dict order,
  hash of numbers, broadcasting, axis reductions, view/base rules, the ufunc wrapping
  protocol, `in`-place casting rules, `copy`/`pickle` protocols.

## 3. Hypotheses that recur, and where they are met

* `renv_ok E`: the environment was built by unit creation with positive factors
  (`C15`, `C73_import` show that every reachable environment is).
* `qty_ok q`, `dims_ok d`: as many numbers as the shape says; no unit twice, no zero
  exponent (preserved by every operation: C01-C03, C81, C67).
* `std_defaults`: each base class has a base unit without definition, and its default
  unit (if any) is convertible to it (`C73_std_defaults` for the library's own defaults,
  `C20_defaults_convertible` after any changes).
* `faithful pw` (C90-C96): `pow` of a positive number is within one machine epsilon
  of the true power (`ex_pw_faithful`: the correctly rounded one is); `faithfulD pw` (C123-C127):
  so it is, and finite, where the true power is between 2^-1020 and 2^1020 (`ex_pwD_faithful`).

## 4. What is modelled and what is not

Modelled: quantity.py, dimensionality.py, unitquantity.py, registry.py, markup.py,
umath.py, uncertainquantity.py, decorators.py (memoize, quantitizer), units/*.py (as a
table), in the sense of the definitions' comments.

Not modelled:

* Threads are modelled for the registry, unit creation, default units, `simplified` and the
  `units` setter only (C117-C121), with one access to a dictionary or attribute, or one
  NumPy call, as the atomic step; elsewhere calls run one after the other.
* NaN outside `Nan.v` and `UncertNan.v` (where NaN is an input; arithmetic on numbers never makes one),
  infinities and signed zeros (overflow and underflow only in C123-C127, where everything that
  is not finite is one value); arithmetic between complex numbers.  Value theorems with division or negative powers
  require nonzero divisors.
* Exponents that are Python floats are exact rationals.
* `with_doc`, docstrings, warnings, the text NumPy prints for magnitudes (a parameter of `Show.v`), `i18n`,
  version machinery.  Of constants/: the uncertainty of the astronomical unit; fractional
  powers of constants of negative value.
* The `out` argument of methods, except for the units it receives (Heap.v); `dtype`
  arguments.
* Python syntax beyond arithmetic expressions is represented by the node kind that the
  registry's whitelist refuses.
