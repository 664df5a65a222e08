#!/usr/bin/env python3
"""Regenerate DESIGN.md: tools/design_head.md, then one entry per property (from
properties.jsonl, MANIFEST.json and the table below), then the assumptions per theorem
(tools/assumptions.json)."""
import json,os
root=os.path.dirname(os.path.dirname(os.path.abspath(__file__)))
# property -> (what is modelled, how it is proved)
M={}
def m(ids,model,proof):
    for i in ids.split(): M[i]=(model,proof)
m('C01 C02 C03','`Dim.v`: the loops of `__mul__`, `__truediv__`, `__pow__` over an insertion-ordered dict of exponents (Python ints or floats)','induction over the right operand; the map of exponents (`exp_of`) and the invariant `wf_dims` (no unit twice, no zero exponent) after each step')
m('C04','`Dim.v`: `__imul__` &c. as loops on the receiver, with the dict they iterate passed separately or identical','the loops are the same folds; `d *= d` separately, by induction')
m('C05','`Dim.v`: the loop with the size check CPython makes when a dict changes during iteration','computation for a non-empty dict of unknown contents')
m('C06','`Dim.v`: `__add__`, `__sub__` with the comparison of dicts','`dim_eqb` decides equality of exponent maps')
m('C07 C08','`Hash.v`: `hash` of the unordered set of (unit, exponent) pairs over arbitrary hash functions of tuples and of unit pairs; CPython hash of ints and of rationals (mod 2**61-1)','xor is insensitive to permutation; the collision from the modulus')
m('C09','`Quant.v` `dim_simplified`, `Dim.v` sums of absolute exponents','order on rationals')
m('C10 C11 C12 C13','`Quant.v`: `get_conversion_factor`, `rescale`; `Units.v`: `_reference`, all unit environments built by creation','interpretations (`Spec.v`): references denote the same size (induction over creation); two products of irreducible units of equal size under all interpretations have the same exponents (an interpretation is built that separates them)')
m('C14','`Quant.v` `rescale`, the early return','for any `Num A`: no arithmetic is executed')
m('C15 C16','`Units.v` `add_unit`, `unit_ref`','invariant `env_ok` over histories; lookups are stable under extension')
m('C17 C18 C19','`Quant.v` `simplified` with fuel (its recursion may not terminate), `Units.v`','induction over fuel and over the list of units; canonicity from uniqueness of reduced forms; non-termination: no fuel suffices')
m('C20 C21','`Defaults.v`: `set_default_unit`, `set_default_units` and the state of defaults','invariant over histories of creations and default changes')
m('C22','`Quant.v` `dimensionless_magnitude`','from C18')
m('C23','`Preferred.v`: the loop over `PREFERRED`, comparison of printed texts (`Markup.v`)','loop induction; text comparison is equality by C63; counterexample with exponent 10')
m('C24','`Dtype.v`: two dtypes (int, float) with casting','case analysis, exact rational data')
m('C25 C26 C27 C28 C29 C30 C31 C32','`Ops.v`: operators with the decorators `check_uniform`, `protected_*`, ufunc dispatch, broadcasting (`Arr.v`)','physical value is a homomorphism; naturality of broadcasting')
m('C33 C34 C35','`Ops.v`: the comparison operators','as above; order is invariant under positive factors')
m('C36 C37','`Quant.v` `q_new`, `validate_unit_quantity`','case analysis')
m('C38 C39 C40 C41','`Ufunc.v`: the table `p_dict` of dimensionality.py, `__array_prepare__`/`__array_wrap__`','case analysis over the table')
m('C42 C43 C50 C76 C77 C78 C79 C80','`Umath.v`: umath.py over the ufunc layer, slices, `trapz`, `gradient`, `cross`, `unwrap`','induction over lists/lanes, element formulas')
m('C44 C45 C46 C47 C48 C49 C74 C75','`Methods.v`: the ndarray methods of quantity.py, item access with any index selector, `Lanes.v` for axis reductions','each reduction commutes with multiplication by a positive number; induction over lanes')
m('C51 C52 C53 C54 C55 C56 C57 C81 C82 C83 C84','`Heap.v`: buffers, windows, bases, the write flag; the operations on objects as state transitions (NumPy 1 and 2)','invariants over arbitrary sequences of operations; frame lemmas')
m('C58 C59 C60 C61 C62 C63 C64 C85','`Lex.v`, `Registry.v`: label preprocessing, tokenizer, expression parser, whitelist, evaluation, `__setitem__`; `Markup.v`: printing with regex substitutions; `Text.v`','induction over registration histories, expressions and strings; round trip printing/parsing; `frepr`/`fread` (text of floats) are parameters with the hypothesis that they are inverse')
m('C65 C66 C67 C68 C69 C86 C87','`Uncert.v`: value and uncertainty as two quantities; operators of uncertainquantity.py','each operation described on pairs (value, uncertainty); invariant over an inductive closure of all operations')
m('C70 C88','`Pickle.v`: `__reduce__`/`__setstate__`/`copy`/`deepcopy`, a pickle as the tree of constructor calls it makes, read in any other process state','induction over the tree; histories')
m('C71 C72','`Decor.v`: `memoize` with a store of mutable objects, `quantitizer`','invariant over call histories; case analysis')
m('C104','`Constants.v` (generated from /repo/quantities/constants by tools/constants.py), `Kimport.v`, on top of the library state of `Import.v`','the labels are evaluated in the checker state of `TableFacts.v` by `vm_compute` (`KFacts.v`); the rest by general lemmas about a unit defined by a number and a label; values are compared with the list `SpecConstants.v`')
m('C73 C89 C103','`Table.v` (generated from /repo/quantities/units by tools/table.py), `Import.v`','a verified checker (`TableFacts.v`) that abstracts real factors by rationals, run by `vm_compute`')
m('C90 C91 C92 C94 C95 C96','`Float.v`: the same model run in double arithmetic (`NumF`): every operation rounds to the nearest 53-bit number (Flocq), `pow` is any function within one epsilon','relative errors as logarithms; count of roundings along the definitions; monotonicity of rounding')
m('C97 C98 C99','`Methods2.v`: `round`, `__round__`, `argsort`, `trace`, `squeeze` of quantity.py over a trusted reading of the NumPy functions (`argsort` for any sorting algorithm)','nearest multiples by integer parts; permutations; induction over lanes')
m('C105 C106','`UncertNan.v`: the nan-methods of uncertainquantity.py over `Nan.v` and `Uncert.v`, value and uncertainty NaN independently','lanes of the two arrays as for C69 and C100, elementwise')
m('C107 C108','`Show.v`: `__str__`, `__repr__`, `__format__` over `Markup.v`; the text NumPy prints for an array is a parameter','the characters of a printed dimensionality exclude blanks, commas and newlines, so the text splits uniquely; then C62 and C63')
m('C109','`Complex.v`: magnitudes are pairs; `real`, `imag`, their setters, `rescale`','pointwise from `rescale_value` and the broadcasting lemmas of `ItemFacts.v`')
m('C110','`Lex.v` (tokens, recursive-descent parser) against `SpecGrammar.v`, an inductive relation transcribing the rules of the language reference','soundness and completeness of the parser for the relation by induction on fuel and on derivations; the fuel given always suffices (`parse_fuel_enough`, `lex_fuel_enough`)')
m('C111','`Registry.v` get_item over `Lex.v`','tokens of a text followed by a closing parenthesis are its own tokens; preprocessing works on the pieces separately; then C110')
m('C112','`Registry.v`','induction on the expression; each operator of `Ops.v` maps well-formed scalars in known units to such')
m('C113','`Defaults.v` with the registry of `Import.v`','an invariant of set_default_unit (the default stays convertible to the base unit), induction on the calls; the names used by the systems are looked up in the generated table by `vm_compute`')
m('C114','`Quant.v` rescale, `Table.v`','the conversion factor is the ratio of two positive sizes; then C89 for the temperature units')
m('C100 C101 C102','`Nan.v`: magnitudes are `option R` (`None` is NaN, which propagates through arithmetic and falsifies comparisons); the nan-methods; the unchanged model of conversion, operators and comparisons run at these magnitudes','the model at `option R` is shown to be the model at `R` elementwise (`lift_*`), then as C10-C31')
m('C115 C116','`Program.v`: a language whose steps are the calls modelled in Ops.v, Methods.v, Methods2.v, Ufunc.v, Quant.v, with a big-step semantics including exceptions and loops','each call commutes with changes of units (a logical relation on values); induction on the run; `Props_Library.v` instantiates the result with the shipped library')
m('C117','`Sched.v`: each call as a sequence of atomic accesses to the registry dictionary, the class attributes and the list of units; threads that make calls depending on earlier results; steps in any order, interrupts anywhere','rely/guarantee: an invariant of the shared state that every access of every call keeps; `solo` of each call equals the sequential model; the races by explicit schedules')
m('C118','the same; `simplified` reads the default unit once per unit','the invariant carries well-formed, convertible defaults; the loop of `simplified` has the value of the units done so far')
m('C119','the same','the same invariant; the race by an explicit schedule')
m('C120','the same: the state after n accesses of a call','a call that is cut off is cut inside one of its parts; settings commute with convertible defaults')
m('C121','`Sched.v`: the setter as four accesses to the quantity','cases on the point of interruption; explicit schedule for two threads')
m('C122','`Program.v`: the programs of C115; the check tries each call once on ones','two-run simulation on values of equal kind, units and shape, for every call and, by induction, every program')
m('C93','the same, over the generated table','the checker of `LibFloat.v` counts roundings and is run by `vm_compute`')
m('C129','`Uncert.v`: programs as trees of method calls','induction over the program; each operation is a function of the measurements (C65, C68, C69, C86), so equal measurements give equal results; units of results stay convertible')
m('C127','`NumD`, conversions of Quant.v','the factor of a conversion is at most k roundings from the exact one (C123); rounding errors are relative or at most the smallest subnormal; beyond 2^1024 rounding gives no number')
m('C130','`Decor.v` with the calls cut into atomic accesses as in `Sched.v`','an invariant of all reachable states: cached objects hold the result of their key and are nobody else\'s; each unfinished call is at a known access; induction over the moves')
m('C128','`Sched.v` started in the state after the import of `Table.v`','C117-C119 at the shipped library: its history is one of C70, its units are simplifiable (C73)')
m('C126','`NumF` and `NumD`, conversions of Quant.v and the reductions of Methods.v','rounding is monotone, so the function a conversion applies to each element respects order, zero and negation; a fold of max or min commutes with it')
m('C123 C124 C125','`Double.v`: the same model in double precision with its range of exponents (`NumD`, Flocq `FLT`): a number beyond 2^1024 is not a number of the model, subnormal numbers lose bits','one count bounds roundings and binary exponents, so no intermediate result leaves the normal range; the checker of `LibDouble.v` computes the count for the table')
exec(open(root+'/tools/design_more.py').read()) if os.path.exists(root+'/tools/design_more.py') else None
out=open(root+'/tools/design_head.md').read()
thm={c['property']:c for c in json.load(open(root+'/MANIFEST.json'))['claims']}
S=['\n## 5. Properties\n','Each entry: the property, what is modelled, how it is proved, the theorems.\n']
for l in open(root+'/properties.jsonl'):
    x=json.loads(l); i=x['id']
    if i not in M: print('no method for',i); continue
    S.append(f"**{i} {x['title']}.** {x['statement']}\n\n* Modelled: {M[i][0]}.\n* Proof: {M[i][1]}.\n* {thm[i]['status'].capitalize()}: "+', '.join('`%s`'%t for t in thm[i]['theorems'])+'.\n')
A=json.load(open(root+'/tools/assumptions.json'))
S.append('\n## 6. What `Print Assumptions` lists for each theorem\n')
S.append('Every property theorem has a `Print Assumptions` command at the end of its `Props_*.v` file; the lists below were collected from the compiled theorems by tools/assumptions.py.\n')
g={}
for t,ax in A.items(): g.setdefault(tuple(sorted(ax)),[]).append(t)
for ax,ts in sorted(g.items()):
    S.append(('**Closed under the global context** (no axioms)' if not ax else '**'+', '.join(ax)+'**')+f' ({len(ts)} theorems): '+', '.join('`%s`'%t for t in ts)+'.\n')
known=set(A); allt=[t for c in thm.values() for t in c['theorems']]
miss=[t for t in allt if t not in known]
if miss: print('not in assumptions.json:',miss)
open(root+'/DESIGN.md','w').write(out+'\n'.join(S))
