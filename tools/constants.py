"""Reads /repo/quantities/constants/*.py with Python's ast module (nothing is imported or
executed) and writes rocq/theories/Constants.v: the physical constants in the order in
which importing the package creates them, with value and unit label from _codata.py."""
import ast, math
from fractions import Fraction
from decimal import Decimal
ROOT='/repo/quantities/constants/'
src=open(ROOT+'_codata.py',encoding='utf8').read()
codata={}
for n in ast.parse(src).body:
    if not (isinstance(n,ast.Assign) and isinstance(n.targets[0],ast.Subscript)): continue
    key=n.targets[0].slice.value; d={}
    for k,v in zip(n.value.keys,n.value.values):
        if k.value=='units': d['units']=v.value
        elif k.value=='value':
            neg=isinstance(v,ast.UnaryOp); w=v.operand if neg else v
            q=Fraction(Decimal(ast.get_source_segment(src,w))); d['value']=-q if neg else q
    codata[key]=d
def q(s): return 'None' if s is None else '(Some "%s")'%s.replace('"','""')
def num(f): return '(Q2Qc (%d # %d))'%(f.numerator,f.denominator) if f>=0 else '(Q2Qc (-%d # %d))'%(-f.numerator,f.denominator)
order=[l.split()[1][1:] for l in open(ROOT+'__init__.py') if l.startswith('from')]
out=[];lists=[];tot=0
for m in order:
    t=ast.parse(open(ROOT+m+'.py',encoding='utf8').read()); es=[];lines=[]
    for n in t.body:
        if not (isinstance(n,ast.Assign) and isinstance(n.value,ast.Call)): continue
        c=n.value; assert c.func.id=='UnitConstant' and len(c.args)==2
        name=c.args[0].value; kw={k.arg:k.value for k in c.keywords}
        assert set(kw)<={'symbol','u_symbol','aliases','doc'}
        df=c.args[1]
        if isinstance(df,ast.Call) and df.func.id=='_cd': e=codata[df.args[0].value]; val,lab=e['value'],e['units']
        elif isinstance(df,ast.Call) and df.func.id=='UncertainQuantity': val,lab=Fraction(df.args[0].value),df.args[1].value
        elif name=='pi': val,lab=Fraction(math.pi),None
        elif name=='golden_ratio': val,lab=Fraction((1+math.sqrt(5))/2),None
        else: raise Exception(ast.unparse(n))
        al=[x.value for x in kw['aliases'].elts] if 'aliases' in kw else []
        es.append('  KConst "%s" %s %s %s %s [%s]'%(name,num(val),q(lab),q(kw['symbol'].value if 'symbol' in kw else None),q(kw['u_symbol'].value if 'u_symbol' in kw else None),'; '.join('"%s"'%a for a in al)))
        lines.append((n.lineno,n.end_lineno)); tot+=1
    if es:
        out.append(f'(** /repo/quantities/constants/{m}.py:{lines[0][0]}-{lines[-1][1]} *)\nDefinition k_{m} : list kentry := [\n'+';\n'.join(es)+'\n].\n'); lists.append('k_'+m)
head='''(** * Constants: the physical constants that the library defines.

    Generated by tools/constants.py, which parses /repo/quantities/constants/*.py; one
    entry per constructor call, in the order in which importing the package executes
    them (constants/__init__.py:1-19).  Values and unit labels are looked up in
    constants/_codata.py (_utils.py:6-13 [_cd]).  Simplification: float literals are exact
    decimals; [math.pi] and the golden ratio are the exact values of the doubles; the
    uncertainty of the astronomical unit, which conversions ignore
    (quantity.py:138-144), is left out. *)
From Coq Require Import QArith Qcanon.
From Verif Require Import Py.

(** [UnitConstant(name, Quantity(value, label), symbol, u_symbol, aliases)]
    (unitquantity.py:440-453), or [UnitConstant(name, value, ...)] without label. *)
Record kentry : Type := KConst {
  k_name : string; k_value : Qc; k_label : option string;
  k_sym : option string; k_usym : option string; k_aliases : list string }.

Open Scope string_scope.
Open Scope list_scope.
Open Scope Z_scope.

'''
out.append('(** /repo/quantities/constants/__init__.py:1-19 *)\nDefinition constants : list kentry :=\n  '+' ++ '.join(lists)+'.\n')
open('/verif/rocq/theories/Constants.v','w',encoding='utf8').write(head+'\n'.join(out))
print(tot,'constants')
