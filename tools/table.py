"""Reads /repo/quantities/units/*.py with Python's ast module (nothing is imported or
executed) and writes rocq/theories/Table.v: the units in the order in which importing
the package creates them, with their definitions as expression trees."""
import ast, os, sys, math
from fractions import Fraction
from decimal import Decimal
ROOT='/repo/quantities/units/'
CLS={'UnitQuantity':'CQuantity','UnitMass':'CMass','UnitLength':'CLength','UnitTime':'CTime','UnitCurrent':'CCurrent',
 'UnitLuminousIntensity':'CLumInt','UnitSubstance':'CSubstance','UnitTemperature':'CTemperature','UnitInformation':'CInformation',
 'UnitCurrency':'CCurrency','CompoundUnit':'CCompound'}
entries=[]; mods={}; src={}
def load(mod):
    if mod in mods: return mods[mod]
    env={}; mods[mod]=env
    path=ROOT+mod+'.py'
    text=open(path,encoding='utf8').read(); src[mod]=text.split('\n')
    run(ast.parse(text).body,env,mod)
    return env
def num(x,line=None):
    return ('num',x)
def ev(n,env,mod):
    if isinstance(n,ast.Constant):
        if isinstance(n.value,bool): raise Exception
        if isinstance(n.value,int): return ('int',n.value)
        if isinstance(n.value,float):
            lit=ast.get_source_segment('\n'.join(src[mod]),n)
            return ('flt',Fraction(Decimal(lit)))
        if isinstance(n.value,str): return ('str',n.value)
        if n.value is None: return None
    if isinstance(n,ast.Name): return env[n.id]
    if isinstance(n,ast.BinOp):
        a=ev(n.left,env,mod); b=ev(n.right,env,mod)
        if a[0]=='str': return ('str',a[1]+b[1])
        return ('bin',{ast.Mult:'BMul',ast.Div:'BDiv',ast.Pow:'BPow',ast.Add:'BAdd',ast.Sub:'BSub'}[type(n.op)],a,b)
    if isinstance(n,ast.UnaryOp) and isinstance(n.op,ast.USub): return ('neg',ev(n.operand,env,mod))
    if isinstance(n,ast.List): return ('list',[ev(x,env,mod) for x in n.elts])
    raise Exception(ast.dump(n))
def call(n,env,mod,lineno):
    cls=n.func.id; assert env[n.func.id]==('cls',cls),(mod,cls)
    names=['name','definition','symbol','u_symbol','aliases','doc']
    args={}
    for k,a in zip(names,n.args): args[k]=a
    for kw in n.keywords: assert kw.arg in names and kw.arg not in args; args[kw.arg]=kw.value
    g=lambda k: ev(args[k],env,mod) if k in args else None
    nm=g('name')[1]; df=g('definition'); s=g('symbol'); us=g('u_symbol'); al=g('aliases')
    e=dict(cls=CLS[cls],name=nm,df=df,sym=s and s[1],usym=us and us[1],aliases=[x[1] for x in al[1]] if al else [],where=f'{mod}.py:{lineno}')
    entries.append(e)
    return ('unit',CLS[cls],nm)
def run(body,env,mod):
    for n in body:
        if isinstance(n,ast.Expr):
            assert isinstance(n.value,ast.Constant) or (isinstance(n.value,ast.Call)),ast.dump(n)
            if isinstance(n.value,ast.Call): print('call',mod,ast.unparse(n)); 
        elif isinstance(n,ast.ImportFrom):
            if n.level==2:
                assert n.module=='unitquantity'
                for a in n.names:
                    if a.name=='dimensionless': env[a.asname or a.name]=('unit','CDimless','dimensionless')
                    elif a.name in CLS: env[a.name]=('cls',a.name)
                    else: print('import',mod,a.name)
            elif n.level==1 and n.module is None:
                for a in n.names: load(a.name); env[a.asname or a.name]=('module',)
            elif n.level==1:
                m=load(n.module)
                for a in n.names:
                    if a.name=='*': env.update({k:v for k,v in m.items() if not k.startswith('_')})
                    else: env[a.asname or a.name]=m[a.name]
            elif n.module=='math':
                for a in n.names: assert a.name=='pi'; env['pi']=('flt',Fraction(math.pi))
            else: raise Exception(ast.dump(n))
        elif isinstance(n,ast.Assign):
            v=call(n.value,env,mod,n.lineno) if isinstance(n.value,ast.Call) else ev(n.value,env,mod)
            for t in n.targets: assert isinstance(t,ast.Name); env[t.id]=v
        elif isinstance(n,ast.Delete):
            for t in n.targets: del env[t.id]
        elif isinstance(n,ast.For):
            assert mod=='temperature'
            vs=[t.id for t in n.target.elts]
            for row in n.iter.elts:
                for v,x in zip(vs,row.elts): env[v]=ev(x,env,mod)
                for st in n.body:
                    assert isinstance(st,ast.Assign)
                    t=st.targets[0]
                    if isinstance(st.value,ast.Call) and st.value.func.id!='globals': v=call(st.value,env,mod,st.lineno)
                    else: v=ev(st.value,env,mod)
                    if isinstance(t,ast.Name): env[t.id]=v
                    else:
                        assert ast.unparse(t)=='globals()[symbol]'; env[env['symbol'][1]]=v
        else: raise Exception(ast.dump(n))
load('__init__')

def st(x): return '"'+x.replace('"','""')+'"'
def opt(x): return 'None' if x is None else '(Some '+st(x)+')'
def z(n): return str(n) if n>=0 else f'({n})'
def tree(x):
    k=x[0]
    if k=='int': return f'(it {z(x[1])})'
    if k=='flt': return f'(fl {z(x[1].numerator)} {x[1].denominator})'
    if k=='unit': return f'(nm {st(x[2])})'
    if k=='neg': return f'(ng {tree(x[1])})'
    if k=='bin': return '('+{'BMul':'mu','BDiv':'dv','BPow':'pw'}[x[1]]+f' {tree(x[2])} {tree(x[3])})'
    raise Exception(x)
def out():
    o=[HEAD]
    by={}
    for e in entries: by.setdefault(e['where'].split(':')[0],[]).append(e)
    order=list(dict.fromkeys(e['where'].split(':')[0] for e in entries))
    # creation order may interleave files: consecutive runs become one list each
    runs=[]
    for e in entries:
        f=e['where'].split(':')[0]
        if runs and runs[-1][0]==f: runs[-1][1].append(e)
        else: runs.append((f,[e]))
    names=[]; cnt={}
    for f,es in runs:
        b='t_'+f[:-3]; cnt[b]=cnt.get(b,0)+1
        if cnt[b]>1: b+=str(cnt[b])
        names.append(b)
        ls=[int(e['where'].split(':')[1]) for e in es]
        o.append(f'(** /repo/quantities/units/{f}:{min(ls)}-{max(ls)} *)\nDefinition {b} : list tentry := [')
        rows=[]
        for e in es:
            if e['cls']=='CCompound': rows.append(f'  TComp {st(e["name"])}')
            else:
                df='None' if e['df'] is None else '(Some '+tree(e['df'])+')'
                rows.append(f'  TNew {e["cls"]} {st(e["name"])} {df}\n    {opt(e["sym"])} {opt(e["usym"])} ['+'; '.join(st(a) for a in e['aliases'])+']')
        o.append(';\n'.join(rows)+'\n]%Z.\n')
    o.append('(** /repo/quantities/unitquantity.py:456 [dimensionless], then the modules of\n    /repo/quantities/units in the order of their import (units/__init__.py:5-166). *)')
    o.append('Definition library : list tentry :=\n  [TNew CDimless "dimensionless" None None None []]\n  ++ '+'\n  ++ '.join(names)+'.\n')
    open('/verif/rocq/theories/Table.v','w').write('\n'.join(o))
HEAD=r"""(** * Table: the units that the library defines.

    Generated by tools/table.py, which parses /repo/quantities/units/*.py; one entry per
    constructor call, in the order in which importing the package executes them.
    A Python variable in a definition is written as the name of the unit that it is
    bound to.  Float literals are exact decimals and [math.pi] is the exact value of the
    double: Simplification, the model computes definitions exactly. *)
From Verif Require Import Py Num Dim Units Text Lex.

(** A constructor call: [cls(name, definition, symbol, u_symbol, aliases)], or
    [CompoundUnit(name)]. *)
Inductive tentry : Type :=
| TNew (c : ucls) (name : string) (df : option expr) (sym usym : option string) (aliases : list string)
| TComp (name : string).

Definition nm (s : string) : expr := EName (T s).
Definition it (z : Z) : expr := ENum (PInt z).
Definition fl (n : Z) (d : positive) : expr := ENum (PFlt (Q2Qc (n # d))).
Definition mu : expr -> expr -> expr := EBin BMul.
Definition dv : expr -> expr -> expr := EBin BDiv.
Definition pw : expr -> expr -> expr := EBin BPow.
Definition ng : expr -> expr := EUn UNeg.

Open Scope string_scope.
Open Scope list_scope.
"""
if __name__=='__main__':
    seen={}
    for e in entries:
        k=(e['cls'],e['name'])
        if k in seen: print('DUP',k,e['where'],seen[k])
        seen[k]=e['where']
    names={}
    for e in entries:
        if e['cls']=='CCompound': continue
        for s in [e['name']]+([e['sym']] if e['sym'] else [])+e['aliases']:
            if s in names and names[s] is not e: print('SHARED',s,names[s]['cls'],names[s]['name'],e['cls'],e['name'])
            names.setdefault(s,e)
    print(len(entries),len(names))
    def ops(x,acc):
        if x and x[0]=='bin': acc.add(x[1]); ops(x[2],acc); ops(x[3],acc)
        if x and x[0]=='neg': acc.add('neg')
        return acc
    acc=set()
    for e in entries: ops(e['df'],acc)
    print(acc)
    import re
    print([s for s in names if not re.match(r'^[A-Za-z_]\w*$',s)])
    out()
