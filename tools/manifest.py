#!/usr/bin/env python3
"""Regenerate MANIFEST.json from the Print Assumptions lines of Props_*.v."""
import re,json,glob,os
root=os.path.dirname(os.path.dirname(os.path.abspath(__file__)))
names={}
for f in sorted(glob.glob(root+'/rocq/theories/Props_*.v')):
    s=open(f).read()
    pa=re.findall(r"Print Assumptions (\w+)\.",s)
    th=re.findall(r"^ *Theorem (C\d\d\d?_\w+)",s,flags=re.M)
    miss=[t for t in th if t not in pa]
    if miss: print(f,'no Print Assumptions for',miss)
    for t in th: names.setdefault(t.split('_')[0],[]).append(t)
try: notes=json.load(open(root+'/tools/notes.json'))
except FileNotFoundError: notes={}
m={"claims":[]}
ids=[json.loads(l)['id'] for l in open(root+'/properties.jsonl')]
for k in ids:
    n=notes.get(k,{})
    v=names.pop(k,[])
    if not v and not n: print('no theorem for',k); continue
    ref=[t for t in v if t.endswith('_refuted')]
    if ref and 'note' not in n: n=dict(n,note='The statement says what the code does; '+', '.join(ref)+(' gives a counterexample' if len(ref)==1 else ' give counterexamples')+' to the rule a user would expect.')
    st=n.get('status') or ('partial' if v and all(t.endswith('_partial') for t in v) else 'proved')
    m["claims"].append({"property":k,"status":st,"theorems":v,"note":n.get('note','')})
if names: print('theorems without property',names)
json.dump(m,open(root+'/MANIFEST.json','w'),indent=1)
