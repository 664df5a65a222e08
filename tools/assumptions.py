"""Collect what Print Assumptions lists for each property theorem (run after a build)."""
import re,subprocess,glob,json,os
os.chdir('/verif/rocq')
out={}
for f in sorted(glob.glob('theories/Props_*.v')):
    src=open(f).read()
    names=re.findall(r'^Print Assumptions (\S+)\.',src,re.M)
    r=subprocess.run(['coqc','-Q','theories','Verif','-o','/tmp/'+os.path.basename(f)+'o',f],capture_output=True,text=True)
    blocks=[]
    for line in r.stdout.splitlines():
        if line.startswith('Closed under'): blocks.append([])
        elif line.startswith('Axioms:'): blocks.append([])
        else:
            m=re.match(r'^([A-Za-z_][\w.]*)(\s*:|$)',line)
            if m and blocks is not None and blocks: blocks[-1].append(m.group(1).split('.')[-1])
    assert len(blocks)==len(names),(f,len(blocks),len(names),r.stderr[:300])
    for n,b in zip(names,blocks): out[n]=sorted(set(b))
json.dump(out,open('/verif/tools/assumptions.json','w'),indent=0,sort_keys=True)
from collections import Counter
print(Counter(tuple(v) for v in out.values()))
