#!/usr/bin/env python3
"""Print Assumptions of every property theorem -> tools/assumptions.json (run in a built tree)."""
import re,glob,subprocess,json,os,tempfile
os.chdir('/verif/rocq')
names=[]
for f in sorted(glob.glob('theories/*Props.v')):
    m=os.path.basename(f)[:-2]
    names+=[(m,n) for n in re.findall(r'^\s*Theorem (C\d+_\w+)',open(f).read(),flags=re.M)]
d=tempfile.mkdtemp()
with open(d+'/All.v','w') as o:
    for m in sorted({m for m,_ in names}): o.write(f'From Verif Require {m}.\n')
    for m,n in names: o.write(f'Goal True. idtac "@@ {n}". Abort.\nPrint Assumptions {m}.{n}.\n')
out=subprocess.run(['coqc','-Q','theories','Verif',d+'/All.v'],capture_output=True,text=True).stdout
res={}
for b in out.split('@@ ')[1:]:
    n,_,r=b.partition('\n')
    res[n.strip()]=sorted({m.group(1) for l in r.splitlines() for m in [re.match(r'^([A-Za-z_0-9]+\.[A-Za-z_.0-9]+)',l)] if m})
assert len(res)==len(names)
json.dump(res,open('/verif/tools/assumptions.json','w'),indent=0)
