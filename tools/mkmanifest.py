#!/usr/bin/env python3
"""Regenerate MANIFEST.json: collect the theorems Cnn_* of theories/*Props.v, statuses and notes from tools/status.json."""
import json,re,glob
st=json.load(open('/verif/tools/status.json'))
th={}
for f in sorted(glob.glob('/verif/rocq/theories/*Props.v')):
    for n in re.findall(r'^\s*Theorem (C\d+_\w+)',open(f).read(),flags=re.M):
        th.setdefault(n.split('_')[0],[]).append(n)
ids=[json.loads(l)['id'] for l in open('/verif/properties.jsonl')]
cl=[]
for i in ids:
    if i in th:
        s=st.get(i,{})
        cl.append({'property':i,'status':s.get('status','proved'),'theorems':th[i],'note':s.get('note','')})
    elif i in st: cl.append({'property':i,'status':st[i]['status'],'theorems':[],'note':st[i]['note']})
assert all(k in ids for k in th),set(th)-set(ids)
json.dump({'claims':cl},open('/verif/MANIFEST.json','w'),indent=1)
print(len(cl),'claims; missing:',[i for i in ids if i not in th and i not in st])
