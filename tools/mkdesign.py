#!/usr/bin/env python3
"""DESIGN.md = tools/design_head.md + generated tables."""
import json,re,glob,os
os.chdir('/verif')
where={}
for f in sorted(glob.glob('rocq/theories/*Props.v')):
    for n in re.findall(r'^\s*Theorem (C\d+)_\w+',open(f).read(),flags=re.M):
        where.setdefault(n,[]); b=os.path.basename(f)[:-7]
        if b not in where[n]: where[n].append(b)
cl={c['property']:c for c in json.load(open('MANIFEST.json'))['claims']}
o=[open('tools/design_head.md').read().rstrip(),'','## Properties','',
   'The model of a property is in `XModel.v`, its theorems in `XProps.v` for the `X` in the second column. The last column says under which conditions the property is proved and what is refuted.','',
   '| id | X | property | source | status | proved, missing, refuted |','|---|---|---|---|---|---|']
for l in open('properties.jsonl'):
    p=json.loads(l); c=cl[p['id']]
    src=sorted({re.sub(r'^src/','',re.split(r'[: ,]',a)[0]) for a in p['anchors']})
    o.append('| %s | %s | %s | %s | %s | %s |'%(p['id'],', '.join(where[p['id']]),p['title'],', '.join(src),c['status'],c['note'].replace('|','/')))
a=json.load(open('tools/assumptions.json'))
o+=['','## What `Print Assumptions` lists','','%d theorems; %d are closed under the global context. The others use axioms of the standard library only (its real numbers):'%(len(a),sum(not v for v in a.values())),'']
g={}
for n,v in a.items():
    if v: g.setdefault(tuple(v),[]).append(n)
for v,ns in sorted(g.items()):
    o+=['* '+', '.join('`%s`'%x for x in v)+': '+', '.join('`%s`'%n for n in sorted(ns)),'']
open('DESIGN.md','w').write('\n'.join(o).rstrip()+'\n')
