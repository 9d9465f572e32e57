#!/usr/bin/env python3
"""Regenerates rocq/_CoqProject's file list and MANIFEST.json.
Theorem names are collected from rocq/theories/P_*.v; status and notes from
tools/notes.json."""
import json,re,glob,os
root=os.path.dirname(os.path.dirname(os.path.abspath(__file__)))
vs=sorted(glob.glob(root+'/rocq/theories/**/*.v',recursive=True))
rel=[os.path.relpath(v,root+'/rocq') for v in vs]
open(root+'/rocq/_CoqProject','w').write('-Q theories Verif\n'+'\n'.join(rel)+'\n')
thms={}
for v in vs:
    if not os.path.basename(v).startswith('P_'): continue
    for m in re.finditer(r'^Theorem ((C\d+)_\w+)',open(v).read(),re.M):
        thms.setdefault(m.group(2),[]).append(m.group(1))
notes=json.load(open(root+'/tools/notes.json'))
claims=[]
for line in open(root+'/properties.jsonl'):
    p=json.loads(line); i=p['id']; t=thms.get(i,[]); n=notes.get(i,{})
    if t:
        ref=[x for x in t if x.endswith('_refuted')]; par=[x for x in t if x.endswith('_partial')]
        st=n.get('status') or ('partial' if ref or par else 'proved')
        note=n.get('note','')
    else:
        st=n.get('status','not_applicable'); note=n.get('note','not modelled yet')
    claims.append({'property':i,'status':st,'theorems':t,'note':note})
json.dump({'claims':claims},open(root+'/MANIFEST.json','w'),indent=1)
from collections import Counter
print(Counter(c['status'] for c in claims), sum(len(c['theorems']) for c in claims),'theorems')
