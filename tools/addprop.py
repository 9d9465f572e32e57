#!/usr/bin/env python3
"""Append properties: addprop.py file.json, a list of objects with the fields of
properties.jsonl plus note, and optionally design (table row) and finding."""
import json, sys, re
L = json.load(open(sys.argv[1]))
have = {json.loads(l)['id'] for l in open('properties.jsonl')}
notes = json.load(open('tools/notes.json'))
D = open('DESIGN.md').read()
for p in L:
    if p.get('id') and p['id'] not in have:
        q = {k: p[k] for k in ('id','title','statement','quantifier','why_tests_cant','anchors')}
        open('properties.jsonl','a').write(json.dumps(q)+'\n')
    if p.get('note'): notes[p['id']] = {'note': p['note']}
    if p.get('design'):
        D = D.replace('\n\n## Findings', '\n' + p['design'] + '\n\n## Findings', 1)
    if p.get('finding'):
        D = D.replace('\n\nSeen while reading', '\n' + p['finding'] + '\n\nSeen while reading', 1)
    if p.get('model'):
        i = D.index('| source | model files'); j = D.index('\n\n', i)
        D = D[:j] + '\n' + p['model'] + D[j:]
open('DESIGN.md','w').write(D)
json.dump(notes, open('tools/notes.json','w'), indent=1)
