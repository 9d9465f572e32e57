#!/usr/bin/env python3
"""Append new mutation results to seeded/LOG.jsonl."""
import json,os
dst='/verif/seeded/LOG.jsonl'
# survivors: what was done about each
T={'float4':"equivalent: the low lanes are overwritten by the next shuffle",
'load_matrix':["C205_product_partial","C205_matrix_partial"],'transform':["C205_product_partial","C205_matrix_partial"],
'insert_n_own':["C207_insert_moved_refuted"],'str_copy':["C208_copy_throws"],'hex_digit':["C210_bounds","C211_offset_refuted"],
'render':["C208_per_cent"],'new_msg':["C208_message"],
'sput_view':"equivalent: the position is set again right after the buffer is linked, in both uses",
'is_compound':["C140_composite"],'tt_isFundamental':["C142_type_traits"],'m_decr':["C82_move_step"],'ra_clear':["C130_clear"],
'c_addr':["C165_null_address_refuted"],'r_lower_bound_loop':"equivalent in effect: on a reversed range the first step already has undefined behaviour for every non-empty range",
'has_block':["C104_blocks"],'sys_opens':["C98_write_crash"]}
T.update(json.load(open('/verif/tools/tight.json')) if os.path.exists('/verif/tools/tight.json') else {})
have=set()
for l in open(dst):
    if l.strip():
        d=json.loads(l); have.add((d['definition'],d['edit']))
n=0
with open(dst,'a') as f:
  for src in ['/tmp/mutw/results.jsonl','/tmp/mutw7/results.jsonl']:
    for l in open(src):
        d=json.loads(l)
        if d.get('error'): continue
        edit=("again, after tightening: " if d.get('again') else '')+"%s: replace `%s` by `%s`"%(d['file'],d['old'].strip()[-700:],d['new'].strip()[-700:])
        key=(d['definition'],edit)
        if key in have: continue
        old=("again, after tightening: " if d.get('again') else '')+"%s: replace `%s` by `%s`"%(d['file'],d['old'].strip(),d['new'].strip())
        if (d['definition'],old) in have: continue
        t=[]; note=None
        if not d['failed']:
            x=T.get(d['definition'])
            if x is None: print('SURVIVED, not reviewed',d['file'],d['definition'],key[1][-150:]); continue
            if isinstance(x,list): t=x
            else: note=x
        have.add(key)
        r={"definition":d['definition'],"edit":edit,"claim":d['claim'],"failed":d['failed'],"broken_lemmas":d.get('broken',[])[:6],"tightened":t}
        if note: r["note"]=note
        f.write(json.dumps(r)+'\n'); n+=1
print(n,'added')
