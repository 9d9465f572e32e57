#!/usr/bin/env python3
"""Report citations of /repo in the model files whose lines look wrong: ranges
out of the file, unbalanced braces, or blank/closing first lines."""
import re, glob, sys, os
R='/repo/'
src={}
for f in os.listdir(R):
    p=os.path.join(R,f)
    if os.path.isfile(p): src[f]=open(p,errors='replace').read().split('\n')
pat=re.compile(r'\b([a-z0-9_]+\.(?:cc|h|h\.in)):(\d+(?:-\d+)?(?:, ?\d+(?:-\d+)?)*)')
n=bad=0
for f in sorted(glob.glob('/verif/rocq/theories/*.v')):
    if sys.argv[1:] and os.path.basename(f) not in sys.argv[1:]: continue
    s=open(f).read()
    for c in re.finditer(r'\(\*.*?\*\)',s,re.S):
        for m in pat.finditer(c.group(0)):
            g=m.group(1)
            if g not in src: continue
            for r in re.split(', ?',m.group(2)):
                a,_,b=r.partition('-'); a=int(a); b=int(b or a); n+=1
                L=src[g]
                why=None
                if b>len(L) or a>b: why='out of range'
                else:
                    seg=L[a-1:b]
                    t='\n'.join(re.sub(r"//.*|'[{}]'",'',x) for x in seg)
                    if t.count('{')!=t.count('}'): why='braces %+d'%(t.count('{')-t.count('}'))
                    elif not seg[0].strip() or seg[0].strip() in ('}','};','{'): why='first line %r'%seg[0]
                    elif b>a and not seg[-1].strip(): why='last line blank'
                    elif a==b and len(seg[0].strip())<3: why='line %r'%seg[0]
                if why:
                    bad+=1
                    ln=s.count('\n',0,c.start()+m.start())+1
                    print('%s:%d %s:%s %s'%(os.path.basename(f),ln,g,r,why))
print(n,'citations',bad,'suspicious')
