#!/usr/bin/env python3
"""Mutation testing of the theorems.

usage: mutate.py mutants.json [first [last]]

Each mutant is {"file","definition","old","new","claim"}.  In a scratch copy of
rocq/ (with compiled files) the edit is applied and everything that depends on
it is rebuilt.  A lemma whose proof no longer goes through is replaced by
`Admitted' IN THE SCRATCH COPY ONLY, and the build goes on; at the end
Print Assumptions tells which of the theorems of the manifest lost their proof.
"""
import json, os, re, shutil, subprocess, sys, time
SRC = '/verif/rocq'
BASE = '/tmp/mutw/base'
WORK = '/tmp/mutw/work'
THEOREM = re.compile(r'^\s*(?:Local\s+|#\[.*\]\s*)?(Lemma|Theorem|Example|Corollary|Fact|Remark)\s+(\w+)', re.M)

def sh(cmd, cwd, t=3000):
    try:
        p = subprocess.run(cmd, shell=True, cwd=cwd, capture_output=True, text=True, timeout=t)
        return p.returncode, p.stdout + p.stderr
    except subprocess.TimeoutExpired:
        return 124, 'TIMEOUT'

def prepare():
    if not os.path.exists(BASE + '/stamp') or open(BASE+'/stamp').read() != git_head():
        subprocess.run(f'mkdir -p {BASE} && rsync -a --delete --exclude stamp {SRC}/ {BASE}/', shell=True) if shutil.which('rsync') else \
            subprocess.run(f'rm -rf {BASE}; mkdir -p /tmp/mutw; cp -a {SRC} {BASE}', shell=True)
        rc, out = sh('coq_makefile -f _CoqProject -o Makefile && make -j3', BASE, 6000)
        if rc: print(out[-3000:]); sys.exit(1)
        shutil.copy('/verif/MANIFEST.json', BASE+'/MANIFEST.json')
        open(BASE+'/stamp', 'w').write(git_head())

def git_head():
    return subprocess.run('git rev-parse HEAD', shell=True, cwd='/verif', capture_output=True, text=True).stdout.strip()

def manifest():
    return [(t, c['property']) for c in json.load(open(BASE+'/MANIFEST.json'))['claims'] for t in c['theorems']]

def thm_file():
    m = {}
    for f in os.listdir(BASE+'/theories'):
        if f.startswith('P_') and f.endswith('.v'):
            for x in THEOREM.finditer(open(f'{BASE}/theories/{f}').read()):
                m[x.group(2)] = f[:-2]
    return m

def admit(path, line):
    s = open(path).read()
    off = sum(len(l)+1 for l in s.split('\n')[:line-1])
    eol = s.find('\n', off); eol = len(s) if eol < 0 else eol
    best = None
    for x in THEOREM.finditer(s):
        if x.start() <= eol: best = x
        else: break
    if not best: return None
    m = re.compile(r'\b(Qed|Defined)\.').search(s, best.end())
    p = re.compile(r'\bProof\b[^.]*\.').search(s, best.end())
    if not m or not p or p.start() > m.start() or m.start() < off - 0 and m.end() < off: return None
    if off < p.start() and '\n' in s[off:p.start()] : return None   # the error is in the statement
    s2 = s[:p.end()] + ' Admitted.' + s[m.end():]
    open(path, 'w').write(s2)
    return best.group(2)

def run(mu, tf):
    shutil.rmtree(WORK, ignore_errors=True)
    subprocess.run(f'cp -a {BASE} {WORK}', shell=True)
    path = f'{WORK}/theories/{mu["file"]}'
    s = open(path).read()
    if s.count(mu['old']) != 1:
        return {'error': f'old occurs {s.count(mu["old"])} times'}
    open(path, 'w').write(s.replace(mu['old'], mu['new']))
    broken = []
    start = time.time()
    for it in range(40):
        rc, out = sh('make -k -j3 2>&1 | grep -E "^File|Error|rror:" ; true', WORK, 4000)
        errs = []
        cur = None
        for l in out.split('\n'):
            x = re.match(r'File "\./theories/(\w+\.v)", line (\d+)', l)
            if x: cur = (x.group(1), int(x.group(2)))
            elif l.startswith('Error') and cur: errs.append(cur); cur = None
        if not errs:
            break
        seen = set()
        for f, ln in errs:
            if f in seen: continue
            seen.add(f)
            n = admit(f'{WORK}/theories/{f}', ln)
            if n is None:
                return {'error': f'cannot patch {f}:{ln}', 'broken': broken}
            broken.append(f'{f[:-2]}.{n}')
    # assumptions
    # only modules rebuilt can have lost a proof
    new = set(x for x in set(tf.values()) if os.path.exists(f'{WORK}/theories/{x}.vo') and os.path.getmtime(f'{WORK}/theories/{x}.vo') > start - 2)
    ths = [t for t, _ in manifest() if t in tf and tf[t] in new]
    if not ths or not broken: return {'failed': [], 'broken': broken}
    mods = sorted(set(tf[t] for t in ths))
    v = 'From Verif Require ' + ' '.join(mods) + '.\n' + ''.join(f'Print Assumptions {tf[t]}.{t}.\n' for t in ths)
    open(WORK+'/theories/zz.v', 'w').write(v)
    rc, out = sh('coqc -Q theories Verif theories/zz.v', WORK, 1200)
    if rc: return {'error': out[-500:], 'broken': broken}
    parts = re.split(r'^(Closed under the global context|Axioms:)', out, flags=re.M)[1:]
    res = [parts[i] for i in range(0, len(parts), 2)]
    if len(res) != len(ths): return {'error': 'assumptions count', 'broken': broken}
    return {'failed': [t for t, r in zip(ths, res) if r == 'Axioms:'], 'broken': broken}

def main():
    mus = json.load(open(sys.argv[1]))
    a = int(sys.argv[2]) if len(sys.argv) > 2 else 0
    b = int(sys.argv[3]) if len(sys.argv) > 3 else len(mus)
    prepare()
    tf = thm_file()
    for i in range(a, min(b, len(mus))):
        mu = mus[i]
        t0 = time.time()
        r = run(mu, tf)
        r.update({k: mu[k] for k in ('file', 'definition', 'old', 'new', 'claim', 'again') if k in mu})
        r['i'] = i; r['secs'] = round(time.time() - t0)
        with open('/tmp/mutw/results.jsonl', 'a') as f: f.write(json.dumps(r) + '\n')
        print(i, mu['definition'], r.get('error', ''), 'failed', len(r.get('failed', [])), r.get('failed', [])[:6], 'lemmas', r.get('broken', [])[:4], r['secs'], flush=True)
main()
