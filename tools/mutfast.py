#!/usr/bin/env python3
"""Mutation testing of the theorems (fast: stops at the first theorem files that fail).

usage: mutfast.py mutants.json worker workers

Each mutant is {"file","definition","old","new","claim"}.  In a scratch copy of
rocq/ (with compiled files) the edit is applied and everything that depends on
it is rebuilt.  A lemma whose proof no longer goes through is replaced by
`Admitted' IN THE SCRATCH COPY ONLY, and the build goes on; at the end
Print Assumptions tells which of the theorems of the manifest lost their proof.
"""
import json, os, re, shutil, subprocess, sys, time
SRC = '/verif/rocq'
BASE = '/tmp/mutw7/base'
WORK = '/tmp/mutw7/work%s' % sys.argv[2]
THEOREM = re.compile(r'^\s*(?:Local\s+|#\[.*\]\s*)?(Lemma|Theorem|Example|Corollary|Fact|Remark)\s+(\w+)', re.M)

def sh(cmd, cwd, t=3000):
    try:
        p = subprocess.run(cmd, shell=True, cwd=cwd, capture_output=True, text=True, timeout=t)
        return p.returncode, p.stdout + p.stderr
    except subprocess.TimeoutExpired:
        return 124, 'TIMEOUT'

def prepare():
    if not os.path.exists(BASE + '/stamp') or open(BASE+'/stamp').read() != git_head():
        subprocess.run(f'mkdir -p {BASE} && rsync -a --delete --exclude stamp {SRC}/ {BASE}/', shell=True) if shutil.which('rsync') else \
            subprocess.run(f'rm -rf {BASE}; mkdir -p /tmp/mutw; cp -a {SRC} {BASE}', shell=True)
        rc, out = sh('coq_makefile -f _CoqProject -o Makefile && make -j3', BASE, 6000)
        if rc: print(out[-3000:]); sys.exit(1)
        shutil.copy('/verif/MANIFEST.json', BASE+'/MANIFEST.json')
        open(BASE+'/stamp', 'w').write(git_head())

def git_head():
    return subprocess.run('git rev-parse HEAD', shell=True, cwd='/verif', capture_output=True, text=True).stdout.strip()

def manifest():
    return [(t, c['property']) for c in json.load(open(BASE+'/MANIFEST.json'))['claims'] for t in c['theorems']]

def thm_file():
    m = {}
    for f in os.listdir(BASE+'/theories'):
        if f.startswith('P_') and f.endswith('.v'):
            for x in THEOREM.finditer(open(f'{BASE}/theories/{f}').read()):
                m[x.group(2)] = f[:-2]
    return m

def admit(path, line):
    s = open(path).read()
    off = sum(len(l)+1 for l in s.split('\n')[:line-1])
    eol = s.find('\n', off); eol = len(s) if eol < 0 else eol
    best = None
    for x in THEOREM.finditer(s):
        if x.start() <= eol: best = x
        else: break
    if not best: return None
    m = re.compile(r'\b(Qed|Defined)\.').search(s, best.end())
    p = re.compile(r'\bProof\b[^.]*\.').search(s, best.end())
    if not m or not p or p.start() > m.start() or m.start() < off - 0 and m.end() < off: return None
    if off < p.start() and '\n' in s[off:p.start()] : return None   # the error is in the statement
    s2 = s[:p.end()] + ' Admitted.' + s[m.end():]
    open(path, 'w').write(s2)
    return best.group(2)


def deps():
    """module -> modules it requires directly"""
    d = {}
    for l in open(BASE + '/.Makefile.d'):
        if ':' not in l: continue
        t, r = l.split(':', 1)
        m = re.findall(r'theories/(\w+)\.vo\b', t)
        if m: d[m[0]] = set(re.findall(r'theories/(\w+)\.vo\b', r)) - {m[0]}
    return d

def near(mod):
    """the P_ files that depend on mod, those with the fewest modules to rebuild first"""
    d = deps()
    memo = {}
    def up(m):
        if m not in memo:
            memo[m] = set()
            s = set()
            for x in d.get(m, ()):
                s |= up(x)
                if x == mod or mod in up(x): s.add(x)
                s |= {mod} if x == mod else set()
            memo[m] = s
        return memo[m]
    ps = [m for m in d if m.startswith('P_') and mod in up(m)]
    return sorted(ps, key=lambda m: len(up(m)))

def run(mu, tf):
    shutil.rmtree(WORK, ignore_errors=True)
    subprocess.run(f'cp -a {BASE} {WORK}', shell=True)
    path = f'{WORK}/theories/{mu["file"]}'
    s = open(path).read()
    if s.count(mu['old']) != 1:
        return {'error': f'old occurs {s.count(mu["old"])} times'}
    open(path, 'w').write(s.replace(mu['old'], mu['new']))
    broken, failed = [], []
    ps = near(mu['file'][:-2])
    for k in range(0, len(ps), 3):
        tg = ps[k:k+3]
        for it in range(40):
            rc, out = sh('nice -n 15 make -k -j2 ' + ' '.join(f'theories/{p}.vo' for p in tg) + ' 2>&1 | grep -E "^File|Error|rror:" ; true', WORK, 2400)
            errs = []
            cur = None
            for l in out.split('\n'):
                x = re.match(r'File "\./theories/(\w+\.v)", line (\d+)', l)
                if x: cur = (x.group(1), int(x.group(2)))
                elif l.startswith('Error') and cur: errs.append(cur); cur = None
            if not errs: break
            seen = set()
            for f, ln in errs:
                if f in seen: continue
                seen.add(f)
                n = admit(f'{WORK}/theories/{f}', ln)
                if n is None:
                    return {'error': f'cannot patch {f}:{ln}', 'broken': broken}
                broken.append(f'{f[:-2]}.{n}')
        if broken:
            for p in tg:
                ths = [t for t, _ in manifest() if tf.get(t) == p]
                if not ths or not os.path.exists(f'{WORK}/theories/{p}.vo'): continue
                v = f'From Verif Require {p}.\n' + ''.join(f'Print Assumptions {p}.{t}.\n' for t in ths)
                open(WORK+'/theories/zz.v', 'w').write(v)
                rc, out = sh('coqc -Q theories Verif theories/zz.v', WORK, 1200)
                if rc: return {'error': out[-300:], 'broken': broken}
                parts = re.split(r'^(Closed under the global context|Axioms:)', out, flags=re.M)[1:]
                res = [parts[i] for i in range(0, len(parts), 2)]
                failed += [t for t, r in zip(ths, res) if r == 'Axioms:']
        if failed: break
    return {'failed': failed, 'broken': broken}

def main():
    mus = json.load(open(sys.argv[1]))
    a, st = int(sys.argv[2]), int(sys.argv[3])
    tf = thm_file()
    for i in range(a, len(mus), st):
        mu = mus[i]
        t0 = time.time()
        r = run(mu, tf)
        r.update({k: mu[k] for k in ('file', 'definition', 'old', 'new', 'claim', 'again') if k in mu})
        r['i'] = i; r['secs'] = round(time.time() - t0)
        with open('/tmp/mutw7/results.jsonl', 'a') as f: f.write(json.dumps(r) + '\n')
        print(i, mu['definition'], r.get('error', ''), 'failed', len(r.get('failed', [])), r.get('failed', [])[:6], 'lemmas', r.get('broken', [])[:4], r['secs'], flush=True)
main()
