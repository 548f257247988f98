#!/usr/bin/env python3
"""Run seeded-bug experiments on a scratch copy of the Rocq development.

usage: mutate.py mutations.json [log]
Each mutation: {"definition", "file", "old", "new", "edit", "breaks": ["C01", ...], "claim"}.
The edit is applied to a copy outside /verif.  The interfaces of the files depending on
the edited one are rebuilt (coqc -vos) and every proof in them is checked (coqc -vok);
a proof that fails is noted, removed in the copy, and its file is checked again.  The
theorems lost are those whose proof fails or uses, directly or not, a lemma whose proof
failed (read off the .glob files of the unedited development).
MUTSRC: a built copy of /verif/rocq; MUT: scratch directory; JOBS: processes."""
import json, os, re, shutil, subprocess, sys, time
from concurrent.futures import ThreadPoolExecutor
SRC = os.environ.get('MUTSRC', '/verif/rocq')
DST = os.environ.get('MUT', '/tmp/mut')
JOBS = int(os.environ.get('JOBS', '2'))
MAXIT = int(os.environ.get('MAXIT', '25'))
HEAD = re.compile(r'^\s*(?:#\[[^\]]*\]\s*)?(?:Local\s+|Global\s+)?(Lemma|Theorem|Example|Corollary|Fact|Remark|Definition|Fixpoint)\s+([A-Za-z0-9_\']+)')

def files():
    return [l.strip() for l in open(SRC + '/_CoqProject') if l.strip().endswith('.v')]
def deps(fs):
    out = subprocess.run(['coqdep', '-Q', 'theories', 'Verif'] + fs, cwd=SRC, capture_output=True, text=True).stdout
    d = {}
    for l in out.split('\n'):
        m = re.match(r'(\S+)\.vo .*?: (.*)', l)
        if m:
            d[m.group(1) + '.v'] = [x[:-1] for x in m.group(2).split() if x.endswith('.vo') and x.startswith('theories')]
    return d
def graph(fs):
    """name -> names used, by fully qualified name"""
    g, tactics = {}, {}
    for f in fs:
        gl = SRC + '/' + f[:-2] + '.glob'
        mod = 'Verif.' + f[len('theories/'):-2].replace('/', '.')
        defs, refs = [], []
        for l in open(gl):
            m = re.match(r'R(\d+):\d+ (\S+) (\S+) (\S+) (\S+)', l)
            if m:
                if m.group(2).startswith('Verif.') and m.group(5) in ('thm', 'def', 'lem', 'prf', 'ind', 'constr', 'rec', 'proj', 'ex', 'syndef', 'not'):
                    refs.append((int(m.group(1)), m.group(2) + '.' + (m.group(4).split('.')[-1])))
                continue
            m = re.match(r'(prf|def|thm|ex|ind|rec|syndef) (\d+):\d+ (\S+) (\S+)', l)
            if m:
                defs.append((int(m.group(2)), mod + '.' + m.group(4).split('.')[-1]))
        # tactics are not recorded in .glob files
        src = open(SRC + '/' + f, 'rb').read()
        for m in re.finditer(rb"^\s*(?:Local\s+)?Ltac\s+([A-Za-z0-9_']+)", src, re.M):
            nm = 'ltac.' + m.group(1).decode()
            tactics[m.group(1)] = nm
            defs.append((m.start(1), nm))
        for m in re.finditer(rb"[A-Za-z_][A-Za-z0-9_']*", src):
            if m.group(0) in tactics:
                refs.append((m.start(0), tactics[m.group(0)]))
        defs.sort()
        refs.sort()
        i = -1
        for pos, nm in refs:
            while i + 1 < len(defs) and defs[i + 1][0] <= pos:
                i += 1
            if i >= 0:
                g.setdefault(defs[i][1], set()).add(nm)
    return g
def closure(g, n, memo):
    seen, todo = set(), [n]
    while todo:
        x = todo.pop()
        if x in seen:
            continue
        seen.add(x)
        todo.extend(g.get(x, ()))
    return seen
def coqc(flag, f, t=1500):
    try:
        p = subprocess.run('ulimit -v 7000000; timeout %d coqc %s -w none -Q theories Verif %s' % (t, flag, f), shell=True, cwd=DST, capture_output=True, text=True)
        return p.returncode, p.stdout + p.stderr
    except Exception as e:
        return 1, str(e)
def used(path, name):
    """the section variables that the lemma takes in the unedited development"""
    f = os.path.relpath(path, DST)
    mod = 'Verif.' + f[len('theories/'):-2].replace('/', '.')
    src = open(SRC + '/' + f).read()
    vs = []
    for m in re.finditer(r'^\s*(?:Variables?|Hypothes[ie]s)\s+([^:]*):', src, re.M):
        vs += m.group(1).replace('(', ' ').split()
    for m in re.finditer(r'^\s*Context\s*[({]([^:]*):', src, re.M):
        vs += m.group(1).split()
    if not vs:
        return ''
    p = subprocess.run(['coqtop', '-quiet', '-Q', 'theories', 'Verif'], cwd=SRC, capture_output=True, text=True,
                       input='Require Import %s.\nAbout %s.%s.\n' % (mod, mod, name))
    m = re.search(r'^Arguments \S+ ((?:.|\n)*?)\n\S', p.stdout, re.M)
    args = [re.sub(r'[%{}\[\]].*|^[{\[]', '', a.lstrip('{[')) for a in m.group(1).split()] if m else []
    return ' '.join(a for a in args if a in vs)
def admit(path, line, name=None):
    L = open(path).read().split('\n')
    i = min(line - 1, len(L) - 1)
    if name:                 # the message names the proof
        at = [k for k in range(len(L)) if HEAD.match(L[k]) and HEAD.match(L[k]).group(2) == name]
        if len(at) != 1:
            return None
        i = at[0]
        line = i + 1
    while i >= 0 and not HEAD.match(L[i]):
        i -= 1
    if i < 0 or HEAD.match(L[i]).group(1) in ('Definition', 'Fixpoint'):
        return None
    name = HEAD.match(L[i]).group(2)
    rest = '\n'.join(L[i:])
    m = re.search(r'\bProof\b[^.]*\.', rest)
    e = re.search(r'\b(Qed|Defined)\.', rest)
    if not m or not e or e.start() < m.start():
        return None
    if line - 1 > i + rest[:e.end()].count('\n'):
        return None          # error after the end of that proof
    nl = rest[m.start():e.end()].count('\n')
    rest = rest[:m.start()] + 'Proof using %s. Admitted.' % used(path, name) + '\n' * nl + rest[e.end():]
    open(path, 'w').write('\n'.join(L[:i]) + ('\n' if i else '') + rest)
    return name
def check(flag, f):
    """check one file, removing proofs that fail; (names lost, file given up?)"""
    lost = []
    for _ in range(MAXIT):
        rc, out = coqc(flag, f)
        if rc == 0:
            return lost, False
        m = re.search(r'File "[^"]*", line (\d+)', out)
        k = re.search(r"\(in proof ([A-Za-z0-9_']+)\)", out)
        nm = admit(os.path.join(DST, f), int(m.group(1)), k.group(1) if k else None) if m else None
        if not nm:
            return lost, True
        lost.append(nm)
    return lost, True
def run(mut, fs, d, g):
    if os.path.exists(DST):
        shutil.rmtree(DST)
    shutil.copytree(SRC, DST, copy_function=shutil.copy2)
    f0 = 'theories/' + mut['file']
    p = os.path.join(DST, f0)
    s = open(p).read()
    n = s.count(mut['old'])
    if n != 1:
        return {'error': 'old text occurs %d times' % n}
    open(p, 'w').write(s.replace(mut['old'], mut['new']))
    cone = {f0}
    for f in fs:
        if any(x in cone for x in d[f]):
            cone.add(f)
    order = [f for f in fs if f in cone]
    if len([f for f in fs if f in cone]) != len(cone):
        order = [f0] + order
    lost, dead = [], []
    q = lambda f, nm: 'Verif.' + f[len('theories/'):-2].replace('/', '.') + '.' + nm
    for f in order:
        for x in ('.vo', '.vok', '.vos'):
            try: os.remove(os.path.join(DST, f[:-2] + x))
            except OSError: pass
    with ThreadPoolExecutor(JOBS) as ex:
        done = {}
        def vos(f):
            for x in d[f]:
                if x in done: done[x].result()
            ls, gone = check('-vos', f)
            return [q(f, n) for n in ls], gone
        # topological order; submit level by level
        level = {}
        for f in order:
            level[f] = 1 + max([level[x] for x in d[f] if x in level], default=0)
        for lv in range(1, max(level.values()) + 1):
            now = [f for f in order if level[f] == lv]
            for f, (ls, gone) in zip(now, ex.map(vos, now)):
                lost += ls
                if gone: dead.append(f)
        for f, (ls, gone) in zip(order, ex.map(lambda f: check('-vok', f), [f for f in order])):
            lost += [q(f, n) for n in ls]
            if gone and f not in dead: dead.append(f)
    deadmods = ['Verif.' + f[len('theories/'):-2].replace('/', '.') for f in dead]
    failed = []
    for f in fs:
        if f.startswith('theories/Props/'):
            mod = 'Verif.' + f[len('theories/'):-2].replace('/', '.')
            for t in re.findall(r'^Theorem\s+(C\d+_[A-Za-z0-9_\']+)', open(os.path.join(SRC, f)).read(), re.M):
                c = closure(g, mod + '.' + t, {})
                if any(l in c for l in lost):
                    failed.append(t)
    return {'lost': [x.replace('Verif.', '') for x in lost], 'dead': dead, 'theorems_failed': sorted(failed)}
def main():
    muts = json.load(open(sys.argv[1]))
    logf = sys.argv[2] if len(sys.argv) > 2 else None
    fs = files()
    d = deps(fs)
    order, seen = [], set()
    def visit(f):
        if f in seen: return
        seen.add(f)
        for x in d[f]: visit(x)
        order.append(f)
    for f in fs: visit(f)
    g = graph(order)
    for m in muts:
        t = time.time()
        r = run(m, order, d, g)
        miss = [c for c in m['breaks'] if not any(x.startswith(c + '_') for x in r.get('theorems_failed', []))]
        print(json.dumps({'definition': m['definition'], 'edit': m['edit'], 'missed': miss, 'result': r, 'secs': round(time.time() - t)}), flush=True)
        if logf and 'error' not in r:
            open(logf, 'a').write(json.dumps({'definition': m['definition'], 'edit': m['edit'], 'breaks': m['breaks'],
              'claim': m.get('claim', ''), 'theorems_failed': r['theorems_failed'],
              'lemmas_failed': r['lost'], 'theorems_tightened': [], 'missed': miss}) + '\n')
if __name__ == '__main__':
    main()
