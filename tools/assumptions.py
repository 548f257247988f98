#!/usr/bin/env python3
"""Ask Coq for the assumptions of every theorem named in MANIFEST.json and
write the listing between the two markers in DESIGN.md.  Needs a built tree."""
import json, os, re, subprocess, tempfile
root = os.path.dirname(os.path.dirname(os.path.abspath(__file__)))
th = os.path.join(root, 'rocq', 'theories')
claims = json.load(open(os.path.join(root, 'MANIFEST.json')))['claims']
where = {}
for f in sorted(os.listdir(os.path.join(th, 'Props'))):
    if f.endswith('.v'):
        for m in re.finditer(r'^(?:Theorem|Example)\s+(C\d+_\w+)', open(os.path.join(th, 'Props', f)).read(), re.M):
            where[m.group(1)] = f[:-2]
names = [n for c in claims for n in c['theorems']]
mods = sorted({where[n] for n in names})
src = ''.join('From Verif.Props Require %s.\n' % m for m in mods)
for i, n in enumerate(names):
    src += 'Definition mark_%d := tt.\nPrint mark_%d.\nPrint Assumptions %s.%s.\n' % (i, i, where[n], n)
with tempfile.TemporaryDirectory() as d:
    v = os.path.join(d, 'q.v')
    open(v, 'w').write(src)
    out = subprocess.run(['coqc', '-Q', th, 'Verif', v], capture_output=True, text=True)
    if out.returncode:
        raise SystemExit(out.stderr)
parts = re.split(r'mark_\d+ = tt\s*\n\s*: unit\n', out.stdout)[1:]
assert len(parts) == len(names)
groups = {}
for n, p in zip(names, parts):
    if 'Closed under the global context' in p:
        key = ()
    else:
        key = tuple(sorted(m.group(1) for m in re.finditer(r'^(\S+)(?:\s*:|\s*$)', p, re.M) if m.group(1) != 'Axioms:' and m.group(1) != 'Axioms'))
    groups.setdefault(key, []).append(n)
txt = ''
for key in sorted(groups, key=len):
    ns = sorted(groups[key])
    if key:
        txt += '**%d theorems** depend on ' % len(ns) + ', '.join('`%s`' % k for k in key) + ':\n\n'
    else:
        txt += '**%d theorems** are closed under the global context (no axioms):\n\n' % len(ns)
    txt += ' '.join('`%s`' % n for n in ns) + '\n\n'
p = os.path.join(root, 'DESIGN.md')
s = open(p).read()
b, e = '<!-- assumptions begin -->\n', '<!-- assumptions end -->'
i, j = s.index(b) + len(b), s.index(e)
open(p, 'w').write(s[:i] + '\n' + txt + s[j:])
print({len(k): len(v) for k, v in groups.items()})
