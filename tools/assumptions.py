#!/usr/bin/env python3
"""Rewrites section 5 of DESIGN.md: what Print Assumptions lists for each
theorem of rocq/theories/Prop*.v.  Needs a finished build."""
import os, re, glob, subprocess, tempfile
here = os.path.dirname(os.path.abspath(__file__))
root = os.path.dirname(here)
th = os.path.join(root, 'rocq/theories')
mods, thms = [], []
for f in sorted(glob.glob(os.path.join(th, 'Prop*.v'))):
    m = os.path.basename(f)[:-2]
    mods.append(m)
    for t in re.findall(r'^Theorem (C\d\d\w+)', open(f).read(), re.M): thms.append((m, t))
src = 'From Verif Require ' + ' '.join(mods) + '.\n'
for m, t in thms: src += f'Check "@@{t}"%string.\nPrint Assumptions {m}.{t}.\n'
src = 'From Coq Require Import String.\n' + src
with tempfile.TemporaryDirectory() as d:
    p = os.path.join(d, 'assum.v'); open(p, 'w').write(src)
    out = subprocess.run(['coqc', '-Q', th, 'Verif', p], capture_output=True, text=True)
    if out.returncode: raise SystemExit(out.stderr)
out = out.stdout
res = {}
for part in re.split(r'"@@', out)[1:]:
    name = part[:part.index('"')]
    ax = re.findall(r'^([A-Za-z_][\w.]*)(?=\s*:)', part[part.index('\n') + 1:], re.M)
    ax = [a for a in ax if a not in ('Axioms', 'string')]
    if not ax: assert 'Closed under the global context' in part, part
    res[name] = tuple(sorted(ax))
groups = {}
for n, a in res.items(): groups.setdefault(a, []).append(n)
txt = '## 5. What `Print Assumptions` lists\n\n(Written by `tools/assumptions.py`.)\n'
for a, ns in sorted(groups.items(), key=lambda x: len(x[0])):
    txt += '\n' + ('Closed under the global context' if not a else 'Axioms ' + ', '.join(f'`{x}`' for x in a)) + f' ({len(ns)} theorems):\n'
    txt += ', '.join(f'`{n}`' for n in sorted(ns)) + '.\n'
p = os.path.join(root, 'DESIGN.md')
s = open(p).read()
i = s.find('## 5. What')
s = (s if i < 0 else s[:i]).rstrip() + '\n\n' + txt
open(p, 'w').write(s)
print(len(res), 'theorems,', len(groups), 'groups')
