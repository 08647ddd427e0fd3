#!/usr/bin/env python3
"""Writes /verif/MANIFEST.json from the theorem names in rocq/theories/Prop*.v
and the notes below."""
import json, os, re, glob
here = os.path.dirname(os.path.abspath(__file__))
root = os.path.dirname(here)
ids = [json.loads(l)['id'] for l in open(os.path.join(root, 'properties.jsonl'))]
exec(open(os.path.join(here, 'notes.py')).read())   # defines NOTES: id -> (status, note)
thms = {}
for f in sorted(glob.glob(os.path.join(root, 'rocq/theories/Prop*.v'))):
    for m in re.finditer(r'^Theorem (C\d\d)(_\w+)', open(f).read(), re.M):
        thms.setdefault(m.group(1), []).append(m.group(1) + m.group(2))
claims = []
for i in ids:
    if i not in thms and i not in NOTES: continue
    if i not in thms and NOTES[i][0] != 'not_applicable': raise SystemExit('no theorem for ' + i)
    status, note = NOTES[i]
    claims.append(dict(property=i, status=status, theorems=thms.get(i, []), note=note))
json.dump(dict(claims=claims), open(os.path.join(root, 'MANIFEST.json'), 'w'), indent=1)
print(len(claims), 'claims', sum(len(v) for v in thms.values()), 'theorems')
