#!/usr/bin/env python3
"""Write MANIFEST.json: the theorems named C<nn>_* in Props*.v for each property,
with the status and note given in manifest_notes.json."""
import re, json, glob, os
root = os.path.join(os.path.dirname(os.path.abspath(__file__)), '..')
notes = json.load(open(os.path.join(root, 'tools', 'manifest_notes.json')))
thms = {}
for f in sorted(glob.glob(os.path.join(root, 'rocq', 'theories', 'Props*.v'))):
    for n in re.findall(r'^Theorem (C\d\d\w*)', open(f).read(), re.M):
        thms.setdefault(n.split('_')[0], []).append(n)
claims = []
for l in open(os.path.join(root, 'properties.jsonl')):
    i = json.loads(l)['id']
    t = thms.get(i, [])
    st, note = notes.get(i, ['proved', ''])
    if not t: st, note = 'partial', 'no theorem yet'
    claims.append(dict(property=i, status=st, theorems=t, note=note))
json.dump({'claims': claims}, open(os.path.join(root, 'MANIFEST.json'), 'w'), indent=1)
for c in claims: print(c['property'], c['status'], len(c['theorems']))
