#!/usr/bin/env python3
"""Regenerates MANIFEST.json from the theorems Cxx_... of rocq/theories/Prop_*.v and tools/status.json."""
import glob, json, os, re
root = os.path.dirname(os.path.dirname(os.path.abspath(__file__)))
status = json.load(open(os.path.join(root, 'tools', 'status.json')))
found = {}
for f in sorted(glob.glob(os.path.join(root, 'rocq/theories/Prop_*.v'))):
    for m in re.finditer(r'^\s*Theorem\s+((C\d\d)_\w+)', open(f).read(), re.M):
        found.setdefault(m.group(2), []).append(m.group(1))
claims = []
for l in open(os.path.join(root, 'properties.jsonl')):
    p = json.loads(l)['id']
    if p in found:
        st, note = status[p]
        claims.append(dict(property=p, status=st, theorems=found[p], note=note))
    else:
        print('no theorem for', p)
json.dump({'claims': claims}, open(os.path.join(root, 'MANIFEST.json'), 'w'), indent=1)
