#!/usr/bin/env python3
"""Regenerates DESIGN.md: tools/design_head.md, the table of properties (properties.jsonl, MANIFEST.json, tools/plan.json) and tools/design_tail.md."""
import glob, json, os, re
root = os.path.dirname(os.path.dirname(os.path.abspath(__file__)))
p = lambda *a: os.path.join(root, *a)
plan = json.load(open(p('tools', 'plan.json')))
claims = {c['property']: c for c in json.load(open(p('MANIFEST.json')))['claims']}
where = {}
for f in sorted(glob.glob(p('rocq/theories/Prop_*.v'))):
    for m in re.finditer(r'^Theorem\s+(C\d\d)_\w+', open(f).read(), re.M):
        where.setdefault(m.group(1), set()).add(os.path.basename(f)[:-2])
out = [open(p('tools', 'design_head.md')).read(), '\n## Properties: what is modelled, how it is proved, outcome\n\n',
       'The theorems of each property are listed in MANIFEST.json (the names start by the id of the property); a name that ends in `_refuted` is a proof that a stronger or '
       'more natural reading of the property is false of the code, so that the exceptions in the statement are real.\n\n',
       '| id | property | model | proof | theorems in | outcome |\n|---|---|---|---|---|---|\n']
for l in open(p('properties.jsonl')):
    d = json.loads(l); i = d['id']; c = claims.get(i, {'status': 'not_applicable', 'note': '', 'theorems': []})
    model, proof = plan[i]
    out.append('| %s | %s | %s | %s | %s | %s (%d theorems): %s |\n' % (i, d['title'], model, proof, ', '.join(sorted(where.get(i, []))), c['status'], len(c['theorems']), c['note']))
out.append('\n' + open(p('tools', 'design_tail.md')).read())
open(p('DESIGN.md'), 'w').write(''.join(out))
