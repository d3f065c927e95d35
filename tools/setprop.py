"""usage: setprop.py ID field=value ...   edits one line of properties.jsonl in place"""
import json, sys
pid = sys.argv[1]
out = []
for l in open('/verif/properties.jsonl'):
    d = json.loads(l)
    if d['id'] == pid:
        for a in sys.argv[2:]:
            k, v = a.split('=', 1)
            d[k] = v
    out.append(json.dumps(d))
open('/verif/properties.jsonl', 'w').write('\n'.join(out) + '\n')
