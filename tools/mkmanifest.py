#!/usr/bin/env python3
"""Write MANIFEST.json: collects the theorems Cnn_* of theories/Properties*.v.

Status: "partial" if tools/notes.json says so, "proved" otherwise."""
import glob, json, os, re
root = os.path.dirname(os.path.dirname(os.path.abspath(__file__)))
thms = {}
for f in sorted(glob.glob(root + '/rocq/theories/Properties*.v')):
    for m in re.finditer(r'^(?:Theorem|Lemma) (C\d\d+)(_\w+)', open(f).read(), re.M):
        thms.setdefault(m.group(1), []).append(m.group(1) + m.group(2))
notes = json.load(open(root + '/tools/notes.json'))
claims = []
for line in open(root + '/properties.jsonl'):
    p = json.loads(line)['id']
    n = notes.get(p, {})
    if p not in thms:
        claims.append({"property": p, "status": "not_applicable" if n.get('status') == 'not_applicable' else "partial",
                       "theorems": [], "note": n.get('note', 'No theorem yet.')})
        continue
    claims.append({"property": p, "status": n.get('status', 'proved'), "theorems": thms[p], "note": n.get('note', '')})
with open(root + '/MANIFEST.json', 'w') as out:
    json.dump({"claims": claims}, out, indent=1)
    out.write('\n')
for c in claims:
    print(c['property'], c['status'], len(c['theorems']))
