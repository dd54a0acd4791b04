#!/usr/bin/env python3
"""Regenerate MANIFEST.json from the theorem names in rocq/theories and the
status table in tools/status.json ({id: [status, note]})."""
import json, re, glob, os
root = os.path.dirname(os.path.dirname(os.path.abspath(__file__)))
names = {}
for f in sorted(glob.glob(root + '/rocq/theories/Properties*.v')):
    for m in re.finditer(r'^Theorem (C\d\d)_(\w+)', open(f).read(), re.M):
        names.setdefault(m.group(1), []).append(m.group(1) + '_' + m.group(2))
st = json.load(open(root + '/tools/status.json'))
claims = []
for l in open(root + '/properties.jsonl'):
    i = json.loads(l)['id']
    if i in st:
        s, note = st[i]
        claims.append({"property": i, "status": s, "theorems": names.get(i, []), "note": note})
        assert s == 'not_applicable' or names.get(i), i
json.dump({"claims": claims}, open(root + '/MANIFEST.json', 'w'), indent=1)
missing = [i for i in names if i not in st]
print(len(claims), 'claims; theorem ids without status:', missing)
