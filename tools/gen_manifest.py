#!/usr/bin/env python3
"""Writes MANIFEST.json from the table below; checks that every theorem named exists in the sources
and that every property of properties.jsonl has an entry."""
import json, re, glob, os
root = os.path.dirname(os.path.dirname(os.path.abspath(__file__)))
NOTYET = ("partial", [], "no theorem yet")
T = json.load(open(os.path.join(root, 'tools', 'manifest_table.json')))
src = '\n'.join(open(f).read() for f in sorted(glob.glob(os.path.join(root, 'rocq/theories/Properties*.v'))))
have = set(re.findall(r'^Theorem (\w+)', src, re.M))
claims, used = [], set()
for l in open(os.path.join(root, 'properties.jsonl')):
    i = json.loads(l)['id']
    st, th, note = T.get(i, NOTYET)
    for t in th:
        assert t in have, (i, t)
        used.add(t)
    claims.append({"property": i, "status": st, "theorems": th, "note": note})
assert not have - used, have - used
json.dump({"claims": claims}, open(os.path.join(root, 'MANIFEST.json'), 'w'), indent=1)
from collections import Counter
print(Counter(c["status"] for c in claims), sum(1 for c in claims if not c["theorems"]), "without theorem")
