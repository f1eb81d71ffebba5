#!/usr/bin/env python3
"""Write MANIFEST.json from the table below and check the names against the sources."""
import json, os, re, glob
root = os.path.join(os.path.dirname(os.path.abspath(__file__)), '..')
claims = json.load(open(os.path.join(root, 'tools', 'claims.json')))
names = set()
for f in glob.glob(os.path.join(root, 'rocq/theories/T_*.v')):
    names |= set(re.findall(r'^Theorem (\w+)', open(f).read(), re.M))
used = set()
for c in claims:
    for t in c['theorems']:
        assert t in names, (c['property'], t)
        used.add(t)
print('unlisted:', sorted(names - used))
props = [json.loads(l)['id'] for l in open(os.path.join(root, 'properties.jsonl'))]
print('without claim:', [p for p in props if p not in {c['property'] for c in claims}])
json.dump({'claims': claims}, open(os.path.join(root, 'MANIFEST.json'), 'w'), indent=1)
