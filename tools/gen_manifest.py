#!/usr/bin/env python3
"""Writes MANIFEST.json from the table in tools/claims.py."""
import json, os, re, sys
here = os.path.dirname(os.path.abspath(__file__))
sys.path.insert(0, here)
from claims import CLAIMS
theories = os.path.join(here, '..', 'rocq', 'theories')
names = set()
for f in os.listdir(theories):
    if f.endswith('.v'):
        names |= set(re.findall(r'^(?:Theorem|Lemma)\s+([A-Za-z0-9_\']+)', open(os.path.join(theories, f)).read(), re.M))
ids = [json.loads(l)['id'] for l in open(os.path.join(here, '..', 'properties.jsonl'))]
out = []
for i in ids:
    if i not in CLAIMS:
        continue
    status, thms, note = CLAIMS[i]
    for t in thms:
        assert t in names, (i, t)
    out.append({"property": i, "status": status, "theorems": thms, "note": note})
missing = [i for i in ids if i not in CLAIMS]
json.dump({"claims": out}, open(os.path.join(here, '..', 'MANIFEST.json'), 'w'), indent=1)
print(len(out), "claims; missing", missing)
