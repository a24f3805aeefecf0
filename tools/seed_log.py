#!/usr/bin/env python3
"""Turns the results of seed.py (/tmp/seed/out.jsonl) into seeded/LOG.jsonl.

A mutant that was run again under the name <id>b replaces <id>.  What was
tightened because of a mutant is in seeded/tightened.json.
"""
import json, os
root = os.path.dirname(os.path.dirname(os.path.abspath(__file__)))
tight = json.load(open(root + "/seeded/tightened.json"))
rows = {}
for line in open("/tmp/seed/out.jsonl"):
    r = json.loads(line)
    rows[r["id"]] = r
with open(root + "/seeded/LOG.jsonl", "w") as f:
    n = 0
    for i, r in rows.items():
        if i + "b" in rows: continue
        t = [x for x in r["property_theorems_failed"] if " results for " not in x]
        f.write(json.dumps({
            "id": i, "definition": r["definition"], "edit": r["edit"], "breaks": r["breaks"],
            "theorems_failed": t, "examples_failed": r["examples_failed"],
            "first_proofs_failed": r["failing_proofs"][:6],
            "tightened": tight.get(i, [])}) + "\n")
        n += 1
print(n)
