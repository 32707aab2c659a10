#!/usr/bin/env python3
"""Single source of truth for /verif/properties.jsonl and /verif/MANIFEST.json.
Each entry: (id, title, statement, quantifier, why_tests_cant, anchors, status, theorems, note)."""
import json, os, sys
sys.path.insert(0, os.path.dirname(__file__))
from props import PROPS
from claims import CLAIMS
for p in PROPS:
    if p['id'] in CLAIMS:
        p['status'], p['theorems'], p['note'] = CLAIMS[p['id']]
assert set(CLAIMS) <= {p['id'] for p in PROPS}
root = os.path.dirname(os.path.dirname(os.path.abspath(__file__)))
ids = set()
with open(os.path.join(root, "properties.jsonl"), "w") as f:
    for p in PROPS:
        assert p["id"] not in ids, p["id"]
        ids.add(p["id"])
        f.write(json.dumps({k: p[k] for k in
            ("id", "title", "statement", "quantifier", "why_tests_cant", "anchors")}) + "\n")
claims = []
for p in PROPS:
    if p.get("theorems"):
        claims.append({"property": p["id"], "status": p["status"], "theorems": p["theorems"], "note": p.get("note", "")})
with open(os.path.join(root, "MANIFEST.json"), "w") as f:
    json.dump({"claims": claims}, f, indent=1)
    f.write("\n")
print(len(PROPS), "properties,", len(claims), "claims")
