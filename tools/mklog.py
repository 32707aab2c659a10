#!/usr/bin/env python3
"""Append the results of tools/mutate.py to seeded/LOG.jsonl. usage: mklog.py out.jsonl [fix.json]"""
import json, sys
fix = json.load(open(sys.argv[2])) if len(sys.argv) > 2 else {}
with open("/verif/seeded/LOG.jsonl", "a") as g:
    for l in open(sys.argv[1]):
        d = json.loads(l)
        r = {"id": d["id"], "definition": d["definition"], "file": "rocq/theories/" + d["file"], "edit": d["edit"],
             "claim_broken": d["claim_broken"], "theorems_failed": d["theorems_failed"], "lemmas_failed": d["failed_proofs"],
             "theorems_tightened": []}
        r.update(fix.get(d["id"], {}))
        g.write(json.dumps(r) + "\n")
