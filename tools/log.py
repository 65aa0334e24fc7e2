#!/usr/bin/env python3
"""Append the results of seed.py (X.out.json) to seeded/LOG.jsonl."""
import json, sys
with open("/verif/seeded/LOG.jsonl", "a") as f:
    for path in sys.argv[1:]:
        for m in json.load(open(path)):
            f.write(json.dumps({
                "definition": m["definition"], "edit": m["edit"], "claim": m["claim"],
                "theorems_failed": m["result"]["failed"], "theorems_tightened": m.get("tightened", []),
            }) + "\n")
