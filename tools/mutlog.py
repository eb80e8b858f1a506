#!/usr/bin/env python3
"""Append the results of a run of mutate.py to seeded/LOG.jsonl.
Usage: mutlog.py RESULTS [TIGHTENED.json]   (TIGHTENED maps a mutation name to the theorems tightened after it)"""
import json, os, sys
log = os.path.join(os.path.dirname(os.path.abspath(__file__)), "..", "seeded", "LOG.jsonl")
tight = json.load(open(sys.argv[2])) if len(sys.argv) > 2 else {}
seen = {(r["definition"], r["edit"]) for r in map(json.loads, open(log))} if os.path.exists(log) else set()
with open(log, "a") as out:
    for line in open(sys.argv[1]):
        r = json.loads(line)
        if "error" in r or (r["definition"], r["edit"]) in seen:
            continue
        out.write(json.dumps({"definition": r["definition"], "edit": r["edit"], "claim": r["claim"],
                              "failed": r["failed_theorems"], "tightened": tight.get(r["edit"], [])}) + "\n")
