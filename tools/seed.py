#!/usr/bin/env python3
"""seed.py DEFINITION EDIT CLAIM "failed thms" "tightened thms": append to seeded/LOG.jsonl."""
import json, os, sys
p = os.path.join(os.path.dirname(__file__), "..", "seeded", "LOG.jsonl")
d, e, c, f, t = sys.argv[1:6]
open(p, "a").write(json.dumps({"definition": d, "edit": e, "claim_broken": c,
    "theorems_failed": f.split(), "theorems_tightened": t.split()}) + "\n")
