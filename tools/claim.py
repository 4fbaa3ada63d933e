#!/usr/bin/env python3
"""claim.py ID STATUS "thm1 thm2" "note": update MANIFEST.json."""
import json, os, sys
p = os.path.join(os.path.dirname(__file__), "..", "MANIFEST.json")
m = json.load(open(p)) if os.path.exists(p) else {"claims": []}
i, st, th, note = sys.argv[1:5]
m["claims"] = [c for c in m["claims"] if c["property"] != i]
m["claims"].append({"property": i, "status": st, "theorems": th.split(), "note": note})
m["claims"].sort(key=lambda c: c["property"])
json.dump(m, open(p, "w"), indent=1)
