#!/usr/bin/env python3
"""DESIGN.md = tools/design_head.md + per-property table (plan.py, MANIFEST, properties.jsonl)."""
import json, os, sys
here = os.path.dirname(os.path.abspath(__file__)); root = os.path.join(here, "..")
sys.path.insert(0, here)
from plan import PLAN
m = {c["property"]: c for c in json.load(open(root + "/MANIFEST.json"))["claims"]}
out = open(here + "/design_head.md").read()
out += "\n## Per-property plan\n\nThe theorem names and remarks are in MANIFEST.json.  \"REFUTED\" properties are\nkept in view as stated; the theorem with suffix `_refuted` (or prefix `refuted`)\nproves that the code violates them and the `_partial` theorem proves the part that holds.\n\n"
out += "| id | property | modelled | proof | status |\n|---|---|---|---|---|\n"
for l in open(root + "/properties.jsonl"):
    p = json.loads(l); c = m[p["id"]]
    a, b = PLAN[p["id"]]
    st = c["status"] + (" (refuted as stated)" if "REFUTED" in c.get("note", "") else "")
    out += "| %s | %s | %s | %s | %s |\n" % (p["id"], p["title"], a, b, st)
open(root + "/DESIGN.md", "w").write(out)
