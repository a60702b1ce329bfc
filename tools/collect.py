#!/usr/bin/env python3
"""copy the results of a mutation batch from /tmp/mut: collect.py b1"""
import json, os, sys
here = os.path.dirname(os.path.abspath(__file__)); os.makedirs(here + "/mutants/results", exist_ok=True)
for s in json.load(open(here + "/mutants/%s.json" % sys.argv[1])):
    f = "/tmp/mut/%s.json" % s["id"]; g = here + "/mutants/results/%s.json" % s["id"]
    if not os.path.exists(f): print("missing", s["id"]); continue
    r = json.load(open(f)); old = json.load(open(g)) if os.path.exists(g) else {}
    res = {k: r[k] for k in ("id", "failed", "proofs", "dropped", "err", "unfailed_claims")}
    for k in ("tightened", "note", "definition"):
        if k in old: res[k] = old[k]
    json.dump(res, open(g, "w"), indent=1)
    if r["unfailed_claims"] or not r["failed"] or r["err"]: print(s["id"], s["claim"], "not failed:", r["unfailed_claims"], "failed", len(r["failed"]), r["err"])
