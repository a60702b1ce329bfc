#!/usr/bin/env python3
"""Rebuild seeded/LOG.jsonl from tools/mutants/*.json (the edits) and
tools/mutants/results/*.json (what mutate.py reported).  A result may carry
"tightened" (theorems added or strengthened because of it) and "note"."""
import glob, json, os, re
here = os.path.dirname(os.path.abspath(__file__))
out = []
for b in sorted(glob.glob(here + "/mutants/b*.json")):
    for s in json.load(open(b)):
        f = here + "/mutants/results/%s.json" % s["id"]
        if not os.path.exists(f): continue
        r = json.load(open(f))
        src = open(here + "/../rocq/theories/" + s["file"]).read()
        i = src.find(s["old"]); d = None
        for m in re.finditer(r"^\s*(?:Definition|Fixpoint)\s+([\w']+)", src, re.M):
            if m.start() > i: break
            d = m.group(1)
        out.append({"id": s["id"], "definition": "%s:%s" % (s["file"], r.get("definition") or d), "edit": s["edit"], "old": s["old"], "new": s["new"],
                    "claim_broken": s["claim"], "theorems_failed": r["failed"], "theorems_tightened": r.get("tightened", []), "note": r.get("note", "")})
with open(here + "/../seeded/LOG.jsonl", "w") as f:
    for o in out: f.write(json.dumps(o) + "\n")
print(len(out))
