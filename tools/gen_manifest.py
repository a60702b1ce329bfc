#!/usr/bin/env python3
"""Writes /verif/MANIFEST.json. Checks that every named theorem exists."""
import json, os, re, glob
root = os.path.join(os.path.dirname(os.path.abspath(__file__)), "..")
names = set()
for f in glob.glob(os.path.join(root, "rocq/theories/Properties*.v")):
    names |= set(re.findall(r"^Theorem (\w+)", open(f).read(), re.M))
C = []
def c(prop, status, theorems, note=""):
    C.append(dict(property=prop, status=status, theorems=theorems, note=note))
exec(open(os.path.join(root, "tools/claims.py")).read())
used = set()
for x in C:
    for t in x["theorems"]:
        assert t in names, t
        used.add(t)
for t in sorted(names - used):
    print("unlisted theorem", t)
props = [json.loads(l)["id"] for l in open(os.path.join(root, "properties.jsonl"))]
have = [x["property"] for x in C]
assert len(set(have)) == len(have)
for p in props:
    if p not in have: print("no claim yet for", p)
for h in have: assert h in props, h
C.sort(key=lambda x: int(x["property"][1:]))
json.dump({"claims": C}, open(os.path.join(root, "MANIFEST.json"), "w"), indent=1)
