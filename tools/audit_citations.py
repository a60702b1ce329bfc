#!/usr/bin/env python3
"""For every definition of the model: find the citation in the comment before it
and, when the cited Rust file has a fn/struct/enum of the same name, check that
the cited range is that item's range.  Prints deviations."""
import glob, os, re
here = os.path.dirname(os.path.abspath(__file__))
def items(path):
    L = open(path).read().split("\n"); out = {}
    for i, l in enumerate(L):
        m = re.match(r"(\s*)(?:pub )?(?:extern \"C\" )?(?:pub )?(?:unsafe )?(?:extern \"C\" )?(?:fn|struct|enum) (\w+)", l)
        if m:
            ind = m.group(1); j = i
            if not l.rstrip().endswith((";", "}")) or "{" in l and not l.rstrip().endswith("}"):
                while j < len(L) and not re.match(ind + r"\}", L[j]): j += 1
            out.setdefault(m.group(2), []).append((i + 1, j + 1))
    return out
src = {os.path.relpath(p, "/repo/src"): items(p) for p in glob.glob("/repo/src/**/*.rs", recursive=True)}
n = bad = nocite = 0
for f in sorted(glob.glob(here + "/../rocq/theories/Model*.v")):
    t = open(f).read()
    pos = 0; last = ""
    for m in re.finditer(r"\(\*\*?(?:[^*]|\*(?!\)))*\*\)|^ *(Definition|Fixpoint|Record|Inductive|Class) (\w+)", t, re.M):
        if m.group(1) is None: last = m.group(0); continue
        name = m.group(2); n += 1
        c = re.findall(r"(\w+(?:/\w+)?\.rs)\s+([0-9]+(?:-[0-9]+)?(?:,\s*[0-9]+(?:-[0-9]+)?)*)", last)
        if not c: nocite += 1; print(os.path.basename(f), name, "no citation:", last[:80].replace("\n", " ")); continue
        for file, rs in c:
            if file not in src: print("unknown file", file); continue
            rngs = [tuple(int(x) for x in (r.split("-") * 2)[:2]) for r in re.split(r",\s*", rs)]
            if name in src[file]:
                if not any(a <= s and e <= b + 1 for a, b in rngs for s, e in src[file][name]):
                    bad += 1; print(os.path.basename(f), name, "cites", file, rs, "but item is at", src[file][name])
print(n, "definitions,", nocite, "without citation,", bad, "deviations")
