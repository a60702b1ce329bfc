#!/usr/bin/env python3
"""Compile every Properties*.v (in the already built rocq/theories) and report
what Print Assumptions lists for each theorem.  Prints a markdown table."""
import glob, os, re, subprocess, sys
root = os.path.join(os.path.dirname(os.path.abspath(__file__)), "..", "rocq", "theories")
os.chdir(root)
rows = []
for f in sorted(glob.glob("Properties*.v")):
    names = re.findall(r"^Print Assumptions (\w+)\.", open(f).read(), re.M)
    out = subprocess.run(["coqc", "-Q", ".", "Verif", "-o", "/tmp/ax/" + f + "o", f], capture_output=True, text=True).stdout
    blocks = re.findall(r"^(Closed under the global context|Axioms:\n(?:.*\n?)*?(?=^Closed|^Axioms:|\Z))", out, re.M)
    assert len(blocks) == len(names), (f, len(blocks), len(names))
    for n, b in zip(names, blocks):
        ax = re.findall(r"^([A-Za-z_][\w.]*)", b, re.M)
        ax = [a for a in ax if a not in ("Closed", "Axioms")]
        rows.append((f, n, ax))
allax = sorted({a for r in rows for a in r[2]})
short = {a: "A%d" % (i + 1) for i, a in enumerate(allax)}
for a in allax: print("* %s = `%s`" % (short[a], a))
print("\n| theorem | file | axioms |\n|---|---|---|")
for f, n, ax in rows: print("| %s | %s | %s |" % (n, f, ", ".join(short[a] for a in ax) or "none"))
