#!/usr/bin/env python3
"""Mutation test of the theorems.  usage: mutate.py SPEC.json [-j N]
SPEC.json: list of {"id","file","old","new","edit","claim":[ids or names],"count"?}.
Each mutant is built in a scratch copy (/tmp/mut/<id>).  A proof that no longer
goes through is replaced by Admitted there, so that the build goes on; at the
end Print Assumptions tells which property theorems rest on a failed proof.
Writes /tmp/mut/<id>.json."""
import glob, json, os, re, shutil, subprocess, sys, time
from concurrent.futures import ThreadPoolExecutor
SRC = os.environ.get("MUTSRC", "/verif/rocq/theories")
START = re.compile(r"^\s*(?:#\[[^\]]*\]\s*)?(?:Local\s+|Global\s+|Program\s+)?(Lemma|Theorem|Corollary|Example|Fact|Remark|Proposition|Definition|Instance|Fixpoint|Inductive|Record|Notation|Ltac|Goal)\s+([\w']+)", re.M)
PROOFKW = ("Lemma", "Theorem", "Corollary", "Example", "Fact", "Remark", "Proposition", "Definition", "Instance")
def deps():
    out = subprocess.run(["coqdep", "-Q", ".", "Verif"] + sorted(os.path.basename(f) for f in glob.glob(SRC + "/*.v")), cwd=SRC, capture_output=True, text=True).stdout
    d = {}
    for l in out.splitlines():
        m = re.match(r"(\w+)\.vo\b[^:]*:(.*)", l)
        if m: d[m.group(1)] = [x[:-3] for x in m.group(2).split() if x.endswith(".vo") and "/" not in x]
    order = []
    def visit(x):
        if x in order: return
        for y in d[x]: visit(y)
        order.append(x)
    for x in sorted(d): visit(x)
    return d, order
def line_to_off(t, line): 
    off = 0
    for _ in range(line - 1): off = t.index("\n", off) + 1
    return off
def admit(path, off):
    """replace the proof that contains offset off; returns the name or None"""
    t = open(path).read()
    best = None
    for m in START.finditer(t):
        if m.start() > off: break
        best = m
    if best is None or best.group(1) not in PROOFKW: return None
    end = re.compile(r"(Qed|Defined|Admitted|Abort)\.").search(t, max(off - 12, best.end()))
    if end is None: return None
    pm = None
    for pm_ in re.compile(r"\bProof\b[^.]*\.").finditer(t, best.end(), end.start()): pm = pm_; break
    if pm is None or off < pm.start():
        # error in the statement itself
        if pm is None or not re.search(r"^(Qed|Defined)", end.group(0)): return None
        return None
    if end.group(0) == "Admitted.": return None
    new = t[:pm.start()] + "Admitted." + t[end.end():]
    open(path, "w").write(new)
    return best.group(2)
def drop(path, off):
    """remove the whole item containing off (its statement is ill-typed now)"""
    t = open(path).read(); best = None
    for m in START.finditer(t):
        if m.start() > off: break
        best = m
    if best is None: return None
    name = best.group(2)
    nxt = re.compile(r"(Qed|Defined|Admitted)\.").search(t, best.end())
    if best.group(1) in PROOFKW and nxt and re.search(r"Proof\b", t[best.end():nxt.start()]):
        new = t[:best.start()] + "\n" + t[nxt.end():]
        new = new.replace("Print Assumptions %s." % name, "")
        open(path, "w").write(new); return name
    return None
def run(spec, D, ORDER):
    w = "/tmp/mut/" + spec["id"]; shutil.rmtree(w, ignore_errors=True)
    shutil.copytree(SRC, w, ignore=shutil.ignore_patterns("*.glob", "*.vos", "*.vok", ".*"))
    p = w + "/" + spec["file"]; t = open(p).read()
    n = t.count(spec["old"])
    if n != spec.get("count", 1): return dict(spec, error="old occurs %d times" % n)
    open(p, "w").write(t.replace(spec["old"], spec["new"]))
    dirty = {spec["file"][:-2]}
    admitted, dropped, assum, log = [], [], {}, []
    t0 = time.time(); err = None
    need = None
    if os.environ.get("MUTCLAIMS") and spec["claim"]:
        # only the files the claimed theorems are in, and what those need
        need = set()
        def visit(x):
            if x not in need: need.add(x); [visit(y) for y in D[x]]
        for x in ORDER:
            if x.startswith("Properties") and any(re.search(r"^Theorem %s\b" % re.escape(c) if re.search(r"_", c) else r"^Theorem %s_" % re.escape(c), open(w + "/" + x + ".v").read(), re.M) for c in spec["claim"]): visit(x)
    for x in ORDER:
        if need is not None and x not in need: continue
        if x in dirty or any(y in dirty for y in D[x]): dirty.add(x)
        else: continue
        path = w + "/" + x + ".v"
        for attempt in range(200):
            pr = subprocess.Popen(["coqc", "-time", "-Q", ".", "Verif", x + ".v"], cwd=w, stdout=subprocess.PIPE, stderr=subprocess.PIPE, text=True)
            try: out, er = pr.communicate(timeout=spec.get("timeout", 600)); to = False
            except subprocess.TimeoutExpired: pr.kill(); out, er = pr.communicate(); to = True
            if not to and pr.returncode == 0: break
            src = open(path).read()
            if to:
                c = re.findall(r"^Chars (\d+) - (\d+)", out, re.M)
                boff = int(c[-1][1]) + 2 if c else 0
                off = len(src.encode()[:boff].decode(errors="ignore"))
            else:
                mm = re.findall(r'File "[^"]*", line (\d+), characters (\d+)-(\d+):\nError', er)
                if not mm: err = "no error location in %s: %s" % (x, er[-300:]); break
                off = line_to_off(src, int(mm[-1][0])) + int(mm[-1][1])
            nm = admit(path, off)
            log.append((x, nm, "timeout" if to else er[-160:]))
            if nm: admitted.append(nm)
            else:
                nm = drop(path, off)
                if nm: dropped.append(nm)
                else: err = "cannot patch %s: %s" % (x, er[-300:]); break
        if err: break
        if x.startswith("Properties"):
            src = open(path).read()
            names = re.findall(r"^Print Assumptions (\w+)\.", src, re.M)
            clean = re.sub(r"^Chars .*\n?", "", out, flags=re.M)
            blocks = re.findall(r"^(Closed under the global context|Axioms:\n(?:.*\n?)*?(?=^Closed|^Axioms:|\Z))", clean, re.M)
            if len(blocks) != len(names): err = "assumption blocks of " + x
            for nme, b in zip(names, blocks): assum[nme] = b
    bad = set(admitted) | set(dropped)
    failed = [k for k, b in assum.items() if any(re.search(r"\b%s\b" % re.escape(a), b) for a in bad)]
    failed += [d for d in dropped if re.match(r"C\d+_", d)] + [a for a in admitted if re.match(r"C\d+_", a) and a not in failed]
    ok = [k for k in assum if k not in failed]
    res = dict(spec, failed=sorted(set(failed)), proofs=admitted, dropped=dropped, seconds=int(time.time() - t0), err=err,
               unfailed_claims=[c for c in spec["claim"] if not any(f == c or f.startswith(c + "_") for f in failed)], log=log)
    json.dump(res, open("/tmp/mut/%s.json" % spec["id"], "w"), indent=1)
    shutil.rmtree(w, ignore_errors=True)
    return res
if __name__ == "__main__":
    specs = json.load(open(sys.argv[1])); j = int(sys.argv[3]) if len(sys.argv) > 3 else 4
    os.makedirs("/tmp/mut", exist_ok=True); D, ORDER = deps()
    with ThreadPoolExecutor(j) as ex:
        for r in ex.map(lambda s: run(s, D, ORDER), specs):
            print(r["id"], r.get("error") or r.get("err") or "", "sec", r.get("seconds"), "failed", len(r.get("failed", [])), "proofs", r.get("proofs"), "NOT FAILED:", r.get("unfailed_claims"), flush=True)
