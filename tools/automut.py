#!/usr/bin/env python3
"""Random operator mutants of the model.  usage: automut.py SEED PER_DEFINITION [-j N] [FILES...]
For every definition of Model*.v at most PER_DEFINITION token mutations are
drawn.  A mutant is built until a lemma or theorem of a Proofs*/Properties*
file fails that is neither an Example nor a refutation ("caught"); one that
never fails is a survivor, for manual review: is a claim now false of it?
Results: /tmp/auto/<id>.json."""
import glob, json, os, random, re, shutil, subprocess, sys, time
from concurrent.futures import ThreadPoolExecutor
sys.path.insert(0, os.path.dirname(os.path.abspath(__file__)))
import mutate as M
SWAP = [(r" \+! ", [" -! "]), (r" -! ", [" +! "]), (r" \*! ", [" /! "]), (r" /! ", [" *! "]),
        (r" <! ", [" <=! ", " >! "]), (r" <=! ", [" <! "]), (r" >! ", [" >=! ", " <! "]), (r" >=! ", [" >! "]),
        (r"&&", ["||"]), (r"\|\|", ["&&"]), (r"\btrue\b", ["false"]), (r"\bfalse\b", ["true"]),
        (r"\bvx ", ["vy "]), (r"\bvy ", ["vz "]), (r"\bvz ", ["vx "]), (r"\bnsin ", ["ncos "]), (r"\bncos ", ["nsin "]),
        (r"\bp_pos ", ["p_pos_old "]), (r"\bp_dir ", ["p_dir_old "]), (r"\bp_pos_old ", ["p_pos "]), (r"\bp_dir_old ", ["p_dir "]),
        (r"\bZa\b", ["Zb"]), (r"\bMa\b", ["Mb"]), (r"\bMb\b", ["Ma"]), (r"\bZb\b", ["Za"]), (r"\bnmin\b", ["nmax"]), (r"\bnmax\b", ["nmin"]),
        (r"\bx1\b", ["x2"]), (r"\by1\b", ["y2"]), (r"\bx2\b", ["x1"]), (r"\by2\b", ["y1"]), (r"\bfst\b", ["snd"]), (r"\bsnd\b", ["fst"]),
        (r"\bp_Ec\b", ["p_Es"]), (r"\bp_Es\b", ["p_Ed"]), (r"\bp_Ed\b", ["p_Ec"]), (r"\bnZ \d+", None), (r"\bnegb ", [""]), (r"\bif \(?negb", ["if "]),
        (r"\blit \(?-?\d+", None), (r" \+ ", [" - "]), (r" - ", [" + "]), (r" <\? ", [" <=? "]), (r" <=\? ", [" <? "]), (r"nabs ", [""]), (r"-! \(", ["("])]
def comments(t):
    out, d, i, st = [], 0, 0, 0
    while i < len(t):
        if t.startswith("(*", i):
            if d == 0: st = i
            d += 1; i += 2
        elif t.startswith("*)", i) and d:
            d -= 1; i += 2
            if d == 0: out.append((st, i))
        else: i += 1
    return out
def candidates(f):
    t = open(M.SRC + "/" + f).read(); com = comments(t)
    heads = [(m.start(), m.group(1)) for m in re.finditer(r"^\s*(?:Definition|Fixpoint)\s+([\w']+)", t, re.M)]
    for k, (s, name) in enumerate(heads):
        e = heads[k + 1][0] if k + 1 < len(heads) else len(t)
        b = t.find(":=", s); 
        if b < 0: continue
        for pat, reps in SWAP:
            for m in re.finditer(pat, t[b:e]):
                o = b + m.start()
                if any(x <= o < y for x, y in com): continue
                rs = reps
                if rs is None:
                    n = re.search(r"\d+", m.group(0)); rs = [m.group(0)[:n.start()] + str(int(n.group(0)) + 1)]
                for r in rs: yield name, o, m.group(0), r
def build(job, D, ORDER):
    mid, f, name, off, old, new = job
    w = "/tmp/auto/" + mid; shutil.rmtree(w, ignore_errors=True)
    shutil.copytree(M.SRC, w, ignore=shutil.ignore_patterns("*.glob", "*.vos", "*.vok", ".*"))
    t = open(w + "/" + f).read(); t = t[:off] + new + t[off + len(old):]; open(w + "/" + f, "w").write(t)
    line = t.count("\n", 0, off) + 1
    ctx = t[t.rfind("\n", 0, off) + 1: t.find("\n", off)].strip()
    dirty, res, weak, t0 = {f[:-2]}, None, [], time.time()
    # files that mention the definition first (with what they need), the others after
    order = []
    def visit(x):
        if x in order: return
        for y in D[x]: visit(y)
        order.append(x)
    hit = [x for x in ORDER if not x.startswith("Model") and re.search(r"\b%s\b" % re.escape(name), open(w + "/" + x + ".v").read())]
    for x in sorted(hit, key=lambda x: os.path.getsize(w + "/" + x + ".v")): visit(x)
    for x in ORDER: visit(x)
    for x in order:
        if x in dirty or any(y in dirty for y in D[x]): dirty.add(x)
        else: continue
        path = w + "/" + x + ".v"
        for _ in range(100):
            pr = subprocess.Popen(["coqc", "-time", "-Q", ".", "Verif", x + ".v"], cwd=w, stdout=subprocess.PIPE, stderr=subprocess.PIPE, text=True)
            try: out, er = pr.communicate(timeout=400); to = False
            except subprocess.TimeoutExpired: pr.kill(); out, er = pr.communicate(); to = True
            if not to and pr.returncode == 0: break
            if x.startswith("Model"): res = "ill-typed"; break
            src = open(path).read()
            if to:
                c = re.findall(r"^Chars (\d+) - (\d+)", out, re.M); boff = int(c[-1][1]) + 2 if c else 0
                o = len(src.encode()[:boff].decode(errors="ignore"))
            else:
                mm = re.findall(r'File "[^"]*", line (\d+), characters (\d+)-(\d+):\nError', er)
                if not mm: res = "no location"; break
                o = M.line_to_off(src, int(mm[-1][0])) + int(mm[-1][1])
            best = None
            for m in M.START.finditer(src):
                if m.start() > o: break
                best = m
            kind, nm = (best.group(1), best.group(2)) if best else ("?", "?")
            if kind in ("Lemma", "Theorem", "Corollary", "Definition") and not x.startswith("Toy") and x != "ProofsRefute" and "refuted" not in nm:
                res = "caught"; weak.append((x, nm)); break
            weak.append((x, nm))
            if not (M.admit(path, o) or M.drop(path, o)): res = "cannot patch"; break
        if res: break
    r = dict(id=mid, file=f, definition=name, line=line, old=old, new=new, context=ctx, result=res or "SURVIVED", at=weak, seconds=int(time.time() - t0))
    json.dump(r, open("/tmp/auto/%s.json" % mid, "w"), indent=1); shutil.rmtree(w, ignore_errors=True)
    return r
if __name__ == "__main__":
    seed, per = int(sys.argv[1]), int(sys.argv[2]); a = sys.argv[3:]; j = 2
    if a[:1] == ["-j"]: j = int(a[1]); a = a[2:]
    rnd = random.Random(seed); D, ORDER = M.deps()
    rank = lambda x: (x.startswith("Toy") or any(rank(y)[0] for y in D[x]),)
    ORDER = [x for x in ORDER if not rank(x)[0]] + [x for x in ORDER if rank(x)[0]]
    jobs = []
    for f in a or sorted(os.path.basename(x) for x in glob.glob(M.SRC + "/Model*.v")):
        by = {}
        for c in candidates(f): by.setdefault(c[0], []).append(c)
        for name, cs in by.items():
            for k, (n, o, old, new) in enumerate(rnd.sample(cs, min(per, len(cs)))): jobs.append(("a%d_%s_%s_%d" % (seed, f[5:-2], n.replace("'", ""), k), f, n, o, old, new))
    rnd.shuffle(jobs); print(len(jobs), "mutants", flush=True)
    jobs = [x for x in jobs if not os.path.exists("/tmp/auto/%s.json" % x[0])]
    with ThreadPoolExecutor(j) as ex:
        for r in ex.map(lambda q: build(q, D, ORDER), jobs):
            print(r["result"], r["id"], "line", r["line"], repr(r["old"]), "->", repr(r["new"]), "|", r["context"][:110], "|", r["at"][-1:] , r["seconds"], flush=True)
