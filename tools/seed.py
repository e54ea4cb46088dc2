#!/usr/bin/env python3
"""Try the theorems against a wrong program.

usage: seed.py SPEC.json [--log]
SPEC: list of {"definition","file","old","new","edit","claim"}; "old" is replaced by "new" in
rocq/theories/FILE of a scratch copy; the copy is rebuilt, proofs that fail are cut out one after the
other, and the property theorems that fail or rest on a failed lemma are listed.
"""
import json, os, re, shutil, subprocess, sys
ROOT = os.path.dirname(os.path.dirname(os.path.abspath(__file__)))
D = os.environ.get("SEED_DIR", "/tmp/seed")
SRC = D + "/base/rocq"
DST = D + "/rocq"
START = re.compile(r"^\s*(?:#\[[^\]]*\]\s*)?(?:Global |Local )?(Lemma|Theorem|Example|Corollary|Instance|Fact|Remark)\s+(\w+)")

def base():
    """build a snapshot of the last commit, once"""
    head = subprocess.run("git rev-parse HEAD", cwd=ROOT, shell=True, stdout=subprocess.PIPE, text=True).stdout.strip()
    mark = D + "/base/HEAD"
    if os.path.exists(mark) and open(mark).read() == head: return
    os.makedirs(D + "/base", exist_ok=True)
    subprocess.run("rm -rf rocq.new && mkdir rocq.new && (cd %s && git archive HEAD rocq) | tar x -C rocq.new" % ROOT,
                   cwd=D + "/base", shell=True, check=True)
    # keep compiled files of unchanged sources
    subprocess.run("""mkdir -p rocq/theories
for f in rocq.new/rocq/theories/*.v; do b=$(basename $f .v)
 if cmp -s $f rocq/theories/$b.v; then touch -r rocq/theories/$b.v $f; cp -a rocq/theories/$b.vo rocq/theories/$b.glob rocq/theories/.$b.aux rocq.new/rocq/theories/ 2>/dev/null; fi; done
rm -rf rocq; mv rocq.new/rocq rocq; rmdir rocq.new; cd rocq && coq_makefile -f _CoqProject -o Makefile && make -j4 >../base.log 2>&1""",
                   cwd=D + "/base", shell=True, check=True)
    open(mark, "w").write(head)

def run(cmd, t=900):
    try:
        p = subprocess.run(cmd, cwd=DST, shell=True, stdout=subprocess.PIPE, stderr=subprocess.STDOUT, text=True, timeout=t)
        return p.returncode, p.stdout
    except subprocess.TimeoutExpired as e:
        return 124, "TIMEOUT " + str(cmd)

def cut(path, line):
    """admit the lemma around LINE; return its name"""
    L = open(path).read().split("\n")
    i = line - 1
    while i >= 0 and not START.match(L[i]): i -= 1
    if i < 0: return None
    name = START.match(L[i]).group(2)
    # find Proof. at or after i
    j = i
    while j < len(L) and not re.search(r"\bProof\b", L[j]): j += 1
    k = j
    while k < len(L) and not re.search(r"\b(Qed|Defined|Admitted)\.", L[k]): k += 1
    if k >= len(L) or j >= len(L) or line - 1 > k or (line - 1 < j): return None
    if "Admitted." in L[k]: return None
    pre = L[j][: L[j].index("Proof")]
    # keep the number of lines
    L[j:k + 1] = [pre + "Proof. Admitted."] + [""] * (k - j)
    open(path, "w").write("\n".join(L))
    return name

def one(spec):
    os.makedirs(D, exist_ok=True)
    subprocess.run(f"rsync -a --delete {SRC}/ {DST}/ 2>/dev/null || (rm -rf {DST}; cp -a {SRC} {DST})", shell=True)
    p = os.path.join(DST, "theories", spec["file"])
    s = open(p).read()
    if s.count(spec["old"]) < 1:
        return {"error": "old text not found in " + spec["file"]}
    s = s.replace(spec["old"], spec["new"], 1)
    open(p, "w").write(s)
    failed, examples, other = [], [], []
    run("coq_makefile -f _CoqProject -o Makefile")
    for _ in range(200):
        rc, out = run("make -k -j4")
        if rc == 0: break
        errs = re.findall(r'File "\./(theories/\w+\.v)", line (\d+), characters [^\n]*\n(?:Error|\s*Error)', out)
        if not errs:
            other.append(out[-600:]); break
        stuck = True
        for f, l in dict(errs).items():
            n = cut(os.path.join(DST, f), int(l))
            if n:
                stuck = False; failed.append(n)
        if stuck:
            other.append(str(errs) + out[-600:]); break
    hit = []
    if not other:
        for f in sorted(os.listdir(os.path.join(DST, "theories"))):
            if not f.endswith("_props.v"): continue
            src = open(os.path.join(DST, "theories", f)).read()
            if os.path.getmtime(os.path.join(DST, "theories", f + "o")) <= os.path.getmtime(os.path.join(SRC, "theories", f + "o")):
                continue
            names = re.findall(r"^Print Assumptions (\w+)", src, re.M)
            rc, out = run(f"coqc -Q theories Verif theories/{f}")
            parts = re.split(r"^(Closed under the global context|Axioms:)", out, flags=re.M)
            flags = [x for x in parts if x in ("Closed under the global context", "Axioms:")]
            for n, fl in zip(names, flags):
                if fl == "Axioms:": hit.append(n)
    res = {"definition": spec["definition"], "edit": spec.get("edit", spec["old"] + " => " + spec["new"]), "claim": spec["claim"],
           "theorems_failed": sorted(set(hit)), "lemmas_failed": sorted(set(failed)), "tightened": spec.get("tightened", [])}
    if other: res["note"] = "build stopped: " + other[0][-700:]
    if spec.get("note"): res["note"] = spec["note"]
    return res

if __name__ == "__main__":
    specs = json.load(open(sys.argv[1]))
    base()
    if isinstance(specs, dict): specs = [specs]
    only = [a for a in sys.argv[2:] if a.isdigit()]
    for k, sp in enumerate(specs):
        if only and str(k) not in only: continue
        r = one(sp)
        print(k, json.dumps(r, indent=1)[:2500], flush=True)
        if "--log" in sys.argv and "error" not in r and not r.get("note", "").startswith("build stopped"):
            with open(os.path.join(ROOT, "seeded/LOG.jsonl"), "a") as f: f.write(json.dumps(r) + "\n")
