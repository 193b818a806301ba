#!/usr/bin/env python3
"""Mutation testing of the theorems.

usage: seed.py <mutations.json> [name-filter]

Each mutation is an edit of one model definition. The edit is applied in a scratch copy; the dependent Props file
is rebuilt; every lemma whose proof breaks is replaced by Admitted (in the scratch copy only) and the build goes on,
so that Print Assumptions finally tells which property theorems depended on a broken lemma.
Results are printed, and appended to seeded/LOG.jsonl when --log is given.
"""
import json, os, re, shutil, subprocess, sys

HERE = os.path.dirname(os.path.abspath(__file__))
ROOT = os.path.join(HERE, "..", "rocq")
def fresh(SCRATCH):
    if os.path.exists(SCRATCH):
        shutil.rmtree(SCRATCH)
    shutil.copytree(ROOT, SCRATCH)

def build(SCRATCH, target):
    r = subprocess.run(["timeout", "900", "make", "-j1"] + target, cwd=SCRATCH, capture_output=True, text=True)
    return r.returncode, r.stdout + r.stderr

def admit_at(path, line):
    src = open(path).read()
    lines = src.split("\n")
    i = line - 1
    while i >= 0 and not re.match(r"\s*(Lemma|Theorem|Example|Corollary|Fact|Remark|Fixpoint(?!.*:=))\b", lines[i]):
        i -= 1
    if i < 0:
        return None
    # make sure it encloses the error: find the first Qed/Defined after i
    j = i
    while j < len(lines) and not re.search(r"\b(Qed|Defined)\.", lines[j]):
        j += 1
    if j >= len(lines) or j < line - 1:
        return None
    name = re.match(r"\s*(?:Lemma|Theorem|Example|Corollary|Fact|Remark|Fixpoint)\s+([\w']+)", lines[i]).group(1)
    block = "\n".join(lines[i:j + 1])
    pf = re.search(r"Proof( using [^.]*)?\.", block)
    if not pf:
        return None
    k = pf.start()
    stmt = block[:k]
    new = stmt + (pf.group(0) + " " if pf.group(1) else "") + "Admitted." + "\n" * block[k:].count("\n")
    lines[i:j + 1] = new.split("\n")
    open(path, "w").write("\n".join(lines))
    return name

def run(m):
    SCRATCH = "/tmp/seed_scratch_%d_%s" % (os.getpid(), m["name"])
    fresh(SCRATCH)
    try:
        return run_in(SCRATCH, m)
    finally:
        shutil.rmtree(SCRATCH, ignore_errors=True)

def run_in(SCRATCH, m):
    path = os.path.join(SCRATCH, "theories", m["file"])
    s = open(path).read()
    if s.count(m["old"]) < 1:
        return dict(error="pattern not found")
    if s.count(m["old"]) > 1 and not m.get("multi"):
        return dict(error="pattern not unique")
    open(path, "w").write(s.replace(m["old"], m["new"]))
    # the same edit in a lemma that only restates the definition
    for a in m.get("also", []):
        q = os.path.join(SCRATCH, "theories", a["file"])
        t = open(q).read()
        if t.count(a["old"]) != 1:
            return dict(error="also: pattern not found once")
        open(q, "w").write(t.replace(a["old"], a["new"]))
    broken = []
    targets = m["target"].split(",")
    target = ["theories/%s.vo" % t for t in targets]
    for _ in range(60):
        code, out = build(SCRATCH, target)
        if code == 0:
            break
        e = re.search(r'File "\./(theories/[\w/]+\.v)", line (\d+), characters [\d-]+:\s*\n\s*Error', out)
        if not e:
            return dict(error="no location", out=out[-800:])
        name = admit_at(os.path.join(SCRATCH, e.group(1)), int(e.group(2)))
        if name is None:
            return dict(error="not in a proof: " + e.group(0), out=out[-800:], broken=broken)
        broken.append(name)
    else:
        return dict(error="too many", broken=broken)
    # which theorems are tainted: rebuild the props file and read Print Assumptions
    failed = []
    for t in targets:
        props = os.path.join(SCRATCH, "theories", t + ".v")
        r = subprocess.run(["coqc", "-Q", "theories", "Verif", props], cwd=SCRATCH, capture_output=True, text=True)
        names = re.findall(r"^Print Assumptions ([\w']+)\.", open(props).read(), re.M)
        chunks = re.split(r"(?=^Closed under the global context|^Axioms:)", r.stdout, flags=re.M)
        chunks = [c for c in chunks if c.strip()]
        for n, c in zip(names, chunks):
            if c.startswith("Axioms:") and any(re.search(r"^(?:[\w.]+\.)?%s\b" % re.escape(b), c, re.M) for b in broken) or n in broken:
                failed.append(n)
        if len(names) != len(chunks):
            return dict(error="assumption parse", broken=broken)
    return dict(failed=failed, broken=broken)

def main():
    args = [a for a in sys.argv[1:] if not a.startswith("--")]
    ms = json.load(open(args[0]))
    if len(args) > 1:
        ms = [m for m in ms if args[1] in m["name"]]
    log = "--log" in sys.argv
    from concurrent.futures import ThreadPoolExecutor
    jobs = int(os.environ.get("JOBS", "3"))
    for m, r in zip(ms, ThreadPoolExecutor(jobs).map(run, ms)):
        print(m["name"], json.dumps(r), flush=True)
        if log and "error" not in r:
            entry = dict(definition=m["definition"], edit=m["edit"], claim=m["claim"],
                         theorems_failed=r["failed"], lemmas_broken=r["broken"],
                         theorems_tightened=m.get("tightened", []))
            with open(os.path.join(HERE, "..", "seeded", "LOG.jsonl"), "a") as f:
                f.write(json.dumps(entry) + "\n")
main()
