#!/usr/bin/env python3
"""Write assumptions.txt: what Print Assumptions says for every theorem of MANIFEST.json.

usage: gen_assumptions.py   (after make in rocq)
"""
import json, os, re, subprocess
here = os.path.dirname(os.path.abspath(__file__))
rocq = os.path.join(here, "..", "rocq")
claims = json.load(open(os.path.join(here, "..", "MANIFEST.json")))["claims"]
where = {}
for f in sorted(os.listdir(os.path.join(rocq, "theories"))):
    if f.endswith(".v"):
        for m in re.finditer(r"^\s*(?:Theorem|Corollary)\s+([\w']+)", open(os.path.join(rocq, "theories", f)).read(), re.M):
            where.setdefault(m.group(1), []).append(f[:-2])
out = []
for c in claims:
    for t in c["theorems"]:
        for f in where.get(t, []):
            src = "Require Verif.%s.\nPrint Assumptions Verif.%s.%s.\n" % (f, f, t)
            p = "/tmp/assumption_query.v"
            open(p, "w").write(src)
            r = subprocess.run(["coqc", "-Q", "theories", "Verif", "-o", "/tmp/assumption_query.vo", p], cwd=rocq, capture_output=True, text=True)
            out.append("%s %s.%s: %s" % (c["property"], f, t, " ".join((r.stdout + r.stderr).split())))
        if t not in where:
            out.append("%s %s: NOT FOUND" % (c["property"], t))
open(os.path.join(here, "..", "assumptions.txt"), "w").write("\n".join(out) + "\n")
print(len(out), "theorems;", sum("Closed under the global context" in x for x in out), "closed")
