#!/usr/bin/env python3
"""Run Print Assumptions on every theorem in MANIFEST.json (needs a finished build in /verif/rocq); writes /verif/ASSUMPTIONS.txt."""
import json, re, glob, os, subprocess, tempfile
root = os.path.dirname(os.path.dirname(os.path.abspath(__file__)))
claims = json.load(open(root + "/MANIFEST.json"))["claims"]
where = {}
for f in sorted(glob.glob(root + "/rocq/theories/*.v")):
    for m in re.finditer(r"^\s*(?:Theorem|Lemma|Corollary|Example)\s+([A-Za-z0-9_']+)", open(f).read(), re.M):
        where.setdefault(m.group(1), os.path.basename(f)[:-2])
ts = sorted({t for c in claims for t in c["theorems"]})
with tempfile.TemporaryDirectory() as d:
    with open(d + "/A.v", "w") as f:
        f.write("From Verif Require %s.\n" % " ".join(sorted({where[t] for t in ts})))
        for t in ts: f.write("Print Assumptions %s.%s.\n" % (where[t], t))
    out = subprocess.run(["coqc", "-Q", root + "/rocq/theories", "Verif", d + "/A.v"], capture_output=True, text=True, check=True).stdout
lines = out.strip().split("\n")
assert len(lines) == len(ts), "some theorem has assumptions:\n" + out
with open(root + "/ASSUMPTIONS.txt", "w") as f:
    for t, l in zip(ts, lines): f.write("%-55s %s\n" % (where[t] + "." + t, l))
print(len(ts), set(lines))
