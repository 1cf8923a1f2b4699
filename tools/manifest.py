#!/usr/bin/env python3
"""Write MANIFEST.json from the table below; checks that every theorem named exists."""
import json, os, re, glob
here = os.path.dirname(os.path.abspath(__file__)); root = os.path.dirname(here)
C = []
def c(prop, status, theorems, note=""):
    C.append({"property": prop, "status": status, "theorems": theorems.split(), "note": note})
exec(open(os.path.join(here, "claims.py")).read())
names = set()
for f in glob.glob(os.path.join(root, "rocq/theories/*.v")):
    names |= set(re.findall(r"^\s*(?:Theorem|Lemma|Corollary|Example)\s+([\w']+)", open(f).read(), re.M))
for x in C:
    for t in x["theorems"]:
        assert t in names, (x["property"], t)
props = [json.loads(l)["id"] for l in open(os.path.join(root, "properties.jsonl"))]
missing = [p for p in props if p not in {x["property"] for x in C}]
extra = [x["property"] for x in C if x["property"] not in props]
print("claims", len(C), "missing", missing, "extra", extra)
C.sort(key=lambda x: x["property"])
json.dump({"claims": C}, open(os.path.join(root, "MANIFEST.json"), "w"), indent=1)
