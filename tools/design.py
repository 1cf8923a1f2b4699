#!/usr/bin/env python3
"""Write DESIGN.md: design_head.md, the table of properties from claims.py/props.py, design_areas.md."""
import json, os
here = os.path.dirname(os.path.abspath(__file__)); root = os.path.dirname(here)
claims = {c["property"]: c for c in json.load(open(root + "/MANIFEST.json"))["claims"]}
props = [json.loads(l) for l in open(root + "/properties.jsonl")]
how = {}
for l in open(here + "/design_how.txt"):
    l = l.strip()
    if l and not l.startswith("#"):
        i, t = l.split("|", 1)
        for x in i.split(): how[x] = t.strip()
out = [open(here + "/design_head.md").read().rstrip(), "", "## Properties", ""]
for p in props:
    c = claims[p["id"]]
    out.append("**%s — %s** (%s). %s" % (p["id"], p["title"], c["status"], how.get(p["id"], "")))
    out.append("Theorems: " + ", ".join("`%s`" % t for t in c["theorems"]) + "." + ((" " + c["note"][0].upper() + c["note"][1:] + ".") if c["note"] else ""))
    out.append("")
missing = [p["id"] for p in props if p["id"] not in how]
out += [open(here + "/design_areas.md").read().rstrip(), ""]
open(root + "/DESIGN.md", "w").write("\n".join(out))
print("design: no method given for", missing)
