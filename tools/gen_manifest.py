#!/usr/bin/env python3
"""Writes MANIFEST.json from the table below; checks that every theorem named exists."""
import json, re, glob, os
here = os.path.dirname(os.path.abspath(__file__))
root = os.path.dirname(here)
src = "".join(open(f).read() for f in glob.glob(root + "/rocq/theories/*.v"))
names = set(re.findall(r"^\s*(?:Theorem|Lemma|Corollary)\s+(\w+)", src, re.M))
claims = json.load(open(here + "/claims.json"))
out = []
for p in [json.loads(l) for l in open(root + "/properties.jsonl")]:
    c = claims.get(p["id"])
    if c is None:
        c = ["partial", [], "Not proved yet."]
    for t in c[1]:
        assert t in names, t
    out.append({"property": p["id"], "status": c[0], "theorems": c[1], "note": c[2]})
used = {t for c in out for t in c["theorems"]}
missing = sorted(n for n in names if re.match(r"C\d\d_", n) and n not in used)
if missing:
    print("theorems in no claim:", missing)
json.dump({"claims": out}, open(root + "/MANIFEST.json", "w"), indent=1)
print(len(out), "claims", sum(c["status"] == "proved" for c in out), "proved")
