#!/usr/bin/env python3
"""Writes MANIFEST.json.  One entry per property: status, theorem names, note."""
import json, os, re, sys
ROOT = os.path.dirname(os.path.dirname(os.path.abspath(__file__)))
CLAIMS = []
def c(pid, status, theorems, note):
    CLAIMS.append({"property": pid, "status": status, "theorems": theorems.split(), "note": note})

exec(open(os.path.join(ROOT, "tools", "claims.py")).read())

names = set()
tdir = os.path.join(ROOT, "rocq", "theories")
for f in os.listdir(tdir):
    if f.endswith(".v"):
        names |= set(re.findall(r"^(?:Theorem|Lemma|Corollary) (\w+)", open(os.path.join(tdir, f)).read(), re.M))
props = [json.loads(l)["id"] for l in open(os.path.join(ROOT, "properties.jsonl"))]
bad = [(x["property"], t) for x in CLAIMS for t in x["theorems"] if t not in names]
missing = [p for p in props if p not in {x["property"] for x in CLAIMS}]
if bad: print("unknown theorems:", bad)
if missing: print("properties without claim:", missing)
json.dump({"claims": CLAIMS}, open(os.path.join(ROOT, "MANIFEST.json"), "w"), indent=1)
