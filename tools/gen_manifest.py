#!/usr/bin/env python3
"""Writes MANIFEST.json. Each claim: property, status, theorems, note."""
import json, os, re, sys

ROOT = os.path.dirname(os.path.dirname(os.path.abspath(__file__)))
CLAIMS = []

def claim(prop, status, theorems, note=""):
    CLAIMS.append({"property": prop, "status": status, "theorems": theorems.split(), "note": note})

exec(open(os.path.join(ROOT, "tools", "claims.py")).read())

names = {}
tdir = os.path.join(ROOT, "rocq", "theories")
for f in sorted(os.listdir(tdir)):
    if f.startswith("Props_") and f.endswith(".v"):
        for m in re.finditer(r"^\s*Theorem\s+(\w+)", open(os.path.join(tdir, f)).read(), re.M):
            names.setdefault(m.group(1), f)
used = set()
for c in CLAIMS:
    for t in c["theorems"]:
        used.add(t)
        if t not in names:
            sys.exit(f"{c['property']}: unknown theorem {t}")
for n in names:
    if n not in used:
        print("unclaimed theorem", n, file=sys.stderr)
props = [json.loads(l)["id"] for l in open(os.path.join(ROOT, "properties.jsonl"))]
for p in props:
    if not any(c["property"] == p for c in CLAIMS):
        print("no claim for", p, file=sys.stderr)
with open(os.path.join(ROOT, "MANIFEST.json"), "w") as f:
    json.dump({"claims": CLAIMS}, f, indent=1, ensure_ascii=False)
    f.write("\n")
