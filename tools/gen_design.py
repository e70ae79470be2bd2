#!/usr/bin/env python3
"""Writes DESIGN.md: tools/design_head.md followed by one entry per property,
from properties.jsonl and MANIFEST.json."""
import json, os, re

ROOT = os.path.dirname(os.path.dirname(os.path.abspath(__file__)))
tdir = os.path.join(ROOT, "rocq", "theories")
where = {}
for f in sorted(os.listdir(tdir)):
    if f.startswith("Props_") and f.endswith(".v"):
        for m in re.finditer(r"^\s*Theorem\s+(\w+)", open(os.path.join(tdir, f)).read(), re.M):
            where.setdefault(m.group(1), f)
claims = {c["property"]: c for c in json.load(open(os.path.join(ROOT, "MANIFEST.json")))["claims"]}
out = [open(os.path.join(ROOT, "tools", "design_head.md")).read().rstrip(), "", "## Properties", "",
       "Every theorem below is closed under the global context.", ""]
plan = {}
exec(open(os.path.join(ROOT, "tools", "plan.py")).read())
for l in open(os.path.join(ROOT, "properties.jsonl")):
    p = json.loads(l)
    c = claims.get(p["id"])
    out.append(f"### {p['id']} {p['title']} ({c['status'] if c else 'open'})")
    out.append("")
    out.append(f"{p['statement']} For {p['quantifier']}. Code: {', '.join(p['anchors'])}.")
    out.append("")
    if p["id"] in plan:
        out.append("Proof: " + plan[p["id"]])
        out.append("")
    if c:
        files = {}
        for t in c["theorems"]:
            files.setdefault(where[t], []).append(t)
        for f, ts in files.items():
            out.append(f"* {f}: " + ", ".join(f"`{t}`" for t in ts))
        if c["note"]:
            out.append("")
            out.append(c["note"])
        out.append("")
open(os.path.join(ROOT, "DESIGN.md"), "w").write("\n".join(out))
