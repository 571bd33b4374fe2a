#!/usr/bin/env python3
"""Regenerate MANIFEST.json from the theorem names in rocq/theories/*_Props.v.

A theorem called Cxx_name belongs to property Cxx.  Status and notes for
properties that are not simply "proved" are read from tools/notes.json.
"""
import glob, json, os, re
root = os.path.dirname(os.path.dirname(os.path.abspath(__file__)))
props = [json.loads(l) for l in open(os.path.join(root, "properties.jsonl")) if l.strip()]
notes = json.load(open(os.path.join(root, "tools", "notes.json")))
thms = {}
for f in sorted(glob.glob(os.path.join(root, "rocq/theories/*_Props.v"))):
    for m in re.finditer(r"^Theorem (C\d+)_(\w+)", open(f).read(), re.M):
        thms.setdefault(m.group(1), []).append((os.path.basename(f)[:-2], m.group(1) + "_" + m.group(2)))
claims = []
for p in props:
    t = thms.get(p["id"], [])
    n = notes.get(p["id"], {})
    default = "proved" if t else "partial"
    if any(x[1].endswith("_partial") for x in t): default = "partial"
    note = n.get("note", "")
    if not t and not note: note = "not proved yet"
    if t: note = ("in " + ", ".join(sorted({x[0] + ".v" for x in t})) + ". " + note).strip()
    claims.append({"property": p["id"], "status": n.get("status", default), "theorems": [x[1] for x in t], "note": note})
unknown = set(thms) - {p["id"] for p in props}
if unknown: print("theorems without property:", unknown)
json.dump({"claims": claims}, open(os.path.join(root, "MANIFEST.json"), "w"), indent=1)
print(len(claims), "claims,", sum(1 for c in claims if c["theorems"]), "with theorems,", sum(len(c["theorems"]) for c in claims), "theorems")
