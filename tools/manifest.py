#!/usr/bin/env python3
"""Regenerate MANIFEST.json from the theorems named Cnn_* in rocq/theories/T_*.v and the
notes below.  status is partial when a *_partial or *_refuted theorem exists or STATUS says so."""
import re, json, glob, os
root = os.path.dirname(os.path.dirname(os.path.abspath(__file__)))
props = [json.loads(l)["id"] for l in open(root + "/properties.jsonl")]
notes = json.load(open(root + "/tools/notes.json"))
th = {p: [] for p in props}
for f in sorted(glob.glob(root + "/rocq/theories/T_*.v")):
    for m in re.finditer(r"^Theorem\s+(C\d\d)(_\w+)", open(f).read(), re.M):
        th[m.group(1)].append(m.group(1) + m.group(2))
claims = []
for p in props:
    n = notes.get(p, {})
    if not th[p]:
        claims.append({"property": p, "status": n.get("status", "partial"), "theorems": [],
                       "note": n.get("note", "not yet proved")})
        continue
    st = n.get("status") or ("partial" if any(x.endswith(("_partial", "_refuted")) for x in th[p]) else "proved")
    claims.append({"property": p, "status": st, "theorems": th[p], "note": n.get("note", "")})
json.dump({"claims": claims}, open(root + "/MANIFEST.json", "w"), indent=1)
for c in claims: print(c["property"], c["status"], len(c["theorems"]))
