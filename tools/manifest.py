#!/usr/bin/env python3
"""Regenerate MANIFEST.json from the theorem names in rocq/theories/Prop*.v and tools/notes.json."""
import json, re, glob, os, collections
root = os.path.dirname(os.path.dirname(os.path.abspath(__file__)))
props = [json.loads(l) for l in open(f"{root}/properties.jsonl") if l.strip()]
notes = json.load(open(f"{root}/tools/notes.json"))
th = collections.defaultdict(list)
for f in sorted(glob.glob(f"{root}/rocq/theories/Prop*.v")):
    for m in re.finditer(r"^(?:Theorem|Corollary)\s+(C\d+)(_\w+)", open(f).read(), re.M):
        th[m.group(1)].append(m.group(1) + m.group(2))
claims = []
for p in props:
    i = p["id"]
    if not th[i]:
        continue
    n = notes.get(i, {})
    status = n.get("status") or ("partial" if any(t.endswith("_partial") for t in th[i]) else "proved")
    claims.append({"property": i, "status": status, "theorems": th[i], "note": n.get("note", "")})
json.dump({"claims": claims}, open(f"{root}/MANIFEST.json", "w"), indent=1)
print(len(claims), "claims,", sum(len(c["theorems"]) for c in claims), "theorems; missing:",
      [p["id"] for p in props if not th[p["id"]]])
