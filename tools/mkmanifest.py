#!/usr/bin/env python3
"""Regenerates /verif/MANIFEST.json from the theorems named Cnn_* in rocq/theories/Properties."""
import json, re, glob, os
here = os.path.dirname(os.path.abspath(__file__)) + "/.."
props = [json.loads(l) for l in open(here + "/properties.jsonl") if l.strip()]
notes = json.load(open(here + "/tools/notes.json"))
thms = {}
for f in sorted(glob.glob(here + "/rocq/theories/Properties/*.v")):
    for m in re.finditer(r"^Theorem\s+((C\d+)_\w+)", open(f).read(), re.M):
        thms.setdefault(m.group(2), []).append(m.group(1))
claims = []
for p in props:
    t = thms.pop(p["id"], [])
    n = notes.get(p["id"], {})
    if not t and "status" not in n:
        continue
    st = n.get("status") or ("partial" if any(x.endswith("_partial") for x in t) else "proved")
    claims.append({"property": p["id"], "status": st, "theorems": t, "note": n.get("note", p["title"])})
assert not thms, "theorems for unknown properties: %s" % thms
json.dump({"claims": claims}, open(here + "/MANIFEST.json", "w"), indent=1)
print(len(claims), "claims;", sum(len(c["theorems"]) for c in claims), "theorems; missing:",
      [p["id"] for p in props if p["id"] not in {c["property"] for c in claims}])
