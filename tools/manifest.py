#!/usr/bin/env python3
"""Rebuild MANIFEST.json from the theorem names of Props_*.v and tools/notes.json."""
import json, re, glob, os
root = os.path.dirname(os.path.dirname(os.path.abspath(__file__)))
notes = json.load(open(os.path.join(root, "tools/notes.json")))
props = [json.loads(l) for l in open(os.path.join(root, "properties.jsonl")) if l.strip()]
thms = {}
for f in sorted(glob.glob(os.path.join(root, "rocq/theories/Props_*.v"))):
    for m in re.finditer(r"^Theorem ((C\d+)_\w+)", open(f).read(), re.M):
        thms.setdefault(m.group(2), []).append(m.group(1))
claims = []
for p in props:
    t = thms.get(p["id"])
    if not t:
        continue
    n = notes.get(p["id"], {})
    st = n.get("status") or ("partial" if any(x.endswith(("_partial", "_refuted")) for x in t) else "proved")
    claims.append({"property": p["id"], "status": st, "theorems": t, "note": n.get("note", "")})
json.dump({"claims": claims}, open(os.path.join(root, "MANIFEST.json"), "w"), indent=1)
print(len(claims), "claims;", "without theorem:", [p["id"] for p in props if p["id"] not in thms])
print({s: sum(c["status"] == s for c in claims) for s in ("proved", "partial")})
