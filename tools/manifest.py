#!/usr/bin/env python3
"""Rebuild MANIFEST.json: theorem names are read from the *Props*.v files, the
status and note of each property from tools/status.json."""
import json, re, glob, os
root = os.path.dirname(os.path.dirname(os.path.abspath(__file__)))
props = [json.loads(l) for l in open(f"{root}/properties.jsonl")]
status = json.load(open(f"{root}/tools/status.json"))
names = {}
for f in sorted(glob.glob(f"{root}/rocq/theories/*Props*.v")):
    for m in re.finditer(r"^\s*Theorem\s+(C\d\d\d?)(_\w+)", open(f).read(), re.M):
        names.setdefault(m.group(1), []).append(m.group(1) + m.group(2))
claims = []
for p in props:
    i = p["id"]
    if i not in names and i not in status:
        continue
    st = status.get(i, {})
    default = "partial" if any(n.endswith(("_refuted", "_partial")) for n in names.get(i, [])) else "proved"
    claims.append({"property": i, "status": st.get("status", default),
                   "theorems": names.get(i, []), "note": st.get("note", "")})
json.dump({"claims": claims}, open(f"{root}/MANIFEST.json", "w"), indent=1)
print(len(claims), "claims;", "missing:", [p["id"] for p in props if p["id"] not in names and p["id"] not in status])
