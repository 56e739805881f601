#!/usr/bin/env python3
"""Regenerate MANIFEST.json from the theorem names in rocq/theories/Props.

A property is "partial" when one of its theorems ends in _partial or _refuted,
"proved" otherwise; notes come from tools/notes.json."""
import json, os, re
root = os.path.dirname(os.path.dirname(os.path.abspath(__file__)))
props = [json.loads(l)["id"] for l in open(root + "/properties.jsonl") if l.strip()]
notes = json.load(open(root + "/tools/notes.json"))
thms = {}
for d, _, fs in sorted(os.walk(root + "/rocq/theories/Props")):
    for f in sorted(fs):
        if f.endswith(".v"):
            for m in re.finditer(r"^Theorem (C\d+)_(\w+)", open(d + "/" + f).read(), re.M):
                thms.setdefault(m.group(1), []).append(m.group(1) + "_" + m.group(2))
claims = []
for p in props:
    t = thms.pop(p, [])
    if not t:
        continue
    part = any(x.endswith("_partial") or x.endswith("_refuted") for x in t)
    claims.append({"property": p, "status": "partial" if part else "proved",
                   "theorems": t, "note": notes.get(p, "")})
json.dump({"claims": claims}, open(root + "/MANIFEST.json", "w"), indent=1, ensure_ascii=False)
missing = [p for p in props if p not in {c["property"] for c in claims}]
print(len(claims), "claims; without theorem:", missing, "; unknown ids:", sorted(thms),
      "; without note:", [c["property"] for c in claims if not c["note"]])
