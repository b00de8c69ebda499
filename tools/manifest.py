#!/usr/bin/env python3
"""Regenerate MANIFEST.json: theorems named Cnn_* in Props*.v belong to property Cnn."""
import re, glob, json, os
here = os.path.dirname(os.path.abspath(__file__))
root = os.path.dirname(here)
notes = json.load(open(os.path.join(here, 'notes.json')))
props = [json.loads(l)['id'] for l in open(os.path.join(root, 'properties.jsonl')) if l.strip()]
thms = {}
for f in sorted(glob.glob(os.path.join(root, 'rocq/theories/Props*.v'))):
    for m in re.finditer(r'^(?:Theorem|Corollary)\s+(C\d\d)(_\w+)', open(f).read(), re.M):
        thms.setdefault(m.group(1), []).append(m.group(1) + m.group(2))
claims = []
for p in props:
    t = thms.get(p, [])
    n = notes.get(p, {})
    if not t: 
        continue
    claims.append({"property": p, "status": n.get("status", "proved"), "theorems": t, "note": n.get("note", "")})
json.dump({"claims": claims}, open(os.path.join(root, 'MANIFEST.json'), 'w'), indent=1)
print(len(claims), "claims; missing:", [p for p in props if p not in thms])
