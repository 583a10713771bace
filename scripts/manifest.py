#!/usr/bin/env python3
"""Regenerate MANIFEST.json from the theorem names in rocq/theories/*_Props.v.

A property is "proved" when none of its theorems is named *_partial or
*_refuted, "partial" otherwise.  Notes come from scripts/notes.json."""
import glob, json, os, re
root = os.path.dirname(os.path.dirname(os.path.abspath(__file__)))
listed = set(re.findall(r'theories/(\S+\.v)', open(root + '/rocq/_CoqProject').read()))
thms = {}
for f in sorted(glob.glob(root + '/rocq/theories/*_Props.v')):
    if os.path.basename(f) not in listed:
        continue
    for m in re.finditer(r'^Theorem\s+((C\d+)_\w+)', open(f).read(), re.M):
        thms.setdefault(m.group(2), []).append(m.group(1))
notes = json.load(open(root + '/scripts/notes.json'))
claims = []
for line in open(root + '/properties.jsonl'):
    p = json.loads(line)['id']
    ts = thms.pop(p, [])
    if not ts:
        claims.append({"property": p, "status": "partial", "theorems": [], "note": notes.get(p, "not modelled yet")})
        continue
    part = any(t.endswith('_partial') or t.endswith('_refuted') for t in ts)
    claims.append({"property": p, "status": "partial" if part else "proved", "theorems": ts, "note": notes.get(p, "")})
assert not thms, thms
json.dump({"claims": claims}, open(root + '/MANIFEST.json', 'w'), indent=1)
print(sum(c["status"] == "proved" for c in claims), "proved,", sum(bool(c["theorems"]) and c["status"] != "proved" for c in claims), "partial,", sum(not c["theorems"] for c in claims), "open")
