#!/usr/bin/env python3
"""Regenerates MANIFEST.json from the theorem names in rocq/theories/Prop_*.v."""
import json, re, glob, os
root = os.path.dirname(os.path.dirname(os.path.abspath(__file__)))
notes, status = {}, {}
np = os.path.join(root, 'tools', 'notes.json')
if os.path.exists(np):
    d = json.load(open(np)); notes = d.get('notes', {}); status = d.get('status', {})
ths = {}
for f in sorted(glob.glob(os.path.join(root, 'rocq/theories/Prop_*.v'))):
    for m in re.finditer(r'^(?:Theorem|Lemma|Corollary)\s+((C\d\d\d?)_\w+)', open(f).read(), re.M):
        ths.setdefault(m.group(2), []).append(m.group(1))
ids = [json.loads(l)['id'] for l in open(os.path.join(root, 'properties.jsonl'))]
claims = []
for i in ids:
    t = ths.get(i, [])
    if not t: continue
    st = status.get(i) or ('partial' if any(x.endswith('_partial') for x in t) else 'proved')
    claims.append({"property": i, "status": st, "theorems": t, "note": notes.get(i, "")})
json.dump({"claims": claims}, open(os.path.join(root, 'MANIFEST.json'), 'w'), indent=1)
print(len(claims), 'claims; missing:', [i for i in ids if i not in ths])
