#!/usr/bin/env python3
"""Writes MANIFEST.json from the theorem names in rocq/theories/Prop_*.v and the notes in tools/notes.json."""
import glob, json, os, re
root = os.path.dirname(os.path.dirname(os.path.abspath(__file__)))
names = {}
for f in sorted(glob.glob(root + '/rocq/theories/Prop_*.v')):
    for m in re.finditer(r'^Theorem (C\d\d)_(\w+)', open(f).read(), re.M):
        names.setdefault(m.group(1), []).append(m.group(1) + '_' + m.group(2))
notes = json.load(open(root + '/tools/notes.json'))
claims = []
for line in open(root + '/properties.jsonl'):
    p = json.loads(line)['id']
    if p not in names:
        continue
    ths = names[p]
    part = any(t.endswith('_partial') or t.endswith('_refuted') for t in ths)
    note = notes.get(p, '')
    claims.append({'property': p, 'status': 'partial' if part else 'proved', 'theorems': ths, 'note': note})
json.dump({'claims': claims}, open(root + '/MANIFEST.json', 'w'), indent=1)
print(len(claims), 'claims;', [c['property'] for c in claims if c['status'] == 'partial'], 'partial')
