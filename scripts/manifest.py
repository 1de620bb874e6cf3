#!/usr/bin/env python3
"""Rebuild MANIFEST.json from the theorem names in rocq/theories/P_*.v and notes.json."""
import json, re, glob, os
root = os.path.dirname(os.path.dirname(os.path.abspath(__file__)))
notes = json.load(open(os.path.join(root, 'scripts', 'notes.json')))
thms = {}
for f in sorted(glob.glob(os.path.join(root, 'rocq/theories/P_*.v'))):
    for m in re.finditer(r'^Theorem (C\d\d\w*)', open(f).read(), re.M):
        thms.setdefault(m.group(1).split('_')[0], []).append(m.group(1))
claims = []
for line in open(os.path.join(root, 'properties.jsonl')):
    pid = json.loads(line)['id']
    n = notes.get(pid, {})
    t = thms.get(pid, [])
    if not t:
        if 'status' in n:
            claims.append(dict(property=pid, status=n['status'], theorems=[], note=n.get('note', '')))
        continue
    status = n.get('status') or ('partial' if any(x.endswith(('_partial', '_refuted')) for x in t) else 'proved')
    claims.append(dict(property=pid, status=status, theorems=t, note=n.get('note', '')))
json.dump({'claims': claims}, open(os.path.join(root, 'MANIFEST.json'), 'w'), indent=1)
print(len(claims), 'claims', sum(c['status'] == 'proved' for c in claims), 'proved')
