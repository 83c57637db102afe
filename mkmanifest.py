#!/usr/bin/env python3
"""Regenerate MANIFEST.json from the theorem names in rocq/theories/Prop_*.v and status.json."""
import json, re, glob, os
root = os.path.dirname(os.path.abspath(__file__))
status = json.load(open(os.path.join(root, 'status.json')))
thms = {}
for f in sorted(glob.glob(os.path.join(root, 'rocq/theories/Prop_*.v'))):
    for m in re.finditer(r'^Theorem\s+(C\d\d)(\w*)', open(f).read(), re.M):
        thms.setdefault(m.group(1), []).append(m.group(1) + m.group(2))
claims = []
for line in open(os.path.join(root, 'properties.jsonl')):
    pid = json.loads(line)['id']
    s = status.get(pid, {})
    names = thms.get(pid, [])
    st = s.get('status', 'proved' if names else 'partial')
    claims.append({'property': pid, 'status': st, 'theorems': names, 'note': s.get('note', '' if names else 'not yet proved')})
json.dump({'claims': claims}, open(os.path.join(root, 'MANIFEST.json'), 'w'), indent=1)
print({c['property']: (c['status'], len(c['theorems'])) for c in claims})
