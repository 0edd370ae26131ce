#!/usr/bin/env python3
"""Writes MANIFEST.json from the Cnn_ theorem names in rocq/theories/P_*.v and the notes below."""
import json, re, glob, os
root = os.path.dirname(os.path.dirname(os.path.abspath(__file__)))
exec(open(os.path.join(root, 'tools', 'notes.py')).read())   # defines NOTES: id -> (status, note)
thms = {}
for f in sorted(glob.glob(os.path.join(root, 'rocq/theories/P_*.v'))):
    for m in re.finditer(r'^ *Theorem (C\d\d\w*)', open(f).read(), re.M):
        thms.setdefault(m.group(1)[:3], []).append(m.group(1))
claims = []
for l in open(os.path.join(root, 'properties.jsonl')):
    i = json.loads(l)['id']
    if i in thms:
        st, note = NOTES.get(i, ('proved', ''))
        claims.append({'property': i, 'status': st, 'theorems': thms[i], 'note': note})
    else:
        print('no theorem for', i)
json.dump({'claims': claims}, open(os.path.join(root, 'MANIFEST.json'), 'w'), indent=1)
