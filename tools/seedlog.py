#!/usr/bin/env python3
"""seedlog.py OUT.jsonl [id=theorem,theorem ...]: append results of seed.py to seeded/LOG.jsonl (id=...: theorems tightened after it)."""
import sys, json, os
root = os.path.dirname(os.path.dirname(os.path.abspath(__file__)))
t = dict(a.split('=', 1) for a in sys.argv[2:])
with open(os.path.join(root, 'seeded/LOG.jsonl'), 'a') as f:
    for l in open(sys.argv[1]):
        d = json.loads(l)
        if 'error' in d: continue
        d.pop('seconds', None)
        if d['id'] in t: d['theorems_tightened'] = t[d['id']].split(',')
        f.write(json.dumps(d) + '\n')
