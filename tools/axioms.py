#!/usr/bin/env python3
"""Runs Print Assumptions on every theorem of the P_ files (after a build) and writes section 5 of DESIGN.md."""
import re, glob, os, subprocess, tempfile
root = os.path.dirname(os.path.dirname(os.path.abspath(__file__)))
mods, names = [], []
for f in sorted(glob.glob(root + '/rocq/theories/P_*.v')):
    mods.append(os.path.basename(f)[:-2]); names += re.findall(r'^ *Theorem (C\d\d\w*)', open(f).read(), re.M)
d = tempfile.mkdtemp(); q = d + '/q.v'
open(q, 'w').write('From Verif Require Import ' + ' '.join(mods) + '.\n' + ''.join('Print Assumptions %s.\n' % x for x in names))
out = subprocess.run(['coqc', '-q', '-Q', root + '/rocq/theories', 'Verif', q], capture_output=True, text=True).stdout
ans = []
for l in out.split('\n'):
    if l.startswith('Closed under'): ans.append(set())
    elif l.startswith('Axioms:'): ans.append(set())
    else:
        m = re.match(r'^([A-Za-z_][\w.\']*)\s*(?::|$)', l)
        if m: ans[-1].add(m.group(1))
assert len(ans) == len(names), (len(ans), len(names))
groups = {}
for n, a in zip(names, ans): groups.setdefault(tuple(sorted(a)), []).append(n)
t = '`tools/axioms.py` writes this section from `Print Assumptions` of every theorem.\n' + \
    'A listing of sealed constants instead of axioms (as vcheck makes) also shows those of the sealed modules of the standard library\nthat the theorems over the reals pass through (Coq.Reals.Rdefinitions, Coq.ssr.ssrunder).\n'
for a, ns in sorted(groups.items(), key=lambda x: len(x[0])):
    t += '\n' + ('Closed under the global context (no axioms), %d theorems:' % len(ns) if not a else
                 '%s (all from the standard library: Coq.Reals, Coq.Logic), %d theorems:' % (', '.join('`%s`' % x for x in a), len(ns))) + '\n'
    t += ', '.join(ns) + '.\n'
s = open(root + '/DESIGN.md').read()
i = s.index('## 5. Axioms'); j = s.index('## 6. ')
open(root + '/DESIGN.md', 'w').write(s[:i] + '## 5. Axioms\n\n' + t + '\n' + s[j:])
