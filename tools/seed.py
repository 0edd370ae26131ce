#!/usr/bin/env python3
"""Seeded-bug tests.  seed.py FILE.py: FILE.py defines MUTS = [(id, model file, definition, old text, new text, claim broken)].
Each one is applied in a scratch copy of rocq/, which is rebuilt; a proof that no longer goes through is replaced by Admitted
so that the build goes on, and Print Assumptions then tells which Cnn_ theorems rest on a failed proof."""
import sys, os, re, subprocess, shutil, json, glob, time
ROOT = os.environ.get('SEEDROOT', '/verif/rocq'); BASE = '/tmp/scratch/%d' % os.getpid(); SCR = BASE + '/rocq'
def sh(c, cwd=None, t=600):
    cwd = cwd or SCR
    try:
        p = subprocess.run(c, shell=True, cwd=cwd, capture_output=True, text=True, timeout=t)
        return p.returncode, p.stdout + p.stderr
    except subprocess.TimeoutExpired as e:
        return 124, ''
def deps():
    _, o = sh('coqdep -f _CoqProject -sort 2>/dev/null || true')
    order = [os.path.basename(x)[:-2] for x in o.split() if x.endswith('.v')]
    d = {}
    for f in glob.glob(SCR + '/theories/*.v'):
        n = os.path.basename(f)[:-2]; s = open(f).read()
        d[n] = set(re.findall(r'\b([A-Z]\w*)', ' '.join(re.findall(r'From Verif Require (?:Import |Export )?([^.]*)\.', s))))
    return order, d
def sentence_end(s, i):
    return i
def admit_at(f, line):
    """Replace the proof around the line by Admitted; returns the name or None."""
    L = open(f).read().split('\n')
    i = min(line - 1, len(L) - 1)
    st = re.compile(r'^\s*(?:#\[\w+\] )?(?:Local |Global )?(Theorem|Lemma|Example|Corollary|Fact|Remark|Instance|Definition|Program Definition)\s+(\w+)')
    j = i
    while j >= 0 and not st.match(L[j]): j -= 1
    if j < 0: return None
    name = st.match(L[j]).group(2)
    # find Proof start at or after j, and Qed/Defined end
    p = j
    while p < len(L) and not re.search(r'\bProof\b', L[p]): p += 1
    q = p
    while q < len(L) and not re.search(r'\b(Qed|Defined)\.', L[q]): q += 1
    if p >= len(L) or q >= len(L) or p > i + 0 and i < j: return None
    if i > q: return None
    if i < p and not (i >= j): return None
    head = L[p][:L[p].index('Proof')]
    if i < p or (i == p and False):
        pass
    tail = L[q][re.search(r'\b(Qed|Defined)\.', L[q]).end():]
    L[p:q+1] = [head + 'Proof. Admitted.' + tail]
    open(f, 'w').write('\n'.join(L))
    return name
def run(mid, mf, defn, old, new, claim):
    if os.path.exists(BASE): shutil.rmtree(BASE)
    shutil.copytree(ROOT, SCR)
    path = f'{SCR}/theories/{mf}.v'
    s = open(path).read()
    if s.count(old) != 1: return {'id': mid, 'error': f'old text occurs {s.count(old)} times'}
    open(path, 'w').write(s.replace(old, new))
    order, d = deps()
    dirty = set(); failed_lemmas = []
    need = set(order)
    if os.environ.get('SEEDSCOPE'):   # only what the theorems of the claimed property rest on
        c = re.match(r'C\d\d', claim).group(0); need = set()
        todo = [n for n in order if n.startswith('P_') and re.search(r'^ *Theorem ' + c + '_', open(f'{SCR}/theories/{n}.v').read(), re.M)]
        while todo:
            n = todo.pop()
            if n not in need: need.add(n); todo += [x for x in d.get(n, ()) if x in d]
    for n in order:
        if n not in need or not (n == mf or d[n] & dirty): continue
        dirty.add(n); f = f'{SCR}/theories/{n}.v'
        for _ in range(60):
            rc, o = sh(f'ulimit -v 5000000; timeout 300 coqc -q -Q theories Verif theories/{n}.v')
            if rc == 0: break
            m = re.search(r'line (\d+), characters[^\n]*\n(?:[^\n]*\n)?Error', o) or re.search(r'line (\d+), characters', o)
            if not m: return {'id': mid, 'error': f'{n}: rc {rc} {o[-300:]}'}
            name = admit_at(f, int(m.group(1)))
            if not name or 'Universe' in o and False: return {'id': mid, 'error': f'{n}: ' + o[-400:]}
            if (n, name) in failed_lemmas: return {'id': mid, 'error': f'{n}: ' + o[-400:]}
            failed_lemmas.append((n, name))
        else: return {'id': mid, 'error': f'{n}: too many failures'}
    ps = [n for n in order if n.startswith('P_') and n in dirty]
    names = []
    for n in ps: names += re.findall(r'^ *(?:Theorem|Example) (C\d\d\w*)', open(f'{SCR}/theories/{n}.v').read(), re.M)
    t = BASE + '/q.v'
    open(t, 'w').write('From Verif Require Import ' + ' '.join(ps) + '.\n' + ''.join(f'Print Assumptions {x}.\n' for x in names)) if ps else None
    bad = []
    if ps:
        rc, o = sh(f'coqc -q -Q theories Verif {t}')
        ans = []
        for l in o.split('\n'):
            if l.startswith('Closed under') or l.startswith('Axioms:'): ans.append(set())
            elif ans and re.match(r"[\w.']+", l): ans[-1].add(re.match(r"[\w.']+", l).group(0).split('.')[-1])
        if len(ans) != len(names): return {'id': mid, 'error': o[-300:]}
        gone = set(b for a, b in failed_lemmas)
        bad = [x for x, l in zip(names, ans) if l & gone or x in gone]
        if rc != 0 and not bad: return {'id': mid, 'error': o[-300:]}
    return {'id': mid, 'definition': f'{mf}.{defn}', 'edit': f'{old}  =>  {new}', 'breaks': claim,
            'theorems_failed': [x for x in bad if not x.endswith('_case')], 'examples_failed': [x for x in bad if '_case' in x], 'proofs_failed': [b for a, b in failed_lemmas][:12],
            'theorems_tightened': []}
def job(m):
    global BASE, SCR
    BASE = '/tmp/scratch/%s' % m[0]; SCR = BASE + '/rocq'
    t0 = time.time(); r = run(*m); r['seconds'] = round(time.time() - t0)
    shutil.rmtree(BASE, ignore_errors=True)
    return r
if __name__ == '__main__':
    from multiprocessing import Pool
    g = {}; exec(open(sys.argv[1]).read(), g)
    only = sys.argv[2:]
    with Pool(int(os.environ.get('SEEDJOBS', '4'))) as pool:
        for r in pool.imap(job, [m for m in g['MUTS'] if not only or m[0] in only]):
            print(json.dumps(r), flush=True)
