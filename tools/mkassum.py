#!/usr/bin/env python3
"""Rewrite ASSUMPTIONS.md: what Print Assumptions lists for each property
theorem.  Needs a finished build in rocq/; re-runs coqc on copies of Props_*.v."""
import os, re, subprocess, tempfile
from multiprocessing.pool import ThreadPool
v = os.path.join(os.path.dirname(os.path.abspath(__file__)), '..')
th = os.path.join(v, 'rocq', 'theories')
names = [('D', 'sig_forall_dec'), ('N', 'sig_not_dec'), ('F', 'functional_extensionality_dep'), ('C', 'classic')]
rows = {}
d = tempfile.mkdtemp()
def one(f):
    src = open(os.path.join(th, f)).read()
    open(os.path.join(d, f), 'w').write(src)
    out = subprocess.run(['coqc', '-Q', th, 'Verif', f], cwd=d, capture_output=True, text=True).stdout
    return f, re.findall(r'Print Assumptions (\w+)\.', src), out
fs = sorted(f for f in os.listdir(th) if f.startswith('Props_') and f.endswith('.v'))
for f, asked, out in ThreadPool(4).map(one, fs):
    parts = re.split(r'^(?=Axioms:|Closed under the global context)', out, flags=re.M)
    parts = [p for p in parts if p.startswith(('Axioms:', 'Closed'))]
    assert len(parts) == len(asked), (f, len(parts), len(asked))
    for t, p in zip(asked, parts):
        ax = re.findall(r'^([\w.]+)(?= *:| *$)', p, flags=re.M)
        ax = [a for a in ax if a not in ('Axioms', 'Closed')]
        key = ''
        for k, n in names:
            if any(a.split('.')[-1] == n for a in ax):
                key += k
        rest = [a for a in ax if a.split('.')[-1] not in [n for _, n in names]]
        rest = [a for a in rest if '.' in a]
        rows.setdefault(key + (' ' + ' '.join(rest) if rest else ''), []).append(t)
o = ['# What `Print Assumptions` lists', '',
     'Generated by `tools/mkassum.py` from the `Print Assumptions` command that follows',
     'each theorem in `rocq/theories/Props_*.v`.', '',
     '* D: `ClassicalDedekindReals.sig_forall_dec`', '* N: `ClassicalDedekindReals.sig_not_dec`',
     '* F: `FunctionalExtensionality.functional_extensionality_dep`', '* C: `Classical_Prop.classic`', '']
for k in sorted(rows, key=lambda k: (len(k), k)):
    o += ['## ' + (k or 'no axiom (closed under the global context)'), '', ', '.join('`%s`' % t for t in sorted(rows[k])), '']
open(os.path.join(v, 'ASSUMPTIONS.md'), 'w').write('\n'.join(o))
